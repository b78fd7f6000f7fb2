(** Vocabulary for statements about rounded arithmetic. *)
From Coq Require Import Reals.
From Verif Require Import Base Sums M_Im2col M_Kernels M_Layers M_Optim M_Nn M_Graph M_Model M_Backend S_Grad S_Graph S_Run S_Float M_Round.
Open Scope nat_scope.

(** No division by zero: Dropout does not drop everything, batch normalisation has a positive [eps] and,
    in evaluation mode, running variances that it makes positive. *)
Definition regular (L : layer) : Prop :=
  match L with
  | LDropout p mask => p_train mask = true -> p <> 1%R
  | LBN1 eps _ gamma _ _ _ rv _ | LBN2 eps _ gamma _ _ _ rv _ _ _ =>
      (0 < eps)%R /\ (p_train gamma = false -> forall j, j < tot rv -> (0 < (tdat rv).[j] + eps)%R)
  | _ => True
  end.

(** Elements differ by at most [e]. *)
Definition within (e : R) (t t' : ten) : Prop :=
  tsh t = tsh t' /\ forall i, i < tot t -> (Rabs ((tdat t').[i] - (tdat t).[i]) <= e)%R.

(** [V] gives every placeholder a value that evaluating the expression from the inputs up in rounded
    arithmetic may give it (compare [evaluation] in S_Run). *)
Definition rounded_evaluation (u eta : R) (ps : list phnode) (ins outs : list nat) (tins : list ten)
                              (E : nat -> env) (layer_of : nat -> layer -> Prop) (V : nat -> ten) : Prop :=
  Forall2 (fun d t => V d = t) ins tins /\
  forall d args, needed ps outs d -> call ps d args ->
    exists L, layer_of d L /\ rcomputes u eta (E d) L (map V args) (dims ps d) (V d).

(** Column [k] is the only largest of row [i] of a matrix with [m] columns. *)
Definition only_largest (m : nat) (t : ten) (i k : nat) : Prop :=
  k < m /\ forall j, j < m -> j <> k -> ((tdat t).[i * m + j] < (tdat t).[i * m + k])%R.

(** A bound on the error of [b + x_1 w_1 + ... + x_K w_K]: [A] is the sum of the [|x_k| |w_k|], [B] that of the
    [|w_k|], [c] is [|b|], and the [x_k] are known up to [e]. *)
Definition affine_error (u eta e : R) (K : nat) (A B c : R) : R :=
  (((1 + u) ^ (K + 1) - 1) * (A + c) + (1 + u) ^ (K + 1) * (e * B) + INR (2 * K + 1) * (1 + u) ^ (K + 1) * eta)%R.

(** [y] is a finite 32-bit float (see [float32] in S_Float) nearest to [x]. *)
Definition nearest_float (x y : R) : Prop :=
  exists m, float32 m /\ y = (IZR m / 2 ^ 149)%R /\ forall z, float32 z -> (Rabs (y - x) <= Rabs (IZR z / 2 ^ 149 - x))%R.
