(** Vocabulary for statements about overflow, infinities and NaN. *)
From Coq Require Import Reals.
From Verif Require Import Base Sums M_Im2col S_Im2col M_Kernels M_Conv M_Layers M_Optim M_Nn M_Graph M_Model M_Backend S_Grad S_Graph S_Run M_Round S_Round M_Ieee.
Open Scope R_scope.

(** What is required of the library's exp: results are floats, not negative, at most 2 for arguments up to
    zero and at least 1/2 for others, and infinite at most for positive arguments. *)
Definition exp_ok (lib : flt -> flt -> Prop) : Prop :=
  forall a r, lib a r ->
  match a with
  | Fin x => (exists y, r = Fin y /\ isf y /\ 0 <= y /\ (x <= 0 -> y <= 2) /\ (0 <= x -> / 2 <= y)) \/ (0 < x /\ r = Inf false)
  | Inf true => exists y, r = Fin y /\ isf y /\ 0 <= y <= 2
  | Inf false => r = Inf false \/ exists y, r = Fin y /\ isf y /\ / 2 <= y
  | NaN => True
  end.
(** Between -65 and 65 it is finite and has relative error [u] and absolute error [eta]. *)
Definition exp_near (u eta : R) (lib : flt -> flt -> Prop) : Prop :=
  forall x r, Rabs x <= 65 -> lib (Fin x) r -> exists y, r = Fin y /\ near u eta (exp x) y.

(** The relative error of one rounding, and the absolute error of small results. *)
Definition eps32 : R := / 2 ^ 23.
Definition tiny32 : R := / 2 ^ 149.
(** Bounds on the results when the exact results are bounded: of one operation, of a sum of [n] numbers whose
    absolute values add up to [A], of [K] products plus a number [c], the absolute values of the products adding up to [A]. *)
Definition grown (x : R) : R := (1 + eps32) * x + tiny32.
Definition sum_grown (n : nat) (A : R) : R := (1 + eps32) ^ (n - 1) * A + INR (n - 1) * (1 + eps32) ^ (n - 1) * tiny32.
Definition affine_grown (K : nat) (A c : R) : R := (1 + eps32) ^ (K + 1) * (A + c) + INR (2 * K + 1) * (1 + eps32) ^ (K + 1) * tiny32.
Definition mean_grown (n : nat) (B : R) : R := grown (sum_grown n (INR n * B) / INR n).

(** Batch normalisation of values up to [B0] with these numbers gives values up to [B]; [s] is a number below the
    standard deviations. *)
Definition norm_bounded (training : bool) (n : nat) (eps g b mu var B0 B : R) : Prop :=
  exists s, isf s /\ isf (s * s) /\ 0 < s /\ Rabs g / s <= top /\
  let C := grown (B0 + if training then mean_grown n B0 else Rabs mu) in
  C <= top /\ grown (C * grown (Rabs g / s)) <= top /\ grown (grown (C * grown (Rabs g / s)) + Rabs b) <= B /\
  if training then
    (0 < n)%nat /\ (n <= 2 ^ 24)%nat /\ s * s <= eps /\ sum_grown n (INR n * B0) <= top /\ grown (C * C) <= top /\
    sum_grown n (INR n * grown (C * C)) <= top /\ mean_grown n (grown (C * C)) + eps <= top
  else s * s <= var + eps <= top.

(** Inputs up to the numbers [Bs] make outputs up to [B]. *)
Definition bounded_by (L : layer) (inshs : list (list nat)) (osh : list nat) (Bs : list R) (B : R) : Prop :=
  let B0 := Bs.[0] in
  match L, inshs, osh with
  | LReLU, _, _ => B0 <= B
  | LSigmoid, _, _ => 1 <= B
  | LSoftmax, _, [_; m] => (m <= 2 ^ 23)%nat /\ 1 <= B
  | LLeaky a, _, _ => B0 <= B /\ grown (B0 * Rabs a) <= B
  | LELU a, _, _ => B0 <= B /\ grown (Rabs a) <= B
  | LAdd, _, _ => grown (B0 + Bs.[1]) <= B
  | LGap, [[_; _; h; w]], _ => (0 < h * w <= 2 ^ 24)%nat /\ sum_grown (h * w) (INR (h * w) * B0) <= top /\ mean_grown (h * w) B0 <= B
  | LLinear W b, [_ :: rest], [_; m] =>
      forall j, (j < m)%nat -> affine_grown (prodN rest) (B0 * rsum (prodN rest) (fun k => Rabs (tdat (p_data W)).[j * prodN rest + k])) (Rabs (tdat (p_data b)).[j]) <= B
  | LConv g W b _, [[_; cin; h; w]], [_; cout; _; _] =>
      let K := (cin * KH g * KW g)%nat in
      forall o, (o < cout)%nat -> affine_grown K (B0 * rsum K (fun k => Rabs (tdat (p_data W)).[o * K + k])) (Rabs (tdat (p_data b)).[o]) <= B
  | LMaxPool _ _ _, _, _ => B0 <= B /\ Rabs flt_min <= B
  | LDropout q mask, _, _ =>
      if p_train mask then exists c, isf c /\ 0 < c <= 1 - q /\ 1 - q <= top /\ grown (B0 / c) <= B else B0 <= B
  | LBN1 eps _ gamma beta _ rm rv _, [[n; m]], _ =>
      forall j, (j < m)%nat -> norm_bounded (p_train gamma) n eps (tdat (p_data gamma)).[j] (tdat (p_data beta)).[j] (tdat rm).[j] (tdat rv).[j] B0 B
  | LBN2 eps _ gamma beta _ rm rv _ _ _, [[N; C; H; W]], _ =>
      forall j, (j < C)%nat -> norm_bounded (p_train gamma) (N * H * W) eps (tdat (p_data gamma)).[j] (tdat (p_data beta)).[j] (tdat rm).[j] (tdat rv).[j] B0 B
  | _, _, _ => False
  end.

(** Layers that compute an exponential of their input. *)
Definition exponential (L : layer) : bool := match L with LSigmoid | LSoftmax | LELU _ => true | _ => false end.

(** The elements of [t] are at most [B]. *)
Definition up_to (B : R) (t : ten) : Prop := forall i, (i < tot t)%nat -> Rabs (tdat t).[i] <= B.

(** [V] gives every placeholder a value that evaluating the expression from the inputs up with floats may give
    it (compare [evaluation] in S_Run). *)
Definition float_evaluation (lib : flt -> flt -> Prop) (ps : list phnode) (ins outs : list nat) (tins : list ten)
                            (E : nat -> env) (layer_of : nat -> layer -> Prop) (V : nat -> ften) : Prop :=
  Forall2 (fun d t => V d = lift t) ins tins /\
  forall d args, needed ps outs d -> call ps d args ->
    exists L, layer_of d L /\ fcomputes lib (E d) L (map V args) (dims ps d) (V d).

(** What is required of the library's log: of floats up to 1, and of zero. *)
Definition log_ok (lg : flt -> flt -> Prop) : Prop :=
  forall x r, lg (Fin x) r ->
    (isf x -> 0 < x <= 1 -> exists y, r = Fin y /\ - (104) <= y <= 0) /\ (x = 0 -> r = Inf true).
(** exp gives zero where exact results are below half the smallest float. *)
Definition exp_underflows (lib : flt -> flt -> Prop) : Prop :=
  (forall x r, x <= - (104) -> lib (Fin x) r -> r = Fin 0) /\ forall r, lib (Inf true) r -> r = Fin 0.

(** The elements of the given arrays of exact numbers. *)
Definition arrays (ls : list (list R)) (a i : nat) : R := (nth a ls nil).[i].

(** Absolute error of the library's log on floats up to 1. *)
Definition log_near (e : R) (lg : flt -> flt -> Prop) : Prop :=
  forall x r, isf x -> 0 < x <= 1 -> lg (Fin x) r -> exists y, r = Fin y /\ Rabs (y - ln x) <= e.
(** Relative error of a sum of [n] floats. *)
Definition sum_error (n : nat) : R := (1 + eps32) ^ n - 1.

(** ** Multilayer perceptrons *)
(** A finite float as a number. *)
Definition fval (f : flt) : R := match f with Fin x => x | _ => 0 end.
(** Inputs up to [B], weights and bias up to [Wb]. *)
Definition stage_ok (rows : nat) (B Wb : R) (s : stage) : Prop :=
  (forall p, (p < rows * s_in s)%nat -> s_x s p = Fin (fval (s_x s p)) /\ Rabs (fval (s_x s p)) <= B) /\
  (forall p, (p < s_out s * s_in s)%nat -> s_w s p = Fin (fval (s_w s p)) /\ Rabs (fval (s_w s p)) <= Wb) /\
  (forall p, (p < s_out s)%nat -> s_b s p = Fin (fval (s_b s p)) /\ Rabs (fval (s_b s p)) <= Wb).

(** The exact gradient, by the chain rule, of the output of layer [k] of the list, when it is [g] for the first of
    the list. *)
Fixpoint grad_at (g : nat -> R) (l : list stage) (k : nat) : nat -> R :=
  match k, l with
  | S k', s :: t =>
      grad_at (fun p => if flt_ltb (Fin 0) (s_pre s p)
                        then rsum (s_out s) (fun j => g (p / s_in s * s_out s + j)%nat * fval (s_w s (j * s_in s + p mod s_in s)%nat)) else 0) t k'
  | _, _ => g
  end.
(** The error of a sum of [n] products after [c] additions: the products are of numbers up to [F] with error [e] and numbers
    up to [B] without. *)
Definition dot_error (n c : nat) (F e B : R) : R :=
  INR n * (e * B + eps32 * (F * B) + tiny32) + sum_error c * (INR n * grown (F * B)) + INR c * (1 + eps32) ^ c * tiny32.
(** How large the gradient at layer [k] can be, and its error, if it is at most [F] with error [e] at the first. *)
Fixpoint grad_size (Wb F : R) (l : list stage) (k : nat) : R :=
  match k, l with
  | S k', s :: t => grad_size Wb (sum_grown (S (s_out s)) (INR (s_out s) * grown (F * Wb))) t k'
  | _, _ => F
  end.
Fixpoint grad_error (Wb F e : R) (l : list stage) (k : nat) : R :=
  match k, l with
  | S k', s :: t => grad_error Wb (sum_grown (S (s_out s)) (INR (s_out s) * grown (F * Wb))) (dot_error (s_out s) (s_out s) F e Wb) t k'
  | _, _ => e
  end.
(** The error of a parameter up to [Wb] after the step, its gradient being at most [D] with error [E]. *)
Definition step_error (lr Wb D E : R) : R := Rabs lr * E + (eps32 * (Rabs lr * D) + tiny32) + (eps32 * (Wb + grown (Rabs lr * D)) + tiny32).
