(** Vocabulary for statements about training a classifier that is one Linear layer with Softmax. *)
From Coq Require Import Reals.
From Verif Require Import Base Sums M_Im2col M_Kernels M_Conv M_Layers M_Loss S_Grad S_Loss.
Open Scope R_scope.

(** A batch of samples with [K] features and labels of [U] classes; all samples have norm at most [A]. *)
Definition batch_ok (U K : nat) (A : R) (xt : ten * ten) : Prop :=
  exists n c, (0 < n)%nat /\ ten_ok [n; K] (fst xt) /\ labels n U (snd xt) c /\
  forall i, (i < n)%nat -> rsum K (fun k => (tdat (fst xt)).[i * K + k] * (tdat (fst xt)).[i * K + k]) <= A * A.
(** Square of the distance between two choices of weights and biases. *)
Definition distance2 (U K : nat) (W b V d : prm) : R :=
  rsum U (fun j => ((tdat (p_data b)).[j] - (tdat (p_data d)).[j]) ^ 2 +
    rsum K (fun k => ((tdat (p_data W)).[j * K + k] - (tdat (p_data V)).[j * K + k]) ^ 2)).

(** Score of class [j] for sample [i]: its bias plus the inner product of its weights with the sample. *)
Definition score (K : nat) (V d : prm) (x : ten) (i j : nat) : R :=
  (tdat (p_data d)).[j] + rsum K (fun k => (tdat x).[i * K + k] * (tdat (p_data V)).[j * K + k]).
(** The class of every sample has a score above those of all other classes. *)
Definition separates (U K : nat) (V d : prm) (x target : ten) : Prop :=
  forall i c j, (i < tot target)%nat -> (c < U)%nat -> (j < U)%nat -> j <> c -> (tdat target).[i] = INR c ->
  score K V d x i j < score K V d x i c.
(** The same with a margin of at least [m]. *)
Definition separates_by (m : R) (U K : nat) (V d : prm) (x target : ten) : Prop :=
  forall i c j, (i < tot target)%nat -> (c < U)%nat -> (j < U)%nat -> j <> c -> (tdat target).[i] = INR c ->
  score K V d x i j + m <= score K V d x i c.
(** Number of elements other than 1. *)
Definition below_one (l : list R) : nat := length (filter (fun a => if Req_EM_T a 1 then false else true) l).
