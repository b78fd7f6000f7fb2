(** The optimizers with momentum in floats: the steps of M_Optim with the arithmetic of M_Ieee (SGD is there). *)
From Coq Require Import Reals.
From Verif Require Import Base M_Round M_Ieee.
Open Scope R_scope.

(** optimizer.cpp:60-62; variables: 0 the parameter, 1 its gradient, 2 the velocity, old and then new. *)
Definition momentum_v_ex (gamma lr : R) (p : nat) : ex := EAdd (EMul (EConst gamma) (EVar 2 p)) (EMul (EConst lr) (EVar 1 p)).
Definition momentum_w_ex (p : nat) : ex := ESub (EVar 0 p) (EVar 2 p).
(** optimizer.cpp:46-65 for a parameter with [n] elements: weights [w], gradients [g], velocities [v] before the step,
    [w'] and [v'] after it. *)
Definition fmomentum (lib : flt -> flt -> Prop) (gamma lr : R) (n : nat) (w g v w' v' : nat -> flt) : Prop :=
  (forall p, (p < n)%nat -> fev lib (among [w; g; v]) (momentum_v_ex gamma lr p) (v' p)) /\
  (forall p, (p < n)%nat -> fev lib (among [w; g; v']) (momentum_w_ex p) (w' p)).

(** optimizer.cpp:103-104, 106-107; variables: 0 the old moving mean or variance, 1 the gradient, 2 the float 1 - beta. *)
Definition adam_m_ex (beta : R) (p : nat) : ex := EAdd (EMul (EConst beta) (EVar 0 p)) (EMul (EVar 2 0) (EVar 1 p)).
Definition adam_v_ex (beta : R) (p : nat) : ex := EAdd (EMul (EConst beta) (EVar 0 p)) (EMul (EVar 2 0) (EMul (EVar 1 p) (EVar 1 p))).
(** optimizer.cpp:109-112; variables: 0 the parameter, 1 the new mean, 2 the new variance, 3 and 4 the numbers
    1 - pow(beta, t) that they are divided by. *)
Definition adam_w_ex (lr eps : R) (p : nat) : ex :=
  ESub (EVar 0 p) (EDiv (EMul (EConst lr) (EDiv (EVar 1 p) (EVar 3 0))) (EAdd (ESqrt (EDiv (EVar 2 p) (EVar 4 0))) (EConst eps))).
(** optimizer.cpp:86-115.  Simplification: std::pow of a float and an integer computes in double, and Eigen converts the
    difference to float; [c1] and [c2] are the results, whatever they are. *)
Definition fadam (lib : flt -> flt -> Prop) (lr b1 b2 eps : R) (c1 c2 : flt) (n : nat) (w g m v w' m' v' : nat -> flt) : Prop :=
  exists o1 o2, fsub (Fin 1) (Fin b1) o1 /\ fsub (Fin 1) (Fin b2) o2 /\
    (forall p, (p < n)%nat -> fev lib (among [m; g; fun _ => o1]) (adam_m_ex b1 p) (m' p)) /\
    (forall p, (p < n)%nat -> fev lib (among [v; g; fun _ => o2]) (adam_v_ex b2 p) (v' p)) /\
    (forall p, (p < n)%nat -> fev lib (among [w; m'; v'; fun _ => c1; fun _ => c2]) (adam_w_ex lr eps p) (w' p)).

(** Several steps, one for each of the gradients; [cs]: the numbers the moments are divided by in each of them. *)
Fixpoint fsgds (lib : flt -> flt -> Prop) (lr : R) (n : nat) (gs : list (nat -> flt)) (w w' : nat -> flt) : Prop :=
  match gs with
  | [] => w' = w
  | g :: t => exists w1, (forall p, (p < n)%nat -> fev lib (among [w; g]) (sgd_ex lr p) (w1 p)) /\ fsgds lib lr n t w1 w'
  end.
Fixpoint fmomentums (lib : flt -> flt -> Prop) (gamma lr : R) (n : nat) (gs : list (nat -> flt)) (w v w' v' : nat -> flt) : Prop :=
  match gs with
  | [] => w' = w /\ v' = v
  | g :: t => exists w1 v1, fmomentum lib gamma lr n w g v w1 v1 /\ fmomentums lib gamma lr n t w1 v1 w' v'
  end.
Fixpoint fadams (lib : flt -> flt -> Prop) (lr b1 b2 eps : R) (n : nat) (cs : list (flt * flt)) (gs : list (nat -> flt)) (w m v w' m' v' : nat -> flt) : Prop :=
  match gs, cs with
  | [], [] => w' = w /\ m' = m /\ v' = v
  | g :: t, c :: d => exists w1 m1 v1, fadam lib lr b1 b2 eps (fst c) (snd c) n w g m v w1 m1 v1 /\ fadams lib lr b1 b2 eps n d t w1 m1 v1 w' m' v'
  | _, _ => False
  end.
