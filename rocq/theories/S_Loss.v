(** Specifications for the loss and the metrics. *)
From Coq Require Import Reals.
From Verif Require Import Base Sums M_Im2col M_Kernels M_Conv M_Layers M_Loss S_Grad.
Open Scope R_scope.

(** A CrossEntropyLoss object: new, or used before. *)
Definition ce_ok (st : ce) : Prop := ce_sh st = [] \/ length (ce_dat st) = prodN (ce_sh st).

(** The entries of [target] are labels [c 0 .. c (n-1)] of [m] classes. *)
Definition labels (n m : nat) (target : ten) (c : nat -> nat) : Prop :=
  ten_ok [n; 1%nat] target /\ (Z.of_nat m <= int_max)%Z /\
  forall i, (i < n)%nat -> (c i < m)%nat /\ (tdat target).[i] = INR (c i).

(** Column [c] holds the maximum of row [i]. *)
Definition max_col (m : nat) (d : list R) (i c : nat) : Prop :=
  (c < m)%nat /\ forall k, (k < m)%nat -> d.[i * m + k] <= d.[i * m + c].

(** [v] is the share of the [n] rows for which [P] holds. *)
Definition share (n : nat) (P : nat -> Prop) (v : R) : Prop :=
  exists rows, NoDup rows /\ (forall i, In i rows <-> (i < n)%nat /\ P i) /\ v = INR (length rows) / INR n.
