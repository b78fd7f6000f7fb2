(** Mean and variance of finitely many numbers. *)
From Coq Require Import Reals Lra.
From Verif Require Import Base Sums.
Open Scope R_scope.

Definition mean (n : nat) (f : nat -> R) : R := rsum n f / INR n.
Definition variance (n : nat) (f : nat -> R) : R := rsum n (fun i => (f i - mean n f) ^ 2) / INR n.

(** The same over a batch of planes. *)
Definition mean3 (a b c : nat) (f : nat -> nat -> nat -> R) : R :=
  rsum a (fun i => rsum b (fun j => rsum c (fun k => f i j k))) / INR (a * b * c).
Definition variance3 (a b c : nat) (f : nat -> nat -> nat -> R) : R :=
  rsum a (fun i => rsum b (fun j => rsum c (fun k => (f i j k - mean3 a b c f) ^ 2))) / INR (a * b * c).
