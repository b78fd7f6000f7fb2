(** Vocabulary for statements about optimizers in floats. *)
From Coq Require Import Reals.
From Verif Require Import Base M_Round M_Ieee S_Ieee M_IeeeOpt.
Open Scope R_scope.

(** Infinite or NaN. *)
Definition lost (f : flt) : Prop := match f with Fin _ => False | _ => True end.
(** [n] finite floats up to [B]. *)
Definition finite_up_to (B : R) (n : nat) (f : nat -> flt) : Prop := forall p, (p < n)%nat -> exists x, f p = Fin x /\ isf x /\ Rabs x <= B.
(** c * x + d * y stays at most [X] in floats when x is, and y is at most [Y]. *)
Definition settles (c d Y X : R) : Prop :=
  Rabs c * X <= top /\ Rabs d * Y <= top /\ grown (Rabs c * X) + grown (Rabs d * Y) <= top /\ grown (grown (Rabs c * X) + grown (Rabs d * Y)) <= X.
(** A bound on what started below [W] after [k] subtractions of numbers up to [D]. *)
Fixpoint drifted (W D : R) (k : nat) : R := match k with O => W | S k' => grown (drifted W D k' + D) end.
(** Error of the new velocity, velocities and gradients being at most [V] and [G]. *)
Definition velocity_error (gamma lr V G : R) : R :=
  (eps32 * (Rabs gamma * V) + tiny32) + (eps32 * (Rabs lr * G) + tiny32) + (eps32 * (grown (Rabs gamma * V) + grown (Rabs lr * G)) + tiny32).

(** Error of Adam's new variance. *)
Definition variance_error (b2 V G : R) : R := velocity_error b2 (1 - b2) V (grown (G * G)) + Rabs (1 - b2) * (eps32 * (G * G) + tiny32).
Definition nonneg (n : nat) (f : nat -> flt) : Prop := forall p, (p < n)%nat -> 0 <= fval (f p).
(** Adam's numbers 1 - pow(beta, t) lie between [c] and 1. *)
Definition correction (c : R) (f : flt) : Prop := exists x, f = Fin x /\ c <= x <= 1.
(** Adam's moving means stay at most [M] for gradients up to [G], and what the step is made of does not overflow. *)
Definition mean_room (lr b1 c G M : R) : Prop :=
  exists o1, (forall r, fsub (Fin 1) (Fin b1) r -> r = Fin o1) /\ settles b1 o1 G M /\ 0 < c /\ M / c <= top /\ Rabs lr * grown (M / c) <= top.
(** How much Adam changes a parameter at most, the means being at most [M]: with [c] the least correction. *)
Definition adam_change (lr eps c M : R) : R := grown (grown (Rabs lr * grown (M / c)) / eps).
(** Room for the moving variances too, which stay at most [V]. *)
Definition adam_room (lr b1 b2 eps c G M V : R) : Prop :=
  mean_room lr b1 c G M /\ 0 <= b2 /\ 0 < eps /\ isf eps /\ G * G <= top /\
  (exists o2, (forall r, fsub (Fin 1) (Fin b2) r -> r = Fin o2) /\ settles b2 o2 (grown (G * G)) V /\ 0 <= o2) /\
  V / c <= top /\ grown (V / c) <= top /\ grown (sqrt (grown (V / c))) + eps <= top /\ grown (Rabs lr * grown (M / c)) / eps <= top.
