(** Vocabulary for statements about the size of Adam's steps. *)
From Coq Require Import Reals List.
From Verif Require Import Base S_Optim.
Open Scope R_scope.

(** How far step number [t] can move a weight, as a multiple of the learning rate, and a bound for all [t]. *)
Definition adam_factor (b1 b2 : R) (t : nat) : R := (1 - b1) / (1 - b1 ^ t) * sqrt ((1 - b2 ^ t) / ((1 - b2) * (1 - b1 * b1 / b2))).
Definition adam_limit (b1 b2 : R) : R := / sqrt ((1 - b2) * (1 - b1 * b1 / b2)).

(** The same history with all gradients multiplied by [c]. *)
Definition rescaled (c : R) (e e' : event) : Prop :=
  match e, e' with
  | EStep g tr, EStep g' tr' => (forall k, g' k = map (Rmult c) (g k)) /\ (forall k, tr' k = tr k)
  | ELr r, ELr r' => r' = r
  | _, _ => False
  end.
