(** Vocabulary for statements about the sample programs in mode "test". *)
From Coq Require Import Reals String.
From Verif Require Import Base M_Layers M_DataLoader S_Loss S_Sample.
Open Scope nat_scope.

(** [acc] is the share of the first samples of the test set (as many as fill batches of [n]) whose label has the
    highest of the [scores]; nothing if there is no full batch. *)
Definition measured {D} (ds : dataset R D) (n c : nat) (label : Z -> nat) (scores : Z -> list R) (acc : option R) : Prop :=
  match full ds n with
  | O => acc = None
  | S _ => exists best v, (forall j, j < full ds n * n -> max_col c (scores (Z.of_nat j)) 0 (best j)) /\ acc = Some v /\
                          share (full ds n * n) (fun j => best j = label (Z.of_nat j)) v
  end.

(** For each of the first [k] samples one class has a higher score than all others. *)
Definition decided (k c : nat) (scores : Z -> list R) : Prop :=
  forall j a b, j < k -> max_col c (scores (Z.of_nat j)) 0 a -> max_col c (scores (Z.of_nat j)) 0 b -> a = b.
