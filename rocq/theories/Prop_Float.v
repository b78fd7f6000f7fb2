(** Property C52: integers kept in 32-bit floats. *)
From Verif Require Import Base M_Float S_Float P_Float.
Open Scope Z_scope.

(** The rounding used by the model is rounding to nearest, ties to even. *)
Theorem C52_rounding :
  forall (x : Z), Z.abs x < 2 ^ 276 -> rounded x (rnd x).
Proof. exact rnd_rounded. Qed.
Print Assumptions C52_rounding.

(** Every integer of magnitude at most 2^24 is a float; stored as a float and read back it is
    unchanged, and two of them are equal as floats only when they are equal. *)
Theorem C52_integers_are_exact :
  forall (n : Z), Z.abs n <= 2 ^ 24 -> of_int n = n * unit_ /\ float32 (n * unit_).
Proof. intros n H. split; [apply of_int_exact; exact H|apply int_float; exact H]. Qed.
Print Assumptions C52_integers_are_exact.

Theorem C52_indices_and_labels_survive :
  forall (n : Z), Z.abs n <= 2 ^ 24 -> stored_index n = n /\ stored_label n = n.
Proof. intros n H. split; apply to_of_int; exact H. Qed.
Print Assumptions C52_indices_and_labels_survive.

Theorem C52_label_comparison_is_exact :
  forall (col label : Z), 0 <= col <= 2 ^ 24 -> 0 <= label <= 2 ^ 24 -> (same_label col (of_int label) = true <-> col = label).
Proof.
  intros col label H1 H2. unfold same_label. rewrite !of_int_exact by lia. rewrite Z.eqb_eq. unfold unit_. nia.
Qed.
Print Assumptions C52_label_comparison_is_exact.

(** The count of correct predictions is exact up to 2^24 and stays there, whatever the number of rows. *)
Theorem C52_count_saturates :
  forall (hits : list bool), count_hits hits = Z.min (trues hits) (2 ^ 24) * unit_.
Proof. intros hits. exact (count_from hits 0 ltac:(lia)). Qed.
Print Assumptions C52_count_saturates.

(** The bounds are sharp: 2^24 + 1 is stored as 2^24, so both the index and the comparison go wrong. *)
Theorem C52_next_integer_is_lost :
  ~ float32 ((2 ^ 24 + 1) * unit_) /\ stored_index (2 ^ 24 + 1) = 2 ^ 24 /\ same_label (2 ^ 24 + 1) (of_int (2 ^ 24)) = true.
Proof.
  split; [|split; vm_compute; reflexivity].
  intros F. pose proof (rnd_float _ F (int_bound (2 ^ 24 + 1) ltac:(cbn; lia))) as E. rewrite stuck in E. vm_compute in E. discriminate.
Qed.
Print Assumptions C52_next_integer_is_lost.

Example C52_nonvacuous :
  stored_index 16777216 = 16777216 /\ stored_index (-5) = -5 /\ count_hits [true; false; true] = 2 * unit_ /\
  trues (repeat true (Z.to_nat 3)) = 3.
Proof. repeat split; vm_compute; reflexivity. Qed.
