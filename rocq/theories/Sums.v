(** Finite sums of real numbers. *)
From Coq Require Import Reals Lra.
From Verif Require Import Base BaseFacts.
Open Scope R_scope.

Fixpoint rsum (n : nat) (f : nat -> R) : R :=
  match n with
  | O => 0
  | S m => rsum m f + f m
  end.

(** Inner product of two vectors indexed by 0..n-1. *)
Definition dotp (n : nat) (f g : nat -> R) : R := rsum n (fun i => f i * g i).

(** Elements of a list of reals, 0 outside (used only for indices below the length). *)
Notation "l .[ i ]" := (nth i l 0) (at level 2, left associativity, format "l .[ i ]").

Lemma rsum_ext n f g : (forall i, (i < n)%nat -> f i = g i) -> rsum n f = rsum n g.
Proof.
  induction n as [|n IH]; intros H; cbn; [reflexivity|].
  rewrite IH by (intros; apply H; lia). rewrite H by lia. reflexivity.
Qed.

Lemma rsum_zero n f : (forall i, (i < n)%nat -> f i = 0) -> rsum n f = 0.
Proof.
  induction n as [|n IH]; intros H; cbn; [reflexivity|].
  rewrite IH by (intros; apply H; lia). rewrite H by lia. ring.
Qed.

Lemma rsum_0 n : rsum n (fun _ => 0) = 0.
Proof. apply rsum_zero. reflexivity. Qed.

Lemma rsum_plus n f g : rsum n (fun i => f i + g i) = rsum n f + rsum n g.
Proof. induction n as [|n IH]; cbn; [ring|]. rewrite IH. ring. Qed.

Lemma rsum_minus n f g : rsum n (fun i => f i - g i) = rsum n f - rsum n g.
Proof. induction n as [|n IH]; cbn; [ring|]. rewrite IH. ring. Qed.

Lemma rsum_opp n f : rsum n (fun i => - f i) = - rsum n f.
Proof. induction n as [|n IH]; cbn; [ring|]. rewrite IH. ring. Qed.

Lemma rsum_scal_l n c f : rsum n (fun i => c * f i) = c * rsum n f.
Proof. induction n as [|n IH]; cbn; [ring|]. rewrite IH. ring. Qed.

Lemma rsum_scal_r n c f : rsum n (fun i => f i * c) = rsum n f * c.
Proof. induction n as [|n IH]; cbn; [ring|]. rewrite IH. ring. Qed.

Lemma rsum_div_r n c f : rsum n (fun i => f i / c) = rsum n f / c.
Proof. unfold Rdiv. apply rsum_scal_r. Qed.

Lemma rsum_const n c : rsum n (fun _ => c) = INR n * c.
Proof.
  induction n as [|n IH]; cbn [rsum]; [cbn; ring|]. rewrite IH, S_INR. ring.
Qed.

Lemma rsum_swap m n (f : nat -> nat -> R) :
  rsum m (fun i => rsum n (fun j => f i j)) = rsum n (fun j => rsum m (fun i => f i j)).
Proof.
  induction m as [|m IH]; cbn.
  - symmetry. apply rsum_0.
  - rewrite IH. rewrite <- rsum_plus. reflexivity.
Qed.

Lemma rsum_add m n f : rsum (m + n) f = rsum m f + rsum n (fun j => f (m + j)%nat).
Proof.
  induction n as [|n IH]; cbn.
  - rewrite Nat.add_0_r. ring.
  - rewrite Nat.add_succ_r. cbn. rewrite IH. ring.
Qed.

(** A sum over a rectangle is a double sum. *)
Lemma rsum_mult m n f : rsum (m * n) f = rsum m (fun i => rsum n (fun j => f (i * n + j)%nat)).
Proof.
  induction m as [|m IH]; cbn [rsum Nat.mul]; [reflexivity|].
  rewrite Nat.add_comm, rsum_add, IH. reflexivity.
Qed.

(** A sum with a single non-zero term. *)
Lemma rsum_single n k f : (k < n)%nat -> (forall i, (i < n)%nat -> i <> k -> f i = 0) -> rsum n f = f k.
Proof.
  induction n as [|n IH]; intros Hk H; [lia|]. cbn.
  destruct (Nat.eq_dec k n) as [->|Hn].
  - rewrite rsum_zero; [ring|]. intros i Hi. apply H; lia.
  - rewrite IH by (try lia; intros; apply H; lia). rewrite (H n) by lia. ring.
Qed.

Lemma rsum_indicator n k (f : nat -> R) :
  rsum n (fun i => if Nat.eqb i k then f i else 0) = if (k <? n)%nat then f k else 0.
Proof.
  destruct (Nat.ltb_spec k n) as [L|L].
  - rewrite (rsum_single n k); [rewrite Nat.eqb_refl; reflexivity|exact L|].
    intros i Hi Hne. destruct (Nat.eqb_spec i k); [contradiction|reflexivity].
  - apply rsum_zero. intros i Hi. destruct (Nat.eqb_spec i k); [lia|reflexivity].
Qed.

Lemma rsum_nonneg n f : (forall i, (i < n)%nat -> 0 <= f i) -> 0 <= rsum n f.
Proof.
  induction n as [|n IH]; intros H; cbn; [lra|].
  assert (0 <= rsum n f) by (apply IH; intros; apply H; lia).
  assert (0 <= f n) by (apply H; lia). lra.
Qed.

Lemma rsum_pos n f : (0 < n)%nat -> (forall i, (i < n)%nat -> 0 < f i) -> 0 < rsum n f.
Proof.
  intros Hn H. destruct n as [|n]; [lia|]. cbn.
  assert (0 <= rsum n f) by (apply rsum_nonneg; intros i Hi; left; apply H; lia).
  assert (0 < f n) by (apply H; lia). lra.
Qed.

Lemma rsum_le n f g : (forall i, (i < n)%nat -> f i <= g i) -> rsum n f <= rsum n g.
Proof.
  induction n as [|n IH]; intros H; cbn; [lra|].
  assert (rsum n f <= rsum n g) by (apply IH; intros; apply H; lia).
  assert (f n <= g n) by (apply H; lia). lra.
Qed.

Lemma rsum_term_le n f k : (k < n)%nat -> (forall i, (i < n)%nat -> 0 <= f i) -> f k <= rsum n f.
Proof.
  intros Hk H. apply Rle_trans with (rsum n (fun i => if Nat.eqb i k then f i else 0)).
  - rewrite (rsum_indicator n k f). destruct (Nat.ltb_spec k n); [lra|lia].
  - apply rsum_le. intros i Hi. specialize (H i Hi). destruct (Nat.eqb i k); lra.
Qed.

(** Permutation invariance. *)
Definition lsum (l : list R) : R := fold_right Rplus 0 l.

Lemma lsum_app l1 l2 : lsum (l1 ++ l2) = lsum l1 + lsum l2.
Proof. unfold lsum. induction l1 as [|x l IH]; cbn [app fold_right]; [ring|]. rewrite IH. ring. Qed.

Lemma rsum_lsum n f : rsum n f = lsum (tab n f).
Proof.
  induction n as [|n IH]; [reflexivity|]. rewrite tab_S, lsum_app. cbn. rewrite IH. ring.
Qed.

Lemma lsum_perm l1 l2 : Permutation l1 l2 -> lsum l1 = lsum l2.
Proof. unfold lsum. induction 1; cbn [fold_right]; try congruence. ring. Qed.

Lemma lsum_rsum l : lsum l = rsum (length l) (fun i => l.[i]).
Proof. rewrite rsum_lsum. f_equal. symmetry. apply (tab_nth l 0). Qed.

Lemma dotp_ext n f f' g g' :
  (forall i, (i < n)%nat -> f i = f' i) -> (forall i, (i < n)%nat -> g i = g' i) ->
  dotp n f g = dotp n f' g'.
Proof. intros H1 H2. apply rsum_ext. intros i Hi. rewrite H1, H2 by exact Hi. reflexivity. Qed.

(** Sum over the pre-images: [sum_p a(src p) * y p] regrouped by target. *)
Lemma rsum_regroup n m (src : nat -> option nat) (x y : nat -> R) :
  (forall p i, (p < n)%nat -> src p = Some i -> (i < m)%nat) ->
  rsum n (fun p => match src p with Some i => x i | None => 0 end * y p) =
  rsum m (fun i => x i * rsum n (fun p => match src p with
                                          | Some j => if Nat.eqb j i then y p else 0
                                          | None => 0 end)).
Proof.
  intros Hr.
  transitivity (rsum m (fun i => rsum n (fun p => match src p with
                  | Some j => if Nat.eqb i j then x i * y p else 0 | None => 0 end))).
  - rewrite rsum_swap. apply rsum_ext. intros p Hp.
    destruct (src p) as [j|] eqn:E.
    + rewrite (rsum_indicator m j (fun i => x i * y p)).
      specialize (Hr p j Hp E). destruct (Nat.ltb_spec j m); [reflexivity|lia].
    + rewrite rsum_0. ring.
  - apply rsum_ext. intros i Hi. rewrite <- rsum_scal_l. apply rsum_ext. intros p Hp.
    destruct (src p) as [j|]; [|ring]. rewrite Nat.eqb_sym. destruct (Nat.eqb j i); ring.
Qed.
