(** Sums in rounded arithmetic. *)
From Coq Require Import Reals Lra Permutation.
From Verif Require Import Base BaseFacts Sums M_Kernels M_Round.
Open Scope R_scope.

Definition lsum (l : list R) : R := fold_right Rplus 0 l.
Definition labs (l : list R) : R := lsum (map Rabs l).

Lemma lsum_app a b : lsum (a ++ b) = lsum a + lsum b.
Proof. unfold lsum. induction a; cbn; [symmetry; apply Rplus_0_l|]. rewrite IHa. ring. Qed.
Lemma labs_app a b : labs (a ++ b) = labs a + labs b.
Proof. unfold labs. rewrite map_app. apply lsum_app. Qed.
Lemma lsum_perm a b : Permutation a b -> lsum a = lsum b.
Proof. induction 1; cbn; unfold lsum in *; lra. Qed.
Lemma labs_perm a b : Permutation a b -> labs a = labs b.
Proof. intros H. apply lsum_perm. apply Permutation_map. exact H. Qed.
Lemma lsum_le_labs l : Rabs (lsum l) <= labs l.
Proof.
  induction l as [|x l IH]; cbn; [rewrite Rabs_R0; lra|]. fold (lsum l). fold (lsum (map Rabs l)). fold (labs l).
  pose proof (Rabs_triang x (lsum l)). lra.
Qed.
Lemma labs_pos l : 0 <= labs l.
Proof. pose proof (lsum_le_labs l). pose proof (Rabs_pos (lsum l)). lra. Qed.
Lemma lsum_tab n f : lsum (tab n f) = rsum n f.
Proof.
  induction n as [|n IH]; [reflexivity|]. rewrite tab_S, lsum_app, IH. cbn. ring.
Qed.
Lemma labs_tab n f : labs (tab n f) = rsum n (fun k => Rabs (f k)).
Proof. unfold labs. rewrite <- lsum_tab. f_equal. unfold tab. rewrite map_map. reflexivity. Qed.

Lemma pow1_ge u n : 0 <= u -> 1 <= (1 + u) ^ n.
Proof. intros H. apply pow_R1_Rle. lra. Qed.
Lemma pow1_mono u n m : 0 <= u -> (n <= m)%nat -> (1 + u) ^ n <= (1 + u) ^ m.
Proof. intros H L. apply Rle_pow; [lra|exact L]. Qed.

Lemma leaves_pos t : (0 < length (leaves t))%nat.
Proof. induction t; cbn; [lia|]. rewrite app_length. lia. Qed.

(** The error of a sum of [d + 1] numbers, in any order and bracketing. *)
Lemma added_bound u eta t : 0 <= u -> 0 <= eta -> forall r d, added u eta t r -> (length (leaves t) <= S d)%nat ->
  Rabs (r - lsum (leaves t)) <= ((1 + u) ^ d - 1) * labs (leaves t) + INR (length (leaves t) - 1) * (1 + u) ^ d * eta.
Proof.
  intros Hu He. induction t as [x|a IHa b IHb]; intros r d H Hd.
  - cbn in H |- *. subst r. replace (x - (x + 0)) with 0 by ring. rewrite Rabs_R0.
    pose proof (pow1_ge u d Hu). unfold labs; cbn. pose proof (Rabs_pos x).
    replace (0 * (1 + u) ^ d * eta) with 0 by ring. apply Rplus_le_le_0_compat; [|lra]. apply Rmult_le_pos; lra.
  - cbn in H. destruct H as (x & y & Ha & Hb & Hn).
    cbn [leaves] in Hd |- *. rewrite app_length in Hd |- *. rewrite lsum_app, labs_app.
    pose proof (leaves_pos a) as La. pose proof (leaves_pos b) as Lb.
    destruct d as [|d]; [lia|].
    specialize (IHa x d Ha ltac:(lia)). specialize (IHb y d Hb ltac:(lia)).
    pose proof (lsum_le_labs (leaves a)) as Aa. pose proof (lsum_le_labs (leaves b)) as Ab.
    pose proof (labs_pos (leaves a)). pose proof (labs_pos (leaves b)).
    set (P := (1 + u) ^ d) in *.
    assert (P1 : 1 <= P) by (apply pow1_ge; exact Hu).
    assert (EN : INR (length (leaves a) + length (leaves b) - 1) = INR (length (leaves a) - 1) + INR (length (leaves b) - 1) + 1).
    { rewrite <- plus_INR, <- S_INR. f_equal. lia. }
    rewrite EN. clear EN. pose proof (pos_INR (length (leaves a) - 1)) as Na. pose proof (pos_INR (length (leaves b) - 1)) as Nb.
    set (na := INR (length (leaves a) - 1)) in *. set (nb := INR (length (leaves b) - 1)) in *.
    set (sa := lsum (leaves a)) in *. set (sb := lsum (leaves b)) in *. set (la := labs (leaves a)) in *. set (lb := labs (leaves b)) in *.
    unfold near in Hn.
    assert (T1 : Rabs (r - (sa + sb)) <= Rabs (r - (x + y)) + Rabs (x - sa) + Rabs (y - sb)).
    { replace (r - (sa + sb)) with ((r - (x + y)) + (x - sa) + (y - sb)) by ring.
      eapply Rle_trans; [apply Rabs_triang|]. apply Rplus_le_compat_r. apply Rabs_triang. }
    assert (T2 : Rabs (x + y) <= Rabs (x - sa) + Rabs (y - sb) + (la + lb)).
    { replace (x + y) with ((x - sa) + (y - sb) + (sa + sb)) by ring.
      eapply Rle_trans; [apply Rabs_triang|]. pose proof (Rabs_triang (x - sa) (y - sb)). pose proof (Rabs_triang sa sb). lra. }
    assert (T3 : u * Rabs (x + y) <= u * (Rabs (x - sa) + Rabs (y - sb) + (la + lb))) by (apply Rmult_le_compat_l; assumption).
    set (ea := Rabs (x - sa)) in *. set (eb := Rabs (y - sb)) in *.
    assert (T4 : Rabs (r - (sa + sb)) <= (1 + u) * (ea + eb) + u * (la + lb) + eta) by lra.
    eapply Rle_trans; [exact T4|]. cbn [pow]. fold P.
    assert (T5 : (1 + u) * (ea + eb) <= (1 + u) * (((P - 1) * la + na * P * eta) + ((P - 1) * lb + nb * P * eta)))
      by (apply Rmult_le_compat_l; lra).
    assert (T6 : eta <= (1 + u) * P * eta).
    { rewrite <- (Rmult_1_l eta) at 1. apply Rmult_le_compat_r; [exact He|]. replace 1 with (1 * 1) by ring. apply Rmult_le_compat; lra. }
    lra.
Qed.

(** The sum of computed terms [xs] against the sum of exact terms [ts]. *)
Lemma summed_bound u eta n xs r : 0 <= u -> 0 <= eta -> summed u eta (tab n xs) r ->
  Rabs (r - rsum n xs) <= ((1 + u) ^ (n - 1) - 1) * rsum n (fun k => Rabs (xs k)) + INR (n - 1) * (1 + u) ^ (n - 1) * eta.
Proof.
  intros Hu He H. destruct n as [|n].
  - cbn in H |- *. subst r. rewrite Rminus_0_r, Rabs_R0. lra.
  - unfold summed in H. assert (NE : tab (S n) xs <> []) by (intros C; apply (f_equal (@length R)) in C; rewrite tab_length in C; cbn in C; lia).
    destruct (tab (S n) xs) as [|x0 l0] eqn:E; [congruence|]. rewrite <- E in H. destruct H as (t & P & A).
    pose proof (Permutation_length P) as PL. rewrite tab_length in PL.
    pose proof (added_bound u eta t Hu He r n A ltac:(lia)) as B.
    rewrite <- (lsum_perm _ _ P), <- (labs_perm _ _ P), lsum_tab, labs_tab, <- PL in B.
    replace (S n - 1)%nat with n in * by lia. exact B.
Qed.
