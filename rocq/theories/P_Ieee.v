(** Facts on floats, rounding and sums. *)
From Coq Require Import Reals Lra Lia ZArith Permutation List.
From Verif Require Import Base BaseFacts Sums S_Float M_Kernels M_Round S_Round P_Float P_Round P_Round2 P_Round5 M_Ieee S_Ieee.
Import ListNotations.
Open Scope R_scope.

Lemma eps32_pos : 0 < eps32. Proof. apply Rinv_0_lt_compat, pow_lt. lra. Qed.
Lemma tiny32_pos : 0 < tiny32. Proof. apply Rinv_0_lt_compat, pow_lt. lra. Qed.

Lemma pow2_IZR n : 2 ^ n = IZR (2 ^ Z.of_nat n).
Proof. exact (pow_IZR 2 n). Qed.

Lemma isf_opp x : isf x -> isf (- x).
Proof. intros (z & Fz & ->). exists (- z)%Z. split; [apply float32_opp, Fz|]. rewrite opp_IZR. unfold Rdiv. ring. Qed.
Lemma isf_0 : isf 0.
Proof. exists 0%Z. split; [exists 0%Z, 0%Z; split; [reflexivity|split; [lia|reflexivity]]|]. unfold Rdiv. ring. Qed.
Lemma isf_pow2 k : (k <= 127)%nat -> isf (2 ^ k).
Proof.
  intros Hk. exists (2 ^ (Z.of_nat k + 149))%Z. split.
  - exists (2 ^ 23)%Z, (Z.of_nat k + 126)%Z. split; [reflexivity|]. split; [lia|]. rewrite <- Z.pow_add_r by lia. f_equal; lia.
  - rewrite Z.pow_add_r by lia. rewrite mult_IZR, <- pow2_IZR. replace (IZR (2 ^ 149)) with (2 ^ 149) by (exact (pow2_IZR 149)).
    assert (0 < 2 ^ 149) by (apply pow_lt; lra). field; lra.
Qed.
Lemma isf_inv2 k : (k <= 149)%nat -> isf (/ 2 ^ k).
Proof.
  intros Hk. exists (2 ^ (149 - Z.of_nat k))%Z. split.
  - destruct (Z_le_gt_dec 23 (149 - Z.of_nat k)) as [C|C].
    + exists (2 ^ 23)%Z, (149 - Z.of_nat k - 23)%Z. split; [reflexivity|]. split; [lia|]. rewrite <- Z.pow_add_r by lia. f_equal; lia.
    + exists (2 ^ (149 - Z.of_nat k))%Z, 0%Z. split; [|split; [lia|ring]]. rewrite Z.abs_eq by (apply Z.pow_nonneg; lia). apply Z.pow_lt_mono_r; lia.
  - replace (149 - Z.of_nat k)%Z with (Z.of_nat (149 - k)) by lia. rewrite <- pow2_IZR.
    assert (P1 : 0 < 2 ^ k) by (apply pow_lt; lra). assert (P2 : 0 < 2 ^ 149) by (apply pow_lt; lra).
    assert (E : 2 ^ 149 = 2 ^ (149 - k) * 2 ^ k) by (rewrite <- pow_add; f_equal; lia).
    rewrite E. field. split; apply pow_nonzero; lra.
Qed.
Lemma isf_1 : isf 1. Proof. exact (isf_pow2 0 ltac:(lia)). Qed.
Lemma isf_int n : (n <= 2 ^ 24)%Z -> (0 <= n)%Z -> isf (IZR n).
Proof.
  intros A B. exists (n * 2 ^ 149)%Z. split; [apply float32_mult; lia|]. rewrite mult_IZR.
  replace (IZR (2 ^ 149)) with (2 ^ 149) by (exact (pow2_IZR 149)). assert (0 < 2 ^ 149) by (apply pow_lt; lra). field; lra.
Qed.
Lemma isf_top : isf top.
Proof. exists ((2 ^ 24 - 1) * 2 ^ 253)%Z. split; [|reflexivity]. exists (2 ^ 24 - 1)%Z, 253%Z. split; [reflexivity|]. split; [lia|reflexivity]. Qed.
Lemma isf_le_top x : isf x -> Rabs x <= top.
Proof.
  intros (z & (m & e & A & B & ->) & ->). unfold top, Rdiv. rewrite Rabs_mult, (Rabs_right (/ 2 ^ 149)).
  2:{ apply Rle_ge, Rlt_le, Rinv_0_lt_compat, pow_lt. lra. }
  apply Rmult_le_compat_r; [apply Rlt_le, Rinv_0_lt_compat, pow_lt; lra|]. rewrite <- abs_IZR. apply IZR_le. rewrite Z.abs_mul.
  apply Z.mul_le_mono_nonneg; try lia. rewrite Z.abs_eq by (apply Z.pow_nonneg; lia). apply Z.pow_le_mono_r; lia.
Qed.
Lemma top_big : 2 ^ 127 <= top.
Proof.
  unfold top. apply (Rmult_le_reg_r (2 ^ 149)); [apply pow_lt; lra|]. unfold Rdiv. rewrite Rmult_assoc, Rinv_l, Rmult_1_r by (apply pow_nonzero; lra).
  rewrite <- pow_add, pow2_IZR. apply IZR_le. vm_compute. discriminate.
Qed.
Lemma top_pos : 0 < top.
Proof. pose proof top_big. assert (0 < 2 ^ 127) by (apply pow_lt; lra). lra. Qed.

(** ** Rounding *)
Lemma float_between X : 0 <= X <= IZR ((2 ^ 24 - 1) * 2 ^ 253) ->
  exists z1 z2, float32 z1 /\ float32 z2 /\ IZR z1 <= X <= IZR z2 /\ IZR z2 - IZR z1 <= X / 2 ^ 23 + 1.
Proof.
  intros [X0 XM]. destruct (archimed X) as [U1 U2]. set (n := (up X - 1)%Z).
  assert (N1 : IZR n <= X < IZR n + 1) by (unfold n; rewrite minus_IZR; lra).
  assert (N0 : (0 <= n)%Z) by (assert (-1 < n)%Z; [|lia]; apply lt_IZR; lra).
  assert (NM : (n <= (2 ^ 24 - 1) * 2 ^ 253)%Z) by (apply le_IZR; lra).
  destruct (rnd_pos_parts n N0) as (E0 & EQ & EM & EQ2 & EB). set (e := Z.max 0 (Z.log2 n - 23)) in *. set (q := (n / 2 ^ e)%Z) in *.
  assert (E1 : (e <= 253)%Z).
  { assert (Z.log2 n <= 276)%Z; [|lia]. destruct (Z.eq_dec n 0) as [->|NZ]; [cbn; lia|]. assert (Z.log2 n < 277)%Z; [|lia]. apply Z.log2_lt_pow2; [lia|].
    eapply Z.le_lt_trans; [exact NM|]. reflexivity. }
  assert (PE : (0 < 2 ^ e)%Z) by (apply Z.pow_pos_nonneg; lia).
  assert (L1 : IZR (q * 2 ^ e) <= X) by (apply Rle_trans with (IZR n); [apply IZR_le; lia|lra]).
  assert (L2 : X < IZR ((q + 1) * 2 ^ e)) by (apply Rlt_le_trans with (IZR (n + 1)); [rewrite plus_IZR; lra|apply IZR_le; lia]).
  assert (X24 : 0 <= X / 2 ^ 23) by (apply Rmult_le_pos; [exact X0|apply Rlt_le, Rinv_0_lt_compat, pow_lt; lra]).
  assert (K : IZR (2 ^ e) <= X / 2 ^ 23 + 1).
  { destruct EB as [->|EB]; [change (2 ^ 0)%Z with 1%Z; lra|].
    assert (IZR (2 ^ e) * 2 ^ 23 <= X).
    { eapply Rle_trans; [|exact L1]. rewrite (pow2_IZR 23). change (Z.of_nat 23) with 23%Z. rewrite <- mult_IZR. apply IZR_le. nia. }
    assert (P : 0 < 2 ^ 23) by (apply pow_lt; lra). assert (IZR (2 ^ e) <= X / 2 ^ 23); [|lra].
    apply (Rmult_le_reg_r (2 ^ 23)); [exact P|]. unfold Rdiv. rewrite Rmult_assoc, Rinv_l, Rmult_1_r by lra. assumption. }
  assert (F1 : float32 (q * 2 ^ e)) by (exists q, e; split; [lia|]; split; [lia|reflexivity]).
  destruct (Z.eq_dec e 253) as [E3|E3].
  - destruct (Z.eq_dec q (2 ^ 24 - 1)) as [Q|Q].
    + exists (q * 2 ^ e)%Z, (q * 2 ^ e)%Z. split; [exact F1|]. split; [exact F1|]. split; [|lra]. split; [exact L1|]. rewrite Q, E3. exact XM.
    + exists (q * 2 ^ e)%Z, ((q + 1) * 2 ^ e)%Z. split; [exact F1|]. split; [exists (q + 1)%Z, e; split; [lia|]; split; [lia|reflexivity]|]. split; [lra|].
      rewrite !mult_IZR, plus_IZR. lra.
  - exists (q * 2 ^ e)%Z, ((q + 1) * 2 ^ e)%Z. split; [exact F1|]. split; [apply float32_mult; lia|]. split; [lra|]. rewrite !mult_IZR, plus_IZR. lra.
Qed.

Lemma between_pos x : 0 <= x <= top -> exists f g, isf f /\ isf g /\ f <= x <= g /\ g - f <= eps32 * x + tiny32.
Proof.
  intros [X0 X1]. assert (P : 0 < 2 ^ 149) by (apply pow_lt; lra).
  destruct (float_between (x * 2 ^ 149)) as (z1 & z2 & F1 & F2 & B & D).
  { split; [apply Rmult_le_pos; lra|]. unfold top in X1. apply (Rmult_le_compat_r (2 ^ 149)) in X1; [|lra]. unfold Rdiv in X1. rewrite Rmult_assoc, Rinv_l, Rmult_1_r in X1 by lra. exact X1. }
  exists (IZR z1 / 2 ^ 149), (IZR z2 / 2 ^ 149). split; [exists z1; auto|]. split; [exists z2; auto|].
  assert (Q : 0 < 2 ^ 23) by (apply pow_lt; lra). unfold eps32, tiny32. set (p := 2 ^ 149) in *. set (q := 2 ^ 23) in *.
  assert (IP : 0 < / p) by (apply Rinv_0_lt_compat; lra). split; [split|].
  - apply (Rmult_le_reg_r p); [lra|]. unfold Rdiv. rewrite Rmult_assoc, Rinv_l, Rmult_1_r by lra. lra.
  - apply (Rmult_le_reg_r p); [lra|]. unfold Rdiv. rewrite Rmult_assoc, Rinv_l, Rmult_1_r by lra. lra.
  - apply (Rmult_le_reg_r p); [lra|]. replace ((IZR z2 / p - IZR z1 / p) * p) with (IZR z2 - IZR z1) by (field; lra).
    replace ((/ q * x + / p) * p) with (x * p / q + 1) by (field; lra). exact D.
Qed.

Lemma between x : Rabs x <= top -> exists f g, isf f /\ isf g /\ f <= x <= g /\ g - f <= eps32 * Rabs x + tiny32.
Proof.
  intros T. destruct (Rcase_abs x) as [N|N].
  - rewrite Rabs_left in * by exact N. destruct (between_pos (- x) ltac:(lra)) as (f & g & Ff & Fg & B & D).
    exists (- g), (- f). split; [apply isf_opp, Fg|]. split; [apply isf_opp, Ff|]. split; lra.
  - rewrite Rabs_right in * by exact N. apply between_pos. lra.
Qed.

Definition rounds (x y : R) : Prop := rnd x (Fin y).
Lemma rnd_fin x r : Rabs x <= top -> rnd x r -> exists y, r = Fin y /\ rounds x y /\ near eps32 tiny32 x y.
Proof.
  intros T R0. destruct r as [y|s|]; [|destruct R0; lra|destruct R0]. exists y. split; [reflexivity|]. split; [exact R0|].
  destruct R0 as (Fy & C). destruct (between x T) as (f & g & Ff & Fg & B & D). pose proof (C f Ff) as (_ & C1). pose proof (C g Fg) as (C2 & _).
  specialize (C1 ltac:(lra)). specialize (C2 ltac:(lra)). unfold near, Rabs at 1. destruct (Rcase_abs (y - x)); lra.
Qed.
Lemma rounds_le x y f : rounds x y -> isf f -> x <= f -> y <= f.
Proof. intros (_ & C) Ff L. exact (proj1 (C f Ff) L). Qed.
Lemma rounds_ge x y f : rounds x y -> isf f -> f <= x -> f <= y.
Proof. intros (_ & C) Ff L. exact (proj2 (C f Ff) L). Qed.
Lemma rounds_isf x y : rounds x y -> isf y. Proof. intros (A & _). exact A. Qed.
Lemma rounds_self x y : isf x -> rounds x y -> y = x.
Proof. intros F R0. apply Rle_antisym; [exact (rounds_le x y x R0 F (Rle_refl _))|exact (rounds_ge x y x R0 F (Rle_refl _))]. Qed.

(** Rounding to nearest is one way. *)
Lemma nearest_rounds x y : nearest_float x y -> rounds x y.
Proof.
  intros (m & Fm & -> & N). split; [exists m; auto|]. intros f (z & Fz & ->). specialize (N z Fz). split; intros C.
  - destruct (Rle_dec (IZR m / 2 ^ 149) (IZR z / 2 ^ 149)) as [L|L]; [exact L|]. exfalso. apply Rnot_le_lt in L.
    rewrite !Rabs_right in N by lra. lra.
  - destruct (Rle_dec (IZR z / 2 ^ 149) (IZR m / 2 ^ 149)) as [L|L]; [exact L|]. exfalso. apply Rnot_le_lt in L.
    rewrite !Rabs_left1 in N by lra. lra.
Qed.

Lemma near_mono u u' eta eta' x y : u <= u' -> eta <= eta' -> near u eta x y -> near u' eta' x y.
Proof. intros A B C. unfold near in *. pose proof (Rabs_pos x). assert (u * Rabs x <= u' * Rabs x) by (apply Rmult_le_compat_r; lra). lra. Qed.
Lemma near_abs u eta x y b : 0 <= u -> near u eta x y -> Rabs x <= b -> Rabs y <= (1 + u) * b + eta.
Proof.
  intros Hu N B. unfold near in N. pose proof (Rabs_triang (y - x) x) as T. replace (y - x + x) with y in T by ring.
  assert (u * Rabs x <= u * b) by (apply Rmult_le_compat_l; lra). lra.
Qed.

(** ** Sums *)
Fixpoint unfin (t : ftree) : tree :=
  match t with FLeaf (Fin x) => Leaf x | FLeaf _ => Leaf 0 | FNode a b => Node (unfin a) (unfin b) end.
Lemma unfin_leaves t : (forall x, In x (fleaves t) -> exists y, x = Fin y) -> fleaves t = map Fin (leaves (unfin t)).
Proof.
  induction t as [x|a IHa b IHb]; intros F; cbn in *.
  - destruct (F x (or_introl eq_refl)) as (y & ->). reflexivity.
  - rewrite map_app, <- IHa, <- IHb; [reflexivity|intros x Ix; apply F, in_or_app; auto..].
Qed.


Lemma fadded_fin t d : (forall x, In x (fleaves t) -> exists y, x = Fin y) -> (length (fleaves t) <= S d)%nat ->
  (1 + eps32) ^ d * labs (leaves (unfin t)) + INR d * (1 + eps32) ^ d * tiny32 <= top ->
  forall r, fadded t r -> exists x, r = Fin x /\ added eps32 tiny32 (unfin t) x.
Proof.
  pose proof eps32_pos as PU. pose proof tiny32_pos as PH.
  revert d. induction t as [x|a IHa b IHb]; intros d F L T r A.
  - cbn in A. subst r. destruct (F x (or_introl eq_refl)) as (y & ->). exists y. split; reflexivity.
  - cbn [fleaves] in F, L. rewrite app_length in L. destruct A as (x & y & A1 & A2 & A3).
    assert (Fa : forall x, In x (fleaves a) -> exists y, x = Fin y) by (intros z Iz; apply F, in_or_app; auto).
    assert (Fb : forall x, In x (fleaves b) -> exists y, x = Fin y) by (intros z Iz; apply F, in_or_app; auto).
    pose proof (unfin_leaves a Fa) as Ea. pose proof (unfin_leaves b Fb) as Eb.
    apply (f_equal (@length flt)) in Ea, Eb. rewrite map_length in Ea, Eb. rewrite Ea, Eb in L.
    pose proof (leaves_pos (unfin a)) as Pa. pose proof (leaves_pos (unfin b)) as Pb.
    destruct d as [|d]; [lia|]. cbn [unfin leaves] in T. rewrite labs_app in T.
    pose proof (labs_pos (leaves (unfin a))) as La. pose proof (labs_pos (leaves (unfin b))) as Lb.
    set (la := labs (leaves (unfin a))) in *. set (lb := labs (leaves (unfin b))) in *.
    cbn [pow] in T. pose proof (pow1_ge eps32 d ltac:(lra)) as P1. set (P := (1 + eps32) ^ d) in *. rewrite S_INR in T. pose proof (pos_INR d) as Nd.
    assert (T0 : P * (la + lb) + INR d * P * tiny32 <= top).
    { assert (PP : P <= (1 + eps32) * P) by nra. eapply Rle_trans; [|exact T]. apply Rplus_le_compat; [apply Rmult_le_compat_r; [lra|exact PP]|].
      apply Rmult_le_compat_r; [lra|]. apply Rmult_le_compat; lra. }
    destruct (IHa d Fa ltac:(lia)) with (r := x) as (x' & -> & Ax); [|exact A1|].
    { fold la P. assert (P * la <= P * (la + lb)) by nra. lra. }
    destruct (IHb d Fb ltac:(lia)) with (r := y) as (y' & -> & Ay); [|exact A2|].
    { fold lb P. assert (P * lb <= P * (la + lb)) by nra. lra. }
    pose proof (added_bound eps32 tiny32 (unfin a) ltac:(lra) ltac:(lra) x' d Ax ltac:(lia)) as Ba.
    pose proof (added_bound eps32 tiny32 (unfin b) ltac:(lra) ltac:(lra) y' d Ay ltac:(lia)) as Bb.
    fold la P in Ba. fold lb P in Bb. pose proof (lsum_le_labs (leaves (unfin a))) as Sa. pose proof (lsum_le_labs (leaves (unfin b))) as Sb. fold la in Sa. fold lb in Sb.
    assert (EN : INR (length (leaves (unfin a)) - 1) + INR (length (leaves (unfin b)) - 1) <= INR d) by (rewrite <- plus_INR; apply le_INR; lia).
    set (na := INR (length (leaves (unfin a)) - 1)) in *. set (nb := INR (length (leaves (unfin b)) - 1)) in *.
    set (sa := lsum (leaves (unfin a))) in *. set (sb := lsum (leaves (unfin b))) in *.
    assert (B : Rabs (x' + y') <= top).
    { assert (B1 : Rabs (x' + y') <= P * (la + lb) + (na + nb) * P * tiny32).
      { pose proof (Rabs_triang (x' - sa) sa) as Q1. pose proof (Rabs_triang (y' - sb) sb) as Q2. replace (x' - sa + sa) with x' in Q1 by ring. replace (y' - sb + sb) with y' in Q2 by ring.
        pose proof (Rabs_triang x' y'). lra. }
      assert (P0 : 0 <= P * tiny32) by (apply Rmult_le_pos; lra). assert ((na + nb) * P * tiny32 <= INR d * P * tiny32) by (rewrite !Rmult_assoc; apply Rmult_le_compat_r; [exact P0|exact EN]). lra. }
    destruct (rnd_fin _ _ B A3) as (z & -> & _ & N). exists z. split; [reflexivity|]. cbn. eauto.
Qed.

Lemma map_tab (A B : Type) (f : A -> B) n g : map f (tab n g) = tab n (fun k => f (g k)).
Proof. unfold tab. rewrite map_map. reflexivity. Qed.

Lemma fsummed_fin n xs r : sum_grown n (rsum n (fun k => Rabs (xs k))) <= top -> fsummed (tab n (fun k => Fin (xs k))) r ->
  exists s, r = Fin s /\ summed eps32 tiny32 (tab n xs) s /\ Rabs s <= sum_grown n (rsum n (fun k => Rabs (xs k))).
Proof.
  intros T S. assert (G : exists s, r = Fin s /\ summed eps32 tiny32 (tab n xs) s).
  { unfold fsummed in S. unfold summed. rewrite <- map_tab in S. destruct (tab n xs) as [|x l] eqn:E; cbn [map] in S; [exists 0; auto|].
    destruct S as (t & P & A). change (Fin x :: map Fin l) with (map Fin (x :: l)) in P.
    assert (F : forall y, In y (fleaves t) -> exists z, y = Fin z).
    { intros y Iy. apply (Permutation_in y (Permutation_sym P)) in Iy. apply in_map_iff in Iy as (z & <- & _). eauto. }
    pose proof (unfin_leaves t F) as U1. rewrite U1 in P.
    assert (P' : Permutation (x :: l) (leaves (unfin t))).
    { apply (Permutation_map (fun a => match a with Fin z => z | _ => 0 end)) in P. rewrite !map_map in P. rewrite !map_id in P. exact P. }
    pose proof (f_equal (@length R) E) as LE. rewrite tab_length in LE. cbn in LE.
    destruct (fadded_fin t (n - 1) F) with (r := r) as (s & -> & As); [| |exact A|].
    - rewrite U1, map_length, <- (Permutation_length P'). cbn. lia.
    - unfold sum_grown in T. rewrite <- (labs_perm _ _ P'), <- E, labs_tab. exact T.
    - exists s. split; [reflexivity|]. exists (unfin t). split; assumption. }
  destruct G as (s & -> & SU). exists s. split; [reflexivity|]. split; [exact SU|].
  pose proof (summed_bound eps32 tiny32 n xs s (Rlt_le _ _ eps32_pos) (Rlt_le _ _ tiny32_pos) SU) as B. unfold sum_grown.
  pose proof (rsum_abs_le n xs) as A. pose proof (Rabs_triang (s - rsum n xs) (rsum n xs)) as Q. replace (s - rsum n xs + rsum n xs) with s in Q by ring. lra.
Qed.

(** Sums of numbers that are not negative. *)
Lemma fadded_nonneg t : (forall x, In x (fleaves t) -> (exists y, x = Fin y /\ 0 <= y) \/ x = Inf false) -> forall r, fadded t r -> (exists y, r = Fin y /\ 0 <= y) \/ r = Inf false.
Proof.
  induction t as [x|a IHa b IHb]; intros F r A.
  - cbn in A. subst r. exact (F x (or_introl eq_refl)).
  - destruct A as (x & y & A1 & A2 & A3). destruct (IHa (fun z Iz => F z (in_or_app _ _ _ (or_introl Iz))) x A1) as [(x' & -> & X)| ->]; destruct (IHb (fun z Iz => F z (in_or_app _ _ _ (or_intror Iz))) y A2) as [(y' & -> & Y)| ->]; cbn in A3.
    + destruct r as [z|s|]; [|destruct A3 as (_ & A3); destruct s; [lra|right; reflexivity]|destruct A3]. left. exists z. split; [reflexivity|]. apply (rounds_ge _ _ 0 A3 isf_0). lra.
    + right. exact A3.
    + right. exact A3.
    + right. exact A3.
Qed.
