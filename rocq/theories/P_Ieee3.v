(** Softmax and Sigmoid on arbitrary finite inputs. *)
From Coq Require Import Reals Lra Lia ZArith Permutation List.
From Verif Require Import Base BaseFacts Sums S_Float M_Kernels M_Round S_Round P_Kernels P_Float P_Round P_Round2 P_Round5 M_Ieee S_Ieee P_Ieee P_Ieee2.
Import ListNotations.
Open Scope R_scope.

Lemma fadded_above t : (forall x, In x (fleaves t) -> exists y, x = Fin y /\ isf y /\ 0 <= y) -> forall r, fadded t r ->
  (exists s, r = Fin s /\ isf s /\ 0 <= s /\ forall y, In (Fin y) (fleaves t) -> y <= s) \/ r = Inf false.
Proof.
  induction t as [x|a IHa b IHb]; intros F r A.
  - cbn in A. subst r. left. destruct (F x (or_introl eq_refl)) as (y & -> & Fy & Y). exists y. split; [reflexivity|]. split; [exact Fy|]. split; [exact Y|].
    intros z [E|[]]. injection E as <-. lra.
  - destruct A as (x & y & A1 & A2 & A3). cbn [fleaves] in *.
    destruct (IHa (fun z Iz => F z (in_or_app _ _ _ (or_introl Iz))) x A1) as [(x' & -> & Fx & X & Dx)| ->];
    destruct (IHb (fun z Iz => F z (in_or_app _ _ _ (or_intror Iz))) y A2) as [(y' & -> & Fy & Y & Dy)| ->]; cbn in A3; [|right; exact A3..].
    destruct r as [z|s|]; [|destruct A3 as (_ & A3); destruct s; [lra|right; reflexivity]|destruct A3]. left. exists z. split; [reflexivity|].
    split; [exact (rounds_isf _ _ A3)|]. split; [apply (rounds_ge _ _ 0 A3 isf_0); lra|].
    intros w Iw. apply in_app_or in Iw as [Iw|Iw].
    + apply Rle_trans with x'; [exact (Dx w Iw)|]. apply (rounds_ge _ _ x' A3 Fx). lra.
    + apply Rle_trans with y'; [exact (Dy w Iw)|]. apply (rounds_ge _ _ y' A3 Fy). lra.
Qed.
Lemma fsummed_above n es r : (forall k, (k < n)%nat -> exists y, es k = Fin y /\ isf y /\ 0 <= y) -> fsummed (tab n es) r ->
  (exists s, r = Fin s /\ isf s /\ 0 <= s /\ forall k y, (k < n)%nat -> es k = Fin y -> y <= s) \/ r = Inf false.
Proof.
  intros F S. assert (IT : forall k, (k < n)%nat -> In (es k) (tab n es)) by (intros k Hk; unfold tab; apply in_map_iff; exists k; split; [reflexivity|apply in_seq; lia]).
  assert (TI : forall x, In x (tab n es) -> exists k, (k < n)%nat /\ x = es k).
  { intros x Ix. unfold tab in Ix. apply in_map_iff in Ix as (k & <- & Hk). apply in_seq in Hk. exists k. split; [lia|reflexivity]. }
  unfold fsummed in S. destruct (tab n es) as [|x0 l] eqn:E.
  - left. exists 0. split; [exact S|]. split; [exact isf_0|]. split; [lra|]. intros k y Hk _. destruct (IT k Hk).
  - rewrite <- E in *. destruct S as (t & P & A).
    destruct (fadded_above t) with (r := r) as [(s & -> & Fs & S0 & D)| ->]; [|exact A| |right; reflexivity].
    + intros x Ix. apply (Permutation_in x (Permutation_sym P)) in Ix. destruct (TI x Ix) as (k & Hk & ->). exact (F k Hk).
    + left. exists s. split; [reflexivity|]. split; [exact Fs|]. split; [exact S0|]. intros k y Hk Ek. apply D. rewrite <- Ek. exact (Permutation_in _ P (IT k Hk)).
Qed.

Section Softmax.
Variable lib : flt -> flt -> Prop.
Hypothesis EO : exp_ok lib.
Variable v : nat -> nat -> R.
Let fv := fun a i => Fin (v a i).

Lemma isf_2 : isf 2. Proof. replace 2 with (2 ^ 1) by ring. apply isf_pow2. lia. Qed.
Lemma isf_half : isf (/ 2). Proof. replace (/ 2) with (/ 2 ^ 1) by (f_equal; ring). apply isf_inv2. lia. Qed.

(** One exponential: at most 2, and at least 1/2 for the largest element of the row. *)
Lemma exponential_range m q r : (0 < m)%nat -> fev lib fv (softmax_exp_ex m q) r ->
  exists y, r = Fin y /\ isf y /\ 0 <= y <= 2 /\ ((forall k, (k < m)%nat -> v 0 (q / m * m + k) <= v 0 q) -> / 2 <= y).
Proof.
  intros M0 (a & (x & mx & -> & (xs & X & MX) & A) & L). unfold fv in *.
  assert (EX : forall k, (k < m)%nat -> xs k = Fin (v 0 (q / m * m + k)%nat)) by (intros k Hk; exact (X k Hk)).
  destruct MX as [(k & Hk & C)|(k & Hk & -> & MX)]; [rewrite (EX k Hk) in C; discriminate|]. rewrite (EX k Hk) in A, MX.
  assert (Q : (q mod m < m)%nat) by (apply Nat.mod_upper_bound; lia).
  assert (Eq : (q / m * m + q mod m = q)%nat) by (rewrite (Nat.mul_comm (q / m)); symmetry; apply Nat.div_mod; lia).
  pose proof (MX _ Q) as LE. rewrite (EX _ Q), Eq in LE. apply ltb_false in LE. set (M := v 0 (q / m * m + k)%nat) in *.
  change (fsub (Fin (v 0%nat q)) (Fin M) a) with (rnd (v 0%nat q + - M) a) in A.
  pose proof (EO _ _ L) as O. destruct a as [z|s|]; [| |destruct A].
  - assert (Z0 : z <= 0) by (apply (rounds_le _ _ 0 A isf_0); lra). destruct O as [(y & -> & Fy & Y0 & Y2 & Y1)|(C & _)]; [|lra].
    exists y. split; [reflexivity|]. split; [exact Fy|]. split; [split; [exact Y0|exact (Y2 Z0)]|]. intros MQ. apply Y1. specialize (MQ k Hk). fold M in MQ.
    apply (rounds_ge _ _ 0 A isf_0). lra.
  - destruct A as (A1 & A2). destruct s; [|lra]. destruct O as (y & -> & Fy & Y). exists y. split; [reflexivity|]. split; [exact Fy|]. split; [exact Y|].
    intros MQ. specialize (MQ k Hk). fold M in MQ. lra.
Qed.

Lemma row_max m i : (0 < m)%nat -> exists q, (q < m)%nat /\ forall k, (k < m)%nat -> v 0 (i * m + k) <= v 0 (i * m + q).
Proof.
  intros M0. destruct (rmax_attained m (fun k => v 0 (i * m + k)%nat) M0) as (q & Hq & E). exists q. split; [exact Hq|]. intros k Hk. rewrite <- E.
  exact (rmax_ge m (fun k => v 0 (i * m + k)%nat) k Hk).
Qed.

Lemma row_index i m k : (k < m)%nat -> ((i * m + k) / m = i)%nat.
Proof. intros Hk. rewrite Nat.div_add_l by lia. rewrite Nat.div_small by exact Hk. lia. Qed.
Lemma in_rows n m q k : (q < n * m)%nat -> (k < m)%nat -> (q / m * m + k < n * m)%nat.
Proof. intros Hq Hk. assert (q / m < n)%nat by (apply Nat.div_lt_upper_bound; nia). nia. Qed.

Lemma softmax_unit n m out q : fsoftmax lib fv n m out -> (q < n * m)%nat ->
  exists y, out q = Fin y /\ isf y /\ 0 <= y <= 1.
Proof.
  intros (es & ES & D) Hq. assert (M0 : (0 < m)%nat) by (destruct m; [rewrite Nat.mul_0_r in Hq; lia|lia]).
  destruct (D q Hq) as (s & SU & DV).
  assert (F : forall k, (k < m)%nat -> exists y, es (q / m * m + k)%nat = Fin y /\ isf y /\ 0 <= y).
  { intros k Hk. destruct (exponential_range m _ _ M0 (ES _ (in_rows n m q k Hq Hk))) as (y & E & Fy & Y & _). exists y. split; [exact E|]. split; [exact Fy|lra]. }
  destruct (exponential_range m _ _ M0 (ES q Hq)) as (x & Ex & Fx & X & _). rewrite Ex in DV.
  destruct (fsummed_above m _ s F SU) as [(t & -> & Ft & T0 & TD)| ->].
  2:{ exists 0. split; [exact DV|]. split; [exact isf_0|lra]. }
  assert (Q : (q mod m < m)%nat) by (apply Nat.mod_upper_bound; lia).
  assert (Eq : (q / m * m + q mod m = q)%nat) by (rewrite (Nat.mul_comm (q / m)); symmetry; apply Nat.div_mod; lia).
  pose proof (TD (q mod m)%nat x Q ltac:(rewrite Eq; exact Ex)) as XT.
  assert (TP : / 2 <= t).
  { destruct (row_max m (q / m)%nat M0) as (k & Hk & MK). destruct (exponential_range m _ _ M0 (ES _ (in_rows n m q k Hq Hk))) as (y & E & _ & _ & Y1).
    apply Rle_trans with y; [apply Y1|exact (TD k y Hk E)]. intros j Hj. rewrite row_index by exact Hk. apply MK, Hj. }
  cbn in DV. destruct (Req_EM_T t 0) as [C|_]; [lra|]. assert (TI : 0 < / t) by (apply Rinv_0_lt_compat; lra).
  assert (XD : 0 <= x / t <= 1).
  { split; [apply Rmult_le_pos; lra|]. apply (Rmult_le_reg_r t); [lra|]. unfold Rdiv. rewrite Rmult_assoc, Rinv_l, Rmult_1_r by lra. lra. }
  assert (AB : Rabs (x / t) <= top) by (rewrite Rabs_right by lra; pose proof top_big; assert (1 <= 2 ^ 127) by (apply pow_R1_Rle; lra); lra).
  destruct (rnd_fin _ _ AB DV) as (y & -> & R0 & _). exists y. split; [reflexivity|]. split; [exact (rounds_isf _ _ R0)|].
  split; [apply (rounds_ge _ _ 0 R0 isf_0); lra|apply (rounds_le _ _ 1 R0 isf_1); lra].
Qed.

(** The sum of at most 2^23 numbers. *)
Lemma sum_grown_small m a : (m <= 2 ^ 23)%nat -> 0 <= a -> sum_grown m (INR m * a) <= 3 * (INR m * a) + 1.
Proof.
  intros L A. unfold sum_grown.
  assert (MR : INR m <= 2 ^ 23) by (apply le_INR in L; rewrite pow_INR in L; cbn [INR] in L; replace (1 + 1) with 2 in L by ring; exact L).
  assert (P2 : 0 < 2 ^ 23) by (apply pow_lt; lra). assert (P23 : 2 ^ 23 = 8388608) by (rewrite pow2_IZR; reflexivity).
  assert (EI : eps32 * 2 ^ 23 = 1) by (unfold eps32; apply Rinv_l; lra). pose proof eps32_pos as EP. pose proof (pos_INR m) as MP.
  assert (PW : forall k, (1 + eps32) ^ k <= exp (INR k * eps32)).
  { induction k as [|k IH]; [cbn [pow INR]; rewrite Rmult_0_l, exp_0; lra|]. cbn [pow]. rewrite S_INR. replace ((INR k + 1) * eps32) with (eps32 + INR k * eps32) by ring. rewrite exp_plus.
    apply Rmult_le_compat; [lra|apply pow_le; lra| |exact IH]. left. apply exp_ineq1. lra. }
  assert (K : (1 + eps32) ^ (m - 1) <= 3).
  { eapply Rle_trans; [apply PW|]. apply Rle_trans with (exp 1); [|exact exp_le_3]. assert (INR (m - 1) * eps32 <= 1).
    { assert (INR (m - 1) <= INR m) by (apply le_INR; lia). rewrite <- EI. rewrite (Rmult_comm eps32). apply Rmult_le_compat_r; lra. }
    destruct H as [H|H]; [left; apply exp_increasing, H|rewrite H; lra]. }
  assert (K1 : 1 <= (1 + eps32) ^ (m - 1)) by (apply pow1_ge; lra).
  assert (M1 : INR (m - 1) <= INR m) by (apply le_INR; lia). pose proof (pos_INR (m - 1)) as M2.
  assert (T : tiny32 * 2 ^ 149 = 1) by (unfold tiny32; apply Rinv_l, pow_nonzero; lra). pose proof tiny32_pos as TP.
  assert (B : 2 ^ 23 * 4 <= 2 ^ 149) by (replace 4 with (2 ^ 2) by ring; rewrite <- pow_add; apply Rle_pow; [lra|lia]).
  set (P := (1 + eps32) ^ (m - 1)) in *. apply Rplus_le_compat.
  - apply Rmult_le_compat_r; [apply Rmult_le_pos; lra|exact K].
  - assert (INR (m - 1) * P <= 2 ^ 23 * 4) by (apply Rmult_le_compat; lra). assert (INR (m - 1) * P * tiny32 <= 2 ^ 23 * 4 * tiny32) by (apply Rmult_le_compat_r; lra).
    assert (2 ^ 23 * 4 * tiny32 <= 2 ^ 149 * tiny32) by (apply Rmult_le_compat_r; lra). lra.
Qed.

(** The largest element of a row gets at least its share, up to a factor. *)
Lemma softmax_top n m out q : fsoftmax lib fv n m out -> (q < n * m)%nat -> (m <= 2 ^ 23)%nat ->
  (forall k, (k < m)%nat -> v 0 (q / m * m + k) <= v 0 q) -> exists y, out q = Fin y /\ / 2 ^ 28 <= y.
Proof.
  intros SM Hq LM MQ. destruct (softmax_unit n m out q SM Hq) as (y & Ey & Fy & Y). exists y. split; [exact Ey|].
  destruct SM as (es & ES & D). assert (M0 : (0 < m)%nat) by (destruct m; [rewrite Nat.mul_0_r in Hq; lia|lia]).
  destruct (D q Hq) as (s & SU & DV). rewrite Ey in DV.
  assert (G : forall k, exists y, (k < m)%nat -> es (q / m * m + k)%nat = Fin y /\ 0 <= y <= 2).
  { intros k. destruct (Nat.lt_ge_cases k m) as [Hk|Hk]; [|exists 0; intros; lia]. destruct (exponential_range m _ _ M0 (ES _ (in_rows n m q k Hq Hk))) as (z & E & _ & Z & _). eauto. }
  destruct (exponential_range m _ _ M0 (ES q Hq)) as (x & Ex & Fx & X & X1). specialize (X1 MQ). rewrite Ex in DV.
  set (ys := fun k => match es (q / m * m + k)%nat with Fin y => y | _ => 0 end).
  assert (YS : forall k, (k < m)%nat -> es (q / m * m + k)%nat = Fin (ys k) /\ 0 <= ys k <= 2).
  { intros k Hk. destruct (G k) as (z & Z). destruct (Z Hk) as (E & B). unfold ys. rewrite E. auto. }
  rewrite (ftab_ext m _ (fun k => Fin (ys k)) (fun k Hk => proj1 (YS k Hk))) in SU.
  assert (SA : rsum m (fun k => Rabs (ys k)) <= INR m * 2).
  { rewrite <- rsum_const. apply rsum_le. intros k Hk. destruct (YS k Hk) as (_ & B). rewrite Rabs_right; lra. }
  assert (MR : INR m <= 2 ^ 23) by (apply le_INR in LM; rewrite pow_INR in LM; cbn [INR] in LM; replace (1 + 1) with 2 in LM by ring; exact LM).
  assert (P26 : 3 * (INR m * 2) + 1 <= 2 ^ 26) by (replace (2 ^ 26) with (8 * 2 ^ 23) by (rewrite !pow2_IZR; change (8 * IZR 8388608 = IZR 67108864); ring); assert (1 <= 2 ^ 23) by (apply pow_R1_Rle; lra); lra).
  pose proof (sum_grown_small m 2 LM ltac:(lra)) as SG.
  assert (SM1 : sum_grown m (rsum m (fun k => Rabs (ys k))) <= 2 ^ 26).
  { eapply Rle_trans; [|eapply Rle_trans; [exact SG|exact P26]]. unfold sum_grown. apply Rplus_le_compat_r, Rmult_le_compat_l; [|exact SA].
    pose proof (pow1_ge eps32 (m - 1) (Rlt_le _ _ eps32_pos)). lra. }
  assert (BT : 2 ^ 26 <= top) by (pose proof top_big; assert (2 ^ 26 <= 2 ^ 127) by (apply Rle_pow; [lra|lia]); lra).
  destruct (fsummed_fin m ys s ltac:(lra) SU) as (t & -> & _ & TB).
  assert (TP : 0 <= t).
  { destruct (fsummed_above m (fun k => Fin (ys k)) (Fin t)) as [(t' & E & _ & T0 & _)|C]; [|exact SU| |discriminate].
    - intros k Hk. exists (ys k). split; [reflexivity|]. destruct (YS k Hk) as (E & B). destruct (exponential_range m _ _ M0 (ES _ (in_rows n m q k Hq Hk))) as (z & E' & Fz & _). rewrite E in E'. injection E' as <-. split; [exact Fz|lra].
    - injection E as <-. exact T0. }
  cbn in DV. destruct (Req_EM_T t 0) as [C|TN]; [destruct (Req_EM_T x 0); [discriminate|destruct DV; discriminate]|].
  assert (TT : t <= 2 ^ 26) by (rewrite Rabs_right in TB; lra).
  apply (rounds_ge _ _ (/ 2 ^ 28) DV); [apply isf_inv2; lia|].
  assert (T1 : 0 < t) by lra. assert (P28 : 0 < 2 ^ 28) by (apply pow_lt; lra).
  apply (Rmult_le_reg_r t); [exact T1|]. unfold Rdiv. rewrite Rmult_assoc, Rinv_l, Rmult_1_r by lra.
  assert (Q : / 2 ^ 28 * t <= / 2 ^ 28 * 2 ^ 26) by (apply Rmult_le_compat_l; [left; apply Rinv_0_lt_compat, P28|exact TT]).
  replace (2 ^ 28) with (2 ^ 26 * 4) in Q at 2 by (replace 4 with (2 ^ 2) by ring; rewrite <- pow_add; reflexivity). assert (P26' : 0 < 2 ^ 26) by (apply pow_lt; lra).
  replace (/ (2 ^ 26 * 4) * 2 ^ 26) with (/ 4) in Q by (field; lra). lra.
Qed.

(** Sigmoid. *)
Lemma sigmoid_unit p r : Rabs (v 0 p) <= top -> fev lib fv (sigmoid_ex p) r -> exists y, r = Fin y /\ isf y /\ 0 <= y <= 1.
Proof.
  intros T (one & d & -> & (e & o & (a & (x & y & -> & -> & A) & L) & -> & S) & D). unfold fv in A.
  assert (A1 : exists z, a = Fin z).
  { destruct A as [A|A]; [|eauto]. assert (AB : Rabs (v 0%nat p * -1) <= top) by (rewrite Rabs_mult, (Rabs_left (-1)) by lra; lra). destruct (rnd_fin _ _ AB A) as (z & E & _). eauto. }
  destruct A1 as (z & ->). pose proof (EO _ _ L) as O.
  assert (E : (exists w, d = Fin w /\ 1 <= w) \/ d = Inf false).
  { destruct O as [(w & -> & Fw & W0 & _)|(_ & ->)]; [|right; exact S]. change (rnd (w + 1) d) in S. destruct d as [t|sg|]; [|destruct S as (_ & S); destruct sg; [lra|right; reflexivity]|destruct S].
    left. exists t. split; [reflexivity|]. apply (rounds_ge _ _ 1 S isf_1). lra. }
  destruct E as [(w & -> & W)| ->]; cbn in D.
  - destruct (Req_EM_T w 0) as [C|_]; [lra|]. assert (WI : 0 < / w) by (apply Rinv_0_lt_compat; lra).
    assert (Q : 0 <= 1 / w <= 1).
    { split; [apply Rmult_le_pos; lra|]. apply (Rmult_le_reg_r w); [lra|]. unfold Rdiv. rewrite Rmult_assoc, Rinv_l, Rmult_1_r by lra. lra. }
    assert (AB : Rabs (1 / w) <= top) by (rewrite Rabs_right by lra; pose proof top_big; assert (1 <= 2 ^ 127) by (apply pow_R1_Rle; lra); lra).
    destruct (rnd_fin _ _ AB D) as (t & -> & R0 & _). exists t. split; [reflexivity|]. split; [exact (rounds_isf _ _ R0)|].
    split; [apply (rounds_ge _ _ 0 R0 isf_0); lra|apply (rounds_le _ _ 1 R0 isf_1); lra].
  - exists 0. split; [exact D|]. split; [exact isf_0|lra].
Qed.
End Softmax.
