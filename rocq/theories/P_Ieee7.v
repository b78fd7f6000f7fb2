(** Loss, gradients and step with floats. *)
From Coq Require Import Reals Lra Lia ZArith Permutation List Bool.
From Verif Require Import Base BaseFacts Sums S_Float M_Im2col S_Im2col M_Kernels M_Conv M_Layers M_Round S_Round P_Kernels P_Float P_Round P_Round2 P_Round5 M_Ieee S_Ieee P_Ieee P_Ieee2 P_Ieee3 P_Ieee4 P_Ieee5.
Import ListNotations.
Open Scope R_scope.

(** ** Sums with infinities and NaN *)
Lemma fadd_nan_r a r : fadd a NaN r -> r = NaN. Proof. destruct a; auto. Qed.
Lemma fadd_nan_l b r : fadd NaN b r -> r = NaN. Proof. auto. Qed.
Lemma fadded_nan t r : In NaN (fleaves t) -> fadded t r -> r = NaN.
Proof.
  revert r. induction t as [x|a IHa b IHb]; intros r I A.
  - destruct I as [->|[]]. exact A.
  - destruct A as (x & y & A1 & A2 & A3). cbn [fleaves] in I. apply in_app_iff in I as [I|I].
    + rewrite (IHa _ I A1) in A3. exact (fadd_nan_l _ _ A3).
    + rewrite (IHb _ I A2) in A3. exact (fadd_nan_r _ _ A3).
Qed.
Lemma tab_in n (f : nat -> flt) k : (k < n)%nat -> In (f k) (tab n f).
Proof. intros Hk. unfold tab. apply in_map_iff. exists k. split; [reflexivity|apply in_seq; lia]. Qed.
Lemma in_tab n (f : nat -> flt) x : In x (tab n f) -> exists k, (k < n)%nat /\ x = f k.
Proof. intros I. unfold tab in I. apply in_map_iff in I as (k & <- & Hk). apply in_seq in Hk. exists k. split; [lia|reflexivity]. Qed.
Lemma fsummed_nan n f r k : (k < n)%nat -> f k = NaN -> fsummed (tab n f) r -> r = NaN.
Proof.
  intros Hk E S. pose proof (tab_in n f k Hk) as I. rewrite E in I. unfold fsummed in S. destruct (tab n f) as [|x l]; [destruct I|].
  destruct S as (t & P & A). apply (fadded_nan t r); [|exact A]. apply (Permutation_in NaN P). exact I.
Qed.

(** Sums of numbers up to zero and negative infinities. *)
Lemma fadded_neg t : (forall x, In x (fleaves t) -> x = Inf true \/ exists y, x = Fin y /\ y <= 0) -> forall r, fadded t r ->
  (r = Inf true \/ exists y, r = Fin y /\ y <= 0) /\ (In (Inf true) (fleaves t) -> r = Inf true).
Proof.
  induction t as [x|a IHa b IHb]; intros F r A.
  - cbn in A. subst r. split; [apply F; left; reflexivity|]. intros [->|[]]. reflexivity.
  - destruct A as (x & y & A1 & A2 & A3). cbn [fleaves] in *.
    destruct (IHa (fun z Hz => F z (in_or_app _ _ _ (or_introl Hz))) _ A1) as (X & XI). destruct (IHb (fun z Hz => F z (in_or_app _ _ _ (or_intror Hz))) _ A2) as (Y & YI).
    rewrite in_app_iff. destruct X as [->|(x' & -> & X)]; destruct Y as [->|(y' & -> & Y)]; cbn in A3.
    + subst r. auto.
    + subst r. auto.
    + subst r. auto.
    + split; [|intros [I|I]; [specialize (XI I)|specialize (YI I)]; discriminate].
      destruct r as [z|s|]; [right; exists z; split; [reflexivity|]; apply (rounds_le _ _ 0 A3 isf_0); lra| |destruct A3].
      destruct A3 as (_ & A3). destruct s; [auto|lra].
Qed.
Lemma fsummed_neg n f r : (forall k, (k < n)%nat -> f k = Inf true \/ exists y, f k = Fin y /\ y <= 0) -> forall k, (k < n)%nat -> f k = Inf true -> fsummed (tab n f) r -> r = Inf true.
Proof.
  intros F k Hk E S. pose proof (tab_in n f k Hk) as I. rewrite E in I. unfold fsummed in S. assert (TI := in_tab n f). destruct (tab n f) as [|x l]; [destruct I|].
  destruct S as (t & P & A). apply (fadded_neg t) with (r := r); [|exact A|apply (Permutation_in _ P); exact I].
  intros z Hz. apply (Permutation_in z (Permutation_sym P)) in Hz. destruct (TI z Hz) as (j & Hj & ->). apply F, Hj.
Qed.

Lemma int_fin n r : (n <= 2 ^ 24)%nat -> rnd (INR n) r -> r = Fin (INR n).
Proof.
  intros L R0. destruct (rnd_fin (INR n) r) as (y & -> & Ry & _); [rewrite Rabs_right by (apply Rle_ge, pos_INR); apply int_top, L|exact R0|].
  f_equal. apply rounds_self; [apply int_isf, L|exact Ry].
Qed.
Lemma le_24 n : (n <= 2 ^ 23)%nat -> (n <= 2 ^ 24)%nat.
Proof. intros L. eapply Nat.le_trans; [exact L|]. apply Nat.pow_le_mono_r; lia. Qed.
Lemma rnd_zero r : rnd 0 r -> r = Fin 0.
Proof.
  intros R0. destruct (rnd_fin 0 r) as (y & -> & Ry & _); [rewrite Rabs_R0; pose proof one_top; lra|exact R0|]. f_equal. apply rounds_self; [exact isf_0|exact Ry].
Qed.

(** ** The loss *)
Section Loss.
Variable lg : flt -> flt -> Prop.
Hypothesis LO : log_ok lg.

Lemma loss_finite rows m pred label r : (0 < rows)%nat -> (rows <= 2 ^ 23)%nat ->
  (forall i, (i < rows)%nat -> exists y, pred (i * m + label i)%nat = Fin y /\ isf y /\ 0 < y <= 1) ->
  floss lg rows m pred label r -> exists l, r = Fin l /\ Rabs l <= 512.
Proof.
  intros R0 RL P (ls & LG & (xx & n & (zz & s & Z0 & (xs & XS & SU) & SB) & NN & DV)). cbn in Z0. subst zz. rewrite (ftab_ext rows xs ls XS) in SU. rewrite (int_fin rows n (le_24 _ RL) NN) in DV.
  set (ys := fun i => match ls i with Fin y => y | _ => 0 end).
  assert (YS : forall i, (i < rows)%nat -> ls i = Fin (ys i) /\ Rabs (ys i) <= 104).
  { intros i Hi. destruct (P i Hi) as (y & Ey & Fy & Y). pose proof (LG i Hi) as L. rewrite Ey in L. destruct (LO _ _ L) as (A & _). destruct (A Fy Y) as (z & Ez & Z).
    unfold ys. rewrite Ez. split; [reflexivity|]. apply Rabs_le. lra. }
  rewrite (ftab_ext rows _ (fun k => Fin (ys k)) (fun k Hk => proj1 (YS k Hk))) in SU.
  assert (SA : rsum rows (fun k => Rabs (ys k)) <= INR rows * 104) by (rewrite <- rsum_const; apply rsum_le; intros k Hk; apply YS, Hk).
  pose proof (sum_grown_small (fun _ _ => 0) rows 104 RL ltac:(lra)) as SG. pose proof (sum_grown_mono rows _ _ SA) as SM.
  assert (N1 : 1 <= INR rows) by (apply (le_INR 1); lia).
  assert (NL : INR rows <= 2 ^ 23) by (apply le_INR in RL; rewrite pow_INR in RL; cbn [INR] in RL; replace (1 + 1) with 2 in RL by ring; exact RL).
  assert (TB : 512 * INR rows <= top).
  { pose proof top_big. assert (2 ^ 32 <= 2 ^ 127) by (apply Rle_pow; [lra|lia]). replace (2 ^ 32) with (512 * 2 ^ 23) in * by (rewrite !pow2_IZR; change (512 * IZR 8388608 = IZR 4294967296); ring). lra. }
  destruct (fsummed_fin rows ys s ltac:(lra) SU) as (t & -> & _ & TT). cbn in SB.
  pose proof eps32_pos as E0. pose proof tiny32_pos as T0. assert (E8 : eps32 <= / 8) by (unfold eps32; apply Rinv_le_contravar; [lra|]; replace 8 with (2 ^ 3) by ring; apply Rle_pow; [lra|lia]).
  assert (T8 : tiny32 <= / 8) by (unfold tiny32; apply Rinv_le_contravar; [lra|]; replace 8 with (2 ^ 3) by ring; apply Rle_pow; [lra|lia]).
  assert (TS : Rabs (0 + - t) = Rabs t) by (rewrite Rplus_0_l; apply Rabs_Ropp).
  destruct (rnd_fin (0 + - t) xx) as (t' & -> & _ & NT); [lra|exact SB|]. cbn in DV.
  assert (TT' : Rabs t' <= 400 * INR rows).
  { unfold near in NT. rewrite TS in NT. pose proof (Rabs_pos t) as P0. pose proof (Rmult_le_compat eps32 (/ 8) (Rabs t) (Rabs t) (Rlt_le _ _ E0) P0 E8 (Rle_refl _)).
    replace t' with ((t' - (0 + - t)) + (0 + - t)) by ring. eapply Rle_trans; [apply Rabs_triang|]. lra. }
  destruct (Req_EM_T (INR rows) 0) as [C|_]; [lra|].
  assert (IN : 0 < / INR rows) by (apply Rinv_0_lt_compat; lra).
  assert (DB : Rabs (t' / INR rows) <= 400).
  { unfold Rdiv. rewrite Rabs_mult, (Rabs_right (/ INR rows)) by lra. apply (Rmult_le_reg_r (INR rows)); [lra|]. rewrite Rmult_assoc, Rinv_l, Rmult_1_r by lra. lra. }
  assert (T313 : 400 <= top) by lra.
  destruct (rnd_fin (t' / INR rows) r) as (l & -> & Rl & _); [lra|exact DV|]. exists l. split; [reflexivity|].
  assert (I512 : isf 512) by (replace 512 with (2 ^ 9) by ring; apply isf_pow2; lia).
  apply Rabs_le. pose proof (Rle_abs (t' / INR rows)). pose proof (Rabs_Ropp (t' / INR rows)) as AO. pose proof (Rle_abs (- (t' / INR rows))).
  split; [apply (rounds_ge _ _ _ Rl (isf_opp _ I512)); lra|apply (rounds_le _ _ _ Rl I512); lra].
Qed.

Lemma loss_infinite rows m pred label r i : (rows <= 2 ^ 23)%nat -> (i < rows)%nat -> pred (i * m + label i)%nat = Fin 0 ->
  (forall i, (i < rows)%nat -> exists y, pred (i * m + label i)%nat = Fin y /\ isf y /\ 0 <= y <= 1) ->
  floss lg rows m pred label r -> r = Inf false.
Proof.
  intros RL Hi E0 P (ls & LG & (xx & n & (zz & s & Z0 & (xs & XS & SU) & SB) & NN & DV)). cbn in Z0. subst zz. rewrite (ftab_ext rows xs ls XS) in SU. rewrite (int_fin rows n (le_24 _ RL) NN) in DV.
  assert (F : forall k, (k < rows)%nat -> ls k = Inf true \/ exists y, ls k = Fin y /\ y <= 0).
  { intros k Hk. destruct (P k Hk) as (y & Ey & Fy & Y). pose proof (LG k Hk) as L. rewrite Ey in L. destruct (LO _ _ L) as (A & B).
    destruct (Req_dec y 0) as [Z|Z]; [left; exact (B Z)|]. destruct (A Fy ltac:(lra)) as (z & Ez & Zz). right. exists z. split; [exact Ez|lra]. }
  assert (N1 : 1 <= INR rows) by (apply (le_INR 1); lia).
  rewrite (fsummed_neg rows ls s F i Hi) in SB; [|pose proof (LG i Hi) as L; rewrite E0 in L; exact (proj2 (LO _ _ L) eq_refl)|exact SU].
  cbn in SB. subst xx. cbn in DV. destruct (Req_EM_T (INR rows) 0) as [C|_]; [lra|]. assert (LT : ltb (INR rows) 0 = false) by (unfold ltb; destruct (Rlt_dec (INR rows) 0); [lra|reflexivity]).
  rewrite LT in DV. exact DV.
Qed.
End Loss.

(** ** The gradients *)
Section Gradients.
Variable lib : flt -> flt -> Prop.
Variable label : nat -> nat.
Variables rows m : nat.
Hypothesis R0 : (0 < rows)%nat.
Hypothesis RL : (rows <= 2 ^ 23)%nat.

Lemma rows_pos : 1 <= INR rows. Proof. apply (le_INR 1). lia. Qed.

Lemma loss_grad_other v p g : (p mod m)%nat <> label (p / m)%nat -> fev lib v (loss_grad_ex rows m label p) g -> g = Fin 0.
Proof.
  intros NE (x & n & X & N & D). destruct (Nat.eqb_spec (p mod m) (label (p / m)%nat)) as [C|_]; [contradiction|]. cbn in X, N. subst x.
  rewrite (int_fin rows n (le_24 _ RL) N) in D. cbn in D. pose proof rows_pos. destruct (Req_EM_T (INR rows) 0) as [C|_]; [lra|].
  apply rnd_zero. replace 0 with (0 / INR rows) by (unfold Rdiv; ring). exact D.
Qed.

Lemma loss_grad_zero v p g : (p mod m)%nat = label (p / m)%nat -> v 0%nat p = Fin 0 -> fev lib v (loss_grad_ex rows m label p) g -> exists s, g = Inf s.
Proof.
  intros EQ E0 (x & n & X & N & D). rewrite EQ, Nat.eqb_refl in X. destruct X as (a & b & -> & B & Q). cbn in B, N. rewrite E0 in B. subst b. cbn in Q.
  destruct (Req_EM_T 0 0) as [_|C]; [|contradiction]. destruct (Req_EM_T (-1) 0) as [C|_]; [lra|]. destruct Q as (s & ->).
  rewrite (int_fin rows n (le_24 _ RL) N) in D. cbn in D. pose proof rows_pos. destruct (Req_EM_T (INR rows) 0) as [C|_]; [lra|]. eauto.
Qed.

Lemma loss_grad_label v p g y : (p mod m)%nat = label (p / m)%nat -> v 0%nat p = Fin y -> / 2 ^ 124 <= y <= 1 -> fev lib v (loss_grad_ex rows m label p) g ->
  exists x, g = Fin x /\ Rabs x <= 2 ^ 124 /\ Rabs x * y <= 2.
Proof.
  intros EQ Ey Y (x & n & X & N & D). rewrite EQ, Nat.eqb_refl in X. destruct X as (a & b & -> & B & Q). cbn in B, N. rewrite Ey in B. subst b. cbn in Q.
  assert (P124 : 0 < 2 ^ 124) by (apply pow_lt; lra). assert (I124 : 0 < / 2 ^ 124) by (apply Rinv_0_lt_compat; exact P124).
  destruct (Req_EM_T y 0) as [C|_]; [lra|]. assert (YI : 0 < / y) by (apply Rinv_0_lt_compat; lra).
  assert (YL : / y <= 2 ^ 124) by (rewrite <- (Rinv_inv (2 ^ 124)); apply Rinv_le_contravar; lra).
  assert (T124 : 2 ^ 124 <= top) by (pose proof top_big; assert (2 ^ 124 <= 2 ^ 127) by (apply Rle_pow; [lra|lia]); lra).
  assert (F124 : isf (2 ^ 124)) by (apply isf_pow2; lia).
  assert (A1 : -1 / y = - / y) by (unfold Rdiv; ring).
  destruct (rnd_fin (-1 / y) x) as (z & -> & Rz & Nz); [rewrite A1, Rabs_Ropp, Rabs_right by lra; lra|exact Q|].
  assert (ZB : Rabs z <= 2 ^ 124).
  { apply Rabs_le. split; [apply (rounds_ge _ _ _ Rz (isf_opp _ F124)); lra|apply (rounds_le _ _ _ Rz F124); lra]. }
  assert (ZN : Rabs z <= (1 + eps32) * / y + tiny32).
  { apply (near_abs eps32 tiny32 (-1 / y) z (/ y)); [left; apply eps32_pos|exact Nz|]. rewrite A1, Rabs_Ropp, Rabs_right by lra. lra. }
  rewrite (int_fin rows n (le_24 _ RL) N) in D. cbn in D. pose proof rows_pos as N1. destruct (Req_EM_T (INR rows) 0) as [C|_]; [lra|].
  assert (IN : 0 < / INR rows <= 1) by (split; [apply Rinv_0_lt_compat; lra|rewrite <- Rinv_1; apply Rinv_le_contravar; lra]).
  assert (DZ : Rabs (z / INR rows) <= Rabs z).
  { unfold Rdiv. rewrite Rabs_mult, (Rabs_right (/ INR rows)) by lra. pose proof (Rabs_pos z). nra. }
  destruct (rnd_fin (z / INR rows) g) as (w & -> & Rw & Nw); [lra|exact D|]. exists w. split; [reflexivity|].
  pose proof (Rle_abs (z / INR rows)). pose proof (Rle_abs (- (z / INR rows))) as M2. rewrite Rabs_Ropp in M2.
  split; [apply Rabs_le; split; [apply (rounds_ge _ _ _ Rw (isf_opp _ F124)); lra|apply (rounds_le _ _ _ Rw F124); lra]|].
  assert (WN : Rabs w <= (1 + eps32) * Rabs z + tiny32) by (apply (near_abs eps32 tiny32 (z / INR rows) w (Rabs z)); [left; apply eps32_pos|exact Nw|exact DZ]).
  pose proof eps32_pos as EP. pose proof tiny32_pos as TP.
  assert (E8 : eps32 <= / 8) by (unfold eps32; apply Rinv_le_contravar; [lra|]; replace 8 with (2 ^ 3) by ring; apply Rle_pow; [lra|lia]).
  assert (T8 : tiny32 <= / 8) by (unfold tiny32; apply Rinv_le_contravar; [lra|]; replace 8 with (2 ^ 3) by ring; apply Rle_pow; [lra|lia]).
  assert (ZY : Rabs z * y <= 1 + / 8 + / 8).
  { apply Rle_trans with (((1 + eps32) * / y + tiny32) * y); [apply Rmult_le_compat_r; lra|]. rewrite Rmult_plus_distr_r, Rmult_assoc, Rinv_l by lra.
    assert (tiny32 * y <= / 8 * 1) by (apply Rmult_le_compat; lra). lra. }
  apply Rle_trans with (((1 + eps32) * Rabs z + tiny32) * y); [apply Rmult_le_compat_r; lra|].
  rewrite Rmult_plus_distr_r, Rmult_assoc. assert (tiny32 * y <= / 8 * 1) by (apply Rmult_le_compat; lra).
  assert (0 <= Rabs z * y) by (apply Rmult_le_pos; [apply Rabs_pos|lra]). assert (eps32 * (Rabs z * y) <= / 8 * (1 + / 8 + / 8)) by (apply Rmult_le_compat; lra). lra.
Qed.

(** *** Softmax *)
Lemma softmax_grad_nan v p r c s : (0 < m)%nat -> (c < m)%nat -> v 0%nat (p / m * m + c)%nat = Fin 0 -> v 1%nat (p / m * m + c)%nat = Inf s ->
  fev lib v (softmax_grad_ex m p) r -> r = NaN.
Proof.
  intros M0 Hc E0 E1 (x & y & _ & (o & d & _ & (g & k & _ & (xs & XS & SU) & SB) & ML) & A).
  assert (KN : k = NaN).
  { apply (fsummed_nan m xs k c Hc); [|exact SU]. destruct (XS c Hc) as (a & b & Ha & Hb & PR). cbn in Ha, Hb. rewrite E1 in Ha. rewrite E0 in Hb. subst a b. cbn in PR.
    destruct (Req_EM_T 0 0) as [_|C]; [exact PR|contradiction]. }
  subst k. unfold fsub in SB. apply fadd_nan_r in SB. subst d. assert (y = NaN) as -> by (destruct o; exact ML). exact (fadd_nan_r _ _ A).
Qed.

Lemma softmax_grad_bounded (o g : nat -> R) p r c : (c < m)%nat -> (m <= 2 ^ 23)%nat ->
  (forall k, (k < m)%nat -> 0 <= o (p / m * m + k)%nat <= 1) -> (forall k, (k < m)%nat -> k <> c -> g (p / m * m + k)%nat = 0) ->
  Rabs (g (p / m * m + c)%nat) <= 2 ^ 124 -> Rabs (g (p / m * m + c)%nat) * o (p / m * m + c)%nat <= 2 ->
  fev lib (fun a i => Fin (match a with 0%nat => o i | 1%nat => g i | _ => 0 end)) (softmax_grad_ex m p) r -> exists x, r = Fin x /\ isf x /\ Rabs x <= 16.
Proof.
  clear R0 RL label rows. intros Hc LM O GZ GB GO F. assert (M0 : (0 < m)%nat) by lia. assert (Q : (p mod m < m)%nat) by (apply Nat.mod_upper_bound; lia).
  set (v := fun (a i : nat) => match a with 0%nat => o i | 1%nat => g i | _ => 0 end) in *.
  set (i := (p / m)%nat) in *. assert (Ep : p = (i * m + p mod m)%nat) by (unfold i; rewrite (Nat.mul_comm (p / m)); apply Nat.div_mod; lia).
  set (G := g (i * m + c)%nat) in *. set (Y := o (i * m + c)%nat) in *. pose proof (O c Hc) as Yc. fold Y in Yc.
  pose proof eps32_pos as EP. pose proof tiny32_pos as TP.
  assert (E8 : eps32 <= / 8) by (unfold eps32; apply Rinv_le_contravar; [lra|]; replace 8 with (2 ^ 3) by ring; apply Rle_pow; [lra|lia]).
  assert (T8 : tiny32 <= / 8) by (unfold tiny32; apply Rinv_le_contravar; [lra|]; replace 8 with (2 ^ 3) by ring; apply Rle_pow; [lra|lia]).
  assert (I8 : isf 8) by (replace 8 with (2 ^ 3) by ring; apply isf_pow2; lia).
  assert (I16 : isf 16) by (replace 16 with (2 ^ 4) by ring; apply isf_pow2; lia).
  assert (T127 : 2 ^ 127 <= top) by exact top_big.
  assert (P124 : 2 ^ 124 * 8 = 2 ^ 127) by (replace 8 with (2 ^ 3) by ring; rewrite <- pow_add; reflexivity).
  assert (P4 : 512 <= 2 ^ 124) by (replace 512 with (2 ^ 9) by ring; apply Rle_pow; [lra|lia]).
  assert (RB : forall x z f, roundish x z -> isf f -> Rabs x <= f -> Rabs z <= f).
  { intros x z f Rz Ff L. pose proof (Rle_abs x). pose proof (Rle_abs (- x)) as M2. rewrite Rabs_Ropp in M2.
    apply Rabs_le. split; [apply (roundish_ge _ _ _ Rz (isf_opp _ Ff)); lra|apply (roundish_le _ _ _ Rz Ff); lra]. }
  assert (TS : tame lib False eps32 tiny32 v (ESum m (fun k => EMul (EVar 1 (i * m + k)) (EVar 0 (i * m + k)))) (fun x => Rabs x <= 7)).
  { set (bd := fun k => if (k =? c)%nat then 2 else 0).
    assert (SB : rsum m bd = 2).
    { rewrite (rsum_single m c bd Hc); unfold bd; [rewrite Nat.eqb_refl; reflexivity|]. intros k _ NE. destruct (Nat.eqb_spec k c); [contradiction|reflexivity]. }
    assert (SG : sum_grown m 2 <= 7).
    { assert (N1 : 0 < INR m) by (apply lt_0_INR; lia). pose proof (sum_grown_small (fun _ _ => 0) m (2 / INR m) LM) as SS. replace (INR m * (2 / INR m)) with 2 in SS by (field; lra).
      assert (0 <= 2 / INR m) by (apply Rmult_le_pos; [lra|left; apply Rinv_0_lt_compat; lra]). specialize (SS H). lra. }
    apply (tame_sum lib False eps32 tiny32 (Rle_refl _) (Rle_refl _) v m _ (fun k x => Rabs x <= bd k) bd).
    - intros k Hk. apply (tame_mul lib False eps32 tiny32 (Rle_refl _) (Rle_refl _) v _ _ (fun x => x = g (i * m + k)%nat) (fun x => x = o (i * m + k)%nat)); [apply tame_var; reflexivity|apply tame_var; reflexivity|].
      intros x y -> ->. unfold bd. destruct (Nat.eqb_spec k c) as [->|NE].
      + fold G Y. assert (L : Rabs (G * Y) <= 2) by (rewrite Rabs_mult, (Rabs_right Y) by lra; exact GO). split; [lra|]. intros z Rz. exact (RB _ _ _ Rz isf_2 L).
      + rewrite (GZ k Hk NE), Rmult_0_l. split; [rewrite Rabs_R0; lra|]. intros z Rz. apply (RB _ _ _ Rz isf_0). rewrite Rabs_R0. lra.
    - intros k x _ X. exact X.
    - rewrite SB. lra.
    - intros xs s _ _ _ L. rewrite SB in L. lra. }
  assert (TM : tame lib False eps32 tiny32 v (EMul (EVar 0 p) (ESub (EVar 1 p) (ESum m (fun k => EMul (EVar 1 (i * m + k)) (EVar 0 (i * m + k)))))) (fun x => Rabs x <= 16)).
  { destruct (Nat.eq_dec (p mod m) c) as [EC|NC].
    - assert (Epc : p = (i * m + c)%nat) by (rewrite <- EC; exact Ep).
      apply (tame_mul lib False eps32 tiny32 (Rle_refl _) (Rle_refl _) v _ _ (fun x => x = Y) (fun d => Rabs d <= (1 + eps32) * (Rabs G + 7) + tiny32)).
      + apply tame_var. unfold v. rewrite Epc. reflexivity.
      + apply (tame_sub lib False eps32 tiny32 (Rle_refl _) (Rle_refl _) v _ _ (fun x => x = G) (fun x => Rabs x <= 7)); [apply tame_var; unfold v; rewrite Epc; reflexivity|exact TS|].
        intros x y -> Hy. assert (L : Rabs (G - y) <= Rabs G + 7) by (pose proof (Rabs_triang G (- y)) as TR; rewrite Rabs_Ropp in TR; fold (G - y) in TR; lra).
        split; [lra|]. intros z Rz. exact (rounds_grown (G - y) z (Rabs G + 7) ltac:(lra) Rz L).
      + intros x d -> D. assert (L : Rabs (Y * d) <= 16).
        { rewrite Rabs_mult, (Rabs_right Y), Rmult_comm by lra. apply Rle_trans with (((1 + eps32) * (Rabs G + 7) + tiny32) * Y); [apply Rmult_le_compat_r; lra|].
          replace (((1 + eps32) * (Rabs G + 7) + tiny32) * Y) with ((1 + eps32) * (Rabs G * Y + 7 * Y) + tiny32 * Y) by ring.
          assert (tiny32 * Y <= / 8 * 1) by (apply Rmult_le_compat; lra). assert (0 <= Rabs G * Y) by (apply Rmult_le_pos; [apply Rabs_pos|lra]).
          assert (eps32 * (Rabs G * Y + 7 * Y) <= / 8 * 9) by (apply Rmult_le_compat; lra). lra. }
        split; [lra|]. intros z Rz. exact (RB _ _ _ Rz I16 L).
    - assert (Op : 0 <= o p <= 1) by (rewrite Ep; apply O, Q). assert (Gp : g p = 0) by (rewrite Ep; apply GZ; assumption).
      apply (tame_mul lib False eps32 tiny32 (Rle_refl _) (Rle_refl _) v _ _ (fun x => x = o p) (fun d => Rabs d <= 8)).
      + apply tame_var. reflexivity.
      + apply (tame_sub lib False eps32 tiny32 (Rle_refl _) (Rle_refl _) v _ _ (fun x => x = 0) (fun x => Rabs x <= 7)); [apply tame_var; exact Gp|exact TS|].
        intros x y -> Hy. assert (L : Rabs (0 - y) <= 8) by (rewrite Rminus_0_l, Rabs_Ropp; lra).
        split; [lra|]. intros z Rz. exact (RB _ _ _ (or_introl Rz) I8 L).
      + intros x d -> D. assert (L : Rabs (o p * d) <= 16) by (rewrite Rabs_mult, (Rabs_right (o p)) by lra; pose proof (Rabs_pos d); nra).
        split; [lra|]. intros z Rz. exact (RB _ _ _ Rz I16 L). }
  assert (T : tame lib False eps32 tiny32 v (softmax_grad_ex m p) (fun x => isf x /\ Rabs x <= 16)).
  { unfold softmax_grad_ex. fold i. apply (tame_add lib False eps32 tiny32 (Rle_refl _) (Rle_refl _) v _ _ (fun x => x = 0) (fun x => Rabs x <= 16)); [apply tame_var; reflexivity|exact TM|].
    intros x y -> Hy. rewrite Rplus_0_l. split; [lra|]. intros z Rz. split; [exact (rounds_isf _ _ Rz)|]. exact (RB _ _ _ (or_introl Rz) I16 Hy). }
  destruct (T r F) as (x & E & P & _). exists x. tauto.
Qed.

(** *** Linear and the step *)
Lemma linear_grad_nan K v p r i : (i < rows)%nat -> v 1%nat (i * m + p / K)%nat = NaN -> fev lib v (linear_grad_ex rows K m p) r -> r = NaN.
Proof.
  intros Hi E (xs & XS & SU). apply (fsummed_nan rows xs r i Hi); [|exact SU]. destruct (XS i Hi) as (a & b & A & _ & ML). cbn in A. rewrite E in A. subst a. exact ML.
Qed.
Lemma sgd_nan lr v p r : v 1%nat p = NaN -> fev lib v (sgd_ex lr p) r -> r = NaN.
Proof.
  intros E (x & y & _ & (a & b & -> & B & ML) & S). cbn in B. rewrite E in B. subst b. cbn in ML. subst y. unfold fsub in S. exact (fadd_nan_r _ _ S).
Qed.

Lemma linear_grad_bounded K (x g : nat -> R) p r B : (forall i, (i < rows)%nat -> Rabs (x (i * K + p mod K)%nat) <= B) -> (forall i, (i < rows)%nat -> Rabs (g (i * m + p / K)%nat) <= 16) ->
  16 * B <= top -> sum_grown rows (INR rows * grown (16 * B)) <= top ->
  fev lib (fun a i => Fin (match a with 0%nat => x i | 1%nat => g i | _ => 0 end)) (linear_grad_ex rows K m p) r ->
  exists d, r = Fin d /\ Rabs d <= sum_grown rows (INR rows * grown (16 * B)).
Proof.
  clear R0 RL label. intros X G T1 T2 F. set (v := fun (a i : nat) => match a with 0%nat => x i | 1%nat => g i | _ => 0 end) in *.
  assert (T : tame lib False eps32 tiny32 v (linear_grad_ex rows K m p) (fun d => Rabs d <= sum_grown rows (INR rows * grown (16 * B)))).
  { unfold linear_grad_ex. apply (tame_sum lib False eps32 tiny32 (Rle_refl _) (Rle_refl _) v rows _ (fun _ d => Rabs d <= grown (16 * B)) (fun _ => grown (16 * B))).
    - intros k Hk. apply (tame_mul lib False eps32 tiny32 (Rle_refl _) (Rle_refl _) v _ _ (fun z => Rabs z <= 16) (fun z => Rabs z <= B)); [apply tame_var, G, Hk|apply tame_var, X, Hk|].
      intros a b A B0. assert (L : Rabs (a * b) <= 16 * B) by (rewrite Rabs_mult; apply Rmult_le_compat; try apply Rabs_pos; assumption).
      split; [lra|]. intros z Rz. exact (roundish_grown _ _ _ (Rle_trans _ _ _ L T1) Rz L).
    - intros k d _ D. exact D.
    - rewrite rsum_const. exact T2.
    - intros xs s _ _ _ L. rewrite rsum_const in L. exact L. }
  destruct (T r F) as (d & E & P & _). exists d. tauto.
Qed.
Lemma sgd_bounded lr (w d : nat -> R) p r Wb D : Rabs (w p) <= Wb -> Rabs (d p) <= D -> Rabs lr * D <= top -> Wb + grown (Rabs lr * D) <= top ->
  fev lib (fun a i => Fin (match a with 0%nat => w i | 1%nat => d i | _ => 0 end)) (sgd_ex lr p) r -> exists z, r = Fin z /\ Rabs z <= grown (Wb + grown (Rabs lr * D)).
Proof.
  clear R0 RL label rows m. intros W DB T1 T2 F. set (v := fun (a i : nat) => match a with 0%nat => w i | 1%nat => d i | _ => 0 end) in *.
  assert (T : tame lib False eps32 tiny32 v (sgd_ex lr p) (fun z => Rabs z <= grown (Wb + grown (Rabs lr * D)))).
  { unfold sgd_ex. apply (tame_sub lib False eps32 tiny32 (Rle_refl _) (Rle_refl _) v _ _ (fun z => Rabs z <= Wb) (fun z => Rabs z <= grown (Rabs lr * D))); [apply tame_var, W| |].
    - apply (tame_mul lib False eps32 tiny32 (Rle_refl _) (Rle_refl _) v _ _ (fun z => z = lr) (fun z => Rabs z <= D)); [apply tame_const; reflexivity|apply tame_var, DB|].
      intros a b -> B0. assert (L : Rabs (lr * b) <= Rabs lr * D) by (rewrite Rabs_mult; apply Rmult_le_compat_l; [apply Rabs_pos|exact B0]).
      split; [lra|]. intros z Rz. exact (roundish_grown _ _ _ (Rle_trans _ _ _ L T1) Rz L).
    - intros a b A B0. assert (L : Rabs (a - b) <= Wb + grown (Rabs lr * D)) by (pose proof (Rabs_triang a (- b)) as TR; rewrite Rabs_Ropp in TR; fold (a - b) in TR; lra).
      split; [lra|]. intros z Rz. exact (rounds_grown _ _ _ (Rle_trans _ _ _ L T2) Rz L). }
  destruct (T r F) as (z & E & P & _). exists z. tauto.
Qed.
End Gradients.

(** ** Probabilities that are zero, and not *)
Section Prob.
Variable lib : flt -> flt -> Prop.
Hypothesis EO : exp_ok lib.
Variable v : nat -> nat -> R.
Notation fv := (fun a i : nat => Fin (v a i)).

Lemma exp_argument m q r : (0 < m)%nat -> fev lib fv (softmax_exp_ex m q) r ->
  exists M a, (exists k, (k < m)%nat /\ M = v 0 (q / m * m + k)) /\ (forall k, (k < m)%nat -> v 0 (q / m * m + k) <= M) /\ rnd (v 0 q - M) a /\ lib a r.
Proof.
  intros M0 (a & (x & mx & -> & (xs & X & MX) & A) & L).
  assert (EX : forall k, (k < m)%nat -> xs k = Fin (v 0 (q / m * m + k)%nat)) by (intros k Hk; exact (X k Hk)).
  destruct MX as [(k & Hk & C)|(k & Hk & -> & MX)]; [rewrite (EX k Hk) in C; discriminate|]. rewrite (EX k Hk) in A, MX.
  exists (v 0 (q / m * m + k)%nat), a. split; [eauto|]. split; [|split; [exact A|exact L]].
  intros j Hj. specialize (MX j Hj). rewrite (EX j Hj) in MX. apply ltb_false in MX. exact MX.
Qed.

Lemma softmax_zero n m out q k : exp_underflows lib -> fsoftmax lib fv n m out -> (q < n * m)%nat -> (k < m)%nat -> v 0 q <= v 0 (q / m * m + k) - 104 -> out q = Fin 0.
Proof.
  intros (U1 & U2) SM Hq Hk GAP. destruct (softmax_unit lib EO v n m out q SM Hq) as (y & Ey & Fy & Y). destruct SM as (es & ES & D).
  destruct (D q Hq) as (s & SU & DV). assert (M0 : (0 < m)%nat) by lia.
  destruct (exp_argument m q _ M0 (ES q Hq)) as (M & a & _ & MX & A & L). specialize (MX k Hk).
  assert (I104 : isf (- (104))) by (apply isf_opp; apply (isf_int 104); lia).
  assert (EZ : es q = Fin 0).
  { destruct a as [z|sg|]; [apply (U1 z); [apply (rounds_le _ _ _ A I104); lra|exact L]| |destruct A]. destruct A as (_ & A). destruct sg; [exact (U2 _ L)|lra]. }
  rewrite EZ in DV. assert (F : forall k, (k < m)%nat -> exists y, es (q / m * m + k)%nat = Fin y /\ isf y /\ 0 <= y).
  { intros j Hj. destruct (exponential_range lib EO v m _ _ M0 (ES _ (in_rows v n m q j Hq Hj))) as (z & E & Fz & Z & _). exists z. split; [exact E|]. split; [exact Fz|lra]. }
  destruct (fsummed_above m _ s F SU) as [(t & -> & Ft & T0 & TD)| ->]; [|exact DV].
  cbn in DV. destruct (Req_EM_T t 0) as [C|NE].
  - destruct (Req_EM_T 0 0) as [_|C2]; [rewrite Ey in DV; discriminate|contradiction].
  - apply rnd_zero. replace 0 with (0 / t) by (unfold Rdiv; ring). exact DV.
Qed.

Lemma softmax_parts n m out q : fsoftmax lib fv n m out -> (q < n * m)%nat -> (m <= 2 ^ 23)%nat ->
  exists x t, fev lib fv (softmax_exp_ex m q) (Fin x) /\ 0 < t <= 2 ^ 26 /\ rnd (x / t) (out q).
Proof.
  intros SM Hq LM. destruct (softmax_unit lib EO v n m out q SM Hq) as (y & Ey & Fy & Y).
  destruct SM as (es & ES & D). assert (M0 : (0 < m)%nat) by (destruct m; [rewrite Nat.mul_0_r in Hq; lia|lia]).
  destruct (D q Hq) as (s & SU & DV).
  assert (G : forall k, exists y, (k < m)%nat -> es (q / m * m + k)%nat = Fin y /\ 0 <= y <= 2).
  { intros k. destruct (Nat.lt_ge_cases k m) as [Hk|Hk]; [|exists 0; intros; lia]. destruct (exponential_range lib EO v m _ _ M0 (ES _ (in_rows v n m q k Hq Hk))) as (z & E & _ & Z & _). eauto. }
  destruct (exponential_range lib EO v m _ _ M0 (ES q Hq)) as (x & Ex & Fx & X & _).
  set (ys := fun k => match es (q / m * m + k)%nat with Fin y => y | _ => 0 end).
  assert (YS : forall k, (k < m)%nat -> es (q / m * m + k)%nat = Fin (ys k) /\ 0 <= ys k <= 2).
  { intros k Hk. destruct (G k) as (z & Z). destruct (Z Hk) as (E & B). unfold ys. rewrite E. auto. }
  rewrite (ftab_ext m _ (fun k => Fin (ys k)) (fun k Hk => proj1 (YS k Hk))) in SU.
  assert (SA : rsum m (fun k => Rabs (ys k)) <= INR m * 2).
  { rewrite <- rsum_const. apply rsum_le. intros k Hk. destruct (YS k Hk) as (_ & B). rewrite Rabs_right; lra. }
  assert (MR : INR m <= 2 ^ 23) by (apply le_INR in LM; rewrite pow_INR in LM; cbn [INR] in LM; replace (1 + 1) with 2 in LM by ring; exact LM).
  assert (P26 : 3 * (INR m * 2) + 1 <= 2 ^ 26) by (replace (2 ^ 26) with (8 * 2 ^ 23) by (rewrite !pow2_IZR; change (8 * IZR 8388608 = IZR 67108864); ring); assert (1 <= 2 ^ 23) by (apply pow_R1_Rle; lra); lra).
  pose proof (sum_grown_small v m 2 LM ltac:(lra)) as SG. pose proof (sum_grown_mono m _ _ SA) as SM1.
  assert (BT : 2 ^ 26 <= top) by (pose proof top_big; assert (2 ^ 26 <= 2 ^ 127) by (apply Rle_pow; [lra|lia]); lra).
  destruct (fsummed_fin m ys s ltac:(lra) SU) as (t & -> & _ & TB).
  assert (TP : 0 <= t).
  { destruct (fsummed_above m (fun k => Fin (ys k)) (Fin t)) as [(t' & E & _ & T0 & _)|C]; [|exact SU| |discriminate].
    - intros k Hk. exists (ys k). split; [reflexivity|]. destruct (YS k Hk) as (E & B). destruct (exponential_range lib EO v m _ _ M0 (ES _ (in_rows v n m q k Hq Hk))) as (z & E' & Fz & _). rewrite E in E'. injection E' as <-. split; [exact Fz|lra].
    - injection E as <-. exact T0. }
  exists x, t. split; [rewrite <- Ex; apply ES, Hq|]. rewrite Ex in DV. cbn in DV. rewrite Rabs_right in TB by lra.
  destruct (Req_EM_T t 0) as [C|TN]; [rewrite Ey in DV; destruct (Req_EM_T x 0); [discriminate|destruct DV; discriminate]|]. split; [lra|exact DV].
Qed.

Lemma pow3_96 : 3 ^ 60 <= 2 ^ 96.
Proof.
  replace (3 ^ 60) with ((3 ^ 5) ^ 12) by (rewrite <- pow_mult; reflexivity). replace (2 ^ 96) with ((2 ^ 8) ^ 12) by (rewrite <- pow_mult; reflexivity).
  apply pow_incr. lra.
Qed.
Lemma exp_60 x : - (60) <= x -> / 2 ^ 96 <= exp x.
Proof.
  intros L. apply Rle_trans with (exp (- (60))); [|destruct L as [L| ->]; [left; apply exp_increasing, L|lra]].
  rewrite exp_Ropp. apply Rinv_le_contravar; [apply exp_pos|]. eapply Rle_trans; [|exact pow3_96].
  replace 60 with (INR 60) by (rewrite INR_IZR_INZ; reflexivity). rewrite <- (Rmult_1_r (INR 60)), Rmult_comm.
  assert (PE : forall n x, exp (x * INR n) = exp x ^ n).
  { intros n z. induction n as [|n IH]; [cbn; rewrite Rmult_0_r; exact exp_0|]. rewrite S_INR, Rmult_plus_distr_l, Rmult_1_r, exp_plus, IH. cbn [pow]. ring. }
  rewrite PE. apply pow_incr. split; [left; apply exp_pos|exact exp_le_3].
Qed.

Lemma softmax_low n m out q u eta : exp_near u eta lib -> u <= / 2 -> 0 <= eta <= / 2 ^ 149 -> fsoftmax lib fv n m out -> (q < n * m)%nat -> (m <= 2 ^ 23)%nat ->
  (forall k, (k < m)%nat -> v 0 (q / m * m + k) - 60 <= v 0 q) -> exists y, out q = Fin y /\ / 2 ^ 124 <= y.
Proof.
  intros EN Hu He SM Hq LM GAP. destruct (softmax_unit lib EO v n m out q SM Hq) as (y & Ey & Fy & Y). exists y. split; [exact Ey|].
  destruct (softmax_parts n m out q SM Hq LM) as (x & t & FX & T & DV). rewrite Ey in DV. assert (M0 : (0 < m)%nat) by (destruct m; [rewrite Nat.mul_0_r in Hq; lia|lia]).
  destruct (exp_argument m q _ M0 FX) as (M & a & (k & Hk & EM) & MX & A & L). specialize (GAP k Hk). rewrite <- EM in GAP.
  assert (Q : (q mod m < m)%nat) by (apply Nat.mod_upper_bound; lia).
  assert (Eq : (q / m * m + q mod m = q)%nat) by (rewrite (Nat.mul_comm (q / m)); symmetry; apply Nat.div_mod; lia).
  pose proof (MX _ Q) as LE. rewrite Eq in LE.
  assert (I60 : isf (- (60))) by (apply isf_opp; apply (isf_int 60); lia).
  destruct (rnd_fin (v 0%nat q - M) a) as (z & -> & Rz & _); [|exact A|].
  { rewrite Rabs_left1 by lra. pose proof top_big. assert (2 ^ 6 <= 2 ^ 127) by (apply Rle_pow; [lra|lia]). lra. }
  assert (ZL : - (60) <= z) by (apply (rounds_ge _ _ _ Rz I60); lra). assert (ZU : z <= 0) by (apply (rounds_le _ _ _ Rz isf_0); lra).
  destruct (EN z (Fin x)) as (x' & E & N); [rewrite Rabs_left1 by lra; lra|exact L|]. injection E as <-.
  pose proof (exp_60 z ZL) as XL. unfold near in N. rewrite (Rabs_right (exp z)) in N by (left; apply exp_pos). pose proof (Rle_abs (- (x - exp z))) as RA. rewrite Rabs_Ropp in RA.
  assert (UX : u * exp z <= / 2 * exp z) by (apply Rmult_le_compat_r; [left; apply exp_pos|exact Hu]).
  assert (P98 : 0 < 2 ^ 98) by (apply pow_lt; lra).
  assert (E96 : / 2 ^ 96 = 4 * / 2 ^ 98) by (replace (2 ^ 98) with (2 ^ 96 * 4) by (replace 4 with (2 ^ 2) by ring; rewrite <- pow_add; reflexivity); assert (0 < 2 ^ 96) by (apply pow_lt; lra); field; lra).
  assert (E149 : / 2 ^ 149 <= / 2 ^ 98) by (apply Rinv_le_contravar; [exact P98|apply Rle_pow; [lra|lia]]).
  assert (XB : / 2 ^ 98 <= x) by lra.
  apply (rounds_ge _ _ (/ 2 ^ 124) DV); [apply isf_inv2; lia|].
  assert (I98 : 0 < / 2 ^ 98) by (apply Rinv_0_lt_compat; exact P98).
  apply (Rmult_le_reg_r t); [lra|]. unfold Rdiv. rewrite Rmult_assoc, Rinv_l, Rmult_1_r by lra.
  assert (P124 : 0 < 2 ^ 124) by (apply pow_lt; lra). assert (P26 : 0 < 2 ^ 26) by (apply pow_lt; lra).
  apply Rle_trans with (/ 2 ^ 124 * 2 ^ 26); [apply Rmult_le_compat_l; [left; apply Rinv_0_lt_compat; exact P124|lra]|].
  replace (2 ^ 124) with (2 ^ 98 * 2 ^ 26) by (rewrite <- pow_add; reflexivity). replace (/ (2 ^ 98 * 2 ^ 26) * 2 ^ 26) with (/ 2 ^ 98) by (field; split; lra). exact XB.
Qed.
End Prob.
