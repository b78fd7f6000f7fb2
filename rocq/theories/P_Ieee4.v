(** Every layer keeps within its bounds. *)
From Coq Require Import Reals Lra Lia ZArith Permutation List.
From Verif Require Import Base BaseFacts Sums S_Float M_Im2col S_Im2col M_Kernels M_Conv M_Layers M_Round S_Round P_Kernels P_Float P_Round P_Round2 P_Round5 M_Ieee S_Ieee P_Ieee P_Ieee2 P_Ieee3.
Import ListNotations.
Open Scope R_scope.

Lemma fsummed_nonneg n xs s : (forall k, (k < n)%nat -> 0 <= xs k) -> fsummed (tab n (fun k => Fin (xs k))) (Fin s) -> 0 <= s.
Proof.
  intros N S. unfold fsummed in S. rewrite <- map_tab in S. destruct (tab n xs) as [|x l] eqn:E; cbn [map] in S; [injection S as ->; lra|].
  destruct S as (t & P & A). change (Fin x :: map Fin l) with (map Fin (x :: l)) in P. rewrite <- E in P.
  destruct (fadded_nonneg t) with (r := Fin s) as [(y & E2 & Y)|C]; [|exact A|injection E2 as <-; exact Y|discriminate].
  intros y Iy. apply (Permutation_in y (Permutation_sym P)) in Iy. apply in_map_iff in Iy as (z & <- & Iz). left. exists z. split; [reflexivity|].
  unfold tab in Iz. apply in_map_iff in Iz as (k & <- & Hk). apply in_seq in Hk. apply N. lia.
Qed.

Lemma sum_grown_mono n A A' : A <= A' -> sum_grown n A <= sum_grown n A'.
Proof. intros L. unfold sum_grown. apply Rplus_le_compat_r, Rmult_le_compat_l; [|exact L]. pose proof (pow1_ge eps32 (n - 1) (Rlt_le _ _ eps32_pos)). lra. Qed.

Section Layers.
Variable lib : flt -> flt -> Prop.
Hypothesis EO : exp_ok lib.
Variable lk : Prop.
Variables u eta : R.
Hypothesis Hu : eps32 <= u.
Hypothesis Heta : tiny32 <= eta.
Variable v : nat -> nat -> R.
Notation tame := (tame lib lk u eta v).

Lemma tame_affine K (f : nat -> ex) (x w : nat -> R) b A : (forall k, (k < K)%nat -> tame (f k) (fun y => roundish (x k * w k) y)) ->
  rsum K (fun k => Rabs (x k) * Rabs (w k)) <= A -> affine_grown K A (Rabs b) <= top ->
  tame (EAdd (ESum K f) (EConst b)) (fun r => Rabs r <= affine_grown K A (Rabs b)).
Proof.
  intros T SA TOP. pose proof eps32_pos as EP. pose proof tiny32_pos as TP.
  set (A0 := rsum K (fun k => Rabs (x k) * Rabs (w k))) in *.
  assert (PA : forall k, 0 <= Rabs (x k) * Rabs (w k)) by (intros k; apply Rmult_le_pos; apply Rabs_pos).
  assert (A00 : 0 <= A0) by (unfold A0; replace 0 with (rsum K (fun _ => 0)) by apply rsum_0; apply rsum_le; intros k _; apply PA).
  assert (T1 : forall k, (k < K)%nat -> Rabs (x k) * Rabs (w k) <= A0).
  { intros k Hk. unfold A0. pose proof (rsum_indicator K k (fun k => Rabs (x k) * Rabs (w k))) as RI. destruct (Nat.ltb_spec k K); [|lia]. rewrite <- RI. apply rsum_le. intros j _. destruct (Nat.eqb j k); [lra|apply PA]. }
  pose proof (pow1_ge eps32 (K + 1) (Rlt_le _ _ EP)) as PW. pose proof (pos_INR (2 * K + 1)) as PI. pose proof (Rabs_pos b) as PB.
  assert (G0 : 0 <= INR (2 * K + 1) * (1 + eps32) ^ (K + 1) * tiny32) by (apply Rmult_le_pos; [apply Rmult_le_pos; lra|lra]).
  assert (AT : A0 <= top) by (eapply Rle_trans; [|exact TOP]; unfold affine_grown; nra).
  assert (NR : forall k y, (k < K)%nat -> roundish (x k * w k) y -> near eps32 tiny32 (x k * w k) y).
  { intros k y Hk [R0| ->]; [|apply near_exact; lra]. destruct (rnd_fin (x k * w k) (Fin y)) as (y' & E & _ & N); [rewrite Rabs_mult; specialize (T1 k Hk); lra|exact R0|]. injection E as <-. exact N. }
  set (bd := fun k => grown (Rabs (x k) * Rabs (w k))).
  assert (SB : rsum K bd = (1 + eps32) * A0 + INR K * tiny32).
  { unfold bd, grown, A0. rewrite rsum_plus, rsum_scal_l, rsum_const. reflexivity. }
  assert (SG : sum_grown K (rsum K bd) + Rabs b <= affine_grown K A (Rabs b)).
  { rewrite SB. unfold sum_grown, affine_grown. destruct K as [|K].
    - cbn [Nat.sub INR pow Nat.mul Nat.add]. replace (0 - 1)%nat with 0%nat by lia. cbn [pow INR]. assert (0 <= eps32 * (A + Rabs b)) by (apply Rmult_le_pos; lra). nra.
    - replace (S K - 1)%nat with K by lia. replace (S K + 1)%nat with (S (S K)) by lia. cbn [pow]. pose proof (pow1_ge eps32 K (Rlt_le _ _ EP)) as PK. set (P := (1 + eps32) ^ K) in *.
      replace (2 * S K + 1)%nat with (S K + S K + 1)%nat by lia. rewrite !plus_INR, !S_INR. pose proof (pos_INR K) as PN. set (N := INR K) in *. cbn [INR].
      assert (Q1 : P * ((1 + eps32) * A0) <= (1 + eps32) * ((1 + eps32) * P) * A).
      { replace (P * ((1 + eps32) * A0)) with ((1 + eps32) * P * A0) by ring. apply Rmult_le_compat; [apply Rmult_le_pos; lra|exact A00| |exact SA].
        assert (0 <= eps32 * ((1 + eps32) * P)) by (apply Rmult_le_pos; [lra|apply Rmult_le_pos; lra]). lra. }
      assert (Q2 : P * tiny32 <= (1 + eps32) * ((1 + eps32) * P) * tiny32).
      { apply Rmult_le_compat_r; [lra|]. assert (0 <= eps32 * P) by (apply Rmult_le_pos; lra). assert (0 <= eps32 * ((1 + eps32) * P)) by (apply Rmult_le_pos; [lra|apply Rmult_le_pos; lra]). lra. }
      assert (Q3 : Rabs b <= (1 + eps32) * ((1 + eps32) * P) * Rabs b).
      { rewrite <- (Rmult_1_l (Rabs b)) at 1. apply Rmult_le_compat_r; [lra|]. assert (0 <= eps32 * P) by (apply Rmult_le_pos; lra). assert (0 <= eps32 * ((1 + eps32) * P)) by (apply Rmult_le_pos; [lra|apply Rmult_le_pos; lra]). lra. }
      set (W := (1 + eps32) * ((1 + eps32) * P)) in *. set (pt := P * tiny32) in *. set (wt := W * tiny32) in *.
      replace (P * ((1 + eps32) * A0 + (N + 1) * tiny32) + N * P * tiny32 + Rabs b) with (P * ((1 + eps32) * A0) + (2 * N + 1) * pt + Rabs b) by (unfold pt; ring).
      replace (W * (A + Rabs b) + (N + 1 + (N + 1) + (0 + 1)) * W * tiny32) with (W * A + (2 * N + 3) * wt + W * Rabs b) by (unfold wt; ring).
      assert (PT : 0 <= pt) by (unfold pt; apply Rmult_le_pos; lra).
      assert ((2 * N + 1) * pt <= (2 * N + 3) * wt) by (apply Rmult_le_compat; lra). lra. }
  apply (tame_add lib lk u eta Hu Heta v _ _ (fun s => exists ys, (forall k, (k < K)%nat -> roundish (x k * w k) (ys k)) /\ summed eps32 tiny32 (tab K ys) s /\ Rabs s <= sum_grown K (rsum K bd)) (fun y => y = b)).
  - apply (tame_sum lib lk u eta Hu Heta v K f (fun k y => roundish (x k * w k) y) bd); [exact T| | |].
    + intros k y Hk Y. cbv beta in Y. unfold bd. apply (roundish_grown (x k * w k)); [rewrite Rabs_mult; specialize (T1 k Hk); lra|exact Y|rewrite Rabs_mult; lra].
    + lra.
    + intros xs s P _ SU L. exists xs. auto.
  - apply tame_const. reflexivity.
  - intros s y (ys & Y & SU & SL) ->.
    assert (L : Rabs (s + b) <= top) by (pose proof (Rabs_triang s b); lra). split; [exact L|]. intros z R0.
    destruct (rnd_fin _ (Fin z) L R0) as (z' & E & _ & N). injection E as <-.
    pose proof (affine_bound eps32 tiny32 0 K x x w ys b s z (Rlt_le _ _ EP) (Rlt_le _ _ TP) (Rle_refl 0)) as AB.
    assert (AB' : Rabs (z - (rsum K (fun k => x k * w k) + b)) <= affine_error eps32 tiny32 0 K A0 (rsum K (fun k => Rabs (w k))) (Rabs b)).
    { apply AB; [intros k _; unfold Rminus; rewrite Rplus_opp_r, Rabs_R0; lra|intros k Hk; exact (NR k _ Hk (Y k Hk))|exact SU|exact N]. }
    unfold affine_error in AB'. rewrite Rmult_0_l, Rmult_0_r, Rplus_0_r in AB'.
    assert (EX : Rabs (rsum K (fun k => x k * w k) + b) <= A0 + Rabs b).
    { eapply Rle_trans; [apply Rabs_triang|]. apply Rplus_le_compat_r. eapply Rle_trans; [apply rsum_abs_le|]. apply rsum_le. intros k _. rewrite Rabs_mult. lra. }
    pose proof (Rabs_triang (z - (rsum K (fun k => x k * w k) + b)) (rsum K (fun k => x k * w k) + b)) as TR. replace (z - (rsum K (fun k => x k * w k) + b) + (rsum K (fun k => x k * w k) + b)) with z in TR by ring.
    unfold affine_grown. assert ((1 + eps32) ^ (K + 1) * (A0 + Rabs b) <= (1 + eps32) ^ (K + 1) * (A + Rabs b)) by (apply Rmult_le_compat_l; lra). lra.
Qed.

Lemma tame_mean n (f : nat -> ex) (nn : Prop) b : (0 < n)%nat -> (n <= 2 ^ 24)%nat -> 0 <= b -> (forall k, (k < n)%nat -> tame (f k) (fun x => Rabs x <= b /\ (nn -> 0 <= x))) ->
  sum_grown n (INR n * b) <= top -> tame (EDiv (ESum n f) (EInt n)) (fun x => Rabs x <= mean_grown n b /\ (nn -> 0 <= x)).
Proof.
  intros N0 NL B0 T TOP. assert (NR : 1 <= INR n) by (apply (le_INR 1); lia).
  assert (IN : 0 < / INR n) by (apply Rinv_0_lt_compat; lra).
  apply (tame_div lib lk u eta Hu Heta v _ _ (fun s => Rabs s <= sum_grown n (INR n * b) /\ (nn -> 0 <= s)) (fun y => y = INR n)).
  - apply (tame_sum lib lk u eta Hu Heta v n f (fun _ x => Rabs x <= b /\ (nn -> 0 <= x)) (fun _ => b)); [exact T|intros k x Hk (X & _); exact X|rewrite rsum_const; exact TOP|].
    intros xs s P F _ L. rewrite rsum_const in L. split; [exact L|]. intros q. apply (fsummed_nonneg n xs s); [|exact F]. intros k Hk. exact (proj2 (P k Hk) q).
  - apply (tame_int lib lk u eta Hu Heta v n NL).
  - intros s y (SL & SN) ->. split; [lra|].
    assert (L : Rabs (s / INR n) <= sum_grown n (INR n * b) / INR n).
    { unfold Rdiv. rewrite Rabs_mult, (Rabs_right (/ INR n)) by lra. apply Rmult_le_compat_r; lra. }
    assert (L2 : sum_grown n (INR n * b) / INR n <= sum_grown n (INR n * b)).
    { unfold Rdiv. rewrite <- (Rmult_1_r (sum_grown n (INR n * b))) at 2. apply Rmult_le_compat_l; [pose proof (Rabs_pos s); lra|]. rewrite <- Rinv_1. apply Rinv_le_contravar; lra. }
    split; [lra|]. intros z R0. split; [apply (rounds_grown (s / INR n)); [lra|exact R0|exact L]|].
    intros q. specialize (SN q). apply (rounds_ge _ _ 0 R0 isf_0). unfold Rdiv. apply Rmult_le_pos; lra.
Qed.

Lemma tame_cent n (at_ : nat -> nat -> nat) (tr : bool) (rm : list R) i j B0 : (forall i, Rabs (v 0%nat i) <= B0) -> 0 <= B0 ->
  let M := if tr then mean_grown n B0 else Rabs rm.[j] in
  (if tr then (0 < n)%nat /\ (n <= 2 ^ 24)%nat /\ sum_grown n (INR n * B0) <= top else True) -> grown (B0 + M) <= top ->
  tame (bn_cent_ex n at_ tr rm i j) (fun x => Rabs x <= grown (B0 + M)).
Proof.
  intros HV HB M REST CT. unfold bn_cent_ex.
  assert (TM : tame (if tr then EDiv (ESum n (fun i => EVar 0 (at_ i j))) (EInt n) else EConst rm.[j]) (fun x => Rabs x <= M)).
  { unfold M. destruct tr; [|apply tame_const; lra]. destruct REST as (N0 & NL & T1).
    apply (tame_weak lib lk u eta v _ (fun x => Rabs x <= mean_grown n B0 /\ (False -> 0 <= x))); [|intros x (A & _); exact A].
    apply tame_mean; [exact N0|exact NL|exact HB| |exact T1]. intros k _. apply tame_var. split; [apply HV|intros []]. }
  apply (tame_sub lib lk u eta Hu Heta v _ _ (fun x => Rabs x <= B0) (fun x => Rabs x <= M)); [apply tame_var, HV|exact TM|].
  intros x y X Y. assert (L : Rabs (x - y) <= B0 + M) by (unfold Rminus; eapply Rle_trans; [apply Rabs_triang|]; rewrite Rabs_Ropp; lra).
  pose proof (grown_ge (B0 + M) ltac:(pose proof (Rabs_pos y); lra)). split; [lra|]. intros z R0. apply (rounds_grown (x - y)); [lra|exact R0|exact L].
Qed.

Lemma sqrt_top x : 0 <= x <= top -> sqrt x <= top.
Proof.
  intros (X0 & XT). destruct (Rle_dec 1 x) as [L1|L1].
  - eapply Rle_trans; [|exact XT]. rewrite <- (sqrt_sqrt x) at 2 by lra. assert (1 <= sqrt x) by (rewrite <- sqrt_1; apply sqrt_le_1_alt; lra). nra.
  - apply Rle_trans with 1; [rewrite <- sqrt_1; apply sqrt_le_1_alt; lra|]. pose proof top_big. assert (1 <= 2 ^ 127) by (apply pow_R1_Rle; lra). lra.
Qed.

(** The second stage; [v] holds the centred values as variable 1. *)
Lemma tame_scaled n m (tr : bool) eps (ga be rv : list R) i j C s B : (forall k, (k < n)%nat -> Rabs (v 1%nat (k * m + j)%nat) <= C) -> (i < n)%nat -> 0 <= C -> B <= top ->
  isf s -> isf (s * s) -> 0 < s -> Rabs ga.[j] / s <= top -> grown (C * grown (Rabs ga.[j] / s)) <= top ->
  grown (grown (C * grown (Rabs ga.[j] / s)) + Rabs be.[j]) <= B ->
  (if tr then (0 < n)%nat /\ (n <= 2 ^ 24)%nat /\ s * s <= eps /\ grown (C * C) <= top /\ sum_grown n (INR n * grown (C * C)) <= top /\ mean_grown n (grown (C * C)) + eps <= top
   else s * s <= rv.[j] + eps <= top) ->
  tame (bn_out_ex n m tr eps ga be rv i j) (fun x => Rabs x <= B).
Proof.
  intros HV In CP BT Fs Fss S0 GS CG GB REST. unfold bn_out_ex.
  set (var := if tr then EDiv (ESum n (fun i => EMul (EVar 1 (i * m + j)) (EVar 1 (i * m + j)))) (EInt n) else EConst rv.[j]).
  assert (SS : 0 < s * s) by (apply Rmult_lt_0_compat; lra). assert (CC : 0 <= C * C) by (apply Rmult_le_pos; lra).
  assert (TV : tame (EAdd var (EConst eps)) (fun x => s * s <= x <= top)).
  { apply (tame_add lib lk u eta Hu Heta v _ _ (fun x => s * s <= x + eps <= top) (fun y => y = eps)); [|apply tame_const; reflexivity|].
    - unfold var. destruct tr; [|apply tame_const; lra]. destruct REST as (N0 & NL & SE & T2 & T3 & T4).
      apply (tame_weak lib lk u eta v _ (fun x => Rabs x <= mean_grown n (grown (C * C)) /\ (True -> 0 <= x))).
      + apply tame_mean; [exact N0|exact NL| | |exact T3].
        * eapply Rle_trans; [exact CC|apply grown_ge, CC].
        * intros k Hk. set (c := v 1%nat (k * m + j)%nat).
          apply (tame_mul lib lk u eta Hu Heta v _ _ (fun x => x = c) (fun x => x = c)); [apply tame_var; reflexivity|apply tame_var; reflexivity|].
          intros x y -> ->. assert (L : Rabs (c * c) <= C * C) by (rewrite Rabs_mult; apply Rmult_le_compat; try apply Rabs_pos; apply HV, Hk).
          pose proof (grown_ge _ CC). split; [lra|]. intros z R0. split; [apply (roundish_grown (c * c)); [lra|exact R0|exact L]|]. intros _.
          apply (roundish_ge _ _ 0 R0 isf_0). apply Rle_0_sqr.
      + intros x (A & Nn). specialize (Nn Logic.I). rewrite Rabs_right in A by lra. lra.
    - intros x y X ->. split; [rewrite Rabs_right; lra|]. intros z R0. split; [apply (rounds_ge _ _ (s * s) R0 Fss); lra|].
      apply (rounds_le _ _ top R0 isf_top). lra. }
  assert (TS : tame (ESqrt (EAdd var (EConst eps))) (fun x => s <= x)).
  { apply (tame_sqrt lib lk u eta Hu Heta v _ (fun x => s * s <= x <= top)); [exact TV|].
    intros x (X & XT). split; [lra|]. split; [apply sqrt_top; lra|].
    assert (SQ : s <= sqrt x) by (rewrite <- (sqrt_square s) by lra; apply sqrt_le_1_alt; exact X).
    intros z R0; apply (rounds_ge _ _ s R0 Fs); exact SQ. }
  assert (TD : tame (EDiv (EConst ga.[j]) (ESqrt (EAdd var (EConst eps)))) (fun x => Rabs x <= grown (Rabs ga.[j] / s))).
  { apply (tame_div lib lk u eta Hu Heta v _ _ (fun x => x = ga.[j]) (fun y => s <= y)); [apply tame_const; reflexivity|exact TS|].
    intros x y -> Y. split; [lra|]. assert (L : Rabs (ga.[j] / y) <= Rabs ga.[j] / s).
    { unfold Rdiv. rewrite Rabs_mult. apply Rmult_le_compat_l; [apply Rabs_pos|]. rewrite Rabs_right; [apply Rinv_le_contravar; lra|]. apply Rle_ge, Rlt_le, Rinv_0_lt_compat. lra. }
    split; [lra|]. intros z R0. apply (rounds_grown (ga.[j] / y)); [lra|exact R0|exact L]. }
  set (D := grown (Rabs ga.[j] / s)) in *.
  assert (DP : 0 <= D).
  { assert (G : 0 <= Rabs ga.[j] / s) by (apply Rmult_le_pos; [apply Rabs_pos|left; apply Rinv_0_lt_compat; lra]). eapply Rle_trans; [exact G|apply grown_ge; exact G]. }
  assert (CD : 0 <= C * D) by (apply Rmult_le_pos; lra).
  assert (TP : tame (EMul (EVar 1 (i * m + j)) (EDiv (EConst ga.[j]) (ESqrt (EAdd var (EConst eps))))) (fun x => Rabs x <= grown (C * D))).
  { apply (tame_mul lib lk u eta Hu Heta v _ _ (fun x => Rabs x <= C) (fun x => Rabs x <= D)); [apply tame_var, HV, In|exact TD|].
    intros x y X Y. assert (L : Rabs (x * y) <= C * D) by (rewrite Rabs_mult; apply Rmult_le_compat; try apply Rabs_pos; lra).
    pose proof (grown_ge _ CD). split; [lra|]. intros z R0. apply (roundish_grown (x * y)); [lra|exact R0|exact L]. }
  apply (tame_add lib lk u eta Hu Heta v _ _ (fun x => Rabs x <= grown (C * D)) (fun y => y = be.[j])); [exact TP|apply tame_const; reflexivity|].
  intros x y X ->. assert (L : Rabs (x + be.[j]) <= grown (C * D) + Rabs be.[j]) by (eapply Rle_trans; [apply Rabs_triang|]; lra).
  pose proof (grown_ge (grown (C * D) + Rabs be.[j]) ltac:(pose proof (Rabs_pos x); pose proof (Rabs_pos be.[j]); lra)) as GG.
  split; [lra|]. intros z R0. eapply Rle_trans; [|exact GB]. apply (rounds_grown (x + be.[j])); [lra|exact R0|exact L].
Qed.
End Layers.
