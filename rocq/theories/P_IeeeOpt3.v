(** Adam in floats: accuracy of a step, and runs in parts. *)
From Coq Require Import Reals Lra Lia List.
From Verif Require Import Base BaseFacts Sums S_Float M_Kernels M_Round S_Round P_Round M_Ieee S_Ieee P_Ieee P_Ieee2 M_IeeeOpt S_IeeeOpt P_IeeeOpt P_IeeeOpt2.
Import ListNotations.
Open Scope R_scope.

Lemma div_near x y r b : fdiv (Fin x) (Fin y) r -> y <> 0 -> Rabs (x / y) <= b -> b <= top ->
  exists z, r = Fin z /\ rounds (x / y) z /\ Rabs z <= grown b /\ Rabs (z - x / y) <= eps32 * Rabs (x / y) + tiny32.
Proof.
  intros F Y L T. cbn in F. destruct (Req_EM_T y 0) as [E|_]; [contradiction|].
  destruct (rnd_fin _ _ (Rle_trans _ _ _ L T) F) as (z & -> & R0 & N). exists z. split; [reflexivity|]. split; [exact R0|]. split; [apply (rounds_grown (x / y)); [lra|exact R0|exact L]|]. exact N.
Qed.
Lemma mul_near x y r : fmul (Fin x) (Fin y) r -> Rabs (x * y) <= top -> exists z, r = Fin z /\ Rabs (z - x * y) <= eps32 * Rabs (x * y) + tiny32.
Proof. intros F T. destruct (mul_fin _ _ _ (Rabs (x * y)) F (Rle_refl _) T) as (z & E & _ & _ & N). exists z. auto. Qed.
Lemma add_near x y r : fadd (Fin x) (Fin y) r -> Rabs (x + y) <= top -> exists z, r = Fin z /\ rounds (x + y) z /\ Rabs (z - (x + y)) <= eps32 * Rabs (x + y) + tiny32.
Proof. intros F T. destruct (add_fin _ _ _ (Rabs (x + y)) F (Rle_refl _) T) as (z & E & R0 & _ & N). exists z. auto. Qed.

(** ** The root of a rounded number *)
Lemma sqrt_near e t x y : 0 <= e <= 1 -> 0 <= t -> 0 <= x -> 0 <= y -> Rabs (y - x) <= e * x + t -> Rabs (sqrt y - sqrt x) <= e * sqrt x + sqrt t.
Proof.
  intros E T X Y N. assert (N' : - (e * x + t) <= y - x <= e * x + t) by (unfold Rabs in N; destruct (Rcase_abs (y - x)); lra). clear N.
  pose proof (sqrt_pos x) as SX. pose proof (sqrt_pos y) as SY. pose proof (sqrt_pos t) as ST.
  pose proof (sqrt_sqrt x X) as QX. pose proof (sqrt_sqrt y Y) as QY. pose proof (sqrt_sqrt t T) as QT.
  set (a := sqrt x) in *. set (b := sqrt y) in *. set (c := sqrt t) in *. clearbody a b c. rewrite <- QX, <- QT, <- QY in N'. clear QX QY QT X Y T x y t.
  assert (H1 : b <= (1 + e) * a + c).
  { destruct (Rle_lt_dec b ((1 + e) * a + c)) as [L|L]; [exact L|exfalso]. assert (0 <= e * a) by nra. assert (0 <= (1 + e) * a + c) by lra.
    assert (b * b > ((1 + e) * a + c) * ((1 + e) * a + c)) by nra. assert (0 <= a * c) by nra. assert (0 <= e * (a * c)) by nra. assert (0 <= e * (a * a)) by nra. assert (0 <= e * e * (a * a)) by nra. nra. }
  assert (H2 : (1 - e) * a <= b + c).
  { destruct (Rle_lt_dec ((1 - e) * a) (b + c)) as [L|L]; [exact L|exfalso]. assert (0 <= (1 - e) * a) by nra. assert ((1 - e) * a * ((1 - e) * a) > (b + c) * (b + c)) by nra.
    assert (0 <= b * c) by nra. assert (0 <= a * a) by nra. assert (0 <= e * (1 - e) * (a * a)) by (apply Rmult_le_pos; nra). nra. }
  unfold Rabs. destruct (Rcase_abs (b - a)); lra.
Qed.

Lemma sqrt_tiny : 0 < sqrt tiny32 <= / 2 ^ 74.
Proof.
  split; [apply sqrt_lt_R0, tiny32_pos|]. replace (/ 2 ^ 74) with (sqrt (/ 2 ^ 74 * / 2 ^ 74)) by (apply sqrt_square, Rlt_le, Rinv_0_lt_compat, pow_lt; lra).
  apply sqrt_le_1; [apply Rlt_le, tiny32_pos|apply Rmult_le_pos; apply Rlt_le, Rinv_0_lt_compat, pow_lt; lra|]. rewrite <- Rinv_mult, <- pow_add. unfold tiny32.
  apply Rinv_le_contravar; [apply pow_lt; lra|]. apply Rle_pow; [lra|lia].
Qed.

(** The quotient of two rounded numbers. *)
Lemma quotient_near e t A D lm den : 0 <= e <= / 8388608 -> 0 <= t -> 0 < D -> Rabs (lm - A) <= 3 * e * Rabs A + 3 * t -> Rabs (den - D) <= 6 * e * D -> 0 < den ->
  Rabs (lm / den - A / D) <= 10 * e * Rabs (A / D) + 4 * (t / D).
Proof.
  intros E T DP N1 N2 DN.
  assert (DL : (1 - 6 * e) * D <= den) by (unfold Rabs in N2; destruct (Rcase_abs (den - D)); lra).
  replace (lm / den - A / D) with (((lm - A) * D + A * (D - den)) / (den * D)) by (field; lra).
  unfold Rdiv. rewrite !Rabs_mult, (Rabs_right (/ (den * D))) by (apply Rle_ge, Rlt_le, Rinv_0_lt_compat; nra). rewrite (Rabs_right (/ D)) by (apply Rle_ge, Rlt_le, Rinv_0_lt_compat; lra).
  assert (N : Rabs ((lm - A) * D + A * (D - den)) <= (3 * e * Rabs A + 3 * t) * D + Rabs A * (6 * e * D)).
  { eapply Rle_trans; [apply Rabs_triang|]. rewrite !Rabs_mult, (Rabs_right D) by lra. apply Rplus_le_compat; [apply Rmult_le_compat_r; [lra|exact N1]|].
    apply Rmult_le_compat_l; [apply Rabs_pos|]. rewrite Rabs_minus_sym. exact N2. }
  pose proof (Rabs_pos A) as PA. set (a := Rabs A) in *. clearbody a.
  apply (Rmult_le_reg_r (den * D)); [nra|]. rewrite Rmult_assoc, Rinv_l, Rmult_1_r by nra.
  replace ((10 * e * (a * / D) + 4 * (t * / D)) * (den * D)) with ((10 * e * a + 4 * t) * den) by (field; lra).
  eapply Rle_trans; [exact N|]. assert (P1 : 0 <= e * a) by nra.
  assert (P2 : (10 * e * a + 4 * t) * ((1 - 6 * e) * D) <= (10 * e * a + 4 * t) * den) by (apply Rmult_le_compat_l; [lra|exact DL]).
  eapply Rle_trans; [|exact P2]. replace ((3 * e * a + 3 * t) * D + a * (6 * e * D)) with ((9 * (e * a) + 3 * t) * D) by ring.
  replace ((10 * e * a + 4 * t) * ((1 - 6 * e) * D)) with ((10 * (e * a) + 4 * t) * (1 - 6 * e) * D) by ring. apply Rmult_le_compat_r; [lra|].
  set (x := e * a) in *. clearbody x. assert (0 <= e * x <= / 8388608 * x) by nra. assert (0 <= e * t <= / 8388608 * t) by nra. lra.
Qed.

Lemma settle_error c d X Y x y r s z : settles c d Y X -> Rabs x <= X -> Rabs y <= Y -> fmul (Fin c) (Fin x) r -> fmul (Fin d) (Fin y) s -> fadd r s z ->
  Rabs (fval z - (c * x + d * y)) <= velocity_error c d X Y.
Proof.
  intros (T1 & T2 & T3 & T4) LX LY M1 M2 A.
  destruct (mul_fin _ _ _ (Rabs c * X) M1) as (z1 & -> & R1 & Z1 & D1); [rewrite Rabs_mult; apply Rmult_le_compat_l; [apply Rabs_pos|exact LX]|exact T1|].
  destruct (mul_fin _ _ _ (Rabs d * Y) M2) as (z2 & -> & R2 & Z2 & D2); [rewrite Rabs_mult; apply Rmult_le_compat_l; [apply Rabs_pos|exact LY]|exact T2|].
  assert (B12 : Rabs (z1 + z2) <= grown (Rabs c * X) + grown (Rabs d * Y)) by (pose proof (Rabs_triang z1 z2); lra).
  destruct (add_fin _ _ _ _ A B12 T3) as (t & -> & R0 & T & D3). cbn [fval]. unfold velocity_error.
  replace (t - (c * x + d * y)) with ((z1 - c * x) + (z2 - d * y) + (t - (z1 + z2))) by ring.
  pose proof (Rabs_triang (z1 - c * x + (z2 - d * y)) (t - (z1 + z2))). pose proof (Rabs_triang (z1 - c * x) (z2 - d * y)). lra.
Qed.

(** The weight of one step, from the new moments. *)
Lemma change_near e t lr eps k1 k2 a x y mh lm vh sq den ch z :
  e = / 8388608 -> 0 < t -> sqrt t <= / 2 ^ 74 -> t <= / 2 ^ 74 -> Rabs lr <= 1 -> / 2 ^ 40 <= eps <= 1 -> 0 < k1 -> 0 < k2 -> 0 <= y -> 0 <= vh -> 0 < den ->
  Rabs (mh - x / k1) <= e * Rabs (x / k1) + t -> Rabs (lm - lr * mh) <= e * Rabs (lr * mh) + t -> Rabs (vh - y / k2) <= e * Rabs (y / k2) + t ->
  Rabs (sq - sqrt vh) <= e * Rabs (sqrt vh) + t -> Rabs (den - (sq + eps)) <= e * Rabs (sq + eps) + t -> 0 <= sq ->
  Rabs (ch - lm / den) <= e * Rabs (lm / den) + t -> Rabs (z - (a - ch)) <= e * Rabs (a - ch) + t ->
  let change := lr * (x / k1) / (sqrt (y / k2) + eps) in
  Rabs (z - (a - change)) <= e * (Rabs a + 14 * Rabs change) + 8 * (t / eps).
Proof.
  intros E T0 TS TT L EP K1 K2 Y0 V0 DN N1 N2 N3 N4 N5 SQ0 N6 N7 change.
  assert (P74 : / 2 ^ 74 = / 2 ^ 40 * / 17179869184) by (replace 74%nat with (40 + 34)%nat by reflexivity; rewrite pow_add, Rinv_mult; f_equal; f_equal; lra).
  assert (P40 : 0 < / 2 ^ 40) by (apply Rinv_0_lt_compat, pow_lt; lra). rewrite P74 in TS, TT. set (P := / 2 ^ 40) in *. clearbody P. clear P74.
  set (A := lr * (x / k1)) in *. set (q := y / k2) in *. assert (Q0 : 0 <= q) by (apply Rmult_le_pos; [exact Y0|apply Rlt_le, Rinv_0_lt_compat, K2]).
  assert (AM : Rabs A = Rabs lr * Rabs (x / k1)) by (unfold A; apply Rabs_mult).
  assert (NA : Rabs (lm - A) <= 3 * e * Rabs A + 3 * t).
  { assert (M1 : Rabs (lr * mh - A) <= e * Rabs A + t).
    { unfold A. replace (lr * mh - lr * (x / k1)) with (lr * (mh - x / k1)) by ring. rewrite !Rabs_mult. pose proof (Rabs_pos lr) as PL. pose proof (Rabs_pos (x / k1)).
      assert (Rabs lr * Rabs (mh - x / k1) <= Rabs lr * (e * Rabs (x / k1) + t)) by (apply Rmult_le_compat_l; [exact PL|exact N1]). assert (Rabs lr * t <= 1 * t) by (apply Rmult_le_compat_r; lra). lra. }
    assert (M2 : Rabs (lr * mh) <= Rabs A + (e * Rabs A + t)) by (pose proof (Rabs_triang A (lr * mh - A)) as TR; replace (A + (lr * mh - A)) with (lr * mh) in TR by ring; lra).
    pose proof (Rabs_triang (lm - lr * mh) (lr * mh - A)) as TR. replace (lm - lr * mh + (lr * mh - A)) with (lm - A) in TR by ring. pose proof (Rabs_pos A). rewrite E in *. lra. }
  pose proof (sqrt_near e t q vh ltac:(rewrite E; lra) (Rlt_le _ _ T0) Q0 V0) as NS. rewrite (Rabs_right q) in N3 by lra. specialize (NS N3).
  pose proof (sqrt_pos q) as S0. pose proof (sqrt_pos vh) as S1. set (s := sqrt q) in *. set (s' := sqrt vh) in *. set (u := sqrt t) in *. assert (U0 : 0 <= u) by (apply sqrt_pos). clearbody s s' u.
  set (D := s + eps) in *. assert (D0 : P <= D) by (unfold D; lra).
  assert (ND : Rabs (den - D) <= 6 * e * D).
  { rewrite (Rabs_right s') in N4 by lra. rewrite (Rabs_right (sq + eps)) in N5 by lra.
    assert (B1 : s' <= s + (e * s + u)) by (unfold Rabs in NS; destruct (Rcase_abs (s' - s)); lra).
    pose proof (Rabs_triang (sq - s') (s' - s)) as T1. replace (sq - s' + (s' - s)) with (sq - s) in T1 by ring.
    assert (B2 : Rabs (sq - s) <= e * (s + (e * s + u)) + t + (e * s + u)) by (assert (e * s' <= e * (s + (e * s + u))) by (apply Rmult_le_compat_l; [rewrite E; lra|exact B1]); lra).
    assert (B3 : sq <= s + (e * (s + (e * s + u)) + t + (e * s + u))) by (unfold Rabs in B2; destruct (Rcase_abs (sq - s)); lra).
    pose proof (Rabs_triang (den - (sq + eps)) (sq - s)) as T2. replace (den - (sq + eps) + (sq - s)) with (den - D) in T2 by (unfold D; ring).
    assert (DE : D = s + eps) by reflexivity. set (dd := Rabs (den - D)) in *. clearbody dd. clearbody D. clear NS N4 T1 N1 N2 N3 N6 N7. rewrite E in *. lra. }
  assert (DP : 0 < D) by lra. assert (IE : / D <= / eps) by (apply Rinv_le_contravar; unfold D; lra).
  pose proof (quotient_near e t A D lm den ltac:(rewrite E; lra) (Rlt_le _ _ T0) DP NA ND DN) as NQ. fold change in NQ.
  assert (TD : t / D <= t / eps) by (apply Rmult_le_compat_l; lra). assert (TE : t <= t / eps).
  { unfold Rdiv. rewrite <- (Rmult_1_r t) at 1. apply Rmult_le_compat_l; [lra|]. rewrite <- Rinv_1. apply Rinv_le_contravar; lra. }
  change (A / D) with change in NQ. clearbody change. set (k := lm / den) in *. clearbody k. set (te := t / eps) in *. clearbody te. set (td := t / D) in *. clearbody td.
  clear NA ND IE N1 N2 N3 N4 N5 NS AM. pose proof (Rabs_pos change) as CP.
  assert (KB : Rabs k <= Rabs change + (10 * e * Rabs change + 4 * td)) by (pose proof (Rabs_triang change (k - change)) as TR; replace (change + (k - change)) with k in TR by ring; lra).
  assert (CB : Rabs (ch - change) <= 12 * e * Rabs change + 6 * te).
  { pose proof (Rabs_triang (ch - k) (k - change)) as TR. replace (ch - k + (k - change)) with (ch - change) in TR by ring. rewrite E in *. lra. }
  assert (AB : Rabs (a - ch) <= Rabs a + Rabs change + (12 * e * Rabs change + 6 * te)).
  { pose proof (Rabs_triang a (- change)) as TR. rewrite Rabs_Ropp in TR. pose proof (Rabs_triang (a + - change) (change - ch)) as TR2. replace (a + - change + (change - ch)) with (a - ch) in TR2 by ring.
    rewrite (Rabs_minus_sym change ch) in TR2. lra. }
  pose proof (Rabs_triang (z - (a - ch)) (change - ch)) as TR. replace (z - (a - ch) + (change - ch)) with (z - (a - change)) in TR by ring. rewrite (Rabs_minus_sym change ch) in TR.
  pose proof (Rabs_pos a). rewrite E in *. lra.
Qed.

Lemma adam_step_near lib lr b1 b2 eps c c1 c2 n w g m v w' m' v' W G M V :
  fadam lib lr b1 b2 eps c1 c2 n w g m v w' m' v' -> adam_room lr b1 b2 eps c G M V -> isf (1 - b1) -> isf (1 - b2) -> correction c c1 -> correction c c2 ->
  Rabs lr <= 1 -> / 2 ^ 40 <= eps <= 1 -> 0 <= G ->
  finite_up_to W n w -> finite_up_to G n g -> finite_up_to M n m -> finite_up_to V n v -> nonneg n v -> W + adam_change lr eps c M <= top ->
  forall p, (p < n)%nat ->
    Rabs (fval (m' p) - (b1 * fval (m p) + (1 - b1) * fval (g p))) <= velocity_error b1 (1 - b1) M G /\
    Rabs (fval (v' p) - (b2 * fval (v p) + (1 - b2) * (fval (g p) * fval (g p)))) <= variance_error b2 V G /\
    let change := lr * (fval (m' p) / fval c1) / (sqrt (fval (v' p) / fval c2) + eps) in
    Rabs (fval (w' p) - (fval (w p) - change)) <= eps32 * (Rabs (fval (w p)) + 14 * Rabs change) + 8 * (tiny32 / eps).
Proof.
  intros (o1 & o2 & O1 & O2 & SM & SV & SW) ((p1 & P1 & S1 & C0 & R1 & R5) & B0 & E0 & EF & GG & (p2 & P2 & S2 & Q0) & R2 & R3 & R4 & R6) I1' I2' (k1 & -> & K1) (k2 & -> & K2) LR EB G0 FW FG FM FV NV TW p Hp.
  pose proof (exact_complement _ _ I1' O1) as X1. pose proof (exact_complement _ _ I2' O2) as X2. pose proof (P1 _ O1) as X3. pose proof (P2 _ O2) as X4. subst o1 o2. injection X3 as <-. injection X4 as <-.
  clear O1 O2 P1 P2. specialize (SM p Hp). specialize (SV p Hp). specialize (SW p Hp). specialize (NV p Hp).
  destruct (FW p Hp) as (a & Ea & Ia & La). destruct (FG p Hp) as (b & Eb & Ib & Lb). destruct (FM p Hp) as (d & Ed & Id & Ld). destruct (FV p Hp) as (e & Ee & Ie & Le).
  rewrite Ee in NV. cbn [fval] in NV.
  destruct SM as (x1 & x2 & (u1 & u2 & -> & U2 & M1) & (u3 & u4 & U3 & U4 & M2) & A). cbn in U2, U3, U4. rewrite Ed in U2. rewrite Eb in U4. subst u2 u3 u4.
  destruct (settle_step _ _ _ _ _ _ _ _ _ S1 Ld Lb M1 M2 A) as (x & Ex & Ix & Lx & _). pose proof (settle_error _ _ _ _ _ _ _ _ _ S1 Ld Lb M1 M2 A) as ERM.
  destruct SV as (y1 & y2 & (t1 & t2 & -> & T2 & N1) & (t3 & t4 & T3 & (t5 & t6 & T5 & T6 & N3) & N2) & A'). cbn in T2, T3, T5, T6. rewrite Ee in T2. rewrite Eb in T5, T6. subst t2 t3 t5 t6.
  destruct (mul_fin _ _ _ (G * G) N3) as (q & -> & RQ & LQ & DQ); [rewrite Rabs_mult; apply Rmult_le_compat; try apply Rabs_pos; exact Lb|exact GG|].
  destruct (settle_step _ _ _ _ _ _ _ _ _ S2 Le LQ N1 N2 A') as (y & Ey & Iy & Ly & Py). pose proof (settle_error _ _ _ _ _ _ _ _ _ S2 Le LQ N1 N2 A') as ERV.
  assert (NY : 0 <= y) by (apply Py; try assumption; apply (roundish_nonneg _ _ RQ); nra).
  rewrite Ea, Eb, Ed, Ee. cbn [fval]. split; [exact ERM|]. split.
  { unfold variance_error. replace (fval (v' p) - (b2 * e + (1 - b2) * (b * b))) with ((fval (v' p) - (b2 * e + (1 - b2) * q)) + (1 - b2) * (q - b * b)) by ring.
    eapply Rle_trans; [apply Rabs_triang|]. apply Rplus_le_compat; [exact ERV|]. rewrite Rabs_mult. apply Rmult_le_compat_l; [apply Rabs_pos|exact DQ]. }
  clear ERM ERV M1 M2 A N1 N2 N3 A' DQ RQ LQ Py.
  destruct SW as (z1 & z2 & Z1 & (h1 & h2 & (j1 & j2 & -> & (i1 & i2 & I1 & I2 & DM) & ML) & (f1 & f2 & (l1 & (s1 & s2 & Q1 & Q2 & DV) & SQ) & F2 & AE) & DD) & SS).
  cbn in Z1, I1, I2, Q1, Q2, F2. rewrite Ea in Z1. rewrite Ex in I1. rewrite Ey in Q1. subst z1 i1 i2 s1 s2 f2.
  destruct (div_near _ _ _ (M / c) DM) as (mh & -> & _ & LMH & H1); [lra|apply div_le; lra|exact R1|].
  assert (LL : Rabs (lr * mh) <= Rabs lr * grown (M / c)) by (rewrite Rabs_mult; apply Rmult_le_compat_l; [apply Rabs_pos|exact LMH]).
  destruct (mul_fin _ _ _ (Rabs lr * grown (M / c)) ML LL R5) as (lm' & E' & _ & LLM & _). destruct (mul_near _ _ _ ML (Rle_trans _ _ _ LL R5)) as (lm & -> & H2). injection E' as <-.
  destruct (div_near _ _ _ (V / c) DV) as (vh & -> & RVH & LVH & H3); [lra|apply div_le; lra|exact R2|].
  assert (NVH : 0 <= vh).
  { apply (rounds_nonneg _ _ RVH). unfold Rdiv. apply Rmult_le_pos; [exact NY|]. apply Rlt_le, Rinv_0_lt_compat. lra. }
  cbn in SQ. destruct (ltb vh 0) eqn:EBB; [apply ltb_true in EBB; lra|].
  rewrite (Rabs_right vh) in LVH by lra. assert (SV1 : sqrt vh <= sqrt (grown (V / c))) by (apply sqrt_le_1; lra).
  assert (SV2 : sqrt (grown (V / c)) <= grown (sqrt (grown (V / c)))) by (apply grown_ge, sqrt_pos).
  assert (SV3 : Rabs (sqrt vh) <= top) by (rewrite Rabs_right; [lra|apply Rle_ge, sqrt_pos]).
  destruct (rnd_fin _ _ SV3 SQ) as (sq & -> & RSQ & H4). unfold near in H4.
  assert (NSQ : 0 <= sq) by (apply (rounds_nonneg _ _ RSQ), sqrt_pos).
  assert (LSQ : Rabs sq <= grown (sqrt (grown (V / c)))) by (apply (rounds_grown (sqrt vh)); [exact SV3|exact RSQ|rewrite Rabs_right; [exact SV1|apply Rle_ge, sqrt_pos]]).
  rewrite (Rabs_right sq) in LSQ by lra.
  destruct (add_near _ _ _ AE) as (den & -> & RD & H5); [rewrite Rabs_right; lra|].
  assert (LDE : eps <= den) by (apply (rounds_ge _ _ _ RD EF); lra).
  destruct (div_near _ _ _ (grown (Rabs lr * grown (M / c)) / eps) DD) as (ch & -> & _ & LCH & H6); [lra|apply div_le; lra|exact R6|].
  assert (BZ : Rabs (a - ch) <= W + adam_change lr eps c M).
  { fold (adam_change lr eps c M) in LCH. pose proof (Rabs_triang a (- ch)) as TR. rewrite Rabs_Ropp in TR. unfold Rminus. lra. }
  destruct (add_near a (- ch) _ SS) as (z & Ez & _ & H7); [exact (Rle_trans _ _ _ BZ TW)|]. rewrite Ex, Ey, Ez. cbn [fval].
  destruct sqrt_tiny as (ST0 & ST1). destruct small_numbers as (E32 & (T32 & _) & _).
  apply (change_near eps32 tiny32 lr eps k1 k2 a x y mh lm vh sq den ch z); try assumption; try lra.
  unfold tiny32. apply Rinv_le_contravar; [apply pow_lt; lra|]. apply Rle_pow; [lra|lia].
Qed.

(** ** Runs in parts *)
Lemma momentums_app lib gamma lr n : forall gs hs w v w' v', fmomentums lib gamma lr n (gs ++ hs) w v w' v' <->
  exists w1 v1, fmomentums lib gamma lr n gs w v w1 v1 /\ fmomentums lib gamma lr n hs w1 v1 w' v'.
Proof.
  induction gs as [|g gs IH]; intros hs w v w' v'; cbn [app fmomentums].
  - split; [intros R0; exists w, v; auto|intros (w1 & v1 & (-> & ->) & R0); exact R0].
  - split.
    + intros (w1 & v1 & S & R0). apply IH in R0. destruct R0 as (w2 & v2 & A & B). exists w2, v2. split; [exists w1, v1; auto|exact B].
    + intros (w2 & v2 & (w1 & v1 & S & A) & B). exists w1, v1. split; [exact S|]. apply IH. exists w2, v2. auto.
Qed.
Lemma adams_app lib lr b1 b2 eps n : forall gs hs cs ds w m v w' m' v', length cs = length gs ->
  fadams lib lr b1 b2 eps n (cs ++ ds) (gs ++ hs) w m v w' m' v' <->
  exists w1 m1 v1, fadams lib lr b1 b2 eps n cs gs w m v w1 m1 v1 /\ fadams lib lr b1 b2 eps n ds hs w1 m1 v1 w' m' v'.
Proof.
  induction gs as [|g gs IH]; intros hs [|k cs] ds w m v w' m' v' L; try discriminate; cbn [app].
  - split; [intros R0; exists w, m, v; cbn; auto|intros (w1 & m1 & v1 & (-> & -> & ->) & R0); exact R0].
  - injection L as L. split.
    + intros (w1 & m1 & v1 & S & R0). apply IH in R0; [|exact L]. destruct R0 as (w2 & m2 & v2 & A & B). exists w2, m2, v2. split; [exists w1, m1, v1; auto|exact B].
    + intros (w2 & m2 & v2 & (w1 & m1 & v1 & S & A) & B). exists w1, m1, v1. split; [exact S|]. apply IH; [exact L|]. exists w2, m2, v2. auto.
Qed.
Lemma momentums_lost_gradient lib gamma lr n p g : (p < n)%nat -> forall gs w v w' v', fmomentums lib gamma lr n gs w v w' v' -> In g gs -> lost (g p) -> lost (v' p) /\ lost (w' p).
Proof.
  intros Hp gs w v w' v' R0 IN L. destruct (in_split _ _ IN) as (l1 & l2 & ->). apply momentums_app in R0. destruct R0 as (w1 & v1 & _ & w2 & v2 & S & R0).
  destruct (momentum_lost _ _ _ _ _ _ _ _ _ p Hp S) as (A & B). destruct (momentums_lost _ _ _ _ p Hp _ _ _ _ _ R0) as (C1 & C2 & C3). auto.
Qed.
