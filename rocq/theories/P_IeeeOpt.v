(** Optimizers in floats: proofs. *)
From Coq Require Import Reals Lra Lia.
From Verif Require Import Base BaseFacts Sums S_Float M_Kernels M_Round S_Round P_Round M_Ieee S_Ieee P_Ieee P_Ieee2 M_IeeeOpt S_IeeeOpt.
Open Scope R_scope.

Lemma mul_fin x y r b : fmul (Fin x) (Fin y) r -> Rabs (x * y) <= b -> b <= top ->
  exists z, r = Fin z /\ roundish (x * y) z /\ Rabs z <= grown b /\ Rabs (z - x * y) <= eps32 * b + tiny32.
Proof.
  intros F L T. pose proof eps32_pos as E. pose proof tiny32_pos as H. pose proof (Rabs_pos (x * y)).
  assert (K : eps32 * Rabs (x * y) <= eps32 * b) by (apply Rmult_le_compat_l; lra). destruct F as [F| ->].
  - destruct (rnd_fin _ _ (Rle_trans _ _ _ L T) F) as (z & -> & R0 & N). exists z. split; [reflexivity|]. split; [left; exact R0|].
    split; [apply (rounds_grown (x * y)); [lra|exact R0|exact L]|]. unfold near in N. lra.
  - exists (x * y). split; [reflexivity|]. split; [right; reflexivity|]. split; [pose proof (grown_ge b); lra|]. replace (x * y - x * y) with 0 by ring. rewrite Rabs_R0.
    assert (0 <= eps32 * b) by (apply Rmult_le_pos; lra). lra.
Qed.
Lemma add_fin x y r b : fadd (Fin x) (Fin y) r -> Rabs (x + y) <= b -> b <= top ->
  exists z, r = Fin z /\ rounds (x + y) z /\ Rabs z <= grown b /\ Rabs (z - (x + y)) <= eps32 * b + tiny32.
Proof.
  intros F L T. pose proof eps32_pos as E. assert (K : eps32 * Rabs (x + y) <= eps32 * b) by (apply Rmult_le_compat_l; lra).
  destruct (rnd_fin _ _ (Rle_trans _ _ _ L T) F) as (z & -> & R0 & N). exists z. split; [reflexivity|]. split; [exact R0|].
  split; [apply (rounds_grown (x + y)); [lra|exact R0|exact L]|]. unfold near in N. lra.
Qed.
Lemma sub_fin x y r b : fsub (Fin x) (Fin y) r -> Rabs (x - y) <= b -> b <= top ->
  exists z, r = Fin z /\ rounds (x - y) z /\ Rabs z <= grown b /\ Rabs (z - (x - y)) <= eps32 * b + tiny32.
Proof. exact (add_fin x (- y) r b). Qed.
Lemma div_fin x y r b : fdiv (Fin x) (Fin y) r -> y <> 0 -> Rabs (x / y) <= b -> b <= top ->
  exists z, r = Fin z /\ rounds (x / y) z /\ Rabs z <= grown b.
Proof.
  intros F Y L T. cbn in F. destruct (Req_EM_T y 0) as [E|_]; [contradiction|].
  destruct (rnd_fin _ _ (Rle_trans _ _ _ L T) F) as (z & -> & R0 & N). exists z. split; [reflexivity|]. split; [exact R0|]. apply (rounds_grown (x / y)); [lra|exact R0|exact L].
Qed.

(** ** Lost values stay lost *)
Lemma add_lost a b r : lost a \/ lost b -> fadd a b r -> lost r.
Proof. intros L F. destruct a as [x|s|], b as [y|t|]; cbn in *; try tauto; subst r; try exact I. destruct (Bool.eqb s t); exact I. Qed.
Lemma opp_lost a : lost a -> lost (fopp a).
Proof. destruct a; cbn; auto. Qed.
Lemma sub_lost a b r : lost a \/ lost b -> fsub a b r -> lost r.
Proof. intros [L|L]; apply add_lost; [left; exact L|right; apply opp_lost, L]. Qed.
Lemma mul_lost a b r : lost a \/ lost b -> fmul a b r -> lost r.
Proof. intros L F. destruct a as [x|s|], b as [y|t|]; cbn in *; try tauto; subst r; try exact I; match goal with |- context [Req_EM_T ?u 0] => destruct (Req_EM_T u 0); exact I end. Qed.

(** ** Momentum *)
Lemma momentum_one_step lib gamma lr n w g v w' v' W G V :
  fmomentum lib gamma lr n w g v w' v' -> finite_up_to W n w -> finite_up_to G n g -> finite_up_to V n v -> settles gamma lr G V -> W + V <= top ->
  finite_up_to (grown (W + V)) n w' /\ finite_up_to V n v' /\
  forall p, (p < n)%nat -> Rabs (fval (v' p) - (gamma * fval (v p) + lr * fval (g p))) <= velocity_error gamma lr V G /\
    Rabs (fval (w' p) - (fval (w p) - fval (v' p))) <= eps32 * (W + V) + tiny32.
Proof.
  intros (SV & SW) FW FG FV (T1 & T2 & T3 & T4) TW.
  assert (K : forall p, (p < n)%nat -> exists x y, v' p = Fin x /\ isf x /\ Rabs x <= V /\ w' p = Fin y /\ isf y /\ Rabs y <= grown (W + V) /\
    Rabs (x - (gamma * fval (v p) + lr * fval (g p))) <= velocity_error gamma lr V G /\ Rabs (y - (fval (w p) - x)) <= eps32 * (W + V) + tiny32).
  { intros p Hp. specialize (SV p Hp). specialize (SW p Hp). destruct (FW p Hp) as (a & Ea & Ia & La). destruct (FG p Hp) as (b & Eb & Ib & Lb). destruct (FV p Hp) as (c & Ec & Ic & Lc).
    destruct SV as (x1 & x2 & (u1 & u2 & -> & U2 & M1) & (u3 & u4 & -> & U4 & M2) & A). cbn in U2, U4. rewrite Ec in U2. rewrite Eb in U4. subst u2 u4.
    destruct (mul_fin _ _ _ (Rabs gamma * V) M1) as (z1 & -> & _ & Z1 & D1); [rewrite Rabs_mult; apply Rmult_le_compat_l; [apply Rabs_pos|exact Lc]|exact T1|].
    destruct (mul_fin _ _ _ (Rabs lr * G) M2) as (z2 & -> & _ & Z2 & D2); [rewrite Rabs_mult; apply Rmult_le_compat_l; [apply Rabs_pos|exact Lb]|exact T2|].
    assert (B12 : Rabs (z1 + z2) <= grown (Rabs gamma * V) + grown (Rabs lr * G)) by (pose proof (Rabs_triang z1 z2); lra).
    destruct (add_fin _ _ _ _ A B12 T3) as (x & Ex & R0 & X & D3).
    destruct SW as (y1 & y2 & Y1 & Y2 & S). cbn in Y1, Y2. rewrite Ea in Y1. rewrite Ex in Y2. subst y1 y2.
    assert (BV : Rabs x <= V) by lra.
    assert (B3 : Rabs (a - x) <= W + V) by (pose proof (Rabs_triang a (- x)); rewrite Rabs_Ropp in *; unfold Rminus; lra).
    destruct (sub_fin _ _ _ _ S B3 TW) as (y & Ey & R1 & Y & D4). exists x, y. split; [exact Ex|]. split; [exact (rounds_isf _ _ R0)|]. split; [exact BV|].
    split; [exact Ey|]. split; [exact (rounds_isf _ _ R1)|]. split; [exact Y|]. rewrite Ea, Eb, Ec. cbn [fval]. split; [|exact D4]. unfold velocity_error.
    replace (x - (gamma * c + lr * b)) with ((z1 - gamma * c) + (z2 - lr * b) + (x - (z1 + z2))) by ring.
    pose proof (Rabs_triang (z1 - gamma * c + (z2 - lr * b)) (x - (z1 + z2))). pose proof (Rabs_triang (z1 - gamma * c) (z2 - lr * b)). lra. }
  split; [|split].
  - intros p Hp. destruct (K p Hp) as (x & y & E1 & I1 & L1 & E2 & I2 & L2 & _). exists y. auto.
  - intros p Hp. destruct (K p Hp) as (x & y & E1 & I1 & L1 & E2 & I2 & L2 & _). exists x. auto.
  - intros p Hp. destruct (K p Hp) as (x & y & E1 & I1 & L1 & E2 & I2 & L2 & Q1 & Q2). rewrite E1, E2. cbn [fval]. split; assumption.
Qed.

Lemma drifted_S W D k : drifted (grown (W + D)) D k = drifted W D (S k).
Proof. induction k as [|k IH]; [reflexivity|]. cbn [drifted] in *. rewrite IH. reflexivity. Qed.
Lemma drifted_mono W D i j : 0 <= W -> 0 <= D -> (i <= j)%nat -> drifted W D i <= drifted W D j.
Proof.
  intros A B L. assert (P : forall k, 0 <= drifted W D k /\ drifted W D k <= drifted W D (S k)).
  { induction k as [|k [IH1 IH2]]; cbn [drifted].
    - split; [exact A|]. pose proof (grown_ge (W + D)). lra.
    - cbn [drifted] in IH2. assert (0 <= grown (drifted W D k + D)) by lra. split; [exact H|]. pose proof (grown_ge (grown (drifted W D k + D) + D)). lra. }
  induction L as [|j L IH]; [lra|]. pose proof (proj2 (P j)). lra.
Qed.

Lemma momentum_runs lib gamma lr n G V : settles gamma lr G V -> 0 <= V -> forall gs w v w' v' W, 0 <= W -> fmomentums lib gamma lr n gs w v w' v' ->
  finite_up_to W n w -> finite_up_to V n v -> Forall (finite_up_to G n) gs -> drifted W V (length gs) <= top ->
  finite_up_to (drifted W V (length gs)) n w' /\ finite_up_to V n v'.
Proof.
  intros ST V0. induction gs as [|g gs IH]; intros w v w' v' W W0 R FW FV FG T; cbn [fmomentums] in R.
  - destruct R as (-> & ->). split; assumption.
  - destruct R as (w1 & v1 & S & R). inversion FG as [|? ? G1 G2]; subst.
    assert (L : W + V <= drifted W V (length (g :: gs))).
    { apply Rle_trans with (drifted W V 1); [cbn [drifted]; apply grown_ge; lra|]. apply drifted_mono; try assumption. cbn [length]. lia. }
    destruct (momentum_one_step _ _ _ _ _ _ _ _ _ W G V S FW G1 FV ST ltac:(lra)) as (FW1 & FV1 & _).
    cbn [length] in *. rewrite <- drifted_S in *. apply (IH w1 v1); try assumption. pose proof (grown_ge (W + V)). lra.
Qed.

Lemma momentum_lost lib gamma lr n w g v w' v' p : (p < n)%nat -> fmomentum lib gamma lr n w g v w' v' ->
  (lost (g p) \/ lost (v p) -> lost (v' p)) /\ (lost (g p) \/ lost (v p) \/ lost (w p) -> lost (w' p)).
Proof.
  intros Hp (SV & SW). specialize (SV p Hp). specialize (SW p Hp).
  assert (K : lost (g p) \/ lost (v p) -> lost (v' p)).
  { intros L. destruct SV as (x1 & x2 & (u1 & u2 & -> & U2 & M1) & (u3 & u4 & -> & U4 & M2) & A). cbn in U2, U4. subst u2 u4.
    apply (add_lost _ _ _) in A; [exact A|]. destruct L as [L|L]; [right|left]; eapply mul_lost; eauto. }
  split; [exact K|]. intros L. destruct SW as (y1 & y2 & Y1 & Y2 & S). cbn in Y1, Y2. subst y1 y2. apply (sub_lost _ _ _) in S; [exact S|]. tauto.
Qed.

Lemma momentums_lost lib gamma lr n p : (p < n)%nat -> forall gs w v w' v', fmomentums lib gamma lr n gs w v w' v' ->
  (lost (v p) -> lost (v' p)) /\ (lost (w p) -> lost (w' p)) /\ (lost (v p) -> gs <> [] -> lost (w' p)).
Proof.
  intros Hp. induction gs as [|g gs IH]; intros w v w' v' R; cbn [fmomentums] in R.
  - destruct R as (-> & ->). split; [auto|]. split; [auto|]. intros _ N. destruct N. reflexivity.
  - destruct R as (w1 & v1 & S & R). destruct (momentum_lost _ _ _ _ _ _ _ _ _ p Hp S) as (A & B). destruct (IH _ _ _ _ R) as (C1 & C2 & C3). tauto.
Qed.

Lemma sgds_lost lib lr n p : (p < n)%nat -> forall gs w w', fsgds lib lr n gs w w' -> lost (w p) \/ (exists g, In g gs /\ lost (g p)) -> lost (w' p).
Proof.
  intros Hp. induction gs as [|g gs IH]; intros w w' R L; cbn [fsgds] in R.
  - subst w'. destruct L as [L|(g & [] & _)]. exact L.
  - destruct R as (w1 & S & R). apply (IH w1 w' R). specialize (S p Hp). destruct S as (x & y & X & (a & b & -> & B & M) & S). cbn in X, B. subst x b.
    destruct L as [L|(g0 & [->|IN] & L)].
    + left. eapply sub_lost; [left; exact L|exact S].
    + left. eapply sub_lost; [right|exact S]. eapply mul_lost; [right; exact L|exact M].
    + right. exists g0. auto.
Qed.

(** ** Adam *)
Lemma adam_lost lib lr b1 b2 eps c1 c2 n w g m v w' m' v' p : (p < n)%nat -> fadam lib lr b1 b2 eps c1 c2 n w g m v w' m' v' -> lost (w p) -> lost (w' p).
Proof. intros Hp (o1 & o2 & _ & _ & _ & _ & SW) L. destruct (SW p Hp) as (x & y & X & _ & S). cbn in X. subst x. eapply sub_lost; [left; exact L|exact S]. Qed.

Lemma roundish_nonneg x y : roundish x y -> 0 <= x -> 0 <= y.
Proof. intros R0 X. apply (roundish_ge x y 0 R0 isf_0 X). Qed.
Lemma rounds_nonneg x y : rounds x y -> 0 <= x -> 0 <= y.
Proof. intros R0 X. apply (rounds_ge x y 0 R0 isf_0 X). Qed.

(** [c * x + d * y] *)
Lemma settle_step c d X Y x y r s z : settles c d Y X -> Rabs x <= X -> Rabs y <= Y -> fmul (Fin c) (Fin x) r -> fmul (Fin d) (Fin y) s -> fadd r s z ->
  exists t, z = Fin t /\ isf t /\ Rabs t <= X /\ (0 <= c -> 0 <= x -> 0 <= d -> 0 <= y -> 0 <= t).
Proof.
  intros (T1 & T2 & T3 & T4) LX LY M1 M2 A.
  destruct (mul_fin _ _ _ (Rabs c * X) M1) as (z1 & -> & R1 & Z1 & _); [rewrite Rabs_mult; apply Rmult_le_compat_l; [apply Rabs_pos|exact LX]|exact T1|].
  destruct (mul_fin _ _ _ (Rabs d * Y) M2) as (z2 & -> & R2 & Z2 & _); [rewrite Rabs_mult; apply Rmult_le_compat_l; [apply Rabs_pos|exact LY]|exact T2|].
  assert (B12 : Rabs (z1 + z2) <= grown (Rabs c * X) + grown (Rabs d * Y)) by (pose proof (Rabs_triang z1 z2); lra).
  destruct (add_fin _ _ _ _ A B12 T3) as (t & -> & R0 & T & _). exists t. split; [reflexivity|]. split; [exact (rounds_isf _ _ R0)|]. split; [lra|].
  intros C0 X0 D0 Y0. apply (rounds_nonneg _ _ R0). pose proof (roundish_nonneg _ _ R1 (Rmult_le_pos _ _ C0 X0)). pose proof (roundish_nonneg _ _ R2 (Rmult_le_pos _ _ D0 Y0)). lra.
Qed.

Lemma div_le x c0 y : Rabs x <= y -> 0 < c0 -> forall c, c0 <= c -> Rabs (x / c) <= y / c0.
Proof.
  intros L C c CC. unfold Rdiv. rewrite Rabs_mult, (Rabs_right (/ c)) by (apply Rle_ge, Rlt_le, Rinv_0_lt_compat; lra).
  apply Rmult_le_compat; [apply Rabs_pos|apply Rlt_le, Rinv_0_lt_compat; lra|exact L|apply Rinv_le_contravar; lra].
Qed.

Lemma adam_one_step lib lr b1 b2 eps c c1 c2 n w g m v w' m' v' W G M V :
  fadam lib lr b1 b2 eps c1 c2 n w g m v w' m' v' -> adam_room lr b1 b2 eps c G M V -> correction c c1 -> correction c c2 -> 0 <= G ->
  finite_up_to W n w -> finite_up_to G n g -> finite_up_to M n m -> finite_up_to V n v -> nonneg n v -> W + adam_change lr eps c M <= top ->
  finite_up_to (grown (W + adam_change lr eps c M)) n w' /\ finite_up_to M n m' /\ finite_up_to V n v' /\ nonneg n v'.
Proof.
  intros (o1 & o2 & O1 & O2 & SM & SV & SW) ((p1 & P1 & S1 & C0 & R1 & R5) & B0 & E0 & EF & GG & (p2 & P2 & S2 & Q0) & R2 & R3 & R4 & R6) (k1 & -> & K1) (k2 & -> & K2) G0 FW FG FM FV NV TW.
  rewrite (P1 _ O1) in SM. rewrite (P2 _ O2) in SV. clear O1 O2 P1 P2.
  assert (K : forall p, (p < n)%nat -> exists x y z, m' p = Fin x /\ isf x /\ Rabs x <= M /\ v' p = Fin y /\ isf y /\ Rabs y <= V /\ 0 <= y /\
    w' p = Fin z /\ isf z /\ Rabs z <= grown (W + adam_change lr eps c M)).
  { intros p Hp. specialize (SM p Hp). specialize (SV p Hp). specialize (SW p Hp). specialize (NV p Hp).
    destruct (FW p Hp) as (a & Ea & Ia & La). destruct (FG p Hp) as (b & Eb & Ib & Lb). destruct (FM p Hp) as (d & Ed & Id & Ld). destruct (FV p Hp) as (e & Ee & Ie & Le).
    rewrite Ee in NV. cbn [fval] in NV.
    destruct SM as (x1 & x2 & (u1 & u2 & -> & U2 & M1) & (u3 & u4 & U3 & U4 & M2) & A). cbn in U2, U3, U4. rewrite Ed in U2. rewrite Eb in U4. subst u2 u3 u4.
    destruct (settle_step _ _ _ _ _ _ _ _ _ S1 Ld Lb M1 M2 A) as (x & Ex & Ix & Lx & _).
    destruct SV as (y1 & y2 & (t1 & t2 & -> & T2 & N1) & (t3 & t4 & T3 & (t5 & t6 & T5 & T6 & N3) & N2) & A'). cbn in T2, T3, T5, T6. rewrite Ee in T2. rewrite Eb in T5, T6. subst t2 t3 t5 t6.
    destruct (mul_fin _ _ _ (G * G) N3) as (q & -> & RQ & LQ & _); [rewrite Rabs_mult; apply Rmult_le_compat; try apply Rabs_pos; exact Lb|exact GG|].
    destruct (settle_step _ _ _ _ _ _ _ _ _ S2 Le LQ N1 N2 A') as (y & Ey & Iy & Ly & Py).
    assert (NY : 0 <= y).
    { apply Py; try assumption. apply (roundish_nonneg _ _ RQ). nra. }
    destruct SW as (z1 & z2 & Z1 & (h1 & h2 & (j1 & j2 & -> & (i1 & i2 & I1 & I2 & DM) & ML) & (f1 & f2 & (l1 & (s1 & s2 & Q1 & Q2 & DV) & SQ) & F2 & AE) & DD) & SS).
    cbn in Z1, I1, I2, Q1, Q2, F2. rewrite Ea in Z1. rewrite Ex in I1. rewrite Ey in Q1. subst z1 i1 i2 s1 s2 f2.
    destruct (div_fin _ _ _ (M / c) DM) as (mh & -> & _ & LMH); [lra|apply div_le; lra|exact R1|].
    destruct (mul_fin _ _ _ (Rabs lr * grown (M / c)) ML) as (lm & -> & _ & LLM & _); [rewrite Rabs_mult; apply Rmult_le_compat_l; [apply Rabs_pos|exact LMH]|exact R5|].
    destruct (div_fin _ _ _ (V / c) DV) as (vh & -> & RVH & LVH); [lra|apply div_le; lra|exact R2|].
    assert (NVH : 0 <= vh).
    { apply (rounds_nonneg _ _ RVH). unfold Rdiv. apply Rmult_le_pos; [exact NY|]. apply Rlt_le, Rinv_0_lt_compat. lra. }
    cbn in SQ. destruct (ltb vh 0) eqn:EB; [apply ltb_true in EB; lra|].
    rewrite (Rabs_right vh) in LVH by lra. assert (SV1 : sqrt vh <= sqrt (grown (V / c))) by (apply sqrt_le_1; lra).
    assert (SV2 : sqrt (grown (V / c)) <= grown (sqrt (grown (V / c)))) by (apply grown_ge, sqrt_pos).
    assert (SV3 : Rabs (sqrt vh) <= top) by (rewrite Rabs_right; [lra|apply Rle_ge, sqrt_pos]).
    destruct (rnd_fin _ _ SV3 SQ) as (sq & -> & RSQ & _).
    assert (NSQ : 0 <= sq) by (apply (rounds_nonneg _ _ RSQ), sqrt_pos).
    assert (LSQ : Rabs sq <= grown (sqrt (grown (V / c)))) by (apply (rounds_grown (sqrt vh)); [exact SV3|exact RSQ|rewrite Rabs_right; [exact SV1|apply Rle_ge, sqrt_pos]]).
    rewrite (Rabs_right sq) in LSQ by lra.
    destruct (add_fin _ _ _ (grown (sqrt (grown (V / c))) + eps) AE) as (den & -> & RD & LD & _); [rewrite Rabs_right; lra|exact R4|].
    assert (LDE : eps <= den) by (apply (rounds_ge _ _ _ RD EF); lra).
    destruct (div_fin _ _ _ (grown (Rabs lr * grown (M / c)) / eps) DD) as (ch & -> & _ & LCH); [lra|apply div_le; lra|exact R6|].
    assert (BZ : Rabs (a - ch) <= W + adam_change lr eps c M).
    { fold (adam_change lr eps c M) in LCH. pose proof (Rabs_triang a (- ch)) as TR. rewrite Rabs_Ropp in TR. unfold Rminus. lra. }
    destruct (sub_fin _ _ _ _ SS BZ TW) as (z & Ez & RZ & LZ & _). exists x, y, z.
    split; [exact Ex|]. split; [exact Ix|]. split; [exact Lx|]. split; [exact Ey|]. split; [exact Iy|]. split; [exact Ly|]. split; [exact NY|]. split; [exact Ez|].
    split; [exact (rounds_isf _ _ RZ)|exact LZ]. }
  split; [|split; [|split]]; intros p Hp; destruct (K p Hp) as (x & y & z & H1 & H2 & H3 & H4 & H5 & H6 & H7 & H8 & H9 & H10); [exists z|exists x|exists y|rewrite H4]; auto.
Qed.

Lemma adam_runs lib lr b1 b2 eps c n G M V : adam_room lr b1 b2 eps c G M V -> 0 <= G -> 0 <= adam_change lr eps c M ->
  forall gs cs w m v w' m' v' W, 0 <= W -> fadams lib lr b1 b2 eps n cs gs w m v w' m' v' -> Forall (fun k => correction c (fst k) /\ correction c (snd k)) cs ->
  finite_up_to W n w -> finite_up_to M n m -> finite_up_to V n v -> nonneg n v -> Forall (finite_up_to G n) gs -> drifted W (adam_change lr eps c M) (length gs) <= top ->
  finite_up_to (drifted W (adam_change lr eps c M) (length gs)) n w' /\ finite_up_to M n m' /\ finite_up_to V n v' /\ nonneg n v'.
Proof.
  intros RM G0 D0. set (D := adam_change lr eps c M) in *. induction gs as [|g gs IH]; intros cs w m v w' m' v' W W0 R FC FW FM FV NV FG T; cbn [fadams] in R.
  - destruct cs; [|contradiction]. destruct R as (-> & -> & ->). auto.
  - destruct cs as [|k cs]; [contradiction|]. destruct R as (w1 & m1 & v1 & S & R). inversion FG as [|? ? G1 G2]; subst. inversion FC as [|? ? [C1 C2] C3]; subst.
    assert (L : W + D <= drifted W D (length (g :: gs))).
    { apply Rle_trans with (drifted W D 1); [cbn [drifted]; apply grown_ge; lra|]. apply drifted_mono; try assumption. cbn [length]. lia. }
    destruct (adam_one_step _ _ _ _ _ c _ _ _ _ _ _ _ _ _ _ W G M V S RM C1 C2 G0 FW G1 FM FV NV ltac:(fold D; lra)) as (FW1 & FM1 & FV1 & NV1). fold D in FW1.
    cbn [length] in *. rewrite <- drifted_S in *. apply (IH cs w1 m1 v1); try assumption. pose proof (grown_ge (W + D)). lra.
Qed.

(** ** An infinite variance *)
Lemma square_pos b r : fmul (Fin b) (Fin b) r -> (exists q, r = Fin q /\ 0 <= q) \/ r = Inf false.
Proof.
  intros [F| ->]; [|left; exists (b * b); split; [reflexivity|nra]]. destruct r as [q|s|]; [|destruct F as (F1 & F2)|destruct F].
  - left. exists q. split; [reflexivity|]. apply (rounds_nonneg _ _ F). nra.
  - right. destruct s; [nra|reflexivity].
Qed.
Lemma scaled_pos o a r : 0 < o -> (exists q, a = Fin q /\ 0 <= q) \/ a = Inf false -> fmul (Fin o) a r -> (exists q, r = Fin q /\ 0 <= q) \/ r = Inf false.
Proof.
  intros O [(q & -> & Q)| ->] F.
  - assert (P : 0 <= o * q) by (apply Rmult_le_pos; lra). destruct F as [F| ->]; [|left; exists (o * q); auto]. destruct r as [z|s|]; [|destruct F as (F1 & F2)|destruct F].
    + left. exists z. split; [reflexivity|]. apply (rounds_nonneg _ _ F P).
    + right. destruct s; [lra|reflexivity].
  - cbn in F. destruct (Req_EM_T o 0); [lra|]. right. subst r. unfold ltb. destruct (Rlt_dec o 0); [lra|reflexivity].
Qed.
Lemma add_inf a r : (exists q, a = Fin q /\ 0 <= q) \/ a = Inf false -> fadd (Inf false) a r -> r = Inf false.
Proof. intros [(q & -> & Q)| ->] F; exact F. Qed.

Lemma complement_pos b r : 0 < b <= 1 - / 2 ^ 24 -> fsub (Fin 1) (Fin b) r -> exists o, r = Fin o /\ 0 < o.
Proof.
  intros B F. assert (P : 0 < / 2 ^ 24) by (apply Rinv_0_lt_compat, pow_lt; lra).
  destruct (sub_fin _ _ _ 1 F) as (o & -> & RO & _); [rewrite Rabs_right; lra|pose proof top_big; assert (1 <= 2 ^ 127) by (apply pow_R1_Rle; lra); lra|].
  exists o. split; [reflexivity|]. assert (/ 2 ^ 24 <= o) by (apply (rounds_ge _ _ _ RO (isf_inv2 24 ltac:(lia))); lra). lra.
Qed.

Lemma adam_still lib lr b1 b2 eps c c1 c2 n w g m v w' m' v' p x G M :
  fadam lib lr b1 b2 eps c1 c2 n w g m v w' m' v' -> (p < n)%nat -> mean_room lr b1 c G M -> correction c c1 -> correction c c2 ->
  w p = Fin x -> isf x -> (exists y, g p = Fin y /\ Rabs y <= G) -> (exists y, m p = Fin y /\ Rabs y <= M) -> v' p = Inf false ->
  w' p = Fin x /\ exists y, m' p = Fin y /\ Rabs y <= M.
Proof.
  intros (o1' & o2 & O1 & O2 & SM & SV & SW) Hp (q1 & P1 & S1 & C0 & R1 & R5) (k1 & -> & K1) (k2 & -> & K2) Ew Ix (b & Eb & Lb) (d & Ed & Ld) EV'.
  rewrite (P1 _ O1) in SM. specialize (SM p Hp). specialize (SW p Hp).
  destruct SM as (x1 & x2 & (u1 & u2 & -> & U2 & M1) & (u3 & u4 & U3 & U4 & M2) & A). cbn in U2, U3, U4. rewrite Ed in U2. rewrite Eb in U4. subst u2 u3 u4.
  destruct (settle_step _ _ _ _ _ _ _ _ _ S1 Ld Lb M1 M2 A) as (y & Ey & Iy & Ly & _).
  split; [|exists y; auto].
  destruct SW as (z1 & z2 & Z1 & (h1 & h2 & (j1 & j2 & -> & (i1 & i2 & I1 & I2 & DM) & ML) & (f1 & f2 & (l1 & (s1 & s2 & Q1 & Q2 & DV) & SQ) & F2 & AE) & DD) & SS).
  cbn in Z1, I1, I2, Q1, Q2, F2. rewrite Ew in Z1. rewrite Ey in I1. rewrite EV' in Q1. subst z1 i1 i2 s1 s2 f2.
  destruct (div_fin _ _ _ (M / c) DM) as (mh & -> & _ & LMH); [lra|apply div_le; lra|exact R1|].
  destruct (mul_fin _ _ _ (Rabs lr * grown (M / c)) ML) as (lm & -> & _ & LLM & _); [rewrite Rabs_mult; apply Rmult_le_compat_l; [apply Rabs_pos|exact LMH]|exact R5|].
  cbn in DV. destruct (Req_EM_T k2 0); [lra|]. unfold ltb in DV. destruct (Rlt_dec k2 0); [lra|]. cbn in DV. subst l1. cbn in SQ. subst f1. cbn in AE. subst h2. cbn in DD. subst z2.
  destruct (sub_fin _ _ _ (Rabs x) SS) as (z & Ez & RZ & _); [rewrite Rminus_0_r; lra|apply isf_le_top, Ix|]. rewrite Ez. f_equal. rewrite Rminus_0_r in RZ. exact (rounds_self _ _ Ix RZ).
Qed.
Lemma adam_stays_infinite lib lr b1 b2 eps c1 c2 n w g m v w' m' v' p y :
  fadam lib lr b1 b2 eps c1 c2 n w g m v w' m' v' -> (p < n)%nat -> 0 < b2 <= 1 - / 2 ^ 24 -> g p = Fin y -> v p = Inf false -> v' p = Inf false.
Proof.
  intros (o1' & o2 & O1 & O2 & SM & SV & SW) Hp B2 Eb Ev. specialize (SV p Hp). destruct (complement_pos _ _ B2 O2) as (o & -> & PO).
  destruct SV as (y1 & y2 & (t1 & t2 & -> & T2 & N1) & (t3 & t4 & T3 & (t5 & t6 & T5 & T6 & N3) & N2) & A'). cbn in T2, T3, T5, T6. rewrite Ev in T2. rewrite Eb in T5, T6. subst t2 t3 t5 t6.
  assert (Y1 : y1 = Inf false).
  { cbn in N1. destruct (Req_EM_T b2 0); [lra|]. subst y1. unfold ltb. destruct (Rlt_dec b2 0); [lra|reflexivity]. }
  subst y1. exact (add_inf _ _ (scaled_pos _ _ _ PO (square_pos _ _ N3) N2) A').
Qed.

Lemma adam_frozen lib lr b1 b2 eps c n p x G M : (p < n)%nat -> 0 < b2 <= 1 - / 2 ^ 24 -> mean_room lr b1 c G M -> isf x ->
  forall gs cs w m v w' m' v', fadams lib lr b1 b2 eps n cs gs w m v w' m' v' -> Forall (fun k => correction c (fst k) /\ correction c (snd k)) cs -> Forall (finite_up_to G n) gs ->
  w p = Fin x -> (exists y, m p = Fin y /\ Rabs y <= M) -> v p = Inf false -> w' p = Fin x /\ v' p = Inf false.
Proof.
  intros Hp B2 RM Ix. induction gs as [|g gs IH]; intros cs w m v w' m' v' R FC FG Ew Em Ev; cbn [fadams] in R.
  - destruct cs; [|contradiction]. destruct R as (-> & -> & ->). auto.
  - destruct cs as [|k cs]; [contradiction|]. destruct R as (w1 & m1 & v1 & S & R). inversion FG as [|? ? G1 G2]; subst. inversion FC as [|? ? [C1 C2] C3]; subst.
    destruct (G1 p Hp) as (y & Ey & _ & Ly).
    pose proof (adam_stays_infinite _ _ _ _ _ _ _ _ _ _ _ _ _ _ _ p y S Hp B2 Ey Ev) as V1.
    destruct (adam_still _ _ _ _ _ c _ _ _ _ _ _ _ _ _ _ p x G M S Hp RM C1 C2 Ew Ix ltac:(exists y; auto) Em V1) as (W1 & M1).
    exact (IH cs w1 m1 v1 w' m' v' R C3 G2 W1 M1 V1).
Qed.
Lemma adams_lost lib lr b1 b2 eps n p : (p < n)%nat -> forall gs cs w m v w' m' v', fadams lib lr b1 b2 eps n cs gs w m v w' m' v' -> lost (w p) -> lost (w' p).
Proof.
  intros Hp. induction gs as [|g gs IH]; intros cs w m v w' m' v' R L; cbn [fadams] in R; destruct cs as [|k cs]; try contradiction.
  - destruct R as (-> & _). exact L.
  - destruct R as (w1 & m1 & v1 & S & R). exact (IH _ _ _ _ _ _ _ R (adam_lost _ _ _ _ _ _ _ _ _ _ _ _ _ _ _ p Hp S L)).
Qed.

Lemma change_pos lr eps c M : 0 < eps -> 0 < c -> 0 <= M -> 0 <= adam_change lr eps c M.
Proof.
  intros E C M0. pose proof tiny32_pos. assert (P : forall x, 0 <= x -> 0 <= grown x) by (intros x X; pose proof (grown_ge x X); lra).
  assert (Q : forall x y, 0 <= x -> 0 < y -> 0 <= x / y) by (intros x y X Y; apply Rmult_le_pos; [exact X|apply Rlt_le, Rinv_0_lt_compat, Y]).
  unfold adam_change. apply P, Q; [|exact E]. apply P, Rmult_le_pos; [apply Rabs_pos|]. apply P, Q; assumption.
Qed.

(** ** A closed bound on velocities *)
Lemma velocity_settles gamma lr G : Rabs gamma <= 1 - / 2 ^ 10 -> 0 <= G -> Rabs lr * G <= 2 ^ 100 ->
  settles gamma lr G (2 * (Rabs lr * G) / (1 - Rabs gamma) + / 2 ^ 100).
Proof.
  intros GA G0 LG. assert (P10 : / 2 ^ 10 = / 1024) by (f_equal; lra). rewrite P10 in GA. pose proof (Rabs_pos gamma) as GP.
  set (q := 1 - Rabs gamma). assert (Q : / 1024 <= q <= 1) by (unfold q; lra). assert (GQ : Rabs gamma = 1 - q) by (unfold q; ring). unfold settles, grown. rewrite GQ. clearbody q. clear GA GP P10 GQ.
  set (a := Rabs lr * G) in *. assert (A : 0 <= a) by (apply Rmult_le_pos; [apply Rabs_pos|exact G0]). clearbody a.
  set (V := 2 * a / q + / 2 ^ 100). assert (QV : q * V = 2 * a + q * / 2 ^ 100) by (unfold V; unfold Rdiv; rewrite Rmult_plus_distr_l; f_equal; field; lra).
  assert (Z : 0 < / 2 ^ 100 <= 1) by (split; [apply Rinv_0_lt_compat, pow_lt; lra|rewrite <- Rinv_1; apply Rinv_le_contravar; [lra|apply pow_R1_Rle; lra]]).
  assert (T : tiny32 <= / 2 ^ 100 * / 2 ^ 20).
  { rewrite <- Rinv_mult, <- pow_add. unfold tiny32. apply Rinv_le_contravar; [apply pow_lt; lra|]. apply Rle_pow; [lra|]. lia. }
  assert (E : eps32 = / 8388608) by (unfold eps32; f_equal; lra). assert (P20 : / 2 ^ 20 = / 1048576) by (f_equal; lra). rewrite P20 in T. pose proof tiny32_pos as TP.
  assert (V0 : 0 <= V).
  { unfold V. assert (0 <= 2 * a / q) by (apply Rmult_le_pos; [lra|apply Rlt_le, Rinv_0_lt_compat; lra]). lra. }
  assert (VB : V <= 1024 * (q * V)) by nra.
  assert (BIG : 2 ^ 127 = 2 ^ 100 * 134217728) by (replace 127%nat with (100 + 27)%nat by reflexivity; rewrite pow_add; f_equal; lra).
  pose proof top_big as TB. assert (ONE : 1 <= 2 ^ 100) by (apply pow_R1_Rle; lra). rewrite BIG in TB.
  set (B := 2 ^ 100) in *. set (z := / B) in *. clearbody V z. clearbody B. assert (qV1 : q * V <= 2 * B + 1) by nra.
  assert (VB2 : V <= 4096 * B) by nra. assert (M1 : (1 - q) * V <= V) by nra. assert (M2 : 0 <= (1 - q) * V) by nra. assert (M3 : (1 - q) * V = V - q * V) by ring.
  assert (QZ : z <= 1024 * (q * z)) by nra. rewrite E.
  split; [lra|]. split; [lra|]. split; lra.
Qed.
