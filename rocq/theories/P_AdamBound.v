(** The size of Adam's steps: proofs. *)
From Coq Require Import Reals Lra Lia String.
From Verif Require Import Base BaseFacts Sums M_Im2col M_Kernels M_Conv M_Layers M_Optim S_Grad S_Optim P_Optim S_AdamBound.
Open Scope R_scope.

Section Bound.
Variables b1 b2 eps : R.
Hypotheses (H1 : 0 <= b1 < 1) (H2 : 0 < b2 < 1) (HQ : b1 * b1 < b2) (HE : 0 < eps).
Lemma q_range : 0 < 1 - b1 * b1 / b2 <= 1.
Proof.
  assert (D : b1 * b1 / b2 * b2 = b1 * b1) by (field; lra). assert (0 <= b1 * b1 / b2) by (apply Rmult_le_pos; [nra|apply Rlt_le, Rinv_0_lt_compat; lra]). split; [|lra]. nra.
Qed.
(** Cauchy and Schwarz for the two weighted sums. *)
Lemma cauchy l : (1 - b1 * b1 / b2) * (ewsum b1 l * ewsum b1 l) <= ewsum b2 (map (fun g => g * g) l).
Proof.
  pose proof q_range as Q. assert (D : b1 * b1 / b2 * b2 = b1 * b1) by (field; lra). set (q := b1 * b1 / b2) in *.
  induction l as [|g l IH] using rev_ind; [cbn; lra|]. rewrite map_app. cbn [map]. rewrite !ewsum_snoc. set (M := ewsum b1 l) in *. set (S2 := ewsum b2 (map (fun g => g * g) l)) in *.
  assert (K : (1 - q) * ((b1 * M + g) * (b1 * M + g)) <= b2 * ((1 - q) * (M * M)) + g * g).
  { apply (Rmult_le_reg_l b2); [lra|].
    assert (E : b2 * (b2 * ((1 - q) * (M * M)) + g * g) - b2 * ((1 - q) * ((b1 * M + g) * (b1 * M + g))) = ((1 - q) * b2 * M - b1 * g) * ((1 - q) * b2 * M - b1 * g) + (q * b2 - b1 * b1) * (b2 * (M * M) * (1 - q) + g * g)) by ring.
    rewrite D in E. pose proof (Rle_0_sqr ((1 - q) * b2 * M - b1 * g)) as SQ. unfold Rsqr in SQ. lra. }
  assert (b2 * ((1 - q) * (M * M)) <= b2 * S2) by (apply Rmult_le_compat_l; lra). lra.
Qed.
Lemma pow_range b n : 0 <= b < 1 -> (0 < n)%nat -> 0 <= b ^ n <= b.
Proof. intros Hb Hn. destruct n as [|n]; [lia|]. split; [apply pow_le; lra|]. cbn [pow]. assert (0 <= b ^ n <= 1) by (split; [apply pow_le; lra|rewrite <- (pow1 n); apply pow_incr; lra]). nra. Qed.
Lemma squares_nonneg l : 0 <= ewsum b2 (map (fun g => g * g) l).
Proof. induction l as [|g l IH]; cbn; [lra|]. pose proof (pow_le b2 (length (map (fun g => g * g) l)) ltac:(lra)). nra. Qed.
Lemma move_bound i l lr g t : (0 < t)%nat -> Rabs (adam_move b1 b2 eps i (l ++ [(lr, g, t)])) <= Rabs lr * adam_factor b1 b2 t.
Proof.
  intros Ht. unfold adam_move. rewrite last_last. pose proof q_range as Q. set (q := 1 - b1 * b1 / b2) in *.
  set (gs := map (fun '(_, g, _) => g.[i]) (l ++ [(lr, g, t)])). replace (map (fun '(_, g, _) => g.[i] * g.[i]) (l ++ [(lr, g, t)])) with (map (fun g => g * g) gs) by (unfold gs; rewrite map_map; apply map_ext; intros ((? & ?) & ?); reflexivity).
  pose proof (cauchy gs) as CS. fold q in CS. pose proof (squares_nonneg gs) as S0. set (M := ewsum b1 gs) in *. set (S2 := ewsum b2 (map (fun g => g * g) gs)) in *.
  pose proof (pow_range b1 t H1 Ht) as P1. pose proof (pow_range b2 t ltac:(lra) Ht) as P2. set (c1 := 1 - b1 ^ t). set (c2 := 1 - b2 ^ t). assert (C1 : 0 < c1) by (unfold c1; lra). assert (C2 : 0 < c2) by (unfold c2; lra).
  set (r := sqrt ((1 - b2) * S2 / c2)). pose proof (sqrt_pos ((1 - b2) * S2 / c2)) as R0. fold r in R0.
  assert (KR : Rabs ((1 - b1) * M / c1) <= adam_factor b1 b2 t * r).
  { unfold adam_factor. fold c1 c2 q. replace ((1 - b1) / c1 * sqrt (c2 / ((1 - b2) * q)) * r) with ((1 - b1) / c1 * (sqrt (c2 / ((1 - b2) * q)) * r)) by ring. unfold r. rewrite <- sqrt_mult_alt by (apply Rmult_le_pos; [lra|apply Rlt_le, Rinv_0_lt_compat; nra]).
    replace (c2 / ((1 - b2) * q) * ((1 - b2) * S2 / c2)) with (S2 / q) by (field; repeat split; lra). unfold Rdiv. rewrite !Rabs_mult, (Rabs_right (1 - b1)), (Rabs_right (/ c1)) by (try lra; apply Rle_ge, Rlt_le, Rinv_0_lt_compat; lra).
    replace ((1 - b1) * Rabs M * / c1) with ((1 - b1) * / c1 * Rabs M) by ring. apply Rmult_le_compat_l; [apply Rmult_le_pos; [lra|apply Rlt_le, Rinv_0_lt_compat; lra]|].
    rewrite <- sqrt_Rsqr_abs. apply sqrt_le_1_alt. unfold Rsqr. apply (Rmult_le_reg_l q); [lra|]. replace (q * (S2 * / q)) with S2 by (field; lra). exact CS. }
  assert (F0 : 0 <= adam_factor b1 b2 t) by (unfold adam_factor; fold c1; apply Rmult_le_pos; [apply Rmult_le_pos; [lra|apply Rlt_le, Rinv_0_lt_compat; lra]|apply sqrt_pos]).
  unfold Rdiv at 1. rewrite !Rabs_mult, Rabs_inv, (Rabs_right (r + eps)) by lra. rewrite Rmult_assoc. apply Rmult_le_compat_l; [apply Rabs_pos|].
  apply (Rmult_le_reg_r (r + eps)); [lra|]. rewrite Rmult_assoc, Rinv_l, Rmult_1_r by lra. nra.
Qed.
Lemma factor_limit t : (0 < t)%nat -> adam_factor b1 b2 t <= adam_limit b1 b2.
Proof.
  intros Ht. unfold adam_factor, adam_limit. pose proof q_range as Q. set (X := (1 - b2) * (1 - b1 * b1 / b2)). assert (X0 : 0 < X) by (unfold X; nra).
  pose proof (pow_range b1 t H1 Ht) as P1. pose proof (pow_range b2 t ltac:(lra) Ht) as P2. rewrite <- (Rmult_1_l (/ sqrt X)). pose proof (Rinv_0_lt_compat _ X0) as I0.
  apply Rmult_le_compat; [apply Rmult_le_pos; [lra|apply Rlt_le, Rinv_0_lt_compat; lra]|apply sqrt_pos| |].
  - apply (Rmult_le_reg_r (1 - b1 ^ t)); [lra|]. unfold Rdiv. rewrite Rmult_assoc, Rinv_l by lra. lra.
  - replace (/ sqrt X) with (sqrt (/ X)) by (apply sqrt_inv). apply sqrt_le_1_alt. unfold Rdiv. nra.
Qed.

Lemma active_times k : forall evs lr t e, In e (active k lr t evs) -> (0 < snd e)%nat.
Proof.
  induction evs as [|ev evs IH]; intros lr t e HI; [contradiction|]. destruct ev as [g tr|r]; cbn in HI; [|exact (IH r t e HI)]. apply in_app_iff in HI. destruct HI as [HI|HI]; [|exact (IH lr (S t) e HI)].
  destruct (tr k); [|contradiction]. destruct HI as [<-|[]]. cbn. lia.
Qed.
Lemma active_snoc k g tr : forall evs lr t, active k lr t (evs ++ [EStep g tr]) = active k lr t evs ++ (if tr k then [(final_lr lr evs, g k, S (t + steps_in evs))] else []).
Proof.
  induction evs as [|ev evs IH]; intros lr t; cbn; [rewrite Nat.add_0_r; destruct (tr k); reflexivity|]. destruct ev as [h tr'|r].
  - rewrite IH, app_assoc. unfold steps_in, final_lr. cbn. rewrite Nat.add_succ_r. reflexivity.
  - rewrite IH. reflexivity.
Qed.
Lemma moves_bound i l : (forall e, In e l -> (0 < snd e)%nat) -> Rabs (lsum (map (adam_move b1 b2 eps i) (prefixes l))) <= lsum (map (fun '(lr, _, _) => Rabs lr) l) * adam_limit b1 b2.
Proof.
  induction l as [|((lr, g), t) l IH] using rev_ind; intros HT; [cbn; unfold lsum; cbn; rewrite Rabs_R0; lra|]. rewrite prefixes_snoc, !map_app. cbn [map]. unfold lsum in *. rewrite !fold_right_app. cbn [fold_right].
  assert (FS : forall l a, fold_right Rplus a l = fold_right Rplus 0 l + a) by (clear; induction l as [|x l IH]; intros a; cbn; [lra|]; rewrite IH; lra).
  rewrite (FS (map _ (prefixes l))), (FS (map _ l)), !Rplus_0_r. pose proof (HT (lr, g, t) ltac:(apply in_app_iff; right; left; reflexivity)) as T0. cbn in T0.
  pose proof (IH ltac:(intros e He; apply HT, in_app_iff; left; exact He)) as I1. pose proof (move_bound i l lr g t T0) as MB. pose proof (factor_limit t T0) as FL. pose proof (Rmult_le_compat_l _ _ _ (Rabs_pos lr) FL).
  eapply Rle_trans; [apply Rabs_triang|]. lra.
Qed.
End Bound.

Lemma key_once (l : pmap) k p q : NoDup (map fst l) -> In (k, p) l -> In (k, q) l -> p = q.
Proof.
  induction l as [|(k', r) l IH]; intros N HP HQ; [contradiction|]. cbn in N. inversion N as [|? ? N1 N2]; subst. destruct HP as [HP|HP], HQ as [HQ|HQ].
  - congruence.
  - injection HP as -> ->. exfalso. apply N1. apply (in_map fst) in HQ. exact HQ.
  - injection HQ as -> ->. exfalso. apply N1. apply (in_map fst) in HP. exact HP.
  - exact (IH N2 HP HQ).
Qed.
Lemma same_key (ps ps' : pmap) k p' : same_shapes ps ps' -> In (k, p') ps' -> exists p, In (k, p) ps.
Proof. intros [E _] HI. apply (in_map fst) in HI. rewrite E in HI. apply in_map_iff in HI. destruct HI as ((k0, p) & EK & HI). cbn in EK. subst k0. exists p. exact HI. Qed.

Lemma run_bound lr b1 b2 eps t ps evs : 0 <= b1 < 1 -> 0 < b2 < 1 -> b1 * b1 < b2 -> 0 < eps -> pmap_ok ps -> (forall e, In e evs -> event_ok ps e) ->
  exists t' ps' s', run_adam lr b1 b2 eps t ps (adam_new ps) evs = (t', Ret (ps', s')) /\ same_shapes ps ps' /\
  forall k p p' i, In (k, p) ps -> In (k, p') ps' -> (i < tot (p_data p))%nat ->
    Rabs ((tdat (p_data p')).[i] - (tdat (p_data p)).[i]) <= lsum (map (fun '(lr, _, _) => Rabs lr) (active k lr t evs)) * adam_limit b1 b2.
Proof.
  intros H1 H2 HQ HE OK EV. destruct (run_adam_spec lr b1 b2 eps t ps evs OK EV) as (ps' & s' & E & SS & OK' & V). exists (t + steps_in evs)%nat, ps', s'. split; [exact E|split; [exact SS|]].
  intros k p p' i HI HI' Hi. destruct (V k p HI) as (p2 & m & v & HI2 & _ & _ & _ & _ & W). assert (p' = p2) by exact (key_once ps' k p' p2 (proj1 OK') HI' HI2). subst p2.
  destruct (W i Hi) as (_ & _ & ->). replace (_ - _ - _) with (- lsum (map (adam_move b1 b2 eps i) (prefixes (active k lr t evs)))) by ring. rewrite Rabs_Ropp. apply moves_bound; auto. apply active_times.
Qed.

Lemma step_bound lr b1 b2 eps t ps evs g tr : 0 <= b1 < 1 -> 0 < b2 < 1 -> b1 * b1 < b2 -> 0 < eps -> pmap_ok ps -> (forall e, In e (evs ++ [EStep g tr]) -> event_ok ps e) ->
  exists t1 ps1 s1 t2 ps2 s2, run_adam lr b1 b2 eps t ps (adam_new ps) evs = (t1, Ret (ps1, s1)) /\ run_adam lr b1 b2 eps t ps (adam_new ps) (evs ++ [EStep g tr]) = (t2, Ret (ps2, s2)) /\
  t2 = S t1 /\ map fst ps1 = map fst ps /\ map fst ps2 = map fst ps /\
  forall k p1 p2 i, In (k, p1) ps1 -> In (k, p2) ps2 -> (i < tot (p_data p1))%nat ->
    Rabs ((tdat (p_data p2)).[i] - (tdat (p_data p1)).[i]) <= Rabs (final_lr lr evs) * adam_factor b1 b2 t2 /\ (tr k = false -> (tdat (p_data p2)).[i] = (tdat (p_data p1)).[i]).
Proof.
  intros H1 H2 HQ HE OK EV. destruct (run_adam_spec lr b1 b2 eps t ps evs OK ltac:(intros e He; apply EV, in_app_iff; left; exact He)) as (ps1 & s1 & E1 & SS1 & OK1 & V1).
  destruct (run_adam_spec lr b1 b2 eps t ps _ OK EV) as (ps2 & s2 & E2 & SS2 & OK2 & V2). exists (t + steps_in evs)%nat, ps1, s1, (t + steps_in (evs ++ [EStep g tr]))%nat, ps2, s2. split; [exact E1|split; [exact E2|]].
  assert (T : (t + steps_in (evs ++ [EStep g tr]) = S (t + steps_in evs))%nat) by (unfold steps_in; rewrite filter_app, app_length; cbn; lia).
  split; [exact T|split; [exact (proj1 SS1)|split; [exact (proj1 SS2)|]]]. intros k p1 p2 i I1 I2 Hi. destruct (same_key ps ps1 k p1 SS1 I1) as (p & HI). assert (Hi' : (i < tot (p_data p))%nat) by (rewrite <- (proj2 (proj2 SS1 k p p1 HI I1)); exact Hi).
  destruct (V1 k p HI) as (q1 & ? & ? & J1 & _ & _ & _ & _ & W1). destruct (V2 k p HI) as (q2 & ? & ? & J2 & _ & _ & _ & _ & W2).
  rewrite (key_once ps1 k p1 q1 (proj1 OK1) I1 J1), (key_once ps2 k p2 q2 (proj1 OK2) I2 J2). destruct (W1 i Hi') as (_ & _ & ->). destruct (W2 i Hi') as (_ & _ & ->). rewrite T, active_snoc.
  destruct (tr k).
  - rewrite prefixes_snoc, map_app, lsum_app. cbn [map]. set (a := lsum (map _ (prefixes _))). split; [|discriminate]. unfold lsum. cbn [fold_right]. set (mv := adam_move _ _ _ _ _). replace (_ - (a + (mv + 0)) - _) with (- mv) by ring. rewrite Rabs_Ropp. apply move_bound; auto. lia.
  - rewrite app_nil_r. split; [|reflexivity]. unfold Rminus. rewrite Rplus_opp_r, Rabs_R0. apply Rmult_le_pos; [apply Rabs_pos|]. unfold adam_factor. apply Rmult_le_pos; [|apply sqrt_pos]. pose proof (pow_range b1 (S (t + steps_in evs)) H1 ltac:(lia)).
    apply Rmult_le_pos; [lra|apply Rlt_le, Rinv_0_lt_compat; lra].
Qed.

(** ** The default coefficients *)
Lemma ratio_big : forall n, 2 * (9 / 10) ^ (7 + n) <= (999 / 1000) ^ (7 + n).
Proof. induction n as [|n IH]; [cbn; lra|]. rewrite Nat.add_succ_r. cbn [pow]. pose proof (pow_lt (9 / 10) (7 + n) ltac:(lra)). lra. Qed.
Lemma default_factor t : (0 < t)%nat -> adam_factor (9 / 10) (999 / 1000) t <= 73 / 10.
Proof.
  intros Ht. unfold adam_factor. set (x := (9 / 10) ^ t). set (y := (999 / 1000) ^ t). assert (PX : 0 <= x <= 9 / 10) by (apply pow_range; [lra|exact Ht]). assert (PY : 0 <= y <= 999 / 1000) by (apply pow_range; [lra|exact Ht]).
  assert (K : 1 - y <= (1 - x) * (1 - x)).
  { destruct (le_lt_dec 7 t) as [L|L].
    - pose proof (ratio_big (t - 7)) as RB. replace (7 + (t - 7))%nat with t in RB by lia. fold x y in RB. nra.
    - unfold x, y. do 7 (destruct t as [|t]; [first [lia|cbn; lra]|]). lia. }
  set (Xq := (1 - 999 / 1000) * (1 - 9 / 10 * (9 / 10) / (999 / 1000))). assert (XV : Xq = 189 / 999000) by (unfold Xq; field). rewrite XV.
  assert (SB : sqrt ((1 - y) / (189 / 999000)) <= 73 * (1 - x)).
  { rewrite <- (sqrt_Rsqr (73 * (1 - x))) by lra. apply sqrt_le_1_alt. unfold Rsqr. replace ((1 - y) / (189 / 999000)) with ((1 - y) * (999000 / 189)) by field. nra. }
  apply Rle_trans with ((1 - 9 / 10) / (1 - x) * (73 * (1 - x))); [apply Rmult_le_compat_l; [apply Rmult_le_pos; [lra|apply Rlt_le, Rinv_0_lt_compat; lra]|exact SB]|]. apply Req_le. field. lra.
Qed.

Lemma ewsum_zero c l : (forall x, In x l -> x = 0) -> ewsum c l = 0.
Proof. induction l as [|x l IH] using rev_ind; intros H; [reflexivity|]. rewrite ewsum_snoc, IH by (intros y Hy; apply H, in_app_iff; left; exact Hy). rewrite (H x) by (apply in_app_iff; right; left; reflexivity). lra. Qed.
Lemma moves_zero b1 b2 eps i l : (forall e, In e l -> (snd (fst e)).[i] = 0) -> lsum (map (adam_move b1 b2 eps i) (prefixes l)) = 0.
Proof.
  induction l as [|e l IH] using rev_ind; intros H; [reflexivity|]. rewrite prefixes_snoc, map_app, lsum_app, IH by (intros y Hy; apply H, in_app_iff; left; exact Hy). unfold lsum. cbn. unfold adam_move. rewrite last_last. destruct e as ((lr, g), t).
  rewrite (ewsum_zero b1) by (intros x Hx; apply in_map_iff in Hx; destruct Hx as (((lr0, g0), t0) & <- & HI); exact (H _ HI)). unfold Rdiv. ring.
Qed.
Lemma rare_moves lr ps z g tr k p i : 0 < lr -> pmap_ok ps -> event_ok ps (EStep z tr) -> event_ok ps (EStep g tr) -> In (k, p) ps -> (i < tot (p_data p))%nat -> tr k = true -> (z k).[i] = 0 -> (g k).[i] = 1000 ->
  exists n t' ps' s' p', run_adam lr (9 / 10) (999 / 1000) (1 / 1000) 0 ps (adam_new ps) (repeat (EStep z tr) n ++ [EStep g tr]) = (t', Ret (ps', s')) /\ In (k, p') ps' /\
    (tdat (p_data p')).[i] < (tdat (p_data p)).[i] - 3 * lr.
Proof.
  intros L OK EZ EG HI Hi TK ZK GK. destruct (pow_lt_1_zero (999 / 1000) ltac:(rewrite Rabs_right; lra) (1 / 20) ltac:(lra)) as (n & HN). exists n.
  destruct (run_adam_spec lr (9 / 10) (999 / 1000) (1 / 1000) 0 ps (repeat (EStep z tr) n ++ [EStep g tr]) OK) as (ps' & s' & E & _ & _ & V).
  { intros e He. apply in_app_iff in He. destruct He as [He|[<-|[]]]; [apply repeat_spec in He; subst e; exact EZ|exact EG]. }
  destruct (V k p HI) as (p' & mt & vt & J & _ & _ & _ & _ & W). exists (0 + steps_in (repeat (EStep z tr) n ++ [EStep g tr]))%nat, ps', s', p'. split; [exact E|split; [exact J|]]. destruct (W i Hi) as (_ & _ & ->). clear W V E.
  rewrite active_snoc, TK, prefixes_snoc, map_app, lsum_app.
  assert (AL : always k i 0 (repeat (EStep z tr) n)) by (intros g0 tr0 HI0; apply repeat_spec in HI0; injection HI0 as -> ->; auto).
  destruct (active_always k i 0 _ AL lr 0) as (_ & _ & A0). rewrite moves_zero by exact A0. unfold lsum. cbn [map fold_right]. unfold adam_move. rewrite last_last, !map_app. cbn [map]. rewrite !ewsum_snoc, !ewsum_zero.
  2,3: intros xx Hx; apply in_map_iff in Hx; destruct Hx as (((lr0, g0), t0) & <- & HI0); pose proof (A0 _ HI0) as A1; cbn in A1; rewrite A1; lra.
  assert (SN : (steps_in (repeat (EStep z tr) n) = n)%nat) by (clear; induction n as [|n IH]; [reflexivity|]; unfold steps_in in *; cbn; rewrite IH; reflexivity). rewrite SN. assert (FL : final_lr lr (repeat (EStep z tr) n) = lr) by (clear; induction n as [|n IH]; [reflexivity|exact IH]). rewrite FL, GK.
  pose proof (HN (S n) ltac:(lia)) as D. rewrite Rabs_right in D by (apply Rle_ge, pow_le; lra). pose proof (pow_range (999 / 1000) (S n) ltac:(lra) ltac:(lia)) as PY. pose proof (pow_range (9 / 10) (S n) ltac:(lra) ltac:(lia)) as PX. change (0 + n)%nat with n. set (x := (9 / 10) ^ S n) in *. set (y := (999 / 1000) ^ S n) in *.
  assert (SB : sqrt ((1 - 999 / 1000) * (999 / 1000 * 0 + 1000 * 1000) / (1 - y)) <= 33).
  { rewrite <- (sqrt_Rsqr 33) by lra. apply sqrt_le_1_alt. unfold Rsqr. apply (Rmult_le_reg_r (1 - y)); [lra|]. unfold Rdiv. rewrite !Rmult_assoc, Rinv_l by lra. lra. }
  pose proof (sqrt_pos ((1 - 999 / 1000) * (999 / 1000 * 0 + 1000 * 1000) / (1 - y))) as S0. set (r := sqrt _) in *. set (mm := (1 - 9 / 10) * (9 / 10 * 0 + 1000) / (1 - x)).
  assert (MM : 100 <= mm). { unfold mm. apply (Rmult_le_reg_r (1 - x)); [lra|]. unfold Rdiv. rewrite !Rmult_assoc, Rinv_l by lra. lra. }
  assert (3 * lr < lr * mm / (r + 1 / 1000)). { apply (Rmult_lt_reg_r (r + 1 / 1000)); [lra|]. unfold Rdiv at 2. rewrite (Rmult_assoc (lr * mm)), Rinv_l, Rmult_1_r by lra. nra. }
  lra.
Qed.

(** ** Coefficients for which the steps are unbounded *)
Lemma ewsum_then_zeros b c : forall l, (forall x, In x l -> x = 0) -> ewsum b (c :: l) = b ^ length l * c.
Proof.
  induction l as [|x l IH] using rev_ind; intros H; [cbn; lra|]. rewrite app_comm_cons, ewsum_snoc, IH by (intros y Hy; apply H, in_app_iff; left; exact Hy). rewrite (H x) by (apply in_app_iff; right; left; reflexivity). rewrite app_length, Nat.add_1_r. cbn [pow]. ring.
Qed.
Lemma unbounded_moves lr eps ps z tr k p i (gr : R -> string -> list R) bound : 0 < lr -> 0 < eps -> pmap_ok ps -> event_ok ps (EStep z tr) -> (forall c, event_ok ps (EStep (gr c) tr) /\ (gr c k).[i] = c) -> In (k, p) ps -> (i < tot (p_data p))%nat -> tr k = true -> (z k).[i] = 0 ->
  exists c n t1 ps1 s1 p1 t2 ps2 s2 p2,
  run_adam lr (9 / 10) (1 / 2) eps 0 ps (adam_new ps) (EStep (gr c) tr :: repeat (EStep z tr) n) = (t1, Ret (ps1, s1)) /\
  run_adam lr (9 / 10) (1 / 2) eps 0 ps (adam_new ps) ((EStep (gr c) tr :: repeat (EStep z tr) n) ++ [EStep z tr]) = (t2, Ret (ps2, s2)) /\
  In (k, p1) ps1 /\ In (k, p2) ps2 /\ (tdat (p_data p2)).[i] < (tdat (p_data p1)).[i] - bound * lr.
Proof.
  intros L HE OK EZ EG HI Hi TK ZK. destruct (Pow_x_infinity (81 / 50) ltac:(rewrite Rabs_right; lra) (25 * Rabs bound + 1)) as (j & HJ). specialize (HJ (S j) ltac:(lia)). rewrite Rabs_right in HJ by (apply Rle_ge, pow_le; lra).
  set (c := eps * 2 ^ S j). set (n := (j + S j)%nat). exists c, n. set (evs := EStep (gr c) tr :: repeat (EStep z tr) n). destruct (EG c) as (EG1 & GC).
  assert (EV : forall e, In e evs -> event_ok ps e) by (intros e [<-|He]; [exact EG1|apply repeat_spec in He; subst e; exact EZ]).
  destruct (run_adam_spec lr (9 / 10) (1 / 2) eps 0 ps evs OK EV) as (ps1 & s1 & E1 & _ & _ & V1).
  destruct (run_adam_spec lr (9 / 10) (1 / 2) eps 0 ps (evs ++ [EStep z tr]) OK ltac:(intros e He; apply in_app_iff in He; destruct He as [He|[<-|[]]]; [exact (EV e He)|exact EZ])) as (ps2 & s2 & E2 & _ & _ & V2).
  destruct (V1 k p HI) as (p1 & m1 & v1 & J1 & _ & _ & _ & _ & W1). destruct (V2 k p HI) as (p2 & m2 & v2 & J2 & _ & _ & _ & _ & W2). eexists _, ps1, s1, p1, _, ps2, s2, p2. split; [exact E1|split; [exact E2|split; [exact J1|split; [exact J2|]]]].
  destruct (W1 i Hi) as (_ & _ & ->). destruct (W2 i Hi) as (_ & _ & ->). clear W1 W2 V1 V2 E1 E2.
  rewrite active_snoc, TK, prefixes_snoc, map_app, lsum_app. cbn [map]. set (a := lsum (map _ (prefixes _))). unfold lsum. cbn [fold_right]. unfold adam_move. rewrite last_last, !map_app. cbn [map]. rewrite !ewsum_snoc, ZK.
  assert (FL : final_lr lr evs = lr) by (unfold evs, final_lr; cbn; clear; induction n as [|n IH]; [reflexivity|exact IH]). assert (SN : steps_in evs = S n) by (unfold evs, steps_in; cbn; f_equal; clear; induction n as [|n IH]; [reflexivity|cbn; rewrite IH; reflexivity]). rewrite FL, SN.
  unfold evs. cbn [active]. rewrite TK. cbn [app map]. rewrite GC.
  assert (AL : always k i 0 (repeat (EStep z tr) n)) by (intros g0 tr0 HI0; apply repeat_spec in HI0; injection HI0 as -> ->; auto). destruct (active_always k i 0 _ AL lr 1) as (_ & LA & A0).
  assert (LN : length (active k lr 1 (repeat (EStep z tr) n)) = n) by (rewrite LA; clear; induction n as [|n IH]; [reflexivity|unfold steps_in in *; cbn; rewrite IH; reflexivity]).
  rewrite !ewsum_then_zeros. 2,3: intros xx Hx; apply in_map_iff in Hx; destruct Hx as (((lr0, g0), t0) & <- & HI0); pose proof (A0 _ HI0) as A1; cbn in A1; rewrite A1; lra.
  rewrite !map_length, LN. change (0 + S n)%nat with (S n). assert (NJ : S n = (S j + S j)%nat) by (unfold n; lia).
  pose proof (pow_range (1 / 2) (S (S n)) ltac:(lra) ltac:(lia)) as PY. pose proof (pow_range (9 / 10) (S (S n)) ltac:(lra) ltac:(lia)) as PX. set (x := (9 / 10) ^ S (S n)) in *. set (y := (1 / 2) ^ S (S n)) in *.
  replace (9 / 10 * ((9 / 10) ^ n * c) + 0) with ((9 / 10) ^ S n * c) by (cbn [pow]; ring). replace (1 / 2 * ((1 / 2) ^ n * (c * c)) + 0 * 0) with ((1 / 2) ^ S n * (c * c)) by (cbn [pow]; ring). rewrite NJ, !pow_add.
  assert (HC : (1 / 2) ^ S j * c = eps). { unfold c. replace ((1 / 2) ^ S j * (eps * 2 ^ S j)) with (eps * ((1 / 2) ^ S j * 2 ^ S j)) by ring. rewrite <- Rpow_mult_distr. replace (1 / 2 * 2) with 1 by lra. rewrite pow1. ring. }
  assert (NC : (9 / 10) ^ S j * (9 / 10) ^ S j * c = eps * (81 / 50) ^ S j). { unfold c. rewrite <- Rpow_mult_distr. replace (9 / 10 * (9 / 10) ) with (81 / 100) by lra. replace ((81 / 100) ^ S j * (eps * 2 ^ S j)) with (eps * ((81 / 100) ^ S j * 2 ^ S j)) by ring. rewrite <- Rpow_mult_distr. do 2 f_equal. lra. }
  replace ((1 / 2) ^ S j * (1 / 2) ^ S j * (c * c)) with (((1 / 2) ^ S j * c) * ((1 / 2) ^ S j * c)) by ring. rewrite HC, NC.
  set (P := (81 / 50) ^ S j) in *.
  assert (SB : sqrt ((1 - 1 / 2) * (eps * eps) / (1 - y)) <= eps).
  { rewrite <- (sqrt_Rsqr eps) at 3 by lra. apply sqrt_le_1_alt. unfold Rsqr. apply (Rmult_le_reg_r (1 - y)); [lra|]. unfold Rdiv at 1. rewrite Rmult_assoc, Rinv_l, Rmult_1_r by lra. pose proof (Rmult_lt_0_compat _ _ HE HE). nra. }
  pose proof (sqrt_pos ((1 - 1 / 2) * (eps * eps) / (1 - y))) as S0. set (r := sqrt _) in *. pose proof (Rle_abs bound) as RA. pose proof (Rabs_pos bound) as RP.
  set (mm := (1 - 9 / 10) * (eps * P) / (1 - x)).
  assert (MM : eps * P / 10 <= mm). { unfold mm. apply (Rmult_le_reg_r (1 - x)); [lra|]. unfold Rdiv at 2. rewrite (Rmult_assoc _ (/ (1 - x))), Rinv_l by lra. assert (0 < eps * P) by (apply Rmult_lt_0_compat; lra). nra. }
  assert (K : bound * lr < lr * mm / (r + eps)).
  { apply (Rmult_lt_reg_r (r + eps)); [lra|]. unfold Rdiv at 1. rewrite (Rmult_assoc (lr * mm)), Rinv_l, Rmult_1_r by lra.
    assert (K1 : bound * (r + eps) <= Rabs bound * (2 * eps)) by (apply Rle_trans with (Rabs bound * (r + eps)); [apply Rmult_le_compat_r; lra|apply Rmult_le_compat_l; lra]).
    assert (K2 : eps * (25 * Rabs bound + 1) <= eps * P) by (apply Rmult_le_compat_l; lra). pose proof (Rmult_le_pos _ _ (Rlt_le _ _ HE) RP).
    replace (bound * lr * (r + eps)) with (lr * (bound * (r + eps))) by ring. apply Rmult_lt_compat_l; [exact L|]. lra. }
  lra.
Qed.

(** ** Rescaled gradients *)
Lemma active_rescaled c k : forall evs evs', Forall2 (rescaled c) evs evs' -> forall lr t, active k lr t evs' = map (fun a => (fst (fst a), map (Rmult c) (snd (fst a)), snd a)) (active k lr t evs).
Proof.
  intros evs evs' F. induction F as [|e e' evs evs' R F IH]; intros lr t; [reflexivity|]. destruct e as [g tr|r], e' as [g' tr'|r']; cbn in R; try contradiction; cbn.
  - destruct R as (RG & RT). rewrite map_app, IH, RT, RG. destruct (tr k); reflexivity.
  - subst r'. apply IH.
Qed.
Lemma ewsum_scale b c : forall l, ewsum b (map (Rmult c) l) = c * ewsum b l.
Proof. induction l as [|x l IH] using rev_ind; [cbn; ring|]. rewrite map_app. cbn [map]. rewrite !ewsum_snoc, IH. ring. Qed.
Lemma nth_scale c (l : list R) i : (map (Rmult c) l).[i] = c * l.[i].
Proof. revert i. induction l as [|x l IH]; intros [|i]; cbn; try ring. apply IH. Qed.
Lemma prefixes_map {A} (f : A -> A) : forall l, prefixes (map f l) = map (map f) (prefixes l).
Proof. induction l as [|x l IH] using rev_ind; [reflexivity|]. rewrite map_app. cbn [map]. rewrite !prefixes_snoc, map_app, IH. cbn [map]. rewrite map_app. reflexivity. Qed.
Lemma move_rescaled b1 b2 eps c i pre : 0 < c -> adam_move b1 b2 (c * eps) i (map (fun a => (fst (fst a), map (Rmult c) (snd (fst a)), snd a)) pre) = adam_move b1 b2 eps i pre.
Proof.
  intros C. unfold adam_move. destruct pre as [|e pre _] using rev_ind; [cbn; unfold Rdiv; ring|]. rewrite map_app at 1. cbn [map]. rewrite !last_last. destruct e as ((lr, g), t). cbn [fst snd].
  set (L := pre ++ [(lr, g, t)]). set (sc := fun a : R * list R * nat => (fst (fst a), map (Rmult c) (snd (fst a)), snd a)).
  assert (A1 : map (fun '(_, g, _) => g.[i]) (map sc L) = map (Rmult c) (map (fun '(_, g, _) => g.[i]) L)) by (rewrite !map_map; apply map_ext; intros ((? & ?) & ?); cbn; apply nth_scale).
  assert (A2 : map (fun '(_, g, _) => g.[i] * g.[i]) (map sc L) = map (Rmult (c * c)) (map (fun '(_, g, _) => g.[i] * g.[i]) L)) by (rewrite !map_map; apply map_ext; intros ((? & ?) & ?); cbn; rewrite !nth_scale; ring).
  rewrite A1, A2, !ewsum_scale. set (M := ewsum b1 _). set (V := ewsum b2 _).
  replace ((1 - b2) * (c * c * V) / (1 - b2 ^ t)) with (c * c * ((1 - b2) * V / (1 - b2 ^ t))) by (unfold Rdiv; ring). rewrite sqrt_mult_alt by nra. rewrite sqrt_square by lra. set (r := sqrt _). rewrite <- Rmult_plus_distr_l. unfold Rdiv. rewrite Rinv_mult.
  replace (lr * ((1 - b1) * (c * M) * / (1 - b1 ^ t)) * (/ c * / (r + eps))) with ((c * / c) * (lr * ((1 - b1) * M * / (1 - b1 ^ t)) * / (r + eps))) by ring. rewrite Rinv_r by lra. ring.
Qed.
Lemma run_rescaled lr b1 b2 eps c t ps evs evs' : 0 < c -> pmap_ok ps -> (forall e, In e evs -> event_ok ps e) -> Forall2 (rescaled c) evs evs' ->
  exists t' ps1 s1 ps2 s2, run_adam lr b1 b2 eps t ps (adam_new ps) evs = (t', Ret (ps1, s1)) /\ run_adam lr b1 b2 (c * eps) t ps (adam_new ps) evs' = (t', Ret (ps2, s2)) /\
  map fst ps1 = map fst ps /\ map fst ps2 = map fst ps /\
  forall k p1 p2 i, In (k, p1) ps1 -> In (k, p2) ps2 -> (i < tot (p_data p1))%nat -> (tdat (p_data p2)).[i] = (tdat (p_data p1)).[i].
Proof.
  intros C OK EV F. assert (EV' : forall e, In e evs' -> event_ok ps e).
  { clear - EV F. induction F as [|e e' evs evs' R F IH]; intros d Hd; [contradiction|]. destruct Hd as [<-|Hd]; [|apply IH; [intros x Hx; apply EV; right; exact Hx|exact Hd]]. pose proof (EV e (or_introl eq_refl)) as E1. destruct e as [g tr|r], e' as [g' tr'|r']; cbn in R; try contradiction; cbn in *; [|exact I]. intros k p HI. rewrite (proj1 R), map_length. exact (E1 k p HI). }
  assert (SN : steps_in evs' = steps_in evs) by (clear - F; unfold steps_in; induction F as [|e e' evs evs' R F IH]; [reflexivity|]; destruct e, e'; cbn in R; try contradiction; cbn; congruence).
  destruct (run_adam_spec lr b1 b2 eps t ps evs OK EV) as (ps1 & s1 & E1 & SS1 & OK1 & V1). destruct (run_adam_spec lr b1 b2 (c * eps) t ps evs' OK EV') as (ps2 & s2 & E2 & SS2 & OK2 & V2).
  exists (t + steps_in evs)%nat, ps1, s1, ps2, s2. split; [exact E1|split; [rewrite <- SN; exact E2|split; [exact (proj1 SS1)|split; [exact (proj1 SS2)|]]]].
  intros k p1 p2 i I1 I2 Hi. destruct (same_key ps ps1 k p1 SS1 I1) as (p & HI). assert (Hi' : (i < tot (p_data p))%nat) by (rewrite <- (proj2 (proj2 SS1 k p p1 HI I1)); exact Hi).
  destruct (V1 k p HI) as (q1 & ? & ? & J1 & _ & _ & _ & _ & W1). destruct (V2 k p HI) as (q2 & ? & ? & J2 & _ & _ & _ & _ & W2).
  rewrite (key_once ps1 k p1 q1 (proj1 OK1) I1 J1), (key_once ps2 k p2 q2 (proj1 OK2) I2 J2). destruct (W1 i Hi') as (_ & _ & ->). destruct (W2 i Hi') as (_ & _ & ->). do 2 f_equal.
  rewrite (active_rescaled c k evs evs' F), prefixes_map, map_map. apply map_ext. intros pre. apply move_rescaled. exact C.
Qed.
