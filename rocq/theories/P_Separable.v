(** Training a one-layer classifier on samples that some weights separate. *)
From Coq Require Import ZArith Reals Lra Lia String List.
From Verif Require Import Base BaseFacts Sums M_Im2col M_Kernels M_Conv M_Layers M_Loss M_Optim S_Grad S_Loss M_Regression S_Regression P_Vjp2 P_Layers P_Loss P_Vjp3 P_Regression.
Import ListNotations.
Open Scope R_scope.

Lemma separated_row U Y i c s : (c < U)%nat -> 0 < s -> (forall j, (j < U)%nat -> j <> c -> Y.[i * U + j] + s <= Y.[i * U + c]) -> - ln (softmax_val U Y i c) <= INR U / s.
Proof.
  intros Hc Hs H. assert (HS : 0 < rsum U (fun k => exp Y.[i * U + k])) by (apply (exp_sum_pos U (fun k => Y.[i * U + k])); lia).
  assert (LP : ln (softmax_val U Y i c) = Y.[i * U + c] - ln (rsum U (fun k => exp Y.[i * U + k]))).
  { unfold softmax_val, Rdiv. rewrite ln_mult by (try apply exp_pos; apply Rinv_0_lt_compat; exact HS). rewrite ln_exp, ln_Rinv by exact HS. ring. }
  assert (B : rsum U (fun k => exp Y.[i * U + k]) <= exp (Y.[i * U + c]) * (1 + INR U * exp (- s))).
  { apply Rle_trans with (rsum U (fun k => delta c k * exp (Y.[i * U + c]) + exp (Y.[i * U + c]) * exp (- s))).
    - apply rsum_le. intros j Hj. rewrite <- exp_plus. unfold delta. destruct (Nat.eqb_spec j c) as [->|N]; [pose proof (exp_pos (Y.[i * U + c] + - s)); lra|]. pose proof (H j Hj N) as HJ. assert (LE : Y.[i * U + j] <= Y.[i * U + c] + - s) by lra. rewrite Rmult_0_l, Rplus_0_l. destruct LE as [LE|LE]; [left; apply exp_increasing; exact LE|rewrite LE; lra].
    - rewrite rsum_plus, rsum_const, (delta_sum U c (fun _ => exp (Y.[i * U + c])) Hc). lra. }
  assert (B2 : ln (rsum U (fun k => exp Y.[i * U + k])) <= Y.[i * U + c] + INR U * exp (- s)).
  { rewrite <- (ln_exp (Y.[i * U + c] + INR U * exp (- s))). assert (L : rsum U (fun k => exp Y.[i * U + k]) <= exp (Y.[i * U + c] + INR U * exp (- s))). { eapply Rle_trans; [exact B|]. rewrite exp_plus. apply Rmult_le_compat_l; [left; apply exp_pos|]. assert (P : 0 < INR U * exp (- s)) by (apply Rmult_lt_0_compat; [apply lt_0_INR; lia|apply exp_pos]). left. apply exp_ineq1. lra. }
    destruct L as [L|L]; [left; apply ln_increasing; [exact HS|exact L]|rewrite L; lra]. }
  assert (ES : exp (- s) <= / s). { rewrite exp_Ropp. apply Rinv_le_contravar; [exact Hs|]. pose proof (exp_ineq1 s ltac:(lra)). lra. }
  assert (INR U * exp (- s) <= INR U * / s) by (apply Rmult_le_compat_l; [apply pos_INR|exact ES]). unfold Rdiv. lra.
Qed.

Lemma least_margin U c (f : nat -> R) : (forall j, (j < U)%nat -> j <> c -> 0 < f j) -> exists m, 0 < m /\ forall j, (j < U)%nat -> j <> c -> m <= f j.
Proof.
  induction U as [|U IH]; intros H; [exists 1; split; [lra|intros; lia]|]. destruct IH as (m & M0 & M); [intros; apply H; [lia|assumption]|]. destruct (Nat.eq_dec U c) as [e|N].
  - exists m. split; [exact M0|]. intros j Hj Nj. apply M; [lia|exact Nj].
  - exists (Rmin m (f U)). split; [apply Rmin_glb_lt; [exact M0|apply H; [lia|exact N]]|]. intros j Hj Nj. destruct (Nat.eq_dec j U) as [->|]; [apply Rmin_r|]. eapply Rle_trans; [apply Rmin_l|apply M; [lia|exact Nj]].
Qed.
Lemma least_margins n U (c : nat -> nat) (f : nat -> nat -> R) : (forall i j, (i < n)%nat -> (j < U)%nat -> j <> c i -> 0 < f i j) -> exists m, 0 < m /\ forall i j, (i < n)%nat -> (j < U)%nat -> j <> c i -> m <= f i j.
Proof.
  induction n as [|n IH]; intros H; [exists 1; split; [lra|intros; lia]|]. destruct IH as (m & M0 & M); [intros; apply H; [lia|assumption|assumption]|]. destruct (least_margin U (c n) (f n)) as (m' & M0' & M'); [intros; apply H; [lia|assumption|assumption]|].
  exists (Rmin m m'). split; [apply Rmin_glb_lt; assumption|]. intros i j Hi Hj Nj. destruct (Nat.eq_dec i n) as [->|]; [eapply Rle_trans; [apply Rmin_r|apply M'; assumption]|]. eapply Rle_trans; [apply Rmin_l|apply M; [lia|exact Hj|exact Nj]].
Qed.

Definition scaled (s : R) (V : prm) : prm := mkP (mkT (tsh (p_data V)) (map (Rmult s) (tdat (p_data V)))) (p_grad V) (p_train V).
Lemma scaled_ok s sh V : prm_ok sh V -> prm_ok sh (scaled s V).
Proof. intros H. unfold prm_ok, twf, tot, scaled in *. cbn. rewrite map_length. exact H. Qed.
Lemma scaled_at s V q : (tdat (p_data (scaled s V))).[q] = s * (tdat (p_data V)).[q].
Proof. cbn. rewrite <- (map_nth (Rmult s)). f_equal. ring. Qed.
Lemma scaled_logit K s V d x i j : logit K (scaled s V) (scaled s d) x i j = s * score K V d x i j.
Proof.
  unfold logit, score. rewrite scaled_at, Rmult_plus_distr_l. f_equal. rewrite <- rsum_scal_l. apply rsum_ext. intros k Hk. rewrite scaled_at. ring.
Qed.

Lemma scaled_loss E n U K c x target V d s m : (0 < n)%nat -> ten_ok [n; K] x -> labels n U target c -> prm_ok [U; K] V -> prm_ok [U] d -> 0 < m ->
  (forall i j, (i < n)%nat -> (j < U)%nat -> j <> c i -> m <= score K V d x i (c i) - score K V d x i j) -> 0 < s ->
  exists l', regression_loss E (scaled (s / m) V) (scaled (s / m) d) x target = Ok l' /\ l' <= INR U / s.
Proof.
  intros Hn Hx Hl HV Hd M0 HS Hs. destruct (regression_loss_spec E n U K c x target _ _ Hn Hx Hl (scaled_ok (s / m) _ _ HV) (scaled_ok (s / m) _ _ Hd)) as (Y & VY & RL). exists (loss_of n U Y c). split; [exact RL|].
  assert (HN : 0 < INR n) by (apply lt_0_INR; exact Hn). unfold loss_of. apply (Rmult_le_reg_r (INR n)); [exact HN|]. replace (- rsum n (fun i => ln (softmax_val U Y i (c i))) / INR n * INR n) with (- rsum n (fun i => ln (softmax_val U Y i (c i)))) by (field; lra).
  rewrite <- rsum_opp. apply Rle_trans with (rsum n (fun _ => INR U / s)); [|rewrite rsum_const; lra]. apply rsum_le. intros i Hi. destruct (proj2 (proj2 Hl) i Hi) as [Hc Ht]. apply separated_row; [exact Hc|exact Hs|]. intros j Hj N. rewrite !VY by assumption. rewrite !scaled_logit. pose proof (HS i j Hi Hj N) as HI.
  assert (Q : s / m * m <= s / m * (score K V d x i (c i) - score K V d x i j)) by (apply Rmult_le_compat_l; [left; apply Rdiv_lt_0_compat; assumption|exact HI]). replace (s / m * m) with s in Q by (field; lra). lra.
Qed.

(** A small loss means that every sample is classified correctly. *)
Lemma small_loss_accuracy E n U K c x target W b l : is_argmax (e_amax E) -> (0 < n)%nat -> ten_ok [n; K] x -> labels n U target c -> prm_ok [U; K] W -> prm_ok [U] b ->
  regression_loss E W b x target = Ok l -> INR n * l <= 1 / 2 -> regression_accuracy E W b x target = Ok 1.
Proof.
  intros HE Hn Hx Hl HW Hb RL HL. destruct (forward_spec E n U K c x target Hn Hx Hl W b HW Hb) as (Z & p & st' & OZ & OP & FZ & FP & FC & VZ & VP).
  assert (Hc : forall i, (i < n)%nat -> (c i < U)%nat) by (intros; apply (proj2 (proj2 Hl)); assumption). assert (HU : (0 < U)%nat) by (pose proof (Hc 0%nat Hn); lia). assert (HN : 0 < INR n) by (apply lt_0_INR; exact Hn).
  assert (EL : l = loss_of n U (tdat Z) c).
  { revert RL. unfold regression_loss; mred; rewrite (proj1 HW); mred; rewrite (proj1 Hx); mred; rewrite FZ; cbn [bind]; rewrite FP; cbn [bind]; rewrite FC; cbn [bind]. intros RL. injection RL as <-. reflexivity. }
  assert (HP : forall i, (i < n)%nat -> 1 / 2 < softmax_val U (tdat Z) i (c i)).
  { intros i Hi. assert (T : - ln (softmax_val U (tdat Z) i (c i)) <= rsum n (fun i => - ln (softmax_val U (tdat Z) i (c i)))).
    { apply (rsum_term_le n (fun i => - ln (softmax_val U (tdat Z) i (c i))) i); [exact Hi|]. intros k Hk. pose proof (softmax_le1 U (tdat Z) k (c k) (Hc k Hk)) as L. pose proof (softmax_pos U (tdat Z) k (c k) HU) as P. destruct L as [L| ->]; [|rewrite ln_1; lra]. pose proof (ln_increasing _ _ P L) as I. rewrite ln_1 in I. lra. }
    rewrite rsum_opp in T. rewrite EL in HL. unfold loss_of in HL. replace (INR n * (- rsum n (fun i => ln (softmax_val U (tdat Z) i (c i))) / INR n)) with (- rsum n (fun i => ln (softmax_val U (tdat Z) i (c i)))) in HL by (field; lra).
    pose proof (softmax_pos U (tdat Z) i (c i) HU) as P. rewrite <- (exp_ln _ P). pose proof (exp_ineq1 (- (1 / 2)) ltac:(lra)) as EX. assert (LE : - (1 / 2) <= ln (softmax_val U (tdat Z) i (c i))) by lra. destruct LE as [LE|LE]; [apply exp_increasing in LE; lra|rewrite <- LE; lra]. }
  assert (HT : tot target = n). { unfold tot. rewrite (proj2 (proj1 Hl)), (proj1 (proj1 Hl)). unfold prodN. cbn. lia. }
  destruct (accuracy_spec E n U p target HE Hn HU OP HT) as (col & v & FA & MC & SH & _).
  assert (CC : forall i, (i < n)%nat -> col i = c i).
  { intros i Hi. destruct (Nat.eq_dec (col i) (c i)) as [e|N]; [exact e|exfalso]. destruct (MC i Hi) as [Hk HM]. pose proof (HM (c i) (Hc i Hi)) as M. rewrite !VP in M by auto. pose proof (HP i Hi) as P.
    pose proof (softmax_sum U (tdat Z) i HU) as S1. assert (S2 : rsum U (fun j => delta (c i) j * softmax_val U (tdat Z) i j + delta (col i) j * softmax_val U (tdat Z) i j) <= rsum U (fun j => softmax_val U (tdat Z) i j)).
    { apply rsum_le. intros j Hj. pose proof (softmax_pos U (tdat Z) i j HU). unfold delta. destruct (Nat.eqb_spec j (c i)); destruct (Nat.eqb_spec j (col i)); try lra. congruence. }
    rewrite rsum_plus, (delta_sum U (c i)), (delta_sum U (col i)) in S2 by auto. lra. }
  assert (V1 : v = 1).
  { destruct SH as (rows & ND & IN & ->). assert (LEN : length rows = n). { apply Nat.le_antisymm.
      - rewrite <- (seq_length n 0). apply NoDup_incl_length; [exact ND|]. intros i Hi. apply in_seq. apply IN in Hi. lia.
      - rewrite <- (seq_length n 0) at 1. apply NoDup_incl_length; [apply seq_NoDup|]. intros i Hi. apply in_seq in Hi. apply IN. split; [lia|]. rewrite CC by lia. apply (proj2 (proj2 Hl)). lia. }
    rewrite LEN. field. lra. }
  unfold regression_accuracy; mred; rewrite (proj1 HW); mred; rewrite (proj1 Hx); mred; rewrite FZ; cbn [bind]; rewrite FP; cbn [bind]; rewrite FA; cbn [bind]. rewrite V1. reflexivity.
Qed.

Lemma train_ok E n U K c x target lr : (0 < n)%nat -> ten_ok [n; K] x -> labels n U target c -> forall T W b W2 b2 ls, prm_ok [U; K] W -> prm_ok [U] b -> p_train W = true -> p_train b = true ->
  regression_train E lr W b (repeat (x, target) T) = Ok (W2, b2, ls) -> prm_ok [U; K] W2 /\ prm_ok [U] b2.
Proof.
  intros Hn Hx Hl. induction T as [|T IH]; intros W b W2 b2 ls HW Hb TW Tb RT.
  - cbn in RT. injection RT as <- <- _. auto.
  - destruct (step_spec E n U K c x target Hn Hx Hl lr W b HW Hb TW Tb) as (Z & W1 & b1 & VZ & RS & RL & OW & Ob & T1 & T2 & _). cbn [repeat regression_train] in RT. rewrite RS in RT. cbn [bind] in RT. destruct (regression_train E lr W1 b1 (repeat (x, target) T)) as [[[W' b'] ls']| |] eqn:R; try discriminate RT. cbn [bind] in RT. injection RT as <- <- _. eapply IH; [exact OW|exact Ob|exact T1|exact T2|exact R].
Qed.

Lemma large_nat r : exists T, r < INR T.
Proof.
  exists (Z.to_nat (Z.max 0 (up r))). rewrite INR_IZR_INZ, Z2Nat.id by lia. pose proof (proj1 (archimed r)) as A. pose proof (IZR_le (up r) (Z.max 0 (up r)) ltac:(lia)). lra.
Qed.
Lemma separable E U K lr A x target W b V d : is_argmax (e_amax E) -> batch_ok U K A (x, target) -> 0 < lr -> lr * (1 + A * A) <= 1 / 9 ->
  prm_ok [U; K] W -> prm_ok [U] b -> p_train W = true -> p_train b = true -> prm_ok [U; K] V -> prm_ok [U] d -> separates U K V d x target ->
  exists T0, forall T, (T0 <= T)%nat -> exists W2 b2 ls, regression_train E lr W b (repeat (x, target) T) = Ok (W2, b2, ls) /\ regression_accuracy E W2 b2 x target = Ok 1.
Proof.
  intros HE HB HL HS HW Hb TW Tb HV Hd SP. pose proof HB as (n & c & Hn & Hx & Hl & HA). cbn [fst snd] in *. assert (HN : 0 < INR n) by (apply lt_0_INR; exact Hn).
  assert (HU : (0 < U)%nat) by (pose proof (proj1 (proj2 (proj2 Hl) 0%nat Hn)); lia). assert (HU' : 0 < INR U) by (apply lt_0_INR; exact HU).
  assert (HTT : tot target = n) by (unfold tot; rewrite (proj2 (proj1 Hl)), (proj1 (proj1 Hl)); unfold prodN; cbn; lia).
  destruct (least_margins n U c (fun i j => score K V d x i (c i) - score K V d x i j)) as (m & M0 & MM). { intros i j Hi Hj N. destruct (proj2 (proj2 Hl) i Hi) as [Hc Ht]. assert (HI : (i < tot target)%nat) by (rewrite HTT; exact Hi). pose proof (SP i (c i) j HI Hc Hj N Ht). lra. }
  set (s := 4 * INR n * INR U). assert (S0 : 0 < s) by (unfold s; apply Rmult_lt_0_compat; lra).
  destruct (regression_loss_spec E n U K c x target W b Hn Hx Hl HW Hb) as (Z & _ & RW). set (l := loss_of n U Z c) in *. set (C := distance2 U K W b (scaled (s / m) V) (scaled (s / m) d) / (2 * lr) + l).
  destruct (scaled_loss E n U K c x target V d s m Hn Hx Hl HV Hd M0 MM S0) as (l' & RV & LV). replace (INR U / s) with (/ (4 * INR n)) in LV by (unfold s; field; lra).
  destruct (large_nat (Rmax 1 (4 * INR n * C))) as [T0 HT0]. exists T0. intros T HT. pose proof (Rmax_l 1 (4 * INR n * C)). pose proof (Rmax_r 1 (4 * INR n * C)). apply le_INR in HT. assert (TT : 0 < INR T) by lra. assert (TP : (0 < T)%nat) by (apply INR_lt; cbn [INR]; lra).
  destruct (converges E U K lr A x target W b (scaled (s / m) V) (scaled (s / m) d) T HB HL HS TP HW Hb TW Tb (scaled_ok (s / m) _ _ HV) (scaled_ok (s / m) _ _ Hd)) as (W2 & b2 & ls & l0 & l2 & l1 & RT & R0 & R2 & R1 & LE). rewrite RW in R0. injection R0 as <-. rewrite RV in R1. injection R1 as <-. fold C in LE.
  exists W2, b2, ls. split; [exact RT|]. destruct (train_ok E n U K c x target lr Hn Hx Hl T W b W2 b2 ls HW Hb TW Tb RT) as [O1 O2]. apply (small_loss_accuracy E n U K c x target W2 b2 l2 HE Hn Hx Hl O1 O2 R2).
  assert (CT : INR n * (C / INR T) <= 1 / 4). { apply (Rmult_le_reg_r (INR T)); [exact TT|]. replace (INR n * (C / INR T) * INR T) with (INR n * C) by (field; lra). lra. }
  assert (INR n * l2 <= INR n * (l' + C / INR T)) by (apply Rmult_le_compat_l; lra). assert (INR n * l' <= INR n * / (4 * INR n)) by (apply Rmult_le_compat_l; lra). replace (INR n * / (4 * INR n)) with (1 / 4) in * by (field; lra). lra.
Qed.

Lemma separable_average E U K lr A m V d W b : 0 < lr -> lr * (1 + A * A) <= 1 / 9 -> (0 < U)%nat -> prm_ok [U; K] V -> prm_ok [U] d ->
  prm_ok [U; K] W -> prm_ok [U] b -> p_train W = true -> p_train b = true -> 0 < m -> forall eps, 0 < eps ->
  exists C, forall batches, Forall (batch_ok U K A) batches -> Forall (fun xt => separates_by m U K V d (fst xt) (snd xt)) batches ->
  exists W2 b2 ls, regression_train E lr W b batches = Ok (W2, b2, ls) /\ length ls = length batches /\ lsum ls <= eps * INR (length batches) + C.
Proof.
  intros HL HS HU HV Hd HW Hb TW Tb M0 eps HE. assert (HU' : 0 < INR U) by (apply lt_0_INR; exact HU). set (s := 16 / 7 * INR U / eps). assert (S0 : 0 < s) by (unfold s; apply Rdiv_lt_0_compat; lra).
  exists (8 / 7 * (distance2 U K W b (scaled (s / m) V) (scaled (s / m) d) / lr)). intros batches FB FS.
  destruct (train_total_div E U K lr A _ _ batches W b HL HS FB (scaled_ok (s / m) _ _ HV) (scaled_ok (s / m) _ _ Hd) HW Hb TW Tb) as (W2 & b2 & ls & ls' & RT & LEN & F2 & LE). exists W2, b2, ls. split; [exact RT|split; [exact LEN|]].
  assert (B : lsum ls' <= INR U / s * INR (length batches)).
  { clear - F2 FB FS HV Hd M0 S0. induction F2 as [|[x target] l' batches ls' RL F2 IH]; [unfold lsum; cbn; lra|]. inversion FB as [|? ? (n & c & Hn & Hx & Hl & HA) FB']; subst. inversion FS as [|? ? SB FS']; subst. specialize (IH FB' FS'). cbn [fst snd] in *.
    assert (HTT : tot target = n) by (unfold tot; rewrite (proj2 (proj1 Hl)), (proj1 (proj1 Hl)); unfold prodN; cbn; lia).
    destruct (scaled_loss E n U K c x target V d s m Hn Hx Hl HV Hd M0) as (l0 & R0 & L0); [|exact S0|]. { intros i j Hi Hj N. destruct (proj2 (proj2 Hl) i Hi) as [Hc Ht]. assert (HI : (i < tot target)%nat) by (rewrite HTT; exact Hi). pose proof (SB i (c i) j HI Hc Hj N Ht). lra. }
    rewrite R0 in RL. injection RL as <-. cbn [length]. rewrite S_INR. unfold lsum in *. cbn [fold_right]. lra. }
  replace (INR U / s) with (7 / 16 * eps) in B by (unfold s; field; lra). lra.
Qed.

Lemma accuracy_total E n U K c x target W b : is_argmax (e_amax E) -> (0 < n)%nat -> ten_ok [n; K] x -> labels n U target c -> prm_ok [U; K] W -> prm_ok [U] b ->
  exists a, regression_accuracy E W b x target = Ok a.
Proof.
  intros HE Hn Hx Hl HW Hb. destruct (forward_spec E n U K c x target Hn Hx Hl W b HW Hb) as (Z & p & st' & OZ & OP & FZ & FP & FC & VZ & VP).
  assert (HU : (0 < U)%nat) by (pose proof (proj1 (proj2 (proj2 Hl) 0%nat Hn)); lia). assert (HT : tot target = n). { unfold tot. rewrite (proj2 (proj1 Hl)), (proj1 (proj1 Hl)). unfold prodN. cbn. lia. }
  destruct (accuracy_spec E n U p target HE Hn HU OP HT) as (col & v & FA & _). exists v. unfold regression_accuracy; mred; rewrite (proj1 HW); mred; rewrite (proj1 Hx); mred; rewrite FZ; cbn [bind]; rewrite FP; cbn [bind]; rewrite FA; reflexivity.
Qed.
Lemma mistakes_cost E U K lr A B : is_argmax (e_amax E) -> (0 < B)%nat -> forall batches, Forall (batch_ok U K A) batches -> Forall (fun xt => (tot (snd xt) <= B)%nat) batches ->
  forall W b W2 b2 ls, prm_ok [U; K] W -> prm_ok [U] b -> p_train W = true -> p_train b = true -> regression_train E lr W b batches = Ok (W2, b2, ls) ->
  exists accs, train_accuracies E lr W b batches = Ok accs /\ length accs = length batches /\ INR (below_one accs) <= 2 * INR B * lsum ls.
Proof.
  intros HE HB. assert (HB' : 0 < INR B) by (apply lt_0_INR; exact HB). induction batches as [|[x target] batches IH]; intros FB FT W b W2 b2 ls HW Hb TW Tb RT.
  - cbn in RT. injection RT as _ _ <-. exists []. split; [reflexivity|split; [reflexivity|]]. unfold lsum, below_one. cbn. lra.
  - inversion FB as [|? ? (n & c & Hn & Hx & Hl & HA) FB']; subst. inversion FT as [|? ? HT FT']; subst. cbn [fst snd] in *.
    assert (HTT : tot target = n) by (unfold tot; rewrite (proj2 (proj1 Hl)), (proj1 (proj1 Hl)); unfold prodN; cbn; lia). assert (Hc : forall i, (i < n)%nat -> (c i < U)%nat) by (intros; apply (proj2 (proj2 Hl)); assumption).
    destruct (step_spec E n U K c x target Hn Hx Hl lr W b HW Hb TW Tb) as (Z & W1 & b1 & VZ & RS & RL & OW & Ob & T1 & T2 & _). set (l := loss_of n U Z c) in *. assert (L0 : 0 <= l) by (apply loss_nonneg; assumption).
    cbn [regression_train] in RT. rewrite RS in RT. cbn [bind] in RT. destruct (regression_train E lr W1 b1 batches) as [[[W' b'] ls']| |] eqn:R; try discriminate RT. cbn [bind] in RT. injection RT as _ _ <-.
    destruct (IH FB' FT' W1 b1 W' b' ls' OW Ob T1 T2 R) as (accs & TA & LA & CA). destruct (accuracy_total E n U K c x target W b HE Hn Hx Hl HW Hb) as (a & RA).
    exists (a :: accs). cbn [train_accuracies]. rewrite RA. cbn [bind]. rewrite RS. cbn [bind]. rewrite TA. cbn [bind]. split; [reflexivity|split; [cbn [length]; congruence|]].
    assert (LS : lsum (l :: ls') = l + lsum ls') by reflexivity. rewrite LS. assert (BL : 0 <= INR B * l) by (apply Rmult_le_pos; lra).
    unfold below_one in *. cbn [filter]. destruct (Req_EM_T a 1) as [|NA]; [lra|]. cbn [length]. rewrite S_INR.
    assert (NL : 1 / 2 < INR n * l). { apply Rnot_le_lt. intros H. apply NA. pose proof (small_loss_accuracy E n U K c x target W b l HE Hn Hx Hl HW Hb RL H) as R1. rewrite RA in R1. injection R1 as ->. reflexivity. }
    assert (INR n * l <= INR B * l) by (apply Rmult_le_compat_r; [exact L0|apply le_INR; lia]). lra.
Qed.
Lemma few_mistakes E U K lr A m B V d W b : is_argmax (e_amax E) -> 0 < lr -> lr * (1 + A * A) <= 1 / 9 -> (0 < U)%nat -> (0 < B)%nat -> prm_ok [U; K] V -> prm_ok [U] d ->
  prm_ok [U; K] W -> prm_ok [U] b -> p_train W = true -> p_train b = true -> 0 < m -> forall eps, 0 < eps ->
  exists C, forall batches, Forall (batch_ok U K A) batches -> Forall (fun xt => (tot (snd xt) <= B)%nat) batches -> Forall (fun xt => separates_by m U K V d (fst xt) (snd xt)) batches ->
  exists accs, train_accuracies E lr W b batches = Ok accs /\ length accs = length batches /\ INR (below_one accs) <= eps * INR (length batches) + C.
Proof.
  intros HE HL HS HU HB HV Hd HW Hb TW Tb M0 eps EP. assert (HB' : 0 < INR B) by (apply lt_0_INR; exact HB). assert (E2 : 0 < eps / (2 * INR B)) by (apply Rdiv_lt_0_compat; lra).
  destruct (separable_average E U K lr A m V d W b HL HS HU HV Hd HW Hb TW Tb M0 _ E2) as (C & HC). exists (2 * INR B * C). intros batches FB FT FS. destruct (HC batches FB FS) as (W2 & b2 & ls & RT & LL & LE).
  destruct (mistakes_cost E U K lr A B HE HB batches FB FT W b W2 b2 ls HW Hb TW Tb RT) as (accs & TA & LA & CA). exists accs. split; [exact TA|split; [exact LA|]].
  assert (Q : 2 * INR B * lsum ls <= 2 * INR B * (eps / (2 * INR B) * INR (length batches) + C)) by (apply Rmult_le_compat_l; lra). replace (2 * INR B * (eps / (2 * INR B) * INR (length batches) + C)) with (eps * INR (length batches) + 2 * INR B * C) in Q by (field; lra). lra.
Qed.
