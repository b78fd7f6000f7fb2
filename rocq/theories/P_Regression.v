(** Training a classifier that is one Linear layer with Softmax: proofs. *)
From Coq Require Import Reals Lra Lia String.
From Verif Require Import Base BaseFacts Sums Deriv M_Im2col S_Im2col M_Kernels M_Conv M_Layers M_Loss M_Optim S_Grad S_Partial S_Loss P_Kernels P_Vjp1 P_Vjp2 P_Vjp3 P_BN P_BN2 P_Partial P_Layers P_Loss M_Regression S_Regression.
Open Scope R_scope.

Definition delta (c j : nat) : R := if (j =? c)%nat then 1 else 0.
Lemma delta_sum m c f : (c < m)%nat -> rsum m (fun j => delta c j * f j) = f c.
Proof. intros H. rewrite (rsum_single m c); [unfold delta; rewrite Nat.eqb_refl; ring|exact H|]. intros j _ N. unfold delta. destruct (Nat.eqb_spec j c); [contradiction|ring]. Qed.

(** ** The loss is convex in the logits *)
Lemma exp_ge x : 1 + x <= exp x.
Proof. destruct (Req_dec x 0) as [->|N]; [rewrite exp_0; lra|]. left. apply exp_ineq1. exact N. Qed.
Lemma row_convex m X Y i c : (c < m)%nat ->
  - ln (softmax_val m X i c) + rsum m (fun j => (softmax_val m X i j - delta c j) * (Y.[i * m + j] - X.[i * m + j])) <= - ln (softmax_val m Y i c).
Proof.
  intros Hc. assert (Hm : (0 < m)%nat) by lia. pose proof (exp_sum_pos m (fun k => X.[i * m + k]) Hm) as SX. pose proof (exp_sum_pos m (fun k => Y.[i * m + k]) Hm) as SY.
  set (p := softmax_val m X i). assert (P0 : forall j, 0 < p j) by (intros j; apply softmax_pos; exact Hm). assert (P1 : rsum m p = 1) by (apply softmax_sum; exact Hm).
  set (d := fun j => Y.[i * m + j] - X.[i * m + j]). set (mu := rsum m (fun j => p j * d j)).
  assert (E1 : rsum m (fun j => (p j - delta c j) * d j) = mu - d c).
  { rewrite (rsum_ext m _ (fun j => p j * d j - delta c j * d j)) by (intros; ring). rewrite rsum_minus, delta_sum by exact Hc. reflexivity. }
  fold d. change (rsum m (fun j => (p j - delta c j) * (Y.[i * m + j] - X.[i * m + j]))) with (rsum m (fun j => (p j - delta c j) * d j)). rewrite E1.
  assert (LP : forall Z, 0 < rsum m (fun k => exp Z.[i * m + k]) -> ln (softmax_val m Z i c) = Z.[i * m + c] - ln (rsum m (fun k => exp Z.[i * m + k]))).
  { intros Z HZ. unfold softmax_val, Rdiv. rewrite ln_mult by (try apply exp_pos; apply Rinv_0_lt_compat; exact HZ). rewrite ln_exp, ln_Rinv by exact HZ. ring. }
  unfold p. rewrite (LP X SX), (LP Y SY). fold p.
  assert (J : rsum m (fun k => exp X.[i * m + k]) * exp mu <= rsum m (fun k => exp Y.[i * m + k])).
  { assert (Q : exp mu <= rsum m (fun j => p j * exp (d j))).
    { assert (Q1 : 1 <= rsum m (fun j => p j * exp (d j - mu))).
      { apply Rle_trans with (rsum m (fun j => p j * (1 + (d j - mu)))).
        - apply Req_le. rewrite (rsum_ext m _ (fun j => (p j + p j * d j) - mu * p j)) by (intros; ring). rewrite rsum_minus, rsum_plus, rsum_scal_l, P1. fold mu. ring.
        - apply rsum_le. intros j _. apply Rmult_le_compat_l; [left; apply P0|apply exp_ge]. }
      rewrite (rsum_ext m (fun j => p j * exp (d j)) (fun j => exp mu * (p j * exp (d j - mu)))) by (intros j _; replace (d j) with (mu + (d j - mu)) at 1 by ring; rewrite exp_plus; ring). rewrite rsum_scal_l. pose proof (exp_pos mu). nra. }
    apply Rle_trans with (rsum m (fun k => exp X.[i * m + k]) * rsum m (fun j => p j * exp (d j))); [apply Rmult_le_compat_l; [lra|exact Q]|]. apply Req_le. rewrite <- rsum_scal_l. apply rsum_ext. intros j _. unfold p, softmax_val, d.
    replace (Y.[i * m + j]) with (X.[i * m + j] + (Y.[i * m + j] - X.[i * m + j])) at 2 by ring. rewrite exp_plus. field. lra. }
  assert (L : ln (rsum m (fun k => exp X.[i * m + k])) + mu <= ln (rsum m (fun k => exp Y.[i * m + k]))).
  { rewrite <- (ln_exp mu) at 1. rewrite <- ln_mult by (try apply exp_pos; exact SX). destruct J as [J|J]; [left; apply ln_increasing; [apply Rmult_lt_0_compat; [exact SX|apply exp_pos]|exact J]|rewrite J; right; reflexivity]. }
  unfold d. lra.
Qed.
Lemma row_square m X i c : (c < m)%nat -> rsum m (fun j => (softmax_val m X i j - delta c j) ^ 2) <= 2.
Proof.
  intros Hc. assert (Hm : (0 < m)%nat) by lia. set (p := softmax_val m X i). assert (P0 : forall j, 0 < p j) by (intros j; apply softmax_pos; exact Hm). assert (P1 : rsum m p = 1) by (apply softmax_sum; exact Hm).
  apply Rle_trans with (rsum m (fun j => p j + delta c j * 1)).
  - apply rsum_le. intros j Hj. pose proof (P0 j). pose proof (softmax_le1 m X i j Hj) as L. fold p in L. unfold delta. destruct (j =? c)%nat; nra.
  - rewrite rsum_plus, P1, delta_sum by exact Hc. lra.
Qed.
(** The square of an average is at most the average of the squares. *)
Lemma mean_square n f : (0 < n)%nat -> (rsum n f / INR n) ^ 2 <= rsum n (fun i => f i ^ 2) / INR n.
Proof.
  intros Hn. assert (HN : 0 < INR n) by (apply lt_0_INR; exact Hn). set (a := rsum n f / INR n). assert (EA : rsum n f = a * INR n) by (unfold a; field; lra).
  assert (K : 0 <= rsum n (fun i => (f i - a) ^ 2)) by (apply rsum_nonneg; intros; apply pow2_ge_0).
  rewrite (rsum_ext n (fun i => (f i - a) ^ 2) (fun i => (f i ^ 2 - 2 * a * f i) + a * a)) in K by (intros; ring). rewrite rsum_plus, rsum_minus, rsum_scal_l, rsum_const, EA in K.
  apply (Rmult_le_reg_r (INR n)); [exact HN|]. unfold Rdiv. rewrite Rmult_assoc, Rinv_l by lra. nra.
Qed.

(** ** One iteration *)
Lemma written_map l : written (map Some l) = Ok l.
Proof. induction l as [|v l IH]; cbn; [reflexivity|]. rewrite IH. reflexivity. Qed.
Lemma zeros_ok n m : ten_ok [n; m] (zeros_like [n; m]).
Proof. split; [reflexivity|]. unfold twf, zeros_like. cbn [tdat tsh]. apply tab_length. Qed.

Definition logit (K : nat) (W b : prm) (x : ten) (i j : nat) : R :=
  (tdat (p_data b)).[j] + rsum K (fun k => (tdat x).[i * K + k] * (tdat (p_data W)).[j * K + k]).
Definition loss_of (n U : nat) (Z : list R) (c : nat -> nat) : R := - rsum n (fun i => ln (softmax_val U Z i (c i))) / INR n.
Definition resid (n U : nat) (Z : list R) (c : nat -> nat) (i j : nat) : R := (softmax_val U Z i j - delta (c i) j) / INR n.

Section Iteration.
Variables (E : env) (n U K : nat) (c : nat -> nat) (x target : ten).
Hypotheses (Hn : (0 < n)%nat) (Hx : ten_ok [n; K] x) (Hl : labels n U target c).
Lemma U_pos : (0 < U)%nat. Proof. pose proof (proj2 (proj2 Hl) O Hn). lia. Qed.

Lemma forward_spec W b : prm_ok [U; K] W -> prm_ok [U] b ->
  exists Z p st', ten_ok [n; U] Z /\ ten_ok [n; U] p /\
    lforward E (LLinear W b) [x] [zeros_like [n; U]] = Ok (LLinear W b, Z) /\ lforward E LSoftmax [Z] [zeros_like [n; U]] = Ok (LSoftmax, p) /\
    ce_forward E ce_new p target = Ok (st', Some (loss_of n U (tdat Z) c)) /\
    (forall i j, (i < n)%nat -> (j < U)%nat -> (tdat Z).[i * U + j] = logit K W b x i j) /\
    (forall i j, (i < n)%nat -> (j < U)%nat -> (tdat p).[i * U + j] = softmax_val U (tdat Z) i j).
Proof.
  intros HW Hb. pose proof U_pos as HU. destruct (linear_spec E W b n U [K] x (zeros_like [n; U]) ltac:(discriminate) ltac:(rewrite prodN1; exact HW) Hb Hx (zeros_ok n U)) as (Z & FZ & OZ & VZ). rewrite prodN1 in VZ.
  destruct (softmax_spec E n U Z (zeros_like [n; U]) HU OZ (zeros_ok n U)) as (p & FP & OP & VP). assert (Hc : forall i, (i < n)%nat -> (c i < U)%nat) by (intros; apply (proj2 (proj2 Hl)); assumption).
  destruct (ce_forward_spec E ce_new n U p target c Hn ltac:(left; reflexivity) OP Hl) as (st' & FC & _). { intros i Hi. rewrite VP by auto. apply softmax_pos. exact HU. }
  exists Z, p, st'. split; [exact OZ|split; [exact OP|split; [exact FZ|split; [exact FP|split; [|split; [exact VZ|exact VP]]]]]].
  rewrite FC. unfold loss_of. do 4 f_equal. f_equal. apply rsum_ext. intros i Hi. rewrite VP by auto. reflexivity.
Qed.

Lemma softmax_back Z p : ten_ok [n; U] Z -> ten_ok [n; U] p -> (forall i j, (i < n)%nat -> (j < U)%nat -> (tdat p).[i * U + j] = softmax_val U (tdat Z) i j) ->
  exists g gz, ce_backward p target (zeros_like [n; U]) = Ok (map Some g) /\
    lbackward E LSoftmax [Z] [p] [zeros_like [n; U]; mkT [n; U] g] [0%nat] [1%nat] = Ok (LSoftmax, [gz; mkT [n; U] g]) /\ ten_ok [n; U] gz /\
    forall i j, (i < n)%nat -> (j < U)%nat -> (tdat gz).[i * U + j] = resid n U (tdat Z) c i j.
Proof.
  intros OZ OP V. pose proof U_pos as HU. assert (HN : INR n <> 0) by (apply not_0_INR; lia). assert (Hc : forall i, (i < n)%nat -> (c i < U)%nat) by (intros; apply (proj2 (proj2 Hl)); assumption).
  destruct (ce_backward_spec n U p target (zeros_like [n; U]) c Hn OP Hl (zeros_ok n U)) as (g & B & L & G). { intros i Hi. rewrite V by auto. apply softmax_pos. exact HU. }
  pose proof (zeros_ok n U) as Hgi. pose proof (ten_ok_len _ _ Hgi) as Lgi. pose proof (ten_ok_len _ _ OP) as Lp. rewrite prodN2 in Lp, Lgi. set (gi := zeros_like [n; U]) in *.
  exists g. eexists. split; [exact B|split; [|split]].
  - cbn [lbackward]. mred. rewrite (proj1 OP). mred. erewrite on_grad_Ok; [cbn [bind]; cbn [upd]; reflexivity|reflexivity|]. mred. rewrite (proj1 Hgi). mred.
    unfold softmax_input_grad. rewrite !emap_Ok by lia. rewrite !same_refl. cbn [bind]. reflexivity.
  - split; [exact (proj1 Hgi)|]. unfold twf, set_dat. cbn [tdat tsh]. rewrite put2_full by exact Lgi. rewrite tab_length, (proj1 Hgi), prodN2. reflexivity.
  - intros i j Hi Hj. cbn [tdat set_dat]. rewrite put2_full by exact Lgi. rewrite nth_tab by (apply mult_lt; assumption). destruct (divmod_nat i U j Hj) as [-> ->]. unfold el.
    assert (G0 : (tdat gi).[i * U + j] = 0) by (unfold gi, zeros_like; cbn [tdat]; rewrite nth_tab by (rewrite prodN2; apply mult_lt; assumption); reflexivity). rewrite G0.
    assert (HK : rsum U (fun k => g.[i * U + k] * (tdat p).[i * U + k]) = - / INR n).
    { rewrite (rsum_single U (c i)).
      - rewrite G by auto. rewrite Nat.eqb_refl. rewrite V by auto. pose proof (softmax_pos U (tdat Z) i (c i) HU). field. split; [exact HN|lra].
      - auto.
      - intros k Hk Hne. rewrite G by auto. destruct (Nat.eqb_spec k (c i)); [contradiction|]. ring. }
    rewrite HK. unfold resid, delta. rewrite G by auto. rewrite V by auto. pose proof (softmax_pos U (tdat Z) i j HU). destruct (j =? c i)%nat; field; try exact HN. split; [exact HN|lra].
Qed.

Lemma step_spec lr W b : prm_ok [U; K] W -> prm_ok [U] b -> p_train W = true -> p_train b = true ->
  exists Z W2 b2, (forall i j, (i < n)%nat -> (j < U)%nat -> Z.[i * U + j] = logit K W b x i j) /\
    regression_step E lr W b x target = Ok (W2, b2, loss_of n U Z c) /\ regression_loss E W b x target = Ok (loss_of n U Z c) /\
    prm_ok [U; K] W2 /\ prm_ok [U] b2 /\ p_train W2 = true /\ p_train b2 = true /\
    (forall j, (j < U)%nat -> (tdat (p_data b2)).[j] = (tdat (p_data b)).[j] - lr * rsum n (fun i => resid n U Z c i j)) /\
    (forall j k, (j < U)%nat -> (k < K)%nat -> (tdat (p_data W2)).[j * K + k] = (tdat (p_data W)).[j * K + k] - lr * rsum n (fun i => resid n U Z c i j * (tdat x).[i * K + k])) /\
    (forall j, (j < U)%nat -> (tdat (p_grad b2)).[j] = rsum n (fun i => resid n U Z c i j)) /\
    (forall j k, (j < U)%nat -> (k < K)%nat -> (tdat (p_grad W2)).[j * K + k] = rsum n (fun i => resid n U Z c i j * (tdat x).[i * K + k])).
Proof.
  intros HW Hb TW Tb. destruct (forward_spec W b HW Hb) as (Z & p & st' & OZ & OP & FZ & FP & FC & VZ & VP). destruct (softmax_back Z p OZ OP VP) as (g & gz & CB & SB & OG & VG).
  destruct (prm_ok_len _ _ HW) as [LW LgW]. destruct (prm_ok_len _ _ Hb) as [Lb Lgb]. rewrite prodN2 in LW, LgW. rewrite prodN1 in Lb, Lgb. destruct HW as (SW & WW & SgW & WgW). destruct Hb as (Sb & Wb & Sgb & Wgb).
  pose proof (ten_ok_len _ _ Hx) as Lx. pose proof (ten_ok_len _ _ OG) as Lg. rewrite prodN2 in Lx, Lg.
  set (dW := tab (U * K) (fun q => rsum n (fun i => (tdat gz).[i * U + q / K] * (tdat x).[i * K + q mod K]))). set (db := tab U (fun j => rsum n (fun i => (tdat gz).[i * U + j]))).
  assert (LdW : length dW = (U * K)%nat) by (unfold dW; apply tab_length). assert (Ldb : length db = U) by (unfold db; apply tab_length).
  assert (UP : lupdate E (LLinear W b) [x] [gz] = Ok (LLinear (set_grad W dW) (set_grad b db))).
  { cbn [lupdate]. mred. rewrite SgW. mred. rewrite Sgb. mred. rewrite (proj1 OG). mred. rewrite (proj1 Hx). mred. rewrite prodN1. unfold linear_weight_grad, linear_bias_grad. rewrite !emap_Ok by lia. rewrite !same_refl. cbn [bind]. rewrite put2_full, put_full by assumption. reflexivity. }
  set (W2 := set_weight (set_grad W dW) (tab (U * K) (fun q => (tdat (p_data W)).[q] - lr * dW.[q]))). set (b2 := set_weight (set_grad b db) (tab U (fun q => (tdat (p_data b)).[q] - lr * db.[q]))).
  assert (SG : forall k p d N, p_train p = true -> tsh (p_grad p) = tsh (p_data p) -> prodN (tsh (p_data p)) = N -> length (tdat (p_data p)) = N -> length d = N -> sgd_one lr k (set_grad p d) tt = Ok (set_weight (set_grad p d) (tab N (fun q => (tdat (p_data p)).[q] - lr * d.[q])), tt)).
  { intros k q d N T S1 S2 L1 L2. unfold sgd_one, set_grad. cbn [p_train p_grad p_data set_dat tsh tdat tot]. rewrite T, S1, nshape_eqb_refl. cbn [dw_assert bind]. unfold tot. cbn [tdat set_dat]. rewrite L2, !emap_Ok by lia. cbn [bind]. rewrite put_full by exact L1. reflexivity. }
  exists (tdat Z), W2, b2. split; [exact VZ|].
  split.
  { unfold regression_step. mred. rewrite SW. mred. rewrite (proj1 Hx). mred. rewrite FZ. cbn [bind]. rewrite FP. cbn [bind]. rewrite FC. cbn [bind]. rewrite CB. cbn [bind]. rewrite written_map. cbn [bind]. rewrite SB. cbn [bind rd nth_error]. rewrite UP. cbn [bind].
    rewrite (SG _ W dW (U * K)%nat), (SG _ b db U) by (auto; try congruence; rewrite ?SW, ?Sb, ?prodN2, ?prodN1; reflexivity). reflexivity. }
  split. { unfold regression_loss. mred. rewrite SW. mred. rewrite (proj1 Hx). mred. rewrite FZ. cbn [bind]. rewrite FP. cbn [bind]. rewrite FC. reflexivity. }
  split. { unfold W2, prm_ok, set_weight, set_grad, set_dat, twf. cbn [p_data p_grad tsh tdat]. rewrite SW, SgW, tab_length, LdW, prodN2. auto. }
  split. { unfold b2, prm_ok, set_weight, set_grad, set_dat, twf. cbn [p_data p_grad tsh tdat]. rewrite Sb, Sgb, tab_length, Ldb, prodN1. auto. }
  split; [exact TW|split; [exact Tb|split; [|split; [|split]]]].
  - intros j Hj. unfold b2, set_weight, set_dat. cbn [p_data tdat]. rewrite nth_tab by exact Hj. unfold db. rewrite nth_tab by exact Hj. do 2 f_equal. apply rsum_ext. intros i Hi. apply VG; assumption.
  - intros j k Hj Hk. unfold W2, set_weight, set_dat. cbn [p_data tdat]. rewrite nth_tab by (apply mult_lt; assumption). unfold dW. rewrite nth_tab by (apply mult_lt; assumption). destruct (divmod_nat j K k Hk) as [-> ->]. do 2 f_equal. apply rsum_ext. intros i Hi. rewrite VG by assumption. reflexivity.
  - intros j Hj. unfold b2, set_weight, set_grad, set_dat. cbn [p_grad tdat]. unfold db. rewrite nth_tab by exact Hj. apply rsum_ext. intros i Hi. apply VG; assumption.
  - intros j k Hj Hk. unfold W2, set_weight, set_grad, set_dat. cbn [p_grad tdat]. unfold dW. rewrite nth_tab by (apply mult_lt; assumption). destruct (divmod_nat j K k Hk) as [-> ->]. apply rsum_ext. intros i Hi. rewrite VG by assumption. reflexivity.
Qed.
End Iteration.

(** ** The loss is convex in the weights, and its gradient is bounded *)
Section Convex.
Variables (n U K : nat) (c : nat -> nat) (x : ten) (W b V d : prm) (Z Y : list R).
Hypotheses (Hn : (0 < n)%nat) (Hc : forall i, (i < n)%nat -> (c i < U)%nat).
Hypothesis HZ : forall i j, (i < n)%nat -> (j < U)%nat -> Z.[i * U + j] = logit K W b x i j.
Hypothesis HY : forall i j, (i < n)%nat -> (j < U)%nat -> Y.[i * U + j] = logit K V d x i j.
Lemma INR_n : 0 < INR n. Proof. apply lt_0_INR. exact Hn. Qed.

Definition gb (j : nat) : R := rsum n (fun i => resid n U Z c i j).
Definition gw (j k : nat) : R := rsum n (fun i => resid n U Z c i j * (tdat x).[i * K + k]).
Lemma logits_convex : loss_of n U Z c + rsum n (fun i => rsum U (fun j => resid n U Z c i j * (Y.[i * U + j] - Z.[i * U + j]))) <= loss_of n U Y c.
Proof.
  pose proof INR_n as HN. apply (Rmult_le_reg_r (INR n)); [exact HN|]. unfold loss_of.
  assert (A1 : rsum n (fun i => - ln (softmax_val U Z i (c i)) + rsum U (fun j => (softmax_val U Z i j - delta (c i) j) * (Y.[i * U + j] - Z.[i * U + j]))) <= rsum n (fun i => - ln (softmax_val U Y i (c i)))) by (apply rsum_le; intros i Hi; apply row_convex; auto).
  rewrite rsum_plus, !rsum_opp in A1.
  replace ((- rsum n (fun i => ln (softmax_val U Y i (c i))) / INR n) * INR n) with (- rsum n (fun i => ln (softmax_val U Y i (c i)))) by (field; lra). rewrite Rmult_plus_distr_r.
  replace ((- rsum n (fun i => ln (softmax_val U Z i (c i))) / INR n) * INR n) with (- rsum n (fun i => ln (softmax_val U Z i (c i)))) by (field; lra).
  rewrite <- rsum_scal_r. rewrite (rsum_ext n (fun i => rsum U (fun j => resid n U Z c i j * (Y.[i * U + j] - Z.[i * U + j])) * INR n) (fun i => rsum U (fun j => (softmax_val U Z i j - delta (c i) j) * (Y.[i * U + j] - Z.[i * U + j])))); [exact A1|].
  intros i _. rewrite <- rsum_scal_r. apply rsum_ext. intros j _. unfold resid. field. lra.
Qed.
Lemma inner_eq : rsum n (fun i => rsum U (fun j => resid n U Z c i j * (Y.[i * U + j] - Z.[i * U + j]))) =
  rsum U (fun j => gb j * ((tdat (p_data d)).[j] - (tdat (p_data b)).[j]) + rsum K (fun k => gw j k * ((tdat (p_data V)).[j * K + k] - (tdat (p_data W)).[j * K + k]))).
Proof.
  rewrite rsum_swap. apply rsum_ext. intros j Hj.
  rewrite (rsum_ext n (fun i => resid n U Z c i j * (Y.[i * U + j] - Z.[i * U + j])) (fun i => resid n U Z c i j * ((tdat (p_data d)).[j] - (tdat (p_data b)).[j]) + rsum K (fun k => resid n U Z c i j * (tdat x).[i * K + k] * ((tdat (p_data V)).[j * K + k] - (tdat (p_data W)).[j * K + k])))).
  - rewrite rsum_plus, rsum_scal_r. unfold gb. f_equal. rewrite rsum_swap. apply rsum_ext. intros k _. unfold gw. rewrite <- rsum_scal_r. apply rsum_ext. reflexivity.
  - intros i Hi. rewrite HZ, HY by assumption. unfold logit.
    rewrite (rsum_ext K (fun k => resid n U Z c i j * (tdat x).[i * K + k] * ((tdat (p_data V)).[j * K + k] - (tdat (p_data W)).[j * K + k])) (fun k => resid n U Z c i j * ((tdat x).[i * K + k] * (tdat (p_data V)).[j * K + k] - (tdat x).[i * K + k] * (tdat (p_data W)).[j * K + k]))) by (intros; ring).
    rewrite rsum_scal_l, rsum_minus. ring.
Qed.
Lemma weights_convex : loss_of n U Z c + rsum U (fun j => gb j * ((tdat (p_data d)).[j] - (tdat (p_data b)).[j]) + rsum K (fun k => gw j k * ((tdat (p_data V)).[j * K + k] - (tdat (p_data W)).[j * K + k]))) <= loss_of n U Y c.
Proof. rewrite <- inner_eq. exact logits_convex. Qed.
Lemma gradient_bound A : (forall i, (i < n)%nat -> rsum K (fun k => (tdat x).[i * K + k] * (tdat x).[i * K + k]) <= A * A) ->
  rsum U (fun j => gb j ^ 2 + rsum K (fun k => gw j k ^ 2)) <= 2 * (1 + A * A).
Proof.
  intros HA. pose proof INR_n as HN. set (q := fun i j => softmax_val U Z i j - delta (c i) j).
  assert (B1 : forall j, gb j = rsum n (fun i => q i j) / INR n) by (intros j; unfold gb; rewrite <- rsum_div_r; apply rsum_ext; reflexivity).
  assert (B2 : forall j k, gw j k = rsum n (fun i => q i j * (tdat x).[i * K + k]) / INR n) by (intros j k; unfold gw; rewrite <- rsum_div_r; apply rsum_ext; intros i _; unfold resid, q; field; lra).
  apply Rle_trans with (rsum U (fun j => rsum n (fun i => q i j ^ 2) / INR n + rsum K (fun k => rsum n (fun i => (q i j * (tdat x).[i * K + k]) ^ 2) / INR n))).
  { apply rsum_le. intros j _. apply Rplus_le_compat; [rewrite B1; apply mean_square; exact Hn|]. apply rsum_le. intros k _. rewrite B2. apply mean_square. exact Hn. }
  apply Rle_trans with (rsum n (fun i => rsum U (fun j => q i j ^ 2) * (1 + rsum K (fun k => (tdat x).[i * K + k] * (tdat x).[i * K + k]))) / INR n).
  { apply Req_le. rewrite (rsum_ext U _ (fun j => rsum n (fun i => q i j ^ 2 * (1 + rsum K (fun k => (tdat x).[i * K + k] * (tdat x).[i * K + k]))) / INR n)).
    - rewrite rsum_div_r. f_equal. rewrite rsum_swap. apply rsum_ext. intros i _. rewrite rsum_scal_r. reflexivity.
    - intros j _. rewrite rsum_div_r. unfold Rdiv. rewrite <- Rmult_plus_distr_r. f_equal. rewrite (rsum_swap K n), <- rsum_plus. apply rsum_ext. intros i _. rewrite Rmult_plus_distr_l, Rmult_1_r. f_equal. rewrite <- rsum_scal_l. apply rsum_ext. intros; ring. }
  apply (Rmult_le_reg_r (INR n)); [exact HN|]. unfold Rdiv. rewrite Rmult_assoc, Rinv_l, Rmult_1_r by lra.
  apply Rle_trans with (rsum n (fun _ => 2 * (1 + A * A))); [|rewrite rsum_const; lra]. apply rsum_le. intros i Hi. pose proof (row_square U Z i (c i) (Hc i Hi)) as RS. pose proof (HA i Hi).
  assert (0 <= rsum U (fun j => q i j ^ 2)) by (apply rsum_nonneg; intros; apply pow2_ge_0). assert (0 <= rsum K (fun k => (tdat x).[i * K + k] * (tdat x).[i * K + k])) by (apply rsum_nonneg; intros; nra). apply Rmult_le_compat; try lra. exact RS.
Qed.
End Convex.

(** One iteration: the distance to any other weights. *)
Lemma step_distance E n U K c x target lr A W b V d : (0 < n)%nat -> ten_ok [n; K] x -> labels n U target c -> (forall i, (i < n)%nat -> rsum K (fun k => (tdat x).[i * K + k] * (tdat x).[i * K + k]) <= A * A) -> 0 <= lr ->
  prm_ok [U; K] W -> prm_ok [U] b -> p_train W = true -> p_train b = true -> prm_ok [U; K] V -> prm_ok [U] d ->
  exists W2 b2 l l', regression_step E lr W b x target = Ok (W2, b2, l) /\ regression_loss E W b x target = Ok l /\ regression_loss E V d x target = Ok l' /\
    prm_ok [U; K] W2 /\ prm_ok [U] b2 /\ p_train W2 = true /\ p_train b2 = true /\
    distance2 U K W2 b2 V d <= distance2 U K W b V d - 2 * lr * (l - l') + 2 * (lr * lr) * (1 + A * A).
Proof.
  intros Hn Hx Hl HA HL HW Hb TW Tb HV Hd. destruct (step_spec E n U K c x target Hn Hx Hl lr W b HW Hb TW Tb) as (Z & W2 & b2 & VZ & RS & RL & OW & Ob & T1 & T2 & Eb & EW & _).
  destruct (forward_spec E n U K c x target Hn Hx Hl V d HV Hd) as (Y & p & st' & OY & OP & FZ & FP & FC & VY & _). assert (Hc : forall i, (i < n)%nat -> (c i < U)%nat) by (intros; apply (proj2 (proj2 Hl)); assumption).
  exists W2, b2, (loss_of n U Z c), (loss_of n U (tdat Y) c). split; [exact RS|split; [exact RL|split; [unfold regression_loss; mred; rewrite (proj1 HV); mred; rewrite (proj1 Hx); mred; rewrite FZ; cbn [bind]; rewrite FP; cbn [bind]; rewrite FC; reflexivity|]]].
  split; [exact OW|split; [exact Ob|split; [exact T1|split; [exact T2|]]]].
  pose proof (weights_convex n U K c x W b V d Z (tdat Y) Hn Hc VZ VY) as CV. pose proof (gradient_bound n U K c x Z Hn Hc A HA) as GB.
  set (db := fun j => (tdat (p_data d)).[j] - (tdat (p_data b)).[j]) in *. set (dw := fun j k => (tdat (p_data V)).[j * K + k] - (tdat (p_data W)).[j * K + k]) in *.
  set (IP := rsum U (fun j => gb n U c Z j * db j + rsum K (fun k => gw n U K c x Z j k * dw j k))). set (G2 := rsum U (fun j => gb n U c Z j ^ 2 + rsum K (fun k => gw n U K c x Z j k ^ 2))) in *.
  assert (CV' : loss_of n U Z c + IP <= loss_of n U (tdat Y) c) by exact CV.
  assert (ED : distance2 U K W2 b2 V d = distance2 U K W b V d + 2 * lr * IP + lr * lr * G2).
  { unfold distance2, IP, G2. rewrite <- !rsum_scal_l, <- !rsum_plus. apply rsum_ext. intros j Hj. rewrite Eb by exact Hj. fold (gb n U c Z j).
    rewrite (rsum_ext K (fun k => ((tdat (p_data W2)).[j * K + k] - (tdat (p_data V)).[j * K + k]) ^ 2) (fun k => (((tdat (p_data W)).[j * K + k] - (tdat (p_data V)).[j * K + k]) ^ 2 + 2 * lr * (gw n U K c x Z j k * dw j k)) + lr * lr * (gw n U K c x Z j k ^ 2))).
    - rewrite !rsum_plus, !rsum_scal_l. unfold db. ring.
    - intros k Hk. rewrite EW by assumption. fold (gw n U K c x Z j k). unfold dw. ring. }
  rewrite ED. assert (lr * lr * G2 <= lr * lr * (2 * (1 + A * A))) by (apply Rmult_le_compat_l; [nra|exact GB]). assert (2 * lr * IP <= 2 * lr * (loss_of n U (tdat Y) c - loss_of n U Z c)) by (apply Rmult_le_compat_l; lra). lra.
Qed.

Lemma distance2_nonneg U K W b V d : 0 <= distance2 U K W b V d.
Proof. apply rsum_nonneg. intros j _. apply Rplus_le_le_0_compat; [apply pow2_ge_0|]. apply rsum_nonneg. intros; apply pow2_ge_0. Qed.

(** ** Any sequence of batches *)
Lemma train_regret E U K lr A V d : 0 <= lr -> prm_ok [U; K] V -> prm_ok [U] d -> forall batches W b, Forall (batch_ok U K A) batches ->
  prm_ok [U; K] W -> prm_ok [U] b -> p_train W = true -> p_train b = true ->
  exists W2 b2 ls ls', regression_train E lr W b batches = Ok (W2, b2, ls) /\ length ls = length batches /\ prm_ok [U; K] W2 /\ prm_ok [U] b2 /\
    Forall2 (fun xt l' => regression_loss E V d (fst xt) (snd xt) = Ok l') batches ls' /\
    2 * lr * lsum ls + distance2 U K W2 b2 V d <= 2 * lr * lsum ls' + distance2 U K W b V d + 2 * (lr * lr) * (1 + A * A) * INR (length batches).
Proof.
  intros HL HV Hd. induction batches as [|(x, target) batches IH]; intros W b F HW Hb TW Tb.
  - exists W, b, [], []. split; [reflexivity|split; [reflexivity|split; [exact HW|split; [exact Hb|split; [constructor|]]]]]. unfold lsum. cbn [fold_right length INR]. lra.
  - inversion F as [|? ? (n & c & Hn & Hx & Hl & HA) F']; subst. cbn [fst snd] in *.
    destruct (step_distance E n U K c x target lr A W b V d Hn Hx Hl HA HL HW Hb TW Tb HV Hd) as (W1 & b1 & l & l' & RS & _ & RV & O1 & O2 & T1 & T2 & D).
    destruct (IH W1 b1 F' O1 O2 T1 T2) as (W2 & b2 & ls & ls' & RT & LL & P1 & P2 & F2 & D2).
    exists W2, b2, (l :: ls), (l' :: ls'). cbn [regression_train]. rewrite RS. cbn [bind]. rewrite RT. cbn [bind]. split; [reflexivity|split; [cbn; congruence|split; [exact P1|split; [exact P2|split; [constructor; [exact RV|exact F2]|]]]]].
    cbn [length]. rewrite S_INR. unfold lsum in *. cbn [fold_right]. lra.
Qed.

Lemma train_regret_div E U K lr A V d batches W b : 0 < lr -> Forall (batch_ok U K A) batches -> prm_ok [U; K] V -> prm_ok [U] d ->
  prm_ok [U; K] W -> prm_ok [U] b -> p_train W = true -> p_train b = true ->
  exists W2 b2 ls ls', regression_train E lr W b batches = Ok (W2, b2, ls) /\ length ls = length batches /\
    Forall2 (fun xt l' => regression_loss E V d (fst xt) (snd xt) = Ok l') batches ls' /\
    lsum ls <= lsum ls' + distance2 U K W b V d / (2 * lr) + lr * (1 + A * A) * INR (length batches).
Proof.
  intros HL F HV Hd HW Hb TW Tb. destruct (train_regret E U K lr A V d (Rlt_le _ _ HL) HV Hd batches W b F HW Hb TW Tb) as (W2 & b2 & ls & ls' & RT & LL & _ & _ & F2 & D). exists W2, b2, ls, ls'. split; [exact RT|split; [exact LL|split; [exact F2|]]].
  pose proof (distance2_nonneg U K W2 b2 V d). apply (Rmult_le_reg_l (2 * lr)); [lra|]. replace (2 * lr * (lsum ls' + distance2 U K W b V d / (2 * lr) + lr * (1 + A * A) * INR (length batches))) with (2 * lr * lsum ls' + distance2 U K W b V d + 2 * (lr * lr) * (1 + A * A) * INR (length batches)) by (field; lra). lra.
Qed.
Lemma gradient_inequality E U K lr A x target W b V d : batch_ok U K A (x, target) ->
  prm_ok [U; K] W -> prm_ok [U] b -> p_train W = true -> p_train b = true -> prm_ok [U; K] V -> prm_ok [U] d ->
  exists W2 b2 l l', regression_step E lr W b x target = Ok (W2, b2, l) /\ regression_loss E W b x target = Ok l /\ regression_loss E V d x target = Ok l' /\
    l + rsum U (fun j => (tdat (p_grad b2)).[j] * ((tdat (p_data d)).[j] - (tdat (p_data b)).[j]) + rsum K (fun k => (tdat (p_grad W2)).[j * K + k] * ((tdat (p_data V)).[j * K + k] - (tdat (p_data W)).[j * K + k]))) <= l'.
Proof.
  intros (n & c & Hn & Hx & Hl & _) HW Hb TW Tb HV Hd. cbn [fst snd] in *. destruct (step_spec E n U K c x target Hn Hx Hl lr W b HW Hb TW Tb) as (Z & W2 & b2 & VZ & RS & RL & _ & _ & _ & _ & _ & _ & Eb & EW).
  destruct (forward_spec E n U K c x target Hn Hx Hl V d HV Hd) as (Y & p & st' & OY & OP & FZ & FP & FC & VY & _). assert (Hc : forall i, (i < n)%nat -> (c i < U)%nat) by (intros; apply (proj2 (proj2 Hl)); assumption).
  exists W2, b2, (loss_of n U Z c), (loss_of n U (tdat Y) c). split; [exact RS|split; [exact RL|split; [unfold regression_loss; mred; rewrite (proj1 HV); mred; rewrite (proj1 Hx); mred; rewrite FZ; cbn [bind]; rewrite FP; cbn [bind]; rewrite FC; reflexivity|]]].
  eapply Rle_trans; [|exact (weights_convex n U K c x W b V d Z (tdat Y) Hn Hc VZ VY)]. apply Rplus_le_compat_l, Req_le, rsum_ext. intros j Hj. rewrite Eb by exact Hj. f_equal. apply rsum_ext. intros k Hk. rewrite EW by assumption. reflexivity.
Qed.
Lemma zero_gradient E U K lr A x target W b W2 b2 l V d : batch_ok U K A (x, target) ->
  prm_ok [U; K] W -> prm_ok [U] b -> p_train W = true -> p_train b = true -> prm_ok [U; K] V -> prm_ok [U] d ->
  regression_step E lr W b x target = Ok (W2, b2, l) -> (forall j, (j < U)%nat -> (tdat (p_grad b2)).[j] = 0) -> (forall q, (q < U * K)%nat -> (tdat (p_grad W2)).[q] = 0) ->
  exists l', regression_loss E V d x target = Ok l' /\ l <= l'.
Proof.
  intros B HW Hb TW Tb HV Hd RS Z1 Z2. destruct (gradient_inequality E U K lr A x target W b V d B HW Hb TW Tb HV Hd) as (W2' & b2' & l0 & l' & RS' & _ & RV & I). rewrite RS in RS'. injection RS' as <- <- <-. exists l'. split; [exact RV|].
  rewrite (rsum_zero U) in I; [lra|]. intros j Hj. rewrite Z1 by exact Hj. rewrite (rsum_zero K); [ring|]. intros k Hk. rewrite Z2 by (apply mult_lt; assumption). ring.
Qed.
Lemma moves_closer E U K lr A x target W b V d : batch_ok U K A (x, target) -> 0 < lr ->
  prm_ok [U; K] W -> prm_ok [U] b -> p_train W = true -> p_train b = true -> prm_ok [U; K] V -> prm_ok [U] d ->
  exists W2 b2 l l', regression_step E lr W b x target = Ok (W2, b2, l) /\ regression_loss E V d x target = Ok l' /\
    distance2 U K W2 b2 V d <= distance2 U K W b V d - 2 * lr * (l - l' - lr * (1 + A * A)) /\ (lr * (1 + A * A) < l - l' -> distance2 U K W2 b2 V d < distance2 U K W b V d).
Proof.
  intros (n & c & Hn & Hx & Hl & HA) HL HW Hb TW Tb HV Hd. cbn [fst snd] in *. destruct (step_distance E n U K c x target lr A W b V d Hn Hx Hl HA (Rlt_le _ _ HL) HW Hb TW Tb HV Hd) as (W2 & b2 & l & l' & RS & _ & RV & _ & _ & _ & _ & D).
  exists W2, b2, l, l'. split; [exact RS|split; [exact RV|]]. assert (D' : distance2 U K W2 b2 V d <= distance2 U K W b V d - 2 * lr * (l - l' - lr * (1 + A * A))) by (eapply Rle_trans; [exact D|]; apply Req_le; ring). split; [exact D'|]. intros H. assert (0 < 2 * lr * (l - l' - lr * (1 + A * A))) by (apply Rmult_lt_0_compat; lra). lra.
Qed.

(** ** Small learning rates: the loss of the batch decreases *)
Lemma exp_le t : t <= 1 / 3 -> exp t <= 1 + t + t * t.
Proof.
  intros Ht. set (h := t / 2). assert (Et : t = h + h) by (unfold h; lra). rewrite Et, exp_plus. assert (Hh : h <= 1 / 6) by lra. pose proof (exp_pos h) as E0. pose proof (exp_ge (- h)) as E1. rewrite exp_Ropp in E1.
  assert (E2 : exp h * (1 - h) <= 1). { apply Rle_trans with (exp h * / exp h); [apply Rmult_le_compat_l; lra|rewrite Rinv_r by lra; lra]. }
  assert (E3 : (exp h * (1 - h)) * (exp h * (1 - h)) <= 1). { assert (0 <= exp h * (1 - h)) by (apply Rmult_le_pos; lra). rewrite <- (Rmult_1_r 1). apply Rmult_le_compat; lra. }
  apply (Rmult_le_reg_r ((1 - h) * (1 - h))); [apply Rmult_lt_0_compat; lra|]. apply Rle_trans with 1; [lra|].
  assert (E4 : (1 + (h + h) + (h + h) * (h + h)) * ((1 - h) * (1 - h)) - 1 = h * h * (1 - 6 * h + 4 * (h * h))) by ring. assert (0 <= h * h * (1 - 6 * h + 4 * (h * h))) by (apply Rmult_le_pos; nra). lra.
Qed.
Lemma row_smooth m X Y i c : (c < m)%nat -> (forall j, (j < m)%nat -> Rabs (Y.[i * m + j] - X.[i * m + j]) <= 1 / 6) ->
  - ln (softmax_val m Y i c) <= - ln (softmax_val m X i c) + rsum m (fun j => (softmax_val m X i j - delta c j) * (Y.[i * m + j] - X.[i * m + j])) + rsum m (fun j => (Y.[i * m + j] - X.[i * m + j]) ^ 2).
Proof.
  intros Hc HD. assert (Hm : (0 < m)%nat) by lia. pose proof (exp_sum_pos m (fun k => X.[i * m + k]) Hm) as SX. pose proof (exp_sum_pos m (fun k => Y.[i * m + k]) Hm) as SY.
  set (p := softmax_val m X i). assert (P0 : forall j, 0 < p j) by (intros j; apply softmax_pos; exact Hm). assert (P1 : rsum m p = 1) by (apply softmax_sum; exact Hm).
  set (d := fun j => Y.[i * m + j] - X.[i * m + j]). set (mu := rsum m (fun j => p j * d j)). set (v := rsum m (fun j => d j ^ 2)).
  assert (E1 : rsum m (fun j => (p j - delta c j) * d j) = mu - d c).
  { rewrite (rsum_ext m _ (fun j => p j * d j - delta c j * d j)) by (intros; ring). rewrite rsum_minus, delta_sum by exact Hc. reflexivity. }
  change (rsum m (fun j => (p j - delta c j) * (Y.[i * m + j] - X.[i * m + j]))) with (rsum m (fun j => (p j - delta c j) * d j)). rewrite E1. change (rsum m (fun j => (Y.[i * m + j] - X.[i * m + j]) ^ 2)) with v.
  assert (LP : forall Z, 0 < rsum m (fun k => exp Z.[i * m + k]) -> ln (softmax_val m Z i c) = Z.[i * m + c] - ln (rsum m (fun k => exp Z.[i * m + k]))).
  { intros Z HZ. unfold softmax_val, Rdiv. rewrite ln_mult by (try apply exp_pos; apply Rinv_0_lt_compat; exact HZ). rewrite ln_exp, ln_Rinv by exact HZ. ring. }
  unfold p. rewrite (LP X SX), (LP Y SY). fold p.
  assert (MU : - (1 / 6) <= mu). { replace (- (1 / 6)) with (- (1 / 6) * rsum m p) by (rewrite P1; ring). unfold mu. rewrite <- rsum_scal_l. apply rsum_le. intros j Hj. pose proof (P0 j). pose proof (HD j Hj) as HJ. fold (d j) in HJ. pose proof (Rabs_def2 (d j) (1 / 6 + 1) ltac:(lra)). assert (- (1 / 6) <= d j) by (unfold Rabs in HJ; destruct (Rcase_abs (d j)); lra). nra. }
  assert (Q : rsum m (fun j => p j * exp (d j)) <= exp mu * exp v).
  { rewrite (rsum_ext m (fun j => p j * exp (d j)) (fun j => exp mu * (p j * exp (d j - mu)))) by (intros j _; replace (d j) with (mu + (d j - mu)) at 1 by ring; rewrite exp_plus; ring). rewrite rsum_scal_l. apply Rmult_le_compat_l; [left; apply exp_pos|].
    apply Rle_trans with (rsum m (fun j => p j * (1 + (d j - mu) + (d j - mu) * (d j - mu)))).
    - apply rsum_le. intros j Hj. apply Rmult_le_compat_l; [left; apply P0|]. apply exp_le. pose proof (HD j Hj) as HJ. fold (d j) in HJ. pose proof (Rle_abs (d j)). lra.
    - apply Rle_trans with (1 + v); [|apply exp_ge]. rewrite (rsum_ext m _ (fun j => ((p j + p j * d j) - mu * p j) + ((p j * d j ^ 2 - 2 * mu * (p j * d j)) + mu * mu * p j))) by (intros; ring).
      rewrite !rsum_plus, !rsum_minus, rsum_plus, !rsum_scal_l, P1. fold mu.
      assert (rsum m (fun j => p j * d j ^ 2) <= v) by (apply rsum_le; intros j Hj; pose proof (P0 j); pose proof (softmax_le1 m X i j Hj) as L; fold p in L; pose proof (pow2_ge_0 (d j)); nra). nra. }
  assert (J : rsum m (fun k => exp Y.[i * m + k]) <= rsum m (fun k => exp X.[i * m + k]) * (exp mu * exp v)).
  { apply Rle_trans with (rsum m (fun k => exp X.[i * m + k]) * rsum m (fun j => p j * exp (d j))); [|apply Rmult_le_compat_l; [lra|exact Q]]. apply Req_le. rewrite <- rsum_scal_l. apply rsum_ext. intros j _. unfold p, softmax_val, d.
    replace (Y.[i * m + j]) with (X.[i * m + j] + (Y.[i * m + j] - X.[i * m + j])) at 1 by ring. rewrite exp_plus. field. lra. }
  assert (L : ln (rsum m (fun k => exp Y.[i * m + k])) <= ln (rsum m (fun k => exp X.[i * m + k])) + (mu + v)).
  { rewrite <- (ln_exp (mu + v)), exp_plus. rewrite <- ln_mult by (try exact SX; apply Rmult_lt_0_compat; apply exp_pos). destruct J as [J|J]; [left; apply ln_increasing; [exact SY|exact J]|rewrite J; right; reflexivity]. }
  unfold d. lra.
Qed.
Lemma cauchy_one K a (f g : nat -> R) : (a + rsum K (fun k => f k * g k)) ^ 2 <= (1 + rsum K (fun k => f k * f k)) * (a ^ 2 + rsum K (fun k => g k ^ 2)).
Proof.
  set (B := a + rsum K (fun k => f k * g k)). set (P := 1 + rsum K (fun k => f k * f k)). set (Q := a ^ 2 + rsum K (fun k => g k ^ 2)).
  assert (HP : 1 <= P) by (unfold P; assert (0 <= rsum K (fun k => f k * f k)) by (apply rsum_nonneg; intros; nra); lra).
  assert (N : 0 <= (P * a - B) ^ 2 + rsum K (fun k => (P * g k - B * f k) ^ 2)) by (apply Rplus_le_le_0_compat; [apply pow2_ge_0|apply rsum_nonneg; intros; apply pow2_ge_0]).
  rewrite (rsum_ext K (fun k => (P * g k - B * f k) ^ 2) (fun k => (P * P * g k ^ 2 - 2 * P * B * (f k * g k)) + B * B * (f k * f k))) in N by (intros; ring). rewrite rsum_plus, rsum_minus, !rsum_scal_l in N.
  assert (E : (P * a - B) ^ 2 + (P * P * rsum K (fun k => g k ^ 2) - 2 * P * B * rsum K (fun k => f k * g k) + B * B * rsum K (fun k => f k * f k)) = P * (P * Q - B ^ 2)).
  { replace (rsum K (fun k => f k * g k)) with (B - a) by (unfold B; ring). replace (rsum K (fun k => f k * f k)) with (P - 1) by (unfold P; ring). replace (rsum K (fun k => g k ^ 2)) with (Q - a ^ 2) by (unfold Q; ring). ring. }
  rewrite E in N. apply Rnot_lt_le. intros H. assert (P * (P * Q - B ^ 2) < 0) by nra. lra.
Qed.
Lemma loss_nonneg n U Z c : (0 < n)%nat -> (forall i, (i < n)%nat -> (c i < U)%nat) -> 0 <= loss_of n U Z c.
Proof.
  intros Hn Hc. unfold loss_of. assert (0 < INR n) by (apply lt_0_INR; exact Hn). rewrite <- rsum_opp. apply Rmult_le_pos; [|left; apply Rinv_0_lt_compat; assumption]. apply rsum_nonneg. intros i Hi. pose proof (softmax_le1 U Z i (c i) (Hc i Hi)) as L. pose proof (Hc i Hi). pose proof (softmax_pos U Z i (c i) ltac:(lia)) as P.
  destruct L as [L| ->]; [|rewrite ln_1; lra]. pose proof (ln_increasing _ _ P L) as I. rewrite ln_1 in I. lra.
Qed.
Lemma regression_loss_spec E n U K c x target W b : (0 < n)%nat -> ten_ok [n; K] x -> labels n U target c -> prm_ok [U; K] W -> prm_ok [U] b ->
  exists Z, (forall i j, (i < n)%nat -> (j < U)%nat -> Z.[i * U + j] = logit K W b x i j) /\ regression_loss E W b x target = Ok (loss_of n U Z c).
Proof.
  intros Hn Hx Hl HW Hb. destruct (forward_spec E n U K c x target Hn Hx Hl W b HW Hb) as (Y & p & st' & OY & OP & FZ & FP & FC & VY & _). exists (tdat Y). split; [exact VY|].
  unfold regression_loss; mred; rewrite (proj1 HW); mred; rewrite (proj1 Hx); mred; rewrite FZ; cbn [bind]; rewrite FP; cbn [bind]; rewrite FC; reflexivity.
Qed.

(** One iteration with a small learning rate: the loss of the same batch afterwards, and the distance to other weights. *)
Lemma step_descent E n U K c x target lr A W b V d : (0 < n)%nat -> ten_ok [n; K] x -> labels n U target c -> (forall i, (i < n)%nat -> rsum K (fun k => (tdat x).[i * K + k] * (tdat x).[i * K + k]) <= A * A) -> 0 <= lr -> lr * (1 + A * A) <= 1 / 9 ->
  prm_ok [U; K] W -> prm_ok [U] b -> p_train W = true -> p_train b = true -> prm_ok [U; K] V -> prm_ok [U] d ->
  exists W2 b2 l l2 l', regression_step E lr W b x target = Ok (W2, b2, l) /\ regression_loss E W b x target = Ok l /\ regression_loss E W2 b2 x target = Ok l2 /\ regression_loss E V d x target = Ok l' /\
    prm_ok [U; K] W2 /\ prm_ok [U] b2 /\ p_train W2 = true /\ p_train b2 = true /\ 0 <= l2 /\
    l2 <= l - 8 / 9 * lr * rsum U (fun j => (tdat (p_grad b2)).[j] ^ 2 + rsum K (fun k => (tdat (p_grad W2)).[j * K + k] ^ 2)) /\
    distance2 U K W2 b2 V d <= distance2 U K W b V d - 2 * lr * (l - l') + 9 / 8 * lr * (l - l2).
Proof.
  intros Hn Hx Hl HA HL HS HW Hb TW Tb HV Hd. destruct (step_spec E n U K c x target Hn Hx Hl lr W b HW Hb TW Tb) as (Z & W2 & b2 & VZ & RS & RL & OW & Ob & T1 & T2 & Eb & EW & GBb & GWw).
  destruct (regression_loss_spec E n U K c x target V d Hn Hx Hl HV Hd) as (Y & VY & RV). destruct (regression_loss_spec E n U K c x target W2 b2 Hn Hx Hl OW Ob) as (X & VX & RX).
  assert (Hc : forall i, (i < n)%nat -> (c i < U)%nat) by (intros; apply (proj2 (proj2 Hl)); assumption). assert (HN : 0 < INR n) by (apply lt_0_INR; exact Hn).
  exists W2, b2, (loss_of n U Z c), (loss_of n U X c), (loss_of n U Y c). split; [exact RS|split; [exact RL|split; [exact RX|split; [exact RV|split; [exact OW|split; [exact Ob|split; [exact T1|split; [exact T2|split; [apply loss_nonneg; assumption|]]]]]]]]].
  pose proof (weights_convex n U K c x W b V d Z Y Hn Hc VZ VY) as CV. pose proof (gradient_bound n U K c x Z Hn Hc A HA) as GB. pose proof (inner_eq n U K c x W b W2 b2 Z X VZ VX) as IE.
  set (g1 := gb n U c Z) in *. set (g2 := gw n U K c x Z) in *. set (G2 := rsum U (fun j => g1 j ^ 2 + rsum K (fun k => g2 j k ^ 2))) in *.
  assert (GE : rsum U (fun j => (tdat (p_grad b2)).[j] ^ 2 + rsum K (fun k => (tdat (p_grad W2)).[j * K + k] ^ 2)) = G2).
  { unfold G2. apply rsum_ext. intros j Hj. rewrite GBb by exact Hj. fold (g1 j). f_equal. apply rsum_ext. intros k Hk. rewrite GWw by assumption. reflexivity. } rewrite GE.
  assert (NJ : forall j, 0 <= g1 j ^ 2 + rsum K (fun k => g2 j k ^ 2)) by (intros j; apply Rplus_le_le_0_compat; [apply pow2_ge_0|apply rsum_nonneg; intros; apply pow2_ge_0]).
  assert (G0 : 0 <= G2) by (apply rsum_nonneg; intros; apply NJ).
  assert (IE2 : rsum n (fun i => rsum U (fun j => resid n U Z c i j * (X.[i * U + j] - Z.[i * U + j]))) = - lr * G2).
  { rewrite IE. unfold G2. rewrite <- rsum_scal_l. apply rsum_ext. intros j Hj. rewrite Eb by exact Hj. change (rsum n (fun i => resid n U Z c i j)) with (g1 j). rewrite Rmult_plus_distr_l. f_equal; [ring|]. rewrite <- rsum_scal_l. apply rsum_ext. intros k Hk. rewrite EW by assumption. change (rsum n (fun i => resid n U Z c i j * (tdat x).[i * K + k])) with (g2 j k). ring. }
  assert (DX : forall i j, (i < n)%nat -> (j < U)%nat -> (X.[i * U + j] - Z.[i * U + j]) ^ 2 <= lr * lr * (1 + A * A) * (g1 j ^ 2 + rsum K (fun k => g2 j k ^ 2))).
  { intros i j Hi Hj. rewrite VX, VZ by assumption. unfold logit. rewrite Eb by exact Hj. change (rsum n (fun i => resid n U Z c i j)) with (g1 j).
    assert (ES : rsum K (fun k => (tdat x).[i * K + k] * (tdat (p_data W2)).[j * K + k]) = rsum K (fun k => (tdat x).[i * K + k] * (tdat (p_data W)).[j * K + k]) - lr * rsum K (fun k => (tdat x).[i * K + k] * g2 j k)).
    { rewrite <- rsum_scal_l, <- rsum_minus. apply rsum_ext. intros k Hk. rewrite EW by assumption. change (rsum n (fun i => resid n U Z c i j * (tdat x).[i * K + k])) with (g2 j k). ring. }
    rewrite ES. replace (_ ^ 2) with (lr * lr * (g1 j + rsum K (fun k => (tdat x).[i * K + k] * g2 j k)) ^ 2) by ring. rewrite (Rmult_assoc (lr * lr) (1 + A * A)). apply Rmult_le_compat_l; [nra|].
    eapply Rle_trans; [apply cauchy_one|]. apply Rmult_le_compat_r; [apply NJ|]. pose proof (HA i Hi). lra. }
  assert (A0 : 0 <= A * A) by nra. assert (L1 : lr * lr * (1 + A * A) <= lr * (1 / 9)) by (rewrite Rmult_assoc; apply Rmult_le_compat_l; assumption).
  assert (SM : forall i j, (i < n)%nat -> (j < U)%nat -> Rabs (X.[i * U + j] - Z.[i * U + j]) <= 1 / 6).
  { intros i j Hi Hj. pose proof (DX i j Hi Hj) as D1. assert (TG : g1 j ^ 2 + rsum K (fun k => g2 j k ^ 2) <= G2) by (apply (rsum_term_le U (fun j => g1 j ^ 2 + rsum K (fun k => g2 j k ^ 2)) j); [exact Hj|intros; apply NJ]).
    set (y := X.[i * U + j] - Z.[i * U + j]) in *. assert (P0 : 0 <= lr * (1 + A * A)) by (apply Rmult_le_pos; lra).
    assert (D2 : y ^ 2 <= 2 / 81).
    { eapply Rle_trans; [exact D1|]. apply Rle_trans with (lr * lr * (1 + A * A) * (2 * (1 + A * A))); [apply Rmult_le_compat_l; [apply Rmult_le_pos; [nra|lra]|lra]|]. replace (lr * lr * (1 + A * A) * (2 * (1 + A * A))) with (2 * ((lr * (1 + A * A)) * (lr * (1 + A * A)))) by ring. nra. }
    apply Rnot_lt_le. intros H. rewrite <- (pow2_abs y) in D2. nra. }
  assert (SU : loss_of n U X c <= loss_of n U Z c + - lr * G2 + lr * lr * (1 + A * A) * G2).
  { rewrite <- IE2. apply (Rmult_le_reg_r (INR n)); [exact HN|]. unfold loss_of.
    assert (A1 : rsum n (fun i => - ln (softmax_val U X i (c i))) <= rsum n (fun i => (- ln (softmax_val U Z i (c i)) + rsum U (fun j => (softmax_val U Z i j - delta (c i) j) * (X.[i * U + j] - Z.[i * U + j]))) + rsum U (fun j => (X.[i * U + j] - Z.[i * U + j]) ^ 2))) by (apply rsum_le; intros i Hi; apply row_smooth; [auto|intros j Hj; apply SM; assumption]).
    rewrite !rsum_plus, !rsum_opp in A1.
    assert (A2 : rsum n (fun i => rsum U (fun j => (X.[i * U + j] - Z.[i * U + j]) ^ 2)) <= lr * lr * (1 + A * A) * G2 * INR n).
    { apply Rle_trans with (rsum n (fun _ => lr * lr * (1 + A * A) * G2)); [|rewrite rsum_const; lra]. apply rsum_le. intros i Hi. unfold G2. rewrite <- rsum_scal_l. apply rsum_le. intros j Hj. apply DX; assumption. }
    assert (A3 : rsum n (fun i => rsum U (fun j => resid n U Z c i j * (X.[i * U + j] - Z.[i * U + j]))) * INR n = rsum n (fun i => rsum U (fun j => (softmax_val U Z i j - delta (c i) j) * (X.[i * U + j] - Z.[i * U + j])))).
    { rewrite <- rsum_scal_r. apply rsum_ext. intros i _. rewrite <- rsum_scal_r. apply rsum_ext. intros j _. unfold resid. field. lra. }
    replace ((- rsum n (fun i => ln (softmax_val U X i (c i))) / INR n) * INR n) with (- rsum n (fun i => ln (softmax_val U X i (c i)))) by (field; lra). rewrite !Rmult_plus_distr_r, A3.
    replace ((- rsum n (fun i => ln (softmax_val U Z i (c i))) / INR n) * INR n) with (- rsum n (fun i => ln (softmax_val U Z i (c i)))) by (field; lra). lra. }
  assert (L2 : lr * lr * (1 + A * A) * G2 <= lr * (1 / 9) * G2) by (apply Rmult_le_compat_r; assumption). assert (DE : loss_of n U X c <= loss_of n U Z c - 8 / 9 * lr * G2) by lra. split; [exact DE|].
  set (db := fun j => (tdat (p_data d)).[j] - (tdat (p_data b)).[j]) in *. set (dw := fun j k => (tdat (p_data V)).[j * K + k] - (tdat (p_data W)).[j * K + k]) in *. set (IP := rsum U (fun j => g1 j * db j + rsum K (fun k => g2 j k * dw j k))).
  assert (CV' : loss_of n U Z c + IP <= loss_of n U Y c) by exact CV.
  assert (ED : distance2 U K W2 b2 V d = distance2 U K W b V d + 2 * lr * IP + lr * lr * G2).
  { unfold distance2, IP, G2. rewrite <- !rsum_scal_l, <- !rsum_plus. apply rsum_ext. intros j Hj. rewrite Eb by exact Hj. change (rsum n (fun i => resid n U Z c i j)) with (g1 j).
    rewrite (rsum_ext K (fun k => ((tdat (p_data W2)).[j * K + k] - (tdat (p_data V)).[j * K + k]) ^ 2) (fun k => (((tdat (p_data W)).[j * K + k] - (tdat (p_data V)).[j * K + k]) ^ 2 + 2 * lr * (g2 j k * dw j k)) + lr * lr * (g2 j k ^ 2))).
    - rewrite !rsum_plus, !rsum_scal_l. unfold db. ring.
    - intros k Hk. rewrite EW by assumption. change (rsum n (fun i => resid n U Z c i j * (tdat x).[i * K + k])) with (g2 j k). unfold dw. ring. }
  rewrite ED. assert (2 * lr * IP <= 2 * lr * (loss_of n U Y c - loss_of n U Z c)) by (apply Rmult_le_compat_l; lra). assert (lr * (8 / 9 * lr * G2) <= lr * (loss_of n U Z c - loss_of n U X c)) by (apply Rmult_le_compat_l; lra). lra.
Qed.

(** Training on one batch again and again. *)
Lemma repeat_converges E n U K c x target lr A V d : (0 < n)%nat -> ten_ok [n; K] x -> labels n U target c -> (forall i, (i < n)%nat -> rsum K (fun k => (tdat x).[i * K + k] * (tdat x).[i * K + k]) <= A * A) -> 0 <= lr -> lr * (1 + A * A) <= 1 / 9 -> prm_ok [U; K] V -> prm_ok [U] d ->
  forall T W b, prm_ok [U; K] W -> prm_ok [U] b -> p_train W = true -> p_train b = true ->
  exists W2 b2 ls l l2 l', regression_train E lr W b (repeat (x, target) T) = Ok (W2, b2, ls) /\ regression_loss E W b x target = Ok l /\ regression_loss E W2 b2 x target = Ok l2 /\ regression_loss E V d x target = Ok l' /\ 0 <= l2 <= l /\
    2 * lr * INR T * (l2 - l') + distance2 U K W2 b2 V d <= distance2 U K W b V d + 9 / 8 * lr * (l - l2).
Proof.
  intros Hn Hx Hl HA HL HS HV Hd. assert (Hc : forall i, (i < n)%nat -> (c i < U)%nat) by (intros; apply (proj2 (proj2 Hl)); assumption). induction T as [|T IH]; intros W b HW Hb TW Tb.
  - destruct (regression_loss_spec E n U K c x target W b Hn Hx Hl HW Hb) as (Z & _ & RL). destruct (regression_loss_spec E n U K c x target V d Hn Hx Hl HV Hd) as (Y & _ & RV). exists W, b, [], (loss_of n U Z c), (loss_of n U Z c), (loss_of n U Y c).
    pose proof (loss_nonneg n U Z c Hn Hc). split; [reflexivity|split; [exact RL|split; [exact RL|split; [exact RV|split; [lra|]]]]]. cbn [INR]. lra.
  - destruct (step_descent E n U K c x target lr A W b V d Hn Hx Hl HA HL HS HW Hb TW Tb HV Hd) as (W1 & b1 & l & l1 & l' & RS & RL & R1 & RV & O1 & O2 & T1 & T2 & N1 & DE & DI).
    destruct (IH W1 b1 O1 O2 T1 T2) as (W2 & b2 & ls & l1' & l2 & l'' & RT & R1' & R2 & RV' & B & D2). rewrite R1 in R1'. injection R1' as <-. rewrite RV in RV'. injection RV' as <-.
    assert (L1 : l1 <= l). { assert (0 <= 8 / 9 * lr * rsum U (fun j => (tdat (p_grad b1)).[j] ^ 2 + rsum K (fun k => (tdat (p_grad W1)).[j * K + k] ^ 2))) by (apply Rmult_le_pos; [lra|]; apply rsum_nonneg; intros; apply Rplus_le_le_0_compat; [apply pow2_ge_0|apply rsum_nonneg; intros; apply pow2_ge_0]). lra. }
    exists W2, b2, (l :: ls), l, l2, l'. cbn [repeat regression_train]. rewrite RS. cbn [bind]. rewrite RT. cbn [bind]. split; [reflexivity|split; [exact RL|split; [exact R2|split; [exact RV|split; [lra|]]]]].
    rewrite S_INR. assert (2 * lr * (l2 - l') <= 2 * lr * (l - l')) by (apply Rmult_le_compat_l; lra). lra.
Qed.
Lemma converges E U K lr A x target W b V d T : batch_ok U K A (x, target) -> 0 < lr -> lr * (1 + A * A) <= 1 / 9 -> (0 < T)%nat ->
  prm_ok [U; K] W -> prm_ok [U] b -> p_train W = true -> p_train b = true -> prm_ok [U; K] V -> prm_ok [U] d ->
  exists W2 b2 ls l l2 l', regression_train E lr W b (repeat (x, target) T) = Ok (W2, b2, ls) /\ regression_loss E W b x target = Ok l /\ regression_loss E W2 b2 x target = Ok l2 /\ regression_loss E V d x target = Ok l' /\
    l2 <= l' + (distance2 U K W b V d / (2 * lr) + l) / INR T.
Proof.
  intros (n & c & Hn & Hx & Hl & HA) HL HS HT HW Hb TW Tb HV Hd. cbn [fst snd] in *. destruct (repeat_converges E n U K c x target lr A V d Hn Hx Hl HA (Rlt_le _ _ HL) HS HV Hd T W b HW Hb TW Tb) as (W2 & b2 & ls & l & l2 & l' & RT & RL & R2 & RV & B & D).
  exists W2, b2, ls, l, l2, l'. split; [exact RT|split; [exact RL|split; [exact R2|split; [exact RV|]]]]. pose proof (distance2_nonneg U K W2 b2 V d). assert (0 < INR T) by (apply lt_0_INR; exact HT).
  assert (M0 : 0 < 2 * lr * INR T) by (apply Rmult_lt_0_compat; lra). apply (Rmult_le_reg_l (2 * lr * INR T)); [exact M0|]. replace (2 * lr * INR T * (l' + (distance2 U K W b V d / (2 * lr) + l) / INR T)) with (2 * lr * INR T * l' + distance2 U K W b V d + 2 * lr * l) by (field; lra).
  assert (0 <= lr * l) by (apply Rmult_le_pos; lra). assert (0 <= lr * l2) by (apply Rmult_le_pos; lra). lra.
Qed.
Lemma decreases E U K lr A x target W b : batch_ok U K A (x, target) -> 0 <= lr -> lr * (1 + A * A) <= 1 / 9 ->
  prm_ok [U; K] W -> prm_ok [U] b -> p_train W = true -> p_train b = true ->
  exists W2 b2 l l2, regression_step E lr W b x target = Ok (W2, b2, l) /\ regression_loss E W2 b2 x target = Ok l2 /\
    l2 <= l - 8 / 9 * lr * rsum U (fun j => (tdat (p_grad b2)).[j] ^ 2 + rsum K (fun k => (tdat (p_grad W2)).[j * K + k] ^ 2)).
Proof.
  intros (n & c & Hn & Hx & Hl & HA) HL HS HW Hb TW Tb. cbn [fst snd] in *. destruct (step_descent E n U K c x target lr A W b W b Hn Hx Hl HA HL HS HW Hb TW Tb HW Hb) as (W1 & b1 & l & l1 & l' & RS & RL & R1 & RV & O1 & O2 & T1 & T2 & N1 & DE & DI). exists W1, b1, l, l1. auto.
Qed.

(** With a small learning rate the losses of all iterations are bounded without a term for each iteration. *)
Lemma train_total E U K lr A V d : 0 <= lr -> lr * (1 + A * A) <= 1 / 9 -> prm_ok [U; K] V -> prm_ok [U] d -> forall batches, Forall (batch_ok U K A) batches ->
  forall W b, prm_ok [U; K] W -> prm_ok [U] b -> p_train W = true -> p_train b = true ->
  exists W2 b2 ls ls', regression_train E lr W b batches = Ok (W2, b2, ls) /\ length ls = length batches /\
    Forall2 (fun xt l' => regression_loss E V d (fst xt) (snd xt) = Ok l') batches ls' /\
    7 / 8 * lr * lsum ls + distance2 U K W2 b2 V d <= distance2 U K W b V d + 2 * lr * lsum ls'.
Proof.
  intros HL HS HV Hd. induction 1 as [|[x target] batches (n & c & Hn & Hx & Hl & HA) _ IH]; intros W b HW Hb TW Tb.
  - exists W, b, [], []. split; [reflexivity|split; [reflexivity|split; [constructor|unfold lsum; cbn [fold_right]; lra]]].
  - cbn [fst snd] in *. destruct (step_descent E n U K c x target lr A W b V d Hn Hx Hl HA HL HS HW Hb TW Tb HV Hd) as (W1 & b1 & l & l1 & l' & RS & RL & R1 & RV & O1 & O2 & T1 & T2 & N1 & DE & DI).
    destruct (IH W1 b1 O1 O2 T1 T2) as (W2 & b2 & ls & ls' & RT & LE & F2 & D2). exists W2, b2, (l :: ls), (l' :: ls'). cbn [regression_train]. rewrite RS. cbn [bind]. rewrite RT. cbn [bind]. split; [reflexivity|split; [cbn [length]; congruence|split; [constructor; [exact RV|exact F2]|]]].
    unfold lsum in *. cbn [fold_right]. assert (0 <= lr * l1) by (apply Rmult_le_pos; lra). lra.
Qed.
Lemma train_total_div E U K lr A V d batches W b : 0 < lr -> lr * (1 + A * A) <= 1 / 9 -> Forall (batch_ok U K A) batches -> prm_ok [U; K] V -> prm_ok [U] d ->
  prm_ok [U; K] W -> prm_ok [U] b -> p_train W = true -> p_train b = true ->
  exists W2 b2 ls ls', regression_train E lr W b batches = Ok (W2, b2, ls) /\ length ls = length batches /\
    Forall2 (fun xt l' => regression_loss E V d (fst xt) (snd xt) = Ok l') batches ls' /\
    lsum ls <= 16 / 7 * lsum ls' + 8 / 7 * (distance2 U K W b V d / lr).
Proof.
  intros HL HS HB HV Hd HW Hb TW Tb. destruct (train_total E U K lr A V d (Rlt_le _ _ HL) HS HV Hd batches HB W b HW Hb TW Tb) as (W2 & b2 & ls & ls' & RT & LE & F2 & D). exists W2, b2, ls, ls'. split; [exact RT|split; [exact LE|split; [exact F2|]]].
  pose proof (distance2_nonneg U K W2 b2 V d). apply (Rmult_le_reg_l (7 / 8 * lr)); [lra|]. replace (7 / 8 * lr * (16 / 7 * lsum ls' + 8 / 7 * (distance2 U K W b V d / lr))) with (2 * lr * lsum ls' + distance2 U K W b V d) by (field; lra). lra.
Qed.
