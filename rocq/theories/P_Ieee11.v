(** Accuracy of a training step: the last layer's loss, gradients and new weights. *)
From Coq Require Import Reals Lia Lra Permutation List.
From Verif Require Import Base BaseFacts Sums S_Float M_Im2col M_Kernels M_Conv M_Layers M_Optim M_Loss S_Loss M_Round S_Round P_Round P_Round2 M_Ieee S_Ieee
  P_Ieee P_Ieee2 P_Ieee3 P_Ieee4 P_Ieee7 P_Ieee8 P_Ieee9 P_Ieee10.
Import ListNotations.
Open Scope R_scope.

Lemma pow_grows (k n : nat) : (k <= n)%nat -> (1 + eps32) ^ k <= (1 + eps32) ^ n.
Proof. intros L. apply Rle_pow; [pose proof eps32_pos; lra|exact L]. Qed.

Lemma row_in rows m i j : (i < rows)%nat -> (j < m)%nat -> (i * m + j < rows * m)%nat. Proof. intros. nia. Qed.
Lemma div_in m i j : (j < m)%nat -> ((i * m + j) / m = i)%nat. Proof. intros. rewrite Nat.div_add_l by lia. rewrite Nat.div_small by assumption. lia. Qed.
Lemma mod_in m i j : (j < m)%nat -> ((i * m + j) mod m = j)%nat. Proof. intros. rewrite Nat.add_comm, Nat.mod_add by lia. apply Nat.mod_small. assumption. Qed.

Section Sum.
Variable rows : nat.
Hypothesis R0 : (0 < rows)%nat.
Hypothesis RL : (rows <= 2 ^ 23)%nat.
Let n := INR rows.

Lemma sum_accurate (ts ps : nat -> R) B s : 1 <= B -> (forall i, (i < rows)%nat -> Rabs (ts i) <= B / n) ->
  (forall i, (i < rows)%nat -> Rabs (ps i - ts i) <= 35 * eps32 * (B / n)) -> summed eps32 tiny32 (tab rows ps) s ->
  Rabs (s - rsum rows ts) <= (40 * eps32 + 4 * sum_error rows) * B /\ rsum rows (fun i => Rabs (ps i)) <= 2 * B.
Proof.
  intros B1 TB PT S. pose proof (n_range rows R0 RL) as NR. fold n in NR. pose proof (tiny_n rows R0 RL) as TN. fold n in TN. destruct eps_small as [E0 E1]. pose proof tiny32_pos as T0.
  assert (NB : n * (B / n) = B) by (field; lra). assert (BN : 0 <= B / n) by (apply Rmult_le_pos; [lra|left; apply Rinv_0_lt_compat; lra]).
  assert (SA : rsum rows (fun i => Rabs (ps i)) <= 2 * B).
  { apply Rle_trans with (rsum rows (fun _ => 2 * (B / n))); [apply rsum_le; intros i Hi|rewrite rsum_const; fold n; lra].
    replace (ps i) with ((ps i - ts i) + ts i) by ring. eapply Rle_trans; [apply Rabs_triang|]. pose proof (TB i Hi). pose proof (PT i Hi). nra. }
  split; [|exact SA].
  assert (DT : Rabs (rsum rows ps - rsum rows ts) <= 35 * eps32 * B).
  { rewrite <- rsum_minus. eapply Rle_trans; [apply rsum_abs_le|]. apply Rle_trans with (rsum rows (fun _ => 35 * eps32 * (B / n))); [apply rsum_le; exact PT|]. rewrite rsum_const. fold n. nra. }
  pose proof (summed_bound eps32 tiny32 rows ps s (Rlt_le _ _ E0) (Rlt_le _ _ T0) S) as SB.
  assert (G1 : 1 <= (1 + eps32) ^ (rows - 1)) by (apply pow_R1_Rle; lra). assert (G2 : (1 + eps32) ^ (rows - 1) <= (1 + eps32) ^ rows) by (apply pow_grows; lia).
  set (g := (1 + eps32) ^ (rows - 1)) in *. unfold sum_error. set (gg := (1 + eps32) ^ rows) in *.
  assert (IR : INR (rows - 1) <= n) by (unfold n; apply le_INR; lia). pose proof (pos_INR (rows - 1)) as IP.
  assert (A1 : (g - 1) * rsum rows (fun k => Rabs (ps k)) <= (gg - 1) * (2 * B)) by (apply Rmult_le_compat; try lra; apply rsum_nonneg; intros; apply Rabs_pos).
  assert (A2 : INR (rows - 1) * g * tiny32 <= gg * eps32).
  { apply Rle_trans with (n * g * tiny32); [apply Rmult_le_compat_r; [lra|]; apply Rmult_le_compat_r; lra|]. replace (n * g * tiny32) with (g * (tiny32 * n)) by ring. apply Rmult_le_compat; try lra; nra. }
  replace (s - rsum rows ts) with ((s - rsum rows ps) + (rsum rows ps - rsum rows ts)) by ring. eapply Rle_trans; [apply Rabs_triang|].
  assert (A3 : (gg - 1) * eps32 <= (gg - 1) * B) by (apply Rmult_le_compat_l; lra). assert (eps32 <= eps32 * B) by nra. nra.
Qed.

(** Float numbers [g] near [h / n], times numbers up to [B]. *)
Lemma product_accurate h g x B r : 1 <= B -> 4 * B <= top -> Rabs h <= 1 -> Rabs (g * n - h) <= 32 * eps32 -> Rabs x <= B -> fmul (Fin g) (Fin x) r ->
  exists q, r = Fin q /\ Rabs (h / n * x) <= B / n /\ Rabs (q - h / n * x) <= 35 * eps32 * (B / n).
Proof.
  intros B1 BT H G X M. pose proof (n_range rows R0 RL) as NR. fold n in NR. pose proof (tiny_n rows R0 RL) as TN. fold n in TN. destruct eps_small as [E0 E1]. pose proof tiny32_pos as T0.
  assert (IN : 0 < / n <= 1) by (split; [apply Rinv_0_lt_compat; lra|rewrite <- Rinv_1; apply Rinv_le_contravar; lra]).
  assert (TN' : tiny32 <= eps32 * / n) by (apply (Rmult_le_reg_r n); [lra|]; replace (eps32 * / n * n) with eps32 by (field; lra); exact TN).
  assert (HX : Rabs (h / n * x) <= B / n).
  { unfold Rdiv. rewrite !Rabs_mult, (Rabs_right (/ n)) by lra. rewrite Rmult_assoc, (Rmult_comm (/ n)), <- Rmult_assoc. apply Rmult_le_compat_r; [lra|]. pose proof (Rabs_pos h). pose proof (Rabs_pos x). nra. }
  assert (GH : Rabs (g - h / n) <= 32 * eps32 * / n).
  { apply (Rmult_le_reg_r n); [lra|]. replace (32 * eps32 * / n * n) with (32 * eps32) by (field; lra). rewrite <- (Rabs_right n) at 2 by lra. rewrite <- Rabs_mult. replace ((g - h / n) * n) with (g * n - h) by (field; lra). exact G. }
  assert (AE : Rabs (g * x - h / n * x) <= 32 * eps32 * (B / n)).
  { replace (g * x - h / n * x) with ((g - h / n) * x) by ring. rewrite Rabs_mult. apply Rle_trans with (32 * eps32 * / n * B); [apply Rmult_le_compat; try assumption; apply Rabs_pos|]. unfold Rdiv. lra. }
  assert (BN : B / n <= B) by (unfold Rdiv; nra). assert (BP : / n <= B / n) by (unfold Rdiv; nra).
  assert (AB : Rabs (g * x) <= (1 + 32 * eps32) * (B / n)).
  { replace (g * x) with ((g * x - h / n * x) + h / n * x) by ring. eapply Rle_trans; [apply Rabs_triang|]. lra. }
  assert (AB2 : Rabs (g * x) <= 2 * (B / n)) by nra.
  destruct (mul_near g x r) as (q & -> & NQ); [lra|exact M|]. exists q. split; [reflexivity|]. split; [exact HX|].
  unfold near in NQ. replace (q - h / n * x) with ((q - g * x) + (g * x - h / n * x)) by ring. eapply Rle_trans; [apply Rabs_triang|].
  assert (eps32 * Rabs (g * x) <= eps32 * (2 * (B / n))) by (apply Rmult_le_compat_l; lra). assert (tiny32 <= eps32 * (B / n)) by nra. nra.
Qed.

(** The update. *)
Lemma sgd_accurate lr w d T E Wb B r lib v p : v 0%nat p = Fin w -> v 1%nat p = Fin d -> Rabs w <= Wb -> Rabs T <= B -> 0 <= E -> Rabs (d - T) <= E -> Rabs (lr * d) <= top ->
  Wb + grown (Rabs (lr * d)) <= top -> fev lib v (sgd_ex lr p) r ->
  exists x, r = Fin x /\ Rabs (x - (w - lr * T)) <= Rabs lr * E + eps32 * (Wb + 3 * (Rabs lr * (B + E))) + 3 * tiny32.
Proof.
  intros EW ED WB TB E0' DE T1 T2 (a & q & A & (l & b & L & Hb & M) & S). cbn in A, L, Hb. subst. rewrite EW in S. rewrite ED in M. destruct eps_small as [E0 E1]. pose proof tiny32_pos as T0.
  destruct (mul_near lr d q T1 M) as (q' & -> & NQ). unfold near in NQ. unfold fsub in S. cbn in S.
  assert (DB : Rabs d <= B + E) by (replace d with ((d - T) + T) by ring; eapply Rle_trans; [apply Rabs_triang|]; lra).
  assert (LD : Rabs (lr * d) <= Rabs lr * (B + E)) by (rewrite Rabs_mult; apply Rmult_le_compat_l; [apply Rabs_pos|exact DB]).
  assert (QB : Rabs q' <= grown (Rabs (lr * d))) by (unfold grown; apply (near_abs eps32 tiny32 (lr * d)); [lra|exact NQ|lra]).
  assert (WQ : Rabs (w + - q') <= Wb + Rabs q') by (eapply Rle_trans; [apply Rabs_triang|]; rewrite Rabs_Ropp; lra).
  destruct (rnd_fin (w + - q') r) as (x & -> & _ & NX); [lra|exact S|]. exists x. split; [reflexivity|]. unfold near in NX.
  replace (x - (w - lr * T)) with ((x - (w + - q')) + - ((q' - lr * d) + lr * (d - T))) by ring. eapply Rle_trans; [apply Rabs_triang|]. rewrite Rabs_Ropp.
  pose proof (Rabs_triang (q' - lr * d) (lr * (d - T))) as TR. rewrite (Rabs_mult lr (d - T)) in TR.
  assert (A1 : Rabs lr * Rabs (d - T) <= Rabs lr * E) by (apply Rmult_le_compat_l; [apply Rabs_pos|exact DE]).
  set (Z := Rabs lr * (B + E)) in *. assert (Z0 : 0 <= Z) by (pose proof (Rabs_pos (lr * d)); lra).
  assert (A2 : eps32 * Rabs (lr * d) <= eps32 * Z) by (apply Rmult_le_compat_l; lra).
  assert (QZ : Rabs q' <= (1 + eps32) * Z + tiny32) by (unfold grown in QB; nra).
  assert (A3 : eps32 * Rabs (w + - q') <= eps32 * (Wb + ((1 + eps32) * Z + tiny32))) by (apply Rmult_le_compat_l; lra).
  assert (A4 : eps32 * (eps32 * Z) <= eps32 * Z) by (apply Rmult_le_compat_l; nra). nra.
Qed.
End Sum.

Section Step.
Variable lib : flt -> flt -> Prop.
Hypothesis EO : exp_ok lib.
Variables rows K m : nat.
Variable label : nat -> nat.
Variable lr : R.
Variable z : nat -> R.
Variables prob input w b gin w' b' : nat -> flt.
Hypothesis R0 : (0 < rows)%nat.
Hypothesis RL : (rows <= 2 ^ 23)%nat.
Hypothesis LM : (m <= 2 ^ 23)%nat.
Hypothesis LAB : forall i, (i < rows)%nat -> (label i < m)%nat.
Hypothesis SM : fsoftmax lib (among [fun p => Fin (z p)]) rows m prob.
Variables u eta : R.
Hypothesis EN : exp_near u eta lib.
Hypothesis Hu : u <= / 2.
Hypothesis He : 0 <= eta <= / 2 ^ 149.
Hypothesis GAP : forall i k, (i < rows)%nat -> (k < m)%nat -> z (i * m + k)%nat - 60 <= z (i * m + label i)%nat.
Variable y : nat -> R.
Hypothesis PY : forall p, (p < rows * m)%nat -> prob p = Fin (y p).

Lemma label_y i : (i < rows)%nat -> / 2 ^ 124 <= y (i * m + label i)%nat <= 1 /\ isf (y (i * m + label i)%nat).
Proof.
  intros Hi. destruct (label_prob lib EO rows m label z prob R0 RL LM LAB SM u eta EN Hu He GAP i Hi) as (t & E & F & T).
  rewrite PY in E by (apply row_in; auto). injection E as ->. auto.
Qed.

(** *** The loss *)
Lemma loss_accurate lg e loss : log_ok lg -> log_near e lg -> floss lg rows m prob label loss ->
  exists l, loss = Fin l /\ Rabs (l - - rsum rows (fun i => ln (y (i * m + label i)%nat)) / INR rows) <= e + 105 * sum_error rows + 1000 * eps32.
Proof.
  intros LO LN (ls & LG & (xx & nn & (zz & s & Z0 & (xs & XS & SU) & SB) & NN & DV)). cbn in Z0. subst zz. rewrite (ftab_ext rows xs ls XS) in SU.
  rewrite (int_fin rows nn (le_24 _ RL) NN) in DV. pose proof (n_range rows R0 RL) as NR. pose proof (tiny_n rows R0 RL) as TN. destruct eps_small as [E0 E1]. pose proof tiny32_pos as T0.
  set (n := INR rows) in *. set (t := fun i => ln (y (i * m + label i)%nat)). set (ys := fun i => match ls i with Fin x => x | _ => 0 end).
  assert (P124 : 0 < / 2 ^ 124) by (apply Rinv_0_lt_compat, pow_lt; lra).
  assert (YS : forall i, (i < rows)%nat -> ls i = Fin (ys i) /\ Rabs (ys i) <= 104 /\ Rabs (ys i - t i) <= e).
  { intros i Hi. destruct (label_y i Hi) as (Y & FY). pose proof (LG i Hi) as L. rewrite PY in L by (apply row_in; auto). destruct (LO _ _ L) as (A & _). destruct (A FY ltac:(lra)) as (x & Ex & X).
    destruct (LN _ _ FY ltac:(lra) L) as (x' & Ex' & X'). unfold ys. rewrite Ex in *. injection Ex' as <-. split; [reflexivity|]. split; [apply Rabs_le; lra|exact X']. }
  rewrite (ftab_ext rows _ (fun k => Fin (ys k)) (fun k Hk => proj1 (YS k Hk))) in SU.
  assert (SA : rsum rows (fun k => Rabs (ys k)) <= n * 104) by (unfold n; rewrite <- rsum_const; apply rsum_le; intros k Hk; apply YS, Hk).
  pose proof (sum_grown_small (fun _ _ => 0) rows 104 RL ltac:(lra)) as SG. fold n in SG. pose proof (sum_grown_mono rows _ _ SA) as SM1.
  assert (TB : 1000 * n <= top).
  { pose proof (small_top (1000 * n)) as ST1. rewrite Rabs_right in ST1 by lra. apply ST1. lra. }
  destruct (fsummed_fin rows ys s ltac:(lra) SU) as (s' & -> & SS & SB'). assert (S3 : Rabs s' <= 313 * n) by lra.
  pose proof (summed_bound eps32 tiny32 rows ys s' (Rlt_le _ _ E0) (Rlt_le _ _ T0) SS) as SE.
  assert (G1 : 1 <= (1 + eps32) ^ (rows - 1)) by (apply pow_R1_Rle; lra). assert (G2 : (1 + eps32) ^ (rows - 1) <= (1 + eps32) ^ rows) by (apply pow_grows; lia).
  set (g := (1 + eps32) ^ (rows - 1)) in *. unfold sum_error. set (gg := (1 + eps32) ^ rows) in *.
  assert (IR : INR (rows - 1) <= n) by (unfold n; apply le_INR; lia). pose proof (pos_INR (rows - 1)) as IP.
  assert (A1 : (g - 1) * rsum rows (fun k => Rabs (ys k)) <= (gg - 1) * (n * 104)) by (apply Rmult_le_compat; try lra; apply rsum_nonneg; intros; apply Rabs_pos).
  assert (A2 : INR (rows - 1) * g * tiny32 <= gg * eps32).
  { apply Rle_trans with (n * g * tiny32); [apply Rmult_le_compat_r; [lra|]; apply Rmult_le_compat_r; lra|]. replace (n * g * tiny32) with (g * (tiny32 * n)) by ring. apply Rmult_le_compat; try lra; nra. }
  assert (A3 : gg * eps32 <= eps32 + (gg - 1)) by nra.
  assert (ES : Rabs (s' - rsum rows ys) <= 105 * (gg - 1) * n + eps32) by nra.
  assert (ET : Rabs (rsum rows ys - rsum rows t) <= e * n).
  { rewrite <- rsum_minus. eapply Rle_trans; [apply rsum_abs_le|]. rewrite Rmult_comm. unfold n. rewrite <- rsum_const. apply rsum_le. intros k Hk. apply YS, Hk. }
  cbn in SB. rewrite Rplus_0_l in SB. destruct (rnd_fin (- s') xx) as (x & -> & _ & NX); [rewrite Rabs_Ropp; lra|exact SB|]. unfold near in NX. rewrite Rabs_Ropp in NX.
  assert (X1 : Rabs (x - - s') <= 315 * eps32 * n) by (assert (eps32 * Rabs s' <= eps32 * (313 * n)) by (apply Rmult_le_compat_l; lra); nra).
  assert (XB : Rabs x <= 314 * n) by (replace x with ((x - - s') + - s') by ring; eapply Rle_trans; [apply Rabs_triang|]; rewrite Rabs_Ropp; nra).
  cbn in DV. destruct (Req_EM_T n 0) as [C|_]; [lra|]. assert (IN0 : 0 < / n) by (apply Rinv_0_lt_compat; lra).
  assert (XN : Rabs (x / n) <= 314) by (unfold Rdiv; rewrite Rabs_mult, (Rabs_right (/ n)) by lra; apply (Rmult_le_reg_r n); [lra|]; rewrite Rmult_assoc, Rinv_l, Rmult_1_r by lra; exact XB).
  destruct (rnd_fin (x / n) loss) as (l & -> & _ & NL); [lra|exact DV|]. unfold near in NL. exists l. split; [reflexivity|].
  assert (TE : tiny32 <= eps32) by nra. assert (L1 : Rabs (l - x / n) <= 315 * eps32) by (assert (eps32 * Rabs (x / n) <= eps32 * 314) by (apply Rmult_le_compat_l; lra); lra).
  replace (l - - rsum rows t / n) with ((l - x / n) + ((x - - s') + (- (s' - rsum rows ys) + - (rsum rows ys - rsum rows t))) * / n) by (field; lra).
  eapply Rle_trans; [apply Rabs_triang|]. rewrite Rabs_mult, (Rabs_right (/ n)) by lra.
  assert (Q : Rabs ((x - - s') + (- (s' - rsum rows ys) + - (rsum rows ys - rsum rows t))) <= (e + 105 * (gg - 1) + 600 * eps32) * n).
  { eapply Rle_trans; [apply Rabs_triang|]. eapply Rle_trans; [apply Rplus_le_compat_l, Rabs_triang|]. rewrite !Rabs_Ropp. nra. }
  assert (Q2 : Rabs ((x - - s') + (- (s' - rsum rows ys) + - (rsum rows ys - rsum rows t))) * / n <= e + 105 * (gg - 1) + 600 * eps32).
  { apply (Rmult_le_reg_r n); [lra|]. rewrite Rmult_assoc, Rinv_l, Rmult_1_r by lra. exact Q. }
  lra.
Qed.

(** *** The gradient at the logits *)
Hypothesis ST : last_step lib rows K m label lr prob input w b gin w' b'.
Definition target (p : nat) : R := if (p mod m =? label (p / m))%nat then 1 else 0.

Lemma logits_accurate p : (p < rows * m)%nat -> exists g, gin p = Fin g /\ Rabs (g * INR rows - (y p - target p)) <= 32 * eps32.
Proof.
  intros Hp. assert (M0 : (0 < m)%nat) by (destruct m; [rewrite Nat.mul_0_r in Hp; lia|lia]).
  set (i := (p / m)%nat). assert (Hi : (i < rows)%nat) by (apply Nat.div_lt_upper_bound; nia). pose proof (LAB i Hi) as Hl.
  destruct ST as (gout & dW & db & S1 & S2 & _). destruct (label_y i Hi) as (Y & _).
  assert (PR : forall k, (k < m)%nat -> 0 <= y (i * m + k)%nat <= 1).
  { intros k Hk. destruct (softmax_unit lib EO (zv z) rows m prob _ (SM' lib rows m z prob SM) (row_in rows m i k Hi Hk)) as (t & E & _ & T). rewrite PY in E by (apply row_in; auto). injection E as ->. exact T. }
  assert (GO : forall k, (k < m)%nat -> k <> label i -> gout (i * m + k)%nat = Fin 0).
  { intros k Hk NE. apply (loss_grad_other lib label rows m R0 RL (among [prob]) (i * m + k)%nat); [rewrite mod_in, div_in by exact Hk; exact NE|apply S1, row_in; assumption]. }
  destruct (loss_grad_accurate lib rows m label R0 RL (among [prob]) (i * m + label i)%nat (gout (i * m + label i)%nat) (y (i * m + label i)%nat)) as (g & EG & G1 & G2);
    [rewrite mod_in, div_in by exact Hl; reflexivity|apply PY, row_in; assumption|exact Y|apply S1, row_in; assumption|].
  destruct (softmax_grad_accurate lib rows m R0 RL y (fun q => val (gout q)) p (gin p) (label i) Hl) as (x & EX & X); fold i.
  - exact PR.
  - intros k Hk NE. rewrite (GO k Hk NE). reflexivity.
  - rewrite EG. exact G1.
  - rewrite EG. exact G2.
  - assert (GF : forall k, (k < m)%nat -> gout (i * m + k)%nat = Fin (val (gout (i * m + k)%nat))).
    { intros k Hk. destruct (Nat.eq_dec k (label i)) as [->|NE]; [rewrite EG; reflexivity|rewrite (GO k Hk NE); reflexivity]. }
    assert (Q : (p mod m < m)%nat) by (apply Nat.mod_upper_bound; lia).
    assert (Ep : p = (i * m + p mod m)%nat) by (unfold i; rewrite (Nat.mul_comm (p / m)); apply Nat.div_mod; lia).
    apply (fev_reads lib (among [prob; gout])); [|apply S2, Hp]. unfold softmax_grad_ex. fold i. cbn [reads].
    intros a j [(-> & ->)|[(-> & ->)|[(-> & ->)|(k & Hk & [(-> & ->)|(-> & ->)])]]]; unfold among; cbn [nth].
    + reflexivity.
    + apply PY, Hp.
    + rewrite Ep. apply GF, Q.
    + apply GF, Hk.
    + apply PY, row_in; assumption.
  - exists x. split; [exact EX|]. unfold target. fold i. exact X.
Qed.
Lemma target_near p : (p < rows * m)%nat -> Rabs (y p - target p) <= 1.
Proof.
  intros Hp. destruct (softmax_unit lib EO (zv z) rows m prob p (SM' lib rows m z prob SM) Hp) as (t & E & _ & T). rewrite PY in E by exact Hp. injection E as ->.
  unfold target. destruct (p mod m =? label (p / m))%nat; apply Rabs_le; lra.
Qed.

(** *** The weights *)
Variables xr wr br : nat -> R.
Variables B Wb : R.
Hypothesis IN : forall p, (p < rows * K)%nat -> input p = Fin (xr p) /\ Rabs (xr p) <= B.
Hypothesis WE : forall p, (p < m * K)%nat -> w p = Fin (wr p) /\ Rabs (wr p) <= Wb.
Hypothesis BI : forall p, (p < m)%nat -> b p = Fin (br p) /\ Rabs (br p) <= Wb.
Hypothesis B1 : 1 <= B.
Let D := sum_grown rows (INR rows * S_Ieee.grown (16 * B)).
Hypothesis T1 : 16 * B <= top.
Hypothesis T2 : D <= top.
Hypothesis T3 : Rabs lr * D <= top.
Hypothesis T4 : Wb + S_Ieee.grown (Rabs lr * D) <= top.
Let E := (40 * eps32 + 4 * sum_error rows) * B.

Lemma gradient_sum (hs ps : nat -> R) xs r : (forall i, (i < rows)%nat -> xs i = Fin (ps i) /\ Rabs (hs i) <= B / INR rows /\ Rabs (ps i - hs i) <= 35 * eps32 * (B / INR rows)) ->
  fsummed (tab rows xs) r -> exists d, r = Fin d /\ Rabs (d - rsum rows hs) <= E /\ Rabs d <= D /\ Rabs (rsum rows hs) <= B.
Proof.
  intros P S. rewrite (ftab_ext rows xs (fun k => Fin (ps k)) (fun k Hk => proj1 (P k Hk))) in S.
  pose proof (n_range rows R0 RL) as NR. destruct eps_small as [E0 E1].
  assert (BN : 0 <= B / INR rows) by (apply Rmult_le_pos; [lra|left; apply Rinv_0_lt_compat; lra]).
  assert (SA : rsum rows (fun i => Rabs (ps i)) <= 2 * B).
  { apply Rle_trans with (rsum rows (fun _ => 2 * (B / INR rows))); [apply rsum_le; intros i Hi|rewrite rsum_const; replace (INR rows * (2 * (B / INR rows))) with (2 * B) by (field; lra); lra].
    replace (ps i) with ((ps i - hs i) + hs i) by ring. eapply Rle_trans; [apply Rabs_triang|]. destruct (P i Hi) as (_ & H1 & H2). nra. }
  assert (GB : 2 * B <= INR rows * S_Ieee.grown (16 * B)) by (assert (16 * B <= S_Ieee.grown (16 * B)) by (apply grown_ge; lra); nra).
  assert (SD : sum_grown rows (rsum rows (fun i => Rabs (ps i))) <= D) by (apply sum_grown_mono; lra).
  destruct (fsummed_fin rows ps r ltac:(lra) S) as (d & -> & SS & DB). exists d. split; [reflexivity|].
  destruct (sum_accurate rows R0 RL hs ps B d B1 (fun i Hi => proj1 (proj2 (P i Hi))) (fun i Hi => proj2 (proj2 (P i Hi))) SS) as (A & _). split; [exact A|]. split; [lra|].
  eapply Rle_trans; [apply rsum_abs_le|]. apply Rle_trans with (rsum rows (fun _ => B / INR rows)); [apply rsum_le; intros i Hi; apply P, Hi|]. rewrite rsum_const. right. field. lra.
Qed.

Lemma E_pos : 0 <= E.
Proof. unfold E, sum_error. destruct eps_small as [E0 E1]. assert (1 <= (1 + eps32) ^ rows) by (apply pow_R1_Rle; lra). apply Rmult_le_pos; lra. Qed.

Lemma step_accurate :
  let err := Rabs lr * E + eps32 * (Wb + 3 * (Rabs lr * (B + E))) + 3 * tiny32 in
  (forall p, (p < m * K)%nat -> exists x, w' p = Fin x /\
     Rabs (x - (wr p - lr * rsum rows (fun i => (y (i * m + p / K)%nat - target (i * m + p / K)) / INR rows * xr (i * K + p mod K)%nat))) <= err) /\
  (forall p, (p < m)%nat -> exists x, b' p = Fin x /\ Rabs (x - (br p - lr * rsum rows (fun i => (y (i * m + p)%nat - target (i * m + p)) / INR rows))) <= err).
Proof.
  pose proof ST as (gout & dW & db & S1 & S2 & S3 & S4 & S5 & S6). pose proof (n_range rows R0 RL) as NR. destruct eps_small as [E0 E1].
  assert (LD : forall d, Rabs d <= D -> Rabs (lr * d) <= Rabs lr * D) by (intros d Hd; rewrite Rabs_mult; apply Rmult_le_compat_l; [apply Rabs_pos|exact Hd]).
  assert (GM : forall d, Rabs d <= D -> Wb + S_Ieee.grown (Rabs (lr * d)) <= top).
  { intros d Hd. pose proof (LD d Hd). assert (S_Ieee.grown (Rabs (lr * d)) <= S_Ieee.grown (Rabs lr * D)) by (unfold S_Ieee.grown; nra). lra. }
  assert (IN1 : 0 < / INR rows <= 1) by (split; [apply Rinv_0_lt_compat; lra|rewrite <- Rinv_1; apply Rinv_le_contravar; lra]).
  intros err. split; intros p Hp.
  - assert (K0 : (0 < K)%nat) by (destruct K; [rewrite Nat.mul_0_r in Hp; lia|lia]).
    assert (PK : (p / K < m)%nat) by (apply Nat.div_lt_upper_bound; nia). assert (QK : (p mod K < K)%nat) by (apply Nat.mod_upper_bound; lia).
    destruct (S3 p Hp) as (xs & XS & SU).
    destruct (gradient_sum (fun i => (y (i * m + p / K)%nat - target (i * m + p / K)) / INR rows * xr (i * K + p mod K)%nat) (fun i => val (xs i)) xs (dW p)) as (d & ED & DE & DB & TB); [|exact SU|].
    + intros i Hi. destruct (XS i Hi) as (a & c & A & C & M). cbn in A, C. subst a c. pose proof (row_in rows m i (p / K) Hi PK) as RP.
      destruct (logits_accurate _ RP) as (g & EG & G). destruct (IN (i * K + p mod K)%nat ltac:(nia)) as (EI & XB). rewrite EG, EI in M.
      destruct (product_accurate rows R0 RL _ g _ B (xs i) B1 ltac:(lra) (target_near _ RP) G XB M) as (q & EQ & Q1 & Q2). rewrite EQ. cbn [val]. auto.
    + destruct (WE p Hp) as (EW & WB). exact (sgd_accurate lr (wr p) d _ E Wb B (w' p) lib (among [w; dW]) p EW ED WB TB E_pos DE (Rle_trans _ _ _ (LD d DB) T3) (GM d DB) (S5 p Hp)).
  - destruct (S4 p Hp) as (xs & XS & SU).
    destruct (gradient_sum (fun i => (y (i * m + p)%nat - target (i * m + p)) / INR rows) (fun i => val (xs i)) xs (db p)) as (d & ED & DE & DB & TB); [|exact SU|].
    + intros i Hi. pose proof (XS i Hi) as A. cbn in A. pose proof (row_in rows m i p Hi Hp) as RP.
      destruct (logits_accurate _ RP) as (g & EG & G). rewrite EG in A. rewrite A. cbn [val]. split; [reflexivity|]. pose proof (target_near _ RP) as TN.
      assert (BN : / INR rows <= B / INR rows) by (unfold Rdiv; nra). split.
      * unfold Rdiv at 1. rewrite Rabs_mult, (Rabs_right (/ INR rows)) by lra. pose proof (Rabs_pos (y (i * m + p)%nat - target (i * m + p))). nra.
      * replace (g - (y (i * m + p)%nat - target (i * m + p)) / INR rows) with ((g * INR rows - (y (i * m + p)%nat - target (i * m + p))) * / INR rows) by (field; lra).
        rewrite Rabs_mult, (Rabs_right (/ INR rows)) by lra. apply Rle_trans with (32 * eps32 * / INR rows); [apply Rmult_le_compat_r; lra|]. nra.
    + destruct (BI p Hp) as (EW & WB). exact (sgd_accurate lr (br p) d _ E Wb B (b' p) lib (among [b; db]) p EW ED WB TB E_pos DE (Rle_trans _ _ _ (LD d DB) T3) (GM d DB) (S6 p Hp)).
Qed.
End Step.

(** A correctly rounded log. *)
Lemma log_lib_near : log_near (105 * eps32) log_lib.
Proof.
  intros x r Fx X L. cbn in L. destruct (Req_EM_T x 0); [lra|]. destruct (Rle_dec x 0); [lra|].
  assert (XL : / 2 ^ 149 <= x).
  { destruct Fx as (z & _ & ->). assert (P : 0 < / 2 ^ 149) by (apply Rinv_0_lt_compat, pow_lt; lra). assert (Z0 : (0 < z)%Z) by (apply lt_IZR; unfold Rdiv in X; nra). assert (H : (1 <= z)%Z) by lia.
    apply IZR_le in H. unfold Rdiv. nra. }
  pose proof (ln_low x XL) as LL. assert (LU : ln x <= 0) by (destruct (Req_dec x 1) as [->|N1]; [rewrite ln_1; lra|left; rewrite <- ln_1; apply ln_increasing; lra]).
  assert (LA : Rabs (ln x) <= 104) by (apply Rabs_le; lra). pose proof top_big. assert (2 ^ 7 <= 2 ^ 127) by (apply Rle_pow; [lra|lia]).
  destruct (rnd_fin (ln x) r) as (y & -> & _ & N); [lra|exact L|]. exists y. split; [reflexivity|]. unfold near in N. destruct eps_small as [E0 E1].
  assert (TE : tiny32 <= eps32) by (unfold tiny32, eps32; apply Rinv_le_contravar; [apply pow_lt; lra|apply Rle_pow; [lra|lia]]).
  assert (eps32 * Rabs (ln x) <= eps32 * 104) by (apply Rmult_le_compat_l; lra). lra.
Qed.
