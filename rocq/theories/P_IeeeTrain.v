(** Training of dense classifiers in floats: proofs. *)
From Coq Require Import Reals Lra Lia List.
From Verif Require Import Base BaseFacts Sums M_Im2col M_Kernels M_Layers S_Float M_Round S_Round P_Kernels P_Float P_Round M_Ieee S_Ieee P_Ieee P_Ieee2 P_Ieee3 P_Ieee4 P_Ieee5 P_Ieee7 P_Ieee8 P_Ieee9 P_Ieee10 P_Ieee11 P_Ieee12
  P_IeeeOpt Prop_Ieee M_IeeeOpt S_IeeeOpt M_IeeeDense S_IeeeDense P_IeeeDense Prop_IeeeDense M_IeeeTrain S_IeeeTrain.
Import ListNotations.
Open Scope R_scope.

Lemma dense_size_bare Wb : forall l acts grads F k, length acts = length l -> length grads = length l -> dense_size Wb F (denses l acts grads) k = dense_size Wb F (map bare l) k.
Proof.
  induction l as [|s t IH]; intros [|a acts] [|g grads] F k L1 L2; try discriminate; [destruct k; reflexivity|]. cbn [denses map]. destruct k as [|k]; [reflexivity|].
  cbn [dense_size d_out d_act bare]. apply IH; cbn in L1, L2; lia.
Qed.
Lemma denses_length : forall l acts grads, length acts = length l -> length grads = length l -> length (denses l acts grads) = length l.
Proof. induction l as [|s t IH]; intros [|a acts] [|g grads] L1 L2; try discriminate; [reflexivity|]. cbn in *. f_equal. apply IH; lia. Qed.

Lemma dense_error_bare u eta Wb : forall l acts grads F e k, length acts = length l -> length grads = length l -> dense_error u eta Wb F e (denses l acts grads) k = dense_error u eta Wb F e (map bare l) k.
Proof.
  induction l as [|s t IH]; intros [|a acts] [|g grads] F e k L1 L2; try discriminate; [destruct k; reflexivity|]. cbn [denses map]. destruct k as [|k]; [reflexivity|].
  cbn [dense_error d_out d_act bare]. apply IH; cbn in L1, L2; lia.
Qed.
Lemma dense_grad_bare : forall l acts grads grads' h k, length acts = length l -> length grads = length l -> length grads' = length l -> dense_grad h (denses l acts grads) k = dense_grad h (denses l acts grads') k.
Proof.
  induction l as [|s t IH]; intros [|a acts] [|g grads] [|g' grads'] h k L1 L2 L3; try discriminate; [reflexivity|]. cbn [denses]. destruct k as [|k]; [reflexivity|].
  cbn [dense_grad d_in d_out d_w d_act d_arg]. apply IH; cbn in L1, L2, L3; lia.
Qed.
Lemma denses_nth : forall l acts grads k s xa g, nth_error l k = Some s -> nth_error acts k = Some xa -> nth_error grads k = Some g ->
  nth_error (denses l acts grads) k = Some (mkDense (l_in s) (l_out s) (fst xa) (l_w s) (l_act s) (snd xa) (fst g) (snd g)).
Proof.
  induction l as [|s0 t IH]; intros [|a acts] [|g0 grads] [|k] s xa g N1 N2 N3; try discriminate; cbn in N1, N2, N3; [injection N1 as ->; injection N2 as ->; injection N3 as ->; reflexivity|]. exact (IH acts grads k s xa g N1 N2 N3).
Qed.
Lemma stepped_nth lib lr : forall l grads l' k s g s', all_stepped lib lr l grads l' -> nth_error l k = Some s -> nth_error grads k = Some g -> nth_error l' k = Some s' -> stepped lib lr s g s'.
Proof.
  induction l as [|s0 t IH]; intros [|g0 grads] [|s0' l'] [|k] s g s' AS N1 N2 N3; try discriminate; try contradiction; destruct AS as (A1 & A2); cbn in N1, N2, N3; [injection N1 as ->; injection N2 as ->; injection N3 as ->; exact A1|].
  exact (IH grads l' k s g s' A2 N1 N2 N3).
Qed.

(** The bound on weights *)
Lemma growth_two k : (k <= 2 ^ 22)%nat -> (1 + eps32) ^ k <= 2.
Proof.
  intros Hk. pose proof eps32_pos as E0. assert (P : (1 + eps32) ^ k <= exp (INR k * eps32)).
  { clear Hk. induction k as [|k IH]; [rewrite Rmult_0_l, exp_0; cbn; lra|]. rewrite S_INR, Rmult_plus_distr_r, Rmult_1_l, exp_plus, Rmult_comm. cbn [pow]. rewrite Rmult_comm, (Rmult_comm ((1 + eps32) ^ k)), (Rmult_comm (exp eps32)).
    rewrite (Rmult_comm (1 + eps32)). apply Rmult_le_compat; [apply pow_le; lra|lra|exact IH|apply exp_ineq1_le]. }
  assert (KE : INR k * eps32 <= / 2).
  { apply le_INR in Hk. rewrite pow_INR in Hk. replace (INR 2) with 2 in Hk by (cbn; lra). unfold eps32. apply (Rmult_le_reg_r (2 ^ 23)); [apply pow_lt; lra|]. rewrite Rmult_assoc, Rinv_l, Rmult_1_r by (apply pow_nonzero; lra).
    replace (/ 2 * 2 ^ 23) with (2 ^ 22) by (cbn; lra). exact Hk. }
  assert (X : exp (INR k * eps32) <= exp (/ 2)) by (destruct KE as [C|C]; [left; apply exp_increasing, C|rewrite C; lra]).
  assert (Q : exp (/ 2) * exp (/ 2) <= 3) by (rewrite <- exp_plus; replace (/ 2 + / 2) with 1 by lra; apply exp_le_3). pose proof (exp_pos (/ 2)). nra.
Qed.
Lemma bound_linear lr G b k : 0 <= G -> 0 <= b -> (k <= 2 ^ 22)%nat -> bound_after lr G b k <= 2 * (b + INR k * (2 * (Rabs lr * G) + / 2 ^ 147)).
Proof.
  intros G0 B0 Hk. pose proof eps32_pos as E0. pose proof tiny32_pos as T0. pose proof (Rmult_le_pos _ _ (Rabs_pos lr) G0) as L0. set (q := Rabs lr * G) in *.
  assert (E1 : eps32 <= / 2) by (unfold eps32; apply Rinv_le_contravar; [lra|]; replace 2 with (2 ^ 1) at 1 by ring; apply Rle_pow; [lra|lia]).
  assert (TT : 4 * tiny32 <= / 2 ^ 147) by (unfold tiny32; replace (2 ^ 149) with (4 * 2 ^ 147) by (change 149%nat with (2 + 147)%nat; rewrite (pow_add 2 2 147); ring); rewrite Rinv_mult; pose proof (Rinv_0_lt_compat _ (pow_lt 2 147 ltac:(lra))); lra).
  set (c := 2 * q + / 2 ^ 147). assert (C0 : 0 <= c) by (unfold c; lra).
  assert (ST : forall n, bound_after lr G b n <= (1 + eps32) ^ n * (b + INR n * c)).
  { induction n as [|n IH]; [cbn; lra|]. change (bound_after lr G b (S n)) with (next_bound lr G (bound_after lr G b n)). unfold next_bound. fold q. rewrite S_INR.
    assert (GR : grown (grown q) <= (1 + eps32) * c) by (assert (CC : (1 + eps32) * (2 * q + 4 * tiny32) <= (1 + eps32) * c) by (apply Rmult_le_compat_l; [lra|unfold c; lra]); assert (Q0 : 0 <= eps32 * q) by (apply Rmult_le_pos; lra); assert (Q1 : eps32 * q <= / 2 * q) by (apply Rmult_le_compat_r; lra); assert (Q2 : eps32 * (eps32 * q) <= / 2 * (eps32 * q)) by (apply Rmult_le_compat_r; lra); assert (0 <= eps32 * tiny32) by (apply Rmult_le_pos; lra); unfold grown; lra).
    assert (P1 : 1 <= (1 + eps32) ^ n) by (apply pow_R1_Rle; lra). assert (PC : c <= (1 + eps32) ^ n * c) by nra.
    replace ((1 + eps32) ^ S n * (b + (INR n + 1) * c)) with ((1 + eps32) * ((1 + eps32) ^ n * (b + INR n * c)) + (1 + eps32) * ((1 + eps32) ^ n * c)) by (cbn [pow]; ring).
    replace (grown (bound_after lr G b n + grown q)) with ((1 + eps32) * bound_after lr G b n + grown (grown q)) by (unfold grown; ring). nra. }
  eapply Rle_trans; [apply ST|]. apply Rmult_le_compat_r; [pose proof (Rmult_le_pos _ _ (pos_INR k) C0); lra|apply growth_two, Hk].
Qed.
Lemma drifted_linear W D k : 0 <= W -> 0 <= D -> (k <= 2 ^ 22)%nat -> drifted W D k <= 2 * (W + INR k * (D + / 2 ^ 149)).
Proof.
  intros W0 D0 Hk. pose proof eps32_pos as E0. pose proof tiny32_pos as T0. change (/ 2 ^ 149) with tiny32.
  assert (ST : forall n, drifted W D n <= (1 + eps32) ^ n * (W + INR n * (D + tiny32))).
  { induction n as [|n IH]; [cbn; lra|]. cbn [drifted]. rewrite S_INR. unfold grown. assert (P1 : 1 <= (1 + eps32) ^ n) by (apply pow_R1_Rle; lra).
    replace ((1 + eps32) ^ S n * (W + (INR n + 1) * (D + tiny32))) with ((1 + eps32) * ((1 + eps32) ^ n * (W + INR n * (D + tiny32))) + (1 + eps32) * ((1 + eps32) ^ n * (D + tiny32))) by (cbn [pow]; ring).
    assert (D + tiny32 <= (1 + eps32) ^ n * (D + tiny32)) by nra. assert (0 <= eps32 * tiny32) by (apply Rmult_le_pos; lra).
    assert ((1 + eps32) * drifted W D n <= (1 + eps32) * ((1 + eps32) ^ n * (W + INR n * (D + tiny32)))) by (apply Rmult_le_compat_l; lra).
    assert ((1 + eps32) * (D + tiny32) <= (1 + eps32) * ((1 + eps32) ^ n * (D + tiny32))) by (apply Rmult_le_compat_l; lra). lra. }
  eapply Rle_trans; [apply ST|]. apply Rmult_le_compat_r; [pose proof (Rmult_le_pos _ _ (pos_INR k) (Rplus_le_le_0_compat _ _ D0 (Rlt_le _ _ T0))); lra|apply growth_two, Hk].
Qed.
Lemma pushed_nth lib gamma lr : forall l grads vs l' vs' k s g v s' v', all_pushed lib gamma lr l grads vs l' vs' -> nth_error l k = Some s -> nth_error grads k = Some g -> nth_error vs k = Some v -> nth_error l' k = Some s' -> nth_error vs' k = Some v' ->
  pushed lib gamma lr s g v s' v'.
Proof.
  induction l as [|s0 t IH]; intros [|g0 grads] [|v0 vs] [|s0' l'] [|v0' vs'] [|k] s g v s' v' AS N1 N2 N3 N4 N5; try discriminate; try contradiction; destruct AS as (A1 & A2); cbn in N1, N2, N3, N4, N5;
    [injection N1 as ->; injection N2 as ->; injection N3 as ->; injection N4 as ->; injection N5 as ->; exact A1|].
  exact (IH grads vs l' vs' k s g v s' v' A2 N1 N2 N3 N4 N5).
Qed.
Lemma slow_nth V : forall l vs k s v, slow V l vs -> nth_error l k = Some s -> nth_error vs k = Some v ->
  (forall p, (p < l_out s * l_in s)%nat -> exists x, fst v p = Fin x /\ Rabs x <= V) /\ (forall p, (p < l_out s)%nat -> exists x, snd v p = Fin x /\ Rabs x <= V).
Proof.
  induction l as [|s0 t IH]; intros [|v0 vs] [|k] s v SL N1 N2; try discriminate; inversion SL as [|? ? ? ? K1 K2]; subst; cbn in N1, N2; [injection N1 as ->; injection N2 as ->; exact K1|]. exact (IH vs k s v K2 N1 N2).
Qed.

Section Forward.
Variable lib : flt -> flt -> Prop.
Hypothesis EO : exp_ok lib.

Lemma act_bounded a (pre : nat -> flt) p q r P : 0 <= P -> P <= match a with AELU _ => 65 | _ => top end -> act_out (Some a) P <= top -> pre p = Fin q -> Rabs q <= P -> fev lib (among [pre]) (act_ex a p) r ->
  exists x, r = Fin x /\ Rabs x <= act_out (Some a) P /\ (a = ASigmoid -> isf x /\ 0 <= x <= 1).
Proof.
  intros P0 PB AT EQ Q F. destruct a as [|alpha|alpha|]; cbn [act_ex act_out] in *.
  - destruct F as (i & j & -> & J & F). cbn in J. subst j. rewrite EQ in F. cbn [flt_ltb] in F. unfold ltb in F. destruct (Rlt_dec 0 q); cbn in F.
    + exists q. rewrite F, EQ. split; [reflexivity|]. split; [exact Q|discriminate].
    + exists 0. rewrite F, Rabs_R0. split; [reflexivity|]. split; [exact P0|discriminate].
  - destruct F as (i & j & I & -> & F). cbn in I. subst i. rewrite EQ in F. cbn [flt_ltb] in F. unfold ltb in F. pose proof (Rmax_l P (grown (P * Rabs alpha))) as M1. pose proof (Rmax_r P (grown (P * Rabs alpha))) as M2. destruct (Rlt_dec q 0).
    + destruct F as (i & j & I & -> & M). cbn in I. subst i. rewrite EQ in M. assert (PA : 0 <= P * Rabs alpha) by (apply Rmult_le_pos; [exact P0|apply Rabs_pos]). pose proof (grown_ge _ PA).
      destruct (mul_fin q alpha r (P * Rabs alpha) M) as (x & -> & _ & XB & _); [rewrite Rabs_mult; apply Rmult_le_compat_r; [apply Rabs_pos|exact Q]|lra|].
      exists x. split; [reflexivity|]. split; [lra|discriminate].
    + cbn in F. exists q. rewrite F, EQ. split; [reflexivity|]. split; [lra|discriminate].
  - destruct F as (i & j & I & -> & F). cbn in I. subst i. rewrite EQ in F. cbn [flt_ltb] in F. unfold ltb in F. pose proof (Rmax_l P (grown (grown 1 * Rabs alpha))) as M1. pose proof (Rmax_r P (grown (grown 1 * Rabs alpha))) as M2. destruct (Rlt_dec q 0) as [N|N].
    + destruct F as (d & c & (e & o & (q0 & Q0 & LE) & -> & SB) & -> & M). cbn in Q0. subst q0. rewrite EQ in LE.
      destruct (EO _ _ LE) as [(w & -> & _ & W0 & W2 & _)|(C & _)]; [|lra]. specialize (W2 ltac:(lra)). pose proof top_big as TB. assert (T1 : 1 <= 2 ^ 127) by (apply pow_R1_Rle; lra).
      destruct (sub_fin w 1 d 1 SB) as (v & -> & _ & VB & _); [apply Rabs_le; lra|lra|]. assert (G1 : 0 <= grown 1) by (pose proof (grown_ge 1 ltac:(lra)); lra).
      assert (GA : 0 <= grown 1 * Rabs alpha) by (apply Rmult_le_pos; [exact G1|apply Rabs_pos]). pose proof (grown_ge _ GA).
      destruct (mul_fin v alpha r (grown 1 * Rabs alpha) M) as (x & -> & _ & XB & _); [rewrite Rabs_mult; apply Rmult_le_compat_r; [apply Rabs_pos|exact VB]|lra|].
      exists x. split; [reflexivity|]. split; [lra|discriminate].
    + cbn in F. exists q. rewrite F, EQ. split; [reflexivity|]. split; [lra|discriminate].
  - destruct (C67_sigmoid_never_overflows lib (fun _ => q) p r EO ltac:(lra)) as (y & -> & Fy & Y).
    { apply (fev_reads lib (among [pre])); [|exact F]. unfold sigmoid_ex. cbn [reads]. intros a i R. assert (a = 0%nat /\ i = p) as (-> & ->) by tauto. exact EQ. }
    exists y. split; [reflexivity|]. split; [rewrite Rabs_right; lra|auto].
Qed.

Lemma linear_bounded rows K m (x w b : nat -> flt) X Wb p r : 0 <= X -> 0 <= Wb -> (p < rows * m)%nat -> (forall q, (q < rows * K)%nat -> exists y, x q = Fin y /\ Rabs y <= X) ->
  (forall q, (q < m * K)%nat -> exists y, w q = Fin y /\ Rabs y <= Wb) -> (forall q, (q < m)%nat -> exists y, b q = Fin y /\ Rabs y <= Wb) -> lin_out K X Wb <= top ->
  fev lib (among [x; w; b]) (linear_out_ex K m p) r -> exists y, r = Fin y /\ Rabs y <= lin_out K X Wb.
Proof.
  intros X0 W0 Hp XB WB BB T (s & c & (xs & XS & SU) & C & AD). cbn in C. subst c.
  assert (M0 : (0 < m)%nat) by (destruct m; [rewrite Nat.mul_0_r in Hp; lia|lia]). assert (PI : (p / m < rows)%nat) by (apply Nat.div_lt_upper_bound; nia). assert (PJ : (p mod m < m)%nat) by (apply Nat.mod_upper_bound; lia).
  assert (XW : 0 <= X * Wb) by (apply Rmult_le_pos; assumption). pose proof (grown_ge _ XW) as GG. assert (KG : 0 <= INR K * grown (X * Wb)) by (apply Rmult_le_pos; [apply pos_INR|lra]).
  pose proof (sum_grown_le K _ KG) as SL. assert (LG : sum_grown K (INR K * grown (X * Wb)) + Wb <= lin_out K X Wb) by (apply grown_ge; lra).
  assert (PR : forall k, (k < K)%nat -> exists q, xs k = Fin q /\ Rabs q <= grown (X * Wb)).
  { intros k Hk. destruct (XS k Hk) as (a & d & A & D & M). cbn in A, D. subst a d. destruct (XB (p / m * K + k)%nat ltac:(nia)) as (y & EY & YB). destruct (WB (p mod m * K + k)%nat ltac:(nia)) as (v & EV & VB). rewrite EY, EV in M.
    assert (K1 : 1 <= INR K) by (apply (le_INR 1); lia). destruct (mul_fin y v (xs k) (X * Wb) M) as (q & -> & _ & QB & _); [rewrite Rabs_mult; apply Rmult_le_compat; auto; apply Rabs_pos|nra|]. eauto. }
  assert (EX : tab K xs = tab K (fun i => Fin (fval (xs i)))) by (apply ftab_ext; intros i Hi; destruct (PR i Hi) as (q & -> & _); reflexivity). rewrite EX in SU.
  assert (RS : rsum K (fun k => Rabs (fval (xs k))) <= INR K * grown (X * Wb)) by (rewrite <- rsum_const; apply rsum_le; intros i Hi; destruct (PR i Hi) as (q & -> & Q); exact Q).
  pose proof (sum_grown_mono K _ _ RS) as SM. destruct (fsummed_fin K (fun k => fval (xs k)) s ltac:(lra) SU) as (v & -> & _ & VB).
  destruct (BB _ PJ) as (c & EC & CB). rewrite EC in AD. destruct (add_fin v c r (sum_grown K (INR K * grown (X * Wb)) + Wb) AD) as (y & -> & _ & YB & _); [eapply Rle_trans; [apply Rabs_triang|lra]|lra|].
  exists y. split; [reflexivity|exact YB].
Qed.

Variables (rows n0 : nat) (A B Wb : R) (input : nat -> flt).
Hypothesis A0 : 0 <= A.
Hypothesis W0 : 0 <= Wb.
Hypothesis BT : 2 * B <= top.
Hypothesis IN : forall p, (p < rows * n0)%nat -> exists x, input p = Fin x /\ Rabs x <= A.

Lemma net_out_pos l : 0 <= net_out Wb A l /\ forall s, 0 <= act_out (l_act s) (net_out Wb A l).
Proof.
  assert (AP : forall a P, 0 <= P -> 0 <= act_out a P).
  { intros [[|alpha|alpha|]|] P P0; cbn; try lra; eapply Rle_trans; [exact P0|apply Rmax_l|exact P0|apply Rmax_l]. }
  induction l as [|s t (IH & IA)]; [cbn; split; [exact A0|auto]|].
  assert (N0 : 0 <= net_out Wb A (s :: t)); [|split; [exact N0|auto]]. cbn [net_out]. unfold lin_out. specialize (IA s). pose proof (Rmult_le_pos _ _ IA W0) as XW. pose proof (grown_ge _ XW).
  assert (KG : 0 <= INR (l_in s) * grown (act_out (l_act s) (net_out Wb A t) * Wb)) by (apply Rmult_le_pos; [apply pos_INR|lra]). pose proof (sum_grown_le (l_in s) _ KG). 
  match goal with |- 0 <= grown ?y => pose proof (grown_ge y ltac:(lra)) end. lra.
Qed.

Lemma forward_ok l : forall m acts z, chained n0 m l -> small Wb l -> forward_room Wb A B l -> fforward lib rows input l acts z ->
  (forall p, (p < rows * m)%nat -> exists x, z p = Fin x /\ Rabs x <= net_out Wb A l) /\ length acts = length l /\
  forall grads, length grads = length l -> Forall (dense_ok rows B Wb) (denses l acts grads).
Proof.
  induction l as [|s t IH]; intros m acts z CH SM RM FW.
  - destruct acts; [|contradiction]. cbn in FW, CH. subst z m. split; [exact IN|]. split; [reflexivity|]. intros grads L. destruct grads; [constructor|discriminate].
  - destruct acts as [|(x, arg) acts]; [contradiction|]. destruct CH as (<- & CH). pose proof (Forall_inv SM) as (SW & SB). pose proof (Forall_inv_tail SM) as ST. destruct RM as (RT & PB & AB & NT).
    destruct FW as (pre & FT & AX & LZ). destruct (IH (l_in s) acts pre CH ST RT FT) as (PR & LA & OK). destruct (net_out_pos t) as (P0 & AP). specialize (AP s).
    assert (XS : forall p, (p < rows * l_in s)%nat -> exists y, x p = Fin y /\ Rabs y <= act_out (l_act s) (net_out Wb A t) /\ (l_act s = Some ASigmoid -> isf y /\ 0 <= y <= 1)).
    { intros p Hp. destruct (PR p Hp) as (q & EQ & QB). destruct (l_act s) as [a|]; [|subst x; exists q; split; [exact EQ|]; split; [exact QB|discriminate]]. destruct AX as (AX & _).
      destruct (act_bounded a pre p q (x p) _ P0 ltac:(destruct a; exact PB) ltac:(lra) EQ QB (AX p Hp)) as (y & EY & YB & YS). exists y. split; [exact EY|]. split; [exact YB|]. intros E. injection E as ->. auto. }
    split; [|split; [cbn; lia|]].
    + intros p Hp. apply (linear_bounded rows (l_in s) (l_out s) x (l_w s) (l_b s) (act_out (l_act s) (net_out Wb A t)) Wb p); auto. intros q Hq. destruct (XS q Hq) as (y & E & Y & _). eauto.
    + intros [|g grads] LG; [discriminate|]. cbn [denses]. constructor; [|apply OK; cbn in LG; lia]. unfold dense_ok. cbn [d_in d_out d_x d_w d_act d_arg fst snd].
      split; [intros p Hp; destruct (XS p Hp) as (y & -> & Y & _); cbn; split; [reflexivity|lra]|]. split; [intros p Hp; destruct (SW p Hp) as (y & -> & Y); cbn; auto|].
      destruct (l_act s) as [a|] eqn:EA; [|exact Logic.I]. destruct AX as (AX & ->). split.
      * intros p Hp. destruct (PR p Hp) as (q & EQ & QB). destruct a as [|alpha|alpha|].
        -- rewrite EQ. cbn. auto.
        -- rewrite EQ. cbn. auto.
        -- rewrite EQ. cbn. split; [reflexivity|]. apply Rabs_def2 with (a := 66) in QB || idtac. pose proof (Rle_abs (- q)) as AQ. rewrite Rabs_Ropp in AQ. lra.
        -- destruct (XS p Hp) as (y & -> & _ & YS). cbn. split; [reflexivity|]. apply YS. reflexivity.
      * destruct a as [|alpha|alpha|]; try exact Logic.I. cbn [act_out] in AB. pose proof (Rmax_r (net_out Wb A t) (grown (grown 1 * Rabs alpha))). pose proof (Rabs_pos alpha). pose proof (grown_ge 1 ltac:(lra)).
        pose proof (grown_ge (grown 1 * Rabs alpha) ltac:(nra)). assert (Rabs alpha <= grown 1 * Rabs alpha) by nra. lra.
Qed.
End Forward.

Lemma softmax_reads lib rows m (z z' : nat -> flt) prob : (forall p, (p < rows * m)%nat -> z p = z' p) -> fsoftmax lib (among [z]) rows m prob -> fsoftmax lib (among [z']) rows m prob.
Proof.
  intros E (es & ES & Q). exists es. split; [|exact Q]. intros q Hq. apply (fev_reads lib (among [z])); [|apply ES, Hq]. unfold softmax_exp_ex. cbn [reads].
  assert (M0 : (0 < m)%nat) by (destruct m; [rewrite Nat.mul_0_r in Hq; lia|lia]). assert (PI : (q / m < rows)%nat) by (apply Nat.div_lt_upper_bound; nia).
  intros a i [(-> & ->)|(k & Hk & (-> & ->))]; apply E; [exact Hq|nia].
Qed.

Lemma small_mono b b' l : b <= b' -> small b l -> small b' l.
Proof. intros LE. apply Forall_impl. intros s (H1 & H2). split; intros p Hp; [destruct (H1 p Hp) as (x & E & X)|destruct (H2 p Hp) as (x & E & X)]; exists x; (split; [exact E|lra]). Qed.

Lemma same_chained n : forall l l' m, same_layers l l' -> chained n m l -> chained n m l'.
Proof.
  induction l as [|s t IH]; intros [|s' t'] m S C; try discriminate; [exact C|]. unfold same_layers in S. cbn [map] in S. injection S as S1 S2 S3 S. destruct C as (<- & C). split; [congruence|]. rewrite <- S1. exact (IH t' _ S C).
Qed.
Lemma same_out Wb A : forall l l', same_layers l l' -> net_out Wb A l = net_out Wb A l'.
Proof. induction l as [|s t IH]; intros [|s' t'] S; try discriminate; [reflexivity|]. unfold same_layers in S. cbn [map] in S. injection S as S1 S2 S3 S. cbn [net_out]. rewrite S1, S3, (IH t' S). reflexivity. Qed.
Lemma same_room Wb A B : forall l l', same_layers l l' -> forward_room Wb A B l -> forward_room Wb A B l'.
Proof.
  induction l as [|s t IH]; intros [|s' t'] S R; try discriminate; [exact R|]. pose proof (same_out Wb A _ _ S) as SO. unfold same_layers in S. cbn [map] in S. injection S as S1 S2 S3 S.
  destruct R as (R1 & R2 & R3 & R4). cbn [forward_room]. rewrite <- SO, <- S3, <- (same_out Wb A t t' S). split; [exact (IH t' S R1)|]. auto.
Qed.
Lemma same_size Wb : forall l l' F k, same_layers l l' -> dense_size Wb F (map bare l) k = dense_size Wb F (map bare l') k.
Proof.
  induction l as [|s t IH]; intros [|s' t'] F k S; try discriminate; [reflexivity|]. unfold same_layers in S. cbn [map] in S. injection S as S1 S2 S3 S. destruct k as [|k]; [reflexivity|]. cbn [map dense_size d_out d_act bare].
  rewrite S2, S3. apply IH, S.
Qed.
Lemma same_length l l' : same_layers l l' -> length l = length l'.
Proof. intros S. apply (f_equal (@length _)) in S. rewrite !map_length in S. exact S. Qed.
Lemma same_backward rows Wb B G l l' : same_layers l l' -> backward_room rows Wb B G l -> backward_room rows Wb B G l'.
Proof. intros S R k Hk. rewrite <- (same_length _ _ S) in Hk. rewrite <- !(same_size Wb l l' _ k S). exact (R k Hk). Qed.

Section Train.
Variables lib : flt -> flt -> Prop.
Variables u eta : R.
Hypothesis EO : exp_ok lib.
Hypothesis EN : exp_near u eta lib.
Hypothesis Hu : 0 <= u <= / 2.
Hypothesis He : 0 <= eta <= / 2 ^ 149.
Hypothesis LT : forall a, exists r, lib a r.
Variables rows n0 m : nat.
Hypothesis R0 : (0 < rows)%nat.
Hypothesis RL : (rows <= 2 ^ 23)%nat.
Hypothesis LM : (m <= 2 ^ 23)%nat.
Variables lr A B Wb G : R.
Hypothesis A0 : 0 <= A.
Hypothesis B1 : 1 <= B.
Hypothesis BT : 2 * B <= top.
Hypothesis W0 : 0 <= Wb.
Hypothesis WT : Wb <= top.
Hypothesis G0 : 0 <= G.
Hypothesis GT : G <= top.
Hypothesis LG : Rabs lr * G <= top.

Lemma logits_ok l batch acts z : chained n0 m l -> small Wb l -> forward_room Wb A B l -> batch_ok rows n0 m A batch -> fforward lib rows (fst batch) l acts z ->
  forall p, (p < rows * m)%nat -> z p = Fin (fval (z p)).
Proof.
  intros CH SM RM (BI & BL) FW. destruct (forward_ok lib EO rows n0 A B Wb (fst batch) A0 W0 BT BI l m acts z CH SM RM FW) as (Z & _).
  intros p Hp; destruct (Z p Hp) as (x & -> & X); reflexivity.
Qed.
Lemma small_logits l batch : chained n0 m l -> small Wb l -> forward_room Wb A B l -> net_out Wb A l <= 30 -> batch_ok rows n0 m A batch -> no_confident_mistake lib rows m l batch.
Proof.
  intros CH SM RM N30 (BI & BL) acts z FW. destruct (forward_ok lib EO rows n0 A B Wb (fst batch) A0 W0 BT BI l m acts z CH SM RM FW) as (Z & _).
  assert (ZB : forall p, (p < rows * m)%nat -> Rabs (fval (z p)) <= 30) by (intros p Hp; destruct (Z p Hp) as (x & -> & X); cbn; lra).
  intros i k Hi Hk. pose proof (ZB (i * m + k)%nat (row_in rows m i k Hi Hk)) as Z1. pose proof (ZB (i * m + snd batch i)%nat (row_in rows m i _ Hi (BL i Hi))) as Z2.
  pose proof (Rle_abs (fval (z (i * m + k)%nat))). pose proof (Rle_abs (- fval (z (i * m + snd batch i)%nat))) as Z3. rewrite Rabs_Ropp in Z3. lra.
Qed.
Lemma gradients_small l batch acts z prob grads : chained n0 m l -> small Wb l -> forward_room Wb A B l -> no_confident_mistake lib rows m l batch -> backward_room rows Wb B G l -> batch_ok rows n0 m A batch ->
  fforward lib rows (fst batch) l acts z -> fsoftmax lib (among [z]) rows m prob -> length grads = length l -> classifier_backward lib rows m (snd batch) prob (denses l acts grads) ->
  length acts = length l /\
  forall k s, nth_error (denses l acts grads) k = Some s -> (forall p, (p < d_out s * d_in s)%nat -> exists x, d_dw s p = Fin x /\ Rabs x <= G) /\ (forall p, (p < d_out s)%nat -> exists x, d_db s p = Fin x /\ Rabs x <= G).
Proof.
  intros CH SM RM N30 BR BO FW SX LGR CB.
  pose proof (logits_ok l batch acts z CH SM RM BO FW) as ZF. pose proof (N30 acts z FW) as GAP. destruct BO as (BI & BL).
  destruct (forward_ok lib EO rows n0 A B Wb (fst batch) A0 W0 BT BI l m acts z CH SM RM FW) as (_ & LA & OK). specialize (OK grads LGR).
  pose proof (softmax_reads lib rows m z (fun p => Fin (fval (z p))) prob ZF SX) as SX'.
  assert (PY : forall p, (p < rows * m)%nat -> prob p = Fin (fval (prob p))) by (intros p Hp; destruct (C67_softmax_never_overflows lib (fun p => fval (z p)) rows m prob EO SX' p Hp) as (y & -> & _); reflexivity).
  pose proof (C71_classifier_gradients_are_accurate lib rows m (snd batch) (fun p => fval (z p)) prob (denses l acts grads) u eta (fun p => fval (prob p)) B Wb EO EN Hu He LT R0 RL LM BL SX' CB GAP PY OK B1 W0) as AC.
  cbv beta zeta in AC. specialize (AC ltac:(intros k Hk; rewrite (denses_length _ _ _ LA LGR) in Hk; rewrite (dense_size_bare Wb l acts grads _ k LA LGR); destruct (BR k Hk); split; [assumption|lra])).
  split; [exact LA|].
  intros k s NS. assert (Hk : (k < length l)%nat) by (rewrite <- (denses_length _ _ _ LA LGR); apply nth_error_Some; congruence). destruct (BR k Hk) as (_ & DG). rewrite <- (dense_size_bare Wb l acts grads _ k LA LGR) in DG.
    destruct (AC k s NS) as (C1 & C2). split; intros p Hp; [destruct (C1 p Hp) as (x & E & X & _)|destruct (C2 p Hp) as (x & E & X & _)]; exists x; (split; [exact E|lra]).
Qed.
Lemma iteration_small l batch l' b : chained n0 m l -> small b l -> b <= Wb -> 0 <= b -> next_bound lr G b <= top -> forward_room Wb A B l -> no_confident_mistake lib rows m l batch -> backward_room rows Wb B G l ->
  batch_ok rows n0 m A batch -> fiteration lib rows m lr l batch l' -> small (next_bound lr G b) l' /\ same_layers l l'.
Proof.
  intros CH SM0 BW B0 NB RM N30 BR BO (acts & z & prob & grads & FW & SX & LGR & CB & AS). pose proof (small_mono b Wb l BW SM0) as SM.
  destruct (gradients_small l batch acts z prob grads CH SM RM N30 BR BO FW SX LGR CB) as (LA & GB).
  assert (SG : forall w d p r, (exists x, w p = Fin x /\ Rabs x <= b) -> (exists x, d p = Fin x /\ Rabs x <= G) -> fev lib (among [w; d]) (sgd_ex lr p) r -> exists x, r = Fin x /\ Rabs x <= next_bound lr G b).
  { intros w d p r (x & EX & XB) (y & EY & YB) F. pose proof (Rmult_le_pos _ _ (Rabs_pos lr) G0) as LG0. pose proof (grown_ge _ LG0) as GG.
    destruct (sgd_close lr x y y 0 b G r lib (among [w; d]) p EX EY XB YB) as (v & -> & VB & _); [rewrite Rminus_diag_eq, Rabs_R0 by reflexivity; lra|exact LG| |exact F|eauto].
    unfold next_bound in NB. pose proof (grown_ge (b + grown (Rabs lr * G)) ltac:(lra)). lra. }
  clear - SM0 LA LGR AS GB SG. revert acts grads l' LA LGR AS GB. induction l as [|s t IH]; intros [|a acts] [|g grads] [|s' l'] LA LGR AS GB; try discriminate; try contradiction; [split; [constructor|reflexivity]|].
  destruct AS as ((E1 & E2 & E3 & SW & SB) & AS). pose proof (Forall_inv SM0) as (S1 & S2). pose proof (Forall_inv_tail SM0) as ST.
  destruct (IH ST acts grads l' ltac:(cbn in LA; lia) ltac:(cbn in LGR; lia) AS) as (I1 & I2); [intros k q NQ; exact (GB (S k) q NQ)|]. destruct (GB 0%nat _ eq_refl) as (G1 & G2). cbn in G1, G2.
  split; [|unfold same_layers in *; cbn [map]; rewrite E1, E2, E3, I2; reflexivity]. constructor; [|exact I1]. rewrite E1, E2. split; intros p Hp.
  - apply (SG (l_w s) (fst g) p); auto.
  - apply (SG (l_b s) (snd g) p); auto.
Qed.

Lemma next_ge b : 0 <= b -> b <= next_bound lr G b.
Proof. intros B0. unfold next_bound. pose proof (Rmult_le_pos _ _ (Rabs_pos lr) G0) as LG0. pose proof (grown_ge _ LG0). pose proof (grown_ge (b + grown (Rabs lr * G)) ltac:(lra)). lra. Qed.
Lemma iter_next n : forall b, bound_after lr G b (S n) = bound_after lr G (next_bound lr G b) n.
Proof. unfold bound_after. induction n as [|n IH]; intros b; [reflexivity|]. change (Nat.iter (S (S n)) (next_bound lr G) b) with (next_bound lr G (Nat.iter (S n) (next_bound lr G) b)). rewrite IH. reflexivity. Qed.
Lemma bound_after_ge n : forall b, 0 <= b -> b <= bound_after lr G b n.
Proof. induction n as [|n IH]; intros b B0; [cbn; lra|]. rewrite iter_next. pose proof (next_ge b B0). pose proof (IH (next_bound lr G b) ltac:(lra)). lra. Qed.

Lemma training_small batches : forall l l' b, chained n0 m l -> small b l -> 0 <= b -> bound_after lr G b (length batches) <= Wb -> forward_room Wb A B l -> (forall before batch after l1, batches = before ++ batch :: after -> ftraining lib rows m lr l before l1 -> no_confident_mistake lib rows m l1 batch) -> backward_room rows Wb B G l ->
  Forall (batch_ok rows n0 m A) batches -> ftraining lib rows m lr l batches l' -> small (bound_after lr G b (length batches)) l' /\ same_layers l l'.
Proof.
  induction batches as [|c t IH]; intros l l' b CH SM B0 BA RM N30 BR BO TR; [cbn in TR; subst l'; split; [exact SM|reflexivity]|]. destruct TR as (l1 & IT & TR). cbn [length] in *. rewrite iter_next in *.
  pose proof (next_ge b B0) as NG. pose proof (bound_after_ge (length t) (next_bound lr G b) ltac:(lra)) as BG.
  destruct (iteration_small l c l1 b CH SM ltac:(lra) B0 ltac:(lra) RM (N30 [] c t l eq_refl eq_refl) BR (Forall_inv BO) IT) as (S1 & E1).
  destruct (IH l1 l' (next_bound lr G b) (same_chained _ _ _ _ E1 CH) S1 ltac:(lra) BA (same_room _ _ _ _ _ E1 RM) ltac:(intros bf bt af l2 EQ T2; apply (N30 (c :: bf) bt af l2); [rewrite EQ; reflexivity|exists l1; split; [exact IT|exact T2]]) (same_backward _ _ _ _ _ _ E1 BR) (Forall_inv_tail BO) TR) as (S2 & E2).
  split; [exact S2|]. unfold same_layers in *. congruence.
Qed.

(** SGDMomentum *)
Lemma momentum_small gamma n w g v w' v' b V : fmomentum lib gamma lr n w g v w' v' -> settles gamma lr G V -> b + V <= top ->
  (forall p, (p < n)%nat -> exists x, w p = Fin x /\ Rabs x <= b) -> (forall p, (p < n)%nat -> exists x, g p = Fin x /\ Rabs x <= G) -> (forall p, (p < n)%nat -> exists x, v p = Fin x /\ Rabs x <= V) ->
  (forall p, (p < n)%nat -> exists x, w' p = Fin x /\ Rabs x <= grown (b + V)) /\ (forall p, (p < n)%nat -> exists x, v' p = Fin x /\ Rabs x <= V) /\
  (forall p, (p < n)%nat -> Rabs (fval (v' p) - (gamma * fval (v p) + lr * fval (g p))) <= velocity_error gamma lr V G /\ Rabs (fval (w' p) - (fval (w p) - fval (v' p))) <= eps32 * (b + V) + tiny32).
Proof.
  intros (SV & SW) (T1 & T2 & T3 & T4) TW FW FG FV.
  assert (K : forall p, (p < n)%nat -> exists x y, v' p = Fin x /\ Rabs x <= V /\ w' p = Fin y /\ Rabs y <= grown (b + V) /\
    Rabs (x - (gamma * fval (v p) + lr * fval (g p))) <= velocity_error gamma lr V G /\ Rabs (y - (fval (w p) - x)) <= eps32 * (b + V) + tiny32).
  { intros p Hp. specialize (SV p Hp). specialize (SW p Hp). destruct (FW p Hp) as (a & Ea & La). destruct (FG p Hp) as (d & Eb & Lb). destruct (FV p Hp) as (c & Ec & Lc).
    destruct SV as (x1 & x2 & (u1 & u2 & -> & U2 & M1) & (u3 & u4 & -> & U4 & M2) & AD). cbn in U2, U4. rewrite Ec in U2. rewrite Eb in U4. subst u2 u4.
    destruct (mul_fin _ _ _ (Rabs gamma * V) M1) as (z1 & -> & _ & Z1 & D1); [rewrite Rabs_mult; apply Rmult_le_compat_l; [apply Rabs_pos|exact Lc]|exact T1|].
    destruct (mul_fin _ _ _ (Rabs lr * G) M2) as (z2 & -> & _ & Z2 & D2); [rewrite Rabs_mult; apply Rmult_le_compat_l; [apply Rabs_pos|exact Lb]|exact T2|].
    assert (B12 : Rabs (z1 + z2) <= grown (Rabs gamma * V) + grown (Rabs lr * G)) by (pose proof (Rabs_triang z1 z2); lra).
    destruct (add_fin _ _ _ _ AD B12 T3) as (x & Ex & _ & X & D3).
    destruct SW as (y1 & y2 & Y1 & Y2 & SU). cbn in Y1, Y2. rewrite Ea in Y1. rewrite Ex in Y2. subst y1 y2.
    assert (B3 : Rabs (a - x) <= b + V) by (pose proof (Rabs_triang a (- x)); rewrite Rabs_Ropp in *; unfold Rminus; lra).
    destruct (sub_fin _ _ _ _ SU B3 TW) as (y & Ey & _ & Y & D4). exists x, y. split; [exact Ex|]. split; [lra|]. split; [exact Ey|]. split; [exact Y|]. rewrite Ea, Eb, Ec. cbn [fval]. split; [|exact D4]. unfold velocity_error.
    replace (x - (gamma * c + lr * d)) with ((z1 - gamma * c) + (z2 - lr * d) + (x - (z1 + z2))) by ring.
    pose proof (Rabs_triang (z1 - gamma * c + (z2 - lr * d)) (x - (z1 + z2))). pose proof (Rabs_triang (z1 - gamma * c) (z2 - lr * d)). lra. }
  split; [|split]; intros p Hp; destruct (K p Hp) as (x & y & E1 & L1 & E2 & L2 & Q1 & Q2); eauto. rewrite E1, E2. cbn [fval]. split; assumption.
Qed.
Lemma miteration_small gamma V l vs batch l' vs' b : settles gamma lr G V -> 0 <= V -> chained n0 m l -> small b l -> slow V l vs -> b <= Wb -> 0 <= b -> grown (b + V) <= top -> forward_room Wb A B l -> no_confident_mistake lib rows m l batch -> backward_room rows Wb B G l ->
  batch_ok rows n0 m A batch -> miteration lib rows m gamma lr l vs batch l' vs' -> small (grown (b + V)) l' /\ slow V l' vs' /\ same_layers l l'.
Proof.
  intros ST V0 CH SM0 SL BW B0 NB RM N30 BR BO (acts & z & prob & grads & FW & SX & LGR & CB & AS). pose proof (small_mono b Wb l BW SM0) as SM.
  destruct (gradients_small l batch acts z prob grads CH SM RM N30 BR BO FW SX LGR CB) as (LA & GB). pose proof (grown_ge (b + V) ltac:(lra)) as TW. assert (TW' : b + V <= top) by lra.
  assert (MS := fun n w g v w' v' H => momentum_small gamma n w g v w' v' b V H ST TW').
  clear - SM0 SL LA LGR AS GB MS. revert acts grads vs l' vs' SL LA LGR AS GB. induction l as [|s t IH]; intros [|a acts] [|g grads] [|v vs] [|s' l'] [|v' vs'] SL LA LGR AS GB; try discriminate; try contradiction; [repeat split; constructor|].
  destruct AS as ((E1 & E2 & E3 & SW & SB) & AS). pose proof (Forall_inv SM0) as (S1 & S2). pose proof (Forall_inv_tail SM0) as SMT. inversion SL as [|? ? ? ? (V1 & V2) SLT]; subst.
  destruct (IH SMT acts grads vs l' vs' SLT ltac:(cbn in LA; lia) ltac:(cbn in LGR; lia) AS) as (I1 & I2 & I3); [intros k q NQ; exact (GB (S k) q NQ)|]. destruct (GB 0%nat _ eq_refl) as (G1 & G2). cbn in G1, G2.
  destruct (MS _ _ _ _ _ _ SW S1 G1 V1) as (A1 & A2 & _). destruct (MS _ _ _ _ _ _ SB S2 G2 V2) as (A3 & A4 & _).
  split; [constructor; [rewrite E1, E2; split; assumption|exact I1]|]. split; [constructor; [rewrite E1, E2; split; assumption|exact I2]|]. unfold same_layers in *; cbn [map]; rewrite E1, E2, E3, I3; reflexivity.
Qed.
Lemma mtraining_small gamma V : settles gamma lr G V -> 0 <= V -> forall batches l vs l' vs' b, chained n0 m l -> small b l -> slow V l vs -> 0 <= b -> drifted b V (length batches) <= Wb -> forward_room Wb A B l -> (forall before batch after l1 vs1, batches = before ++ batch :: after -> mtraining lib rows m gamma lr l vs before l1 vs1 -> no_confident_mistake lib rows m l1 batch) -> backward_room rows Wb B G l ->
  Forall (batch_ok rows n0 m A) batches -> mtraining lib rows m gamma lr l vs batches l' vs' -> small (drifted b V (length batches)) l' /\ slow V l' vs' /\ same_layers l l'.
Proof.
  intros ST V0. induction batches as [|c t IH]; intros l vs l' vs' b CH SM SL B0 BA RM N30 BR BO TR; [destruct TR as (-> & ->); split; [exact SM|]; split; [exact SL|reflexivity]|].
  destruct TR as (l1 & vs1 & IT & TR). cbn [length] in *. rewrite <- drifted_S in *. pose proof (grown_ge (b + V) ltac:(lra)) as TW. pose proof (drifted_mono (grown (b + V)) V 0 (length t) ltac:(lra) V0 ltac:(lia)) as DM. cbn [drifted] in DM.
  destruct (miteration_small gamma V l vs c l1 vs1 b ST V0 CH SM SL ltac:(lra) B0 ltac:(lra) RM (N30 [] c t l vs eq_refl (conj eq_refl eq_refl)) BR (Forall_inv BO) IT) as (S1 & SL1 & E1).
  destruct (IH l1 vs1 l' vs' (grown (b + V)) (same_chained _ _ _ _ E1 CH) S1 SL1 ltac:(lra) BA (same_room _ _ _ _ _ E1 RM) ltac:(intros bf bt af l2 vs2 EQ T2; apply (N30 (c :: bf) bt af l2 vs2); [rewrite EQ; reflexivity|exists l1, vs1; split; [exact IT|exact T2]]) (same_backward _ _ _ _ _ _ E1 BR) (Forall_inv_tail BO) TR) as (S2 & SL2 & E2).
  split; [exact S2|]. split; [exact SL2|]. unfold same_layers in *. congruence.
Qed.

(** With small logits there are no confident mistakes. *)
Lemma training_static batches : forall l l' b, chained n0 m l -> small b l -> 0 <= b -> bound_after lr G b (length batches) <= Wb -> forward_room Wb A B l -> net_out Wb A l <= 30 -> backward_room rows Wb B G l ->
  Forall (batch_ok rows n0 m A) batches -> ftraining lib rows m lr l batches l' -> small (bound_after lr G b (length batches)) l' /\ same_layers l l'.
Proof.
  induction batches as [|c t IH]; intros l l' b CH SM B0 BA RM N30 BR BO TR; [cbn in TR; subst l'; split; [exact SM|reflexivity]|]. destruct TR as (l1 & IT & TR). cbn [length] in *. rewrite iter_next in *.
  pose proof (next_ge b B0) as NG. pose proof (bound_after_ge (length t) (next_bound lr G b) ltac:(lra)) as BG.
  destruct (iteration_small l c l1 b CH SM ltac:(lra) B0 ltac:(lra) RM (small_logits l c CH (small_mono b Wb l ltac:(lra) SM) RM N30 (Forall_inv BO)) BR (Forall_inv BO) IT) as (S1 & E1).
  destruct (IH l1 l' (next_bound lr G b) (same_chained _ _ _ _ E1 CH) S1 ltac:(lra) BA (same_room _ _ _ _ _ E1 RM) ltac:(rewrite <- (same_out _ _ _ _ E1); exact N30) (same_backward _ _ _ _ _ _ E1 BR) (Forall_inv_tail BO) TR) as (S2 & E2).
  split; [exact S2|]. unfold same_layers in *. congruence.
Qed.
Lemma mtraining_static gamma V : settles gamma lr G V -> 0 <= V -> forall batches l vs l' vs' b, chained n0 m l -> small b l -> slow V l vs -> 0 <= b -> drifted b V (length batches) <= Wb -> forward_room Wb A B l -> net_out Wb A l <= 30 -> backward_room rows Wb B G l ->
  Forall (batch_ok rows n0 m A) batches -> mtraining lib rows m gamma lr l vs batches l' vs' -> small (drifted b V (length batches)) l' /\ slow V l' vs' /\ same_layers l l'.
Proof.
  intros ST V0. induction batches as [|c t IH]; intros l vs l' vs' b CH SM SL B0 BA RM N30 BR BO TR; [destruct TR as (-> & ->); split; [exact SM|]; split; [exact SL|reflexivity]|].
  destruct TR as (l1 & vs1 & IT & TR). cbn [length] in *. rewrite <- drifted_S in *. pose proof (grown_ge (b + V) ltac:(lra)) as TW. pose proof (drifted_mono (grown (b + V)) V 0 (length t) ltac:(lra) V0 ltac:(lia)) as DM. cbn [drifted] in DM.
  destruct (miteration_small gamma V l vs c l1 vs1 b ST V0 CH SM SL ltac:(lra) B0 ltac:(lra) RM (small_logits l c CH (small_mono b Wb l ltac:(lra) SM) RM N30 (Forall_inv BO)) BR (Forall_inv BO) IT) as (S1 & SL1 & E1).
  destruct (IH l1 vs1 l' vs' (grown (b + V)) (same_chained _ _ _ _ E1 CH) S1 SL1 ltac:(lra) BA (same_room _ _ _ _ _ E1 RM) ltac:(rewrite <- (same_out _ _ _ _ E1); exact N30) (same_backward _ _ _ _ _ _ E1 BR) (Forall_inv_tail BO) TR) as (S2 & SL2 & E2).
  split; [exact S2|]. split; [exact SL2|]. unfold same_layers in *. congruence.
Qed.

Lemma loss_small lg l batch acts z prob loss : log_ok lg -> chained n0 m l -> small Wb l -> forward_room Wb A B l -> no_confident_mistake lib rows m l batch -> batch_ok rows n0 m A batch ->
  fforward lib rows (fst batch) l acts z -> fsoftmax lib (among [z]) rows m prob -> floss lg rows m prob (snd batch) loss -> exists x, loss = Fin x /\ Rabs x <= 512.
Proof.
  intros LO CH SM RM N30 BO FW SX FL. pose proof (logits_ok l batch acts z CH SM RM BO FW) as ZF. pose proof (N30 acts z FW) as GAP.
  pose proof (softmax_reads lib rows m z (fun p => Fin (fval (z p))) prob ZF SX) as SX'.
  apply (loss_finite lg LO rows m prob (snd batch) loss R0 RL); [|exact FL]. intros i Hi.
  destruct (label_prob lib EO rows m (snd batch) (fun p => fval (z p)) prob R0 RL LM (proj2 BO) SX' u eta EN (proj2 Hu) He GAP i Hi) as (y & E & Fy & Y). exists y. split; [exact E|]. split; [exact Fy|].
  assert (0 < / 2 ^ 124) by (apply Rinv_0_lt_compat, pow_lt; lra). lra.
Qed.
End Train.

(** Weights that are infinite or NaN *)
Lemma sgd_lost lib lr w g p r : lost (w p) -> fev lib (among [w; g]) (sgd_ex lr p) r -> lost r.
Proof. intros L (x & y & X & _ & S). cbn in X. subst x. eapply sub_lost; [left; exact L|exact S]. Qed.
Lemma training_lost lib rows m lr : forall batches l l' k s, ftraining lib rows m lr l batches l' -> nth_error l k = Some s ->
  exists s', nth_error l' k = Some s' /\ l_in s' = l_in s /\ l_out s' = l_out s /\
    (forall p, (p < l_out s * l_in s)%nat -> lost (l_w s p) -> lost (l_w s' p)) /\ (forall p, (p < l_out s)%nat -> lost (l_b s p) -> lost (l_b s' p)).
Proof.
  induction batches as [|b t IH]; intros l l' k s TR NS; [cbn in TR; subst l'; exists s; auto|]. destruct TR as (l1 & (acts & z & prob & grads & _ & _ & LG & _ & AS) & TR).
  assert (K : exists g s1, nth_error l1 k = Some s1 /\ stepped lib lr s g s1).
  { clear - AS NS. revert grads l1 k AS NS. induction l as [|s0 l IH]; intros [|g grads] [|s1 l1] [|k] AS NS; try discriminate; try contradiction; destruct AS as (A1 & A2); cbn in NS; [injection NS as ->; exists g, s1; split; [reflexivity|exact A1]|]. exact (IH grads l1 k A2 NS). }
  destruct K as (g & s1 & N1 & E1 & E2 & _ & SW & SB). destruct (IH l1 l' k s1 TR N1) as (s' & N' & F1 & F2 & P1 & P2). exists s'. split; [exact N'|]. split; [congruence|]. split; [congruence|]. rewrite E1, E2 in *. split; intros p Hp L.
  - apply P1; [exact Hp|]. exact (sgd_lost _ _ _ _ _ _ L (SW p Hp)).
  - apply P2; [exact Hp|]. exact (sgd_lost _ _ _ _ _ _ L (SB p Hp)).
Qed.
Lemma mtraining_lost lib rows m gamma lr : forall batches l vs l' vs' k s v, mtraining lib rows m gamma lr l vs batches l' vs' -> nth_error l k = Some s -> nth_error vs k = Some v ->
  exists s' v', nth_error l' k = Some s' /\ nth_error vs' k = Some v' /\ l_in s' = l_in s /\ l_out s' = l_out s /\
    (forall p, (p < l_out s * l_in s)%nat -> (lost (l_w s p) -> lost (l_w s' p)) /\ (lost (fst v p) -> lost (fst v' p) /\ (batches <> [] -> lost (l_w s' p)))) /\
    (forall p, (p < l_out s)%nat -> (lost (l_b s p) -> lost (l_b s' p)) /\ (lost (snd v p) -> lost (snd v' p) /\ (batches <> [] -> lost (l_b s' p)))).
Proof.
  induction batches as [|b t IH]; intros l vs l' vs' k s v TR NS NV.
  { destruct TR as (-> & ->). exists s, v. repeat split; auto; intros N; destruct N; reflexivity. }
  destruct TR as (l1 & vs1 & (acts & z & prob & grads & _ & _ & LG & _ & AS) & TR).
  assert (K : exists g s1 v1, nth_error l1 k = Some s1 /\ nth_error vs1 k = Some v1 /\ pushed lib gamma lr s g v s1 v1).
  { clear - AS NS NV. revert grads vs l1 vs1 k AS NS NV. induction l as [|s0 l IH]; intros [|g grads] [|v0 vs] [|s1 l1] [|v1 vs1] [|k] AS NS NV; try discriminate; try contradiction; destruct AS as (A1 & A2); cbn in NS, NV;
      [injection NS as ->; injection NV as ->; exists g, s1, v1; split; [reflexivity|split; [reflexivity|exact A1]]|]. exact (IH grads vs l1 vs1 k A2 NS NV). }
  destruct K as (g & s1 & v1 & N1 & N2 & E1 & E2 & _ & SW & SB). destruct (IH l1 vs1 l' vs' k s1 v1 TR N1 N2) as (s' & v' & N' & NV' & F1 & F2 & P1 & P2). exists s', v'. split; [exact N'|]. split; [exact NV'|]. split; [congruence|]. split; [congruence|]. rewrite E1, E2 in *.
  split; intros p Hp; [destruct (P1 p Hp) as (Q1 & Q2); destruct (momentum_lost _ _ _ _ _ _ _ _ _ p Hp SW) as (R1 & R2)|destruct (P2 p Hp) as (Q1 & Q2); destruct (momentum_lost _ _ _ _ _ _ _ _ _ p Hp SB) as (R1 & R2)];
    (split; [intros L; apply Q1, R2; tauto|intros L; split; [apply Q2, R1; tauto|intros _; apply Q1, R2; tauto]]).
Qed.
