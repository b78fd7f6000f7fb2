(** Backward passes of dense networks in floats: proofs. *)
From Coq Require Import Reals Lra Lia List.
From Verif Require Import Base BaseFacts Sums S_Float M_Im2col M_Conv M_Layers M_Kernels S_Grad S_Act P_Layers P_Layers2 M_Round S_Round P_Kernels P_Float P_Round M_Ieee S_Ieee P_Ieee P_Ieee2 P_Ieee7 P_Ieee9 P_Ieee10 P_Ieee11 P_Ieee12 P_IeeeOpt M_IeeeDense S_IeeeDense.
Import ListNotations.
Open Scope R_scope.

Lemma act_grad_is n a x go gi : length x = n -> length go = n -> length gi = n ->
  elementwise_grad (match a with AReLU => relu_grad | ALeaky alpha => leaky_grad alpha | AELU alpha => elu_grad alpha | ASigmoid => sigmoid_grad end) n x n go n gi =
  Ok (tab n (fun p => ev (arrays [x; go; gi]) (act_grad_ex a p))).
Proof.
  intros L1 L2 L3. unfold elementwise_grad. rewrite !emap_Ok by lia. rewrite !same_refl. cbn [bind]. rewrite put_full by exact L3. destruct a; reflexivity.
Qed.

(** [d * k] for a computed derivative [k] *)
Lemma scaled_close d k h kap F K e dl r : 0 <= F -> Rabs d <= F -> Rabs k <= K -> Rabs (d - h) <= e -> Rabs (k - kap) <= dl -> Rabs kap <= K -> F * K <= top -> fmul (Fin d) (Fin k) r ->
  exists t, r = Fin t /\ Rabs t <= grown (F * K) /\ Rabs (t - kap * h) <= F * dl + K * e + (eps32 * (F * K) + tiny32).
Proof.
  intros F0 DF KK DH KD KP T M. pose proof (Rabs_pos d). pose proof (Rabs_pos k). pose proof (Rabs_pos (d - h)). pose proof (Rabs_pos (k - kap)). pose proof (Rabs_pos kap).
  assert (DK : Rabs (d * k) <= F * K) by (rewrite Rabs_mult; apply Rmult_le_compat; assumption).
  destruct (mul_fin _ _ _ (F * K) M DK T) as (t & -> & _ & TB & TE). exists t. split; [reflexivity|]. split; [exact TB|].
  replace (t - kap * h) with ((t - d * k) + (d * (k - kap) + kap * (d - h))) by ring.
  eapply Rle_trans; [apply Rabs_triang|]. pose proof (Rabs_triang (d * (k - kap)) (kap * (d - h))) as TR. rewrite !Rabs_mult in TR.
  assert (Rabs d * Rabs (k - kap) <= F * dl) by (apply Rmult_le_compat; assumption). assert (Rabs kap * Rabs (d - h) <= K * e) by (apply Rmult_le_compat; assumption). lra.
Qed.

Lemma slope_ge a : 1 <= slope a.
Proof. destruct a; cbn; try lra; apply Rmax_l. Qed.

Lemma dl_ext f g x l : (forall y, f y = g y) -> derivable_pt_lim f x l -> derivable_pt_lim g x l.
Proof. intros E D eps He. destruct (D eps He) as (d & Hd). exists d. intros h H1 H2. rewrite <- !E. exact (Hd h H1 H2). Qed.
Lemma derivative_is a x l : derivable_pt_lim (act_fn a) x l -> derivative a (act_reads a x) = l.
Proof.
  destruct a as [|alpha|alpha|]; cbn [act_fn act_reads derivative]; intros D.
  - pose proof (relu_any x l 1 (dl_ext _ _ x l (fun y => eq_sym (relu_doc y)) D)) as E. unfold relu_grad, ltb in E. destruct (Rlt_dec 0 x); lra.
  - pose proof (leaky_any alpha x l 1 (dl_ext _ _ x l (fun y => eq_sym (leaky_doc alpha y)) D)) as E. unfold leaky_grad, ltb in E. destruct (Rlt_dec x 0); lra.
  - pose proof (elu_any alpha x l 1 (dl_ext _ _ x l (fun y => eq_sym (elu_doc alpha y)) D)) as E. unfold elu_grad, ltb in E. destruct (Rlt_dec x 0); lra.
  - pose proof (sigmoid_any x l 1 (dl_ext _ _ x l (fun y => eq_sym (sigmoid_doc y)) D)) as E. unfold sigmoid_grad in E. rewrite sigmoid_doc in E. lra.
Qed.

Lemma skipn_at {A} (l : list A) : forall k s, nth_error l k = Some s -> skipn k l = s :: skipn (S k) l.
Proof. induction l as [|a l IH]; intros [|k] s N; try discriminate; [injection N as ->; reflexivity|exact (IH k s N)]. Qed.

Section Act.
Variable lib : flt -> flt -> Prop.
Variables u eta : R.
Hypothesis EO : exp_ok lib.
Hypothesis EN : exp_near u eta lib.
Hypothesis U0 : 0 <= u.
Hypothesis H0 : 0 <= eta.

Lemma sigmoid_slope y r : isf y -> 0 <= y <= 1 ->
  fev lib (fun _ _ => Fin y) (EMul (EVar 0 0) (EAdd (EMul (EVar 0 0) (EConst (-1))) (EConst 1))) r ->
  exists k, r = Fin k /\ Rabs k <= 1 /\ Rabs (k - y * (1 - y)) <= 2 * (eps32 + tiny32).
Proof.
  intros Fy Y (a & b & A & (c & d & (i & j & I & J & M1) & D & S) & M2). cbn in A, I, J, D. subst a i j d.
  pose proof top_big as TB. assert (T1 : 1 <= 2 ^ 127) by (apply pow_R1_Rle; lra). pose proof eps32_pos as E0. pose proof tiny32_pos as T0.
  assert (C : c = Fin (- y)).
  { replace (- y) with (y * -1) by ring. destruct M1 as [M1|M1]; [|exact M1]. replace (y * -1) with (- y) in * by ring.
    destruct (rnd_fin (- y) c) as (z & -> & R0 & _); [rewrite Rabs_Ropp, Rabs_right; lra|exact M1|]. f_equal. exact (rounds_self _ _ (isf_opp _ Fy) R0). }
  subst c. destruct (add_fin (- y) 1 b 1 S) as (q & -> & RQ & _ & QE); [rewrite Rabs_right; lra|lra|].
  assert (Q : 0 <= q <= 1) by (split; [apply (rounds_ge _ _ _ RQ isf_0); lra|apply (rounds_le _ _ _ RQ isf_1); lra]).
  assert (YQ : 0 <= y * q <= 1) by (split; [apply Rmult_le_pos; lra|nra]).
  destruct (mul_fin y q r 1 M2) as (k & -> & RK & _ & KE); [rewrite Rabs_right; lra|lra|]. exists k. split; [reflexivity|].
  assert (KB : 0 <= k <= 1) by (split; [apply (roundish_ge _ _ _ RK isf_0); lra|apply (roundish_le _ _ _ RK isf_1); lra]).
  split; [rewrite Rabs_right; lra|]. replace (k - y * (1 - y)) with ((k - y * q) + y * (q - (- y + 1))) by ring. eapply Rle_trans; [apply Rabs_triang|]. rewrite Rabs_mult, (Rabs_right y) by lra.
  assert (y * Rabs (q - (- y + 1)) <= 1 * (eps32 * 1 + tiny32)) by (apply Rmult_le_compat; [lra|apply Rabs_pos|lra|exact QE]). lra.
Qed.

Lemma act_close a (arg gx : nat -> flt) p r d h F e : 0 <= F -> gx p = Fin d -> Rabs d <= F -> Rabs (d - h) <= e -> arg p = Fin (fval (arg p)) ->
  match a with AELU alpha => - 65 <= fval (arg p) /\ 2 * Rabs alpha <= top | ASigmoid => isf (fval (arg p)) /\ 0 <= fval (arg p) <= 1 | _ => True end ->
  grown (F * slope a) <= top -> fev lib (among [arg; gx]) (act_grad_ex a p) r ->
  exists x, r = Fin x /\ Rabs x <= act_size (Some a) F /\ Rabs (x - derivative a (fval (arg p)) * h) <= act_error u eta (Some a) F e.
Proof.
  intros F0 GX DF DH AX OK T (z & t & Z & PT & S). cbn in Z. subst z. pose proof (slope_ge a) as S1. pose proof eps32_pos as E0. pose proof tiny32_pos as T0.
  assert (FS : F <= F * slope a) by nra. pose proof (grown_ge (F * slope a) ltac:(lra)) as GG. pose proof (Rabs_pos (d - h)) as E1.
  assert (K : exists x, t = Fin x /\ Rabs x <= grown (F * slope a) /\ Rabs (x - derivative a (fval (arg p)) * h) <= F * slope_error u eta a + slope a * e + (eps32 * (F * slope a) + tiny32)).
  { set (y := fval (arg p)) in *. clearbody y.
    assert (PASS : forall se, 0 <= se -> Rabs (d - 1 * h) <= F * se + slope a * e + (eps32 * (F * slope a) + tiny32)).
    { intros se SE. rewrite Rmult_1_l. assert (0 <= F * se) by (apply Rmult_le_pos; lra). assert (0 <= eps32 * (F * slope a)) by (apply Rmult_le_pos; lra). assert (1 * e <= slope a * e) by (apply Rmult_le_compat_r; lra). lra. }
    destruct a as [|alpha|alpha|]; cbn [act_part_ex fev] in PT.
    - destruct PT as (i & j & -> & J & PT). cbn in J. subst j. rewrite AX in PT. cbn [flt_ltb] in PT. unfold ltb in PT. cbn [derivative]. destruct (Rlt_dec 0 y).
      + cbn in PT. rewrite GX in PT. exists d. split; [exact PT|]. split; [lra|]. apply PASS. cbn. lra.
      + exists 0. split; [exact PT|]. rewrite Rmult_0_l, Rminus_0_r, Rabs_R0. split; [lra|]. cbn [slope slope_error] in *. assert (0 <= eps32 * (F * 1)) by (apply Rmult_le_pos; lra). lra.
    - destruct PT as (i & j & I & -> & PT). cbn in I. subst i. rewrite AX in PT. cbn [flt_ltb] in PT. unfold ltb in PT. cbn [derivative]. destruct (Rlt_dec y 0).
      + destruct PT as (i & j & I & -> & M). cbn in I. subst i. rewrite GX in M.
        assert (AB : Rabs alpha <= slope (ALeaky alpha)) by apply Rmax_r.
        exact (scaled_close d alpha h alpha F (slope (ALeaky alpha)) e 0 t F0 DF AB DH ltac:(rewrite Rminus_diag_eq, Rabs_R0 by reflexivity; lra) AB ltac:(lra) M).
      + cbn in PT. rewrite GX in PT. exists d. split; [exact PT|]. split; [lra|]. apply PASS. cbn. lra.
    - destruct PT as (i & k & I & (c & b & C & -> & PT) & M). cbn in I, C. subst i c. rewrite AX in PT. cbn [flt_ltb] in PT. unfold ltb in PT. rewrite GX in M. cbn [derivative]. destruct OK as (Y65 & T2).
      pose proof (Rabs_pos alpha) as A0. assert (SE0 : 0 <= slope_error u eta (AELU alpha)) by (cbn; assert (0 <= Rabs alpha * (u + eta)) by (apply Rmult_le_pos; lra); assert (0 <= eps32 * (2 * Rabs alpha)) by (apply Rmult_le_pos; lra); lra).
      destruct (Rlt_dec y 0) as [N|N].
      + destruct PT as (q & c & (q0 & Q0 & LQ) & -> & M2). cbn in Q0. subst q0. rewrite AX in LQ.
        assert (QX : exists w, q = Fin w /\ 0 <= w <= 2 /\ Rabs (w - exp y) <= u + eta).
        { destruct (EN y q) as (w & -> & NW); [apply Rabs_le; lra|exact LQ|]. exists w. split; [reflexivity|]. split.
          - pose proof (EO _ _ LQ) as [(w1 & E & _ & P1 & P2 & _)|(P & _)]; [injection E as <-; split; [lra|apply P2; lra]|lra].
          - unfold near in NW. assert (EX : 0 < exp y <= 1) by (split; [apply exp_pos|left; rewrite <- exp_0; apply exp_increasing; lra]). rewrite (Rabs_right (exp y)) in NW by lra.
            assert (u * exp y <= u * 1) by (apply Rmult_le_compat_l; lra). lra. }
        destruct QX as (w & -> & W & WE). destruct (mul_fin w alpha k (2 * Rabs alpha) M2) as (k0 & -> & _ & KB & KE); [rewrite Rabs_mult, (Rabs_right w) by lra; apply Rmult_le_compat_r; lra|exact T2|].
        assert (KS : Rabs k0 <= slope (AELU alpha)) by (cbn [slope]; eapply Rle_trans; [exact KB|apply Rmax_r]).
        assert (EX : 0 < exp y <= 1) by (split; [apply exp_pos|left; rewrite <- exp_0; apply exp_increasing; lra]).
        assert (PS : Rabs (exp y * alpha) <= slope (AELU alpha)).
        { cbn [slope]. eapply Rle_trans; [|apply Rmax_r]. rewrite Rabs_mult, (Rabs_right (exp y)) by lra. pose proof (grown_ge (2 * Rabs alpha) ltac:(lra)). assert (exp y * Rabs alpha <= 1 * Rabs alpha) by (apply Rmult_le_compat_r; lra). lra. }
        apply (scaled_close d k0 h (exp y * alpha) F (slope (AELU alpha)) e (slope_error u eta (AELU alpha)) t F0 DF KS DH); [|exact PS|lra|exact M].
        replace (k0 - exp y * alpha) with ((k0 - w * alpha) + (w - exp y) * alpha) by ring. eapply Rle_trans; [apply Rabs_triang|]. rewrite Rabs_mult. cbn [slope_error].
        assert (Rabs (w - exp y) * Rabs alpha <= (u + eta) * Rabs alpha) by (apply Rmult_le_compat_r; lra). lra.
      + subst k. refine (scaled_close d 1 h 1 F (slope (AELU alpha)) e (slope_error u eta (AELU alpha)) t F0 DF _ DH _ _ ltac:(lra) M); rewrite ?Rminus_diag_eq, ?Rabs_R0, ?Rabs_R1 by reflexivity; lra.
    - destruct PT as (i & k & I & FK & M). cbn in I. subst i. rewrite GX in M. destruct OK as (Fy & Y).
      assert (FK' : fev lib (fun _ _ => Fin y) (EMul (EVar 0 0) (EAdd (EMul (EVar 0 0) (EConst (-1))) (EConst 1))) k).
      { cbn [fev] in FK |- *. unfold among in FK. cbn [nth] in FK. rewrite AX in FK. exact FK. }
      destruct (sigmoid_slope y k Fy Y FK') as (k0 & -> & KB & KE). cbn [derivative slope slope_error].
      apply (scaled_close d k0 h (y * (1 - y)) F 1 e (2 * (eps32 + tiny32)) t F0 DF KB DH KE); [|cbn [slope] in *; lra|exact M].
      rewrite Rabs_right by nra. nra. }
  destruct K as (x & -> & XB & XE). destruct (add_fin 0 x r (grown (F * slope a)) S) as (q & -> & _ & QB & QE); [rewrite Rplus_0_l; exact XB|exact T|].
  exists q. split; [reflexivity|]. split; [exact QB|]. cbn [act_error]. rewrite Rplus_0_l in QE.
  replace (q - derivative a (fval (arg p)) * h) with ((q - x) + (x - derivative a (fval (arg p)) * h)) by ring. eapply Rle_trans; [apply Rabs_triang|]. lra.
Qed.

Section Layers.
Variables (rows : nat) (B Wb : R).
Hypothesis R0 : (0 < rows)%nat.
Hypothesis B1 : 1 <= B.
Hypothesis W0 : 0 <= Wb.

Lemma act_size_ge a F : 0 <= F -> F <= act_size a F.
Proof.
  intros F0. destruct a as [a|]; cbn [act_size]; [|lra]. pose proof (slope_ge a). assert (F <= F * slope a) by nra. pose proof (grown_ge (F * slope a) ltac:(lra)). pose proof (grown_ge (grown (F * slope a)) ltac:(lra)). lra.
Qed.

Lemma dense_reach l : forall m g h F e, 0 <= F -> (forall p, (p < rows * m)%nat -> exists x, g p = Fin x /\ Rabs x <= F /\ Rabs (x - h p) <= e) ->
  dense_backward lib rows m g l -> Forall (dense_ok rows B Wb) l ->
  (forall k, (k < length l)%nat -> dense_size Wb F l k <= top /\ sum_grown rows (INR rows * grown (dense_size Wb F l k * B)) <= top) ->
  forall k s, nth_error l k = Some s -> exists g', 0 <= dense_size Wb F l k /\
    (forall p, (p < rows * d_out s)%nat -> exists x, g' p = Fin x /\ Rabs x <= dense_size Wb F l k /\ Rabs (x - dense_grad h l k p) <= dense_error u eta Wb F e l k) /\
    dense_backward lib rows (d_out s) g' (skipn k l).
Proof.
  induction l as [|s0 t IH]; intros m g h F e F0 G ST OK TP k s NS; [destruct k; discriminate|].
  pose proof ST as ST0. destruct ST as (SO & S1 & S2 & gx & gz & S5 & S6 & S7). pose proof (Forall_inv OK) as (OX & OW & OA). pose proof (Forall_inv_tail OK) as OT.
  rewrite SO in *. destruct k as [|k].
  - injection NS as <-. cbn [dense_size dense_error dense_grad skipn]. rewrite SO. exists g. split; [exact F0|]. split; [exact G|]. exact ST0.
  - cbn [nth_error] in NS. cbn [dense_size dense_error dense_grad skipn]. rewrite SO.
    assert (LT : (0 < length t)%nat) by (destruct t; [destruct k; discriminate|cbn; lia]).
    set (Q := sum_grown (S m) (INR m * grown (F * Wb))) in *.
    assert (FW : 0 <= grown (F * Wb)) by (pose proof (grown_ge (F * Wb) (Rmult_le_pos _ _ F0 W0)); pose proof (Rmult_le_pos _ _ F0 W0); lra).
    assert (Q0 : 0 <= Q) by (pose proof (sum_grown_le (S m) (INR m * grown (F * Wb)) (Rmult_le_pos _ _ (pos_INR m) FW)); pose proof (Rmult_le_pos _ _ (pos_INR m) FW); unfold Q; lra).
    assert (T1 : act_size (d_act s0) Q <= top).
    { destruct (TP 1%nat ltac:(cbn; lia)) as (T1 & _). cbn [dense_size] in T1. rewrite SO in T1. destruct t; exact T1. }
    pose proof (act_size_ge (d_act s0) Q Q0) as QA.
    refine (IH (d_in s0) gz _ (act_size (d_act s0) Q) (act_error u eta (d_act s0) Q (dot_error m m F e Wb)) _ _ S7 OT _ k s NS).
    + lra.
    + intros p Hp. destruct (input_close lib rows (d_in s0) m R0 g h F e F0 G (d_w s0) Wb p (gx p) W0 OW Hp ltac:(fold Q; lra) (S5 p Hp)) as (d & ED & FD & DB & DE). fold Q in DB.
      destruct (d_act s0) as [a|] eqn:EA.
      * destruct OA as (OA1 & OA2). destruct (OA1 p Hp) as (AX & AY). apply (act_close a (d_arg s0) gx p (gz p) d _ Q (dot_error m m F e Wb) Q0 ED DB DE AX); [destruct a; tauto| |exact (S6 p Hp)].
        cbn [act_size] in T1. pose proof (slope_ge a). assert (Q <= Q * slope a) by nra. pose proof (grown_ge (Q * slope a) ltac:(lra)). pose proof (grown_ge (grown (Q * slope a)) ltac:(lra)). lra.
      * rewrite S6. exists d. split; [exact ED|]. split; [exact DB|]. cbn [act_error]. rewrite Rmult_1_l. exact DE.
    + intros k' Hk'. pose proof (TP (S k') ltac:(cbn; lia)) as TQ. cbn [dense_size] in TQ. rewrite SO in TQ. exact TQ.
Qed.

Lemma dense_close l : forall m g h F e, 0 <= F -> (forall p, (p < rows * m)%nat -> exists x, g p = Fin x /\ Rabs x <= F /\ Rabs (x - h p) <= e) ->
  dense_backward lib rows m g l -> Forall (dense_ok rows B Wb) l ->
  (forall k, (k < length l)%nat -> dense_size Wb F l k <= top /\ sum_grown rows (INR rows * grown (dense_size Wb F l k * B)) <= top) ->
  forall k s, nth_error l k = Some s ->
  let D := sum_grown rows (INR rows * grown (dense_size Wb F l k * B)) in
  let E := dot_error rows (rows - 1) (dense_size Wb F l k) (dense_error u eta Wb F e l k) B in
  (forall p, (p < d_out s * d_in s)%nat -> exists x, d_dw s p = Fin x /\ Rabs x <= D /\
     Rabs (x - rsum rows (fun i => dense_grad h l k (i * d_out s + p / d_in s)%nat * fval (d_x s (i * d_in s + p mod d_in s)%nat))) <= E) /\
  (forall p, (p < d_out s)%nat -> exists x, d_db s p = Fin x /\ Rabs x <= D /\
     Rabs (x - rsum rows (fun i => dense_grad h l k (i * d_out s + p)%nat)) <= E).
Proof.
  intros m g h F e F0 G ST OK TP k s NS D E. destruct (dense_reach l m g h F e F0 G ST OK TP k s NS) as (g' & D0 & G' & BW).
  pose proof (nth_error_In _ _ NS) as IS. rewrite Forall_forall in OK. destruct (OK s IS) as (OX & _). assert (Hk : (k < length l)%nat) by (apply nth_error_Some; congruence). destruct (TP k Hk) as (_ & T1).
  rewrite (skipn_at _ _ _ NS) in BW. destruct BW as (_ & S1 & S2 & _). split.
  - intros p Hp. exact (weight_close lib rows (d_in s) (d_out s) R0 g' _ _ _ D0 G' (d_x s) B p (d_dw s p) ltac:(lra) OX Hp T1 (S1 p Hp)).
  - intros p Hp. exact (bias_close lib rows (d_out s) R0 g' _ _ _ D0 G' (d_x s) B p (d_db s p) B1 Hp T1 (S2 p Hp)).
Qed.

(** *** Saturated units *)
Lemma mul_zero x r : fmul (Fin 0) (Fin x) r -> r = Fin 0.
Proof. cbn. rewrite Rmult_0_l. intros [M|M]; [|exact M]. destruct (rnd_fin 0 r) as (z & -> & Z & _); [rewrite Rabs_R0; pose proof top_big; pose proof (pow_lt 2 127); lra|exact M|]. f_equal. exact (rounds_self _ _ isf_0 Z). Qed.
Lemma mul_zero_r x r : fmul (Fin x) (Fin 0) r -> r = Fin 0.
Proof. intros M. apply (mul_zero x). cbn in *. rewrite Rmult_0_l. rewrite Rmult_0_r in M. exact M. Qed.
Lemma add_fin0 x r : isf x -> Rabs x <= top -> fadd (Fin 0) (Fin x) r -> r = Fin x.
Proof. cbn. rewrite Rplus_0_l. intros I T M. destruct (rnd_fin x r T M) as (z & -> & Z & _). f_equal. exact (rounds_self _ _ I Z). Qed.
Lemma zeros_sum n xs r : (0 < n)%nat -> (forall k, (k < n)%nat -> xs k = Fin 0) -> fsummed (tab n xs) r -> r = Fin 0.
Proof.
  intros N0 X S. pose proof top_big. pose proof (pow_lt 2 127). destruct (fsummed_one n xs r 0 0 N0) as (s & -> & [->|Q]); [rewrite Rabs_R0; lra|auto|auto|exact S|reflexivity|]. f_equal. exact (rounds_self _ _ isf_0 Q).
Qed.

Lemma saturated_zero s gx p r c i d : saturated rows s c -> (c < d_in s)%nat -> (i < rows)%nat -> p = (i * d_in s + c)%nat -> d_arg s p = Fin (fval (d_arg s p)) -> gx p = Fin d ->
  (forall a, d_act s = Some a -> fev lib (among [d_arg s; gx]) (act_grad_ex a p) r) -> r = Fin 0.
Proof.
  unfold saturated. intros SA Hc Hi -> AX GX FE. set (p := (i * d_in s + c)%nat) in *. pose proof top_big as TB. assert (T1 : 1 <= 2 ^ 127) by (apply pow_R1_Rle; lra).
  destruct (d_act s) as [[|alpha|alpha|]|] eqn:EA; try contradiction; destruct (FE _ eq_refl) as (z & t & Z & PT & S); cbn in Z; subst z.
  - destruct PT as (x & y & -> & Y & PT). cbn in Y. subst y. rewrite AX in PT. cbn [flt_ltb] in PT. unfold ltb in PT. pose proof (SA i Hi) as LE. fold p in LE. destruct (Rlt_dec 0 (fval (d_arg s p))); [lra|]. cbn in PT. subst t.
    apply (add_fin0 0 r isf_0); [rewrite Rabs_R0; lra|exact S].
  - assert (TZ : t = Fin 0).
    { destruct PT as (x & k & X & (y & q & Y & (a & b & (a1 & b1 & A1 & BE1 & M0) & BE & AD) & M1) & M2). cbn in X, Y, A1, BE1, BE. subst x y a1 b1 b. rewrite GX in M2. rewrite AX in *.
      pose proof (SA i Hi) as V. fold p in V. destruct V as [V|V]; rewrite V in *.
      - pose proof (mul_zero _ _ M0) as ->. pose proof (add_fin0 1 q isf_1 ltac:(rewrite Rabs_R1; lra) AD) as ->. pose proof (mul_zero _ _ M1) as ->. exact (mul_zero_r _ _ M2).
      - assert (A : a = Fin (-1)).
        { cbn in M0. rewrite Rmult_1_l in M0. destruct M0 as [M0|M0]; [|exact M0]. destruct (rnd_fin (-1) a) as (w & -> & W & _); [rewrite Rabs_left; lra|exact M0|]. f_equal. exact (rounds_self _ _ (isf_opp 1 isf_1) W). }
        subst a. assert (q = Fin 0) as ->.
        { apply (add_fin0 0 q isf_0); [rewrite Rabs_R0; lra|]. cbn in AD |- *. replace (0 + 0) with (-1 + 1) by ring. exact AD. }
        pose proof (mul_zero_r _ _ M1) as ->. exact (mul_zero_r _ _ M2). }
    subst t. apply (add_fin0 0 r isf_0); [rewrite Rabs_R0; lra|exact S].
Qed.

Lemma dense_dead l m g h F e : 0 <= F -> (forall p, (p < rows * m)%nat -> exists x, g p = Fin x /\ Rabs x <= F /\ Rabs (x - h p) <= e) ->
  dense_backward lib rows m g l -> Forall (dense_ok rows B Wb) l ->
  (forall k, (k < length l)%nat -> dense_size Wb F l k <= top /\ sum_grown rows (INR rows * grown (dense_size Wb F l k * B)) <= top) ->
  forall k s t c, nth_error l k = Some s -> nth_error l (S k) = Some t -> (c < d_in s)%nat -> saturated rows s c ->
  d_db t c = Fin 0 /\ forall q, (q < d_in t)%nat -> d_dw t (c * d_in t + q)%nat = Fin 0.
Proof.
  intros F0 G ST OK TP k s t c NS NT Hc SA. destruct (dense_reach l m g h F e F0 G ST OK TP k s NS) as (g' & D0 & G' & BW).
  pose proof OK as OK'. rewrite Forall_forall in OK'. destruct (OK' s (nth_error_In _ _ NS)) as (_ & OW & OA). destruct (OK' t (nth_error_In _ _ NT)) as (OX & _).
  assert (Hk : (S k < length l)%nat) by (apply nth_error_Some; congruence). destruct (TP (S k) Hk) as (T1 & _).
  assert (SZ : dense_size Wb F l (S k) = act_size (d_act s) (sum_grown (S (d_out s)) (INR (d_out s) * grown (dense_size Wb F l k * Wb)))).
  { clear - NS. revert F l NS. induction k as [|k IH]; intros F l NS; destruct l as [|s0 l]; try discriminate; cbn [nth_error] in NS; [injection NS as ->; cbn; destruct l; reflexivity|].
    cbn [dense_size]. rewrite <- (IH _ l NS). reflexivity. }
  rewrite SZ in T1. set (Q := sum_grown _ _) in *.
  assert (FW : 0 <= grown (dense_size Wb F l k * Wb)) by (pose proof (grown_ge (dense_size Wb F l k * Wb) (Rmult_le_pos _ _ D0 W0)); pose proof (Rmult_le_pos _ _ D0 W0); lra).
  assert (Q0 : 0 <= Q) by (pose proof (sum_grown_le (S (d_out s)) (INR (d_out s) * grown (dense_size Wb F l k * Wb)) (Rmult_le_pos _ _ (pos_INR (d_out s)) FW)); pose proof (Rmult_le_pos _ _ (pos_INR (d_out s)) FW); unfold Q; lra).
  pose proof (act_size_ge (d_act s) Q Q0) as QA.
  rewrite (skipn_at _ _ _ NS), (skipn_at _ _ _ NT) in BW. destruct BW as (_ & _ & _ & gx & gz & S5 & S6 & SO & S1 & S2 & _).
  assert (GZ : forall i, (i < rows)%nat -> gz (i * d_in s + c)%nat = Fin 0).
  { intros i Hi. assert (Hp : (i * d_in s + c < rows * d_in s)%nat) by nia.
    destruct (input_close lib rows (d_in s) (d_out s) R0 g' _ _ _ D0 G' (d_w s) Wb _ (gx (i * d_in s + c)%nat) W0 OW Hp ltac:(fold Q; lra) (S5 _ Hp)) as (d & ED & _).
    apply (saturated_zero s gx (i * d_in s + c) _ c i d SA Hc Hi eq_refl); [unfold saturated in SA; destruct (d_act s) as [a|]; [|contradiction]; exact (proj1 (proj1 OA _ Hp))|exact ED|].
    intros a EA. rewrite EA in S6. exact (S6 _ Hp). }
  split.
  - destruct (S2 c Hc) as (xs & X & SU). apply (zeros_sum rows xs _ R0); [|exact SU]. intros i Hi. specialize (X i Hi). cbn in X. rewrite X. apply GZ, Hi.
  - intros q Hq. assert (Hp : (c * d_in t + q < d_in s * d_in t)%nat) by nia. destruct (S1 _ Hp) as (xs & X & SU). apply (zeros_sum rows xs _ R0); [|exact SU]. intros i Hi.
    destruct (X i Hi) as (a & b & A & Bq & M). cbn in A, Bq. rewrite (Nat.div_add_l c (d_in t) q), (Nat.div_small q) in A by lia. rewrite Nat.add_0_r, (GZ i Hi) in A. subst a.
    rewrite (Nat.add_comm (c * d_in t)), Nat.mod_add, (Nat.mod_small q) in Bq by lia. rewrite (proj1 (OX (i * d_in t + q)%nat ltac:(nia))) in Bq. subst b. exact (mul_zero _ _ M).
Qed.
End Layers.
End Act.
