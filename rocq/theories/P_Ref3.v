(** Add backward and batch normalisation agree with the reference kernels. *)
From Coq Require Import Reals Lra.
From Verif Require Import Base BaseFacts Sums Deriv M_Im2col S_Im2col M_Kernels M_Conv M_Layers M_Ref.
From Verif Require Import P_Layout P_Kernels S_Grad S_Partial P_Partial P_Vjp1 P_Vjp2 P_Vjp3 P_BN P_BN2 P_BN3 S_BN P_Layers S_Ref P_Ref P_Ref2.
Open Scope R_scope.

Lemma add_backward_agrees E x y o go g0 g1 : length g0 = tot go -> length g1 = tot go ->
  exists r0 r1, ref_add_backward (tdat go) g0 g1 = Ok (r0, r1) /\
  forall gm k0 k1 ko gi0 gi1, ten_ok (tsh go) gi0 -> ten_ok (tsh go) gi1 -> twf go ->
  nth_error gm k0 = Some gi0 -> nth_error gm k1 = Some gi1 -> nth_error gm ko = Some go -> k0 <> ko -> k1 <> ko ->
  exists gm', lbackward E LAdd [x; y] [o] gm [k0; k1] [ko] = Ok (LAdd, gm') /\
    accum gm [k0; k1] (fun p i => (nth p [r0; r1] []).[i]) gm'.
Proof.
  intros H0 H1. exists (tdat go), (tdat go). split.
  - unfold ref_add_backward. unfold tot in *. rewrite !(transform1_ok _ _ _ (length (tdat go))) by (try assumption; reflexivity).
    cbn [bind]. rewrite tab_nth. reflexivity.
  - intros gm k0 k1 ko gi0 gi1 [S0 W0] [S1 W1] Wgo G0 G1 Go N0 N1. unfold twf in *.
    destruct (add_backward_Ok gm k0 k1 ko go gi0 gi1) as (gm' & F & A); try assumption; [unfold tot; congruence|unfold tot; congruence|].
    exists gm'. split.
    + cbn [lbackward at_ nth_error bind]. rewrite (nth_error_rd _ _ _ Go). cbn [bind]. rewrite F. reflexivity.
    + destruct A as [A1 A2]. split; [exact A1|]. intros k g G. destruct (A2 k g G) as (g' & B1 & B2 & B3 & B4).
      exists g'. split; [exact B1|]. split; [exact B2|]. split; [exact B3|]. intros i Hi. rewrite B4 by exact Hi. reflexivity.
Qed.

(** ** The batch normalisation kernels *)
Lemma swap_idx m i j : (j + m * i = i * m + j)%nat.
Proof. lia. Qed.

Lemma bn_forward_agrees tr n m x od cd sd od2 cd2 sd2 rm rv eps alpha ga be :
  (tr = true -> 0 < n)%nat ->
  length x = (n * m)%nat -> length od = (n * m)%nat -> length cd = (n * m)%nat -> length sd = m ->
  length od2 = (n * m)%nat -> length cd2 = (n * m)%nat -> length sd2 = m ->
  length rm = m -> length rv = m -> length ga = m -> length be = m ->
  exists o' c' s' rm' rv',
    ref_bn_forward n m x od2 cd2 sd2 rm rv tr eps alpha ga be = Ok (o', c', s', rm', rv') /\
    bn_forward n m x od cd sd rm rv tr eps alpha ga be = Ok (o', c', s', rm', rv') /\
    length o' = (n * m)%nat /\ length c' = (n * m)%nat /\ length s' = m /\ length rm' = m /\ length rv' = m.
Proof.
  intros Hn Lx Lo Lc Ls Lo2 Lc2 Ls2 Lrm Lrv Lga Lbe.
  assert (HOUT : forall c' s', length c' = (n * m)%nat -> length s' = m ->
    forr n (fun i => forr m (fun j out =>
           c <- rd c' (j + m * i)%nat ;; s <- rd s' j ;; g <- rd ga j ;; b <- rd be j ;;
           wr out (j + m * i)%nat (c / s * g + b))) od2 =
    Ok (grid n m (fun i j => c'.[i * m + j] * (ga.[j] / s'.[j]) + be.[j]))).
  { intros c' s' Lc' Ls'. apply loop2_write; [exact Lo2|]. intros i j d Hi Hj _ _. rewrite swap_idx.
    assert (i * m + j < n * m)%nat by (apply mult_lt; assumption).
    rewrite !rd_R by lia. cbn [bind]. f_equal. unfold Rdiv. ring. }
  unfold ref_bn_forward, bn_forward. rewrite !emap_Ok by lia. cbn [bind].
  replace ((n =? 0)%nat && tr)%bool with false.
  2:{ destruct tr; [|destruct (n =? 0)%nat; reflexivity]. destruct (Nat.eqb_spec n 0); [specialize (Hn eq_refl); lia|reflexivity]. }
  destruct tr.
  - specialize (Hn eq_refl). assert (HN : INR n <> 0) by (apply not_0_INR; lia).
    rewrite ref_bn_train_ok by assumption. cbn [bind]. rewrite HOUT by (rewrite ?grid_length, ?tab_length; reflexivity). cbn [bind].
    rewrite (put2_grid n m _ cd) by exact Lc.
    assert (EM : forall j, rmean_of n m x j = rsum n (fun i => el x m i j) / INR n).
    { intros j. unfold rmean_of, el. unfold Rdiv. rewrite rsum_scal_r. f_equal. apply rsum_ext. intros i _. rewrite swap_idx. reflexivity. }
    assert (EC : grid n m (rcent_of n m x) = grid n m (fun i j => el x m i j - rsum n (fun i0 => el x m i0 j) / INR n)).
    { apply grid_ext. intros i j Hi Hj. unfold rcent_of. rewrite EM, swap_idx. reflexivity. }
    assert (EV : forall j, (j < m)%nat -> rvar_of n m x j =
       rsum n (fun i => el (grid n m (rcent_of n m x)) m i j * el (grid n m (rcent_of n m x)) m i j) / INR n).
    { intros j Hj. unfold rvar_of. unfold Rdiv. rewrite rsum_scal_r. f_equal. apply rsum_ext. intros i Hi. unfold el.
      rewrite grid_nth by assumption. reflexivity. }
    rewrite <- EC. do 5 eexists. split; [reflexivity|]. split; [|rewrite ?grid_length, ?tab_length; auto].
    rewrite !put_full by assumption. rewrite put2_grid by exact Lo.
    assert (ES : tab m (fun j => sqrt (rsum n (fun i => el (grid n m (rcent_of n m x)) m i j * el (grid n m (rcent_of n m x)) m i j) / INR n + eps)) =
                 tab m (fun j => sqrt (rvar_of n m x j + eps))).
    { apply tab_ext. intros j Hj. rewrite EV by exact Hj. reflexivity. }
    rewrite ES. f_equal. repeat match goal with |- (_, _) = (_, _) => apply f_equal2 end; try reflexivity.
    + apply tab_ext. intros j Hj. rewrite EM. reflexivity.
    + apply tab_ext. intros j Hj. rewrite EV by exact Hj. reflexivity.
  - rewrite ref_bn_eval_ok by assumption. cbn [bind]. rewrite HOUT by (rewrite ?grid_length, ?tab_length; reflexivity). cbn [bind].
    rewrite (put2_grid n m _ cd) by exact Lc. rewrite put_full by assumption. rewrite put2_grid by exact Lo.
    assert (EC : grid n m (fun i j => x.[j + m * i] - rm.[j]) = grid n m (fun i j => el x m i j - rm.[j])).
    { apply grid_ext. intros i j Hi Hj. rewrite swap_idx. reflexivity. }
    rewrite EC. do 5 eexists. split; [reflexivity|]. split; [reflexivity|rewrite ?grid_length, ?tab_length; auto].
Qed.

Lemma bn_backward_agrees n m c sd g gi ga gg0 bg0 gg1 bg1 : (0 < n)%nat ->
  length c = (n * m)%nat -> length sd = m -> length g = (n * m)%nat -> length gi = (n * m)%nat -> length ga = m ->
  length gg0 = m -> length bg0 = m -> length gg1 = m -> length bg1 = m ->
  exists r gg bg, ref_bn_backward n m c sd g gi ga gg0 bg0 = Ok (r, gg, bg) /\ length r = (n * m)%nat /\
    (forall gi1, length gi1 = (n * m)%nat -> bn_input_grad n m c sd g gi1 ga = Ok (vplus gi1 r)) /\
    bn_param_grad n m c sd g gg1 bg1 = Ok (gg, bg).
Proof.
  intros Hn Lc Ls Lg Lgi Lga Lgg Lbg Lgg1 Lbg1. assert (HN : INR n <> 0) by (apply not_0_INR; lia).
  do 3 eexists. split; [apply ref_bn_backward_ok; assumption|]. split; [apply grid_length|]. split.
  - intros gi1 Lgi1. unfold bn_input_grad. rewrite !emap_Ok by lia. cbn [bind]. rewrite put2_grid by exact Lgi1.
    rewrite vplus_grid by exact Lgi1. f_equal. apply grid_ext. intros i j Hi Hj. unfold el.
    assert (EG : forall k, r_gxc n m c sd g ga k j = g.[k * m + j] * ga.[j] / sd.[j] +
        c.[k * m + j] * (rsum n (fun i0 => c.[i0 * m + j] * (g.[i0 * m + j] * ga.[j]) / (sd.[j] * sd.[j])) * -1 / (sd.[j] * 2)) * (2 / INR n)).
    { intros k. unfold r_gxc, r_gvar, r_gxn. rewrite swap_idx. 
      rewrite (rsum_ext n (fun i0 => - (g.[j + m * i0] * ga.[j] * c.[j + m * i0] / (sd.[j] * sd.[j])))
                 (fun i0 => c.[i0 * m + j] * (g.[i0 * m + j] * ga.[j]) / (sd.[j] * sd.[j]) * -1)).
      - rewrite rsum_scal_r. rewrite (Rmult_comm (sd.[j]) 2). unfold Rdiv. ring.
      - intros i0 _. rewrite swap_idx. unfold Rdiv. ring. }
    rewrite EG. rewrite (rsum_ext n _ _ (fun k _ => EG k)). reflexivity.
  - unfold bn_param_grad. rewrite !emap_Ok by lia. cbn [bind]. rewrite !put_full by assumption. f_equal. f_equal.
    + apply tab_ext. intros j _. apply rsum_ext. intros i _. unfold el. rewrite swap_idx. reflexivity.
    + apply tab_ext. intros j _. apply rsum_ext. intros i _. unfold el. rewrite swap_idx. reflexivity.
Qed.

(** ** BatchNorm1D *)
Lemma bn1_agrees E eps alpha gamma beta std rmean rvar centered n m x o tr f0 c0 s0 :
  (tr = true -> 0 < n)%nat -> bn1_state m gamma beta std rmean rvar centered -> p_train gamma = tr -> p_train beta = tr ->
  ten_ok [n; m] x -> ten_ok [n; m] o -> length f0 = (n * m)%nat -> length c0 = (n * m)%nat -> length s0 = m ->
  exists y c s rm rv,
    ref_bn_forward n m (tdat x) f0 c0 s0 (tdat rmean) (tdat rvar) tr eps alpha (tdat (p_data gamma)) (tdat (p_data beta)) = Ok (y, c, s, rm, rv) /\
    lforward E (LBN1 eps alpha gamma beta std rmean rvar centered) [x] [o] =
    Ok (LBN1 eps alpha gamma beta (mkT [m] s) (mkT [m] rm) (mkT [m] rv) (mkT [n; m] c), mkT [n; m] y) /\
    length c = (n * m)%nat /\ length s = m.
Proof.
  intros Hn (Pg & Pb & Ts & Tm & Tv & Hbuf) Htg Htb Hx Ho Lf Lc0 Ls0.
  destruct (prm_ok_len _ _ Pg) as [Lg _], (prm_ok_len _ _ Pb) as [Lb _].
  pose proof (ten_ok_len _ _ Ts) as Ls. pose proof (ten_ok_len _ _ Tm) as Lm. pose proof (ten_ok_len _ _ Tv) as Lv.
  pose proof (ten_ok_len _ _ Hx) as Lx. pose proof (ten_ok_len _ _ Ho) as Lo. rewrite prodN1 in *. rewrite prodN2 in *.
  destruct Pg as (Sg & _), Pb as (Sb & _), Ts as [Ss _], Tm as [Sm _], Tv as [Sv _], Hx as [Sx _], Ho as [So _].
  set (cent1 := if nshape_eqb (tsh centered) (tsh x) then centered else fresh E (tsh x)).
  assert (Hc1 : tsh cent1 = [n; m] /\ length (tdat cent1) = (n * m)%nat).
  { unfold cent1. destruct (nshape_eqb (tsh centered) (tsh x)) eqn:Ec.
    - apply nshape_eqb_spec in Ec. rewrite Sx in Ec. split; [exact Ec|].
      destruct Hbuf as [Hb|Hb]; [congruence|]. unfold twf in Hb. rewrite Hb, Ec. apply prodN2.
    - unfold fresh. cbn [tsh tdat]. split; [exact Sx|]. rewrite tab_length, Sx. apply prodN2. }
  destruct Hc1 as [Sc1 Lc1].
  destruct (bn_forward_agrees tr n m (tdat x) (tdat o) (tdat cent1) (tdat std) f0 c0 s0 (tdat rmean) (tdat rvar) eps alpha (tdat (p_data gamma)) (tdat (p_data beta)))
    as (y & c & s & rm & rv & F1 & F2 & L1 & L2 & L3 & L4 & L5); try assumption.
  exists y, c, s, rm, rv. split; [exact F1|]. split; [|auto].
  cbn [lforward]. rewrite validate_rank_Ok by (rewrite ?Sx, ?So; reflexivity). mred. unfold bn1_fwd. fold cent1.
  rewrite Htg, Htb, Bool.eqb_reflx, Bool.andb_diag. mred. rewrite Sx. mred. rewrite So. mred. rewrite Sc1. mred. rewrite Ss. mred. rewrite Sm. mred. rewrite Sv. mred. rewrite Sg. mred. rewrite Sb. mred.
  rewrite !same_refl. mred. rewrite F2. mred. unfold set_dat. rewrite Ss, Sm, Sv, Sc1, So. reflexivity.
Qed.

Lemma bn1_backward_agrees E E2 eps alpha gamma beta std rmean rvar centered n m x o go g0 gg0 bg0 : (0 < n)%nat ->
  prm_ok [m] gamma -> prm_ok [m] beta -> ten_ok [m] std -> ten_ok [n; m] centered -> ten_ok [n; m] go ->
  length g0 = (n * m)%nat -> length gg0 = m -> length bg0 = m ->
  let L := LBN1 eps alpha gamma beta std rmean rvar centered in
  exists r gg bg, ref_bn_backward n m (tdat centered) (tdat std) (tdat go) g0 (tdat (p_data gamma)) gg0 bg0 = Ok (r, gg, bg) /\
    adds_to_gradient E L L [x] [o] go [n; m] r /\
    lupdate E2 L [x] [go] = Ok (LBN1 eps alpha (set_grad gamma gg) (set_grad beta bg) std rmean rvar centered).
Proof.
  intros Hn Pg Pb Ts Tc Hgo Lg0 Lgg0 Lbg0 L.
  destruct (prm_ok_len _ _ Pg) as [Lg Lgg], (prm_ok_len _ _ Pb) as [Lb Lbg].
  pose proof (ten_ok_len _ _ Ts) as Ls. pose proof (ten_ok_len _ _ Tc) as Lc. pose proof (ten_ok_len _ _ Hgo) as Lgo. rewrite prodN1 in *. rewrite prodN2 in *.
  destruct Pg as (Sg & _ & Sgg & _), Pb as (Sb & _ & Sbg & _), Ts as [Ss _], Tc as [Sc _], Hgo as [Sgo _].
  destruct (bn_backward_agrees n m (tdat centered) (tdat std) (tdat go) g0 (tdat (p_data gamma)) gg0 bg0 (tdat (p_grad gamma)) (tdat (p_grad beta)))
    as (r & gg & bg & F1 & _ & F2 & F3); try assumption.
  exists r, gg, bg. split; [exact F1|]. split.
  - intros gm kg ko gi Hgi Gk Go. pose proof (ten_ok_len _ _ Hgi) as Lgi. rewrite prodN2 in Lgi. destruct Hgi as [Sgi _].
    unfold L. cbn [lbackward]. mred. rewrite Sc. mred. rewrite Ss. mred. rewrite Sg. mred. rewrite (nth_error_rd _ _ _ Go). mred. rewrite Sgo. mred.
    erewrite on_grad_Ok; [|exact Gk|].
    2: { mred. rewrite Sgi. mred. rewrite !same_refl. mred. apply F2. exact Lgi. }
    cbn [bind]. unfold set_dat. rewrite Sgi. reflexivity.
  - unfold L. cbn [lupdate]. mred. rewrite Sc. mred. rewrite Ss. mred. rewrite Sgg. mred. rewrite Sbg. mred. rewrite Sgo. mred.
    rewrite !same_refl. mred. rewrite F3. reflexivity.
Qed.

(** ** BatchNorm2D *)
Section BN2.
Variables N C H W : nat.
Let T := (N * C * H * W)%nat.
Let n := (N * H * W)%nat.

Lemma T_n : T = (n * C)%nat.
Proof. unfold T, n. ring. Qed.

(** The same elements in the other order. *)
Lemma roundtrip (c d : list R) : length c = T -> length d = T ->
  exists r, nhwc2nchw N C H W c d = Ok r /\ length r = T /\ forall d2, length d2 = T -> nchw2nhwc N C H W r d2 = Ok c.
Proof.
  intros Lc Ld. eexists. split; [apply nhwc2nchw_tab; assumption|]. split; [apply tab_length|]. intros d2 Ld2.
  rewrite nchw2nhwc_tab by (rewrite ?tab_length; trivial). f_equal. apply (list_ext _ _ 0); [rewrite tab_length; symmetry; exact Lc|].
  intros q Hq. rewrite tab_length in Hq. rewrite nth_tab by exact Hq. rewrite nth_tab by (apply (sig_lt N C H W); exact Hq). rewrite (tau_sig N C H W) by exact Hq. reflexivity.
Qed.

Lemma bn2_agrees E eps alpha gamma beta std rmean rvar centered nin nout x o tr junk f0 c0 s0 :
  (tr = true -> 0 < n)%nat -> bn2_state C gamma beta std rmean rvar ->
  (tot nin = 0 \/ (tot nin = T /\ tot nout = T))%nat -> (tot centered = 0 \/ tot centered = T)%nat ->
  p_train gamma = tr -> p_train beta = tr ->
  ten_ok [N; C; H; W] x -> ten_ok [N; C; H; W] o -> length f0 = T -> length c0 = T -> length s0 = C ->
  exists y c s rm rv cent' nin' nout',
    ref_bn2_forward junk N C H W (tdat x) f0 (tdat (p_data gamma)) (tdat (p_data beta)) (tdat rmean) (tdat rvar) c0 s0 tr alpha eps
      = Ok (y, c, s, rm, rv) /\
    lforward E (LBN2 eps alpha gamma beta std rmean rvar centered nin nout) [x] [o] =
    Ok (LBN2 eps alpha gamma beta (mkT [C] s) (mkT [C] rm) (mkT [C] rv) cent' nin' nout', mkT [N; C; H; W] y) /\
    (forall d, length d = T -> nhwc2nchw N C H W (tdat cent') d = Ok c) /\
    tot cent' = T /\ tot nin' = T /\ tot nout' = T /\ length c = T /\ length s = C.
Proof.
  intros Hn (Pg & Pb & Ts & Tm & Tv) Hb Hcb Htg Htb Hx Ho Lf Lc0 Ls0.
  destruct (prm_ok_len _ _ Pg) as [Lg _], (prm_ok_len _ _ Pb) as [Lb _].
  pose proof (ten_ok_len _ _ Ts) as Ls. pose proof (ten_ok_len _ _ Tm) as Lm. pose proof (ten_ok_len _ _ Tv) as Lv.
  pose proof (ten_ok_len _ _ Hx) as Lx. pose proof (ten_ok_len _ _ Ho) as Lo. rewrite prodN1 in *. rewrite prodN4 in *. fold T in Lx, Lo.
  destruct Ts as [Ss _], Tm as [Sm _], Tv as [Sv _], Hx as [Sx _], Ho as [So _].
  assert (EN : prodN [N; H; W; C] = T) by (rewrite prodN4; unfold T; ring).
  set (bufs := if (tot nin =? 0)%nat then (fresh E [N; H; W; C], fresh E [N; H; W; C]) else (nin, nout)).
  assert (Hbufs : length (tdat (fst bufs)) = T /\ length (tdat (snd bufs)) = T).
  { unfold bufs. destruct (Nat.eqb_spec (tot nin) 0); [unfold fresh; cbn [fst snd tdat]; rewrite tab_length; auto|].
    cbn [fst snd]. destruct Hb as [Hb|Hb]; [contradiction|exact Hb]. }
  set (cent1 := if (tot centered =? 0)%nat then fresh E [(N * H * W)%nat; C] else centered).
  assert (Hc1 : length (tdat cent1) = T).
  { unfold cent1. destruct (Nat.eqb_spec (tot centered) 0); [unfold fresh; cbn [tdat]; rewrite tab_length, prodN2; symmetry; apply T_n|].
    destruct Hcb as [Hb2|Hb2]; [contradiction|exact Hb2]. }
  destruct bufs as [nin1 nout1] eqn:EB. cbn [fst snd] in Hbufs. destruct Hbufs as [Li Lou].
  set (nd := tab T (fun q => (tdat x).[sig C H W q])).
  set (cd := tab T (fun q => c0.[sig C H W q])).
  destruct (bn_forward_agrees tr n C nd (tdat nout1) (tdat cent1) (tdat std) (tab (n * C) junk) cd s0 (tdat rmean) (tdat rvar) eps alpha (tdat (p_data gamma)) (tdat (p_data beta)))
    as (y & c & s & rm & rv & F1 & F2 & L1 & L2 & L3 & L4 & L5); try assumption; try (rewrite <- T_n; assumption); try (unfold nd, cd; rewrite ?tab_length; apply T_n || reflexivity).
  rewrite <- T_n in L1, L2.
  destruct (roundtrip c c0 L2 Lc0) as (cn & Rc & Lcn & _).
  exists (tab T (fun p => y.[tau C H W p])), cn, s, rm, rv, (mkT (tsh cent1) c), (mkT (tsh nin1) nd), (mkT (tsh nout1) y).
  split; [|split; [|split; [|unfold tot; cbn [tdat]; unfold nd; rewrite tab_length; auto]]].
  - unfold ref_bn2_forward. fold n. rewrite nchw2nhwc_tab by (rewrite ?tab_length; try assumption; symmetry; apply T_n). cbn [bind].
    rewrite nchw2nhwc_tab by (rewrite ?tab_length; try assumption; symmetry; apply T_n). cbn [bind]. fold T nd cd. rewrite F1. cbn [bind].
    rewrite Rc. cbn [bind]. rewrite nhwc2nchw_tab by assumption. reflexivity.
  - cbn [lforward]. rewrite validate_rank_Ok by (rewrite ?Sx, ?So; reflexivity). mred. unfold bn2_fwd.
    rewrite Htg, Htb, Bool.eqb_reflx. mred. rewrite Sx. mred. fold bufs. rewrite EB. fold cent1.
    rewrite nchw2nhwc_tab by assumption. mred. fold T nd n. rewrite F2. mred. rewrite So. mred. rewrite nhwc2nchw_tab by assumption. mred.
    unfold set_dat. rewrite Ss, Sm, Sv, So. reflexivity.
  - intros d Ld. cbn [tdat]. rewrite nhwc2nchw_tab by assumption. rewrite nhwc2nchw_tab in Rc by assumption. exact Rc.
Qed.

Lemma bn2_backward_agrees E E2 eps alpha gamma beta std rmean rvar centered nin nout c x o go junk g0 gg0 bg0 : (0 < n)%nat -> (0 < C)%nat ->
  prm_ok [C] gamma -> prm_ok [C] beta -> ten_ok [C] std -> tot centered = T -> tot nin = T -> tot nout = T ->
  (forall d, length d = T -> nhwc2nchw N C H W (tdat centered) d = Ok c) ->
  ten_ok [N; C; H; W] go -> length g0 = T -> length gg0 = C -> length bg0 = C ->
  exists r gg bg nin' nout' nout2, ref_bn2_backward junk N C H W c (tdat std) (tdat go) g0 (tdat (p_data gamma)) gg0 bg0 = Ok (r, gg, bg) /\
    replaces_gradient E (LBN2 eps alpha gamma beta std rmean rvar centered nin nout)
      (LBN2 eps alpha gamma beta std rmean rvar centered nin' nout') [x] [o] go [N; C; H; W] r /\
    lupdate E2 (LBN2 eps alpha gamma beta std rmean rvar centered nin nout) [x] [go] =
      Ok (LBN2 eps alpha (set_grad gamma gg) (set_grad beta bg) std rmean rvar centered nin nout2).
Proof.
  intros Hn HC Pg Pb Ts Tc Ti To Hc Hgo Lg0 Lgg0 Lbg0.
  destruct (prm_ok_len _ _ Pg) as [Lg Lgg], (prm_ok_len _ _ Pb) as [Lb Lbg].
  pose proof (ten_ok_len _ _ Ts) as Ls. pose proof (ten_ok_len _ _ Hgo) as Lgo. rewrite prodN1 in *. rewrite prodN4 in *. fold T in Lgo.
  destruct Ts as [Ss _], Hgo as [Sgo _]. unfold tot in Tc, Ti, To.
  destruct (roundtrip (tdat centered) (tdat centered) Tc Tc) as (c' & Rc & Lc & Hback).
  rewrite (Hc _ Tc) in Rc. injection Rc as <-.
  set (G := tab T (fun q => (tdat go).[sig C H W q])).
  destruct (bn_backward_agrees n C (tdat centered) (tdat std) G (tab (n * C) junk) (tdat (p_data gamma)) gg0 bg0 (tdat (p_grad gamma)) (tdat (p_grad beta)))
    as (r & gg & bg & F1 & Lr & F2 & F3); try assumption; try (rewrite <- T_n; assumption); try (unfold G; rewrite ?tab_length; apply T_n || reflexivity).
  assert (HZ : vplus (tab T (fun _ => 0)) r = r).
  { rewrite (list_tab r T) by (rewrite T_n; exact Lr). rewrite vplus_tab by apply tab_length. apply tab_ext. intros i Hi. rewrite nth_tab by exact Hi. ring. }
  rewrite <- T_n in Lr.
  assert (EC : (C =? 0)%nat = false) by (apply Nat.eqb_neq; lia).
  assert (Ediv : (T / C = n)%nat) by (rewrite T_n; apply Nat.div_mul; lia).
  exists (tab T (fun p => r.[tau C H W p])), gg, bg, (set_dat nin r), (set_dat nout G), (set_dat nout G).
  split; [|split].
  - unfold ref_bn2_backward. fold n. rewrite nchw2nhwc_tab by (rewrite ?tab_length; try assumption; symmetry; apply T_n). cbn [bind].
    rewrite Hback by (rewrite tab_length; symmetry; apply T_n). cbn [bind]. fold T G. rewrite F1. cbn [bind].
    rewrite nhwc2nchw_tab by assumption. reflexivity.
  - intros gm kg ko gi Hgi Gk Go. pose proof (ten_ok_len _ _ Hgi) as Lgi. rewrite prodN4 in Lgi. fold T in Lgi. destruct Hgi as [Sgi _].
    cbn [lbackward]. mred. rewrite (nth_error_rd _ _ _ Go). mred. rewrite Sgo. mred. rewrite EC.
    rewrite nchw2nhwc_tab by assumption. mred. fold T G. unfold tot. rewrite Lgo, Ti, same_refl, Ediv. mred.
    rewrite F2 by (unfold zeros; rewrite tab_length, Ti; apply T_n). mred.
    replace (vplus (zeros (tdat nin)) r) with r by (unfold zeros; rewrite Ti; symmetry; exact HZ).
    erewrite on_grad_Ok; [|exact Gk|].
    2: { mred. rewrite Sgi. mred. rewrite nhwc2nchw_tab by assumption. reflexivity. }
    mred. unfold set_dat at 3. rewrite Sgi. reflexivity.
  - cbn [lupdate]. mred. rewrite Sgo. mred. rewrite EC. rewrite nchw2nhwc_tab by assumption. mred. fold T G. unfold tot. rewrite Lgo, Ediv, F3. reflexivity.
Qed.
End BN2.
