(** Once forward has run, backward runs on any tensors of the right shapes. *)
From Coq Require Import Reals Lra Lia.
From Verif Require Import Base BaseFacts Sums Deriv M_Im2col S_Im2col P_Im2col P_Layout M_Kernels M_Conv M_Layers S_Grad S_Partial S_BN S_Stats P_Kernels P_Conv P_Conv2
  P_Vjp1 P_Vjp2 P_Vjp3 P_VjpConv P_Pool P_Partial P_BN P_BN2 P_BN3 S_Run S_Fit P_Fit P_Load P_Idem S_Primed P_Safe.
Local Open Scope nat_scope.

Lemma fits_primes E L inshs osh xs o L1 out : fits L inshs osh -> Forall2 ten_ok inshs xs -> ten_ok osh o -> fair E ->
  lforward E L xs [o] = Ok (L1, out) -> primed L1 inshs osh /\ ten_ok osh out.
Proof.
  intros F X To FE FW. destruct (fits_output E L inshs osh xs o o F X To To FE) as (r & F1 & _ & TO & FO). rewrite FW in F1. injection F1 as <-. cbn [fst snd] in *.
  split; [|exact TO]. split; [exact FO|]. destruct FE as [AM AE]. destruct (lforward_kind _ _ _ _ _ _ FW) as [K _].
  destruct F; try (destruct L1; cbn in K; try contradiction; exact I); clear K;
    inversion X as [|? x ? xt Tx Xt]; subst; inversion Xt; subst; clear X Xt.
  - destruct (prm_ok_len _ _ H1) as [LW _]. destruct (prm_ok_len _ _ H2) as [Lb _]. rewrite prodN4 in LW. rewrite prodN1 in Lb.
    assert (LW' : length (tdat (p_data W)) = cout * (cin * KH g * KW g)) by (rewrite LW; ring).
    pose proof (conv_fwd_Ok g batch cin h w cout ho wo W b buf H H1 E x o _ _ Tx To LW' Lb) as F1. rewrite !with_data_id in F1.
    cbn [lforward] in FW. rewrite H0 in FW. cbn [bind] in FW. unfold front in FW. cbn [rd nth_error bind] in FW. rewrite F1 in FW. cbn [bind] in FW.
    injection FW as <- _. cbn [caches]. intros ? ? ? ? ? ? ? E1 E2. injection E1 as <- <- <- <-. injection E2 as <- <- <-.
    unfold tot. cbn [tdat]. rewrite tab_length. ring.
  - pose proof (geom_rows g H0) as Hr.
    destruct (maxpool_fwd_same g n c h w ho wo ind buf H H0 H1 E x AM AE Tx) as (bsh & bd & Lbd & FO'). rewrite FO' in FW by apply To.
    injection FW as <- _. cbn [caches]. intros ? ? ? ? E2. injection E2 as <- <- <- <-. cbn [ish idat]. split; [reflexivity|]. rewrite tab_length.
    split; [reflexivity|]. split; [|exact Lbd]. intros p Hp. rewrite nth_tab by exact Hp. apply AM. exact Hr.
  - assert (ST : bn1_state m g b s rm rv c) by (split; [|split; [|split; [|split; [|split]]]]; assumption).
    destruct (bn1_forward E e a g b s rm rv c n m x o (p_train g) (fun _ => H) ST eq_refl H0 Tx To) as (s' & rm' & rv' & c' & t & F & ST' & TC & _).
    rewrite FW in F. injection F as -> _. exact TC.
  - assert (ST : bn2_state C g b s rm rv) by (split; [|split; [|split; [|split]]]; assumption).
    assert (RM : bn2_room (N * C * H * W) c ni no) by (unfold bn2_room; destruct H7 as [->|[-> ->]], H8 as [->| ->]; auto).
    assert (Hn : (0 < N * H * W)%nat) by (destruct N, C, H, W; cbn in *; lia).
    destruct (bn2_forward E e a g b s rm rv c ni no N C H W x o (p_train g) (fun _ => Hn) ST RM eq_refl H1 Tx To)
      as (s' & rm' & rv' & c' & ni' & no' & t & F & ST' & Ki & Ko & Kc & _).
    rewrite FW in F. injection F as -> _. cbn [caches]. rewrite prodN4.
    destruct (Nat.eqb_spec (tot ni) 0), (Nat.eqb_spec (tot c) 0); lia.
Qed.

Lemma primed_backward L inshs osh xs out E2 gm gins kout go :
  primed L inshs osh -> Forall2 ten_ok inshs xs -> ten_ok osh out ->
  grads_ready LReLU inshs osh gm gins kout go ->
  exists L2 L3 gm' c, lupdate E2 L xs [go] = Ok L2 /\ lbackward E2 L2 xs [out] gm gins [kout] = Ok (L3, gm') /\ accum gm gins c gm' /\ primed L3 inshs osh.
Proof.
  intros [F CA] X To GR.
  cut (exists L2 L3 gm' c, lupdate E2 L xs [go] = Ok L2 /\ lbackward E2 L2 xs [out] gm gins [kout] = Ok (L3, gm') /\ accum gm gins c gm' /\ caches L3 inshs osh).
  { intros (L2 & L3 & gm' & c & U & B & A & C). exists L2, L3, gm', c. repeat (split; [assumption|]). split; [|exact C].
    eapply fits_lbackward; [|exact B]. eapply fits_lupdate; [exact F|exact U]. }
  assert (ONE : forall sh, inshs = [sh] -> exists x k gi, xs = [x] /\ gins = [k] /\ ten_ok sh x /\ nth_error gm k = Some gi /\ ten_ok sh gi /\ k <> kout /\ nth_error gm kout = Some go /\ ten_ok osh go).
  { intros sh ->. destruct (ready1 _ _ _ _ _ _ _ GR) as (k & gi & -> & G1 & G2 & G3 & G4 & G5 & G6 & G7 & _).
    inversion X as [|? x ? xt Tx Xt]; subst. inversion Xt; subst. exists x, k, gi. repeat split; try assumption; apply Tx. }
  assert (RUN : forall L2 k, gins = [k] -> lupdate E2 L xs [go] = Ok L2 -> (exists r, lbackward E2 L2 xs [out] gm [k] [kout] = Ok r /\ caches (fst r) inshs osh) ->
    exists L2 L3 gm' c, lupdate E2 L xs [go] = Ok L2 /\ lbackward E2 L2 xs [out] gm gins [kout] = Ok (L3, gm') /\ accum gm gins c gm' /\ caches L3 inshs osh).
  { intros L2 k -> U ([L3 gm'] & B & C). destruct (single_accum _ _ _ _ _ _ _ _ _ B) as (c & A). exists L2, L3, gm', c. auto. }
  destruct F; try (destruct (ONE _ eq_refl) as (x & k & gi & -> & -> & Tx & G1 & Ti & NK & G2 & Tg); clear ONE).
  1-4: destruct Tx as [Sx Wx], Ti as [Si Wi], Tg as [Sg Wg], To as [So Wo];
    eapply RUN; [reflexivity|reflexivity|]; cbn [lbackward]; unfold front, act_backward; cbn [rd nth_error bind]; rewrite (nth_error_rd _ _ _ G2); cbn [bind];
    erewrite on_grad_Ok; [eexists; split; [reflexivity|exact I]|exact G1|]; unfold tot, twf in *;
    replace (length (tdat gi)) with (length (tdat x)) by congruence; replace (length (tdat go)) with (length (tdat x)) by congruence;
    try replace (length (tdat out)) with (length (tdat x)) by congruence;
    apply elementwise_grad_Ok; congruence.
  - pose proof (ten_ok_len _ _ Ti) as Li. pose proof (ten_ok_len _ _ Tg) as Lg. pose proof (ten_ok_len _ _ To) as Lo. rewrite prodN2 in *.
    eapply RUN; [reflexivity|reflexivity|]. cbn [lbackward]. mred. rewrite (nth_error_rd _ _ _ G2). mred.
    rewrite (proj1 To), (proj1 Tg). mred. erewrite on_grad_Ok; [eexists; split; [reflexivity|exact I]|exact G1|]. mred. rewrite (proj1 Ti). mred.
    unfold softmax_input_grad. rewrite !emap_Ok by lia. rewrite !same_refl. reflexivity.
  - pose proof (ten_ok_len _ _ Ti) as Li. pose proof (ten_ok_len _ _ Tg) as Lg. rewrite prodN4 in *.
    eapply RUN; [reflexivity|reflexivity|]. cbn [lbackward]. mred. rewrite (nth_error_rd _ _ _ G2). mred.
    erewrite on_grad_Ok; [eexists; split; [reflexivity|exact I]|exact G1|]. mred. rewrite (proj1 Ti). mred. apply gap_input_grad_Ok; [lia|]. rewrite Li. ring.
  - clear ONE RUN. destruct (ready2 _ _ _ _ _ _ _ _ GR) as (k0 & k1 & g0 & g1 & -> & G0 & G1 & S0 & W0 & S1 & W1 & K0 & K1 & Gk & Sg & Wg). clear GR.
    destruct (add_backward_Ok gm k0 k1 kout go g0 g1 G0 G1 Gk K0 K1) as (gm' & B & A); [unfold tot, twf in *; congruence..|].
    exists LAdd, LAdd, gm', (fun _ i => (tdat go).[i]). split; [reflexivity|]. split; [|split; [exact A|exact I]].
    cbn [lbackward]. unfold at_. cbn [nth_error bind]. rewrite (nth_error_rd _ _ _ Gk). cbn [bind]. rewrite B. reflexivity.
  - destruct (prm_ok_len _ _ H0) as [LW LWg]. destruct (prm_ok_len _ _ H1) as [Lb Lbg]. rewrite prodN2 in *. rewrite prodN1 in *.
    pose proof (ten_ok_len _ _ Tx) as Lx. pose proof (ten_ok_len _ _ Ti) as Li. pose proof (ten_ok_len _ _ Tg) as Lg. rewrite prodN2 in Lg.
    change (prodN (n :: rest)) with (n * prodN rest) in *. pose proof H0 as (W1 & _ & W3 & _). pose proof H1 as (_ & _ & B3 & _).
    destruct Tx as [Sx _], Ti as [Si _], Tg as [Sg _].
    eapply RUN; [reflexivity| |].
    + cbn [lupdate]. mred. rewrite W3. mred. rewrite B3. mred. rewrite Sg. mred. rewrite Sx. cbn [second_shape]. mred.
      unfold linear_weight_grad, linear_bias_grad. rewrite !emap_Ok by lia. rewrite !same_refl. mred. reflexivity.
    + cbn [lbackward set_grad p_data]. mred. rewrite W1. mred. rewrite (nth_error_rd _ _ _ G2). mred. rewrite Sg. mred. rewrite Sx. cbn [second_shape]. mred.
      erewrite on_grad_Ok; [eexists; split; [reflexivity|exact I]|exact G1|]. mred. rewrite Si. mred.
      unfold linear_input_grad. rewrite !emap_Ok by lia. rewrite !same_refl. mred. reflexivity.
  - specialize (CA batch cin h w cout ho wo eq_refl eq_refl). cbn [caches] in CA.
    destruct (prm_ok_len _ _ H1) as [LW LWg]. destruct (prm_ok_len _ _ H2) as [Lb Lbg]. rewrite prodN4 in *. rewrite prodN1 in *.
    pose proof (ten_ok_len _ _ Ti) as Li. pose proof (ten_ok_len _ _ Tg) as Lg. rewrite !prodN4 in *.
    pose proof H1 as (W1 & _ & W3 & _). destruct Ti as [Si _], Tg as [Sg _].
    assert (NZ : negb (tot buf =? 0) = true) by (rewrite CA; destruct (Nat.eqb_spec (batch * (cin * KH g * KW g) * (ho * wo)) 0); [lia|reflexivity]).
    eapply RUN; [reflexivity| |].
    + cbn [lupdate]. rewrite NZ. mred. cbn [dw_assert bind]. rewrite Sg. mred. rewrite W3. mred.
      rewrite (conv_weights_grad_tab g batch cin h w cout ho wo); [|rewrite Lg; ring|fold (tot buf); rewrite CA; ring|rewrite LWg; ring].
      cbn [bind]. rewrite (conv_bias_grad_tab batch cin h w cout ho wo); [|rewrite Lg; ring|exact Lbg]. cbn [bind]. reflexivity.
    + cbn [lbackward]. rewrite NZ. cbn [dw_assert bind]. mred. rewrite (nth_error_rd _ _ _ G2). mred. rewrite Sg. mred.
      erewrite on_grad_Ok; [eexists; split; [reflexivity|]|exact G1|].
      * cbn [fst caches]. intros ? ? ? ? ? ? ? E1 E2'. injection E1 as <- <- <- <-. injection E2' as <- <- <-. exact CA.
      * mred. rewrite Si. mred. unfold cd_rows, cd_cols. cbn [cd_cin cd_ho cd_wo set_grad p_data].
        apply (conv_input_grad_tab g batch cin h w cout ho wo H); [rewrite Lg; ring|rewrite LW; ring|rewrite Li; ring].
  - destruct (CA n c ho wo eq_refl) as (C1 & C2 & C3 & C4). pose proof (geom_rows g H0) as Hr.
    eapply RUN; [reflexivity|reflexivity|]. cbn [lbackward]. mred. rewrite (nth_error_rd _ _ _ G2). mred. rewrite (proj1 Tg), C1, nshape_eqb_refl. cbn [dw_assert bind].
    rewrite (nth_error_rd _ _ _ G1). mred. rewrite (proj1 Ti). mred.
    destruct (maxpool_input_grad_tab g (n * c) h w ho wo (e_amax E2) H Hr (tdat go) (idat ind) (tdat buf) (tdat gi)) as (bd2 & E0 & L2).
    + rewrite (ten_ok_len _ _ Tg), prodN4. ring.
    + exact C2.
    + exact C3.
    + exact C4.
    + rewrite (ten_ok_len _ _ Ti), prodN4. ring.
    + rewrite E0. eexists. split; [reflexivity|]. cbn [fst caches]. intros ? ? ? ? E1. injection E1 as <- <- <- <-. repeat (split; [assumption|]). exact L2.
  - destruct Tx as [Sx Wx], Ti as [Si Wi], Tg as [Sg Wg]. destruct H as (M1 & M2 & _).
    unfold tot, twf in *. eapply RUN; [reflexivity|reflexivity|]. cbn [lbackward]. mred. rewrite (nth_error_rd _ _ _ G2). mred.
    erewrite on_grad_Ok; [eexists; split; [reflexivity|exact I]|exact G1|]. unfold dropout_input_grad.
    replace (length (tdat (p_data mask))) with (prodN sh) by congruence. replace (length (tdat go)) with (prodN sh) by congruence. replace (length (tdat gi)) with (prodN sh) by congruence.
    rewrite !same_refl. reflexivity.
  - cbn [caches] in CA.
    destruct (prm_ok_len _ _ H1) as [Lg Lgg]. destruct (prm_ok_len _ _ H2) as [Lb Lbg].
    pose proof (ten_ok_len _ _ Ti) as Lgi. pose proof (ten_ok_len _ _ Tg) as Lgo.
    pose proof (ten_ok_len _ _ H3) as Ls. pose proof (ten_ok_len _ _ CA) as Lc. rewrite prodN1 in *. rewrite prodN2 in *.
    destruct (bn_input_grad_columns n m (tdat c) (tdat s) (tdat go) (tdat gi) (tdat (p_data g)) H) as (gi' & Eg & _); try lia.
    pose proof CA as [Sc _]. destruct H3 as [Ss _], Ti as [Si Wi], Tg as [Sg Wg]. destruct H1 as (Pg1 & Pg2 & Pg3 & Pg4). destruct H2 as (Pb1 & Pb2 & Pb3 & Pb4).
    eapply RUN; [reflexivity| |].
    + cbn [lupdate]. mred. rewrite Sc. mred. rewrite Ss. mred. rewrite Pg3. mred. rewrite Pb3. mred. rewrite Sg. mred.
      rewrite !same_refl. mred. unfold bn_param_grad. rewrite !emap_Ok by lia. mred. reflexivity.
    + cbn [lbackward]. mred. rewrite Sc. mred. rewrite Ss. mred. rewrite Pg1. mred. rewrite (nth_error_rd _ _ _ G2). mred. rewrite Sg. mred.
      erewrite on_grad_Ok; [eexists; split; [reflexivity|exact CA]|exact G1|]. mred. rewrite Si. mred. rewrite !same_refl. mred. exact Eg.
  - cbn [caches] in CA. destruct CA as (Kc & Ki & Ko). unfold tot in *.
    assert (ET : (N * C * H * W = N * H * W * C)%nat) by ring.
    assert (HC : (0 < C)%nat) by (destruct C; lia).
    assert (Hn : (0 < N * H * W)%nat) by (destruct (N * H * W)%nat; lia).
    destruct (prm_ok_len _ _ H2) as [Lg Lgg]. destruct (prm_ok_len _ _ H3) as [Lb Lbg].
    pose proof (ten_ok_len _ _ Ti) as Lgi. pose proof (ten_ok_len _ _ Tg) as Lgo.
    pose proof (ten_ok_len _ _ H4) as Ls. rewrite prodN1 in *. rewrite prodN4 in *.
    assert (Ediv : (N * C * H * W / C = N * H * W)%nat) by (rewrite ET; apply Nat.div_mul; lia).
    assert (EC : (C =? 0)%nat = false) by (apply Nat.eqb_neq; lia).
    destruct (nchw2nhwc_gen N C H W (tdat go) (tdat no) 0%R) as (nd & End & Lnd & _ & Vnd); [lia|lia|].
    destruct (nchw2nhwc_gen N C H W (tdat go) nd 0%R) as (nd2 & End2 & Lnd2 & _ & Vnd2); [lia|lia|].
    assert (Lz : length (zeros (tdat ni)) = (N * C * H * W)%nat) by (unfold zeros; rewrite tab_length; exact Ki).
    destruct (bn_input_grad_columns (N * H * W) C (tdat c) (tdat s) nd2 (zeros (tdat ni)) (tdat (p_data g)) Hn)
      as (gd & Eg & Lgd & Cg); try lia.
    destruct (nhwc2nchw_gen N C H W gd (tdat gi) 0%R) as (gi' & Egi & Lgi' & _ & Vgi); [lia|lia|].
    destruct Ti as [Sgi Wgi], Tg as [Sgo Wgo].
    eapply RUN; [reflexivity| |].
    + cbn [lupdate]. mred. rewrite Sgo. mred. rewrite EC, End. cbn [bind].
      unfold tot. rewrite Lgo, Ediv. unfold bn_param_grad. rewrite !emap_Ok by lia. mred. reflexivity.
    + cbn [lbackward]. mred. rewrite (nth_error_rd _ _ _ G2). mred. rewrite Sgo. mred. rewrite EC. cbn [set_dat tdat]. rewrite End2. cbn [bind].
      unfold tot. rewrite Lgo, Ki, Ediv, same_refl. cbn [bind set_grad p_data]. rewrite Eg. cbn [bind].
      erewrite on_grad_Ok; [eexists; split; [reflexivity|]|exact G1|].
      * cbn [fst caches set_dat tdat]. rewrite prodN4. unfold tot, set_dat. cbn [tdat]. lia.
      * mred. rewrite Sgi. mred. exact Egi.
Qed.
