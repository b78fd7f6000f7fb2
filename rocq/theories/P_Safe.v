(** A layer whose state fits keeps fitting, and its backward pass runs after its forward pass. *)
From Coq Require Import Reals Lra Lia.
From Verif Require Import Base BaseFacts Sums Deriv M_Im2col S_Im2col P_Im2col P_Layout M_Kernels M_Conv M_Layers S_Grad S_Partial S_BN S_Stats P_Kernels P_Conv P_Conv2
  P_Vjp1 P_Vjp2 P_Vjp3 P_VjpConv P_Pool P_Partial P_BN P_BN2 P_BN3 S_Run S_Fit P_Fit P_Load P_Idem.
Local Open Scope nat_scope.

Lemma Forall2_length' {A B} (P : A -> B -> Prop) l1 l2 : Forall2 P l1 l2 -> length l1 = length l2.
Proof. induction 1; cbn; congruence. Qed.
Lemma Forall2_at {A B} (P : A -> B -> Prop) l1 l2 : Forall2 P l1 l2 -> forall i a, nth_error l1 i = Some a -> exists b, nth_error l2 i = Some b /\ P a b.
Proof. induction 1; intros [|i] a Ha; try discriminate; cbn in *; [injection Ha as ->; eauto|eauto]. Qed.

Lemma set_grad_ok sh p d : prm_ok sh p -> length d = tot (p_grad p) -> prm_ok sh (set_grad p d).
Proof.
  intros (A & B & C & D) H. unfold prm_ok, set_grad, set_dat, twf, tot in *. cbn [p_data p_grad tsh tdat]. repeat split; congruence.
Qed.

Lemma put2_len r c f d u : emap (r * c) d = Ok u -> length (put2 r c f d) = length d.
Proof. apply put_len. Qed.

Lemma conv_weights_len batch co rows cols go buf d d' : conv_weights_grad batch co rows cols go buf d = Ok d' -> length d' = length d.
Proof.
  intros H. unfold conv_weights_grad in H. inv_ok H. apply emap_inv in E.
  apply (forr_pres (fun s => length s = length d)) in H; [exact H|unfold zeros; apply tab_length|].
  intros i s s' HS Ls. inv_ok HS. injection HS as <-. rewrite put2_length; lia.
Qed.
Lemma conv_bias_len batch co cols go d d' : conv_bias_grad batch co cols go d = Ok d' -> length d' = length d.
Proof.
  intros H. unfold conv_bias_grad in H. inv_ok H. apply emap_inv in E.
  apply (forr_pres (fun s => length s = length d)) in H; [exact H|unfold zeros; apply tab_length|].
  intros i s s' HS Ls. inv_ok HS. injection HS as <-. rewrite put_length; lia.
Qed.
Lemma bn_param_len n m c s go d1 d2 d1' d2' : bn_param_grad n m c s go d1 d2 = Ok (d1', d2') -> length d1' = length d1 /\ length d2' = length d2.
Proof.
  unfold bn_param_grad. intros H. inv_ok H. injection H as <- <-.
  repeat match goal with X : emap _ _ = Ok _ |- _ => apply emap_inv in X end. rewrite !put_length by assumption. split; reflexivity.
Qed.
Lemma bn_input_len n m c s go gi ga d : bn_input_grad n m c s go gi ga = Ok d -> length d = length gi.
Proof. unfold bn_input_grad. intros H. inv_ok H. injection H as <-. eapply put2_len. eassumption. Qed.
Lemma nchw_len N C H W (src d d' : list R) : nchw2nhwc N C H W src d = Ok d' -> length d' = length d.
Proof. intros X. apply nchw_twice in X. apply X. Qed.

Lemma fits_lupdate E L inshs osh xs gos L' : fits L inshs osh -> lupdate E L xs gos = Ok L' -> fits L' inshs osh.
Proof.
  intros F H. destruct F; cbn [lupdate] in H; try (injection H as <-; constructor; assumption).
  - inv_ok H. injection H as <-.
    match goal with X : linear_weight_grad _ _ _ _ _ _ _ _ _ = Ok _ |- _ => unfold linear_weight_grad in X; inv_ok X; injection X as <- end.
    match goal with X : linear_bias_grad _ _ _ _ _ = Ok _ |- _ => unfold linear_bias_grad in X; inv_ok X; injection X as <- end.
    constructor; [assumption|apply set_grad_ok; [assumption|]|apply set_grad_ok; [assumption|]];
      [eapply put2_len; eassumption|eapply put_len; eassumption].
  - inv_ok H. injection H as <-. apply fit_conv; try assumption; apply set_grad_ok; try assumption;
      [eapply conv_weights_len; eassumption|eapply conv_bias_len; eassumption].
  - inv_ok H. injection H as <-. match goal with X : bn_param_grad _ _ _ _ _ _ _ = Ok _ |- _ => apply bn_param_len in X; destruct X end.
    constructor; try assumption; apply set_grad_ok; assumption.
  - inv_ok H. injection H as <-. match goal with X : bn_param_grad _ _ _ _ _ _ _ = Ok _ |- _ => apply bn_param_len in X; destruct X end.
    match goal with X : nchw2nhwc _ _ _ _ _ _ = Ok _ |- _ => apply nchw_len in X; rename X into LN end.
    constructor; try assumption; try (apply set_grad_ok; assumption). unfold tot, set_dat in *. cbn [tdat]. rewrite LN. assumption.
Qed.

Lemma fits_lbackward E L inshs osh xs os gm gi go L' gm' : fits L inshs osh -> lbackward E L xs os gm gi go = Ok (L', gm') -> fits L' inshs osh.
Proof.
  intros F H. destruct F; cbn [lbackward] in H; inv_ok H; repeat match goal with p : (_ * _)%type |- _ => destruct p end; inv_ok H; injection H as <- _; try (constructor; assumption).
  match goal with X : nchw2nhwc _ _ _ _ _ _ = Ok _ |- _ => apply nchw_len in X; rename X into LN end.
  match goal with X : bn_input_grad _ _ _ _ _ _ _ = Ok _ |- _ => apply bn_input_len in X; rename X into LG end.
  constructor; try assumption. unfold tot, set_dat in *. cbn [tdat]. rewrite LN, LG. unfold zeros. rewrite tab_length. assumption.
Qed.

(** The contribution of a call that writes one gradient tensor only. *)
Lemma framed_accum gm gm' k : framed gm gm' [k] -> exists c, accum gm [k] c gm'.
Proof.
  intros [SD FR]. exists (fun _ i => ((tdat (nth k gm' empty_ten)).[i] - (tdat (nth k gm empty_ten)).[i])%R). unfold accum.
  split; [symmetry; eapply Forall2_length'; exact SD|]. intros j g Hg.
  destruct (Forall2_at _ _ _ SD j g Hg) as (g' & Hg' & S' & T'). exists g'. split; [exact Hg'|]. split; [exact S'|]. split; [exact T'|].
  intros i Hi. cbn [length rsum nth]. destruct (Nat.eqb_spec k j) as [->|NE].
  - rewrite (nth_error_nth _ _ empty_ten Hg), (nth_error_nth _ _ empty_ten Hg'). ring.
  - rewrite FR in Hg' by (intros [X|[]]; congruence). replace g' with g by congruence. ring.
Qed.

Lemma single_accum E L xs os gm k ko L3 gm' : lbackward E L xs os gm [k] [ko] = Ok (L3, gm') -> exists c, accum gm [k] c gm'.
Proof.
  intros H. apply framed_accum. pose proof (lbackward_framed _ _ _ _ _ _ _ _ _ H) as F. destruct L; exact F.
Qed.

(** Constant curves give what the gradient lemmas say about running. *)
Lemma vjp_runs E L inshs osh xs o L1 out E2 gm gins kout go :
  right_gradients E L xs inshs osh -> Forall2 ten_ok inshs xs -> ten_ok osh o -> lforward E L xs [o] = Ok (L1, out) ->
  grads_ready L inshs osh gm gins kout go ->
  exists L2 L3 gm' c, lupdate E2 L1 xs [go] = Ok L2 /\ lbackward E2 L2 xs [out] gm gins [kout] = Ok (L3, gm') /\ accum gm gins c gm'.
Proof.
  intros RG X To F GR.
  destruct (RG (fun _ => pvals L) (fun _ => xs) eq_refl eq_refl (fun _ _ => 0%R) (fun _ _ => 0%R)) as (O & L' & dO & FW & _ & B).
  - apply pcurve_const.
  - split; [intros _; symmetry; eapply Forall2_length'; exact X|]. intros p Hp. split.
    + intros _. destruct (Forall2_at _ _ _ X p (nth p inshs [])) as (x & Hx & T); [apply List.nth_error_nth'; exact Hp|]. rewrite (nth_error_nth _ _ empty_ten Hx). exact T.
    + intros i _. apply dl_const.
  - specialize (FW 0%R o (proj1 To) (proj2 To)). rewrite with_params_id in FW. rewrite F in FW. injection FW as E1 E0.
    destruct (B E2 gm gins kout go GR) as (L2 & L3 & gm' & c & U & W & A & _). rewrite <- E1 in U. rewrite <- E0 in W. eauto 8.
Qed.

Lemma run_one E2 L1 L2 xs out gm k kout go : lupdate E2 L1 xs [go] = Ok L2 -> (exists r, lbackward E2 L2 xs [out] gm [k] [kout] = Ok r) ->
  exists L2 L3 gm' c, lupdate E2 L1 xs [go] = Ok L2 /\ lbackward E2 L2 xs [out] gm [k] [kout] = Ok (L3, gm') /\ accum gm [k] c gm'.
Proof. intros U ([L3 gm'] & B). destruct (single_accum _ _ _ _ _ _ _ _ _ B) as (c & A). exists L2, L3, gm', c. auto. Qed.

Lemma fits_backward E L inshs osh xs o L1 out E2 gm gins kout go :
  fits L inshs osh -> Forall2 ten_ok inshs xs -> fair E -> ten_ok osh o -> lforward E L xs [o] = Ok (L1, out) ->
  grads_ready LReLU inshs osh gm gins kout go ->
  exists L2 L3 gm' c, lupdate E2 L1 xs [go] = Ok L2 /\ lbackward E2 L2 xs [out] gm gins [kout] = Ok (L3, gm') /\ accum gm gins c gm'.
Proof.
  intros F X FE To FW GR.
  assert (SM : smooth E L xs osh -> overwrites L = false -> exists L2 L3 gm' c, lupdate E2 L1 xs [go] = Ok L2 /\ lbackward E2 L2 xs [out] gm gins [kout] = Ok (L3, gm') /\ accum gm gins c gm').
  { intros SM OV. eapply vjp_runs; try eassumption; [apply fits_gradients; assumption|].
    destruct GR as (G1 & G2 & G3 & G4 & G5 & G6). repeat (split; [assumption|]). rewrite OV. exact G6. }
  assert (ONE : forall sh, inshs = [sh] -> exists x k gi, xs = [x] /\ gins = [k] /\ ten_ok sh x /\ nth_error gm k = Some gi /\ ten_ok sh gi /\ k <> kout /\ nth_error gm kout = Some go /\ ten_ok osh go).
  { intros sh ->. destruct (ready1 _ _ _ _ _ _ _ GR) as (k & gi & -> & G1 & G2 & G3 & G4 & G5 & G6 & G7 & _).
    inversion X as [|? x ? xt Tx Xt]; subst. inversion Xt; subst. exists x, k, gi. repeat split; try assumption; apply Tx. }
  destruct FE as [AM AE]. destruct F; try (apply SM; [exact I|reflexivity]).
  1-3: destruct (ONE _ eq_refl) as (x & k & gi & -> & -> & [Sx Wx] & G1 & [Si Wi] & NK & G2 & [Sg Wg]); clear SM ONE; destruct To as [So Wo];
    cbn [lforward] in FW; rewrite act_forward_Ok in FW by congruence; injection FW as <- <-;
    eapply run_one; [reflexivity|]; cbn [lbackward]; unfold front, act_backward; cbn [rd nth_error bind]; rewrite (nth_error_rd _ _ _ G2); cbn [bind];
    erewrite on_grad_Ok; [eexists; reflexivity|exact G1|]; unfold tot, twf in *;
    replace (length (tdat gi)) with (length (tdat x)) by congruence; replace (length (tdat go)) with (length (tdat x)) by congruence;
    apply elementwise_grad_Ok; congruence.
  - destruct (ONE _ eq_refl) as (x & k & gi & -> & -> & Tx & G1 & Ti & NK & G2 & Tg). clear SM ONE.
    pose proof (geom_rows g H0) as Hr.
    destruct (maxpool_fwd_same g n c h w ho wo ind buf H H0 H1 E x AM AE Tx) as (bsh & bd & Lbd & FO). rewrite FO in FW by apply To. injection FW as <- _.
    eapply run_one; [reflexivity|]. cbn [lbackward]. mred. rewrite (nth_error_rd _ _ _ G2). mred. rewrite (proj1 Tg). cbn [ish]. rewrite nshape_eqb_refl. cbn [dw_assert bind].
    rewrite (nth_error_rd _ _ _ G1). mred. rewrite (proj1 Ti). mred. cbn [idat].
    match goal with |- context [maxpool_input_grad _ _ _ _ _ _ _ ?t _ _] =>
    destruct (maxpool_input_grad_tab g (n * c) h w ho wo (e_amax E) H Hr (tdat go) t bd (tdat gi)) as (bd2 & E0 & L2) end.
    + rewrite (ten_ok_len _ _ Tg), prodN4. ring.
    + apply tab_length.
    + intros p Hp. rewrite nth_tab by exact Hp. apply AM. exact Hr.
    + exact Lbd.
    + rewrite (ten_ok_len _ _ Ti), prodN4. ring.
    + cbn [tdat]. rewrite E0. eexists. reflexivity.
  - destruct (ONE _ eq_refl) as (x & k & gi & -> & -> & [Sx Wx] & G1 & [Si Wi] & NK & G2 & [Sg Wg]). clear SM ONE.
    assert (LM : exists mask', L1 = LDropout p mask' /\ tot (p_data mask') = prodN sh).
    { destruct (fits_output E (LDropout p mask) [sh] sh [x] o o) as (r & F1 & _ & _ & F2); try assumption; [constructor; assumption|split; assumption|].
      rewrite FW in F1. injection F1 as <-. cbn [fst] in F2. destruct (lforward_kind _ _ _ _ _ _ FW) as [K _]. destruct L1; cbn in K; try contradiction. subst.
      inversion F2 as [ | | | | | | | | | | ? ? ? PM | | ]; subst. eexists. split; [reflexivity|]. destruct PM as (A & B & _). unfold tot, twf in *. congruence. }
    destruct LM as (mask' & -> & TM). unfold tot, twf in *. eapply run_one; [reflexivity|]. cbn [lbackward]. mred. rewrite (nth_error_rd _ _ _ G2). mred.
    erewrite on_grad_Ok; [eexists; reflexivity|exact G1|]. unfold dropout_input_grad. replace (length (tdat go)) with (prodN sh) by congruence. replace (length (tdat gi)) with (prodN sh) by congruence.
    rewrite TM, !same_refl. reflexivity.
  - destruct (ONE _ eq_refl) as (x & k & gi & -> & -> & Tx & G1 & Ti & NK & G2 & Tg). clear SM ONE.
    assert (ST : bn1_state m g b s rm rv c) by (split; [|split; [|split; [|split; [|split]]]]; assumption).
    destruct (bn1_forward E e a g b s rm rv c n m x o (p_train g) (fun _ => H) ST eq_refl H0 Tx To) as (s' & rm' & rv' & c' & t & F & ST' & TC & _).
    rewrite FW in F. injection F as -> ->. destruct ST' as (Pg & Pb & Ts & Tm & Tv & Wc).
    destruct (prm_ok_len _ _ Pg) as [Lg Lgg]. destruct (prm_ok_len _ _ Pb) as [Lb Lbg].
    pose proof (ten_ok_len _ _ Ti) as Lgi. pose proof (ten_ok_len _ _ Tg) as Lgo.
    pose proof (ten_ok_len _ _ Ts) as Ls. pose proof (ten_ok_len _ _ TC) as Lc. rewrite prodN1 in *. rewrite prodN2 in *.
    destruct (bn_input_grad_columns n m (tdat c') (tdat s') (tdat go) (tdat gi) (tdat (p_data g)) H) as (gi' & Eg & _); try lia.
    destruct TC as [Sc _], Ts as [Ss _], Ti as [Si Wi], Tg as [Sg Wg]. destruct Pg as (Pg1 & Pg2 & Pg3 & Pg4). destruct Pb as (Pb1 & Pb2 & Pb3 & Pb4).
    eapply run_one.
    + cbn [lupdate]. mred. rewrite Sc. mred. rewrite Ss. mred. rewrite Pg3. mred. rewrite Pb3. mred. rewrite Sg. mred.
      rewrite !same_refl. mred. unfold bn_param_grad. rewrite !emap_Ok by lia. mred. reflexivity.
    + cbn [lbackward]. mred. rewrite Sc. mred. rewrite Ss. mred. rewrite Pg1. mred. rewrite (nth_error_rd _ _ _ G2). mred. rewrite Sg. mred.
      erewrite on_grad_Ok; [eexists; reflexivity|exact G1|]. mred. rewrite Si. mred. rewrite !same_refl. mred. exact Eg.
  - destruct (ONE _ eq_refl) as (x & k & gi & -> & -> & Tx & G1 & Ti & NK & G2 & Tg). clear SM ONE.
    assert (ST : bn2_state C g b s rm rv) by (split; [|split; [|split; [|split]]]; assumption).
    assert (RM : bn2_room (N * C * H * W) c ni no) by (unfold bn2_room; destruct H7 as [->|[-> ->]], H8 as [->| ->]; auto).
    assert (ET : (N * C * H * W = N * H * W * C)%nat) by ring.
    assert (HC : (0 < C)%nat) by (destruct C; lia).
    assert (Hn : (0 < N * H * W)%nat) by (destruct (N * H * W)%nat; lia).
    destruct (bn2_forward E e a g b s rm rv c ni no N C H W x o (p_train g) (fun _ => Hn) ST RM eq_refl H1 Tx To)
      as (s' & rm' & rv' & c' & ni' & no' & t & F & ST' & Ki & Ko & Kc & _).
    rewrite FW in F. injection F as -> ->. destruct ST' as (Pg & Pb & Ts & Tm & Tv).
    destruct (prm_ok_len _ _ Pg) as [Lg Lgg]. destruct (prm_ok_len _ _ Pb) as [Lb Lbg].
    pose proof (ten_ok_len _ _ Ti) as Lgi. pose proof (ten_ok_len _ _ Tg) as Lgo.
    pose proof (ten_ok_len _ _ Ts) as Ls. rewrite prodN1 in *. rewrite prodN4 in *.
    assert (Ki' : length (tdat ni') = (N * C * H * W)%nat) by (fold (tot ni'); rewrite Ki; destruct (Nat.eqb_spec (tot ni) 0); lia).
    assert (Ko' : length (tdat no') = (N * C * H * W)%nat) by (fold (tot no'); rewrite Ko; destruct (Nat.eqb_spec (tot ni) 0); lia).
    assert (Kc' : length (tdat c') = (N * C * H * W)%nat) by (fold (tot c'); rewrite Kc; destruct (Nat.eqb_spec (tot c) 0); lia).
    assert (Ediv : (N * C * H * W / C = N * H * W)%nat) by (rewrite ET; apply Nat.div_mul; lia).
    assert (EC : (C =? 0)%nat = false) by (apply Nat.eqb_neq; lia).
    destruct (nchw2nhwc_gen N C H W (tdat go) (tdat no') 0%R) as (nd & End & Lnd & _ & Vnd); [lia|lia|].
    destruct (nchw2nhwc_gen N C H W (tdat go) nd 0%R) as (nd2 & End2 & Lnd2 & _ & Vnd2); [lia|lia|].
    assert (Lz : length (zeros (tdat ni')) = (N * C * H * W)%nat) by (unfold zeros; rewrite tab_length; exact Ki').
    destruct (bn_input_grad_columns (N * H * W) C (tdat c') (tdat s') nd2 (zeros (tdat ni')) (tdat (p_data g)) Hn)
      as (gd & Eg & Lgd & Cg); try lia.
    destruct (nhwc2nchw_gen N C H W gd (tdat gi) 0%R) as (gi' & Egi & Lgi' & _ & Vgi); [lia|lia|].
    destruct Ts as [Ss _], Ti as [Sgi Wgi], Tg as [Sgo Wgo].
    eapply run_one.
    + cbn [lupdate]. mred. rewrite Sgo. mred. rewrite EC, End. cbn [bind].
      unfold tot. rewrite Lgo, Ediv. unfold bn_param_grad. rewrite !emap_Ok by lia. mred. reflexivity.
    + cbn [lbackward]. mred. rewrite (nth_error_rd _ _ _ G2). mred. rewrite Sgo. mred. rewrite EC. cbn [set_dat tdat]. rewrite End2. cbn [bind].
      unfold tot. rewrite Lgo, Ki', Ediv, same_refl. cbn [bind set_grad p_data]. rewrite Eg. cbn [bind].
      erewrite on_grad_Ok; [eexists; reflexivity|exact G1|]. mred. rewrite Sgi. mred. exact Egi.
Qed.
