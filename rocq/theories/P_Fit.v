(** Fitting layers run, and keep fitting. *)
From Coq Require Import Reals String Lia Lra.
From Verif Require Import Base BaseFacts Sums Deriv M_Im2col S_Im2col M_Kernels M_Conv M_Layers M_Optim M_Nn M_Graph M_Model M_Backend
  S_Grad S_Partial S_Graph S_Run S_Fit
  P_Kernels P_Vjp1 P_Vjp2 P_Vjp3 P_VjpConv P_Pool P_Conv2 P_BN P_BN2 P_BN3 P_Layers P_Layers2 P_Partial P_Graph P_Graph2 P_Nn P_Model P_Model2 P_Run P_Fwd.
Open Scope nat_scope.
Local Open Scope list_scope.

Lemma bn_forward_out n m x od od' c s rm rv tr e a g b : length od = n * m -> length od' = n * m ->
  bn_forward n m x od c s rm rv tr e a g b = bn_forward n m x od' c s rm rv tr e a g b.
Proof.
  intros H H'. unfold bn_forward. destruct (emap (n * m) x); cbn [bind]; [|reflexivity..].
  unfold emap at 1 8. rewrite H, H', Nat.leb_refl. cbn [bind].
  repeat match goal with |- context [bind (emap ?p ?q) _] => destruct (emap p q); cbn [bind]; [|reflexivity..] end.
  destruct ((n =? 0) && tr)%bool; [reflexivity|]. destruct tr; rewrite !(put2_full n m _ od), !(put2_full n m _ od') by assumption; reflexivity.
Qed.

Lemma bn_forward_len n m x od c s rm rv tr e a g b r : bn_forward n m x od c s rm rv tr e a g b = Ok r -> n * m <= length (fst (fst (fst (fst r)))).
Proof.
  unfold bn_forward. destruct (emap (n * m) x); cbn [bind]; try discriminate. unfold emap at 1. destruct (Nat.leb_spec (n * m) (length od)); cbn [bind]; [|discriminate].
  repeat match goal with |- context [bind (emap ?p ?q) _] => destruct (emap p q); cbn [bind]; try discriminate end.
  destruct ((n =? 0) && tr)%bool; [discriminate|]. destruct tr; intros [= <-]; cbn [fst]; rewrite put2_length by assumption; assumption.
Qed.

(** The previous contents of the output do not matter. *)
Lemma fits_output E L inshs osh xs o o' : fits L inshs osh -> Forall2 ten_ok inshs xs -> ten_ok osh o -> ten_ok osh o' -> fair E ->
  exists r, lforward E L xs [o] = Ok r /\ lforward E L xs [o'] = Ok r /\ ten_ok osh (snd r) /\ fits (fst r) inshs osh.
Proof.
  intros F X To To' [AM AE]. destruct F;
    (inversion X as [|? x ? xt Tx Xt]; subst; clear X; inversion Xt as [|? y ? yt Ty Yt]; subst; clear Xt; try (inversion Yt; subst; clear Yt)).
  - destruct Tx as [Sx Wx], To as [So Wo], To' as [So' Wo']. eexists. cbn [lforward]. rewrite !act_forward_Ok by congruence.
    split; [reflexivity|]. split; [reflexivity|]. split; [|constructor]. split; [exact Sx|]. apply tab_length.
  - destruct Tx as [Sx Wx], To as [So Wo], To' as [So' Wo']. eexists. cbn [lforward]. rewrite !act_forward_Ok by congruence.
    split; [reflexivity|]. split; [reflexivity|]. split; [|constructor]. split; [exact Sx|]. apply tab_length.
  - destruct Tx as [Sx Wx], To as [So Wo], To' as [So' Wo']. eexists. cbn [lforward]. rewrite !act_forward_Ok by congruence.
    split; [reflexivity|]. split; [reflexivity|]. split; [|constructor]. split; [exact Sx|]. apply tab_length.
  - destruct Tx as [Sx Wx], To as [So Wo], To' as [So' Wo']. eexists. cbn [lforward]. rewrite !act_forward_Ok by congruence.
    split; [reflexivity|]. split; [reflexivity|]. split; [|constructor]. split; [exact Sx|]. apply tab_length.
  - destruct (softmax_spec E n m x o H Tx To) as (t & F1 & T1 & V1). destruct (softmax_spec E n m x o' H Tx To') as (t' & F2 & T2 & V2).
    assert (t' = t) as ->.
    { apply (ten_eq [n; m]); [assumption..|]. intros p Hp. cbn in Hp. rewrite Nat.mul_1_r in Hp.
      destruct (divmod_lt p n m Hp) as (P1 & P2 & P3). rewrite P3, V1, V2 by assumption. reflexivity. }
    eexists. split; [exact F1|]. split; [exact F2|]. split; [exact T1|]. constructor. exact H.
  - destruct (gap_spec E n c h w x o H Tx To) as (t & F1 & T1 & V1 & _). destruct (gap_spec E n c h w x o' H Tx To') as (t' & F2 & T2 & V2 & _).
    assert (t' = t) as ->.
    { apply (ten_eq [n; c; 1; 1]); [assumption..|]. intros p Hp. rewrite prodN4, !Nat.mul_1_r in Hp.
      destruct (divmod_lt p n c Hp) as (P1 & P2 & P3). rewrite P3, V1, V2 by assumption. reflexivity. }
    eexists. split; [exact F1|]. split; [exact F2|]. split; [exact T1|]. constructor. exact H.
  - destruct Tx as [Sx Wx], Ty as [Sy Wy]. subst sh.
    destruct (add_spec E x y o Wx Wy Sy To) as (t & F1 & T1 & V1 & _). destruct (add_spec E x y o' Wx Wy Sy To') as (t' & F2 & T2 & V2 & _).
    assert (t' = t) as ->.
    { apply (ten_eq (tsh x)); [assumption..|]. intros p Hp. rewrite <- Wx in Hp. rewrite V1, V2 by exact Hp. reflexivity. }
    eexists. split; [exact F1|]. split; [exact F2|]. split; [exact T1|]. constructor.
  - destruct (linear_spec E W b n u rest x o H H0 H1 Tx To) as (t & F1 & T1 & V1). destruct (linear_spec E W b n u rest x o' H H0 H1 Tx To') as (t' & F2 & T2 & V2).
    assert (t' = t) as ->.
    { apply (ten_eq [n; u]); [assumption..|]. intros p Hp. cbn in Hp. rewrite Nat.mul_1_r in Hp.
      destruct (divmod_lt p n u Hp) as (P1 & P2 & P3). rewrite P3, V1, V2 by assumption. reflexivity. }
    eexists. split; [exact F1|]. split; [exact F2|]. split; [exact T1|]. constructor; assumption.
  - destruct (prm_ok_len _ _ H1) as [LW _]. destruct (prm_ok_len _ _ H2) as [Lb _]. rewrite prodN4 in LW. rewrite prodN1 in Lb.
    assert (LW' : length (tdat (p_data W)) = cout * (cin * KH g * KW g)) by (rewrite LW; ring).
    pose proof (conv_fwd_Ok g batch cin h w cout ho wo W b buf H H1 E x o _ _ Tx To LW' Lb) as F1.
    pose proof (conv_fwd_Ok g batch cin h w cout ho wo W b buf H H1 E x o' _ _ Tx To' LW' Lb) as F2. rewrite !with_data_id in F1, F2.
    eexists. cbn [lforward]. rewrite H0. cbn [bind]. unfold front. cbn [rd nth_error bind]. rewrite F1, F2. cbn [bind].
    split; [reflexivity|]. split; [reflexivity|]. split; [|apply fit_conv; assumption].
    split; [reflexivity|]. unfold twf. cbn [snd tdat tsh]. rewrite tab_length, prodN4. ring.
  - destruct (maxpool_fwd_same g n c h w ho wo ind buf H H0 H1 E x AM AE Tx) as (bsh & bd & Lbd & F). destruct To as [So Wo], To' as [So' Wo'].
    eexists. split; [apply F; assumption|]. split; [apply F; assumption|]. split.
    + split; [reflexivity|]. unfold twf. cbn [snd tdat tsh]. rewrite tab_length, prodN4. ring.
    + apply fit_maxpool; [assumption..|]. right. cbn [ish idat]. rewrite tab_length, prodN4. ring.
  - destruct Tx as [Sx Wx], To as [So Wo], To' as [So' Wo']. pose proof H as (M1 & M2 & M3 & M4).
    assert (V : forall o, tsh o = sh -> validate_same [x] [o] = Ok tt).
    { intros u Su. unfold validate_same, front. cbn. rewrite Su, Sx. replace (nshape_eqb sh sh) with true by (symmetry; apply nshape_eqb_spec; reflexivity). reflexivity. }
    unfold twf in *. cbn [lforward]. rewrite !V by assumption. unfold front. cbn [bind rd nth_error].
    destruct (p_train mask) eqn:PT.
    + rewrite !dropout_forward_Ok by congruence. cbn [bind]. eexists. split; [reflexivity|]. unfold set_dat. rewrite So, So'.
      split; [reflexivity|]. split; [split; [reflexivity|]; unfold twf; cbn [snd tdat tsh]; rewrite tab_length; congruence|].
      cbn [fst]. constructor; [|exact H0]. unfold prm_ok. cbn [p_data p_grad tsh tdat]. split; [exact M1|]. split; [unfold twf; cbn [tsh tdat]; rewrite tab_length; congruence|].
      split; [exact M3|exact M4].
    + assert (D : forall o, tsh o = sh -> length (tdat o) = prodN (tsh o) -> dw_assert (nshape_eqb (tsh x) (tsh o)) = Ok tt /\ dw_assert (negb (tot o =? 0)) = Ok tt).
      { intros u Su Wu. rewrite Su, Sx. replace (nshape_eqb sh sh) with true by (symmetry; apply nshape_eqb_spec; reflexivity). split; [reflexivity|].
        unfold tot. rewrite Wu, Su. destruct (Nat.eqb_spec (prodN sh) 0); [lia|reflexivity]. }
      destruct (D o So Wo) as [D1 D2]. destruct (D o' So' Wo') as [D3 D4]. rewrite D1, D2, D3, D4. cbn [bind]. unfold set_dat. rewrite So, So'.
      eexists. split; [reflexivity|]. split; [reflexivity|]. split; [split; [reflexivity|]; unfold twf; cbn [snd tdat tsh]; congruence|]. cbn [fst]. constructor; assumption.
  - assert (ST : bn1_state m g b s rm rv c) by (split; [|split; [|split; [|split; [|split]]]]; assumption).
    destruct (bn1_forward E e a g b s rm rv c n m x o (p_train g) (fun _ => H) ST eq_refl H0 Tx To) as (s' & rm' & rv' & c' & t & F & ST' & TC & TT & _).
    exists (LBN1 e a g b s' rm' rv' c', t). split; [exact F|]. split.
    + rewrite <- F. destruct Tx as [Sx Wx]. pose proof (ten_ok_len _ _ To) as Lo. pose proof (ten_ok_len _ _ To') as Lo'. destruct To as [So Wo], To' as [So' Wo'].
      cbn [lforward]. rewrite !validate_rank_Ok by (rewrite ?Sx, ?So, ?So'; reflexivity). unfold front. cbn [rd nth_error bind]. unfold bn1_fwd, dims2. rewrite So, So', Sx. cbn [rd nth_error bind].
      rewrite (bn_forward_out n m (tdat x) (tdat o') (tdat o)) by (rewrite ?Lo, ?Lo'; cbn; lia).
      unfold set_dat. rewrite So, So'. reflexivity.
    + split; [exact TT|]. destruct ST' as (A1 & A2 & A3 & A4 & A5 & A6). constructor; assumption.
  - assert (ST : bn2_state C g b s rm rv) by (split; [|split; [|split; [|split]]]; assumption).
    assert (RM : bn2_room (N * C * H * W) c ni no) by (unfold bn2_room; destruct H7 as [->|[-> ->]], H8 as [->| ->]; auto).
    assert (PS : (p_train g = true -> 0 < N * H * W)%nat) by (intros _; destruct N, C, H, W; cbn in *; lia).
    destruct (bn2_forward E e a g b s rm rv c ni no N C H W x o (p_train g) PS ST RM eq_refl H1 Tx To)
      as (s' & rm' & rv' & c' & ni' & no' & t & F & ST' & R1 & R2 & R3 & TT & _).
    exists (LBN2 e a g b s' rm' rv' c' ni' no', t). split; [exact F|]. split.
    + rewrite <- F. destruct Tx as [Sx Wx]. pose proof (ten_ok_len _ _ To) as Lo. pose proof (ten_ok_len _ _ To') as Lo'. destruct To as [So Wo], To' as [So' Wo'].
      cbn [lforward]. rewrite !validate_rank_Ok by (rewrite ?Sx, ?So, ?So'; reflexivity). unfold front. cbn [rd nth_error bind]. unfold bn2_fwd, dims4. rewrite So, So', Sx. cbn [rd nth_error bind].
      unfold set_dat. rewrite So, So'.
      destruct (dw_assert (Bool.eqb (p_train g) (p_train b))); [|reflexivity..]. cbn [bind].
      destruct (tot ni =? 0);
      (destruct (nchw2nhwc _ _ _ _ _ _); [|reflexivity..]; cbn [bind]; destruct (bn_forward _ _ _ _ _ _ _ _ _ _ _ _ _) as [[[[[od cd] sd] md] vd]| |] eqn:EB; [|reflexivity..]; apply bn_forward_len in EB; cbn [bind fst] in *;
      rewrite (nhwc2nchw_full N C H W od (tdat o') (tdat o)) by (rewrite ?Lo, ?Lo'; unfold prodN; cbn [fold_right]; nia); reflexivity).
    + split; [exact TT|]. destruct ST' as (A1 & A2 & A3 & A4 & A5). cbn [fst]. constructor; try assumption.
      * right. destruct (Nat.eqb_spec (tot ni) 0); [rewrite R1, R2; auto|]. destruct H7 as [?|[K1 K2]]; [lia|]. rewrite R1, R2, K1, K2. auto.
      * right. destruct (Nat.eqb_spec (tot c) 0); [exact R3|]. destruct H8 as [?|K]; [lia|]. congruence.
Qed.

Lemma fits_computes E L inshs osh xs : fits L inshs osh -> Forall2 ten_ok inshs xs -> fair E ->
  exists L' t, ten_ok osh t /\ fits L' inshs osh /\ forall o, ten_ok osh o -> lforward E L xs [o] = Ok (L', t).
Proof.
  intros F X FE. destruct (fits_output E L inshs osh xs _ _ F X (fresh_ok E osh) (fresh_ok E osh) FE) as ([L' t] & H1 & _ & H2 & H3).
  exists L', t. split; [exact H2|]. split; [exact H3|]. intros o To.
  destruct (fits_output E L inshs osh xs _ _ F X (fresh_ok E osh) To FE) as (r & R1 & R2 & _). congruence.
Qed.

Lemma fits_gradients E L inshs osh xs : fits L inshs osh -> Forall2 ten_ok inshs xs -> fair E -> smooth E L xs osh ->
  right_gradients E L xs inshs osh.
Proof.
  intros F X [AM AE] S P I EP EI. destruct F; cbn [smooth] in S.
  - apply relu_vjp. intros x Hx _. rewrite <- EI, Hx in S. exact (Forall_inv S).
  - apply sigmoid_vjp.
  - apply leaky_vjp. intros x Hx _. rewrite <- EI, Hx in S. exact (Forall_inv S).
  - apply elu_vjp. intros x Hx _. rewrite <- EI, Hx in S. exact (Forall_inv S).
  - apply softmax_vjp; assumption.
  - apply gap_vjp; assumption.
  - apply add_vjp.
  - apply linear_vjp; assumption.
  - apply conv_vjp; assumption.
  - apply maxpool_vjp; try assumption. intros x Hx. rewrite <- EI, Hx in S, X. inversion X as [|? ? ? ? [Sx Wx]]; subst.
    apply (clear_maxima_max g n c h w ho wo x); try assumption; [split; assumption|exact (S x n c h w ho wo eq_refl Sx eq_refl)].
  - destruct S as (-> & S1 & S2). apply dropout_vjp_p0; [assumption..|]. intros i _. apply S2.
  - destruct S as (S1 & S2). apply bn1_vjp; try assumption; [|congruence]. split; [|split; [|split; [|split; [|split]]]]; assumption.
  - destruct S as (S1 & S2). apply bn2_vjp; try assumption; congruence.
Qed.

(** ** Every model whose layers fit can be evaluated *)
Section Total.
Variables (ps : list phnode) (ins outs : list nat) (m : model).
Hypothesis MF : mfacts ps ins outs m.
Hypothesis CL : closed ps ins outs.
Hypothesis LB : links_back ps.
Variables (E : nat -> env) (infos : list linfo) (b : backend) (tins : list ten).
Hypothesis SI : shaped ps ins tins.
Hypothesis FE : forall d, fair (E d).
Hypothesis FT : forall d args, needed ps outs d -> call ps d args -> exists L, produces m infos b d L /\ fits L (map (dims ps) args) (dims ps d).

Lemma evaluation_upto N : exists V : nat -> ten, Forall2 (fun d t => V d = t) ins tins /\
  (forall d, d < N -> needed ps outs d -> ten_ok (dims ps d) (V d)) /\
  (forall d args, d < N -> needed ps outs d -> call ps d args -> exists L, produces m infos b d L /\ computes (E d) L (map V args) (dims ps d) (V d)).
Proof.
  destruct CL as (NDi & _ & NC & _ & K). induction N as [|N IH].
  - exists (fun d => match index_of d ins with Ok k => nth k tins empty_ten | _ => empty_ten end). split; [|split; intros; lia].
    apply Forall2_intro; [exact (Forall2_len _ _ _ SI)|]. intros k d t Hd Ht. rewrite (index_of_NoDup _ _ _ NDi Hd). apply nth_error_nth. exact Ht.
  - destruct IH as (V & V1 & V2 & V3). destruct (in_dec Nat.eq_dec N (map mo_ph (m_ops m))) as [HI|HI].
    + apply in_map_iff in HI. destruct HI as (op & Eop & Hop). destruct (op_spec _ _ _ _ MF op Hop) as (args & _ & Nd & Ca & _). rewrite Eop in Nd, Ca.
      destruct (FT N args Nd Ca) as (L & PL & FL).
      assert (X : Forall2 ten_ok (map (dims ps) args) (map V args)).
      { assert (Y : forall a, In a args -> ten_ok (dims ps a) (V a)). { intros a Ha. apply V2; [eapply LB; eassumption|eapply need_arg; eassumption]. }
        clear -Y. induction args as [|a t IH]; [constructor|]. constructor; [apply Y; left; reflexivity|apply IH; intros c Hc; apply Y; right; exact Hc]. }
      destruct (fits_computes (E N) L _ _ _ FL X (FE N)) as (L' & t & T1 & _ & T2).
      set (V' := fun d => if d =? N then t else V d).
      assert (VL : forall d, d < N -> V' d = V d). { intros d Hd. unfold V'. destruct (Nat.eqb_spec d N); [lia|reflexivity]. }
      assert (VN : V' N = t) by (unfold V'; rewrite Nat.eqb_refl; reflexivity).
      assert (VA : forall d args', d <= N -> call ps d args' -> map V' args' = map V args').
      { intros d args' Hd Cd. apply map_ext_in. intros a Ha. apply VL. pose proof (LB _ _ _ Cd Ha). lia. }
      exists V'. split; [|split].
      * clear -V1 NC Ca. assert (NI : ~ In N ins) by (intros HI; apply (NC N HI); eauto). clear NC. induction V1 as [|d t' l1 l2 H _ IH]; [constructor|].
        constructor; [|apply IH; intros X; apply NI; right; exact X]. unfold V'. destruct (Nat.eqb_spec d N) as [->|]; [exfalso; apply NI; left; reflexivity|exact H].
      * intros d Hd Nd'. destruct (Nat.eq_dec d N) as [->|]; [rewrite VN; exact T1|]. rewrite VL by lia. apply V2; [lia|exact Nd'].
      * intros d args' Hd Nd' Cd. rewrite (VA d args') by (lia || exact Cd). destruct (Nat.eq_dec d N) as [->|].
        -- assert (args' = args) as -> by (destruct Ca as (s1 & i1 & Z1), Cd as (s2 & i2 & Z2); congruence).
           exists L. split; [exact PL|]. rewrite VN. split; [exact T1|]. exists L'. exact T2.
        -- rewrite VL by lia. apply V3; [lia|exact Nd'|exact Cd].
    + exists V. split; [exact V1|].
      assert (Z : needed ps outs N -> forall args, ~ call ps N args) by (intros Nd args Ca; apply HI, (mf_call _ _ _ _ MF N Nd); eauto).
      split.
      * intros d Hd Nd. destruct (Nat.eq_dec d N) as [->|]; [|apply V2; [lia|exact Nd]]. destruct (K N Nd) as [(args & Ca)|HN]; [destruct (Z Nd args Ca)|].
        apply In_nth_error in HN. destruct HN as (k & Hk). destruct (Forall2_nth_error _ _ _ V1 k N Hk) as (t & Ht & ->).
        destruct (Forall2_nth_error _ _ _ SI k N Hk) as (t' & Ht' & T). congruence.
      * intros d args Hd Nd Ca. destruct (Nat.eq_dec d N) as [->|]; [destruct (Z Nd args Ca)|]. apply V3; [lia|exact Nd|exact Ca].
Qed.

Theorem evaluation_exists : (forall d, needed ps outs d -> d < length ps) -> exists V, evaluation ps ins outs tins E (produces m infos b) V /\ forall d, needed ps outs d -> ten_ok (dims ps d) (V d).
Proof.
  intros HN. destruct (evaluation_upto (length ps)) as (V & V1 & V2 & V3). exists V. split; [split; [exact V1|]|].
  - intros d args Nd Ca. apply V3; auto.
  - intros d Nd. apply V2; auto.
Qed.
End Total.
