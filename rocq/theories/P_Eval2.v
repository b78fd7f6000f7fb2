(** Models in evaluation mode. *)
From Coq Require Import Reals String Lia Lra.
From Verif Require Import Base BaseFacts Sums M_Im2col S_Im2col M_Kernels M_Conv M_Layers M_Optim M_Nn M_Graph M_Model M_Backend M_Train S_Grad S_Partial S_BN S_Graph S_Run S_Fit S_Primed S_Train S_Eval
  P_Kernels P_Graph P_Graph2 P_Nn P_Model P_Model2 P_Run P_Fwd P_Load P_Fwd2 P_Partial P_BN P_BN3 P_Layers P_Bwd P_Run2 P_Fit P_Safe P_Safe2 P_Optim P_Train P_Train2 P_Train3 P_Idem P_Idem2 P_Conv2 P_Eval.
Local Open Scope string_scope.
Open Scope nat_scope.
Local Open Scope list_scope.

(** ** A layer in evaluation mode keeps its parameters and buffers *)
Lemma load_store_same li L0 L : load li L0 = Ok L -> lstore L li = li.
Proof.
  assert (SP : forall k p l, find_key (li_params l) k = Some p -> set_par l k p = l).
  { intros k p l F. unfold set_par. rewrite (P_Run2.set_key_same _ _ _ F). destruct l; reflexivity. }
  assert (SB : forall k p l, find_key (li_bufs l) k = Some p -> set_buf l k p = l).
  { intros k p l F. unfold set_buf. rewrite (P_Run2.set_key_same _ _ _ F). destruct l; reflexivity. }
  intros H. destruct L0; cbn in H; inv_ok H; injection H as <-; use_keys; cbn [lstore]; try reflexivity.
  all: repeat match goal with H : find_key (li_params ?l) ?k = Some ?p |- context [set_par ?l ?k ?p] => rewrite (SP k p l H) end.
  all: repeat match goal with H : find_key (li_bufs ?l) ?k = Some ?p |- context [set_buf ?l ?k ?p] => rewrite (SB k p l H) end; reflexivity.
Qed.

Lemma eval_kept E L inshs osh xs o L1 t : fits L inshs osh -> evaluating L -> Forall2 ten_ok inshs xs -> ten_ok osh o -> fair E ->
  lforward E L xs [o] = Ok (L1, t) -> (forall li, lstore L1 li = lstore L li) /\ evaluating L1 /\ same_weights L L1.
Proof.
  intros F EV X To [AM AE] H. destruct F;
    (inversion X as [|? x ? xt Tx Xt]; subst; clear X; inversion Xt as [|? y ? yt Ty Yt]; subst; clear Xt; try (inversion Yt; subst; clear Yt)).
  - destruct Tx as [Sx Wx]. rewrite <- Sx in To. destruct (act_spec E LReLU relu x o ltac:(reflexivity) Wx To) as (o' & F1 & _). same F1 H. repeat split.
  - destruct Tx as [Sx Wx]. rewrite <- Sx in To. destruct (act_spec E LSigmoid sigmoid x o ltac:(reflexivity) Wx To) as (o' & F1 & _). same F1 H. repeat split.
  - destruct Tx as [Sx Wx]. rewrite <- Sx in To. edestruct (act_spec E (LLeaky a)) as (o' & F1 & _); [reflexivity|exact Wx|exact To|]. same F1 H. repeat split.
  - destruct Tx as [Sx Wx]. rewrite <- Sx in To. edestruct (act_spec E (LELU a)) as (o' & F1 & _); [reflexivity|exact Wx|exact To|]. same F1 H. repeat split.
  - edestruct softmax_spec as (o' & F1 & _); [eassumption|exact Tx|exact To|]. same F1 H. repeat split.
  - edestruct gap_spec as (o' & F1 & _); [eassumption|exact Tx|exact To|]. same F1 H. repeat split.
  - destruct Tx as [Sx Wx], Ty as [Sy Wy]. rewrite <- Sx in To. edestruct (add_spec E x y o) as (o' & F1 & _); [assumption|assumption|congruence|exact To|]. same F1 H. repeat split.
  - edestruct linear_spec as (o' & F1 & _); [eassumption|eassumption|eassumption|exact Tx|exact To|]. same F1 H. repeat split.
  - edestruct conv_forward_spec as (bf & o' & F1 & _); [eassumption|eassumption|eassumption|eassumption|exact Tx|exact To|]. same F1 H. repeat split.
  - edestruct maxpool_forward_spec as (i1 & bf & o' & F1 & _); [eassumption|eassumption|eassumption|exact Tx|exact AM|exact AE|exact To|]. same F1 H. repeat split.
  - destruct Tx as [Sx Wx]. pose proof (ten_ok_len _ _ To) as Lo. rewrite <- Sx in To. rewrite (dropout_eval_spec E p mask x o EV Wx To) in H by (unfold tot; lia).
    inversion H; subst. repeat split. exact EV.
  - assert (ST : bn1_state m g b s rm rv c) by (split; [|split; [|split; [|split; [|split]]]]; assumption). cbn in EV.
    destruct (bn1_forward E e a g b s rm rv c n m x o false ltac:(discriminate) ST EV ltac:(congruence) Tx To) as (s' & rm' & rv' & c' & o' & F1 & _ & _ & _ & _ & _ & _ & -> & ->).
    same F1 H. repeat split. exact EV.
  - assert (ST : bn2_state C g b s rm rv) by (split; [|split; [|split; [|split]]]; assumption). cbn in EV.
    assert (RM : bn2_room (N * C * H0 * W) c ni no) by (unfold bn2_room; destruct H8 as [->|[-> ->]], H9 as [->| ->]; auto).
    destruct (bn2_forward E e a g b s rm rv c ni no N C H0 W x o false ltac:(discriminate) ST RM EV ltac:(congruence) Tx To) as (s' & rm' & rv' & c' & ni' & no' & o' & F1 & _ & _ & _ & _ & _ & _ & _ & _ & -> & ->).
    same F1 H. repeat split. exact EV.
Qed.

(** ** Forward of a usable model gives the values of the expression *)
Section Value.
Variables (ps : list phnode) (ins outs : list nat) (m : model).
Hypothesis MF : mfacts ps ins outs m.
Hypothesis CL : closed ps ins outs.
Hypothesis LB : links_back ps.
Hypothesis VO : Forall (fun d => d < length ps) outs.
Hypothesis ND : NoDup (map fst (m_params m)).
Hypothesis RF : forall key r, In (key, r) (m_params m) -> exists op, In op (m_ops m) /\ fst r = mo_info op.

Lemma usable_fits ran infos b : usable ran ps outs m infos b ->
  forall d args, needed ps outs d -> call ps d args -> exists L, produces m infos b d L /\ fits L (map (dims ps) args) (dims ps d).
Proof.
  intros (_ & LA & _) d args N C. destruct (LA d args N C) as (L & P & G & _). exists L. split; [exact P|]. destruct ran; [apply G|exact G].
Qed.

Lemma forward_value ran E infos b xs os : usable ran ps outs m infos b -> (forall d, fair (E d)) -> shaped ps ins xs -> shaped ps outs os ->
  exists V infos' b', evaluation ps ins outs xs E (produces m infos b) V /\ (forall d, needed ps outs d -> ten_ok (dims ps d) (V d)) /\
    model_forward E m infos (Some b) xs os = Ret (infos', Some b', xs, map V outs) /\ usable true ps outs m infos' b' /\
    Forall3 (op_done ps E V infos infos') (m_ops m) (b_layers b) (b_layers b') /\
    (forall i, ~ In i (map mo_info (m_ops m)) -> nth_error infos' i = nth_error infos i) /\ length infos' = length infos.
Proof.
  intros U FE SI SO. pose proof U as (BF & LA & SD & OW). pose proof (usable_fits _ _ _ U) as LF.
  destruct (evaluation_exists ps ins outs m MF CL LB E infos b xs SI FE LF (needed_len ps outs LB VO)) as (V & EV & VT).
  assert (LO : links_ok ps outs (produces m infos b)).
  { intros d L P. pose proof P as (j & op & L0 & li & H1 & <- & _). destruct (op_spec _ _ _ _ MF op (nth_error_In _ _ H1)) as (args & k & N & C & _).
    destruct (LA _ _ N C) as (L' & P' & _ & T). rewrite (produces_fun _ _ _ _ MF _ _ _ _ _ P P'). exact T. }
  destruct (forward_evaluates ps ins outs m MF CL E V infos b xs os BF SI SO EV LO) as (infos' & b' & EF & BF' & BG & PR & PK & DS & FR & MV & F3).
  exists V, infos', b'. split; [exact EV|]. split; [exact VT|]. split; [exact EF|].
  destruct (forward_usable ps ins outs m MF CL LB VO RF ran E infos b xs os (SGD 0%R) U I FE SI SO) as (i2 & b2 & xs2 & os2 & EF2 & (U2 & _) & _).
  rewrite EF in EF2. injection EF2 as <- <- _ _. split; [exact U2|]. split; [exact F3|]. split; [exact FR|]. symmetry. eapply Forall2_length'; exact DS.
Qed.

(** In evaluation mode a forward call changes nothing but caches. *)
Lemma forward_pure ran E infos b xs os : usable ran ps outs m infos b -> eval_mode ps outs m infos b ->
  (forall d, fair (E d)) -> shaped ps ins xs -> shaped ps outs os ->
  exists V b', evaluation ps ins outs xs E (produces m infos b) V /\ (forall d, needed ps outs d -> ten_ok (dims ps d) (V d)) /\
    model_forward E m infos (Some b) xs os = Ret (infos, Some b', xs, map V outs) /\ usable true ps outs m infos b' /\ eval_mode ps outs m infos b' /\
    (forall d L L', needed ps outs d -> produces m infos b d L -> produces m infos b' d L' -> same_weights L L').
Proof.
  intros U EM FE SI SO. destruct (forward_value ran E infos b xs os U FE SI SO) as (V & infos' & b' & EV & VT & EF & U' & F3 & FR & LI).
  exists V, b'. split; [exact EV|]. split; [exact VT|]. pose proof (usable_fits _ _ _ U) as LF. destruct (Forall3_nth _ _ _ _ F3) as (X1 & X2 & F).
  assert (K : forall j op L0 L1, nth_error (m_ops m) j = Some op -> nth_error (b_layers b) j = Some L0 -> nth_error (b_layers b') j = Some L1 ->
    exists L li, nth_error infos (mo_info op) = Some li /\ load li L0 = Ok L /\ nth_error infos' (mo_info op) = Some li /\ needed ps outs (mo_ph op) /\
      produces m infos b (mo_ph op) L /\ evaluating L1 /\ same_weights L L1 /\ load li L1 = Ok L1).
  { intros j op L0 L1 Hj H0 H1. destruct (F j op L0 L1 Hj H0 H1) as (L & li & args & A1 & A2 & A3 & A4 & A5).
    destruct (op_spec _ _ _ _ MF op (nth_error_In _ _ Hj)) as (_ & _ & N & _).
    assert (P : produces m infos b (mo_ph op) L) by (exists j, op, L0, li; auto).
    destruct (LF _ _ N A3) as (L' & P' & FL). rewrite (produces_fun _ _ _ _ MF _ _ _ _ _ P' P) in FL. clear L' P'.
    pose (o1 := mkT (dims ps (mo_ph op)) (tab (prodN (dims ps (mo_ph op))) (fun _ => 0%R))).
    assert (To : ten_ok (dims ps (mo_ph op)) o1) by (split; [reflexivity|unfold twf; cbn; apply tab_length]).
    destruct (eval_kept _ _ _ _ _ _ _ _ FL (EM _ _ N P) (args_shaped ps outs V args _ A3 N VT) To (FE _) (A4 o1 To)) as (S1 & S2 & S3).
    rewrite S1, (load_store_same _ _ _ A2) in A5. exists L, li. do 5 (split; [assumption|]). split; [assumption|]. split; [assumption|].
    rewrite <- (load_store_same _ _ _ A2), <- S1 at 1. apply (load_store _ _ _ _ A2). apply (lforward_kind _ _ _ _ _ _ (A4 o1 To)). }
  assert (EI : infos' = infos).
  { apply P_Model.nth_error_ext. intros i. destruct (in_dec Nat.eq_dec i (map mo_info (m_ops m))) as [Hi|Hi]; [|apply FR, Hi].
    apply in_map_iff in Hi. destruct Hi as (op & <- & Hop). apply In_nth_error in Hop. destruct Hop as (j & Hj). assert (Lj : j < length (m_ops m)) by (apply nth_error_Some; congruence).
    destruct (nth_error (b_layers b) j) as [L0|] eqn:E0; [|apply nth_error_None in E0; lia]. destruct (nth_error (b_layers b') j) as [L1|] eqn:E1; [|apply nth_error_None in E1; lia].
    destruct (K j op L0 L1 Hj E0 E1) as (L & li & A1 & _ & A3 & _). congruence. }
  rewrite EI in *. split; [exact EF|]. split; [exact U'|].
  assert (P1 : forall d L1, produces m infos b' d L1 -> exists L, needed ps outs d /\ produces m infos b d L /\ evaluating L1 /\ same_weights L L1).
  { intros d L1 (j & op & L0' & li' & H1 & <- & H3 & H4 & H5). assert (Lj : j < length (m_ops m)) by (apply nth_error_Some; congruence).
    destruct (nth_error (b_layers b) j) as [L0|] eqn:E0; [|apply nth_error_None in E0; lia].
    destruct (K j op L0 L0' H1 E0 H3) as (L & li & A1 & A2 & A3 & A4 & A5 & A6 & A7 & A8). assert (li' = li) by congruence. subst li'.
    rewrite A8 in H5. injection H5 as <-. exists L. auto. }
  split.
  - intros d L1 N P. destruct (P1 d L1 P) as (L & _ & _ & X & _). exact X.
  - intros d L L' N P P'. destruct (P1 d L' P') as (L2 & _ & P2 & _ & X). rewrite (produces_fun _ _ _ _ MF _ _ _ _ _ P P2). exact X.
Qed.

Lemma train_false_eval ran infos b : usable ran ps outs m infos b -> eval_mode ps outs m (model_train false m infos) b.
Proof.
  intros (_ & _ & SD & OW) d L N (j & op & L0 & li & H1 & <- & H3 & H4 & H5).
  assert (K : forall k p, find_key (li_params li) k = Some p -> p_train p = false).
  { intros k p Hp. assert (G : get_par (model_train false m infos) (mo_info op, k) = Some p) by (unfold get_par; cbn; rewrite H4; exact Hp).
    destruct (get_par infos (mo_info op, k)) as [q|] eqn:EQ; [|rewrite train_get, EQ in G; destruct (existsb _ _) in G; discriminate].
    destruct (OW op k q (nth_error_In _ _ H1) EQ) as (key & Hk). rewrite (train_key false m infos key _ q (proj1 (in_find _ _ _ ND) Hk) EQ) in G. injection G as <-. reflexivity. }
  destruct L0; cbn in H5; inv_ok H5; injection H5 as <-; use_keys; cbn [evaluating]; try exact I; eapply K; eassumption.
Qed.
End Value.

(** ** Two models of the same network *)
Section Twins.
Variables (ps : list phnode) (ins outs : list nat) (m : model) (ps' : list phnode) (ins' outs' : list nat) (m' : model).
Hypothesis MF : mfacts ps ins outs m.
Hypothesis MF' : mfacts ps' ins' outs' m'.
Hypothesis CL : closed ps ins outs.
Hypothesis LB : links_back ps.

Lemma same_samples_gen n n' f infos infos' b b' ran ran' E E' V V' xs xs' r r' :
  usable ran ps outs m infos b -> usable ran' ps' outs' m' infos' b' -> eval_mode ps outs m infos b -> eval_mode ps' outs' m' infos' b' ->
  same_network ps outs n (produces m infos b) ps' outs' n' (produces m' infos' b') f ->
  (forall d, fair (E d)) -> (forall d, fair (E' d)) -> r < n -> r' < n' -> (forall d, In d ins -> sample (V d) r = sample (V' (f d)) r') ->
  evaluation ps ins outs xs E (produces m infos b) V -> evaluation ps' ins' outs' xs' E' (produces m' infos' b') V' ->
  (forall d, needed ps outs d -> ten_ok (dims ps d) (V d)) -> (forall d, needed ps' outs' d -> ten_ok (dims ps' d) (V' d)) ->
  forall d, needed ps outs d -> sample (V d) r = sample (V' (f d)) r'.
Proof.
  intros U U' EM EM' [SS SC SW] FE FE' R R' SX [VI VC] [VI' VC'] VT VT' d.
  induction d as [d IH] using (well_founded_induction lt_wf). intros N.
  destruct CL as (_ & _ & _ & _ & K). destruct (K d N) as [(args & C)|Hi].
  - destruct (VC d args N C) as (L & PL & CO). destruct (SC d args N C) as (N' & C'). destruct (VC' _ _ N' C') as (L' & PL' & CO').
    destruct (usable_fits ps outs m _ _ _ U d args N C) as (L2 & P2 & FL). rewrite (produces_fun _ _ _ _ MF _ _ _ _ _ P2 PL) in FL. clear L2 P2.
    destruct (usable_fits ps' outs' m' _ _ _ U' _ _ N' C') as (L2 & P2 & FL'). rewrite (produces_fun _ _ _ _ MF' _ _ _ _ _ P2 PL') in FL'. clear L2 P2.
    destruct (SS d N) as (rest & D1 & D2). rewrite D1 in *. rewrite D2 in *.
    assert (RS : exists rests, map (dims ps) args = map (cons n) rests /\ map (dims ps') (map f args) = map (cons n') rests).
    { assert (NA : forall a, In a args -> needed ps outs a) by (intros a Ha; eapply need_arg; eassumption). clear -NA SS.
      induction args as [|a t IH]; [exists []; split; reflexivity|]. destruct IH as (rests & E1 & E2); [intros; apply NA; right; assumption|].
      destruct (SS a (NA a (or_introl eq_refl))) as (rs & E3 & E4). exists (rs :: rests). cbn. rewrite E1, E2, E3, E4. split; reflexivity. }
    destruct RS as (rests & E1 & E2). pose proof (args_shaped ps outs V args d C N VT) as A1. pose proof (args_shaped ps' outs' V' (map f args) _ C' N' VT') as A2.
    rewrite E1 in *. rewrite E2 in *.
    eapply (eval_layer (E d) (E' (f d)) L L' n n' rests rest (map V args) (map V' (map f args)) r r' (V d) (V' (f d))); try eassumption; eauto.
    assert (NA : forall a, In a args -> sample (V a) r = sample (V' (f a)) r').
    { intros a Ha. apply IH; [eapply LB; eassumption|eapply need_arg; eassumption]. }
    clear -NA. induction args as [|a t IH]; cbn; constructor; [apply NA; left; reflexivity|apply IH; intros; apply NA; right; assumption].
  - apply SX, Hi.
Qed.
Lemma same_samples n n' f infos infos' b b' ran ran' E E' V V' xs xs' r r' :
  usable ran ps outs m infos b -> usable ran' ps' outs' m' infos' b' -> eval_mode ps outs m infos b -> eval_mode ps' outs' m' infos' b' ->
  same_network ps outs n (produces m infos b) ps' outs' n' (produces m' infos' b') f -> ins' = map f ins ->
  (forall d, fair (E d)) -> (forall d, fair (E' d)) -> r < n -> r' < n' -> Forall2 (fun x x' => sample x r = sample x' r') xs xs' ->
  evaluation ps ins outs xs E (produces m infos b) V -> evaluation ps' ins' outs' xs' E' (produces m' infos' b') V' ->
  (forall d, needed ps outs d -> ten_ok (dims ps d) (V d)) -> (forall d, needed ps' outs' d -> ten_ok (dims ps' d) (V' d)) ->
  forall d, needed ps outs d -> sample (V d) r = sample (V' (f d)) r'.
Proof.
  intros U U' EM EM' SN Ei FE FE' R R' SX EV EV'. apply (same_samples_gen n n' f infos infos' b b' ran ran' E E' V V' xs xs' r r'); try assumption.
  intros d Hi. destruct EV as [VI _]. destruct EV' as [VI' _].
  apply In_nth_error in Hi. destruct Hi as (k & Hk). destruct (Forall2_nth_error _ _ _ VI k d Hk) as (t & Ht & ->).
  assert (Hk' : nth_error ins' k = Some (f d)) by (rewrite Ei, nth_error_map, Hk; reflexivity).
  destruct (Forall2_nth_error _ _ _ VI' k _ Hk') as (t' & Ht' & ->). destruct (Forall2_nth_error _ _ _ SX k t Ht) as (t2 & Ht2 & E2). congruence.
Qed.
End Twins.
