(** Properties C37, C40, C41 and the run-time part of C34: running a model. *)
From Coq Require Import Reals String Lia.
From Verif Require Import Base BaseFacts Sums M_Layers M_Kernels M_Optim M_Nn M_Graph M_Model M_Backend S_Grad S_Graph S_Run
  P_Graph P_Graph2 P_Nn P_Vjp1 P_BN3 P_Layers P_Model P_Model2 P_Run P_Fwd P_Load P_Fwd2 P_Run2 Prop_Graph Prop_Model.
Local Open Scope string_scope.
Open Scope nat_scope.
Local Open Scope list_scope.

Lemma constructed_mfacts es ins outs m : constructed es ins outs m -> mfacts (es_ph es) ins outs m.
Proof. intros (B & V & order & g & es' & BG & TO & CM). exact (model_mfacts es order ins outs g es' m B V BG TO CM). Qed.

(** ** C37 *)
(** [V] is the evaluation of the expression on the inputs [tins] with the layers in their present state;
    [produces m infos b d L]: [L] is the layer that yields placeholder [d], with its current parameters.
    forward returns the values of the outputs, runs every layer exactly once on the values of its
    arguments, leaves the inputs, every gradient, every trainable flag and every parameter except
    Dropout's mask as they were, and does not touch layers of other models. *)
Theorem C37_forward_evaluates :
  forall (es : estore) (ins outs : list nat) (m : model) (infos : list linfo) (b : backend)
         (E : nat -> env) (V : nat -> ten) (tins touts : list ten),
  constructed es ins outs m -> closed (es_ph es) ins outs -> backend_fits (es_ph es) m b ->
  shaped (es_ph es) ins tins -> shaped (es_ph es) outs touts ->
  evaluation (es_ph es) ins outs tins E (produces m infos b) V -> links_ok (es_ph es) outs (produces m infos b) ->
  exists infos' b',
    model_forward E m infos (Some b) tins touts = Ret (infos', Some b', tins, map V outs) /\
    backend_fits (es_ph es) m b' /\
    (forall d L, produces m infos b d L -> exists args L', call (es_ph es) d args /\
       (forall o, ten_ok (dims (es_ph es) d) o -> lforward (E d) L (map V args) [o] = Ok (L', V d)) /\
       produces m infos' b' d L') /\
    (forall r p, get_par infos r = Some p -> exists p', get_par infos' r = Some p' /\
       p_grad p' = p_grad p /\ p_train p' = p_train p /\ (snd r <> "mask" -> p' = p)) /\
    Forall2 (fun x y => li_name y = li_name x /\ li_type y = li_type x /\ li_attrs y = li_attrs x /\
                        map fst (li_params y) = map fst (li_params x) /\ map fst (li_bufs y) = map fst (li_bufs x)) infos infos' /\
    (forall i, ~ In i (map mo_info (m_ops m)) -> nth_error infos' i = nth_error infos i).
Proof.
  intros es ins outs m infos b E V tins touts C CL BF SI SO EV LO.
  destruct (forward_evaluates _ _ _ _ (constructed_mfacts _ _ _ _ C) CL E V infos b tins touts BF SI SO EV LO)
    as (infos' & b' & H1 & H2 & _ & H3 & H4 & H5 & H6 & _). exists infos', b'. auto 10.
Qed.
Print Assumptions C37_forward_evaluates.

(** The values do not depend on the order in which the library sorts the graph: they are determined by
    the expression alone. *)
Theorem C37_evaluation_is_unique :
  forall (es : estore) (ins outs : list nat) (m : model) (infos : list linfo) (b : backend)
         (E : nat -> env) (V V' : nat -> ten) (tins : list ten),
  constructed es ins outs m -> closed (es_ph es) ins outs ->
  evaluation (es_ph es) ins outs tins E (produces m infos b) V -> evaluation (es_ph es) ins outs tins E (produces m infos b) V' ->
  forall d, needed (es_ph es) outs d -> V d = V' d.
Proof.
  intros es ins outs m infos b E V V' tins C CL [VI EV] [VI' EV'] d N. pose proof (constructed_mfacts _ _ _ _ C) as MF.
  assert (LB : links_back (es_ph es)) by (apply store_links_back, built_ok, C).
  revert N. induction d as [d IH] using lt_wf_ind. intros N.
  destruct CL as (_ & _ & _ & _ & K). destruct (K d N) as [(args & Ca)|HI].
  - destruct (EV d args N Ca) as (L & PL & T1 & L1 & F1). destruct (EV' d args N Ca) as (L' & PL' & T2 & L2 & F2).
    assert (L' = L) as -> by (eapply (produces_fun _ _ _ _ MF); eassumption).
    assert (A : map V args = map V' args).
    { apply map_ext_in. intros a Ha. apply IH; [|eapply need_arg; eassumption]. eapply LB; eassumption. }
    specialize (F1 _ T1). specialize (F2 _ T1). rewrite A in F1. congruence.
  - apply In_nth_error in HI. destruct HI as (k & Hk). destruct (Forall2_nth_error _ _ _ VI k d Hk) as (t & Ht & ->).
    destruct (Forall2_nth_error _ _ _ VI' k d Hk) as (t' & Ht' & ->). congruence.
Qed.
Print Assumptions C37_evaluation_is_unique.

(** A compiled model is ready: one layer per operation made from the description, memory of the right
    shapes. *)
Theorem C37_compile_prepares :
  forall (es : estore) (ins outs : list nat) (m : model) (infos : list linfo) (bo : option backend) (junk : nat -> R) (b : option backend),
  constructed es ins outs m -> model_compile (es_ph es) junk m infos bo = Ret b ->
  exists b', b = Some b' /\ backend_fits (es_ph es) m b' /\
    forall d args, needed (es_ph es) outs d -> call (es_ph es) d args ->
      exists L li i s, nth_error (es_ph es) d = Some (mkPh s (Some (i, args))) /\
        nth_error infos i = Some li /\ create_layer li = Ok L /\ produces m infos b' d L.
Proof.
  intros es ins outs m infos bo junk b C H. pose proof (constructed_mfacts _ _ _ _ C) as MF. unfold model_compile in H.
  destruct (new_backend (es_ph es) junk m infos) as [b'| |] eqn:NB; try discriminate H. injection H as <-. exists b'.
  split; [reflexivity|]. destruct (compiled_fits _ _ _ _ _ _ _ MF NB) as [BF PR]. split; [exact BF|].
  intros d args N Ca. destruct (PR d (mf_call _ _ _ _ MF d N (ex_intro _ args Ca))) as (L & li & op & Hop & <- & Hli & CR & PL).
  destruct Ca as (s & i & Hd). exists L, li, (mo_info op), s. split; [|auto]. destruct C as (B & VO & order & g & es' & BG & TO & CM).
  destruct (model_facts es order ins outs g B VO BG TO es' m CM) as (mops & ND1 & _ & EP & EG & EO & EM & F & OB & _).
  rewrite EM in Hop. apply In_nth_error in Hop. destruct Hop as (j & Hj).
  assert (X : exists dd, ids_ok (es_ph es) g (order g) dd op).
  { clear -F Hj. revert j Hj. induction F as [|x y l1 l2 Hxy _ IH]; intros [|j] Hj; cbn in Hj; try discriminate; [injection Hj as ->; eauto|eauto]. }
  destruct X as (dd & X). unfold ids_ok in X. destruct X as (<- & Y & _). unfold info_of in Y. rewrite rd_nth, Hd in Y. cbn in Y. injection Y as <-.
  rewrite Hd. reflexivity.
Qed.
Print Assumptions C37_compile_prepares.

(** ** C34 at run time *)
(** If forward returns, every operation that counts its inputs was linked once. *)
Theorem C34_returns_only_if_linked_once :
  forall (es : estore) (ins outs : list nat) (m : model) (infos : list linfo) (b : backend) (E : nat -> env) (tins touts : list ten) (r : fstate),
  constructed es ins outs m -> model_forward E m infos (Some b) tins touts = Ret r ->
  forall d L, produces m infos b d L -> visits (es_ph es) outs d = 1 \/ tolerant L = true.
Proof. intros es ins outs m infos b E tins touts r C. apply returned_linked_once with (ins := ins). apply constructed_mfacts, C. Qed.
Print Assumptions C34_returns_only_if_linked_once.

(** If one such operation was linked more than once, and all operations linked properly can be
    evaluated, forward throws. *)
Theorem C34_repeated_link_throws :
  forall (es : estore) (ins outs : list nat) (m : model) (infos : list linfo) (b : backend) (E : nat -> env) (V : nat -> ten) (tins touts : list ten),
  constructed es ins outs m -> closed (es_ph es) ins outs -> backend_fits (es_ph es) m b ->
  shaped (es_ph es) ins tins -> shaped (es_ph es) outs touts -> Forall2 (fun d t => V d = t) ins tins ->
  (forall d args, needed (es_ph es) outs d -> call (es_ph es) d args -> exists L, produces m infos b d L /\
     (visits (es_ph es) outs d = 1 \/ tolerant L = true -> computes (E d) L (map V args) (dims (es_ph es) d) (V d))) ->
  (exists d L, produces m infos b d L /\ visits (es_ph es) outs d <> 1 /\ tolerant L = false) ->
  exists s, model_forward E m infos (Some b) tins touts = Exc s.
Proof. intros es ins outs m infos b E V tins touts C CL. apply repeated_throws; [apply constructed_mfacts, C|exact CL]. Qed.
Print Assumptions C34_repeated_link_throws.

(** ** C40 *)
Theorem C40_refused_before_compile :
  forall (ps : list phnode) (m : model) (h : list action) (infos : list linfo) (s : mstate),
  existsb is_compile h = false -> acts ps m h (infos, None) = Some s ->
  (forall E ins outs, model_forward E m (fst s) (snd s) ins outs = Exc (fst s, snd s, ins, outs)) /\
  (forall E ins outs gouts, model_backward E m (fst s) (snd s) ins outs gouts = Exc (fst s, snd s, gouts)).
Proof.
  intros ps m h infos s N H. pose proof (not_compiled _ _ _ _ _ N H) as X. destruct s as [i bo]. cbn in X. subst bo. split; reflexivity.
Qed.
Print Assumptions C40_refused_before_compile.

(** A successful compile is never undone, whatever is called afterwards and whichever calls throw. *)
Theorem C40_accepted_after_compile :
  forall (ps : list phnode) (m : model) (h1 h2 : list action) (junk : nat -> R) (s0 s1 s2 s : mstate),
  acts ps m h1 s0 = Some s1 -> act ps m (Compile junk) s1 = Some (s2, false) -> acts ps m h2 s2 = Some s ->
  exists b, snd s = Some b /\
    (forall E ins outs, model_forward E m (fst s) (snd s) ins outs = backend_forward E m (fst s) b ins outs) /\
    (forall E ins outs gouts, model_backward E m (fst s) (snd s) ins outs gouts = backend_backward E m (fst s) b ins outs gouts).
Proof.
  intros ps m h1 h2 junk s0 [i1 b1] s2 s _ HC H. cbn in HC. unfold model_compile in HC.
  destruct (new_backend ps junk m i1) as [b| |]; try discriminate HC. injection HC as <-.
  pose proof (stays_compiled _ _ _ _ _ _ H) as N. destruct s as [i [b'|]]; [|cbn in N; congruence]. exists b'. repeat split.
Qed.
Print Assumptions C40_accepted_after_compile.

(** ** C41 *)
Theorem C41_train_sets_every_parameter :
  forall (m : model) (infos : list linfo) (mode : bool),
  (forall key r p, find_key (m_params m) key = Some r -> get_par infos r = Some p ->
     get_par (model_train mode m infos) r = Some (mkP (p_data p) (p_grad p) mode)) /\
  (forall r, ~ In r (map snd (m_params m)) -> get_par (model_train mode m infos) r = get_par infos r) /\
  Forall2 (fun a b => li_name a = li_name b /\ li_type a = li_type b /\ li_attrs a = li_attrs b /\ li_bufs a = li_bufs b /\
                      map fst (li_params a) = map fst (li_params b)) infos (model_train mode m infos).
Proof.
  intros m infos mode. split; [intros; eapply train_key; eassumption|]. split; [|apply train_frame].
  intros [i k] N. rewrite train_get. destruct (existsb _ _) eqn:X; [|reflexivity]. exfalso. apply existsb_exists in X.
  destruct X as ([key [i' k']] & H & Y). cbn in Y. apply Bool.andb_true_iff in Y. destruct Y as [Y1 Y2]. apply Nat.eqb_eq in Y1. apply String.eqb_eq in Y2. subst.
  apply N. apply in_map_iff. exists (key, (i, k)). auto.
Qed.
Print Assumptions C41_train_sets_every_parameter.

Theorem C41_last_call_wins :
  forall (m : model) (infos : list linfo) (modes : list bool) (mode : bool),
  Forall (fun li => NoDup (map fst (li_params li))) infos ->
  model_train mode m (fold_left (fun i b => model_train b m i) modes infos) = model_train mode m infos.
Proof.
  intros m infos modes mode. revert infos. induction modes as [|b t IH]; intros infos ND; cbn; [reflexivity|].
  rewrite IH; [apply train_last, ND|]. pose proof (train_frame b m infos) as F. clear -ND F. revert ND.
  induction F as [|x y l1 l2 (_ & _ & _ & _ & H) _ IH]; intros ND; [constructor|]. inversion ND; subst. constructor; [rewrite <- H; assumption|auto].
Qed.
Print Assumptions C41_last_call_wins.

(** Optimizers see the parameters through [params_view] and leave through [params_write] (params() is the
    map they are constructed with).  After train(false) nothing changes, neither parameters nor the
    optimizers' own state. *)
Theorem C41_frozen_model_is_not_optimized :
  forall (es : estore) (ins outs : list nat) (m : model) (infos : list linfo),
  constructed es ins outs m ->
  let frozen := model_train false m infos in
  (forall lr, sgd_step lr (params_view m frozen) = Ret (params_view m frozen, tt)) /\
  (forall lr gamma vel, momentum_step lr gamma (params_view m frozen) vel = Ret (params_view m frozen, vel)) /\
  (forall lr b1 b2 eps t s, snd (adam_step lr b1 b2 eps t (params_view m frozen) s) = Ret (params_view m frozen, s)) /\
  params_write m (params_view m frozen) frozen = frozen.
Proof.
  intros es ins outs m infos C frozen.
  assert (ND : NoDup (map fst (m_params m))).
  { destruct C as (B & VO & order & g & es' & BG & TO & CM). apply (state_keys es order ins outs g B VO BG TO es' m CM). }
  pose proof (frozen_view m infos ND) as F. split; [|split; [|split]].
  - intros lr. apply each_frozen; [|exact F]. intros k p s Hp. unfold sgd_one. rewrite Hp. destruct s. reflexivity.
  - intros lr gamma vel. apply each_frozen; [|exact F]. intros k p s Hp. unfold momentum_one. rewrite Hp. reflexivity.
  - intros lr b1 b2 eps t s. apply each_frozen; [|exact F]. intros k p s' Hp. unfold adam_one. rewrite Hp. reflexivity.
  - apply write_view, ND.
Qed.
Print Assumptions C41_frozen_model_is_not_optimized.

(** ** Examples *)
(** [Add(Sigmoid(ReLU x), ReLU x)] on any input. *)
Definition ex_m : model := match construct_model (by_age 4) [0] [3] (ex_es [2; 1]) with RVal _ m => m | _ => mkM (mkG [] []) [] [] [] [] [] [] [] [] [] (mkCfg [] [] [] []) end.
Definition ex_infos : list linfo := match construct_model (by_age 4) [0] [3] (ex_es [2; 1]) with RVal es _ => es_info es | _ => [] end.
Definition ex_b : backend := match new_backend (es_ph (ex_es [2; 1])) (fun _ => 0%R) ex_m ex_infos with Ok b => b | _ => mkB [] [] [] end.
Definition tmapR (f : R -> R) (t : ten) : ten := mkT (tsh t) (tab (prodN (tsh t)) (fun i => f (tdat t).[i])).
Definition ex_V (x : ten) (d : nat) : ten :=
  match d with
  | 0 => x
  | 1 => tmapR relu x
  | 2 => tmapR sigmoid (tmapR relu x)
  | _ => tmapR (fun y => (sigmoid y + y)%R) (tmapR relu x)
  end.

Lemma ex_constructed : constructed (ex_es [2; 1]) [0] [3] ex_m.
Proof.
  split; [apply ex_built; auto|]. split; [repeat constructor|]. exists (by_age 4).
  eexists. eexists. split; [vm_compute; reflexivity|]. split; [|vm_compute; reflexivity].
  eapply (by_age_topo (es_ph (ex_es [2; 1])) [0] [3]); [apply store_links_back, built_ok, ex_built; auto| |vm_compute; reflexivity].
  intros o [<-|[]]. vm_compute. lia.
Qed.

Lemma ex_closed : closed (es_ph (ex_es [2; 1])) [0] [3].
Proof.
  split; [repeat constructor; intros []|]. split; [repeat constructor; intros []|]. split; [|split].
  - intros d [<-|[]] (args & s & i & H). discriminate H.
  - intros d [<-|[]]. exists [2; 1], [2; 3]%Z, 2. reflexivity.
  - intros d N. assert (d <= 3) by (apply (needed_le (es_ph (ex_es [2; 1]))); [apply store_links_back, built_ok, ex_built; auto|exact N]).
    destruct d as [|[|[|[|d]]]]; [right; left; reflexivity|left..|lia]; eexists; eexists; eexists; reflexivity.
Qed.

Lemma ex_compiled : model_compile (es_ph (ex_es [2; 1])) (fun _ => 0%R) ex_m ex_infos None = Ret (Some ex_b).
Proof. vm_compute. reflexivity. Qed.

Lemma ex_produces d : d < 4 -> forall args, call (es_ph (ex_es [2; 1])) d args ->
  exists L, produces ex_m ex_infos ex_b d L /\ match d with 1 => args = [0] /\ L = LReLU | 2 => args = [1] /\ L = LSigmoid | 3 => args = [2; 1] /\ L = LAdd | _ => False end.
Proof.
  intros H args (s & i & Hd). destruct d as [|[|[|[|d]]]]; [discriminate Hd| | | |lia]; injection Hd as _ _ <-.
  - exists LReLU. split; [|auto]. exists 0. eexists. eexists. eexists. split; [vm_compute; reflexivity|]. split; [reflexivity|]. split; [vm_compute; reflexivity|]. split; [vm_compute; reflexivity|reflexivity].
  - exists LSigmoid. split; [|auto]. exists 1. eexists. eexists. eexists. split; [vm_compute; reflexivity|]. split; [reflexivity|]. split; [vm_compute; reflexivity|]. split; [vm_compute; reflexivity|reflexivity].
  - exists LAdd. split; [|auto]. exists 2. eexists. eexists. eexists. split; [vm_compute; reflexivity|]. split; [reflexivity|]. split; [vm_compute; reflexivity|]. split; [vm_compute; reflexivity|reflexivity].
Qed.

Lemma tmapR_ok f t sh : ten_ok sh t -> ten_ok sh (tmapR f t).
Proof. intros [<- W]. split; [reflexivity|]. unfold twf; cbn. apply tab_length. Qed.

Lemma ex_evaluation E x : ten_ok [2; 3] x -> evaluation (es_ph (ex_es [2; 1])) [0] [3] [x] E (produces ex_m ex_infos ex_b) (ex_V x).
Proof.
  intros X. split; [repeat constructor|]. intros d args N C.
  assert (HD : d < 4).
  { apply Nat.lt_succ_r, (needed_le (es_ph (ex_es [2; 1]))); [apply store_links_back, built_ok, ex_built; auto|exact N]. }
  destruct (ex_produces d HD args C) as (L & P & Q). exists L. split; [exact P|].
  assert (T1 : ten_ok [2; 3] (ex_V x 1)) by (apply tmapR_ok, X). assert (T2 : ten_ok [2; 3] (ex_V x 2)) by (apply tmapR_ok, T1).
  assert (T3 : ten_ok [2; 3] (ex_V x 3)) by (apply tmapR_ok, T1).
  destruct d as [|[|[|[|d]]]]; [destruct Q| | | |lia]; destruct Q as [-> ->]; (split; [assumption|]); eexists; intros o [So Wo].
  - cbn [map lforward]. change (dims (es_ph (ex_es [2; 1])) 1) with [2; 3] in So. destruct X as [Sx Wx]. cbn [ex_V]. rewrite act_forward_Ok by congruence. reflexivity.
  - cbn [map lforward]. change (dims (es_ph (ex_es [2; 1])) 2) with [2; 3] in So. destruct T1 as [Sx Wx]. cbn [ex_V] in *. rewrite act_forward_Ok by congruence. reflexivity.
  - change (dims (es_ph (ex_es [2; 1])) 3) with [2; 3] in So. destruct T1 as [S1 W1], T2 as [S2 W2], T3 as [S3 W3].
    destruct (add_spec (E 3) (ex_V x 2) (ex_V x 1) o W2 W1 ltac:(congruence) (conj (eq_trans So (eq_sym S2)) Wo)) as (o' & H & [So' Wo'] & F & _).
    cbn [map]. rewrite H. f_equal. f_equal. apply (ten_eq [2; 3]); [split; congruence|split; assumption|]. intros i Hi.
    rewrite F by (unfold tot; rewrite W2, S2; exact Hi).
    destruct X as [SX WX]. cbn [ex_V tmapR tsh tdat]. rewrite SX. rewrite !nth_tab by exact Hi. reflexivity.
Qed.

Example C37_nonvacuous : forall (E : nat -> env) (x o : ten), ten_ok [2; 3] x -> ten_ok [2; 3] o ->
  constructed (ex_es [2; 1]) [0] [3] ex_m /\ closed (es_ph (ex_es [2; 1])) [0] [3] /\
  model_compile (es_ph (ex_es [2; 1])) (fun _ => 0%R) ex_m ex_infos None = Ret (Some ex_b) /\
  evaluation (es_ph (ex_es [2; 1])) [0] [3] [x] E (produces ex_m ex_infos ex_b) (ex_V x) /\
  links_ok (es_ph (ex_es [2; 1])) [3] (produces ex_m ex_infos ex_b) /\
  exists i b, model_forward E ex_m ex_infos (Some ex_b) [x] [o] = Ret (i, b, [x], [ex_V x 3]).
Proof.
  intros E x o X O. split; [exact ex_constructed|]. split; [exact ex_closed|]. split; [exact ex_compiled|].
  pose proof (ex_evaluation E x X) as EV. split; [exact EV|].
  assert (LO : links_ok (es_ph (ex_es [2; 1])) [3] (produces ex_m ex_infos ex_b)).
  { intros d L (j & op & L0 & li & Hj & <- & _). left. vm_compute in Hj. destruct j as [|[|[|j]]]; try (injection Hj as <-; vm_compute; reflexivity). destruct j; discriminate Hj. }
  split; [exact LO|]. destruct (C37_compile_prepares _ _ _ _ _ _ _ _ ex_constructed ex_compiled) as (b' & Eb & BF & _). apply (f_equal (fun o => match o with Some z => z | None => ex_b end)) in Eb. cbv beta iota in Eb. subst b'.
  destruct (C37_forward_evaluates _ _ _ _ ex_infos ex_b E (ex_V x) [x] [o] ex_constructed ex_closed BF) as (i & b & H & _).
  - repeat constructor; apply X.
  - repeat constructor; apply O.
  - exact EV.
  - exact LO.
  - exists i, (Some b). exact H.
Qed.

Example C34_run_nonvacuous :
  (forall d L, produces ex_m ex_infos ex_b d L -> visits (es_ph (ex_es [2; 1])) [3] d = 1) /\
  exists es' m b,
    construct_model (by_age 4) [0] [3] (ex_es [1; 2]) = RVal es' m /\ new_backend (es_ph es') (fun _ => 0%R) m (es_info es') = Ok b /\
    visits (es_ph (ex_es [1; 2])) [3] 1 = 2 /\ produces m (es_info es') b 1 LReLU /\
    forall E x o, ten_ok [2; 3] x -> ten_ok [2; 3] o -> model_forward E m (es_info es') (Some b) [x] [o] = Exc (es_info es', Some (mkB (b_layers b) [x; nth 1 (b_mem b) x; nth 2 (b_mem b) x; o] (b_grad b)), [x], [o]).
Proof.
  split.
  - intros d L (j & op & L0 & li & Hj & <- & _). vm_compute in Hj. destruct j as [|[|[|j]]]; try (injection Hj as <-; vm_compute; reflexivity). destruct j; discriminate Hj.
  - eexists. eexists. eexists. split; [vm_compute; reflexivity|]. split; [vm_compute; reflexivity|]. split; [vm_compute; reflexivity|]. split.
    + exists 0. eexists. eexists. eexists. split; [reflexivity|]. split; [reflexivity|]. split; [reflexivity|]. split; reflexivity.
    + intros E x o X O. cbn. reflexivity.
Qed.

Example C40_nonvacuous :
  let ps := es_ph (ex_es [2; 1]) in
  acts ps ex_m [Train false; Forward (fun _ => mkEnv (fun _ => 0%R) (fun _ => 0) (fun _ => 0%R) (fun _ _ => 0)) [] []] (ex_infos, None) = Some (ex_infos, None) /\
  act ps ex_m (Compile (fun _ => 0%R)) (ex_infos, None) = Some ((ex_infos, Some ex_b), false).
Proof. cbn zeta. split; vm_compute; reflexivity. Qed.

(** A Linear layer: train(false) freezes both parameters, and only train flags change. *)
Example C41_nonvacuous : forall p q,
  exists es' m, construct_model (by_age 2) [0] [1] (ex_linear p q) = RVal es' m /\
    map snd (params_view m (es_info es')) = [p; q] /\
    map snd (params_view m (model_train false m (es_info es'))) = [mkP (p_data p) (p_grad p) false; mkP (p_data q) (p_grad q) false].
Proof. intros p q. eexists. eexists. split; [vm_compute; reflexivity|]. split; reflexivity. Qed.
