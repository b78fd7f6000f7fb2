(** Training as descent: iterations, epochs and whole programs. *)
From Coq Require Import Reals String Lia Lra Permutation.
From Verif Require Import Base BaseFacts Sums M_Tensor M_Layers M_Kernels M_Im2col M_Optim M_Init M_Loss M_Nn M_Graph M_Model M_Backend M_DataLoader M_Train M_Sample
  S_Grad S_Partial S_Loss S_DataLoader S_Optim S_Fit S_Graph S_Run S_Train S_Plain S_Desc S_Eval S_Build S_Sample S_Saved S_Descent
  P_Kernels P_Layers P_Fit P_Optim P_Nn P_Load P_Graph P_Model P_Run P_Fwd P_Fwd2 P_Run2 P_Train2 P_Train3 P_Plain P_Desc P_Eval P_Saved P_Saved2 P_Saved5 P_Saved6 P_Saved9 P_Sample P_Sample2 P_Descent P_Descent2
  Prop_Graph Prop_Model Prop_Run Prop_Bwd Prop_Train Prop_Plain Prop_Desc Prop_Eval.
Local Open Scope string_scope.
Open Scope nat_scope.
Local Open Scope list_scope.

Lemma view_trains m infos infos' : NoDup (map fst (m_params m)) -> params_sound m infos -> params_sound m infos' ->
  (forall k, option_map p_train (find_key (params_view m infos') k) = option_map p_train (find_key (params_view m infos) k)) -> trains m infos -> trains m infos'.
Proof.
  intros ND SD SD' H TR key r Hr. pose proof (TR key r Hr) as T. destruct (SD key r Hr) as (p & G & _), (SD' key r Hr) as (p' & G' & _). rewrite G in T. rewrite G'. cbn in *.
  specialize (H key). rewrite (P_Run2.find_In_unique (params_view m infos) key p), (P_Run2.find_In_unique (params_view m infos') key p') in H; [cbn in H; congruence|..];
    try (rewrite view_keys by assumption; exact ND); eapply view_has; eassumption.
Qed.

Section Table.
Variables (I : nat -> ienv) (n c : nat) (rest : list nat) (t : list row).
Hypothesis CLS : classifier n c rest t.
Hypothesis DF : differentiable t.
Notation es := (expression I (n :: rest) t).
Notation o := (length t).
Variables (order : graph -> list gnode) (g : graph) (es' : estore) (m : model) (junk : nat -> R) (b0 : backend).
Hypothesis BG : build (es_ph es) [0] [o] = Ok g.
Hypothesis TO : is_topo g (order g).
Hypothesis CM : construct_model order [0] [o] es = RVal es' m.
Hypothesis CB : model_compile (es_ph es) junk m (es_info es') None = Ret (Some b0).
Hypothesis N0 : 0 < n.

Definition rigged (s : loop) : Prop := rig (es_info es') (Some b0) (ts_info (l_ts s)) (ts_backend (l_ts s)).
Definition going (s : loop) : Prop := loop_ok es o m n c s /\ rigged s /\ trains m (ts_info (l_ts s)).

Lemma going_iteration s x lab : going s -> (forall d, fair (b_fwd x d)) -> ten_ok (n :: rest) (b_X x) -> labels n c (b_y x) lab ->
  exists s', (exists V, values_in I n rest t m s x V) /\
    (forall V, values_in I n rest t m s x V ->
       train_iteration m (b_fwd x) (b_bwd x) (b_loss x) (b_X x) (b_y x) s = Ret (Some (s', Some (mean_nll n c lab (V o)))) /\
       (away_from_kinks t V -> descends m n c lab x s s')) /\ going s'.
Proof.
  intros ((ran & infos & b & opt & crit & P & G0 & -> & U & SMX & OF & CE & TP & TG) & RI & TR) FE TX LB. unfold rigged in RI. cbn [l_ts ts_info ts_backend] in RI, TR.
  pose proof (tb_constructed I n c rest t CLS order g es' m BG TO CM) as CO. pose proof (table_closed I n c rest t CLS) as CL. pose proof (table_dims_out I n c rest t CLS) as DO.
  destruct (constructed_params _ _ _ _ CO) as (ND & RF).
  assert (TX' : ten_ok (dims (es_ph es) 0) (b_X x)) by (rewrite table_dims_in; exact TX).
  assert (SI : shaped (es_ph es) [0] [b_X x]) by (constructor; [exact TX'|constructor]).
  destruct (C37_fitting_models_can_be_evaluated es [0] [o] m infos b (b_fwd x) [b_X x] CO CL SI FE) as (V & EV & _).
  { intros d args N Ca. destruct (proj1 (proj2 U) d args N Ca) as (L & PL & FT & _). exists L. split; [exact PL|]. destruct ran; [apply FT|exact FT]. }
  assert (PS : forall V, evaluation (es_ph es) [0] [o] [b_X x] (b_fwd x) (produces m infos b) V -> forall k, k < n -> (0 < (tdat (V o)).[k * c + lab k])%R).
  { intros V1 EV1 k Hk. apply (softmax_positive es 0 o m n c CO CL DO ran infos b (b_fwd x) (b_X x) V1 U SMX EV1 TX' k (lab k) Hk). apply LB, Hk. }
  destruct (iteration_runs es 0 o m n c lab (b_X x) (b_y x) CO CL DO N0 TX' LB ran infos b opt crit P G0 (b_fwd x) (b_bwd x) (b_loss x) V U OF FE CE TP TG EV (PS V EV))
    as (infos1 & b1 & crit' & go & infos2 & b2 & G' & infos' & opt' & EF & Tgo & Vgo & EB & SD2 & OS & FR & ET & U' & OF' & CE' & TG' & KI).
  set (s' := mkLoop (mkTS infos' (Some b2) opt') crit' (V o) G') in *. exists s'. split; [|split].
  - exists V, b. split; [reflexivity|exact EV].
  - intros V1 (b' & Eb & EV1). injection Eb as <-. cbn [l_ts ts_info] in EV1.
    destruct (iteration_runs es 0 o m n c lab (b_X x) (b_y x) CO CL DO N0 TX' LB ran infos b opt crit P G0 (b_fwd x) (b_bwd x) (b_loss x) V1 U OF FE CE TP TG EV1 (PS V1 EV1))
      as (i1' & b1' & c1' & go' & i2' & b2' & G1' & i3' & o3' & _ & _ & _ & _ & _ & _ & _ & ET1 & _).
    rewrite ET in ET1. injection ET1 as _ _ _ _ EVo _ ELo. rewrite <- ELo. split; [exact ET|].
    intros AW. destruct (C55_iteration_steps_along_the_gradient es 0 o m n c lab (b_X x) (b_y x) ran infos b opt crit P G0 (b_fwd x) (b_bwd x) (b_loss x) V1 CO CL DO N0 TX' LB U OF FE CE TP TG EV1 (PS V1 EV1))
      as (i4 & b4 & o4 & c4 & G4 & pm & ET4 & _ & _ & _ & _ & OS4 & PO & PK & KK).
    { intros d args L N Ca PL. exact (tb_smooth I n c rest t CLS DF order g es' m junk b0 BG TO CM CB ran infos b U RI TR (b_fwd x) (b_X x) V1 TX EV1 AW d args L N Ca PL). }
    rewrite ET in ET4. injection ET4 as E1 _ E3 _ _ _ _. subst i4 o4.
    assert (Q : forall name r p, In (name, r) (m_params m) -> get_par infos r = Some p -> exists q, In (name, q) pm /\ p_data q = p_data p /\ p_train q = p_train p /\
      forall e, e < tot (p_data p) -> slope m n c lab x (mkLoop (mkTS infos (Some b) opt) crit P G0) r e (tdat (p_grad q)).[e]).
    { intros name r p Hr HG. destruct (tb_param I n c rest t CLS DF order g es' m junk b0 BG TO CM CB ran infos b U RI name r p Hr HG) as (op & L & Hop & PL & Ei & Hk).
      destruct r as [ri rk]. cbn [fst snd] in Ei, Hk. subst ri. destruct (KK op L rk p name Hop PL Hk Hr HG) as (q & Hq & Dq & Tq & Sq). exists q. split; [exact Hq|]. split; [exact Dq|]. split; [exact Tq|].
      intros e He. destruct (Sq e He) as (out & F & DD). exists out. split; [|exact DD]. intros s T HT. destruct (F s T HT) as (i5 & b5 & F5). exists i5, (Some b5). exact F5. }
    assert (NDP : NoDup (map fst pm)) by apply PO.
    assert (ALL : forall k q, In (k, q) pm -> exists r p, In (k, r) (m_params m) /\ get_par infos r = Some p /\ p_data q = p_data p).
    { intros k q Hq. assert (In k (map fst (m_params m))) as Hk by (rewrite <- PK; apply (in_map fst) in Hq; exact Hq).
      apply in_map_iff in Hk. destruct Hk as ((k' & r) & Ek & Hr). cbn in Ek. subst k'. destruct U as (_ & _ & SD & _). destruct (SD k r Hr) as (p & HG & _).
      destruct (Q k r p Hr HG) as (q' & Hq' & Dq & _). rewrite (NoDup_key _ _ _ _ NDP Hq Hq'). eauto. }
    assert (ST : stocked pm opt).
    { destruct opt as [lr|lr gamma vel|lr be1 be2 eps k [v1 v2]]; cbn [stocked]; [exact Logic.I| |].
      - intros k q Hq. destruct (ALL k q Hq) as (r & p & Hr & HG & ->). exact (OF k r p Hr HG).
      - intros k0 q Hq. destruct (ALL k0 q Hq) as (r & p & Hr & HG & ->). destruct OF as [O1 O2]. destruct (O1 k0 r p Hr HG) as (t1 & F1 & T1), (O2 k0 r p Hr HG) as (t2 & F2 & T2). exists t1, t2. auto. }
    intros name r p Hr HG. cbn [l_ts ts_info ts_opt] in *. destruct (Q name r p Hr HG) as (q & Hq & Dq & Tq & Sq).
    pose proof (TR name r Hr) as T1. rewrite HG in T1. injection T1 as T1. rewrite T1 in Tq.
    destruct (step_moves opt pm (params_view m infos') opt' PO ST OS4 name q Hq Tq) as (p' & Hp' & SH & MV).
    destruct (view_in _ _ _ _ Hp') as (r' & Hr' & HG'). rewrite (NoDup_key _ _ _ _ ND Hr' Hr) in HG'. exists p'. split; [exact HG'|]. rewrite <- Dq. split; [exact SH|].
    intros e He. exists (tdat (p_grad q)).[e]. split; [apply Sq; rewrite <- Dq; exact He|exact (MV e He)].
  - split; [|split].
    + exists true, infos', b2, opt', crit', (V o), G'. split; [reflexivity|]. split; [exact U'|]. split; [exact (kind_softmax o m _ _ KI SMX)|]. split; [exact OF'|]. split; [exact CE'|]. split; [|exact TG'].
      exact (out_value es 0 o m n c (b_X x) CL DO infos b (b_fwd x) V EV).
    + unfold rigged. eapply rig_trans; [exact RI|]. exact (iteration_rig _ _ _ _ _ _ _ _ _ ET).
    + cbn [s' l_ts ts_info]. apply (view_trains m infos2 infos' ND SD2).
      * apply U'.
      * intros k. apply (opt_flags _ _ _ _ OS).
      * eapply trains_flags; [eapply backward_flags, EB|]. eapply trains_flags; [eapply forward_flags, EF|]. exact TR.
Qed.

Lemma going_batches : forall bs s, going s -> Forall (batch_ok n c (n :: rest)) bs -> exists s1, descending I n c rest t m bs s s1 /\ going s1.
Proof.
  induction bs as [|x bs IH]; intros s GO F; [exists s; split; [reflexivity|exact GO]|]. inversion F as [|? ? (FE & TX & lab & LB) F']; subst.
  destruct (going_iteration s x lab GO FE TX LB) as (s' & EX & KV & GO'). destruct (IH s' GO' F') as (s1 & DE & G1). exists s1. split; [|exact G1]. cbn [descending].
  exists lab, s'. auto.
Qed.
Lemma descending_batches : forall bs s s1, descending I n c rest t m bs s s1 -> exists losses, train_batches m bs s = Ret (Some (s1, losses)).
Proof.
  induction bs as [|x bs IH]; intros s s1 H; cbn [descending train_batches] in *; [subst; eexists; reflexivity|].
  destruct H as (lab & s' & _ & (V & HV) & K & D). destruct (K V HV) as (ET & _). rewrite ET. destruct (IH _ _ D) as (ls & E). rewrite E. eexists. reflexivity.
Qed.
End Table.

Section Program.
Context {D1 D2 G : Type}.
Variables (next : G -> Z -> Z * G) (iter_order : list Z -> list Z) (fuel turns : nat) (world : nat -> outside).
Variables (order : graph -> list gnode) (net : Z -> prog (nat * nat)) (make_opt : pmap -> optimizer).
Variables (n c : nat) (rest : list nat) (t : list row) (I : nat -> ienv) (num_epochs freq : Z).
Variables (train_set : dataset R D1) (item1 : Z -> list R * list R) (label1 : Z -> nat).
Variables (test_set : dataset R D2) (item2 : Z -> list R * list R) (label2 : Z -> nat) (junk : nat -> R) (d1 : D1) (d2 : D2) (g : G).
Hypothesis NET : net (Z.of_nat n) es0 = RVal (expression I (n :: rest) t) (0, length t).
Hypothesis CLS : classifier n c rest t.
Hypothesis DF : differentiable t.
Hypothesis SRT : sorts order.
Hypothesis OPT : new_optimizer make_opt.
Hypothesis CI : (Z.of_nat c <= int_max)%Z.
Hypothesis LA1 : labelled train_set n c rest item1 label1.
Hypothesis LA2 : labelled test_set n c rest item2 label2.
Hypothesis RNG : in_range next.
Hypothesis PRM : forall l, Permutation (iter_order l) l.
Hypothesis ENO : enough next fuel n (ds_size train_set).
Hypothesis T1 : full train_set n < turns.
Hypothesis T2 : full test_set n < turns.
Hypothesis FRQ : freq <> 0%Z.
Hypothesis HF : forall k d, fair (o_fwd (world k) d).
Hypothesis HA : forall k, is_argmax (e_amax (o_acc (world k))).
Notation es := (expression I (n :: rest) t).

Lemma program_descends : exists es' m infos s s' out,
  train_main next iter_order fuel turns world order net make_opt (Z.of_nat n) num_epochs freq train_set test_set junk d1 d2 g = FDone ((out ++ [Saved])%list, es', m, infos) /\
  construct_model order [0] [length t] es = RVal es' m /\ constructed es [0] [length t] m /\ at_start I n c rest t m (es_info es') make_opt s /\
  descent_run I n c rest t m train_set item1 (Z.to_nat num_epochs) s s' /\ infos = ts_info (l_ts s').
Proof.
  destruct (program_start turns world order make_opt n c rest t I train_set test_set junk d1 d2 g CLS SRT OPT T1 T2 HF HA) as (es' & m & s & b0 & CO & CM & ST & EB0 & U0 & PREP & RD & N0 & C0 & PI).
  pose proof (table_closed I n c rest t CLS) as CL. pose proof (table_dims_out I n c rest t CLS) as DO. pose proof (table_dims_in I n rest t) as DI.
  assert (BT : forall d, needed (es_ph es) [length t] d -> exists sh, dims (es_ph es) d = n :: sh) by (intros d N; eapply table_batch; [exact CLS|exact N]).
  pose proof CM as (_ & _ & ord & gr & esx & BG & TOx & _). pose proof (SRT gr (ex_intro _ _ TOx)) as TO. clear TOx esx ord.
  destruct (compile_plain es _ order [0] [length t] gr es' m junk None (table_plain I n c rest t CLS) (tb_out I n rest t) BG TO CO (tb_well I n c rest t CLS)) as (b0' & CB & _).
  pose proof (construct_ph _ _ _ _ _ _ CO) as PH. pose proof ST as (bs & Ps & Es & _).
  assert (EB : b0' = b0).
  { unfold M_Sample.prepare in PREP. rewrite PH, CB in PREP. destruct (bind _ _) as [tt0| |] in PREP; try discriminate PREP. injection PREP as <-. cbn in EB0. congruence. }
  subst b0'.
  assert (HP : n <= Z.to_nat (ds_size train_set) -> forall g, exists u, NoDup u /\ length u = n /\ incl u (draws next fuel (ds_size train_set - 1) g)).
  { intros L gg. destruct LA1 as (_ & (Z0 & _) & _). apply ENO. lia. }
  assert (RUN : forall k e v, ready es (length t) m n c rest v -> rigged es' b0 (v_loop v) ->
    exists v', epochs next iter_order fuel turns world m (Z.of_nat n) freq train_set test_set k e v = FDone v' /\ descent_run I n c rest t m train_set item1 k (v_loop v) (v_loop v')).
  { induction k as [|k IH]; intros e v RD1 RG; cbn [epochs]; [exists v; split; [reflexivity|constructor]|].
    destruct (epoch_ok next iter_order fuel world es 0 (length t) m n c rest freq train_set item1 label1 test_set item2 label2 d2) with (turns := turns) (e := e) (s := v) as (v1 & losses & acc & E1 & RD2 & ER & _ & _);
      try assumption; auto.
    pose proof (epoch_rig _ _ _ _ _ _ _ _ _ _ _ _ _ E1) as RG1.
    assert (RG2 : rigged es' b0 (v_loop v1)) by (unfold rigged in *; eapply rig_trans; [exact RG|exact RG1]).
    rewrite E1. cbn [fbind]. destruct (IH (S e) v1 RD2 RG2) as (v' & E' & DR). exists v'. split; [exact E'|].
    destruct ER as (batches & s1 & EBA & LBA & _ & FBA & EI1 & EO1 & _).
    assert (GO : going I n c rest t es' m b0 (in_training m (v_loop v))).
    { split; [|split].
      - exact (set_mode_ok es 0 (length t) m n c CM true v (proj1 RD1)).
      - unfold rigged in *. eapply rig_trans; [exact RG|]. apply train_rig.
      - destruct RD1 as ((ran & infos & b & opt & crit & P & Gr & EL & U & _) & _). rewrite EL. cbn [in_training l_ts ts_info]. apply train_trains. apply U. }
    assert (BO : Forall (batch_ok n c (n :: rest)) batches).
    { revert FBA. apply Forall_impl. intros x (FE & idx & ND & RGI & BOx). destruct (batch_ten iter_order train_set n c rest item1 label1 N0 (conj C0 CI) LA1 PRM d1 idx _ _ RGI BOx) as (TX & Ty).
      split; [exact FE|]. split; [exact TX|]. eexists. exact Ty. }
    destruct (going_batches I n c rest t CLS DF order gr es' m junk b0 BG TO CO CB N0 batches _ GO BO) as (s1' & DE & _).
    destruct (descending_batches I n c rest t m batches _ _ DE) as (ls & ELS). unfold in_training in ELS. rewrite EBA in ELS. injection ELS as -> _.
    econstructor; [exact LBA| |exact DE|exact EI1|exact EO1|exact DR]. revert FBA. apply Forall_impl. intros x (_ & H). exact H. }
  destruct (RUN (Z.to_nat num_epochs) 0 _ RD) as (v' & EP & DR).
  { unfold rigged. cbn [v_loop]. rewrite Es in *. cbn in EB0. injection EB0 as ->. apply rig_refl. }
  destruct (train_main_runs next iter_order fuel turns world order net make_opt n c rest t I num_epochs freq train_set item1 label1 test_set item2 label2 junk d1 d2 g NET CLS SRT OPT CI LA1 LA2 RNG PRM ENO T1 T2 FRQ HF HA)
    as (es2 & m2 & infos & s2 & s2' & out & ran & b & TM & CO2 & _).
  rewrite CO in CO2. injection CO2 as <- <-.
  exists es', m, (ts_info (l_ts (v_loop v'))), s, (v_loop v'), out. split; [|auto 10].
  rewrite TM. unfold train_main, p_model, pbind in TM. rewrite NET in TM. cbn [fst snd] in TM. rewrite CO, PREP in TM. cbn [fbind] in TM. rewrite EP in TM. cbn [fbind print v_out] in TM. injection TM as _ <-. reflexivity.
Qed.
End Program.
