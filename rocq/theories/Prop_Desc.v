(** Property C55: a training iteration is a step along the gradient of the loss. *)
From Coq Require Import Reals String Lia Lra.
From Verif Require Import Base BaseFacts Sums Deriv M_Kernels M_Layers M_Optim M_Loss M_Nn M_Graph M_Model M_Backend M_Train
  S_Grad S_Partial S_Graph S_Run S_Fit S_Primed S_Optim S_Loss S_Train S_Desc S_Plain
  P_Graph P_Graph2 P_Nn P_Model P_Model2 P_Loss P_Run P_Fwd P_Load P_Fwd2 P_Run2 P_Fit P_Train P_Train2 P_Train3 P_Optim P_Plain P_Desc
  Prop_Graph Prop_Model Prop_Run Prop_Bwd Prop_Train Prop_Plain.
Local Open Scope string_scope.
Open Scope nat_scope.
Local Open Scope list_scope.

(** ** C55 *)
(** [step()] on an optimizer of a model: the parameters of the model afterwards are exactly what the
    optimizer makes of the parameters before (see C27-C29); nothing else of the model changes. *)
Theorem C55_step_changes_the_model :
  forall (es : estore) (ins outs : list nat) (m : model) (infos : list linfo) (o : optimizer),
  constructed es ins outs m -> params_sound m infos -> opt_fits m infos o ->
  exists infos' o', model_step o m infos = Ret (infos', o') /\
    opt_step o (params_view m infos) = Ret (params_view m infos', o') /\ map fst (params_view m infos') = map fst (m_params m) /\
    Forall2 (fun li li' => li_name li' = li_name li /\ li_type li' = li_type li /\ li_attrs li' = li_attrs li /\ li_bufs li' = li_bufs li) infos infos' /\
    (forall r, (forall key, ~ In (key, r) (m_params m)) -> get_par infos' r = get_par infos r).
Proof.
  intros es ins outs m infos o C SD OF. destruct (constructed_params _ _ _ _ C) as (ND & RF). pose proof (params_injective _ _ _ _ C) as INJ.
  destruct (step_moved m ND RF infos o SD OF) as (infos' & o' & ES & _).
  unfold model_step in ES. destruct (opt_step o (params_view m infos)) as [[pm o2]|[pm o2]|] eqn:OS; try discriminate. injection ES as <- <-.
  assert (KE : map fst pm = map fst (m_params m)) by (rewrite (opt_keys _ _ _ _ OS); apply view_keys, SD).
  exists (params_write m pm infos), o2. unfold model_step. rewrite OS. rewrite view_write by assumption.
  split; [reflexivity|]. split; [reflexivity|]. split; [exact KE|]. split; [eapply Forall2_weaken; [|apply write_frame]; intros li li' (A1 & A2 & A3 & A4 & A5); repeat split; congruence|]. intros r Hr. apply write_other_gen, Hr.
Qed.
Print Assumptions C55_step_changes_the_model.

(** One iteration of the training loop of the samples: forward, loss, gradient of the loss, backward, step.
    [V] is the evaluation of the expression on the batch.  The iteration returns the mean negative
    log-likelihood of the labels, leaves everything usable, and the optimizer makes its step with [pm]:
    the parameters as they were, where element [e] of the gradient of a parameter is the derivative of the
    loss with respect to that element ([out s] is what forward returns when the element is moved by [s]). *)
Theorem C55_iteration_steps_along_the_gradient :
  forall (es : estore) (i o : nat) (m : model) (n c : nat) (lab : nat -> nat) (X y : ten)
         (ran : bool) (infos : list linfo) (b : backend) (opt : optimizer) (crit : ce) (P G : ten) (E E2 : nat -> env) (EL : env) (V : nat -> ten),
  constructed es [i] [o] m -> closed (es_ph es) [i] [o] -> dims (es_ph es) o = [n; c] -> 0 < n ->
  ten_ok (dims (es_ph es) i) X -> labels n c y lab ->
  usable ran (es_ph es) [o] m infos b -> opt_fits m infos opt -> (forall d, fair (E d)) -> ce_ok crit -> ten_ok [n; c] P -> ten_ok [n; c] G ->
  evaluation (es_ph es) [i] [o] [X] E (produces m infos b) V ->
  (forall k, k < n -> (0 < (tdat (V o)).[k * c + lab k])%R) ->
  (forall d args L, needed (es_ph es) [o] d -> call (es_ph es) d args -> produces m infos b d L ->
     smooth (E d) L (map V args) (dims (es_ph es) d) /\ (overwrites L = true -> exclusive (es_ph es) [o] d args)) ->
  exists infos' b' opt' crit' G' pm,
    train_iteration m E E2 EL X y (mkLoop (mkTS infos (Some b) opt) crit P G) =
      Ret (Some (mkLoop (mkTS infos' (Some b') opt') crit' (V o) G', Some (mean_nll n c lab (V o)))) /\
    usable true (es_ph es) [o] m infos' b' /\ opt_fits m infos' opt' /\ ce_ok crit' /\ ten_ok [n; c] G' /\
    opt_step opt pm = Ret (params_view m infos', opt') /\ pmap_ok pm /\ map fst pm = map fst (m_params m) /\
    forall op L key p name, In op (m_ops m) -> produces m infos b (mo_ph op) L -> In key (param_names L) ->
      In (name, (mo_info op, key)) (m_params m) -> get_par infos (mo_info op, key) = Some p ->
      exists q, In (name, q) pm /\ p_data q = p_data p /\ p_train q = p_train p /\
      forall e, e < tot (p_data p) -> exists out,
        (forall s T, ten_ok [n; c] T -> exists i' b',
           model_forward E m (move_par infos (mo_info op, key) e s) (Some b) [X] [T] = Ret (i', Some b', [X], [out s])) /\
        derivable_pt_lim (fun s => mean_nll n c lab (out s)) 0 (tdat (p_grad q)).[e].
Proof.
  intros es i o m n c lab X y ran infos b opt crit P G E E2 EL V C CL DO Hn TX LB U OF FE CE TP TG EV POS SM.
  destruct (iteration_runs es i o m n c lab X y C CL DO Hn TX LB ran infos b opt crit P G E E2 EL V U OF FE CE TP TG EV POS)
    as (infos1 & b1 & crit' & go & infos2 & b2 & G' & infos' & opt' & EF & Tgo & Vgo & EB & SD2 & OS & FR & ET & U' & OF' & CE' & TG' & _).
  exists infos', b2, opt', crit', G', (params_view m infos2). destruct (constructed_params _ _ _ _ C) as (ND & RF).
  split; [exact ET|]. split; [exact U'|]. split; [exact OF'|]. split; [exact CE'|]. split; [exact TG'|]. split; [exact OS|].
  split; [apply view_ok; assumption|]. split; [apply view_keys, SD2|].
  intros op L key p name Hop PL Hk Hname HG.
  destruct (iteration_gradients es i o m n c lab X y C CL DO Hn TX LB ran infos b P E E2 V U FE TP EV POS
              (fun d args L N Ca PL => proj2 (SM d args L N Ca PL)) (fun d args L N Ca PL => proj1 (SM d args L N Ca PL))
              infos1 b1 go infos2 b2 G' EF Tgo Vgo EB op L key p Hop PL Hk HG) as (q & HQ & D & T & K).
  exists q. split; [eapply view_has; eassumption|]. auto.
Qed.
Print Assumptions C55_iteration_steps_along_the_gradient.

(** With SGD: every trainable parameter moves against the gradient of the loss, by the learning rate. *)
Theorem C55_sgd_iteration_is_gradient_descent :
  forall (es : estore) (i o : nat) (m : model) (n c : nat) (lab : nat -> nat) (X y : ten)
         (ran : bool) (infos : list linfo) (b : backend) (lr : R) (crit : ce) (P G : ten) (E E2 : nat -> env) (EL : env) (V : nat -> ten),
  constructed es [i] [o] m -> closed (es_ph es) [i] [o] -> dims (es_ph es) o = [n; c] -> 0 < n ->
  ten_ok (dims (es_ph es) i) X -> labels n c y lab ->
  usable ran (es_ph es) [o] m infos b -> (forall d, fair (E d)) -> ce_ok crit -> ten_ok [n; c] P -> ten_ok [n; c] G ->
  evaluation (es_ph es) [i] [o] [X] E (produces m infos b) V ->
  (forall k, k < n -> (0 < (tdat (V o)).[k * c + lab k])%R) ->
  (forall d args L, needed (es_ph es) [o] d -> call (es_ph es) d args -> produces m infos b d L ->
     smooth (E d) L (map V args) (dims (es_ph es) d) /\ (overwrites L = true -> exclusive (es_ph es) [o] d args)) ->
  exists infos' b' crit' G',
    train_iteration m E E2 EL X y (mkLoop (mkTS infos (Some b) (SGD lr)) crit P G) =
      Ret (Some (mkLoop (mkTS infos' (Some b') (SGD lr)) crit' (V o) G', Some (mean_nll n c lab (V o)))) /\
    usable true (es_ph es) [o] m infos' b' /\
    forall op L key p, In op (m_ops m) -> produces m infos b (mo_ph op) L -> In key (param_names L) -> get_par infos (mo_info op, key) = Some p ->
      exists p', get_par infos' (mo_info op, key) = Some p' /\ (p_train p = false -> p_data p' = p_data p) /\
      forall e, e < tot (p_data p) -> exists out D,
        (forall s T, ten_ok [n; c] T -> exists i' b',
           model_forward E m (move_par infos (mo_info op, key) e s) (Some b) [X] [T] = Ret (i', Some b', [X], [out s])) /\
        derivable_pt_lim (fun s => mean_nll n c lab (out s)) 0 D /\
        (p_train p = true -> (tdat (p_data p')).[e] = (tdat (p_data p)).[e] - lr * D)%R.
Proof.
  intros es i o m n c lab X y ran infos b lr crit P G E E2 EL V C CL DO Hn TX LB U FE CE TP TG EV POS SM.
  destruct (C55_iteration_steps_along_the_gradient es i o m n c lab X y ran infos b (SGD lr) crit P G E E2 EL V C CL DO Hn TX LB U I FE CE TP TG EV POS SM)
    as (infos' & b' & opt' & crit' & G' & pm & ET & U' & _ & _ & _ & OS & OK & KE & K).
  cbn [opt_step] in OS. destruct (sgd_spec lr pm OK) as (pm' & ES & KE' & _ & V'). rewrite ES in OS. injection OS as EP <-.
  exists infos', b', crit', G'. split; [exact ET|]. split; [exact U'|].
  intros op L key p Hop PL Hk HG. destruct (constructed_params _ _ _ _ C) as (ND & RF).
  destruct (proj2 (proj2 (proj2 U)) op key p Hop HG) as (name & Hname).
  destruct (K op L key p name Hop PL Hk Hname HG) as (q & Hq & D & T & KK).
  destruct (V' name q Hq) as (p' & Hp' & _ & _ & _ & V1 & V2). rewrite EP in Hp'. destruct (view_in _ _ _ _ Hp') as (r & Hr & Gr).
  assert (r = (mo_info op, key)) as -> by (eapply in_unique; [exact ND|exact Hr|exact Hname]).
  exists p'. split; [exact Gr|]. rewrite <- T, <- D. split; [intros F; rewrite (V1 F); reflexivity|].
  intros e He. rewrite <- D in KK. destruct (KK e He) as (out & F & DD). exists out, (tdat (p_grad q)).[e]. split; [exact F|]. split; [exact DD|]. intros TT. apply V2; assumption.
Qed.
Print Assumptions C55_sgd_iteration_is_gradient_descent.

(** A model whose last layer is Softmax: any number of iterations on batches of samples with labels, with
    any optimizer.  Every iteration returns, every loss is a nonnegative number, and the model, the
    optimizer and the criterion can be used further. *)
Theorem C55_training_a_classifier :
  forall (es : estore) (i o : nat) (m : model) (n c : nat) (bs : list batch)
         (ran : bool) (infos : list linfo) (b : backend) (opt : optimizer) (crit : ce) (P G : ten),
  constructed es [i] [o] m -> closed (es_ph es) [i] [o] -> dims (es_ph es) o = [n; c] -> 0 < n ->
  Forall (batch_ok n c (dims (es_ph es) i)) bs ->
  usable ran (es_ph es) [o] m infos b -> ends_in_softmax m b o -> opt_fits m infos opt -> ce_ok crit -> ten_ok [n; c] P -> ten_ok [n; c] G ->
  exists infos' b' opt' crit' P' G' losses,
    train_batches m bs (mkLoop (mkTS infos (Some b) opt) crit P G) =
      Ret (Some (mkLoop (mkTS infos' (Some b') opt') crit' P' G', map Some losses)) /\
    length losses = length bs /\ Forall (fun l => 0 <= l)%R losses /\
    usable (if bs then ran else true) (es_ph es) [o] m infos' b' /\ ends_in_softmax m b' o /\ opt_fits m infos' opt' /\ ce_ok crit' /\ ten_ok [n; c] P' /\ ten_ok [n; c] G'.
Proof.
  intros es i o m n c bs. induction bs as [|x bs IH]; intros ran infos b opt crit P G C CL DO Hn BS U SM OF CE TP TG.
  - exists infos, b, opt, crit, P, G, []. repeat (split; [first [reflexivity|assumption|constructor]|]). exact TG.
  - inversion BS as [|? ? (FE & TX & lab & LB) BS']; subst. cbn [train_batches].
    assert (SI : shaped (es_ph es) [i] [b_X x]) by (constructor; [exact TX|constructor]).
    destruct (C37_fitting_models_can_be_evaluated es [i] [o] m infos b (b_fwd x) [b_X x] C CL SI FE) as (V & EV & _).
    { intros d args N Ca. destruct (proj1 (proj2 U) d args N Ca) as (L & PL & FT & _). exists L. split; [exact PL|]. destruct ran; [apply FT|exact FT]. }
    pose proof (softmax_positive es i o m n c C CL DO ran infos b (b_fwd x) (b_X x) V U SM EV TX) as POS.
    assert (POS' : forall k, k < n -> (0 < (tdat (V o)).[k * c + lab k])%R) by (intros k Hk; apply POS; [exact Hk|apply LB, Hk]).
    destruct (iteration_runs es i o m n c lab (b_X x) (b_y x) C CL DO Hn TX LB ran infos b opt crit P G (b_fwd x) (b_bwd x) (b_loss x) V U OF FE CE TP TG EV POS')
      as (infos1 & b1 & crit' & go & infos2 & b2 & G' & infos' & opt' & EF & Tgo & Vgo & EB & SD2 & OS & FR & ET & U' & OF' & CE' & TG' & KI).
    rewrite ET. assert (TV : ten_ok [n; c] (V o)) by (eapply out_value; eassumption).
    destruct (IH true infos' b2 opt' crit' (V o) G' C CL DO Hn BS' U' (kind_softmax o m _ _ KI SM) OF' CE' TV TG') as (i3 & b3 & o3 & c3 & P3 & G3 & ls & E3 & L3 & N3 & U3 & R3).
    rewrite E3. exists i3, b3, o3, c3, P3, G3, (mean_nll n c lab (V o) :: ls). split; [reflexivity|]. split; [cbn; congruence|]. split.
    + constructor; [|exact N3]. destruct (ce_forward_spec (b_loss x) crit n c (V o) (b_y x) lab Hn CE TV LB POS') as (_ & _ & _ & NN).
      apply NN. intros k Hk. apply POS; [exact Hk|apply LB, Hk].
    + split; [|exact R3]. destruct bs; exact U3.
Qed.
Print Assumptions C55_training_a_classifier.

(** ** Example: Linear and Softmax, any input of the right shape, any label *)
Definition ex6_layers : list made := [mkMade ex_ie (ALinear 4) [[2; 3]] [2; 4]; mkMade ex_ie ASoftmax [[2; 4]] [2; 4]].
Definition ex6_es : estore :=
  fold_left (fun es x => mkES (es_ph es ++ [mkPh (zs (md_out x)) (Some (length (es_info es), [length (es_info es)]))])
                              (es_info es ++ [description (md_draws x) (md_layer x) (md_in x) ""]))
            ex6_layers (fst (new_input (zs [2; 3]) es0)).
Definition ex6_made : estore * model := match construct_model (by_age 3) [0] [2] ex6_es with RVal e m => (e, m) | _ => (es0, ex_m) end.
Lemma ex6_plain : plain ex6_es ex6_layers.
Proof.
  pose proof (plain_input _ _ [2; 3] plain_start ltac:(small_goal)) as P.
  assert (W : forall l shs osh, result l shs osh -> Forall proper shs -> proper osh -> (forall w i o, weight_of l shs = Some (w, i, o) -> small (prodN w) /\ small (i + o)) -> meant_for l shs osh) by (intros; split; auto).
  eapply (plain_next _ _ ex_ie (ALinear 4) "" [0] [[2; 3]] [2; 4]) in P; [|constructor; [eexists; split; reflexivity|constructor]|].
  2:{ apply W; [constructor; [discriminate|lia]|repeat constructor; small_goal|small_goal|intros w i o E; injection E as <- <- <-; split; unfold small; cbn; lia]. }
  eapply (plain_next _ _ ex_ie ASoftmax "" [1] [[2; 4]] [2; 4]) in P; [|constructor; [eexists; split; reflexivity|constructor]|].
  2:{ apply W; [constructor|repeat constructor; small_goal|small_goal|discriminate]. }
  exact P.
Qed.

Example C55_nonvacuous :
  exists b, constructed ex6_es [0] [2] (snd ex6_made) /\ closed (es_ph ex6_es) [0] [2] /\ dims (es_ph ex6_es) 0 = [2; 3] /\ dims (es_ph ex6_es) 2 = [2; 4] /\
    usable false (es_ph ex6_es) [2] (snd ex6_made) (es_info (fst ex6_made)) b /\ ends_in_softmax (snd ex6_made) b 2 /\
    (forall E V d args L, needed (es_ph ex6_es) [2] d -> call (es_ph ex6_es) d args -> produces (snd ex6_made) (es_info (fst ex6_made)) b d L ->
       smooth (E d) L (map V args) (dims (es_ph ex6_es) d) /\ (overwrites L = true -> exclusive (es_ph ex6_es) [2] d args)) /\
    labels 2 4 (mkT [2; 1] [3; 1]%R) (fun i => if i =? 0 then 3 else 1) /\
    (exists op L p, In op (m_ops (snd ex6_made)) /\ produces (snd ex6_made) (es_info (fst ex6_made)) b (mo_ph op) L /\ In "weight" (param_names L) /\
       get_par (es_info (fst ex6_made)) (mo_info op, "weight") = Some p /\ tot (p_data p) = 12 /\ p_train p = true).
Proof.
  pose proof ex6_plain as PL. assert (B : built ex6_es) by (apply (plain_plain_ok _ _ PL)).
  assert (LK : links_back (es_ph ex6_es)) by (apply store_links_back, built_ok, B).
  assert (LT : forall d, needed (es_ph ex6_es) [2] d -> d <= 2) by (intros d N; apply (needed_le (es_ph ex6_es)); assumption).
  assert (VO : Forall (fun d => d < length (es_ph ex6_es)) [2]) by (repeat constructor).
  assert (BG : exists g, build (es_ph ex6_es) [0] [2] = Ok g /\ is_topo g (by_age 3 g)).
  { eexists. split; [vm_compute; reflexivity|]. eapply (by_age_topo (es_ph ex6_es) [0] [2]); [exact LK| |vm_compute; reflexivity]. intros o [<-|[]]. vm_compute. lia. }
  destruct BG as (g & BG & TO).
  assert (CM : construct_model (by_age 3) [0] [2] ex6_es = RVal (fst ex6_made) (snd ex6_made)) by (vm_compute; reflexivity).
  assert (RW : reached_well ex6_es ex6_layers [2]).
  { intros d s i args N _. left. specialize (LT d N). do 3 (destruct d as [|d]; [vm_compute; reflexivity|]). lia. }
  destruct (C54_compiled_models_are_usable ex6_es ex6_layers (by_age 3) [0] [2] g (fst ex6_made) (snd ex6_made) (fun _ => 0%R) None PL VO BG TO CM RW) as (b & EC & U & PR).
  assert (C : constructed ex6_es [0] [2] (snd ex6_made)) by (split; [exact B|split; [exact VO|exists (by_age 3), g, (fst ex6_made); auto]]).
  pose proof (constructed_mfacts _ _ _ _ C) as MF. exists b. split; [exact C|]. split.
  { split; [repeat constructor; intros []|]. split; [repeat constructor; intros []|]. split; [|split].
    - intros d [<-|[]] (args & s & i & H). discriminate H.
    - intros d [<-|[]]. eexists. eexists. eexists. reflexivity.
    - intros d N. specialize (LT d N). destruct d as [|d]; [right; left; reflexivity|left]. do 2 (destruct d as [|d]; [eexists; eexists; eexists; reflexivity|]). lia. }
  split; [reflexivity|]. split; [reflexivity|]. split; [exact U|].
  assert (N2 : needed (es_ph ex6_es) [2] 2) by (apply need_out; left; reflexivity).
  assert (N1 : needed (es_ph ex6_es) [2] 1) by (eapply need_arg; [exact N2|eexists; eexists; reflexivity|left; reflexivity]).
  pose proof (PR 2 _ _ _ _ N2 eq_refl eq_refl) as P2. pose proof (PR 1 _ _ _ _ N1 eq_refl eq_refl) as P1. cbn [md_draws md_layer md_in] in P1, P2.
  split.
  { pose proof P2 as (j & op & L0 & li & H1 & H2 & H3 & H4 & H5). exists j, op. split; [exact H1|]. split; [exact H2|]. rewrite H3. destruct L0; cbn in H5; inv_ok H5; try discriminate H5. reflexivity. }
  split; [|split].
  - intros E V d args L N Ca PL'. specialize (LT d N). destruct d as [|[|[|d]]]; [destruct Ca as (s & i & Ca); discriminate Ca| | |lia].
    + rewrite (produces_fun _ _ _ _ MF _ _ _ _ _ PL' P1). split; [exact I|discriminate].
    + rewrite (produces_fun _ _ _ _ MF _ _ _ _ _ PL' P2). split; [exact I|discriminate].
  - split; [split; reflexivity|]. split; [unfold int_max; cbn; lia|]. intros i Hi. destruct i as [|[|i]]; [| |lia]; cbn; split; try lia; lra.
  - pose proof P1 as (j & op & L0 & li & H1 & H2 & _). assert (Hop : In op (m_ops (snd ex6_made))) by (eapply nth_error_In, H1).
    exists op. eexists. eexists. split; [exact Hop|]. split; [rewrite H2; exact P1|]. split; [left; reflexivity|].
    assert (mo_info op = 0) as -> by (clear -Hop H2; vm_compute in Hop; destruct Hop as [<-|[<-|[]]]; [reflexivity|discriminate H2]).
    split; [vm_compute; reflexivity|]. split; reflexivity.
Qed.
