(** Property C38: backward computes the gradient of every parameter; and the part of C37 that says that
    models of fitting layers can be evaluated. *)
From Coq Require Import Reals String Lia Lra.
From Verif Require Import Base BaseFacts Sums M_Layers M_Kernels M_Optim M_Nn M_Graph M_Model M_Backend S_Grad S_Partial S_Graph S_Run S_Fit
  P_Graph P_Graph2 P_Nn P_BN P_Model P_Model2 P_Run P_Fwd P_Load P_Fwd2 P_Run2 P_Bwd P_Bwd2 P_Bwd3 P_Fit Prop_Graph Prop_Model Prop_Run.
Local Open Scope string_scope.
Open Scope nat_scope.
Local Open Scope list_scope.

(** ** C37: the evaluation exists *)
Theorem C37_fitting_models_can_be_evaluated :
  forall (es : estore) (ins outs : list nat) (m : model) (infos : list linfo) (b : backend) (E : nat -> env) (tins : list ten),
  constructed es ins outs m -> closed (es_ph es) ins outs -> shaped (es_ph es) ins tins -> (forall d, fair (E d)) ->
  (forall d args, needed (es_ph es) outs d -> call (es_ph es) d args ->
     exists L, produces m infos b d L /\ fits L (map (dims (es_ph es)) args) (dims (es_ph es) d)) ->
  exists V, evaluation (es_ph es) ins outs tins E (produces m infos b) V /\ forall d, needed (es_ph es) outs d -> ten_ok (dims (es_ph es) d) (V d).
Proof.
  intros es ins outs m infos b E tins C CL SI FE FT. pose proof (constructed_mfacts _ _ _ _ C) as MF. destruct C as (B & VO & _).
  assert (LB : links_back (es_ph es)) by (apply store_links_back, built_ok, B).
  apply (evaluation_exists _ _ _ _ MF CL LB E infos b tins SI FE FT). intros d N. eapply needed_lt; [|exact LB|exact N]. intros o Ho. rewrite Forall_forall in VO. auto.
Qed.
Print Assumptions C37_fitting_models_can_be_evaluated.

(** ** C38 *)
(** [V] is the evaluation of the expression.  Every layer has right gradients at the values of its
    arguments; a BatchNorm2D layer is the only consumer of its argument (it overwrites the gradient of its
    input, see C24).  After forward and backward, element [e] of the gradient stored for parameter [key] of
    the layer of operation [op] is the derivative of the sum over the outputs of <output gradient, output>
    with respect to that element: [Ov s] are the outputs forward returns when the element is moved by [s]. *)
Theorem C38_backward_computes_gradients :
  forall (es : estore) (ins outs : list nat) (m : model) (infos : list linfo) (b : backend)
         (E : nat -> env) (V : nat -> ten) (tins touts : list ten),
  constructed es ins outs m -> closed (es_ph es) ins outs -> backend_fits (es_ph es) m b ->
  shaped (es_ph es) ins tins -> shaped (es_ph es) outs touts ->
  evaluation (es_ph es) ins outs tins E (produces m infos b) V -> links_ok (es_ph es) outs (produces m infos b) ->
  (forall d args L, needed (es_ph es) outs d -> call (es_ph es) d args -> produces m infos b d L ->
     right_gradients (E d) L (map V args) (map (dims (es_ph es)) args) (dims (es_ph es) d) /\
     (overwrites L = true -> exclusive (es_ph es) outs d args)) ->
  exists infos1 b1,
    model_forward E m infos (Some b) tins touts = Ret (infos1, Some b1, tins, map V outs) /\
    forall E2 gouts, shaped (es_ph es) outs gouts -> exists infos2 b2 gouts',
      model_backward E2 m infos1 (Some b1) tins (map V outs) gouts = Ret (infos2, Some b2, gouts') /\
      forall op L key p, In op (m_ops m) -> produces m infos b (mo_ph op) L -> In key (param_names L) ->
        get_par infos (mo_info op, key) = Some p ->
        exists p2, get_par infos2 (mo_info op, key) = Some p2 /\ p_data p2 = p_data p /\ p_train p2 = p_train p /\
        forall e, e < tot (p_data p) -> exists Ov,
          (forall s touts', shaped (es_ph es) outs touts' -> exists i' b',
             model_forward E m (move_par infos (mo_info op, key) e s) (Some b) tins touts' = Ret (i', Some b', tins, Ov s)) /\
          (forall s, shaped (es_ph es) outs (Ov s)) /\
          derivable_pt_lim (fun s => objective gouts (Ov s)) 0 (nth e (tdat (p_grad p2)) 0%R).
Proof.
  intros es ins outs m infos b E V tins touts C CL BF SI SO EV LO H.
  assert (LB : links_back (es_ph es)) by (apply store_links_back, built_ok, C).
  apply (model_gradients _ _ _ _ (constructed_mfacts _ _ _ _ C) CL LB E V infos b tins SI EV); try assumption.
  - intros d args L N Ca PL. apply (H d args L N Ca PL).
  - intros d args L N Ca PL. apply (H d args L N Ca PL).
Qed.
Print Assumptions C38_backward_computes_gradients.

(** All thirteen layers have right gradients away from kinks and ties (Dropout: only when it drops
    nothing; BatchNorm: in training mode). *)
Theorem C38_layers_have_right_gradients :
  forall (E : env) (L : layer) (inshs : list (list nat)) (osh : list nat) (xs : list ten),
  fits L inshs osh -> Forall2 ten_ok inshs xs -> fair E -> smooth E L xs osh -> right_gradients E L xs inshs osh.
Proof. exact fits_gradients. Qed.
Print Assumptions C38_layers_have_right_gradients.

(** Both together, for models of the library's layers. *)
Theorem C38_gradients_of_fitting_models :
  forall (es : estore) (ins outs : list nat) (m : model) (infos : list linfo) (b : backend) (E : nat -> env) (tins touts : list ten),
  constructed es ins outs m -> closed (es_ph es) ins outs -> backend_fits (es_ph es) m b ->
  shaped (es_ph es) ins tins -> shaped (es_ph es) outs touts -> (forall d, fair (E d)) ->
  (forall d args, needed (es_ph es) outs d -> call (es_ph es) d args ->
     exists L, produces m infos b d L /\ fits L (map (dims (es_ph es)) args) (dims (es_ph es) d) /\
               (overwrites L = true -> exclusive (es_ph es) outs d args)) ->
  links_ok (es_ph es) outs (produces m infos b) ->
  exists V, evaluation (es_ph es) ins outs tins E (produces m infos b) V /\
  ((forall d args L, needed (es_ph es) outs d -> call (es_ph es) d args -> produces m infos b d L -> smooth (E d) L (map V args) (dims (es_ph es) d)) ->
   exists infos1 b1,
     model_forward E m infos (Some b) tins touts = Ret (infos1, Some b1, tins, map V outs) /\
     forall E2 gouts, shaped (es_ph es) outs gouts -> exists infos2 b2 gouts',
       model_backward E2 m infos1 (Some b1) tins (map V outs) gouts = Ret (infos2, Some b2, gouts') /\
       forall op L key p, In op (m_ops m) -> produces m infos b (mo_ph op) L -> In key (param_names L) ->
         get_par infos (mo_info op, key) = Some p ->
         exists p2, get_par infos2 (mo_info op, key) = Some p2 /\ p_data p2 = p_data p /\ p_train p2 = p_train p /\
         forall e, e < tot (p_data p) -> exists Ov,
           (forall s touts', shaped (es_ph es) outs touts' -> exists i' b',
              model_forward E m (move_par infos (mo_info op, key) e s) (Some b) tins touts' = Ret (i', Some b', tins, Ov s)) /\
           (forall s, shaped (es_ph es) outs (Ov s)) /\
           derivable_pt_lim (fun s => objective gouts (Ov s)) 0 (nth e (tdat (p_grad p2)) 0%R)).
Proof.
  intros es ins outs m infos b E tins touts C CL BF SI SO FE FT LO. pose proof (constructed_mfacts _ _ _ _ C) as MF.
  destruct (C37_fitting_models_can_be_evaluated es ins outs m infos b E tins C CL SI FE) as (V & EV & TV).
  { intros d args N Ca. destruct (FT d args N Ca) as (L & PL & FL & _). eauto. }
  exists V. split; [exact EV|]. intros SM. apply (C38_backward_computes_gradients es ins); try assumption.
  intros d args L N Ca PL. destruct (FT d args N Ca) as (L' & PL' & FL & OW). assert (L' = L) as -> by (eapply (produces_fun _ _ _ _ MF); eassumption).
  split; [|exact OW]. apply fits_gradients; [exact FL| |apply FE|apply SM; assumption].
  assert (Y : forall a, In a args -> ten_ok (dims (es_ph es) a) (V a)) by (intros a Ha; apply TV; eapply need_arg; eassumption).
  clear -Y. induction args as [|a t IH]; [constructor|]. constructor; [apply Y; left; reflexivity|apply IH; intros c Hc; apply Y; right; exact Hc].
Qed.
Print Assumptions C38_gradients_of_fitting_models.

(** ** Example: [h = Linear x; Add(Sigmoid h, h)], any parameters, input and output gradient *)
Definition ex3_es : estore :=
  mkES [mkPh [2; 3]%Z None; mkPh [2; 4]%Z (Some (0, [0])); mkPh [2; 4]%Z (Some (1, [1])); mkPh [2; 4]%Z (Some (2, [2; 1]))]
    [mkLI "" "Linear" [("units", AInt 4%Z)]
       [("weight", mkP (mkT [4; 3] (repeat 0%R 12)) (mkT [4; 3] (repeat 0%R 12)) true); ("bias", mkP (mkT [4] (repeat 0%R 4)) (mkT [4] (repeat 0%R 4)) true)] [];
     Sigmoid ""; Add ""].
Definition ex3_m : model := match construct_model (by_age 4) [0] [3] ex3_es with RVal _ m => m | _ => ex_m end.
Definition ex3_infos (W c : prm) : list linfo :=
  [mkLI "linear0" "Linear" [("units", AInt 4%Z)] [("weight", W); ("bias", c)] []; Sigmoid "sigmoid1"; Add "add2"].
Definition ex3_b (W c : prm) : backend := match new_backend (es_ph ex3_es) (fun _ => 0%R) ex3_m (ex3_infos W c) with Ok b => b | _ => ex_b end.

Lemma ex3_built : built ex3_es.
Proof.
  pose (e1 := fst (new_input [2; 3]%Z es0)).
  pose (e2 := fst (new_op (Linear 4 "") e1)). pose (e3 := fst (new_op (Sigmoid "") e2)). pose (e4 := fst (new_op (Add "") e3)).
  assert (B4 : built e4).
  { apply (built_layer _ KAdd [] ""); [|reflexivity]. apply (built_layer _ KSigmoid [] ""); [|reflexivity]. apply (built_layer _ KLinear [("units", AInt 4%Z)] ""); [|reflexivity].
    apply built_input, built_start. }
  eapply (built_apply _ KAdd ex_ie 2 [2; 1] ex3_es 3).
  - eapply (built_apply _ KSigmoid ex_ie 1 [1] _ 2).
    + eapply (built_apply _ KLinear ex_ie 0 [0] _ 1); [exact B4|repeat constructor|reflexivity|eexists; split; reflexivity|vm_compute; reflexivity].
    + cbn. repeat constructor.
    + reflexivity.
    + eexists. split; reflexivity.
    + vm_compute. reflexivity.
  - cbn. repeat constructor.
  - reflexivity.
  - eexists. split; reflexivity.
  - vm_compute. reflexivity.
Qed.

Lemma ex3_constructed : constructed ex3_es [0] [3] ex3_m.
Proof.
  split; [exact ex3_built|]. split; [repeat constructor|]. exists (by_age 4).
  eexists. eexists. split; [vm_compute; reflexivity|]. split; [|vm_compute; reflexivity].
  eapply (by_age_topo (es_ph ex3_es) [0] [3]); [apply store_links_back, built_ok, ex3_built| |vm_compute; reflexivity].
  intros o [<-|[]]. vm_compute. lia.
Qed.

Lemma ex3_closed : closed (es_ph ex3_es) [0] [3].
Proof.
  split; [repeat constructor; intros []|]. split; [repeat constructor; intros []|]. split; [|split].
  - intros d [<-|[]] (args & s & i & H). discriminate H.
  - intros d [<-|[]]. exists [2; 1], [2; 4]%Z, 2. reflexivity.
  - intros d N. assert (d <= 3) by (apply (needed_le (es_ph ex3_es)); [apply store_links_back, built_ok, ex3_built|exact N]).
    destruct d as [|[|[|[|d]]]]; [right; left; reflexivity|left..|lia]; eexists; eexists; eexists; reflexivity.
Qed.

Lemma ex3_produces W c d : d < 4 -> forall args, call (es_ph ex3_es) d args ->
  exists L, produces ex3_m (ex3_infos W c) (ex3_b W c) d L /\
    match d with 1 => args = [0] /\ L = LLinear W c | 2 => args = [1] /\ L = LSigmoid | 3 => args = [2; 1] /\ L = LAdd | _ => False end.
Proof.
  intros H args (s & i & Hd). destruct d as [|[|[|[|d]]]]; [discriminate Hd| | | |lia]; injection Hd as _ _ <-.
  - exists (LLinear W c). split; [|auto]. exists 0. eexists. eexists. eexists. split; [vm_compute; reflexivity|]. split; [reflexivity|]. split; [vm_compute; reflexivity|]. split; [vm_compute; reflexivity|reflexivity].
  - exists LSigmoid. split; [|auto]. exists 1. eexists. eexists. eexists. split; [vm_compute; reflexivity|]. split; [reflexivity|]. split; [vm_compute; reflexivity|]. split; [vm_compute; reflexivity|reflexivity].
  - exists LAdd. split; [|auto]. exists 2. eexists. eexists. eexists. split; [vm_compute; reflexivity|]. split; [reflexivity|]. split; [vm_compute; reflexivity|]. split; [vm_compute; reflexivity|reflexivity].
Qed.

(** The hypotheses of [C38_gradients_of_fitting_models] hold, and everything is smooth everywhere. *)
Example C38_nonvacuous : forall (W c : prm) (E : nat -> env) (V : nat -> ten), prm_ok [4; 3] W -> prm_ok [4] c ->
  constructed ex3_es [0] [3] ex3_m /\ closed (es_ph ex3_es) [0] [3] /\ backend_fits (es_ph ex3_es) ex3_m (ex3_b W c) /\
  (forall d args, needed (es_ph ex3_es) [3] d -> call (es_ph ex3_es) d args ->
     exists L, produces ex3_m (ex3_infos W c) (ex3_b W c) d L /\ fits L (map (dims (es_ph ex3_es)) args) (dims (es_ph ex3_es) d) /\
               (overwrites L = true -> exclusive (es_ph ex3_es) [3] d args)) /\
  links_ok (es_ph ex3_es) [3] (produces ex3_m (ex3_infos W c) (ex3_b W c)) /\
  (forall d args L, needed (es_ph ex3_es) [3] d -> call (es_ph ex3_es) d args -> produces ex3_m (ex3_infos W c) (ex3_b W c) d L ->
     smooth (E d) L (map V args) (dims (es_ph ex3_es) d)) /\
  (exists op, In op (m_ops ex3_m) /\ produces ex3_m (ex3_infos W c) (ex3_b W c) (mo_ph op) (LLinear W c) /\ get_par (ex3_infos W c) (mo_info op, "weight") = Some W).
Proof.
  intros W c E V HW Hc. split; [exact ex3_constructed|]. split; [exact ex3_closed|]. split.
  { destruct (C37_compile_prepares _ _ _ _ (ex3_infos W c) None (fun _ => 0%R) (Some (ex3_b W c)) ex3_constructed) as (b' & Eb & BF & _); [vm_compute; reflexivity|].
    apply (f_equal (fun o => match o with Some z => z | None => ex_b end)) in Eb. cbv beta iota in Eb. subst b'. exact BF. }
  assert (LT : forall d, needed (es_ph ex3_es) [3] d -> d < 4).
  { intros d N. apply Nat.lt_succ_r, (needed_le (es_ph ex3_es)); [apply store_links_back, built_ok, ex3_built|exact N]. }
  split; [|split; [|split]].
  - intros d args N Ca. destruct (ex3_produces W c d (LT d N) args Ca) as (L & PL & Q). exists L. split; [exact PL|].
    destruct d as [|[|[|[|d]]]]; try contradiction; destruct Q as [-> ->]; split; try discriminate.
    + apply (fit_linear W c 2 4 [3]); [discriminate|exact HW|exact Hc].
    + apply fit_sigmoid.
    + apply fit_add.
  - intros d L (j & op & L0 & li & Hj & <- & _). left. vm_compute in Hj. destruct j as [|[|[|j]]]; try (injection Hj as <-; vm_compute; reflexivity). destruct j; discriminate Hj.
  - intros d args L N Ca PL. destruct (ex3_produces W c d (LT d N) args Ca) as (L' & PL' & Q).
    assert (L' = L) as -> by (eapply produces_fun with (1 := constructed_mfacts _ _ _ _ ex3_constructed); eassumption).
    destruct d as [|[|[|[|d]]]]; try contradiction; try (destruct Q as [-> ->]; exact I).
  - eexists. split; [left; reflexivity|]. split; [|reflexivity].
    exists 0. eexists. eexists. eexists. split; [vm_compute; reflexivity|]. split; [reflexivity|]. split; [vm_compute; reflexivity|]. split; [vm_compute; reflexivity|reflexivity].
Qed.
