(** Property C39: backward assigns gradients and changes nothing else. *)
From Coq Require Import Reals String Lia Lra.
From Verif Require Import Base BaseFacts Sums M_Layers M_Kernels M_Optim M_Nn M_Graph M_Model M_Backend S_Grad S_Partial S_Graph S_Run
  P_Graph P_Graph2 P_Nn P_BN P_Model P_Model2 P_Run P_Idem P_Idem2 Prop_Graph Prop_Model Prop_Run Prop_Bwd.
Local Open Scope string_scope.
Open Scope nat_scope.
Local Open Scope list_scope.

(** Whatever the layers, the state of the model and the tensors: when backward has returned, calling it
    again with the same tensors (the output gradients having their first contents) leaves every
    parameter, gradient and buffer as it is and the output gradients as the first call left them. *)
Theorem C39_backward_again :
  forall (es : estore) (ins outs : list nat) (m : model) (E E' : nat -> env) (infos infos1 : list linfo) (b : backend) (b1 : option backend)
         (tins touts gouts gouts1 : list ten),
  constructed es ins outs m ->
  model_backward E m infos (Some b) tins touts gouts = Ret (infos1, b1, gouts1) ->
  model_backward E' m infos1 b1 tins touts gouts = Ret (infos1, b1, gouts1).
Proof.
  intros es ins outs m E E' infos infos1 b b1 tins touts gouts gouts1 C H.
  exact (backward_twice _ _ _ _ (constructed_mfacts _ _ _ _ C) E E' infos b tins touts gouts infos1 b1 gouts1 H).
Qed.
Print Assumptions C39_backward_again.

(** Backward, also when it throws, changes no parameter's data or trainable flag and no buffer. *)
Theorem C39_only_gradients_change :
  forall (m : model) (E : nat -> env) (infos infos1 : list linfo) (bo b1 : option backend) (tins touts gouts gouts1 : list ten),
  (model_backward E m infos bo tins touts gouts = Ret (infos1, b1, gouts1) \/
   model_backward E m infos bo tins touts gouts = Exc (infos1, b1, gouts1)) ->
  same_but_gradients infos infos1.
Proof.
  intros m E infos infos1 [b|] b1 tins touts gouts gouts1 H; [exact (backward_same m E infos b tins touts gouts infos1 b1 gouts1 H)|].
  destruct H as [H|H]; [discriminate|]. injection H as <- <- <-. change (Forall2 same_li infos infos). induction infos; constructor; [apply same_li_refl|assumption].
Qed.
Print Assumptions C39_only_gradients_change.

(** The input and output tensors still bound after backward are the caller's, unchanged. *)
Theorem C39_inputs_and_outputs_are_kept :
  forall (es : estore) (ins outs : list nat) (m : model) (E : nat -> env) (infos infos1 : list linfo) (b b1 : backend) (tins touts gouts gouts1 : list ten),
  constructed es ins outs m -> NoDup ins -> NoDup outs -> (forall d, In d ins -> ~ In d outs) ->
  model_backward E m infos (Some b) tins touts gouts = Ret (infos1, Some b1, gouts1) ->
  (forall j d t, nth_error ins j = Some d -> nth_error tins j = Some t -> exists i, id_of m d = Ok i /\ nth_error (b_mem b1) i = Some t) /\
  (forall j d t, nth_error outs j = Some d -> nth_error touts j = Some t -> exists i, id_of m d = Ok i /\ nth_error (b_mem b1) i = Some t).
Proof.
  intros es ins outs m E infos infos1 b b1 tins touts gouts gouts1 C ND1 ND2 DJ H. pose proof (constructed_mfacts _ _ _ _ C) as MF.
  destruct (backward_memory _ _ _ _ MF E infos b tins touts gouts infos1 b1 gouts1 ND1 ND2 DJ H) as [A B].
  split; intros j d t Hd Ht; exists (num m d); (split; [apply (id_num _ _ _ _ MF)|eauto]).
  - apply (mf_needed_in _ _ _ _ MF). eapply nth_error_In, Hd.
  - apply need_out. eapply nth_error_In, Hd.
Qed.
Print Assumptions C39_inputs_and_outputs_are_kept.

(** The gradient given for an output that no layer of the model consumes is returned unchanged. *)
Theorem C39_unconsumed_gradient_is_kept :
  forall (es : estore) (ins outs : list nat) (m : model) (E : nat -> env) (infos infos1 : list linfo) (b : backend) (b1 : option backend)
         (tins touts gouts gouts1 : list ten),
  constructed es ins outs m ->
  (forall j op args, nth_error (m_ops m) j = Some op -> nth_error (b_layers b) j = Some LAdd -> call (es_ph es) (mo_ph op) args -> 2 <= length args) ->
  (model_backward E m infos (Some b) tins touts gouts = Ret (infos1, b1, gouts1) \/
   model_backward E m infos (Some b) tins touts gouts = Exc (infos1, b1, gouts1)) ->
  forall j o g, nth_error outs j = Some o -> nth_error gouts j = Some g ->
  (forall d args, needed (es_ph es) outs d -> call (es_ph es) d args -> ~ In o args) -> nth_error gouts1 j = Some g.
Proof.
  intros es ins outs m E infos infos1 b b1 tins touts gouts gouts1 C AD H j o g Ho Hg NC.
  exact (backward_keeps_unconsumed _ _ _ _ (constructed_mfacts _ _ _ _ C) E infos b tins touts gouts infos1 b1 gouts1 H AD j o g Ho Hg NC).
Qed.
Print Assumptions C39_unconsumed_gradient_is_kept.

(** [h = Sigmoid x; y = Sigmoid h; Model({x}, {h, y})]: [h] is consumed. *)
Definition ex4_es : estore :=
  mkES [mkPh [1]%Z None; mkPh [1]%Z (Some (0, [0])); mkPh [1]%Z (Some (1, [1]))] [Sigmoid ""; Sigmoid ""].
Definition ex4_m : model := match construct_model (by_age 3) [0] [1; 2] ex4_es with RVal _ m => m | _ => ex_m end.
Definition ex4_infos : list linfo := [Sigmoid "sigmoid0"; Sigmoid "sigmoid1"].
Definition ex4_b : backend := match new_backend (es_ph ex4_es) (fun _ => 0%R) ex4_m ex4_infos with Ok b => b | _ => ex_b end.
Definition one (x : R) : ten := mkT [1] [x].

Lemma ex4_built : built ex4_es.
Proof.
  pose (e1 := fst (new_input [1]%Z es0)). pose (e2 := fst (new_op (Sigmoid "") e1)). pose (e3 := fst (new_op (Sigmoid "") e2)).
  assert (B3 : built e3).
  { apply (built_layer _ KSigmoid [] ""); [|reflexivity]. apply (built_layer _ KSigmoid [] ""); [|reflexivity]. apply built_input, built_start. }
  eapply (built_apply _ KSigmoid ex_ie 1 [1] ex4_es 2).
  - eapply (built_apply _ KSigmoid ex_ie 0 [0] _ 1); [exact B3|repeat constructor|reflexivity|eexists; split; reflexivity|vm_compute; reflexivity].
  - cbn. repeat constructor.
  - reflexivity.
  - eexists. split; reflexivity.
  - vm_compute. reflexivity.
Qed.
Lemma ex4_constructed : constructed ex4_es [0] [1; 2] ex4_m.
Proof.
  split; [exact ex4_built|]. split; [repeat constructor|]. exists (by_age 3).
  eexists. eexists. split; [vm_compute; reflexivity|]. split; [|vm_compute; reflexivity].
  eapply (by_age_topo (es_ph ex4_es) [0] [1; 2]); [apply store_links_back, built_ok, ex4_built| |vm_compute; reflexivity].
  intros o [<-|[<-|[]]]; vm_compute; lia.
Qed.

Lemma ex4_backward E x h y u v : exists b1,
  model_backward E ex4_m ex4_infos (Some ex4_b) [one x] [one h; one y] [one u; one v] =
  Ret (ex4_infos, Some b1, [one (u + v * (y * (y * -1 + 1)))%R; one v]).
Proof. eexists. vm_compute. reflexivity. Qed.

(** The gradient of the consumed output [h] is changed, that of [y] is not. *)
Theorem C39_consumed_gradient_is_changed :
  forall (E : nat -> env) (x h y u v : R), (0 < y < 1)%R -> v <> 0%R ->
  constructed ex4_es [0] [1; 2] ex4_m /\
  exists infos1 b1 u1 v1, model_backward E ex4_m ex4_infos (Some ex4_b) [one x] [one h; one y] [one u; one v] = Ret (infos1, b1, [one u1; one v1]) /\
    u1 <> u /\ v1 = v.
Proof.
  intros E x h y u v Hy Hv. split; [exact ex4_constructed|]. destruct (ex4_backward E x h y u v) as (b1 & H). do 4 eexists. split; [exact H|]. split; [|reflexivity].
  intros X. assert (Y : (v * (y * (y * -1 + 1)) = 0)%R) by lra. apply Rmult_integral in Y. destruct Y as [Y|Y]; [contradiction|]. apply Rmult_integral in Y. destruct Y; lra.
Qed.
Print Assumptions C39_consumed_gradient_is_changed.

(** Hence calling backward twice with the same gradient tensor objects is not calling it twice with the
    same gradients: the second call would start from [u1]. *)
Example C39_nonvacuous : forall (E : nat -> env) (x h y u v : R),
  constructed ex4_es [0] [1; 2] ex4_m /\
  (exists b1 g1, model_backward E ex4_m ex4_infos (Some ex4_b) [one x] [one h; one y] [one u; one v] = Ret (ex4_infos, Some b1, g1)) /\
  (forall j op args, nth_error (m_ops ex4_m) j = Some op -> nth_error (b_layers ex4_b) j = Some LAdd -> call (es_ph ex4_es) (mo_ph op) args -> 2 <= length args) /\
  (forall d args, needed (es_ph ex4_es) [1; 2] d -> call (es_ph ex4_es) d args -> ~ In 2 args).
Proof.
  intros E x h y u v. split; [exact ex4_constructed|]. split; [|split].
  - destruct (ex4_backward E x h y u v) as (b1 & H). eauto.
  - intros j op args _ H. vm_compute in H. destruct j as [|[|[|j]]]; discriminate H.
  - intros d args _ (s & i & Hd). destruct d as [|[|[|d]]]; try discriminate Hd; [| |destruct d; discriminate Hd]; injection Hd as _ _ <-; cbn; intros [K|[]]; discriminate K.
Qed.
