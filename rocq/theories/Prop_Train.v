(** Property C53: training sessions never throw and never misbehave. *)
From Coq Require Import Reals String Lia Lra.
From Verif Require Import Base BaseFacts Sums M_Layers M_Kernels M_Optim M_Nn M_Graph M_Model M_Backend M_Train S_Grad S_Partial S_Graph S_Run S_Fit S_Primed S_Optim S_Train
  P_Graph P_Graph2 P_Nn P_Model P_Model2 P_Run P_Fwd P_Fwd2 P_Run2 P_Fit P_Safe P_Safe2 P_Train P_Train2 P_Train3 P_Optim
  Prop_Graph Prop_Model Prop_Run Prop_Bwd.
Local Open Scope string_scope.
Open Scope nat_scope.
Local Open Scope list_scope.

Lemma constructed_params es ins outs m : constructed es ins outs m ->
  NoDup (map fst (m_params m)) /\
  (forall key r, In (key, r) (m_params m) -> exists op, In op (m_ops m) /\ fst r = mo_info op).
Proof.
  intros (B & VO & order & g & es' & BG & TO & CM).
  destruct (state_keys es order ins outs g B VO BG TO es' m CM) as (ND & _ & _ & _ & K & _). split; [exact ND|].
  intros key [i k] H. apply (in_find _ _ _ ND) in H. destruct (K key i k H) as (op & li & p & Hop & E & _). exists op. auto.
Qed.

(** ** C53 *)
(** [cs] is any sequence of forward, backward, train, step and set_lr calls on a compiled model and one
    optimizer, with tensors of the right shapes and no backward before the first forward.  Every call of
    the sequence returns, and afterwards the model and the optimizer can be used further. *)
Theorem C53_sessions_return :
  forall (es : estore) (ins outs : list nat) (m : model) (ran : bool) (infos : list linfo) (b : backend) (o : optimizer) (cs : list tcall),
  constructed es ins outs m -> closed (es_ph es) ins outs ->
  usable ran (es_ph es) outs m infos b -> opt_fits m infos o -> legal (es_ph es) ins outs ran cs ->
  exists infos' b' o',
    tacts m cs (mkTS infos (Some b) o) = Ret (mkTS infos' (Some b') o') /\
    usable (ever_ran ran cs) (es_ph es) outs m infos' b' /\ opt_fits m infos' o'.
Proof.
  intros es ins outs m ran infos b o cs C CL U OF LG. destruct (constructed_params _ _ _ _ C) as (ND & RF).
  apply (session_runs (es_ph es) ins outs m (constructed_mfacts _ _ _ _ C) CL); try assumption.
  - apply store_links_back, built_ok, C.
  - apply C.
Qed.
Print Assumptions C53_sessions_return.

(** The three optimizers constructed from [model.params()] fit. *)
Theorem C53_new_optimizers_fit :
  forall (es : estore) (ins outs : list nat) (m : model) (infos : list linfo),
  constructed es ins outs m -> params_sound m infos ->
  (forall lr, opt_fits m infos (SGD lr)) /\
  (forall lr gamma, opt_fits m infos (new_momentum lr gamma (params_view m infos))) /\
  (forall lr b1 b2 eps t, opt_fits m infos (new_adam lr b1 b2 eps t (params_view m infos))).
Proof.
  intros es ins outs m infos C SD. destruct (constructed_params _ _ _ _ C) as (ND & RF). split; [intros; exact I|].
  assert (K : keeps m infos (momentum_new (params_view m infos))).
  { intros key r p H G. exists (zeros_like (tsh (p_data p))). pose proof (view_ok m ND infos SD) as OKV.
    split; [apply find_momentum_new; [apply OKV|eapply view_has; eassumption]|].
    destruct (SD key r H) as (p' & G' & (_ & W & _)). assert (p' = p) by congruence. subst p'. unfold tot. unfold twf in W. rewrite W. cbn. apply tab_length. }
  split; intros; [exact K|split; exact K].
Qed.
Print Assumptions C53_new_optimizers_fit.

(** ** Example: the model of C38 with a training session *)
Example C53_nonvacuous : forall (W c : prm) (E : nat -> env) (X Y G : ten) (lr : R),
  prm_ok [4; 3] W -> prm_ok [4] c -> (forall d, fair (E d)) -> ten_ok [2; 3] X -> ten_ok [2; 4] Y -> ten_ok [2; 4] G ->
  usable false (es_ph ex3_es) [3] ex3_m (ex3_infos W c) (ex3_b W c) /\
  legal (es_ph ex3_es) [0] [3] false
    [TTrain true; TForward E [X] [Y]; TBackward E [X] [Y] [G]; TStep; TForward E [X] [Y]; TLr lr; TBackward E [X] [Y] [G]; TStep; TTrain false; TForward E [X] [Y]].
Proof.
  intros W c E X Y G lr HW Hc FE HX HY HG. destruct (C38_nonvacuous W c E (fun _ => X) HW Hc) as (_ & _ & BF & FT & LO & _). split.
  - split; [exact BF|]. split; [|split].
    + intros d args N Ca. destruct (FT d args N Ca) as (L & PL & FL & _). exists L. split; [exact PL|]. split; [exact FL|].
      destruct (LO d L PL) as [T|V]; auto.
    + intros key r H. vm_compute in H. destruct H as [H|[H|[]]]; injection H as <- <-; eexists; (split; [reflexivity|]).
      * destruct HW as (A1 & HW'). cbn. rewrite A1. split; assumption.
      * destruct Hc as (A1 & Hc'). cbn. rewrite A1. split; assumption.
    + intros op k p Ho H. vm_compute in Ho. destruct Ho as [<-|[<-|[<-|[]]]]; unfold get_par in H; cbn -[String.eqb] in H; try discriminate H.
      destruct (String.eqb_spec "weight" k) as [<-|N]; [eexists; left; reflexivity|].
      destruct (String.eqb_spec "bias" k) as [<-|N2]; [eexists; right; left; reflexivity|discriminate H].
  - assert (SI : shaped (es_ph ex3_es) [0] [X]) by (repeat constructor; apply HX).
    assert (SO : shaped (es_ph ex3_es) [3] [Y]) by (repeat constructor; apply HY).
    assert (SG : shaped (es_ph ex3_es) [3] [G]) by (repeat constructor; apply HG).
    cbn [legal]. auto 20.
Qed.
