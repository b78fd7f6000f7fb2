(** Property C58: over a whole training session the weights move in the steps of the optimizer only, by its
    rule; and calls of forward and backward with too few or too many tensors (C40). *)
From Coq Require Import Reals String Lia Lra.
From Verif Require Import Base BaseFacts Sums M_Layers M_Kernels M_Optim M_Nn M_Graph M_Model M_Backend M_Train S_Grad S_Partial S_Graph S_Run S_Fit S_Primed S_Optim S_Train S_Session
  P_Graph P_Graph2 P_Nn P_Model P_Model2 P_Run P_Fwd P_Fwd2 P_Run2 P_Fit P_Safe P_Safe2 P_Train P_Train2 P_Train3 P_Optim P_Desc P_Session
  Prop_Graph Prop_Model Prop_Run Prop_Bwd Prop_Train Prop_Eval.
Local Open Scope string_scope.
Open Scope nat_scope.
Local Open Scope list_scope.

(** ** C58 *)
(** [cs] is any sequence of forward, backward, train, step and set_lr calls; [H] lists its steps with the
    gradients and flags of the parameters at that moment, and its changes of the learning rate.  Every
    parameter but Dropout's mask ends at its value at the start minus the sum of learning rate times
    gradient over the steps in which it was trainable. *)
Theorem C58_sgd_session :
  forall (es : estore) (ins outs : list nat) (m : model) (ran : bool) (infos : list linfo) (b : backend) (cs : list tcall) (lr : R),
  constructed es ins outs m -> closed (es_ph es) ins outs -> usable ran (es_ph es) outs m infos b -> legal (es_ph es) ins outs ran cs ->
  let H := history m cs (mkTS infos (Some b) (SGD lr)) in
  exists infos' b',
    tacts m cs (mkTS infos (Some b) (SGD lr)) = Ret (mkTS infos' (Some b') (SGD (final_lr lr H))) /\
    usable (ever_ran ran cs) (es_ph es) outs m infos' b' /\
    forall key r p, In (key, r) (m_params m) -> snd r <> "mask" -> get_par infos r = Some p ->
      exists p', get_par infos' r = Some p' /\ tsh (p_data p') = tsh (p_data p) /\
        forall i, i < tot (p_data p) ->
          ((tdat (p_data p')).[i] = (tdat (p_data p)).[i] - lsum (map (fun '(lr, g, _) => lr * g.[i]) (active key lr 0 H)))%R.
Proof.
  intros es ins outs m ran infos b cs lr C CL U LG. destruct (constructed_parts _ _ _ _ C) as (MF & LB & VO & ND & RF).
  exact (sgd_session _ _ _ _ MF CL LB VO ND RF (params_injective _ _ _ _ C) ran infos b cs U LG lr).
Qed.
Print Assumptions C58_sgd_session.

(** SGDMomentum constructed at the start of the session: the velocity is the sum of learning rate times
    gradient weighted by gamma to the number of active steps since, and every active step reduces the weight
    by the velocity reached. *)
Theorem C58_momentum_session :
  forall (es : estore) (ins outs : list nat) (m : model) (ran : bool) (infos : list linfo) (b : backend) (cs : list tcall) (lr gamma : R),
  constructed es ins outs m -> closed (es_ph es) ins outs -> usable ran (es_ph es) outs m infos b -> legal (es_ph es) ins outs ran cs ->
  let o := new_momentum lr gamma (params_view m infos) in
  let H := history m cs (mkTS infos (Some b) o) in
  exists infos' b' vel,
    tacts m cs (mkTS infos (Some b) o) = Ret (mkTS infos' (Some b') (Momentum (final_lr lr H) gamma vel)) /\
    usable (ever_ran ran cs) (es_ph es) outs m infos' b' /\
    forall key r p, In (key, r) (m_params m) -> snd r <> "mask" -> get_par infos r = Some p ->
      exists p' v, get_par infos' r = Some p' /\ tsh (p_data p') = tsh (p_data p) /\ find_key vel key = Some v /\
        forall i, i < tot (p_data p) ->
          (tdat v).[i] = ewsum gamma (map (fun '(lr, g, _) => lr * g.[i])%R (active key lr 0 H)) /\
          ((tdat (p_data p')).[i] = (tdat (p_data p)).[i]
            - lsum (map (fun pre => ewsum gamma (map (fun '(lr, g, _) => lr * g.[i]) pre)) (prefixes (active key lr 0 H))))%R.
Proof.
  intros es ins outs m ran infos b cs lr gamma C CL U LG o H. destruct (constructed_parts _ _ _ _ C) as (MF & LB & VO & ND & RF).
  pose proof (proj1 (proj2 (proj2 U))) as SD. destruct (C53_new_optimizers_fit _ _ _ _ infos C SD) as (_ & NM & _).
  destruct (momentum_session _ _ _ _ MF CL LB VO ND RF (params_injective _ _ _ _ C) ran infos b cs U LG lr gamma _ (NM lr gamma)) as (infos' & b' & vel & E & U' & K).
  exists infos', b', vel. split; [exact E|]. split; [exact U'|]. intros key r p Hr NMK Gp.
  pose proof (view_has m infos key r p Hr Gp) as Hp. destruct (view_ok m ND infos SD) as [VN VOK]. destruct (VOK key p Hp) as (_ & W1 & _).
  destruct (K key r p (tab (tot (p_data p)) (fun _ => 0%R)) Hr NMK Gp) as (AL & p' & a' & G' & T' & Ga & F).
  { unfold mom_get. rewrite (find_momentum_new _ key p VN Hp). cbn. unfold tot. rewrite W1. reflexivity. }
  fold o in AL, F. fold H in AL, F. change (history m cs _) with H in AL, F.
  destruct (mom_closed gamma (tot (p_data p)) (tdat (p_data p)) (active key lr 0 H) eq_refl AL) as (_ & _ & CC). rewrite <- F in CC. cbn [fst snd] in CC.
  unfold mom_get in Ga. destruct (find_key vel key) as [v|]; [|discriminate]. injection Ga as <-. exists p', v. auto.
Qed.
Print Assumptions C58_momentum_session.

(** Adam constructed at the start of the session with [t] iterations on its counter. *)
Theorem C58_adam_session :
  forall (es : estore) (ins outs : list nat) (m : model) (ran : bool) (infos : list linfo) (b : backend) (cs : list tcall) (lr b1 b2 eps : R) (t : nat),
  constructed es ins outs m -> closed (es_ph es) ins outs -> usable ran (es_ph es) outs m infos b -> legal (es_ph es) ins outs ran cs ->
  let o := new_adam lr b1 b2 eps t (params_view m infos) in
  let H := history m cs (mkTS infos (Some b) o) in
  exists infos' b' s',
    tacts m cs (mkTS infos (Some b) o) = Ret (mkTS infos' (Some b') (Adam (final_lr lr H) b1 b2 eps (t + steps_in H) s')) /\
    usable (ever_ran ran cs) (es_ph es) outs m infos' b' /\
    forall key r p, In (key, r) (m_params m) -> snd r <> "mask" -> get_par infos r = Some p ->
      exists p', get_par infos' r = Some p' /\ tsh (p_data p') = tsh (p_data p) /\
        forall i, i < tot (p_data p) ->
          ((tdat (p_data p')).[i] = (tdat (p_data p)).[i] - lsum (map (adam_move b1 b2 eps i) (prefixes (active key lr t H))))%R.
Proof.
  intros es ins outs m ran infos b cs lr b1 b2 eps t C CL U LG o H. destruct (constructed_parts _ _ _ _ C) as (MF & LB & VO & ND & RF).
  pose proof (proj1 (proj2 (proj2 U))) as SD. destruct (C53_new_optimizers_fit _ _ _ _ infos C SD) as (_ & _ & NA). destruct (NA lr b1 b2 eps t) as [N1 N2].
  destruct (adam_session _ _ _ _ MF CL LB VO ND RF (params_injective _ _ _ _ C) ran infos b cs U LG lr b1 b2 eps t _ _ N1 N2) as (infos' & b' & s' & E & U' & K).
  exists infos', b', s'. split; [exact E|]. split; [exact U'|]. intros key r p Hr NMK Gp.
  pose proof (view_has m infos key r p Hr Gp) as Hp. destruct (view_ok m ND infos SD) as [VN VOK]. destruct (VOK key p Hp) as (_ & W1 & _).
  destruct (K key r p (tab (tot (p_data p)) (fun _ => 0%R), tab (tot (p_data p)) (fun _ => 0%R)) Hr NMK Gp) as (AL & p' & a' & G' & T' & Ga & F).
  { unfold adam_get. cbn [fst snd]. rewrite (find_momentum_new _ key p VN Hp). cbn. unfold tot. rewrite W1. reflexivity. }
  change (history m cs _) with H in AL, F.
  destruct (adam_closed b1 b2 eps (tot (p_data p)) (tdat (p_data p)) (active key lr t H) eq_refl AL) as (_ & _ & _ & CC). rewrite <- F in CC. cbn [fst snd] in CC.
  exists p'. split; [exact G'|]. split; [exact T'|]. intros i Hi. apply (CC i Hi).
Qed.
Print Assumptions C58_adam_session.

(** Without a step nothing but Dropout's mask moves, whatever else is called; and in a model whose parameters
    are all frozen nothing moves, steps or not, until [train(true)]. *)
Theorem C58_no_step_no_change :
  forall (es : estore) (ins outs : list nat) (m : model) (ran : bool) (infos : list linfo) (b : backend) (o : optimizer) (cs : list tcall),
  constructed es ins outs m -> closed (es_ph es) ins outs -> usable ran (es_ph es) outs m infos b -> opt_fits m infos o -> legal (es_ph es) ins outs ran cs ->
  Forall no_step cs ->
  exists s, tacts m cs (mkTS infos (Some b) o) = Ret s /\
    forall key r p, In (key, r) (m_params m) -> snd r <> "mask" -> get_par infos r = Some p -> exists p', get_par (ts_info s) r = Some p' /\ p_data p' = p_data p.
Proof.
  intros es ins outs m ran infos b o cs C CL U OF LG NS. destruct (constructed_parts _ _ _ _ C) as (MF & LB & VO & ND & RF).
  exact (still_session _ _ _ _ MF CL LB VO ND RF (params_injective _ _ _ _ C) ran infos b cs U LG o OF (or_introl NS)).
Qed.
Print Assumptions C58_no_step_no_change.

Theorem C58_frozen_models_do_not_change :
  forall (es : estore) (ins outs : list nat) (m : model) (ran : bool) (infos : list linfo) (b : backend) (o : optimizer) (cs : list tcall),
  constructed es ins outs m -> closed (es_ph es) ins outs -> usable ran (es_ph es) outs m infos b -> opt_fits m infos o ->
  legal (es_ph es) ins outs ran (TTrain false :: cs) -> Forall no_thaw cs ->
  exists s, tacts m (TTrain false :: cs) (mkTS infos (Some b) o) = Ret s /\
    forall key r p, In (key, r) (m_params m) -> snd r <> "mask" -> get_par infos r = Some p -> exists p', get_par (ts_info s) r = Some p' /\ p_data p' = p_data p.
Proof.
  intros es ins outs m ran infos b o cs C CL U OF LG NT. destruct (constructed_parts _ _ _ _ C) as (MF & LB & VO & ND & RF).
  pose proof (train_moved m ND false infos (proj2 (proj2 (proj2 U)))) as M.
  assert (TK : forall key r p, In (key, r) (m_params m) -> get_par infos r = Some p -> get_par (model_train false m infos) r = Some (mkP (p_data p) (p_grad p) false)).
  { intros key r p Hr Gp. apply (train_key false m infos key); [apply in_find; assumption|exact Gp]. }
  destruct (still_session _ _ _ _ MF CL LB VO ND RF (params_injective _ _ _ _ C) ran (model_train false m infos) b cs) with (o := o) as (s & E & K).
  - eapply moved_usable; eassumption.
  - exact LG.
  - eapply opt_moved; eassumption.
  - right. split; [exact NT|]. intros key r p Hr NM G. destruct (proj1 (proj2 (proj2 U)) key r Hr) as (q & Gq & _). rewrite (TK key r q Hr Gq) in G. injection G as <-. reflexivity.
  - exists s. split; [exact E|]. intros key r p Hr NM Gp. destruct (K key r _ Hr NM (TK key r p Hr Gp)) as (p' & G' & D). exists p'. auto.
Qed.
Print Assumptions C58_frozen_models_do_not_change.

(** Example: the model of C38 and a session with two steps and a change of the learning rate. *)
Example C58_nonvacuous : forall (W c : prm) (E : nat -> env) (X Y G : ten) (lr r : R),
  prm_ok [4; 3] W -> prm_ok [4] c -> (forall d, fair (E d)) -> ten_ok [2; 3] X -> ten_ok [2; 4] Y -> ten_ok [2; 4] G ->
  let cs := [TTrain true; TForward E [X] [Y]; TBackward E [X] [Y] [G]; TStep; TLr r; TStep; TTrain false; TForward E [X] [Y]; TStep] in
  constructed ex3_es [0] [3] ex3_m /\ closed (es_ph ex3_es) [0] [3] /\
  usable false (es_ph ex3_es) [3] ex3_m (ex3_infos W c) (ex3_b W c) /\ legal (es_ph ex3_es) [0] [3] false cs /\
  (exists infos' b', tacts ex3_m cs (mkTS (ex3_infos W c) (Some (ex3_b W c)) (SGD lr)) = Ret (mkTS infos' (Some b') (SGD r))) /\
  (exists infos' b' s', tacts ex3_m cs (mkTS (ex3_infos W c) (Some (ex3_b W c)) (new_adam lr 0.9 0.999 1 0 (params_view ex3_m (ex3_infos W c)))) =
     Ret (mkTS infos' (Some b') (Adam r 0.9 0.999 1 3 s'))) /\
  Forall no_thaw [TForward E [X] [Y]; TStep; TTrain false; TStep] /\ Forall no_step [TTrain true; TForward E [X] [Y]; TLr r].
Proof.
  intros W c E X Y G lr r HW Hc FE HX HY HG cs. destruct (C38_nonvacuous W c E (fun _ => X) HW Hc) as (CN & CLO & _).
  destruct (C53_nonvacuous W c E X Y G r HW Hc FE HX HY HG) as (UU & _).
  assert (SI : shaped (es_ph ex3_es) [0] [X]) by (repeat constructor; apply HX).
  assert (SO : shaped (es_ph ex3_es) [3] [Y]) by (repeat constructor; apply HY).
  assert (SG : shaped (es_ph ex3_es) [3] [G]) by (repeat constructor; apply HG).
  assert (LG : legal (es_ph ex3_es) [0] [3] false cs) by (cbn [legal cs]; auto 20).
  assert (HH : forall o, opt_fits ex3_m (ex3_infos W c) o -> exists e1 e2 e3 : (string -> list R) * (string -> bool), history ex3_m cs (mkTS (ex3_infos W c) (Some (ex3_b W c)) o) = [EStep (fst e1) (snd e1); ELr r; EStep (fst e2) (snd e2); EStep (fst e3) (snd e3)]).
  { intros o OF. destruct (C53_sessions_return _ _ _ _ false _ _ o cs CN CLO UU OF LG) as (i & bb & oo & EE & _). revert EE. unfold cs. cbn [tacts history].
    repeat (match goal with |- context [tact ?m0 ?c0 ?s0] => destruct (tact m0 c0 s0) as [?s|?s|]; [|intros HX0; discriminate HX0..] end). intros _. cbn [app].
    eexists (_, _), (_, _), (_, _). cbn [fst snd]. reflexivity. }
  split; [exact CN|]. split; [exact CLO|]. split; [exact UU|]. split; [exact LG|]. split; [|split; [|split; [repeat constructor|repeat constructor]]].
  - destruct (C58_sgd_session _ _ _ _ false _ _ cs lr CN CLO UU LG) as (i & bb & EE & _). destruct (HH (SGD lr) I) as (e1 & e2 & e3 & EH). rewrite EH in EE. exists i, bb. exact EE.
  - destruct (C58_adam_session _ _ _ _ false _ _ cs lr 0.9 0.999 1 0 CN CLO UU LG) as (i & bb & s' & EE & _).
    destruct (C53_new_optimizers_fit _ _ _ _ (ex3_infos W c) CN (proj1 (proj2 (proj2 UU)))) as (_ & _ & NA). destruct (HH _ (NA lr 0.9%R 0.999%R 1%R 0)) as (e1 & e2 & e3 & EH). rewrite EH in EE.
    exists i, bb, s'. exact EE.
Qed.

(** ** C40: the number of tensors *)
Lemma bind_short ids : forall ts mem, length ts < length ids -> bind_ids ids ts mem = UB.
Proof.
  induction ids as [|i ids IH]; intros [|t ts] mem L; cbn in *; try lia; [reflexivity|]. unfold wr. destruct (i <? length mem); cbn [bind]; [apply IH; lia|reflexivity].
Qed.
Lemma bind_never_throws ids : forall ts mem, bind_ids ids ts mem <> Throw.
Proof. induction ids as [|i ids IH]; intros [|t ts] mem; cbn; try discriminate. unfold wr. destruct (i <? length mem); cbn [bind]; [apply IH|discriminate]. Qed.
Lemma ids_length m l ids : map_res (id_of m) l = Ok ids -> length ids = length l.
Proof.
  revert ids. induction l as [|d t IH]; intros ids H; cbn in H; [injection H as <-; reflexivity|].
  destruct (id_of m d); cbn [bind] in H; try discriminate. destruct (map_res (id_of m) t) as [r| |]; cbn [bind] in H; try discriminate. injection H as <-. cbn. rewrite (IH r eq_refl). reflexivity.
Qed.
Lemma ids_never_throw m l : map_res (id_of m) l <> Throw.
Proof.
  induction l as [|d t IH]; cbn; [discriminate|]. assert (X : forall k, index_of d k <> Throw) by (induction k as [|y k IHk]; cbn; [discriminate|destruct (y =? d); [discriminate|]; destruct (index_of d k); cbn; congruence]).
  unfold id_of at 1. specialize (X (map fst (m_data m))). destruct (index_of d _); cbn [bind]; [|congruence|discriminate]. destruct (map_res (id_of m) t); cbn [bind]; congruence.
Qed.

(** The backend indexes the caller's vectors with the model's own counts and checks neither: too few tensors
    are read past the end of the vector; what is too much is ignored. *)
Theorem C40_too_few_tensors_are_read_out_of_bounds :
  forall (E : nat -> env) (m : model) (infos : list linfo) (b : backend) (xs os gs : list ten),
  (length xs < length (m_in m) \/ length os < length (m_out m) -> model_forward E m infos (Some b) xs os = Bad) /\
  (length xs < length (m_in m) \/ length os < length (m_out m) \/ length gs < length (m_out m) -> model_backward E m infos (Some b) xs os gs = Bad).
Proof.
  intros E m infos b xs os gs. cbn [model_forward model_backward]. unfold backend_forward, backend_backward.
  pose proof (ids_never_throw m (m_in m)) as N1. pose proof (ids_never_throw m (m_out m)) as N2.
  destruct (map_res (id_of m) (m_in m)) as [ii| |] eqn:E1; cbn [bind]; [|congruence|auto]. destruct (map_res (id_of m) (m_out m)) as [oi| |] eqn:E2; cbn [bind]; [|congruence|auto].
  apply ids_length in E1, E2. rewrite <- E1, <- E2.
  pose proof (bind_never_throws ii xs (b_mem b)) as B1. destruct (Nat.lt_ge_cases (length xs) (length ii)) as [L1|L1]; [rewrite (bind_short _ _ (b_mem b) L1); cbn [bind]; auto|].
  destruct (bind_ids ii xs (b_mem b)) as [mem1| |]; cbn [bind]; [|congruence|auto].
  pose proof (bind_never_throws oi os mem1) as B2. destruct (Nat.lt_ge_cases (length os) (length oi)) as [L2|L2]; [rewrite (bind_short _ _ mem1 L2); cbn [bind]; auto|].
  destruct (bind_ids oi os mem1) as [mem2| |]; cbn [bind]; [|congruence|auto].
  split; [lia|]. intros [L|[L|L]]; [lia|lia|]. rewrite (bind_short _ _ _ L). reflexivity.
Qed.
Print Assumptions C40_too_few_tensors_are_read_out_of_bounds.

Lemma bind_more ids : forall ts ex mem, length ts = length ids -> bind_ids ids (ts ++ ex) mem = bind_ids ids ts mem.
Proof. induction ids as [|i ids IH]; intros [|t ts] ex mem L; cbn in *; try lia; [destruct ex; reflexivity|]. destruct (wr mem i t); cbn [bind]; try reflexivity. apply IH. lia. Qed.
Lemma unbind_more ids later mem : forall ts ex, length ts = length ids ->
  unbind ids later mem (ts ++ ex) = (r <- unbind ids later mem ts ;; Ok (r ++ ex)).
Proof.
  induction ids as [|i ids IH]; intros [|t ts] ex L; cbn in *; try lia; [reflexivity|]. destruct (if memb i (ids ++ later) then Ok t else rd mem i); cbn [bind]; try reflexivity.
  rewrite IH by lia. destruct (unbind ids later mem ts); reflexivity.
Qed.

Theorem C40_further_tensors_are_ignored :
  forall (E : nat -> env) (m : model) (infos infos' : list linfo) (b : backend) (b' : option backend) (xs os gs xs' os' gs' ex eo eg : list ten),
  length xs = length (m_in m) -> length os = length (m_out m) -> length gs = length (m_out m) ->
  (model_forward E m infos (Some b) xs os = Ret (infos', b', xs', os') ->
   model_forward E m infos (Some b) (xs ++ ex) (os ++ eo) = Ret (infos', b', xs' ++ ex, os' ++ eo)) /\
  (model_backward E m infos (Some b) xs os gs = Ret (infos', b', gs') ->
   model_backward E m infos (Some b) (xs ++ ex) (os ++ eo) (gs ++ eg) = Ret (infos', b', gs' ++ eg)).
Proof.
  intros E m infos infos' b b' xs os gs xs' os' gs' ex eo eg L1 L2 L3. cbn [model_forward model_backward]. unfold backend_forward, backend_backward.
  destruct (map_res (id_of m) (m_in m)) as [ii| |] eqn:E1; cbn [bind]; [|split; discriminate..]. destruct (map_res (id_of m) (m_out m)) as [oi| |] eqn:E2; cbn [bind]; [|split; discriminate..].
  apply ids_length in E1, E2. rewrite !bind_more by congruence. destruct (bind_ids ii xs (b_mem b)) as [mem1| |]; cbn [bind]; [|split; discriminate..].
  rewrite !bind_more by congruence. destruct (bind_ids oi os mem1) as [mem2| |]; cbn [bind]; [|split; discriminate..]. split.
  - destruct (fwd_ops E (m_ops m) (b_layers b) infos mem2) as [[[i2 l2] m2]|[[i2 l2] m2]|]; try discriminate; rewrite !unbind_more by congruence;
      destruct (unbind ii oi m2 xs); cbn [bind]; try discriminate; destruct (unbind oi [] m2 os); cbn [bind]; try discriminate. intros [= <- <- <- <-]. reflexivity.
  - destruct (bind_ids oi gs _) as [gr| |]; cbn [bind]; try discriminate.
    destruct (bwd_ops E mem2 (m_ops m) (b_layers b) infos gr) as [[[i2 l2] g2]|[[i2 l2] g2]|]; try discriminate; rewrite !unbind_more by congruence;
      destruct (unbind oi [] g2 gs); cbn [bind]; try discriminate. intros [= <- <- <-]. reflexivity.
Qed.
Print Assumptions C40_further_tensors_are_ignored.

Example C40_count_nonvacuous : length (m_in ex3_m) = 1 /\ length (m_out ex3_m) = 1 /\
  forall W c E Y, model_forward E ex3_m (ex3_infos W c) (Some (ex3_b W c)) [] [Y] = Bad.
Proof.
  assert (L : length (m_in ex3_m) = 1) by (vm_compute; reflexivity). split; [exact L|]. split; [vm_compute; reflexivity|].
  intros W c E Y. apply (proj1 (C40_too_few_tensors_are_read_out_of_bounds E ex3_m (ex3_infos W c) (ex3_b W c) [] [Y] [])). left. rewrite L. exact Nat.lt_0_1.
Qed.
