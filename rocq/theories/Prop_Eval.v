(** Property C56: predictions in evaluation mode. *)
From Coq Require Import Reals String Lia Lra.
From Verif Require Import Base BaseFacts Sums M_Tensor M_Layers M_Kernels M_Optim M_Nn M_Graph M_Model M_Backend M_Train S_Grad S_Partial S_Graph S_Run S_Fit S_Primed S_Train S_Plain S_Eval
  P_Kernels P_Conv P_Conv2 P_Pool P_Layers P_BN P_Graph P_Graph2 P_Nn P_Model P_Model2 P_Run P_Fwd P_Fwd2 P_Run2 P_Fit P_Train2 P_Train3 P_Eval P_Eval2
  Prop_Graph Prop_Model Prop_Run Prop_Bwd Prop_Train Prop_Plain.
Local Open Scope string_scope.
Open Scope nat_scope.
Local Open Scope list_scope.

Lemma constructed_parts es ins outs m : constructed es ins outs m ->
  mfacts (es_ph es) ins outs m /\ links_back (es_ph es) /\ Forall (fun d => d < length (es_ph es)) outs /\ NoDup (map fst (m_params m)) /\
  (forall key r, In (key, r) (m_params m) -> exists op, In op (m_ops m) /\ fst r = mo_info op).
Proof.
  intros C. destruct (constructed_params _ _ _ _ C) as (ND & RF). split; [exact (constructed_mfacts _ _ _ _ C)|].
  split; [apply store_links_back, built_ok, C|]. split; [apply C|]. split; assumption.
Qed.

(** [train(false)] puts a model that can be used into evaluation mode. *)
Theorem C56_train_false_is_evaluation_mode :
  forall (es : estore) (ins outs : list nat) (m : model) (ran : bool) (infos : list linfo) (b : backend),
  constructed es ins outs m -> usable ran (es_ph es) outs m infos b ->
  usable ran (es_ph es) outs m (model_train false m infos) b /\ eval_mode (es_ph es) outs m (model_train false m infos) b.
Proof.
  intros es ins outs m ran infos b C U. destruct (constructed_parts _ _ _ _ C) as (MF & LB & VO & ND & RF). split.
  - eapply moved_usable; [exact RF|apply train_moved; [exact ND|apply U]|exact U].
  - eapply train_false_eval; eassumption.
Qed.
Print Assumptions C56_train_false_is_evaluation_mode.

Lemma same_weights_refl L : same_weights L L.
Proof. destruct L; cbn; auto. Qed.

Lemma samples_eq n rest t t' : ten_ok (n :: rest) t -> ten_ok (n :: rest) t' -> (forall r, r < n -> sample t r = sample t' r) -> t = t'.
Proof.
  intros T T' H. pose proof (ten_ok_len _ _ T) as L. pose proof (ten_ok_len _ _ T') as L'. assert (E : tdat t = tdat t').
  { apply list_eq_get; [congruence|]. intros i Hi. rewrite L in Hi. change (prodN (n :: rest)) with (n * prodN rest) in Hi.
    destruct (P_Kernels.divmod_lt i n (prodN rest) Hi) as (A & B & D). rewrite D.
    exact (proj1 (slab_sample n n rest t t' _ _ T T' A A) (H _ A) _ B). }
  destruct T as [S _], T' as [S' _], t, t'; cbn in *; congruence.
Qed.

(** Two models of the same network, in evaluation mode, predict the same for the same sample: whatever
    the other samples of the batches are, wherever the sample is in them, however large they are, and
    whatever happened before. *)
Theorem C56_predictions_depend_on_sample_and_weights_only :
  forall (es : estore) (ins outs : list nat) (m : model) (ran : bool) (infos : list linfo) (b : backend) (n : nat)
         (es' : estore) (ins' outs' : list nat) (m' : model) (ran' : bool) (infos' : list linfo) (b' : backend) (n' : nat) (f : nat -> nat),
  constructed es ins outs m -> closed (es_ph es) ins outs -> usable ran (es_ph es) outs m infos b -> eval_mode (es_ph es) outs m infos b ->
  constructed es' ins' outs' m' -> closed (es_ph es') ins' outs' -> usable ran' (es_ph es') outs' m' infos' b' -> eval_mode (es_ph es') outs' m' infos' b' ->
  same_network (es_ph es) outs n (produces m infos b) (es_ph es') outs' n' (produces m' infos' b') f -> ins' = map f ins -> outs' = map f outs ->
  forall (E E' : nat -> env) (xs xs' os os' : list ten) (r r' : nat),
  (forall d, fair (E d)) -> (forall d, fair (E' d)) -> shaped (es_ph es) ins xs -> shaped (es_ph es') ins' xs' ->
  shaped (es_ph es) outs os -> shaped (es_ph es') outs' os' ->
  r < n -> r' < n' -> Forall2 (fun x x' => sample x r = sample x' r') xs xs' ->
  exists b1 ys b1' ys',
    model_forward E m infos (Some b) xs os = Ret (infos, Some b1, xs, ys) /\
    model_forward E' m' infos' (Some b') xs' os' = Ret (infos', Some b1', xs', ys') /\
    Forall2 (fun y y' => sample y r = sample y' r') ys ys'.
Proof.
  intros es ins outs m ran infos b n es' ins' outs' m' ran' infos' b' n' f C CL U EM C' CL' U' EM' SN EI EO E E' xs xs' os os' r r' FE FE' SI SI' SO SO' R R' SX.
  destruct (constructed_parts _ _ _ _ C) as (MF & LB & VO & ND & RF). destruct (constructed_parts _ _ _ _ C') as (MF' & LB' & VO' & ND' & RF').
  destruct (forward_pure _ _ _ _ MF CL LB VO RF ran E infos b xs os U EM FE SI SO) as (V & b1 & EV & VT & EF & _).
  destruct (forward_pure _ _ _ _ MF' CL' LB' VO' RF' ran' E' infos' b' xs' os' U' EM' FE' SI' SO') as (V' & b1' & EV' & VT' & EF' & _).
  exists b1, (map V outs), b1', (map V' outs'). split; [exact EF|]. split; [exact EF'|].
  pose proof (same_samples _ _ _ _ _ _ _ _ MF MF' CL LB n n' f infos infos' b b' ran ran' E E' V V' xs xs' r r' U U' EM EM' SN EI FE FE' R R' SX EV EV' VT VT') as S.
  rewrite EO. clear -S. assert (K : forall d, In d outs -> sample (V d) r = sample (V' (f d)) r') by (intros d Hd; apply S, need_out, Hd).
  clear S. induction outs as [|d t IH]; cbn; constructor; [apply K; left; reflexivity|apply IH; intros; apply K; right; assumption].
Qed.
Print Assumptions C56_predictions_depend_on_sample_and_weights_only.

(** One model: the samples of a batch do not influence each other. *)
Theorem C56_samples_do_not_influence_each_other :
  forall (es : estore) (ins outs : list nat) (m : model) (ran : bool) (infos : list linfo) (b : backend) (n : nat),
  constructed es ins outs m -> closed (es_ph es) ins outs -> usable ran (es_ph es) outs m infos b -> eval_mode (es_ph es) outs m infos b ->
  (forall d, needed (es_ph es) outs d -> exists rest, dims (es_ph es) d = n :: rest) ->
  forall (E E' : nat -> env) (xs xs' os os' : list ten) (r r' : nat),
  (forall d, fair (E d)) -> (forall d, fair (E' d)) -> shaped (es_ph es) ins xs -> shaped (es_ph es) ins xs' ->
  shaped (es_ph es) outs os -> shaped (es_ph es) outs os' ->
  r < n -> r' < n -> Forall2 (fun x x' => sample x r = sample x' r') xs xs' ->
  exists b1 ys b1' ys',
    model_forward E m infos (Some b) xs os = Ret (infos, Some b1, xs, ys) /\
    model_forward E' m infos (Some b) xs' os' = Ret (infos, Some b1', xs', ys') /\
    Forall2 (fun y y' => sample y r = sample y' r') ys ys'.
Proof.
  intros es ins outs m ran infos b n C CL U EM BT E E' xs xs' os os' r r'.
  assert (SN : same_network (es_ph es) outs n (produces m infos b) (es_ph es) outs n (produces m infos b) (fun d => d)).
  { split.
    - intros d N. destruct (BT d N) as (rest & D). eauto.
    - intros d args N Ca. rewrite map_id. auto.
    - intros d L L' _ P P'. rewrite (produces_fun _ _ _ _ (constructed_mfacts _ _ _ _ C) _ _ _ _ _ P P'). apply same_weights_refl. }
  apply (C56_predictions_depend_on_sample_and_weights_only es ins outs m ran infos b n es ins outs m ran infos b n (fun d => d)); try assumption; symmetry; apply map_id.
Qed.
Print Assumptions C56_samples_do_not_influence_each_other.

(** Evaluating leaves no trace: after any number of forward calls in evaluation mode the parameters and
    buffers are what they were, and every later call gives what it would have given before them. *)
Theorem C56_evaluation_leaves_no_trace :
  forall (es : estore) (ins outs : list nat) (m : model) (ran : bool) (infos : list linfo) (b : backend) (n : nat) (o : optimizer) (cs : list tcall),
  constructed es ins outs m -> closed (es_ph es) ins outs -> usable ran (es_ph es) outs m infos b -> eval_mode (es_ph es) outs m infos b ->
  (forall d, needed (es_ph es) outs d -> exists rest, dims (es_ph es) d = n :: rest) ->
  Forall (fun c => exists E xs os, c = TForward E xs os) cs -> legal (es_ph es) ins outs ran cs ->
  exists b', tacts m cs (mkTS infos (Some b) o) = Ret (mkTS infos (Some b') o) /\ eval_mode (es_ph es) outs m infos b' /\
    forall (E E' : nat -> env) (xs os os' : list ten),
    (forall d, fair (E d)) -> (forall d, fair (E' d)) -> shaped (es_ph es) ins xs -> shaped (es_ph es) outs os -> shaped (es_ph es) outs os' ->
    exists b1 b2 ys,
      model_forward E m infos (Some b) xs os = Ret (infos, Some b1, xs, ys) /\
      model_forward E' m infos (Some b') xs os' = Ret (infos, Some b2, xs, ys).
Proof.
  intros es ins outs m ran infos b n o cs C CL U EM BT CS LG. destruct (constructed_parts _ _ _ _ C) as (MF & LB & VO & ND & RF).
  assert (K : exists b' ran', tacts m cs (mkTS infos (Some b) o) = Ret (mkTS infos (Some b') o) /\ usable ran' (es_ph es) outs m infos b' /\ eval_mode (es_ph es) outs m infos b' /\
    forall d L L', needed (es_ph es) outs d -> produces m infos b d L -> produces m infos b' d L' -> same_weights L L').
  { clear BT. revert ran b U EM CS LG. induction cs as [|c t IH]; intros ran b U EM CS LG.
    - exists b, ran. split; [reflexivity|]. split; [exact U|]. split; [exact EM|]. intros d L L' _ P P'. rewrite (produces_fun _ _ _ _ MF _ _ _ _ _ P P'). apply same_weights_refl.
    - inversion CS as [|? ? (E & xs & os & ->) CS']; subst. cbn [legal] in LG. destruct LG as (FE & SI & SO & LG).
      destruct (forward_pure _ _ _ _ MF CL LB VO RF ran E infos b xs os U EM FE SI SO) as (V & b1 & _ & _ & EF & U1 & EM1 & SW1).
      destruct (IH true b1 U1 EM1 CS' LG) as (b' & ran' & ET & U' & EM' & SW'). exists b', ran'.
      split; [cbn [tacts tact ts_info ts_backend ts_opt]; rewrite EF; exact ET|]. split; [exact U'|]. split; [exact EM'|].
      intros d L L' N P P'. assert (PC : exists args, call (es_ph es) d args).
      { pose proof P as (j & op & L0 & li & H1 & <- & _). destruct (op_spec _ _ _ _ MF op (nth_error_In _ _ H1)) as (args & k & _ & Ca & _). eauto. }
      destruct PC as (args & Ca). destruct (usable_fits _ _ _ _ _ _ U1 d args N Ca) as (L1 & P1 & _).
      pose proof (SW1 d L L1 N P P1) as A1. pose proof (SW' d L1 L' N P1 P') as A2.
      clear -A1 A2. destruct L, L1; cbn in A1; try contradiction; destruct L'; cbn in A2 |- *; try contradiction; auto; intuition congruence. }
  destruct K as (b' & ran' & ET & U' & EM' & SW). exists b'. split; [exact ET|]. split; [exact EM'|].
  intros E E' xs os os' FE FE' SI SO SO'.
  destruct (forward_pure _ _ _ _ MF CL LB VO RF ran E infos b xs os U EM FE SI SO) as (V & b1 & EV & VT & EF & _).
  destruct (forward_pure _ _ _ _ MF CL LB VO RF ran' E' infos b' xs os' U' EM' FE' SI SO') as (V' & b2 & EV' & VT' & EF' & _).
  exists b1, b2, (map V outs). split; [exact EF|]. rewrite EF'. do 2 f_equal. apply map_ext_in. intros d Hd. pose proof (need_out (es_ph es) outs d Hd) as N.
  destruct (BT d N) as (rest & D). pose proof (VT d N) as T. pose proof (VT' d N) as T'. rewrite D in T, T'. symmetry. apply (samples_eq n rest); [assumption..|]. intros r Hr.
  apply (same_samples _ ins outs m _ ins outs m MF MF CL LB n n (fun d => d) infos infos b b' ran ran' E E' V V' xs xs r r); try assumption; [|symmetry; apply map_id|clear; induction xs; constructor; auto].
  split.
  - intros e Ne. destruct (BT e Ne) as (rs & De). eauto.
  - intros e args Ne Ca. rewrite map_id. auto.
  - intros e L L' Ne. apply SW. exact Ne.
Qed.
Print Assumptions C56_evaluation_leaves_no_trace.

(** ** Example: Linear, BatchNorm1D, Dropout, ReLU, Linear and Softmax, for batches of 2 and of 3 *)
Definition ex7_layers (n : nat) : list made :=
  [mkMade ex_ie (ALinear 4) [[n; 3]] [n; 4];
   mkMade ex_ie (ABatchNorm1D (1 / 1000)%R (1 / 10)%R) [[n; 4]] [n; 4];
   mkMade ex_ie (ADropout (1 / 2)%R) [[n; 4]] [n; 4];
   mkMade ex_ie AReLU [[n; 4]] [n; 4];
   mkMade ex_ie (ALinear 2) [[n; 4]] [n; 2];
   mkMade ex_ie ASoftmax [[n; 2]] [n; 2]].
Definition ex7_es (n : nat) : estore :=
  fold_left (fun es x => mkES (es_ph es ++ [mkPh (zs (md_out x)) (Some (length (es_info es), [length (es_info es)]))])
                              (es_info es ++ [description (md_draws x) (md_layer x) (md_in x) ""]))
            (ex7_layers n) (fst (new_input (zs [n; 3]) es0)).
Definition ex7_made (n : nat) : estore * model := match construct_model (by_age 7) [0] [6] (ex7_es n) with RVal e m => (e, m) | _ => (es0, ex_m) end.
Lemma ex7_plain n : n = 2 \/ n = 3 -> plain (ex7_es n) (ex7_layers n).
Proof.
  intros Hn. assert (PR : forall k, k = 2 \/ k = 3 \/ k = 4 -> proper [n; k]).
  { intros k Hk. destruct Hn as [->| ->]; destruct Hk as [->|[->| ->]]; small_goal. }
  pose proof (plain_input _ _ [n; 3] plain_start ltac:(apply PR; auto)) as P.
  assert (W : forall l shs osh, result l shs osh -> Forall proper shs -> proper osh -> (forall w i o, weight_of l shs = Some (w, i, o) -> small (prodN w) /\ small (i + o)) -> meant_for l shs osh) by (intros; split; auto).
  next P (ALinear 4) [[n; 3]] [n; 4] [0].
  2:{ apply W; [constructor; [discriminate|lia]|constructor; [apply PR; auto|constructor]|apply PR; auto|intros w i o E; injection E as <- <- <-; split; unfold small; cbn; lia]. }
  next P (ABatchNorm1D (1 / 1000)%R (1 / 10)%R) [[n; 4]] [n; 4] [1].
  2:{ apply W; [constructor|constructor; [apply PR; auto|constructor]|apply PR; auto|discriminate]. }
  next P (ADropout (1 / 2)%R) [[n; 4]] [n; 4] [2].
  2:{ apply W; [constructor|constructor; [apply PR; auto|constructor]|apply PR; auto|discriminate]. }
  next P AReLU [[n; 4]] [n; 4] [3].
  2:{ apply W; [constructor|constructor; [apply PR; auto|constructor]|apply PR; auto|discriminate]. }
  next P (ALinear 2) [[n; 4]] [n; 2] [4].
  2:{ apply W; [constructor; [discriminate|lia]|constructor; [apply PR; auto|constructor]|apply PR; auto|intros w i o E; injection E as <- <- <-; split; unfold small; cbn; lia]. }
  next P ASoftmax [[n; 2]] [n; 2] [5].
  2:{ apply W; [constructor|constructor; [apply PR; auto|constructor]|apply PR; auto|discriminate]. }
  exact P.
Qed.

Definition ex7_infos (n : nat) : list linfo := model_train false (snd (ex7_made n)) (es_info (fst (ex7_made n))).
Lemma ex7_ready n : n = 2 \/ n = 3 ->
  constructed (ex7_es n) [0] [6] (snd (ex7_made n)) /\ closed (es_ph (ex7_es n)) [0] [6] /\
  (forall d, needed (es_ph (ex7_es n)) [6] d -> d <= 6) /\
  exists b, model_compile (es_ph (ex7_es n)) (fun _ => 0%R) (snd (ex7_made n)) (es_info (fst (ex7_made n))) None = Ret (Some b) /\
    usable false (es_ph (ex7_es n)) [6] (snd (ex7_made n)) (es_info (fst (ex7_made n))) b.
Proof.
  intros Hn. pose proof (ex7_plain n Hn) as PL. assert (B : built (ex7_es n)) by (apply (P_Plain.plain_plain_ok _ _ PL)).
  assert (LT : forall d, needed (es_ph (ex7_es n)) [6] d -> d <= 6) by (intros d N; apply (needed_le (es_ph (ex7_es n))); [apply store_links_back, built_ok, B|exact N]).
  assert (VO : Forall (fun d => d < length (es_ph (ex7_es n))) [6]) by (constructor; [destruct Hn as [->| ->]; vm_compute; lia|constructor]).
  assert (G : exists g, build (es_ph (ex7_es n)) [0] [6] = Ok g /\ is_topo g (by_age 7 g)).
  { destruct Hn as [->| ->]; eexists; (split; [vm_compute; reflexivity|]);
    (eapply (by_age_topo (es_ph (ex7_es _)) [0] [6]); [apply store_links_back, built_ok, B|intros o [<-|[]]; vm_compute; lia|vm_compute; reflexivity]). }
  destruct G as (g & BG & TO).
  assert (CM : construct_model (by_age 7) [0] [6] (ex7_es n) = RVal (fst (ex7_made n)) (snd (ex7_made n))) by (destruct Hn as [->| ->]; vm_compute; reflexivity).
  split; [split; [exact B|split; [exact VO|exists (by_age 7), g, (fst (ex7_made n)); auto]]|]. split; [|split; [exact LT|]].
  - split; [repeat constructor; intros []|]. split; [repeat constructor; intros []|]. split; [|split].
    + intros d [<-|[]] (args & s & i & H). discriminate H.
    + intros d [<-|[]]. eexists. eexists. eexists. reflexivity.
    + intros d N. specialize (LT d N). destruct d as [|d]; [right; left; reflexivity|left]. do 6 (destruct d as [|d]; [eexists; eexists; eexists; reflexivity|]). lia.
  - destruct (C54_compiled_models_are_usable (ex7_es n) (ex7_layers n) (by_age 7) [0] [6] g (fst (ex7_made n)) (snd (ex7_made n)) (fun _ => 0%R) None PL VO BG TO CM) as (b & EC & U & _).
    + intros d s i args N _. left. specialize (LT d N). destruct Hn as [->| ->]; do 7 (destruct d as [|d]; [vm_compute; reflexivity|]); lia.
    + exists b. auto.
Qed.

Example C56_nonvacuous : exists b2 b3,
  constructed (ex7_es 2) [0] [6] (snd (ex7_made 2)) /\ closed (es_ph (ex7_es 2)) [0] [6] /\
  usable false (es_ph (ex7_es 2)) [6] (snd (ex7_made 2)) (ex7_infos 2) b2 /\ eval_mode (es_ph (ex7_es 2)) [6] (snd (ex7_made 2)) (ex7_infos 2) b2 /\
  constructed (ex7_es 3) [0] [6] (snd (ex7_made 3)) /\ closed (es_ph (ex7_es 3)) [0] [6] /\
  usable false (es_ph (ex7_es 3)) [6] (snd (ex7_made 3)) (ex7_infos 3) b3 /\ eval_mode (es_ph (ex7_es 3)) [6] (snd (ex7_made 3)) (ex7_infos 3) b3 /\
  same_network (es_ph (ex7_es 2)) [6] 2 (produces (snd (ex7_made 2)) (ex7_infos 2) b2) (es_ph (ex7_es 3)) [6] 3 (produces (snd (ex7_made 3)) (ex7_infos 3) b3) (fun d => d) /\
  sample (mkT [2; 3] [1; 2; 3; 4; 5; 6]%R) 1 = sample (mkT [3; 3] [4; 5; 6; 7; 8; 9; 0; 0; 0]%R) 0.
Proof.
  destruct (ex7_ready 2 ltac:(auto)) as (C2 & K2 & L2 & b2 & B2 & U2). destruct (ex7_ready 3 ltac:(auto)) as (C3 & K3 & L3 & b3 & B3 & U3).
  destruct (C56_train_false_is_evaluation_mode _ _ _ _ _ _ _ C2 U2) as (V2 & E2). destruct (C56_train_false_is_evaluation_mode _ _ _ _ _ _ _ C3 U3) as (V3 & E3).
  exists b2, b3. do 8 (split; [assumption|]). split; [|reflexivity]. split.
  - intros d N. specialize (L2 d N). do 7 (destruct d as [|d]; [eexists; split; reflexivity|]). lia.
  - intros d args N (s & i & H). split.
    + pose proof (L2 d N) as LE. assert (K : forall d, d <= 6 -> needed (es_ph (ex7_es 3)) [6] d).
      { assert (N6 : needed (es_ph (ex7_es 3)) [6] 6) by (apply need_out; left; reflexivity).
        assert (ST : forall d, d < 6 -> needed (es_ph (ex7_es 3)) [6] (S d) -> needed (es_ph (ex7_es 3)) [6] d).
        { intros e He Ne. apply (need_arg _ _ (S e) [e]); [exact Ne| |left; reflexivity]. do 6 (destruct e as [|e]; [eexists; eexists; reflexivity|]). lia. }
        intros e He. do 7 (destruct e as [|e]; [repeat (exact N6 || (apply ST; [lia|]))|]). lia. }
      apply K, LE.
    + rewrite map_id. specialize (L2 d N). do 7 (destruct d as [|d]; [first [discriminate H|injection H as <- <- <-; eexists; eexists; reflexivity]|]). lia.
  - intros d L L' N (j & op & L0 & li & P1 & P2 & P3 & P4 & P5) (j' & op' & L0' & li' & Q1 & Q2 & Q3 & Q4 & Q5).
    vm_compute in B2, B3. injection B2 as <-. injection B3 as <-. cbn [b_layers] in P3, Q3. vm_compute in P1, Q1.
    unfold ex7_infos in P4, Q4.
    do 6 (destruct j as [|j]; [injection P1 as <-; vm_compute in P2; subst d; injection P3 as <-; vm_compute in P4; injection P4 as <-; vm_compute in P5; injection P5 as <-;
      do 6 (destruct j' as [|j']; [injection Q1 as <-; vm_compute in Q2; try discriminate Q2; injection Q3 as <-; vm_compute in Q4; injection Q4 as <-; vm_compute in Q5; injection Q5 as <-; cbn; auto|]); destruct j'; discriminate Q1|]).
    destruct j; discriminate P1.
Qed.
