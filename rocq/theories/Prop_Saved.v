(** Property C59: a model saved to a file and loaded again is the same model. *)
From Coq Require Import Reals String Lia Permutation.
From Verif Require Import Base BaseFacts Sums M_Tensor M_Layers M_Kernels M_Optim M_Init M_Nn M_Graph M_Model M_Backend M_Train M_Serial M_Saved S_Grad S_Fit S_Primed S_Nn S_Serial S_Graph S_Run S_Build S_Train S_Plain S_Eval S_Saved
  P_Fit P_Optim P_Graph P_Graph2 P_Nn P_MakeLayer P_Model P_Model2 P_Run P_Fwd P_Fwd2 P_Load P_Run2 P_Train2 P_Train3 P_Plain P_Build3 P_Build4 P_Eval P_Eval2 Prop_Graph Prop_Model Prop_Run Prop_Serial Prop_Build Prop_Train Prop_Plain Prop_Eval
  P_Saved P_Saved2 P_Saved3 P_Saved4 P_Saved5 P_Saved6 P_Saved7 P_Saved8.
Local Open Scope string_scope.
Open Scope nat_scope.
Local Open Scope list_scope.

(** A program builds a model, compiles it, does anything with it (training included), saves it; a program (the
    same or another, which may have built anything else before) loads the file.  Whatever order hash maps are
    iterated in, whatever the graph library's order, whatever values new parameters are drawn:
    saving and loading succeed, the expression of the loaded model is a copy of the part of the original that
    its outputs need, its inputs and outputs are those of the original in the order of their numbers, and every
    name has in the loaded model the tensor it has in the original.  The loaded model compiles; in evaluation
    mode both models give the same outputs for the same inputs. *)
Theorem C59_loaded_models_are_the_saved_models :
  forall (es : estore) (D : list made) (order : graph -> list gnode) (ins outs : list nat) (g : graph) (es' : estore) (m : model)
         (junk : nat -> R) (b0 : backend) (o o' : optimizer) (cs : list tcall) (infos : list linfo) (b : backend),
  plain es D -> Forall (fun d => d < length (es_ph es)) outs -> build (es_ph es) ins outs = Ok g -> is_topo g (order g) ->
  construct_model order ins outs es = RVal es' m -> closed (es_ph es) ins outs ->
  reached_well es D outs -> reached_well es D (by_number m outs) ->
  model_compile (es_ph es) junk m (es_info es') None = Ret (Some b0) ->
  opt_fits m (es_info es') o -> legal (es_ph es) ins outs false cs ->
  tacts m cs (mkTS (es_info es') (Some b0) o) = Ret (mkTS infos (Some b) o') ->
  forall (bits : R -> Z) (value : Z -> R) (can : Z -> bool) (junk_bytes : bytes -> bytes)
         (iter_cfg : config Z -> config Z) (iter_dict : sdict -> sdict)
         (order2 : graph -> list gnode) (I : nat -> ienv) (es2 : estore) (junk2 : nat -> R),
  savable bits value can m infos -> (forall c, iterated c (iter_cfg c)) -> (forall d, Permutation d (iter_dict d)) ->
  sorts order2 -> built es2 ->
  exists (file : bytes) (es3 : estore) (m2 : model) (infos2 : list linfo) (b2 : backend) (f : nat -> nat),
    save_model bits iter_cfg iter_dict m infos = Ok file /\
    load_model bits value can junk_bytes order2 I (Some file) es2 = RVal es3 (m2, infos2) /\
    copied (es_ph es) infos outs f (es_ph es3) infos2 /\
    m_in m2 = map f (by_number m ins) /\ m_out m2 = map f (by_number m outs) /\
    Permutation (by_number m ins) ins /\ Permutation (by_number m outs) outs /\
    (forall name, find_key (state_view m2 infos2) name = find_key (state_view m infos) name) /\
    model_compile (es_ph es3) junk2 m2 infos2 None = Ret (Some b2) /\
    constructed es3 (m_in m2) (m_out m2) m2 /\ closed (es_ph es3) (m_in m2) (m_out m2) /\ usable false (es_ph es3) (m_out m2) m2 infos2 b2 /\
    forall n, (forall d, In d ins -> exists rest, dims (es_ph es) d = n :: rest) ->
    forall (E E2 : nat -> env) (X : nat -> ten) (os os2 : list ten),
    (forall d, fair (E d)) -> (forall d, fair (E2 d)) -> (forall d, In d ins -> ten_ok (dims (es_ph es) d) (X d)) ->
    shaped (es_ph es) outs os -> shaped (es_ph es3) (m_out m2) os2 ->
    exists V infos' b' infos2' b2',
      model_forward E m (model_train false m infos) (Some b) (map X ins) os = Ret (infos', b', map X ins, map V outs) /\
      model_forward E2 m2 (model_train false m2 infos2) (Some b2) (map X (by_number m ins)) os2 = Ret (infos2', b2', map X (by_number m ins), map V (by_number m outs)).
Proof.
  intros es D order ins outs g es' m junk b0 o o' cs infos b PL VO BG TO CM CL RW RW2 CB OF LG TA bits value can junk_bytes iter_cfg iter_dict order2 I es2 junk2 SV IC ID SR BU2.
  assert (CO : constructed es ins outs m) by (eapply trip_constructed; eassumption).
  destruct (compile_plain es D order ins outs g es' m junk None PL VO BG TO CM RW) as (b0' & CB' & U0 & _). rewrite CB in CB'. injection CB' as <-.
  destruct (C53_sessions_return es ins outs m false (es_info es') b0 o cs CO CL U0 OF LG) as (i' & b' & o2 & TA' & US & _). rewrite TA in TA'. injection TA' as <- <- <-.
  assert (RI : rig (es_info es') (Some b0) infos (Some b)) by apply (tacts_rig m cs _ _ TA).
  destruct (trip es es' D m order ins outs g PL VO BG TO CM RW CL junk None b0 CB _ infos b US RI RW2 order2 I es2 SR BU2 bits value can junk_bytes SV iter_cfg iter_dict IC ID junk2 None)
    as (file & es3 & m2 & infos2 & b2 & f & SA & LO & CP & EI & EO & PI & PO & C2 & CL2 & VIEW & CB2 & US2 & WT).
  exists file, es3, m2, infos2, b2, f. do 12 (split; [assumption|]).
  intros n HI E E2 X os os2 FE FE2 TX SO SO2.
  pose proof (constructed_mfacts _ _ _ _ CO) as MF. pose proof (constructed_mfacts _ _ _ _ C2) as MF2.
  destruct (C56_train_false_is_evaluation_mode es ins outs m _ infos b CO US) as (UA & EA). destruct (C56_train_false_is_evaluation_mode es3 _ _ m2 _ infos2 b2 C2 US2) as (UB & EB).
  assert (VN : forall d, needed (es_ph es) outs d -> d < length (es_ph es)) by (intros d; apply (valid_needed es ins outs m CO)).
  assert (EOo : forall d, In d (by_number m outs) <-> In d outs).
  { intros d. split; intros H; [eapply Permutation_in; [exact PO|exact H]|eapply Permutation_in; [apply Permutation_sym, PO|exact H]]. }
  assert (EIi : forall d, In d (by_number m ins) <-> In d ins).
  { intros d. split; intros H; [eapply Permutation_in; [exact PI|exact H]|eapply Permutation_in; [apply Permutation_sym, PI|exact H]]. }
  assert (NI : forall d, In d ins -> needed (es_ph es) outs d).
  { intros d Hd. apply EIi in Hd. unfold by_number in Hd. apply filter_In in Hd. apply (mf_data _ _ _ _ MF), Hd. }
  pose proof (trip_batches es es' D m order ins outs g PL VO BG TO CM RW CL junk None b0 CB _ infos b US RI n HI) as BT.
  rewrite EI in C2, CL2. rewrite EO in C2, CL2, UB, EB, SO2.
  destruct (twins_predict es ins outs m _ (model_train false m infos) b n es3 (by_number m ins) (by_number m outs) m2 _ (model_train false m2 infos2) b2 f
    CO CL UA EA C2 CL2 UB EB) with (E := E) (E2 := E2) (X := X) (os := os) (os2 := os2) as (V & b1 & b3 & F1 & F2); try assumption.
  - split.
    + intros d Nd. destruct (BT d Nd) as (rest & Ed). exists rest. split; [exact Ed|]. rewrite (dims_copy _ _ _ _ _ _ CP VN d Nd). exact Ed.
    + intros d args Nd C. split; [|eapply call_copy; eassumption]. apply (needed_copy (es_ph es) (es_ph es3) infos infos2 outs (by_number m outs) f CP EOo VN). eauto.
    + intros d L L' Nd P P'.
      assert (HC : exists args, call (es_ph es) d args).
      { pose proof P as (j & op & L0 & li & O1 & <- & _). destruct (op_info _ _ _ _ _ CO (nth_error_In _ _ O1)) as (s & args & Hd). exists args, s, (mo_info op). exact Hd. }
      destruct HC as (args & HC). destruct (usable_fits _ _ _ _ _ _ US d args Nd HC) as (L1 & P1 & _).
      assert (N2 : needed (es_ph es3) (m_out m2) (f d)) by (rewrite EO; apply (needed_copy (es_ph es) (es_ph es3) infos infos2 outs (by_number m outs) f CP EOo VN); eauto).
      assert (HC2 : call (es_ph es3) (f d) (map f args)) by (eapply call_copy; eassumption).
      destruct (usable_fits _ _ _ _ _ _ US2 (f d) (map f args) N2 HC2) as (L2 & P2 & _).
      destruct (WT d L1 L2 Nd P1 P2) as (_ & W). pose proof (train_weights _ _ _ _ _ _ _ _ _ _ MF P1 P) as W1. pose proof (train_weights _ _ _ _ _ _ _ _ _ _ MF2 P2 P') as W2.
      eapply same_weights_trans; [apply same_weights_sym, W1|]. eapply same_weights_trans; [exact W|exact W2].
  - exists V, (model_train false m infos), (Some b1), (model_train false m2 infos2), (Some b3). auto.
Qed.
Print Assumptions C59_loaded_models_are_the_saved_models.

(** Using a model changes neither the names nor the shapes in it: if the file could hold the new model, it can
    hold the trained one, as long as its numbers are floats. *)
Theorem C59_use_keeps_models_savable :
  forall (es : estore) (D : list made) (order : graph -> list gnode) (ins outs : list nat) (g : graph) (es' : estore) (m : model)
         (junk : nat -> R) (b0 : backend) (o o' : optimizer) (cs : list tcall) (infos : list linfo) (b : backend)
         (bits : R -> Z) (value : Z -> R) (can : Z -> bool),
  plain es D -> Forall (fun d => d < length (es_ph es)) outs -> build (es_ph es) ins outs = Ok g -> is_topo g (order g) ->
  construct_model order ins outs es = RVal es' m -> closed (es_ph es) ins outs -> reached_well es D outs ->
  model_compile (es_ph es) junk m (es_info es') None = Ret (Some b0) ->
  opt_fits m (es_info es') o -> legal (es_ph es) ins outs false cs ->
  tacts m cs (mkTS (es_info es') (Some b0) o) = Ret (mkTS infos (Some b) o') ->
  map (fun e => (fst e, tsh (snd e))) (state_view m infos) = map (fun e => (fst e, tsh (snd e))) (state_view m (es_info es')) /\
  Forall (fun e => length (tdat (snd e)) = prodN (tsh (snd e))) (state_view m infos) /\
  (savable bits value can m (es_info es') -> Forall (exact bits value) (floats_of m infos) -> savable bits value can m infos).
Proof.
  intros es D order ins outs g es' m junk b0 o o' cs infos b bits value can PL VO BG TO CM CL RW CB OF LG TA.
  assert (CO : constructed es ins outs m) by (eapply trip_constructed; eassumption).
  destruct (compile_plain es D order ins outs g es' m junk None PL VO BG TO CM RW) as (b0' & CB' & U0 & _). rewrite CB in CB'. injection CB' as <-.
  destruct (C53_sessions_return es ins outs m false (es_info es') b0 o cs CO CL U0 OF LG) as (i' & b' & o2 & TA' & US & _). rewrite TA in TA'. injection TA' as <- <- <-.
  assert (RI : rig (es_info es') (Some b0) infos (Some b)) by apply (tacts_rig m cs _ _ TA).
  pose proof (view_shapes es es' D m order ins outs g PL VO BG TO CM RW junk None b0 CB _ infos b US RI) as VS.
  split; [symmetry; exact VS|]. split; [exact (view_twf es es' D m order ins outs g PL VO BG TO CM RW junk None b0 CB _ infos b US RI)|].
  intros (_ & GC & GD) F. split; [exact F|]. split; [exact GC|]. eapply good_dict_shapes; eassumption.
Qed.
Print Assumptions C59_use_keeps_models_savable.

(** ** Example: a network with batch normalisation and dropout, one step of training *)
Ltac good_goal :=
  unfold good_cfg, good_op, good_ints, good_string, good_attr, int32, word32;
  repeat match goal with
  | |- _ /\ _ => split
  | |- Forall _ _ => constructor
  | |- NoDup _ => repeat constructor; cbn; repeat (intros [H|H]; [discriminate H|revert H]); intros []
  | |- match _ with _ => _ end => cbn [snd]
  | |- _ => vm_compute; first [reflexivity | discriminate]
  end.
Lemma ex59_cfg : good_cfg (fun _ => true) (cfg_map (fun _ => 0%Z) (m_cfg (snd (ex7_made 2)))).
Proof.
  let c := eval vm_compute in (cfg_map (fun _ => 0%Z) (m_cfg (snd (ex7_made 2)))) in change (cfg_map (fun _ => 0%Z) (m_cfg (snd (ex7_made 2)))) with c.
  good_goal.
Qed.
Lemma ex59_dict bits : good_dict (fun _ => true) (dict_of bits (snd (ex7_made 2)) (es_info (fst (ex7_made 2)))).
Proof.
  let l := constr:(map (fun e => (fst e, map Z.of_nat (tsh (snd e)))) (state_view (snd (ex7_made 2)) (es_info (fst (ex7_made 2))))) in
  let c := eval vm_compute in l in assert (E : c = l) by (vm_compute; reflexivity).
  unfold dict_of. revert E. generalize (state_view (snd (ex7_made 2)) (es_info (fst (ex7_made 2)))). intros l E.
  assert (N : NoDup (map fst (map (fun e => (fst e, map Z.of_nat (tsh (snd e)))) l))) by (rewrite <- E; good_goal).
  assert (F : Forall (fun e => good_string (fun _ => true) (fst e) /\ good_ints (fun _ => true) (snd e)) (map (fun e => (fst e, map Z.of_nat (tsh (snd e)))) l)) by (rewrite <- E; good_goal).
  split; [rewrite map_length, <- (map_length (fun e => (fst e, map Z.of_nat (tsh (snd e)))) l), <- E; reflexivity|]. rewrite map_map in *. cbn in N |- *. split; [exact N|].
  clear -F. induction l as [|e t IH]; cbn; [constructor|]. cbn in F. inversion F; subst. constructor; auto.
Qed.
Definition ex59_cs (E : nat -> env) (X Y G : ten) : list tcall :=
  [TTrain true; TForward E [X] [Y]; TBackward E [X] [Y] [G]; TStep; TTrain false; TForward E [X] [Y]].
Example C59_nonvacuous : forall (E : nat -> env) (X Y G : ten),
  (forall d, fair (E d)) -> ten_ok [2; 3] X -> ten_ok [2; 2] Y -> ten_ok [2; 2] G ->
  exists g b0 infos b o' bits value,
    plain (ex7_es 2) (ex7_layers 2) /\ Forall (fun d => d < length (es_ph (ex7_es 2))) [6] /\
    build (es_ph (ex7_es 2)) [0] [6] = Ok g /\ is_topo g (by_age 7 g) /\
    construct_model (by_age 7) [0] [6] (ex7_es 2) = RVal (fst (ex7_made 2)) (snd (ex7_made 2)) /\
    closed (es_ph (ex7_es 2)) [0] [6] /\
    reached_well (ex7_es 2) (ex7_layers 2) [6] /\ reached_well (ex7_es 2) (ex7_layers 2) (by_number (snd (ex7_made 2)) [6]) /\
    model_compile (es_ph (ex7_es 2)) (fun _ => 0%R) (snd (ex7_made 2)) (es_info (fst (ex7_made 2))) None = Ret (Some b0) /\
    opt_fits (snd (ex7_made 2)) (es_info (fst (ex7_made 2))) (SGD (1 / 10)) /\
    legal (es_ph (ex7_es 2)) [0] [6] false (ex59_cs E X Y G) /\
    tacts (snd (ex7_made 2)) (ex59_cs E X Y G) (mkTS (es_info (fst (ex7_made 2))) (Some b0) (SGD (1 / 10))) = Ret (mkTS infos (Some b) o') /\
    savable bits value (fun _ => true) (snd (ex7_made 2)) infos /\ sorts kahn /\ built es0 /\
    length (state_view (snd (ex7_made 2)) infos) = 9 /\ length (c_ops (m_cfg (snd (ex7_made 2)))) = 6.
Proof.
  intros E X Y G FE HX HY HG. pose proof (ex7_plain 2 ltac:(auto)) as PL. assert (B : built (ex7_es 2)) by (apply (P_Plain.plain_plain_ok _ _ PL)).
  destruct (ex7_ready 2 ltac:(auto)) as (C2 & K2 & L2 & b0 & B2 & U2).
  assert (VO : Forall (fun d => d < length (es_ph (ex7_es 2))) [6]) by (constructor; [vm_compute; lia|constructor]).
  assert (BG : exists g, build (es_ph (ex7_es 2)) [0] [6] = Ok g) by (eexists; vm_compute; reflexivity). destruct BG as (g & BG).
  assert (TO : is_topo g (by_age 7 g)).
  { eapply (by_age_topo (es_ph (ex7_es 2)) [0] [6]); [apply store_links_back, built_ok, B|intros o [<-|[]]; vm_compute; lia|exact BG]. }
  assert (CM : construct_model (by_age 7) [0] [6] (ex7_es 2) = RVal (fst (ex7_made 2)) (snd (ex7_made 2))) by (vm_compute; reflexivity).
  assert (RW : reached_well (ex7_es 2) (ex7_layers 2) [6]).
  { intros d s i args N _. left. specialize (L2 d N). do 7 (destruct d as [|d]; [vm_compute; reflexivity|]). lia. }
  assert (SI : shaped (es_ph (ex7_es 2)) [0] [X]) by (constructor; [apply HX|constructor]).
  assert (SO : shaped (es_ph (ex7_es 2)) [6] [Y]) by (constructor; [apply HY|constructor]).
  assert (SG : shaped (es_ph (ex7_es 2)) [6] [G]) by (constructor; [apply HG|constructor]).
  assert (LG : legal (es_ph (ex7_es 2)) [0] [6] false (ex59_cs E X Y G)) by (cbn [legal ex59_cs]; auto 20).
  assert (OF : opt_fits (snd (ex7_made 2)) (es_info (fst (ex7_made 2))) (SGD (1 / 10))) by exact Logic.I.
  destruct (C53_sessions_return _ _ _ _ _ _ _ _ _ C2 K2 U2 OF LG) as (infos & b & o' & TA & _).
  destruct (C59_use_keeps_models_savable _ _ _ _ _ _ _ _ _ _ _ _ _ _ _ (fun _ => 0%Z) (fun _ => 0%R) (fun _ => true) PL VO BG TO CM K2 RW B2 OF LG TA) as (VS & VL & _).
  assert (VS0 : map (fun e => (fst e, tsh (snd e))) (state_view (snd (ex7_made 2)) (es_info (fst (ex7_made 2)))) =
    map (fun e => (fst e, tsh (snd e))) (state_view (snd (ex7_made 2)) infos)) by (symmetry; exact VS).
  assert (LEN : length (state_view (snd (ex7_made 2)) infos) = 9) by (apply (f_equal (@length _)) in VS; rewrite !map_length in VS; rewrite VS; vm_compute; reflexivity).
  destruct (codec_exists (floats_of (snd (ex7_made 2)) infos)) as (bits & value & EX).
  { unfold floats_of. rewrite app_length.
    assert (L1 : length (flat_map (fun e => tdat (snd e)) (state_view (snd (ex7_made 2)) infos)) = fold_right (fun e n => prodN (snd e) + n) 0 (map (fun e => (fst e, tsh (snd e))) (state_view (snd (ex7_made 2)) infos))).
    { clear -VL. induction VL as [|e t H _ IH]; [reflexivity|]. cbn [flat_map map fold_right fst snd]. rewrite app_length, IH, H. reflexivity. }
    rewrite L1, VS. vm_compute. discriminate. }
  exists g, b0, infos, b, o', bits, value. do 12 (split; [assumption|]). split; [|split; [exact kahn_sorts|split; [constructor|split; [exact LEN|vm_compute; reflexivity]]]].
  split; [exact EX|]. split.
  - eapply (good_cfg_bits (fun _ => 0%Z)).
    + exact ex59_cfg.
    + unfold floats_of in EX. apply Forall_app in EX. destruct EX as (EX & _). eapply Forall_impl; [|exact EX]. intros x (Hx & _). exact Hx.
  - eapply good_dict_shapes; [exact VS0|]. apply ex59_dict.
Qed.
