(** Property C47: rebuilding a model from its configuration. *)
From Coq Require Import Reals String Lia Permutation.
From Verif Require Import Base BaseFacts M_Tensor M_Layers M_Optim P_Optim M_Init M_Nn M_Graph M_Model M_Backend S_Grad S_Partial S_Nn S_Graph S_Run S_Build
  P_Graph P_Graph2 P_Nn P_MakeLayer P_Model P_Model2 P_Run P_Fwd P_Fwd2 P_Build P_Build2 P_Build3 P_Build4 Prop_Graph Prop_Model Prop_Run.
Local Open Scope string_scope.
Local Open Scope list_scope.
Open Scope nat_scope.

(** Build succeeds on the configuration of every model, whatever the graph library's sorting does and
    wherever it is called.  The new model is the model of a copy of the needed part of the expression:
    same shapes, same layers, same calls.  Its inputs and outputs are those of the old model, in the order
    of their numbers there.  What existed before is left alone. *)
Theorem C47_rebuilds :
  forall (es : estore) (ins outs : list nat) (order : graph -> list gnode) (g : graph) (es' : estore) (m : model),
  built es -> Forall (fun d => d < length (es_ph es)) outs -> build (es_ph es) ins outs = Ok g -> is_topo g (order g) ->
  construct_model order ins outs es = RVal es' m -> closed (es_ph es) ins outs ->
  forall (order2 : graph -> list gnode) (I : nat -> ienv) (es2 : estore), sorts order2 -> built es2 ->
  exists es3 m2 f,
    Build order2 I (m_cfg m) es2 = RVal es3 m2 /\
    copied (es_ph es) (es_info es') outs f (es_ph es3) (es_info es3) /\
    m_in m2 = map f (by_number m ins) /\ m_out m2 = map f (by_number m outs) /\
    Permutation (by_number m ins) ins /\ Permutation (by_number m outs) outs /\
    constructed es3 (m_in m2) (m_out m2) m2 /\ closed (es_ph es3) (m_in m2) (m_out m2) /\
    exists l1 l2, es_ph es3 = es_ph es2 ++ l1 /\ es_info es3 = es_info es2 ++ l2.
Proof. intros. eapply rebuilt; eassumption. Qed.
Print Assumptions C47_rebuilds.

(** The parameters and buffers of the new layers have the names and shapes a layer gets that is called
    once, with the same shapes. *)
Theorem C47_same_parameters :
  forall (ps ps' : list phnode) (infos infos' : list linfo) (outs : list nat) (f : nat -> nat),
  copied ps infos outs f ps' infos' ->
  forall d s i args li, needed ps outs d -> nth_error ps d = Some (mkPh s (Some (i, args))) ->
  nth_error infos i = Some li -> initialised ps args li ->
  exists i' li', nth_error ps' (f d) = Some (mkPh s (Some (i', map f args))) /\ nth_error infos' i' = Some li' /\ alike li li'.
Proof.
  intros ps ps' infos infos' outs f CP d s i args li N Hd Hi IN.
  destruct (cp_call _ _ _ _ _ _ CP d s i args N Hd) as (i' & l1 & li' & Hd' & H1 & H2 & SD & IN').
  rewrite Hi in H1. injection H1 as <-. exists i', li'. split; [exact Hd'|]. split; [exact H2|].
  destruct IN as (k & I & ss & li0 & li1 & T & SS & CO & LI & AL). destruct IN' as (k' & I' & ss' & li0' & li1' & T' & SS' & CO' & LI' & AL').
  destruct SD as (D1 & D2 & D3). rewrite <- D2, T in T'. injection T' as <-. rewrite <- D1, <- D3, CO in CO'. injection CO' as <-.
  assert (ss' = ss) as ->.
  { assert (HN : forall a, In a args -> needed ps outs a) by (intros a Ha; eapply need_arg; [exact N|exists s, i; exact Hd|exact Ha]).
    clear -SS SS' CP HN. revert ss' SS'. induction SS as [|a x t xs (p & Hp & Ex) _ IH]; intros ss' SS'; inversion SS' as [|? y ? ys (q & Hq & Ey) SS2]; subst; [reflexivity|].
    f_equal; [|apply IH; [intros; apply HN; right; assumption|exact SS2]].
    assert (Na : needed ps outs a) by (apply HN; left; reflexivity). destruct p as [sp [[j al]|]].
    - destruct (cp_call _ _ _ _ _ _ CP a sp j al Na Hp) as (j' & ? & ? & Hq' & _). rewrite Hq' in Hq. injection Hq as <-. reflexivity.
    - rewrite (cp_leaf _ _ _ _ _ _ CP a sp Na Hp) in Hq. injection Hq as <-. reflexivity. }
  assert (AN : alike li0 li0) by (apply alike_refl).
  pose proof (linit_alike k I I' ss li0 li0 AN) as LA. rewrite LI, LI' in LA. cbn in LA.
  exact (alike_trans _ _ _ AL (alike_trans _ _ _ LA (alike_sym _ _ AL'))).
Qed.
Print Assumptions C47_same_parameters.

(** With the same parameters and buffers, by name, the new model computes what the old one computes:
    the value of every output of the expression.  [X] and [V] give the inputs and results, by placeholder of
    the old expression; the two calls may differ in what the outputs held before and in all
    memory contents.  Random draws are those of the operation a copy was made of. *)
Theorem C47_same_outputs :
  forall (es : estore) (ins outs : list nat) (m : model) (infosE : list linfo) (es3 : estore) (m2 : model) (f : nat -> nat),
  constructed es ins outs m -> closed (es_ph es) ins outs ->
  copied (es_ph es) infosE outs f (es_ph es3) (es_info es3) ->
  m_in m2 = map f (by_number m ins) -> m_out m2 = map f (by_number m outs) ->
  constructed es3 (m_in m2) (m_out m2) m2 -> closed (es_ph es3) (m_in m2) (m_out m2) ->
  forall (infos infos2 : list linfo) (b b2 : backend) (bo bo2 : option backend) (junk junk2 : nat -> R),
  Forall2 same_description infosE infos -> Forall2 same_description (es_info es3) infos2 -> same_state m infos m2 infos2 ->
  model_compile (es_ph es) junk m infos bo = Ret (Some b) -> model_compile (es_ph es3) junk2 m2 infos2 bo2 = Ret (Some b2) ->
  forall (E E2 : nat -> env) (X V : nat -> ten) (touts touts2 : list ten),
  (forall d, needed (es_ph es) outs d -> E2 (f d) = E d) ->
  shaped (es_ph es) ins (map X ins) -> shaped (es_ph es) outs touts -> shaped (es_ph es3) (m_out m2) touts2 ->
  evaluation (es_ph es) ins outs (map X ins) E (produces m infos b) V ->
  links_ok (es_ph es) outs (produces m infos b) -> links_ok (es_ph es) (by_number m outs) (produces m infos b) ->
  (exists i b', model_forward E m infos (Some b) (map X ins) touts = Ret (i, b', map X ins, map V outs)) /\
  (exists i b', model_forward E2 m2 infos2 (Some b2) (map X (by_number m ins)) touts2 = Ret (i, b', map X (by_number m ins), map V (by_number m outs))).
Proof.
  intros es ins outs m infosE es3 m2 f C CL CP EI EO C2 CL2 infos infos2 b b2 bo bo2 junk junk2 D1 D2 ST K K2 E E2 X V touts touts2 EE SI SO SO2 EV LO LO2.
  destruct (C37_compile_prepares _ _ _ _ _ _ _ _ C K) as (b' & Eb & BF & _). injection Eb as <-.
  destruct (C37_compile_prepares _ _ _ _ _ _ _ _ C2 K2) as (b2' & Eb2 & BF2 & _). injection Eb2 as <-.
  split.
  { destruct (C37_forward_evaluates _ _ _ _ infos b E V (map X ins) touts C CL BF SI SO EV LO) as (i & b' & H & _). exists i, (Some b'). exact H. }
  pose proof (constructed_mfacts _ _ _ _ C) as MF.
  assert (HI : forall d, In d (by_number m ins) <-> In d ins).
  { intros d. unfold by_number. rewrite filter_In. change (existsb (Nat.eqb d) ins) with (memb d ins). rewrite memb_In, (mf_data _ _ _ _ MF). split; [tauto|].
    intros H. split; [apply (mf_needed_in _ _ _ _ MF), H|exact H]. }
  assert (HO : forall d, In d (by_number m outs) <-> In d outs).
  { intros d. unfold by_number. rewrite filter_In. change (existsb (Nat.eqb d) outs) with (memb d outs). rewrite memb_In, (mf_data _ _ _ _ MF). split; [tauto|].
    intros H. split; [apply need_out, H|exact H]. }
  rewrite EI, EO in C2, CL2. rewrite EO in SO2.
  pose proof (evaluation_copy es infosE ins outs (by_number m ins) (by_number m outs) m es3 m2 f C CP HI HO C2 infos infos2 D1 D2 ST b b2 bo bo2 junk junk2 K K2 E E2 EE X V EV) as EV2.
  pose proof (links_copy es infosE ins outs (by_number m ins) (by_number m outs) m es3 m2 f C CP HO C2 infos infos2 D1 D2 ST b b2 bo bo2 junk junk2 K K2 LO2) as LO3.
  assert (VN : forall d, needed (es_ph es) outs d -> d < length (es_ph es)) by (intros d; apply (valid_needed es ins outs m C)).
  assert (SI2 : shaped (es_ph es3) (map f (by_number m ins)) (map X (by_number m ins))).
  { assert (H : forall d, In d (by_number m ins) -> ten_ok (dims (es_ph es3) (f d)) (X d)).
    { intros d Hd. apply HI in Hd. rewrite (dims_copy _ _ _ _ outs f CP VN d (mf_needed_in _ _ _ _ MF d Hd)). clear -SI Hd. unfold shaped in SI.
      induction ins as [|x t IH]; [destruct Hd|]. cbn in SI. inversion SI; subst. destruct Hd as [->|Hd]; [assumption|auto]. }
    clear -H. unfold shaped. induction (by_number m ins) as [|x t IH]; cbn; constructor; [apply H; left; reflexivity|]. apply IH. intros d Hd. apply H. right; exact Hd. }
  destruct (C37_forward_evaluates _ _ _ _ infos2 b2 E2 (back m f V) (map X (by_number m ins)) touts2 C2 CL2 BF2 SI2 SO2 EV2 LO3) as (i & b' & H & _).
  exists i, (Some b'). rewrite H. do 2 f_equal. rewrite map_map. apply map_ext_in. intros d Hd.
  apply (back_f es infosE ins outs m es3 f C CP V). apply need_out, HO, Hd.
Qed.
Print Assumptions C47_same_outputs.

(** A model with one output needs no condition on the new links. *)
Theorem C47_one_output :
  forall (es : estore) (ins : list nat) (o : nat) (m : model), constructed es ins [o] m -> by_number m [o] = [o].
Proof.
  intros es ins o m C. pose proof (constructed_mfacts _ _ _ _ C) as MF.
  apply Permutation_length_1_inv. symmetry. apply filter_perm; [repeat constructor; intros []|apply (mf_nodup _ _ _ _ MF)|].
  intros x [<-|[]]. apply (mf_data _ _ _ _ MF), need_out. left; reflexivity.
Qed.
Print Assumptions C47_one_output.

(** But if an output [a] is needed for another output, the new model links the operation producing it
    repeatedly, and unless that is one of the few that do not count their inputs, its forward never returns. *)
Theorem C47_output_used_by_output_breaks :
  forall (es : estore) (ins outs : list nat) (m : model) (infosE : list linfo) (es3 : estore) (m2 : model) (f : nat -> nat) (a o : nat),
  constructed es ins outs m -> copied (es_ph es) infosE outs f (es_ph es3) (es_info es3) ->
  m_out m2 = map f (by_number m outs) -> constructed es3 (m_in m2) (m_out m2) m2 ->
  In a outs -> In o outs -> a <> o -> needed (es_ph es) [o] a ->
  forall infos2 b2 L, produces m2 infos2 b2 (f a) L -> tolerant L = false ->
  forall E tins touts r, model_forward E m2 infos2 (Some b2) tins touts <> Ret r.
Proof.
  intros es ins outs m infosE es3 m2 f a o C CP EO C2 Ha Ho AO N infos2 b2 L P T E tins touts r H.
  destruct (C34_returns_only_if_linked_once _ _ _ _ _ _ _ _ _ _ C2 H (f a) L P) as [H1|H1]; [|congruence].
  pose proof (constructed_mfacts _ _ _ _ C) as MF.
  assert (HO : forall d, In d (by_number m outs) <-> In d outs).
  { intros d. unfold by_number. rewrite filter_In. change (existsb (Nat.eqb d) outs) with (memb d outs). rewrite memb_In, (mf_data _ _ _ _ MF). split; [tauto|].
    intros X. split; [apply need_out, X|exact X]. }
  rewrite EO, (visits_copied _ _ _ _ outs (by_number m outs) f CP HO) in H1; [|intros d; apply (valid_needed es ins outs m C)|apply need_out, Ha].
  pose proof (by_number_repeats es ins outs m a o C Ha Ho AO N). lia.
Qed.
Print Assumptions C47_output_used_by_output_breaks.

(** ** Examples *)
(** [Add(Sigmoid(ReLU x), ReLU x)], rebuilt in an empty program. *)
Definition ex_es3 : estore := match Build kahn (fun _ => ex_ie) (m_cfg ex_m) es0 with RVal e _ => e | _ => es0 end.
Definition ex_m2 : model := match Build kahn (fun _ => ex_ie) (m_cfg ex_m) es0 with RVal _ m => m | _ => ex_m end.
Definition ex_b2 : backend := match new_backend (es_ph ex_es3) (fun _ => 0%R) ex_m2 (es_info ex_es3) with Ok b => b | _ => mkB [] [] [] end.

Lemma desc_refl l : Forall2 same_description l l.
Proof. apply Forall2_refl'. intros. repeat split. Qed.

Lemma ex_rebuilt : exists f,
  copied (es_ph (ex_es [2; 1])) ex_infos [3] f (es_ph ex_es3) (es_info ex_es3) /\
  m_in ex_m2 = map f (by_number ex_m [0]) /\ m_out ex_m2 = map f (by_number ex_m [3]) /\
  constructed ex_es3 (m_in ex_m2) (m_out ex_m2) ex_m2 /\ closed (es_ph ex_es3) (m_in ex_m2) (m_out ex_m2).
Proof.
  pose proof ex_constructed as (BU & VO & _).
  assert (exists g es', build (es_ph (ex_es [2; 1])) [0] [3] = Ok g /\ construct_model (by_age 4) [0] [3] (ex_es [2; 1]) = RVal es' ex_m /\ es_info es' = ex_infos)
    as (g & es' & BG & CM & EI) by (eexists; eexists; split; [vm_compute; reflexivity|split; vm_compute; reflexivity]).
  assert (TO : is_topo g (by_age 4 g)).
  { eapply (by_age_topo (es_ph (ex_es [2; 1])) [0] [3]); [apply store_links_back, built_ok, BU| |exact BG]. intros o [<-|[]]. vm_compute. lia. }
  destruct (C47_rebuilds _ _ _ _ _ _ _ BU VO BG TO CM ex_closed kahn (fun _ => ex_ie) es0 kahn_sorts built_start) as (es3 & m2 & f & B & CP & EIn & EOut & _ & _ & C2 & CL2 & _).
  assert (B' : Build kahn (fun _ => ex_ie) (m_cfg ex_m) es0 = RVal ex_es3 ex_m2) by (vm_compute; reflexivity).
  assert (E1 : es3 = ex_es3) by congruence. assert (E2 : m2 = ex_m2) by congruence. rewrite E1 in CP, C2, CL2. rewrite E2 in EIn, EOut, C2, CL2. rewrite EI in CP.
  exists f. auto.
Qed.

Example C47_nonvacuous : forall (e : env) (x o o2 : ten), ten_ok [2; 3] x -> ten_ok [2; 3] o -> ten_ok [2; 3] o2 ->
  Build kahn (fun _ => ex_ie) (m_cfg ex_m) es0 = RVal ex_es3 ex_m2 /\
  map fst (m_lmap ex_m2) = ["relu0"; "sigmoid1"; "add2"] /\
  (exists i b, model_forward (fun _ => e) ex_m ex_infos (Some ex_b) [x] [o] = Ret (i, b, [x], [ex_V x 3])) /\
  (exists i b, model_forward (fun _ => e) ex_m2 (es_info ex_es3) (Some ex_b2) [x] [o2] = Ret (i, b, [x], [ex_V x 3])).
Proof.
  intros e x o o2 X O1 O2. split; [vm_compute; reflexivity|]. split; [vm_compute; reflexivity|].
  destruct ex_rebuilt as (f & CP & EI & EO & C2 & CL2).
  assert (K2 : model_compile (es_ph ex_es3) (fun _ => 0%R) ex_m2 (es_info ex_es3) None = Ret (Some ex_b2)) by (vm_compute; reflexivity).
  assert (N1 : by_number ex_m [0] = [0]) by (vm_compute; reflexivity). assert (N2 : by_number ex_m [3] = [3]) by (vm_compute; reflexivity).
  pose proof (C37_nonvacuous (fun _ => e) x o X O1) as (_ & _ & _ & EV & LO & _).
  pose proof (C47_same_outputs _ _ _ _ ex_infos ex_es3 ex_m2 f ex_constructed ex_closed CP EI EO C2 CL2 ex_infos (es_info ex_es3) ex_b ex_b2 None None (fun _ => 0%R) (fun _ => 0%R)
    (desc_refl _) (desc_refl _)) as H. rewrite N1, N2 in H.
  apply (H) with (E := fun _ => e) (E2 := fun _ => e) (X := fun _ => x) (V := ex_V x) (touts := [o]) (touts2 := [o2]); clear H; auto.
  - intros l l2 a b Hl Hl2 Ha Hb EN. vm_compute in Hl, Hl2.
    destruct Hl as [<-|[<-|[<-|[]]]]; vm_compute in Ha; injection Ha as <-; destruct Hl2 as [<-|[<-|[<-|[]]]]; vm_compute in Hb; injection Hb as <-; try discriminate EN; split; reflexivity.
  - repeat constructor; apply X.
  - repeat constructor; apply O1.
  - assert (dims (es_ph ex_es3) (nth 0 (m_out ex_m2) 0) = [2; 3] /\ length (m_out ex_m2) = 1) as [HD HL] by (vm_compute; auto).
    destruct (m_out ex_m2) as [|p [|]]; try discriminate HL. cbn in HD. constructor; [rewrite HD; exact O2|constructor].
Qed.

(** Outputs [Sigmoid(ReLU x)] and [ReLU x], in this order: the model runs, the rebuilt one never does. *)
Definition ex_p : model := match construct_model (by_age 4) [0] [2; 1] (ex_es [2; 1]) with RVal _ m => m | _ => ex_m end.
Definition ex_pi : list linfo := match construct_model (by_age 4) [0] [2; 1] (ex_es [2; 1]) with RVal es _ => es_info es | _ => [] end.
Definition ex_pb : backend := match new_backend (es_ph (ex_es [2; 1])) (fun _ => 0%R) ex_p ex_pi with Ok b => b | _ => mkB [] [] [] end.
Definition ex_pes : estore := match Build kahn (fun _ => ex_ie) (m_cfg ex_p) es0 with RVal e _ => e | _ => es0 end.
Definition ex_p2 : model := match Build kahn (fun _ => ex_ie) (m_cfg ex_p) es0 with RVal _ m => m | _ => ex_m end.
Definition ex_pb2 : backend := match new_backend (es_ph ex_pes) (fun _ => 0%R) ex_p2 (es_info ex_pes) with Ok b => b | _ => mkB [] [] [] end.

Lemma ex_p_constructed : constructed (ex_es [2; 1]) [0] [2; 1] ex_p.
Proof.
  split; [apply ex_built; auto|]. split; [repeat constructor|]. exists (by_age 4).
  eexists. eexists. split; [vm_compute; reflexivity|]. split; [|vm_compute; reflexivity].
  eapply (by_age_topo (es_ph (ex_es [2; 1])) [0] [2; 1]); [apply store_links_back, built_ok, ex_built; auto| |vm_compute; reflexivity].
  intros o [<-|[<-|[]]]; vm_compute; lia.
Qed.
Lemma ex_p_closed : closed (es_ph (ex_es [2; 1])) [0] [2; 1].
Proof.
  split; [repeat constructor; intros []|]. split; [repeat constructor; cbn; intuition discriminate|]. split; [|split].
  - intros d [<-|[]] (args & s & i & H). discriminate H.
  - intros d [<-|[<-|[]]]; eexists; eexists; eexists; reflexivity.
  - intros d N. assert (d <= 2).
    { induction N as [o [<-|[<-|[]]]|c args a _ IH (s & i & Hc) Ha]; [lia..|]. destruct c as [|[|[|c]]]; [discriminate Hc| | |lia]; injection Hc as _ _ <-; destruct Ha as [<-|[]]; lia. }
    destruct d as [|[|[|d]]]; [right; left; reflexivity|left..|lia]; eexists; eexists; eexists; reflexivity.
Qed.

Example C47_broken_rebuild : forall (e : env) (x o1 o2 : ten), ten_ok [2; 3] x -> ten_ok [2; 3] o1 -> ten_ok [2; 3] o2 ->
  (exists i b, model_forward (fun _ => e) ex_p ex_pi (Some ex_pb) [x] [o1; o2] = Ret (i, b, [x], [ex_V x 2; ex_V x 1])) /\
  Build kahn (fun _ => ex_ie) (m_cfg ex_p) es0 = RVal ex_pes ex_p2 /\
  model_compile (es_ph ex_pes) (fun _ => 0%R) ex_p2 (es_info ex_pes) None = Ret (Some ex_pb2) /\
  forall E tins touts r, model_forward E ex_p2 (es_info ex_pes) (Some ex_pb2) tins touts <> Ret r.
Proof.
  intros e x o1 o2 X O1 O2.
  assert (K : model_compile (es_ph (ex_es [2; 1])) (fun _ => 0%R) ex_p ex_pi None = Ret (Some ex_pb)) by (vm_compute; reflexivity).
  assert (B' : Build kahn (fun _ => ex_ie) (m_cfg ex_p) es0 = RVal ex_pes ex_p2) by (vm_compute; reflexivity).
  split.
  { destruct (C37_compile_prepares _ _ _ _ _ _ _ _ ex_p_constructed K) as (b' & Eb & BF & _). assert (ex_pb = b') by congruence. subst b'.
    destruct (C37_forward_evaluates _ _ _ _ ex_pi ex_pb (fun _ => e) (ex_V x) [x] [o1; o2] ex_p_constructed ex_p_closed BF) as (i & b & H & _).
    - repeat constructor; apply X.
    - repeat constructor; first [apply O1|apply O2].
    - split; [repeat constructor|]. intros d args N C.
      assert (d < 3). { destruct (proj2 (proj2 (proj2 (proj2 ex_p_closed))) d N) as [_|[<-|[]]]; [|lia].
        clear -N. induction N as [o [<-|[<-|[]]]|c args a _ IH (s & i & Hc) Ha]; [lia..|]. destruct c as [|[|[|c]]]; [discriminate Hc| | |lia]; injection Hc as _ _ <-; destruct Ha as [<-|[]]; lia. }
      assert (N3 : needed (es_ph (ex_es [2; 1])) [3] d).
      { assert (M3 : needed (es_ph (ex_es [2; 1])) [3] 3) by (apply need_out; left; reflexivity).
        assert (M2 : needed (es_ph (ex_es [2; 1])) [3] 2) by (eapply need_arg; [exact M3|eexists; eexists; reflexivity|left; reflexivity]).
        assert (M1 : needed (es_ph (ex_es [2; 1])) [3] 1) by (eapply need_arg; [exact M2|eexists; eexists; reflexivity|left; reflexivity]).
        assert (M0 : needed (es_ph (ex_es [2; 1])) [3] 0) by (eapply need_arg; [exact M1|eexists; eexists; reflexivity|left; reflexivity]).
        destruct d as [|[|[|d]]]; [assumption..|lia]. }
      destruct (ex_evaluation (fun _ => e) x X) as [_ EV]. destruct (EV d args N3 C) as (L & (j & op & L0 & li & Hj & Ed & Hl & Hi & LD) & CO). exists L. split; [|exact CO].
      destruct j as [|[|[|j]]]; vm_compute in Hj; [injection Hj as <-|injection Hj as <-|injection Hj as <-; cbn in Ed; lia|destruct j; discriminate Hj]; vm_compute in Hl, Hi; injection Hl as <-; injection Hi as <-; cbn in Ed; subst d;
        [exists 0|exists 1]; eexists; eexists; eexists; (split; [vm_compute; reflexivity|]); (split; [reflexivity|]); (split; [vm_compute; reflexivity|]); (split; [vm_compute; reflexivity|]); exact LD.
    - intros d L (j & op & L0 & li & Hj & <- & _). left. vm_compute in Hj. destruct j as [|[|j]]; [injection Hj as <-; vm_compute; reflexivity..|destruct j; discriminate Hj].
    - exists i, (Some b). exact H. }
  split; [exact B'|]. split; [vm_compute; reflexivity|].
  pose proof ex_p_constructed as (BU & VO & _).
  assert (exists g es', build (es_ph (ex_es [2; 1])) [0] [2; 1] = Ok g /\ construct_model (by_age 4) [0] [2; 1] (ex_es [2; 1]) = RVal es' ex_p)
    as (g & es' & BG & CM) by (eexists; eexists; split; [vm_compute; reflexivity|vm_compute; reflexivity]).
  assert (TO : is_topo g (by_age 4 g)).
  { eapply (by_age_topo (es_ph (ex_es [2; 1])) [0] [2; 1]); [apply store_links_back, built_ok, BU| |exact BG]. intros o [<-|[<-|[]]]; vm_compute; lia. }
  destruct (C47_rebuilds _ _ _ _ _ _ _ BU VO BG TO CM ex_p_closed kahn (fun _ => ex_ie) es0 kahn_sorts built_start) as (es3 & m2 & f & B & CP & EIn & EOut & _ & _ & C2 & CL2 & _).
  assert (E1 : es3 = ex_pes) by congruence. assert (E2 : m2 = ex_p2) by congruence. rewrite E1 in CP, C2. rewrite E2 in EOut, C2.
  assert (N21 : needed (es_ph (ex_es [2; 1])) [2] 1) by (eapply need_arg; [apply need_out; left; reflexivity|eexists; eexists; reflexivity|left; reflexivity]).
  assert (F1 : f 1 = 1).
  { assert (BN : by_number ex_p [2; 1] = [1; 2]) by (vm_compute; reflexivity). assert (MO : m_out ex_p2 = [1; 2]) by (vm_compute; reflexivity). rewrite BN, MO in EOut. cbn in EOut. congruence. }
  eapply (C47_output_used_by_output_breaks _ _ _ _ _ _ _ _ 1 2 ex_p_constructed CP EOut C2); [right; left; reflexivity|left; reflexivity|lia|exact N21| |].
  - rewrite F1. exists 0. eexists. eexists. eexists. split; [vm_compute; reflexivity|]. split; [reflexivity|]. split; [vm_compute; reflexivity|]. split; [vm_compute; reflexivity|reflexivity].
  - reflexivity.
Qed.
