(** Saved and loaded models: the loaded model can be used and predicts the same. *)
From Coq Require Import Reals String Lia Permutation.
From Verif Require Import Base BaseFacts Sums M_Tensor M_Layers M_Kernels M_Optim M_Init M_Nn M_Graph M_Model M_Backend M_Train M_Serial M_Saved S_Grad S_Fit S_Primed S_Nn S_Serial S_Graph S_Run S_Build S_Train S_Plain S_Eval S_Saved
  P_Fit P_Optim P_Graph P_Nn P_MakeLayer P_Model P_Model2 P_Run P_Fwd P_Fwd2 P_Load P_Run2 P_Run P_Train P_Train2 P_Train3 P_Graph2 P_Plain P_Build3 P_Build4 P_Eval P_Eval2 Prop_Graph Prop_Model Prop_Run Prop_Serial Prop_Build Prop_Plain Prop_Eval P_Saved P_Saved2 P_Saved3 P_Saved4 P_Saved5.
Local Open Scope string_scope.
Open Scope nat_scope.
Local Open Scope list_scope.

(** ** Compiling a model whose layers are like new ones *)
Lemma compile_like es order ins outs g es' m infos junk bo :
  built es -> Forall (fun d => d < length (es_ph es)) outs -> build (es_ph es) ins outs = Ok g -> is_topo g (order g) ->
  construct_model order ins outs es = RVal es' m -> Forall2 kept (es_info es') infos ->
  (forall d p, needed (es_ph es) outs d -> nth_error (es_ph es) d = Some p -> exists sh, proper sh /\ ph_shape p = zs sh) ->
  (forall d s i args, needed (es_ph es) outs d -> nth_error (es_ph es) d = Some (mkPh s (Some (i, args))) ->
    exists I l nm li, nth_error infos i = Some li /\ alike (description I l (map (dims (es_ph es)) args) nm) li /\ sound_tensors li /\
      meant_for l (map (dims (es_ph es)) args) (dims (es_ph es) d) /\ (visits (es_ph es) outs d = 1 \/ patient l = true)) ->
  exists b, model_compile (es_ph es) junk m infos bo = Ret (Some b) /\ usable false (es_ph es) outs m infos b /\
    forall d s i args li L, needed (es_ph es) outs d -> nth_error (es_ph es) d = Some (mkPh s (Some (i, args))) -> nth_error infos i = Some li ->
      produces m infos b d L -> create_layer li = Ok L.
Proof.
  intros B VO BG TO CM KE Pi C.
  assert (CO : constructed es ins outs m) by (split; [exact B|split; [exact VO|exists order, g, es'; auto]]).
  pose proof (constructed_mfacts _ _ _ _ CO) as MF.
  assert (LB : links_back (es_ph es)) by (apply store_links_back, built_ok, B).
  assert (LT : forall d, needed (es_ph es) outs d -> d < length (es_ph es)) by (intros d N; eapply needed_lt; [|exact LB|exact N]; intros o Ho; rewrite Forall_forall in VO; auto).
  assert (OPS : forall op, In op (m_ops m) -> exists s args I l nm li L, needed (es_ph es) outs (mo_ph op) /\ nth_error (es_ph es) (mo_ph op) = Some (mkPh s (Some (mo_info op, args))) /\
     nth_error infos (mo_info op) = Some li /\ alike (description I l (map (dims (es_ph es)) args) nm) li /\ sound_tensors li /\
     meant_for l (map (dims (es_ph es)) args) (dims (es_ph es) (mo_ph op)) /\ (visits (es_ph es) outs (mo_ph op) = 1 \/ patient l = true) /\
     create_layer li = Ok L /\ fits L (map (dims (es_ph es)) args) (dims (es_ph es) (mo_ph op)) /\ same_kind (start I l (map (dims (es_ph es)) args)) L).
  { intros op Hop. destruct (op_info _ _ _ _ _ CO Hop) as (s & args & Hd).
    assert (Nd : needed (es_ph es) outs (mo_ph op)) by (destruct (mf_op _ _ _ _ MF op Hop) as (? & ? & ? & ? & X & _); exact X).
    destruct (C _ _ _ _ Nd Hd) as (I & l & nm & li & Hli & AL & SO & ME & VP). destruct (create_like I l _ _ nm li ME AL SO) as (L & CR & FI & SK).
    exists s, args, I, l, nm, li, L. auto 11. }
  assert (NB : exists b, new_backend (es_ph es) junk m infos = Ok b).
  { unfold new_backend.
    assert (A1 : exists ls, map_res (fun op => li <- rd infos (mo_info op) ;; create_layer li) (m_ops m) = Ok ls).
    { assert (Z : forall l, incl l (m_ops m) -> exists ls, map_res (fun op => li <- rd infos (mo_info op) ;; create_layer li) l = Ok ls).
      { induction l as [|op t IH]; intros IN; [eexists; reflexivity|]. destruct IH as (ls & E); [intros z Hz; apply IN; right; exact Hz|].
        destruct (OPS op (IN op (or_introl eq_refl))) as (s & args & I & l & nm & li & L & _ & _ & Hli & _ & _ & _ & _ & CR & _). cbn [map_res]. rewrite rd_nth, Hli. cbn [bind]. rewrite CR, E. eexists. reflexivity. }
      apply Z. intros z Hz. exact Hz. }
    assert (A2 : forall d, In d (map fst (m_data m)) -> exists t, (p <- rd (es_ph es) d ;; new_ten (ph_shape p) junk) = Ok t).
    { intros d Hd. apply (mf_data _ _ _ _ MF) in Hd. pose proof (LT _ Hd) as Ld. rewrite rd_nth. destruct (nth_error (es_ph es) d) as [p|] eqn:Ep; [|apply nth_error_None in Ep; lia].
      cbn [bind]. destruct (Pi d p Hd Ep) as (sh & PR & ->). rewrite new_ten_proper by exact PR. eauto. }
    assert (A3 : forall f : nat * storage -> res ten, (forall e, In e (m_data m) -> exists t, f e = Ok t) -> exists r, map_res f (m_data m) = Ok r).
    { intros f. generalize (m_data m) as l. clear. intros l H. induction l as [|e t IH]; [eexists; reflexivity|]. cbn [map_res].
      destruct (H e (or_introl eq_refl)) as (v & ->). destruct IH as (r & ->); [intros z Hz; apply H; right; exact Hz|]. eexists. reflexivity. }
    destruct A1 as (ls & ->). cbn [bind].
    destruct (A3 (alloc_mem (es_ph es) junk)) as (mem & ->).
    { intros [d s] He. unfold alloc_mem. cbn [fst snd]. destruct s; eauto. apply A2. apply in_map_iff. exists (d, SInternal). auto. }
    cbn [bind]. destruct (A3 (alloc_grad (es_ph es) junk)) as (gr & ->).
    { intros [d s] He. unfold alloc_grad. cbn [fst snd]. assert (In d (map fst (m_data m))) by (apply in_map_iff; exists (d, s); auto). destruct s; eauto. }
    eexists. reflexivity. }
  destruct NB as (b & NB). exists b. unfold model_compile. rewrite NB. split; [reflexivity|].
  destruct (compiled_fits _ _ _ _ _ _ _ MF NB) as [BF PR].
  assert (PRO : forall d args, needed (es_ph es) outs d -> call (es_ph es) d args -> exists op s, In op (m_ops m) /\ mo_ph op = d /\
     nth_error (es_ph es) d = Some (mkPh s (Some (mo_info op, args))) /\ exists li L, nth_error infos (mo_info op) = Some li /\ create_layer li = Ok L /\ produces m infos b d L).
  { intros d args N C0. pose proof (mf_call _ _ _ _ MF d N (ex_intro _ args C0)) as Hi. destruct (PR d Hi) as (L & li & op & Hop & <- & Hli & CR & PL).
    destruct (op_info _ _ _ _ _ CO Hop) as (s & args' & Hd). destruct C0 as (s' & i & Hd'). pose proof Hd as Hd2. rewrite Hd' in Hd2. injection Hd2 as -> -> ->.
    exists op, s. split; [exact Hop|]. split; [reflexivity|]. split; [exact Hd|]. exists li, L. auto. }
  split.
  2:{ intros d s i args li L N Hd Hli P. destruct (PRO d args N (ex_intro _ s (ex_intro _ i Hd))) as (op & s' & Hop & <- & Hd' & li' & L' & Hli' & CR & P').
      rewrite Hd in Hd'. injection Hd' as <- ->. rewrite Hli in Hli'. injection Hli' as <-. rewrite (produces_fun _ _ _ _ MF _ _ _ _ _ P P'). exact CR. }
  destruct (state_keys es order ins outs g B VO BG TO es' m CM) as (ND & _ & K1 & _ & K2 & _).
  split; [exact BF|]. split; [|split].
  - intros d args N C0. destruct (PRO d args N C0) as (op & s & Hop & <- & Hd & li & L & Hli & CR & P). exists L. split; [exact P|].
    destruct (OPS op Hop) as (s' & args' & I & l & nm & li' & L' & _ & Hd' & Hli' & _ & _ & ME & VP & CR' & FI & SK). rewrite Hd in Hd'. injection Hd' as <- <-.
    rewrite Hli in Hli'. injection Hli' as <-. rewrite CR in CR'. injection CR' as <-. split; [exact FI|]. destruct VP as [V|PT]; [left; exact V|right].
    destruct ME as (R & _). revert R SK. generalize (map (dims (es_ph es)) args) (dims (es_ph es) (mo_ph op)). clear -PT. intros shs osh R SK.
    destruct l; try discriminate PT; inversion R; subst; cbn [start] in SK; destruct L; cbn in SK; try contradiction; reflexivity.
  - intros key [i k] H. apply (in_find _ _ _ ND) in H. destruct (K2 key i k H) as (op & li & p & Hop & E & Hli & Hp & _). subst i.
    destruct (OPS op Hop) as (s & args & I & l & nm & li' & L' & _ & _ & Hli' & _ & SO & _). destruct (Forall2_nth _ _ _ _ _ KE Hli) as (li2 & Hli2 & (_ & KP & _)).
    rewrite Hli' in Hli2. injection Hli2 as <-. unfold get_par. cbn [fst snd]. rewrite Hli'.
    destruct (find_key (li_params li') k) as [q|] eqn:Q; [|exfalso; apply P_Nn.find_none in Q; apply Q; rewrite KP; apply in_map_iff; exists (k, p); auto].
    exists q. split; [reflexivity|]. apply find_some_in in Q. eapply (proj1 SO); exact Q.
  - intros op k p Hop G. unfold get_par in G. cbn [fst snd] in G. destruct (nth_error infos (mo_info op)) as [li|] eqn:Hli; [|discriminate G].
    destruct (Forall2_nth' _ _ _ _ _ KE Hli) as (li0 & Hli0 & (_ & KP & _)). destruct (key_find _ (li_params li0) _ _ (eq_sym KP) G) as (p0 & H0).
    destruct (K1 op li0 k p0 Hop Hli0 H0) as [X _]. eexists. apply (in_find _ _ _ ND). exact X.
Qed.

Lemma object_constructed l nm : construct (class l) (li_attrs (object l nm)) nm = Ok (object l nm).
Proof. destruct l; reflexivity. Qed.
Lemma object_type l a b : li_type (object l a) = li_type (object l b) /\ li_attrs (object l a) = li_attrs (object l b).
Proof. destruct l; split; reflexivity. Qed.
Lemma start_keys I l shs : NoDup (map fst (start_params I l shs)) /\ NoDup (map fst (start_bufs I l shs)).
Proof. unfold start_params, start_bufs. destruct (start I l shs); cbn; split; repeat constructor; cbn; intuition discriminate. Qed.
Lemma has_shape_dims ps args shs : Forall2 (has_shape ps) args shs -> map (dims ps) args = shs.
Proof. induction 1 as [|a sh l1 l2 (p & Hp & E) _ IH]; [reflexivity|]. cbn. rewrite IH. f_equal. unfold dims. rewrite Hp, E. apply zs_nat. Qed.

Section Trip.
Variables (es es' : estore) (D : list made) (m : model) (order : graph -> list gnode) (ins outs : list nat) (g : graph).
Hypothesis PL : plain es D.
Hypothesis VO : Forall (fun d => d < length (es_ph es)) outs.
Hypothesis BG : build (es_ph es) ins outs = Ok g.
Hypothesis TO : is_topo g (order g).
Hypothesis CM : construct_model order ins outs es = RVal es' m.
Hypothesis RW : reached_well es D outs.
Hypothesis CL : closed (es_ph es) ins outs.
Variables (junk : nat -> R) (bo : option backend) (b0 : backend).
Hypothesis CB : model_compile (es_ph es) junk m (es_info es') bo = Ret (Some b0).
Variables (ran : bool) (infos : list linfo) (b : backend).
Hypothesis US : usable ran (es_ph es) outs m infos b.
Hypothesis RI : rig (es_info es') (Some b0) infos (Some b).

Lemma trip_built : built es.
Proof. exact (po_built _ _ (plain_plain_ok _ _ PL)). Qed.
Lemma trip_constructed : constructed es ins outs m.
Proof. pose proof trip_built as BU. split; [exact BU|]. split; [exact VO|]. exists order, g, es'. auto. Qed.

Lemma trip_layer d s i args : needed (es_ph es) outs d -> nth_error (es_ph es) d = Some (mkPh s (Some (i, args))) ->
  exists x li L0 L, nth_error D i = Some x /\ nth_error infos i = Some li /\ produces m infos b d L /\ M_Backend.load li L0 = Ok L /\
    map (dims (es_ph es)) args = md_in x /\ dims (es_ph es) d = md_out x /\ Forall2 (has_shape (es_ph es)) args (md_in x) /\
    meant_for (md_layer x) (md_in x) (md_out x) /\ kept (description (md_draws x) (md_layer x) (md_in x) (li_name li)) li /\
    same_kind (start (md_draws x) (md_layer x) (md_in x)) L /\ fits L (md_in x) (md_out x).
Proof.
  intros Nd Hd. pose proof trip_constructed as CO. pose proof (constructed_mfacts _ _ _ _ CO) as MF. destruct (plain_plain_ok _ _ PL) as [_ M _ _ C]. rewrite Forall_forall in M.
  assert (P' : plain es' D) by (eapply plain_model; eassumption). destruct (plain_plain_ok _ _ P') as [_ _ Fi _ _].
  destruct (C _ _ _ _ Hd) as (x & Hx & Fx & Ex). pose proof (M x (nth_error_In _ _ Hx)) as Mx.
  assert (E1 : map (dims (es_ph es)) args = md_in x) by (apply has_shape_dims, Fx). assert (E2 : dims (es_ph es) d = md_out x) by (unfold dims; rewrite Hd; cbn; rewrite Ex; apply zs_nat).
  destruct (Forall2_nth _ _ _ _ _ Fi Hx) as (li0 & Hli0 & R0). destruct RI as (KE & (b1 & Eb & KK)). injection Eb as <-.
  destruct (usable_fits _ _ _ _ _ _ US d args Nd (ex_intro _ s (ex_intro _ i Hd))) as (L & P & FL). rewrite E1, E2 in FL.
  destruct (compile_plain es D order ins outs g es' m junk bo PL VO BG TO CM RW) as (b0' & CB' & _ & PR). rewrite CB in CB'. injection CB' as <-.
  pose proof (PR d s i args x Nd Hd Hx) as P0. pose proof P as (j & op & L0 & li & H1 & H2 & H3 & H4 & H5). destruct P0 as (j' & op' & L0' & li' & H1' & H2' & H3' & H4' & H5').
  assert (X : j = j' /\ op = op') by (eapply op_at_unique; [exact MF|eassumption|eassumption|congruence]). destruct X as [<- <-].
  assert (Ei : mo_info op = i). { destruct (op_info _ _ _ _ _ CO (nth_error_In _ _ H1)) as (s2 & a2 & Hd2). rewrite H2, Hd in Hd2. injection Hd2 as _ -> _. reflexivity. }
  rewrite Ei in H4. destruct (Forall2_nth _ _ _ _ _ KE Hli0) as (li2 & Hli2 & K). rewrite H4 in Hli2. injection Hli2 as <-.
  destruct (Forall2_nth _ _ _ _ _ KK H3') as (L3 & HL3 & SK). rewrite H3 in HL3. injection HL3 as <-.
  exists x, li, L0, L. do 8 (split; [assumption|]). split; [|split].
  - destruct R0 as (T & A & PP & BB). destruct K as ((K1 & K2 & K3) & K4 & K5). cbn in T, A, PP, BB. destruct (object_type (md_layer x) (li_name li) "") as (O1 & O2).
    split; [split; [reflexivity|]; split; cbn; congruence|]. split; cbn; congruence.
  - eapply same_kind_trans; [apply same_kind_sym, (load_kind _ _ _ H5')|]. eapply same_kind_trans; [exact SK|exact (load_kind _ _ _ H5)].
  - exact FL.
Qed.

Lemma trip_kept : Forall2 kept (es_info es') infos.
Proof. exact (proj1 RI). Qed.
Lemma trip_as_made : as_made (es_ph es) outs infos.
Proof.
  intros d s i args Nd Hd. destruct (trip_layer d s i args Nd Hd) as (x & li & L0 & L & Hx & Hli & P & LD & E1 & E2 & Fx & Mx & K & SK & FL).
  destruct (shapes_kept _ _ _ _ _ _ _ _ Mx K LD SK FL) as (ST & SO). exists li, (description (md_draws x) (md_layer x) (md_in x) (li_name li)).
  split; [exact Hli|]. split; [|split; [exact ST|]].
  - exists (class (md_layer x)), (md_draws x), (map zs (md_in x)), (object (md_layer x) (li_name li)), (description (md_draws x) (md_layer x) (md_in x) (li_name li)).
    split; [apply table_class|]. split; [|split; [apply object_constructed|split; [eapply linit_start, Mx|apply alike_refl]]].
    clear -Fx. induction Fx as [|a sh l l' H _ IH]; cbn; constructor; [exact H|exact IH].
  - destruct SO as (S1 & S2). split; [|exact S2]. intros k p H. destruct (S1 k p H) as (_ & W & _). exact W.
Qed.

Lemma trip_batches n : (forall d, In d ins -> exists rest, dims (es_ph es) d = n :: rest) -> forall d, needed (es_ph es) outs d -> exists rest, dims (es_ph es) d = n :: rest.
Proof.
  intros HI d. assert (LB : links_back (es_ph es)) by (apply store_links_back, built_ok, trip_built). induction d as [d IH] using (well_founded_induction lt_wf). intros Nd.
  destruct CL as (_ & _ & _ & _ & K). destruct (K d Nd) as [(args & C)|Hi]; [|apply HI, Hi].
  assert (A : Forall (fun sh => exists rest, sh = n :: rest) (map (dims (es_ph es)) args)).
  { apply Forall_forall. intros sh H. apply in_map_iff in H. destruct H as (a & <- & Ha). apply IH; [eapply LB; eassumption|eapply need_arg; eassumption]. }
  destruct C as (s & i & Hd). destruct (trip_layer d s i args Nd Hd) as (x & li & L0 & L & Hx & Hli & P & LD & E1 & E2 & Fx & (R & _) & _). rewrite E1 in A. rewrite E2. clear -A R.
  destruct R; inversion A as [|? ? (r & E) _]; subst; try (injection E as <- E); subst; eauto.
Qed.

Hypothesis RW2 : reached_well es D (by_number m outs).
Variables (order2 : graph -> list gnode) (I : nat -> ienv) (es2 : estore).
Hypothesis SR : sorts order2.
Hypothesis BU2 : built es2.
Variables (bits : R -> Z) (value : Z -> R) (can : Z -> bool) (junk_bytes : bytes -> bytes).
Hypothesis SV : savable bits value can m infos.
Variables (iter_cfg : config Z -> config Z) (iter_dict : sdict -> sdict).
Hypothesis IC : forall c, iterated c (iter_cfg c).
Hypothesis ID : forall d, Permutation d (iter_dict d).
Variables (junk2 : nat -> R) (bo2 : option backend).

Theorem trip : exists bytes es3 m2 infos2 b2 f,
  save_model bits iter_cfg iter_dict m infos = Ok bytes /\
  load_model bits value can junk_bytes order2 I (Some bytes) es2 = RVal es3 (m2, infos2) /\
  copied (es_ph es) infos outs f (es_ph es3) infos2 /\
  m_in m2 = map f (by_number m ins) /\ m_out m2 = map f (by_number m outs) /\
  Permutation (by_number m ins) ins /\ Permutation (by_number m outs) outs /\
  constructed es3 (m_in m2) (m_out m2) m2 /\ closed (es_ph es3) (m_in m2) (m_out m2) /\
  (forall k, find_key (state_view m2 infos2) k = find_key (state_view m infos) k) /\
  model_compile (es_ph es3) junk2 m2 infos2 bo2 = Ret (Some b2) /\ usable false (es_ph es3) (m_out m2) m2 infos2 b2 /\
  (forall d L L', needed (es_ph es) outs d -> produces m infos b d L -> produces m2 infos2 b2 (f d) L' -> same_kind L L' /\ same_weights L L').
Proof.
  pose proof trip_constructed as CO. pose proof (constructed_mfacts _ _ _ _ CO) as MF. 
  destruct (loads_back es es' m order ins outs g trip_built VO BG TO CM CL order2 I es2 SR BU2 infos trip_kept trip_as_made bits value can junk_bytes SV iter_cfg iter_dict IC ID)
    as (bytes & es3 & m2 & infos2 & f & SA & LO & CP & EI & EO & PI & PO & C2 & CL2 & AL & SO3 & PRE & VIEW & H1 & H2 & TW & GR & (g2 & BU3 & VO3 & BG3 & TO3 & CM3)).
  pose proof (constructed_mfacts _ _ _ _ C2) as MF2.
  assert (VN : forall d, needed (es_ph es) outs d -> d < length (es_ph es)) by (intros d; apply (valid_needed es ins outs m CO)).
  assert (EOo : forall d, In d (by_number m outs) <-> In d outs).
  { intros d. split; intros H; [eapply Permutation_in; [exact PO|exact H]|eapply Permutation_in; [apply Permutation_sym, PO|exact H]]. }
  assert (NC : forall d', needed (es_ph es3) (m_out m2) d' <-> exists d, needed (es_ph es) outs d /\ d' = f d).
  { intros d'. rewrite EO. apply (needed_copy (es_ph es) (es_ph es3) infos infos2 outs (by_number m outs) f CP EOo VN). }
  assert (N12 : forall d, needed (es_ph es) (by_number m outs) d <-> needed (es_ph es) outs d).
  { intros d. split; induction 1 as [o Ho|c args a _ IH C Ha]; [apply need_out, EOo, Ho|eapply need_arg; eassumption|apply need_out, EOo, Ho|eapply need_arg; eassumption]. }
  assert (K2 : Forall2 kept (es_info es3) infos2) by (clear -AL; induction AL; constructor; [apply alike_kept|]; assumption).
  pose proof (dims_copy _ _ _ _ _ _ CP VN) as DC.
  assert (DA : forall d args, needed (es_ph es) outs d -> call (es_ph es) d args -> map (dims (es_ph es3)) (map f args) = map (dims (es_ph es)) args).
  { intros d args Nd C. rewrite map_map. apply map_ext_in. intros a Ha. apply DC. eapply need_arg; eassumption. }
  assert (LAY : forall d s i args, needed (es_ph es) outs d -> nth_error (es_ph es) d = Some (mkPh s (Some (i, args))) ->
    exists x i2 li li2 I', nth_error D i = Some x /\ nth_error infos i = Some li /\ nth_error (es_ph es3) (f d) = Some (mkPh s (Some (i2, map f args))) /\ nth_error infos2 i2 = Some li2 /\
      li_name li2 = li_name li /\ md_in x = map (dims (es_ph es3)) (map f args) /\ md_out x = dims (es_ph es3) (f d) /\ meant_for (md_layer x) (md_in x) (md_out x) /\
      alike (description I' (md_layer x) (md_in x) (li_name li)) li2 /\ sound_tensors li2).
  { intros d s i args Nd Hd. destruct (trip_layer d s i args Nd Hd) as (x & li & L0 & L & Hx & Hli & P & LD & E1 & E2 & Fx & Mx & K & SK & FL).
    destruct (cp_call _ _ _ _ _ _ CP d s i args Nd Hd) as (i2 & l1 & li2 & Hd2 & Hl1 & Hli2 & SD2 & (k & I' & ss & li0 & li1 & T & SS & CN & LI & AL1)).
    rewrite Hli in Hl1. injection Hl1 as <-. destruct SD2 as (D1 & D2 & D3). destruct K as ((K1 & K3 & K4) & K5 & K6). cbn in K3, K4.
    rewrite <- D2, <- K3, table_class in T. injection T as <-. rewrite <- D3, <- D1, <- K4, object_constructed in CN. injection CN as <-.
    assert (ss = map zs (md_in x)) as ->.
    { assert (HN : forall a, In a args -> needed (es_ph es) outs a) by (intros a Ha; eapply need_arg; [exact Nd|exists s, i; exact Hd|exact Ha]).
      clear -SS Fx CP HN. revert ss SS. induction Fx as [|a sh t shs (p & Hp & Ep) _ IH]; intros ss SS; inversion SS as [|? z ? ys (q & Hq & Ey) SS2]; subst; [reflexivity|].
      cbn [map]. f_equal; [|apply IH; [intros; apply HN; right; assumption|exact SS2]].
      assert (Na : needed (es_ph es) outs a) by (apply HN; left; reflexivity). destruct p as [sp [[j al]|]].
      - destruct (cp_call _ _ _ _ _ _ CP a sp j al Na Hp) as (j' & ? & ? & Hq' & _). rewrite Hq' in Hq. injection Hq as <-. exact Ep.
      - rewrite (cp_leaf _ _ _ _ _ _ CP a sp Na Hp) in Hq. injection Hq as <-. exact Ep. }
    rewrite (linit_start I' _ _ _ (li_name li) Mx) in LI. injection LI as <-. apply alike_sym in AL1.
    exists x, i2, li, li2, I'. do 4 (split; [assumption|]). split; [symmetry; exact D1|].
    split; [rewrite (DA d args Nd (ex_intro _ s (ex_intro _ i Hd))); symmetry; exact E1|]. split; [rewrite DC by exact Nd; symmetry; exact E2|]. split; [exact Mx|]. split; [exact AL1|].
    assert (X : In (f d) (map mo_ph (m_ops m2))) by (apply (mf_call _ _ _ _ MF2); [apply NC; eauto|exists (map f args), s, i2; exact Hd2]).
    apply in_map_iff in X. destruct X as (op2 & Eo & Ho2). destruct (op_info _ _ _ _ _ C2 Ho2) as (s' & args' & Hd2'). rewrite Eo, Hd2 in Hd2'. injection Hd2' as <- Ei <-.
    destruct AL1 as (_ & _ & _ & AP & AB). cbn in AP, AB. destruct (start_keys I' (md_layer x) (md_in x)) as (NP & NBf).
    assert (KP : map fst (li_params li2) = map fst (start_params I' (md_layer x) (md_in x))) by (clear -AP; induction AP as [|? ? ? ? (E & _) _ IH]; [reflexivity|]; cbn; congruence).
    assert (KB : map fst (li_bufs li2) = map fst (start_bufs I' (md_layer x) (md_in x))) by (clear -AB; induction AB as [|? ? ? ? (E & _) _ IH]; [reflexivity|]; cbn; congruence).
    assert (DT : forall k t, (exists p, find_key (li_params li2) k = Some p /\ t = p_data p) \/ find_key (li_bufs li2) k = Some t -> twf t).
    { intros k t H. assert (HH : holds m2 infos2 (li_name li2 ++ "." ++ k)%string t) by (exists op2, li2, k; rewrite <- Ei; auto).
      apply H2 in HH. rewrite VIEW in HH. apply H1 in HH. apply (TW _ _ HH). }
    split.
    - intros k p Hp. pose proof Hp as Fp. apply in_find in Fp; [|rewrite KP; exact NP]. split; [reflexivity|]. split; [apply (DT k (p_data p)); left; eauto|].
      assert (GK : grads_ok li2) by (rewrite Forall_forall in GR; apply GR; eapply nth_error_In; exact Hli2). split; [|exact (GK k p Hp)].
      assert (G : exists k0 p0, In (k0, p0) (start_params I' (md_layer x) (md_in x)) /\ tsh (p_data p0) = tsh (p_data p) /\ tsh (p_grad p0) = tsh (p_grad p)).
      { clear -AP Hp. induction AP as [|[k0 p0] [k1 p1] l l' (E0 & E1 & E2 & _) _ IH]; [destruct Hp|]. destruct Hp as [Hp|Hp].
        - injection Hp as <- <-. exists k0, p0. split; [left; reflexivity|]. auto.
        - destruct (IH Hp) as (k2 & p2 & H & ?). exists k2, p2. split; [right; exact H|auto]. }
      destruct G as (k0 & p0 & G1 & G2 & G3). destruct (start_params_ok _ _ _ _ _ _ Mx G1) as (_ & _ & G4 & _). congruence.
    - intros k t Ht. apply (DT k t). right. apply in_find; [rewrite KB; exact NBf|exact Ht]. }
  destruct (compile_like es3 order2 (m_in m2) (m_out m2) g2 es3 m2 infos2 junk2 bo2 BU3 VO3 BG3 TO3 CM3 K2) as (b2 & CB2 & US2 & CR2).
  { intros d' p Nd' Hp. apply NC in Nd'. destruct Nd' as (d & Nd & ->). destruct (plain_plain_ok _ _ PL) as [_ _ _ Pi _].
    pose proof (VN d Nd) as Ld. apply nth_error_Some in Ld. destruct (nth_error (es_ph es) d) as [[sp [[j al]|]]|] eqn:E; [| |congruence].
    - destruct (cp_call _ _ _ _ _ _ CP d sp j al Nd E) as (j' & ? & ? & Hq' & _). rewrite Hq' in Hp. injection Hp as <-. exact (Pi d _ E).
    - rewrite (cp_leaf _ _ _ _ _ _ CP d sp Nd E) in Hp. injection Hp as <-. exact (Pi d _ E). }
  { intros d' s' i2 args2 Nd' Hd'. apply NC in Nd'. destruct Nd' as (d & Nd & ->).
    destruct (call_copy_inv _ _ _ _ _ _ CP VN d args2 Nd) as (args & (s & i & Hd) & ->); [exists s', i2; exact Hd'|].
    destruct (LAY d s i args Nd Hd) as (x & i2' & li & li2 & I' & Hx & Hli & Hd2 & Hli2 & EN & X1 & X2 & Mx & A & S). rewrite Hd' in Hd2. injection Hd2 as -> ->.
    exists I', (md_layer x), (li_name li), li2. rewrite <- X1, <- X2. do 4 (split; [assumption|]). rewrite EO, (visits_copied _ _ _ _ outs (by_number m outs) f CP EOo VN d Nd).
    destruct (RW2 d s i args (proj2 (N12 d) Nd) Hd) as [V|(x' & Hx' & PT)]; [left; exact V|right]. congruence. }
  exists bytes, es3, m2, infos2, b2, f. do 12 (split; [assumption|]).
  intros d L L' Nd P P'.
  assert (HC : exists args, call (es_ph es) d args).
  { pose proof P as (j & op & L0 & li & O1 & <- & _). destruct (op_info _ _ _ _ _ CO (nth_error_In _ _ O1)) as (s & args & Hd). exists args, s, (mo_info op). exact Hd. }
  destruct HC as (args & s & i & Hd).
  destruct (trip_layer d s i args Nd Hd) as (x & li & L0 & L1 & Hx & Hli & P1 & LD & E1 & E2 & Fx & Mx & K & SK & FL). rewrite (produces_fun _ _ _ _ MF _ _ _ _ _ P1 P) in *.
  destruct (LAY d s i args Nd Hd) as (x' & i2 & li' & li2 & I' & Hx' & Hli' & Hd2 & Hli2 & EN & X1 & X2 & Mx' & A & S). rewrite Hx in Hx'. injection Hx' as <-. rewrite Hli in Hli'. injection Hli' as <-.
  pose proof (CR2 (f d) s i2 (map f args) li2 L' (proj2 (NC (f d)) (ex_intro _ d (conj Nd eq_refl))) Hd2 Hli2 P') as CRL.
  destruct (create_like I' _ _ _ _ _ Mx A S) as (L2 & CRL2 & _ & SK2). rewrite CRL in CRL2. injection CRL2 as <-.
  assert (SKI : same_kind (start (md_draws x) (md_layer x) (md_in x)) (start I' (md_layer x) (md_in x))).
  { clear -Mx. destruct Mx as (R & _). destruct R; cbn; auto. }
  assert (SKL : same_kind L L').
  { eapply same_kind_trans; [apply same_kind_sym, SK|]. eapply same_kind_trans; [exact SKI|exact SK2]. }
  split; [exact SKL|].
  pose proof P' as (j2 & op2 & L02 & li2' & O1 & O2 & O3 & O4 & O5).
  assert (Ei2 : mo_info op2 = i2). { destruct (op_info _ _ _ _ _ C2 (nth_error_In _ _ O1)) as (s3 & a3 & Hd3). rewrite O2, Hd2 in Hd3. injection Hd3 as _ -> _. reflexivity. }
  rewrite Ei2, Hli2 in O4. injection O4 as <-.
  pose proof P as (j & op & L00 & li00 & Q1 & Q2 & Q3 & Q4 & Q5).
  assert (Ei : mo_info op = i). { destruct (op_info _ _ _ _ _ CO (nth_error_In _ _ Q1)) as (s3 & a3 & Hd3). rewrite Q2, Hd in Hd3. injection Hd3 as _ -> _. reflexivity. }
  rewrite Ei, Hli in Q4. injection Q4 as <-.
  apply (weights_by_name L L' li li2 L00 L02 SKL Q5 O5).
  - intros k p p' Hp Hp'.
    assert (A1 : find_key (state_view m infos) (li_name li ++ "." ++ k)%string = Some (p_data p)).
    { apply H1. exists op, li, k. split; [eapply nth_error_In; exact Q1|]. split; [rewrite Ei; exact Hli|]. split; [reflexivity|]. left. eauto. }
    assert (A2 : find_key (state_view m2 infos2) (li_name li ++ "." ++ k)%string = Some (p_data p')).
    { apply H2. exists op2, li2, k. split; [eapply nth_error_In; exact O1|]. split; [rewrite Ei2; exact Hli2|]. split; [rewrite EN; reflexivity|]. left. eauto. }
    rewrite VIEW in A2. congruence.
  - intros k t t' Hp Hp'.
    assert (A1 : find_key (state_view m infos) (li_name li ++ "." ++ k)%string = Some t).
    { apply H1. exists op, li, k. split; [eapply nth_error_In; exact Q1|]. split; [rewrite Ei; exact Hli|]. split; [reflexivity|]. right. exact Hp. }
    assert (A2 : find_key (state_view m2 infos2) (li_name li ++ "." ++ k)%string = Some t').
    { apply H2. exists op2, li2, k. split; [eapply nth_error_In; exact O1|]. split; [rewrite Ei2; exact Hli2|]. split; [rewrite EN; reflexivity|]. right. exact Hp'. }
    rewrite VIEW in A2. congruence.
Qed.
End Trip.
