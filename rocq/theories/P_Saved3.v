(** Saving and loading a model: what the loaded model is. *)
From Coq Require Import Reals String Lia Permutation.
From Verif Require Import Base BaseFacts M_Tensor M_Layers M_Optim M_Init M_Nn M_Graph M_Model M_Backend M_Serial M_Saved S_Grad S_Serial S_Nn S_Graph S_Run S_Build S_Saved
  P_Optim P_Graph P_Nn P_MakeLayer P_Model P_Model2 P_Run P_Fwd P_Load P_Serial P_Build3 P_Build4 Prop_Graph Prop_Model Prop_Run Prop_Serial Prop_Build Prop_Plain P_Saved P_Saved2.
Local Open Scope string_scope.
Open Scope nat_scope.
Local Open Scope list_scope.

(** Layers initialised by the same call are alike. *)
Lemma initialised_alike ps ps' infos infos' outs f d s i args a b : copied ps infos outs f ps' infos' -> needed ps outs d ->
  nth_error ps d = Some (mkPh s (Some (i, args))) -> initialised ps args a -> initialised ps' (map f args) b -> same_description a b -> alike a b.
Proof.
  intros CP N Hd (k & I & ss & li0 & li1 & T & SS & CO & LI & AL) (k' & I' & ss' & li0' & li1' & T' & SS' & CO' & LI' & AL') (D1 & D2 & D3).
  rewrite <- D2, T in T'. injection T' as <-. rewrite <- D1, <- D3, CO in CO'. injection CO' as <-.
  assert (ss' = ss) as ->.
  { assert (HN : forall x, In x args -> needed ps outs x) by (intros x Hx; eapply need_arg; [exact N|exists s, i; exact Hd|exact Hx]).
    clear -SS SS' CP HN. revert ss' SS'. induction SS as [|x y t xs (p & Hp & Ex) _ IH]; intros ss' SS'; inversion SS' as [|? z ? ys (q & Hq & Ey) SS2]; subst; [reflexivity|].
    f_equal; [|apply IH; [intros; apply HN; right; assumption|exact SS2]].
    assert (Na : needed ps outs x) by (apply HN; left; reflexivity). destruct p as [sp [[j al]|]].
    - destruct (cp_call _ _ _ _ _ _ CP x sp j al Na Hp) as (j' & ? & ? & Hq' & _). rewrite Hq' in Hq. injection Hq as <-. reflexivity.
    - rewrite (cp_leaf _ _ _ _ _ _ CP x sp Na Hp) in Hq. injection Hq as <-. reflexivity. }
  pose proof (linit_alike k I I' ss li0 li0 (alike_refl li0)) as LA. rewrite LI, LI' in LA. cbn in LA.
  exact (alike_trans _ _ _ AL (alike_trans _ _ _ LA (alike_sym _ _ AL'))).
Qed.
Lemma initialised_like ps args a b : initialised ps args a -> alike a b -> initialised ps args b.
Proof.
  intros (k & I & ss & li0 & li1 & T & SS & CO & LI & AL) H. exists k, I, ss, li0, li1. destruct H as (E1 & E2 & E3 & H).
  rewrite <- E1, <- E2, <- E3. do 4 (split; [assumption|]). apply alike_sym. eapply alike_trans; [apply alike_sym, AL|]. split; [exact E1|]. split; [exact E2|]. split; [exact E3|exact H].
Qed.

(** Same names, same shapes. *)
Lemma find_like {V W} (sh : V -> list nat) (sh' : W -> list nat) (l : list (string * V)) (l' : list (string * W)) k v :
  map (fun e => (fst e, sh (snd e))) l = map (fun e => (fst e, sh' (snd e))) l' -> find_key l k = Some v ->
  exists w, find_key l' k = Some w /\ sh v = sh' w.
Proof.
  revert l'. induction l as [|[k1 v1] t IH]; intros [|[k2 v2] t'] E H; cbn in *; try discriminate. injection E as -> Es Et.
  destruct (String.eqb k2 k); [|exact (IH _ Et H)]. injection H as ->. exists v2. auto.
Qed.
Lemma alike_shapes a b : alike a b ->
  map (fun e => (fst e, tsh (p_data (snd e)))) (li_params a) = map (fun e => (fst e, tsh (p_data (snd e)))) (li_params b) /\
  map (fun e => (fst e, tsh (snd e))) (li_bufs a) = map (fun e => (fst e, tsh (snd e))) (li_bufs b).
Proof.
  intros (_ & _ & _ & P & B). split.
  - clear -P. induction P as [|x y l l' (E1 & E2 & _) _ IH]; [reflexivity|]. cbn. congruence.
  - clear -B. induction B as [|x y l l' (E1 & E2) _ IH]; [reflexivity|]. cbn. congruence.
Qed.

Section Loading.
Variables (es es' : estore) (m : model) (order : graph -> list gnode) (ins outs : list nat) (g : graph).
Hypothesis BU : built es.
Hypothesis VO : Forall (fun d => d < length (es_ph es)) outs.
Hypothesis BG : build (es_ph es) ins outs = Ok g.
Hypothesis TO : is_topo g (order g).
Hypothesis CM : construct_model order ins outs es = RVal es' m.
Hypothesis CL : closed (es_ph es) ins outs.
Variables (order2 : graph -> list gnode) (I : nat -> ienv) (es2 : estore).
Hypothesis SR : sorts order2.
Hypothesis BU2 : built es2.
Variable infos : list linfo.
Hypothesis KE : Forall2 kept (es_info es') infos.
Hypothesis AM : as_made (es_ph es) outs infos.
Variables (bits : R -> Z) (value : Z -> R) (can : Z -> bool) (junk : bytes -> bytes).
Hypothesis SV : savable bits value can m infos.
Variables (iter_cfg : config Z -> config Z) (iter_dict : sdict -> sdict).
Hypothesis IC : forall c, iterated c (iter_cfg c).
Hypothesis ID : forall d, Permutation d (iter_dict d).

Theorem loads_back : exists bytes es3 m2 infos2 f,
  save_model bits iter_cfg iter_dict m infos = Ok bytes /\
  load_model bits value can junk order2 I (Some bytes) es2 = RVal es3 (m2, infos2) /\
  copied (es_ph es) infos outs f (es_ph es3) infos2 /\
  m_in m2 = map f (by_number m ins) /\ m_out m2 = map f (by_number m outs) /\
  Permutation (by_number m ins) ins /\ Permutation (by_number m outs) outs /\
  constructed es3 (m_in m2) (m_out m2) m2 /\ closed (es_ph es3) (m_in m2) (m_out m2) /\
  Forall2 alike (es_info es3) infos2 /\ Forall sound_tensors (es_info es3) /\
  (exists l1 l2, es_ph es3 = es_ph es2 ++ l1 /\ es_info es3 = es_info es2 ++ l2) /\
  (forall k, find_key (state_view m2 infos2) k = find_key (state_view m infos) k) /\
  (forall key t, find_key (state_view m infos) key = Some t <-> holds m infos key t) /\
  (forall key t, find_key (state_view m2 infos2) key = Some t <-> holds m2 infos2 key t) /\
  (forall key t, holds m infos key t -> twf t) /\ Forall grads_ok infos2 /\
  (exists g2, built es3 /\ Forall (fun d => d < length (es_ph es3)) (m_out m2) /\ build (es_ph es3) (m_in m2) (m_out m2) = Ok g2 /\ is_topo g2 (order2 g2) /\
     construct_model order2 (m_in m2) (m_out m2) es3 = RVal es3 m2).
Proof.
  destruct SV as (EX & GC & GD).
  destruct (rebuilt_here es ins outs g order es' m BU VO BG TO CM CL order2 I es2 SR BU2)
    as (es3 & m2 & f & BD & CP & EI & EO & PI & PO & C2 & CL2 & PRE & (g2 & BU3 & VO3 & BG3 & TO3 & CM3)).
  assert (C1 : constructed es ins outs m) by (split; [exact BU|]; split; [exact VO|]; exists order, g, es'; auto).
  destruct (state_keys es order ins outs g BU VO BG TO es' m CM) as (_ & ND & _).
  destruct (state_keys es3 order2 _ _ g2 BU3 VO3 BG3 TO3 es3 m2 CM3) as (_ & ND2 & _).
  pose proof (refs_NoDup _ _ _ _ _ _ _ BU3 VO3 BG3 TO3 CM3) as NR.
  pose proof (fun key t => state_holds _ _ _ _ _ _ _ BU VO BG TO CM infos key t KE) as H1.
  assert (H2 : forall i2 key t, Forall2 alike (es_info es3) i2 -> (find_key (state_view m2 i2) key = Some t <-> holds m2 i2 key t)).
  { intros i2 key t AL. apply (state_holds _ _ _ _ _ _ _ BU3 VO3 BG3 TO3 CM3). clear -AL. induction AL; constructor; [apply alike_kept|]; assumption. }
  assert (VN : forall d, needed (es_ph es) outs d -> d < length (es_ph es)) by (intros d; apply (valid_needed es ins outs m C1)).
  pose proof (constructed_mfacts _ _ _ _ C1) as MF. pose proof (constructed_mfacts _ _ _ _ C2) as MF2.
  assert (EOo : forall d, In d (by_number m outs) <-> In d outs).
  { intros d. split; intros H; [eapply Permutation_in; [exact PO|exact H]|eapply Permutation_in; [apply Permutation_sym, PO|exact H]]. }
  assert (NC : forall d', needed (es_ph es3) (m_out m2) d' <-> exists d, needed (es_ph es) outs d /\ d' = f d).
  { intros d'. rewrite EO. apply (needed_copy (es_ph es) (es_ph es3) (es_info es') (es_info es3) outs (by_number m outs) f CP EOo VN). }
  (* layers of the two models *)
  assert (PAIR : forall d s i args, needed (es_ph es) outs d -> nth_error (es_ph es) d = Some (mkPh s (Some (i, args))) ->
    exists i2 li li2, nth_error (es_ph es3) (f d) = Some (mkPh s (Some (i2, map f args))) /\ nth_error infos i = Some li /\ nth_error (es_info es3) i2 = Some li2 /\
      same_tensors li li2 /\ tensors_ok li /\ initialised (es_ph es3) (map f args) li2).
  { intros d s i args Nd Hd. destruct (AM d s i args Nd Hd) as (li & li0 & Hli & IN & (SD & S1 & S2) & TK).
    destruct (cp_call _ _ _ _ _ _ CP d s i args Nd Hd) as (i2 & l1 & li2 & Hd2 & Hl1 & Hli2 & SD2 & IN2).
    destruct (Forall2_nth _ _ _ _ _ KE Hl1) as (l1' & Hl1' & (SD3 & _)). rewrite Hli in Hl1'. injection Hl1' as <-.
    assert (SD4 : same_description li0 li2) by (unfold same_description in *; intuition congruence).
    pose proof (initialised_alike _ _ _ _ _ _ _ _ _ _ _ _ CP Nd Hd IN IN2 SD4) as AL. destruct (alike_shapes _ _ AL) as (Q1 & Q2).
    exists i2, li, li2. split; [exact Hd2|]. split; [exact Hli|]. split; [exact Hli2|]. split; [|auto]. split; [unfold same_description in *; intuition congruence|]. split; congruence. }
  pose proof (built_sound _ BU3) as SO3.
  (* names and shapes of the two dictionaries *)
  assert (FWD : forall key t, holds m infos key t -> exists t2, holds m2 (es_info es3) key t2 /\ tsh t2 = tsh t /\ twf t /\ twf t2).
  { intros key t (op & li & k & Ho & Hli & -> & H). destruct (op_info _ _ _ _ _ C1 Ho) as (s & args & Hd).
    assert (Nd : needed (es_ph es) outs (mo_ph op)) by (destruct (mf_op _ _ _ _ MF op Ho) as (? & ? & ? & ? & X & _); exact X).
    destruct (PAIR _ _ _ _ Nd Hd) as (i2 & li' & li2 & Hd2 & Hli' & Hli2 & (SD & S1 & S2) & (TK1 & TK2) & _). rewrite Hli in Hli'. injection Hli' as <-.
    assert (X : In (f (mo_ph op)) (map mo_ph (m_ops m2))) by (apply (mf_call _ _ _ _ MF2); [apply NC; eauto|exists (map f args), s, i2; exact Hd2]).
    apply in_map_iff in X. destruct X as (op2 & E2 & Ho2). destruct (op_info _ _ _ _ _ C2 Ho2) as (s' & args' & Hd2'). rewrite E2, Hd2 in Hd2'. injection Hd2' as <- Ei <-.
    assert (SO : sound_tensors li2) by (rewrite Forall_forall in SO3; apply SO3; eapply nth_error_In; exact Hli2). destruct SO as [SO1 SO2].
    destruct H as [(p & Hp & ->)|H].
    - destruct (find_like (fun p => tsh (p_data p)) (fun p => tsh (p_data p)) _ _ _ _ S1 Hp) as (p2 & Hp2 & Es). exists (p_data p2). split; [|split; [symmetry; exact Es|]].
      + exists op2, li2, k. rewrite <- Ei. split; [exact Ho2|]. split; [exact Hli2|]. split; [destruct SD as (-> & _); reflexivity|]. left. eauto.
      + split; [eapply TK1; apply find_some_in, Hp|]. destruct (SO1 k p2 (find_some_in _ _ _ Hp2)) as (_ & W & _). exact W.
    - destruct (find_like tsh tsh _ _ _ _ S2 H) as (t2 & Ht2 & Es). exists t2. split; [|split; [symmetry; exact Es|]].
      + exists op2, li2, k. rewrite <- Ei. split; [exact Ho2|]. split; [exact Hli2|]. split; [destruct SD as (-> & _); reflexivity|]. right. exact Ht2.
      + split; [eapply TK2; apply find_some_in, H|]. exact (SO2 k t2 (find_some_in _ _ _ Ht2)). }
  assert (BWD : forall key t2, holds m2 (es_info es3) key t2 -> exists t, holds m infos key t).
  { intros key t2 (op2 & li2 & k & Ho2 & Hli2 & -> & H). destruct (op_info _ _ _ _ _ C2 Ho2) as (s2 & args2 & Hd2).
    assert (Nd2 : needed (es_ph es3) (m_out m2) (mo_ph op2)) by (destruct (mf_op _ _ _ _ MF2 op2 Ho2) as (? & ? & ? & ? & X & _); exact X).
    apply NC in Nd2. destruct Nd2 as (d & Nd & Ed). rewrite Ed in Hd2.
    destruct (call_copy_inv _ _ _ _ _ _ CP VN d args2 Nd) as (args & (s & i & Hd) & ->); [exists s2, (mo_info op2); exact Hd2|].
    destruct (PAIR _ _ _ _ Nd Hd) as (i2 & li & li2' & Hd2' & Hli & Hli2' & (SD & S1 & S2) & _). rewrite Hd2 in Hd2'. injection Hd2' as -> <-. rewrite Hli2 in Hli2'. injection Hli2' as <-.
    assert (X : In d (map mo_ph (m_ops m))) by (apply (mf_call _ _ _ _ MF); [exact Nd|exists args, s, i; exact Hd]).
    apply in_map_iff in X. destruct X as (op & <- & Ho). destruct (op_info _ _ _ _ _ C1 Ho) as (s' & args' & Hd'). rewrite Hd in Hd'. injection Hd' as <- Ei <-.
    destruct H as [(p & Hp & ->)|H].
    - destruct (find_like (fun p => tsh (p_data p)) (fun p => tsh (p_data p)) _ _ _ _ (eq_sym S1) Hp) as (p1 & Hp1 & _). exists (p_data p1), op, li, k. rewrite <- Ei.
      split; [exact Ho|]. split; [exact Hli|]. split; [destruct SD as (-> & _); reflexivity|]. left. eauto.
    - destruct (find_like tsh tsh _ _ _ _ (eq_sym S2) H) as (t & Ht & _). exists t, op, li, k. rewrite <- Ei.
      split; [exact Ho|]. split; [exact Hli|]. split; [destruct SD as (-> & _); reflexivity|]. right. exact Ht. }
  (* the file *)
  set (c' := iter_cfg (cfg_map bits (m_cfg m))). set (d' := iter_dict (dict_of bits m infos)).
  assert (GC' : good_cfg can c') by (eapply good_cfg_iterated; [apply IC|exact GC]).
  assert (GD' : good_dict can d') by (eapply good_dict_perm; [apply ID|exact GD]).
  destruct (C43_configuration_round_trip can junk c' (save_state d') GC') as (b & SB & LB).
  unfold floats_of in EX. apply Forall_app in EX. destruct EX as (EXC & EXT).
  assert (NV : NoDup (map fst (dict_of bits m infos))) by (rewrite dict_keys; apply view_NoDup, ND).
  assert (FD : forall k, find_key d' k = option_map (mem_of bits) (find_key (state_view m infos) k)).
  { intros k. unfold d'. rewrite <- (find_key_perm _ _ k NV (ID _)). apply dict_find. }
  assert (BUILD : Build order2 I (cfg_map value c') es2 = RVal es3 m2).
  { rewrite (Build_iterated order2 I (cfg_map value (cfg_map bits (m_cfg m))) (cfg_map value c')).
    - rewrite cfg_back by exact EXC. exact BD.
    - apply iterated_map, IC.
    - destruct (cfg_keys value (cfg_map bits (m_cfg m))) as (-> & _). apply GC.
    - destruct GC as (_ & _ & _ & _ & _ & _ & GO). rewrite Forall_forall in GO |- *. intros o Ho. destruct (cfg_keys value (cfg_map bits (m_cfg m))) as (_ & EK).
      assert (X : In (map fst (oi_attrs o)) (map (fun o => map fst (oi_attrs o)) (c_ops (cfg_map value (cfg_map bits (m_cfg m)))))) by (apply in_map_iff; exists o; auto).
      rewrite EK in X. apply in_map_iff in X. destruct X as (o' & <- & Ho'). apply (GO o' Ho'). }
  assert (MT : Forall (matches (dict_of bits m2 (es_info es3))) d').
  { apply Forall_forall. intros [k s] Hk. assert (ND' : NoDup (map fst d')) by apply GD'. apply in_find in Hk; [|exact ND']. rewrite FD in Hk.
    destruct (find_key (state_view m infos) k) as [t|] eqn:Et; [|discriminate]. injection Hk as <-. apply H1 in Et. destruct (FWD _ _ Et) as (t2 & Ht2 & Es & W1 & W2).
    exists (mem_of bits t2). split; [|split].
    - cbn. rewrite dict_find. apply (H2 _ _ _ (alike_all _)) in Ht2. rewrite Ht2. reflexivity.
    - cbn. rewrite Es. reflexivity.
    - cbn [mem_of s_mem snd]. rewrite !mem_length. unfold twf, tot in W1, W2. rewrite W1, W2, Es. reflexivity. }
  destruct (C42_state_round_trip can d' (dict_of bits m2 (es_info es3)) [] GD' MT) as (dn & LS & (_ & ST)). rewrite app_nil_r in LS.
  set (infos2 := state_write value m2 dn (es_info es3)).
  pose proof (write_alike value m2 dn (es_info es3)) as AL. fold infos2 in AL.
  assert (VIEW : forall k, find_key (state_view m2 infos2) k = find_key (state_view m infos) k).
  { intros k. rewrite view_find by exact ND2. destruct (find_key (m_state m2) k) as [r|] eqn:Er.
    - unfold infos2. rewrite (write_get value m2 dn (es_info es3) k r NR (find_some_in _ _ _ Er)). rewrite ST, FD, dict_find.
      assert (V3 : find_key (state_view m2 (es_info es3)) k = get_state (es_info es3) r) by (rewrite view_find, Er by exact ND2; reflexivity).
      destruct (find_key (state_view m infos) k) as [t|] eqn:Et; cbn [option_map].
      + apply H1 in Et. destruct (FWD _ _ Et) as (t2 & Ht2 & Es & W1 & W2). apply (H2 _ _ _ (alike_all _)) in Ht2. rewrite V3 in Ht2. rewrite Ht2. cbn [option_map].
        apply H1 in Et. rewrite floats_mem.
        * unfold set_dat. rewrite Es. destruct t; reflexivity.
        * apply Forall_forall. intros x Hx. rewrite Forall_forall in EXT. apply EXT. apply in_flat_map. exists (k, t). split; [apply find_some_in, Et|exact Hx].
      + destruct (find_key (state_view m2 (es_info es3)) k) as [t2|] eqn:E2.
        * apply (H2 _ _ _ (alike_all _)) in E2. destruct (BWD _ _ E2) as (t & Ht). apply H1 in Ht. congruence.
        * cbn [option_map]. symmetry. exact V3.
    - destruct (find_key (state_view m infos) k) as [t|] eqn:Et; [|reflexivity]. apply H1 in Et. destruct (FWD _ _ Et) as (t2 & Ht2 & _).
      apply (H2 _ _ _ (alike_all _)) in Ht2. rewrite view_find, Er in Ht2 by exact ND2. discriminate. }
  exists (b ++ save_state d'), es3, m2, infos2, f.
  split; [unfold save_model, save; fold c' d'; rewrite SB; reflexivity|]. split; [unfold load_model; rewrite LB, BUILD, LS; reflexivity|].
  split; [|repeat (split; [assumption|])].
  - split; [exact (cp_inj _ _ _ _ _ _ CP)|exact (cp_leaf _ _ _ _ _ _ CP)|]. intros d s i args Nd Hd.
    destruct (PAIR _ _ _ _ Nd Hd) as (i2 & li & li2 & Hd2 & Hli & Hli2 & (SD & _) & _ & IN2). destruct (Forall2_nth _ _ _ _ _ AL Hli2) as (li3 & Hli3 & A3).
    exists i2, li, li3. split; [exact Hd2|]. split; [exact Hli|]. split; [exact Hli3|]. split; [destruct A3 as (? & ? & ? & _); unfold same_description in *; intuition congruence|].
    eapply initialised_like; eassumption.
  - split; [intros key t; apply H2, AL|]. split; [intros key t H; destruct (FWD _ _ H) as (? & _ & _ & W & _); exact W|].
    split; [|exists g2; auto]. apply write_grads. rewrite Forall_forall in SO3 |- *. intros li Hli k p Hp. destruct (SO3 li Hli) as (S1 & _). destruct (S1 k p Hp) as (_ & _ & _ & W). exact W.
Qed.
End Loading.
