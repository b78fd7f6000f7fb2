(** Proofs behind C47, third part: Model::Build as a whole. *)
From Coq Require Import Reals String Lia Permutation.
From Verif Require Import Base BaseFacts M_Tensor M_Layers M_Optim P_Optim M_Init M_Nn M_Graph M_Model S_Nn S_Graph S_Run S_Build
  P_Graph P_Graph2 P_Nn P_MakeLayer P_Model P_Model2 P_Run P_Fwd P_Build P_Build2 Prop_Graph Prop_Model.
Local Open Scope string_scope.
Local Open Scope list_scope.
Open Scope nat_scope.

(** ** Consequences of having a copy *)
Section Copied.
Variable ps ps' : list phnode.
Variable infos infos' : list linfo.
Variable outs outs2 : list nat.
Variable f : nat -> nat.
Hypothesis CP : copied ps infos outs f ps' infos'.
Hypothesis EO : forall d, In d outs2 <-> In d outs.
Hypothesis PH : forall d, needed ps outs d -> d < length ps.

Lemma needed_outs2 d : needed ps outs2 d <-> needed ps outs d.
Proof. split; apply needed_incl; intros x Hx; apply EO, Hx. Qed.

Lemma call_copy d args : needed ps outs d -> call ps d args -> call ps' (f d) (map f args).
Proof. intros N (s & i & H). destruct (cp_call _ _ _ _ _ _ CP d s i args N H) as (i' & li & li' & H' & _). exists s, i'. exact H'. Qed.
Lemma call_copy_inv d args' : needed ps outs d -> call ps' (f d) args' -> exists args, call ps d args /\ args' = map f args.
Proof.
  intros N (s & i & H). pose proof (PH d N) as L. apply nth_error_Some in L. destruct (nth_error ps d) as [[s0 [[j args]|]]|] eqn:E; [| |congruence].
  - destruct (cp_call _ _ _ _ _ _ CP d s0 j args N E) as (i' & li & li' & H' & _). rewrite H in H'. injection H' as _ _ ->. exists args. split; [exists s0, j; exact E|reflexivity].
  - rewrite (cp_leaf _ _ _ _ _ _ CP d s0 N E) in H. discriminate H.
Qed.
Lemma needed_copy d' : needed ps' (map f outs2) d' <-> exists d, needed ps outs d /\ d' = f d.
Proof.
  split.
  - induction 1 as [o H|c args a _ (d & Nd & ->) C Ha].
    + apply in_map_iff in H. destruct H as (d & <- & H). exists d. split; [apply need_out, EO, H|reflexivity].
    + destruct (call_copy_inv d args Nd C) as (args0 & C0 & ->). apply in_map_iff in Ha. destruct Ha as (x & <- & Hx). exists x. split; [eapply need_arg; eassumption|reflexivity].
  - intros (d & Nd & ->). induction Nd as [o H|c args a Nc IH C Ha].
    + apply need_out, in_map, EO, H.
    + eapply need_arg; [exact IH|apply call_copy; eassumption|apply in_map, Ha].
Qed.
Lemma dims_copy d : needed ps outs d -> dims ps' (f d) = dims ps d.
Proof.
  intros N. unfold dims. pose proof (PH d N) as L. apply nth_error_Some in L. destruct (nth_error ps d) as [[s0 [[j args]|]]|] eqn:E; [| |congruence].
  - destruct (cp_call _ _ _ _ _ _ CP d s0 j args N E) as (i' & li & li' & H' & _). rewrite H'. reflexivity.
  - rewrite (cp_leaf _ _ _ _ _ _ CP d s0 N E). reflexivity.
Qed.
Lemma visits_copied d : needed ps outs d -> visits ps' (map f outs2) (f d) = visits ps outs2 d.
Proof.
  intros N. apply (visits_copy ps ps' f (needed ps outs)).
  - intros x y Hx Hy. apply (cp_inj _ _ _ _ _ _ CP x y Hx Hy).
  - intros x Hx. pose proof (PH x Hx) as L. apply nth_error_Some in L. unfold args_at, args_of. destruct (nth_error ps x) as [[s0 [[j args]|]]|] eqn:E; [| |congruence].
    + destruct (cp_call _ _ _ _ _ _ CP x s0 j args Hx E) as (i' & li & li' & H' & _). rewrite H'. cbn. split; [reflexivity|].
      apply Forall_forall. intros a Ha. eapply need_arg; [exact Hx|exists s0, j; exact E|exact Ha].
    + rewrite (cp_leaf _ _ _ _ _ _ CP x s0 Hx E). cbn. split; [reflexivity|constructor].
  - apply Forall_forall. intros x Hx. apply need_out, EO, Hx.
  - exact N.
  - intros e. apply needed_outs2.
Qed.
End Copied.

Lemma nodup_map_inj {A B} (g : A -> B) l a b : NoDup (map g l) -> In a l -> In b l -> g a = g b -> a = b.
Proof.
  induction l as [|x t IH]; intros ND Ha Hb E; [destruct Ha|]. inversion ND as [|? ? N ND']; subst.
  destruct Ha as [->|Ha], Hb as [->|Hb]; [reflexivity| | |auto].
  - exfalso. apply N. rewrite E. apply in_map, Hb.
  - exfalso. apply N. rewrite <- E. apply in_map, Ha.
Qed.
Lemma nodup_map_on {A B} (g : A -> B) l : NoDup l -> (forall a b, In a l -> In b l -> g a = g b -> a = b) -> NoDup (map g l).
Proof.
  induction 1 as [|x t N ND IH]; intros H; cbn; constructor.
  - intros X. apply in_map_iff in X. destruct X as (y & E & Hy). rewrite <- (H y x) in N; [contradiction|right; exact Hy|left; reflexivity|exact E].
  - apply IH. intros a b Ha Hb. apply H; right; assumption.
Qed.

Lemma intended_given es ord : (forall i, In i (used_layers es ord) -> name_in es i <> "") -> intended_names es ord = map (name_in es) (used_layers es ord).
Proof.
  intros H. unfold intended_names. generalize 0 as b. induction (used_layers es ord) as [|i t IH]; intros b; [reflexivity|].
  cbn [length seq combine map]. f_equal.
  - specialize (H i (or_introl eq_refl)). unfold intended_name, name_in in *. destruct (nth_error (es_info es) i) as [li|]; [|reflexivity].
    destruct (String.eqb_spec (li_name li) ""); [contradiction|reflexivity].
  - apply IH. intros j Hj. apply H. right; exact Hj.
Qed.

Lemma filter_perm (l N : list nat) : NoDup l -> NoDup N -> incl l N -> Permutation (filter (fun d => existsb (Nat.eqb d) l) N) l.
Proof.
  intros NL NN H. apply NoDup_Permutation; [apply NoDup_filter, NN|exact NL|]. intros x. rewrite filter_In. change (existsb (Nat.eqb x) l) with (memb x l). rewrite memb_In.
  split; [tauto|auto].
Qed.

Section Rebuild.
Variable es : estore.
Variable ins outs : list nat.
Variable g : graph.
Variable order : graph -> list gnode.
Variable es' : estore.
Variable m : model.
Hypothesis BU : built es.
Hypothesis VO : Forall (fun d => d < length (es_ph es)) outs.
Hypothesis BG : build (es_ph es) ins outs = Ok g.
Hypothesis TO : is_topo g (order g).
Hypothesis CM : construct_model order ins outs es = RVal es' m.
Hypothesis CL : closed (es_ph es) ins outs.

Let ps := es_ph es.
Let N := map fst (m_data m).

Lemma needed_valid d : needed ps outs d -> d < length ps.
Proof. intros H. eapply needed_lt; [|apply store_links_back, built_ok, BU|exact H]. intros o Ho. rewrite Forall_forall in VO. auto. Qed.

Lemma first_is_input d : nth_error N 0 = Some d -> In d ins.
Proof.
  intros H. assert (Nd : needed ps outs d).
  { apply (proj1 (proj2 (data_complete es order ins outs g BU VO BG TO es' m CM))). eapply nth_error_In. exact H. }
  destruct CL as (_ & _ & _ & _ & K). destruct (K d Nd) as [(args & C)|]; [exfalso|assumption].
  destruct (built_ok _ BU) as [_ SC]. pose proof C as (s & i & E). destruct (SC _ _ _ _ E) as (_ & li & k & ss & _ & _ & L & _).
  destruct args as [|a t]; [destruct k; discriminate L|].
  assert (X : exists v, before (GD a) (GO d) v /\ before (GO d) (GD d) v /\ v = order g).
  { destruct (C33_nodes_and_links (es_ph es) ins outs g BG) as (_ & _ & _ & ED). destruct TO as (_ & _ & T3). exists (order g). split; [|split; [|reflexivity]].
    - apply (T3 (mkEdge (GD a) (GO d) 0)). apply ED. left. exists d, (a :: t), 0, a. auto.
    - apply (T3 (mkEdge (GO d) (GD d) 0)). apply ED. right. exists d, (a :: t). auto. }
  destruct X as (v & B1 & B2 & ->). unfold N in H. rewrite (data_numbers es order ins outs g BU VO BG TO es' m CM) in H.
  destruct B2 as (l1 & l2 & l3 & E2). 
  assert (ND : NoDup (order g)) by apply TO. pose proof (before_unique _ _ l1 (l2 ++ GD d :: l3) _ B1 ND E2) as I1.
  rewrite E2 in H. unfold data_nodes in H. rewrite flat_map_app in H. cbn in H.
  destruct (flat_map (fun n => match n with GD d => [d] | GO _ => [] end) l1) as [|y q] eqn:EQ.
  - assert (I2 : In a (flat_map (fun n => match n with GD d => [d] | GO _ => [] end) l1)) by (apply in_flat_map; exists (GD a); split; [exact I1|left; reflexivity]).
    rewrite EQ in I2. destruct I2.
  - cbn in H. injection H as ->. assert (I2 : In d (flat_map (fun n => match n with GD d => [d] | GO _ => [] end) l1)) by (rewrite EQ; left; reflexivity).
    apply in_flat_map in I2. destruct I2 as ([e|e] & I2 & I3); [|destruct I3]. destruct I3 as [->|[]].
    rewrite E2 in ND. apply NoDup_remove in ND. destruct ND as [ND _]. rewrite app_assoc in ND. apply NoDup_remove in ND. destruct ND as [_ ND]. apply ND.
    apply in_or_app. left. apply in_or_app. left. exact I2.
Qed.

Variable order2 : graph -> list gnode.
Variable I : nat -> ienv.
Variable es2 : estore.
Hypothesis SR : sorts order2.
Hypothesis BU2 : built es2.

Lemma in_storage d : In d N -> memb d ins = match storage_of ins outs d with SInput => true | _ => false end.
Proof.
  intros _. unfold storage_of. destruct CL as (_ & _ & C1 & C2 & _). destruct (memb d outs) eqn:E1, (memb d ins) eqn:E2; try reflexivity.
  apply memb_In in E1, E2. destruct (C1 d E2 (C2 d E1)).
Qed.
Lemma out_storage d : In d N -> memb d outs = match storage_of ins outs d with SOutput => true | _ => false end.
Proof. intros _. unfold storage_of. destruct (memb d outs), (memb d ins); reflexivity. Qed.

Theorem rebuilt_here : exists es3 m2 f,
  Build order2 I (m_cfg m) es2 = RVal es3 m2 /\
  copied ps (es_info es') outs f (es_ph es3) (es_info es3) /\
  m_in m2 = map f (by_number m ins) /\ m_out m2 = map f (by_number m outs) /\
  Permutation (by_number m ins) ins /\ Permutation (by_number m outs) outs /\
  constructed es3 (m_in m2) (m_out m2) m2 /\ closed (es_ph es3) (m_in m2) (m_out m2) /\
  (exists l1 l2, es_ph es3 = es_ph es2 ++ l1 /\ es_info es3 = es_info es2 ++ l2) /\
  (exists g2, built es3 /\ Forall (fun d => d < length (es_ph es3)) (m_out m2) /\ build (es_ph es3) (m_in m2) (m_out m2) = Ok g2 /\ is_topo g2 (order2 g2) /\
     construct_model order2 (m_in m2) (m_out m2) es3 = RVal es3 m2).
Proof.
  pose proof (model_facts es order ins outs g BU VO BG TO es' m CM) as MF.
  destruct MF as (mops & ND1 & ND2 & EP & EG & EOrd & EM & F & OB & RN & NF & IN & NW & ED & EI & EOu & _ & _ & _ & _ & EC).
  pose proof (model_mfacts es order ins outs g es' m BU VO BG TO CM) as M.
  assert (BU' : built es') by exact (built_model es order ins outs es' m BU CM).
  assert (SO' : store_ok (mkES ps (es_info es'))) by (unfold ps; rewrite <- EP; destruct es'; apply built_ok, BU').
  assert (RD' : ready (mkES ps (es_info es'))) by (unfold ps; rewrite <- EP; destruct es'; apply built_ready, BU').
  assert (NDN : NoDup N) by apply M. pose proof CL as (NDi & NDo & C1 & C2 & C3).
  assert (HN : forall d, In d N <-> needed ps outs d) by apply M.
  assert (EN : data_of ins outs (order g) = map (fun d => (d, storage_of ins outs d)) N).
  { unfold N. rewrite ED. unfold data_of. rewrite !map_map. cbn [fst]. reflexivity. }
  assert (LI : incl ins N) by (intros d Hd; apply HN, M, Hd).
  assert (LO : incl outs N) by (intros d Hd; apply HN, need_out, Hd).
  assert (PI : Permutation (by_number m ins) ins) by (apply filter_perm; assumption).
  assert (PO : Permutation (by_number m outs) outs) by (apply filter_perm; assumption).
  assert (FI : Forall2 (fun z d => exists i, z = Z.of_nat i /\ nth_error N i = Some d) (c_in (m_cfg m)) (by_number m ins)).
  { rewrite EC, EN. cbn [config_of c_in]. apply marked_filter. intros d Hd. etransitivity; [exact (in_storage d Hd)|]. destruct (storage_of ins outs d); reflexivity. }
  assert (FO : Forall2 (fun z d => exists i, z = Z.of_nat i /\ nth_error N i = Some d) (c_out (m_cfg m)) (by_number m outs)).
  { rewrite EC, EN. cbn [config_of c_out]. apply marked_filter. intros d Hd. etransitivity; [exact (out_storage d Hd)|]. destruct (storage_of ins outs d); reflexivity. }
  (* inputs *)
  assert (S0 : sim ps (es_info es') N es2 es2 [] []).
  { split; [exact BU2|intros d []|discriminate| | |].
    - intros d e p (i & _ & H). discriminate H.
    - intros d p (i & _ & H). discriminate H.
    - exists [], []. rewrite !app_nil_r. auto. }
  assert (LF : forall d, In d ins -> exists s, nth_error ps d = Some (mkPh s None)).
  { intros d Hd. assert (L : d < length ps) by (apply needed_valid, HN, LI, Hd). apply nth_error_Some in L.
    destruct (nth_error ps d) as [[s [[j ag]|]]|] eqn:E; [|eauto|congruence]. exfalso. apply (C1 d Hd). exists ag, s, j. exact E. }
  destruct (inputs_sim ps (es_info es') N es2 (data_of ins outs (order g))) with (todo := by_number m ins) (ids := c_in (m_cfg m)) (done := @nil nat) (es := es2) (mp := @nil (Z * nat)) as (es_i & mp_i & BI & S1).
  { rewrite <- ED. reflexivity. }
  { exact S0. }
  { apply NoDup_filter, NDN. }
  { intros d _ []. }
  { intros d Hd. apply LF. eapply Permutation_in; eassumption. }
  { exact FI. }
  rewrite app_nil_r in S1.
  assert (D1 : forall d, In d ins -> In d (rev (by_number m ins))).
  { intros d Hd. apply in_rev. rewrite rev_involutive. eapply Permutation_in; [apply Permutation_sym, PI|exact Hd]. }
  assert (D1' : forall d, In d (rev (by_number m ins)) -> In d ins).
  { intros d Hd. apply in_rev in Hd. eapply Permutation_in; [exact PI|exact Hd]. }
  (* layers *)
  set (opi := fun op => mkOI (op_name (es_info es') op) (li_type (info_at (es_info es') op)) (li_attrs (info_at (es_info es') op)) (map Z.of_nat (mo_in op)) (map Z.of_nat (mo_out op))).
  assert (OPI : forall op li, nth_error (es_info es') (mo_info op) = Some li -> opi op = mkOI (li_name li) (li_type li) (li_attrs li) (map Z.of_nat (mo_in op)) (map Z.of_nat (mo_out op))).
  { intros op li H. unfold opi, op_name, info_at. rewrite (nth_error_nth _ _ _ H). reflexivity. }
  assert (INF : forall op, In op mops -> exists s args, nth_error ps (mo_ph op) = Some (mkPh s (Some (mo_info op, args)))).
  { intros op Ho. clear -F Ho. induction F as [|d o l mops (E1 & E2 & _) _ IH]; [destruct Ho|]. destruct Ho as [<-|Ho]; [|exact (IH Ho)].
    rewrite E1. unfold info_of in E2. rewrite rd_nth in E2. fold ps in E2. destruct (nth_error ps d) as [[s [[i args]|]]|] eqn:E; cbn in E2; try discriminate.
    injection E2 as <-. exists s, args. reflexivity. }
  destruct (ops_sim ps (es_info es') N SO' RD' NDN es2 opi OPI I mops 0 (rev (by_number m ins)) es_i mp_i S1) as (es_b & mp & BO & S2).
  { intros NE. destruct mops as [|op rest]; [congruence|]. destruct (INF op (or_introl eq_refl)) as (s & args & Hs).
    assert (X : In (mo_ph op) N) by (apply HN; destruct (mf_op _ _ _ _ M op) as (? & ? & ? & ? & Y & _); [rewrite EM; left; reflexivity|exact Y]).
    destruct (nth_error N 0) as [d0|] eqn:E0; [|apply nth_error_None in E0; apply In_nth_error in X; destruct X as (n & X); assert (Y : nth_error N n <> None) by congruence; apply nth_error_Some in Y; lia].
    destruct (s_done _ _ _ _ _ _ _ S1 d0 (D1 d0 (first_is_input d0 E0))) as (p & i & Hi & Hp).
    rewrite (index_inj N NDN i 0 d0 Hi E0) in Hp. exists p. exact Hp. }
  { rewrite <- EM. apply M. }
  { intros op Ho X. destruct (INF op Ho) as (s & args & Hs). apply (C1 _ (D1' _ X)). exists args, s, (mo_info op). exact Hs. }
  { intros op Ho. destruct (INF op Ho) as (s & args & Hs). destruct (mf_op _ _ _ _ M op) as (args0 & k & ids & i & _ & Ca & _ & G1 & G2 & G3 & G4); [rewrite EM; exact Ho|].
    destruct Ca as (s0 & i0 & Ca). fold ps in Ca. rewrite Hs in Ca. injection Ca as _ _ <-. exists s, args, k, ids, i. auto. }
  { intros pre op post args a E Ca Ha. rewrite <- EM in E.
    assert (Na : needed ps outs a).
    { eapply need_arg; [|exact Ca|exact Ha]. destruct (mf_op _ _ _ _ M op) as (? & ? & ? & ? & Y & _); [rewrite E; apply in_or_app; right; left; reflexivity|exact Y]. }
    destruct (C3 a Na) as [X|X]; [right; eapply (mf_order _ _ _ _ M); eassumption|left; apply D1, X]. }
  assert (DN : forall d, needed ps outs d -> In d (rev (map mo_ph mops) ++ rev (by_number m ins))).
  { intros d Nd. apply in_or_app. destruct (C3 d Nd) as [X|X]; [left|right; apply D1, X]. apply in_rev. rewrite rev_involutive, <- EM. apply (mf_call _ _ _ _ M d Nd X). }
  assert (AL : forall l, incl l N -> Forall (fun d => In d (rev (map mo_ph mops) ++ rev (by_number m ins))) l).
  { intros l H. apply Forall_forall. intros d Hd. apply DN, HN, H, Hd. }
  set (f := fun d => match index_of d N with Ok i => match find_id mp (Z.of_nat i) with Some p => p | None => 0 end | _ => 0 end).
  assert (FA : forall d p, at_num N mp d p -> f d = p).
  { intros d p (i & Hi & Hp). unfold f. destruct (index_of_In d N) as (j & Ej); [eapply nth_error_In; exact Hi|]. rewrite Ej.
    apply index_of_Ok in Ej. destruct Ej as [Ej _]. rewrite (index_inj N NDN i j d Hi Ej) in Hp. rewrite Hp. reflexivity. }
  assert (AF : forall d, needed ps outs d -> at_num N mp d (f d)).
  { intros d Nd. destruct (s_done _ _ _ _ _ _ _ S2 d (DN d Nd)) as (p & Hp). rewrite (FA d p Hp). exact Hp. }
  assert (MF2 : forall l l', Forall2 (at_num N mp) l l' -> l' = map f l).
  { induction 1 as [|a b l l' H _ IH]; [reflexivity|]. cbn. rewrite (FA _ _ H), IH. reflexivity. }
  destruct (ids_found _ _ N NDN _ _ _ _ _ _ S2 FI) as (i2 & EI2 & X); [apply AL; intros d Hd; apply LI; eapply Permutation_in; eassumption|].
  apply MF2 in X. subst i2.
  destruct (ids_found _ _ N NDN _ _ _ _ _ _ S2 FO) as (o2 & EO2 & X); [apply AL; intros d Hd; apply LO; eapply Permutation_in; eassumption|].
  apply MF2 in X. subst o2.
  assert (CP : copied ps (es_info es') outs f (es_ph es_b) (es_info es_b)).
  { split.
    - intros d e Nd Ne E. pose proof (AF d Nd) as A1. pose proof (AF e Ne) as A2. rewrite E in A1. eapply (s_inj _ _ _ _ _ _ _ S2); eassumption.
    - intros d s Nd Hd. destruct (s_ph _ _ _ _ _ _ _ S2 d (f d) (AF d Nd)) as (x & Hx & O1 & _). rewrite Hx, (O1 s Hd). reflexivity.
    - intros d s i args Nd Hd. destruct (s_ph _ _ _ _ _ _ _ S2 d (f d) (AF d Nd)) as (x & Hx & _ & O2).
      destruct (O2 s i args Hd) as (j' & args' & li & li' & -> & FA' & E1 & E2 & E3 & E4). apply MF2 in FA'. subst args'. exists j', li, li'. auto. }
  pose proof (s_built _ _ _ _ _ _ _ S2) as BUB.
  assert (EOo : forall d, In d (by_number m outs) <-> In d outs).
  { intros d. split; intros H; [eapply Permutation_in; [exact PO|exact H]|eapply Permutation_in; [apply Permutation_sym, PO|exact H]]. }
  assert (EIi : forall d, In d (by_number m ins) <-> In d ins).
  { intros d. split; intros H; [eapply Permutation_in; [exact PI|exact H]|eapply Permutation_in; [apply Permutation_sym, PI|exact H]]. }
  pose proof (needed_copy ps (es_ph es_b) (es_info es') (es_info es_b) outs (by_number m outs) f CP EOo needed_valid) as NC.
  assert (CB : exists g2, build (es_ph es_b) (map f (by_number m ins)) (map f (by_number m outs)) = Ok g2).
  { apply C33_defined_exactly_when_linked. intros d' Hd'. apply in_app_or in Hd'. destruct Hd' as [H|H]; apply in_map_iff in H; destruct H as (d & <- & H).
    - apply EIi in H. assert (Nd : needed ps outs d) by (apply HN, LI, H). split; [apply NC; eauto|]. right. destruct Nd as [o Ho|c args a Nc Ca Ha].
      + destruct (C1 o H (C2 o Ho)).
      + exists (f c), (map f args). split; [apply NC; eauto|]. split; [eapply call_copy; eassumption|apply in_map, Ha].
    - apply EOo in H. assert (Nd : needed ps outs d) by (apply need_out, H). split; [apply NC; eauto|]. left. destruct (C2 d H) as (args & Ca). exists (map f args). eapply call_copy; eassumption. }
  destruct CB as (g2 & BG2).
  assert (VO2 : Forall (fun d => d < length (es_ph es_b)) (map f (by_number m outs))).
  { apply Forall_forall. intros x Hx. apply in_map_iff in Hx. destruct Hx as (d & <- & Hd). apply EOo in Hd.
    destruct (s_ph _ _ _ _ _ _ _ S2 d (f d) (AF d (need_out _ _ _ Hd))) as (y & Hy & _). apply nth_error_Some. congruence. }
  assert (T2 : is_topo g2 (order2 g2)) by (apply SR; eapply C33_graph_is_acyclic; eassumption).
  (* names *)
  assert (OPD : forall d', In d' (op_nodes (order2 g2)) -> exists d op li' i', needed ps outs d /\ d' = f d /\ In op mops /\ mo_ph op = d /\
     nth_error (es_info es_b) i' = Some li' /\ li_name li' = op_name (es_info es') op /\ exists s args, nth_error (es_ph es_b) d' = Some (mkPh s (Some (i', args)))).
  { intros d' H. apply (in_op_needed es_b _ _ g2 (order2 g2) BG2 T2) in H. destruct H as (Nd' & args' & Ca'). apply NC in Nd'. destruct Nd' as (d & Nd & ->).
    destruct (call_copy_inv _ _ _ _ _ _ CP needed_valid d args' Nd Ca') as (args & Ca & ->).
    assert (Hop : In d (map mo_ph mops)) by (rewrite <- EM; apply (mf_call _ _ _ _ M d Nd); eauto). apply in_map_iff in Hop. destruct Hop as (op & Eop & Hop).
    destruct (INF op Hop) as (s & ag & Hs). rewrite Eop in Hs. destruct (cp_call _ _ _ _ _ _ CP d s (mo_info op) ag Nd Hs) as (i' & li & li' & H1 & H2 & H3 & (H4 & _) & _).
    exists d, op, li', i'. split; [exact Nd|]. split; [reflexivity|]. split; [exact Hop|]. split; [exact Eop|]. split; [exact H3|]. split; [|eauto].
    rewrite <- H4. unfold op_name, info_at. rewrite (nth_error_nth _ _ _ H2). reflexivity. }
  assert (UL : forall d', In d' (op_nodes (order2 g2)) -> exists d op, d' = f d /\ In op mops /\ mo_ph op = d /\
     name_in es_b (match nth_error (es_ph es_b) d' with Some (mkPh _ (Some (i, _))) => i | _ => 0 end) = op_name (es_info es') op).
  { intros d' H. destruct (OPD d' H) as (d & op & li' & i' & _ & E1 & E2 & E3 & E4 & E5 & s & args & E6). exists d, op. split; [exact E1|]. split; [exact E2|]. split; [exact E3|].
    rewrite E6. unfold name_in. rewrite E4. exact E5. }
  assert (NN : forall op, In op mops -> op_name (es_info es') op <> "").
  { intros op Ho. destruct (layer_names es order ins outs g BU VO BG TO es' m CM) as (_ & FN & _). rewrite Forall_forall in FN. apply FN. rewrite <- NW. apply in_map, Ho. }
  assert (UN : NoDup (map (name_in es_b) (used_layers es_b (order2 g2)))).
  { unfold used_layers. rewrite map_map. apply nodup_map_on; [apply op_nodes_NoDup, T2|]. intros a b Ha Hb E.
    destruct (UL a Ha) as (d1 & op1 & -> & I1 & P1 & Q1). destruct (UL b Hb) as (d2 & op2 & -> & I2 & P2 & Q2). rewrite Q1, Q2 in E.
    assert (op1 = op2) by (eapply (nodup_map_inj (op_name (es_info es'))); [rewrite NW; exact ND2|assumption..]). congruence. }
  assert (UE : forall i, In i (used_layers es_b (order2 g2)) -> name_in es_b i <> "").
  { intros i Hi. unfold used_layers in Hi. apply in_map_iff in Hi. destruct Hi as (d' & <- & Hd'). destruct (UL d' Hd') as (d & op & _ & Ho & _ & Q). rewrite Q. apply NN, Ho. }
  destruct (names_decide es_b order2 (map f (by_number m ins)) (map f (by_number m outs)) g2 BUB VO2 BG2 T2) as [DEC _].
  destruct DEC as (es3 & m2 & CM2). { rewrite intended_given by exact UE. split; [eapply NoDup_map_inv; exact UN|exact UN]. }
  destruct (model_facts es_b order2 _ _ g2 BUB VO2 BG2 T2 es3 m2 CM2) as (mops2 & _ & _ & EP2 & _ & _ & _ & _ & _ & RN2 & NF2 & _ & _ & _ & EI2' & EO2' & _).
  assert (E3 : es3 = es_b).
  { destruct es3 as [p3 i3], es_b as [pb ib]. cbn in EP2, NF2, RN2, UE. f_equal; [exact EP2|]. apply P_Model.nth_error_ext. intros j.
    destruct (nth_error ib j) as [li|] eqn:Ej.
    - rewrite (NF2 j li Ej). f_equal. unfold final_info. destruct (String.eqb_spec (li_name li) "") as [En|]; [|reflexivity].
      destruct (index_of j (used_layers (mkES pb ib) (order2 g2))) as [q| |] eqn:Q; try reflexivity. exfalso. apply index_of_Ok in Q. destruct Q as [Q _].
      apply (UE j (nth_error_In _ _ Q)). unfold name_in. cbn. rewrite Ej. exact En.
    - apply nth_error_None. apply nth_error_None in Ej. rewrite <- (Forall2_len _ _ _ RN2). exact Ej. }
  subst es3. exists es_b, m2, f. split; [|split; [exact CP|]].
  { unfold Build. rewrite EC in *. cbn [config_of c_ph c_in c_ops c_out] in *. change (es_ph es) with ps. rewrite BI.
    change (map (fun op => mkOI (op_name (es_info es') op) (li_type (info_at (es_info es') op)) (li_attrs (info_at (es_info es') op)) (map Z.of_nat (mo_in op)) (map Z.of_nat (mo_out op))) mops) with (map opi mops).
    rewrite BO, EI2, EO2. exact CM2. }
  split; [exact EI2'|]. split; [exact EO2'|]. split; [exact PI|]. split; [exact PO|]. rewrite EI2', EO2'. split; [|split; [|split]].
  - split; [exact BUB|]. split; [exact VO2|]. exists order2, g2, es_b. auto.
  - split; [|split; [|split; [|split]]].
    + apply nodup_map_on; [apply NoDup_filter, NDN|]. intros a b Ha Hb E. apply (cp_inj _ _ _ _ _ _ CP a b); [apply HN, LI, EIi, Ha|apply HN, LI, EIi, Hb|exact E].
    + apply nodup_map_on; [apply NoDup_filter, NDN|]. intros a b Ha Hb E. apply (cp_inj _ _ _ _ _ _ CP a b); [apply HN, LO, EOo, Ha|apply HN, LO, EOo, Hb|exact E].
    + intros d' H (args' & Ca'). apply in_map_iff in H. destruct H as (d & <- & H). apply EIi in H.
      destruct (call_copy_inv _ _ _ _ _ _ CP needed_valid d args' (proj1 (HN d) (LI d H)) Ca') as (args & Ca & _). apply (C1 d H). eauto.
    + intros d' H. apply in_map_iff in H. destruct H as (d & <- & H). apply EOo in H. destruct (C2 d H) as (args & Ca). exists (map f args).
      eapply call_copy; [exact CP|apply need_out, H|exact Ca].
    + intros d' H. apply NC in H. destruct H as (d & Nd & ->). destruct (C3 d Nd) as [(args & Ca)|X].
      * left. exists (map f args). eapply call_copy; eassumption.
      * right. apply in_map, EIi, X.
  - exact (s_pre _ _ _ _ _ _ _ S2).
  - exists g2. auto.
Qed.

Theorem rebuilt : exists es3 m2 f,
  Build order2 I (m_cfg m) es2 = RVal es3 m2 /\
  copied ps (es_info es') outs f (es_ph es3) (es_info es3) /\
  m_in m2 = map f (by_number m ins) /\ m_out m2 = map f (by_number m outs) /\
  Permutation (by_number m ins) ins /\ Permutation (by_number m outs) outs /\
  constructed es3 (m_in m2) (m_out m2) m2 /\ closed (es_ph es3) (m_in m2) (m_out m2) /\
  exists l1 l2, es_ph es3 = es_ph es2 ++ l1 /\ es_info es3 = es_info es2 ++ l2.
Proof. destruct rebuilt_here as (es3 & m2 & f & H). exists es3, m2, f. tauto. Qed.
End Rebuild.
