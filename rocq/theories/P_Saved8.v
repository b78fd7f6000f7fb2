(** Saved and loaded models: using a model changes no name and no shape. *)
From Coq Require Import Reals String Lia Permutation.
From Verif Require Import Base BaseFacts Sums M_Tensor M_Layers M_Kernels M_Optim M_Init M_Nn M_Graph M_Model M_Backend M_Train M_Saved S_Grad S_Fit S_Primed S_Nn S_Graph S_Run S_Build S_Train S_Plain S_Eval S_Saved
  P_Fit P_Optim P_Graph P_Graph2 P_Nn P_MakeLayer P_Model P_Model2 P_Run P_Fwd P_Fwd2 P_Load P_Run2 P_Train2 P_Train3 P_Plain P_Build3 P_Build4 P_Eval P_Eval2 Prop_Graph Prop_Model Prop_Run Prop_Build Prop_Plain Prop_Eval P_Saved P_Saved2 P_Saved3 P_Saved4 P_Saved5 P_Saved6 P_Saved7 S_Serial M_Serial.
Local Open Scope string_scope.
Open Scope nat_scope.
Local Open Scope list_scope.

Definition shape_at (infos : list linfo) (r : sref) : option (list nat) := match get_state infos r with Some t => Some (tsh t) | None => None end.
Lemma shapes_find {V} (sh : V -> list nat) (a b : list (string * V)) k : map (fun e => (fst e, sh (snd e))) a = map (fun e => (fst e, sh (snd e))) b ->
  match find_key a k with Some x => Some (sh x) | None => None end = match find_key b k with Some x => Some (sh x) | None => None end.
Proof.
  revert b. induction a as [|[k1 x1] t IH]; intros [|[k2 x2] t2] E; try discriminate E; [reflexivity|]. cbn in E. injection E as <- E1 E2. specialize (IH _ E2).
  unfold find_key in *. cbn [find fst snd]. destruct (String.eqb k1 k); [cbn; rewrite E1; reflexivity|]. exact IH.
Qed.
Lemma same_tensors_shape infos infos' i li li' r : nth_error infos i = Some li -> nth_error infos' i = Some li' ->
  map (fun e => (fst e, tsh (p_data (snd e)))) (li_params li) = map (fun e => (fst e, tsh (p_data (snd e)))) (li_params li') ->
  map (fun e => (fst e, tsh (snd e))) (li_bufs li) = map (fun e => (fst e, tsh (snd e))) (li_bufs li') ->
  (exists k, r = SRParam i k \/ r = SRBuf i k) -> shape_at infos r = shape_at infos' r.
Proof.
  intros H H' EP EB (k & [->| ->]); unfold shape_at; cbn.
  - unfold get_par. cbn. rewrite H, H'. pose proof (shapes_find (fun p => tsh (p_data p)) _ _ k EP) as X. destruct (find_key (li_params li) k), (find_key (li_params li') k); exact X.
  - rewrite H, H'. exact (shapes_find tsh _ _ k EB).
Qed.
Definition view_shape (e : string * ten) : string * list nat := (fst e, tsh (snd e)).
Lemma view_shapes_gen m infos infos' : (forall key r, In (key, r) (m_state m) -> shape_at infos r = shape_at infos' r) ->
  map view_shape (state_view m infos) = map view_shape (state_view m infos').
Proof.
  unfold state_view. induction (m_state m) as [|[k r] t IH]; intros H; [reflexivity|]. cbn [flat_map fst snd]. rewrite !map_app. f_equal.
  - pose proof (H k r (or_introl eq_refl)) as X. unfold shape_at in X. destruct (get_state infos r), (get_state infos' r); try discriminate X; [|reflexivity]. injection X as X. cbn. unfold view_shape. cbn. rewrite X. reflexivity.
  - apply IH. intros key r' Hr. apply (H key r'). right. exact Hr.
Qed.
Lemma good_dict_shapes bits can m infos infos' : map view_shape (state_view m infos) = map view_shape (state_view m infos') ->
  good_dict can (dict_of bits m infos) -> good_dict can (dict_of bits m infos').
Proof.
  unfold dict_of. intros E (L & ND & F). split; [|split].
  - rewrite map_length in *. apply (f_equal (@length _)) in E. rewrite !map_length in E. rewrite <- E. exact L.
  - rewrite map_map in *. cbn in *. apply (f_equal (map fst)) in E. rewrite !map_map in E. cbn in E. rewrite <- E. exact ND.
  - clear L ND. revert E F. generalize (state_view m infos) (state_view m infos'). intros a b. revert b. induction a as [|x t IH]; intros [|y u] E F; try discriminate E; cbn; constructor.
    + cbn in E, F. injection E as E1 E2 _. inversion F as [|? ? G _]; subst. unfold good_entry in *. cbn in *. rewrite <- E1, <- E2. exact G.
    + cbn in E, F. injection E as _ _ E. inversion F; subst. apply IH; assumption.
Qed.

Section Use.
Variables (es es' : estore) (D : list made) (m : model) (order : graph -> list gnode) (ins outs : list nat) (g : graph).
Hypothesis PL : plain es D.
Hypothesis VO : Forall (fun d => d < length (es_ph es)) outs.
Hypothesis BG : build (es_ph es) ins outs = Ok g.
Hypothesis TO : is_topo g (order g).
Hypothesis CM : construct_model order ins outs es = RVal es' m.
Hypothesis RW : reached_well es D outs.
Variables (junk : nat -> R) (bo : option backend) (b0 : backend).
Hypothesis CB : model_compile (es_ph es) junk m (es_info es') bo = Ret (Some b0).
Variables (ran : bool) (infos : list linfo) (b : backend).
Hypothesis US : usable ran (es_ph es) outs m infos b.
Hypothesis RI : rig (es_info es') (Some b0) infos (Some b).

Lemma view_shapes : map view_shape (state_view m (es_info es')) = map view_shape (state_view m infos).
Proof.
  assert (BU : built es) by (apply (plain_plain_ok _ _ PL)). assert (CO : constructed es ins outs m) by (eapply trip_constructed; eassumption).
  destruct (compile_plain es D order ins outs g es' m junk bo PL VO BG TO CM RW) as (b0' & CB' & U0 & _). rewrite CB in CB'. injection CB' as <-.
  destruct (state_keys es order ins outs g BU VO BG TO es' m CM) as (_ & ND & _ & _ & _ & C).
  apply view_shapes_gen. intros key r H. apply in_find in H; [|exact ND]. destruct (C key r H) as (op & li0 & k & Ho & _ & _ & R).
  destruct (op_info _ _ _ _ _ CO Ho) as (s & args & Hd). pose proof (constructed_mfacts _ _ _ _ CO) as MF.
  destruct (mf_op _ _ _ _ MF op Ho) as (args' & k' & ids & i0 & N & _).
  destruct (trip_layer es es' D m order ins outs g PL VO BG TO CM RW junk bo b0 CB ran infos b US RI _ s _ args N Hd) as (x & li & L0 & L & Hx & Hli & P & LD & E1 & E2 & Fx & Mx & K & SK & FL).
  destruct (trip_layer es es' D m order ins outs g PL VO BG TO CM RW junk bo b0 CB false (es_info es') b0 U0 (rig_refl _ _) _ s _ args N Hd) as (x' & li' & L0' & L' & Hx' & Hli' & P' & LD' & E1' & E2' & Fx' & Mx' & K' & SK' & FL').
  rewrite Hx in Hx'. injection Hx' as <-.
  destruct (shapes_kept _ _ _ _ _ _ _ _ Mx K LD SK FL) as ((_ & ST1 & ST2) & _). destruct (shapes_kept _ _ _ _ _ _ _ _ Mx' K' LD' SK' FL') as ((_ & ST1' & ST2') & _).
  apply (same_tensors_shape _ _ (mo_info op) li' li); [assumption|assumption| | |exists k; destruct R as [(-> & _)|(-> & _)]; auto].
  - rewrite ST1, ST1'. reflexivity.
  - rewrite ST2, ST2'. reflexivity.
Qed.
Lemma view_twf : Forall (fun e => twf (snd e)) (state_view m infos).
Proof.
  assert (BU : built es) by (apply (plain_plain_ok _ _ PL)). assert (CO : constructed es ins outs m) by (eapply trip_constructed; eassumption).
  destruct (state_keys es order ins outs g BU VO BG TO es' m CM) as (_ & ND & _ & _ & _ & C).
  apply Forall_forall. intros (key & t) H. unfold state_view in H. apply in_flat_map in H. destruct H as ((key' & r) & H & HG). cbn [fst snd] in *.
  apply in_find in H; [|exact ND]. destruct (C key' r H) as (op & li0 & k & Ho & _ & _ & R).
  destruct (op_info _ _ _ _ _ CO Ho) as (s & args & Hd). pose proof (constructed_mfacts _ _ _ _ CO) as MF.
  destruct (mf_op _ _ _ _ MF op Ho) as (args' & k' & ids & i0 & N & _).
  destruct (trip_layer es es' D m order ins outs g PL VO BG TO CM RW junk bo b0 CB ran infos b US RI _ s _ args N Hd) as (x & li & L0 & L & Hx & Hli & P & LD & E1 & E2 & Fx & Mx & K & SK & FL).
  destruct (shapes_kept _ _ _ _ _ _ _ _ Mx K LD SK FL) as (_ & (SP & SB)).
  destruct (get_state infos r) as [t'|] eqn:G; [|destruct HG]. destruct HG as [HG|[]]. injection HG as _ <-. destruct R as [(-> & _)|(-> & _)]; cbn in G.
  - unfold get_par in G. cbn in G. rewrite Hli in G. destruct (find_key (li_params li) k) as [p|] eqn:F; [|discriminate]. injection G as <-. apply find_some_in in F. destruct (SP k p F) as (_ & W & _). exact W.
  - rewrite Hli in G. apply find_some_in in G. apply (SB k t' G).
Qed.
End Use.

(** Some encoding represents any given numbers. *)
Fixpoint index_of (l : list R) (x : R) : nat := match l with [] => 0 | y :: t => if Req_EM_T y x then 0 else S (index_of t x) end.
Lemma index_of_ok l x : In x l -> index_of l x < length l /\ nth (index_of l x) l 0%R = x.
Proof.
  induction l as [|y t IH]; [intros []|]. cbn. destruct (Req_EM_T y x) as [->|N]; [intros _; split; [lia|reflexivity]|]. intros [H|H]; [contradiction|]. destruct (IH H). split; [lia|assumption].
Qed.
Lemma codec_exists (l : list R) : (Z.of_nat (length l) <= 2 ^ 32)%Z -> exists bits value, Forall (exact bits value) l.
Proof.
  intros H. exists (fun x => Z.of_nat (index_of l x) mod 2 ^ 32)%Z, (fun z => nth (Z.to_nat z) l 0%R). apply Forall_forall. intros x Hx. destruct (index_of_ok l x Hx) as (A & B).
  unfold exact, word32. rewrite Z.mod_small by lia. rewrite Nat2Z.id. split; [lia|exact B].
Qed.
Lemma good_cfg_bits bits bits' can c : good_cfg can (cfg_map bits c) -> Forall (fun x => word32 (bits' x)) (flat_map (fun o => flat_map (fun e => attr_floats (snd e)) (oi_attrs o)) (c_ops c)) ->
  good_cfg can (cfg_map bits' c).
Proof.
  intros (A1 & A2 & A3 & A4 & A5 & A6 & A7) F. cbn [cfg_map c_in c_out c_ph c_ops] in *. do 5 (split; [assumption|]). split; [cbn [cfg_map c_ops]; rewrite map_length in *; exact A6|]. clear A1 A2 A3 A4 A5 A6. cbn [cfg_map c_ops].
  induction (c_ops c) as [|o t IH]; cbn; [constructor|]. cbn in A7, F. apply Forall_app in F. destruct F as (F1 & F2). inversion A7 as [|? ? G A7']; subst. constructor; [|auto]. clear IH A7 A7' F2 t.
  destruct G as (B1 & B2 & B3 & B4 & B5 & B6 & B7). unfold good_op. cbn [op_map oi_name oi_type oi_in oi_out oi_attrs] in *. do 4 (split; [assumption|]). rewrite map_length in *. rewrite map_map in *. cbn in *. split; [assumption|]. split; [assumption|].
  clear B1 B2 B3 B4 B5 B6. cbn [op_map oi_attrs]. induction (oi_attrs o) as [|[k a] t IH]; cbn; [constructor|]. cbn in B7, F1. apply Forall_app in F1. destruct F1 as (F1 & F2). inversion B7 as [|? ? (C1 & C2) B7']; subst. constructor; [|auto].
  cbn in *. split; [exact C1|]. destruct a; cbn in *; try assumption; [inversion F1; assumption|]. inversion F1 as [|? ? X Y]; subst. inversion Y; subst. auto.
Qed.
