(** Saved and loaded models: predictions. *)
From Coq Require Import Reals String Lia Permutation.
From Verif Require Import Base BaseFacts Sums M_Tensor M_Layers M_Kernels M_Optim M_Init M_Nn M_Graph M_Model M_Backend M_Train M_Saved S_Grad S_Fit S_Primed S_Nn S_Graph S_Run S_Build S_Train S_Plain S_Eval S_Saved
  P_Fit P_Optim P_Graph P_Graph2 P_Nn P_MakeLayer P_Model P_Model2 P_Run P_Fwd P_Fwd2 P_Load P_Run2 P_Train2 P_Train3 P_Plain P_Build3 P_Build4 P_Eval P_Eval2 Prop_Graph Prop_Model Prop_Run Prop_Build Prop_Plain Prop_Eval P_Saved P_Saved2 P_Saved3 P_Saved4 P_Saved5 P_Saved6.
Local Open Scope string_scope.
Open Scope nat_scope.
Local Open Scope list_scope.

Lemma same_weights_trans L L1 L2 : same_weights L L1 -> same_weights L1 L2 -> same_weights L L2.
Proof. destruct L, L1; cbn; try tauto; destruct L2; cbn; try tauto; intuition congruence. Qed.
Lemma same_weights_sym L L1 : same_weights L L1 -> same_weights L1 L.
Proof. destruct L, L1; cbn; try tauto; intuition congruence. Qed.

(** Switching the mode leaves the weights. *)
Lemma train_weights ps ins outs m mode infos b d L L' : mfacts ps ins outs m -> produces m infos b d L -> produces m (model_train mode m infos) b d L' -> same_weights L L'.
Proof.
  intros MF (j & op & L0 & li & H1 & H2 & H3 & H4 & H5) (j' & op' & L0' & li' & H1' & H2' & H3' & H4' & H5').
  assert (X : j = j' /\ op = op') by (eapply op_at_unique; [exact MF|eassumption|eassumption|congruence]). destruct X as [<- <-]. rewrite H3 in H3'. injection H3' as <-.
  apply (weights_by_name L L' li li' L0 L0); [eapply same_kind_trans; [apply same_kind_sym, (load_kind _ _ _ H5)|exact (load_kind _ _ _ H5')]|assumption..| |].
  - intros k p p' Hp Hp'. pose proof (train_state mode m infos (SRParam (mo_info op) k)) as G. cbn in G. unfold get_par in G. cbn in G. rewrite H4, H4', Hp, Hp' in G. congruence.
  - intros k t t' Ht Ht'. pose proof (train_state mode m infos (SRBuf (mo_info op) k)) as G. cbn in G. rewrite H4, H4', Ht, Ht' in G. congruence.
Qed.

(** Two models of the same network, given the same tensors. *)
Lemma twins_predict es ins outs m ran infos b n es2 ins2 outs2 m2 ran2 infos2 b2 f :
  constructed es ins outs m -> closed (es_ph es) ins outs -> usable ran (es_ph es) outs m infos b -> eval_mode (es_ph es) outs m infos b ->
  constructed es2 (map f ins2) (map f outs2) m2 -> closed (es_ph es2) (map f ins2) (map f outs2) -> usable ran2 (es_ph es2) (map f outs2) m2 infos2 b2 -> eval_mode (es_ph es2) (map f outs2) m2 infos2 b2 ->
  same_network (es_ph es) outs n (produces m infos b) (es_ph es2) (map f outs2) n (produces m2 infos2 b2) f ->
  (forall d, In d ins2 <-> In d ins) -> (forall d, In d outs2 <-> In d outs) -> (forall d, In d ins -> needed (es_ph es) outs d) ->
  forall (E E2 : nat -> env) (X : nat -> ten) (os os2 : list ten),
  (forall d, fair (E d)) -> (forall d, fair (E2 d)) -> (forall d, In d ins -> ten_ok (dims (es_ph es) d) (X d)) ->
  shaped (es_ph es) outs os -> shaped (es_ph es2) (map f outs2) os2 ->
  exists V b1 b3, model_forward E m infos (Some b) (map X ins) os = Ret (infos, Some b1, map X ins, map V outs) /\
    model_forward E2 m2 infos2 (Some b2) (map X ins2) os2 = Ret (infos2, Some b3, map X ins2, map V outs2).
Proof.
  intros C CL U EM C2 CL2 U2 EM2 SN HI HO NI E E2 X os os2 FE FE2 TX SO SO2.
  destruct (constructed_parts _ _ _ _ C) as (MF & LB & VO & ND & RF). destruct (constructed_parts _ _ _ _ C2) as (MF2 & LB2 & VO2 & ND2 & RF2).
  assert (DS : forall d, needed (es_ph es) outs d -> dims (es_ph es2) (f d) = dims (es_ph es) d).
  { intros d N. destruct (sn_shape _ _ _ _ _ _ _ _ _ SN d N) as (rest & D1 & D2). congruence. }
  assert (SI : shaped (es_ph es) ins (map X ins)).
  { unfold shaped. clear -TX. induction ins as [|d t IH]; cbn; constructor; [apply TX; left; reflexivity|apply IH; intros; apply TX; right; assumption]. }
  assert (SI2 : shaped (es_ph es2) (map f ins2) (map X ins2)).
  { assert (T2 : forall d, In d ins2 -> ten_ok (dims (es_ph es2) (f d)) (X d)) by (intros d Hd; apply HI in Hd; rewrite DS by (apply NI, Hd); apply TX, Hd).
    clear -T2. unfold shaped. induction ins2 as [|d t IH]; cbn; constructor; [apply T2; left; reflexivity|apply IH; intros; apply T2; right; assumption]. }
  destruct (forward_pure _ _ _ _ MF CL LB VO RF ran E infos b _ os U EM FE SI SO) as (V & b1 & EV & VT & EF & _).
  destruct (forward_pure _ _ _ _ MF2 CL2 LB2 VO2 RF2 ran2 E2 infos2 b2 _ os2 U2 EM2 FE2 SI2 SO2) as (V2 & b3 & EV2 & VT2 & EF2 & _).
  exists V, b1, b3. split; [exact EF|]. rewrite EF2. do 2 f_equal. rewrite map_map. apply map_ext_in. intros d Hd. apply HO in Hd.
  pose proof (need_out (es_ph es) outs d Hd) as N. pose proof (VT d N) as T1.
  assert (N2 : needed (es_ph es2) (map f outs2) (f d)) by (apply need_out, in_map, HO, Hd). pose proof (VT2 _ N2) as T2. rewrite DS in T2 by exact N.
  destruct (sn_shape _ _ _ _ _ _ _ _ _ SN d N) as (rest & D1 & _). rewrite D1 in T1, T2. symmetry. apply (samples_eq n rest); [assumption..|]. intros r Hr.
  eapply (same_samples_gen _ _ _ _ _ _ _ _ MF MF2 CL LB n n f infos infos2 b b2 ran ran2 E E2 V V2); try eassumption.
  intros e He. destruct EV as [VI _]. destruct EV2 as [VI2 _].
  assert (Q1 : V e = X e) by (clear -VI He; induction ins as [|a t IH]; [destruct He|]; inversion VI as [|? ? ? ? Q VI']; subst; destruct He as [->|He]; auto).
  assert (Q2 : V2 (f e) = X e) by (apply HI in He; clear -VI2 He; induction ins2 as [|a t IH]; [destruct He|]; inversion VI2 as [|? ? ? ? Q VI']; subst; destruct He as [->|He]; auto).
  rewrite Q1, Q2. reflexivity.
Qed.
