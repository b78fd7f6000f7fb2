(** Saved and loaded models: the sample programs in mode "test". *)
From Coq Require Import Reals String Lia Lra Permutation.
From Verif Require Import Base BaseFacts Sums M_Tensor M_Layers M_Kernels M_Optim M_Init M_Nn M_Graph M_Model M_Backend M_Train M_Saved S_Grad S_Fit S_Primed S_Nn S_Graph S_Run S_Build S_Train S_Plain S_Eval S_Saved
  P_Fit P_Optim P_Graph P_Graph2 P_Nn P_MakeLayer P_Model P_Model2 P_Run P_Fwd P_Fwd2 P_Load P_Run2 P_Train2 P_Train3 P_Plain P_Build3 P_Build4 P_Eval P_Eval2 Prop_Graph Prop_Model Prop_Run Prop_Build Prop_Plain Prop_Eval P_Saved P_Saved2 P_Saved3 P_Saved4 P_Saved5 P_Saved6 P_Saved7 S_Serial M_Serial P_Saved8
  M_Loss S_Loss M_DataLoader S_DataLoader M_Sample S_Desc S_Sample S_Saved2 P_Tensor P_DataLoader P_Loss P_Desc P_Sample P_Sample2 Prop_Loss Prop_Desc Prop_Train Prop_Sample.
Local Open Scope string_scope.
Open Scope nat_scope.
Local Open Scope list_scope.


(** ** Training keeps the rig *)
Definition loop_rig (s s' : loop) : Prop := rig (ts_info (l_ts s)) (ts_backend (l_ts s)) (ts_info (l_ts s')) (ts_backend (l_ts s')).
Lemma iteration_rig m E E2 EL X y s s' v : train_iteration m E E2 EL X y s = Ret (Some (s', v)) -> loop_rig s s'.
Proof.
  unfold train_iteration, loop_rig. intros H.
  destruct (model_forward E m (ts_info (l_ts s)) (ts_backend (l_ts s)) [X] [l_pred s]) as [[[[i1 b1] ?] [|p [|]]]|?|] eqn:F; try discriminate.
  destruct (ce_forward EL (l_crit s) p y) as [[crit loss]| |]; try discriminate. destruct (ce_backward p y (l_grad s)) as [g| |]; try discriminate. destruct (finite g) as [gd|]; try discriminate.
  destruct (model_backward E2 m i1 b1 [X] [p] [set_dat (l_grad s) gd]) as [[[i2 b2] [|q [|]]]|?|] eqn:B; try discriminate.
  destruct (model_step (ts_opt (l_ts s)) m i2) as [[i3 o]|?|] eqn:S; try discriminate. injection H as <- _. cbn.
  eapply rig_trans; [eapply forward_rig, F|]. eapply rig_trans; [eapply backward_rig, B|]. eapply step_rig, S.
Qed.

Section Rig.
Context {D1 D2 G : Type}.
Variables (next : G -> Z -> Z * G) (ord : list Z -> list Z) (fuel turns : nat) (world : nat -> outside) (m : model) (batch_size freq : Z).
Variables (ds1 : dataset R D1) (ds2 : dataset R D2).
Lemma train_while_rig : forall k loss it (s s' : @vars D1 D2 G) l i, train_while next ord fuel world m batch_size freq ds1 k loss it s = FDone (s', l, i) -> loop_rig (v_loop s) (v_loop s').
Proof.
  induction k as [|k IH]; intros loss it s s' l i H; cbn [train_while] in H; [discriminate|].
  destruct (pull _ _ _ _ _ _ _ _ _ _ _) as [[|] l' X y|? ? ?| |]; try discriminate.
  - destruct (train_iteration _ _ _ _ _ _ _) as [[[lp v]|]|?|] eqn:T; try discriminate. cbn zeta in H. destruct (negb _); try discriminate. destruct (freq =? 0)%Z; try discriminate.
    apply IH in H. unfold loop_rig in *. eapply rig_trans; [apply (iteration_rig _ _ _ _ _ _ _ _ _ T)|]. destruct (Z.rem _ _ =? 0)%Z; exact H.
  - injection H as <- _ _. apply rig_refl.
Qed.
Lemma val_while_rig : forall k acc it (s s' : @vars D1 D2 G) l i, val_while next ord fuel world m batch_size ds2 k acc it s = FDone (s', l, i) -> loop_rig (v_loop s) (v_loop s').
Proof.
  induction k as [|k IH]; intros acc it s s' l i H; cbn [val_while] in H; [discriminate|].
  destruct (pull _ _ _ _ _ _ _ _ _ _ _) as [[|] l' X y|? ? ?| |]; try discriminate.
  - cbn zeta in H. destruct (model_forward _ _ _ _ _ _) as [[[[i1 b1] ?] [|p [|]]]|?|] eqn:F; try discriminate. destruct (accuracy _ _ _) as [a| |]; try discriminate.
    apply IH in H. unfold loop_rig in *. cbn in H. eapply rig_trans; [eapply forward_rig, F|exact H].
  - injection H as <- _ _. apply rig_refl.
Qed.
Lemma epoch_rig e (s s' : @vars D1 D2 G) : epoch next ord fuel turns world m batch_size freq ds1 ds2 e s = FDone s' -> loop_rig (v_loop s) (v_loop s').
Proof.
  unfold epoch, validate. intros H. destruct (train_while _ _ _ _ _ _ _ _ _ _ _ _) as [[[s1 l] i]| | | |] eqn:T; try discriminate. cbn [fbind] in H.
  destruct (val_while _ _ _ _ _ _ _ _ _ _ _) as [[[s2 l2] i2]| | | |] eqn:V; try discriminate. cbn [fbind] in H. injection H as <-.
  apply train_while_rig in T. apply val_while_rig in V. unfold loop_rig in *. cbn in T, V |- *. eapply rig_trans; [eapply rig_trans; [apply train_rig|exact T]|]. eapply rig_trans; [apply train_rig|exact V].
Qed.
Lemma epochs_rig : forall k e (s s' : @vars D1 D2 G), epochs next ord fuel turns world m batch_size freq ds1 ds2 k e s = FDone s' -> loop_rig (v_loop s) (v_loop s').
Proof.
  induction k as [|k IH]; intros e s s' H; cbn [epochs] in H; [injection H as <-; apply rig_refl|]. destruct (epoch _ _ _ _ _ _ _ _ _ _ _ _) as [s1| | | |] eqn:E; try discriminate. cbn [fbind] in H.
  apply epoch_rig in E. apply IH in H. unfold loop_rig in *. eapply rig_trans; eassumption.
Qed.
End Rig.

(** ** A loaded model in evaluation mode *)
Lemma loaded_predicts es ins outs m ran infos b n es3 m2 infos2 b2 f :
  constructed es ins outs m -> closed (es_ph es) ins outs -> usable ran (es_ph es) outs m infos b -> eval_mode (es_ph es) outs m infos b ->
  copied (es_ph es) infos outs f (es_ph es3) infos2 -> m_in m2 = map f (by_number m ins) -> m_out m2 = map f (by_number m outs) ->
  Permutation (by_number m ins) ins -> Permutation (by_number m outs) outs ->
  constructed es3 (m_in m2) (m_out m2) m2 -> closed (es_ph es3) (m_in m2) (m_out m2) -> usable false (es_ph es3) (m_out m2) m2 infos2 b2 ->
  (forall d L L', needed (es_ph es) outs d -> produces m infos b d L -> produces m2 infos2 b2 (f d) L' -> same_kind L L' /\ same_weights L L') ->
  (forall d, needed (es_ph es) outs d -> exists rest, dims (es_ph es) d = n :: rest) ->
  usable false (es_ph es3) (m_out m2) m2 (model_train false m2 infos2) b2 /\ eval_mode (es_ph es3) (m_out m2) m2 (model_train false m2 infos2) b2 /\
  forall (E E2 : nat -> env) (X : nat -> ten) (os os2 : list ten),
  (forall d, fair (E d)) -> (forall d, fair (E2 d)) -> (forall d, In d ins -> ten_ok (dims (es_ph es) d) (X d)) ->
  shaped (es_ph es) outs os -> shaped (es_ph es3) (m_out m2) os2 ->
  exists V b1 b3, model_forward E m infos (Some b) (map X ins) os = Ret (infos, Some b1, map X ins, map V outs) /\
    model_forward E2 m2 (model_train false m2 infos2) (Some b2) (map X (by_number m ins)) os2 = Ret (model_train false m2 infos2, Some b3, map X (by_number m ins), map V (by_number m outs)).
Proof.
  intros CO CL US EM CP EI EO PI PO C2 CL2 US2 WT BT.
  pose proof (constructed_mfacts _ _ _ _ CO) as MF. pose proof (constructed_mfacts _ _ _ _ C2) as MF2.
  destruct (C56_train_false_is_evaluation_mode es3 _ _ m2 _ infos2 b2 C2 US2) as (UB & EB). split; [exact UB|]. split; [exact EB|].
  intros E E2 X os os2 FE FE2 TX SO SO2.
  assert (VN : forall d, needed (es_ph es) outs d -> d < length (es_ph es)) by (intros d; apply (valid_needed es ins outs m CO)).
  assert (EOo : forall d, In d (by_number m outs) <-> In d outs).
  { intros d. split; intros H; [eapply Permutation_in; [exact PO|exact H]|eapply Permutation_in; [apply Permutation_sym, PO|exact H]]. }
  assert (EIi : forall d, In d (by_number m ins) <-> In d ins).
  { intros d. split; intros H; [eapply Permutation_in; [exact PI|exact H]|eapply Permutation_in; [apply Permutation_sym, PI|exact H]]. }
  assert (NI : forall d, In d ins -> needed (es_ph es) outs d).
  { intros d Hd. apply EIi in Hd. unfold by_number in Hd. apply filter_In in Hd. apply (mf_data _ _ _ _ MF), Hd. }
  rewrite EI in C2, CL2. rewrite EO in C2, CL2, UB, EB, SO2.
  apply (twins_predict es ins outs m _ infos b n es3 (by_number m ins) (by_number m outs) m2 _ (model_train false m2 infos2) b2 f CO CL US EM C2 CL2 UB EB); try assumption.
  split.
  + intros d Nd. destruct (BT d Nd) as (rest & Ed). exists rest. split; [exact Ed|]. rewrite (dims_copy _ _ _ _ _ _ CP VN d Nd). exact Ed.
  + intros d args Nd C. split; [|eapply call_copy; eassumption]. apply (needed_copy (es_ph es) (es_ph es3) infos infos2 outs (by_number m outs) f CP EOo VN). eauto.
  + intros d L L' Nd P P'.
    assert (HC : exists args, call (es_ph es) d args).
    { pose proof P as (j & op & L0 & li & O1 & <- & _). destruct (op_info _ _ _ _ _ CO (nth_error_In _ _ O1)) as (s & args & Hd). exists args, s, (mo_info op). exact Hd. }
    destruct HC as (args & HC).
    assert (N2 : needed (es_ph es3) (m_out m2) (f d)) by (rewrite EO; apply (needed_copy (es_ph es) (es_ph es3) infos infos2 outs (by_number m outs) f CP EOo VN); eauto).
    assert (HC2 : call (es_ph es3) (f d) (map f args)) by (eapply call_copy; eassumption).
    destruct (usable_fits _ _ _ _ _ _ US2 (f d) (map f args) N2 HC2) as (L2 & P2 & _).
    destruct (WT d L L2 Nd P P2) as (_ & W). pose proof (train_weights _ _ _ _ _ _ _ _ _ _ MF2 P2 P') as W2.
    eapply same_weights_trans; [exact W|exact W2].
Qed.

Lemma filter_one (o : nat) l : NoDup l -> In o l -> filter (fun d => existsb (Nat.eqb d) [o]) l = [o].
Proof.
  assert (Z : forall l, ~ In o l -> filter (fun d => existsb (Nat.eqb d) [o]) l = []).
  { induction l0 as [|a t IH]; intros N; [reflexivity|]. cbn. destruct (Nat.eqb_spec a o) as [->|X]; [destruct N; left; reflexivity|]. cbn. apply IH. intros H. apply N. right. exact H. }
  induction 1 as [|a t Ni ND IH]; intros H; [destruct H|]. cbn [filter existsb]. destruct (Nat.eqb_spec a o) as [->|X]; cbn [orb].
  - f_equal. apply Z, Ni.
  - destruct H as [->|H]; [contradiction|]. apply IH, H.
Qed.
Lemma by_number_one es i o m x : constructed es [i] [o] m -> needed (es_ph es) [o] x -> by_number m [x] = [x].
Proof. intros C N. pose proof (constructed_mfacts _ _ _ _ C) as MF. apply filter_one; [apply (mf_nodup _ _ _ _ MF)|apply (mf_data _ _ _ _ MF), N]. Qed.

Lemma share_unique k (P Q : nat -> Prop) v w : (forall j, j < k -> (P j <-> Q j)) -> share k P v -> share k Q w -> v = w.
Proof.
  intros H (r1 & N1 & I1 & ->) (r2 & N2 & I2 & ->). do 2 f_equal. apply Permutation_length, NoDup_Permutation; try assumption. intros j. rewrite I1, I2. split; intros (A & B); (split; [exact A|]); apply H; assumption.
Qed.

(** The last epoch of a run. *)
Lemma last_epoch {D1 D2} m n c rest (ds1 : dataset R D1) item1 (ds2 : dataset R D2) item2 label2 freq k i s s' out :
  training_run m n c rest ds1 item1 ds2 item2 label2 freq k i s s' out -> k <> 0 ->
  exists before s1 losses acc, out = (before ++ [Accuracy acc])%list /\ epoch_run m n c rest ds1 item1 ds2 item2 label2 s1 s' losses acc.
Proof.
  induction 1 as [|k i s s1 s2 losses acc out ER TR IH]; intros K; [destruct K; reflexivity|]. destruct k as [|k].
  - inversion TR; subst. exists (Epoch i :: flat_map (fun t => if (Z.of_nat (t * n) mod freq =? 0)%Z then [Loss (mean (firstn t losses))] else []) (seq 1 (length losses)) ++ [Loss (mean losses)])%list, s, losses, acc.
    split; [|exact ER]. unfold epoch_lines. rewrite app_nil_r. cbn [app]. rewrite <- app_assoc. reflexivity.
  - destruct IH as (before & s3 & l3 & acc3 & -> & ER3); [discriminate|]. exists (epoch_lines i n freq losses acc ++ before)%list, s3, l3, acc3. split; [apply app_assoc|exact ER3].
Qed.

Section Test.
Context {D1 D2 G : Type}.
Variables (next : G -> Z -> Z * G) (iter_order : list Z -> list Z) (fuel turns : nat) (world : nat -> outside).
Variables (order : graph -> list gnode) (net : Z -> prog (nat * nat)) (make_opt : pmap -> optimizer).
Variables (n c : nat) (rest : list nat) (t : list row) (I : nat -> ienv).
Variables (num_epochs freq : Z) (train_set : dataset R D1) (item1 : Z -> list R * list R) (label1 : Z -> nat).
Variables (test_set : dataset R D2) (item2 : Z -> list R * list R) (label2 : Z -> nat) (junk : nat -> R) (d1 : D1) (d2 : D2) (g : G).
Hypothesis NET : net (Z.of_nat n) es0 = RVal (expression I (n :: rest) t) (0, length t).
Hypothesis CLS : classifier n c rest t.
Hypothesis SRT : sorts order.
Hypothesis OPT : new_optimizer make_opt.
Hypothesis CI : (Z.of_nat c <= int_max)%Z.
Hypothesis LA1 : labelled train_set n c rest item1 label1.
Hypothesis LA2 : labelled test_set n c rest item2 label2.
Hypothesis RNG : in_range next.
Hypothesis PRM : forall l, Permutation (iter_order l) l.
Hypothesis ENO : enough next fuel n (ds_size train_set).
Hypothesis T1 : full train_set n < turns.
Hypothesis T2 : full test_set n < turns.
Hypothesis FRQ : freq <> 0%Z.
Hypothesis HF : forall k d, fair (o_fwd (world k) d).
Hypothesis HA : forall k, is_argmax (e_amax (o_acc (world k))).
Hypothesis NE : (0 < num_epochs)%Z.
Notation es := (expression I (n :: rest) t).

Lemma test_main_runs : exists es' m infos s s' out,
  train_main next iter_order fuel turns world order net make_opt (Z.of_nat n) num_epochs freq train_set test_set junk d1 d2 g = FDone ((out ++ [Saved])%list, es', m, infos) /\
  training_run m n c rest train_set item1 test_set item2 label2 freq (Z.to_nat num_epochs) 0 s s' out /\ infos = ts_info (l_ts s') /\
  construct_model order [0] [length t] es = RVal es' m /\
  map (fun e => (fst e, tsh (snd e))) (state_view m infos) = map (fun e => (fst e, tsh (snd e))) (state_view m (es_info es')) /\
  Forall (fun e => length (tdat (snd e)) = prodN (tsh (snd e))) (state_view m infos) /\
  (forall bits value can, savable bits value can m (es_info es') -> Forall (exact bits value) (floats_of m infos) -> savable bits value can m infos) /\
  forall (bits : R -> Z) (value : Z -> R) (can : Z -> bool) (junk_bytes : bytes -> bytes) (iter_cfg : config Z -> config Z) (iter_dict : sdict -> sdict)
         (order2 : graph -> list gnode) (I2 : nat -> ienv) (make_opt2 : pmap -> optimizer) (junk2 : nat -> R) (d2' : D2) (g2 : G) (world2 : nat -> outside) (turns2 : nat),
  savable bits value can m infos -> (forall c, iterated c (iter_cfg c)) -> (forall d, Permutation d (iter_dict d)) -> sorts order2 ->
  (forall k d, fair (o_fwd (world2 k) d)) -> (forall k, is_argmax (e_amax (o_acc (world2 k)))) -> full test_set n < turns2 ->
  exists file acc scores,
    save_model bits iter_cfg iter_dict m infos = Ok file /\
    test_main bits value next iter_order fuel turns2 world2 can junk_bytes order2 I2 make_opt2 (Some file) (Z.of_nat n) test_set junk2 d2' g2 = FDone [Accuracy acc] /\
    predicts m n c rest test_set item2 infos (ts_backend (l_ts s')) scores /\ measured test_set n c label2 scores acc /\
    (decided (full test_set n * n) c scores -> exists before, out = (before ++ [Accuracy acc])%list).
Proof.
  destruct (program_start turns world order make_opt n c rest t I train_set test_set junk d1 d2 g CLS SRT OPT T1 T2 HF HA) as (es' & m & s & b0 & CO & CM & ST & EB0 & U0 & PREP & RD & N0 & C0 & PI).
  destruct (epochs_ok next iter_order fuel world es 0 (length t) m n c rest freq train_set item1 label1 test_set item2 label2 d2) with (turns := turns) (k := Z.to_nat num_epochs) (e := 0)
    (s := mkVars s (mkTv [] []) (mkTv [] []) (mkLd 0 d1 g) (mkLd 0 d2 g) 0 ([] : list line)) as (sv & out & EP & RD' & TR & OUT & EVL); try assumption; auto.
  { intros L gg. destruct LA1 as (_ & (Z0 & _) & _). apply ENO. lia. }
  { apply table_closed with (c := c). exact CLS. }
  { apply table_dims_in. }
  { apply table_dims_out with (c := c). exact CLS. }
  { intros d N. eapply table_batch; [exact CLS|exact N]. }
  destruct RD' as (LO & _). destruct LO as (ran & infos & b' & opt & crit & P & Gr & EL & U' & SMb & _).
  exists es', m, infos, s, (v_loop sv), out. split; [|split; [exact TR|split; [rewrite EL; reflexivity|]]].
  { unfold train_main, p_model, pbind. rewrite NET. cbn [fst snd]. rewrite CO, PREP. cbn [fbind]. rewrite EP. cbn [fbind print v_out]. rewrite OUT. cbn [app v_out]. rewrite EL. reflexivity. }
  pose proof (table_plain I n c rest t CLS) as PL. set (o := length t) in *.
  assert (VO : Forall (fun d => d < length (es_ph es)) [o]) by (constructor; [rewrite expression_len; unfold o; lia|constructor]).
  pose proof (table_closed I n c rest t CLS) as CL. pose proof (table_dims_out I n c rest t CLS) as DO. pose proof (table_dims_in I n rest t) as DI.
  assert (BT : forall d, needed (es_ph es) [o] d -> exists sh, dims (es_ph es) d = n :: sh) by (intros d N; eapply table_batch; [exact CLS|exact N]).
  pose proof CM as (_ & _ & ord & gr & esx & BG & TOx & _). pose proof (SRT gr (ex_intro _ _ TOx)) as TO. clear TOx esx ord.
  assert (RW : reached_well es (lines (fun j r => mkMade (I j) (r_layer r) (r_in r) (r_out r)) t) [o]).
  { intros d s0 i args N _. left. exact (table_once I n c rest t CLS d N). }
  pose proof (constructed_mfacts _ _ _ _ CM) as MF.
  assert (NO : needed (es_ph es) [o] o) by (apply need_out; left; reflexivity).
  assert (NI : needed (es_ph es) [o] 0) by (apply (mf_needed_in _ _ _ _ MF); left; reflexivity).
  pose proof (by_number_one _ _ _ _ _ CM NO) as BO. pose proof (by_number_one _ _ _ _ _ CM NI) as BI.
  destruct (compile_plain es _ order [0] [o] gr es' m junk None PL VO BG TO CO RW) as (b0' & CB & _).
  pose proof (construct_ph _ _ _ _ _ _ CO) as PH. pose proof ST as (bs & Ps & Es & _).
  assert (EB : b0' = b0).
  { unfold prepare in PREP. rewrite PH, CB in PREP. destruct (bind _ _) as [tt0| |] in PREP; try discriminate PREP. injection PREP as <-. cbn in EB0. congruence. }
  subst b0'.
  assert (RI : rig (es_info es') (Some b0) infos (Some b')).
  { pose proof (epochs_rig _ _ _ _ _ _ _ _ _ _ _ _ _ _ EP) as RG. unfold loop_rig in RG. cbn [v_loop] in RG. rewrite EL, EB0 in RG. cbn [l_ts ts_info ts_backend] in RG. rewrite Es in RG. exact RG. }
  pose proof (view_shapes es es' _ m order [0] [o] gr PL VO BG TO CO RW junk None b0 CB _ infos b' U' RI) as VS.
  split; [exact CO|]. split; [symmetry; exact VS|]. split; [exact (view_twf es es' _ m order [0] [o] gr PL VO BG TO CO RW junk None b0 CB _ infos b' U' RI)|].
  split; [intros bits value can (_ & GC & GD) F; split; [exact F|]; split; [exact GC|]; eapply good_dict_shapes; eassumption|].
  intros bits value can junk_bytes iter_cfg iter_dict order2 I2 make_opt2 junk2 d2' g2 world2 turns2 SV IC ID SR2 HF2 HA2 T2'.
  assert (RW2 : reached_well es (lines (fun j r => mkMade (I j) (r_layer r) (r_in r) (r_out r)) t) (by_number m [o])) by (rewrite BO; exact RW).
  destruct (trip es es' _ m order [0] [o] gr PL VO BG TO CO RW CL junk None b0 CB ran infos b' U' RI RW2 order2 I2 es0 SR2 (ltac:(constructor)) bits value can junk_bytes SV iter_cfg iter_dict IC ID junk2 None)
    as (file & es3 & m2 & infos2 & b2 & f & SA & LD & CP & EI & EO & PI' & PO' & C2 & CL2 & VIEW & CB2 & US2 & WT).
  destruct EVL as (bv & EBv & EM); [lia|]. rewrite EL in EBv, EM. cbn [l_ts ts_info ts_backend] in EBv, EM. injection EBv as <-.
  destruct (loaded_predicts es [0] [o] m ran infos b' n es3 m2 infos2 b2 f CM CL U' EM CP EI EO PI' PO' C2 CL2 US2 WT BT) as (UB & EMB & TW).
  rewrite BI, BO in *. cbn [map] in EI, EO. rewrite EI, EO in *.
  destruct (last_epoch _ _ _ _ _ _ _ _ _ _ _ _ _ _ _ TR ltac:(lia)) as (before & s1 & losses & acc0 & -> & ER).
  destruct ER as (_ & s4 & _ & _ & _ & _ & _ & _ & scores & best0 & PR & SC & AC0). rewrite EL in PR. cbn [l_ts ts_info ts_backend] in PR.
  assert (VN : forall d, needed (es_ph es) [o] d -> d < length (es_ph es)) by (intros d; apply (valid_needed es [0] [o] m CM)).
  assert (DI3 : dims (es_ph es3) (f 0) = n :: rest) by (rewrite (dims_copy _ _ _ _ _ _ CP VN 0 NI); exact DI).
  assert (DO3 : dims (es_ph es3) (f o) = [n; c]) by (rewrite (dims_copy _ _ _ _ _ _ CP VN o NO); exact DO).
  assert (DB3 : forall d, needed (es_ph es3) [f o] d -> exists sh, dims (es_ph es3) d = n :: sh).
  { intros d' N. apply (needed_copy (es_ph es) (es_ph es3) infos infos2 [o] [o] f CP ltac:(tauto) VN) in N. destruct N as (d & N & ->). rewrite (dims_copy _ _ _ _ _ _ CP VN d N). apply BT, N. }
  destruct (table_out I n c rest t CLS) as (r & HO & Hr & RO).
  destruct (cp_call _ _ _ _ _ _ CP o _ _ _ NO HO) as (i3 & li & li3 & H3 & _).
  assert (POr : proper [n; c]).
  { destruct (last_row I n c rest t CLS) as (r1 & Hr1 & _ & _ & RO1). destruct (cl_row _ _ _ _ CLS _ _ Hr1) as (_ & (_ & _ & PP & _) & _). rewrite RO1 in PP. exact PP. }
  set (P0 := mkT [n; c] (tab (prodN [n; c]) junk2)).
  assert (TP0 : ten_ok [n; c] P0) by (split; [reflexivity|unfold twf, tot, P0; cbn [tdat tsh]; apply tab_length]).
  assert (SM2 : ends_in_softmax m2 b2 (f o)).
  { destruct (softmax_produced es 0 o m n c CM CL DO ran infos b' U' SMb) as (args & Ca & PS & _).
    assert (N2 : needed (es_ph es3) [f o] (f o)) by (apply need_out; left; reflexivity).
    assert (Ca2 : call (es_ph es3) (f o) (map f args)) by (eapply call_copy; eassumption).
    destruct (usable_fits _ _ _ _ _ _ US2 (f o) (map f args) N2 Ca2) as (L2 & P2 & _). destruct (WT o _ _ NO PS P2) as (SK & _). destruct L2; cbn in SK; try contradiction.
    destruct P2 as (j & op & L0 & li0 & Q1 & Q2 & Q3 & Q4 & Q5). exists j, op. split; [exact Q1|]. split; [exact Q2|]. rewrite Q3. f_equal. destruct L0; cbn in Q5; inv_ok Q5; try discriminate Q5. reflexivity. }
  assert (PR2 : predicts m2 n c rest test_set item2 (model_train false m2 infos2) (Some b2) scores).
  { intros j E idx X y T rr J FE RG BOf R TT. destruct (PR j E idx X y T rr J FE RG BOf R TT) as (bo & p & E1 & TP1 & SS).
    assert (TX : ten_ok (n :: rest) X).
    { apply (batch_ten iter_order test_set n c rest item2 label2 N0 (conj C0 CI) LA2 PRM d2) with (idx := idx) (y := y); assumption. }
    destruct (TW E E (fun _ => X) [T] [T] FE FE) as (V & b1 & b3 & F1 & F2).
    - intros d [<-|[]]. rewrite DI. exact TX.
    - constructor; [exact (eq_ind_r (fun sh => ten_ok sh T) TT DO)|constructor].
    - constructor; [exact (eq_ind_r (fun sh => ten_ok sh T) TT DO3)|constructor].
    - cbn [map] in F1, F2. rewrite F1 in E1. injection E1 as <- <-. exists (Some b3), (V o). auto. }
  set (ds0 := mkDs 0 ([], []) (fun (d : unit) (_ : Z) (_ _ : list R) => (d, (([] : list R), ([] : list R)), true))).
  set (sv0 := mkVars (mkLoop (mkTS infos2 (Some b2) (make_opt2 (params_view m2 infos2))) (mkCE [] []) P0 P0) (mkTv [] []) (mkTv [] []) (mkLd 0 tt g2) (mkLd 0 d2' g2) 0 ([] : list line)).
  assert (PREP2 : prepare (es_ph es3) m2 infos2 make_opt2 junk2 tt d2' g2 = FDone sv0).
  { unfold prepare. rewrite CB2, EO. cbn [rd nth_error bind]. unfold rd. rewrite H3. cbn [bind ph_shape]. rewrite new_ten_proper by exact POr. reflexivity. }
  destruct (val_loop next iter_order fuel world2 es3 (f 0) (f o) m2 n c rest ds0 test_set item2 label2 d2 N0 (conj C0 CI) PI LA2 RNG PRM) with (scores := scores) (infos := model_train false m2 infos2)
    (opt := make_opt2 (params_view m2 infos2)) (crit := mkCE [] []) (Gr := P0) (todo := full test_set n) (k := turns2) (done := 0) (acc := 0%R) (best := fun _ : nat => 0) (ran := false) (b := b2) (P := P0) (s := set_mode m2 false sv0)
    as (s3 & acc & best & ran' & b3 & P3 & EV & VL & U3 & SM3 & TP3 & PR3 & MX & CT & SL3 & PV & VT & OV & EM3); try assumption; try reflexivity.
  { cbn. lia. }
  { intros j H. lia. }
  { exists []. split; [constructor|]. split; [intros j; cbn; lia|]. cbn. unfold Rdiv. lra. }
  { split; left; reflexivity. }
  change (Z.of_nat 0) with 0%Z in EV.
  exists file, (fdiv (Some acc) (Z.of_nat (full test_set n))), scores. split; [exact SA|]. split; [|split; [rewrite EL; exact PR|]].
  - unfold test_main. rewrite LD, PREP2. cbn [fbind]. unfold validate. rewrite EV. cbn [fbind print v_out]. rewrite OV. reflexivity.
  - assert (EN0 : n <= Z.to_nat (ds_size ds0) -> forall g : G, exists u : list Z, NoDup u /\ length u = n /\ incl u (draws next fuel (ds_size ds0 - 1) g)) by (cbn; lia).
    pose proof (counted_mean next fuel world2 es3 (f o) n c ds0 test_set label2 N0 (conj C0 CI) RNG EN0 HF2 HA2 DB3 best acc CT) as CMn. split.
    + unfold measured. destruct (full test_set n); [exact CMn|]. destruct CMn as (v & E1 & E2). exists best, v. auto.
    + intros DC. exists before. do 2 f_equal. f_equal. destruct (full test_set n) as [|k] eqn:FK; [congruence|]. destruct CMn as (v & E1 & E2). destruct AC0 as (B0 & v0 & -> & E0). rewrite E1. f_equal.
      refine (share_unique _ _ _ _ _ _ E0 E2). intros j Hj. cbn beta. rewrite (DC j (best0 j) (best j) Hj (B0 j Hj) (MX j Hj)). tauto.
Qed.
End Test.
