(** Saved and loaded models: what a training program saves, tested on any machine and any data. *)
From Coq Require Import Reals String Lia Lra Permutation.
From Verif Require Import Base BaseFacts Sums M_Tensor M_Layers M_Kernels M_Optim M_Init M_Nn M_Graph M_Model M_Backend M_Train M_Saved S_Grad S_Fit S_Primed S_Nn S_Graph S_Run S_Build S_Train S_Plain S_Eval S_Saved
  P_Fit P_Optim P_Graph P_Graph2 P_Nn P_MakeLayer P_Model P_Model2 P_Run P_Fwd P_Fwd2 P_Load P_Run2 P_Train2 P_Train3 P_Plain P_Build3 P_Build4 P_Eval P_Eval2 Prop_Graph Prop_Model Prop_Run Prop_Build Prop_Plain Prop_Eval P_Saved P_Saved2 P_Saved3 P_Saved4 P_Saved5 P_Saved6 P_Saved7 S_Serial M_Serial P_Saved8
  M_Loss S_Loss M_DataLoader S_DataLoader M_Sample S_Desc S_Sample S_Saved2 P_Tensor P_DataLoader P_Loss P_Desc P_Sample P_Sample2 Prop_Loss Prop_Desc Prop_Train Prop_Sample P_Saved9.
Local Open Scope string_scope.
Open Scope nat_scope.
Local Open Scope list_scope.



Lemma loaded_twin es ins outs m ran infos b n es3 m2 infos2 b2 f :
  constructed es ins outs m -> closed (es_ph es) ins outs -> usable ran (es_ph es) outs m infos b ->
  copied (es_ph es) infos outs f (es_ph es3) infos2 -> m_in m2 = map f (by_number m ins) -> m_out m2 = map f (by_number m outs) ->
  Permutation (by_number m ins) ins -> Permutation (by_number m outs) outs ->
  constructed es3 (m_in m2) (m_out m2) m2 -> closed (es_ph es3) (m_in m2) (m_out m2) -> usable false (es_ph es3) (m_out m2) m2 infos2 b2 ->
  (forall d L L', needed (es_ph es) outs d -> produces m infos b d L -> produces m2 infos2 b2 (f d) L' -> same_kind L L' /\ same_weights L L') ->
  (forall d, needed (es_ph es) outs d -> exists rest, dims (es_ph es) d = n :: rest) ->
  usable ran (es_ph es) outs m (model_train false m infos) b /\ eval_mode (es_ph es) outs m (model_train false m infos) b /\
  usable false (es_ph es3) (m_out m2) m2 (model_train false m2 infos2) b2 /\ eval_mode (es_ph es3) (m_out m2) m2 (model_train false m2 infos2) b2 /\
  forall (E E2 : nat -> env) (X : nat -> ten) (os os2 : list ten),
  (forall d, fair (E d)) -> (forall d, fair (E2 d)) -> (forall d, In d ins -> ten_ok (dims (es_ph es) d) (X d)) ->
  shaped (es_ph es) outs os -> shaped (es_ph es3) (m_out m2) os2 ->
  exists V b1 b3, model_forward E m (model_train false m infos) (Some b) (map X ins) os = Ret (model_train false m infos, Some b1, map X ins, map V outs) /\
    model_forward E2 m2 (model_train false m2 infos2) (Some b2) (map X (by_number m ins)) os2 = Ret (model_train false m2 infos2, Some b3, map X (by_number m ins), map V (by_number m outs)).
Proof.
  intros CO CL US CP EI EO PI PO C2 CL2 US2 WT BT.
  pose proof (constructed_mfacts _ _ _ _ CO) as MF. pose proof (constructed_mfacts _ _ _ _ C2) as MF2.
  destruct (C56_train_false_is_evaluation_mode es ins outs m _ infos b CO US) as (UA & EA).
  destruct (C56_train_false_is_evaluation_mode es3 _ _ m2 _ infos2 b2 C2 US2) as (UB & EB). split; [exact UA|]. split; [exact EA|]. split; [exact UB|]. split; [exact EB|].
  intros E E2 X os os2 FE FE2 TX SO SO2.
  assert (VN : forall d, needed (es_ph es) outs d -> d < length (es_ph es)) by (intros d; apply (valid_needed es ins outs m CO)).
  assert (EOo : forall d, In d (by_number m outs) <-> In d outs).
  { intros d. split; intros H; [eapply Permutation_in; [exact PO|exact H]|eapply Permutation_in; [apply Permutation_sym, PO|exact H]]. }
  assert (EIi : forall d, In d (by_number m ins) <-> In d ins).
  { intros d. split; intros H; [eapply Permutation_in; [exact PI|exact H]|eapply Permutation_in; [apply Permutation_sym, PI|exact H]]. }
  assert (NI : forall d, In d ins -> needed (es_ph es) outs d).
  { intros d Hd. apply EIi in Hd. unfold by_number in Hd. apply filter_In in Hd. apply (mf_data _ _ _ _ MF), Hd. }
  rewrite EI in C2, CL2. rewrite EO in C2, CL2, UB, EB, SO2.
  apply (twins_predict es ins outs m _ (model_train false m infos) b n es3 (by_number m ins) (by_number m outs) m2 _ (model_train false m2 infos2) b2 f CO CL UA EA C2 CL2 UB EB); try assumption.
  split.
  + intros d Nd. destruct (BT d Nd) as (rest & Ed). exists rest. split; [exact Ed|]. rewrite (dims_copy _ _ _ _ _ _ CP VN d Nd). exact Ed.
  + intros d args Nd C. split; [|eapply call_copy; eassumption]. apply (needed_copy (es_ph es) (es_ph es3) infos infos2 outs (by_number m outs) f CP EOo VN). eauto.
  + intros d L L' Nd P P'.
    assert (HC : exists args, call (es_ph es) d args).
    { pose proof P as (j & op & L0 & li & O1 & <- & _). destruct (op_info _ _ _ _ _ CO (nth_error_In _ _ O1)) as (s & args & Hd). exists args, s, (mo_info op). exact Hd. }
    destruct HC as (args & HC).
    destruct (usable_fits _ _ _ _ _ _ US d args Nd HC) as (L1 & P1 & _).
    assert (N2 : needed (es_ph es3) (m_out m2) (f d)) by (rewrite EO; apply (needed_copy (es_ph es) (es_ph es3) infos infos2 outs (by_number m outs) f CP EOo VN); eauto).
    assert (HC2 : call (es_ph es3) (f d) (map f args)) by (eapply call_copy; eassumption).
    destruct (usable_fits _ _ _ _ _ _ US2 (f d) (map f args) N2 HC2) as (L2 & P2 & _).
    destruct (WT d L1 L2 Nd P1 P2) as (_ & W). pose proof (train_weights _ _ _ _ _ _ _ _ _ _ MF2 P2 P') as W2. pose proof (train_weights _ _ _ _ _ _ _ _ _ _ MF P1 P) as W1.
    eapply same_weights_trans; [apply same_weights_sym, W1|]. eapply same_weights_trans; [exact W|exact W2].
Qed.

(** The state of a test program after loading: the network of table [t], in evaluation mode below, ready to be used. *)
Definition loaded_as {D G : Type} (I : nat -> ienv) (n c : nat) (rest : list nat) (t : list row) (make_opt : pmap -> optimizer) (junk : nat -> R) (d2 : D) (g : G)
    (es3 : estore) (m2 : model) (infos2 : list linfo) : Prop :=
  let es := expression I (n :: rest) t in let o := length t in
  exists b2 f infos P0,
    prepare (es_ph es3) m2 infos2 make_opt junk tt d2 g =
      FDone (mkVars (mkLoop (mkTS infos2 (Some b2) (make_opt (params_view m2 infos2))) (mkCE [] []) P0 P0) (mkTv [] []) (mkTv [] []) (mkLd 0 tt g) (mkLd 0 d2 g) 0 ([] : list line)) /\
    ten_ok [n; c] P0 /\ constructed es3 [f 0] [f o] m2 /\ closed (es_ph es3) [f 0] [f o] /\
    usable false (es_ph es3) [f o] m2 (model_train false m2 infos2) b2 /\ dims (es_ph es3) (f o) = [n; c] /\
    copied (es_ph es) infos [o] f (es_ph es3) infos2 /\
    (forall j r, nth_error t j = Some r -> needed (es_ph es) [o] (S j) ->
       exists L, produces m2 (model_train false m2 infos2) b2 (f (S j)) L /\ same_kind (start (I j) (r_layer r) (r_in r)) L).

Section Trained.
Context {D1 D2 G : Type}.
Variables (next : G -> Z -> Z * G) (iter_order : list Z -> list Z) (fuel turns : nat) (world : nat -> outside).
Variables (order : graph -> list gnode) (net : Z -> prog (nat * nat)) (make_opt : pmap -> optimizer).
Variables (n c : nat) (rest : list nat) (t : list row) (I : nat -> ienv).
Variables (num_epochs freq : Z) (train_set : dataset R D1) (item1 : Z -> list R * list R) (label1 : Z -> nat).
Variables (test_set : dataset R D2) (item2 : Z -> list R * list R) (label2 : Z -> nat) (junk : nat -> R) (d1 : D1) (d2 : D2) (g : G).
Hypothesis NET : net (Z.of_nat n) es0 = RVal (expression I (n :: rest) t) (0, length t).
Hypothesis CLS : classifier n c rest t.
Hypothesis SRT : sorts order.
Hypothesis OPT : new_optimizer make_opt.
Hypothesis CI : (Z.of_nat c <= int_max)%Z.
Hypothesis LA1 : labelled train_set n c rest item1 label1.
Hypothesis LA2 : labelled test_set n c rest item2 label2.
Hypothesis RNG : in_range next.
Hypothesis PRM : forall l, Permutation (iter_order l) l.
Hypothesis ENO : enough next fuel n (ds_size train_set).
Hypothesis T1 : full train_set n < turns.
Hypothesis T2 : full test_set n < turns.
Hypothesis FRQ : freq <> 0%Z.
Hypothesis HF : forall k d, fair (o_fwd (world k) d).
Hypothesis HA : forall k, is_argmax (e_amax (o_acc (world k))).
Notation es := (expression I (n :: rest) t).


Lemma trained_saved : exists es' m infos s s' out,
  train_main next iter_order fuel turns world order net make_opt (Z.of_nat n) num_epochs freq train_set test_set junk d1 d2 g = FDone ((out ++ [Saved])%list, es', m, infos) /\
  constructed es [0] [length t] m /\ at_start I n c rest t m (es_info es') make_opt s /\
  training_run m n c rest train_set item1 test_set item2 label2 freq (Z.to_nat num_epochs) 0 s s' out /\ infos = ts_info (l_ts s') /\
  construct_model order [0] [length t] es = RVal es' m /\
  map (fun e => (fst e, tsh (snd e))) (state_view m infos) = map (fun e => (fst e, tsh (snd e))) (state_view m (es_info es')) /\
  Forall (fun e => length (tdat (snd e)) = prodN (tsh (snd e))) (state_view m infos) /\
  forall (D3 G2 : Type) (next2 : G2 -> Z -> Z * G2) (iter_order2 : list Z -> list Z) (fuel2 turns2 : nat) (world2 : nat -> outside)
         (test2 : dataset R D3) (item3 : Z -> list R * list R) (label3 : Z -> nat)
         (bits : R -> Z) (value : Z -> R) (can : Z -> bool) (junk_bytes : bytes -> bytes) (iter_cfg : config Z -> config Z) (iter_dict : sdict -> sdict)
         (order2 : graph -> list gnode) (I2 : nat -> ienv) (make_opt2 : pmap -> optimizer) (junk2 : nat -> R) (d3 : D3) (g2 : G2),
  savable bits value can m infos -> (forall c, iterated c (iter_cfg c)) -> (forall d, Permutation d (iter_dict d)) ->
  labelled test2 n c rest item3 label3 -> in_range next2 -> (forall l, Permutation (iter_order2 l) l) -> sorts order2 ->
  (forall k d, fair (o_fwd (world2 k) d)) -> (forall k, is_argmax (e_amax (o_acc (world2 k)))) -> full test2 n < turns2 ->
  exists file acc scores,
    save_model bits iter_cfg iter_dict m infos = Ok file /\
    test_main bits value next2 iter_order2 fuel2 turns2 world2 can junk_bytes order2 I2 make_opt2 (Some file) (Z.of_nat n) test2 junk2 d3 g2 = FDone [Accuracy acc] /\
    predicts m n c rest test2 item3 (model_train false m infos) (ts_backend (l_ts s')) scores /\ measured test2 n c label3 scores acc /\
    exists es3 m2 infos2, load_model bits value can junk_bytes order2 I2 (Some file) es0 = RVal es3 (m2, infos2) /\
      loaded_as I n c rest t make_opt2 junk2 d3 g2 es3 m2 infos2.
Proof.
  destruct (program_start turns world order make_opt n c rest t I train_set test_set junk d1 d2 g CLS SRT OPT T1 T2 HF HA) as (es' & m & s & b0 & CO & CM & ST & EB0 & U0 & PREP & RD & N0 & C0 & PI).
  destruct (epochs_ok next iter_order fuel world es 0 (length t) m n c rest freq train_set item1 label1 test_set item2 label2 d2) with (turns := turns) (k := Z.to_nat num_epochs) (e := 0)
    (s := mkVars s (mkTv [] []) (mkTv [] []) (mkLd 0 d1 g) (mkLd 0 d2 g) 0 ([] : list line)) as (sv & out & EP & RD' & TR & OUT & EVL); try assumption; auto.
  { intros L gg. destruct LA1 as (_ & (Z0 & _) & _). apply ENO. lia. }
  { apply table_closed with (c := c). exact CLS. }
  { apply table_dims_in. }
  { apply table_dims_out with (c := c). exact CLS. }
  { intros d N. eapply table_batch; [exact CLS|exact N]. }
  destruct RD' as (LO & _). destruct LO as (ran & infos & b' & opt & crit & P & Gr & EL & U' & SMb & _).
  exists es', m, infos, s, (v_loop sv), out. split; [|split; [exact CM|split; [exact ST|split; [exact TR|split; [rewrite EL; reflexivity|]]]]].
  { unfold train_main, p_model, pbind. rewrite NET. cbn [fst snd]. rewrite CO, PREP. cbn [fbind]. rewrite EP. cbn [fbind print v_out]. rewrite OUT. cbn [app v_out]. rewrite EL. reflexivity. }
  pose proof (table_plain I n c rest t CLS) as PL. set (o := length t) in *.
  assert (VO : Forall (fun d => d < length (es_ph es)) [o]) by (constructor; [rewrite expression_len; unfold o; lia|constructor]).
  pose proof (table_closed I n c rest t CLS) as CL. pose proof (table_dims_out I n c rest t CLS) as DO. pose proof (table_dims_in I n rest t) as DI.
  assert (BT : forall d, needed (es_ph es) [o] d -> exists sh, dims (es_ph es) d = n :: sh) by (intros d N; eapply table_batch; [exact CLS|exact N]).
  pose proof CM as (_ & _ & ord & gr & esx & BG & TOx & _). pose proof (SRT gr (ex_intro _ _ TOx)) as TO. clear TOx esx ord.
  assert (RW : reached_well es (lines (fun j r => mkMade (I j) (r_layer r) (r_in r) (r_out r)) t) [o]).
  { intros d s0 i args N _. left. exact (table_once I n c rest t CLS d N). }
  pose proof (constructed_mfacts _ _ _ _ CM) as MF.
  assert (NO : needed (es_ph es) [o] o) by (apply need_out; left; reflexivity).
  assert (NI : needed (es_ph es) [o] 0) by (apply (mf_needed_in _ _ _ _ MF); left; reflexivity).
  pose proof (by_number_one _ _ _ _ _ CM NO) as BO. pose proof (by_number_one _ _ _ _ _ CM NI) as BI.
  destruct (compile_plain es _ order [0] [o] gr es' m junk None PL VO BG TO CO RW) as (b0' & CB & _).
  pose proof (construct_ph _ _ _ _ _ _ CO) as PH. pose proof ST as (bs & Ps & Es & _).
  assert (EB : b0' = b0).
  { unfold prepare in PREP. rewrite PH, CB in PREP. destruct (bind _ _) as [tt0| |] in PREP; try discriminate PREP. injection PREP as <-. cbn in EB0. congruence. }
  subst b0'.
  assert (RI : rig (es_info es') (Some b0) infos (Some b')).
  { pose proof (epochs_rig _ _ _ _ _ _ _ _ _ _ _ _ _ _ EP) as RG. unfold loop_rig in RG. cbn [v_loop] in RG. rewrite EL, EB0 in RG. cbn [l_ts ts_info ts_backend] in RG. rewrite Es in RG. exact RG. }
  pose proof (view_shapes es es' _ m order [0] [o] gr PL VO BG TO CO RW junk None b0 CB _ infos b' U' RI) as VS.
  split; [exact CO|]. split; [symmetry; exact VS|]. split; [exact (view_twf es es' _ m order [0] [o] gr PL VO BG TO CO RW junk None b0 CB _ infos b' U' RI)|].
  intros D3 G2 next2 iter_order2 fuel2 turns2 world2 test2 item3 label3 bits value can junk_bytes iter_cfg iter_dict order2 I2 make_opt2 junk2 d3 g2 SV IC ID LA3 RNG2 PRM2 SR2 HF2 HA2 T2'.
  assert (RW2 : reached_well es (lines (fun j r => mkMade (I j) (r_layer r) (r_in r) (r_out r)) t) (by_number m [o])) by (rewrite BO; exact RW).
  destruct (trip es es' _ m order [0] [o] gr PL VO BG TO CO RW CL junk None b0 CB ran infos b' U' RI RW2 order2 I2 es0 SR2 (ltac:(constructor)) bits value can junk_bytes SV iter_cfg iter_dict IC ID junk2 None)
    as (file & es3 & m2 & infos2 & b2 & f & SA & LD & CP & EI & EO & PI' & PO' & C2 & CL2 & VIEW & CB2 & US2 & WT).
  destruct (loaded_twin es [0] [o] m ran infos b' n es3 m2 infos2 b2 f CM CL U' CP EI EO PI' PO' C2 CL2 US2 WT BT) as (UA & EMA & UB & EMB & TW).
  rewrite BI, BO in *. cbn [map] in EI, EO. rewrite EI, EO in *.
  assert (VN : forall d, needed (es_ph es) [o] d -> d < length (es_ph es)) by (intros d; apply (valid_needed es [0] [o] m CM)).
  assert (DI3 : dims (es_ph es3) (f 0) = n :: rest) by (rewrite (dims_copy _ _ _ _ _ _ CP VN 0 NI); exact DI).
  assert (DO3 : dims (es_ph es3) (f o) = [n; c]) by (rewrite (dims_copy _ _ _ _ _ _ CP VN o NO); exact DO).
  assert (DB3 : forall d, needed (es_ph es3) [f o] d -> exists sh, dims (es_ph es3) d = n :: sh).
  { intros d' N. apply (needed_copy (es_ph es) (es_ph es3) infos infos2 [o] [o] f CP ltac:(tauto) VN) in N. destruct N as (d & N & ->). rewrite (dims_copy _ _ _ _ _ _ CP VN d N). apply BT, N. }
  destruct (table_out I n c rest t CLS) as (r & HO & Hr & RO).
  destruct (cp_call _ _ _ _ _ _ CP o _ _ _ NO HO) as (i3 & li & li3 & H3 & _).
  assert (POr : proper [n; c]).
  { destruct (last_row I n c rest t CLS) as (r1 & Hr1 & _ & _ & RO1). destruct (cl_row _ _ _ _ CLS _ _ Hr1) as (_ & (_ & _ & PP & _) & _). rewrite RO1 in PP. exact PP. }
  set (P0 := mkT [n; c] (tab (prodN [n; c]) junk2)).
  assert (TP0 : ten_ok [n; c] P0) by (split; [reflexivity|unfold twf, tot, P0; cbn [tdat tsh]; apply tab_length]).
  assert (SM2 : ends_in_softmax m2 b2 (f o)).
  { destruct (softmax_produced es 0 o m n c CM CL DO ran infos b' U' SMb) as (args & Ca & PS & _).
    assert (N2 : needed (es_ph es3) [f o] (f o)) by (apply need_out; left; reflexivity).
    assert (Ca2 : call (es_ph es3) (f o) (map f args)) by (eapply call_copy; eassumption).
    destruct (usable_fits _ _ _ _ _ _ US2 (f o) (map f args) N2 Ca2) as (L2 & P2 & _). destruct (WT o _ _ NO PS P2) as (SK & _). destruct L2; cbn in SK; try contradiction.
    destruct P2 as (j & op & L0 & li0 & Q1 & Q2 & Q3 & Q4 & Q5). exists j, op. split; [exact Q1|]. split; [exact Q2|]. rewrite Q3. f_equal. destruct L0; cbn in Q5; inv_ok Q5; try discriminate Q5. reflexivity. }
  assert (ENO1 : n <= Z.to_nat (ds_size train_set) -> forall g : G, exists u : list Z, NoDup u /\ length u = n /\ incl u (draws next fuel (ds_size train_set - 1) g)).
  { intros L gg. destruct LA1 as (_ & (Z0 & _) & _). apply ENO. lia. }
  destruct (predicts_some next iter_order fuel world es 0 o m n c rest train_set item1 label1 test2 item3 label3 d3 N0 (conj C0 CI) PI LA1 LA3 RNG PRM ENO1 HF HA CM CL DI DO BT ran (model_train false m infos) b' (o_fwd (world2 0)) P0 UA EMA (HF2 0) TP0) as (scores & PR & SC).
  assert (PR2 : predicts m2 n c rest test2 item3 (model_train false m2 infos2) (Some b2) scores).
  { intros j E idx X y T rr J FE RG BOf R TT. destruct (PR j E idx X y T rr J FE RG BOf R TT) as (bo & p & E1 & TP1 & SS).
    assert (TX : ten_ok (n :: rest) X).
    { apply (batch_ten iter_order2 test2 n c rest item3 label3 N0 (conj C0 CI) LA3 PRM2 d3) with (idx := idx) (y := y); assumption. }
    destruct (TW E E (fun _ => X) [T] [T] FE FE) as (V & b1 & b3 & F1 & F2).
    - intros d [<-|[]]. rewrite DI. exact TX.
    - constructor; [exact (eq_ind_r (fun sh => ten_ok sh T) TT DO)|constructor].
    - constructor; [exact (eq_ind_r (fun sh => ten_ok sh T) TT DO3)|constructor].
    - cbn [map] in F1, F2. rewrite F1 in E1. injection E1 as <- <-. exists (Some b3), (V o). auto. }
  set (ds0 := mkDs 0 ([], []) (fun (d : unit) (_ : Z) (_ _ : list R) => (d, (([] : list R), ([] : list R)), true))).
  set (sv0 := mkVars (mkLoop (mkTS infos2 (Some b2) (make_opt2 (params_view m2 infos2))) (mkCE [] []) P0 P0) (mkTv [] []) (mkTv [] []) (mkLd 0 tt g2) (mkLd 0 d3 g2) 0 ([] : list line)).
  assert (PREP2 : prepare (es_ph es3) m2 infos2 make_opt2 junk2 tt d3 g2 = FDone sv0).
  { unfold prepare. rewrite CB2, EO. cbn [rd nth_error bind]. unfold rd. rewrite H3. cbn [bind ph_shape]. rewrite new_ten_proper by exact POr. reflexivity. }
  destruct (val_loop next2 iter_order2 fuel2 world2 es3 (f 0) (f o) m2 n c rest ds0 test2 item3 label3 d3 N0 (conj C0 CI) PI LA3 RNG2 PRM2) with (scores := scores) (infos := model_train false m2 infos2)
    (opt := make_opt2 (params_view m2 infos2)) (crit := mkCE [] []) (Gr := P0) (todo := full test2 n) (k := turns2) (done := 0) (acc := 0%R) (best := fun _ : nat => 0) (ran := false) (b := b2) (P := P0) (s := set_mode m2 false sv0)
    as (s3 & acc & best & ran' & b3 & P3 & EV & VL & U3 & SM3 & TP3 & PR3 & MX & CT & SL3 & PV & VT & OV & EM3); try assumption; try reflexivity.
  { cbn. lia. }
  { intros j H. lia. }
  { exists []. split; [constructor|]. split; [intros j; cbn; lia|]. cbn. unfold Rdiv. lra. }
  { split; left; reflexivity. }
  change (Z.of_nat 0) with 0%Z in EV.
  exists file, (fdiv (Some acc) (Z.of_nat (full test2 n))), scores. split; [exact SA|]. split; [|split; [rewrite EL; exact PR|split]].
  - unfold test_main. rewrite LD, PREP2. cbn [fbind]. unfold validate. rewrite EV. cbn [fbind print v_out]. rewrite OV. reflexivity.
  - assert (EN0 : n <= Z.to_nat (ds_size ds0) -> forall g : G2, exists u : list Z, NoDup u /\ length u = n /\ incl u (draws next2 fuel2 (ds_size ds0 - 1) g)) by (cbn; lia).
    pose proof (counted_mean next2 fuel2 world2 es3 (f o) n c ds0 test2 label3 N0 (conj C0 CI) RNG2 EN0 HF2 HA2 DB3 best acc CT) as CMn.
    unfold measured. destruct (full test2 n); [exact CMn|]. destruct CMn as (v & E1 & E2). exists best, v. auto.
  - exists es3, m2, infos2. split; [exact LD|]. exists b2, f, infos, P0. fold o. split; [exact PREP2|]. split; [exact TP0|]. split; [exact C2|]. split; [exact CL2|]. split; [exact UB|]. split; [exact DO3|].
    split; [exact CP|]. intros j r0 Hj Nj.
    pose proof (table_call_at I n rest t j r0 Hj) as Hd.
    destruct (trip_layer es es' _ m order [0] [o] gr PL VO BG TO CO RW junk None b0 CB ran infos b' U' RI (S j) _ _ _ Nj Hd) as (x & li0 & L0 & L & Hx & _ & PL0 & _ & _ & _ & _ & _ & _ & SK & _).
    rewrite lines_nth, Hj in Hx. injection Hx as <-. cbn [md_draws md_layer md_in] in SK.
    assert (Cj : call (es_ph es) (S j) (r_args r0)) by (eexists _, _; exact Hd).
    assert (N2 : needed (es_ph es3) [f o] (f (S j))) by (apply (needed_copy (es_ph es) (es_ph es3) infos infos2 [o] [o] f CP ltac:(tauto) VN); eauto).
    assert (Ca2 : call (es_ph es3) (f (S j)) (map f (r_args r0))) by (eapply call_copy; eassumption).
    destruct (usable_fits _ _ _ _ _ _ US2 _ _ N2 Ca2) as (L2 & P2 & _). destruct (usable_fits _ _ _ _ _ _ UB _ _ N2 Ca2) as (Lz & Pz & _).
    destruct (WT (S j) _ _ Nj PL0 P2) as (SK2 & _). exists Lz. split; [exact Pz|].
    eapply same_kind_trans; [exact SK|]. eapply same_kind_trans; [exact SK2|].
    destruct P2 as (a1 & op1 & l1 & li1 & Q1 & Q2 & Q3 & Q4 & Q5). destruct Pz as (a2 & op2 & l2 & li2 & R1 & R2 & R3 & R4 & R5).
    destruct (op_at_unique _ _ _ _ (constructed_mfacts _ _ _ _ C2) _ _ _ _ Q1 R1 ltac:(congruence)) as [-> ->]. rewrite Q3 in R3. injection R3 as <-.
    eapply same_kind_trans; [apply same_kind_sym, (load_kind _ _ _ Q5)|exact (load_kind _ _ _ R5)].
Qed.
End Trained.
