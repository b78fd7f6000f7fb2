(** The sample programs from the command line: training and testing. *)
From Coq Require Import Reals String Ascii Lia Permutation.
From Verif Require Import Base BaseFacts Sums M_Tensor M_Layers M_Kernels M_Optim M_Init M_Nn M_Graph M_Model M_Backend M_DataLoader M_Train M_Serial M_Saved M_Sample M_Image M_Data M_Main
  S_Grad S_Loss S_DataLoader S_Fit S_Nn S_Serial S_Graph S_Run S_Build S_Train S_Plain S_Eval S_Sample S_Data S_Saved S_Saved2 S_Saved3 S_Main
  P_Run2 P_Sample P_Sample2 P_Saved5 P_Saved8 P_Saved9 P_Saved10 P_Saved11 P_Saved12 P_Data3 P_Main Prop_Sample Prop_Loss.
Local Open Scope string_scope.
Open Scope nat_scope.
Local Open Scope list_scope.

Lemma app_sample a p : In (a, p) apps -> In p [mnist; iris; cifar10; cifar100] /\ ap_net a = sp_net p /\ ap_opt a = sp_opt p.
Proof. intros [E|[E|[E|[E|[]]]]]; injection E as <- <-; (split; [cbn; tauto|split; reflexivity]). Qed.

Lemma prepare_compiles {D1 D2 G} ps m infos make_opt junk (d1 : D1) (d2 : D2) (g : G) v : M_Sample.prepare ps m infos make_opt junk d1 d2 g = FDone v ->
  exists b, model_compile ps junk m infos None = Ret b.
Proof. unfold M_Sample.prepare. destruct (model_compile ps junk m infos None) as [b| |]; try discriminate. exists b. reflexivity. Qed.
Lemma train_first a M (D1 D2 : Type) n e f (ds1 : dataset R D1) (ds2 : dataset R D2) d1 d2 r :
  train_main (mc_next M) (mc_hash M) (mc_fuel M) (mc_turns M) (mc_world M) (mc_order M) (ap_net a (mc_draws M)) (ap_opt a) n e f ds1 ds2 (mc_junk M) d1 d2 (mc_seed M) = FDone r ->
  build_first a M n = FDone tt.
Proof.
  unfold train_main, build_first. destruct (p_model _ _ _) as [es m| |]; try discriminate. destruct (M_Sample.prepare _ _ _ _ _ _ _ _) as [v| | | |] eqn:P; try discriminate.
  destruct (prepare_compiles _ _ _ _ _ _ _ _ _ P) as (b & ->). reflexivity.
Qed.
Lemma test_first M (D : Type) make_opt file n (ds : dataset R D) d r :
  test_main (mc_bits M) (mc_value M) (mc_next M) (mc_hash M) (mc_fuel M) (mc_turns M) (mc_world M) (mc_can M) (mc_bytes M) (mc_order M) (mc_draws M) make_opt file n ds (mc_junk M) d (mc_seed M) = FDone r ->
  load_first M file = FDone tt.
Proof.
  unfold test_main, load_first. destruct (load_model _ _ _ _ _ _ _ _) as [es (m & infos)| |]; try discriminate. destruct (M_Sample.prepare _ _ _ _ _ _ _ _) as [v| | | |] eqn:P; try discriminate.
  destruct (prepare_compiles _ _ _ _ _ _ _ _ _ P) as (b & ->). reflexivity.
Qed.

Section Run.
Variables (a : app) (p : sample_program) (M : machine) (dk : disk) (root : string) (n : nat) (e f : Z) (path : string).
Variables (train_set : dataset R unit) (item1 : Z -> list R * list R) (label1 : Z -> nat).
Variables (test_set : dataset R unit) (item2 : Z -> list R * list R) (label2 : Z -> nat).
Hypothesis AP : In (a, p) apps.
Hypothesis SM : sound_machine M.
Hypothesis GB : good_batch p n.
Hypothesis BD : both_data a p M dk root n train_set item1 label1 test_set item2 label2.
Hypothesis LE : long_enough M n train_set test_set.
Hypothesis FRQ : f <> 0%Z.
Notation c := (sp_classes p).
Notation rest := (sp_rest p).
Notation t := (sp_table p n).

Lemma run_commands : exists es' m s s' out file,
  constructed (expression (mc_draws M) (n :: rest) t) [0] [length t] m /\ at_start (mc_draws M) n c rest t m (es_info es') (sp_opt p) s /\
  training_run m n c rest train_set item1 test_set item2 label2 f (Z.to_nat e) 0 s s' out /\
  save_model (mc_bits M) (mc_cfg M) (mc_dict M) m (ts_info (l_ts s')) = Ok file /\
  train_main (mc_next M) (mc_hash M) (mc_fuel M) (mc_turns M) (mc_world M) (mc_order M) (ap_net a (mc_draws M)) (ap_opt a) (Z.of_nat n) e f train_set test_set (mc_junk M) tt tt (mc_seed M) =
    FDone ((out ++ [Saved])%list, es', m, ts_info (l_ts s')) /\
  train_mode a M root (Z.of_nat n) e f path dk = FDone ((out ++ [Saved])%list, write_file M dk path file) /\
  (forall M2, sound_machine M2 -> same_floats M M2 -> Forall (exact (mc_bits M) (mc_value M)) (floats_of m (ts_info (l_ts s'))) -> 0 < mc_turns M2 ->
     exists es3 m2 infos2, load_model (mc_bits M2) (mc_value M2) (mc_can M2) (mc_bytes M2) (mc_order M2) (mc_draws M2) (Some file) es0 = RVal es3 (m2, infos2) /\
       loaded_as (mc_draws M) n c rest t (sp_opt p) (mc_junk M2) tt (mc_seed M2) es3 m2 infos2) /\
  forall M2 dk2 root2 path2 test2 item3 label3,
    sound_machine M2 -> same_floats M M2 -> Forall (exact (mc_bits M) (mc_value M)) (floats_of m (ts_info (l_ts s'))) ->
    dk_file dk2 path2 = Some file -> test_data a p M2 dk2 root2 n test2 item3 label3 -> full test2 n < mc_turns M2 ->
    exists acc scores, test_mode a M2 root2 (Z.of_nat n) path2 dk2 = FDone ([Accuracy acc], dk2) /\
      predicts m n c rest test2 item3 (model_train false m (ts_info (l_ts s'))) (ts_backend (l_ts s')) scores /\
      measured test2 n c label3 scores acc /\
      (decided (full test2 n * n) c scores -> (0 < e)%Z -> ds_size test2 = ds_size test_set ->
       (forall j, (0 <= j < ds_size test_set)%Z -> item3 j = item2 j /\ label3 j = label2 j) -> exists before, out = (before ++ [Accuracy acc])%list).
Proof.
  destruct (app_sample a p AP) as (IP & AN & AO). destruct GB as (N0 & RM). destruct BD as ((s0 & s1 & O1 & O2) & LA1 & LA2). destruct LE as (ENO & T1 & T2).
  destruct (C57_samples_build_their_networks p IP (mc_draws M) n N0 RM) as (NET & CLS).
  assert (OPT : new_optimizer (sp_opt p)) by (destruct IP as [<-|[<-|[<-|[<-|[]]]]]; cbn [sp_opt mnist iris cifar10 cifar100]; first [apply new_sgdm|apply new_ad]).
  assert (CI : (Z.of_nat c <= int_max)%Z) by (unfold int_max; destruct IP as [<-|[<-|[<-|[<-|[]]]]]; cbn; lia).
  destruct (trained_saved (mc_next M) (mc_hash M) (mc_fuel M) (mc_turns M) (mc_world M) (mc_order M) (sp_net p (mc_draws M)) (sp_opt p) n c rest t (mc_draws M) e f
    train_set item1 label1 test_set item2 label2 (mc_junk M) tt tt (mc_seed M) NET CLS (sm_order _ SM) OPT CI LA1 LA2 (sm_range _ SM) (sm_hash _ SM) ENO T1 T2 FRQ (sm_fair _ SM) (sm_amax _ SM))
    as (es' & m & infos & s & s' & out & TM & CO & ST & TR & EI & CM & VS & VL & K). subst infos.
  pose proof (table_plain (mc_draws M) n c rest t CLS) as PL.
  assert (VO : Forall (fun d => d < length (es_ph (expression (mc_draws M) (n :: rest) t))) [length t]) by (constructor; [rewrite expression_len; lia|constructor]).
  pose proof CO as (_ & _ & ord & gr & esx & BG & TOx & _). pose proof (sm_order _ SM gr (ex_intro _ _ TOx)) as TO. clear TOx esx ord.
  pose proof (sample_sizes p IP (mc_draws M) n N0 RM) as SZ.
  assert (GC : forall can bits, (forall z, (0 <= z <= 1024)%Z -> can z = true) ->
    Forall (fun x => word32 (bits x)) (flat_map (fun o => flat_map (fun e => attr_floats (snd e)) (oi_attrs o)) (c_ops (m_cfg m))) -> good_cfg can (cfg_map bits (m_cfg m))).
  { intros can bits CN. eapply sz_cfg; try eassumption. exact (mc_value M). }
  assert (SV : exists file, save_model (mc_bits M) (mc_cfg M) (mc_dict M) m (ts_info (l_ts s')) = Ok file).
  { destruct (save_cfg_ok (fun _ => true) (fun _ => 0%Z) (mc_bits M) (m_cfg m) (mc_cfg M (cfg_map (mc_bits M) (m_cfg m)))) as (b & HB); [|apply (sm_cfg _ SM)|].
    - apply GC; [reflexivity|]. apply Forall_forall. intros x _. split; [lia|reflexivity].
    - unfold save_model, save. rewrite HB. eexists. reflexivity. }
  destruct SV as (file & SV). exists es', m, s, s', out, file. split; [exact CO|]. split; [exact ST|]. split; [exact TR|]. rewrite <- AN, <- AO in TM. split; [exact SV|]. split; [exact TM|]. split.
  { unfold train_mode. rewrite (train_first _ _ _ _ _ _ _ _ _ _ _ _ TM). cbn [fbind]. rewrite O1. cbn [of_res fbind]. rewrite O2. cbn [of_res fbind]. rewrite TM. cbn [fbind].
    rewrite SV. reflexivity. }
  assert (SAV : forall M2, sound_machine M2 -> same_floats M M2 -> Forall (exact (mc_bits M) (mc_value M)) (floats_of m (ts_info (l_ts s'))) -> savable (mc_bits M2) (mc_value M2) (mc_can M2) m (ts_info (l_ts s'))).
  { intros M2 SM2 (SB & SVl) FX. rewrite <- SB, <- SVl. split; [exact FX|]. split.
    - apply GC; [apply (sm_can _ SM2)|]. unfold floats_of in FX. apply Forall_app in FX. destruct FX as (FX & _). eapply Forall_impl; [|exact FX]. intros x (H & _). exact H.
    - eapply good_dict_shapes; [symmetry; exact VS|]. eapply sz_dict; try eassumption; first [exact (mc_value M)|exact (sm_can _ SM2)]. }
  split.
  { intros M2 SM2 SF FX T3. pose proof (SAV M2 SM2 SF FX) as SA. destruct SF as (SB & SVl).
    set (ds0 := mkDs 0 (zs rest, [1%Z]) (fun (d : unit) (_ : Z) (x y : list R) => (d, (x, y), true))).
    assert (LA0 : labelled ds0 n c rest (fun _ => ([], [])) (fun _ => 0)).
    { pose proof LA2 as (SH2 & (_ & NN1 & NN2 & _) & _ & SZ2 & _). rewrite SH2 in NN1, NN2. split; [reflexivity|]. split; [split; [cbn; lia|]; split; [exact NN1|]; split; [exact NN2|]; cbn; intros; lia|].
      split; [intros d j; cbn; lia|]. split; [|cbn; intros; lia]. destruct LA2 as (_ & (Z0 & _) & _). cbn. cbn in SZ2. lia. }
    assert (F0 : full ds0 n < mc_turns M2) by (unfold full; cbn; exact T3).
    destruct (K unit _ (mc_next M2) (mc_hash M2) (mc_fuel M2) (mc_turns M2) (mc_world M2) ds0 _ _ (mc_bits M2) (mc_value M2) (mc_can M2) (mc_bytes M2) (mc_cfg M) (mc_dict M)
      (mc_order M2) (mc_draws M2) (sp_opt p) (mc_junk M2) tt (mc_seed M2) SA (sm_cfg _ SM) (sm_dict _ SM) LA0 (sm_range _ SM2) (sm_hash _ SM2) (sm_order _ SM2) (sm_fair _ SM2) (sm_amax _ SM2) F0)
      as (file' & acc & scores & SV' & _ & _ & _ & LDX). rewrite <- SB in SV' at 1. rewrite SV in SV'. injection SV' as <-. exact LDX. }
  intros M2 dk2 root2 path2 test2 item3 label3 SM2 SF FX DF ((s2 & O3) & LA3) T3. pose proof (SAV M2 SM2 SF FX) as SA. destruct SF as (SB & SVl).
  destruct (K unit _ (mc_next M2) (mc_hash M2) (mc_fuel M2) (mc_turns M2) (mc_world M2) test2 item3 label3 (mc_bits M2) (mc_value M2) (mc_can M2) (mc_bytes M2) (mc_cfg M) (mc_dict M)
    (mc_order M2) (mc_draws M2) (sp_opt p) (mc_junk M2) tt (mc_seed M2) SA (sm_cfg _ SM) (sm_dict _ SM) LA3 (sm_range _ SM2) (sm_hash _ SM2) (sm_order _ SM2) (sm_fair _ SM2) (sm_amax _ SM2) T3)
    as (file' & acc & scores & SV' & TE & PR & ME & _).
  rewrite <- SB in SV'. rewrite SV in SV'. injection SV' as <-. exists acc, scores. split; [|split; [exact PR|split; [exact ME|]]].
  { rewrite <- AO in TE. unfold test_mode. rewrite DF, (test_first _ _ _ _ _ _ _ _ TE). cbn [fbind]. rewrite O3. cbn [of_res fbind]. rewrite TE. reflexivity. }
  intros DC E0 ES EQ.
  destruct (last_epoch _ _ _ _ _ _ _ _ _ _ _ _ _ _ _ TR ltac:(lia)) as (before & s3 & losses & acc0 & -> & ER).
  destruct ER as (_ & s4 & _ & _ & _ & _ & EI4 & _ & scores0 & best0 & PR0 & SC & AC0).
  exists before. do 2 f_equal. f_equal. unfold measured in ME.
  assert (EF : full test2 n = full test_set n) by (unfold full; rewrite ES; reflexivity). rewrite EF in ME, DC.
  destruct (full test_set n) as [|k] eqn:FK; [congruence|].
  destruct ME as (best & v & MB & -> & SH). destruct AC0 as (MB0 & v0 & -> & SH0). f_equal.
  rewrite EI4 in PR, PR0. rewrite train_twice in PR.
  assert (POr : proper [n; c]).
  { destruct (last_row (mc_draws M) n c rest t CLS) as (r1 & Hr1 & _ & _ & RO1). destruct (cl_row _ _ _ _ CLS _ _ Hr1) as (_ & (_ & _ & PP & _) & _). rewrite RO1 in PP. exact PP. }
  assert (ZN : (0 < Z.of_nat n)%Z) by lia.
  assert (IN : forall j, j < S k * n -> (0 <= Z.of_nat j < ds_size test_set)%Z).
  { intros j Hj. split; [lia|]. rewrite <- FK in Hj. unfold full in Hj. destruct LA2 as (_ & (Z0 & _) & _). pose proof (Z.mul_div_le (ds_size test_set) (Z.of_nat n) ZN). pose proof (Z.div_pos (ds_size test_set) (Z.of_nat n) ltac:(lia) ZN). nia. }
  assert (SE : forall j, j < S k * n -> scores (Z.of_nat j) = scores0 (Z.of_nat j)).
  { intros j Hj. refine (predicts_same m n c rest test_set item2 test2 item3 _ _ scores0 scores (o_fwd (mc_world M 0)) (mkT [n; c] (tab (prodN [n; c]) (mc_junk M))) N0 (sm_fair _ SM 0) _ ES _ PR0 PR (Z.of_nat j) (IN j Hj)).
    - split; [reflexivity|unfold twf, tot; cbn [tdat tsh]; apply tab_length].
    - intros i Hi. apply EQ, Hi. }
  refine (share_unique _ _ _ _ _ _ SH0 SH). intros j Hj. cbn beta. rewrite (proj2 (EQ _ (IN j Hj))).
  assert (X : best0 j = best j) by (apply (DC j); [exact Hj|rewrite (SE j Hj); apply MB0, Hj|apply MB, Hj]). rewrite X. tauto.
Qed.
End Run.

(** ** Building and compiling *)
Lemma builds a p M n : In (a, p) apps -> sound_machine M -> good_batch p n -> build_first a M (Z.of_nat n) = FDone tt.
Proof.
  intros AP SM (N0 & RM). destruct (app_sample a p AP) as (IP & AN & AO).
  destruct (C57_samples_build_their_networks p IP (mc_draws M) n N0 RM) as (NET & CLS).
  assert (OPT : new_optimizer (sp_opt p)) by (destruct IP as [<-|[<-|[<-|[<-|[]]]]]; cbn [sp_opt mnist iris cifar10 cifar100]; first [apply new_sgdm|apply new_ad]).
  set (ds0 := mkDs 0 ([], []) (fun (d : unit) (_ : Z) (_ _ : list R) => (d, (([] : list R), ([] : list R)), true))).
  assert (F0 : full ds0 n < 1) by (unfold full; cbn; lia).
  destruct (program_start 1 (mc_world M) (mc_order M) (sp_opt p) n (sp_classes p) (sp_rest p) (sp_table p n) (mc_draws M) ds0 ds0 (mc_junk M) tt tt tt CLS (sm_order _ SM) OPT F0 F0 (sm_fair _ SM) (sm_amax _ SM))
    as (es' & m & s & b0 & CO & _ & _ & _ & _ & PREP & _).
  destruct (prepare_compiles _ _ _ _ _ _ _ _ _ PREP) as (b & CP).
  unfold build_first, p_model, pbind. rewrite AN, NET. cbn [fst snd]. rewrite CO, CP. reflexivity.
Qed.

(** ** Epochs without a batch *)
Lemma train_view mode m infos : state_view m (model_train mode m infos) = state_view m infos.
Proof. unfold state_view. apply flat_map_ext. intros e. rewrite train_state. reflexivity. Qed.
Lemma idle_run {D1 D2} m n c rest (ds1 : dataset R D1) item1 (ds2 : dataset R D2) item2 label2 f k i s s' out :
  full ds1 n = 0 -> training_run m n c rest ds1 item1 ds2 item2 label2 f k i s s' out -> state_view m (ts_info (l_ts s')) = state_view m (ts_info (l_ts s)).
Proof.
  intros F0 TR. induction TR as [|k i s s1 s2 losses acc out ER _ IH]; [reflexivity|]. rewrite IH.
  destruct ER as (bs & s3 & TB & LB & _ & _ & EI & _). rewrite F0 in LB. destruct bs; [|discriminate LB]. cbn in TB. injection TB as <- _. cbn [l_ts ts_info] in EI.
  rewrite EI, !train_view. reflexivity.
Qed.
