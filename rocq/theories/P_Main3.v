(** The sample programs from the command line: testing with another batch size. *)
From Coq Require Import Reals String Ascii Lia Permutation.
From Verif Require Import Base BaseFacts Sums M_Tensor M_Layers M_Kernels M_Optim M_Init M_Nn M_Graph M_Model M_Backend M_DataLoader M_Loss M_Train M_Serial M_Saved M_Sample M_Image M_Data M_Main
  S_Grad S_Loss S_DataLoader S_Fit S_Nn S_Serial S_Graph S_Run S_Build S_Train S_Plain S_Eval S_Sample S_Data S_Saved S_Saved2 S_Saved3 S_Main
  P_Plain P_Graph P_Graph2 P_Nn P_Model P_Run P_Fwd P_Load P_Run2 P_Train2 P_Build3 P_Sample P_Sample2 P_Saved5 P_Saved8 P_Saved9 P_Saved10 P_Saved11 P_Saved12 P_Data3 P_Main P_Main2 P_Batch Prop_Run Prop_Sample Prop_Loss.
Local Open Scope string_scope.
Open Scope nat_scope.
Local Open Scope list_scope.

(** The only line that needs nothing but the input is the first, and it is a Linear layer. *)
Definition linear_first (t : list row) : Prop :=
  (exists u r, nth_error t 0 = Some r /\ r_layer r = ALinear u /\ r_args r = [0]) /\
  forall j r, nth_error t (S j) = Some r -> exists a, In (S a) (r_args r).

Lemma accuracy_other E n c k (P y : ten) : tsh P = [n; c] -> tot y = k -> k <> n -> accuracy E P y = Throw.
Proof.
  intros SP TY NK. unfold accuracy, dims2. rewrite SP. cbn [length Nat.eqb dw_assert bind rd nth_error].
  rewrite TY. destruct (Nat.eqb_spec k n); [contradiction|reflexivity].
Qed.

Section Other.
Variables (M : machine) (I : nat -> ienv) (n c : nat) (rest : list nat) (t : list row) (make_opt : pmap -> optimizer) (file : bytes).
Variables (es3 : estore) (m2 : model) (infos2 : list linfo).
Hypothesis SM : sound_machine M.
Hypothesis CLS : classifier n c rest t.
Hypothesis CI : (Z.of_nat c <= int_max)%Z.
Hypothesis LD : load_model (mc_bits M) (mc_value M) (mc_can M) (mc_bytes M) (mc_order M) (mc_draws M) (Some file) es0 = RVal es3 (m2, infos2).
Hypothesis LA : loaded_as I n c rest t make_opt (mc_junk M) tt (mc_seed M) es3 m2 infos2.
Variables (k : nat) (test2 : dataset R unit) (item3 : Z -> list R * list R) (label3 : Z -> nat).
Hypothesis K0 : 0 < k.
Hypothesis PK : proper (k :: rest).
Hypothesis LB : labelled test2 k c rest item3 label3.
Hypothesis NK : k <> n.
Hypothesis F1 : 0 < full test2 k.
Hypothesis T1 : full test2 k < mc_turns M.
Notation run := (test_main (mc_bits M) (mc_value M) (mc_next M) (mc_hash M) (mc_fuel M) (mc_turns M) (mc_world M) (mc_can M) (mc_bytes M)
  (mc_order M) (mc_draws M) make_opt (Some file) (Z.of_nat k) test2 (mc_junk M) tt (mc_seed M)).

Lemma class_pos : 0 < c.
Proof.
  destruct (last_row I n c rest t CLS) as (r1 & Hr1 & _ & _ & RO1). destruct (cl_row _ _ _ _ CLS _ _ Hr1) as (_ & (_ & _ & PP & _) & _). rewrite RO1 in PP.
  destruct (proper_in _ c PP) as (H & _); [right; left; reflexivity|exact H].
Qed.

Lemma other_run : (run = FThrow \/ run = FUndefined) /\ (linear_first t -> run = FUndefined).
Proof.
  destruct LA as (b2 & f & infos & P0 & PR & TP & CO & CL & US & DO & CP & KI).
  unfold test_main. rewrite LD, PR. cbn [fbind]. unfold validate. destruct (mc_turns M) as [|turns]; [lia|]. cbn [val_while].
  set (s := set_mode _ false _).
  destruct (pull_batch (mc_next M) (mc_hash M) (mc_fuel M) test2 k c rest item3 label3 K0 (conj class_pos CI) PK LB (sm_range _ SM) (sm_hash _ SM) false (v_val s) (v_X s) (v_y s)
     (o_jx (mc_world M (v_tick s))) (o_jy (mc_world M (v_tick s))) 0) as (l' & X' & y' & E & _ & _ & R); [left; reflexivity|left; reflexivity|reflexivity|lia|discriminate|].
  replace (0 <? full test2 k) with true in * by (symmetry; apply Nat.ltb_lt; exact F1). rewrite E. destruct R as (_ & idx & _ & RG & BO & _).
  destruct (batch_ten (mc_hash M) test2 k c rest item3 label3 K0 (conj class_pos CI) LB (sm_hash _ SM) tt _ _ _ RG BO) as (TX & Ty).
  assert (TY : tot (ten_of y') = k). { destruct Ty as ((T1' & T2) & _). unfold twf, tot in *. rewrite T2, T1'. cbn. lia. }
  change (l_pred (v_loop s)) with P0. change (ts_info (l_ts (v_loop s))) with (model_train false m2 infos2). change (ts_backend (l_ts (v_loop s))) with (Some b2).
  set (E0 := o_fwd (mc_world M (v_tick s))). set (x := ten_of X') in *. set (y := ten_of y') in *.
  split.
  - destruct (model_forward E0 m2 (model_train false m2 infos2) (Some b2) [x] [P0]) as [[[[i1 b1] x1] p1]|? |] eqn:F; [|left; reflexivity|right; reflexivity].
    destruct (forward_shapes _ _ _ _ _ _ _ _ _ _ F) as (_ & S2). destruct p1 as [|p1 [|]]; try discriminate S2. cbn in S2. injection S2 as S2.
    rewrite (accuracy_other _ n c k p1 y); [left; reflexivity|rewrite S2; apply TP|exact TY|exact NK].
  - clear TY. intros ((u & r & H0 & HL & HA) & ON). pose proof (constructed_mfacts _ _ _ _ CO) as MF. set (es := expression I (n :: rest) t) in *. set (o := length t) in *.
    assert (BU : constructed es3 [f 0] [f o] m2) by exact CO.
    assert (VN : forall d, needed (es_ph es) [o] d -> d < length (es_ph es)).
    { intros d N. assert (LB' : d <= o) by (apply (needed_le (es_ph es)); [apply store_links_back, built_ok; eapply table_built, CLS|exact N]). unfold es. rewrite expression_len. unfold o in LB'. lia. }
    assert (N1 : needed (es_ph es) [o] 1).
    { pose proof (table_input_needed I n c rest t CLS) as N0. fold es o in N0.
      assert (K : forall d, needed (es_ph es) [o] d -> d <> 0 -> needed (es_ph es) [o] 1).
      { induction d as [d IH] using (well_founded_induction lt_wf). intros N D0. destruct d as [|[|d]]; [lia|exact N|].
        destruct (nth_error t (S d)) as [r'|] eqn:Hr; [|apply nth_error_None in Hr; specialize (VN _ N); unfold es in VN; rewrite expression_len in VN; lia].
        destruct (ON d r' Hr) as (a & Ia). assert (Cd : call (es_ph es) (S (S d)) (r_args r')) by (eexists _, _; apply (table_call_at I n rest t (S d) r' Hr)).
        apply (IH (S a)); [|eapply need_arg; eassumption|lia]. assert (LBk : links_back (es_ph es)) by (apply store_links_back, built_ok; eapply table_built, CLS). eapply LBk; eassumption. }
      apply (K o); [apply need_out; left; reflexivity|]. unfold o. destruct t; [discriminate H0|cbn; lia]. }
    pose proof (table_call_at I n rest t 0 r H0) as C1. fold es in C1. rewrite HA in C1.
    assert (Ca : call (es_ph es) 1 [0]) by (eexists _, _; exact C1). pose proof (call_copy _ _ _ _ _ _ CP 1 [0] N1 Ca) as Ca2. cbn [map] in Ca2.
    destruct (KI 0 r H0 N1) as (L & PD & SK). rewrite HL in SK. destruct (cl_row _ _ _ _ CLS _ _ H0) as (SH & (RES & _) & _). rewrite HL in RES. inversion RES as [u0 nn rr NR UP E1 E2 E3| | | | | | | | | | | |]. subst u0.
    rewrite HA in SH. rewrite <- E2 in SH, SK. inversion SH as [|? ? ? ? (_ & SH1) SH2]. subst. cbn in SH1. injection SH1 as <- <-.
    destruct L; cbn in SK; try contradiction.
    assert (D1 : dims (es_ph es3) (f 1) = [n; u]). { rewrite (dims_copy _ _ _ _ _ _ CP VN 1 N1). unfold dims. rewrite C1. cbn [ph_shape]. rewrite zs_nat. congruence. }
    assert (N2 : forall d', needed (es_ph es3) [f o] d' -> exists d, needed (es_ph es) [o] d /\ d' = f d).
    { intros d' N. apply (needed_copy (es_ph es) (es_ph es3) infos infos2 [o] [o] f CP ltac:(tauto) VN) in N. exact N. }
    assert (N2' : needed (es_ph es3) [f o] (f 1)) by (apply (needed_copy (es_ph es) (es_ph es3) infos infos2 [o] [o] f CP ltac:(tauto) VN); eauto).
    assert (VI : visits (es_ph es3) [f o] (f 1) = 1).
    { destruct US as (_ & LY & _). destruct (LY _ _ N2' Ca2) as (L1 & P1 & _ & [V|V]); [exact V|]. rewrite (P_Fwd2.produces_fun _ _ _ _ MF _ _ _ _ _ P1 PD) in V. discriminate V. }
    pose proof (other_batch_undefined (es_ph es3) [f 0] [f o] m2 MF CL (model_train false m2 infos2) b2 E0 [x] [P0] (f 1) (f 0) 0 W b x k rest n u (proj1 US) eq_refl) as OB.
    rewrite OB; [reflexivity|..]; try assumption; try reflexivity.
    + constructor; [rewrite DO; exact TP|constructor].
    + apply TX.
    + intros d' args N C'. destruct (N2 d' N) as (d & Nd & ->). destruct (call_copy_inv _ _ _ _ _ _ CP VN d args Nd C') as (a0 & (sd & id & Cd) & ->).
      destruct (table_call I n rest t d sd id a0 Cd) as (-> & r' & Hr & _ & ->). destruct id as [|id]; [left; reflexivity|right].
      destruct (ON id r' Hr) as (a & Ia). assert (Na : needed (es_ph es) [o] (S a)) by (eapply need_arg; [exact Nd|eexists _, _; exact Cd|exact Ia]).
      destruct (nth_error t a) as [ra|] eqn:Hra; [|apply nth_error_None in Hra; specialize (VN _ Na); unfold es in VN; rewrite expression_len in VN; lia].
      exists (f (S a)), (map f (r_args ra)). split; [apply in_map, Ia|]. eapply call_copy; [exact CP|exact Na|]. eexists _, _. apply (table_call_at I n rest t a ra Hra).
Qed.
End Other.

Lemma other_command a p I M2 n file : In (a, p) apps -> good_batch p n -> sound_machine M2 ->
  (exists es3 m2 infos2, load_model (mc_bits M2) (mc_value M2) (mc_can M2) (mc_bytes M2) (mc_order M2) (mc_draws M2) (Some file) es0 = RVal es3 (m2, infos2) /\
     loaded_as I n (sp_classes p) (sp_rest p) (sp_table p n) (sp_opt p) (mc_junk M2) tt (mc_seed M2) es3 m2 infos2) ->
  forall dk2 prog2 root2 b2 path2 more2 k test2 item3 label3,
  reads b2 (Z.of_nat k) -> good_batch p k -> k <> n ->
  dk_file dk2 path2 = Some file -> test_data a p M2 dk2 root2 k test2 item3 label3 -> 0 < full test2 k < mc_turns M2 ->
  let r := main a M2 (prog2 :: "test" :: root2 :: b2 :: path2 :: more2) dk2 in
  (r = FThrow \/ r = FUndefined) /\ (p = iris \/ p = mnist -> r = FUndefined).
Proof.
  intros AP GB SM2 LDX dk2 prog2 root2 b2 path2 more2 k test2 item3 label3 RB2 (K0 & RMk) NK DF ((s2 & O3) & LB) (F1 & T1).
  destruct (app_sample a p AP) as (IP & AN & AO). destruct GB as (N0 & RM).
  destruct (C57_samples_build_their_networks p IP I n N0 RM) as (_ & CLS).
  destruct (C57_samples_build_their_networks p IP I k K0 RMk) as (_ & CLSk).
  destruct LDX as (es3 & m2 & infos2 & LD & LA).
  assert (CI : (Z.of_nat (sp_classes p) <= int_max)%Z) by (unfold int_max; destruct IP as [<-|[<-|[<-|[<-|[]]]]]; cbn; lia).
  pose proof (other_run M2 I n (sp_classes p) (sp_rest p) (sp_table p n) (sp_opt p) file es3 m2 infos2 SM2 CLS CI LD LA k test2 item3 label3
    K0 (cl_input _ _ _ _ CLSk) LB NK F1 T1) as (OR & OL).
  assert (LF : load_first M2 (Some file) = FDone tt).
  { unfold load_first. rewrite LD. destruct LA as (? & ? & ? & ? & PR & _). destruct (prepare_compiles _ _ _ _ _ _ _ _ _ PR) as (bb & ->). reflexivity. }
  assert (EQ : main a M2 (prog2 :: "test" :: root2 :: b2 :: path2 :: more2) dk2 = test_mode a M2 root2 (Z.of_nat k) path2 dk2).
  { unfold main, arg_int, arg. cbn [nth_error fbind]. rewrite (atoi_reads _ _ RB2). reflexivity. }
  rewrite EQ. unfold test_mode. rewrite DF, LF. cbn [fbind]. rewrite O3. cbn [of_res fbind]. rewrite AO. split.
  + destruct OR as [-> | ->]; [left|right]; reflexivity.
  + intros PP. rewrite OL; [reflexivity|]. split.
    * destruct PP as [-> | ->]; eexists _, _; (split; [reflexivity|split; reflexivity]).
    * intros j r Hr. exists j. destruct PP as [-> | ->]; cbn [sp_table iris mnist] in Hr; do 6 (destruct j as [|j]; [cbn in Hr; try discriminate Hr; injection Hr as <-; left; reflexivity|]); destruct j; discriminate Hr.
Qed.
