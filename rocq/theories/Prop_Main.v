(** Property C65: the sample programs from the command line. *)
From Coq Require Import Reals String Ascii Lia Permutation.
From Verif Require Import Base BaseFacts Sums M_Tensor M_Layers M_Kernels M_Optim M_Init M_Nn M_Graph M_Model M_Backend M_DataLoader M_Train M_Serial M_Saved M_Sample M_Image M_Data M_Main
  S_Grad S_Loss S_DataLoader S_Fit S_Nn S_Serial S_Graph S_Run S_Build S_Train S_Plain S_Eval S_Sample S_Data S_Saved S_Saved2 S_Main
  P_DataLoader P_Saved8 P_Build4 P_Sample P_Sample2 P_Main P_Main2 P_Main3 P_Data3 Prop_Loss Prop_Sample Prop_Data Prop_Saved2.
Local Open Scope string_scope.
Open Scope nat_scope.
Local Open Scope list_scope.

(** Numbers in arguments: decimal notation after white space, with or without sign, up to the first other
    character; what does not begin like a number counts as 0; numbers that are no ints are undefined behaviour. *)
Theorem C65_numbers_in_arguments : forall s : string,
  (forall v, denotes s v -> an_int v -> atoi s = Ok v) /\
  (no_number s -> atoi s = Ok 0%Z) /\
  (forall v, denotes s v -> ~ an_int v -> atoi s = UB).
Proof. intros s. split; [|split]; [intros v D; apply (atoi_denotes s v D)|apply atoi_refuses|intros v D; apply (atoi_denotes s v D)]. Qed.
Print Assumptions C65_numbers_in_arguments.

(** "train ROOT BATCH EPOCHS FREQUENCY FILE": the program trains the network it is written for on the data in ROOT, in
    batches of BATCH, for EPOCHS epochs, prints what S_Sample says, and writes the trained model, and nothing
    else, to FILE.
    "test ROOT BATCH FILE" with that file and that batch size, on whatever machine with the same floats and whatever
    data: the program prints one line, the accuracy of the trained model in evaluation mode on the test data in ROOT, and
    writes nothing.  On the test data of the training run this is the last accuracy printed there, unless classes tie. *)
Theorem C65_train_and_test_commands :
  forall (a : app) (p : sample_program) (M : machine) (dk : disk) (prog root b e f path : string) (more : list string) (n : nat) (epochs freq : Z)
         (train_set : dataset R unit) (item1 : Z -> list R * list R) (label1 : Z -> nat)
         (test_set : dataset R unit) (item2 : Z -> list R * list R) (label2 : Z -> nat),
  In (a, p) apps -> sound_machine M -> reads b (Z.of_nat n) -> reads e epochs -> reads f freq -> good_batch p n -> freq <> 0%Z ->
  both_data a p M dk root n train_set item1 label1 test_set item2 label2 -> long_enough M n train_set test_set ->
  let c := sp_classes p in let rest := sp_rest p in let t := sp_table p n in
  exists es m s s' out file dk',
    main a M (prog :: "train" :: root :: b :: e :: f :: path :: more) dk = FDone (out ++ [Saved], dk') /\
    constructed (expression (mc_draws M) (n :: rest) t) [0] [length t] m /\ at_start (mc_draws M) n c rest t m (es_info es) (sp_opt p) s /\
    training_run m n c rest train_set item1 test_set item2 label2 freq (Z.to_nat epochs) 0 s s' out /\
    save_model (mc_bits M) (mc_cfg M) (mc_dict M) m (ts_info (l_ts s')) = Ok file /\
    (dk_writable dk path = true -> only_wrote path file dk dk') /\
    forall (M2 : machine) (dk2 : disk) (prog2 root2 b2 path2 : string) (more2 : list string)
           (test2 : dataset R unit) (item3 : Z -> list R * list R) (label3 : Z -> nat),
    sound_machine M2 -> same_floats M M2 -> Forall (exact (mc_bits M) (mc_value M)) (floats_of m (ts_info (l_ts s'))) ->
    reads b2 (Z.of_nat n) -> dk_file dk2 path2 = Some file -> test_data a p M2 dk2 root2 n test2 item3 label3 -> full test2 n < mc_turns M2 ->
    exists acc scores,
      main a M2 (prog2 :: "test" :: root2 :: b2 :: path2 :: more2) dk2 = FDone ([Accuracy acc], dk2) /\
      predicts m n c rest test2 item3 (model_train false m (ts_info (l_ts s'))) (ts_backend (l_ts s')) scores /\
      measured test2 n c label3 scores acc /\
      (decided (full test2 n * n) c scores -> (0 < epochs)%Z -> ds_size test2 = ds_size test_set ->
       (forall j, (0 <= j < ds_size test_set)%Z -> item3 j = item2 j /\ label3 j = label2 j) -> exists before, out = before ++ [Accuracy acc]).
Proof.
  intros a p M dk prog root b e f path more n epochs freq train_set item1 label1 test_set item2 label2 AP SM RB RE RF GB FQ BD LE c rest t.
  destruct (run_commands a p M dk root n epochs freq path train_set item1 label1 test_set item2 label2 AP SM GB BD LE FQ) as (es & m & s & s' & out & file & CO & ST & TR & SV & _ & TM & _ & K).
  exists es, m, s, s', out, file, (write_file M dk path file). split; [|split; [exact CO|split; [exact ST|split; [exact TR|split; [exact SV|split]]]]].
  - unfold main, arg_int, arg. cbn [nth_error fbind]. rewrite (atoi_reads _ _ RB), (atoi_reads _ _ RE), (atoi_reads _ _ RF). cbn [of_res fbind String.eqb Ascii.eqb Bool.eqb]. exact TM.
  - intros W. unfold write_file. rewrite W. split; cbn [dk_file]; [rewrite String.eqb_refl; reflexivity|]. intros other NE. destruct (String.eqb_spec other path); [contradiction|reflexivity].
  - intros M2 dk2 prog2 root2 b2 path2 more2 test2 item3 label3 SM2 SF EX RB2 DF TD T2.
    destruct (K M2 dk2 root2 path2 test2 item3 label3 SM2 SF EX DF TD T2) as (acc & scores & TE & REST). exists acc, scores. split; [|exact REST].
    unfold main, arg_int, arg. cbn [nth_error fbind]. rewrite (atoi_reads _ _ RB2). cbn [of_res fbind String.eqb Ascii.eqb Bool.eqb]. exact TE.
Qed.
Print Assumptions C65_train_and_test_commands.

(** With no epochs (0, less, or an argument that is no number) the new network is saved as it is. *)
Theorem C65_no_epochs_saves_the_new_network :
  forall (a : app) (p : sample_program) (M : machine) (dk : disk) (prog root b e f path : string) (more : list string) (n : nat) (epochs freq : Z)
         (train_set : dataset R unit) (item1 : Z -> list R * list R) (label1 : Z -> nat)
         (test_set : dataset R unit) (item2 : Z -> list R * list R) (label2 : Z -> nat),
  In (a, p) apps -> sound_machine M -> reads b (Z.of_nat n) -> reads e epochs -> reads f freq -> good_batch p n -> freq <> 0%Z ->
  both_data a p M dk root n train_set item1 label1 test_set item2 label2 -> long_enough M n train_set test_set -> (epochs <= 0)%Z ->
  let c := sp_classes p in let rest := sp_rest p in let t := sp_table p n in
  exists es m s file,
    at_start (mc_draws M) n c rest t m (es_info es) (sp_opt p) s /\ save_model (mc_bits M) (mc_cfg M) (mc_dict M) m (es_info es) = Ok file /\
    main a M (prog :: "train" :: root :: b :: e :: f :: path :: more) dk = FDone ([Saved], write_file M dk path file).
Proof.
  intros a p M dk prog root b e f path more n epochs freq train_set item1 label1 test_set item2 label2 AP SM RB RE RF GB FQ BD LE E0 c rest t.
  destruct (run_commands a p M dk root n epochs freq path train_set item1 label1 test_set item2 label2 AP SM GB BD LE FQ) as (es & m & s & s' & out & file & CO & ST & TR & SV & _ & TM & _ & K).
  replace (Z.to_nat epochs) with 0 in TR by lia. inversion TR as [i s0 Ei Es Es' Eo|]; subst. exists es, m, s', file. split; [exact ST|].
  pose proof ST as (b0 & P & Es & _). split; [rewrite Es in SV; exact SV|].
  unfold main, arg_int, arg. cbn [nth_error fbind]. rewrite (atoi_reads _ _ RB), (atoi_reads _ _ RE), (atoi_reads _ _ RF). cbn [of_res fbind String.eqb Ascii.eqb Bool.eqb]. exact TM.
Qed.
Print Assumptions C65_no_epochs_saves_the_new_network.

(** Finding: a file that cannot be written is not noticed.  The program trains, prints that the model is saved, ends
    normally, and nothing has been saved. *)
Theorem C65_unwritable_file_is_not_noticed :
  forall (a : app) (p : sample_program) (M : machine) (dk : disk) (prog root b e f path : string) (more : list string) (n : nat) (epochs freq : Z)
         (train_set : dataset R unit) (item1 : Z -> list R * list R) (label1 : Z -> nat)
         (test_set : dataset R unit) (item2 : Z -> list R * list R) (label2 : Z -> nat),
  In (a, p) apps -> sound_machine M -> reads b (Z.of_nat n) -> reads e epochs -> reads f freq -> good_batch p n -> freq <> 0%Z ->
  both_data a p M dk root n train_set item1 label1 test_set item2 label2 -> long_enough M n train_set test_set -> dk_writable dk path = false ->
  exists out, main a M (prog :: "train" :: root :: b :: e :: f :: path :: more) dk = FDone (out ++ [Saved], dk).
Proof.
  intros a p M dk prog root b e f path more n epochs freq train_set item1 label1 test_set item2 label2 AP SM RB RE RF GB FQ BD LE W.
  destruct (run_commands a p M dk root n epochs freq path train_set item1 label1 test_set item2 label2 AP SM GB BD LE FQ) as (es & m & s & s' & out & file & _ & _ & _ & _ & _ & TM & _).
  exists out. unfold main, arg_int, arg. cbn [nth_error fbind]. rewrite (atoi_reads _ _ RB), (atoi_reads _ _ RE), (atoi_reads _ _ RF). cbn [of_res fbind String.eqb Ascii.eqb Bool.eqb].
  rewrite TM. unfold write_file. rewrite W. reflexivity.
Qed.
Print Assumptions C65_unwritable_file_is_not_noticed.

(** Finding: the number of arguments is not checked.  With too few the behaviour is undefined; what follows the
    arguments a mode uses is ignored; a mode other than "train" and "test" ends in an exception. *)
Theorem C65_arguments :
  forall (a : app) (M : machine) (dk : disk) (prog mode root b : string) (more : list string) (n : Z), reads b n ->
  (forall argv, length argv <= 3 -> main a M argv dk = FUndefined) /\
  (forall argv, length argv <= 6 -> nth_error argv 1 = Some "train" -> (forall s, In s (skipn 3 argv) -> exists v, reads s v) -> main a M argv dk = FUndefined) /\
  main a M [prog; "test"; root; b] dk = FUndefined /\
  (mode <> "train" -> mode <> "test" -> main a M (prog :: mode :: root :: b :: more) dk = FThrow) /\
  (forall e f path, main a M (prog :: "train" :: root :: b :: e :: f :: path :: more) dk = main a M [prog; "train"; root; b; e; f; path] dk) /\
  (forall path, main a M (prog :: "test" :: root :: b :: path :: more) dk = main a M [prog; "test"; root; b; path] dk).
Proof.
  intros a M dk prog mode root b more n RB. split; [|split; [|split; [|split; [|split]]]].
  - intros [|x0 [|x1 [|x2 [|x3 t]]]] L; try reflexivity. cbn in L. lia.
  - intros argv L E R. destruct argv as [|x0 [|x1 [|x2 [|x3 [|x4 [|x5 [|x6 t]]]]]]]; cbn in E, L; try discriminate E; try reflexivity; try lia; injection E as ->; cbn [skipn] in R.
    + destruct (R x3 (or_introl eq_refl)) as (v3 & R3). unfold main, arg_int, arg. cbn [nth_error fbind]. rewrite (atoi_reads _ _ R3). reflexivity.
    + destruct (R x3 (or_introl eq_refl)) as (v3 & R3). destruct (R x4 (or_intror (or_introl eq_refl))) as (v4 & R4). unfold main, arg_int, arg. cbn [nth_error fbind]. rewrite (atoi_reads _ _ R3), (atoi_reads _ _ R4). reflexivity.
    + destruct (R x3 (or_introl eq_refl)) as (v3 & R3). destruct (R x4 (or_intror (or_introl eq_refl))) as (v4 & R4). destruct (R x5 (or_intror (or_intror (or_introl eq_refl)))) as (v5 & R5).
      unfold main, arg_int, arg. cbn [nth_error fbind]. rewrite (atoi_reads _ _ R3), (atoi_reads _ _ R4), (atoi_reads _ _ R5). reflexivity.
  - unfold main, arg_int, arg. cbn [nth_error fbind]. rewrite (atoi_reads _ _ RB). reflexivity.
  - intros N1 N2. unfold main, arg_int, arg. cbn [nth_error fbind]. rewrite (atoi_reads _ _ RB). cbn [of_res fbind].
    destruct (String.eqb_spec mode "train"); [contradiction|]. destruct (String.eqb_spec mode "test"); [contradiction|]. reflexivity.
  - reflexivity.
  - reflexivity.
Qed.
Print Assumptions C65_arguments.

(** A directory of pictures that does not exist ends the training program in an exception. *)
Theorem C65_missing_folder_throws :
  forall (a : app) (p : sample_program) (M : machine) (dk : disk) (prog root b e f path : string) (more : list string) (n : nat) (epochs freq : Z),
  In (a, p) apps -> a <> iris_app -> sound_machine M -> reads b (Z.of_nat n) -> reads e epochs -> reads f freq -> good_batch p n ->
  dk_list dk (root ++ "test")%string = None ->
  main a M (prog :: "train" :: root :: b :: e :: f :: path :: more) dk = FThrow.
Proof.
  intros a p M dk prog root b e f path more n epochs freq AP NI SM RB RE RF GB LS.
  unfold main, arg_int, arg. cbn [nth_error fbind]. rewrite (atoi_reads _ _ RB), (atoi_reads _ _ RE), (atoi_reads _ _ RF). cbn [of_res fbind String.eqb Ascii.eqb Bool.eqb].
  unfold train_mode. rewrite (builds a p M n AP SM GB). cbn [fbind].
  destruct AP as [E|[E|[E|[E|[]]]]]; injection E as <- <-; [contradiction| | |]; cbn [ap_open ap_test mnist_app cifar10_app cifar100_app ap_init].
  - unfold mnist_open, open_root. rewrite LS. reflexivity.
  - unfold cifar10_open, open_root. rewrite LS. reflexivity.
  - unfold cifar100_open, open_root. rewrite LS. reflexivity.
Qed.
Print Assumptions C65_missing_folder_throws.

(** Finding: a frequency of 0, or an argument that is no number in its place, is a division by zero in the first
    iteration. *)
Theorem C65_no_frequency_is_undefined :
  forall (a : app) (p : sample_program) (M : machine) (dk : disk) (prog root b e f path : string) (more : list string) (n : nat) (epochs : Z)
         (train_set : dataset R unit) (item1 : Z -> list R * list R) (label1 : Z -> nat)
         (test_set : dataset R unit) (item2 : Z -> list R * list R) (label2 : Z -> nat),
  In (a, p) apps -> sound_machine M -> reads b (Z.of_nat n) -> reads e epochs -> reads f 0 -> good_batch p n ->
  both_data a p M dk root n train_set item1 label1 test_set item2 label2 -> long_enough M n train_set test_set ->
  (0 < epochs)%Z -> 0 < full train_set n ->
  main a M (prog :: "train" :: root :: b :: e :: f :: path :: more) dk = FUndefined.
Proof.
  intros a p M dk prog root b e f path more n epochs train_set item1 label1 test_set item2 label2 AP SM RB RE RF GB BD LE E0 F1.
  pose proof (builds a p M n AP SM GB) as BU. destruct (app_sample a p AP) as (IP & AN & AO). destruct GB as (N0 & RM). destruct BD as ((s0 & s1 & O1 & O2) & LA1 & LA2). destruct LE as (ENO & T1 & T2).
  destruct (C57_samples_build_their_networks p IP (mc_draws M) n N0 RM) as (NET & CLS).
  assert (OPT : new_optimizer (sp_opt p)) by (destruct IP as [<-|[<-|[<-|[<-|[]]]]]; cbn [sp_opt mnist iris cifar10 cifar100]; first [apply new_sgdm|apply new_ad]).
  assert (CI : (Z.of_nat (sp_classes p) <= int_max)%Z) by (unfold int_max; destruct IP as [<-|[<-|[<-|[<-|[]]]]]; cbn; lia).
  pose proof (C57_frequency_zero unit unit (mc_gen M) (mc_next M) (mc_hash M) (mc_fuel M) (mc_turns M) (mc_world M) (mc_order M) (sp_net p (mc_draws M)) (sp_opt p) n (sp_classes p) (sp_rest p) (sp_table p n)
    (mc_draws M) epochs train_set item1 label1 test_set (mc_junk M) tt tt (mc_seed M) NET CLS (sm_order _ SM) OPT CI LA1 (sm_range _ SM) (sm_hash _ SM) ENO T1 T2 (sm_fair _ SM) (sm_amax _ SM) E0 F1) as FZ.
  unfold main, arg_int, arg. cbn [nth_error fbind]. rewrite (atoi_reads _ _ RB), (atoi_reads _ _ RE), (atoi_reads _ _ RF). cbn [of_res fbind String.eqb Ascii.eqb Bool.eqb].
  unfold train_mode. rewrite BU. cbn [fbind]. rewrite O1. cbn [of_res fbind]. rewrite O2. cbn [of_res fbind]. rewrite AN, AO, FZ. reflexivity.
Qed.
Print Assumptions C65_no_frequency_is_undefined.

(** ** The data *)
(** Two tables for the iris program: the samples are their rows.  For testing one is enough. *)
Theorem C65_iris_data :
  forall (M : machine) (dk : disk) (root header1 header2 : string) (rows1 rows2 : list (list string)) (final1 final2 : bool) (n : nat),
  without "010" header2 -> Forall good_row rows2 -> (Z.of_nat (length rows2) + Z.of_nat n <= int_max)%Z ->
  dk_file dk (root ++ "test/iris.csv")%string = Some (list_ascii_of_string (csv header2 rows2 final2)) ->
  exists (test_set : dataset R unit) class2,
    ds_size test_set = Z.of_nat (length rows2) /\ (forall j row, nth_error rows2 j = Some row -> exists name, nth_error row 4 = Some name /\ class_of species name (class2 (Z.of_nat j))) /\
    test_data iris_app iris M dk root n test_set (row_item (mc_atof M) rows2 class2) class2 /\
    (without "010" header1 -> Forall good_row rows1 -> (Z.of_nat (length rows1) + Z.of_nat n <= int_max)%Z ->
     dk_file dk (root ++ "train/iris.csv")%string = Some (list_ascii_of_string (csv header1 rows1 final1)) ->
     exists (train_set : dataset R unit) class1,
       ds_size train_set = Z.of_nat (length rows1) /\ (forall j row, nth_error rows1 j = Some row -> exists name, nth_error row 4 = Some name /\ class_of species name (class1 (Z.of_nat j))) /\
       both_data iris_app iris M dk root n train_set (row_item (mc_atof M) rows1 class1) class1 test_set (row_item (mc_atof M) rows2 class2) class2).
Proof.
  intros M dk root header1 header2 rows1 rows2 final1 final2 n W2 G2 B2 D2.
  destruct (proj2 C60_iris_table_is_read (mc_atof M) header2 rows2 final2 m_iris2label W2 G2 (proj1 C60_iris_table_is_read)) as (i2 & m2 & class2 & E2 & CL2 & LE2 & K2 & L2).
  assert (O2 : ap_open iris_app M dk (root ++ ap_test iris_app)%string (ap_init iris_app) = Ok (iris_dataset i2, m2)).
  { cbn [ap_open ap_test iris_app ap_init]. rewrite D2. cbn [option_map]. rewrite string_of_list_ascii_of_string, E2. reflexivity. }
  exists (iris_dataset i2), class2. split; [cbn; rewrite LE2; reflexivity|]. split; [exact K2|]. split; [split; [exists m2; exact O2|exact (L2 n B2)]|].
  intros W1 G1 B1 D1. destruct (proj2 C60_iris_table_is_read (mc_atof M) header1 rows1 final1 m2 W1 G1 CL2) as (i1 & m1 & class1 & E1 & _ & LE1 & K1 & L1).
  exists (iris_dataset i1), class1. split; [cbn; rewrite LE1; reflexivity|]. split; [exact K1|]. split; [|split; [exact (L1 n B1)|exact (L2 n B2)]].
  exists m2, m1. split; [exact O2|]. cbn [ap_open ap_train iris_app]. rewrite D1. cbn [option_map]. rewrite string_of_list_ascii_of_string, E1. reflexivity.
Qed.
Print Assumptions C65_iris_data.

(** Folders of pictures for the MNIST program: the samples are the files, the labels the digits the folders are
    named with. *)
Theorem C65_mnist_data :
  forall (M : machine) (dk : disk) (root : string) (dirs1 dirs2 : list folder) (n : nat),
  let png := decode (mc_png M) dk in let jpeg := decode (mc_jpeg M) dk in
  let digit name k := nth_error digit_names k = Some name in
  let pixels784 i := (i_h i * i_w i * i_c i = 28 * 28)%Z in
  holds_folders (dk_list dk) (root ++ "test") dirs2 -> Forall (fun d => In (d_name d) digit_names) dirs2 -> all_decode png jpeg pixels784 dirs2 ->
  (Z.of_nat (length (pictures dirs2)) + Z.of_nat n <= int_max)%Z ->
  exists (test_set : dataset R unit) item2 label2,
    ds_size test_set = Z.of_nat (length (pictures dirs2)) /\ delivers png jpeg grey digit dirs2 item2 label2 /\
    test_data mnist_app mnist M dk root n test_set item2 label2 /\
    (holds_folders (dk_list dk) (root ++ "train") dirs1 -> Forall (fun d => In (d_name d) digit_names) dirs1 -> all_decode png jpeg pixels784 dirs1 ->
     (Z.of_nat (length (pictures dirs1)) + Z.of_nat n <= int_max)%Z ->
     exists (train_set : dataset R unit) item1 label1,
       ds_size train_set = Z.of_nat (length (pictures dirs1)) /\ delivers png jpeg grey digit dirs1 item1 label1 /\
       both_data mnist_app mnist M dk root n train_set item1 label1 test_set item2 label2).
Proof.
  intros M dk root dirs1 dirs2 n png jpeg digit pixels784 H2 G2 A2 B2.
  destruct (C60_mnist_folders_are_read png jpeg (dk_list dk) _ dirs2 H2 G2 A2) as (m2 & item2 & label2 & E2 & LE2 & D2 & L2).
  assert (O2 : ap_open mnist_app M dk (root ++ ap_test mnist_app)%string (ap_init mnist_app) = Ok (mnist_dataset png jpeg m2, tt)).
  { cbn [ap_open ap_test mnist_app ap_init]. rewrite E2. reflexivity. }
  exists (mnist_dataset png jpeg m2), item2, label2. split; [cbn; rewrite LE2; reflexivity|]. split; [exact D2|]. split; [split; [exists tt; exact O2|exact (L2 n B2)]|].
  intros H1 G1 A1 B1. destruct (C60_mnist_folders_are_read png jpeg (dk_list dk) _ dirs1 H1 G1 A1) as (m1 & item1 & label1 & E1 & LE1 & D1 & L1).
  exists (mnist_dataset png jpeg m1), item1, label1. split; [cbn; rewrite LE1; reflexivity|]. split; [exact D1|]. split; [|split; [exact (L1 n B1)|exact (L2 n B2)]].
  exists tt, tt. split; [exact O2|]. cbn [ap_open ap_train mnist_app]. rewrite E1. reflexivity.
Qed.
Print Assumptions C65_mnist_data.

Theorem C65_cifar10_data :
  forall (M : machine) (dk : disk) (root : string) (dirs1 dirs2 : list folder) (n : nat),
  let png := decode (mc_png M) dk in let jpeg := decode (mc_jpeg M) dk in
  holds_folders (dk_list dk) (root ++ "test") dirs2 -> all_decode png jpeg colour dirs2 -> (Z.of_nat (length (pictures dirs2)) + Z.of_nat n <= int_max)%Z ->
  exists (test_set : dataset R unit) item2 label2,
    ds_size test_set = Z.of_nat (length (pictures dirs2)) /\ delivers png jpeg (planes 32 32) (class_of cifar10_classes) dirs2 item2 label2 /\
    test_data cifar10_app cifar10 M dk root n test_set item2 label2 /\
    (holds_folders (dk_list dk) (root ++ "train") dirs1 -> all_decode png jpeg colour dirs1 -> (Z.of_nat (length (pictures dirs1)) + Z.of_nat n <= int_max)%Z ->
     exists (train_set : dataset R unit) item1 label1,
       ds_size train_set = Z.of_nat (length (pictures dirs1)) /\ delivers png jpeg (planes 32 32) (class_of cifar10_classes) dirs1 item1 label1 /\
       both_data cifar10_app cifar10 M dk root n train_set item1 label1 test_set item2 label2).
Proof.
  intros M dk root dirs1 dirs2 n png jpeg H2 A2 B2. destruct C60_cifar10_folders_are_read as (CL & RD).
  destruct (RD png jpeg (dk_list dk) _ dirs2 _ H2 CL A2) as (i2 & m2 & item2 & label2 & E2 & CL2 & LE2 & D2 & L2).
  assert (O2 : ap_open cifar10_app M dk (root ++ ap_test cifar10_app)%string (ap_init cifar10_app) = Ok (cifar_dataset png jpeg i2, m2)).
  { cbn [ap_open ap_test cifar10_app ap_init]. rewrite E2. reflexivity. }
  exists (cifar_dataset png jpeg i2), item2, label2. split; [cbn; rewrite LE2; reflexivity|]. split; [exact D2|]. split; [split; [exists m2; exact O2|exact (L2 n B2)]|].
  intros H1 A1 B1. destruct (RD png jpeg (dk_list dk) _ dirs1 _ H1 CL2 A1) as (i1 & m1 & item1 & label1 & E1 & _ & LE1 & D1 & L1).
  exists (cifar_dataset png jpeg i1), item1, label1. split; [cbn; rewrite LE1; reflexivity|]. split; [exact D1|]. split; [|split; [exact (L1 n B1)|exact (L2 n B2)]].
  exists m2, m1. split; [exact O2|]. cbn [ap_open ap_train cifar10_app]. rewrite E1. reflexivity.
Qed.
Print Assumptions C65_cifar10_data.

(** For CIFAR-100 up to 100 folders; they are numbered, different names differently, the same way for both sets. *)
Theorem C65_cifar100_data :
  forall (M : machine) (dk : disk) (root : string) (dirs1 dirs2 : list folder) (n : nat),
  let png := decode (mc_png M) dk in let jpeg := decode (mc_jpeg M) dk in
  holds_folders (dk_list dk) (root ++ "test") dirs2 -> holds_folders (dk_list dk) (root ++ "train") dirs1 ->
  length (nodup string_dec (map d_name (dirs2 ++ dirs1))) <= 100 -> all_decode png jpeg colour dirs1 -> all_decode png jpeg colour dirs2 ->
  (Z.of_nat (length (pictures dirs1)) + Z.of_nat n <= int_max)%Z -> (Z.of_nat (length (pictures dirs2)) + Z.of_nat n <= int_max)%Z ->
  exists (train_set : dataset R unit) item1 label1 (test_set : dataset R unit) item2 label2 (class : string -> nat),
    ds_size train_set = Z.of_nat (length (pictures dirs1)) /\ ds_size test_set = Z.of_nat (length (pictures dirs2)) /\
    (forall u v, In u (map snd (pictures (dirs2 ++ dirs1))) -> In v (map snd (pictures (dirs2 ++ dirs1))) -> class u = class v -> u = v) /\
    delivers png jpeg (planes 32 32) (fun name k => k = class name) dirs1 item1 label1 /\
    delivers png jpeg (planes 32 32) (fun name k => k = class name) dirs2 item2 label2 /\
    both_data cifar100_app cifar100 M dk root n train_set item1 label1 test_set item2 label2 /\
    test_data cifar100_app cifar100 M dk root n test_set item2 label2.
Proof.
  intros M dk root dirs1 dirs2 n png jpeg H2 H1 LC A1 A2 B1 B2.
  destruct (C60_cifar100_folders_are_read png jpeg (dk_list dk) 100 _ _ dirs1 dirs2 LC ltac:(unfold int_max; lia) H1 H2 A1 A2)
    as (i1 & s1 & i2 & s2 & class & E2 & E1 & LE1 & LE2 & INJ & item1 & label1 & item2 & label2 & D1 & D2 & LB). destruct (LB n B1 B2) as (L1 & L2).
  exists (cifar_dataset png jpeg i1), item1, label1, (cifar_dataset png jpeg i2), item2, label2, class.
  split; [cbn; rewrite LE1; reflexivity|]. split; [cbn; rewrite LE2; reflexivity|]. split; [exact INJ|]. split; [exact D1|]. split; [exact D2|].
  assert (O2 : ap_open cifar100_app M dk (root ++ ap_test cifar100_app)%string (ap_init cifar100_app) = Ok (cifar_dataset png jpeg i2, s2)).
  { cbn [ap_open ap_test cifar100_app ap_init]. rewrite E2. reflexivity. }
  split; [split; [|split; [exact L1|exact L2]]|split; [exists s2; exact O2|exact L2]].
  exists s2, s1. split; [exact O2|]. cbn [ap_open ap_train cifar100_app]. rewrite E1. reflexivity.
Qed.
Print Assumptions C65_cifar100_data.

(** Finding: the iris program does not notice that its tables are missing.  It prints figures that are no numbers, says
    that the model is saved, and has saved the network it began with. *)
Theorem C65_without_tables_nothing_is_learned :
  forall (M : machine) (dk : disk) (prog root b e f path : string) (more : list string) (n : nat) (epochs freq : Z),
  sound_machine M -> reads b (Z.of_nat n) -> reads e epochs -> reads f freq -> good_batch iris n -> freq <> 0%Z -> 0 < mc_turns M ->
  dk_file dk (root ++ "train/iris.csv")%string = None -> dk_file dk (root ++ "test/iris.csv")%string = None ->
  exists es m s file,
    at_start (mc_draws M) n 3 [4] (sp_table iris n) m (es_info es) (sp_opt iris) s /\ save_model (mc_bits M) (mc_cfg M) (mc_dict M) m (es_info es) = Ok file /\
    main iris_app M (prog :: "train" :: root :: b :: e :: f :: path :: more) dk =
      FDone (flat_map (fun i => [Epoch i; Loss None; Accuracy None]) (seq 0 (Z.to_nat epochs)) ++ [Saved], write_file M dk path file).
Proof.
  intros M dk prog root b e f path more n epochs freq SM RB RE RF GB FQ TU N1 N2.
  assert (BI : (Z.of_nat (length (@nil (list string))) + Z.of_nat n <= int_max)%Z) by (destruct GB as (_ & RM); cbn [sp_room iris] in RM; cbn [length]; lia).
  destruct (proj2 C60_iris_table_is_read (mc_atof M) "" [] false m_iris2label) as (i2 & m2 & class2 & _ & _ & LE2 & _ & L2); [intros []|constructor|apply C60_iris_table_is_read|].
  destruct i2; [|discriminate LE2]. specialize (L2 n BI).
  assert (OP : forall pth, dk_file dk pth = None -> forall s, ap_open iris_app M dk pth s = Ok (iris_dataset [], s)).
  { intros pth Hp s. cbn [ap_open iris_app]. rewrite Hp. reflexivity. }
  assert (BD : both_data iris_app iris M dk root n (iris_dataset []) (row_item (mc_atof M) [] class2) class2 (iris_dataset []) (row_item (mc_atof M) [] class2) class2).
  { split; [|split; exact L2]. exists m_iris2label, m_iris2label. split; [apply OP; exact N2|apply OP; exact N1]. }
  assert (F0 : full (iris_dataset []) n = 0) by (unfold full; cbn; destruct (Z.of_nat n); reflexivity).
  assert (LE : long_enough M n (iris_dataset []) (iris_dataset [])).
  { split; [|rewrite F0; auto]. intros L. destruct GB as (N0 & _). cbn in L. lia. }
  destruct (run_commands iris_app iris M dk root n epochs freq path _ _ _ _ _ _ (or_introl eq_refl) SM GB BD LE FQ) as (es & m & s & s' & out & file & CO & ST & TR & SV & _ & TM & _ & K).
  exists es, m, s, file. split; [exact ST|]. pose proof ST as (b0 & P & Es & _). split.
  - rewrite <- SV. unfold save_model, dict_of. rewrite (idle_run m n _ _ _ _ _ _ _ _ _ _ _ _ _ F0 TR), Es. reflexivity.
  - unfold main, arg_int, arg. cbn [nth_error fbind]. rewrite (atoi_reads _ _ RB), (atoi_reads _ _ RE), (atoi_reads _ _ RF). cbn [of_res fbind String.eqb Ascii.eqb Bool.eqb].
    rewrite TM. do 3 f_equal. destruct GB as (N0 & _). eapply C57_datasets_smaller_than_a_batch; [| |exact TR]; cbn; lia.
Qed.
Print Assumptions C65_without_tables_nothing_is_learned.

(** The batch size is part of the saved network, and the test command does not ask for it: "test ROOT BATCH FILE"
    with any other BATCH, on data with at least one whole batch, never ends normally.  With the fully connected networks of
    iris and mnist it is undefined behaviour; with the others, undefined behaviour or an exception. *)
Theorem C65_finding_other_batch_sizes :
  forall (a : app) (p : sample_program) (M : machine) (dk : disk) (prog root b e f path : string) (more : list string) (n : nat) (epochs freq : Z)
         (train_set : dataset R unit) (item1 : Z -> list R * list R) (label1 : Z -> nat)
         (test_set : dataset R unit) (item2 : Z -> list R * list R) (label2 : Z -> nat),
  In (a, p) apps -> sound_machine M -> reads b (Z.of_nat n) -> reads e epochs -> reads f freq -> good_batch p n -> freq <> 0%Z ->
  both_data a p M dk root n train_set item1 label1 test_set item2 label2 -> long_enough M n train_set test_set ->
  exists m infos out file dk',
    main a M (prog :: "train" :: root :: b :: e :: f :: path :: more) dk = FDone (out, dk') /\
    save_model (mc_bits M) (mc_cfg M) (mc_dict M) m infos = Ok file /\ (dk_writable dk path = true -> only_wrote path file dk dk') /\
    forall (M2 : machine) (dk2 : disk) (prog2 root2 b2 path2 : string) (more2 : list string) (k : nat)
           (test2 : dataset R unit) (item3 : Z -> list R * list R) (label3 : Z -> nat),
    sound_machine M2 -> same_floats M M2 -> Forall (exact (mc_bits M) (mc_value M)) (floats_of m infos) ->
    reads b2 (Z.of_nat k) -> good_batch p k -> k <> n ->
    dk_file dk2 path2 = Some file -> test_data a p M2 dk2 root2 k test2 item3 label3 -> 0 < full test2 k < mc_turns M2 ->
    let r := main a M2 (prog2 :: "test" :: root2 :: b2 :: path2 :: more2) dk2 in
    (r = FThrow \/ r = FUndefined) /\ (p = iris \/ p = mnist -> r = FUndefined).
Proof.
  intros a p M dk prog root b e f path more n epochs freq train_set item1 label1 test_set item2 label2 AP SM RB RE RF GB FQ BD LE.
  destruct (run_commands a p M dk root n epochs freq path train_set item1 label1 test_set item2 label2 AP SM GB BD LE FQ) as (es & m & s & s' & out & file & CO & ST & TR & SV & _ & TM & LDX & _).
  exists m, (ts_info (l_ts s')), (out ++ [Saved]), file, (write_file M dk path file). split; [|split; [exact SV|split]].
  - unfold main, arg_int, arg. cbn [nth_error fbind]. rewrite (atoi_reads _ _ RB), (atoi_reads _ _ RE), (atoi_reads _ _ RF). cbn [of_res fbind String.eqb Ascii.eqb Bool.eqb]. exact TM.
  - intros W. unfold write_file. rewrite W. split; cbn [dk_file]; [rewrite String.eqb_refl; reflexivity|]. intros other NE. destruct (String.eqb_spec other path); [contradiction|reflexivity].
  - intros M2 dk2 prog2 root2 b2 path2 more2 k test2 item3 label3 SM2 SF EX RB2 GK NK DF TD FT.
    refine (other_command a p (mc_draws M) M2 n file AP GB SM2 (LDX M2 SM2 SF EX ltac:(lia)) dk2 prog2 root2 b2 path2 more2 k test2 item3 label3 RB2 GK NK DF TD FT).
Qed.
Print Assumptions C65_finding_other_batch_sizes.

(** ** Example: the iris program with five rows for training and three for testing, two at a time. *)
Definition ex65_machine (bits : R -> Z) (value : Z -> R) : machine :=
  mkMachine Z (cyc 2) 0%Z (fun l => l) 2 3 ex_world kahn ex59_I (fun _ => 0%R) bits value (fun _ => true) (fun b => b) (fun c => c) (fun d => d)
    (fun _ => 1%R) (fun _ => Missing) (fun _ => Missing) (fun _ l => l).
Definition ex65_disk : disk :=
  mkDisk (fun path => if String.eqb path "d/train/iris.csv" then Some (list_ascii_of_string (csv "a,b,c,d,e" (ex_rows ++ firstn 2 ex_rows) true))
                      else if String.eqb path "d/test/iris.csv" then Some (list_ascii_of_string (csv "a,b,c,d,e" ex_rows false)) else None)
    (fun _ => None) (fun path => String.eqb path "m.bin").

Lemma ex65_sound bits value : sound_machine (ex65_machine bits value).
Proof.
  destruct C57_nonvacuous as (_ & _ & _ & SRT & _ & _ & _ & IR & PRM & _ & _ & _ & _ & HF & HA & _).
  constructor; cbn [ex65_machine mc_next mc_hash mc_world mc_order mc_cfg mc_dict mc_can]; try assumption; try reflexivity.
  - intros c. split; [reflexivity|]. split; [reflexivity|]. split; [apply Permutation_refl|]. induction (c_ops c); constructor; auto.
Qed.
Lemma ex65_reads : reads "2" 2 /\ reads " +7x" 7 /\ reads "-3" (-3) /\ reads "x" 0 /\ ~ (exists v, reads "4294967296" v).
Proof.
  split; [|split; [|split; [|split]]].
  - left. split; [|split; [discriminate|reflexivity]]. exists [], "", [2], "". split; [reflexivity|]. split; [constructor|]. split; [discriminate|]. split; [repeat constructor; lia|]. split; [exact Logic.I|].
    left. split; [cbn; auto|reflexivity].
  - left. split; [|split; [discriminate|reflexivity]]. exists [" "%char], "+", [7], "x". split; [reflexivity|]. split; [repeat constructor; left; reflexivity|]. split; [discriminate|]. split; [repeat constructor; lia|].
    split; [none|]. left. split; [cbn; auto|reflexivity].
  - left. split; [|split; [discriminate|reflexivity]]. exists [], "-", [3], "". split; [reflexivity|]. split; [constructor|]. split; [discriminate|]. split; [repeat constructor; lia|]. split; [exact Logic.I|].
    right. split; reflexivity.
  - right. split; [|reflexivity]. split; [none|cbn; lia].
  - intros (v & H). apply atoi_reads in H. vm_compute in H. discriminate H.
Qed.

Example C65_nonvacuous :
  exists bits value out file acc dk',
    let M := ex65_machine bits value in
    sound_machine M /\ good_batch iris 2 /\
    main iris_app M ["iris"; "train"; "d/"; "2"; " +7x"; "-3"; "m.bin"] ex65_disk = FDone (out ++ [Saved], dk') /\ dk_file dk' "m.bin" = Some file /\
    main iris_app M ["iris"; "test"; "d/"; "2"; "m.bin"] dk' = FDone ([Accuracy (Some acc)], dk') /\ (0 <= acc <= 1)%R /\
    main iris_app M ["iris"; "test"; "d/"; "3"; "m.bin"] dk' = FUndefined /\
    main iris_app M ["iris"; "train"; "d/"; "2"; " +7x"; "x"; "m.bin"] ex65_disk = FUndefined /\
    main iris_app M ["iris"; "train"; "d/"; "2"; "x"; "-3"; "m.bin"; "more"] ex65_disk <> FUndefined /\
    (exists out2, main iris_app M ["iris"; "train"; "d/"; "2"; " +7x"; "-3"; "elsewhere"] ex65_disk = FDone (out2 ++ [Saved], ex65_disk)) /\
    (exists file0, main iris_app M ["iris"; "train"; "e/"; "2"; "2"; "-3"; "m.bin"] ex65_disk =
       FDone ([Epoch 0; Loss None; Accuracy None; Epoch 1; Loss None; Accuracy None; Saved], write_file M ex65_disk "m.bin" file0)) /\
    main mnist_app M ["mnist"; "train"; "d/"; "2"; "2"; "-3"; "m.bin"] ex65_disk = FThrow /\
    main iris_app M ["iris"; "predict"; "d/"; "2"] ex65_disk = FThrow.
Proof.
  destruct C57_nonvacuous as (IP & _ & RM & SRT & OPT & _ & _ & IR & PRM & EN & _ & _ & _ & HF & HA & _).
  destruct ex65_reads as (R2 & R7 & R3 & RX & _).
  assert (GB : good_batch iris 2) by (split; [lia|exact RM]).
  assert (ROWS : Forall good_row ex_rows) by apply C60_nonvacuous.
  assert (ROWS5 : Forall good_row (ex_rows ++ firstn 2 ex_rows)).
  { apply Forall_app. split; [exact ROWS|]. apply Forall_forall. intros x Hx. rewrite Forall_forall in ROWS. apply ROWS. cbn in Hx |- *. tauto. }
  assert (HD : without "010" "a,b,c,d,e") by none.
  set (M0 := ex65_machine (fun _ => 0%Z) (fun _ => 0%R)).
  destruct (C65_iris_data M0 ex65_disk "d/" "a,b,c,d,e" "a,b,c,d,e" (ex_rows ++ firstn 2 ex_rows) ex_rows true false 2 HD ROWS ltac:(unfold int_max; cbn; lia) eq_refl)
    as (ts & cl2 & S2 & _ & TD & BD). destruct (BD HD ROWS5 ltac:(unfold int_max; cbn; lia) eq_refl) as (tr & cl1 & S1 & _ & BD0). clear BD.
  assert (F1 : full tr 2 = 2) by (unfold full; rewrite S1; reflexivity). assert (F2 : full ts 2 = 1) by (unfold full; rewrite S2; reflexivity).
  assert (LE : long_enough M0 2 tr ts). { split; [|rewrite F1, F2; cbn; lia]. rewrite S1. exact EN. }
  assert (IA : In (iris_app, iris) apps) by (left; reflexivity).
  destruct (run_commands iris_app iris M0 ex65_disk "d/" 2 7 (-3) "m.bin" tr _ _ ts _ _ IA (ex65_sound _ _) GB BD0 LE ltac:(discriminate)) as (es0' & m0 & s0 & s0' & out0 & file0 & _ & _ & _ & _ & TM0 & _).
  destruct BD0 as (BO & LA1 & LA2). pose proof LE as (ENO & T1 & T2).
  destruct (C57_samples_build_their_networks iris IP ex59_I 2 ltac:(lia) RM) as (NET & CLS).
  destruct (C59_training_keeps_models_savable unit unit Z (cyc 2) (fun l => l) 2 3 ex_world kahn (sp_net iris ex59_I) (sp_opt iris) 2 3 [4] (sp_table iris 2) ex59_I 7 (-3)
    tr _ cl1 ts _ cl2 (fun _ => 0%R) tt tt 0%Z _ _ _ _ NET CLS SRT OPT ltac:(unfold int_max; cbn; lia) LA1 LA2 IR PRM ENO T1 T2 ltac:(discriminate) HF HA ltac:(lia) TM0) as (CO & VS & VL & _).
  assert (EM : ex59_made = (es0', m0)) by (unfold ex59_made; rewrite CO; reflexivity).
  destruct (codec_exists (floats_of m0 (ts_info (l_ts s0')))) as (bits & value & EX).
  { unfold floats_of. rewrite app_length.
    assert (L1 : length (flat_map (fun e => tdat (snd e)) (state_view m0 (ts_info (l_ts s0')))) = fold_right (fun e n => prodN (snd e) + n) 0 (map (fun e => (fst e, tsh (snd e))) (state_view m0 (ts_info (l_ts s0'))))).
    { clear -VL. induction VL as [|e t H _ IH]; [reflexivity|]. cbn [flat_map map fold_right fst snd]. rewrite app_length, IH, H. reflexivity. }
    rewrite L1, VS. pose proof ex59_length as EL. rewrite EM in EL. cbn [fst snd] in EL. rewrite Nat.add_comm. exact EL. }
  set (M := ex65_machine bits value).
  assert (BD1 : both_data iris_app iris M ex65_disk "d/" 2 tr (row_item (mc_atof M) (ex_rows ++ firstn 2 ex_rows) cl1) cl1 ts (row_item (mc_atof M) ex_rows cl2) cl2) by exact (conj BO (conj LA1 LA2)).
  assert (LE1 : long_enough M 2 tr ts) by exact LE.
  destruct (run_commands iris_app iris M ex65_disk "d/" 2 7 (-3) "m.bin" tr _ _ ts _ _ IA (ex65_sound _ _) GB BD1 LE1 ltac:(discriminate)) as (es1 & m & s & s' & out & file & _ & _ & _ & SV & TM & TR & LDX & K).
  assert (SAME : m0 = m /\ ts_info (l_ts s0') = ts_info (l_ts s')).
  { change (train_main (cyc 2) (fun l => l) 2 3 ex_world kahn (sp_net iris ex59_I) (sp_opt iris) 2 7 (-3) tr ts (fun _ => 0%R) tt tt 0%Z = FDone ((out ++ [Saved])%list, es1, m, ts_info (l_ts s'))) in TM.
    change (train_main (cyc 2) (fun l => l) 2 3 ex_world kahn (sp_net iris ex59_I) (sp_opt iris) 2 7 (-3) tr ts (fun _ => 0%R) tt tt 0%Z = FDone ((out0 ++ [Saved])%list, es0', m0, ts_info (l_ts s0'))) in TM0.
    rewrite TM in TM0. injection TM0 as _ _ E3 E4. split; congruence. }
  destruct SAME as (-> & SI). rewrite SI in EX.
  assert (W : write_file M ex65_disk "m.bin" file = mkDisk (fun q => if String.eqb q "m.bin" then Some file else dk_file ex65_disk q) (fun _ => None) (fun path => String.eqb path "m.bin")) by reflexivity.
  set (dk' := write_file M ex65_disk "m.bin" file) in *.
  assert (TD1 : test_data iris_app iris M dk' "d/" 2 ts (row_item (mc_atof M) ex_rows cl2) cl2).
  { destruct TD as ((s9 & O9) & L9). split; [|exact L9]. exists s9. cbn [ap_open iris_app ap_test] in O9 |- *. rewrite W. exact O9. }
  destruct (K M dk' "d/" "m.bin" ts _ _ (ex65_sound _ _) (conj eq_refl eq_refl) EX ltac:(rewrite W; reflexivity) TD1 T2) as (acc & scores & TE & _ & ME & _).
  unfold measured in ME. rewrite F2 in ME. destruct ME as (best & v & _ & -> & SH).
  exists bits, value, out, file, v, dk'. cbv zeta. fold M. split; [apply ex65_sound|]. split; [exact GB|].
  split. { unfold main, arg_int, arg. cbn [nth_error fbind]. rewrite (atoi_reads _ _ R2), (atoi_reads _ _ R7), (atoi_reads _ _ R3). exact TR. }
  split; [rewrite W; reflexivity|].
  split. { unfold main, arg_int, arg. cbn [nth_error fbind]. rewrite (atoi_reads _ _ R2). exact TE. }
  split; [exact (share_01 0%Z ex_flower ex_flower (fun _ => 0) (1 * 2) _ v ltac:(lia) SH)|].
  split. { assert (R1 : reads "3" (Z.of_nat 3)).
    { left. split; [|split; [discriminate|reflexivity]]. exists [], "", [3], "". split; [reflexivity|]. split; [constructor|]. split; [discriminate|]. split; [repeat constructor; lia|]. split; [exact Logic.I|].
      left. split; [cbn; auto|reflexivity]. }
    destruct (C65_iris_data M dk' "d/" "a,b,c,d,e" "a,b,c,d,e" (ex_rows ++ firstn 2 ex_rows) ex_rows true false 3 HD ROWS ltac:(unfold int_max; cbn; lia) ltac:(rewrite W; reflexivity))
      as (ts1 & cl3 & S3 & _ & TD3 & _).
    assert (F3 : full ts1 3 = 1) by (unfold full; rewrite S3; reflexivity).
    refine (proj2 (other_command iris_app iris (mc_draws M) M 2 file IA GB (ex65_sound _ _) (LDX M (ex65_sound _ _) (conj eq_refl eq_refl) EX ltac:(cbn; lia)) dk' "iris" "d/" "3" "m.bin" [] 3 ts1 _ _
      R1 _ ltac:(discriminate) ltac:(rewrite W; reflexivity) TD3 _) (or_introl eq_refl)); [split; [lia|unfold int_max; cbn; lia]|]. rewrite F3. cbn. lia. }
  split; [refine (C65_no_frequency_is_undefined iris_app iris M ex65_disk "iris" "d/" "2" " +7x" "x" "m.bin" [] 2 7 tr _ _ ts _ _ IA (ex65_sound _ _) R2 R7 RX GB BD1 LE1 ltac:(lia) _); rewrite F1; lia|].
  split. { destruct (C65_no_epochs_saves_the_new_network iris_app iris M ex65_disk "iris" "d/" "2" "x" "-3" "m.bin" ["more"] 2 0 (-3) tr _ _ ts _ _ IA (ex65_sound _ _) R2 RX R3 GB ltac:(discriminate) BD1 LE1 ltac:(lia)) as (? & ? & ? & ? & _ & _ & E).
    rewrite E. discriminate. }
  split; [exact (C65_unwritable_file_is_not_noticed iris_app iris M ex65_disk "iris" "d/" "2" " +7x" "-3" "elsewhere" [] 2 7 (-3) tr _ _ ts _ _ IA (ex65_sound _ _) R2 R7 R3 GB ltac:(discriminate) BD1 LE1 eq_refl)|].
  split. { destruct (C65_without_tables_nothing_is_learned M ex65_disk "iris" "e/" "2" "2" "-3" "m.bin" [] 2 2 (-3) (ex65_sound _ _) R2 R2 R3 GB ltac:(discriminate) ltac:(cbn; lia) eq_refl eq_refl) as (? & ? & ? & file2 & _ & _ & E).
    exists file2. exact E. }
  split; [refine (C65_missing_folder_throws mnist_app mnist M ex65_disk "mnist" "d/" "2" "2" "-3" "m.bin" [] 2 2 (-3) (or_intror (or_introl eq_refl)) _ (ex65_sound _ _) R2 R2 R3 _ eq_refl)|].
  { intros E. apply (f_equal ap_train) in E. discriminate E. }
  { split; [lia|unfold int_max; cbn; lia]. }
  apply (C65_arguments iris_app M ex65_disk "iris" "predict" "d/" "2" [] 2 R2); discriminate.
Qed.
