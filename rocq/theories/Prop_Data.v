(** C60: the datasets of the sample programs. *)
From Coq Require Import Reals String Ascii.
From Verif Require Import Base S_Tensor M_Tensor M_Image S_Image M_DataLoader S_DataLoader M_Layers M_Optim M_Loss M_Nn M_Graph M_Model M_Backend M_Train M_Sample
  S_Grad S_Loss S_Graph S_Run S_Fit S_Train S_Plain S_Desc S_Eval S_Build S_Sample M_Data S_Data P_Image P_Data P_Data2 P_Data3 Prop_Sample.
Local Open Scope string_scope.
Open Scope nat_scope.
Local Open Scope list_scope.

(** ** Iris *)
(** The table is read row by row: sample [j] is row [j], its label the species in the fifth field (0 for a name
    that is none of the three).  Reading one table does not change what the names mean for the next. *)
Theorem C60_iris_table_is_read :
  classifies species m_iris2label /\
  forall (atof : string -> R) (header : string) (rows : list (list string)) (final : bool) (m : labels),
  without "010" header -> Forall good_row rows -> classifies species m ->
  exists infos m' class,
    iris_open atof (Some (csv header rows final)) m = Ok (infos, m') /\ classifies species m' /\ length infos = length rows /\
    (forall j row, nth_error rows j = Some row -> exists name, nth_error row 4 = Some name /\ class_of species name (class (Z.of_nat j))) /\
    forall n, (Z.of_nat (length rows) + Z.of_nat n <= int_max)%Z -> labelled (iris_dataset infos) n 3 [4] (row_item atof rows class) class.
Proof. split; [exact iris_classifies|]. exact iris_file. Qed.
Print Assumptions C60_iris_table_is_read.

(** The iris program reads the table for testing, then the one for training, and trains on their rows. *)
Theorem C60_iris_program :
  forall (atof : string -> R) (header1 header2 : string) (rows1 rows2 : list (list string)) (final1 final2 : bool) (n : nat),
  without "010" header1 -> without "010" header2 -> Forall good_row rows1 -> Forall good_row rows2 ->
  (Z.of_nat (length rows1) + Z.of_nat n <= int_max)%Z -> (Z.of_nat (length rows2) + Z.of_nat n <= int_max)%Z ->
  exists infos1 infos2 m1 m2 class1 class2,
    iris_open atof (Some (csv header2 rows2 final2)) m_iris2label = Ok (infos2, m2) /\
    iris_open atof (Some (csv header1 rows1 final1)) m2 = Ok (infos1, m1) /\
    (forall j row, nth_error rows1 j = Some row -> exists name, nth_error row 4 = Some name /\ class_of species name (class1 (Z.of_nat j))) /\
    (forall j row, nth_error rows2 j = Some row -> exists name, nth_error row 4 = Some name /\ class_of species name (class2 (Z.of_nat j))) /\
    trains_on iris n (iris_dataset infos1) (row_item atof rows1 class1) (iris_dataset infos2) (row_item atof rows2 class2) class2.
Proof.
  intros atof header1 header2 rows1 rows2 final1 final2 n W1 W2 F1 F2 B1 B2.
  destruct (iris_file atof header2 rows2 final2 m_iris2label W2 F2 iris_classifies) as (infos2 & m2 & class2 & E2 & C2 & _ & K2 & L2).
  destruct (iris_file atof header1 rows1 final1 m2 W1 F1 C2) as (infos1 & m1 & class1 & E1 & _ & _ & K1 & L1).
  exists infos1, infos2, m1, m2, class1, class2. split; [exact E2|]. split; [exact E1|]. split; [exact K1|]. split; [exact K2|].
  intros G next iter_order fuel turns world order I num_epochs freq junk g c rest t N0 RM SRT RNG PRM ENO T1 T2 FRQ HF HA.
  exact (C57_samples_train iris ltac:(right; left; reflexivity) unit unit G next iter_order fuel turns world order I n num_epochs freq _ _ class1 _ _ class2 junk tt tt g
    N0 RM SRT (L1 n B1) (L2 n B2) RNG PRM ENO T1 T2 FRQ HF HA).
Qed.
Print Assumptions C60_iris_program.

(** A row with fewer than five fields (a blank line, say) is read past its end. *)
Theorem C60_short_row_is_undefined :
  forall (atof : string -> R) (header : string) (rows : list (list string)) (bad : list string) (rest : list (list string)) (m : labels),
  without "010" header -> Forall good_row rows -> classifies species m -> bad <> [] -> length bad < 5 -> Forall field bad ->
  iris_open atof (Some (csv header (rows ++ bad :: rest) true)) m = UB.
Proof. exact iris_short. Qed.
Print Assumptions C60_short_row_is_undefined.

(** A file that cannot be opened is not noticed: the dataset is empty. *)
Theorem C60_missing_table_is_empty :
  forall (atof : string -> R) (m : labels), iris_open atof None m = Ok ([], m) /\ ds_size (iris_dataset []) = 0%Z.
Proof. intros atof m. split; reflexivity. Qed.
Print Assumptions C60_missing_table_is_empty.

(** ** MNIST *)
(** Folders named with the ten digits, pictures with 784 values: sample [j] is picture [j], its label the digit. *)
Theorem C60_mnist_folders_are_read :
  forall (png jpeg : string -> decoded) (ls : listing) (root : string) (dirs : list folder),
  holds_folders ls root dirs -> Forall (fun d => In (d_name d) digit_names) dirs ->
  all_decode png jpeg (fun i => (i_h i * i_w i * i_c i = 28 * 28)%Z) dirs ->
  exists m item label, mnist_open ls root = Ok m /\ length m = length (pictures dirs) /\
    delivers png jpeg grey (fun name k => nth_error digit_names k = Some name) dirs item label /\
    forall n, (Z.of_nat (length (pictures dirs)) + Z.of_nat n <= int_max)%Z -> labelled (mnist_dataset png jpeg m) n 10 [784] item label.
Proof. exact mnist_files. Qed.
Print Assumptions C60_mnist_folders_are_read.

Theorem C60_mnist_program :
  forall (png jpeg : string -> decoded) (ls : listing) (root1 root2 : string) (dirs1 dirs2 : list folder) (n : nat),
  holds_folders ls root1 dirs1 -> holds_folders ls root2 dirs2 -> Forall (fun d => In (d_name d) digit_names) (dirs1 ++ dirs2) ->
  all_decode png jpeg (fun i => (i_h i * i_w i * i_c i = 28 * 28)%Z) (dirs1 ++ dirs2) ->
  (Z.of_nat (length (pictures dirs1)) + Z.of_nat n <= int_max)%Z -> (Z.of_nat (length (pictures dirs2)) + Z.of_nat n <= int_max)%Z ->
  exists m1 m2 item1 item2 label1 label2,
    mnist_open ls root2 = Ok m2 /\ mnist_open ls root1 = Ok m1 /\
    delivers png jpeg grey (fun name k => nth_error digit_names k = Some name) dirs1 item1 label1 /\
    delivers png jpeg grey (fun name k => nth_error digit_names k = Some name) dirs2 item2 label2 /\
    trains_on mnist n (mnist_dataset png jpeg m1) item1 (mnist_dataset png jpeg m2) item2 label2.
Proof.
  intros png jpeg ls root1 root2 dirs1 dirs2 n H1 H2 G AD B1 B2. apply Forall_app in G. destruct G as [G1 G2].
  assert (AP : forall p, In p (pictures (dirs1 ++ dirs2)) <-> In p (pictures dirs1) \/ In p (pictures dirs2)) by (intros p; unfold pictures; rewrite flat_map_app; apply in_app_iff).
  destruct (mnist_files png jpeg ls root1 dirs1 H1 G1) as (m1 & item1 & label1 & E1 & _ & D1 & L1); [intros path name IN; apply (AD path name), AP; auto|].
  destruct (mnist_files png jpeg ls root2 dirs2 H2 G2) as (m2 & item2 & label2 & E2 & _ & D2 & L2); [intros path name IN; apply (AD path name), AP; auto|].
  exists m1, m2, item1, item2, label1, label2. split; [exact E2|]. split; [exact E1|]. split; [exact D1|]. split; [exact D2|].
  intros T next iter_order fuel turns world order I num_epochs freq junk g c rest t N0 RM SRT RNG PRM ENO T1 T2 FRQ HF HA.
  exact (C57_samples_train mnist ltac:(left; reflexivity) unit unit T next iter_order fuel turns world order I n num_epochs freq _ _ label1 _ _ label2 junk tt tt g
    N0 RM SRT (L1 n B1) (L2 n B2) RNG PRM ENO T1 T2 FRQ HF HA).
Qed.
Print Assumptions C60_mnist_program.

(** Anything else beside the folders, a hidden file say, makes the constructor throw. *)
Theorem C60_mnist_foreign_entry_throws :
  forall (ls : listing) (root : string) (before : list (string * string)) (path name : string) (rest : list (string * string)),
  ls root = Some (before ++ (path, name) :: rest) -> Forall (fun e => ls (fst e) <> None /\ In (snd e) digit_names) before -> no_number name ->
  mnist_open ls root = Throw.
Proof. intros ls root before path name rest R F N. exact (mnist_foreign ls root before path name rest R F (stoi_refuses name N)). Qed.
Print Assumptions C60_mnist_foreign_entry_throws.

(** ** CIFAR-10 *)
(** Sample [j] is picture [j] as three planes; its label is the class the folder names (0 for an unknown name). *)
Theorem C60_cifar10_folders_are_read :
  classifies cifar10_classes label2digit /\
  forall (png jpeg : string -> decoded) (ls : listing) (root : string) (dirs : list folder) (m0 : labels),
  holds_folders ls root dirs -> classifies cifar10_classes m0 -> all_decode png jpeg colour dirs ->
  exists m m1 item label, cifar10_open ls root m0 = Ok (m, m1) /\ classifies cifar10_classes m1 /\ length m = length (pictures dirs) /\
    delivers png jpeg (planes 32 32) (class_of cifar10_classes) dirs item label /\
    forall n, (Z.of_nat (length (pictures dirs)) + Z.of_nat n <= int_max)%Z -> labelled (cifar_dataset png jpeg m) n 10 [3; 32; 32] item label.
Proof. split; [exact cifar10_classifies|exact cifar10_files]. Qed.
Print Assumptions C60_cifar10_folders_are_read.

Theorem C60_cifar10_program :
  forall (png jpeg : string -> decoded) (ls : listing) (root1 root2 : string) (dirs1 dirs2 : list folder) (n : nat),
  holds_folders ls root1 dirs1 -> holds_folders ls root2 dirs2 -> all_decode png jpeg colour (dirs1 ++ dirs2) ->
  (Z.of_nat (length (pictures dirs1)) + Z.of_nat n <= int_max)%Z -> (Z.of_nat (length (pictures dirs2)) + Z.of_nat n <= int_max)%Z ->
  exists i1 i2 m1 m2 item1 item2 label1 label2,
    cifar10_open ls root2 label2digit = Ok (i2, m2) /\ cifar10_open ls root1 m2 = Ok (i1, m1) /\
    delivers png jpeg (planes 32 32) (class_of cifar10_classes) dirs1 item1 label1 /\
    delivers png jpeg (planes 32 32) (class_of cifar10_classes) dirs2 item2 label2 /\
    trains_on cifar10 n (cifar_dataset png jpeg i1) item1 (cifar_dataset png jpeg i2) item2 label2.
Proof.
  intros png jpeg ls root1 root2 dirs1 dirs2 n H1 H2 AD B1 B2.
  assert (AP : forall p, In p (pictures (dirs1 ++ dirs2)) <-> In p (pictures dirs1) \/ In p (pictures dirs2)) by (intros p; unfold pictures; rewrite flat_map_app; apply in_app_iff).
  destruct (cifar10_files png jpeg ls root2 dirs2 label2digit H2 cifar10_classifies) as (i2 & m2 & item2 & label2 & E2 & C2 & _ & D2 & L2); [intros path name IN; apply (AD path name), AP; auto|].
  destruct (cifar10_files png jpeg ls root1 dirs1 m2 H1 C2) as (i1 & m1 & item1 & label1 & E1 & _ & _ & D1 & L1); [intros path name IN; apply (AD path name), AP; auto|].
  exists i1, i2, m1, m2, item1, item2, label1, label2. split; [exact E2|]. split; [exact E1|]. split; [exact D1|]. split; [exact D2|].
  intros T next iter_order fuel turns world order I num_epochs freq junk g c rest t N0 RM SRT RNG PRM ENO T1 T2 FRQ HF HA.
  exact (C57_samples_train cifar10 ltac:(right; right; left; reflexivity) unit unit T next iter_order fuel turns world order I n num_epochs freq _ _ label1 _ _ label2 junk tt tt g
    N0 RM SRT (L1 n B1) (L2 n B2) RNG PRM ENO T1 T2 FRQ HF HA).
Qed.
Print Assumptions C60_cifar10_program.

(** ** CIFAR-100 *)
(** The folders for testing are read, then those for training.  Both use one numbering of the names, different
    names get different numbers, and with at most [c] names the numbers are below [c]. *)
Theorem C60_cifar100_folders_are_read :
  forall (png jpeg : string -> decoded) (ls : listing) (c : nat) (root1 root2 : string) (dirs1 dirs2 : list folder),
  length (nodup string_dec (map d_name (dirs2 ++ dirs1))) <= c -> (Z.of_nat c <= int_max)%Z ->
  holds_folders ls root1 dirs1 -> holds_folders ls root2 dirs2 -> all_decode png jpeg colour dirs1 -> all_decode png jpeg colour dirs2 ->
  exists i1 s1 i2 s2 (class : string -> nat),
    cifar100_open ls root2 dir2label0 = Ok (i2, s2) /\ cifar100_open ls root1 s2 = Ok (i1, s1) /\
    length i1 = length (pictures dirs1) /\ length i2 = length (pictures dirs2) /\
    (forall a b, In a (map snd (pictures (dirs2 ++ dirs1))) -> In b (map snd (pictures (dirs2 ++ dirs1))) -> class a = class b -> a = b) /\
    exists item1 label1 item2 label2,
      delivers png jpeg (planes 32 32) (fun name k => k = class name) dirs1 item1 label1 /\
      delivers png jpeg (planes 32 32) (fun name k => k = class name) dirs2 item2 label2 /\
      forall n, (Z.of_nat (length (pictures dirs1)) + Z.of_nat n <= int_max)%Z -> (Z.of_nat (length (pictures dirs2)) + Z.of_nat n <= int_max)%Z ->
        labelled (cifar_dataset png jpeg i1) n c [3; 32; 32] item1 label1 /\ labelled (cifar_dataset png jpeg i2) n c [3; 32; 32] item2 label2.
Proof.
  intros png jpeg ls c root1 root2 dirs1 dirs2 LC CI H1 H2 A1 A2.
  destruct (cifar100_both png jpeg ls c root2 dirs2 root1 dirs1 LC CI H2 H1 A2 A1) as (i2 & s2 & i1 & s1 & class & E2 & E1 & L2 & L1 & INJ & item2 & label2 & item1 & label1 & D2 & D1 & LB).
  exists i1, s1, i2, s2, class. split; [exact E2|]. split; [exact E1|]. split; [exact L1|]. split; [exact L2|]. split; [exact INJ|].
  exists item1, label1, item2, label2. split; [exact D1|]. split; [exact D2|]. intros n B1 B2. destruct (LB n B2 B1). auto.
Qed.
Print Assumptions C60_cifar100_folders_are_read.

Theorem C60_cifar100_program :
  forall (png jpeg : string -> decoded) (ls : listing) (root1 root2 : string) (dirs1 dirs2 : list folder) (n : nat),
  length (nodup string_dec (map d_name (dirs2 ++ dirs1))) <= 100 ->
  holds_folders ls root1 dirs1 -> holds_folders ls root2 dirs2 -> all_decode png jpeg colour dirs1 -> all_decode png jpeg colour dirs2 ->
  (Z.of_nat (length (pictures dirs1)) + Z.of_nat n <= int_max)%Z -> (Z.of_nat (length (pictures dirs2)) + Z.of_nat n <= int_max)%Z ->
  exists i1 s1 i2 s2 (class : string -> nat) item1 label1 item2 label2,
    cifar100_open ls root2 dir2label0 = Ok (i2, s2) /\ cifar100_open ls root1 s2 = Ok (i1, s1) /\
    (forall a b, In a (map snd (pictures (dirs2 ++ dirs1))) -> In b (map snd (pictures (dirs2 ++ dirs1))) -> class a = class b -> a = b) /\
    delivers png jpeg (planes 32 32) (fun name k => k = class name) dirs1 item1 label1 /\
    delivers png jpeg (planes 32 32) (fun name k => k = class name) dirs2 item2 label2 /\
    trains_on cifar100 n (cifar_dataset png jpeg i1) item1 (cifar_dataset png jpeg i2) item2 label2.
Proof.
  intros png jpeg ls root1 root2 dirs1 dirs2 n LC H1 H2 A1 A2 B1 B2.
  destruct (C60_cifar100_folders_are_read png jpeg ls 100 root1 root2 dirs1 dirs2 LC ltac:(unfold int_max; lia) H1 H2 A1 A2)
    as (i1 & s1 & i2 & s2 & class & E2 & E1 & _ & _ & INJ & item1 & label1 & item2 & label2 & D1 & D2 & LB).
  destruct (LB n B1 B2) as [L1 L2].
  exists i1, s1, i2, s2, class, item1, label1, item2, label2. split; [exact E2|]. split; [exact E1|]. split; [exact INJ|]. split; [exact D1|]. split; [exact D2|].
  intros T next iter_order fuel turns world order I num_epochs freq junk g c rest t N0 RM SRT RNG PRM ENO T1 T2 FRQ HF HA.
  exact (C57_samples_train cifar100 ltac:(right; right; right; left; reflexivity) unit unit T next iter_order fuel turns world order I n num_epochs freq _ _ label1 _ _ label2 junk tt tt g
    N0 RM SRT L1 L2 RNG PRM ENO T1 T2 FRQ HF HA).
Qed.
Print Assumptions C60_cifar100_program.

(** The numbers come from the order in which the file system lists the folders: with the same two folders listed
    the other way round (when the saved model is tested elsewhere, say) they are exchanged. *)
Theorem C60_cifar100_numbers_depend_on_the_listing :
  forall (ls1 ls2 : listing) (root pa pb a b : string) (fa fb : string * string), a <> b ->
  ls1 root = Some [(pa, a); (pb, b)] -> ls2 root = Some [(pb, b); (pa, a)] ->
  ls1 pa = Some [fa] -> ls2 pa = Some [fa] -> ls1 pb = Some [fb] -> ls2 pb = Some [fb] ->
  exists s1 s2, cifar100_open ls1 root dir2label0 = Ok ([(fst fa, 0%Z); (fst fb, 1%Z)], s1) /\
                cifar100_open ls2 root dir2label0 = Ok ([(fst fb, 0%Z); (fst fa, 1%Z)], s2).
Proof. exact cifar100_order. Qed.
Print Assumptions C60_cifar100_numbers_depend_on_the_listing.

(** ** Pictures of another size: pulling them throws, and nothing is written. *)
Theorem C60_other_sizes_throw :
  forall (png jpeg : string -> decoded) (m : list data_info) (j : nat) (path : string) (v : Z) (i : image) (X y : list R),
  nth_error m j = Some (path, v) -> decodes png jpeg path i -> decoded_well i ->
  ((i_h i * i_w i * i_c i <> 28 * 28)%Z -> length X = 784 -> ds_pull (mnist_dataset png jpeg m) tt (Z.of_nat j) X y = (tt, (X, y), false)) /\
  ((i_h i * i_w i * i_c i <> 3 * 32 * 32)%Z -> length X = 3 * 32 * 32 -> ds_pull (cifar_dataset png jpeg m) tt (Z.of_nat j) X y = (tt, (X, y), false)).
Proof.
  intros png jpeg m j path v i X y E D W. split; intros T L.
  - unfold mnist_dataset, image_dataset. cbn [ds_pull]. rewrite (image_pull_other png jpeg false [(28 * 28)%Z] m j path v i X y); try assumption; try reflexivity; [repeat constructor; lia|exact grey_fits].
  - unfold cifar_dataset, image_dataset. cbn [ds_pull]. rewrite (image_pull_other png jpeg true [3%Z; 32%Z; 32%Z] m j path v i X y); try assumption; try reflexivity; [repeat constructor; lia|exact colour_fits].
Qed.
Print Assumptions C60_other_sizes_throw.

(** ** Examples *)
Definition ex_rows : list (list string) := [["5.1"; "3.5"; "1.4"; "0.2"; "setosa"]; ["6.3"; "2.5"; "5.0"; "1.9"; "virginica"]; ["7.0"; "3.2"; "4.7"; "1.4"; "Versicolor"; ""]].
Definition ex_picture (h w c : Z) : image := mkI h w c (repeat (repeat 7%Z (Z.to_nat (w * c))) (Z.to_nat h)).
Definition ex_png (path : string) : decoded := if String.eqb path "m/7/a.png" then Image (ex_picture 28 28 1) else Image (ex_picture 32 32 3).
Definition ex_ls : listing := fun p =>
  if String.eqb p "m" then Some [("m/7", "7")] else if String.eqb p "m/7" then Some [("m/7/a.png", "a.png")]
  else if String.eqb p "c" then Some [("c/cat", "cat"); ("c/dog", "dog"); ("c/axolotl", "axolotl")]
  else if String.eqb p "c/cat" then Some [("c/cat/1.png", "1.png"); ("c/cat/2.png", "2.png")]
  else if String.eqb p "c/dog" then Some [("c/dog/3.png", "3.png")] else if String.eqb p "c/axolotl" then Some [("c/axolotl/4.png", "4.png")]
  else if String.eqb p "h" then Some [("h/.DS_Store", ".DS_Store"); ("m/7", "7")] else None.
Definition ex_dirs : list folder := [mkFolder "c/cat" "cat" [("c/cat/1.png", "1.png"); ("c/cat/2.png", "2.png")];
  mkFolder "c/dog" "dog" [("c/dog/3.png", "3.png")]; mkFolder "c/axolotl" "axolotl" [("c/axolotl/4.png", "4.png")]].

Lemma ex_png_ext (p : string) : has_extension (p ++ ".png") "png".
Proof. split; [|right; exists p; reflexivity]. intros a b H. destruct a as [|x [|y [|z [|w a]]]]; discriminate. Qed.

Ltac none := let H := fresh in intros H; cbn in H; repeat (destruct H as [H|H]; [discriminate|]); exact H.

Example C60_nonvacuous :
  without "010" "a,b,c,d,e" /\ Forall good_row ex_rows /\ classifies species m_iris2label /\
  (forall atof, iris_open atof (Some (csv "a,b,c,d,e" ex_rows true)) m_iris2label =
     Ok ([mkIris (atof "5.1") (atof "3.5") (atof "1.4") (atof "0.2") 0; mkIris (atof "6.3") (atof "2.5") (atof "5.0") (atof "1.9") 2;
          mkIris (atof "7.0") (atof "3.2") (atof "4.7") (atof "1.4") 0], m_iris2label ++ [("Versicolor", 0%Z)])) /\
  (forall atof, iris_open atof (Some (csv "a,b,c,d,e" (ex_rows ++ [[""]]) true)) m_iris2label = UB) /\
  holds_folders ex_ls "m" [mkFolder "m/7" "7" [("m/7/a.png", "a.png")]] /\
  all_decode ex_png (fun _ => Missing) (fun i => (i_h i * i_w i * i_c i = 28 * 28)%Z) [mkFolder "m/7" "7" [("m/7/a.png", "a.png")]] /\
  mnist_open ex_ls "m" = Ok [("m/7/a.png", 7%Z)] /\ mnist_open ex_ls "h" = Throw /\
  holds_folders ex_ls "c" ex_dirs /\ all_decode ex_png (fun _ => Missing) colour ex_dirs /\
  (exists m', cifar10_open ex_ls "c" label2digit = Ok ([("c/cat/1.png", 3%Z); ("c/cat/2.png", 3%Z); ("c/dog/3.png", 5%Z); ("c/axolotl/4.png", 0%Z)], m')) /\
  length (nodup string_dec (map d_name (ex_dirs ++ ex_dirs))) <= 100 /\
  (exists s', cifar100_open ex_ls "c" dir2label0 = Ok ([("c/cat/1.png", 0%Z); ("c/cat/2.png", 0%Z); ("c/dog/3.png", 1%Z); ("c/axolotl/4.png", 2%Z)], s')).
Proof.
  assert (DW : forall h w c, (0 < h)%Z -> (0 < w)%Z -> (0 < c)%Z -> S_Tensor.fits [h; w; c] -> decoded_well (ex_picture h w c)).
  { intros h w c H W C F. split; [exact H|]. split; [exact W|]. split; [exact C|]. split; [exact F|]. cbn [ex_picture i_rows i_h i_w i_c]. split; [now rewrite repeat_length|].
    apply Forall_forall. intros r HR. apply repeat_spec in HR. subst r. rewrite repeat_length. lia. }
  assert (F1 : S_Tensor.fits [28; 28; 1]%Z) by (intros [|[|[|[|k]]]]; cbn [firstn]; unfold int_min, int_max; cbn; lia).
  assert (F2 : S_Tensor.fits [32; 32; 3]%Z) by (intros [|[|[|[|k]]]]; cbn [firstn]; unfold int_min, int_max; cbn; lia).
  split; [none|]. split; [|split; [exact iris_classifies|split; [reflexivity|split; [reflexivity|]]]].
  { unfold ex_rows. repeat apply Forall_cons; try apply Forall_nil; (split; [cbn; lia|]); repeat apply Forall_cons; try apply Forall_nil; (split; none). }
  split; [split; [reflexivity|]; repeat apply Forall_cons; try apply Forall_nil; reflexivity|].
  split. { intros path name [[= <- <-]|[]]. exists (ex_picture 28 28 1). split; [left; split; [exact (ex_png_ext "m/7/a")|reflexivity]|]. split; [apply DW; try lia; exact F1|reflexivity]. }
  split; [reflexivity|]. split; [reflexivity|]. split; [split; [reflexivity|]; repeat apply Forall_cons; try apply Forall_nil; reflexivity|].
  split. { intros path name [[= <- <-]|[[= <- <-]|[[= <- <-]|[[= <- <-]|[]]]]]; exists (ex_picture 32 32 3);
    (split; [left; split; [first [exact (ex_png_ext "c/cat/1")|exact (ex_png_ext "c/cat/2")|exact (ex_png_ext "c/dog/3")|exact (ex_png_ext "c/axolotl/4")]|reflexivity]|]); (split; [apply DW; try lia; exact F2|repeat split; reflexivity]). }
  split; [eexists; reflexivity|]. split; [cbn; lia|]. eexists; reflexivity.
Qed.
