(** Proofs about the datasets of the samples: the three kinds of labels, and failures. *)
From Coq Require Import Reals String Ascii.
From Verif Require Import Base BaseFacts S_Tensor M_Tensor S_Heap P_Tensor M_Image S_Image M_DataLoader S_DataLoader M_Graph M_Layers S_Plain S_Sample M_Data S_Data P_Image P_Data P_Data2.
Local Open Scope string_scope.
Open Scope nat_scope.
Local Open Scope list_scope.

Lemma Forall2_weaken {A B} (P Q : A -> B -> Prop) l1 l2 : (forall a b, P a b -> Q a b) -> Forall2 P l1 l2 -> Forall2 Q l1 l2.
Proof. intros H. induction 1; constructor; auto. Qed.

Lemma grey_fits : fits [(28 * 28)%Z].
Proof. intros [|[|[|[|n]]]]; cbn [firstn]; unfold int_min, int_max; cbn; lia. Qed.

(** ** MNIST *)
Lemma stoi_digit k name : nth_error digit_names k = Some name -> stoi name = Ok (Z.of_nat k).
Proof. do 10 (destruct k as [|k]; [intros [= <-]; reflexivity|]). destruct k; discriminate. Qed.

Lemma mnist_files png jpeg ls root dirs : holds_folders ls root dirs -> Forall (fun d => In (d_name d) digit_names) dirs ->
  all_decode png jpeg (fun i => (i_h i * i_w i * i_c i = 28 * 28)%Z) dirs ->
  exists m item label, mnist_open ls root = Ok m /\ length m = length (pictures dirs) /\
    delivers png jpeg grey (fun name k => nth_error digit_names k = Some name) dirs item label /\
    forall n, (Z.of_nat (length (pictures dirs)) + Z.of_nat n <= int_max)%Z -> labelled (mnist_dataset png jpeg m) n 10 [784] item label.
Proof.
  intros H G AD.
  destruct (open_root_ok ls (fun name (s : unit) => l <- stoi name ;; Ok (l, s)) (fun name => In name digit_names) (fun _ => True)
    (fun _ name k => nth_error digit_names k = Some name /\ k < 10)) with (root := root) (dirs := dirs) (s := tt) as ([] & m & E & _ & _ & F2).
  { intros name s IN _. apply In_nth_error in IN. destruct IN as (k & E). exists k, s. rewrite (stoi_digit k name E). split; [reflexivity|]. split; [exact Logic.I|].
    split; [|auto]. split; [exact E|]. change 10 with (length digit_names). apply nth_error_Some. congruence. }
  { exact H. }
  { apply Forall_map. exact G. }
  { exact Logic.I. }
  destruct (deliver png jpeg false [(28 * 28)%Z] [784] 10 (fun i => (i_h i * i_w i * i_c i = 28 * 28)%Z) grey (fun name k => nth_error digit_names k = Some name)
    eq_refl grey_fits ltac:(discriminate)) with (dirs := dirs) (m := m) as (L & item & label & D & LB).
  { intros i W T. split; [rewrite T; reflexivity|]. exact (pixels_show i W). }
  { exact AD. }
  { exact F2. }
  exists m, item, label. split; [unfold mnist_open; rewrite E; reflexivity|]. split; [exact L|]. split; [exact D|exact LB].
Qed.

(** A name that does not begin like a number. *)
Lemma stoi_refuses name : no_number name -> stoi name = Throw.
Proof.
  destruct name as [|a t]; [reflexivity|]. intros (IN & SP). cbn [list_ascii_of_string In] in IN.
  assert (H1 : is_space a = false).
  { unfold is_space. assert (nat_of_ascii a <> 32); [|lia]. intros H. apply IN. do 12 right. left. rewrite <- (ascii_nat_embedding a), H. reflexivity. }
  assert (H2 : digit a = None).
  { unfold digit. destruct ((48 <=? nat_of_ascii a) && (nat_of_ascii a <=? 57)) eqn:D; [|reflexivity]. exfalso. apply IN. rewrite <- (ascii_nat_embedding a).
    assert (C : 48 <= nat_of_ascii a <= 57) by lia. generalize (nat_of_ascii a) C. intros k K. do 48 (destruct k as [|k]; [lia|]). do 10 (destruct k as [|k]; [cbn; tauto|]). lia. }
  assert (H3 : a <> "-"%char) by (intros ->; apply IN; tauto). assert (H4 : a <> "+"%char) by (intros ->; apply IN; tauto). cbn [stoi]. rewrite H1.
  destruct (Ascii.eqb_spec a "-"); [congruence|]. destruct (Ascii.eqb_spec a "+"); [congruence|]. cbn [number]. rewrite H2. reflexivity.
Qed.

Lemma open_dirs_throws {S} ls (label : string -> S -> res (Z * S)) : forall before name path rest s acc,
  Forall (fun e => ls (fst e) <> None /\ forall s, exists r, label (snd e) s = Ok r) before -> (forall s, label name s = Throw) ->
  open_dirs ls label (before ++ (path, name) :: rest) s acc = Throw.
Proof.
  induction before as [|[p q] before IH]; intros name path rest s acc F T; cbn [app open_dirs].
  - rewrite T. reflexivity.
  - inversion F as [|? ? [L O] F']; subst. cbn [fst snd] in *. destruct (O s) as ([l s'] & E). rewrite E. cbn [bind]. destruct (ls p); [|congruence]. apply IH; assumption.
Qed.

Lemma mnist_foreign ls root before path name rest :
  ls root = Some (before ++ (path, name) :: rest) -> Forall (fun e => ls (fst e) <> None /\ In (snd e) digit_names) before -> stoi name = Throw ->
  mnist_open ls root = Throw.
Proof.
  intros R F T. unfold mnist_open, open_root. rewrite R, open_dirs_throws; [reflexivity| |intros s; rewrite T; reflexivity].
  rewrite Forall_forall in F |- *. intros e HE. destruct (F e HE) as [L D]. split; [exact L|]. intros s. apply In_nth_error in D. destruct D as (k & D).
  rewrite (stoi_digit k _ D). cbn [bind]. eauto.
Qed.

(** ** CIFAR-10 *)
Lemma colour_fits : fits [3%Z; 32%Z; 32%Z].
Proof. intros [|[|[|[|n]]]]; cbn [firstn]; unfold int_min, int_max; cbn; lia. Qed.
Lemma colour_shows i : decoded_well i -> colour i -> (i_h i * i_w i * i_c i = prodZ [3%Z; 32%Z; 32%Z])%Z /\ planes 32 32 i (post true (pixels i)).
Proof. intros W (H1 & H2 & H3). split; [rewrite H1, H2, H3; reflexivity|]. exact (planar_shows 32 32 i W H1 H2 H3). Qed.

Lemma cifar10_files png jpeg ls root dirs m0 : holds_folders ls root dirs -> classifies cifar10_classes m0 -> all_decode png jpeg colour dirs ->
  exists m m1 item label, cifar10_open ls root m0 = Ok (m, m1) /\ classifies cifar10_classes m1 /\ length m = length (pictures dirs) /\
    delivers png jpeg (planes 32 32) (class_of cifar10_classes) dirs item label /\
    forall n, (Z.of_nat (length (pictures dirs)) + Z.of_nat n <= int_max)%Z -> labelled (cifar_dataset png jpeg m) n 10 [3; 32; 32] item label.
Proof.
  intros H C AD.
  destruct (open_root_ok ls (fun name m => Ok (label_at m name)) (fun _ => True) (classifies cifar10_classes)
    (fun _ name k => class_of cifar10_classes name k /\ k < 10)) with (root := root) (dirs := dirs) (s := m0) as (m1 & m & E & C1 & _ & F2).
  { intros name s _ Cs. destruct (Cs name) as (k & Ek & CL). exists k, (snd (label_at s name)). split; [rewrite <- Ek; destruct (label_at s name); reflexivity|].
    split; [apply classifies_next; exact Cs|]. split; [|auto]. split; [exact CL|]. exact (class_bound cifar10_classes name k ltac:(discriminate) CL). }
  { exact H. }
  { apply Forall_forall. auto. }
  { exact C. }
  destruct (deliver png jpeg true [3%Z; 32%Z; 32%Z] [3; 32; 32] 10 colour (planes 32 32) (class_of cifar10_classes)
    eq_refl colour_fits ltac:(reflexivity) colour_shows) with (dirs := dirs) (m := m) as (L & item & label & D & LB); [exact AD|exact F2|].
  exists m, m1, item, label. split; [exact E|]. split; [exact C1|]. split; [exact L|]. split; [exact D|exact LB].
Qed.

(** ** CIFAR-100 *)
Definition numbered (names : list string) : counted_labels := (Z.of_nat (length names), combine names (map Z.of_nat (seq 0 (length names)))).

Lemma lookup_at names : NoDup names -> forall k name, nth_error names k = Some name -> lookup (snd (numbered names)) name = Some (Z.of_nat k).
Proof.
  intros ND k name E. unfold numbered. cbn [snd]. pose proof (lookup_numbered names 0 name ND) as H. destruct (lookup _ name).
  - destruct H as (k' & -> & E'). f_equal. cbn [Nat.add]. f_equal. apply (proj1 (NoDup_nth_error names) ND); [apply nth_error_Some; congruence|congruence].
  - exfalso. apply H. exact (nth_error_In _ _ E).
Qed.
Lemma lookup_inv names name k : NoDup names -> lookup (snd (numbered names)) name = Some (Z.of_nat k) -> nth_error names k = Some name.
Proof.
  intros ND E. unfold numbered in E. cbn [snd] in E. pose proof (lookup_numbered names 0 name ND) as H. rewrite E in H. destruct H as (k' & Ek & H). cbn [Nat.add] in Ek.
  now replace k with k' by lia.
Qed.
Lemma numbered_snoc names name : numbered (names ++ [name]) = ((fst (numbered names) + 1)%Z, snd (numbered names) ++ [(name, fst (numbered names))]).
Proof.
  unfold numbered. cbn [fst snd]. rewrite app_length. cbn [length]. f_equal; [lia|]. rewrite seq_app, map_app. cbn [seq map Nat.add].
  assert (H : forall (l1 : list string) (l2 : list Z) a b, length l1 = length l2 -> combine (l1 ++ [a]) (l2 ++ [b]) = combine l1 l2 ++ [(a, b)]).
  { induction l1 as [|x l1 IH]; intros [|y l2] a b L; try discriminate; cbn; [reflexivity|]. rewrite IH by (cbn in L; lia). reflexivity. }
  apply H. rewrite map_length, seq_length. reflexivity.
Qed.

(** The static variables while the folders [all] are read. *)
Definition counting (all : list string) (s : counted_labels) : Prop := exists names, NoDup names /\ incl names all /\ s = numbered names.

Lemma cifar100_step all name s : (Z.of_nat (length (nodup string_dec all)) <= int_max)%Z -> In name all -> counting all s ->
  exists k s', cifar100_label name s = Ok (Z.of_nat k, s') /\ counting all s' /\ lookup (snd s') name = Some (Z.of_nat k) /\
    forall x v, lookup (snd s) x = Some (Z.of_nat v) -> lookup (snd s') x = Some (Z.of_nat v).
Proof.
  intros B IN (names & ND & IC & ->). unfold cifar100_label. destruct (lookup (snd (numbered names)) name) as [v|] eqn:E.
  - pose proof (lookup_numbered names 0 name ND) as H. unfold numbered in E. cbn [snd] in E. rewrite E in H. destruct H as (k & -> & Ek). cbn [Nat.add] in *.
    exists k, (numbered names). cbn [bind]. replace (Z.of_nat k =? -1)%Z with false by lia. split; [reflexivity|]. split; [exists names; auto|]. split; [exact E|auto].
  - assert (NI : ~ In name names). { pose proof (lookup_numbered names 0 name ND) as H. unfold numbered in E. cbn [snd] in E. rewrite E in H. exact H. }
    assert (ND' : NoDup (names ++ [name])) by (apply Permutation_NoDup with (name :: names); [apply Permutation_cons_append|constructor; assumption]).
    assert (IC' : incl (names ++ [name]) all) by (apply incl_app; [exact IC|]; intros x [<-|[]]; exact IN).
    assert (LE : length (names ++ [name]) <= length (nodup string_dec all)) by (apply NoDup_incl_length; [exact ND'|]; intros x X; apply nodup_In, IC', X).
    rewrite app_length in LE. cbn [length] in LE. exists (length names), (numbered (names ++ [name])). rewrite numbered_snoc.
    assert (FI : fits_int (fst (numbered names) + 1) = true) by (unfold fits_int, numbered, int_min in *; cbn [fst]; lia). rewrite FI. cbn [bind].
    unfold numbered at 1. cbn [fst]. replace (Z.of_nat (length names) =? -1)%Z with false by lia. split; [reflexivity|].
    split; [exists (names ++ [name]); split; [exact ND'|split; [exact IC'|symmetry; apply numbered_snoc]]|]. cbn [snd]. split.
    + rewrite lookup_app, E. cbn. rewrite String.eqb_refl. reflexivity.
    + intros x v Ex. rewrite lookup_app, Ex. reflexivity.
Qed.

Lemma cifar100_files png jpeg ls c all root dirs s : (length (nodup string_dec all) <= c) -> (Z.of_nat c <= int_max)%Z -> incl (map d_name dirs) all -> counting all s ->
  holds_folders ls root dirs -> all_decode png jpeg colour dirs ->
  exists m s', cifar100_open ls root s = Ok (m, s') /\ counting all s' /\ (forall x v, lookup (snd s) x = Some (Z.of_nat v) -> lookup (snd s') x = Some (Z.of_nat v)) /\
  length m = length (pictures dirs) /\
  exists item label, delivers png jpeg (planes 32 32) (fun name k => lookup (snd s') name = Some (Z.of_nat k)) dirs item label /\
    forall n, (Z.of_nat (length (pictures dirs)) + Z.of_nat n <= int_max)%Z -> labelled (cifar_dataset png jpeg m) n c [3; 32; 32] item label.
Proof.
  intros LC CI IC CT H AD.
  destruct (open_root_ok ls cifar100_label (fun name => In name all) (counting all) (fun s name k => lookup (snd s) name = Some (Z.of_nat k)))
    with (root := root) (dirs := dirs) (s := s) as (s' & m & E & C1 & MO & F2).
  { intros name s1 IN Cs. apply cifar100_step; [lia|exact IN|exact Cs]. }
  { exact H. }
  { apply Forall_forall. exact IC. }
  { exact CT. }
  destruct (deliver png jpeg true [3%Z; 32%Z; 32%Z] [3; 32; 32] c colour (planes 32 32) (fun name k => lookup (snd s') name = Some (Z.of_nat k))
    eq_refl colour_fits ltac:(reflexivity) colour_shows) with (dirs := dirs) (m := m) as (L & item & label & D & LB); [exact AD| |].
  { revert F2. apply Forall2_weaken. intros p f (E1 & k & E2 & E3). split; [exact E1|]. exists k. split; [exact E2|]. split; [exact E3|].
    destruct C1 as (names & ND & IN & ->). apply (lookup_inv names) in E3; [|exact ND]. assert (k < length names) by (apply nth_error_Some; congruence).
    assert (length names <= length (nodup string_dec all)) by (apply NoDup_incl_length; [exact ND|]; intros x X; apply nodup_In, IN, X). lia. }
  exists m, s'. split; [exact E|]. split; [exact C1|]. split; [exact MO|]. split; [exact L|]. exists item, label. split; [exact D|exact LB].
Qed.

(** Two datasets after each other: one numbering of the names for both. *)
Theorem cifar100_both png jpeg ls c root1 dirs1 root2 dirs2 : let all := map d_name (dirs1 ++ dirs2) in
  length (nodup string_dec all) <= c -> (Z.of_nat c <= int_max)%Z ->
  holds_folders ls root1 dirs1 -> holds_folders ls root2 dirs2 -> all_decode png jpeg colour dirs1 -> all_decode png jpeg colour dirs2 ->
  exists m1 s1 m2 s2 (class : string -> nat),
    cifar100_open ls root1 dir2label0 = Ok (m1, s1) /\ cifar100_open ls root2 s1 = Ok (m2, s2) /\
    length m1 = length (pictures dirs1) /\ length m2 = length (pictures dirs2) /\
    (forall a b, In a (map snd (pictures (dirs1 ++ dirs2))) -> In b (map snd (pictures (dirs1 ++ dirs2))) -> class a = class b -> a = b) /\
    exists item1 label1 item2 label2,
      delivers png jpeg (planes 32 32) (fun name k => k = class name) dirs1 item1 label1 /\
      delivers png jpeg (planes 32 32) (fun name k => k = class name) dirs2 item2 label2 /\
      forall n, (Z.of_nat (length (pictures dirs1)) + Z.of_nat n <= int_max)%Z -> (Z.of_nat (length (pictures dirs2)) + Z.of_nat n <= int_max)%Z ->
        labelled (cifar_dataset png jpeg m1) n c [3; 32; 32] item1 label1 /\ labelled (cifar_dataset png jpeg m2) n c [3; 32; 32] item2 label2.
Proof.
  intros all LC CI H1 H2 A1 A2.
  assert (C0 : counting all dir2label0) by (exists []; split; [constructor|split; [intros x []|reflexivity]]).
  assert (I1 : incl (map d_name dirs1) all) by (unfold all; rewrite map_app; intros x X; apply in_or_app; auto).
  assert (I2 : incl (map d_name dirs2) all) by (unfold all; rewrite map_app; intros x X; apply in_or_app; auto).
  destruct (cifar100_files png jpeg ls c all root1 dirs1 dir2label0 LC CI I1 C0 H1 A1) as (m1 & s1 & E1 & C1 & _ & L1 & item1 & label1 & D1 & B1).
  destruct (cifar100_files png jpeg ls c all root2 dirs2 s1 LC CI I2 C1 H2 A2) as (m2 & s2 & E2 & C2 & M2 & L2 & item2 & label2 & D2 & B2).
  assert (CL : forall name k, lookup (snd s2) name = Some (Z.of_nat k) -> k = (match lookup (snd s2) name with Some v => Z.to_nat v | None => 0 end)) by (intros name k ->; now rewrite Nat2Z.id).
  assert (KN : forall name, In name (map snd (pictures (dirs1 ++ dirs2))) -> exists k, lookup (snd s2) name = Some (Z.of_nat k)).
  { intros name HN. apply in_map_iff in HN. destruct HN as ([path nm] & <- & HN). cbn [snd]. unfold pictures in HN. rewrite flat_map_app in HN. apply in_app_or in HN.
    destruct HN as [HN|HN]; apply In_nth_error in HN; destruct HN as (j & HN).
    - destruct (D1 j path nm HN) as (K & _). exists (label1 (Z.of_nat j)). apply M2. exact K.
    - destruct (D2 j path nm HN) as (K & _). exists (label2 (Z.of_nat j)). exact K. }
  exists m1, s1, m2, s2, (fun name => match lookup (snd s2) name with Some v => Z.to_nat v | None => 0 end).
  split; [exact E1|]. split; [exact E2|]. split; [exact L1|]. split; [exact L2|]. split.
  { intros a b HA HB EQ. destruct (KN a HA) as (ka & Ka). destruct (KN b HB) as (kb & Kb). cbv beta in EQ. rewrite Ka, Kb, !Nat2Z.id in EQ. subst kb.
    destruct C2 as (names & ND & _ & ->). apply (lookup_inv names) in Ka, Kb; try exact ND. congruence. }
  exists item1, label1, item2, label2. split; [|split].
  - intros j path name E. destruct (D1 j path name E) as (K & Q). split; [apply CL, M2, K|exact Q].
  - intros j path name E. destruct (D2 j path name E) as (K & Q). split; [apply CL, K|exact Q].
  - intros n N1 N2. split; [apply B1, N1|apply B2, N2].
Qed.

(** In which order the folders are listed decides the numbers. *)
Lemma cifar100_order ls1 ls2 root pa pb a b fa fb : a <> b ->
  ls1 root = Some [(pa, a); (pb, b)] -> ls2 root = Some [(pb, b); (pa, a)] -> ls1 pa = Some [fa] -> ls2 pa = Some [fa] -> ls1 pb = Some [fb] -> ls2 pb = Some [fb] ->
  exists s1 s2, cifar100_open ls1 root dir2label0 = Ok ([(fst fa, 0%Z); (fst fb, 1%Z)], s1) /\ cifar100_open ls2 root dir2label0 = Ok ([(fst fb, 0%Z); (fst fa, 1%Z)], s2).
Proof.
  intros N R1 R2 A1 A2 B1 B2. assert (E1 : String.eqb a b = false) by (apply String.eqb_neq; exact N). assert (E2 : String.eqb b a = false) by (apply String.eqb_neq; congruence).
  unfold cifar100_open, open_root. rewrite R1, R2. cbn [open_dirs]. unfold cifar100_label. cbn. rewrite A1, B2. cbn. rewrite E1, E2. cbn. rewrite B1, A2. cbn. eauto.
Qed.

(** A picture of another size: the dataset throws. *)
Lemma image_pull_other png jpeg chw s (m_info : list data_info) j path v i X y : nonneg s -> fits s -> (0 < prodZ s)%Z -> nth_error m_info j = Some (path, v) -> decodes png jpeg path i -> decoded_well i ->
  (i_h i * i_w i * i_c i <> prodZ s)%Z -> length X = Z.to_nat (prodZ s) -> image_pull png jpeg chw s m_info (Z.of_nat j) X y = Exc (X, y).
Proof.
  intros N F P E D W T L. unfold image_pull, rdz, rd. replace (Z.of_nat j <? 0)%Z with false by lia. rewrite Nat2Z.id, E.
  now rewrite (read_slice_other png jpeg path i s X N F L D W P T).
Qed.
