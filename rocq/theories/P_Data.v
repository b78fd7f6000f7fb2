(** Proofs about the datasets of the samples: text and the iris table. *)
From Coq Require Import Reals String Ascii.
From Verif Require Import Base S_Tensor M_Tensor M_Image S_Image M_DataLoader S_DataLoader M_Graph M_Layers S_Sample M_Data S_Data P_Image.
Local Open Scope string_scope.
Open Scope nat_scope.
Local Open Scope list_scope.

(** ** Characters in texts *)
Lemma without_app c a b : without c (a ++ b)%string <-> without c a /\ without c b.
Proof.
  unfold without. assert (E : list_ascii_of_string (a ++ b) = list_ascii_of_string a ++ list_ascii_of_string b).
  { induction a as [|x a IH]; cbn; [reflexivity|]. now rewrite IH. }
  rewrite E, in_app_iff. tauto.
Qed.
Lemma without_cons c x a : without c (String x a) <-> x <> c /\ without c a.
Proof. unfold without. cbn. tauto. Qed.
Lemma without_nil c : without c "".
Proof. intros []. Qed.

Lemma concat_cons sep x y l : String.concat sep (x :: y :: l) = (x ++ sep ++ String.concat sep (y :: l))%string.
Proof. reflexivity. Qed.

Lemma without_concat c sep l : without c sep -> Forall (without c) l -> without c (String.concat sep l).
Proof.
  intros S. induction l as [|x [|y l] IH]; intros F; inversion F; subst; [apply without_nil|assumption|].
  rewrite concat_cons. apply without_app. split; [assumption|]. apply without_app. auto.
Qed.

Lemma append_nil_r (s : string) : (s ++ "" = s)%string.
Proof. induction s as [|c s IH]; cbn; [reflexivity|]. now rewrite IH. Qed.

Lemma find_char_skip c p s : find_char c (p ++ s) (String.length p) = option_map (Nat.add (String.length p)) (find_char c s 0).
Proof.
  induction p as [|x p IH]; cbn; [destruct (find_char c s 0); reflexivity|]. rewrite IH. destruct (find_char c s 0); reflexivity.
Qed.
Lemma find_char_first c a b : without c a -> find_char c (a ++ String c b) 0 = Some (String.length a).
Proof.
  induction a as [|x a IH]; intros W; cbn.
  - now rewrite Ascii.eqb_refl.
  - apply without_cons in W. destruct W as [N W]. destruct (Ascii.eqb_spec x c); [congruence|]. now rewrite (IH W).
Qed.
Lemma find_char_never c a : without c a -> find_char c a 0 = None.
Proof.
  induction a as [|x a IH]; intros W; cbn; [reflexivity|]. apply without_cons in W. destruct W as [N W]. destruct (Ascii.eqb_spec x c); [congruence|]. now rewrite (IH W).
Qed.
Lemma substring_take a b : substring 0 (String.length a) (a ++ b) = a.
Proof. induction a as [|x a IH]; cbn; [destruct b; reflexivity|]. now rewrite IH. Qed.
Lemma substring_all s : forall n, String.length s <= n -> substring 0 n s = s.
Proof. induction s as [|x s IH]; intros [|n] L; cbn in *; try reflexivity; [lia|]. rewrite IH by lia. reflexivity. Qed.

(** Splitting is the inverse of joining. *)
Lemma split_loop_fields fields : forall fuel p f r, Forall (without ",") (f :: fields) -> length fields < fuel ->
  split_loop fuel (p ++ String.concat "," (f :: fields)) (String.length p) r = Ok (r ++ f :: fields).
Proof.
  induction fields as [|g fields IH]; intros [|fuel] p f r F L; try (cbn in L; lia); inversion F as [|? ? Wf Fr]; subst; cbn [split_loop].
  - cbn [String.concat]. rewrite find_char_skip, (find_char_never _ _ Wf). cbn [option_map]. unfold substr.
    rewrite append_len. replace (_ <=? _) with true by lia. cbn [bind]. rewrite substring_skip, substring_all by lia. reflexivity.
  - rewrite concat_cons. cbn [append]. rewrite find_char_skip, (find_char_first _ _ _ Wf). cbn [option_map]. unfold substr.
    rewrite append_len. replace (_ <=? _) with true by lia. cbn [bind]. rewrite substring_skip.
    replace (String.length p + String.length f - String.length p) with (String.length f) by lia. rewrite substring_take.
    replace (p ++ f ++ String "," (String.concat "," (g :: fields)))%string with ((p ++ f ++ ",") ++ String.concat "," (g :: fields))%string
      by (rewrite !append_assoc; reflexivity).
    replace (S (String.length p + String.length f)) with (String.length (p ++ f ++ ",")) by (rewrite !append_len; cbn; lia).
    rewrite (IH fuel _ g (r ++ [f]) Fr) by (cbn in L; lia). now rewrite <- app_assoc.
Qed.

Lemma fields_length fields f : length fields <= String.length (String.concat "," (f :: fields)).
Proof.
  revert f. induction fields as [|g fields IH]; intros f; [cbn; lia|]. rewrite concat_cons, !append_len. specialize (IH g). change (String.length ",") with 1. cbn [length]. lia.
Qed.

Lemma split_fields fields : fields <> [] -> Forall (without ",") fields -> SplitLineByComma (String.concat "," fields) = Ok fields.
Proof.
  intros N F. destruct fields as [|f fields]; [congruence|]. unfold SplitLineByComma.
  apply (split_loop_fields fields _ "" f [] F). pose proof (fields_length fields f). lia.
Qed.

Lemma cut_line_end a b : without "010" a -> cut_line (a ++ String "010" b) = (a, b).
Proof.
  induction a as [|x a IH]; intros W; cbn; [reflexivity|]. apply without_cons in W. destruct W as [N W]. destruct (Ascii.eqb_spec x "010"); [congruence|]. now rewrite (IH W).
Qed.
Lemma cut_line_last a : without "010" a -> cut_line a = (a, "").
Proof.
  induction a as [|x a IH]; intros W; cbn; [reflexivity|]. apply without_cons in W. destruct W as [N W]. destruct (Ascii.eqb_spec x "010"); [congruence|]. now rewrite (IH W).
Qed.
Lemma getline_end a b : without "010" a -> getline (a ++ String "010" b) = Some (a, b).
Proof. intros W. rewrite <- (cut_line_end a b W). destruct a; reflexivity. Qed.
Lemma getline_last a : a <> "" -> without "010" a -> getline a = Some (a, "").
Proof. intros N W. rewrite <- (cut_line_last a W). destruct a; [congruence|reflexivity]. Qed.

(** ** Maps of names *)
Lemma lookup_app m1 m2 x : lookup (m1 ++ m2) x = match lookup m1 x with Some v => Some v | None => lookup m2 x end.
Proof. induction m1 as [|[k v] m IH]; cbn; [reflexivity|]. destruct (String.eqb k x); auto. Qed.

Lemma label_at_same m name x : fst (label_at (snd (label_at m name)) x) = fst (label_at m x).
Proof.
  unfold label_at at 2. destruct (lookup m name) eqn:E; cbn [snd]; [reflexivity|]. unfold label_at. rewrite lookup_app.
  destruct (lookup m x) eqn:Ex; [reflexivity|]. cbn. destruct (String.eqb name x); reflexivity.
Qed.
Lemma classifies_next names m name : classifies names m -> classifies names (snd (label_at m name)).
Proof. intros C x. destruct (C x) as (k & E & H). exists k. rewrite label_at_same. auto. Qed.

(** A map that lists the names with their places classifies. *)
Lemma lookup_numbered names : forall a name, NoDup names ->
  match lookup (combine names (map Z.of_nat (seq a (length names)))) name with
  | Some v => exists k, v = Z.of_nat (a + k) /\ nth_error names k = Some name
  | None => ~ In name names
  end.
Proof.
  induction names as [|x names IH]; intros a name ND; cbn; [tauto|]. inversion ND; subst. destruct (String.eqb_spec x name) as [->|N].
  - exists 0. split; [f_equal; lia|reflexivity].
  - specialize (IH (S a) name). destruct (lookup _ name); [|tauto].
    destruct IH as (k & -> & E); [assumption|]. exists (S k). split; [f_equal; lia|exact E].
Qed.
Lemma numbered_classifies names : NoDup names -> classifies names (combine names (map Z.of_nat (seq 0 (length names)))).
Proof.
  intros ND name. pose proof (lookup_numbered names 0 name ND) as H. unfold label_at. destruct (lookup _ name).
  - destruct H as (k & -> & E). exists k. split; [reflexivity|left; exact E].
  - exists 0. split; [reflexivity|right; auto].
Qed.

Lemma class_bound names name k : names <> [] -> class_of names name k -> k < length names.
Proof.
  intros N [H|[_ ->]]; [apply nth_error_Some; congruence|]. destruct names; [congruence|cbn; lia].
Qed.

Lemma species_nodup : NoDup species.
Proof. repeat constructor; cbn; intuition discriminate. Qed.
Lemma cifar10_nodup : NoDup cifar10_classes.
Proof. repeat constructor; cbn; intuition discriminate. Qed.
Lemma iris_classifies : classifies species m_iris2label.
Proof. exact (numbered_classifies species species_nodup). Qed.
Lemma cifar10_classifies : classifies cifar10_classes label2digit.
Proof. exact (numbered_classifies cifar10_classes cifar10_nodup). Qed.

(** ** The iris table *)
Section Iris.
Variable atof : string -> R.

Definition info_of (row : list string) (k : nat) (i : iris_info) : Prop :=
  exists a b c d e rest, row = a :: b :: c :: d :: e :: rest /\ i = mkIris (atof a) (atof b) (atof c) (atof d) (Z.of_nat k) /\ class_of species e k.

Lemma five {A} (l : list A) : 5 <= length l -> exists a b c d e r, l = a :: b :: c :: d :: e :: r.
Proof. destruct l as [|a [|b [|c [|d [|e r]]]]]; cbn; try lia. intros _. now exists a, b, c, d, e, r. Qed.

Lemma iris_row_good row m : good_row row -> classifies species m ->
  exists i k m', iris_row atof (String.concat "," row) m = Ok (i, m') /\ info_of row k i /\ classifies species m'.
Proof.
  intros [L F] C. unfold iris_row. rewrite split_fields; [|destruct row; [cbn in L; lia|congruence]|rewrite Forall_forall in F |- *; intros x X; apply (F x X)].
  cbn [bind]. destruct (five row L) as (a & b & c & d & e & r & ->). cbn [rd nth_error bind].
  destruct (C e) as (k & E & H). pose proof (classifies_next species m e C) as C'. destruct (label_at m e) as [v m'] eqn:El. cbn [fst snd] in *. subst v.
  eexists _, k, m'. split; [reflexivity|]. split; [|exact C']. unfold info_of. exists a, b, c, d, e, r. auto.
Qed.

Lemma iris_row_short row m : length row < 5 -> row <> [] -> Forall (without ",") row -> iris_row atof (String.concat "," row) m = UB.
Proof.
  intros L N F. unfold iris_row. rewrite split_fields by assumption. cbn [bind].
  destruct row as [|a [|b [|c [|d [|e r]]]]]; cbn in L; try lia; try reflexivity.
Qed.

Lemma row_text row : good_row row -> without "010" (String.concat "," row) /\ String.concat "," row <> "".
Proof.
  intros [L F]. split.
  - apply without_concat; [intros [H|[]]; discriminate|]. rewrite Forall_forall in F |- *. intros x X. apply (F x X).
  - destruct (five row L) as (a & b & c & d & e & r & ->). rewrite concat_cons. destruct a; discriminate.
Qed.

(** The lines after the header. *)
Definition table (rows : list (list string)) (final : bool) : string :=
  match rows with [] => "" | _ => (String.concat newline (map (String.concat ",") rows) ++ (if final then newline else ""))%string end.

Lemma table_next row rows final : good_row row ->
  getline (table (row :: rows) final) = Some (String.concat "," row, table rows final).
Proof.
  intros G. destruct (row_text row G) as [W N]. destruct rows as [|row2 rows].
  - cbn [table map String.concat]. destruct final.
    + exact (getline_end _ "" W).
    + rewrite append_nil_r. exact (getline_last _ N W).
  - cbn [table map]. rewrite concat_cons, append_assoc. unfold newline at 1. cbn [append]. exact (getline_end _ _ W).
Qed.

Lemma csv_body header rows final : without "010" header ->
  match getline (csv header rows final) with Some (_, t) => t | None => "" end = table rows final.
Proof.
  intros W. unfold csv. destruct rows as [|row rows].
  - cbn [map String.concat table]. destruct final.
    + unfold newline. now rewrite (getline_end header "" W).
    + rewrite append_nil_r. destruct header as [|x h]; [reflexivity|]. rewrite getline_last; [reflexivity|discriminate|exact W].
  - cbn [map]. rewrite concat_cons, append_assoc. unfold newline at 1. cbn [append]. rewrite (getline_end _ _ W). reflexivity.
Qed.

Lemma table_length rows final : Forall good_row rows -> length rows <= String.length (table rows final).
Proof.
  induction rows as [|row rows IH]; intros F; [cbn; lia|]. inversion F as [|? ? G F']; subst. specialize (IH F'). destruct (row_text row G) as [_ N].
  assert (1 <= String.length (String.concat "," row)) by (destruct (String.concat "," row); [congruence|cbn; lia]).
  destruct rows as [|row2 rows]; cbn [table map] in *.
  - cbn [String.concat]. rewrite append_len. cbn. lia.
  - rewrite concat_cons, !append_len. rewrite !append_len in IH. cbn [length] in *. lia.
Qed.

Lemma iris_rows_good rows final : forall fuel m acc, Forall good_row rows -> classifies species m -> length rows < fuel ->
  exists infos m' ks, iris_rows atof fuel (table rows final) m acc = Ok (acc ++ infos, m') /\ classifies species m' /\
    length ks = length rows /\ length infos = length rows /\
    forall j row i k, nth_error rows j = Some row -> nth_error infos j = Some i -> nth_error ks j = Some k -> info_of row k i.
Proof.
  induction rows as [|row rows IH]; intros [|fuel] m acc F C L; try (cbn in L; lia); cbn [iris_rows].
  - cbn [table getline]. exists [], m, []. rewrite app_nil_r. split; [reflexivity|]. split; [exact C|]. split; [reflexivity|]. split; [reflexivity|]. intros [|j]; discriminate.
  - inversion F as [|? ? G F']; subst. rewrite (table_next row rows final G).
    destruct (iris_row_good row m G C) as (i & k & m1 & E & IO & C1). rewrite E. cbn [bind].
    destruct (IH fuel m1 (acc ++ [i]) F' C1 ltac:(cbn in L; lia)) as (infos & m' & ks & E2 & C2 & L1 & L2 & H).
    exists (i :: infos), m', (k :: ks). rewrite E2, <- app_assoc. split; [reflexivity|]. split; [exact C2|]. split; [cbn; lia|]. split; [cbn; lia|].
    intros [|j]; cbn; [|apply H]. intros row' i' k' [= <-] [= <-] [= <-]. exact IO.
Qed.

(** A row with fewer than five fields: nothing after it matters. *)
Lemma iris_rows_short rows : forall bad rest fuel m acc, Forall good_row rows -> classifies species m ->
  bad <> [] -> length bad < 5 -> Forall field bad -> length rows < fuel ->
  iris_rows atof fuel (table (rows ++ bad :: rest) true) m acc = UB.
Proof.
  induction rows as [|row rows IH]; intros bad rest [|fuel] m acc F C N L FB Lf; try (cbn in Lf; lia); cbn [iris_rows app].
  - assert (W : without "010" (String.concat "," bad)).
    { apply without_concat; [intros [H|[]]; discriminate|]. rewrite Forall_forall in FB |- *. intros x X. apply (FB x X). }
    assert (FC : Forall (without ",") bad) by (rewrite Forall_forall in FB |- *; intros x X; apply (FB x X)).
    assert (G : exists t, getline (table (bad :: rest) true) = Some (String.concat "," bad, t)).
    { destruct rest as [|r rest]; cbn [table map].
      - exists "". exact (getline_end _ "" W).
      - rewrite concat_cons, append_assoc. unfold newline at 1. cbn [append]. eexists. exact (getline_end _ _ W). }
    destruct G as (t & G). rewrite G, (iris_row_short bad m L N FC). reflexivity.
  - inversion F as [|? ? G F']; subst. rewrite (table_next row _ true G).
    destruct (iris_row_good row m G C) as (i & k & m1 & E & _ & C1). rewrite E. cbn [bind]. apply IH; try assumption. cbn in Lf. lia.
Qed.

Lemma iris_pull_good infos j row k i X y : nth_error infos j = Some i -> info_of row k i -> length X = 4 -> length y = 1 ->
  iris_pull infos (Z.of_nat j) X y = Ok (map atof (firstn 4 row), [INR k]).
Proof.
  intros E (a & b & c & d & e & rest & -> & -> & _) LX LY. unfold iris_pull, rdz. replace (Z.of_nat j <? 0)%Z with false by lia.
  unfold rd. rewrite Nat2Z.id, E. cbn [bind sepal_length sepal_width petal_length petal_width iris_label].
  destruct X as [|x0 [|x1 [|x2 [|x3 [|]]]]]; try discriminate. destruct y as [|y0 [|]]; try discriminate.
  cbn. now rewrite <- INR_IZR_INZ.
Qed.

Theorem iris_file header rows final m : without "010" header -> Forall good_row rows -> classifies species m ->
  exists infos m' class, iris_open atof (Some (csv header rows final)) m = Ok (infos, m') /\ classifies species m' /\ length infos = length rows /\
    (forall j row, nth_error rows j = Some row -> exists name, nth_error row 4 = Some name /\ class_of species name (class (Z.of_nat j))) /\
    forall n, (Z.of_nat (length rows) + Z.of_nat n <= int_max)%Z ->
      labelled (iris_dataset infos) n 3 [4] (row_item atof rows class) class.
Proof.
  intros W F C. unfold iris_open. rewrite (csv_body header rows final W).
  destruct (iris_rows_good rows final (S (String.length (table rows final))) m [] F C) as (infos & m' & ks & E & C' & L1 & L2 & H).
  { pose proof (table_length rows final F). lia. }
  set (class := fun j : Z => nth (Z.to_nat j) ks 0).
  assert (K : forall j row, nth_error rows j = Some row -> exists i, nth_error infos j = Some i /\ info_of row (class (Z.of_nat j)) i).
  { intros j row Er. assert (j < length rows) by (apply nth_error_Some; congruence).
    destruct (nth_error infos j) as [i|] eqn:Ei; [|apply nth_error_None in Ei; lia].
    destruct (nth_error ks j) as [k|] eqn:Ek; [|apply nth_error_None in Ek; lia].
    exists i. split; [reflexivity|]. unfold class. rewrite Nat2Z.id, (nth_error_nth ks j 0 Ek). exact (H j row i k Er Ei Ek). }
  exists infos, m', class. cbn [app] in E. split; [exact E|]. split; [exact C'|]. split; [exact L2|].
  split.
  { intros j row Er. destruct (K j row Er) as (i & _ & (a & b & c & d & e & r & -> & _ & CL)). exists e. split; [reflexivity|exact CL]. }
  intros n B.
  assert (PULL : forall j X y, (0 <= j < Z.of_nat (length infos))%Z -> length X = 4 -> length y = 1 -> iris_pull infos j X y = Ok (row_item atof rows class j)).
  { intros j X y J LX LY. destruct (nth_error rows (Z.to_nat j)) as [row|] eqn:Er; [|apply nth_error_None in Er; lia].
    destruct (K _ _ Er) as (i & Ei & IO). rewrite Z2Nat.id in IO by lia.
    pose proof (iris_pull_good infos (Z.to_nat j) row (class j) i X y Ei IO LX LY) as P. rewrite Z2Nat.id in P by lia. rewrite P.
    unfold row_item. now rewrite (nth_error_nth rows (Z.to_nat j) [] Er). }
  split; [reflexivity|]. split; [|split; [|split]].
  - unfold dataset_ok, iris_dataset. cbn [ds_shape ds_size fst snd ds_pull]. split; [lia|]. split; [repeat constructor; lia|]. split; [repeat constructor; lia|].
    intros d j X y J LX LY. change (length X = 4) in LX. change (length y = 1) in LY. rewrite (PULL j X y J LX LY). unfold row_item.
    split; [|split; [reflexivity|reflexivity]]. rewrite map_length.
    destruct (nth_error rows (Z.to_nat j)) as [row|] eqn:Er; [|apply nth_error_None in Er; lia]. rewrite (nth_error_nth rows (Z.to_nat j) [] Er).
    rewrite firstn_length_le; [reflexivity|]. rewrite Forall_forall in F. destruct (F row (nth_error_In _ _ Er)). lia.
  - intros d j X y J LX LY. cbn in LX, LY. cbn [iris_dataset ds_pull]. cbn in J. rewrite (PULL j X y J LX LY). unfold row_item. reflexivity.
  - cbn [iris_dataset ds_size]. lia.
  - intros j J. cbn in J. split; [reflexivity|]. destruct (nth_error rows (Z.to_nat j)) as [row|] eqn:Er; [|apply nth_error_None in Er; lia].
    destruct (K _ _ Er) as (i & _ & (a & b & c & d & e & r & _ & _ & CL)). rewrite Z2Nat.id in CL by lia. apply (class_bound species e); [discriminate|exact CL].
Qed.

Lemma iris_short header rows bad rest m : without "010" header -> Forall good_row rows -> classifies species m ->
  bad <> [] -> length bad < 5 -> Forall field bad -> iris_open atof (Some (csv header (rows ++ bad :: rest) true)) m = UB.
Proof.
  intros W F C N L FB. unfold iris_open. rewrite (csv_body header _ true W). apply iris_rows_short; try assumption.
  pose proof (table_length rows true F). assert (String.length (table rows true) <= String.length (table (rows ++ bad :: rest) true)); [|lia].
  destruct rows as [|row rows]; [cbn; lia|]. clear. revert row. induction rows as [|r2 rows IH]; intros row.
  - cbn [table app map]. rewrite concat_cons. cbn [String.concat]. rewrite !append_len. lia.
  - specialize (IH r2). cbn [table app map] in *. rewrite !concat_cons, !append_len in *. lia.
Qed.
End Iris.
