(** Proofs about the datasets of the samples: directories of pictures. *)
From Coq Require Import Reals String Ascii.
From Verif Require P_Model.
From Verif Require Import Base BaseFacts S_Tensor M_Tensor S_Heap P_Tensor M_Image S_Image M_DataLoader S_DataLoader M_Graph M_Layers S_Plain S_Sample M_Data S_Data P_Image P_Data.
Local Open Scope string_scope.
Open Scope nat_scope.
Local Open Scope list_scope.

(** ** Reading into a slice *)
Lemma slice_wf (s : shape) (l : list R) : nonneg s -> fits s -> length l = Z.to_nat (prodZ s) -> wf (slice_heap s l).
Proof.
  intros N F L. split; cbn.
  - intros [|[|x]] k [= <-]; cbn; lia.
  - intros [|[|k]] d [= <-]. split; cbn; [reflexivity|left; split; [reflexivity|exact F]| |discriminate].
    split; [apply prodZ_nonneg; exact N|apply fits_nonneg_bound; exact F].
  - intros [|[|k1]] k2 d1 d2 b [= <-] _ H. discriminate.
Qed.

Definition pixels (i : image) : list R := rows_data IZR (Z.to_nat (i_w i * i_c i)) (i_rows i).

Lemma holds_image_unique (i : image) (l1 l2 : list R) : (0 < i_h i)%Z -> (0 < i_w i)%Z -> (0 < i_c i)%Z ->
  holds_image IZR i l1 -> holds_image IZR i l2 -> l1 = l2.
Proof.
  intros H1 H2 H3 [L1 P1] [L2 P2]. apply P_Model.nth_error_ext. intros k.
  destruct (Nat.lt_ge_cases k (length l1)) as [K|K].
  2:{ rewrite (proj2 (nth_error_None l1 k)), (proj2 (nth_error_None l2 k)) by lia. reflexivity. }
  set (w := Z.to_nat (i_w i)) in *. set (c := Z.to_nat (i_c i)) in *. set (h := Z.to_nat (i_h i)) in *.
  assert (C0 : 0 < c) by (unfold c; lia). assert (W0 : 0 < w) by (unfold w; lia).
  assert (LL : length l1 = h * w * c) by (unfold h, w, c; nia).
  pose proof (Nat.div_mod k c ltac:(lia)) as E1. pose proof (Nat.mod_upper_bound k c ltac:(lia)) as B1.
  pose proof (Nat.div_mod (k / c) w ltac:(lia)) as E2. pose proof (Nat.mod_upper_bound (k / c) w ltac:(lia)) as B2.
  assert (B3 : k / c / w < h). { apply Nat.div_lt_upper_bound; [lia|]. apply Nat.div_lt_upper_bound; [lia|]. nia. }
  destruct (P1 (k / c / w) ((k / c) mod w) (k mod c) B3 B2 B1) as (v1 & S1 & N1).
  destruct (P2 (k / c / w) ((k / c) mod w) (k mod c) B3 B2 B1) as (v2 & S2 & N2).
  replace ((k / c / w * w + (k / c) mod w) * c + k mod c) with k in N1, N2 by (rewrite E1 at 1; rewrite E2 at 1; nia).
  congruence.
Qed.

Section Images.
Variables (png jpeg : string -> decoded).

Lemma decodes_read path i X s : decodes png jpeg path i -> read_slice png jpeg path s X =
  match read_pixels IZR i true (fun _ => 0%R) 0 (slice_heap s X) with
  | Ret h => match contents h 0 with Ok l => Ret l | _ => Bad end
  | Exc h => match contents h 0 with Ok l => Exc l | _ => Bad end
  | Bad => Bad
  end.
Proof.
  intros D. unfold read_slice, read_image. destruct D as [[H E]|[H E]].
  - apply is_png_iff in H. rewrite H, E. reflexivity.
  - destruct (is_png path) eqn:P.
    + apply is_png_iff, extension_iff in P. destruct H as [H|H]; apply extension_iff in H; congruence.
    + apply is_jpeg_iff in H. rewrite H, E. reflexivity.
Qed.

Lemma decodes_one path i1 i2 : decodes png jpeg path i1 -> decodes png jpeg path i2 -> i1 = i2.
Proof.
  intros [[H1 E1]|[H1 E1]] [[H2 E2]|[H2 E2]]; try congruence.
  - apply extension_iff in H1. destruct H2 as [H2|H2]; apply extension_iff in H2; congruence.
  - apply extension_iff in H2. destruct H1 as [H1|H1]; apply extension_iff in H1; congruence.
Qed.

Lemma slice_access (s : shape) (X : list R) : nonneg s -> fits s -> length X = Z.to_nat (prodZ s) ->
  denotes (slice_heap s X) 0 0 (mkDesc (calculateStrides s) s None (Some (0, 0)) (prodZ s)) /\ accessible (slice_heap s X) 0 /\ wf (slice_heap s X).
Proof.
  intros N F L. split; [split; reflexivity|]. split; [|exact (slice_wf s X N F L)].
  exists 0, (mkDesc (calculateStrides s) s None (Some (0, 0)) (prodZ s)). split; [split; reflexivity|]. right. right. exists 0, 0, X. cbn. split; [reflexivity|]. split; [reflexivity|lia].
Qed.

Lemma read_slice_ok path i s X : nonneg s -> fits s -> length X = Z.to_nat (prodZ s) -> decodes png jpeg path i -> decoded_well i ->
  (i_h i * i_w i * i_c i = prodZ s)%Z -> read_slice png jpeg path s X = Ret (pixels i).
Proof.
  intros N F L D W T. rewrite (decodes_read path i X s D). destruct (slice_access s X N F L) as (Dx & AC & WF).
  destruct (read_into_full IZR i true (fun _ => 0%R) 0 0 _ _ WF Dx AC ltac:(cbn; lia) W) as (h' & l & E & _ & C & HI & _).
  rewrite E, C. f_equal. destruct W as (H1 & H2 & H3 & W). exact (holds_image_unique i l _ H1 H2 H3 HI (rows_hold IZR i (conj H1 (conj H2 (conj H3 W))))).
Qed.

Lemma read_slice_other path i s X : nonneg s -> fits s -> length X = Z.to_nat (prodZ s) -> decodes png jpeg path i -> decoded_well i ->
  (0 < prodZ s)%Z -> (i_h i * i_w i * i_c i <> prodZ s)%Z -> read_slice png jpeg path s X = Exc X.
Proof.
  intros N F L D W P T. rewrite (decodes_read path i X s D). destruct (slice_access s X N F L) as (Dx & AC & WF).
  rewrite (read_into_other IZR i true (fun _ => 0%R) 0 0 _ _ WF Dx ltac:(cbn; lia) ltac:(cbn; lia) W).
  assert (C : contents (slice_heap s X) 0 = Ok X); [|now rewrite C].
  apply var_desc_Ok in Dx. unfold contents. rewrite Dx. cbn [bind d_data d_total].
  rewrite (load_in_bounds (slice_heap s X) 0 0 X (Z.to_nat (prodZ s)) eq_refl ltac:(lia)). cbn [skipn]. now rewrite firstn_all2 by lia.
Qed.

(** ** Planes *)
Definition planar (s : nat) (l : list R) : list R := tab (3 * s) (fun k => nth (3 * (k mod s) + k / s) l 0%R).

Lemma rd_nth (l : list R) k : k < length l -> rd l k = Ok (nth k l 0%R).
Proof. intros K. unfold rd. destruct (nth_error l k) eqn:E; [|apply nth_error_None in E; lia]. now rewrite (nth_error_nth l k 0%R E). Qed.

Lemma hwc_loop_planar s source : length source = 3 * s ->
  forall m fuel target t, t + m = s -> m < fuel -> length target = 3 * s ->
  (forall i c, i < t -> c < 3 -> nth_error target (c * s + i) = Some (nth (3 * i + c) source 0%R)) ->
  hwc_loop fuel (length source) s source target (3 * t) t = Ok (planar s source).
Proof.
  intros L. induction m as [|m IH]; intros [|fuel] target t T Fu LT H; try lia; cbn [hwc_loop]; rewrite L.
  - replace (3 * t <? 3 * s) with false by lia. f_equal. apply P_Model.nth_error_ext. intros k. unfold planar, tab.
    destruct (Nat.lt_ge_cases k (3 * s)) as [K|K].
    + rewrite nth_error_map. rewrite (nth_error_nth' (seq 0 (3 * s)) 0) by (rewrite seq_length; lia). rewrite seq_nth by lia. cbn [option_map Nat.add].
      assert (S0 : s <> 0) by lia. pose proof (Nat.div_mod k s S0) as E. pose proof (Nat.mod_upper_bound k s S0).
      assert (k / s < 3) by (apply Nat.div_lt_upper_bound; lia).
      rewrite <- (H (k mod s) (k / s)) by lia. f_equal. lia.
    + rewrite (proj2 (nth_error_None target k)) by lia. symmetry. apply nth_error_None. rewrite map_length, seq_length. lia.
  - replace (3 * t <? 3 * s) with true by lia. rewrite !rd_nth by lia. cbn [bind]. unfold wr.
    rewrite LT. replace (t <? 3 * s) with true by lia. cbn [bind]. rewrite upd_length, LT. replace (t + s <? 3 * s) with true by lia. cbn [bind].
    rewrite !upd_length, LT. replace (t + 2 * s <? 3 * s) with true by lia. cbn [bind].
    replace (3 * t + 3) with (3 * (t + 1)) by lia. rewrite <- L. apply IH; [lia|lia|rewrite !upd_length; lia|].
    intros i c Hi Hc. destruct (Nat.eq_dec i t) as [->|N].
    + destruct c as [|[|[|c]]]; [| | |lia].
      * replace (0 * s + t) with t by lia. rewrite !nth_error_upd_neq by lia. rewrite nth_error_upd_eq by lia. now rewrite Nat.add_0_r.
      * replace (1 * s + t) with (t + s) by lia. rewrite nth_error_upd_neq by lia. rewrite nth_error_upd_eq by (rewrite upd_length; lia). reflexivity.
      * replace (2 * s + t) with (t + 2 * s) by lia. rewrite nth_error_upd_eq by (rewrite !upd_length; lia). reflexivity.
    + assert (i < t) by lia. rewrite <- (H i c) by assumption. destruct c as [|[|[|c]]]; [| | |lia]; rewrite !nth_error_upd_neq by lia; reflexivity.
Qed.

Lemma planar_length s l : length (planar s l) = 3 * s.
Proof. unfold planar, tab. now rewrite map_length, seq_length. Qed.

Lemma planar_nth s l k c : k < s -> c < 3 -> nth_error (planar s l) (c * s + k) = Some (nth (3 * k + c) l 0%R).
Proof.
  intros K C. unfold planar, tab. rewrite nth_error_map, (nth_error_nth' (seq 0 (3 * s)) 0) by (rewrite seq_length; nia).
  rewrite seq_nth by nia. cbn [option_map Nat.add]. replace (c * s + k) with (k + c * s) by lia. rewrite Nat.mod_add, Nat.div_add by lia.
  now rewrite Nat.mod_small, Nat.div_small by exact K.
Qed.

Lemma planar_shows h w i : decoded_well i -> i_h i = Z.of_nat h -> i_w i = Z.of_nat w -> i_c i = 3%Z ->
  planes h w i (normalize (planar (h * w) (pixels i)) 255).
Proof.
  intros W EH EW EC. destruct (rows_hold IZR i W) as [L P]. fold (pixels i) in L, P. rewrite EH, EW, EC in *. rewrite !Nat2Z.id in P. change (Z.to_nat 3) with 3 in P. split.
  - unfold normalize. now rewrite map_length, planar_length.
  - intros y x c Y X C. destruct (P y x c Y X C) as (v & E1 & E2). exists v. split; [exact E1|]. unfold normalize.
    rewrite nth_error_map, planar_nth by nia. cbn [option_map]. replace (3 * (y * w + x) + c) with ((y * w + x) * 3 + c) by lia.
    now rewrite (nth_error_nth _ _ 0%R E2).
Qed.

Lemma pixels_show i : decoded_well i -> grey i (normalize (pixels i) 255).
Proof. intros W. exists (pixels i). split; [exact (rows_hold IZR i W)|reflexivity]. Qed.

Lemma pixels_length i : decoded_well i -> length (pixels i) = Z.to_nat (i_h i * i_w i * i_c i).
Proof. intros W. destruct (rows_hold IZR i W) as [L _]. unfold pixels. lia. Qed.

(** ** The datasets *)
Definition the_image (path : string) : image :=
  match (if is_png path then png path else jpeg path) with Image i => i | _ => mkI 0 0 0 [] end.
Lemma the_image_is path i : decodes png jpeg path i -> the_image path = i.
Proof.
  unfold the_image. intros [[H E]|[H E]].
  - apply is_png_iff in H. now rewrite H, E.
  - destruct (is_png path) eqn:P; [|now rewrite E]. apply is_png_iff, extension_iff in P. destruct H as [H|H]; apply extension_iff in H; congruence.
Qed.
Definition post (chw : bool) (l : list R) : list R := normalize (if chw then planar (32 * 32) l else l) 255.
Lemma nth_file (m_info : list data_info) j f : nth_error m_info j = Some f -> nth j m_info ("", 0%Z) = f.
Proof. apply nth_error_nth. Qed.
Definition file_item (chw : bool) (m_info : list data_info) (j : Z) : list R * list R :=
  let '(path, v) := nth (Z.to_nat j) m_info ("", 0%Z) in (post chw (pixels (the_image path)), [IZR v]).
Definition file_label (m_info : list data_info) (j : Z) : nat := Z.to_nat (snd (nth (Z.to_nat j) m_info ("", 0%Z))).

(** What is known about every file. *)
Definition good_file (s : shape) (c : nat) (f : data_info) : Prop :=
  exists i k, decodes png jpeg (fst f) i /\ decoded_well i /\ (i_h i * i_w i * i_c i = prodZ s)%Z /\ snd f = Z.of_nat k /\ k < c.

Lemma image_pull_ok chw s c m_info j X y : nonneg s -> fits s -> (chw = true -> prodZ s = Z.of_nat (3 * (32 * 32))) -> Forall (good_file s c) m_info ->
  (0 <= j < Z.of_nat (length m_info))%Z -> length X = Z.to_nat (prodZ s) -> length y = 1 ->
  image_pull png jpeg chw s m_info j X y = Ret (file_item chw m_info j).
Proof.
  intros N F HC G J LX LY. unfold image_pull, rdz, rd. replace (j <? 0)%Z with false by lia.
  destruct (nth_error m_info (Z.to_nat j)) as [[path v]|] eqn:E; [|apply nth_error_None in E; lia].
  rewrite Forall_forall in G. destruct (G _ (nth_error_In _ _ E)) as (i & k & D & W & T & EV & _). cbn [fst snd] in *.
  unfold file_item. rewrite (nth_file _ _ _ E), (the_image_is path i D), (read_slice_ok path i s X N F LX D W T).
  pose proof (pixels_length i W) as LP. unfold post.
  assert (EH : (if chw then HWC2CHW (pixels i) else Ok (pixels i)) = Ok (if chw then planar (32 * 32) (pixels i) else pixels i)).
  { destruct chw; [|reflexivity]. unfold HWC2CHW. rewrite T, (HC eq_refl), Nat2Z.id in LP.
    apply (hwc_loop_planar (32 * 32) (pixels i) LP (32 * 32) _ (pixels i) 0); [reflexivity|rewrite LP; lia|exact LP|]. intros i0 c0 H. lia. }
  rewrite EH. destruct y as [|y0 [|y1 y]]; try discriminate. reflexivity.
Qed.

Lemma image_labelled chw s rest c n m_info : s = zs rest -> fits s -> (chw = true -> prodZ s = Z.of_nat (3 * (32 * 32))) -> Forall (good_file s c) m_info ->
  (Z.of_nat (length m_info) + Z.of_nat n <= int_max)%Z ->
  labelled (image_dataset png jpeg chw s m_info) n c rest (file_item chw m_info) (file_label m_info).
Proof.
  intros ES F HC G B. assert (N : nonneg s) by (rewrite ES; unfold nonneg, zs; apply Forall_map, Forall_forall; intros; lia).
  assert (PULL := fun j X y => image_pull_ok chw s c m_info j X y N F HC G).
  assert (LEN : forall j, (0 <= j < Z.of_nat (length m_info))%Z -> length (fst (file_item chw m_info j)) = Z.to_nat (prodZ s) /\ snd (file_item chw m_info j) = [INR (file_label m_info j)] /\ file_label m_info j < c).
  { intros j J. unfold file_item, file_label. destruct (nth_error m_info (Z.to_nat j)) as [[path v]|] eqn:E; [|apply nth_error_None in E; lia].
    rewrite Forall_forall in G. destruct (G _ (nth_error_In _ _ E)) as (i & k & D & W & T & EV & K). cbn [fst snd] in *.
    rewrite (nth_file _ _ _ E), (the_image_is path i D). cbn [fst snd]. split; [|rewrite EV, Nat2Z.id; split; [now rewrite <- INR_IZR_INZ|exact K]].
    pose proof (pixels_length i W) as LP. unfold post, normalize. rewrite map_length. destruct chw; [|rewrite LP, T; reflexivity].
    rewrite planar_length, (HC eq_refl). now rewrite Nat2Z.id. }
  split; [unfold image_dataset; cbn [ds_shape]; now rewrite ES|]. split; [|split; [|split]].
  - unfold dataset_ok, image_dataset. cbn [ds_shape ds_size fst snd ds_pull]. split; [lia|]. split; [exact N|]. split; [repeat constructor; lia|].
    intros d j X y J LX LY. change (length y = 1) in LY. rewrite (PULL j X y J LX LY). destruct (LEN j J) as (L1 & L2 & _).
    destruct (file_item chw m_info j) as [X' y']. cbn [fst snd] in *. split; [exact L1|]. split; [rewrite L2; reflexivity|reflexivity].
  - intros d j X y J LX LY. change (length y = 1) in LY. unfold image_dataset in *. cbn [ds_shape ds_size fst snd ds_pull] in *. rewrite (PULL j X y J LX LY). destruct (file_item chw m_info j). reflexivity.
  - unfold image_dataset. cbn [ds_size]. exact B.
  - unfold image_dataset. cbn [ds_size]. intros j J. destruct (LEN j J) as (_ & L2 & L3). auto.
Qed.
End Images.

(** ** Directories *)
Section Open.
Context {St : Type}.
Variable ls : listing.
Variable label : string -> St -> res (Z * St).
Variable good : string -> Prop.
Variable Inv : St -> Prop.
Variable cls : St -> string -> nat -> Prop.
Hypothesis step : forall name s, good name -> Inv s ->
  exists k s', label name s = Ok (Z.of_nat k, s') /\ Inv s' /\ cls s' name k /\ forall x v, cls s x v -> cls s' x v.

Lemma open_dirs_ok dirs : forall s acc, Forall (fun d => ls (d_path d) = Some (d_files d)) dirs -> Forall good (map d_name dirs) -> Inv s ->
  exists s' m, open_dirs ls label (map (fun d => (d_path d, d_name d)) dirs) s acc = Ok (acc ++ m, s') /\ Inv s' /\ (forall x v, cls s x v -> cls s' x v) /\
    Forall2 (fun p f => fst f = fst p /\ exists k, snd f = Z.of_nat k /\ cls s' (snd p) k) (pictures dirs) m.
Proof.
  induction dirs as [|d dirs IH]; intros s acc L G I; cbn [map open_dirs].
  - exists s, []. rewrite app_nil_r. split; [reflexivity|]. split; [exact I|]. split; [auto|constructor].
  - inversion L as [|? ? Ld L']; subst. inversion G as [|? ? Gd G']; subst.
    destruct (step (d_name d) s Gd I) as (k & s1 & E & I1 & C1 & M1). rewrite E. cbn [bind]. rewrite Ld.
    destruct (IH s1 (acc ++ map (fun f => (fst f, Z.of_nat k)) (d_files d)) L' G' I1) as (s' & m & E2 & I2 & M2 & F2).
    exists s', (map (fun f => (fst f, Z.of_nat k)) (d_files d) ++ m). rewrite E2, <- app_assoc. split; [reflexivity|]. split; [exact I2|]. split; [auto|].
    unfold pictures. cbn [flat_map]. apply Forall2_app; [|exact F2].
    assert (Ck : cls s' (d_name d) k) by auto. clear -Ck.
    induction (d_files d) as [|f fs IHf]; cbn [map]; [constructor|]. apply Forall2_cons; [|exact IHf]. split; [reflexivity|]. exists k. split; [reflexivity|exact Ck].
Qed.

Lemma open_root_ok root dirs s : holds_folders ls root dirs -> Forall good (map d_name dirs) -> Inv s ->
  exists s' m, open_root ls label root s = Ok (m, s') /\ Inv s' /\ (forall x v, cls s x v -> cls s' x v) /\
    Forall2 (fun p f => fst f = fst p /\ exists k, snd f = Z.of_nat k /\ cls s' (snd p) k) (pictures dirs) m.
Proof.
  intros [R L] G I. unfold open_root. rewrite R. exact (open_dirs_ok dirs s [] L G I).
Qed.
End Open.

Lemma Forall2_nth {A B} (P : A -> B -> Prop) l1 l2 : Forall2 P l1 l2 -> forall j a, nth_error l1 j = Some a -> exists b, nth_error l2 j = Some b /\ P a b.
Proof.
  induction 1 as [|x y l1 l2 H _ IH]; intros [|j] a; cbn; try discriminate; [|apply IH]. intros [= <-]. eauto.
Qed.
Lemma Forall2_len {A B} (P : A -> B -> Prop) l1 l2 : Forall2 P l1 l2 -> length l1 = length l2.
Proof. induction 1; cbn; auto. Qed.

(** From the directories to the dataset. *)
Section Deliver.
Variables (png jpeg : string -> decoded).
Variables (chw : bool) (s : shape) (rest : list nat) (c : nat) (P : image -> Prop) (shows : image -> list R -> Prop) (class : string -> nat -> Prop).
Hypothesis ES : s = zs rest.
Hypothesis FS : fits s.
Hypothesis HC : chw = true -> prodZ s = Z.of_nat (3 * (32 * 32)).
Hypothesis HP : forall i, decoded_well i -> P i -> (i_h i * i_w i * i_c i = prodZ s)%Z /\ shows i (post chw (pixels i)).

Lemma deliver dirs m : all_decode png jpeg P dirs ->
  Forall2 (fun p f => fst f = fst p /\ exists k, snd f = Z.of_nat k /\ (class (snd p) k /\ k < c)) (pictures dirs) m ->
  length m = length (pictures dirs) /\
  exists item label, delivers png jpeg shows class dirs item label /\
    forall n, (Z.of_nat (length (pictures dirs)) + Z.of_nat n <= int_max)%Z -> labelled (image_dataset png jpeg chw s m) n c rest item label.
Proof.
  intros AD F. pose proof (Forall2_len _ _ _ F) as LN. split; [congruence|]. exists (file_item png jpeg chw m), (file_label m). split.
  - intros j path name E. destruct (Forall2_nth _ _ _ F j _ E) as ([path' v] & E2 & EP & k & EV & CL & _). cbn [fst snd] in *. subst path'.
    unfold file_label, file_item. rewrite Nat2Z.id, (nth_file _ _ _ E2). cbn [fst snd]. rewrite EV, Nat2Z.id. split; [exact CL|].
    destruct (AD path name (nth_error_In _ _ E)) as (i & D & W & Pi). exists i. split; [exact D|]. rewrite (the_image_is png jpeg path i D). apply HP; assumption.
  - intros n B. apply image_labelled; try assumption; [|exact (eq_ind _ (fun k => (Z.of_nat k + Z.of_nat n <= int_max)%Z) B _ LN)].
    assert (Forall (fun p => exists i, decodes png jpeg (fst p) i /\ decoded_well i /\ P i) (pictures dirs)) as AD'.
    { apply Forall_forall. intros [path name] HI. exact (AD path name HI). }
    clear -F AD' HP. induction F as [|[path name] [path' v] ps fs (EP & k & EV & CL & K) _ IH]; [constructor|]. inversion AD' as [|? ? (i & D & W & Pi) AD2]; subst.
    constructor; [|apply IH; exact AD2]. cbn [fst snd] in *. subst path'. exists i, k. cbn [fst snd]. split; [exact D|]. split; [exact W|]. split; [apply HP; assumption|]. split; [exact EV|exact K].
Qed.
End Deliver.
