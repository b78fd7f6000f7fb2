From Coq Require Import String Ascii.
From Verif Require Import Base BaseFacts S_Tensor M_Tensor S_Heap P_Tensor M_Image S_Image.
Local Open Scope string_scope.
Open Scope nat_scope.
Local Open Scope list_scope.

(** * The extension *)
Lemma append_assoc (a b c : string) : ((a ++ b) ++ c = a ++ (b ++ c))%string.
Proof. induction a; cbn; [reflexivity|rewrite IHa; reflexivity]. Qed.

Lemma no_dot_cons c t : no_dot (String c t) <-> c <> "."%char /\ no_dot t.
Proof.
  split.
  - intros H. split.
    + intros ->. apply (H "" t). reflexivity.
    + intros a b ->. apply (H (String c a) b). reflexivity.
  - intros [N H] [|a' a] b E; cbn in E; injection E; intros; subst; [congruence|]. apply (H a b). reflexivity.
Qed.

Lemma no_dot_nil : no_dot "".
Proof. intros [|a' a] b; discriminate. Qed.

Lemma find_last_dot_none s : find_last_dot s = None <-> no_dot s.
Proof.
  induction s as [|c t IH]; cbn [find_last_dot].
  - split; [intros _; apply no_dot_nil|reflexivity].
  - rewrite no_dot_cons. destruct (find_last_dot t) as [i|].
    + split; [discriminate|]. intros [_ H]. apply IH in H. discriminate.
    + destruct (Ascii.eqb_spec c ".") as [->|N].
      * split; [discriminate|]. intros [H _]. congruence.
      * split; [intros _; split; [exact N|apply IH; reflexivity]|reflexivity].
Qed.

Lemma find_last_dot_app p e : no_dot e -> find_last_dot (p ++ "." ++ e) = Some (String.length p).
Proof.
  intros N. apply find_last_dot_none in N. induction p as [|c p IH]; cbn [append find_last_dot String.length].
  - rewrite N. reflexivity.
  - change (String "." e) with ("." ++ e)%string in *. rewrite IH. reflexivity.
Qed.

Lemma substring_whole s : substring 0 (String.length s) s = s.
Proof. induction s; cbn; [reflexivity|rewrite IHs; reflexivity]. Qed.

Lemma append_len a b : String.length (a ++ b)%string = String.length a + String.length b.
Proof. induction a; cbn; [reflexivity|rewrite IHa; reflexivity]. Qed.

Lemma substring_skip p s n : substring (String.length p) n (p ++ s) = substring 0 n s.
Proof. induction p; cbn [append String.length]; [reflexivity|]. cbn [substring]. exact IHp. Qed.

Lemma extension_of path e : has_extension path e -> extension path = e.
Proof.
  intros [N [->|[p ->]]]; unfold extension.
  - apply find_last_dot_none in N. rewrite N, Nat.sub_0_r. apply substring_whole.
  - rewrite find_last_dot_app by assumption.
    assert (E : S (String.length p) = String.length (p ++ ".")) by (rewrite append_len; cbn; lia).
    rewrite E, <- append_assoc, substring_skip, append_len.
    replace (_ + _ - _) with (String.length e) by lia. apply substring_whole.
Qed.

Lemma has_some_extension path : exists e, has_extension path e.
Proof.
  induction path as [|c t [e [N H]]].
  - exists "". split; [apply no_dot_nil|left; reflexivity].
  - destruct H as [->|[p ->]].
    + destruct (Ascii.eqb_spec c ".") as [->|Nc].
      * exists e. split; [exact N|]. right. exists "". reflexivity.
      * exists (String c e). split; [apply no_dot_cons; auto|left; reflexivity].
    + exists e. split; [exact N|]. right. exists (String c p). reflexivity.
Qed.

Lemma extension_iff path e : extension path = e <-> has_extension path e.
Proof.
  split; [|apply extension_of]. intros E. destruct (has_some_extension path) as [e' H].
  pose proof (extension_of path e' H). congruence.
Qed.

Lemma is_png_iff path : is_png path = true <-> has_extension path "png".
Proof. unfold is_png. rewrite String.eqb_eq. apply extension_iff. Qed.
Lemma is_jpeg_iff path : is_jpeg path = true <-> has_extension path "jpg" \/ has_extension path "jpeg".
Proof. unfold is_jpeg. rewrite orb_true_iff, !String.eqb_eq, !extension_iff. reflexivity. Qed.

(** * Pixels *)
Lemma skipn_twice {A} (l : list A) : forall x y, skipn x (skipn y l) = skipn (x + y) l.
Proof.
  intros x y. revert l. induction y; intros l; [rewrite Nat.add_0_r; reflexivity|].
  replace (x + S y) with (S (x + y)) by lia. destruct l; [rewrite !skipn_nil; reflexivity|]. cbn [skipn]. apply IHy.
Qed.

Section Pixels.
Context {V : Type}.
Variable of_byte : Z -> V.
Notation heap := (heap V).

Lemma store_app (h : heap) b o (c v1 v2 : list V) : live h b c -> o + length v1 + length v2 <= length c ->
  st_bind (store h (Some (b, o)) v1) (fun h1 => store h1 (Some (b, o + length v1)) v2) = store h (Some (b, o)) (v1 ++ v2).
Proof.
  intros L B. rewrite (store_in_bounds h b o c v1 L), (store_in_bounds h b o c (v1 ++ v2) L) by (rewrite ?app_length; lia).
  cbn [st_bind]. destruct v1 as [|a v1].
  - cbn [length Nat.eqb app]. rewrite heap_eta, Nat.add_0_r. apply store_in_bounds; [exact L|cbn in B; lia].
  - cbn [length Nat.eqb]. set (v := a :: v1) in *. fold v.
    change (S (length v1)) with (length v).
    assert (L' : live (mkHeap (h_vars h) (h_descs h) (upd (h_blocks h) b (Some (splice c o v)))) b (splice c o v)).
    { unfold live. cbn. apply nth_error_upd_eq. apply nth_error_Some. unfold live in L. congruence. }
    rewrite (store_in_bounds _ b (o + length v) _ v2 L') by (rewrite splice_length; lia). cbn [h_vars h_descs h_blocks].
    replace (length (v ++ v2) =? 0) with false by (unfold v; reflexivity).
    destruct v2 as [|a2 v2']; [cbn [length Nat.eqb]; rewrite app_nil_r; reflexivity|]. set (v2 := a2 :: v2') in *.
    replace (length v2 =? 0) with false by reflexivity.
    rewrite upd_upd. f_equal. f_equal. f_equal. f_equal. unfold splice.
    assert (Lo : length (firstn o c) = o) by (rewrite firstn_length; lia).
    rewrite firstn_app, Lo. replace (o + length v - o) with (length v) by lia.
    rewrite (firstn_all2 (n := o + length v) (firstn o c)) by lia.
    rewrite firstn_app, Nat.sub_diag, firstn_all. cbn [firstn]. rewrite app_nil_r.
    rewrite <- !app_assoc. do 3 f_equal.
    rewrite !skipn_app, Lo, app_length.
    rewrite (skipn_all2 (firstn o c)) by lia. cbn [app].
    rewrite (skipn_all2 v) by lia. cbn [app].
    replace (o + length v + length v2 - o - length v) with (length v2) by lia.
    rewrite skipn_twice. f_equal. lia.
Qed.

Definition rows_data (n : nat) (rows : list (list Z)) : list V := concat (map (fun r => map of_byte (firstn n r)) rows).

Lemma rows_data_length n rows : Forall (fun r : list Z => n <= length r) rows -> length (rows_data n rows) = length rows * n.
Proof.
  unfold rows_data. induction 1 as [|r rows H _ IH]; [reflexivity|]. cbn [map concat length]. rewrite app_length, IH, map_length, firstn_length. lia.
Qed.

Lemma store_bounds_live (h h1 : heap) b o (c vs : list V) : live h b c -> o + length vs <= length c -> store h (Some (b, o)) vs = Ret h1 ->
  exists c1, live h1 b c1 /\ length c1 = length c.
Proof.
  intros L B E. rewrite (store_in_bounds h b o c vs L B) in E. injection E as <-.
  destruct (live_store h b c vs o b c L B L) as (c1 & L1 & E1 & _). exists c1. split; assumption.
Qed.

Lemma copy_rows_store n b o rows : forall y (h : heap) c, live h b c -> o + (y + length rows) * n <= length c ->
  Forall (fun r : list Z => n <= length r) rows ->
  copy_rows of_byte n (Some (b, o)) y rows h = store h (Some (b, o + y * n)) (rows_data n rows).
Proof.
  induction rows as [|r rows IH]; intros y h c L B F; [reflexivity|].
  inversion F as [|? ? F1 F2]; subst. cbn [copy_rows shift length] in *.
  destruct (Nat.leb_spec n (length r)) as [_|N]; [|lia].
  assert (Lr : length (map of_byte (firstn n r)) = n) by (rewrite map_length, firstn_length; lia).
  unfold rows_data. cbn [map concat]. fold (rows_data n rows).
  pose proof (rows_data_length n rows F2) as Ld.
  rewrite <- (store_app h b (o + y * n) c) by (assumption || (rewrite Lr, Ld; lia)).
  destruct (store h (Some (b, o + y * n)) (map of_byte (firstn n r))) as [h1|h1|] eqn:E; cbn [st_bind]; [|reflexivity..].
  destruct (store_bounds_live h h1 b (o + y * n) c (map of_byte (firstn n r)) L ltac:(lia) E) as (c1 & L1 & E1).
  rewrite (IH (S y) h1 c1 L1) by (assumption || lia). rewrite Lr. f_equal. f_equal. f_equal. lia.
Qed.

Lemma concat_nth {A} n (l : list (list A)) : Forall (fun r => length r = n) l -> forall y k, k < n ->
  nth_error (concat l) (y * n + k) = match nth_error l y with Some r => nth_error r k | None => None end.
Proof.
  induction 1 as [|r l H _ IH]; intros y k K; [cbn [concat]; destruct y; destruct (_ + _); reflexivity|].
  cbn [concat]. destruct y as [|y]; cbn [nth_error].
  - rewrite nth_error_app1 by lia. reflexivity.
  - rewrite nth_error_app2 by lia. rewrite <- IH by assumption. f_equal. lia.
Qed.

Lemma rows_hold (i : image) : decoded_well i -> holds_image of_byte i (rows_data (Z.to_nat (i_w i * i_c i)) (i_rows i)).
Proof.
  intros (H1 & H2 & H3 & _ & L & F). set (n := Z.to_nat (i_w i * i_c i)).
  assert (F' : Forall (fun r : list Z => n <= length r) (i_rows i)) by (rewrite Forall_forall in F |- *; intros r R; specialize (F r R); unfold n; lia).
  split.
  - rewrite rows_data_length, L by assumption. unfold n. nia.
  - intros y x c Hy Hx Hc. unfold sample.
    assert (En : n = Z.to_nat (i_w i) * Z.to_nat (i_c i)) by (unfold n; rewrite Z2Nat.inj_mul by lia; reflexivity).
    assert (K : x * Z.to_nat (i_c i) + c < n) by nia.
    destruct (nth_error (i_rows i) y) as [r|] eqn:R; [|apply nth_error_None in R; lia].
    assert (Lr : n <= length r) by (rewrite Forall_forall in F'; apply F'; eapply nth_error_In; exact R).
    destruct (nth_error r (x * Z.to_nat (i_c i) + c)) as [v|] eqn:Ev; [|apply nth_error_None in Ev; lia].
    exists v. split; [reflexivity|].
    replace ((y * Z.to_nat (i_w i) + x) * Z.to_nat (i_c i) + c) with (y * n + (x * Z.to_nat (i_c i) + c)) by (rewrite En; lia).
    unfold rows_data. rewrite concat_nth.
    + rewrite nth_error_map, R. cbn [option_map]. rewrite nth_error_map.
      assert (Ef : nth_error (firstn n r) (x * Z.to_nat (i_c i) + c) = Some v).
      { rewrite <- Ev. rewrite <- (firstn_skipn n r) at 2. rewrite nth_error_app1 by (rewrite firstn_length; lia). reflexivity. }
      rewrite Ef. reflexivity.
    + apply Forall_map. rewrite Forall_forall in F' |- *. intros r' R'. rewrite map_length, firstn_length. specialize (F' r' R'). lia.
    + exact K.
Qed.

(** Reading into an empty tensor, and into one with as many elements as the image. *)
Lemma read_into_empty (i : image) junk x k d (h : heap) : wf h -> denotes h x k d -> d_total d = 0%Z -> decoded_well i ->
  exists h' l d', read_pixels of_byte i true junk x h = Ret h' /\ denotes h' x k d' /\ d_shape d' = [i_h i; i_w i; i_c i] /\
    contents h' x = Ok l /\ holds_image of_byte i l.
Proof.
  intros W Dx T G. pose proof (rows_hold i G) as RH. destruct G as (H1 & H2 & H3 & Fi & L & F).
  set (s := [i_h i; i_w i; i_c i]) in *.
  assert (Hx : x < length (h_vars h)) by (apply nth_error_Some; destruct Dx as [Dx _]; congruence).
  assert (Hn : nonneg s) by (unfold s, nonneg; repeat constructor; lia).
  destruct (allocate_fresh h x s junk W Hx Hn Fi) as (h1 & A & k1 & d1 & b & D1 & S1 & T1 & _ & M1 & P1 & L1).
  assert (W1 : wf h1).
  { assert (LG : legal h (CAllocate x s true junk)) by (split; [exact Hx|split; [reflexivity|intros _; exact Fi]]).
    pose proof (run_call_safe h (CAllocate x s true junk) W LG) as Q. cbn [run_call] in Q. rewrite A in Q.
    destruct Q as (h' & [Q|Q] & W'); [injection Q as <-; exact W'|discriminate]. }
  assert (K1 : k1 = k).
  { destruct D1 as [D1 _]. destruct Dx as [Dx _].
    assert (V1 : h_vars h1 = h_vars h).
    { unfold allocate, rd in A. rewrite Dx in A. cbn [lift] in A. eapply allocate_desc_vars. left. exact A. }
    rewrite V1 in D1. congruence. }
  subst k1.
  assert (AC : accessible h1 x) by (exists k, d1; split; [exact D1|left; congruence]).
  assert (Ps : prodZ s = (i_h i * i_w i * i_c i)%Z) by (unfold s, prodZ; cbn [fold_right]; ring).
  set (data := rows_data (Z.to_nat (i_w i * i_c i)) (i_rows i)) in *.
  assert (Ld : length data = Z.to_nat (d_total d1)).
  { destruct RH as [RH _]. rewrite T1, Ps. lia. }
  destruct (store_var_spec h1 x k d1 data W1 AC D1 Ld) as (h2 & E2 & C2 & V2 & DD2 & _).
  exists h2, data, d1. split; [|split; [|split; [exact S1|split; [exact C2|exact RH]]]].
  - unfold read_pixels. fold s. apply var_desc_Ok in Dx. rewrite Dx. cbn [lift]. unfold empty. rewrite T. cbn [Z.eqb]. rewrite A. cbn [st_bind].
    apply var_desc_Ok in D1. rewrite D1. cbn [lift]. rewrite P1.
    rewrite (copy_rows_store (Z.to_nat (i_w i * i_c i)) b 0 (i_rows i) 0 h1 _ L1).
    + cbn [Nat.mul Nat.add]. rewrite <- P1. exact E2.
    + rewrite tab_length, Ps, L. cbn [Nat.add]. nia.
    + rewrite Forall_forall in F |- *. intros r R. specialize (F r R). cbn beta in F. lia.
  - destruct D1 as [D1 D1']. split; congruence.
Qed.

Lemma read_into_full (i : image) ok junk x k d (h : heap) : wf h -> denotes h x k d -> accessible h x ->
  (d_total d = i_h i * i_w i * i_c i)%Z -> decoded_well i ->
  exists h' l, read_pixels of_byte i ok junk x h = Ret h' /\ denotes h' x k d /\
    contents h' x = Ok l /\ holds_image of_byte i l /\ (forall b j, ~ covers h x b j -> cell h' b j = cell h b j).
Proof.
  intros W Dx AC T G. pose proof (rows_hold i G) as RH. destruct G as (H1 & H2 & H3 & Fi & L & F).
  set (s := [i_h i; i_w i; i_c i]) in *.
  assert (Ps : prodZ s = (i_h i * i_w i * i_c i)%Z) by (unfold s, prodZ; cbn [fold_right]; ring).
  set (data := rows_data (Z.to_nat (i_w i * i_c i)) (i_rows i)) in *.
  assert (Ld : length data = Z.to_nat (d_total d)).
  { destruct RH as [RH _]. rewrite T. lia. }
  assert (Pos : (0 < d_total d)%Z) by (rewrite T; nia).
  destruct (store_var_spec h x k d data W AC Dx Ld) as (h2 & E2 & C2 & V2 & DD2 & Fr).
  exists h2, data. split; [|split; [|split; [exact C2|split; [exact RH|exact Fr]]]].
  - destruct (accessible_in_bounds h x k d W AC Dx) as [Z0|(b & o & c & E & Lv & B)]; [lia|].
    apply var_desc_Ok in Dx. unfold read_pixels. fold s. rewrite Dx. cbn [lift]. unfold empty.
    replace (d_total d =? 0)%Z with false by lia.
    assert (EP : int_prod s = Ok (prodZ s)) by (apply int_prod_Ok; auto). rewrite EP. cbn [lift].
    assert (Fb : (prodZ s <= int_max)%Z) by (apply fits_nonneg_bound; exact Fi).
    rewrite Z.mod_small by (rewrite Ps, <- T in *; unfold size_mod, int_max in *; lia).
    rewrite Ps, <- T, Z.eqb_refl. cbn [dw_assert lift st_bind]. rewrite Dx. cbn [lift]. rewrite E.
    rewrite (copy_rows_store (Z.to_nat (i_w i * i_c i)) b o (i_rows i) 0 h c Lv).
    + cbn [Nat.mul]. rewrite Nat.add_0_r, <- E. exact E2.
    + cbn [Nat.add]. rewrite L. nia.
    + rewrite Forall_forall in F |- *. intros r R. specialize (F r R). cbn beta in F. lia.
  - destruct Dx. split; congruence.
Qed.

Lemma read_into_other (i : image) ok junk x k d (h : heap) : wf h -> denotes h x k d ->
  (d_total d <> 0)%Z -> (d_total d <> i_h i * i_w i * i_c i)%Z -> decoded_well i ->
  read_pixels of_byte i ok junk x h = Exc h.
Proof.
  intros W Dx T0 T (H1 & H2 & H3 & Fi & L & F). set (s := [i_h i; i_w i; i_c i]) in *.
  assert (Ps : prodZ s = (i_h i * i_w i * i_c i)%Z) by (unfold s, prodZ; cbn [fold_right]; ring).
  apply var_desc_Ok in Dx as Dx'. unfold read_pixels. fold s. rewrite Dx'. cbn [lift]. unfold empty.
  replace (d_total d =? 0)%Z with false by lia.
  assert (EP : int_prod s = Ok (prodZ s)) by (apply int_prod_Ok; auto). rewrite EP. cbn [lift].
  assert (Fb : (prodZ s <= int_max)%Z) by (apply fits_nonneg_bound; exact Fi).
  rewrite Z.mod_small by (rewrite Ps in *; unfold size_mod, int_max in *; nia).
  replace (prodZ s =? d_total d)%Z with false by (rewrite Ps; lia). reflexivity.
Qed.

Lemma read_short_rows (i : image) ok junk x k d (h : heap) r rows : wf h -> denotes h x k d ->
  d_total d = 0%Z -> nonneg [i_h i; i_w i; i_c i] -> fits [i_h i; i_w i; i_c i] -> ok = true ->
  i_rows i = r :: rows -> (Z.of_nat (length r) < i_w i * i_c i)%Z ->
  read_pixels of_byte i ok junk x h = Bad.
Proof.
  intros W Dx T Hn Fi -> R Sh. set (s := [i_h i; i_w i; i_c i]) in *.
  assert (Hx : x < length (h_vars h)) by (apply nth_error_Some; destruct Dx as [Dx _]; congruence).
  destruct (allocate_fresh h x s junk W Hx Hn Fi) as (h1 & A & k1 & d1 & b & D1 & _).
  apply var_desc_Ok in Dx. apply var_desc_Ok in D1. unfold read_pixels. fold s. rewrite Dx. cbn [lift]. unfold empty. rewrite T. cbn [Z.eqb].
  rewrite A. cbn [st_bind]. rewrite D1. cbn [lift]. rewrite R. cbn [copy_rows].
  destruct (Nat.leb_spec (Z.to_nat (i_w i * i_c i)) (length r)); [lia|reflexivity].
Qed.
End Pixels.
