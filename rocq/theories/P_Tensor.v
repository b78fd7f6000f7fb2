(** Proofs about the Tensor model. *)
From Verif Require Import Base BaseFacts S_Tensor M_Tensor S_Heap.

(** * Shapes, products and strides *)

Lemma have_negative_dim_spec s : have_negative_dim s = false <-> nonneg s.
Proof.
  unfold have_negative_dim, nonneg. split.
  - intros H. apply Forall_forall. intros d Hd.
    destruct (Z.ltb_spec d 0) as [L|L]; [|exact L].
    assert (existsb (fun d => (d <? 0)%Z) s = true); [|congruence].
    apply existsb_exists. exists d. split; [exact Hd|lia].
  - intros H. destruct (existsb _ s) eqn:E; [|reflexivity].
    apply existsb_exists in E as (d & Hd & Hneg).
    rewrite Forall_forall in H. specialize (H d Hd). lia.
Qed.

Lemma prodZ_cons d s : prodZ (d :: s) = (d * prodZ s)%Z.
Proof. reflexivity. Qed.
Lemma prodZ_nil : prodZ [] = 1%Z.
Proof. reflexivity. Qed.

Lemma prodZ_app s1 s2 : prodZ (s1 ++ s2) = (prodZ s1 * prodZ s2)%Z.
Proof.
  unfold prodZ. induction s1 as [|d t IH]; cbn [app fold_right]; [ring|]. rewrite IH. ring.
Qed.

Lemma prodZ_nonneg s : nonneg s -> (0 <= prodZ s)%Z.
Proof.
  unfold prodZ. induction 1; cbn [fold_right]; [lia|]. apply Z.mul_nonneg_nonneg; assumption.
Qed.

Lemma int_prod_from_Ok acc s t :
  int_prod_from acc s = Ok t <->
  t = (acc * prodZ s)%Z /\
  forall n, 0 < n <= length s -> (int_min <= acc * prodZ (firstn n s) <= int_max)%Z.
Proof.
  revert acc. induction s as [|d s IH]; intros acc; cbn [int_prod_from length].
  - rewrite prodZ_nil. split.
    + intros [= <-]. split; [lia|intros; lia].
    + intros [-> _]. f_equal. lia.
  - unfold fits_int. destruct ((int_min <=? acc * d) && (acc * d <=? int_max))%Z eqn:E.
    + rewrite IH, prodZ_cons. split.
      * intros [-> H]. split; [ring|].
        intros [|n] Hn; [lia|]. cbn [firstn]. rewrite prodZ_cons. destruct n as [|n].
        -- cbn [firstn]. rewrite prodZ_nil, Z.mul_1_r. lia.
        -- rewrite Z.mul_assoc. apply H. lia.
      * intros [-> H]. split; [ring|].
        intros n Hn. specialize (H (S n)). cbn [firstn] in H.
        rewrite prodZ_cons, Z.mul_assoc in H. apply H. lia.
    + split; [discriminate|]. intros [_ H]. exfalso.
      specialize (H 1). cbn [firstn] in H.
      rewrite prodZ_cons, prodZ_nil, Z.mul_1_r in H.
      assert (0 < 1 <= S (length s)) as H1 by lia. apply H in H1. lia.
Qed.

Lemma int_prod_Ok s t : int_prod s = Ok t <-> t = prodZ s /\ fits s.
Proof.
  unfold int_prod, fits. rewrite int_prod_from_Ok. rewrite Z.mul_1_l.
  split; intros [-> H]; split; auto; intros n.
  - destruct n as [|n]; [cbn; unfold int_min, int_max; lia|].
    destruct (le_lt_dec (S n) (length s)).
    + specialize (H (S n)). rewrite Z.mul_1_l in H. apply H. lia.
    + rewrite firstn_all2 by lia. destruct s as [|d s].
      * cbn; unfold int_min, int_max; lia.
      * specialize (H (length (d :: s))). rewrite firstn_all, Z.mul_1_l in H. apply H. cbn; lia.
  - intros _. rewrite Z.mul_1_l. apply H.
Qed.

Lemma int_prod_cases s : int_prod s = UB \/ int_prod s = Ok (prodZ s).
Proof.
  unfold int_prod. assert (forall acc, int_prod_from acc s = UB \/ exists t, int_prod_from acc s = Ok t).
  { induction s as [|d s IH]; intros acc; cbn; eauto. destruct (fits_int _); eauto. }
  destruct (H 1%Z) as [E|[t E]]; auto. right.
  apply (int_prod_Ok s t) in E as E'. destruct E' as [-> _]. exact E.
Qed.

Lemma fits_nonneg_bound s : fits s -> (int_min <= prodZ s <= int_max)%Z.
Proof. intros H. specialize (H (length s)). rewrite firstn_all in H. exact H. Qed.

Lemma strides_loop_spec s :
  length (fst (strides_loop s)) = length s /\
  snd (strides_loop s) = (prodZ s mod size_mod)%Z /\
  forall k, k < length s -> nth k (fst (strides_loop s)) 0%Z = (prodZ (skipn (S k) s) mod size_mod)%Z.
Proof.
  induction s as [|d s (IH1 & IH2 & IH3)]; cbn [strides_loop].
  - cbn. repeat split; intros; lia.
  - destruct (strides_loop s) as [st acc]. cbn [fst snd] in *. subst acc. repeat split.
    + cbn. lia.
    + cbn [prodZ fold_right]. change (fold_right Z.mul 1%Z s) with (prodZ s).
      rewrite Z.mul_mod_idemp_l by (unfold size_mod; lia). f_equal. ring.
    + intros [|k] Hk; cbn [nth].
      * reflexivity.
      * rewrite IH3 by (cbn in Hk; lia). reflexivity.
Qed.

Lemma calculateStrides_row_major s :
  nonneg s -> (forall k, (prodZ (skipn (S k) s) < size_mod)%Z) -> row_major s (calculateStrides s).
Proof.
  intros Hn Hb. destruct (strides_loop_spec s) as (H1 & _ & H3). split; [exact H1|].
  intros k Hk. unfold calculateStrides. rewrite H3 by exact Hk. apply Z.mod_small.
  split; [|apply Hb]. apply prodZ_nonneg. unfold nonneg in *.
  rewrite <- (firstn_skipn (S k) s) in Hn. apply Forall_app in Hn. tauto.
Qed.

(** With all dimensions positive a shape whose total is an [int] never wraps. *)
Lemma positive_suffix_le s k :
  Forall (fun d => 0 < d)%Z s -> (0 < prodZ (skipn k s) <= prodZ s)%Z.
Proof.
  intros H. revert k. induction H as [|d s Hd Hs IH]; intros k.
  - rewrite skipn_nil. cbn. lia.
  - destruct k as [|k].
    + specialize (IH 0). cbn [skipn] in *. rewrite prodZ_cons. nia.
    + specialize (IH k). cbn [skipn]. rewrite prodZ_cons. nia.
Qed.

Lemma calculateStrides_positive s :
  Forall (fun d => 0 < d)%Z s -> fits s -> row_major s (calculateStrides s).
Proof.
  intros Hp Hf. apply calculateStrides_row_major.
  - eapply Forall_impl; [|exact Hp]. cbn. intros; lia.
  - intros k. pose proof (positive_suffix_le s (S k) Hp). pose proof (fits_nonneg_bound s Hf).
    unfold size_mod, int_max in *. lia.
Qed.

(** * The offset map is a bijection *)

Lemma offset_range s strides idx :
  row_major s strides -> valid_index idx s -> (0 <= offset idx strides < prodZ s)%Z.
Proof.
  revert strides idx. induction s as [|d s IH]; intros strides idx [Hl Hs] Hv.
  - inversion Hv; subst. destruct strides; cbn in *; lia.
  - inversion Hv as [|i ? idx' ? Hi Hv']; subst.
    destruct strides as [|s0 strides]; [discriminate|].
    assert (Hrm : row_major s strides).
    { split; [cbn in Hl; lia|]. intros k Hk. specialize (Hs (S k)). cbn in Hs. apply Hs. cbn; lia. }
    specialize (IH strides idx' Hrm Hv').
    assert (s0 = prodZ s) as ->. { specialize (Hs 0). cbn in Hs. apply Hs. lia. }
    cbn [offset]. rewrite prodZ_cons. nia.
Qed.

Lemma offset_inj s strides idx1 idx2 :
  row_major s strides -> valid_index idx1 s -> valid_index idx2 s ->
  offset idx1 strides = offset idx2 strides -> idx1 = idx2.
Proof.
  revert strides idx1 idx2. induction s as [|d s IH]; intros strides idx1 idx2 [Hl Hs] Hv1 Hv2 E.
  - inversion Hv1; inversion Hv2; subst; reflexivity.
  - inversion Hv1 as [|i1 ? t1 ? Hi1 Ht1]; inversion Hv2 as [|i2 ? t2 ? Hi2 Ht2]; subst.
    destruct strides as [|s0 strides]; [discriminate|].
    assert (Hrm : row_major s strides).
    { split; [cbn in Hl; lia|]. intros k Hk. specialize (Hs (S k)). cbn in Hs. apply Hs. cbn; lia. }
    assert (s0 = prodZ s) as ->. { specialize (Hs 0). cbn in Hs. apply Hs. lia. }
    cbn [offset] in E.
    pose proof (offset_range s strides t1 Hrm Ht1). pose proof (offset_range s strides t2 Hrm Ht2).
    assert (i1 = i2) by nia. subst i2. f_equal.
    apply (IH strides); auto. lia.
Qed.

Lemma offset_surj s strides o :
  row_major s strides -> nonneg s -> (0 <= o < prodZ s)%Z ->
  exists idx, valid_index idx s /\ offset idx strides = o.
Proof.
  revert strides o. induction s as [|d s IH]; intros strides o [Hl Hs] Hn Ho.
  - exists []. split; [constructor|]. cbn in Ho |- *. lia.
  - destruct strides as [|s0 strides]; [discriminate|].
    assert (Hrm : row_major s strides).
    { split; [cbn in Hl; lia|]. intros k Hk. specialize (Hs (S k)). cbn in Hs. apply Hs. cbn; lia. }
    assert (s0 = prodZ s) as ->. { specialize (Hs 0). cbn in Hs. apply Hs. lia. }
    inversion Hn as [|? ? Hd Hn']; subst.
    change (prodZ (d :: s)) with (d * prodZ s)%Z in Ho.
    pose proof (prodZ_nonneg s Hn') as Hp.
    assert (Hpos : (0 < prodZ s)%Z) by nia.
    destruct (IH strides (o mod prodZ s)%Z Hrm Hn') as (idx & Hv & E).
    { apply Z.mod_pos_bound. exact Hpos. }
    exists ((o / prodZ s)%Z :: idx). split.
    + constructor; [|exact Hv]. split.
      * apply Z.div_pos; lia.
      * apply Z.div_lt_upper_bound; lia.
    + cbn [offset]. rewrite E. rewrite (Z.div_mod o (prodZ s)) at 3 by lia. ring.
Qed.

(** * Heaps *)
Section Heap.
Context {V : Type}.
Notation heap := (heap V).
Notation call := (call V).
Notation live := (@live V).
Notation denotes := (@denotes V).
Notation accessible := (@accessible V).
Notation legal := (@legal V).
Notation covers := (@covers V).
Notation cell := (@cell V).
Notation same_view := (@same_view V).
Notation reachable := (@reachable V).

Lemma var_desc_Ok (h : heap) x k d : var_desc h x = Ok (k, d) <-> denotes h x k d.
Proof.
  unfold var_desc, denotes, rd.
  destruct (nth_error (h_vars h) x) as [k'|]; cbn; [|split; [discriminate|intros [? ?]; discriminate]].
  destruct (nth_error (h_descs h) k') as [d'|] eqn:E; cbn.
  - split.
    + intros [= -> ->]. auto.
    + intros [[= ->] E']. congruence.
  - split; [discriminate|]. intros [[= ->] E']. congruence.
Qed.

Record desc_wf (h : heap) (d : desc) : Prop := {
  dw_strides : d_strides d = calculateStrides (d_shape d);
  dw_total   : (d_total d = prodZ (d_shape d) /\ fits (d_shape d)) \/ (d_shape d = [] /\ d_total d = 0%Z);
  dw_range   : (0 <= d_total d <= int_max)%Z;
  dw_owned   : forall b, d_memory d = Some b ->
               d_data d = Some (b, 0) /\ exists c, live h b c /\ length c = Z.to_nat (d_total d)
}.

Record wf (h : heap) : Prop := {
  wf_vars  : forall x k, nth_error (h_vars h) x = Some k -> k < length (h_descs h);
  wf_descs : forall k d, nth_error (h_descs h) k = Some d -> desc_wf h d;
  wf_sep   : forall k1 k2 d1 d2 b, nth_error (h_descs h) k1 = Some d1 -> nth_error (h_descs h) k2 = Some d2 ->
             d_memory d1 = Some b -> d_memory d2 = Some b -> k1 = k2
}.

Lemma accessible_in_bounds h x k d :
  wf h -> accessible h x -> denotes h x k d ->
  d_total d = 0%Z \/
  exists b o c, d_data d = Some (b, o) /\ live h b c /\ o + Z.to_nat (d_total d) <= length c.
Proof.
  intros Hwf (k' & d' & [Hv Hd] & H) [Hv' Hd'].
  assert (k' = k) by congruence. subst k'. assert (d' = d) by congruence. subst d'.
  destruct H as [H|[H|H]]; auto. right.
  destruct (d_memory d) as [b|] eqn:E; [|congruence].
  destruct (dw_owned h d (wf_descs h Hwf k d Hd) b E) as (E1 & c & Hc & Hl).
  exists b, 0, c. split; [exact E1|]. split; [exact Hc|]. lia.
Qed.

Lemma load_in_bounds h b o c n :
  live h b c -> o + n <= length c -> load h (Some (b, o)) n = Ok (firstn n (skipn o c)).
Proof.
  intros Hc Hl. unfold load. destruct n as [|n]; [reflexivity|].
  unfold rd. rewrite Hc. cbn [bind]. destruct (Nat.leb_spec (o + S n) (length c)); [reflexivity|lia].
Qed.

Lemma store_in_bounds h b o c vs :
  live h b c -> o + length vs <= length c ->
  store h (Some (b, o)) vs =
    Ret (mkHeap (h_vars h) (h_descs h)
           (if length vs =? 0 then h_blocks h else upd (h_blocks h) b (Some (splice c o vs)))).
Proof.
  intros Hc Hl. unfold store. destruct vs as [|v vs].
  - cbn. destruct h; reflexivity.
  - unfold rd. rewrite Hc. cbn [lift].
    destruct (Nat.leb_spec (o + length (v :: vs)) (length c)); [reflexivity|lia].
Qed.

Lemma splice_length (c : list V) o vs : o + length vs <= length c -> length (splice c o vs) = length c.
Proof.
  intros H. unfold splice. rewrite !app_length, firstn_length, skipn_length. lia.
Qed.

Lemma splice_nth (c : list V) o vs i d :
  o + length vs <= length c ->
  nth i (splice c o vs) d = if (o <=? i) && (i <? o + length vs) then nth (i - o) vs d else nth i c d.
Proof.
  intros H. unfold splice.
  assert (Ho : length (firstn o c) = o) by (rewrite firstn_length; lia).
  destruct (Nat.leb_spec o i) as [L|L]; cbn [andb].
  - rewrite app_nth2 by lia. rewrite Ho.
    destruct (Nat.ltb_spec i (o + length vs)) as [L2|L2].
    + rewrite app_nth1 by lia. reflexivity.
    + rewrite app_nth2 by lia. rewrite <- (firstn_skipn (o + length vs) c) at 2.
      rewrite app_nth2 by (rewrite firstn_length; lia). rewrite firstn_length.
      f_equal. lia.
  - rewrite app_nth1 by lia. rewrite <- (firstn_skipn o c) at 2. rewrite app_nth1 by lia. reflexivity.
Qed.

(** Storing keeps every block alive with its length. *)
Lemma live_store h b c vs o b' c' :
  live h b c -> o + length vs <= length c -> live h b' c' ->
  exists c'', live (mkHeap (h_vars h) (h_descs h)
                (if length vs =? 0 then h_blocks h else upd (h_blocks h) b (Some (splice c o vs)))) b' c''
              /\ length c'' = length c' /\ (b' <> b -> c'' = c') /\ (b' = b -> c' = c /\ c'' = splice c o vs).
Proof.
  unfold live. cbn. intros Hc Hl Hc'.
  destruct (Nat.eqb_spec (length vs) 0) as [E|E].
  - exists c'. repeat split; auto; subst; [congruence|].
    destruct vs; [|discriminate]. unfold splice. cbn. rewrite Nat.add_0_r, firstn_skipn. congruence.
  - destruct (Nat.eq_dec b b') as [<-|Hb].
    + exists (splice c o vs). rewrite nth_error_upd_eq.
      * assert (c = c') by congruence. subst c'. rewrite splice_length by lia. repeat split; auto; congruence.
      * apply nth_error_Some. congruence.
    + exists c'. rewrite nth_error_upd_neq by exact Hb. repeat split; auto; congruence.
Qed.

Lemma wf_store h b o c vs :
  wf h -> live h b c -> o + length vs <= length c ->
  wf (mkHeap (h_vars h) (h_descs h)
        (if length vs =? 0 then h_blocks h else upd (h_blocks h) b (Some (splice c o vs)))).
Proof.
  intros Hwf Hc Hl. split; cbn.
  - apply (wf_vars h Hwf).
  - intros k d Hd. destruct (wf_descs h Hwf k d Hd) as [A B C D]. split; auto.
    intros b' Hb'. destruct (D b' Hb') as (E & c' & Hc' & Hl'). split; [exact E|].
    destruct (live_store h b c vs o b' c' Hc Hl Hc') as (c'' & H1 & H2 & _). exists c''.
    split; [exact H1|congruence].
  - apply (wf_sep h Hwf).
Qed.

Lemma wf_var_denotes h x : wf h -> x < length (h_vars h) -> exists k d, denotes h x k d.
Proof.
  intros Hwf Hx. apply nth_error_Some in Hx. destruct (nth_error (h_vars h) x) as [k|] eqn:E; [|congruence].
  pose proof (wf_vars h Hwf x k E) as Hk. apply nth_error_Some in Hk.
  destruct (nth_error (h_descs h) k) as [d|] eqn:E'; [|congruence].
  exists k, d. split; assumption.
Qed.

(** [init] computed. *)
Lemma init_eq (h : heap) k s d :
  nth_error (h_descs h) k = Some d ->
  init h k s =
    if have_negative_dim s then Exc h
    else match int_prod s with
         | Ok t => Ret (set_desc h k (mkDesc (calculateStrides s) s (d_memory d) (d_data d) t))
         | _ => Bad
         end.
Proof.
  intros Hd. unfold init. destruct (have_negative_dim s); cbn [negb dw_assert lift]; [reflexivity|].
  unfold rd. rewrite Hd. cbn [lift].
  destruct (int_prod_cases s) as [E|E]; rewrite E; cbn [lift]; [reflexivity|].
  unfold set_desc. cbn. f_equal. f_equal.
  assert (G : forall (l : list desc) j a b, upd (upd l j a) j b = upd l j b).
  { clear. induction l as [|x l IH]; intros [|j] a b; cbn; auto. f_equal. apply IH. }
  rewrite !G. reflexivity.
Qed.

Lemma upd_upd {A} (l : list A) j a b : upd (upd l j a) j b = upd l j b.
Proof. revert j; induction l as [|x l IH]; intros [|j]; cbn; auto. f_equal. apply IH. Qed.

(** [allocate] computed. *)
Lemma allocate_desc_eq (h : heap) k s ok junk d :
  nth_error (h_descs h) k = Some d ->
  allocate_desc h k s ok junk =
    if have_negative_dim s then Exc h
    else match int_prod s with
         | Ok t =>
             if ok then
               Ret (mkHeap (h_vars h)
                      (upd (h_descs h) k (mkDesc (calculateStrides s) s (Some (length (h_blocks h)))
                                                 (Some (length (h_blocks h), 0)) t))
                      (free_block (d_memory d) (h_blocks h) ++ [Some (tab (Z.to_nat t) junk)]))
             else Exc (set_desc h k (mkDesc (calculateStrides s) s (d_memory d) (d_data d) t))
         | _ => Bad
         end.
Proof.
  intros Hd. unfold allocate_desc. rewrite (init_eq h k s d Hd).
  destruct (have_negative_dim s); cbn [st_bind]; [reflexivity|].
  destruct (int_prod_cases s) as [E|E]; rewrite E; cbn [st_bind]; [reflexivity|].
  unfold rd, set_desc. cbn [h_descs h_vars h_blocks].
  rewrite nth_error_upd_eq by (apply nth_error_Some; congruence). cbn [lift d_strides d_shape d_memory d_total].
  destruct ok; [|reflexivity]. rewrite upd_upd. reflexivity.
Qed.

Lemma free_block_length b (bs : list (option (list V))) : length (free_block b bs) = length bs.
Proof. destruct b; cbn; [apply upd_length|reflexivity]. Qed.

(** Well-formedness after replacing descriptor [k] by a freshly allocated one. *)
Lemma wf_allocated h k d s t junk :
  wf h -> nth_error (h_descs h) k = Some d -> nonneg s -> int_prod s = Ok t ->
  wf (mkHeap (h_vars h)
        (upd (h_descs h) k (mkDesc (calculateStrides s) s (Some (length (h_blocks h)))
                                   (Some (length (h_blocks h), 0)) t))
        (free_block (d_memory d) (h_blocks h) ++ [Some (tab (Z.to_nat t) junk)])).
Proof.
  intros Hwf Hd Hn Ht. apply int_prod_Ok in Ht as [Et Hf]. split; cbn.
  - intros x k' Hk'. rewrite upd_length. apply (wf_vars h Hwf x k' Hk').
  - intros k' d' Hd'. rewrite nth_error_upd in Hd'.
    destruct ((k =? k') && (k <? length (h_descs h))) eqn:E.
    + injection Hd' as <-. split; cbn; auto.
      * rewrite Et. pose proof (prodZ_nonneg s Hn). pose proof (fits_nonneg_bound s Hf). lia.
      * intros b [= <-]. split; [reflexivity|]. exists (tab (Z.to_nat t) junk).
        unfold live; cbn. split; [|apply tab_length].
        rewrite nth_error_app2 by (rewrite free_block_length; lia).
        rewrite free_block_length, Nat.sub_diag. reflexivity.
    + assert (Hk : k <> k').
      { intros <-. rewrite Nat.eqb_refl in E. cbn in E. apply Nat.ltb_ge in E.
        assert (k < length (h_descs h)); [|lia]. apply nth_error_Some. congruence. }
      destruct (wf_descs h Hwf k' d' Hd') as [A B C D]. split; auto.
      intros b Hb. destruct (D b Hb) as (E1 & c & Hc & Hl). split; [exact E1|].
      exists c. split; [|exact Hl]. unfold live in *. cbn.
      rewrite nth_error_app1.
      2:{ rewrite free_block_length. apply nth_error_Some. congruence. }
      destruct (d_memory d) as [b0|] eqn:E0; cbn; [|exact Hc].
      rewrite nth_error_upd_neq; [exact Hc|]. intros ->.
      apply Hk. apply (wf_sep h Hwf k k' d d' b); assumption.
  - assert (Hfresh : forall k' d', nth_error (h_descs h) k' = Some d' -> d_memory d' <> Some (length (h_blocks h))).
    { intros k' d' Hd' Em. destruct (dw_owned h d' (wf_descs h Hwf k' d' Hd') _ Em) as (_ & c & Hc & _).
      unfold live in Hc. assert (length (h_blocks h) < length (h_blocks h)); [|lia].
      apply nth_error_Some. congruence. }
    intros k1 k2 d1 d2 b H1 H2 M1 M2.
    rewrite nth_error_upd in H1, H2.
    destruct ((k =? k1) && (k <? length (h_descs h))) eqn:E1;
    destruct ((k =? k2) && (k <? length (h_descs h))) eqn:E2.
    + lia.
    + injection H1 as <-. cbn in M1. injection M1 as <-. exfalso. eapply Hfresh; eassumption.
    + injection H2 as <-. cbn in M2. injection M2 as <-. exfalso. eapply Hfresh; eassumption.
    + apply (wf_sep h Hwf k1 k2 d1 d2 b); assumption.
Qed.

Lemma wf_new_descriptor h : wf h -> wf (fst (new_descriptor h)).
Proof.
  intros Hwf. split; cbn.
  - intros x k Hk. rewrite app_length. pose proof (wf_vars h Hwf x k Hk). lia.
  - intros k d Hd. destruct (lt_dec k (length (h_descs h))) as [L|L].
    + rewrite nth_error_app1 in Hd by exact L. destruct (wf_descs h Hwf k d Hd) as [A B C D].
      split; auto.
    + rewrite nth_error_app2 in Hd by lia.
      destruct (k - length (h_descs h)) as [|n]; cbn in Hd; [|destruct n; discriminate].
      injection Hd as <-. split; cbn; auto; try discriminate. unfold int_max. lia.
  - intros k1 k2 d1 d2 b H1 H2 M1 M2.
    assert (G : forall k d, nth_error (h_descs h ++ [desc0]) k = Some d -> d_memory d = Some b ->
                            nth_error (h_descs h) k = Some d).
    { intros k d Hd Hm. destruct (lt_dec k (length (h_descs h))) as [L|L].
      - rewrite nth_error_app1 in Hd by exact L. exact Hd.
      - rewrite nth_error_app2 in Hd by lia.
        destruct (k - length (h_descs h)) as [|n]; cbn in Hd; [|destruct n; discriminate].
        injection Hd as <-. discriminate. }
    apply (wf_sep h Hwf k1 k2 d1 d2 b); auto.
Qed.

Lemma new_descriptor_nth (h : heap) : nth_error (h_descs (fst (new_descriptor h))) (length (h_descs h)) = Some desc0.
Proof. cbn. rewrite nth_error_app2, Nat.sub_diag by lia. reflexivity. Qed.

Lemma wf_bind_var h k : wf h -> k < length (h_descs h) -> wf (bind_var h k).
Proof.
  intros Hwf Hk. split; cbn.
  - intros x k' Hk'. destruct (lt_dec x (length (h_vars h))) as [L|L].
    + rewrite nth_error_app1 in Hk' by exact L. apply (wf_vars h Hwf x k' Hk').
    + rewrite nth_error_app2 in Hk' by lia.
      destruct (x - length (h_vars h)) as [|n]; cbn in Hk'; [|destruct n; discriminate].
      injection Hk' as <-. exact Hk.
  - intros k' d Hd. destruct (wf_descs h Hwf k' d Hd) as [A B C D]. split; auto.
  - apply (wf_sep h Hwf).
Qed.

(** Replacing a descriptor by one with the same ownership and total. *)
Lemma wf_set_same h k d d' :
  wf h -> nth_error (h_descs h) k = Some d ->
  d_memory d' = d_memory d -> (d_memory d <> None -> d_data d' = d_data d /\ d_total d' = d_total d) ->
  d_strides d' = calculateStrides (d_shape d') ->
  ((d_total d' = prodZ (d_shape d') /\ fits (d_shape d')) \/ (d_shape d' = [] /\ d_total d' = 0%Z)) ->
  (0 <= d_total d' <= int_max)%Z ->
  wf (set_desc h k d').
Proof.
  intros Hwf Hd Hm Ho Hs Ht Hr. split; cbn.
  - intros x k' Hk'. rewrite upd_length. apply (wf_vars h Hwf x k' Hk').
  - intros k' e He. rewrite nth_error_upd in He.
    destruct ((k =? k') && (k <? length (h_descs h))) eqn:E.
    + injection He as <-. split; auto. intros b Hb. rewrite Hm in Hb.
      destruct Ho as [E1 E2]; [congruence|].
      destruct (dw_owned h d (wf_descs h Hwf k d Hd) b Hb) as (E3 & c & Hc & Hl).
      split; [congruence|]. exists c. split; [exact Hc|congruence].
    + destruct (wf_descs h Hwf k' e He) as [A B C D]. split; auto.
  - intros k1 k2 d1 d2 b H1 H2 M1 M2.
    assert (G : forall j e, nth_error (upd (h_descs h) k d') j = Some e -> d_memory e = Some b ->
                            exists e', nth_error (h_descs h) j = Some e' /\ d_memory e' = Some b).
    { intros j e He Me. rewrite nth_error_upd in He.
      destruct ((k =? j) && (k <? length (h_descs h))) eqn:E.
      - injection He as <-. exists d. split; [|congruence].
        assert (k = j) by lia. subst. exact Hd.
      - exists e. auto. }
    destruct (G k1 d1 H1 M1) as (e1 & A1 & B1). destruct (G k2 d2 H2 M2) as (e2 & A2 & B2).
    apply (wf_sep h Hwf k1 k2 e1 e2 b); assumption.
Qed.

(** ** One call preserves well-formedness and is free of undefined behaviour *)
Lemma run_call_safe h c :
  wf h -> legal h c -> exists h', (run_call h c = Ret h' \/ run_call h c = Exc h') /\ wf h'.
Proof.
  intros Hwf Hl. destruct c as [|s ok junk|s x off|x|x y|x s ok junk|x s|x y|x v|x draws|x i v];
    cbn [run_call legal] in *.
  - (* CNew *)
    eexists. split; [left; reflexivity|]. apply wf_bind_var; [apply (wf_new_descriptor h Hwf)|].
    cbn. rewrite app_length. cbn. lia.
  - (* CNewShape *)
    destruct Hl as [-> Hf]. unfold new_shape. cbn [new_descriptor].
    set (h1 := mkHeap (h_vars h) (h_descs h ++ [desc0]) (h_blocks h)).
    assert (Hwf1 : wf h1) by exact (wf_new_descriptor h Hwf).
    rewrite (allocate_desc_eq h1 _ s true junk desc0 (new_descriptor_nth h)).
    destruct (have_negative_dim s) eqn:En; cbn [st_bind]; [eauto|].
    apply have_negative_dim_spec in En. specialize (Hf En).
    destruct (int_prod_cases s) as [E|E].
    { assert (int_prod s = Ok (prodZ s)) by (apply int_prod_Ok; auto). congruence. }
    rewrite E. cbn [st_bind]. eexists. split; [left; reflexivity|].
    apply wf_bind_var.
    + apply (wf_allocated h1 _ desc0 s (prodZ s) junk Hwf1 (new_descriptor_nth h) En E).
    + cbn. rewrite upd_length, app_length. cbn. lia.
  - (* CView *)
    destruct Hl as [Hx Hf]. destruct (wf_var_denotes h x Hwf Hx) as (k & d & Hd).
    unfold data_plus. apply var_desc_Ok in Hd as Hd'. rewrite Hd'. cbn [bind lift].
    set (p := match d_data d with None => None | Some (b, o) => Some (b, o + off) end).
    unfold new_view. cbn [new_descriptor].
    set (h1 := mkHeap (h_vars h) (h_descs h ++ [desc0]) (h_blocks h)).
    assert (Hwf1 : wf h1) by exact (wf_new_descriptor h Hwf).
    rewrite (init_eq h1 _ s desc0 (new_descriptor_nth h)).
    destruct (have_negative_dim s) eqn:En; cbn [st_bind]; [eauto|].
    apply have_negative_dim_spec in En. specialize (Hf En).
    destruct (int_prod_cases s) as [E|E].
    { assert (int_prod s = Ok (prodZ s)) by (apply int_prod_Ok; auto). congruence. }
    rewrite E. cbn [st_bind]. unfold rd. cbn [h_descs set_desc].
    rewrite nth_error_upd_eq by (cbn; rewrite app_length; cbn; lia). cbn [lift].
    eexists. split; [left; reflexivity|].
    apply wf_bind_var.
    + unfold set_desc at 1. cbn [h_vars h_descs h_blocks set_desc]. rewrite upd_upd.
      apply (wf_set_same h1 (length (h_descs h)) desc0 _ Hwf1 (new_descriptor_nth h)); cbn; auto.
      * congruence.
      * pose proof (prodZ_nonneg s En). pose proof (fits_nonneg_bound s Hf). lia.
    + cbn. rewrite !upd_length, app_length. cbn. lia.
  - (* CCopy *)
    unfold copy_var. destruct (wf_var_denotes h x Hwf Hl) as (k & d & Hv & Hd).
    unfold rd. rewrite Hv. cbn [lift]. eexists. split; [left; reflexivity|].
    apply wf_bind_var; [exact Hwf|]. apply (wf_vars h Hwf x k Hv).
  - (* CAssign *)
    destruct Hl as [Hx Hy]. unfold assign_var.
    destruct (wf_var_denotes h y Hwf Hy) as (k & d & Hv & Hd).
    unfold rd. rewrite Hv. cbn [lift]. rewrite wr_Ok by exact Hx. cbn [lift].
    eexists. split; [left; reflexivity|]. split; cbn.
    + intros x' k' Hk'. rewrite nth_error_upd in Hk'.
      destruct (_ && _); [injection Hk' as <-; apply (wf_vars h Hwf y k Hv)|apply (wf_vars h Hwf x' k' Hk')].
    + intros k' e He. destruct (wf_descs h Hwf k' e He) as [A B C D]. split; auto.
    + apply (wf_sep h Hwf).
  - (* CAllocate *)
    destruct Hl as (Hx & -> & Hf). unfold allocate.
    destruct (wf_var_denotes h x Hwf Hx) as (k & d & Hv & Hd).
    unfold rd. rewrite Hv. cbn [lift]. rewrite (allocate_desc_eq h k s true junk d Hd).
    destruct (have_negative_dim s) eqn:En; [eauto|].
    apply have_negative_dim_spec in En. specialize (Hf En).
    destruct (int_prod_cases s) as [E|E].
    { assert (int_prod s = Ok (prodZ s)) by (apply int_prod_Ok; auto). congruence. }
    rewrite E. eexists. split; [left; reflexivity|].
    apply (wf_allocated h k d s (prodZ s) junk Hwf Hd En E).
  - (* CReshape *)
    destruct Hl as [Hx Hf]. unfold reshape.
    destruct (wf_var_denotes h x Hwf Hx) as (k & d & Hden).
    apply var_desc_Ok in Hden as Hden'. rewrite Hden'. cbn [lift].
    assert (E : int_prod s = Ok (prodZ s)) by (apply int_prod_Ok; auto).
    rewrite E. cbn [lift]. destruct Hden as [Hv Hd].
    destruct (Z.eqb_spec (prodZ s mod size_mod)%Z (d_total d)) as [Et|Et]; cbn [dw_assert lift]; [|eauto].
    eexists. split; [left; reflexivity|].
    unfold set_desc at 1. cbn [h_vars h_descs h_blocks set_desc]. rewrite upd_upd.
    destruct (wf_descs h Hwf k d Hd) as [A B C D].
    apply (wf_set_same h k d _ Hwf Hd); cbn [d_memory d_data d_total d_strides d_shape]; auto.
    left. split; [|exact Hf].
    pose proof (fits_nonneg_bound s Hf) as Hb. revert Hb C Et. clear. unfold int_min, int_max, size_mod. intros Hb C Et.
    destruct (Z_le_gt_dec 0 (prodZ s)) as [L|L].
    + rewrite Z.mod_small in Et by lia. congruence.
    + rewrite <- (Z.mod_unique (prodZ s) 18446744073709551616 (-1) (prodZ s + 18446744073709551616)) in Et by lia.
      lia.
  - (* CCopyTo *)
    destruct Hl as [Ax Ay]. unfold copyTo.
    pose proof Ax as (kx & dx & Hx & _). pose proof Ay as (ky & dy & Hy & _).
    apply var_desc_Ok in Hx as Hx'. apply var_desc_Ok in Hy as Hy'. rewrite Hx', Hy'. cbn [lift].
    destruct (shape_eqb (d_shape dx) (d_shape dy) && shape_eqb (d_strides dx) (d_strides dy)) eqn:Es;
      cbn [dw_assert lift]; [|eauto].
    destruct (negb (empty dy)) eqn:Ee; cbn [dw_assert lift]; [|eauto].
    apply andb_true_iff in Es as [Es _]. apply shape_eqb_spec in Es.
    destruct (accessible_in_bounds h y ky dy Hwf Ay Hy) as [Z0|(by_ & oy & cy & Ey & Ly & By)].
    { unfold empty in Ee. rewrite Z0 in Ee. discriminate. }
    assert (Hload : exists vs, load h (d_data dx) (Z.to_nat (d_total dx)) = Ok vs /\ length vs <= Z.to_nat (d_total dy)).
    { destruct (accessible_in_bounds h x kx dx Hwf Ax Hx) as [Z0|(bx & ox & cx & Ex & Lx & Bx)].
      - rewrite Z0. exists []. split; [reflexivity|cbn; lia].
      - exists (firstn (Z.to_nat (d_total dx)) (skipn ox cx)). split.
        + rewrite Ex. apply load_in_bounds; assumption.
        + rewrite firstn_length, skipn_length.
          destruct (dw_total h dx (wf_descs h Hwf kx dx (proj2 Hx))) as [[T1 _]|[S1 T1]]; [|lia].
          destruct (dw_total h dy (wf_descs h Hwf ky dy (proj2 Hy))) as [[T2 _]|[S2 T2]].
          * assert (d_total dx = d_total dy) by congruence. lia.
          * unfold empty in Ee. rewrite T2 in Ee. discriminate. }
    destruct Hload as (vs & -> & Hvs). cbn [lift]. rewrite Ey.
    rewrite (store_in_bounds h by_ oy cy vs Ly) by lia.
    eexists. split; [left; reflexivity|]. apply wf_store; auto. lia.
  - (* CFill *)
    unfold fill. pose proof Hl as (k & d & Hd & _). apply var_desc_Ok in Hd as Hd'. rewrite Hd'. cbn [lift].
    destruct (accessible_in_bounds h x k d Hwf Hl Hd) as [Z0|(b & o & c & E & L & B)].
    + rewrite Z0. cbn. eauto.
    + rewrite E. rewrite (store_in_bounds h b o c _ L) by (rewrite repeat_length; exact B).
      eexists. split; [left; reflexivity|]. apply wf_store; auto. rewrite repeat_length; exact B.
  - (* CGenerate *)
    unfold generate. pose proof Hl as (k & d & Hd & _). apply var_desc_Ok in Hd as Hd'. rewrite Hd'. cbn [lift].
    destruct (accessible_in_bounds h x k d Hwf Hl Hd) as [Z0|(b & o & c & E & L & B)].
    + rewrite Z0. cbn. eauto.
    + rewrite E. rewrite (store_in_bounds h b o c _ L) by (rewrite tab_length; exact B).
      eexists. split; [left; reflexivity|]. apply wf_store; auto. rewrite tab_length; exact B.
  - (* CSet *)
    destruct Hl as [Ha Hi]. unfold set_elem. pose proof Ha as (k & d & Hd & _).
    apply var_desc_Ok in Hd as Hd'. rewrite Hd'. cbn [lift]. specialize (Hi k d Hd).
    destruct (accessible_in_bounds h x k d Hwf Ha Hd) as [Z0|(b & o & c & E & L & B)]; [rewrite Z0 in Hi; cbn in Hi; lia|].
    rewrite E. rewrite (store_in_bounds h b (o + i) c [v] L) by (cbn [length]; lia).
    eexists. split; [left; reflexivity|]. apply wf_store; auto. cbn [length]; lia.
Qed.

Lemma wf_heap0 : wf heap0.
Proof. split; cbn; intros; destruct x || destruct k || destruct k1; discriminate. Qed.

Lemma run_app (h : heap) cs1 cs2 :
  run h (cs1 ++ cs2) = match run h cs1 with Some h' => run h' cs2 | None => None end.
Proof.
  revert h; induction cs1 as [|c t IH]; intros h; cbn; [reflexivity|].
  destruct (run_call h c); auto.
Qed.

Lemma run_safe_from h cs :
  wf h ->
  (forall cs1 c cs2 h', cs = cs1 ++ c :: cs2 -> run h cs1 = Some h' -> legal h' c) ->
  exists h', run h cs = Some h' /\ wf h'.
Proof.
  revert h; induction cs as [|c t IH]; intros h Hwf Hlegal; cbn.
  - eauto.
  - assert (Hl : legal h c) by (apply (Hlegal [] c t h); reflexivity).
    destruct (run_call_safe h c Hwf Hl) as (h' & Hr & Hwf').
    destruct (IH h' Hwf') as (h'' & E & W).
    { intros cs1 c' cs2 h2 -> Hrun. apply (Hlegal (c :: cs1) c' cs2 h2); [reflexivity|].
      cbn. destruct Hr as [-> | ->]; exact Hrun. }
    exists h''. split; [|exact W]. destruct Hr as [-> | ->]; exact E.
Qed.

(** ** Aliasing *)

Lemma st_vars_store (h : heap) p vs h' : store h p vs = Ret h' \/ store h p vs = Exc h' -> h_vars h' = h_vars h.
Proof.
  unfold store. destruct vs as [|v vs]; [intros [[= <-]|H]; [reflexivity|discriminate]|].
  destruct p as [[b o]|]; [|intros [H|H]; discriminate].
  unfold rd. destruct (nth_error (h_blocks h) b) as [[c|]|]; cbn [lift]; try (intros [H|H]; discriminate).
  destruct (_ <=? _); intros [H|H]; try discriminate. injection H as <-. reflexivity.
Qed.

Lemma init_vars (h : heap) k s h' : init h k s = Ret h' \/ init h k s = Exc h' -> h_vars h' = h_vars h.
Proof.
  unfold init. destruct (dw_assert _); cbn [lift]; try (intros [H|H]; discriminate H || (injection H as <-; reflexivity)).
  destruct (rd (h_descs h) k); cbn [lift]; try (intros [H|H]; discriminate H || (injection H as <-; reflexivity)).
  destruct (int_prod s); cbn [lift]; intros [H|H]; discriminate H || (injection H as <-; reflexivity).
Qed.

Lemma allocate_desc_vars (h : heap) k s ok junk h' :
  allocate_desc h k s ok junk = Ret h' \/ allocate_desc h k s ok junk = Exc h' -> h_vars h' = h_vars h.
Proof.
  unfold allocate_desc. intros H.
  destruct (init h k s) as [h1|h1|] eqn:E; cbn [st_bind] in H.
  - assert (Hv : h_vars h1 = h_vars h) by (apply (init_vars h k s); auto).
    destruct (rd (h_descs h1) k); cbn [lift] in H;
      try (destruct H as [H|H]; discriminate H || (injection H as <-; exact Hv)).
    destruct ok; destruct H as [H|H]; try discriminate H; injection H as <-; exact Hv.
  - destruct H as [H|H]; try discriminate H. injection H as <-. apply (init_vars h k s); auto.
  - destruct H as [H|H]; discriminate H.
Qed.

Lemma run_call_vars (h : heap) c h' x k :
  (run_call h c = Ret h' \/ run_call h c = Exc h') -> ~ reassigns c x ->
  nth_error (h_vars h) x = Some k -> nth_error (h_vars h') x = Some k.
Proof.
  intros Hr Hn Hx.
  assert (Hx' : x < length (h_vars h)) by (apply nth_error_Some; congruence).
  assert (Keep : h_vars h' = h_vars h \/ (exists j, h_vars h' = h_vars h ++ [j]) -> nth_error (h_vars h') x = Some k).
  { intros [-> |[j ->]]; [exact Hx|]. rewrite nth_error_app1; assumption. }
  destruct c as [|s ok junk|s y off|y|y z|y s ok junk|y s|y z|y v|y draws|y i v]; cbn [run_call reassigns] in *.
  - destruct Hr as [H|H]; [|discriminate]. injection H as <-. apply Keep. right. eexists. reflexivity.
  - apply Keep. unfold new_shape in Hr. cbn [new_descriptor] in Hr.
    destruct (allocate_desc _ _ _ _ _) as [h2|h2|] eqn:E; cbn [st_bind] in Hr;
      destruct Hr as [H|H]; try discriminate H; injection H as <-.
    + right. eexists. cbn. f_equal. apply (allocate_desc_vars _ _ _ _ _ _ (or_introl E)).
    + left. apply (allocate_desc_vars _ _ _ _ _ _ (or_intror E)).
  - apply Keep. destruct (data_plus h y off) as [p| |]; cbn [lift] in Hr;
      try (destruct Hr as [H|H]; discriminate H || (injection H as <-; auto)).
    unfold new_view in Hr. cbn [new_descriptor] in Hr.
    destruct (init _ _ s) as [h2|h2|] eqn:E; cbn [st_bind] in Hr.
    + destruct (rd (h_descs h2) _); cbn [lift] in Hr;
        destruct Hr as [H|H]; try discriminate H; injection H as <-.
      * right. eexists. cbn. f_equal. apply (init_vars _ _ _ _ (or_introl E)).
      * left. apply (init_vars _ _ _ _ (or_introl E)).
    + destruct Hr as [H|H]; try discriminate H; injection H as <-. left. apply (init_vars _ _ _ _ (or_intror E)).
    + destruct Hr as [H|H]; discriminate H.
  - apply Keep. unfold copy_var in Hr. destruct (rd (h_vars h) y); cbn [lift] in Hr;
      destruct Hr as [H|H]; try discriminate H; injection H as <-; eauto. right; eexists; reflexivity.
  - unfold assign_var in Hr. destruct (rd (h_vars h) z) as [j| |]; cbn [lift] in Hr;
      try (destruct Hr as [H|H]; discriminate H || (injection H as <-; exact Hx)).
    unfold wr in Hr. destruct (y <? length (h_vars h)); cbn [lift] in Hr;
      destruct Hr as [H|H]; try discriminate H; injection H as <-.
    cbn. rewrite nth_error_upd_neq by exact Hn. exact Hx.
  - apply Keep. left. unfold allocate in Hr. destruct (rd (h_vars h) y); cbn [lift] in Hr.
    + apply (allocate_desc_vars _ _ _ _ _ _ Hr).
    + destruct Hr as [H|H]; try discriminate H; injection H as <-; auto.
    + destruct Hr as [H|H]; discriminate H.
  - apply Keep. left. unfold reshape in Hr.
    destruct (var_desc h y) as [[j d]| |]; cbn [lift] in Hr;
      try (destruct Hr as [H|H]; discriminate H || (injection H as <-; reflexivity)).
    destruct (int_prod s); cbn [lift] in Hr;
      try (destruct Hr as [H|H]; discriminate H || (injection H as <-; reflexivity)).
    destruct (dw_assert _); cbn [lift] in Hr; destruct Hr as [H|H]; discriminate H || (injection H as <-; reflexivity).
  - apply Keep. left. unfold copyTo in Hr.
    destruct (var_desc h y) as [[j d]| |]; cbn [lift] in Hr;
      try (destruct Hr as [H|H]; discriminate H || (injection H as <-; reflexivity)).
    destruct (var_desc h z) as [[j' d']| |]; cbn [lift] in Hr;
      try (destruct Hr as [H|H]; discriminate H || (injection H as <-; reflexivity)).
    destruct (dw_assert (_ && _)); cbn [lift] in Hr;
      try (destruct Hr as [H|H]; discriminate H || (injection H as <-; reflexivity)).
    destruct (dw_assert _); cbn [lift] in Hr;
      try (destruct Hr as [H|H]; discriminate H || (injection H as <-; reflexivity)).
    destruct (load h _ _); cbn [lift] in Hr;
      try (destruct Hr as [H|H]; discriminate H || (injection H as <-; reflexivity)).
    apply (st_vars_store _ _ _ _ Hr).
  - apply Keep. left. unfold fill in Hr.
    destruct (var_desc h y) as [[j d]| |]; cbn [lift] in Hr;
      try (destruct Hr as [H|H]; discriminate H || (injection H as <-; reflexivity)).
    apply (st_vars_store _ _ _ _ Hr).
  - apply Keep. left. unfold generate in Hr.
    destruct (var_desc h y) as [[j d]| |]; cbn [lift] in Hr;
      try (destruct Hr as [H|H]; discriminate H || (injection H as <-; reflexivity)).
    apply (st_vars_store _ _ _ _ Hr).
  - apply Keep. left. unfold set_elem in Hr.
    destruct (var_desc h y) as [[j d]| |]; cbn [lift] in Hr;
      try (destruct Hr as [H|H]; discriminate H || (injection H as <-; reflexivity)).
    destruct (d_data d) as [[b o]|]; [apply (st_vars_store _ _ _ _ Hr)|destruct Hr as [H|H]; discriminate H].
Qed.

Lemma run_vars (h : heap) cs h' x k :
  run h cs = Some h' -> Forall (fun c => ~ reassigns c x) cs ->
  nth_error (h_vars h) x = Some k -> nth_error (h_vars h') x = Some k.
Proof.
  revert h; induction cs as [|c t IH]; intros h Hr Hn Hx; cbn in Hr.
  - congruence.
  - inversion Hn as [|? ? Hc Ht]; subst.
    destruct (run_call h c) as [h1|h1|] eqn:E; [| |discriminate].
    + apply (IH h1 Hr Ht). apply (run_call_vars h c h1 x k); auto.
    + apply (IH h1 Hr Ht). apply (run_call_vars h c h1 x k); auto.
Qed.

(** ** Frame: what a call does not touch *)

Lemma same_view_refl h k : same_view h h k.
Proof. split; auto. Qed.

Lemma store_frame h p vs h' k d :
  wf h -> nth_error (h_descs h) k = Some d ->
  (forall b o b', p = Some (b, o) -> d_memory d = Some b' -> b <> b') ->
  store h p vs = Ret h' \/ store h p vs = Exc h' -> same_view h h' k.
Proof.
  intros Hwf Hd Hne Hs. unfold store in Hs.
  destruct vs as [|v vs]; [destruct Hs as [[= <-]|Hs]; [apply same_view_refl|discriminate]|].
  destruct p as [[b o]|]; [|destruct Hs as [H|H]; discriminate].
  unfold rd in Hs. destruct (nth_error (h_blocks h) b) as [[c|]|] eqn:E; cbn [lift] in Hs;
    try (destruct Hs as [H|H]; discriminate).
  destruct (_ <=? _); destruct Hs as [H|H]; try discriminate. injection H as <-.
  split; cbn; [reflexivity|]. intros d' b' Hd' Hm. assert (d' = d) by congruence. subst d'.
  rewrite nth_error_upd_neq; [reflexivity|]. apply (Hne b o b'); auto.
Qed.

Lemma allocate_desc_frame h j s ok junk h' k :
  wf h -> j <> k -> j < length (h_descs h) ->
  allocate_desc h j s ok junk = Ret h' \/ allocate_desc h j s ok junk = Exc h' -> same_view h h' k.
Proof.
  intros Hwf Hjk Hj Hr. apply nth_error_Some in Hj.
  destruct (nth_error (h_descs h) j) as [dj|] eqn:Ej; [|congruence].
  rewrite (allocate_desc_eq h j s ok junk dj Ej) in Hr.
  destruct (have_negative_dim s); [destruct Hr as [H|H]; [discriminate|injection H as <-; apply same_view_refl]|].
  destruct (int_prod s) as [t| |]; try (destruct Hr as [H|H]; discriminate).
  destruct ok; destruct Hr as [H|H]; try discriminate; injection H as <-.
  - split; cbn.
    + rewrite nth_error_upd_neq by exact Hjk. reflexivity.
    + intros d b Hd Hb.
      destruct (dw_owned h d (wf_descs h Hwf k d Hd) b Hb) as (_ & c & Hc & _). unfold live in Hc.
      rewrite nth_error_app1 by (rewrite free_block_length; apply nth_error_Some; congruence).
      destruct (d_memory dj) as [bj|] eqn:Em; cbn; [|reflexivity].
      rewrite nth_error_upd_neq; [reflexivity|]. intros ->.
      apply Hjk. apply (wf_sep h Hwf j k dj d b); assumption.
  - split; cbn; [|auto]. rewrite nth_error_upd_neq by exact Hjk. reflexivity.
Qed.

Lemma same_view_new h h1 k :
  k < length (h_descs h) -> same_view (fst (new_descriptor h)) h1 k -> same_view h h1 k.
Proof.
  intros Hk [A B]. cbn in A, B. rewrite nth_error_app1 in A by exact Hk. split; [exact A|].
  intros d b Hd Hb. apply (B d b); [|exact Hb]. rewrite nth_error_app1; assumption.
Qed.

(** A call leaves every owned tensor other than its target untouched (calls through views are not
    covered: a view writes into the tensor it was made from). *)
Lemma run_call_frame h c h' k d :
  wf h -> nth_error (h_descs h) k = Some d -> d_memory d <> None ->
  (forall x, target c = Some x -> exists j dj, denotes h x j dj /\ j <> k /\ (d_memory dj <> None \/ d_data dj = None)) ->
  run_call h c = Ret h' \/ run_call h c = Exc h' -> same_view h h' k.
Proof.
  intros Hwf Hd Hown Ht Hr.
  assert (Hk : k < length (h_descs h)) by (apply nth_error_Some; congruence).
  assert (Kstore : forall x vs j dj, denotes h x j dj -> j <> k -> (d_memory dj <> None \/ d_data dj = None) ->
            forall p, (forall b o, p = Some (b, o) -> exists o', d_data dj = Some (b, o')) ->
            store h p vs = Ret h' \/ store h p vs = Exc h' -> same_view h h' k).
  { intros x vs j dj [_ Hdj] Hjk Hmem p Hp Hs. apply (store_frame h p vs h' k d Hwf Hd); [|exact Hs].
    intros b o b' Ep Hb'. destruct (Hp b o Ep) as (o' & Ed).
    destruct Hmem as [Hm|Hm]; [|congruence].
    destruct (d_memory dj) as [bj|] eqn:Em; [|congruence].
    destruct (dw_owned h dj (wf_descs h Hwf j dj Hdj) bj Em) as (E1 & _).
    assert (b = bj) by congruence. subst bj. intros ->. apply Hjk. apply (wf_sep h Hwf j k dj d b'); assumption. }
  destruct c as [|s ok junk|s y off|y|y z|y s ok junk|y s|y z|y v|y draws|y i v]; cbn [run_call target] in *.
  - destruct Hr as [H|H]; [|discriminate]. injection H as <-.
    apply same_view_new; [exact Hk|]. split; cbn; auto.
  - unfold new_shape in Hr. cbn [new_descriptor] in Hr.
    apply same_view_new; [exact Hk|].
    destruct (allocate_desc _ _ _ _ _) as [h2|h2|] eqn:E; cbn [st_bind] in Hr;
      destruct Hr as [H|H]; try discriminate H; injection H as <-.
    + assert (S : same_view (fst (new_descriptor h)) h2 k).
      { apply (allocate_desc_frame _ (length (h_descs h)) s ok junk h2 k (wf_new_descriptor h Hwf)).
        - lia.
        - cbn. rewrite app_length. cbn. lia.
        - left. exact E. }
      destruct S as [A B]. split; cbn; auto.
    + apply (allocate_desc_frame _ (length (h_descs h)) s ok junk h2 k (wf_new_descriptor h Hwf)).
      * lia.
      * cbn. rewrite app_length. cbn. lia.
      * right. exact E.
  - destruct (data_plus h y off) as [p| |]; cbn [lift] in Hr;
      try (destruct Hr as [H|H]; discriminate H || (injection H as <-; apply same_view_refl)).
    unfold new_view in Hr. cbn [new_descriptor] in Hr.
    apply same_view_new; [exact Hk|].
    pose proof (init_eq _ _ s desc0 (new_descriptor_nth h)) as Q. cbn [new_descriptor fst] in Q. rewrite Q in Hr. clear Q.
    destruct (have_negative_dim s); cbn [st_bind] in Hr;
      [destruct Hr as [H|H]; [discriminate|injection H as <-; apply same_view_refl]|].
    destruct (int_prod s) as [t| |]; cbn [st_bind] in Hr; try (destruct Hr as [H|H]; discriminate).
    unfold rd in Hr. cbn [h_descs set_desc] in Hr.
    rewrite nth_error_upd_eq in Hr by (cbn; rewrite app_length; cbn; lia). cbn [lift] in Hr.
    destruct Hr as [H|H]; [|discriminate]. injection H as <-.
    split; cbn; [|auto]. rewrite !nth_error_upd_neq by lia. reflexivity.
  - unfold copy_var in Hr. destruct (rd (h_vars h) y); cbn [lift] in Hr;
      destruct Hr as [H|H]; try discriminate H; injection H as <-; split; cbn; auto.
  - unfold assign_var in Hr. destruct (rd (h_vars h) z) as [j| |]; cbn [lift] in Hr;
      try (destruct Hr as [H|H]; discriminate H || (injection H as <-; apply same_view_refl)).
    unfold wr in Hr. destruct (y <? length (h_vars h)); cbn [lift] in Hr;
      destruct Hr as [H|H]; try discriminate H; injection H as <-. split; cbn; auto.
  - destruct (Ht y eq_refl) as (j & dj & [Hv Hj] & Hjk & _).
    unfold allocate in Hr. unfold rd in Hr. rewrite Hv in Hr. cbn [lift] in Hr.
    apply (allocate_desc_frame h j s ok junk h' k Hwf Hjk); [|exact Hr].
    apply nth_error_Some. congruence.
  - destruct (Ht y eq_refl) as (j & dj & Hden & Hjk & _).
    unfold reshape in Hr. apply var_desc_Ok in Hden. rewrite Hden in Hr. cbn [lift] in Hr.
    destruct (int_prod s); cbn [lift] in Hr;
      try (destruct Hr as [H|H]; discriminate H || (injection H as <-; apply same_view_refl)).
    destruct (dw_assert _); cbn [lift] in Hr;
      destruct Hr as [H|H]; discriminate H || (injection H as <-; try apply same_view_refl).
    split; cbn; [|auto]. rewrite !nth_error_upd_neq by exact Hjk. reflexivity.
  - destruct (Ht z eq_refl) as (j & dj & Hden & Hjk & Hmem). apply var_desc_Ok in Hden as Hden'.
    unfold copyTo in Hr.
    destruct (var_desc h y) as [[jy dy]| |]; cbn [lift] in Hr;
      try (destruct Hr as [H|H]; discriminate H || (injection H as <-; apply same_view_refl)).
    rewrite Hden' in Hr. cbn [lift] in Hr.
    destruct (dw_assert (_ && _)); cbn [lift] in Hr;
      try (destruct Hr as [H|H]; discriminate H || (injection H as <-; apply same_view_refl)).
    destruct (dw_assert _); cbn [lift] in Hr;
      try (destruct Hr as [H|H]; discriminate H || (injection H as <-; apply same_view_refl)).
    destruct (load h _ _) as [vs| |]; cbn [lift] in Hr;
      try (destruct Hr as [H|H]; discriminate H || (injection H as <-; apply same_view_refl)).
    apply (Kstore z vs j dj Hden Hjk Hmem (d_data dj)); eauto.
  - destruct (Ht y eq_refl) as (j & dj & Hden & Hjk & Hmem). apply var_desc_Ok in Hden as Hden'.
    unfold fill in Hr. rewrite Hden' in Hr. cbn [lift] in Hr.
    apply (Kstore y _ j dj Hden Hjk Hmem (d_data dj)) in Hr; eauto.
  - destruct (Ht y eq_refl) as (j & dj & Hden & Hjk & Hmem). apply var_desc_Ok in Hden as Hden'.
    unfold generate in Hr. rewrite Hden' in Hr. cbn [lift] in Hr.
    apply (Kstore y _ j dj Hden Hjk Hmem (d_data dj)) in Hr; eauto.
  - destruct (Ht y eq_refl) as (j & dj & Hden & Hjk & Hmem). apply var_desc_Ok in Hden as Hden'.
    unfold set_elem in Hr. rewrite Hden' in Hr. cbn [lift] in Hr.
    destruct (d_data dj) as [[b o]|] eqn:Ed; [|destruct Hr as [H|H]; discriminate].
    rewrite <- Ed in Hmem.
    apply (Kstore y _ j dj Hden Hjk Hmem (Some (b, o + i))) in Hr; auto.
    intros b' o' [= <- <-]. eauto.
Qed.


(** * The statements used by Prop_Tensor *)

Lemma bijection_lemma s :
  nonneg s -> fits s ->
  (forall idx, valid_index idx s -> (0 <= offset idx (calculateStrides s) < prodZ s)%Z) /\
  (forall idx1 idx2, valid_index idx1 s -> valid_index idx2 s ->
     offset idx1 (calculateStrides s) = offset idx2 (calculateStrides s) -> idx1 = idx2) /\
  (forall o, (0 <= o < prodZ s)%Z -> exists idx, valid_index idx s /\ offset idx (calculateStrides s) = o).
Proof.
  intros Hn Hf.
  destruct (Forall_dec (fun d => 0 < d)%Z (fun d => Z_lt_dec 0 d) s) as [Hp|Hz].
  - pose proof (calculateStrides_positive s Hp Hf) as Hrm.
    split; [|split].
    + intros idx Hv. now apply offset_range.
    + intros idx1 idx2 H1 H2 E. now apply (offset_inj s (calculateStrides s)).
    + intros o Ho. now apply offset_surj.
  - assert (Hnone : forall idx, ~ valid_index idx s).
    { intros idx Hv. apply Hz. clear Hf Hn Hz. induction Hv; constructor; auto. lia. }
    assert (H0 : prodZ s = 0%Z).
    { clear Hf Hnone. induction Hn as [|d s Hd Hn IH].
      - exfalso. apply Hz. constructor.
      - rewrite prodZ_cons. destruct (Z.eq_dec d 0) as [-> |Hd0]; [reflexivity|].
        rewrite IH; [lia|]. intros Hp. apply Hz. constructor; [lia|exact Hp]. }
    split; [|split]; intros.
    + exfalso. eapply Hnone; eassumption.
    + exfalso. eapply Hnone; eassumption.
    + lia.
Qed.

Lemma new_shape_fresh (h : heap) s junk :
  nonneg s -> fits s ->
  exists h', new_shape h s true junk = Ret h' /\ fresh_tensor h' (length (h_vars h)) s junk.
Proof.
  intros Hn Hf. unfold new_shape. cbn [new_descriptor].
  pose proof (allocate_desc_eq _ _ s true junk desc0 (new_descriptor_nth h)) as Q.
  cbn [new_descriptor fst] in Q. rewrite Q. clear Q.
  apply have_negative_dim_spec in Hn as Hn'. rewrite Hn'.
  assert (E : int_prod s = Ok (prodZ s)) by (apply int_prod_Ok; auto). rewrite E. cbn [st_bind].
  eexists. split; [reflexivity|]. do 3 eexists. split; [split|].
  - cbn. rewrite nth_error_app2, Nat.sub_diag by lia. reflexivity.
  - cbn. rewrite nth_error_upd_eq by (rewrite app_length; cbn; lia). reflexivity.
  - cbn [d_shape d_total d_strides d_memory d_data]. repeat split.
    unfold live. cbn [bind_var h_blocks free_block d_memory desc0].
    rewrite nth_error_app2, Nat.sub_diag by lia. reflexivity.
Qed.

Lemma allocate_fresh (h : heap) x s junk :
  wf h -> x < length (h_vars h) -> nonneg s -> fits s ->
  exists h', allocate h x s true junk = Ret h' /\ fresh_tensor h' x s junk.
Proof.
  intros Hwf Hx Hn Hf. destruct (wf_var_denotes h x Hwf Hx) as (k & d & Hv & Hd).
  unfold allocate, rd. rewrite Hv. cbn [lift].
  rewrite (allocate_desc_eq h k s true junk d Hd).
  apply have_negative_dim_spec in Hn as Hn'. rewrite Hn'.
  assert (E : int_prod s = Ok (prodZ s)) by (apply int_prod_Ok; auto). rewrite E.
  eexists. split; [reflexivity|]. do 3 eexists. split; [split|].
  - cbn. exact Hv.
  - cbn. rewrite nth_error_upd_eq by (apply nth_error_Some; congruence). reflexivity.
  - cbn [d_shape d_total d_strides d_memory d_data]. repeat split.
    unfold live. cbn [h_blocks].
    rewrite nth_error_app2 by (rewrite free_block_length; lia).
    rewrite free_block_length, Nat.sub_diag. reflexivity.
Qed.

Lemma new_shape_throws (h : heap) s junk :
  (nonneg s -> fits s) ->
  ((exists h', new_shape h s true junk = Exc h') <-> ~ nonneg s) /\
  (forall h', new_shape h s true junk = Exc h' -> unchanged h h').
Proof.
  intros Hf. unfold new_shape. cbn [new_descriptor].
  pose proof (allocate_desc_eq _ _ s true junk desc0 (new_descriptor_nth h)) as Q.
  cbn [new_descriptor fst] in Q. rewrite Q. clear Q.
  destruct (have_negative_dim s) eqn:E; cbn [st_bind].
  - split.
    + split; [|eauto]. intros _ Hn. apply have_negative_dim_spec in Hn. congruence.
    + intros h' [= <-]. split; [|split]; cbn; auto. intros k Hk. rewrite nth_error_app1; auto.
  - apply have_negative_dim_spec in E. specialize (Hf E).
    assert (Ei : int_prod s = Ok (prodZ s)) by (apply int_prod_Ok; auto). rewrite Ei. cbn [st_bind].
    split; [|discriminate]. split; [intros [h' H]; discriminate|tauto].
Qed.

Lemma new_view_throws (h : heap) s p :
  (nonneg s -> fits s) ->
  ((exists h', new_view h s p = Exc h') <-> ~ nonneg s) /\
  (forall h', new_view h s p = Exc h' -> unchanged h h').
Proof.
  intros Hf. unfold new_view. cbn [new_descriptor].
  pose proof (init_eq _ _ s desc0 (new_descriptor_nth h)) as Q.
  cbn [new_descriptor fst] in Q. rewrite Q. clear Q.
  destruct (have_negative_dim s) eqn:E; cbn [st_bind].
  - split.
    + split; [|eauto]. intros _ Hn. apply have_negative_dim_spec in Hn. congruence.
    + intros h' [= <-]. split; [|split]; cbn; auto. intros k Hk. rewrite nth_error_app1; auto.
  - apply have_negative_dim_spec in E. specialize (Hf E).
    assert (Ei : int_prod s = Ok (prodZ s)) by (apply int_prod_Ok; auto). rewrite Ei. cbn [st_bind].
    unfold rd. cbn [h_descs set_desc].
    rewrite nth_error_upd_eq by (rewrite app_length; cbn; lia). cbn [lift].
    split; [|discriminate]. split; [intros [h' H]; discriminate|tauto].
Qed.

Lemma allocate_throws (h : heap) x s junk :
  wf h -> x < length (h_vars h) -> (nonneg s -> fits s) ->
  ((exists h', allocate h x s true junk = Exc h') <-> ~ nonneg s) /\
  (forall h', allocate h x s true junk = Exc h' -> unchanged h h').
Proof.
  intros Hwf Hx Hf. destruct (wf_var_denotes h x Hwf Hx) as (k & d & Hv & Hd).
  unfold allocate, rd. rewrite Hv. cbn [lift].
  rewrite (allocate_desc_eq h k s true junk d Hd).
  destruct (have_negative_dim s) eqn:E.
  - split.
    + split; [|eauto]. intros _ Hn. apply have_negative_dim_spec in Hn. congruence.
    + intros h' [= <-]. split; [|split]; auto.
  - apply have_negative_dim_spec in E. specialize (Hf E).
    assert (Ei : int_prod s = Ok (prodZ s)) by (apply int_prod_Ok; auto). rewrite Ei.
    split; [|discriminate]. split; [intros [h' H]; discriminate|tauto].
Qed.

Lemma mod_eq_total t total :
  (int_min <= t <= int_max)%Z -> (0 <= total <= int_max)%Z ->
  ((t mod size_mod =? total)%Z = true <-> t = total).
Proof.
  unfold int_min, int_max, size_mod. intros H1 H2. rewrite Z.eqb_eq.
  destruct (Z_le_gt_dec 0 t) as [L|L].
  - rewrite Z.mod_small by lia. tauto.
  - rewrite <- (Z.mod_unique t 18446744073709551616 (-1) (t + 18446744073709551616)) by lia. lia.
Qed.

(** reshape, completely. *)
Lemma reshape_spec h x s k d :
  wf h -> denotes h x k d -> fits s ->
  (prodZ s = d_total d ->
     exists h', reshape h x s = Ret h' /\
       h_vars h' = h_vars h /\ h_blocks h' = h_blocks h /\
       (forall j, j <> k -> nth_error (h_descs h') j = nth_error (h_descs h) j) /\
       denotes h' x k (mkDesc (calculateStrides s) s (d_memory d) (d_data d) (d_total d)) /\
       contents h' x = contents h x) /\
  (prodZ s <> d_total d -> reshape h x s = Exc h).
Proof.
  intros Hwf Hden Hf. unfold reshape. apply var_desc_Ok in Hden as Hden'. rewrite Hden'. cbn [lift].
  assert (E : int_prod s = Ok (prodZ s)) by (apply int_prod_Ok; auto). rewrite E. cbn [lift].
  destruct Hden as [Hv Hd].
  pose proof (mod_eq_total (prodZ s) (d_total d) (fits_nonneg_bound s Hf)
                (dw_range h d (wf_descs h Hwf k d Hd))) as M.
  destruct (prodZ s mod size_mod =? d_total d)%Z; cbn [dw_assert lift]; (split; intros Ht).
  - eexists. split; [reflexivity|]. unfold set_desc. cbn [h_vars h_descs h_blocks].
    split; [reflexivity|]. split; [reflexivity|].
    assert (Hk : k < length (h_descs h)) by (apply nth_error_Some; congruence).
    split; [|split; [split|]].
    + intros j Hj. rewrite !nth_error_upd_neq by auto. reflexivity.
    + exact Hv.
    + cbn [h_descs]. rewrite nth_error_upd_eq by (rewrite upd_length; exact Hk). reflexivity.
    + unfold contents. rewrite Hden'.
      assert (Hn : var_desc
        {| h_vars := h_vars h;
           h_descs := upd (upd (h_descs h) k (mkDesc (d_strides d) s (d_memory d) (d_data d) (d_total d))) k
                          (mkDesc (calculateStrides s) s (d_memory d) (d_data d) (d_total d));
           h_blocks := h_blocks h |} x
        = Ok (k, mkDesc (calculateStrides s) s (d_memory d) (d_data d) (d_total d))).
      { apply var_desc_Ok. split; cbn; [exact Hv|].
        rewrite nth_error_upd_eq by (rewrite upd_length; exact Hk). reflexivity. }
      rewrite Hn. reflexivity.
  - exfalso. apply Ht. apply M. reflexivity.
  - exfalso. assert (false = true) by (apply M; exact Ht). discriminate.
  - reflexivity.
Qed.

Lemma firstn_splice (c : list V) o vs :
  o + length vs <= length c -> firstn (length vs) (skipn o (splice c o vs)) = vs.
Proof.
  intros H. unfold splice.
  rewrite skipn_app. rewrite skipn_all2 by (rewrite firstn_length; lia). cbn.
  replace (o - length (firstn o c)) with 0 by (rewrite firstn_length; lia). cbn.
  rewrite firstn_app, firstn_all, Nat.sub_diag. cbn. apply app_nil_r.
Qed.

Lemma nth_error_splice (c : list V) o vs i :
  o + length vs <= length c -> ~ (o <= i < o + length vs) -> nth_error (splice c o vs) i = nth_error c i.
Proof.
  intros H Hi.
  destruct (lt_dec i (length c)) as [L|L].
  - destruct c as [|v0 c']; [cbn in L; lia|]. set (c := v0 :: c') in *.
    rewrite (nth_error_nth' _ v0) by (rewrite splice_length; lia).
    rewrite (nth_error_nth' c v0) by lia. rewrite splice_nth by lia.
    destruct (Nat.leb_spec o i); destruct (Nat.ltb_spec i (o + length vs)); cbn [andb]; try lia; reflexivity.
  - rewrite (proj2 (nth_error_None _ _)) by (rewrite splice_length; lia).
    rewrite (proj2 (nth_error_None _ _)) by lia. reflexivity.
Qed.

Lemma heap_eta (h : heap) : mkHeap (h_vars h) (h_descs h) (h_blocks h) = h.
Proof. destruct h; reflexivity. Qed.

Lemma copyTo_spec h x y kx ky dx dy :
  wf h -> accessible h x -> accessible h y -> denotes h x kx dx -> denotes h y ky dy ->
  (d_shape dx = d_shape dy -> d_total dy <> 0%Z -> d_total dx = d_total dy ->
     exists h' vs, copyTo h x y = Ret h' /\ contents h x = Ok vs /\ contents h' y = Ok vs /\
       length vs = Z.to_nat (d_total dy) /\
       h_vars h' = h_vars h /\ h_descs h' = h_descs h /\
       (forall b i, ~ covers h y b i -> cell h' b i = cell h b i)) /\
  (d_shape dx = d_shape dy -> d_total dy <> 0%Z -> d_total dx <> d_total dy ->
     d_shape dx = [] /\ d_total dx = 0%Z /\ d_total dy = 1%Z /\ copyTo h x y = Ret h) /\
  (d_shape dx <> d_shape dy \/ d_total dy = 0%Z -> copyTo h x y = Exc h).
Proof.
  intros Hwf Ax Ay Hx Hy. unfold copyTo.
  apply var_desc_Ok in Hx as Hx'. apply var_desc_Ok in Hy as Hy'. rewrite Hx', Hy'. cbn [lift].
  pose proof (wf_descs h Hwf kx dx (proj2 Hx)) as Wx. pose proof (wf_descs h Hwf ky dy (proj2 Hy)) as Wy.
  assert (Ecmp : (shape_eqb (d_shape dx) (d_shape dy) && shape_eqb (d_strides dx) (d_strides dy)) = true
                 <-> d_shape dx = d_shape dy).
  { rewrite andb_true_iff, !shape_eqb_spec. split; [tauto|]. intros Es. split; [exact Es|].
    rewrite (dw_strides h dx Wx), (dw_strides h dy Wy). congruence. }
  assert (Eemp : negb (empty dy) = true <-> d_total dy <> 0%Z).
  { unfold empty. rewrite negb_true_iff, Z.eqb_neq. tauto. }
  split; [|split].
  - intros Es Et Tyx. apply Ecmp in Es as Es'. apply Eemp in Et as Et'. rewrite Es', Et'. cbn [dw_assert lift].
    destruct (accessible_in_bounds h y ky dy Hwf Ay Hy) as [Z0|(b & o & c & Ey & Ly & By)]; [congruence|].
    destruct (accessible_in_bounds h x kx dx Hwf Ax Hx) as [Z0|(bx & ox & cx & Ex & Lx & Bx)]; [congruence|].
    rewrite Ex. rewrite (load_in_bounds h bx ox cx _ Lx Bx). cbn [lift]. rewrite Ey.
    set (vs := firstn (Z.to_nat (d_total dx)) (skipn ox cx)).
    assert (Hvs : length vs = Z.to_nat (d_total dy)).
    { unfold vs. rewrite firstn_length, skipn_length. lia. }
    assert (Hvs0 : length vs <> 0).
    { pose proof (dw_range h dy Wy). lia. }
    rewrite (store_in_bounds h b o c vs Ly) by lia.
    destruct (Nat.eqb_spec (length vs) 0) as [E0|_]; [congruence|].
    eexists. exists vs. split; [reflexivity|]. split; [|split; [|split; [exact Hvs|split; [reflexivity|split; [reflexivity|]]]]].
    + unfold contents. rewrite Hx'. cbn [bind]. rewrite Ex. apply load_in_bounds; assumption.
    + unfold contents.
      assert (D : var_desc (mkHeap (h_vars h) (h_descs h) (upd (h_blocks h) b (Some (splice c o vs)))) y = Ok (ky, dy)).
      { apply var_desc_Ok. exact Hy. }
      rewrite D. cbn [bind]. rewrite Ey. rewrite <- Hvs.
      rewrite (load_in_bounds _ b o (splice c o vs)).
      * rewrite firstn_splice by lia. reflexivity.
      * unfold live. cbn. apply nth_error_upd_eq. apply nth_error_Some. unfold live in Ly. congruence.
      * rewrite splice_length by lia. lia.
    + intros b' i Hi. unfold cell. cbn [h_blocks].
      destruct (Nat.eq_dec b b') as [<-|Hb]; [|rewrite nth_error_upd_neq by exact Hb; reflexivity].
      rewrite nth_error_upd_eq by (apply nth_error_Some; unfold live in Ly; congruence).
      unfold live in Ly. rewrite Ly. apply nth_error_splice; [lia|].
      intros Hr. apply Hi. exists ky, dy, o. repeat split; try apply Hy; try exact Ey; lia.
  - intros Es Et Tne.
    destruct (dw_total h dy Wy) as [[T2 _]|[_ T2]]; [|congruence].
    destruct (dw_total h dx Wx) as [[T1 _]|[S1 T1]]; [congruence|].
    apply Ecmp in Es as Es'. apply Eemp in Et as Et'. rewrite Es', Et'. cbn [dw_assert lift].
    rewrite T1. cbn [Z.to_nat load lift store].
    repeat split; auto. rewrite T2, <- Es, S1. reflexivity.
  - intros H.
    destruct (shape_eqb (d_shape dx) (d_shape dy) && shape_eqb (d_strides dx) (d_strides dy)) eqn:E1;
      cbn [dw_assert lift]; [|reflexivity].
    destruct H as [H|H]; [exfalso; apply H; now apply Ecmp|].
    destruct (negb (empty dy)) eqn:E2; cbn [dw_assert lift]; [|reflexivity].
    exfalso. assert (d_total dy <> 0%Z) by (now apply Eemp). congruence.
Qed.

(** fill / generate write exactly the covered cells. *)
Lemma store_var_spec h x k d vs :
  wf h -> accessible h x -> denotes h x k d -> length vs = Z.to_nat (d_total d) ->
  exists h', store h (d_data d) vs = Ret h' /\ contents h' x = Ok vs /\
    h_vars h' = h_vars h /\ h_descs h' = h_descs h /\
    (forall b i, ~ covers h x b i -> cell h' b i = cell h b i).
Proof.
  intros Hwf Ax Hx Hl. apply var_desc_Ok in Hx as Hx'.
  destruct (accessible_in_bounds h x k d Hwf Ax Hx) as [Z0|(b & o & c & E & L & B)].
  - rewrite Z0 in Hl. cbn in Hl. destruct vs; [|discriminate]. exists h. cbn [store].
    split; [reflexivity|]. split; [|auto]. unfold contents. rewrite Hx'. cbn [bind]. rewrite Z0. reflexivity.
  - rewrite E. rewrite (store_in_bounds h b o c vs L) by lia. eexists. split; [reflexivity|].
    split; [|split; [reflexivity|split; [reflexivity|]]].
    + unfold contents.
      assert (D : var_desc (mkHeap (h_vars h) (h_descs h)
          (if length vs =? 0 then h_blocks h else upd (h_blocks h) b (Some (splice c o vs)))) x = Ok (k, d)).
      { apply var_desc_Ok. exact Hx. }
      rewrite D. cbn [bind]. rewrite E. rewrite <- Hl.
      destruct (Nat.eqb_spec (length vs) 0) as [E0|E0].
      * rewrite E0. destruct vs; [reflexivity|discriminate].
      * rewrite (load_in_bounds _ b o (splice c o vs)).
        -- rewrite firstn_splice by lia. reflexivity.
        -- unfold live. cbn. apply nth_error_upd_eq. apply nth_error_Some. unfold live in L. congruence.
        -- rewrite splice_length by lia. lia.
    + intros b' i Hi. destruct (Nat.eqb_spec (length vs) 0) as [E0|E0]; [unfold cell; reflexivity|].
      unfold cell. cbn [h_blocks].
      destruct (Nat.eq_dec b b') as [<-|Hb]; [|rewrite nth_error_upd_neq by exact Hb; reflexivity].
      rewrite nth_error_upd_eq by (apply nth_error_Some; unfold live in L; congruence).
      unfold live in L. rewrite L. apply nth_error_splice; [lia|].
      intros Hr. apply Hi. exists k, d, o. repeat split; try apply Hx; try exact E; lia.
Qed.

Lemma fill_spec h x k d v :
  wf h -> accessible h x -> denotes h x k d ->
  exists h', fill h x v = Ret h' /\ contents h' x = Ok (repeat v (Z.to_nat (d_total d))) /\
    h_vars h' = h_vars h /\ h_descs h' = h_descs h /\
    (forall b i, ~ covers h x b i -> cell h' b i = cell h b i).
Proof.
  intros Hwf Ax Hx. unfold fill. apply var_desc_Ok in Hx as Hx'. rewrite Hx'. cbn [lift].
  apply (store_var_spec h x k d); auto. apply repeat_length.
Qed.

Lemma generate_spec h x k d f :
  wf h -> accessible h x -> denotes h x k d ->
  exists h', generate h x f = Ret h' /\ contents h' x = Ok (tab (Z.to_nat (d_total d)) f) /\
    h_vars h' = h_vars h /\ h_descs h' = h_descs h /\
    (forall b i, ~ covers h x b i -> cell h' b i = cell h b i).
Proof.
  intros Hwf Ax Hx. unfold generate. apply var_desc_Ok in Hx as Hx'. rewrite Hx'. cbn [lift].
  apply (store_var_spec h x k d); auto. apply tab_length.
Qed.

(** Two owned tensors with different descriptors cover disjoint cells. *)
Lemma separate_storage h x y kx ky dx dy b i :
  wf h -> denotes h x kx dx -> denotes h y ky dy -> kx <> ky ->
  d_memory dx <> None -> d_memory dy <> None -> covers h x b i -> ~ covers h y b i.
Proof.
  intros Hwf Hx Hy Hne Mx My (k1 & d1 & o1 & H1 & E1 & _) (k2 & d2 & o2 & H2 & E2 & _).
  destruct Hx as [Vx Dx], Hy as [Vy Dy], H1 as [V1 D1], H2 as [V2 D2].
  assert (k1 = kx) by congruence. assert (k2 = ky) by congruence. subst k1 k2.
  assert (d1 = dx) by congruence. assert (d2 = dy) by congruence. subst d1 d2.
  destruct (d_memory dx) as [bx|] eqn:Ex; [|congruence].
  destruct (d_memory dy) as [by_|] eqn:Ey; [|congruence].
  destruct (dw_owned h dx (wf_descs h Hwf kx dx Dx) bx Ex) as (F1 & _).
  destruct (dw_owned h dy (wf_descs h Hwf ky dy Dy) by_ Ey) as (F2 & _).
  assert (bx = b) by congruence. assert (by_ = b) by congruence. subst.
  apply Hne. apply (wf_sep h Hwf kx ky dx dy b); assumption.
Qed.

(** Histories. *)
Lemma history_safe cs :
  (forall cs1 c cs2 h, cs = cs1 ++ c :: cs2 -> run heap0 cs1 = Some h -> legal h c) ->
  exists h, run heap0 cs = Some h /\ wf h.
Proof. apply run_safe_from. apply wf_heap0. Qed.

Lemma copy_aliases (h : heap) x h1 cs h2 :
  copy_var h x = Ret h1 ->
  run h1 cs = Some h2 ->
  Forall (fun c => ~ reassigns c x /\ ~ reassigns c (length (h_vars h))) cs ->
  forall k d, denotes h2 x k d <-> denotes h2 (length (h_vars h)) k d.
Proof.
  intros Hc Hr Hn k d. unfold copy_var, rd in Hc.
  destruct (nth_error (h_vars h) x) as [kx|] eqn:E; cbn [lift] in Hc; [|discriminate].
  injection Hc as <-.
  assert (Hx : x < length (h_vars h)) by (apply nth_error_Some; congruence).
  assert (A : nth_error (h_vars h2) x = Some kx).
  { apply (run_vars (bind_var h kx) cs h2 x kx Hr).
    - eapply Forall_impl; [|exact Hn]. cbn. tauto.
    - cbn. rewrite nth_error_app1; assumption. }
  assert (B : nth_error (h_vars h2) (length (h_vars h)) = Some kx).
  { apply (run_vars (bind_var h kx) cs h2 _ kx Hr).
    - eapply Forall_impl; [|exact Hn]. cbn. tauto.
    - cbn. rewrite nth_error_app2, Nat.sub_diag by lia. reflexivity. }
  unfold denotes. rewrite A, B. reflexivity.
Qed.

Lemma reachable_wf h : reachable h -> wf h.
Proof.
  intros (cs & Hl & Hr). destruct (history_safe cs Hl) as (h' & E & W). congruence.
Qed.

End Heap.
