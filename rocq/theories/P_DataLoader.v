(** Proofs about the data loader. *)
From Verif Require Import Base BaseFacts S_Tensor M_Tensor P_Tensor M_DataLoader S_DataLoader.

Section Proofs.
Context {V D G : Type}.
Variable next : G -> Z -> Z * G.
Variable ord : list Z -> list Z.
Variable ds : dataset V D.
Variable item : Z -> list V * list V.
Variable bs : Z.
Hypothesis Hds : dataset_ok ds item.
Hypothesis Hcf : config_ok ds bs.
Notation nx := (Z.to_nat (prodZ (fst (ds_shape ds)))).
Notation ny := (Z.to_nat (prodZ (snd (ds_shape ds)))).
Notation loader := (loader D G).
Notation tv := (tv V).

Lemma fits_tail s : (1 <= bs)%Z -> nonneg s -> fits (bs :: s) -> fits s.
Proof.
  intros Hb Hn Hf n. specialize (Hf (S n)). cbn [firstn] in Hf. rewrite prodZ_cons in Hf.
  assert (0 <= prodZ (firstn n s))%Z. { apply prodZ_nonneg. unfold nonneg in *. rewrite <- (firstn_skipn n s) in Hn. apply Forall_app in Hn. tauto. }
  unfold int_min in *. nia.
Qed.

Lemma stride_head s : (1 <= bs)%Z -> nonneg s -> fits (bs :: s) -> exists st, calculateStrides (bs :: s) = prodZ s :: st.
Proof.
  intros Hb Hn Hf. unfold calculateStrides. cbn [strides_loop]. destruct (strides_loop_spec s) as (_ & H & _).
  destruct (strides_loop s) as [st acc]. cbn in *. exists st. rewrite H. f_equal. apply Z.mod_small. split; [apply prodZ_nonneg; exact Hn|].
  pose proof (fits_nonneg_bound s (fits_tail s Hb Hn Hf)). unfold int_max, size_mod in *. lia.
Qed.

Lemma no_negative s : nonneg s -> have_negative_dim s = false.
Proof. apply have_negative_dim_spec. Qed.

Lemma slice_ok s P R i n : nonneg s -> fits s -> n = Z.to_nat (prodZ s) -> length P = i * n -> n <= length R ->
  tv_slice (V := V) s (P ++ R) (Z.of_nat i * prodZ s) = Ok (firstn n R).
Proof.
  intros Hn Hf En LP LR. unfold tv_slice. rewrite no_negative by exact Hn. cbn [negb dw_assert bind].
  rewrite (proj2 (int_prod_Ok s _) (conj eq_refl Hf)). cbn [bind]. pose proof (prodZ_nonneg s Hn) as H0.
  rewrite app_length, LP. subst n. replace ((0 <=? Z.of_nat i * prodZ s)%Z && (Z.of_nat i * prodZ s + prodZ s <=? Z.of_nat (i * Z.to_nat (prodZ s) + length R))%Z) with true by nia.
  f_equal. f_equal. replace (Z.to_nat (Z.of_nat i * prodZ s)) with (length P) by nia.
  rewrite skipn_app, skipn_all, Nat.sub_diag. reflexivity.
Qed.

Lemma splice_ok (P R v : list V) i n s : (0 <= prodZ s)%Z -> n = Z.to_nat (prodZ s) -> length P = i * n -> length v = n ->
  splice (P ++ R) (Z.to_nat (Z.of_nat i * prodZ s)) v = P ++ v ++ skipn n R.
Proof.
  intros H0 En LP Lv. replace (Z.to_nat (Z.of_nat i * prodZ s)) with (length P) by nia. unfold splice.
  rewrite firstn_app, firstn_all, Nat.sub_diag. cbn [firstn]. rewrite app_nil_r. f_equal. f_equal.
  rewrite Lv, skipn_app. replace (length P + n - length P) with n by lia. rewrite skipn_all2 by lia. reflexivity.
Qed.

Lemma fill_spec js : forall i l X y k P Q RX RY,
  (forall j, In j js -> (0 <= j < ds_size ds)%Z) ->
  v_data X = P ++ RX -> length P = i * nx -> length RX = length js * nx ->
  v_data y = Q ++ RY -> length Q = i * ny -> length RY = length js * ny ->
  let r := fill_batch (G := G) ds (prodZ (fst (ds_shape ds))) (prodZ (snd (ds_shape ds))) (combine (seq i (length js)) js) l X y k in
  (exists l' X' y', r = PExc l' X' y' /\ l_pos l' = l_pos l /\ v_shape X' = v_shape X /\ v_shape y' = v_shape y /\
     length (v_data X') = length (v_data X) /\ length (v_data y') = length (v_data y) /\ ~ never_throws ds) \/
  (exists d', r = k (mkLd (l_pos l) d' (l_gen l)) (mkTv (v_shape X) (P ++ flat_map (fun j => fst (item j)) js))
                    (mkTv (v_shape y) (Q ++ flat_map (fun j => snd (item j)) js))).
Proof.
  destruct Hds as (Hsz & Hnx & Hny & Hpull). destruct Hcf as (Hb & Hfx & Hfy & _).
  pose proof (fits_tail _ Hb Hnx Hfx) as Fx. pose proof (fits_tail _ Hb Hny Hfy) as Fy.
  pose proof (prodZ_nonneg _ Hnx) as Px. pose proof (prodZ_nonneg _ Hny) as Py.
  induction js as [|j js IH]; intros i l X y k P Q RX RY Hj EX LP LRX Ey LQ LRY; cbn [length seq combine fill_batch].
  - right. exists (l_ds l). cbn [flat_map length] in *. destruct l, X, y. cbn in *. rewrite app_nil_r in *.
    destruct RX; [|cbn in LRX; lia]. destruct RY; [|cbn in LRY; lia]. rewrite !app_nil_r in *. subst. reflexivity.
  - cbn [length] in LRX, LRY. rewrite EX, Ey.
    rewrite (slice_ok _ P RX i nx Hnx Fx eq_refl LP) by lia. rewrite (slice_ok _ Q RY i ny Hny Fy eq_refl LQ) by lia.
    pose proof (Hpull (l_ds l) j (firstn nx RX) (firstn ny RY) (Hj j (or_introl eq_refl))) as HP.
    destruct (ds_pull ds (l_ds l) j (firstn nx RX) (firstn ny RY)) as [[d' [sx' sy']] ok] eqn:Epull.
    destruct HP as (Lx & Ly & Hit); [rewrite firstn_length; lia|rewrite firstn_length; lia|].
    rewrite (splice_ok P RX sx' i nx _ Px eq_refl LP Lx), (splice_ok Q RY sy' i ny _ Py eq_refl LQ Ly).
    destruct ok.
    + specialize (Hit eq_refl).
      specialize (IH (S i) (mkLd (l_pos l) d' (l_gen l)) (mkTv (v_shape X) (P ++ sx' ++ skipn nx RX)) (mkTv (v_shape y) (Q ++ sy' ++ skipn ny RY)) k
                     (P ++ sx') (Q ++ sy') (skipn nx RX) (skipn ny RY)).
      cbn [l_pos l_gen v_shape v_data] in IH.
      destruct IH as [(l' & X' & y' & E & P1 & P2 & P3 & P4 & P5 & P6)|(d2 & E)].
      * intros j' Hj'. apply Hj. right. exact Hj'.
      * rewrite app_assoc. reflexivity.
      * rewrite app_length. lia.
      * rewrite skipn_length. lia.
      * rewrite app_assoc. reflexivity.
      * rewrite app_length. lia.
      * rewrite skipn_length. lia.
      * left. exists l', X', y'. split; [exact E|]. split; [exact P1|]. split; [exact P2|]. split; [exact P3|].
        rewrite !app_length, skipn_length in P4, P5. rewrite !app_length. split; [lia|]. split; [lia|exact P6].
      * right. exists d2. rewrite E. cbn [flat_map]. rewrite <- Hit. cbn [fst snd]. rewrite <- !app_assoc. reflexivity.
    + left. eexists _, _, _. split; [reflexivity|]. cbn [l_pos v_shape v_data]. split; [reflexivity|]. split; [reflexivity|]. split; [reflexivity|].
      rewrite !app_length, !skipn_length. split; [lia|]. split; [lia|]. intros HN. specialize (HN (l_ds l) j (firstn nx RX) (firstn ny RY) (Hj j (or_introl eq_refl)) ltac:(rewrite firstn_length; lia) ltac:(rewrite firstn_length; lia)). rewrite Epull in HN. discriminate.
Qed.

(** The random loop collects distinct numbers of the range. *)
Hypothesis Hnext : forall g ub, (0 <= ub)%Z -> (0 <= fst (next g ub) <= ub)%Z.
Hypothesis Hord : forall l, Permutation (ord l) l.

Lemma rand_spec fuel : forall uniq num ub g u g', (0 <= ub)%Z -> (0 <= num < size_mod)%Z ->
  NoDup uniq -> (forall j, In j uniq -> (0 <= j <= ub)%Z /\ exists g, j = fst (next g ub)) ->
  rand_loop next fuel uniq num ub g = Some (u, g') ->
  NoDup u /\ (forall j, In j u -> (0 <= j <= ub)%Z /\ exists g, j = fst (next g ub)) /\ Z.of_nat (length u) = num.
Proof.
  induction fuel as [|fuel IH]; intros uniq num ub g u g' Hub Hnum Hnd Hin; cbn [rand_loop]; rewrite Z.mod_small by exact Hnum;
    destruct (Z.of_nat (length uniq) =? num)%Z eqn:E.
  - intros [= <- <-]. split; [exact Hnd|]. split; [exact Hin|]. lia.
  - discriminate.
  - intros [= <- <-]. split; [exact Hnd|]. split; [exact Hin|]. lia.
  - pose proof (Hnext g ub Hub) as Hv. destruct (next g ub) as [v g2] eqn:Eg. cbn [fst] in Hv. intros H. apply IH in H; auto.
    + destruct (in_dec Z.eq_dec v uniq); [exact Hnd|]. 
      apply (Permutation_NoDup (Permutation_cons_append uniq v)). constructor; assumption.
    + intros j Hj. destruct (in_dec Z.eq_dec v uniq); [apply Hin; exact Hj|]. apply in_app_iff in Hj. destruct Hj as [Hj|[<-|[]]]; [apply Hin; exact Hj|].
      split; [exact Hv|]. exists g. rewrite Eg. reflexivity.
Qed.

(** What one call does when the position is [c] full batches into the dataset. *)
Definition full_batches : Z := (ds_size ds / bs)%Z.

Definition after_empty (t t' : tv) (s : shape) : Prop := (v_data t = [] -> v_shape t' = s) /\ (v_data t <> [] -> v_shape t' = v_shape t).

Lemma full_bound : (full_batches * bs <= ds_size ds)%Z /\ (ds_size ds < full_batches * bs + bs)%Z /\ (0 <= full_batches)%Z.
Proof.
  destruct Hds as (Hsz & _). destruct Hcf as (Hb & _). unfold full_batches. pose proof (Z.div_mod (ds_size ds) bs ltac:(lia)). pose proof (Z.mod_pos_bound (ds_size ds) bs ltac:(lia)).
  pose proof (Z.div_pos (ds_size ds) bs Hsz ltac:(lia)). nia.
Qed.

Lemma tv_empty_spec (t : tv) : tv_empty t = true <-> v_data t = [].
Proof. unfold tv_empty. destruct (v_data t); cbn; split; intros; try reflexivity; discriminate. Qed.

Lemma allocate_ok s j : nonneg s -> fits (bs :: s) ->
  tv_allocate (V := V) (bs :: s) j = Ok (mkTv (bs :: s) (tab (Z.to_nat (prodZ (bs :: s))) j)).
Proof.
  intros Hn Hf. destruct Hcf as (Hb & _). unfold tv_allocate. rewrite no_negative by (constructor; [lia|exact Hn]). cbn [negb dw_assert bind].
  rewrite (proj2 (int_prod_Ok _ _) (conj eq_refl Hf)). reflexivity.
Qed.

(** The tensor after lines 46-52. *)
Definition prepared (t : tv) (s : shape) (j : nat -> V) : tv :=
  if tv_empty t then mkTv (bs :: s) (tab (Z.to_nat (prodZ (bs :: s))) j) else t.

Lemma prepared_shape t s j : after_empty t (prepared t s j) (bs :: s).
Proof.
  unfold after_empty, prepared. destruct (tv_empty t) eqn:E.
  - apply tv_empty_spec in E. split; [reflexivity|congruence].
  - split; [|reflexivity]. intros H. apply tv_empty_spec in H. congruence.
Qed.

Lemma prepared_len t s j : tensor_ok t -> v_shape (prepared t s j) = bs :: s -> nonneg s -> length (v_data (prepared t s j)) = Z.to_nat bs * Z.to_nat (prodZ s).
Proof.
  destruct Hcf as (Hb & _). intros Ht Hs Hn. pose proof (prodZ_nonneg s Hn) as H0. unfold prepared in *. destruct (tv_empty t) eqn:E.
  - cbn. rewrite tab_length. change (fold_right Z.mul 1%Z s) with (prodZ s). nia.
  - destruct Ht as [Ht|Ht]; [apply tv_empty_spec in Ht; congruence|]. rewrite Hs, prodZ_cons in Ht. nia.
Qed.

Lemma pull_step fuel shuffle (l : loader) X y jx jy c : tensor_ok X -> tensor_ok y -> l_pos l = (c * bs)%Z -> (0 <= c <= full_batches)%Z ->
  match pull next ord fuel ds bs shuffle l X y jx jy with
  | PBad => False
  | PRun => shuffle = true /\ rand_loop next fuel [] bs (ds_size ds - 1) (l_gen l) = None
  | PExc l' X' y' => l_pos l' = l_pos l /\ after_empty X X' (bs :: fst (ds_shape ds)) /\ after_empty y y' (bs :: snd (ds_shape ds)) /\
      (~ accepted X bs (fst (ds_shape ds)) \/ ~ accepted y bs (snd (ds_shape ds)) \/ ~ never_throws ds)
  | PRet b l' X' y' => accepted X bs (fst (ds_shape ds)) /\ accepted y bs (snd (ds_shape ds)) /\ b = (c <? full_batches)%Z /\
      l_pos l' = (if b then (c + 1) * bs else 0)%Z /\
      (if b then exists idx, Z.of_nat (length idx) = bs /\ NoDup idx /\ (forall j, In j idx -> (0 <= j < ds_size ds)%Z) /\
                   (shuffle = false -> idx = upfrom (c * bs) bs) /\
                   (shuffle = true -> forall j, In j idx -> exists g, j = fst (next g (ds_size ds - 1)%Z)) /\ holds_batch ds bs item idx X' y'
       else X' = prepared X (fst (ds_shape ds)) jx /\ y' = prepared y (snd (ds_shape ds)) jy)
  end.
Proof.
  intros HX Hy Hpos Hc. pose proof Hds as (Hsz & Hnx & Hny & Hpull). pose proof Hcf as (Hb & Hfx & Hfy & Hint). pose proof full_bound as (HB1 & HB2 & HB3).
  unfold pull, makeShape.
  replace (if tv_empty X then tv_allocate (bs :: fst (ds_shape ds)) jx else Ok X) with (Ok (prepared X (fst (ds_shape ds)) jx))
    by (unfold prepared; destruct (tv_empty X); [rewrite allocate_ok by assumption|]; reflexivity).
  replace (if tv_empty y then tv_allocate (bs :: snd (ds_shape ds)) jy else Ok y) with (Ok (prepared y (snd (ds_shape ds)) jy))
    by (unfold prepared; destruct (tv_empty y); [rewrite allocate_ok by assumption|]; reflexivity).
  pose proof (prepared_shape X (fst (ds_shape ds)) jx) as SX. pose proof (prepared_shape y (snd (ds_shape ds)) jy) as Sy.
  destruct (shape_eqb (v_shape (prepared X (fst (ds_shape ds)) jx)) (bs :: fst (ds_shape ds))) eqn:EX; cbn [negb].
  2:{ split; [reflexivity|]. split; [exact SX|]. split; [exact Sy|]. left. intros [H|H].
      - rewrite (proj1 SX H) in EX. rewrite (proj2 (shape_eqb_spec _ _) eq_refl) in EX. discriminate.
      - destruct (v_data X) as [|x0 xr] eqn:E0; [rewrite (proj1 SX E0) in EX|rewrite (proj2 SX ltac:(congruence)), H in EX];
          rewrite (proj2 (shape_eqb_spec _ _) eq_refl) in EX; discriminate. }
  destruct (shape_eqb (v_shape (prepared y (snd (ds_shape ds)) jy)) (bs :: snd (ds_shape ds))) eqn:Ey; cbn [negb].
  2:{ split; [reflexivity|]. split; [exact SX|]. split; [exact Sy|]. right. left. intros [H|H].
      - rewrite (proj1 Sy H) in Ey. rewrite (proj2 (shape_eqb_spec _ _) eq_refl) in Ey. discriminate.
      - destruct (v_data y) as [|x0 xr] eqn:E0; [rewrite (proj1 Sy E0) in Ey|rewrite (proj2 Sy ltac:(congruence)), H in Ey];
          rewrite (proj2 (shape_eqb_spec _ _) eq_refl) in Ey; discriminate. }
  apply shape_eqb_spec in EX, Ey.
  assert (AX : accepted X bs (fst (ds_shape ds))).
  { destruct (v_data X) eqn:E0; [left; exact E0|right]. rewrite <- (proj2 SX ltac:(congruence)). exact EX. }
  assert (Ay : accepted y bs (snd (ds_shape ds))).
  { destruct (v_data y) eqn:E0; [left; exact E0|right]. rewrite <- (proj2 Sy ltac:(congruence)). exact Ey. }
  pose proof (prepared_len X _ jx HX EX Hnx) as LX. pose proof (prepared_len y _ jy Hy Ey Hny) as Ly.
  assert (Hfit : fits_int (l_pos l + bs) = true). { unfold fits_int. rewrite Hpos. unfold int_min, int_max in *. nia. }
  rewrite Hfit. cbn [negb]. rewrite Z.mod_small by (rewrite Hpos; unfold int_max, size_mod in *; nia).
  assert (Hcmp : (l_pos l + bs >? ds_size ds)%Z = negb (c <? full_batches)%Z). { rewrite Hpos. nia. }
  rewrite Hcmp. destruct (c <? full_batches)%Z eqn:Ec; cbn [negb]; [|auto 10].
  rewrite EX, Ey. destruct (stride_head (fst (ds_shape ds)) Hb Hnx Hfx) as [stx ->]. destruct (stride_head (snd (ds_shape ds)) Hb Hny Hfy) as [sty ->].
  assert (Hgo : forall (l0 : loader) idx, l_pos l0 = l_pos l -> Z.of_nat (length idx) = bs -> NoDup idx -> (forall j, In j idx -> (0 <= j < ds_size ds)%Z) ->
    (shuffle = false -> idx = upfrom (c * bs) bs) -> (shuffle = true -> forall j, In j idx -> exists g, j = fst (next g (ds_size ds - 1)%Z)) ->
    match (if length idx <? Z.to_nat bs then PBad else fill_batch ds (prodZ (fst (ds_shape ds))) (prodZ (snd (ds_shape ds))) (combine (seq 0 (Z.to_nat bs)) idx) l0
             (prepared X (fst (ds_shape ds)) jx) (prepared y (snd (ds_shape ds)) jy) (fun l X y => PRet true (mkLd (l_pos l + bs)%Z (l_ds l) (l_gen l)) X y)) with
    | PBad => False
    | PRun => shuffle = true /\ rand_loop next fuel [] bs (ds_size ds - 1) (l_gen l) = None
    | PExc l' X' y' => l_pos l' = l_pos l /\ after_empty X X' (bs :: fst (ds_shape ds)) /\ after_empty y y' (bs :: snd (ds_shape ds)) /\
        (~ accepted X bs (fst (ds_shape ds)) \/ ~ accepted y bs (snd (ds_shape ds)) \/ ~ never_throws ds)
    | PRet b l' X' y' => accepted X bs (fst (ds_shape ds)) /\ accepted y bs (snd (ds_shape ds)) /\ b = true /\
        l_pos l' = (if b then (c + 1) * bs else 0)%Z /\
        (if b then exists idx, Z.of_nat (length idx) = bs /\ NoDup idx /\ (forall j, In j idx -> (0 <= j < ds_size ds)%Z) /\
                   (shuffle = false -> idx = upfrom (c * bs) bs) /\
                   (shuffle = true -> forall j, In j idx -> exists g, j = fst (next g (ds_size ds - 1)%Z)) /\ holds_batch ds bs item idx X' y'
         else X' = prepared X (fst (ds_shape ds)) jx /\ y' = prepared y (snd (ds_shape ds)) jy)
    end).
  { intros l0 idx Hp0 Hlen Hnd Hin Hseq Hdraw. replace (length idx <? Z.to_nat bs) with false by lia. replace (Z.to_nat bs) with (length idx) by lia.
    destruct (fill_spec idx 0 l0 (prepared X (fst (ds_shape ds)) jx) (prepared y (snd (ds_shape ds)) jy)
                (fun l X y => PRet true (mkLd (l_pos l + bs)%Z (l_ds l) (l_gen l)) X y) [] []
                (v_data (prepared X (fst (ds_shape ds)) jx)) (v_data (prepared y (snd (ds_shape ds)) jy)))
      as [(l' & X' & y' & E & P1 & P2 & P3 & _ & _ & P6)|(d' & E)]; try reflexivity; try assumption.
    - rewrite LX. f_equal. lia.
    - rewrite Ly. f_equal. lia.
    - rewrite E. split; [congruence|]. split; [|split; [|auto]].
      + split; intros H; [rewrite P2; apply (proj1 SX H)|rewrite P2; apply (proj2 SX H)].
      + split; intros H; [rewrite P3; apply (proj1 Sy H)|rewrite P3; apply (proj2 Sy H)].
    - rewrite E. cbn [app l_pos]. split; [exact AX|]. split; [exact Ay|]. split; [reflexivity|]. split; [rewrite Hp0, Hpos; ring|].
      exists idx. split; [exact Hlen|]. split; [exact Hnd|]. split; [exact Hin|]. split; [exact Hseq|]. split; [exact Hdraw|].
      unfold holds_batch. cbn [v_shape v_data]. auto. }
  destruct shuffle.
  - replace ((ds_size ds - 1 <? 0)%Z || (int_max <? ds_size ds - 1)%Z) with false by (unfold int_max in *; nia).
    destruct (rand_loop next fuel [] bs (ds_size ds - 1) (l_gen l)) as [[u g']|] eqn:Er; [|auto].
    apply rand_spec in Er; [|nia|unfold int_max, size_mod in *; lia|constructor|intros j []]. destruct Er as (N1 & N2 & N3).
    apply (Hgo (mkLd (l_pos l) (l_ds l) g')).
    + reflexivity.
    + rewrite (Permutation_length (Hord u)). exact N3.
    + apply (Permutation_NoDup (Permutation_sym (Hord u)) N1).
    + intros j Hj. destruct (N2 j (Permutation_in _ (Hord u) Hj)) as [N4 _]. lia.
    + discriminate.
    + intros _ j Hj. apply (N2 j (Permutation_in _ (Hord u) Hj)).
  - apply Hgo.
    + reflexivity.
    + unfold seqIndices. rewrite map_length, seq_length. lia.
    + unfold seqIndices. apply FinFun.Injective_map_NoDup; [intros a b; lia|apply seq_NoDup].
    + intros j Hj. unfold seqIndices in Hj. apply in_map_iff in Hj. destruct Hj as (i & <- & Hi). apply in_seq in Hi. rewrite Hpos. nia.
    + intros _. rewrite Hpos. reflexivity.
    + discriminate.
Qed.


(** ** Histories *)
Definition req_ok (q : request V) : Prop := tensor_ok (q_X q) /\ tensor_ok (q_y q).
Notation period := (S (Z.to_nat full_batches)).

(** What call number [j] of a history reports. *)
Definition report_ok (shuffle : bool) (caller : list (report V) -> request V) (before : list (report V)) (r : report V) : Prop :=
  let q := caller before in
  let c := (Z.of_nat (returned before mod period))%Z in
  let '(o, X, y) := r in
  match o with
  | None => after_empty (q_X q) X (bs :: fst (ds_shape ds)) /\ after_empty (q_y q) y (bs :: snd (ds_shape ds)) /\
      (~ accepted (q_X q) bs (fst (ds_shape ds)) \/ ~ accepted (q_y q) bs (snd (ds_shape ds)) \/ ~ never_throws ds)
  | Some b => accepted (q_X q) bs (fst (ds_shape ds)) /\ accepted (q_y q) bs (snd (ds_shape ds)) /\ b = (c <? full_batches)%Z /\
      (if b then exists idx, Z.of_nat (length idx) = bs /\ NoDup idx /\ (forall j, In j idx -> (0 <= j < ds_size ds)%Z) /\
                   (shuffle = false -> idx = upfrom (c * bs) bs) /\
                   (shuffle = true -> forall j, In j idx -> exists g, j = fst (next g (ds_size ds - 1)%Z)) /\ holds_batch ds bs item idx X y
       else X = prepared (q_X q) (fst (ds_shape ds)) (q_jx q) /\ y = prepared (q_y q) (snd (ds_shape ds)) (q_jy q))
  end.

Lemma returned_app (a b : list (report V)) : returned (a ++ b) = returned a + returned b.
Proof. unfold returned. rewrite filter_app, app_length. reflexivity. Qed.

Lemma mod_succ (k : nat) : let q := Z.to_nat full_batches in
  Z.of_nat (S k mod S q) = (if Z.of_nat (k mod S q) <? full_batches then Z.of_nat (k mod S q) + 1 else 0)%Z.
Proof.
  cbv zeta. pose proof full_bound as (_ & _ & HB3). set (q := Z.to_nat full_batches). pose proof (Nat.mod_upper_bound k (S q) ltac:(lia)) as Hm.
  pose proof (Nat.div_mod_eq k (S q)) as Hd. destruct (Z.of_nat (k mod S q) <? full_batches)%Z eqn:E.
  - replace (S k mod S q) with (S (k mod S q)); [lia|]. apply (Nat.mod_unique _ _ (k / S q)); lia.
  - replace (S k mod S q) with 0; [reflexivity|]. apply (Nat.mod_unique _ _ (S (k / S q))); [lia|]. assert (k mod S q = q) by lia. nia.
Qed.

Lemma pulls_spec fuel shuffle (l : loader) caller n : l_pos l = 0%Z -> (forall rs, req_ok (caller rs)) ->
  match pulls next ord fuel ds bs shuffle l caller n with
  | None => shuffle = true /\ exists g, rand_loop next fuel [] bs (ds_size ds - 1) g = None
  | Some (rs, l') => length rs = n /\ l_pos l' = (Z.of_nat (returned rs mod period) * bs)%Z /\
      forall j r, nth_error rs j = Some r -> report_ok shuffle caller (firstn j rs) r
  end.
Proof.
  intros H0 Hreq. pose proof full_bound as (_ & _ & HB3). induction n as [|n IH]; cbn [pulls].
  - split; [reflexivity|]. split; [rewrite H0; unfold returned; cbn [filter length]; rewrite Nat.mod_0_l by lia; reflexivity|]. intros [|j] r; discriminate.
  - destruct (pulls next ord fuel ds bs shuffle l caller n) as [[rs l1]|]; [|exact IH]. destruct IH as (L & P & V0).
    destruct (Hreq rs) as [HX Hy].
    assert (Hc : (0 <= Z.of_nat (returned rs mod period) <= full_batches)%Z).
    { pose proof (Nat.mod_upper_bound (returned rs) period ltac:(lia)). lia. }
    pose proof (pull_step fuel shuffle l1 (q_X (caller rs)) (q_y (caller rs)) (q_jx (caller rs)) (q_jy (caller rs)) _ HX Hy P Hc) as HS.
    assert (Hext : forall r, report_ok shuffle caller rs r -> forall j r', nth_error (rs ++ [r]) j = Some r' -> report_ok shuffle caller (firstn j (rs ++ [r])) r').
    { intros r Hr j r' Hj. destruct (Nat.lt_ge_cases j (length rs)) as [Hlt|Hge].
      - rewrite nth_error_app1 in Hj by exact Hlt. rewrite firstn_app. replace (j - length rs) with 0 by lia. cbn [firstn]. rewrite app_nil_r. apply V0. exact Hj.
      - rewrite nth_error_app2 in Hj by exact Hge. destruct (j - length rs) as [|m] eqn:Em; [|destruct m; discriminate]. injection Hj as <-.
        rewrite firstn_app, Em. cbn [firstn]. rewrite app_nil_r, firstn_all2 by lia. exact Hr. }
    destruct (pull next ord fuel ds bs shuffle l1 (q_X (caller rs)) (q_y (caller rs)) (q_jx (caller rs)) (q_jy (caller rs))) as [b l' X y|l' X y| |].
    + destruct HS as (A1 & A2 & Eb & EP & HB). split; [rewrite app_length; cbn; lia|]. split.
      * rewrite EP, returned_app. change (returned [(Some b, X, y)]) with 1. rewrite Nat.add_1_r, mod_succ. rewrite Eb.
        destruct (_ <? _)%Z; lia.
      * apply Hext. cbn. split; [exact A1|]. split; [exact A2|]. split; [exact Eb|]. exact HB.
    + destruct HS as (EP & A1 & A2 & HC). split; [rewrite app_length; cbn; lia|]. split.
      * rewrite EP, P, returned_app. change (returned [(None, X, y)]) with 0. rewrite Nat.add_0_r. reflexivity.
      * apply Hext. cbn. auto.
    + contradiction.
    + destruct HS as [S1 S2]. split; [exact S1|]. exists (l_gen l1). exact S2.
Qed.

End Proofs.

(** ** Termination of the random loop *)
Section Rand.
Context {G : Type}.
Variable next : G -> Z -> Z * G.


Definition add_new (uniq : list Z) (v : Z) : list Z := if in_dec Z.eq_dec v uniq then uniq else uniq ++ [v].

Lemma rand_terminates m : forall uniq num ub g, (Z.of_nat (length uniq) <= num)%Z -> (num < size_mod)%Z ->
  (num <= Z.of_nat (length (fold_left add_new (draws next m ub g) uniq)))%Z ->
  exists u g', rand_loop next m uniq num ub g = Some (u, g').
Proof.
  induction m as [|m IH]; intros uniq num ub g Hle Hs Hd; cbn [rand_loop draws fold_left] in *; rewrite Z.mod_small by lia.
  - destruct (Z.of_nat (length uniq) =? num)%Z eqn:E; [eauto|lia].
  - destruct (Z.of_nat (length uniq) =? num)%Z eqn:E; [eauto|]. destruct (next g ub) as [v g2]. cbn [fold_left] in Hd.
    apply IH; [|exact Hs|exact Hd]. destruct (in_dec Z.eq_dec v uniq); [exact Hle|]. rewrite app_length. cbn. lia.
Qed.

Lemma add_new_nodup l : forall uniq, NoDup uniq -> NoDup (fold_left add_new l uniq) /\ (forall v, In v (fold_left add_new l uniq) <-> In v uniq \/ In v l).
Proof.
  induction l as [|v l IH]; intros uniq Hn; cbn; [split; [exact Hn|tauto]|].
  assert (Hn' : NoDup (add_new uniq v)).
  { unfold add_new. destruct (in_dec Z.eq_dec v uniq); [exact Hn|]. apply (Permutation_NoDup (Permutation_cons_append uniq v)). constructor; assumption. }
  destruct (IH _ Hn') as [H1 H2]. split; [exact H1|]. intros w. rewrite H2. unfold add_new. destruct (in_dec Z.eq_dec v uniq).
  - intuition subst; auto.
  - rewrite in_app_iff. cbn. intuition.
Qed.

Lemma rand_terminates_distinct m num ub g l : (0 <= num < size_mod)%Z -> NoDup l -> Z.of_nat (length l) = num -> incl l (draws next m ub g) ->
  exists u g', rand_loop next m [] num ub g = Some (u, g').
Proof.
  intros Hn Hnd Hl Hi. apply rand_terminates; [cbn; lia|lia|]. destruct (add_new_nodup (draws next m ub g) [] (NoDup_nil _)) as [H1 H2].
  assert (length l <= length (fold_left add_new (draws next m ub g) [])); [|lia].
  apply NoDup_incl_length; [exact Hnd|]. intros v Hv. apply H2. right. apply Hi. exact Hv.
Qed.
End Rand.

(** A generator that cycles through 0, ..., bs-1. *)
Definition cyc (bs : Z) (g ub : Z) : Z * Z := (Z.min ub (g mod bs), g + 1)%Z.

Lemma cyc_draws bs m : forall ub g, (1 <= bs)%Z -> (bs - 1 <= ub)%Z -> draws (cyc bs) m ub g = map (fun i => ((g + Z.of_nat i) mod bs)%Z) (seq 0 m).
Proof.
  induction m as [|m IH]; intros ub g Hb Hu; cbn [draws seq map]; [reflexivity|]. unfold cyc at 1. pose proof (Z.mod_pos_bound g bs ltac:(lia)).
  rewrite Z.min_r by lia. rewrite IH by assumption. f_equal; [f_equal; lia|]. rewrite <- seq_shift, map_map. apply map_ext. intros i. f_equal. lia.
Qed.

Lemma cyc_terminates bs ub g : (1 <= bs < size_mod)%Z -> (bs - 1 <= ub)%Z -> exists u g', rand_loop (cyc bs) (Z.to_nat bs) [] bs ub g = Some (u, g').
Proof.
  intros Hb Hu. apply (rand_terminates_distinct (cyc bs) _ _ _ _ (draws (cyc bs) (Z.to_nat bs) ub g)); [lia| | |apply incl_refl]; rewrite cyc_draws by lia.
  - apply NoDup_nth with (d := 0%Z). rewrite map_length, seq_length. intros i j Hi Hj.
    rewrite !(nth_indep _ 0%Z ((g + Z.of_nat 0) mod bs)%Z) by (rewrite map_length, seq_length; lia).
    rewrite !(map_nth (fun i => ((g + Z.of_nat i) mod bs)%Z)), !seq_nth by lia. cbn [Nat.add]. intros E.
    pose proof (Z.div_mod (g + Z.of_nat i) bs ltac:(lia)). pose proof (Z.div_mod (g + Z.of_nat j) bs ltac:(lia)).
    assert (Z.of_nat i - Z.of_nat j = bs * ((g + Z.of_nat i) / bs - (g + Z.of_nat j) / bs))%Z by lia.
    assert ((g + Z.of_nat i) / bs - (g + Z.of_nat j) / bs = 0)%Z by nia. nia.
  - rewrite map_length, seq_length. lia.
Qed.

(** ** The properties *)
Section Final.
Context {V D G : Type}.

Lemma pulls_seq_indep (next next' : G -> Z -> Z * G) ord ord' fuel ds bs (l : loader D G) (caller : list (report V) -> request V) n :
  pulls next ord fuel ds bs false l caller n = pulls next' ord' fuel ds bs false l caller n.
Proof. induction n as [|n IH]; cbn [pulls]; [reflexivity|]. rewrite IH. reflexivity. Qed.

Lemma returned_all (rs : list (report V)) j : (forall i r, nth_error rs i = Some r -> fst (fst r) <> None) -> j <= length rs -> returned (firstn j rs) = j.
Proof.
  intros H Hj. unfold returned. rewrite <- (firstn_length_le rs Hj) at 2. f_equal.
  assert (H' : forall r, In r (firstn j rs) -> fst (fst r) <> None).
  { intros r Hr. apply In_nth_error in Hr. destruct Hr as [i Hi]. apply (H i). rewrite <- (firstn_skipn j rs). rewrite nth_error_app1; [exact Hi|].
    apply nth_error_Some. congruence. }
  clear H. induction (firstn j rs) as [|r t IH]; cbn; [reflexivity|]. destruct (fst (fst r)) eqn:E; [|exfalso; apply (H' r (or_introl eq_refl)); exact E].
  f_equal. apply IH. intros r' Hr'. apply H'. right. exact Hr'.
Qed.

Lemma all_returned next (ds : dataset V D) item bs shuffle caller (rs : list (report V)) :
  never_throws ds -> (forall rs, accepted (q_X (caller rs)) bs (fst (ds_shape ds)) /\ accepted (q_y (caller rs)) bs (snd (ds_shape ds))) ->
  (forall j r, nth_error rs j = Some r -> report_ok (G := G) next ds item bs shuffle caller (firstn j rs) r) ->
  forall i r, nth_error rs i = Some r -> fst (fst r) <> None.
Proof.
  intros Hnt Hacc V0 i [[o X] y] Hi. specialize (V0 i _ Hi). cbn in *. destruct o; [discriminate|]. destruct V0 as (_ & _ & H).
  destruct (Hacc (firstn i rs)) as [A1 A2]. tauto.
Qed.

Lemma sequential_epochs (next : G -> Z -> Z * G) (ord : list Z -> list Z) (fuel : nat)
         (ds : dataset V D) (item : Z -> list V * list V) (bs : Z) (l : loader D G) (caller : list (report V) -> request V) (n : nat) :
  dataset_ok ds item -> never_throws ds -> config_ok ds bs -> l_pos l = 0%Z ->
  (forall rs, tensor_ok (q_X (caller rs)) /\ tensor_ok (q_y (caller rs)) /\
              accepted (q_X (caller rs)) bs (fst (ds_shape ds)) /\ accepted (q_y (caller rs)) bs (snd (ds_shape ds))) ->
  let full := Z.to_nat (ds_size ds / bs) in
  exists rs l', pulls next ord fuel ds bs false l caller n = Some (rs, l') /\ length rs = n /\
    forall j, j < n -> let c := j mod (full + 1) in
      exists X y, nth_error rs j = Some (Some (c <? full), X, y) /\
        (c < full -> holds_batch ds bs item (upfrom (Z.of_nat c * bs) bs) X y).
Proof.
  intros Hds Hnt Hcf Hl Hc. cbv zeta. rewrite (pulls_seq_indep next (fun g _ => (0%Z, g)) ord (fun u => u)).
  pose proof (pulls_spec (fun g _ => (0%Z, g)) (fun u => u) ds item bs Hds Hcf ltac:(cbn; intros; lia) (fun u => Permutation_refl u) fuel false l caller n Hl) as HS.
  destruct (pulls _ _ fuel ds bs false l caller n) as [[rs l']|]; [|destruct HS; [intros rs; destruct (Hc rs) as (? & ? & _); split; assumption|discriminate]].
  destruct HS as (L & _ & V0); [intros rs0; destruct (Hc rs0) as (? & ? & _); split; assumption|].
  exists rs, l'. split; [reflexivity|]. split; [exact L|]. intros j Hj.
  pose proof (all_returned _ ds item bs false caller rs Hnt ltac:(intros r0; destruct (Hc r0) as (_ & _ & ?); assumption) V0) as HA.
  destruct (nth_error rs j) as [[[o X] y]|] eqn:E; [|apply nth_error_None in E; lia].
  exists X, y. specialize (V0 j _ E). pose proof (HA j _ E) as Ho. cbn in Ho. unfold report_ok in V0. cbv beta zeta iota in V0. destruct o as [b|]; [|congruence].
  rewrite (returned_all rs j HA) in V0 by lia. unfold full_batches in V0. rewrite <- Nat.add_1_r in V0. destruct V0 as (_ & _ & Eb & HB).
  assert (Eb' : b = (j mod (Z.to_nat (ds_size ds / bs) + 1) <? Z.to_nat (ds_size ds / bs))) by (rewrite Eb; lia). rewrite <- Eb'.
  split; [reflexivity|]. intros Hlt. replace b with true in HB by lia. destruct HB as (idx & _ & _ & _ & Hs & _ & HB). rewrite (Hs eq_refl) in HB. exact HB.
Qed.

Lemma shuffled_batches (next : G -> Z -> Z * G) (ord : list Z -> list Z) (fuel : nat)
         (ds : dataset V D) (item : Z -> list V * list V) (bs : Z) (l : loader D G) (caller : list (report V) -> request V) (n : nat)
         (rs : list (report V)) (l' : loader D G) :
  (forall g ub, (0 <= ub)%Z -> (0 <= fst (next g ub) <= ub)%Z) -> (forall u, Permutation (ord u) u) ->
  dataset_ok ds item -> never_throws ds -> config_ok ds bs -> l_pos l = 0%Z ->
  (forall rs, tensor_ok (q_X (caller rs)) /\ tensor_ok (q_y (caller rs)) /\
              accepted (q_X (caller rs)) bs (fst (ds_shape ds)) /\ accepted (q_y (caller rs)) bs (snd (ds_shape ds))) ->
  pulls next ord fuel ds bs true l caller n = Some (rs, l') ->
  let full := Z.to_nat (ds_size ds / bs) in
  length rs = n /\
  forall j, j < n -> let c := j mod (full + 1) in
    exists X y, nth_error rs j = Some (Some (c <? full), X, y) /\
      (c < full -> exists idx, Z.of_nat (length idx) = bs /\ NoDup idx /\ (forall i, In i idx -> (0 <= i < ds_size ds)%Z) /\
                               holds_batch ds bs item idx X y).
Proof.
  intros Hn Ho Hds Hnt Hcf Hl Hc E0. cbv zeta.
  pose proof (pulls_spec next ord ds item bs Hds Hcf Hn Ho fuel true l caller n Hl) as HS. rewrite E0 in HS.
  destruct HS as (L & _ & V0); [intros rs0; destruct (Hc rs0) as (? & ? & _); split; assumption|].
  split; [exact L|]. intros j Hj.
  pose proof (all_returned _ ds item bs true caller rs Hnt ltac:(intros r0; destruct (Hc r0) as (_ & _ & ?); assumption) V0) as HA.
  destruct (nth_error rs j) as [[[o X] y]|] eqn:E; [|apply nth_error_None in E; lia].
  exists X, y. specialize (V0 j _ E). pose proof (HA j _ E) as Ho'. cbn in Ho'. unfold report_ok in V0. cbv beta zeta iota in V0. destruct o as [b|]; [|congruence].
  rewrite (returned_all rs j HA) in V0 by lia. unfold full_batches in V0. rewrite <- Nat.add_1_r in V0. destruct V0 as (_ & _ & Eb & HB).
  assert (Eb' : b = (j mod (Z.to_nat (ds_size ds / bs) + 1) <? Z.to_nat (ds_size ds / bs))) by (rewrite Eb; lia). rewrite <- Eb'.
  split; [reflexivity|]. intros Hlt. replace b with true in HB by lia. destruct HB as (idx & H1 & H2 & H3 & _ & _ & HB). exists idx. auto.
Qed.

Lemma productive (next : G -> Z -> Z * G) (ord : list Z -> list Z) (fuel : nat)
         (ds : dataset V D) (item : Z -> list V * list V) (bs : Z) (l : loader D G) (caller : list (report V) -> request V) (n : nat) :
  (forall g ub, (0 <= ub)%Z -> (0 <= fst (next g ub) <= ub)%Z) -> (forall u, Permutation (ord u) u) ->
  dataset_ok ds item -> config_ok ds bs -> l_pos l = 0%Z ->
  (forall rs, tensor_ok (q_X (caller rs)) /\ tensor_ok (q_y (caller rs))) ->
  (forall g, exists u, NoDup u /\ Z.of_nat (length u) = bs /\ incl u (draws next fuel (ds_size ds - 1) g)) ->
  exists rs l', pulls next ord fuel ds bs true l caller n = Some (rs, l') /\ length rs = n.
Proof.
  intros Hn Ho Hds Hcf Hl Hc Hp. pose proof (pulls_spec next ord ds item bs Hds Hcf Hn Ho fuel true l caller n Hl Hc) as HS.
  destruct (pulls next ord fuel ds bs true l caller n) as [[rs l']|]; [exists rs, l'; split; [reflexivity|apply HS]|].
  destruct HS as [_ [g Hg]]. exfalso. destruct (Hp g) as (u & H1 & H2 & H3). destruct Hcf as (Hb & _ & _ & Hi). destruct Hds as (Hsz & _).
  destruct (rand_terminates_distinct next fuel bs (ds_size ds - 1) g u) as (u' & g' & E); [unfold int_max, size_mod in *; lia|exact H1|exact H2|exact H3|]. congruence.
Qed.

Lemma fill_pos (ds : dataset V D) xs ys idx : forall (l : loader D G) X y k l' X' y',
  (forall l0 X0 y0, l_pos l0 = l_pos l -> k l0 X0 y0 = PExc l' X' y' -> l_pos l' = l_pos l) ->
  fill_batch ds xs ys idx l X y k = PExc l' X' y' -> l_pos l' = l_pos l.
Proof.
  induction idx as [|[i j] t IH]; intros l X y k l' X' y' Hk; cbn [fill_batch].
  - apply Hk. reflexivity.
  - destruct (tv_slice _ (v_data X) _); [|intros [= <- _ _]; reflexivity|discriminate].
    destruct (tv_slice _ (v_data y) _); [|intros [= <- _ _]; reflexivity|discriminate].
    destruct (ds_pull ds (l_ds l) j a a0) as [[d' [sx' sy']] ok]. destruct ok; [|intros [= <- _ _]; reflexivity].
    intros H. apply IH in H; [exact H|]. cbn. intros l0 X0 y0 E. apply Hk. exact E.
Qed.

Lemma exc_pos (next : G -> Z -> Z * G) (ord : list Z -> list Z) (fuel : nat)
         (ds : dataset V D) (bs : Z) (shuffle : bool) (l l' : loader D G) (X y X' y' : tv V) (jx jy : nat -> V) :
  pull next ord fuel ds bs shuffle l X y jx jy = PExc l' X' y' -> l_pos l' = l_pos l.
Proof.
  unfold pull. destruct (if tv_empty X then _ else _) as [X1| |]; [|intros [= <- _ _]; reflexivity|discriminate].
  destruct (if tv_empty y then _ else _) as [y1| |]; [|intros [= <- _ _]; reflexivity|discriminate].
  destruct (negb (shape_eqb (v_shape X1) _)); [intros [= <- _ _]; reflexivity|].
  destruct (negb (shape_eqb (v_shape y1) _)); [intros [= <- _ _]; reflexivity|].
  destruct (negb (fits_int _)); [discriminate|]. destruct (_ >? _)%Z; [discriminate|].
  destruct (calculateStrides (v_shape X1)) as [|xs ?]; [discriminate|]. destruct (calculateStrides (v_shape y1)) as [|ys ?]; [discriminate|].
  destruct shuffle.
  - destruct (_ || _)%bool; [discriminate|]. destruct (rand_loop _ _ _ _ _ _) as [[u g']|]; [|discriminate].
    destruct (_ <? _); [discriminate|]. intros H. apply fill_pos in H; [exact H|]. discriminate.
  - destruct (_ <? _); [discriminate|]. intros H. apply fill_pos in H; [exact H|]. discriminate.
Qed.

Lemma failures (next : G -> Z -> Z * G) (ord : list Z -> list Z) (fuel : nat)
         (ds : dataset V D) (item : Z -> list V * list V) (bs : Z) (l : loader D G) (caller : list (report V) -> request V) (n : nat) :
  dataset_ok ds item -> config_ok ds bs -> l_pos l = 0%Z ->
  (forall rs, tensor_ok (q_X (caller rs)) /\ tensor_ok (q_y (caller rs))) ->
  let full := Z.to_nat (ds_size ds / bs) in
  exists rs l', pulls next ord fuel ds bs false l caller n = Some (rs, l') /\ length rs = n /\
    forall j, j < n -> exists o X y, nth_error rs j = Some (o, X, y) /\
      let before := firstn j rs in
      let c := returned before mod (full + 1) in
      let X0 := q_X (caller before) in let y0 := q_y (caller before) in
      (v_data X0 = [] -> v_shape X = bs :: fst (ds_shape ds)) /\ (v_data y0 = [] -> v_shape y = bs :: snd (ds_shape ds)) /\
      match o with
      | None => ~ accepted X0 bs (fst (ds_shape ds)) \/ ~ accepted y0 bs (snd (ds_shape ds)) \/ ~ never_throws ds
      | Some b => accepted X0 bs (fst (ds_shape ds)) /\ accepted y0 bs (snd (ds_shape ds)) /\ b = (c <? full) /\
                  (b = true -> holds_batch ds bs item (upfrom (Z.of_nat c * bs) bs) X y)
      end.
Proof.
  intros Hds Hcf Hl Hc. cbv zeta. rewrite (pulls_seq_indep next (fun g _ => (0%Z, g)) ord (fun u => u)).
  pose proof (pulls_spec (fun g _ => (0%Z, g)) (fun u => u) ds item bs Hds Hcf ltac:(cbn; intros; lia) (fun u => Permutation_refl u) fuel false l caller n Hl Hc) as HS.
  destruct (pulls _ _ fuel ds bs false l caller n) as [[rs l']|]; [|destruct HS; discriminate].
  destruct HS as (L & _ & V0). exists rs, l'. split; [reflexivity|]. split; [exact L|]. intros j Hj.
  destruct (nth_error rs j) as [[[o X] y]|] eqn:E; [|apply nth_error_None in E; lia].
  exists o, X, y. split; [reflexivity|]. specialize (V0 j _ E). unfold report_ok in V0. cbv beta zeta iota in V0. unfold full_batches in V0. rewrite Nat.add_1_r. destruct o as [b|].
  - destruct V0 as (A1 & A2 & Eb & HB).
    assert (Eb' : b = (returned (firstn j rs) mod S (Z.to_nat (ds_size ds / bs)) <? Z.to_nat (ds_size ds / bs))) by (rewrite Eb; lia).
    destruct b.
    + destruct HB as (idx & _ & _ & _ & Hs & _ & HB). rewrite (Hs eq_refl) in HB. pose proof HB as (S1 & _ & S2 & _). auto 10.
    + destruct HB as [-> ->]. pose proof (prepared_shape bs (q_X (caller (firstn j rs))) (fst (ds_shape ds)) (q_jx (caller (firstn j rs)))) as [P1 _].
      pose proof (prepared_shape bs (q_y (caller (firstn j rs))) (snd (ds_shape ds)) (q_jy (caller (firstn j rs)))) as [P2 _].
      repeat split; auto; discriminate.
  - destruct V0 as ([A1 _] & [A2 _] & A3). auto.
Qed.

Lemma negative_batch (next : G -> Z -> Z * G) (ord : list Z -> list Z) (fuel : nat)
         (ds : dataset V D) (bs : Z) (shuffle : bool) (l : loader D G) (y : tv V) (jx jy : nat -> V) :
  (bs < 0)%Z -> pull next ord fuel ds bs shuffle l (mkTv [] []) y jx jy = PExc l (mkTv [] []) y.
Proof. intros H. unfold pull, makeShape, tv_allocate. cbn. replace (bs <? 0)%Z with true by lia. reflexivity. Qed.

Lemma int_prod_from_zero s : int_prod_from 0 s = Ok 0%Z.
Proof. induction s as [|d s IH]; cbn; [reflexivity|]. exact IH. Qed.

Lemma zero_batch (next : G -> Z -> Z * G) (ord : list Z -> list Z) (fuel : nat) (ds : dataset V D) (l : loader D G) (jx jy : nat -> V) :
  nonneg (fst (ds_shape ds)) -> nonneg (snd (ds_shape ds)) -> (0 <= l_pos l <= ds_size ds)%Z -> (l_pos l <= int_max)%Z ->
  pull next ord fuel ds 0 false l (mkTv [] []) (mkTv [] []) jx jy =
    PRet true l (mkTv (0%Z :: fst (ds_shape ds)) []) (mkTv (0%Z :: snd (ds_shape ds)) []).
Proof.
  intros Hx Hy Hp Hi. unfold pull, makeShape, tv_empty. cbn [v_data length Nat.eqb].
  assert (A : forall s j, nonneg s -> tv_allocate (V := V) (0%Z :: s) j = Ok (mkTv (0%Z :: s) [])).
  { intros s j Hs. unfold tv_allocate. rewrite no_negative by (constructor; [lia|exact Hs]). cbn [negb dw_assert bind].
    unfold int_prod. cbn [int_prod_from]. change (fits_int (1 * 0)) with true. cbn [Z.mul]. rewrite int_prod_from_zero. reflexivity. }
  rewrite !A by assumption. cbn [v_shape]. rewrite !(proj2 (shape_eqb_spec _ _) eq_refl). cbn [negb]. rewrite Z.add_0_r.
  replace (fits_int (l_pos l)) with true by (unfold fits_int, int_min; lia). cbn [negb].
  rewrite Z.mod_small by (unfold int_max, size_mod in *; lia). replace (l_pos l >? ds_size ds)%Z with false by lia.
  unfold calculateStrides. cbn [strides_loop]. destruct (strides_loop (fst (ds_shape ds))) as [st acc]. destruct (strides_loop (snd (ds_shape ds))) as [st2 acc2].
  cbn. rewrite Z.add_0_r. destruct l. reflexivity.
Qed.
End Final.

Lemma may_repeat {V D : Type} (ds : dataset V D) (item : Z -> list V * list V) (bs : Z) (d : D) (g : Z) (caller : list (report V) -> request V) :
  dataset_ok ds item -> never_throws ds -> config_ok ds bs -> (bs < ds_size ds)%Z ->
  (forall rs, tensor_ok (q_X (caller rs)) /\ tensor_ok (q_y (caller rs)) /\
              accepted (q_X (caller rs)) bs (fst (ds_shape ds)) /\ accepted (q_y (caller rs)) bs (snd (ds_shape ds))) ->
  exists next : Z -> Z -> Z * Z, (forall g ub, (0 <= ub)%Z -> (0 <= fst (next g ub) <= ub)%Z) /\
  forall n, exists rs l', pulls next (fun u => u) (Z.to_nat bs) ds bs true (mkLd 0 d g) caller n = Some (rs, l') /\ length rs = n /\
    forall j X y, nth_error rs j = Some (Some true, X, y) ->
      exists idx, Permutation idx (upfrom 0 bs) /\ holds_batch ds bs item idx X y.
Proof.
  intros Hds Hnt Hcf Hlt Hc. pose proof Hcf as (Hb & _ & _ & Hi).
  assert (Hn : forall g ub, (0 <= ub)%Z -> (0 <= fst (cyc bs g ub) <= ub)%Z).
  { intros g0 ub Hu. unfold cyc. cbn. pose proof (Z.mod_pos_bound g0 bs ltac:(lia)). lia. }
  exists (cyc bs). split; [exact Hn|]. intros n.
  pose proof (pulls_spec (cyc bs) (fun u => u) ds item bs Hds Hcf Hn (fun u => Permutation_refl u) (Z.to_nat bs) true (mkLd 0%Z d g) caller n eq_refl) as HS.
  destruct (pulls (cyc bs) (fun u => u) (Z.to_nat bs) ds bs true (mkLd 0%Z d g) caller n) as [[rs l']|].
  - destruct HS as (L & _ & V0); [intros r; destruct (Hc r) as (? & ? & _); split; assumption|]. exists rs, l'. split; [reflexivity|]. split; [exact L|].
    intros j X y E. specialize (V0 j _ E). cbn in V0. destruct V0 as (_ & _ & _ & idx & H1 & H2 & H3 & _ & H4 & H5). exists idx. split; [|exact H5].
    apply NoDup_Permutation_bis; [exact H2| |].
    + unfold upfrom. rewrite map_length, seq_length. lia.
    + intros v Hv. destruct (H4 eq_refl v Hv) as [g0 ->]. unfold cyc. cbn [fst]. pose proof (Z.mod_pos_bound g0 bs ltac:(lia)).
      unfold upfrom. apply in_map_iff. exists (Z.to_nat (g0 mod bs)). split; [lia|]. apply in_seq. lia.
  - exfalso. destruct HS as [_ [g0 Hg]]; [intros r; destruct (Hc r) as (? & ? & _); split; assumption|].
    destruct (cyc_terminates bs (ds_size ds - 1) g0) as (u & g' & E); [unfold int_max, size_mod in *; lia|lia|]. congruence.
Qed.
