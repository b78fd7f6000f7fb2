(** Proofs about the loss and the metrics. *)
From Coq Require Import Reals Lra R_Ifp.
From Verif Require Import Base BaseFacts Sums Deriv M_Im2col S_Im2col M_Kernels M_Conv M_Layers M_Loss S_Grad S_Partial S_Loss P_Kernels P_Vjp1 P_Vjp2 P_Vjp3 P_BN P_BN2 P_Partial P_Layers.
Open Scope R_scope.

Lemma map_res_all {A B} (f : A -> res B) (g : A -> B) l : (forall a, In a l -> f a = Ok (g a)) -> map_res f l = Ok (map g l).
Proof.
  induction l as [|a l IH]; intros H; cbn [map_res map]; [reflexivity|].
  rewrite (H a (or_introl eq_refl)). cbn [bind]. rewrite IH by (intros; apply H; right; assumption). reflexivity.
Qed.

(** The first failing element decides. *)
Lemma map_res_UB {A B} (f : A -> res B) (l : list A) a : In a l -> f a = UB -> (forall x, In x l -> f x <> Throw) -> map_res f l = UB.
Proof.
  induction l as [|x l IH]; intros Hin Ha HT; [destruct Hin|]. cbn [map_res].
  destruct (f x) eqn:Ex; cbn [bind].
  - destruct Hin as [->|Hin]; [congruence|]. rewrite IH; [reflexivity|exact Hin|exact Ha|intros; apply HT; right; assumption].
  - exfalso. apply (HT x (or_introl eq_refl) Ex).
  - reflexivity.
Qed.

Lemma Forall2_in_l {A B} (P : A -> B -> Prop) l bs : Forall2 P l bs -> forall a, In a l -> exists b, In b bs /\ P a b.
Proof.
  induction 1 as [|x y l bs Hxy _ IH]; intros a Ha; [destruct Ha|]. destruct Ha as [<-|Ha]; [exists y; split; [left; reflexivity|exact Hxy]|].
  destruct (IH a Ha) as (b & Hb & Pb). exists b. split; [right; exact Hb|exact Pb].
Qed.

Lemma truncR_nat x c : INR c <= x < INR c + 1 -> truncR x = Z.of_nat c.
Proof.
  intros [H1 H2]. pose proof (pos_INR c) as Hc. unfold truncR. destruct (Rlt_dec x 0); [lra|].
  destruct (base_Int_part x) as [H3 H4]. rewrite INR_IZR_INZ in *.
  assert (Int_part x < Z.of_nat c + 1)%Z by (apply lt_IZR; rewrite plus_IZR; lra).
  assert (Z.of_nat c < Int_part x + 1)%Z by (apply lt_IZR; rewrite plus_IZR; lra). lia.
Qed.

Lemma xsum_some (l : list R) : xsum (map Some l) = Some (lsum l).
Proof. induction l as [|a l IH]; cbn; [reflexivity|]. rewrite IH. reflexivity. Qed.

Lemma xsum_tab n f : xsum (tab n (fun i => Some (f i))) = Some (rsum n f).
Proof. unfold tab. rewrite <- map_map with (f := f) (g := Some). rewrite xsum_some. f_equal. symmetry. apply (rsum_lsum n f). Qed.

Section CE.
Variables (n m : nat) (pred target : ten).
Hypotheses (Hp : ten_ok [n; m] pred) (Ht : ten_ok [n; 1%nat] target).

Lemma ce_dims_ok : ce_dims pred target = Ok (n, m).
Proof.
  unfold ce_dims, dims2. rewrite (proj1 Hp), (proj1 Ht). cbn. rewrite Nat.eqb_refl. reflexivity.
Qed.
Lemma pred_len : length (tdat pred) = (n * m)%nat.
Proof. destruct Hp as [A B]. unfold twf in B. rewrite B, A. cbn. lia. Qed.
Lemma target_len : length (tdat target) = n.
Proof. destruct Ht as [A B]. unfold twf in B. rewrite B, A. cbn. lia. Qed.

Variables (z : nat -> Z).
Hypothesis Hz : forall i, (i < n)%nat -> truncR (tdat target).[i] = z i /\ fits_int (z i) = true.

Let idx (i : nat) : Z := (z i + Z.of_nat m * Z.of_nat i)%Z.

Lemma match_ok : match_target (tdat target) n m = Ok (tab n idx).
Proof.
  unfold match_target, tab. apply map_res_all. intros i Hi. apply in_seq in Hi.
  rewrite (rd_Ok _ _ 0) by (rewrite target_len; lia). cbn [bind]. unfold cast_int.
  destruct (Hz i ltac:(lia)) as [-> ->]. reflexivity.
Qed.

Hypothesis Hin : forall i, (i < n)%nat -> (0 <= idx i < Z.of_nat (n * m))%Z.
Let at_ i := Z.to_nat (idx i).

Lemma nll_ok (lg : list (option R)) v : (n * m <= length lg)%nat ->
  (forall i, (i < n)%nat -> nth (at_ i) lg None = Some (v i)) -> (0 < n)%nat ->
  nll_loss n m lg (tdat target) = Ok (Some (- rsum n v / INR n)).
Proof.
  intros Hl Hv Hn. unfold nll_loss. rewrite match_ok. cbn [bind].
  rewrite (map_res_all _ (fun k => nth (Z.to_nat k) lg None)).
  2:{ intros k Hk. unfold tab in Hk. apply in_map_iff in Hk. destruct Hk as (i & <- & Hi). apply in_seq in Hi.
      specialize (Hin i ltac:(lia)). destruct (Z.ltb_spec (idx i) (Z.of_nat (n * m))); [|lia]. apply rdz_Ok. lia. }
  cbn [bind]. replace (map (fun k => nth (Z.to_nat k) lg None) (tab n idx)) with (tab n (fun i => Some (v i))).
  2:{ unfold tab. rewrite map_map. apply map_ext_in. intros i Hi. apply in_seq in Hi. symmetry. apply Hv. lia. }
  rewrite xsum_tab. cbn [obind]. unfold xdiv. destruct (Req_EM_T (INR n) 0) as [H0|H0]; [|reflexivity].
  apply (INR_eq n 0) in H0. lia.
Qed.

Lemma ce_forward_gen E st : (0 < n)%nat -> ce_ok st -> (forall i, (i < n)%nat -> 0 < (tdat pred).[at_ i]) ->
  exists st', ce_forward E st pred target = Ok (st', Some (- rsum n (fun i => ln (tdat pred).[at_ i]) / INR n)) /\ ce_ok st' /\ ce_sh st' = [n; m].
Proof.
  intros Hn Hst Hpos. unfold ce_forward. rewrite ce_dims_ok. cbn [bind]. unfold emap.
  rewrite pred_len, target_len, !Nat.leb_refl. cbn [bind].
  set (st1 := if nshape_eqb (ce_sh st) (tsh pred) then st else mkCE (tsh pred) (tab (prodN (tsh pred)) (fun i => Some (e_junk E i)))).
  assert (H1 : ce_sh st1 = [n; m] /\ length (ce_dat st1) = (n * m)%nat).
  { subst st1. rewrite (proj1 Hp). unfold nshape_eqb. destruct (list_eqb Nat.eqb (ce_sh st) [n; m]) eqn:E1.
    - apply (list_eqb_spec Nat.eqb Nat.eqb_eq) in E1. split; [exact E1|]. destruct Hst as [H|H]; [congruence|]. rewrite H, E1. cbn. lia.
    - cbn [ce_sh ce_dat]. rewrite tab_length. cbn. split; [reflexivity|lia]. }
  destruct H1 as [Hs Hl]. unfold cpu_log, emap. rewrite pred_len, Hl, !Nat.leb_refl. cbn [bind].
  set (lg := tab (n * m) (fun i => xlog (tdat pred).[i]) ++ skipn (n * m) (ce_dat st1)).
  assert (Hlg : length lg = (n * m)%nat) by (subst lg; rewrite app_length, tab_length, skipn_length; lia).
  rewrite (nll_ok lg (fun i => ln (tdat pred).[at_ i])); [|lia| |exact Hn].
  - cbn [bind]. eexists. split; [reflexivity|]. split; [right|exact Hs]. cbn [ce_sh ce_dat]. rewrite Hs, Hlg. cbn. lia.
  - intros i Hi. specialize (Hin i Hi). unfold lg. rewrite app_nth1 by (rewrite tab_length; unfold at_; lia).
    rewrite nth_tab by (unfold at_; lia). unfold xlog. destruct (Rlt_dec 0 (tdat pred).[at_ i]) as [|H]; [reflexivity|].
    destruct (H (Hpos i Hi)).
Qed.

Lemma ce_writes l g : (forall k, In k l -> (0 <= k < Z.of_nat (n * m))%Z) -> length g = (n * m)%nat ->
  exists g', fold_res (ce_write n m (tdat pred)) l g = Ok g' /\ length g' = (n * m)%nat /\
    forall k, (k < n * m)%nat -> nth k g' None = if existsb (Z.eqb (Z.of_nat k)) l then xdiv (-1) (tdat pred).[k] else nth k g None.
Proof.
  revert g. induction l as [|a l IH]; intros g Hl Hg; cbn [fold_res existsb].
  - exists g. repeat split; auto.
  - specialize (Hl a (or_introl eq_refl)) as Ha. unfold ce_write at 1.
    destruct (Z.ltb_spec a (Z.of_nat (n * m))); [|lia].
    rewrite (rdz_Ok _ _ 0) by (rewrite pred_len; lia). cbn [bind].
    rewrite wrz_Ok by lia. cbn [bind].
    destruct (IH (upd g (Z.to_nat a) (xdiv (-1) (tdat pred).[Z.to_nat a]))) as (g' & F & L & V).
    + intros; apply Hl; right; assumption.
    + rewrite upd_length. exact Hg.
    + exists g'. split; [exact F|]. split; [exact L|]. intros k Hk. rewrite V by exact Hk.
      destruct (existsb (Z.eqb (Z.of_nat k)) l); [rewrite orb_true_r; reflexivity|]. rewrite orb_false_r.
      destruct (Z.eqb_spec (Z.of_nat k) a) as [<-|Hne].
      * rewrite Nat2Z.id. rewrite nth_upd_eq by lia. reflexivity.
      * rewrite nth_upd_neq by lia. reflexivity.
Qed.

Lemma ce_backward_gen go : (0 < n)%nat -> ten_ok [n; m] go -> (forall i, (i < n)%nat -> (tdat pred).[at_ i] <> 0) ->
  exists g, ce_backward pred target go = Ok (map Some g) /\ length g = (n * m)%nat /\
    forall k, (k < n * m)%nat -> g.[k] = if existsb (Z.eqb (Z.of_nat k)) (tab n idx) then -1 / (tdat pred).[k] / INR n else 0.
Proof.
  intros Hn Hgo Hnz. assert (Hlg : tot go = (n * m)%nat) by (destruct Hgo as [A B]; unfold twf in B; unfold tot; rewrite B, A; cbn; lia).
  assert (HN : INR n <> 0) by (intros H0; apply (INR_eq n 0) in H0; lia).
  unfold ce_backward. rewrite ce_dims_ok, (proj1 Hp), (proj1 Hgo). unfold nshape_eqb.
  rewrite (proj2 (list_eqb_spec Nat.eqb Nat.eqb_eq [n; m] [n; m]) eq_refl). cbn [length Nat.eqb dw_assert bind].
  unfold emap. rewrite pred_len, target_len. fold (tot go). rewrite Hlg, !Nat.leb_refl. cbn [bind]. rewrite match_ok. cbn [bind].
  destruct (ce_writes (tab n idx) (tab (n * m) (fun _ => Some 0))) as (g' & F & L & V).
  - intros k Hk. unfold tab in Hk. apply in_map_iff in Hk. destruct Hk as (i & <- & Hi). apply in_seq in Hi. apply Hin. lia.
  - apply tab_length.
  - rewrite F. cbn [bind].
    exists (tab (n * m) (fun k => if existsb (Z.eqb (Z.of_nat k)) (tab n idx) then -1 / (tdat pred).[k] / INR n else 0)).
    split; [|split; [apply tab_length|intros k Hk; apply nth_tab; exact Hk]].
    f_equal. apply list_ext with (d := None).
    + rewrite !map_length, tab_length. exact L.
    + intros k Hk. rewrite map_length, L in Hk.
      rewrite (nth_indep (map Some _) None (Some 0)) by (rewrite map_length, tab_length; exact Hk).
      rewrite (nth_indep (map _ g') None (obind None (fun v => xdiv v (INR n)))) by (rewrite map_length, L; exact Hk).
      rewrite (map_nth (fun x => obind x (fun v => xdiv v (INR n)))), map_nth, nth_tab by exact Hk. rewrite V by exact Hk.
      destruct (existsb (Z.eqb (Z.of_nat k)) (tab n idx)) eqn:Ex.
      * apply existsb_exists in Ex. destruct Ex as (z0 & Hz0 & Ez). apply Z.eqb_eq in Ez. subst z0.
        unfold tab in Hz0. apply in_map_iff in Hz0. destruct Hz0 as (i & Ei & Hi). apply in_seq in Hi.
        assert (Hk0 : (tdat pred).[k] <> 0) by (replace k with (at_ i) by (unfold at_; lia); apply Hnz; lia).
        unfold xdiv. destruct (Req_EM_T (tdat pred).[k] 0); [contradiction|]. cbn [obind]. destruct (Req_EM_T (INR n) 0); [contradiction|]. reflexivity.
      * rewrite nth_tab by exact Hk. cbn [obind]. unfold xdiv. destruct (Req_EM_T (INR n) 0); [contradiction|]. f_equal. unfold Rdiv. ring.
Qed.
End CE.

(** A label beyond the buffer. *)
Lemma ce_bad_label E st n m pred target go i : ten_ok [n; m] pred -> ten_ok [n; 1%nat] target -> ten_ok [n; m] go -> ce_ok st ->
  (i < n)%nat -> ~ (0 <= truncR (tdat target).[i] + Z.of_nat m * Z.of_nat i < Z.of_nat (n * m))%Z ->
  ce_forward E st pred target = UB /\ ce_backward pred target go = UB.
Proof.
  intros Hp Ht Hgo Hst Hi Hbad.
  set (f := fun i => t <- rd (tdat target) i ;; c <- cast_int t ;; Ok (c + Z.of_nat m * Z.of_nat i)%Z).
  assert (Hf : forall k, (k < n)%nat -> f k = UB \/ f k = Ok (truncR (tdat target).[k] + Z.of_nat m * Z.of_nat k)%Z).
  { intros k Hk. unfold f. rewrite (rd_Ok _ _ 0) by (rewrite (target_len n target Ht); lia). cbn [bind]. unfold cast_int.
    destruct (fits_int (truncR (tdat target).[k])); [right|left]; reflexivity. }
  assert (Hm : match_target (tdat target) n m = UB \/ exists l, match_target (tdat target) n m = Ok l /\ In (truncR (tdat target).[i] + Z.of_nat m * Z.of_nat i)%Z l).
  { unfold match_target. fold f. destruct (map_res f (seq 0 n)) as [l| |] eqn:El.
    - right. exists l. split; [reflexivity|]. pose proof (proj1 (map_res_Ok _ _ _) El) as F.
      destruct (Forall2_in_l _ _ _ F i) as (b & Hb & Eb); [apply in_seq; lia|].
      destruct (Hf i Hi) as [HU|HO]; [congruence|]. rewrite HO in Eb. injection Eb as <-. exact Hb.
    - exfalso. clear - El Hf. assert (forall k, In k (seq 0 n) -> f k <> Throw).
      { intros k Hk. apply in_seq in Hk. destruct (Hf k ltac:(lia)) as [-> | ->]; discriminate. }
      revert El H. generalize (seq 0 n). induction l as [|x l IH]; cbn [map_res]; [discriminate|]. intros El H.
      destruct (f x) eqn:Ex; cbn [bind] in El; [|destruct (H x (or_introl eq_refl) Ex)|discriminate].
      destruct (map_res f l); cbn [bind] in El; try discriminate. apply IH; [reflexivity|intros; apply H; right; assumption].
    - left. reflexivity. }
  split.
  - unfold ce_forward. rewrite (ce_dims_ok n m pred target Hp Ht). cbn [bind]. unfold emap.
    rewrite (pred_len n m pred Hp), (target_len n target Ht), !Nat.leb_refl. cbn [bind].
    set (st1 := if nshape_eqb (ce_sh st) (tsh pred) then st else mkCE (tsh pred) (tab (prodN (tsh pred)) (fun i => Some (e_junk E i)))).
    assert (H1 : length (ce_dat st1) = (n * m)%nat).
    { subst st1. rewrite (proj1 Hp). unfold nshape_eqb. destruct (list_eqb Nat.eqb (ce_sh st) [n; m]) eqn:E1.
      - apply (list_eqb_spec Nat.eqb Nat.eqb_eq) in E1. destruct Hst as [H|H]; [congruence|]. rewrite H, E1. cbn. lia.
      - cbn [ce_sh ce_dat]. rewrite tab_length. cbn. lia. }
    unfold cpu_log, emap. rewrite (pred_len n m pred Hp), H1, !Nat.leb_refl. cbn [bind]. unfold nll_loss.
    destruct Hm as [->|(l & -> & Hl)]; [reflexivity|]. cbn [bind].
    erewrite map_res_UB; [reflexivity|exact Hl| |].
    + cbn beta. match goal with |- (if (?a <? ?b)%Z then _ else _) = _ => destruct (Z.ltb_spec a b) end; [|reflexivity].
      unfold rdz. destruct (Z.ltb_spec (truncR (tdat target).[i] + Z.of_nat m * Z.of_nat i) 0); [reflexivity|lia].
    + intros x _. cbn beta. destruct (Z.ltb x (Z.of_nat (n * m))); [|discriminate]. unfold rdz. destruct (Z.ltb x 0); [discriminate|].
      unfold rd. destruct (nth_error _ _); discriminate.
  - unfold ce_backward. rewrite (ce_dims_ok n m pred target Hp Ht), (proj1 Hp), (proj1 Hgo). unfold nshape_eqb.
    rewrite (proj2 (list_eqb_spec Nat.eqb Nat.eqb_eq [n; m] [n; m]) eq_refl). cbn [length Nat.eqb dw_assert bind].
    unfold emap. rewrite (pred_len n m pred Hp), (target_len n target Ht).
    assert (Hlg : length (tdat go) = (n * m)%nat) by (destruct Hgo as [A B]; unfold twf in B; rewrite B, A; cbn; lia).
    rewrite Hlg, !Nat.leb_refl. cbn [bind]. destruct Hm as [->|(l & -> & Hl)]; [reflexivity|]. cbn [bind].
    assert (G : forall g, length g = (n * m)%nat -> fold_res (ce_write n m (tdat pred)) l g = UB); [|rewrite G; [reflexivity|unfold tot; rewrite tab_length; exact Hlg]].
    clear Hf f. induction l as [|x l IH]; [destruct Hl|]. intros g Hg. cbn [fold_res]. unfold ce_write at 1.
    destruct (Z.ltb_spec x (Z.of_nat (n * m))) as [Hx|Hx].
    + unfold rdz. destruct (Z.ltb_spec x 0) as [Hx0|Hx0]; [reflexivity|].
      rewrite (rd_Ok _ _ 0) by (rewrite (pred_len n m pred Hp); lia). cbn [bind]. rewrite wrz_Ok by lia. cbn [bind].
      destruct Hl as [->|Hl]; [lia|]. apply IH; [exact Hl|rewrite upd_length; exact Hg].
    + reflexivity.
Qed.

(** ** Valid labels *)
Lemma labels_z n m target c : labels n m target c ->
  (forall i, (i < n)%nat -> truncR (tdat target).[i] = Z.of_nat (c i) /\ fits_int (Z.of_nat (c i)) = true) /\
  (forall i, (i < n)%nat -> (0 <= Z.of_nat (c i) + Z.of_nat m * Z.of_nat i < Z.of_nat (n * m))%Z) /\
  (forall i, Z.to_nat (Z.of_nat (c i) + Z.of_nat m * Z.of_nat i) = (i * m + c i)%nat).
Proof.
  intros (Ht & Hm & H). split; [|split].
  - intros i Hi. destruct (H i Hi) as [Hc ->]. split; [apply truncR_nat; lra|]. unfold fits_int, int_min, int_max in *. lia.
  - intros i Hi. destruct (H i Hi) as [Hc _]. nia.
  - intros i. nia.
Qed.

Definition ce_value (n m : nat) (p : list R) (c : nat -> nat) : R := - rsum n (fun i => ln p.[i * m + c i]) / INR n.

Lemma ce_forward_spec E st n m pred target c : (0 < n)%nat -> ce_ok st -> ten_ok [n; m] pred -> labels n m target c ->
  (forall i, (i < n)%nat -> 0 < (tdat pred).[i * m + c i]) ->
  exists st', ce_forward E st pred target = Ok (st', Some (- rsum n (fun i => ln (tdat pred).[i * m + c i]) / INR n)) /\ ce_ok st' /\
    ((forall i, (i < n)%nat -> (tdat pred).[i * m + c i] <= 1) -> 0 <= - rsum n (fun i => ln (tdat pred).[i * m + c i]) / INR n).
Proof.
  intros Hn Hst Hp Hl Hpos. destruct (labels_z n m target c Hl) as (H1 & H2 & H3).
  destruct (ce_forward_gen n m pred target Hp (proj1 Hl) (fun i => Z.of_nat (c i)) H1 H2 E st Hn Hst) as (st' & F & K & _).
  - intros i Hi. rewrite H3. apply Hpos. exact Hi.
  - exists st'. split; [|split; [exact K|]].
    + rewrite F. do 3 f_equal. f_equal. f_equal. apply rsum_ext. intros i Hi. rewrite H3. reflexivity.
    + intros Hle. assert (0 < INR n) by (apply lt_0_INR; exact Hn).
      apply Rmult_le_pos; [|left; apply Rinv_0_lt_compat; assumption]. rewrite <- rsum_opp. apply rsum_nonneg. intros i Hi.
      specialize (Hpos i Hi). specialize (Hle i Hi). destruct (Req_dec (tdat pred).[i * m + c i] 1) as [->|Hne]; [rewrite ln_1; lra|].
      pose proof (ln_increasing _ 1 Hpos ltac:(lra)). rewrite ln_1 in *. lra.
Qed.

Lemma existsb_label n m c i j : (forall i, (i < n)%nat -> (c i < m)%nat) -> (i < n)%nat -> (j < m)%nat ->
  existsb (Z.eqb (Z.of_nat (i * m + j))) (tab n (fun i => Z.of_nat (c i) + Z.of_nat m * Z.of_nat i)%Z) = (j =? c i)%nat.
Proof.
  intros Hc Hi Hj. apply eq_iff_eq_true. rewrite existsb_exists, Nat.eqb_eq. split.
  - intros (z & Hz & Ez). apply Z.eqb_eq in Ez. subst z. unfold tab in Hz. apply in_map_iff in Hz. destruct Hz as (i' & E & Hi').
    apply in_seq in Hi'. assert (E' : (i' * m + c i' = i * m + j)%nat) by nia.
    destruct (divmod_nat i' m (c i') (Hc i' ltac:(lia))) as [D1 D2]. destruct (divmod_nat i m j Hj) as [D3 D4].
    rewrite E' in D1, D2. assert (i' = i) by congruence. subst i'. congruence.
  - intros ->. exists (Z.of_nat (c i) + Z.of_nat m * Z.of_nat i)%Z. split; [|apply Z.eqb_eq; nia].
    unfold tab. apply in_map_iff. exists i. split; [reflexivity|apply in_seq; lia].
Qed.

Lemma ce_backward_spec n m pred target go c : (0 < n)%nat -> ten_ok [n; m] pred -> labels n m target c -> ten_ok [n; m] go ->
  (forall i, (i < n)%nat -> 0 < (tdat pred).[i * m + c i]) ->
  exists g, ce_backward pred target go = Ok (map Some g) /\ length g = (n * m)%nat /\
    forall i j, (i < n)%nat -> (j < m)%nat -> g.[i * m + j] = if (j =? c i)%nat then -1 / (tdat pred).[i * m + j] / INR n else 0.
Proof.
  intros Hn Hp Hl Hgo Hpos. destruct (labels_z n m target c Hl) as (H1 & H2 & H3).
  destruct (ce_backward_gen n m pred target Hp (proj1 Hl) (fun i => Z.of_nat (c i)) H1 H2 go Hn Hgo) as (g & F & L & V).
  - intros i Hi. rewrite H3. specialize (Hpos i Hi). lra.
  - exists g. split; [exact F|]. split; [exact L|]. intros i j Hi Hj. rewrite V by (apply mult_lt; assumption).
    rewrite existsb_label; [reflexivity| |exact Hi|exact Hj]. intros k Hk. apply (proj2 (proj2 Hl) k Hk).
Qed.

Lemma ce_bump n m c (p : list R) i j : length p = (n * m)%nat -> (forall i, (i < n)%nat -> (c i < m)%nat) -> (i < n)%nat -> (j < m)%nat ->
  (forall i, (i < n)%nat -> 0 < p.[i * m + c i]) ->
  dl (fun s => ce_value n m (bump p (i * m + j) s) c) 0 (if (j =? c i)%nat then -1 / p.[i * m + j] / INR n else 0).
Proof.
  intros Lp Hc Hi Hj Hpos. assert (HN : INR n <> 0) by (apply not_0_INR; lia).
  unfold ce_value.
  apply dl_ext with (fun s => (- / INR n) * rsum n (fun i' => ln (bump p (i * m + j) s).[i' * m + c i'])).
  { intros s. unfold Rdiv. ring. }
  eapply dl_eq.
  - apply dl_scal. apply dl_rsum with (a := fun i' => / p.[i' * m + c i'] * ind1 (i * m + j) (i' * m + c i')).
    intros i' Hi'. specialize (Hc i' Hi') as Hc'.
    pose proof (dl_bump_in p (i * m + j) (i' * m + c i')) as D. specialize (D ltac:(rewrite Lp; apply mult_lt; assumption)).
    pose proof (dl_ln _ _ _ D) as D2. cbn beta in D2. rewrite bump_0 in D2. apply D2. apply Hpos. exact Hi'.
  - rewrite (rsum_single n i); [|exact Hi|].
    + unfold ind1. destruct (Nat.eqb_spec j (c i)) as [->|Hne].
      * rewrite Nat.eqb_refl. field. split; [|exact HN]. specialize (Hpos i Hi). lra.
      * destruct (Nat.eqb_spec (i * m + j) (i * m + c i)); [lia|]. ring.
    + intros i' Hi' Hne. unfold ind1. destruct (Nat.eqb_spec (i * m + j) (i' * m + c i')) as [E|E]; [|ring]. exfalso.
      destruct (divmod_nat i' m (c i') (Hc i' Hi')) as [D1 D2]. destruct (divmod_nat i m j Hj) as [D3 D4]. rewrite <- E in D1. congruence.
Qed.

(** The gradient is the partial derivative of the value returned by forward. *)
Lemma ce_gradient E st n m pred target go c : (0 < n)%nat -> ce_ok st -> ten_ok [n; m] pred -> labels n m target c -> ten_ok [n; m] go ->
  (forall i, (i < n)%nat -> 0 < (tdat pred).[i * m + c i]) ->
  exists g, ce_backward pred target go = Ok (map Some g) /\ length g = (n * m)%nat /\
    forall k, (k < n * m)%nat -> exists loss : R -> R,
      (exists e, 0 < e /\ forall s, Rabs s < e ->
         exists st', ce_forward E st (set_dat pred (bump (tdat pred) k s)) target = Ok (st', Some (loss s))) /\
      derivable_pt_lim loss 0 g.[k].
Proof.
  intros Hn Hst Hp Hl Hgo Hpos. destruct (ce_backward_spec n m pred target go c Hn Hp Hl Hgo Hpos) as (g & F & L & V).
  exists g. split; [exact F|]. split; [exact L|]. intros k Hk.
  assert (Hm : (0 < m)%nat) by nia.
  assert (Hk' : k = (k / m * m + k mod m)%nat) by (rewrite (Nat.div_mod k m) at 1 by lia; lia).
  set (i := (k / m)%nat) in *. set (j := (k mod m)%nat) in *.
  assert (Hj : (j < m)%nat) by (apply Nat.mod_upper_bound; lia).
  assert (Hi : (i < n)%nat) by (apply Nat.div_lt_upper_bound; lia).
  rewrite Hk'. rewrite (V i j Hi Hj).
  assert (Hc : forall i, (i < n)%nat -> (c i < m)%nat) by (intros; apply (proj2 (proj2 Hl)); assumption).
  pose proof (pred_len n m pred Hp) as Lp.
  exists (fun s => ce_value n m (bump (tdat pred) (i * m + j) s) c). split.
  - destruct (Nat.eq_dec j (c i)) as [->|Hne].
    + exists ((tdat pred).[i * m + c i] / 2). specialize (Hpos i Hi) as H0. split; [lra|]. intros s Hs.
      assert (Hp' : ten_ok [n; m] (set_dat pred (bump (tdat pred) (i * m + c i) s))).
      { destruct Hp as [A B]. split; [exact A|]. unfold twf, set_dat. cbn. rewrite bump_length. exact B. }
      destruct (ce_forward_spec E st n m _ target c Hn Hst Hp' Hl) as (st' & F' & _).
      * intros i' Hi'. cbn [set_dat tdat]. unfold bump. rewrite nth_upd. destruct (Nat.eqb (i * m + c i) (i' * m + c i') && _)%bool; [|apply Hpos; exact Hi'].
        apply Rabs_def2 in Hs. lra.
      * exists st'. exact F'.
    + exists 1. split; [lra|]. intros s _.
      assert (Hp' : ten_ok [n; m] (set_dat pred (bump (tdat pred) (i * m + j) s))).
      { destruct Hp as [A B]. split; [exact A|]. unfold twf, set_dat. cbn. rewrite bump_length. exact B. }
      destruct (ce_forward_spec E st n m _ target c Hn Hst Hp' Hl) as (st' & F' & _).
      * intros i' Hi'. cbn [set_dat tdat]. unfold bump. rewrite nth_upd_neq; [apply Hpos; exact Hi'|].
        intros Eq. destruct (divmod_nat i' m (c i') (Hc i' Hi')) as [D1 D2]. destruct (divmod_nat i m j Hj) as [D3 D4].
        rewrite <- Eq in D1, D2. assert (i = i') by congruence. subst i'. congruence.
      * exists st'. exact F'.
  - apply ce_bump; assumption.
Qed.

(** ** Softmax followed by the loss *)
Lemma ln_softmax m X i j : (0 < m)%nat -> ln (softmax_val m X i j) = X.[i * m + j] - ln (rsum m (fun k => exp X.[i * m + k])).
Proof.
  intros Hm. pose proof (exp_sum_pos m (fun k => X.[i * m + k]) Hm) as Hp. cbn beta in Hp. unfold softmax_val, Rdiv.
  rewrite ln_mult; [|apply exp_pos|apply Rinv_0_lt_compat; exact Hp]. rewrite ln_exp, ln_Rinv by exact Hp. ring.
Qed.

Lemma logit_derivative n m c (X : list R) i j : length X = (n * m)%nat -> (forall i, (i < n)%nat -> (c i < m)%nat) -> (i < n)%nat -> (j < m)%nat ->
  dl (fun s => - rsum n (fun i' => ln (softmax_val m (bump X (i * m + j) s) i' (c i'))) / INR n) 0
     ((softmax_val m X i j - (if (j =? c i)%nat then 1 else 0)) / INR n).
Proof.
  intros LX Hc Hi Hj. assert (Hm : (0 < m)%nat) by lia.
  set (Y := fun s => bump X (i * m + j) s).
  apply dl_ext with (fun s => (- / INR n) * rsum n (fun i' => (Y s).[i' * m + c i'] - ln (rsum m (fun k => exp (Y s).[i' * m + k])))).
  { intros s. unfold Rdiv. rewrite (rsum_ext n (fun i' => ln _) (fun i' => (Y s).[i' * m + c i'] - ln (rsum m (fun k => exp (Y s).[i' * m + k])))); [ring|].
    intros i' Hi'. apply ln_softmax. exact Hm. }
  assert (HY0 : Y 0 = X) by apply bump_0.
  eapply dl_eq.
  - apply dl_scal. apply dl_rsum with (a := fun i' => ind1 (i * m + j) (i' * m + c i') - / rsum m (fun k => exp X.[i' * m + k]) * rsum m (fun k => exp X.[i' * m + k] * ind1 (i * m + j) (i' * m + k))).
    intros i' Hi'. apply dl_minus.
    + apply dl_bump_in. rewrite LX. apply mult_lt; [exact Hi'|apply Hc; exact Hi'].
    + eapply dl_eq; [apply dl_ln with (a := rsum m (fun k => exp X.[i' * m + k] * ind1 (i * m + j) (i' * m + k)))|].
      * apply dl_rsum. intros k Hk. eapply dl_eq; [apply dl_exp; apply dl_bump_in; rewrite LX; apply mult_lt; assumption|].
        cbn beta. rewrite HY0. reflexivity.
      * apply (exp_sum_pos m (fun k => (Y 0).[i' * m + k]) Hm).
      * cbn beta. rewrite HY0. reflexivity.
  - rewrite (rsum_single n i); [|exact Hi|].
    + rewrite (rsum_single m j (fun k => exp X.[i * m + k] * ind1 (i * m + j) (i * m + k))); [|exact Hj|].
      * replace (ind1 (i * m + j) (i * m + j)) with 1 by (unfold ind1; rewrite Nat.eqb_refl; reflexivity). unfold ind1, softmax_val.
        replace (i * m + j =? i * m + c i)%nat with (j =? c i)%nat by (destruct (Nat.eqb_spec j (c i)), (Nat.eqb_spec (i * m + j) (i * m + c i)); try reflexivity; lia).
        unfold Rdiv. ring.
      * intros k Hk Hne. unfold ind1. destruct (Nat.eqb_spec (i * m + j) (i * m + k)); [lia|]. ring.
    + intros i' Hi' Hne.
      assert (Z : forall k, (k < m)%nat -> ind1 (i * m + j) (i' * m + k) = 0).
      { intros k Hk. unfold ind1. destruct (Nat.eqb_spec (i * m + j) (i' * m + k)) as [Eq|]; [|reflexivity]. exfalso.
        destruct (divmod_nat i' m k Hk) as [D1 _]. destruct (divmod_nat i m j Hj) as [D3 _]. rewrite <- Eq in D1. congruence. }
      rewrite Z by (apply Hc; exact Hi'). rewrite (rsum_zero m (fun k => exp X.[i' * m + k] * ind1 (i * m + j) (i' * m + k))); [ring|]. intros k Hk. rewrite Z by exact Hk. ring.
Qed.

Lemma ce_softmax E E2 st n m x o go target c : (0 < n)%nat -> ce_ok st -> ten_ok [n; m] x -> ten_ok [n; m] o -> ten_ok [n; m] go -> labels n m target c ->
  exists p g, lforward E LSoftmax [x] [o] = Ok (LSoftmax, p) /\ ce_backward p target go = Ok (map Some g) /\
    forall gm kg ko gi, ten_ok [n; m] gi -> nth_error gm kg = Some gi -> nth_error gm ko = Some (mkT [n; m] g) ->
    exists gi', lbackward E2 LSoftmax [x] [p] gm [kg] [ko] = Ok (LSoftmax, upd gm kg gi') /\
      forall i j, (i < n)%nat -> (j < m)%nat ->
        (tdat gi').[i * m + j] = (tdat gi).[i * m + j] + ((tdat p).[i * m + j] - (if (j =? c i)%nat then 1 else 0)) / INR n /\
        exists loss : R -> R,
          (forall s, exists p' st', lforward E LSoftmax [set_dat x (bump (tdat x) (i * m + j) s)] [o] = Ok (LSoftmax, p') /\
                                    ce_forward E st p' target = Ok (st', Some (loss s))) /\
          derivable_pt_lim loss 0 ((tdat gi').[i * m + j] - (tdat gi).[i * m + j]).
Proof.
  intros Hn Hst Hx Ho Hgo Hl.
  assert (Hm : (0 < m)%nat) by (pose proof (proj2 (proj2 Hl) O Hn); lia).
  assert (Hc : forall i, (i < n)%nat -> (c i < m)%nat) by (intros; apply (proj2 (proj2 Hl)); assumption).
  assert (HN : INR n <> 0) by (apply not_0_INR; lia).
  destruct (softmax_spec E n m x o Hm Hx Ho) as (p & F & Hp & V).
  destruct (ce_backward_spec n m p target go c Hn Hp Hl Hgo) as (g & B & L & G).
  { intros i Hi. rewrite V by auto. apply softmax_pos. exact Hm. }
  exists p, g. split; [exact F|]. split; [exact B|]. intros gm kg ko gi Hgi Gk Gout.
  pose proof (ten_ok_len _ _ Hgi) as Lgi. pose proof (ten_ok_len _ _ Hp) as Lp. rewrite prodN2 in *.
  eexists. split.
  - cbn [lbackward]. mred. rewrite (nth_error_rd _ _ _ Gout). mred. rewrite (proj1 Hp). mred.
    erewrite on_grad_Ok; [reflexivity|exact Gk|]. mred. rewrite (proj1 Hgi). mred.
    unfold softmax_input_grad. rewrite !emap_Ok by lia. rewrite !same_refl. cbn [bind]. reflexivity.
  - intros i j Hi Hj. cbn [tdat set_dat]. rewrite put2_full by exact Lgi. rewrite nth_tab by (apply mult_lt; assumption).
    destruct (divmod_nat i m j Hj) as [-> ->]. unfold el.
    assert (HK : rsum m (fun k => g.[i * m + k] * (tdat p).[i * m + k]) = - / INR n).
    { rewrite (rsum_single m (c i)).
      - rewrite G by auto. rewrite Nat.eqb_refl. rewrite V by auto. pose proof (softmax_pos m (tdat x) i (c i) Hm). field. split; [exact HN|lra].
      - auto.
      - intros k Hk Hne. rewrite G by auto. destruct (Nat.eqb_spec k (c i)); [contradiction|]. ring. }
    rewrite HK.
    assert (Hval : (tdat p).[i * m + j] * (g.[i * m + j] - - / INR n) = ((tdat p).[i * m + j] - (if (j =? c i)%nat then 1 else 0)) / INR n).
    { rewrite G by auto. rewrite V by auto. pose proof (softmax_pos m (tdat x) i j Hm). destruct (j =? c i)%nat; field; try exact HN. split; [exact HN|lra]. }
    rewrite Hval. split; [reflexivity|].
    exists (fun s => - rsum n (fun i' => ln (softmax_val m (bump (tdat x) (i * m + j) s) i' (c i'))) / INR n). split.
    + intros s. assert (Hx' : ten_ok [n; m] (set_dat x (bump (tdat x) (i * m + j) s))).
      { destruct Hx as [A1 B1]. split; [exact A1|]. unfold twf, set_dat. cbn. rewrite bump_length. exact B1. }
      destruct (softmax_spec E n m _ o Hm Hx' Ho) as (p' & F' & Hp' & V'). cbn [set_dat tdat] in V'.
      destruct (ce_forward_spec E st n m p' target c Hn Hst Hp' Hl) as (st' & F2 & _).
      { intros i' Hi'. rewrite V' by auto. apply softmax_pos. exact Hm. }
      exists p', st'. split; [exact F'|]. rewrite F2. do 3 f_equal. f_equal. f_equal. apply rsum_ext. intros i' Hi'. rewrite V' by auto. reflexivity.
    + eapply dl_eq; [apply logit_derivative; [|exact Hc|exact Hi|exact Hj]|].
      * pose proof (ten_ok_len _ _ Hx) as Lx. rewrite prodN2 in Lx. exact Lx.
      * rewrite V by auto. ring.
Qed.

(** ** Accuracy *)
Lemma forr_count n (b : nat -> bool) (body : nat -> R -> res R) :
  (forall i a, (i < n)%nat -> body i a = Ok (add_bool a (b i))) ->
  forr n body 0 = Ok (INR (length (filter b (seq 0 n)))).
Proof.
  induction n as [|n IH]; intros H; [reflexivity|]. cbn [forr]. rewrite IH by (intros; apply H; lia). cbn [bind].
  rewrite H by lia. rewrite seq_S, filter_app, app_length, plus_INR. cbn [plus filter]. unfold add_bool.
  destruct (b n); cbn [length INR]; f_equal; ring.
Qed.

Lemma share_count n (b : nat -> bool) P : (0 < n)%nat -> (forall i, (i < n)%nat -> b i = true <-> P i) ->
  share n P (INR (length (filter b (seq 0 n))) / INR n) /\ 0 <= INR (length (filter b (seq 0 n))) / INR n <= 1.
Proof.
  intros Hn Hb. split.
  - exists (filter b (seq 0 n)). split; [apply NoDup_filter; apply seq_NoDup|]. split; [|reflexivity].
    intros i. rewrite filter_In, in_seq. split; [intros [H1 H2]|intros [H1 H2]].
    + split; [lia|]. apply Hb; [lia|exact H2].
    + split; [lia|]. apply Hb; assumption.
  - assert (0 < INR n) by (apply lt_0_INR; exact Hn). assert (H1 : (length (filter b (seq 0 n)) <= n)%nat).
    { rewrite <- (seq_length n 0) at 2. generalize (seq 0 n). induction l as [|a l IH]; cbn; [lia|]. destruct (b a); cbn; lia. }
    apply le_INR in H1. pose proof (pos_INR (length (filter b (seq 0 n)))). split.
    + apply Rmult_le_pos; [assumption|left; apply Rinv_0_lt_compat; assumption].
    + apply Rmult_le_reg_r with (INR n); [assumption|]. unfold Rdiv. rewrite Rmult_assoc, Rinv_l by lra. lra.
Qed.

Lemma reqb_true x y : reqb x y = true <-> x = y.
Proof. unfold reqb. destruct (Req_EM_T x y); split; congruence. Qed.

Definition acc_value (n : nat) (b : nat -> bool) : R := INR (length (filter b (seq 0 n))) / INR n.

Lemma accuracy_val E n m p y : (0 < n)%nat -> (0 < m)%nat -> ten_ok [n; m] p -> tot y = n ->
  accuracy E p y = Ok (Some (acc_value n (fun i => reqb (INR (e_amax E m (fun k => (tdat p).[i * m + k]))) (tdat y).[i]))).
Proof.
  intros Hn Hm Hp Hy. pose proof (ten_ok_len _ _ Hp) as Lp. rewrite prodN2 in Lp.
  unfold accuracy, dims2. rewrite (proj1 Hp). cbn [length Nat.eqb dw_assert bind rd nth_error]. rewrite Hy, Nat.eqb_refl. cbn [dw_assert bind].
  unfold emap. rewrite Lp. unfold tot in Hy. rewrite Hy, !Nat.leb_refl. cbn [bind].
  erewrite (forr_count n); [cbn [bind]|].
  - unfold xdiv. destruct (Req_EM_T (INR n) 0) as [H|H]; [apply (not_0_INR n) in H; [destruct H|lia]|reflexivity].
  - intros i a Hi. unfold row_argmax. destruct (Nat.eqb_spec m 0); [lia|]. cbn [bind]. rewrite (rd_Ok _ _ 0) by lia. reflexivity.
Qed.

Lemma onehot_val E n m p y : (0 < n)%nat -> (0 < m)%nat -> ten_ok [n; m] p -> ten_ok [n; m] y ->
  accuracy_onehot E p y = Ok (Some (acc_value n (fun i => e_amax E m (fun k => (tdat p).[i * m + k]) =? e_amax E m (fun k => (tdat y).[i * m + k]))%nat)).
Proof.
  intros Hn Hm Hp Hy. pose proof (ten_ok_len _ _ Hp) as Lp. pose proof (ten_ok_len _ _ Hy) as Ly. rewrite prodN2 in *.
  unfold accuracy_onehot, dims2. rewrite (proj1 Hp), (proj1 Hy). unfold nshape_eqb.
  rewrite (proj2 (list_eqb_spec Nat.eqb Nat.eqb_eq [n; m] [n; m]) eq_refl). cbn [length Nat.eqb dw_assert bind rd nth_error].
  unfold emap. rewrite Lp, Ly, !Nat.leb_refl. cbn [bind].
  erewrite (forr_count n); [cbn [bind]|].
  - unfold xdiv. destruct (Req_EM_T (INR n) 0) as [H|H]; [apply (not_0_INR n) in H; [destruct H|lia]|reflexivity].
  - intros i a Hi. unfold row_argmax. destruct (Nat.eqb_spec m 0); [lia|]. reflexivity.
Qed.

Lemma accuracy_spec E n m p y : is_argmax (e_amax E) -> (0 < n)%nat -> (0 < m)%nat -> ten_ok [n; m] p -> tot y = n ->
  exists col v, accuracy E p y = Ok (Some v) /\ (forall i, (i < n)%nat -> max_col m (tdat p) i (col i)) /\
    share n (fun i => (tdat y).[i] = INR (col i)) v /\ 0 <= v <= 1.
Proof.
  intros Ham Hn Hm Hp Hy. exists (fun i => e_amax E m (fun k => (tdat p).[i * m + k])). eexists. split; [apply (accuracy_val E n m); assumption|].
  split.
  - intros i Hi. destruct (Ham m (fun k => (tdat p).[i * m + k]) Hm) as [H1 H2]. split; assumption.
  - apply share_count; [exact Hn|]. intros i Hi. rewrite reqb_true. split; congruence.
Qed.

Lemma onehot_spec E n m p y : is_argmax (e_amax E) -> (0 < n)%nat -> (0 < m)%nat -> ten_ok [n; m] p -> ten_ok [n; m] y ->
  exists col lab v, accuracy_onehot E p y = Ok (Some v) /\
    (forall i, (i < n)%nat -> max_col m (tdat p) i (col i) /\ max_col m (tdat y) i (lab i)) /\
    share n (fun i => col i = lab i) v /\ 0 <= v <= 1.
Proof.
  intros Ham Hn Hm Hp Hy. exists (fun i => e_amax E m (fun k => (tdat p).[i * m + k])), (fun i => e_amax E m (fun k => (tdat y).[i * m + k])).
  eexists. split; [apply (onehot_val E n m); assumption|]. split.
  - intros i Hi. destruct (Ham m (fun k => (tdat p).[i * m + k]) Hm) as [H1 H2]. destruct (Ham m (fun k => (tdat y).[i * m + k]) Hm) as [H3 H4].
    split; split; assumption.
  - apply share_count; [exact Hn|]. intros i Hi. apply Nat.eqb_eq.
Qed.

Lemma filter_map_len {A B} (f : A -> B) b l : length (filter b (map f l)) = length (filter (fun x => b (f x)) l).
Proof. induction l as [|a l IH]; cbn; [reflexivity|]. destruct (b (f a)); cbn; rewrite IH; reflexivity. Qed.
Lemma filter_perm_len {A} (b : A -> bool) l l' : Permutation l l' -> length (filter b l) = length (filter b l').
Proof. induction 1; cbn; repeat match goal with |- context [b ?x] => destruct (b x) end; cbn; congruence. Qed.
Lemma seq_map_nth (l : list nat) : map (fun i => nth i l O) (seq 0 (length l)) = l.
Proof. change (tab (length l) (fun i => nth i l O) = l). apply tab_nth. Qed.

Lemma acc_value_perm n b b' sigma : Permutation sigma (seq 0 n) -> (forall i, (i < n)%nat -> b' i = b (nth i sigma O)) -> acc_value n b' = acc_value n b.
Proof.
  intros Hs H. unfold acc_value. f_equal. f_equal. assert (Ls : length sigma = n) by (rewrite (Permutation_length Hs); apply seq_length).
  rewrite <- (filter_perm_len b sigma (seq 0 n) Hs). rewrite <- (seq_map_nth sigma) at 1. rewrite Ls, filter_map_len.
  f_equal. apply filter_ext_in. intros i Hi. apply in_seq in Hi. apply H. lia.
Qed.

Lemma accuracy_permutation E n m p y p' y' sigma : am_ext (e_amax E) -> (0 < n)%nat -> (0 < m)%nat ->
  ten_ok [n; m] p -> ten_ok [n; m] p' -> tot y = n -> tot y' = n -> Permutation sigma (seq 0 n) ->
  (forall i k, (i < n)%nat -> (k < m)%nat -> (tdat p').[i * m + k] = (tdat p).[nth i sigma O * m + k]) ->
  (forall i, (i < n)%nat -> (tdat y').[i] = (tdat y).[nth i sigma O]) ->
  accuracy E p' y' = accuracy E p y.
Proof.
  intros Hext Hn Hm Hp Hp' Hy Hy' Hs H1 H2. rewrite !(accuracy_val E n m) by assumption. do 2 f_equal.
  apply acc_value_perm with sigma; [exact Hs|]. intros i Hi. rewrite H2 by exact Hi. f_equal. f_equal. apply Hext. intros k Hk. apply H1; assumption.
Qed.

Lemma onehot_permutation E n m p y p' y' sigma : am_ext (e_amax E) -> (0 < n)%nat -> (0 < m)%nat ->
  ten_ok [n; m] p -> ten_ok [n; m] p' -> ten_ok [n; m] y -> ten_ok [n; m] y' -> Permutation sigma (seq 0 n) ->
  (forall i k, (i < n)%nat -> (k < m)%nat -> (tdat p').[i * m + k] = (tdat p).[nth i sigma O * m + k]) ->
  (forall i k, (i < n)%nat -> (k < m)%nat -> (tdat y').[i * m + k] = (tdat y).[nth i sigma O * m + k]) ->
  accuracy_onehot E p' y' = accuracy_onehot E p y.
Proof.
  intros Hext Hn Hm Hp Hp' Hy Hy' Hs H1 H2. rewrite !(onehot_val E n m) by assumption. do 2 f_equal.
  apply acc_value_perm with sigma; [exact Hs|]. intros i Hi. f_equal; apply Hext; intros k Hk; auto.
Qed.

Lemma accuracy_agree E n m p y yh c : is_argmax (e_amax E) -> (0 < n)%nat -> (0 < m)%nat -> ten_ok [n; m] p -> tot y = n -> ten_ok [n; m] yh ->
  (forall i, (i < n)%nat -> (c i < m)%nat /\ (tdat y).[i] = INR (c i)) ->
  (forall i k, (i < n)%nat -> (k < m)%nat -> (tdat yh).[i * m + k] = if (k =? c i)%nat then 1 else 0) ->
  accuracy_onehot E p yh = accuracy E p y.
Proof.
  intros Ham Hn Hm Hp Hy Hyh Hc H1. rewrite (onehot_val E n m), (accuracy_val E n m) by assumption. do 2 f_equal. unfold acc_value. do 3 f_equal.
  apply filter_ext_in. intros i Hi. apply in_seq in Hi. destruct (Hc i ltac:(lia)) as [Hci ->].
  assert (Hl : e_amax E m (fun k => (tdat yh).[i * m + k]) = c i).
  { destruct (Ham m (fun k => (tdat yh).[i * m + k]) Hm) as [H2 H3]. specialize (H3 (c i) Hci). cbn beta in H3.
    rewrite !H1 in H3 by (auto; lia). rewrite Nat.eqb_refl in H3. destruct (Nat.eqb_spec (e_amax E m (fun k => (tdat yh).[i * m + k])) (c i)); [assumption|lra]. }
  rewrite Hl. set (a := e_amax E m _). destruct (Nat.eqb_spec a (c i)) as [->|Hne].
  - symmetry. apply reqb_true. reflexivity.
  - symmetry. apply not_true_iff_false. rewrite reqb_true. intros Heq. apply INR_eq in Heq. contradiction.
Qed.

Lemma accuracy_throws E p y : twf p -> (accuracy E p y = Throw <-> length (tsh p) <> 2%nat \/ tot y <> nth 0 (tsh p) O).
Proof.
  intros Wp. unfold accuracy. destruct (Nat.eqb_spec (length (tsh p)) 2) as [H2|H2]; cbn [dw_assert bind]; [|tauto].
  destruct (tsh p) as [|n [|m [|? ?]]] eqn:Sp; try discriminate H2. unfold dims2. rewrite Sp. cbn [rd nth_error bind nth].
  destruct (Nat.eqb_spec (tot y) n) as [Hy|Hy]; cbn [dw_assert bind]; [|tauto].
  split; [|intros [H|H]; congruence]. intros H. exfalso. unfold emap in H. unfold twf in Wp. rewrite Sp, prodN2 in Wp. rewrite Wp in H.
  unfold tot in Hy. rewrite Hy, !Nat.leb_refl in H. cbn [bind] in H.
  match type of H with bind ?f _ = Throw => assert (Hf : f <> Throw); [|destruct f; cbn in H; try discriminate; congruence] end.
  assert (G : forall k, (k <= n)%nat -> forr k (fun i acc => c <- row_argmax E (tdat p) m i ;; label <- rd (tdat y) i ;; Ok (add_bool acc (reqb (INR c) label))) 0 <> Throw).
  { induction k as [|k IH]; intros Hk; cbn [forr]; [discriminate|]. specialize (IH ltac:(lia)). destruct (forr k _ 0); cbn [bind]; [|congruence|discriminate].
    unfold row_argmax. destruct (m =? 0)%nat; cbn [bind]; [discriminate|]. rewrite (rd_Ok _ _ 0) by lia. discriminate. }
  apply G. lia.
Qed.

Lemma onehot_throws E p y : twf p -> twf y -> (accuracy_onehot E p y = Throw <-> length (tsh p) <> 2%nat \/ tsh y <> tsh p).
Proof.
  intros Wp Wy. unfold accuracy_onehot, nshape_eqb. destruct (list_eqb Nat.eqb (tsh y) (tsh p)) eqn:Es; cbn [dw_assert bind].
  2:{ split; [|reflexivity]. intros _. right. intros Heq. apply (list_eqb_spec Nat.eqb Nat.eqb_eq) in Heq. congruence. }
  apply (list_eqb_spec Nat.eqb Nat.eqb_eq) in Es.
  destruct (Nat.eqb_spec (length (tsh p)) 2) as [H2|H2]; cbn [dw_assert bind]; [|tauto].
  destruct (tsh p) as [|n [|m [|? ?]]] eqn:Sp; try discriminate H2. unfold dims2. rewrite Sp. cbn [rd nth_error bind nth].
  split; [|intros [H|H]; congruence]. intros H. exfalso. unfold emap in H. unfold twf in Wp, Wy. rewrite Sp, prodN2 in Wp. rewrite Es, prodN2 in Wy. rewrite Wp, Wy in H.
  rewrite !Nat.leb_refl in H. cbn [bind] in H.
  match type of H with bind ?f _ = Throw => assert (Hf : f <> Throw); [|destruct f; cbn in H; try discriminate; congruence] end.
  clear H. induction n as [|k IH] in |- *; cbn [forr]; [discriminate|]. destruct (forr k _ 0); cbn [bind]; [|congruence|discriminate].
  unfold row_argmax. destruct (m =? 0)%nat; cbn [bind]; discriminate.
Qed.

(** ** Rejected shapes *)
Definition no_throw {A} (r : res A) : Prop := r <> Throw.
Lemma bind_no_throw {A B} (r : res A) (f : A -> res B) : no_throw r -> (forall a, no_throw (f a)) -> no_throw (bind r f).
Proof. intros H K. destruct r; cbn; [apply K|exfalso; apply H; reflexivity|discriminate]. Qed.
Lemma map_res_no_throw {A B} (f : A -> res B) l : (forall a, no_throw (f a)) -> no_throw (map_res f l).
Proof.
  intros H. induction l as [|a t IH]; cbn; [discriminate|]. apply bind_no_throw; [apply H|]. intros x.
  apply bind_no_throw; [exact IH|]. intros y. discriminate.
Qed.
Lemma fold_res_no_throw {A S} (f : A -> S -> res S) l : (forall a s, no_throw (f a s)) -> forall s, no_throw (fold_res f l s).
Proof. intros H. induction l as [|a t IH]; intros s; cbn; [discriminate|]. apply bind_no_throw; [apply H|exact IH]. Qed.
Lemma emap_no_throw n l : no_throw (emap n l).
Proof. unfold emap. destruct (_ <=? _)%nat; discriminate. Qed.
Lemma rd_no_throw {A} (l : list A) i : no_throw (rd l i).
Proof. unfold rd. destruct (nth_error l i); discriminate. Qed.
Lemma match_no_throw t n m : no_throw (match_target t n m).
Proof.
  apply map_res_no_throw. intros i. apply bind_no_throw; [apply rd_no_throw|]. intros x. apply bind_no_throw; [|discriminate].
  unfold cast_int. destruct (fits_int _); discriminate.
Qed.
Lemma rdz_no_throw {A} (l : list A) k : no_throw (rdz l k).
Proof. unfold rdz. destruct (k <? 0)%Z; [discriminate|apply rd_no_throw]. Qed.

Definition ce_shapes (pred target : ten) : Prop := exists n m, tsh pred = [n; m] /\ tsh target = [n; 1%nat].
Lemma ce_dims_cases pred target :
  (ce_shapes pred target /\ exists n m, ce_dims pred target = Ok (n, m)) \/ (~ ce_shapes pred target /\ ce_dims pred target = Throw).
Proof.
  unfold ce_dims, dims2, ce_shapes. destruct pred as [[|n [|m [|x q]]] d]; cbn;
    try (right; split; [intros (a & b & A & _); discriminate A|reflexivity]).
  destruct target as [[|t0 [|t1 [|y r]]] e]; cbn; try (right; split; [intros (a & b & _ & B); discriminate B|reflexivity]).
  destruct (Nat.eqb_spec t0 n) as [->|N]; cbn; [|right; split; [intros (a & b & A & B); congruence|reflexivity]].
  destruct (Nat.eqb_spec t1 1) as [->|N]; cbn; [|right; split; [intros (a & b & A & B); congruence|reflexivity]].
  left. split; eauto.
Qed.
Lemma ce_forward_throws E st pred target : ce_forward E st pred target = Throw <-> ~ ce_shapes pred target.
Proof.
  unfold ce_forward. destruct (ce_dims_cases pred target) as [[S (n & m & ->)]|[S ->]]; cbn [bind].
  2:{ split; [intros _; exact S|reflexivity]. }
  split; [|intros N; contradiction]. intros H. exfalso. revert H.
  apply bind_no_throw; [apply emap_no_throw|intros _]. apply bind_no_throw; [apply emap_no_throw|intros _].
  cbv zeta. apply bind_no_throw.
  - apply bind_no_throw; [apply emap_no_throw|intros _]. apply bind_no_throw; [destruct (_ <=? _)%nat; discriminate|discriminate].
  - intros lg. apply bind_no_throw; [|discriminate]. apply bind_no_throw; [apply match_no_throw|]. intros sl.
    apply bind_no_throw; [|discriminate]. apply map_res_no_throw. intros k. destruct (_ <? _)%Z; [apply rdz_no_throw|discriminate].
Qed.
Lemma ce_backward_throws pred target go : ce_backward pred target go = Throw <-> ~ (ce_shapes pred target /\ tsh go = tsh pred).
Proof.
  unfold ce_backward. destruct (Nat.eqb_spec (length (tsh pred)) 2) as [L|L]; cbn [dw_assert bind].
  2:{ split; [|reflexivity]. intros _ [(n & m & A & _) _]. apply L. rewrite A. reflexivity. }
  destruct (nshape_eqb (tsh go) (tsh pred)) eqn:Q; cbn [dw_assert bind].
  2:{ split; [|reflexivity]. intros _ [_ A]. unfold nshape_eqb in Q. apply (list_eqb_spec Nat.eqb Nat.eqb_eq) in A. congruence. }
  unfold nshape_eqb in Q. apply (list_eqb_spec Nat.eqb Nat.eqb_eq) in Q.
  destruct (ce_dims_cases pred target) as [[S (n & m & ->)]|[S ->]]; cbn [bind].
  2:{ split; [intros _ [A _]; contradiction|reflexivity]. }
  split; [|intros N; exfalso; apply N; split; assumption]. intros H. exfalso. revert H.
  apply bind_no_throw; [apply emap_no_throw|intros _]. apply bind_no_throw; [apply emap_no_throw|intros _]. apply bind_no_throw; [apply emap_no_throw|intros _].
  cbv zeta. apply bind_no_throw; [apply match_no_throw|]. intros sl. apply bind_no_throw; [|discriminate].
  apply fold_res_no_throw. intros k g. unfold ce_write. destruct (_ <? _)%Z; [|discriminate]. apply bind_no_throw; [apply rdz_no_throw|].
  intros p. unfold wrz, wr. destruct (k <? 0)%Z; [discriminate|]. repeat match goal with |- no_throw (if ?b then _ else _) => destruct b end; discriminate.
Qed.
