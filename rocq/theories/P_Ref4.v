(** The loss and the optimizers agree with the reference kernels. *)
From Coq Require Import Reals Lra String.
From Verif Require Import Base BaseFacts Sums M_Im2col S_Im2col M_Kernels M_Conv M_Layers M_Loss M_Optim M_Ref.
From Verif Require Import P_Kernels S_Grad P_Vjp1 P_Vjp2 P_BN S_Loss P_Loss S_Optim P_Optim S_Ref P_Ref.
Open Scope R_scope.

(** ** Loss, forward *)
Lemma map_res_app {A B} (f : A -> res B) l1 l2 : map_res f (l1 ++ l2) = (a <- map_res f l1 ;; b <- map_res f l2 ;; Ok (a ++ b)).
Proof.
  induction l1 as [|x l1 IH]; cbn [app map_res bind].
  - destruct (map_res f l2); reflexivity.
  - destruct (f x); cbn [bind]; [|reflexivity..]. rewrite IH. destruct (map_res f l1); cbn [bind]; [|reflexivity..].
    destruct (map_res f l2); reflexivity.
Qed.

Lemma forr_fold {A V} (step : nat -> res V) (h : A -> V -> A) n a0 :
  forr n (fun i a => v <- step i ;; Ok (h a v)) a0 = (vs <- map_res step (seq 0 n) ;; Ok (fold_left h vs a0)).
Proof.
  induction n as [|n IH]; [reflexivity|]. cbn [forr]. rewrite IH, seq_S, map_res_app. cbn [Nat.add map_res].
  destruct (map_res step (seq 0 n)); cbn [bind]; [|reflexivity..]. destruct (step n); cbn [bind]; [|reflexivity..].
  rewrite fold_left_app. reflexivity.
Qed.

Lemma map_res_then {A B C} (f : A -> res B) (g : B -> res C) l : (forall a, f a <> Throw) -> (forall b, g b <> Throw) ->
  (bs <- map_res f l ;; map_res g bs) = map_res (fun a => b <- f a ;; g b) l.
Proof.
  intros Hf Hg. induction l as [|a l IH]; [reflexivity|]. cbn [map_res]. rewrite <- IH.
  destruct (f a) eqn:Ea; cbn [bind]; [|reflexivity..].
  destruct (map_res f l) as [bs| |] eqn:El; cbn [bind map_res].
  - reflexivity.
  - exfalso. clear -Hf El. induction l as [|x l IH]; [discriminate|]. cbn [map_res] in El. destruct (f x) eqn:E; cbn [bind] in El; [|exact (Hf x E)|discriminate].
    destruct (map_res f l); cbn [bind] in El; try discriminate. apply IH. reflexivity.
  - destruct (g a0) eqn:Eg; [reflexivity|exfalso; exact (Hg _ Eg)|reflexivity].
Qed.

Lemma map_res_ext {A B} (f g : A -> res B) l : (forall a, In a l -> f a = g a) -> map_res f l = map_res g l.
Proof. induction l as [|a l IH]; intros H; [reflexivity|]. cbn [map_res]. rewrite (H a (or_introl eq_refl)), IH by (intros; apply H; right; assumption). reflexivity. Qed.

Lemma fold_minus vs : forall a, fold_left (fun a v => obind a (fun a => obind v (fun b => Some (a - b)))) vs a =
  obind a (fun a => obind (xsum vs) (fun s => Some (a - s))).
Proof.
  induction vs as [|v vs IH]; intros a; cbn [fold_left xsum].
  - destruct a; cbn; [rewrite Rminus_0_r|]; reflexivity.
  - rewrite IH. destruct a as [a|]; [|reflexivity]. destruct v as [v|]; [|reflexivity]. cbn. destruct (xsum vs); [|reflexivity]. cbn. f_equal. ring.
Qed.

Lemma rdz_no_throw {V} (l : list V) k : rdz l k <> Throw.
Proof. unfold rdz, rd. destruct (_ : bool); [discriminate|]. destruct (nth_error l (Z.to_nat k)); discriminate. Qed.

Lemma ce_forward_agrees E st n m pred target : ce_ok st -> ten_ok [n; m] pred -> ten_ok [n; 1%nat] target ->
  ref_ce_forward pred target = (r <- ce_forward E st pred target ;; Ok (snd r)).
Proof.
  intros Hst Hp Ht. pose proof (pred_len n m pred Hp) as Lp. pose proof (target_len n target Ht) as Lt.
  unfold ce_forward. rewrite (ce_dims_ok n m pred target Hp Ht). cbn [bind]. rewrite !emap_Ok by lia. cbn [bind].
  set (st1 := if nshape_eqb (ce_sh st) (tsh pred) then st else _).
  assert (L1 : length (ce_dat st1) = (n * m)%nat).
  { unfold st1. destruct (nshape_eqb (ce_sh st) (tsh pred)) eqn:Es.
    - apply nshape_eqb_spec in Es. rewrite (proj1 Hp) in Es. destruct Hst as [Hs|Hs]; [congruence|]. rewrite Hs, Es. apply prodN2.
    - cbn [ce_dat]. rewrite tab_length, (proj1 Hp). apply prodN2. }
  unfold cpu_log. rewrite emap_Ok by lia. cbn [bind]. rewrite L1, Nat.leb_refl. cbn [bind]. rewrite skipn_all2 by lia. rewrite app_nil_r.
  unfold ref_ce_forward, dims2. rewrite (proj1 Hp). cbn [nth_error rd bind].
  set (step := fun i => t <- rd (tdat target) i ;; c <- cast_int t ;; x <- rdz (tdat pred) (c + Z.of_nat m * Z.of_nat i)%Z ;; Ok (xlog x)).
  transitivity (vs <- map_res step (seq 0 n) ;; Ok (obind (xsum vs) (fun s => xdiv (- s) (INR n)))).
  - transitivity (loss <- forr n (fun i a => v <- step i ;; Ok ((fun a v => obind a (fun a => obind v (fun b => Some (a - b)))) a v)) (Some 0) ;;
                  Ok (obind loss (fun a => xdiv a (INR n)))).
    + f_equal. apply forr_ext. intros i a Hi. unfold step. destruct (rd (tdat target) i); cbn [bind]; [|reflexivity..].
      destruct (cast_int a0); cbn [bind]; [|reflexivity..]. destruct (rdz (tdat pred) _); reflexivity.
    + rewrite forr_fold. destruct (map_res step (seq 0 n)); cbn [bind]; [|reflexivity..]. rewrite fold_minus. cbn [obind].
      destruct (xsum a); cbn [obind]; [|reflexivity]. rewrite Rminus_0_l. reflexivity.
  - unfold nll_loss, match_target.
    transitivity (vs <- (bs <- map_res (fun i => t <- rd (tdat target) i ;; c <- cast_int t ;; Ok (c + Z.of_nat m * Z.of_nat i)%Z) (seq 0 n) ;;
       map_res (fun k => if (k <? Z.of_nat (n * m))%Z then rdz (tab (n * m) (fun i => xlog (tdat pred).[i])) k else UB) bs) ;;
       Ok (obind (xsum vs) (fun s => xdiv (- s) (INR n)))).
    + f_equal. rewrite map_res_then.
      * apply map_res_ext. intros i Hi. apply in_seq in Hi. unfold step. rewrite rd_R by lia. cbn [bind].
        unfold cast_int. destruct (fits_int (truncR (tdat target).[i])); cbn [bind]; [|reflexivity].
        set (k := (truncR (tdat target).[i] + Z.of_nat m * Z.of_nat i)%Z).
        destruct (Z.ltb_spec k (Z.of_nat (n * m))).
        -- unfold rdz. destruct (Z.ltb_spec k 0); [reflexivity|]. rewrite rd_R by lia. rewrite rd_tab by lia. reflexivity.
        -- unfold rdz. destruct (Z.ltb_spec k 0); [reflexivity|]. unfold rd. rewrite (proj2 (nth_error_None _ _)) by lia. reflexivity.
      * intros i. unfold rd. destruct (nth_error (tdat target) i); cbn [bind]; [|discriminate]. unfold cast_int. destruct (fits_int _); discriminate.
      * intros k. destruct (k <? Z.of_nat (n * m))%Z; [apply rdz_no_throw|discriminate].
    + destruct (map_res _ (seq 0 n)); cbn [bind]; [|reflexivity..]. destruct (map_res _ a); reflexivity.
Qed.

(** ** Loss, backward *)
Lemma existsb_own n m (c : nat -> nat) i j : (forall i, (i < n)%nat -> (c i < m)%nat) -> (i < n)%nat -> (j < m)%nat ->
  existsb (Z.eqb (Z.of_nat (i * m + j))) (tab n (fun i => (Z.of_nat (c i) + Z.of_nat m * Z.of_nat i)%Z)) = (j =? c i)%nat.
Proof.
  intros Hc Hi Hj. destruct (Nat.eqb_spec j (c i)) as [->|Hne].
  - apply existsb_exists. exists (Z.of_nat (c i) + Z.of_nat m * Z.of_nat i)%Z. split; [|apply Z.eqb_eq; lia].
    unfold tab. apply in_map_iff. exists i. split; [reflexivity|apply in_seq; lia].
  - apply Bool.not_true_iff_false. intros H. apply existsb_exists in H. destruct H as (z & Hz & Ez). apply Z.eqb_eq in Ez. subst z.
    unfold tab in Hz. apply in_map_iff in Hz. destruct Hz as (k & Ek & Hk). apply in_seq in Hk.
    assert (Hck : (c k < m)%nat) by (apply Hc; lia).
    assert (E1 : (k * m + c k = i * m + j)%nat) by lia.
    pose proof (divmod_nat k m (c k) Hck) as [D1 D2]. pose proof (divmod_nat i m j Hj) as [D3 D4].
    rewrite E1 in D1, D2. apply Hne. rewrite <- D4, D2. f_equal. congruence.
Qed.

Lemma ce_backward_agrees n m pred target go : (Z.of_nat m <= int_max)%Z -> ten_ok [n; m] pred -> ten_ok [n; 1%nat] target -> ten_ok [n; m] go ->
  (forall i, (i < n)%nat -> (0 <= truncR (tdat target).[i] < Z.of_nat m)%Z) ->
  ref_ce_backward pred target go = ce_backward pred target go.
Proof.
  intros Hm Hp Ht Hgo Hlab. pose proof (pred_len n m pred Hp) as Lp. pose proof (target_len n target Ht) as Lt.
  pose proof (ten_ok_len _ _ Hgo) as Lgo. rewrite prodN2 in Lgo.
  set (c := fun i => Z.to_nat (truncR (tdat target).[i])).
  assert (Hc : forall i, (i < n)%nat -> (c i < m)%nat) by (intros i Hi; specialize (Hlab i Hi); unfold c; lia).
  assert (Hz : forall i, (i < n)%nat -> truncR (tdat target).[i] = Z.of_nat (c i) /\ fits_int (Z.of_nat (c i)) = true).
  { intros i Hi. specialize (Hlab i Hi). unfold c. split; [lia|]. unfold fits_int. apply Bool.andb_true_iff. unfold int_min, int_max in *. lia. }
  set (own := fun i => obind (xdiv 1 ((tdat pred).[i * m + c i] * INR n)) (fun b => Some (0 - b))).
  set (G := fun q p => if ((p / m <? q)%nat && (p mod m =? c (p / m))%nat)%bool then own (p / m)%nat else Some 0).
  transitivity (Ok (tab (n * m) (G n))).
  - unfold ref_ce_backward, dims2. rewrite (proj1 Hp). cbn [nth_error rd bind]. unfold tot. rewrite Lgo.
    apply (forr_run n _ (fun q => tab (n * m) (G q))).
    + apply tab_ext. intros p _. reflexivity.
    + reflexivity.
    + intros i Hi. rewrite rd_R by lia. cbn [bind]. rewrite Rmult_1_r. unfold cast_int. destruct (Hz i Hi) as [-> ->]. cbn [bind].
      assert (Hk : (i * m + c i < n * m)%nat) by (apply mult_lt; auto).
      replace (Z.of_nat i * Z.of_nat m + Z.of_nat (c i))%Z with (Z.of_nat (i * m + c i)) by lia.
      unfold rdz, wrz. replace (Z.of_nat (i * m + c i) <? 0)%Z with false by (symmetry; apply Z.ltb_ge; lia). rewrite Nat2Z.id.
      rewrite rd_R by lia. cbn [bind]. rewrite rd_tab by exact Hk. cbn [bind].
      destruct (divmod_nat i m (c i) (Hc i Hi)) as [D1 D2].
      apply wr_tab; [exact Hk| |].
      * unfold G. rewrite D1, D2, Nat.eqb_refl. replace (i <? S i)%nat with true by (symmetry; apply Nat.ltb_lt; lia).
        replace (i <? i)%nat with false by (symmetry; apply Nat.ltb_ge; lia). reflexivity.
      * intros p Hlt Hne. unfold G. destruct (divmod_lt _ _ _ Hlt) as (P1 & P2 & P3).
        destruct (Nat.eqb_spec (p mod m) (c (p / m)%nat)) as [Eq|]; [|rewrite !Bool.andb_false_r; reflexivity]. rewrite !Bool.andb_true_r.
        assert (Hpm : (p / m <> i)%nat) by (intros Ei; apply Hne; transitivity (p / m * m + p mod m)%nat; [exact P3|]; rewrite Eq, Ei; reflexivity).
        destruct (Nat.ltb_spec (p / m)%nat (S i)), (Nat.ltb_spec (p / m)%nat i); try reflexivity; lia.
  - symmetry. unfold ce_backward. rewrite (proj1 Hp). cbn [length Nat.eqb dw_assert bind].
    rewrite (proj1 Hgo). replace (nshape_eqb [n; m] [n; m]) with true by (symmetry; apply nshape_eqb_spec; reflexivity). cbn [dw_assert bind].
    rewrite (ce_dims_ok n m pred target Hp Ht). cbn [bind]. rewrite !emap_Ok by lia. cbn [bind].
    rewrite (match_ok n m target Ht (fun i => Z.of_nat (c i)) Hz). cbn [bind].
    assert (Hr : forall i, (i < n)%nat -> (0 <= Z.of_nat (c i) + Z.of_nat m * Z.of_nat i < Z.of_nat (n * m))%Z).
    { intros i Hi. assert (i * m + c i < n * m)%nat by (apply mult_lt; auto). lia. }
    destruct (ce_writes n m pred target Hp (fun i => Z.of_nat (c i)) Hz Hr (tab n (fun i => (Z.of_nat (c i) + Z.of_nat m * Z.of_nat i)%Z)) (tab (tot go) (fun _ => Some 0))) as (g' & F & L & V).
    + intros k Hk. unfold tab in Hk. apply in_map_iff in Hk. destruct Hk as (i & <- & Hi). apply in_seq in Hi.
      apply Hr. lia.
    + rewrite tab_length. exact Lgo.
    + rewrite F. cbn [bind]. f_equal. apply (list_ext _ _ None); [rewrite map_length, tab_length; exact L|].
      intros p Hlt. rewrite map_length, L in Hlt. destruct (divmod_lt _ _ _ Hlt) as (P1 & P2 & P3).
      assert (HN : INR n <> 0) by (apply not_0_INR; lia).
      rewrite nth_tab by exact Hlt.
      change (nth p (map (fun x => obind x (fun v => xdiv v (INR n))) g') None) with
             (nth p (map (fun x => obind x (fun v => xdiv v (INR n))) g') (obind None (fun v => xdiv v (INR n)))).
      rewrite (map_nth (fun x => obind x (fun v => xdiv v (INR n)))).
      rewrite V by exact Hlt. rewrite P3 at 1. rewrite existsb_own by assumption.
      unfold G. replace (p / m <? n)%nat with true by (symmetry; apply Nat.ltb_lt; exact P1). cbn [andb].
      destruct (Nat.eqb_spec (p mod m) (c (p / m)%nat)) as [Eq|].
      * unfold own. rewrite <- Eq, <- P3. unfold xdiv.
        destruct (Req_EM_T (tdat pred).[p] 0) as [Z0|NZ].
        -- destruct (Req_EM_T ((tdat pred).[p] * INR n) 0) as [_|K]; [reflexivity|]. exfalso. apply K. rewrite Z0. ring.
        -- destruct (Req_EM_T ((tdat pred).[p] * INR n) 0) as [K|_]; [exfalso; apply Rmult_integral in K; tauto|]. cbn [obind].
           destruct (Req_EM_T (INR n) 0); [contradiction|]. f_equal. field. auto.
      * rewrite nth_tab by (unfold tot; lia). cbn [obind]. unfold xdiv. destruct (Req_EM_T (INR n) 0); [contradiction|]. f_equal. field. exact HN.
Qed.

(** ** Optimizers *)
Section Each.
Context {St : Type}.
Variables (one1 one2 : string -> prm -> St -> res (prm * St)) (P : string -> prm -> St -> Prop).
Hypothesis Hone : forall k p s, P k p s -> one1 k p s = one2 k p s.
Hypothesis Hother : forall k p s p' s' k2 p2, P k p s -> one1 k p s = Ok (p', s') -> k2 <> k -> P k2 p2 s -> P k2 p2 s'.
Hypothesis Hown : forall k p s p' s', P k p s -> one1 k p s = Ok (p', s') ->
  P k p' s' /\ tsh (p_data p') = tsh (p_data p) /\ tot (p_data p') = tot (p_data p).

Lemma each_agree ps : forall s, NoDup (map fst ps) -> (forall k p, In (k, p) ps -> P k p s) -> each one1 ps s = each one2 ps s.
Proof.
  induction ps as [|[k p] ps IH]; intros s Hnd H; [reflexivity|]. cbn [map fst] in Hnd. inversion Hnd as [|? ? Hni Hnd']; subst.
  cbn [each]. pose proof (H k p (or_introl eq_refl)) as Hp. rewrite <- (Hone k p s Hp).
  destruct (one1 k p s) as [[p' s']| |] eqn:E1; [|reflexivity..]. rewrite IH; [reflexivity|exact Hnd'|].
  intros k2 p2 Hin. apply (Hother k p s p' s' k2 p2 Hp E1); [|apply H; right; exact Hin].
  intros ->. apply Hni. apply in_map_iff. exists (k, p2). auto.
Qed.

Lemma each_keep ps : forall s ps' s', each one1 ps s = Ret (ps', s') -> NoDup (map fst ps) -> (forall k p, In (k, p) ps -> P k p s) ->
  map fst ps' = map fst ps /\
  (forall k p', In (k, p') ps' -> P k p' s' /\ exists p, In (k, p) ps /\ tsh (p_data p') = tsh (p_data p) /\ tot (p_data p') = tot (p_data p)) /\
  (forall k p, ~ In k (map fst ps) -> P k p s -> P k p s').
Proof.
  induction ps as [|[k p] ps IH]; intros s ps' s' E Hnd H.
  - cbn in E. injection E as <- <-. split; [reflexivity|]. split; [intros ? ? []|auto].
  - cbn [map fst] in Hnd. inversion Hnd as [|? ? Hni Hnd']; subst. cbn [each] in E.
    pose proof (H k p (or_introl eq_refl)) as Hp.
    destruct (one1 k p s) as [[p1 s1]| |] eqn:E1; [|discriminate..].
    destruct (each one1 ps s1) as [[t' s2]|[t' s2]|] eqn:E2; [|discriminate..]. injection E as <- <-.
    destruct (IH s1 t' s2 E2 Hnd') as (K & V & O).
    { intros k2 p2 Hin. apply (Hother k p s p1 s1 k2 p2 Hp E1); [|apply H; right; exact Hin].
      intros ->. apply Hni. apply in_map_iff. exists (k, p2). auto. }
    destruct (Hown k p s p1 s1 Hp E1) as (P1 & S1 & T1).
    split; [cbn [map fst]; rewrite K; reflexivity|]. split.
    + intros k2 p2 [Heq|Hin].
      * injection Heq as <- <-. split; [apply O; [exact Hni|exact P1]|]. exists p. split; [left; reflexivity|auto].
      * destruct (V k2 p2 Hin) as (A & p0 & B & C). split; [exact A|]. exists p0. split; [right; exact B|exact C].
    + intros k2 p2 Hn2 Hp2. cbn [map fst In] in Hn2. apply O; [tauto|]. apply (Hother k p s p1 s1 k2 p2 Hp E1); [intros ->; tauto|exact Hp2].
Qed.
End Each.

Section History.
Context {St : Type}.
Variables (one1 one2 : R -> nat -> string -> prm -> St -> res (prm * St)) (Q : string -> nat -> St -> Prop).
Let P (k : string) (p : prm) (s : St) : Prop := prm_ok (tsh (p_data p)) p /\ Q k (tot (p_data p)) s.
Hypothesis Hone : forall lr t k p s, P k p s -> one1 lr t k p s = one2 lr t k p s.
Hypothesis Hother : forall lr t k p s p' s' k2 p2, P k p s -> one1 lr t k p s = Ok (p', s') -> k2 <> k -> P k2 p2 s -> P k2 p2 s'.
Hypothesis Hown : forall lr t k p s p' s', P k p s -> one1 lr t k p s = Ok (p', s') ->
  P k p' s' /\ tsh (p_data p') = tsh (p_data p) /\ tot (p_data p') = tot (p_data p).

Lemma run_agree evs : forall lr t ps s, pmap_ok ps -> (forall e, In e evs -> event_ok ps e) ->
  (forall k p, In (k, p) ps -> Q k (tot (p_data p)) s) -> run_gen one1 lr t ps s evs = run_gen one2 lr t ps s evs.
Proof.
  induction evs as [|[g tr|r] evs IH]; intros lr t ps s Hok He Hq; cbn [run_gen]; [reflexivity| |apply IH; auto; intros e Hin; apply He; right; exact Hin].
  pose proof (prepare_ok g tr ps Hok (He _ (or_introl eq_refl))) as Hok2.
  assert (HP : forall k p, In (k, p) (prepare g tr ps) -> P k p s).
  { intros k p Hin. split; [apply (proj2 Hok2 k p Hin)|]. destruct (prepare_inv _ _ _ _ _ Hin) as (p0 & H0 & ->). cbn [p_data]. apply Hq. exact H0. }
  rewrite <- (each_agree (one1 lr (S t)) (one2 lr (S t)) P) by (eauto; apply Hok2).
  destruct (each (one1 lr (S t)) (prepare g tr ps) s) as [[ps1 s1]|[ps1 s1]|] eqn:E1; [|reflexivity..].
  destruct (each_keep (one1 lr (S t)) P (Hother lr (S t)) (Hown lr (S t)) _ _ _ _ E1 (proj1 Hok2) HP) as (K & V & _).
  apply IH.
  - split; [rewrite K; apply Hok2|]. intros k p Hin. apply (V k p Hin).
  - intros e Hin. apply (event_ok_same ps ps1 e); [|apply He; right; exact Hin]. split; [rewrite K; apply prepare_keys|].
    intros k p p' H1 H2. destruct (V k p' H2) as (_ & p0 & H0 & S0 & T0).
    assert (p0 = mkP (p_data p) (set_dat (p_grad p) (g k)) (tr k)).
    { apply (in_unique (prepare g tr ps) k); [apply Hok2|exact H0|]. apply prepare_in. exact H1. }
    subst p0. split; [exact S0|exact T0].
  - intros k p Hin. apply (V k p Hin).
Qed.
End History.

Lemma ref_sgd_one_ok lr k p : prm_ok (tsh (p_data p)) p -> sgd_one lr k p tt = ref_sgd_one lr k p tt.
Proof.
  intros Hp. unfold sgd_one, ref_sgd_one. destruct (p_train p); [|reflexivity].
  pose proof (prm_tot p Hp) as HT. rewrite (proj1 (proj2 (proj2 Hp))), nshape_refl. cbn [dw_assert bind]. unfold tot in *.
  rewrite !emap_Ok by lia. cbn [bind]. rewrite put_full by congruence.
  set (N := length (tdat (p_data p))) in *. set (f := fun i => (tdat (p_data p)).[i] - lr * (tdat (p_grad p)).[i]).
  rewrite (forr_run N _ (fun j => tab N (fillst j f (fun i => (tdat (p_data p)).[i]))) _ (tab N f)).
  - rewrite HT. reflexivity.
  - rewrite fill_0. apply list_tab. reflexivity.
  - apply fill_n.
  - intros i Hi. rewrite rd_R by lia. cbn [bind]. apply fill_modify; [exact Hi|reflexivity].
Qed.

(** The state kept for a parameter fits it. *)
Definition fits_state (k : string) (n : nat) (s : tmap) : Prop := forall v, find_key s k = Some v -> tot v = n.

Lemma momentum_one_ok lr gamma k p vel : prm_ok (tsh (p_data p)) p -> fits_state k (tot (p_data p)) vel ->
  momentum_one lr gamma k p vel = ref_momentum_one lr gamma k p vel.
Proof.
  intros Hp Hv. unfold momentum_one, ref_momentum_one. destruct (p_train p); [|reflexivity].
  pose proof (prm_tot p Hp) as HT. rewrite (proj1 (proj2 (proj2 Hp))), nshape_refl. cbn [dw_assert bind].
  unfold at_key. destruct (find_key vel k) as [v|] eqn:Ev; cbn [bind]; [|reflexivity]. specialize (Hv v Ev). unfold tot in *.
  rewrite !emap_Ok by lia. cbn [bind]. rewrite !put_full by congruence. rewrite HT.
  set (N := length (tdat (p_data p))) in *. set (f := fun i => gamma * (tdat v).[i] + lr * (tdat (p_grad p)).[i]).
  set (g := fun i => (tdat (p_data p)).[i] - f i).
  rewrite (forr_run N _ (fun j => (tab N (fillst j f (fun i => (tdat v).[i])), tab N (fillst j g (fun i => (tdat (p_data p)).[i])))) _ (tab N f, tab N g)).
  - cbn [bind]. do 3 f_equal. apply tab_ext. intros i Hi. rewrite nth_tab by exact Hi. reflexivity.
  - rewrite !fill_0. rewrite <- !list_tab by (exact Hv || reflexivity). reflexivity.
  - rewrite !fill_n. reflexivity.
  - intros i Hi. rewrite rd_R by lia. cbn [bind]. rewrite fill_modify by (try exact Hi; reflexivity). cbn [bind].
    rewrite rd_tab by exact Hi. cbn [bind]. rewrite fill_done. rewrite fill_modify by (try exact Hi; reflexivity). reflexivity.
Qed.

Lemma adam_one_ok lr b1 b2 eps t k p s : prm_ok (tsh (p_data p)) p -> fits_state k (tot (p_data p)) (fst s) -> fits_state k (tot (p_data p)) (snd s) ->
  adam_one lr b1 b2 eps t k p s = ref_adam_one lr b1 b2 eps t k p s.
Proof.
  intros Hp H1 H2. unfold adam_one, ref_adam_one. destruct (p_train p); [|reflexivity].
  pose proof (prm_tot p Hp) as HT. rewrite (proj1 (proj2 (proj2 Hp))), nshape_refl. cbn [dw_assert bind].
  unfold at_key. destruct (find_key (fst s) k) as [mm|] eqn:E1; cbn [bind]; [|reflexivity].
  destruct (find_key (snd s) k) as [vv|] eqn:E2; cbn [bind]; [|reflexivity]. specialize (H1 mm E1). specialize (H2 vv E2). unfold tot in *.
  rewrite !emap_Ok by lia. cbn [bind]. rewrite !put_full by congruence. rewrite HT.
  set (N := length (tdat (p_data p))) in *. set (gr := tdat (p_grad p)) in *.
  set (fm := fun i => b1 * (tdat mm).[i] + (1 - b1) * gr.[i]).
  set (fv := fun i => b2 * (tdat vv).[i] + (1 - b2) * (gr.[i] * gr.[i])).
  set (fw := fun i => (tdat (p_data p)).[i] - lr * (fm i / (1 - b1 ^ t)) / (sqrt (fv i / (1 - b2 ^ t)) + eps)).
  rewrite (forr_run N _ (fun j => (tab N (fillst j fm (fun i => (tdat mm).[i])), tab N (fillst j fv (fun i => (tdat vv).[i])),
                                   tab N (fillst j fw (fun i => (tdat (p_data p)).[i])))) _ (tab N fm, tab N fv, tab N fw)).
  - cbn [bind]. do 3 f_equal. apply tab_ext. intros i Hi. rewrite !nth_tab by exact Hi. reflexivity.
  - rewrite !fill_0. rewrite <- !list_tab by (assumption || reflexivity). reflexivity.
  - rewrite !fill_n. reflexivity.
  - intros i Hi. rewrite rd_R by lia. cbn [bind]. rewrite fill_modify by (try exact Hi; reflexivity). cbn [bind].
    rewrite fill_modify by (try exact Hi; unfold fv; ring). cbn [bind].
    rewrite !rd_tab by exact Hi. cbn [bind]. rewrite !fill_done. rewrite fill_modify by (try exact Hi; reflexivity). reflexivity.
Qed.

Lemma set_weight_ok p d : prm_ok (tsh (p_data p)) p -> length d = tot (p_data p) ->
  prm_ok (tsh (p_data (set_weight p d))) (set_weight p d) /\ tsh (p_data (set_weight p d)) = tsh (p_data p) /\ tot (p_data (set_weight p d)) = tot (p_data p).
Proof.
  intros (A & B & C & D) L. unfold set_weight, tot, twf in *. cbn [p_data p_grad set_dat tsh tdat]. split; [|auto].
  split; [reflexivity|]. split; [unfold twf; cbn [p_data set_dat tsh tdat]; congruence|]. split; [exact C|exact D].
Qed.

Lemma fits_set k n s v : fits_state k n s -> tot v = n -> fits_state k n (set_key s k v).
Proof.
  intros H Hv w Hw. destruct (find_key s k) as [u|] eqn:E.
  - rewrite (find_set_eq s k v u E) in Hw. congruence.
  - exfalso. clear -E Hw. induction s as [|[k' v'] s IH]; cbn in *; [discriminate|].
    destruct (String.eqb k' k) eqn:Ek; [discriminate|]. cbn in Hw. rewrite Ek in Hw. auto.
Qed.
Lemma fits_set_other k k' n s v : k' <> k -> fits_state k' n s -> fits_state k' n (set_key s k v).
Proof. intros Hne H w Hw. rewrite find_set_neq in Hw by exact Hne. auto. Qed.

Lemma momentum_one_inv lr gamma k p vel p' vel' : prm_ok (tsh (p_data p)) p -> fits_state k (tot (p_data p)) vel ->
  momentum_one lr gamma k p vel = Ok (p', vel') ->
  prm_ok (tsh (p_data p')) p' /\ tsh (p_data p') = tsh (p_data p) /\ tot (p_data p') = tot (p_data p) /\ fits_state k (tot (p_data p)) vel' /\
  forall k' n, k' <> k -> fits_state k' n vel -> fits_state k' n vel'.
Proof.
  intros Hp Hv. unfold momentum_one. destruct (p_train p); [|intros [= <- <-]; auto 6].
  pose proof (prm_tot p Hp) as HT. rewrite (proj1 (proj2 (proj2 Hp))), nshape_refl. cbn [dw_assert bind].
  unfold at_key. destruct (find_key vel k) as [v|] eqn:Ev; cbn [bind]; [|discriminate]. pose proof (Hv v Ev) as Lv. unfold tot in *.
  rewrite !emap_Ok by lia. cbn [bind]. rewrite !put_full by congruence. intros [= <- <-].
  destruct (set_weight_ok p (tab (length (tdat (p_grad p))) (fun i => (tdat (p_data p)).[i] - (tab (length (tdat (p_grad p))) (fun i => gamma * (tdat v).[i] + lr * (tdat (p_grad p)).[i])).[i])) Hp) as (A & B & C).
  { rewrite tab_length. unfold tot. exact HT. }
  split; [exact A|]. split; [exact B|]. split; [exact C|]. split; [apply fits_set; [exact Hv|]|intros k' n Hne; apply fits_set_other; exact Hne].
  unfold tot. cbn [set_dat tdat]. rewrite tab_length. exact HT.
Qed.

Lemma adam_one_inv lr b1 b2 eps t k p s p' s' : prm_ok (tsh (p_data p)) p -> fits_state k (tot (p_data p)) (fst s) -> fits_state k (tot (p_data p)) (snd s) ->
  adam_one lr b1 b2 eps t k p s = Ok (p', s') ->
  prm_ok (tsh (p_data p')) p' /\ tsh (p_data p') = tsh (p_data p) /\ tot (p_data p') = tot (p_data p) /\
  fits_state k (tot (p_data p)) (fst s') /\ fits_state k (tot (p_data p)) (snd s') /\
  forall k' n, k' <> k -> fits_state k' n (fst s) /\ fits_state k' n (snd s) -> fits_state k' n (fst s') /\ fits_state k' n (snd s').
Proof.
  intros Hp H1 H2. unfold adam_one. destruct (p_train p); [|intros [= <- <-]; auto 8].
  pose proof (prm_tot p Hp) as HT. rewrite (proj1 (proj2 (proj2 Hp))), nshape_refl. cbn [dw_assert bind].
  unfold at_key. destruct (find_key (fst s) k) as [mm|] eqn:E1; cbn [bind]; [|discriminate].
  destruct (find_key (snd s) k) as [vv|] eqn:E2; cbn [bind]; [|discriminate]. pose proof (H1 mm E1) as Lm. pose proof (H2 vv E2) as Lv. unfold tot in *.
  rewrite !emap_Ok by lia. cbn [bind]. rewrite !put_full by congruence. intros [= <- <-].
  match goal with |- context [set_weight p ?d] => destruct (set_weight_ok p d Hp) as (A & B & C) end.
  { rewrite tab_length. unfold tot. exact HT. }
  split; [exact A|]. split; [exact B|]. split; [exact C|].
  split; [apply fits_set; [exact H1|]; unfold tot; cbn [set_dat tdat]; rewrite tab_length; exact HT|].
  split; [apply fits_set; [exact H2|]; unfold tot; cbn [set_dat tdat]; rewrite tab_length; exact HT|].
  intros k' n Hne [F1 F2]. split; apply fits_set_other; assumption.
Qed.

(** Steps. *)
Lemma sgd_step_agrees lr ps : pmap_ok ps -> sgd_step lr ps = ref_sgd_step lr ps.
Proof.
  intros [Hnd Hok]. unfold sgd_step, ref_sgd_step. apply (each_agree _ _ (fun _ p _ => prm_ok (tsh (p_data p)) p)); auto.
  intros k p [] Hp. apply ref_sgd_one_ok. exact Hp.
Qed.

Lemma run_ref_sgd_agrees evs : forall lr ps, pmap_ok ps -> (forall e, In e evs -> event_ok ps e) -> run_sgd lr ps evs = run_ref_sgd lr ps evs.
Proof.
  induction evs as [|[g tr|r] evs IH]; intros lr ps Hok He; cbn [run_sgd run_ref_sgd]; [reflexivity| |apply IH; auto; intros e Hin; apply He; right; exact Hin].
  pose proof (prepare_ok g tr ps Hok (He _ (or_introl eq_refl))) as Hok2. rewrite <- sgd_step_agrees by exact Hok2.
  destruct (sgd_spec lr (prepare g tr ps) Hok2) as (ps1 & E1 & K1 & Ok1 & V1). rewrite E1. apply IH; [exact Ok1|].
  intros e Hin. apply (event_ok_same ps ps1 e); [|apply He; right; exact Hin]. split; [rewrite K1; apply prepare_keys|].
  intros k p p' H1 H2. destruct (V1 k _ (prepare_in g tr ps k p H1)) as (p2 & H3 & _ & _ & S2 & _).
  assert (p2 = p') by (apply (in_unique ps1 k); [apply Ok1|exact H3|exact H2]). subst p2. cbn [p_data] in S2. split; [exact S2|].
  destruct (proj2 Ok1 k p' H2) as (_ & W1 & _). destruct (proj2 Hok k p H1) as (_ & W2 & _). unfold tot, twf in *. rewrite W1, W2, S2. reflexivity.
Qed.

Lemma momentum_step_agrees lr gamma ps vel : pmap_ok ps -> (forall k p v, In (k, p) ps -> find_key vel k = Some v -> tot v = tot (p_data p)) ->
  momentum_step lr gamma ps vel = ref_momentum_step lr gamma ps vel.
Proof.
  intros [Hnd Hok] Hv. unfold momentum_step, ref_momentum_step.
  apply (each_agree _ _ (fun k p s => prm_ok (tsh (p_data p)) p /\ fits_state k (tot (p_data p)) s)); auto.
  - intros k p s [A B]. apply momentum_one_ok; assumption.
  - intros k p s p' s' k2 p2 [A B] E Hne [A2 B2]. split; [exact A2|]. apply (momentum_one_inv lr gamma k p s p' s' A B E); assumption.
  - intros k p Hin. split; [apply (Hok k); exact Hin|]. intros v Hf. apply (Hv k p v Hin Hf).
Qed.

Lemma run_ref_momentum_gen gamma evs : forall lr t ps vel,
  run_ref_momentum lr gamma ps vel evs = snd (run_gen (fun lr _ => ref_momentum_one lr gamma) lr t ps vel evs).
Proof.
  induction evs as [|[g tr|r] evs IH]; intros lr t ps vel; cbn [run_ref_momentum run_gen snd]; [reflexivity| |apply IH].
  unfold ref_momentum_step. destruct (each (ref_momentum_one lr gamma) (prepare g tr ps) vel) as [[ps' vel']|[ps' vel']|]; try reflexivity. apply IH.
Qed.

Lemma run_ref_momentum_agrees evs lr gamma ps vel : pmap_ok ps -> (forall e, In e evs -> event_ok ps e) ->
  (forall k p v, In (k, p) ps -> find_key vel k = Some v -> tot v = tot (p_data p)) ->
  run_momentum lr gamma ps vel evs = run_ref_momentum lr gamma ps vel evs.
Proof.
  intros Hok He Hv. rewrite (run_momentum_gen gamma evs lr 0), (run_ref_momentum_gen gamma evs lr 0). f_equal.
  apply (run_agree _ _ fits_state); try assumption.
  - intros lr' t k p s [A B]. apply momentum_one_ok; assumption.
  - intros lr' t k p s p' s' k2 p2 [A B] E Hne [A2 B2]. split; [exact A2|]. apply (momentum_one_inv lr' gamma k p s p' s' A B E); assumption.
  - intros lr' t k p s p' s' [A B] E. destruct (momentum_one_inv lr' gamma k p s p' s' A B E) as (C1 & C2 & C3 & C4 & _).
    split; [split; [exact C1|rewrite C3; exact C4]|auto].
  - intros k p Hin v Hf. apply (Hv k p v Hin Hf).
Qed.

Lemma adam_step_agrees lr b1 b2 eps t ps s : pmap_ok ps ->
  (forall k p v, In (k, p) ps -> find_key (fst s) k = Some v -> tot v = tot (p_data p)) ->
  (forall k p v, In (k, p) ps -> find_key (snd s) k = Some v -> tot v = tot (p_data p)) ->
  adam_step lr b1 b2 eps t ps s = (S t, ref_adam_step lr b1 b2 eps (S t) ps s).
Proof.
  intros [Hnd Hok] H1 H2. unfold adam_step, ref_adam_step. f_equal.
  apply (each_agree _ _ (fun k p s => prm_ok (tsh (p_data p)) p /\ fits_state k (tot (p_data p)) (fst s) /\ fits_state k (tot (p_data p)) (snd s))); auto.
  - intros k p s' (A & B & C). apply adam_one_ok; assumption.
  - intros k p s1 p' s' k2 p2 (A & B & C) E Hne (A2 & B2). split; [exact A2|]. apply (adam_one_inv lr b1 b2 eps (S t) k p s1 p' s' A B C E); assumption.
  - intros k p Hin. split; [apply (Hok k); exact Hin|]. split; intros v Hf; [apply (H1 k p v Hin Hf)|apply (H2 k p v Hin Hf)].
Qed.

Lemma run_ref_adam_gen b1 b2 eps evs : forall lr t ps s,
  run_ref_adam lr b1 b2 eps t ps s evs = snd (run_gen (fun lr t => ref_adam_one lr b1 b2 eps t) lr t ps s evs).
Proof.
  induction evs as [|[g tr|r] evs IH]; intros lr t ps s; cbn [run_ref_adam run_gen snd]; [reflexivity| |apply IH].
  unfold ref_adam_step. destruct (each (ref_adam_one lr b1 b2 eps (S t)) (prepare g tr ps) s) as [[ps' s']|[ps' s']|]; try reflexivity. apply IH.
Qed.

Lemma run_ref_adam_agrees evs lr b1 b2 eps t ps s : pmap_ok ps -> (forall e, In e evs -> event_ok ps e) ->
  (forall k p v, In (k, p) ps -> find_key (fst s) k = Some v -> tot v = tot (p_data p)) ->
  (forall k p v, In (k, p) ps -> find_key (snd s) k = Some v -> tot v = tot (p_data p)) ->
  snd (run_adam lr b1 b2 eps t ps s evs) = run_ref_adam lr b1 b2 eps t ps s evs.
Proof.
  intros Hok He H1 H2. rewrite run_adam_gen, run_ref_adam_gen. f_equal.
  apply (run_agree _ _ (fun k n s => fits_state k n (fst s) /\ fits_state k n (snd s))); try assumption.
  - intros lr' t' k p s' (A & B & C). apply adam_one_ok; assumption.
  - intros lr' t' k p s1 p' s' k2 p2 (A & B & C) E Hne (A2 & B2). split; [exact A2|]. apply (adam_one_inv lr' b1 b2 eps t' k p s1 p' s' A B C E); assumption.
  - intros lr' t' k p s1 p' s' (A & B & C) E. destruct (adam_one_inv lr' b1 b2 eps t' k p s1 p' s' A B C E) as (C1 & C2 & C3 & C4 & C5 & _).
    split; [split; [exact C1|rewrite C3; auto]|auto].
  - intros k p Hin. split; intros v Hf; [apply (H1 k p v Hin Hf)|apply (H2 k p v Hin Hf)].
Qed.
