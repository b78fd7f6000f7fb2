(** Proofs about the optimizers. *)
From Coq Require Import Reals Lra String.
From Verif Require Import Base BaseFacts Sums M_Im2col M_Kernels M_Conv M_Layers M_Optim S_Grad S_Optim P_Kernels P_BN.
Open Scope R_scope.

Lemma put_full n f d : length d = n -> put n f d = tab n f.
Proof. intros <-. unfold put. rewrite skipn_all, app_nil_r. reflexivity. Qed.

Lemma find_set_eq {V} (m : list (string * V)) k v w : find_key m k = Some w -> find_key (set_key m k v) k = Some v.
Proof.
  induction m as [|[k' v'] m IH]; cbn; [discriminate|]. destruct (String.eqb_spec k' k) as [->|Hne]; cbn.
  - rewrite String.eqb_refl. reflexivity.
  - destruct (String.eqb_spec k' k); [contradiction|]. exact IH.
Qed.
Lemma find_set_neq {V} (m : list (string * V)) k k' v : k' <> k -> find_key (set_key m k v) k' = find_key m k'.
Proof.
  intros Hne. induction m as [|[k2 v2] m IH]; cbn; [reflexivity|]. destruct (String.eqb_spec k2 k) as [->|Hn2]; cbn.
  - destruct (String.eqb_spec k k'); [congruence|reflexivity].
  - destruct (String.eqb k2 k'); [reflexivity|exact IH].
Qed.

Lemma in_find {V} (m : list (string * V)) k v : NoDup (map fst m) -> (In (k, v) m <-> find_key m k = Some v).
Proof.
  induction m as [|[k' v'] m IH]; cbn [map fst In find_key]; intros Hnd; [split; [intros []|discriminate]|].
  inversion Hnd as [|? ? Hni Hnd']; subst. destruct (String.eqb_spec k' k) as [->|Hne].
  - split; [intros [H|H]; [congruence|]|intros [= ->]; left; reflexivity].
    exfalso. apply Hni. apply in_map_iff. exists (k, v). auto.
  - rewrite <- (IH Hnd'). split; [intros [H|H]; [congruence|exact H]|auto].
Qed.

(** ** The loop over the map *)
Section Each.
Context {S A : Type}.
Variables (get : S -> string -> option A) (one : string -> prm -> S -> res (prm * S))
          (good : string -> prm -> A -> Prop) (F : string -> prm -> A -> prm) (G : string -> prm -> A -> A).
Hypothesis Hone : forall k p s a, good k p a -> get s k = Some a ->
  exists s', one k p s = Ok (F k p a, s') /\ get s' k = Some (G k p a) /\ forall k', k' <> k -> get s' k' = get s k'.

Lemma each_ok ps s : NoDup (map fst ps) -> (forall k p, In (k, p) ps -> exists a, get s k = Some a /\ good k p a) ->
  exists ps' s', each one ps s = Ret (ps', s') /\ map fst ps' = map fst ps /\
    (forall k p a, In (k, p) ps -> get s k = Some a -> In (k, F k p a) ps' /\ get s' k = Some (G k p a)) /\
    (forall k, ~ In k (map fst ps) -> get s' k = get s k).
Proof.
  revert s. induction ps as [|[k p] ps IH]; intros s Hnd Hg; cbn [each].
  - exists [], s. repeat split; auto; intros; contradiction.
  - cbn [map fst] in Hnd. inversion Hnd as [|? ? Hni Hnd']; subst.
    destruct (Hg k p (or_introl eq_refl)) as (a & Ga & Ha). destruct (Hone k p s a Ha Ga) as (s1 & E1 & G1 & O1). rewrite E1.
    destruct (IH s1 Hnd') as (ps' & s' & E2 & K2 & V2 & O2).
    { intros k2 p2 Hin. destruct (Hg k2 p2 (or_intror Hin)) as (a2 & Ga2 & Ha2). exists a2. split; [|exact Ha2].
      rewrite O1; [exact Ga2|]. intros ->. apply Hni. apply in_map_iff. exists (k, p2). auto. }
    rewrite E2. exists ((k, F k p a) :: ps'), s'. split; [reflexivity|]. split; [cbn; rewrite K2; reflexivity|]. split.
    + intros k2 p2 a2 [Heq|Hin] Ga2.
      * injection Heq as -> ->. assert (a2 = a) as -> by congruence. split; [left; reflexivity|]. rewrite O2 by exact Hni. exact G1.
      * assert (Hne : k2 <> k) by (intros ->; apply Hni; apply in_map_iff; exists (k, p2); auto).
        rewrite <- (O1 k2 Hne) in Ga2. destruct (V2 k2 p2 a2 Hin Ga2) as [H1 H2]. split; [right; exact H1|exact H2].
    + intros k2 Hk2. cbn [map fst In] in Hk2. rewrite O2 by tauto. apply O1. intros ->. tauto.
Qed.
End Each.

Lemma prm_tot p : prm_ok (tsh (p_data p)) p -> tot (p_grad p) = tot (p_data p).
Proof. intros (_ & W & S2 & W2). unfold tot. unfold twf in *. rewrite W, W2, S2. reflexivity. Qed.

Lemma nshape_refl s : nshape_eqb s s = true.
Proof. apply (list_eqb_spec Nat.eqb Nat.eqb_eq). reflexivity. Qed.

(** ** SGD *)
Definition sgd_new (lr : R) (k : string) (p : prm) (_ : unit) : prm :=
  if p_train p then set_weight p (tab (tot (p_data p)) (fun i => (tdat (p_data p)).[i] - lr * (tdat (p_grad p)).[i])) else p.

Lemma sgd_each lr ps : pmap_ok ps -> exists ps', sgd_step lr ps = Ret (ps', tt) /\ map fst ps' = map fst ps /\
  forall k p, In (k, p) ps -> In (k, sgd_new lr k p tt) ps'.
Proof.
  intros [Hnd Hok].
  destruct (each_ok (fun (_ : unit) (_ : string) => Some tt) (sgd_one lr) (fun _ p _ => prm_ok (tsh (p_data p)) p) (sgd_new lr) (fun _ _ a => a)) with (ps := ps) (s := tt) as (ps' & s' & E & K & V & _).
  - intros k p s a Hp _. exists tt. split; [|split; [destruct a; reflexivity|reflexivity]]. unfold sgd_one, sgd_new. destruct (p_train p); [|reflexivity].
    rewrite (proj1 (proj2 (proj2 Hp))), nshape_refl. cbn [dw_assert bind]. pose proof (prm_tot p Hp) as HT. rewrite !emap_Ok by (unfold tot in *; lia).
    cbn [bind]. rewrite HT. rewrite put_full by reflexivity. reflexivity.
  - exact Hnd.
  - intros k p Hin. exists tt. split; [reflexivity|]. apply (Hok k p Hin).
  - exists ps'. destruct s'. split; [exact E|]. split; [exact K|]. intros k p Hin. apply (V k p tt Hin eq_refl).
Qed.

Lemma sgd_spec lr ps : pmap_ok ps -> exists ps', sgd_step lr ps = Ret (ps', tt) /\ map fst ps' = map fst ps /\ pmap_ok ps' /\
  forall k p, In (k, p) ps -> exists p', In (k, p') ps' /\ p_grad p' = p_grad p /\ p_train p' = p_train p /\ tsh (p_data p') = tsh (p_data p) /\
    (p_train p = false -> p' = p) /\
    (p_train p = true -> forall i, (i < tot (p_data p))%nat -> (tdat (p_data p')).[i] = (tdat (p_data p)).[i] - lr * (tdat (p_grad p)).[i]).
Proof.
  intros Hok. destruct (sgd_each lr ps Hok) as (ps' & E & K & V). exists ps'. split; [exact E|]. split; [exact K|]. destruct Hok as [Hnd Hp].
  assert (Q : forall k p, In (k, p) ps -> prm_ok (tsh (p_data (sgd_new lr k p tt))) (sgd_new lr k p tt)).
  { intros k p Hin. specialize (Hp k p Hin). unfold sgd_new. destruct (p_train p); [|exact Hp]. destruct Hp as (_ & W & S2 & W2).
    unfold set_weight, set_dat. cbn. repeat split; try assumption. unfold twf. cbn. rewrite tab_length. exact W. }
  split.
  - split; [rewrite K; exact Hnd|]. intros k p' Hin. assert (Hk : In k (map fst ps)) by (rewrite <- K; apply in_map_iff; exists (k, p'); auto).
    apply in_map_iff in Hk. destruct Hk as ([k2 p] & Ek & Hin2). cbn in Ek. subst k2. pose proof (V k p Hin2) as Hin3.
    assert (Hnd' : NoDup (map fst ps')) by (rewrite K; exact Hnd).
    apply (in_find ps' k) in Hin; [|exact Hnd']. apply (in_find ps' k) in Hin3; [|exact Hnd'].
    assert (p' = sgd_new lr k p tt) as -> by congruence. apply Q. exact Hin2.
  - intros k p Hin. exists (sgd_new lr k p tt). split; [apply V; exact Hin|]. unfold sgd_new. destruct (p_train p) eqn:Et; cbn.
    + repeat split; auto; try congruence. intros _ i Hi. rewrite nth_tab by exact Hi. reflexivity.
    + repeat split; auto. congruence.
Qed.

(** ** Histories *)
Lemma prepare_keys g tr ps : map fst (prepare g tr ps) = map fst ps.
Proof. unfold prepare. rewrite map_map. apply map_ext. intros [k p]. reflexivity. Qed.

Lemma prepare_in g tr ps k p : In (k, p) ps -> In (k, mkP (p_data p) (set_dat (p_grad p) (g k)) (tr k)) (prepare g tr ps).
Proof. intros H. unfold prepare. apply in_map_iff. exists (k, p). auto. Qed.

Lemma prepare_inv g tr ps k q : In (k, q) (prepare g tr ps) -> exists p, In (k, p) ps /\ q = mkP (p_data p) (set_dat (p_grad p) (g k)) (tr k).
Proof. intros H. unfold prepare in H. apply in_map_iff in H. destruct H as ([k' p] & E & H). injection E as -> <-. exists p. auto. Qed.

Lemma prepare_ok g tr ps : pmap_ok ps -> event_ok ps (EStep g tr) -> pmap_ok (prepare g tr ps).
Proof.
  intros [Hnd Hp] He. split; [rewrite prepare_keys; exact Hnd|]. intros k q Hq. destruct (prepare_inv _ _ _ _ _ Hq) as (p & Hin & ->).
  destruct (Hp k p Hin) as (_ & W & S2 & W2). cbn. repeat split; cbn; try assumption. unfold twf. cbn. rewrite (He k p Hin), S2. exact W.
Qed.


Lemma key_in {V} (ps : list (string * V)) k : In k (map fst ps) <-> exists p, In (k, p) ps.
Proof. rewrite in_map_iff. split; [intros ([k' p] & <- & H); exists p; exact H|intros (p & H); exists (k, p); auto]. Qed.

Lemma event_ok_same ps ps' e : same_shapes ps ps' -> event_ok ps e -> event_ok ps' e.
Proof.
  intros [K H] He. destruct e as [g tr|lr]; [|exact I]. intros k p' Hin.
  assert (Hk : In k (map fst ps)) by (rewrite <- K; apply key_in; eauto). apply key_in in Hk. destruct Hk as [p Hin2].
  rewrite (proj2 (H k p p' Hin2 Hin)). apply He. exact Hin2.
Qed.

Lemma in_unique {V} (m : list (string * V)) k v v' : NoDup (map fst m) -> In (k, v) m -> In (k, v') m -> v = v'.
Proof. intros Hnd H1 H2. apply (in_find m k v Hnd) in H1. apply (in_find m k v' Hnd) in H2. congruence. Qed.

Lemma run_sgd_spec evs : forall lr ps t, pmap_ok ps -> (forall e, In e evs -> event_ok ps e) ->
  exists ps', run_sgd lr ps evs = Ret ps' /\ same_shapes ps ps' /\ pmap_ok ps' /\
    forall k p, In (k, p) ps -> exists p', In (k, p') ps' /\
      forall i, (i < tot (p_data p))%nat ->
        (tdat (p_data p')).[i] = (tdat (p_data p)).[i] - lsum (map (fun '(lr, g, _) => lr * g.[i]) (active k lr t evs)).
Proof.
  induction evs as [|e evs IH]; intros lr ps t Hok He; cbn [run_sgd active].
  - exists ps. split; [reflexivity|]. split; [split; [reflexivity|]|split; [exact Hok|]].
    + intros k p p' H1 H2. rewrite (in_unique ps k p p' (proj1 Hok) H1 H2). auto.
    + intros k p Hin. exists p. split; [exact Hin|]. intros i Hi. cbn. lra.
  - destruct e as [g tr|r].
    + pose proof (He _ (or_introl eq_refl)) as He0.
      destruct (sgd_spec lr (prepare g tr ps) (prepare_ok g tr ps Hok He0)) as (ps1 & E1 & K1 & Ok1 & V1). rewrite E1.
      assert (SS : same_shapes ps ps1).
      { split; [rewrite K1; apply prepare_keys|]. intros k p p' H1 H2. destruct (V1 k _ (prepare_in g tr ps k p H1)) as (p2 & Hin2 & _ & _ & S2 & _).
        assert (p' = p2) as -> by (apply (in_unique ps1 k p' p2 (proj1 Ok1) H2 Hin2)). cbn in S2. split; [exact S2|].
        destruct (proj2 Ok1 k p2 Hin2) as (_ & W2 & _). destruct (proj2 Hok k p H1) as (_ & W1 & _). unfold tot, twf in *. rewrite W2, W1, S2. reflexivity. }
      destruct (IH lr ps1 (S t) Ok1) as (ps' & E' & SS' & Ok' & V').
      { intros e Hin. apply (event_ok_same ps ps1 e SS). apply He. right. exact Hin. }
      exists ps'. split; [exact E'|]. split.
      { split; [rewrite (proj1 SS'); apply SS|]. intros k p p' H1 H2.
        destruct (V1 k _ (prepare_in g tr ps k p H1)) as (p2 & Hin2 & _). destruct (proj2 SS' k p2 p' Hin2 H2) as [A1 A2]. destruct (proj2 SS k p p2 H1 Hin2) as [B1 B2].
        split; congruence. }
      split; [exact Ok'|]. intros k p Hin.
      destruct (V1 k _ (prepare_in g tr ps k p Hin)) as (p2 & Hin2 & _ & _ & _ & F2 & T2). cbn in F2, T2.
      destruct (V' k p2 Hin2) as (p' & Hin' & W'). exists p'. split; [exact Hin'|]. intros i Hi.
      rewrite W' by (rewrite (proj2 (proj2 SS k p p2 Hin Hin2)); exact Hi).
      destruct (tr k); cbn [app map lsum].
      * rewrite T2 by (auto; exact Hi). unfold lsum. cbn. lra.
      * rewrite F2 by reflexivity. unfold lsum. cbn. lra.
    + destruct (IH r ps t Hok) as (ps' & E' & SS' & Ok' & V'); [intros e Hin; apply He; right; exact Hin|].
      exists ps'. auto.
Qed.

Section Hist.
Context {S A : Type}.
Variables (get : S -> string -> option A) (one : R -> nat -> string -> prm -> S -> res (prm * S))
          (agood : A -> nat -> Prop)
          (W : R -> nat -> list R -> list R -> A -> list R) (G : R -> nat -> list R -> list R -> A -> A).
Hypothesis Hfrozen : forall lr t k p s, p_train p = false -> one lr t k p s = Ok (p, s).
Hypothesis Hactive : forall lr t k p s a, prm_ok (tsh (p_data p)) p -> p_train p = true -> get s k = Some a -> agood a (tot (p_data p)) ->
  exists s', one lr t k p s = Ok (set_weight p (W lr t (tdat (p_data p)) (tdat (p_grad p)) a), s') /\
    get s' k = Some (G lr t (tdat (p_data p)) (tdat (p_grad p)) a) /\ forall k', k' <> k -> get s' k' = get s k'.
Hypothesis Hlen : forall lr t w g a, length g = length w -> agood a (length w) ->
  length (W lr t w g a) = length w /\ agood (G lr t w g a) (length w).

Fixpoint run_gen (lr : R) (t : nat) (ps : pmap) (s : S) (evs : list event) : nat * st (pmap * S) :=
  match evs with
  | [] => (t, Ret (ps, s))
  | ELr r :: es => run_gen r t ps s es
  | EStep g tr :: es =>
      match each (one lr (Datatypes.S t)) (prepare g tr ps) s with
      | Ret (ps', s') => run_gen lr (Datatypes.S t) ps' s' es | Exc s => (Datatypes.S t, Exc s) | Bad => (Datatypes.S t, Bad)
      end
  end.

Definition el_step (x : list R * A) (e : R * list R * nat) : list R * A :=
  let '(lr, g, t) := e in (W lr t (fst x) g (snd x), G lr t (fst x) g (snd x)).


Definition newp (lr : R) (t : nat) (k : string) (p : prm) (a : A) : prm :=
  if p_train p then set_weight p (W lr t (tdat (p_data p)) (tdat (p_grad p)) a) else p.
Definition newa (lr : R) (t : nat) (k : string) (p : prm) (a : A) : A :=
  if p_train p then G lr t (tdat (p_data p)) (tdat (p_grad p)) a else a.

Lemma newp_ok lr t k p a : prm_ok (tsh (p_data p)) p -> agood a (tot (p_data p)) ->
  prm_ok (tsh (p_data p)) (newp lr t k p a) /\ tsh (p_data (newp lr t k p a)) = tsh (p_data p) /\
  tot (p_data (newp lr t k p a)) = tot (p_data p) /\ agood (newa lr t k p a) (tot (p_data p)).
Proof.
  intros Hp Ha. unfold newp, newa. destruct (p_train p); [|auto]. pose proof (prm_tot p Hp) as HT. unfold tot in *.
  destruct (Hlen lr t (tdat (p_data p)) (tdat (p_grad p)) a HT Ha) as [L1 L2]. destruct Hp as (_ & W1 & S2 & W2). cbn.
  repeat split; try assumption. unfold twf. cbn. rewrite L1. exact W1.
Qed.

Lemma run_gen_spec evs : forall lr t ps s, pmap_ok ps -> (forall e, In e evs -> event_ok ps e) ->
  (forall k p, In (k, p) ps -> exists a, get s k = Some a /\ agood a (tot (p_data p))) ->
  exists ps' s', run_gen lr t ps s evs = ((t + steps_in evs)%nat, Ret (ps', s')) /\ same_shapes ps ps' /\ pmap_ok ps' /\
    forall k p a, In (k, p) ps -> get s k = Some a -> exists p' a', In (k, p') ps' /\ get s' k = Some a' /\
      (tdat (p_data p'), a') = fold_left el_step (active k lr t evs) (tdat (p_data p), a).
Proof.
  induction evs as [|e evs IH]; intros lr t ps s Hok He Hs; cbn [run_gen active].
  - exists ps, s. rewrite Nat.add_0_r. split; [reflexivity|]. split; [split; [reflexivity|]|split; [exact Hok|]].
    + intros k p p' H1 H2. rewrite (in_unique ps k p p' (proj1 Hok) H1 H2). auto.
    + intros k p a Hin Ga. exists p, a. auto.
  - destruct e as [g tr|r].
    + pose proof (He _ (or_introl eq_refl)) as He0. pose proof (prepare_ok g tr ps Hok He0) as Hok1.
      destruct (each_ok get (one lr (Datatypes.S t)) (fun k p a => prm_ok (tsh (p_data p)) p /\ agood a (tot (p_data p))) (newp lr (Datatypes.S t)) (newa lr (Datatypes.S t))) with (ps := prepare g tr ps) (s := s) as (ps1 & s1 & E1 & K1 & V1 & _).
      { intros k p s0 a [Hp Ha] Ga. unfold newp, newa. destruct (p_train p) eqn:Et; [apply Hactive; assumption|]. exists s0. rewrite Hfrozen by exact Et. auto. }
      { apply Hok1. }
      { intros k q Hq. destruct (prepare_inv _ _ _ _ _ Hq) as (p & Hin & Eq). destruct (Hs k p Hin) as (a & Ga & Ha). exists a. split; [exact Ga|].
        split; [apply (proj2 Hok1 k q Hq)|]. rewrite Eq. exact Ha. }
      rewrite E1. rewrite prepare_keys in K1.
      assert (Hnd1 : NoDup (map fst ps1)) by (rewrite K1; apply Hok).
      assert (Q : forall k p, In (k, p) ps -> exists a q1, get s k = Some a /\ agood a (tot (p_data p)) /\ In (k, q1) ps1 /\
         q1 = newp lr (Datatypes.S t) k (mkP (p_data p) (set_dat (p_grad p) (g k)) (tr k)) a /\ prm_ok (tsh (p_data q1)) q1 /\
         tsh (p_data q1) = tsh (p_data p) /\ tot (p_data q1) = tot (p_data p) /\
         get s1 k = Some (newa lr (Datatypes.S t) k (mkP (p_data p) (set_dat (p_grad p) (g k)) (tr k)) a) /\
         agood (newa lr (Datatypes.S t) k (mkP (p_data p) (set_dat (p_grad p) (g k)) (tr k)) a) (tot (p_data p))).
      { intros k p Hin. destruct (Hs k p Hin) as (a & Ga & Ha). pose proof (prepare_in g tr ps k p Hin) as Hq.
        destruct (V1 k _ a Hq Ga) as [H1 H2]. pose proof (proj2 Hok1 k _ Hq) as Hpq.
        destruct (newp_ok lr (Datatypes.S t) k _ a Hpq Ha) as (N1 & N2 & N3 & N4).
        exists a. eexists. split; [exact Ga|]. split; [exact Ha|]. split; [exact H1|]. split; [reflexivity|].
        split; [rewrite N2; exact N1|]. split; [exact N2|]. split; [exact N3|]. split; [exact H2|exact N4]. }
      assert (back : forall k q, In (k, q) ps1 -> exists p, In (k, p) ps).
      { intros k q Hq. apply key_in. rewrite <- K1. apply key_in. eauto. }
      assert (Ok1 : pmap_ok ps1).
      { split; [exact Hnd1|]. intros k q Hq. destruct (back k q Hq) as [p Hin]. destruct (Q k p Hin) as (a & q1 & _ & _ & Hin1 & _ & P1 & _).
        rewrite (in_unique ps1 k q q1 Hnd1 Hq Hin1). exact P1. }
      assert (SS : same_shapes ps ps1).
      { split; [exact K1|]. intros k p q H1 H2. destruct (Q k p H1) as (a & q1 & _ & _ & Hin1 & _ & _ & S1 & T1 & _).
        rewrite (in_unique ps1 k q q1 Hnd1 H2 Hin1). auto. }
      destruct (IH lr (Datatypes.S t) ps1 s1 Ok1) as (ps' & s' & E' & SS' & Ok' & V').
      { intros e Hin. apply (event_ok_same ps ps1 e SS). apply He. right. exact Hin. }
      { intros k q Hq. destruct (back k q Hq) as [p Hin]. destruct (Q k p Hin) as (a & q1 & _ & _ & Hin1 & _ & _ & _ & T1 & G1 & A1).
        rewrite (in_unique ps1 k q q1 Hnd1 Hq Hin1). eexists. split; [exact G1|]. rewrite T1. exact A1. }
      exists ps', s'. split; [rewrite E'; f_equal; unfold steps_in; cbn; lia|]. split.
      { split; [rewrite (proj1 SS'); exact K1|]. intros k p p' H1 H2. destruct (Q k p H1) as (a & q1 & _ & _ & Hin1 & _ & _ & S1 & T1 & _).
        destruct (proj2 SS' k q1 p' Hin1 H2) as [A1 A2]. split; congruence. }
      split; [exact Ok'|]. intros k p a Hin Ga.
      destruct (Q k p Hin) as (a0 & q1 & Ga0 & _ & Hin1 & Eq1 & _ & _ & _ & G1 & _). assert (a0 = a) as -> by congruence.
      destruct (V' k q1 _ Hin1 G1) as (p' & a' & Hin' & G' & Ev). exists p', a'. split; [exact Hin'|]. split; [exact G'|].
      rewrite Ev, fold_left_app. f_equal. rewrite Eq1. unfold newp, newa. cbn [p_train]. destruct (tr k); reflexivity.
    + destruct (IH r t ps s Hok) as (ps' & s' & E' & R'); [intros e Hin; apply He; right; exact Hin|exact Hs|].
      exists ps', s'. split; [exact E'|exact R'].
Qed.
End Hist.

(** ** Closed forms *)
Lemma ewsum_snoc c l x : ewsum c (l ++ [x]) = c * ewsum c l + x.
Proof. induction l as [|y l IH]; cbn; [lra|]. rewrite IH, app_length. cbn. rewrite Nat.add_1_r. cbn. lra. Qed.

Lemma prefixes_snoc {V} (l : list V) x : prefixes (l ++ [x]) = prefixes l ++ [l ++ [x]].
Proof.
  unfold prefixes. rewrite app_length. cbn [length]. rewrite Nat.add_1_r, seq_S, map_app. cbn [map Nat.add]. f_equal.
  - apply map_ext_in. intros n Hn. apply in_seq in Hn. rewrite firstn_app. replace (Datatypes.S n - length l)%nat with 0%nat by lia. cbn [firstn]. apply app_nil_r.
  - rewrite firstn_all2; [reflexivity|]. rewrite app_length. cbn. lia.
Qed.

Lemma active_lengths ps k p evs : In (k, p) ps -> (forall e, In e evs -> event_ok ps e) -> forall lr t,
  Forall (fun '(_, g, _) => length g = tot (p_data p)) (active k lr t evs).
Proof.
  intros Hin. induction evs as [|e evs IH]; intros He lr t; cbn; [constructor|].
  assert (He' : forall e, In e evs -> event_ok ps e) by (intros e' He2; apply He; right; exact He2).
  destruct e as [g tr|r]; [|apply IH; exact He']. apply Forall_app. split; [|apply IH; exact He'].
  destruct (tr k); [|constructor]. constructor; [|constructor]. apply (He _ (or_introl eq_refl)). exact Hin.
Qed.

Lemma zeros_len s : length (tdat (zeros_like s)) = prodN s.
Proof. cbn. apply tab_length. Qed.

Lemma zeros_nth s i : (tdat (zeros_like s)).[i] = 0.
Proof.
  cbn. destruct (Nat.lt_ge_cases i (prodN s)) as [H|H]; [apply (nth_tab (prodN s) (fun _ => 0) i 0 H)|]. apply nth_overflow. rewrite tab_length. exact H.
Qed.

Lemma find_momentum_new ps k p : NoDup (map fst ps) -> In (k, p) ps -> find_key (momentum_new ps) k = Some (zeros_like (tsh (p_data p))).
Proof.
  intros Hnd Hin. apply in_find.
  - unfold momentum_new. rewrite map_map. erewrite map_ext; [exact Hnd|]. intros [k' p']. reflexivity.
  - unfold momentum_new. apply in_map_iff. exists (k, p). auto.
Qed.

(** ** Momentum *)
Definition mom_get (v : tmap) (k : string) : option (list R) := option_map tdat (find_key v k).
Definition mom_G (gamma lr : R) (t : nat) (w g a : list R) : list R := tab (length w) (fun i => gamma * a.[i] + lr * g.[i]).
Definition mom_W (gamma lr : R) (t : nat) (w g a : list R) : list R := tab (length w) (fun i => w.[i] - (gamma * a.[i] + lr * g.[i])).

Lemma run_momentum_gen gamma evs : forall lr t ps vel,
  run_momentum lr gamma ps vel evs = snd (run_gen (fun lr _ => momentum_one lr gamma) lr t ps vel evs).
Proof.
  induction evs as [|[g tr|r] evs IH]; intros lr t ps vel; cbn [run_momentum run_gen snd]; [reflexivity| |apply IH].
  unfold momentum_step. destruct (each (momentum_one lr gamma) (prepare g tr ps) vel) as [[ps' vel']|[ps' vel']|]; try reflexivity. apply IH.
Qed.

Lemma mom_active gamma lr (t : nat) k p s a : prm_ok (tsh (p_data p)) p -> p_train p = true -> mom_get s k = Some a -> length a = tot (p_data p) ->
  exists s', momentum_one lr gamma k p s = Ok (set_weight p (mom_W gamma lr t (tdat (p_data p)) (tdat (p_grad p)) a), s') /\
    mom_get s' k = Some (mom_G gamma lr t (tdat (p_data p)) (tdat (p_grad p)) a) /\ forall k', k' <> k -> mom_get s' k' = mom_get s k'.
Proof.
  intros Hp Et Ga Ha. unfold mom_get in Ga. destruct (find_key s k) as [v|] eqn:Ek; [|discriminate]. injection Ga as <-.
  unfold momentum_one. rewrite Et, (proj1 (proj2 (proj2 Hp))), nshape_refl. cbn [dw_assert bind]. pose proof (prm_tot p Hp) as HT.
  unfold at_key. rewrite Ek. cbn [bind]. rewrite !emap_Ok by (unfold tot in *; lia). cbn [bind]. rewrite HT. rewrite !put_full by (unfold tot in *; lia).
  eexists. split; [|split].
  - f_equal. f_equal. unfold mom_W, set_weight. f_equal. f_equal. unfold tot. apply tab_ext. intros i Hi. rewrite nth_tab by exact Hi. reflexivity.
  - unfold mom_get. rewrite (find_set_eq s k _ v Ek). reflexivity.
  - intros k' Hk. unfold mom_get. rewrite find_set_neq by exact Hk. reflexivity.
Qed.

Lemma mom_closed gamma n w (act : list (R * list R * nat)) : length w = n -> Forall (fun '(_, g, _) => length g = n) act ->
  let r := fold_left (el_step (mom_W gamma) (mom_G gamma)) act (w, tab n (fun _ => 0)) in
  length (fst r) = n /\ length (snd r) = n /\ forall i, (i < n)%nat ->
    (snd r).[i] = ewsum gamma (map (fun '(lr, g, _) => lr * g.[i]) act) /\
    (fst r).[i] = w.[i] - lsum (map (fun pre => ewsum gamma (map (fun '(lr, g, _) => lr * g.[i]) pre)) (prefixes act)).
Proof.
  intros Hw. induction act as [|[[lr g] t] act IH] using rev_ind; intros Hall.
  - cbn. rewrite tab_length. split; [exact Hw|]. split; [reflexivity|]. intros i Hi. rewrite nth_tab by exact Hi. unfold lsum. cbn. split; lra.
  - apply Forall_app in Hall. destruct Hall as [Hall Hg]. inversion_clear Hg as [|? ? Hg0 _]. specialize (IH Hall). cbv zeta in *. rewrite fold_left_app. cbn [fold_left el_step].
    destruct (fold_left _ act _) as [w' a']. cbn [fst snd] in *. destruct IH as (L1 & L2 & V). unfold mom_W, mom_G. rewrite !tab_length, L1.
    split; [reflexivity|]. split; [reflexivity|]. intros i Hi. rewrite !nth_tab by exact Hi. destruct (V i Hi) as [V1 V2]. rewrite V1, V2.
    rewrite prefixes_snoc, !map_app. cbn [map]. rewrite ewsum_snoc. split; [lra|]. rewrite lsum_app. unfold lsum at 3. cbn [fold_right]. rewrite map_app. cbn [map]. rewrite ewsum_snoc. lra.
Qed.

Lemma run_momentum_spec lr gamma t ps evs : pmap_ok ps -> (forall e, In e evs -> event_ok ps e) ->
  exists ps' vel', run_momentum lr gamma ps (momentum_new ps) evs = Ret (ps', vel') /\ same_shapes ps ps' /\ pmap_ok ps' /\
    forall k p, In (k, p) ps -> exists p' v, In (k, p') ps' /\ find_key vel' k = Some v /\ length (tdat v) = tot (p_data p) /\
      forall i, (i < tot (p_data p))%nat ->
        (tdat v).[i] = ewsum gamma (map (fun '(lr, g, _) => lr * g.[i]) (active k lr t evs)) /\
        (tdat (p_data p')).[i] = (tdat (p_data p)).[i] - lsum (map (fun pre => ewsum gamma (map (fun '(lr, g, _) => lr * g.[i]) pre)) (prefixes (active k lr t evs))).
Proof.
  intros Hok He.
  destruct (run_gen_spec mom_get (fun lr _ => momentum_one lr gamma) (fun a n => length a = n) (mom_W gamma) (mom_G gamma)) with (evs := evs) (lr := lr) (t := t) (ps := ps) (s := momentum_new ps) as (ps' & vel' & E & SS & Ok' & V).
  - intros lr0 t0 k p s Et. unfold momentum_one. rewrite Et. reflexivity.
  - intros. apply mom_active; assumption.
  - intros lr0 t0 w g a Hg Ha. unfold mom_W, mom_G. rewrite !tab_length. auto.
  - exact Hok.
  - exact He.
  - intros k p Hin. unfold mom_get. rewrite (find_momentum_new ps k p (proj1 Hok) Hin). eexists. split; [reflexivity|].
    rewrite zeros_len. destruct (proj2 Hok k p Hin) as (_ & W1 & _). unfold tot. symmetry. exact W1.
  - exists ps', vel'. split; [rewrite (run_momentum_gen gamma evs lr t), E; reflexivity|]. split; [exact SS|]. split; [exact Ok'|].
    intros k p Hin. destruct (V k p (tab (tot (p_data p)) (fun _ => 0)) Hin) as (p' & a' & Hin' & G' & Ev).
    { unfold mom_get. rewrite (find_momentum_new ps k p (proj1 Hok) Hin). cbn. destruct (proj2 Hok k p Hin) as (_ & W1 & _). unfold tot. rewrite W1. reflexivity. }
    destruct (mom_closed gamma (tot (p_data p)) (tdat (p_data p)) (active k lr t evs) eq_refl (active_lengths ps k p evs Hin He lr t)) as (L1 & L2 & C).
    rewrite <- Ev in *. cbn [fst snd] in *. unfold mom_get in G'. destruct (find_key vel' k) as [v|] eqn:Ek; [|discriminate]. injection G' as <-.
    exists p', v. auto.
Qed.

(** ** Adam *)
Definition adam_get (s : tmap * tmap) (k : string) : option (list R * list R) :=
  match find_key (fst s) k, find_key (snd s) k with Some m, Some v => Some (tdat m, tdat v) | _, _ => None end.
Definition adam_m (b1 : R) (g m : list R) (i : nat) : R := b1 * m.[i] + (1 - b1) * g.[i].
Definition adam_v (b2 : R) (g v : list R) (i : nat) : R := b2 * v.[i] + (1 - b2) * (g.[i] * g.[i]).
Definition adam_G (b1 b2 : R) (lr : R) (t : nat) (w g : list R) (a : list R * list R) : list R * list R :=
  (tab (length w) (adam_m b1 g (fst a)), tab (length w) (adam_v b2 g (snd a))).
Definition adam_W (b1 b2 eps : R) (lr : R) (t : nat) (w g : list R) (a : list R * list R) : list R :=
  tab (length w) (fun i => w.[i] - lr * (adam_m b1 g (fst a) i / (1 - b1 ^ t)) / (sqrt (adam_v b2 g (snd a) i / (1 - b2 ^ t)) + eps)).

Lemma run_adam_gen b1 b2 eps evs : forall lr t ps s,
  run_adam lr b1 b2 eps t ps s evs = run_gen (fun lr t => adam_one lr b1 b2 eps t) lr t ps s evs.
Proof.
  induction evs as [|[g tr|r] evs IH]; intros lr t ps s; cbn [run_adam run_gen]; [reflexivity| |apply IH].
  unfold adam_step. destruct (each (adam_one lr b1 b2 eps (S t)) (prepare g tr ps) s) as [[ps' s']|[ps' s']|]; try reflexivity. apply IH.
Qed.

Lemma adam_active b1 b2 eps lr (t : nat) k p s a : prm_ok (tsh (p_data p)) p -> p_train p = true -> adam_get s k = Some a ->
  length (fst a) = tot (p_data p) /\ length (snd a) = tot (p_data p) ->
  exists s', adam_one lr b1 b2 eps t k p s = Ok (set_weight p (adam_W b1 b2 eps lr t (tdat (p_data p)) (tdat (p_grad p)) a), s') /\
    adam_get s' k = Some (adam_G b1 b2 lr t (tdat (p_data p)) (tdat (p_grad p)) a) /\ forall k', k' <> k -> adam_get s' k' = adam_get s k'.
Proof.
  intros Hp Et Ga [Hm Hv]. destruct s as [sm sv]. unfold adam_get in Ga. cbn [fst snd] in Ga.
  destruct (find_key sm k) as [m|] eqn:Em; [|discriminate]. destruct (find_key sv k) as [v|] eqn:Ev; [|discriminate]. injection Ga as <-. cbn [fst snd] in Hm, Hv.
  unfold adam_one. rewrite Et, (proj1 (proj2 (proj2 Hp))), nshape_refl. cbn [dw_assert bind fst snd]. pose proof (prm_tot p Hp) as HT.
  unfold at_key. rewrite Em, Ev. cbn [bind]. rewrite !emap_Ok by (unfold tot in *; lia). cbn [bind]. rewrite HT. rewrite !put_full by (unfold tot in *; lia).
  eexists. split; [|split].
  - f_equal. f_equal. unfold adam_W, set_weight. f_equal. f_equal. unfold tot. apply tab_ext. intros i Hi. rewrite !nth_tab by exact Hi. reflexivity.
  - unfold adam_get. cbn [fst snd]. rewrite (find_set_eq sm k _ m Em), (find_set_eq sv k _ v Ev). reflexivity.
  - intros k' Hk. unfold adam_get. cbn [fst snd]. rewrite !find_set_neq by exact Hk. reflexivity.
Qed.

Lemma adam_closed b1 b2 eps n w (act : list (R * list R * nat)) : length w = n -> Forall (fun '(_, g, _) => length g = n) act ->
  let r := fold_left (el_step (adam_W b1 b2 eps) (adam_G b1 b2)) act (w, (tab n (fun _ => 0), tab n (fun _ => 0))) in
  length (fst r) = n /\ length (fst (snd r)) = n /\ length (snd (snd r)) = n /\ forall i, (i < n)%nat ->
    (fst (snd r)).[i] = (1 - b1) * ewsum b1 (map (fun '(_, g, _) => g.[i]) act) /\
    (snd (snd r)).[i] = (1 - b2) * ewsum b2 (map (fun '(_, g, _) => g.[i] * g.[i]) act) /\
    (fst r).[i] = w.[i] - lsum (map (adam_move b1 b2 eps i) (prefixes act)).
Proof.
  intros Hw. induction act as [|[[lr g] t] act IH] using rev_ind; intros Hall.
  - cbn. rewrite tab_length. split; [exact Hw|]. split; [reflexivity|]. split; [reflexivity|]. intros i Hi. rewrite nth_tab by exact Hi. unfold lsum. cbn. repeat split; lra.
  - apply Forall_app in Hall. destruct Hall as [Hall Hg]. inversion_clear Hg as [|? ? Hg0 _]. specialize (IH Hall). cbv zeta in *. rewrite fold_left_app. cbn [fold_left el_step].
    destruct (fold_left _ act _) as [w' [m' v']]. cbn [fst snd] in *. destruct IH as (L1 & L2 & L3 & V). unfold adam_W, adam_G. cbn [fst snd]. rewrite !tab_length, L1.
    split; [reflexivity|]. split; [reflexivity|]. split; [reflexivity|]. intros i Hi. rewrite !nth_tab by exact Hi. destruct (V i Hi) as (V1 & V2 & V3).
    assert (Em : adam_m b1 g m' i = (1 - b1) * ewsum b1 (map (fun '(_, g, _) => g.[i]) (act ++ [(lr, g, t)]))).
    { unfold adam_m. rewrite V1, map_app. cbn [map]. rewrite ewsum_snoc. lra. }
    assert (Ev : adam_v b2 g v' i = (1 - b2) * ewsum b2 (map (fun '(_, g, _) => g.[i] * g.[i]) (act ++ [(lr, g, t)]))).
    { unfold adam_v. rewrite V2, map_app. cbn [map]. rewrite ewsum_snoc. lra. }
    split; [exact Em|]. split; [exact Ev|]. rewrite V3, prefixes_snoc, map_app, lsum_app, Em, Ev. unfold lsum at 3. cbn [map fold_right].
    unfold adam_move at 3. rewrite last_last. cbv zeta. lra.
Qed.

Lemma run_adam_spec lr b1 b2 eps t ps evs : pmap_ok ps -> (forall e, In e evs -> event_ok ps e) ->
  exists ps' s', run_adam lr b1 b2 eps t ps (adam_new ps) evs = ((t + steps_in evs)%nat, Ret (ps', s')) /\ same_shapes ps ps' /\ pmap_ok ps' /\
    forall k p, In (k, p) ps -> exists p' m v, In (k, p') ps' /\ find_key (fst s') k = Some m /\ find_key (snd s') k = Some v /\
      length (tdat m) = tot (p_data p) /\ length (tdat v) = tot (p_data p) /\
      forall i, (i < tot (p_data p))%nat ->
        (tdat m).[i] = (1 - b1) * ewsum b1 (map (fun '(_, g, _) => g.[i]) (active k lr t evs)) /\
        (tdat v).[i] = (1 - b2) * ewsum b2 (map (fun '(_, g, _) => g.[i] * g.[i]) (active k lr t evs)) /\
        (tdat (p_data p')).[i] = (tdat (p_data p)).[i] - lsum (map (adam_move b1 b2 eps i) (prefixes (active k lr t evs))).
Proof.
  intros Hok He.
  assert (G0 : forall k p, In (k, p) ps -> adam_get (adam_new ps) k = Some (tab (tot (p_data p)) (fun _ => 0), tab (tot (p_data p)) (fun _ => 0))).
  { intros k p Hin. unfold adam_get, adam_new. cbn [fst snd]. rewrite (find_momentum_new ps k p (proj1 Hok) Hin). cbn.
    destruct (proj2 Hok k p Hin) as (_ & W1 & _). unfold tot. rewrite W1. reflexivity. }
  destruct (run_gen_spec adam_get (fun lr t => adam_one lr b1 b2 eps t) (fun a n => length (fst a) = n /\ length (snd a) = n) (adam_W b1 b2 eps) (adam_G b1 b2)) with (evs := evs) (lr := lr) (t := t) (ps := ps) (s := adam_new ps) as (ps' & s' & E & SS & Ok' & V).
  - intros lr0 t0 k p s Et. unfold adam_one. rewrite Et. reflexivity.
  - intros. apply adam_active; assumption.
  - intros lr0 t0 w g a Hg Ha. unfold adam_W, adam_G. cbn [fst snd]. rewrite !tab_length. auto.
  - exact Hok.
  - exact He.
  - intros k p Hin. eexists. split; [apply (G0 k p Hin)|]. cbn. rewrite tab_length. auto.
  - exists ps', s'. split; [rewrite run_adam_gen, E; reflexivity|]. split; [exact SS|]. split; [exact Ok'|].
    intros k p Hin. destruct (V k p _ Hin (G0 k p Hin)) as (p' & a' & Hin' & G' & Ev).
    destruct (adam_closed b1 b2 eps (tot (p_data p)) (tdat (p_data p)) (active k lr t evs) eq_refl (active_lengths ps k p evs Hin He lr t)) as (L1 & L2 & L3 & C).
    rewrite <- Ev in *. cbn [fst snd] in *. unfold adam_get in G'. destruct (find_key (fst s') k) as [m|] eqn:Em; [|discriminate].
    destruct (find_key (snd s') k) as [v|] eqn:Evv; [|discriminate]. injection G' as <-. cbn [fst snd] in *.
    exists p', m, v. auto 10.
Qed.

(** ** Order independence *)
From Coq Require Import Permutation.
Section Order.
Context {S A : Type}.
Variables (get : S -> string -> option A) (one : string -> prm -> S -> res (prm * S))
          (good : string -> prm -> A -> Prop) (F : string -> prm -> A -> prm) (G : string -> prm -> A -> A).
Hypothesis Hone : forall k p s a, good k p a -> get s k = Some a ->
  exists s', one k p s = Ok (F k p a, s') /\ get s' k = Some (G k p a) /\ forall k', k' <> k -> get s' k' = get s k'.

Lemma NoDup_keys {V} (l : list (string * V)) : NoDup (map fst l) -> NoDup l.
Proof. apply NoDup_map_inv. Qed.

Lemma each_perm ps1 ps2 s : Permutation ps1 ps2 -> NoDup (map fst ps1) -> (forall k p, In (k, p) ps1 -> exists a, get s k = Some a /\ good k p a) ->
  exists r1 r2 s1 s2, each one ps1 s = Ret (r1, s1) /\ each one ps2 s = Ret (r2, s2) /\ Permutation r1 r2 /\ forall k, get s1 k = get s2 k.
Proof.
  intros HP Hnd Hg.
  assert (Hnd2 : NoDup (map fst ps2)) by (apply (Permutation_NoDup (Permutation_map fst HP) Hnd)).
  assert (Hg2 : forall k p, In (k, p) ps2 -> exists a, get s k = Some a /\ good k p a).
  { intros k p Hin. apply Hg. apply (Permutation_in _ (Permutation_sym HP) Hin). }
  destruct (each_ok get one good F G Hone ps1 s Hnd Hg) as (r1 & s1 & E1 & K1 & V1 & O1).
  destruct (each_ok get one good F G Hone ps2 s Hnd2 Hg2) as (r2 & s2 & E2 & K2 & V2 & O2).
  exists r1, r2, s1, s2. split; [exact E1|]. split; [exact E2|].
  assert (N1 : NoDup (map fst r1)) by (rewrite K1; exact Hnd). assert (N2 : NoDup (map fst r2)) by (rewrite K2; exact Hnd2). split.
  - apply NoDup_Permutation; [apply NoDup_keys; exact N1|apply NoDup_keys; exact N2|]. intros [k q]. split; intros Hq.
    + assert (Hk : In k (map fst ps1)) by (rewrite <- K1; apply key_in; eauto). apply key_in in Hk. destruct Hk as [p Hin].
      destruct (Hg k p Hin) as (a & Ga & _). destruct (V1 k p a Hin Ga) as [H1 _]. rewrite (in_unique r1 k q _ N1 Hq H1).
      apply (V2 k p a); [apply (Permutation_in _ HP Hin)|exact Ga].
    + assert (Hk : In k (map fst ps2)) by (rewrite <- K2; apply key_in; eauto). apply key_in in Hk. destruct Hk as [p Hin].
      destruct (Hg2 k p Hin) as (a & Ga & _). destruct (V2 k p a Hin Ga) as [H1 _]. rewrite (in_unique r2 k q _ N2 Hq H1).
      apply (V1 k p a); [apply (Permutation_in _ (Permutation_sym HP) Hin)|exact Ga].
  - intros k. destruct (in_dec string_dec k (map fst ps1)) as [Hi|Hn].
    + apply key_in in Hi. destruct Hi as [p Hin]. destruct (Hg k p Hin) as (a & Ga & _).
      rewrite (proj2 (V1 k p a Hin Ga)), (proj2 (V2 k p a (Permutation_in _ HP Hin) Ga)). reflexivity.
    + rewrite O1 by exact Hn. rewrite O2; [reflexivity|]. intros H. apply Hn. apply (Permutation_in _ (Permutation_sym (Permutation_map fst HP)) H).
Qed.
End Order.

Lemma sgd_perm lr ps1 ps2 : Permutation ps1 ps2 -> pmap_ok ps1 ->
  exists r1 r2, sgd_step lr ps1 = Ret (r1, tt) /\ sgd_step lr ps2 = Ret (r2, tt) /\ Permutation r1 r2.
Proof.
  intros HP [Hnd Hok].
  destruct (each_perm (fun (_ : unit) (_ : string) => Some tt) (sgd_one lr) (fun _ p _ => prm_ok (tsh (p_data p)) p) (sgd_new lr) (fun _ _ a => a)) with (ps1 := ps1) (ps2 := ps2) (s := tt)
    as (r1 & r2 & [] & [] & E1 & E2 & P & _); [|exact HP|exact Hnd| |].
  - intros k p s a Hp _. exists tt. split; [|split; [destruct a; reflexivity|reflexivity]]. unfold sgd_one, sgd_new. destruct (p_train p); [|reflexivity].
    rewrite (proj1 (proj2 (proj2 Hp))), nshape_refl. cbn [dw_assert bind]. pose proof (prm_tot p Hp) as HT. rewrite !emap_Ok by (unfold tot in *; lia).
    cbn [bind]. rewrite HT. rewrite put_full by reflexivity. reflexivity.
  - intros k p Hin. exists tt. split; [reflexivity|apply (Hok k p Hin)].
  - exists r1, r2. auto.
Qed.

Lemma mom_perm lr gamma ps1 ps2 vel : Permutation ps1 ps2 -> pmap_ok ps1 ->
  (forall k p, In (k, p) ps1 -> exists v, find_key vel k = Some v /\ length (tdat v) = tot (p_data p)) ->
  exists r1 r2 v1 v2, momentum_step lr gamma ps1 vel = Ret (r1, v1) /\ momentum_step lr gamma ps2 vel = Ret (r2, v2) /\ Permutation r1 r2 /\
    forall k, option_map tdat (find_key v1 k) = option_map tdat (find_key v2 k).
Proof.
  intros HP [Hnd Hok] Hv.
  apply (each_perm mom_get (momentum_one lr gamma) (fun _ p a => prm_ok (tsh (p_data p)) p /\ length a = tot (p_data p))
    (newp (mom_W gamma) lr 0) (newa (mom_G gamma) lr 0)); [|exact HP|exact Hnd|].
  - intros k p s a [Hp Ha] Ga. unfold newp, newa. destruct (p_train p) eqn:Et; [apply mom_active; assumption|].
    exists s. unfold momentum_one. rewrite Et. auto.
  - intros k p Hin. destruct (Hv k p Hin) as (v & Fv & Lv). exists (tdat v). unfold mom_get. rewrite Fv. split; [reflexivity|]. split; [apply (Hok k p Hin)|exact Lv].
Qed.

Lemma adam_perm lr b1 b2 eps t ps1 ps2 (s : tmap * tmap) : Permutation ps1 ps2 -> pmap_ok ps1 ->
  (forall k p, In (k, p) ps1 -> exists m v, find_key (fst s) k = Some m /\ find_key (snd s) k = Some v /\ length (tdat m) = tot (p_data p) /\ length (tdat v) = tot (p_data p)) ->
  exists r1 r2 s1 s2, adam_step lr b1 b2 eps t ps1 s = (S t, Ret (r1, s1)) /\ adam_step lr b1 b2 eps t ps2 s = (S t, Ret (r2, s2)) /\ Permutation r1 r2 /\
    forall k p, In (k, p) ps1 -> option_map tdat (find_key (fst s1) k) = option_map tdat (find_key (fst s2) k) /\ option_map tdat (find_key (snd s1) k) = option_map tdat (find_key (snd s2) k).
Proof.
  intros HP [Hnd Hok] Hv.
  assert (Q : forall k p, In (k, p) ps1 -> exists a, adam_get s k = Some a /\ prm_ok (tsh (p_data p)) p /\ length (fst a) = tot (p_data p) /\ length (snd a) = tot (p_data p)).
  { intros k p Hin. destruct (Hv k p Hin) as (m & v & Fm & Fv & Lm & Lv). exists (tdat m, tdat v). unfold adam_get. rewrite Fm, Fv. split; [reflexivity|]. split; [apply (Hok k p Hin)|auto]. }
  assert (Hone : forall k p s a, prm_ok (tsh (p_data p)) p /\ length (fst a) = tot (p_data p) /\ length (snd a) = tot (p_data p) -> adam_get s k = Some a ->
    exists s', adam_one lr b1 b2 eps (S t) k p s = Ok (newp (adam_W b1 b2 eps) lr (S t) k p a, s') /\ adam_get s' k = Some (newa (adam_G b1 b2) lr (S t) k p a) /\ forall k', k' <> k -> adam_get s' k' = adam_get s k').
  { intros k p s0 a [Hp Ha] Ga. unfold newp, newa. destruct (p_train p) eqn:Et; [apply adam_active; assumption|]. exists s0. unfold adam_one. rewrite Et. auto. }
  destruct (each_perm adam_get (adam_one lr b1 b2 eps (S t)) (fun _ p a => prm_ok (tsh (p_data p)) p /\ length (fst a) = tot (p_data p) /\ length (snd a) = tot (p_data p))
    (newp (adam_W b1 b2 eps) lr (S t)) (newa (adam_G b1 b2) lr (S t)) Hone ps1 ps2 s HP Hnd Q) as (r1 & r2 & s1 & s2 & E1 & E2 & P & V).
  exists r1, r2, s1, s2. unfold adam_step. rewrite E1, E2. split; [reflexivity|]. split; [reflexivity|]. split; [exact P|].
  intros k p Hin. destruct (Q k p Hin) as (a & Ga & Hgood).
  destruct (each_ok adam_get (adam_one lr b1 b2 eps (S t)) _ _ _ Hone ps1 s Hnd Q) as (r1' & s1' & E1' & _ & V1 & _).
  assert (s1' = s1) as -> by congruence. pose proof (proj2 (V1 k p a Hin Ga)) as G1. pose proof (V k) as V2. rewrite G1 in V2. unfold adam_get in G1, V2.
  destruct (find_key (fst s1) k) as [m1|]; [|discriminate]. destruct (find_key (snd s1) k) as [v1|]; [|discriminate].
  destruct (find_key (fst s2) k) as [m2|]; [|discriminate]. destruct (find_key (snd s2) k) as [v2|]; [|discriminate]. cbn. split; congruence.
Qed.

(** ** Constant gradients *)
Lemma ewsum_const c x l : (forall y, In y l -> y = x) -> (1 - c) * ewsum c l = x * (1 - c ^ length l).
Proof.
  induction l as [|y l IH]; intros H; cbn; [lra|]. rewrite (H y) by (left; reflexivity). rewrite Rmult_plus_distr_l, IH by (intros z Hz; apply H; right; exact Hz). ring.
Qed.

Lemma pow_lt1 b n : 0 <= b < 1 -> b ^ S n < 1.
Proof.
  intros [H0 H1]. induction n as [|n IH]; [cbn; lra|]. cbn [pow] in *. pose proof (pow_le b n H0).
  assert (b * (b * b ^ n) <= 1 * (b * b ^ n)) by (apply Rmult_le_compat_r; [apply Rmult_le_pos; assumption|lra]). lra.
Qed.


Lemma active_always k i c evs : always k i c evs -> forall lr t, 
  map snd (active k lr t evs) = seq (S t) (steps_in evs) /\ length (active k lr t evs) = steps_in evs /\
  (forall e, In e (active k lr t evs) -> (snd (fst e)).[i] = c).
Proof.
  induction evs as [|e evs IH]; intros Ha lr t; cbn; [split; [reflexivity|split; [reflexivity|intros e []]]|].
  assert (Ha' : always k i c evs) by (intros g tr Hin; apply Ha; right; exact Hin).
  destruct e as [g tr|r]; [|apply (IH Ha')]. destruct (Ha g tr (or_introl eq_refl)) as [Ht Hc]. rewrite Ht. cbn.
  destruct (IH Ha' lr (S t)) as (H1 & H2 & H3). unfold steps_in in *. cbn. rewrite H1, H2. split; [reflexivity|]. split; [reflexivity|].
  intros e [<-|He]; [exact Hc|apply H3; exact He].
Qed.

Lemma last_firstn {V} (l : list V) n d : (n < length l)%nat -> last (firstn (S n) l) d = nth n l d.
Proof.
  revert n. induction l as [|x l IH]; intros n Hn; cbn in Hn; [lia|]. destruct n as [|n]; [reflexivity|]. cbn [firstn nth]. rewrite <- IH by lia. cbn [firstn].
  destruct l as [|y l]; [cbn in Hn; lia|]. reflexivity.
Qed.

Lemma adam_move_const b1 b2 eps i c act n : 0 <= b1 < 1 -> 0 <= b2 < 1 ->
  (forall e, In e act -> (snd (fst e)).[i] = c) -> map snd act = seq 1 (length act) -> (n < length act)%nat ->
  adam_move b1 b2 eps i (firstn (S n) act) = fst (fst (nth n act (0, [], O))) * c / (Rabs c + eps).
Proof.
  intros H1 H2 Hc Ht Hn. unfold adam_move. rewrite last_firstn by exact Hn.
  assert (Et : snd (nth n act (0, [], O)) = S n).
  { rewrite <- (map_nth snd). rewrite Ht. rewrite (nth_indep _ _ 0%nat) by (rewrite seq_length; exact Hn). rewrite seq_nth by exact Hn. reflexivity. }
  destruct (nth n act (0, [], O)) as [[lr g] t]. cbn in Et. subst t. cbn [fst].
  assert (L : length (firstn (S n) act) = S n) by (rewrite firstn_length; lia).
  assert (I : forall e, In e (firstn (S n) act) -> (snd (fst e)).[i] = c).
  { intros e He. apply Hc. rewrite <- (firstn_skipn (S n) act). apply in_app_iff. left. exact He. }
  rewrite (ewsum_const b1 c), (ewsum_const b2 (c * c)), !map_length, !L.
  - pose proof (pow_lt1 b1 n H1). pose proof (pow_lt1 b2 n H2).
    replace (c * (1 - b1 ^ S n) / (1 - b1 ^ S n)) with c by (field; lra).
    replace (c * c * (1 - b2 ^ S n) / (1 - b2 ^ S n)) with (c * c) by (field; lra).
    rewrite <- (Rabs_right (c * c)) by (apply Rle_ge; apply Rle_0_sqr). rewrite Rabs_mult. rewrite sqrt_square by apply Rabs_pos. reflexivity.
  - intros y Hy. apply in_map_iff in Hy. destruct Hy as ([[lr' g'] t'] & <- & He). pose proof (I _ He) as E. cbn in E. rewrite E. reflexivity.
  - intros y Hy. apply in_map_iff in Hy. destruct Hy as ([[lr' g'] t'] & <- & He). exact (I _ He).
Qed.

Lemma lsum_scal_map {V} (f : V -> R) c l : lsum (map (fun x => f x * c) l) = lsum (map f l) * c.
Proof. unfold lsum. induction l as [|x l IH]; cbn; [lra|]. rewrite IH. lra. Qed.

Lemma adam_total_const b1 b2 eps i c act : 0 <= b1 < 1 -> 0 <= b2 < 1 ->
  (forall e, In e act -> (snd (fst e)).[i] = c) -> map snd act = seq 1 (length act) ->
  lsum (map (adam_move b1 b2 eps i) (prefixes act)) = lsum (map (fun e => fst (fst e)) act) * (c / (Rabs c + eps)).
Proof.
  intros H1 H2 Hc Ht. rewrite <- lsum_scal_map. unfold prefixes. rewrite map_map. f_equal.
  apply (list_ext _ _ 0); rewrite !map_length, ?seq_length; [reflexivity|]. intros n Hn.
  rewrite (nth_indep (map _ (seq 0 (length act))) 0 (adam_move b1 b2 eps i (firstn 1 act))) by (rewrite map_length, seq_length; exact Hn).
  rewrite (map_nth (fun n => adam_move b1 b2 eps i (firstn (S n) act)) (seq 0 (length act)) 0%nat n), seq_nth by exact Hn. cbn [Nat.add].
  rewrite (adam_move_const b1 b2 eps i c act n H1 H2 Hc Ht Hn).
  rewrite (nth_indep (map _ act) 0 ((fun e : R * list R * nat => fst (fst e) * (c / (Rabs c + eps))) (0, [], O))) by (rewrite map_length; exact Hn).
  rewrite (map_nth (fun e : R * list R * nat => fst (fst e) * (c / (Rabs c + eps)))). unfold Rdiv. rewrite Rmult_assoc. reflexivity.
Qed.

(** A parameter that was frozen for the first [f] steps. *)

Lemma active_frozen k evs1 evs2 : (forall e, In e evs1 -> frozen_event k e) -> forall lr t,
  active k lr t (evs1 ++ evs2) = active k (final_lr lr evs1) (t + steps_in evs1) evs2.
Proof.
  induction evs1 as [|e evs1 IH]; intros Hf lr t; cbn; [rewrite Nat.add_0_r; reflexivity|].
  assert (Hf' : forall e, In e evs1 -> frozen_event k e) by (intros e' He; apply Hf; right; exact He).
  pose proof (Hf e (or_introl eq_refl)) as H0. destruct e as [g tr|r]; cbn in H0.
  - rewrite H0. cbn. rewrite IH by exact Hf'. unfold steps_in. cbn. f_equal. lia.
  - rewrite IH by exact Hf'. reflexivity.
Qed.

Lemma pow_decr b n m : 0 < b < 1 -> (n < m)%nat -> b ^ m < b ^ n.
Proof.
  intros Hb Hnm. replace m with (n + S (m - n - 1))%nat by lia. rewrite pow_add. pose proof (pow_lt b n (proj1 Hb)).
  pose proof (pow_lt1 b (m - n - 1) (conj (Rlt_le _ _ (proj1 Hb)) (proj2 Hb))).
  apply Rlt_le_trans with (b ^ n * 1); [apply Rmult_lt_compat_l; assumption|lra].
Qed.

(** ** Mismatched gradient *)
Lemma sgd_mismatch lr ps : (forall k p, In (k, p) ps -> prm_ok (tsh (p_data p)) p \/ (p_train p = true /\ tsh (p_grad p) <> tsh (p_data p))) ->
  (exists k p, In (k, p) ps /\ p_train p = true /\ tsh (p_grad p) <> tsh (p_data p)) -> exists ps', sgd_step lr ps = Exc (ps', tt).
Proof.
  unfold sgd_step. induction ps as [|[k p] ps IH]; intros Hall (k0 & p0 & Hin & Ht & Hne); [destruct Hin|]. cbn [each].
  destruct (Hall k p (or_introl eq_refl)) as [Hp|[Ht0 Hne0]].
  - assert (E1 : exists p', sgd_one lr k p tt = Ok (p', tt)).
    { unfold sgd_one. destruct (p_train p); [|eauto]. rewrite (proj1 (proj2 (proj2 Hp))), nshape_refl. cbn [dw_assert bind]. pose proof (prm_tot p Hp) as HT.
      rewrite !emap_Ok by (unfold tot in *; lia). cbn [bind]. eauto. }
    destruct E1 as [p' E1]. rewrite E1. destruct IH as [ps' E2].
    + intros k2 p2 H2. apply (Hall k2 p2). right. exact H2.
    + destruct Hin as [Heq|Hin]; [|eauto 6]. injection Heq as -> ->. exfalso. apply Hne. apply Hp.
    + rewrite E2. eauto.
  - assert (E1 : sgd_one lr k p tt = Throw).
    { unfold sgd_one. rewrite Ht0. destruct (nshape_eqb (tsh (p_grad p)) (tsh (p_data p))) eqn:E; [|reflexivity].
      exfalso. apply Hne0. apply (list_eqb_spec Nat.eqb Nat.eqb_eq). exact E. }
    rewrite E1. eauto.
Qed.

Lemma ewsum_rsum gamma l : ewsum gamma l = rsum (length l) (fun j => gamma ^ (length l - 1 - j) * l.[j]).
Proof.
  induction l as [|x l IH] using rev_ind; [reflexivity|]. rewrite ewsum_snoc, IH, app_length. cbn [length]. rewrite Nat.add_1_r. cbn [rsum].
  rewrite app_nth2, Nat.sub_diag by lia. cbn [nth]. replace (S (length l) - 1 - length l)%nat with 0%nat by lia. cbn [pow]. rewrite Rmult_1_l. f_equal.
  rewrite <- rsum_scal_l. apply rsum_ext. intros j Hj. rewrite app_nth1 by exact Hj. replace (S (length l) - 1 - j)%nat with (S (length l - 1 - j)) by lia. cbn [pow]. ring.
Qed.
