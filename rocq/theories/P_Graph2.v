(** Proofs about the graph that is built, its topological orders and the numbers of its nodes. *)
From Coq Require Import String Permutation Lia.
From Verif Require Import Base BaseFacts M_Nn M_Graph M_Model S_Graph P_Graph.
Open Scope nat_scope.

Definition op_edges (ps : list phnode) (op : nat) : list edge :=
  map (fun ap => mkEdge (GD (fst ap)) (GO op) (snd ap)) (combine (args_at ps op) (seq 0 (length (args_at ps op)))).
Definition data_edges (ps : list phnode) (d : nat) : list edge :=
  if produced ps d then [mkEdge (GO d) (GD d) 0] else [].

Lemma gnode_eqb_spec a b : gnode_eqb a b = true <-> a = b.
Proof. destruct a, b; cbn; try (split; congruence); rewrite Nat.eqb_eq; split; congruence. Qed.
Lemma in_nodes_b n l : existsb (gnode_eqb n) l = true <-> In n l.
Proof.
  rewrite existsb_exists. split.
  - intros (x & H & E). apply gnode_eqb_spec in E. subst; exact H.
  - intros H. exists n. split; [exact H|apply gnode_eqb_spec; reflexivity].
Qed.
Lemma get_node_edges n g : gr_edges (get_node n g) = gr_edges g.
Proof. unfold get_node. destruct (existsb _ _); reflexivity. Qed.
Lemma get_node_nodes n g x : In x (gr_nodes (get_node n g)) <-> In x (gr_nodes g) \/ x = n.
Proof.
  unfold get_node. destruct (existsb _ _) eqn:E; cbn [gr_nodes].
  - apply in_nodes_b in E. split; [auto|]. intros [H| ->]; assumption.
  - rewrite in_app_iff. cbn. intuition congruence.
Qed.
Lemma get_node_NoDup n g : NoDup (gr_nodes g) -> NoDup (gr_nodes (get_node n g)).
Proof.
  intros H. unfold get_node. destruct (existsb _ _) eqn:E; [exact H|]. cbn [gr_nodes].
  apply NoDup_rev in H. rewrite <- (rev_involutive (gr_nodes g ++ [n])). apply NoDup_rev. rewrite rev_app_distr. cbn. constructor; [|exact H].
  intros X. apply in_rev in X. apply in_nodes_b in X. congruence.
Qed.

Lemma link_args_edges op args : forall port g,
  gr_edges (link_args op port args g) = gr_edges g ++ map (fun ap => mkEdge (GD (fst ap)) (GO op) (snd ap)) (combine args (seq port (length args))).
Proof.
  induction args as [|a t IH]; intros port g; cbn [link_args combine map length seq]; [rewrite app_nil_r; reflexivity|].
  rewrite IH. unfold link at 1. cbn [gr_edges]. rewrite get_node_edges, <- app_assoc. reflexivity.
Qed.
Lemma link_args_nodes op args : forall port g x,
  In x (gr_nodes (link_args op port args g)) <-> In x (gr_nodes g) \/ exists a, In a args /\ x = GD a.
Proof.
  induction args as [|a t IH]; intros port g x; cbn [link_args].
  - split; [auto|]. intros [H|(a & [] & _)]; exact H.
  - rewrite IH. unfold link. cbn [gr_nodes]. rewrite get_node_nodes. split.
    + intros [[H| ->]|(b & H & ->)]; [left; exact H|right; exists a; split; [left; reflexivity|reflexivity]|right; exists b; split; [right; exact H|reflexivity]].
    + intros [H|(b & [->|H] & ->)]; [left; left; exact H|left; right; reflexivity|right; eauto].
Qed.
Lemma link_args_NoDup op args : forall port g, NoDup (gr_nodes g) -> NoDup (gr_nodes (link_args op port args g)).
Proof.
  induction args as [|a t IH]; intros port g H; cbn [link_args]; [exact H|]. apply IH. unfold link. cbn [gr_nodes]. apply get_node_NoDup, H.
Qed.

Lemma fold_link_op ps ops : forall g,
  gr_edges (fold_left (link_op ps) ops g) = gr_edges g ++ flat_map (op_edges ps) ops /\
  (NoDup (gr_nodes g) -> NoDup (gr_nodes (fold_left (link_op ps) ops g))) /\
  (forall x, In x (gr_nodes (fold_left (link_op ps) ops g)) <->
     In x (gr_nodes g) \/ (exists o, In o ops /\ produced ps o = true /\ x = GO o) \/
     (exists o a, In o ops /\ In a (args_at ps o) /\ x = GD a)).
Proof.
  induction ops as [|o t IH]; intros g; cbn [fold_left flat_map].
  - rewrite app_nil_r. split; [reflexivity|]. split; [auto|]. intros x. split; [auto|].
    intros [H|[(o & [] & _)|(o & a & [] & _)]]; exact H.
  - destruct (IH (link_op ps g o)) as (E & ND & N). split; [|split].
    + rewrite E, app_assoc. f_equal. unfold link_op, op_edges, args_at. destruct (args_of ps o) as [args|]; [|cbn; rewrite app_nil_r; reflexivity].
      rewrite link_args_edges, get_node_edges. reflexivity.
    + intros H. apply ND. unfold link_op. destruct (args_of ps o); [apply link_args_NoDup, get_node_NoDup, H|exact H].
    + intros x. rewrite N. unfold link_op.
      assert (X : In x (gr_nodes (match args_of ps o with Some args => link_args o 0 args (get_node (GO o) g) | None => g end)) <->
                  In x (gr_nodes g) \/ (produced ps o = true /\ x = GO o) \/ exists a, In a (args_at ps o) /\ x = GD a).
      { unfold produced, args_at. destruct (args_of ps o) as [args|].
        - rewrite link_args_nodes, get_node_nodes. intuition.
        - split; [auto|]. intros [H|[[H _]|(a & [] & _)]]; [exact H|discriminate]. }
      rewrite X. split.
      * intros [[H|[[H ->]|(a & H & ->)]]|[(o' & H & H2 & ->)|(o' & a & H & H2 & ->)]].
        -- left; exact H.
        -- right; left. exists o. split; [left; reflexivity|auto].
        -- right; right. exists o, a. split; [left; reflexivity|auto].
        -- right; left. exists o'. split; [right; exact H|auto].
        -- right; right. exists o', a. split; [right; exact H|auto].
      * intros [H|[(o' & [->|H] & H2 & ->)|(o' & a & [->|H] & H2 & ->)]].
        -- auto.
        -- left; right; left; auto.
        -- right; left; eauto.
        -- left; right; right; eauto.
        -- right; right; eauto.
Qed.

Lemma fold_link_data ps ds : forall g,
  gr_edges (fold_left (link_data ps) ds g) = gr_edges g ++ flat_map (data_edges ps) ds /\
  (NoDup (gr_nodes g) -> NoDup (gr_nodes (fold_left (link_data ps) ds g))) /\
  (forall x, In x (gr_nodes (fold_left (link_data ps) ds g)) <->
     In x (gr_nodes g) \/ exists d, In d ds /\ produced ps d = true /\ (x = GO d \/ x = GD d)).
Proof.
  induction ds as [|d t IH]; intros g; cbn [fold_left flat_map].
  - rewrite app_nil_r. split; [reflexivity|]. split; [auto|]. intros x. split; [auto|]. intros [H|(d & [] & _)]; exact H.
  - destruct (IH (link_data ps g d)) as (E & ND & N). split; [|split].
    + rewrite E, app_assoc. f_equal. unfold link_data, data_edges, produced. destruct (args_of ps d); [|rewrite app_nil_r; reflexivity].
      unfold link. cbn [gr_edges]. rewrite !get_node_edges. reflexivity.
    + intros H. apply ND. unfold link_data. destruct (args_of ps d); [|exact H]. unfold link. cbn [gr_nodes]. apply get_node_NoDup, get_node_NoDup, H.
    + intros x. rewrite N.
      assert (X : In x (gr_nodes (link_data ps g d)) <-> In x (gr_nodes g) \/ (produced ps d = true /\ (x = GO d \/ x = GD d))).
      { unfold link_data, produced. destruct (args_of ps d).
        - unfold link. cbn [gr_nodes]. rewrite !get_node_nodes. intuition.
        - split; [auto|]. intros [H|[H _]]; [exact H|discriminate]. }
      rewrite X. split.
      * intros [[H|[H1 H2]]|(d' & H & H1 & H2)]; [left; exact H| |].
        -- right. exists d. split; [left; reflexivity|auto].
        -- right. exists d'. split; [right; exact H|auto].
      * intros [H|(d' & [->|H] & H1 & H2)]; [left; left; exact H|left; right; auto|right; eauto].
Qed.

Lemma build_graph_spec ps v :
  let g := build_graph ps (v, filter (produced ps) v) in
  gr_edges g = flat_map (op_edges ps) (filter (produced ps) v) ++ flat_map (data_edges ps) v /\
  NoDup (gr_nodes g) /\
  (forall d, In (GO d) (gr_nodes g) <-> In d v /\ produced ps d = true) /\
  (forall d, In (GD d) (gr_nodes g) <-> (In d v /\ produced ps d = true) \/ exists c, In c v /\ In d (args_at ps c)).
Proof.
  unfold build_graph. cbn [fst snd].
  destruct (fold_link_op ps (filter (produced ps) v) (mkG [] [])) as (E1 & ND1 & N1).
  destruct (fold_link_data ps v (fold_left (link_op ps) (filter (produced ps) v) (mkG [] []))) as (E2 & ND2 & N2).
  cbn zeta. split; [rewrite E2, E1; reflexivity|]. split; [apply ND2, ND1; constructor|]. split.
  - intros d. rewrite N2, N1. cbn [gr_nodes In]. split.
    + intros [[[]|[(o & H & _ & X)|(o & a & _ & _ & X)]]|(d' & H & P & [X|X])]; try discriminate X; injection X as <-.
      * apply filter_In in H. exact H.
      * auto.
    + intros [H P]. right. exists d. auto.
  - intros d. rewrite N2, N1. cbn [gr_nodes In]. split.
    + intros [[[]|[(o & H & _ & X)|(o & a & H & Ha & X)]]|(d' & H & P & [X|X])]; try discriminate X; injection X as <-.
      * right. apply filter_In in H. exists o. tauto.
      * left; auto.
    + intros [[H P]|(c & H & Ha)].
      * right. exists d. auto.
      * left; right; right. exists c, d. split; [|auto]. apply filter_In. split; [exact H|].
        unfold produced, args_at in *. destruct (args_of ps c); [reflexivity|destruct Ha].
Qed.

Lemma produced_call ps d : produced ps d = true <-> exists args, call ps d args.
Proof.
  unfold produced. destruct (args_of ps d) as [a|] eqn:E; split.
  - intros _. exists a. apply args_of_call, E.
  - reflexivity.
  - discriminate.
  - intros (a & C). apply args_of_call in C. congruence.
Qed.

Definition has_node (ps : list phnode) (outs : list nat) (d : nat) : Prop :=
  needed ps outs d /\ ((exists args, call ps d args) \/ exists c args, needed ps outs c /\ call ps c args /\ In d args).

(** What [build] yields. *)
Lemma build_ok ps ins outs g : build ps ins outs = Ok g ->
  exists v, unroll ps outs = Some (v, filter (produced ps) v) /\ (forall d, In d v <-> needed ps outs d) /\
    g = build_graph ps (v, filter (produced ps) v) /\
    (forall d, In d (ins ++ outs) -> has_node ps outs d) /\
    (forall d, In (GD d) (gr_nodes g) <-> needed ps outs d) /\
    (forall d, In (GO d) (gr_nodes g) <-> needed ps outs d /\ exists args, call ps d args).
Proof.
  unfold build. destruct (unroll_spec ps outs) as (v & E & V). rewrite E.
  destruct (forallb _ _) eqn:F; [|discriminate]. intros H; injection H as <-.
  destruct (build_graph_spec ps v) as (_ & _ & NO & ND).
  assert (HN : forall d, In (GD d) (gr_nodes (build_graph ps (v, filter (produced ps) v))) <-> has_node ps outs d).
  { intros d. rewrite ND. unfold has_node. setoid_rewrite produced_call. setoid_rewrite V. split.
    - intros [[H P]|(c & H & Ha)]; [auto|]. apply in_args in Ha. destruct Ha as (args & C & Ha).
      split; [eapply need_arg; eassumption|right; eauto].
    - intros [H [P|(c & args & Hc & C & Ha)]]; [left; auto|right]. exists c. split; [exact Hc|]. apply in_args; eauto. }
  assert (IO : forall d, In d (ins ++ outs) -> has_node ps outs d).
  { intros d Hd. rewrite forallb_forall in F. apply HN, in_nodes_b, F, Hd. }
  exists v. split; [reflexivity|]. split; [exact V|]. split; [reflexivity|]. split; [exact IO|]. split.
  - intros d. rewrite HN. split; [intros [H _]; exact H|]. intros N. split; [exact N|].
    destruct N as [o Ho|c args a N C Ha].
    + apply IO. apply in_or_app; right; exact Ho.
    + right. eauto.
  - intros d. rewrite NO, V, produced_call. reflexivity.
Qed.

Lemma build_defined ps ins outs : (forall d, In d (ins ++ outs) -> has_node ps outs d) -> exists g, build ps ins outs = Ok g.
Proof.
  intros H. unfold build. destruct (unroll_spec ps outs) as (v & E & V). rewrite E.
  destruct (forallb _ _) eqn:F; [eauto|]. exfalso.
  assert (X : forallb (fun d => existsb (gnode_eqb (GD d)) (gr_nodes (build_graph ps (v, filter (produced ps) v)))) (ins ++ outs) = true).
  { apply forallb_forall. intros d Hd. apply in_nodes_b. destruct (build_graph_spec ps v) as (_ & _ & _ & ND). apply ND.
    destruct (H d Hd) as [N [P|(c & args & Hc & C & Ha)]].
    - left. split; [apply V, N|apply produced_call, P].
    - right. exists c. split; [apply V, Hc|apply in_args; eauto]. }
  congruence.
Qed.
Lemma build_not_throw ps ins outs : build ps ins outs <> Throw.
Proof. unfold build. destruct (unroll ps outs); [|discriminate]. destruct (forallb _ _); discriminate. Qed.

Lemma in_op_edges ps c e : In e (op_edges ps c) <->
  exists args i a, call ps c args /\ nth_error args i = Some a /\ e = mkEdge (GD a) (GO c) i.
Proof.
  unfold op_edges. rewrite in_map_iff. split.
  - intros ((a & i) & <- & H). cbn [fst snd]. unfold args_at in *. destruct (args_of ps c) as [args|] eqn:E; [|destruct H].
    apply In_nth_error in H. destruct H as (k & H).
    assert (L : k < length args).
    { assert (X : nth_error (combine args (seq 0 (length args))) k <> None) by congruence.
      apply nth_error_Some in X. rewrite combine_length, seq_length in X. lia. }
    exists args, k, a. split; [apply args_of_call, E|].
    assert (Z : nth k (combine args (seq 0 (length args))) (0, 0) = (a, i)) by (apply nth_error_nth; exact H).
    rewrite combine_nth in Z by (rewrite seq_length; reflexivity). injection Z as Z1 Z2. rewrite seq_nth in Z2 by exact L. cbn in Z2. subst i.
    split; [|reflexivity]. rewrite <- Z1. apply nth_error_nth'. exact L.
  - intros (args & i & a & C & H & ->). apply args_of_call in C. unfold args_at. rewrite C.
    assert (L : i < length args) by (apply nth_error_Some; congruence).
    exists (a, i). split; [reflexivity|].
    replace (a, i) with (nth i (combine args (seq 0 (length args))) (0, 0)).
    + apply nth_In. rewrite combine_length, seq_length. lia.
    + rewrite combine_nth by (rewrite seq_length; reflexivity). rewrite seq_nth by exact L. cbn. f_equal. apply nth_error_nth; exact H.
Qed.

Lemma build_edges ps ins outs g : build ps ins outs = Ok g -> forall e, In e (gr_edges g) <->
  (exists c args i a, needed ps outs c /\ call ps c args /\ nth_error args i = Some a /\ e = mkEdge (GD a) (GO c) i) \/
  (exists c args, needed ps outs c /\ call ps c args /\ e = mkEdge (GO c) (GD c) 0).
Proof.
  intros B e. destruct (build_ok _ _ _ _ B) as (v & _ & V & -> & _).
  destruct (build_graph_spec ps v) as (E & _). rewrite E, in_app_iff, !in_flat_map. split.
  - intros [(c & Hc & He)|(d & Hd & He)].
    + apply in_op_edges in He. destruct He as (args & i & a & C & H & ->). left. exists c, args, i, a.
      apply filter_In in Hc. rewrite <- V. tauto.
    + unfold data_edges in He. destruct (produced ps d) eqn:P; [|destruct He]. destruct He as [<-|[]].
      apply produced_call in P. destruct P as (args & C). right. exists d, args. rewrite <- V. auto.
  - intros [(c & args & i & a & N & C & H & ->)|(c & args & N & C & ->)].
    + left. exists c. split; [apply filter_In; split; [apply V, N|apply produced_call; eauto]|]. apply in_op_edges. eauto 6.
    + right. exists c. split; [apply V, N|]. unfold data_edges. replace (produced ps c) with true by (symmetry; apply produced_call; eauto).
      left; reflexivity.
Qed.

(** ** Existence of a topological order *)
Definition stage (g : graph) (d : nat) : list gnode :=
  filter (fun n => existsb (gnode_eqb n) (gr_nodes g)) [GO d; GD d].
Definition by_age (n : nat) (g : graph) : list gnode := flat_map (stage g) (seq 0 n).

Lemma in_stage g d x : In x (stage g d) <-> In x (gr_nodes g) /\ (x = GO d \/ x = GD d).
Proof. unfold stage. rewrite filter_In, in_nodes_b. cbn. intuition congruence. Qed.
Lemma in_by_age n g x : In x (by_age n g) <-> In x (gr_nodes g) /\ exists d, d < n /\ (x = GO d \/ x = GD d).
Proof.
  unfold by_age. rewrite in_flat_map. setoid_rewrite in_seq. setoid_rewrite in_stage. split.
  - intros (d & L & H & X). split; [exact H|]. exists d. split; [lia|exact X].
  - intros (H & d & L & X). exists d. split; [lia|auto].
Qed.

Lemma by_age_S n g : by_age (S n) g = by_age n g ++ stage g n.
Proof. unfold by_age. rewrite seq_S, flat_map_app. cbn. rewrite app_nil_r. reflexivity. Qed.

Lemma NoDup_app_intro {A} (l1 l2 : list A) : NoDup l1 -> NoDup l2 -> (forall x, In x l1 -> ~ In x l2) -> NoDup (l1 ++ l2).
Proof.
  induction 1 as [|a t Ha ND IH]; intros H2 D; cbn; [exact H2|]. constructor.
  - rewrite in_app_iff. intros [X|X]; [auto|]. apply (D a); [left; reflexivity|exact X].
  - apply IH; [exact H2|]. intros x Hx. apply D. right; exact Hx.
Qed.

Lemma by_age_NoDup n g : NoDup (by_age n g).
Proof.
  induction n as [|n IH]; [constructor|]. rewrite by_age_S. apply NoDup_app_intro; [exact IH| |].
  - unfold stage. apply NoDup_filter. repeat constructor; cbn; intuition congruence.
  - intros x Hx Hs. apply in_by_age in Hx. apply in_stage in Hs. destruct Hx as (_ & d & L & X), Hs as (_ & Y).
    destruct X as [-> | ->], Y as [Y|Y]; (discriminate Y || injection Y as ->); lia.
Qed.

Lemma before_app_l {A} (a b : A) l l' : before a b l -> before a b (l ++ l').
Proof. intros (l1 & l2 & l3 & ->). exists l1, l2, (l3 ++ l'). rewrite <- !app_assoc. cbn. rewrite <- app_assoc. reflexivity. Qed.
Lemma before_app_r {A} (a b : A) l l' : before a b l' -> before a b (l ++ l').
Proof. intros (l1 & l2 & l3 & ->). exists (l ++ l1), l2, l3. rewrite <- app_assoc. reflexivity. Qed.
Lemma before_app {A} (a b : A) l l' : In a l -> In b l' -> before a b (l ++ l').
Proof.
  intros H1 H2. apply in_split in H1, H2. destruct H1 as (x1 & x2 & ->), H2 as (y1 & y2 & ->).
  exists x1, (x2 ++ y1), y2. rewrite <- !app_assoc. cbn. reflexivity.
Qed.

Lemma by_age_before n g a c : In (GD a) (gr_nodes g) -> In (GO c) (gr_nodes g) -> a < c -> c < n -> before (GD a) (GO c) (by_age n g).
Proof.
  intros Ha Hc L Ln. induction n as [|n IH]; [lia|]. rewrite by_age_S. destruct (Nat.eq_dec c n) as [->|].
  - apply before_app; [apply in_by_age; eauto|apply in_stage; auto].
  - apply before_app_l, IH. lia.
Qed.
Lemma by_age_before_own n g c : In (GD c) (gr_nodes g) -> In (GO c) (gr_nodes g) -> c < n -> before (GO c) (GD c) (by_age n g).
Proof.
  intros Ha Hc L. induction n as [|n IH]; [lia|]. rewrite by_age_S. destruct (Nat.eq_dec c n) as [->|].
  - apply before_app_r. exists [], [], []. unfold stage. cbn [filter app].
    apply in_nodes_b in Ha, Hc. rewrite Ha, Hc. reflexivity.
  - apply before_app_l, IH. lia.
Qed.

Lemma needed_lt ps outs n d : (forall o, In o outs -> o < n) -> links_back ps -> needed ps outs d -> d < n.
Proof. intros H LB N. induction N as [o Ho|c args a _ IH C Ha]; [auto|]. pose proof (LB _ _ _ C Ha). lia. Qed.

Lemma by_age_topo ps ins outs g : links_back ps -> (forall o, In o outs -> o < length ps) ->
  build ps ins outs = Ok g -> is_topo g (by_age (length ps) g).
Proof.
  intros LB V B. pose proof (build_edges _ _ _ _ B) as E. destruct (build_ok _ _ _ _ B) as (v & _ & _ & _ & _ & ND & NO).
  split; [apply by_age_NoDup|]. split.
  - intros x. rewrite in_by_age. split; [intros [H _]; exact H|]. intros H. split; [exact H|].
    destruct x as [d|d].
    + exists d. split; [|auto]. apply (needed_lt ps outs); [exact V|exact LB|]. apply ND, H.
    + exists d. split; [|auto]. apply (needed_lt ps outs); [exact V|exact LB|]. apply NO, H.
  - intros e He. apply E in He. destruct He as [(c & args & i & a & N & C & H & ->)|(c & args & N & C & ->)]; cbn [ed_src ed_dst].
    + assert (Ha : In a args) by (eapply nth_error_In; exact H).
      apply by_age_before.
      * apply ND. eapply need_arg; eassumption.
      * apply NO. eauto.
      * eapply LB; eassumption.
      * eapply needed_lt; eassumption.
    + apply by_age_before_own; [apply ND, N|apply NO; eauto|eapply needed_lt; eassumption].
Qed.

(** ** Numbers *)
Lemma index_of_Ok x l i : index_of x l = Ok i -> nth_error l i = Some x /\ forall j, j < i -> nth_error l j <> Some x.
Proof.
  revert i. induction l as [|y t IH]; intros i; cbn [index_of]; [discriminate|].
  destruct (Nat.eqb_spec y x) as [->|N].
  - intros H; injection H as <-. split; [reflexivity|intros j L; lia].
  - destruct (index_of x t) as [k| |]; cbn [bind]; try discriminate. intros H; injection H as <-.
    destruct (IH k eq_refl) as [H1 H2]. split; [exact H1|]. intros [|j] L; cbn; [congruence|apply H2; lia].
Qed.
Lemma index_of_In x l : In x l -> exists i, index_of x l = Ok i.
Proof.
  induction l as [|y t IH]; intros H; [destruct H|]. cbn [index_of]. destruct (Nat.eqb_spec y x) as [->|N]; [eauto|].
  destruct H as [H|H]; [congruence|]. destruct (IH H) as (i & ->). cbn. eauto.
Qed.
Lemma index_of_NoDup l i x : NoDup l -> nth_error l i = Some x -> index_of x l = Ok i.
Proof.
  intros ND H. destruct (index_of_In x l) as (k & E); [eapply nth_error_In; exact H|].
  rewrite E. f_equal. destruct (index_of_Ok _ _ _ E) as [Hk _]. eapply (proj1 (NoDup_nth_error l)); [exact ND| |congruence].
  apply nth_error_Some. congruence.
Qed.

Lemma in_data_nodes ord d : In d (data_nodes ord) <-> In (GD d) ord.
Proof.
  unfold data_nodes. rewrite in_flat_map. split.
  - intros ([x|x] & H & E); [|destruct E]. destruct E as [<-|[]]. exact H.
  - intros H. exists (GD d). split; [exact H|left; reflexivity].
Qed.
Lemma in_op_nodes ord d : In d (op_nodes ord) <-> In (GO d) ord.
Proof.
  unfold op_nodes. rewrite in_flat_map. split.
  - intros ([x|x] & H & E); [destruct E|]. destruct E as [<-|[]]. exact H.
  - intros H. exists (GO d). split; [exact H|left; reflexivity].
Qed.
Lemma data_nodes_NoDup ord : NoDup ord -> NoDup (data_nodes ord).
Proof.
  induction 1 as [|x t Hx ND IH]; [constructor|]. destruct x as [d|d]; cbn; [|exact IH]. constructor; [|exact IH].
  intros X. apply Hx. apply in_data_nodes, X.
Qed.
Lemma op_nodes_NoDup ord : NoDup ord -> NoDup (op_nodes ord).
Proof.
  induction 1 as [|x t Hx ND IH]; [constructor|]. destruct x as [d|d]; cbn; [exact IH|]. constructor; [|exact IH].
  intros X. apply Hx. apply in_op_nodes, X.
Qed.

(** Edges of one operation, in order. *)
Lemma flat_map_flat_map {A B C} (f : A -> list B) (g : B -> list C) l : flat_map g (flat_map f l) = flat_map (fun a => flat_map g (f a)) l.
Proof. induction l as [|a t IH]; cbn; [reflexivity|]. rewrite flat_map_app, IH. reflexivity. Qed.
Lemma flat_map_map {A B C} (f : A -> B) (g : B -> list C) l : flat_map g (map f l) = flat_map (fun a => g (f a)) l.
Proof. induction l as [|a t IH]; cbn; [reflexivity|]. rewrite IH. reflexivity. Qed.
Lemma flat_map_nil {A B} (f : A -> list B) l : (forall a, In a l -> f a = []) -> flat_map f l = [].
Proof. induction l as [|a t IH]; intros H; cbn; [reflexivity|]. rewrite H, IH; [reflexivity| |left; reflexivity]. intros b Hb. apply H. right; exact Hb. Qed.
Lemma flat_map_single {A} (l : list A) : flat_map (fun a => [a]) l = l.
Proof. induction l as [|a t IH]; cbn; [reflexivity|]. rewrite IH. reflexivity. Qed.
Lemma flat_map_if {B} (f : nat -> list B) x l : (forall a, In a l -> a <> x -> f a = []) ->
  flat_map f l = concat (repeat (f x) (count_occ Nat.eq_dec l x)).
Proof.
  induction l as [|a t IH]; intros H; cbn [flat_map count_occ]; [reflexivity|].
  rewrite IH by (intros b Hb; apply H; right; exact Hb).
  destruct (Nat.eq_dec a x) as [->|N]; [reflexivity|]. rewrite (H a (or_introl eq_refl) N). reflexivity.
Qed.

Lemma count_occ_filter f l x : f x = true -> count_occ Nat.eq_dec (filter f l) x = count_occ Nat.eq_dec l x.
Proof.
  intros H. induction l as [|a t IH]; cbn; [reflexivity|]. destruct (Nat.eq_dec a x) as [->|N].
  - rewrite H. cbn. destruct (Nat.eq_dec x x); [|congruence]. rewrite IH. reflexivity.
  - destruct (f a); cbn; [|exact IH]. destruct (Nat.eq_dec a x); [congruence|exact IH].
Qed.

Lemma in_edges_build ps v c args : call ps c args ->
  in_edges (build_graph ps (v, filter (produced ps) v)) c =
  concat (repeat (combine args (seq 0 (length args))) (count_occ Nat.eq_dec v c)).
Proof.
  intros C. unfold in_edges. destruct (build_graph_spec ps v) as (-> & _). rewrite flat_map_app, !flat_map_flat_map.
  rewrite (flat_map_nil _ v), app_nil_r.
  2:{ intros a _. unfold data_edges. destruct (produced ps a); reflexivity. }
  rewrite (flat_map_if _ c).
  - rewrite count_occ_filter by (apply produced_call; eauto). f_equal. f_equal.
    unfold op_edges. rewrite flat_map_map. cbn [ed_src ed_dst ed_port]. rewrite Nat.eqb_refl.
    replace (args_at ps c) with args by (apply args_of_call in C; unfold args_at; rewrite C; reflexivity).
    erewrite flat_map_ext; [apply flat_map_single|]. intros [a p]; reflexivity.
  - intros a _ N. unfold op_edges. rewrite flat_map_map. cbn [ed_src ed_dst ed_port].
    destruct (Nat.eqb_spec a c); [congruence|]. apply flat_map_nil. reflexivity.
Qed.

Lemma out_edges_build ps v c args : call ps c args ->
  out_edges (build_graph ps (v, filter (produced ps) v)) c = repeat (c, 0) (count_occ Nat.eq_dec v c).
Proof.
  intros C. unfold out_edges. destruct (build_graph_spec ps v) as (-> & _). rewrite flat_map_app, !flat_map_flat_map.
  rewrite (flat_map_nil _ (filter _ v)).
  2:{ intros a _. unfold op_edges. rewrite flat_map_map. apply flat_map_nil. reflexivity. }
  cbn [app]. rewrite (flat_map_if _ c).
  - unfold data_edges. replace (produced ps c) with true by (symmetry; apply produced_call; eauto). cbn. rewrite Nat.eqb_refl.
    generalize (count_occ Nat.eq_dec v c) as k. clear. induction k as [|k IH]; [reflexivity|]. cbn [repeat concat app] in *. rewrite <- IH. reflexivity.
  - intros a _ N. unfold data_edges. destruct (produced ps a); [|reflexivity]. cbn. destruct (Nat.eqb_spec a c); [congruence|reflexivity].
Qed.

(** Writing the ids. *)
Lemma fold_res_app {A S} (f : A -> S -> res S) l1 l2 s : fold_res f (l1 ++ l2) s = bind (fold_res f l1 s) (fold_res f l2).
Proof.
  revert s. induction l1 as [|a t IH]; intros s; cbn; [reflexivity|]. destruct (f a s); cbn; [apply IH|reflexivity|reflexivity].
Qed.

Lemma upd_app {A} (v1 : list A) x v2 i : upd (v1 ++ x :: v2) (length v1) i = v1 ++ i :: v2.
Proof. induction v1 as [|a t IH]; cbn; [reflexivity|]. rewrite IH. reflexivity. Qed.

Lemma write_ids ord : forall args ids v1 v2, map_res (data_id ord) args = Ok ids -> length args <= length v2 ->
  fold_res (fun e v => i <- data_id ord (fst e) ;; wr v (snd e) i) (combine args (seq (length v1) (length args))) (v1 ++ v2) =
  Ok (v1 ++ ids ++ skipn (length args) v2).
Proof.
  induction args as [|a t IH]; intros ids v1 v2 M L; cbn [length seq combine] in *.
  - injection M as <-. reflexivity.
  - cbn [map_res] in M. destruct (data_id ord a) as [i| |] eqn:Ei; cbn [bind] in M; try discriminate M.
    destruct (map_res (data_id ord) t) as [rest| |] eqn:Er; cbn [bind] in M; try discriminate M. injection M as <-.
    destruct v2 as [|x v2]; cbn [length] in L; [lia|].
    cbn [fold_res fst snd]. rewrite Ei. cbn [bind]. rewrite wr_Ok by (rewrite app_length; cbn; lia). cbn [bind].
    rewrite upd_app. specialize (IH rest (v1 ++ [i]) v2 eq_refl ltac:(lia)).
    rewrite app_length in IH. cbn [length] in IH. rewrite Nat.add_1_r, <- !app_assoc in IH. cbn [app] in IH. exact IH.
Qed.

Lemma firstn_app_exact {A} (l1 l2 : list A) : firstn (length l1) (l1 ++ l2) = l1.
Proof. rewrite firstn_app, Nat.sub_diag, firstn_all, firstn_O, app_nil_r. reflexivity. Qed.
Lemma skipn_app_exact {A} (l1 l2 : list A) : skipn (length l1) (l1 ++ l2) = l2.
Proof. rewrite skipn_app, Nat.sub_diag, skipn_all, skipn_O. reflexivity. Qed.
Lemma repeat_app {A} (x : A) n m : repeat x (n + m) = repeat x n ++ repeat x m.
Proof. induction n as [|n IH]; cbn; [reflexivity|]. rewrite IH. reflexivity. Qed.

Lemma map_res_length {A B} (f : A -> res B) l bs : map_res f l = Ok bs -> length bs = length l.
Proof. intros H. apply map_res_Ok in H. induction H; cbn; congruence. Qed.

Lemma edge_ids_repeat ord args ids k : map_res (data_id ord) args = Ok ids ->
  edge_ids ord (concat (repeat (combine args (seq 0 (length args))) (S k))) = Ok (ids ++ repeat 0 (k * length args)).
Proof.
  intros M. unfold edge_ids. pose proof (map_res_length _ _ _ M) as Li.
  assert (LC : forall k, length (concat (repeat (combine args (seq 0 (length args))) k)) = k * length args).
  { clear. intros k. induction k as [|k IH]; cbn; [reflexivity|]. rewrite app_length, IH, combine_length, seq_length, Nat.min_id. reflexivity. }
  rewrite LC. cbn [Nat.mul]. rewrite repeat_app. cbn [repeat concat]. rewrite fold_res_app.
  pose proof (write_ids ord args ids [] (repeat 0 (length args) ++ repeat 0 (k * length args)) M) as W. cbn [length app] in W.
  rewrite W by (rewrite app_length, repeat_length; lia). clear W. cbn [bind].
  replace (skipn (length args) (repeat 0 (length args) ++ repeat 0 (k * length args))) with (repeat 0 (k * length args)).
  2:{ rewrite <- (repeat_length 0 (length args)) at 2. rewrite skipn_app_exact. reflexivity. }
  assert (L : forall j z, fold_res (fun e v => i <- data_id ord (fst e) ;; wr v (snd e) i)
     (concat (repeat (combine args (seq 0 (length args))) j)) (ids ++ z) = Ok (ids ++ z)).
  { induction j as [|j IH]; intros z; cbn [repeat concat]; [reflexivity|]. rewrite fold_res_app.
    pose proof (write_ids ord args ids [] (ids ++ z) M) as W. cbn [length app] in W.
    rewrite W by (rewrite app_length; lia). cbn [bind].
    replace (skipn (length args) (ids ++ z)) with z by (rewrite <- Li, skipn_app_exact; reflexivity). apply IH. }
  apply L.
Qed.

Lemma edge_ids_out ord d i k : data_id ord d = Ok i -> edge_ids ord (repeat (d, 0) (S k)) = Ok (i :: repeat 0 k).
Proof.
  intros H. pose proof (edge_ids_repeat ord [d] [i] k) as E. cbn [map_res] in E. rewrite H in E. cbn [bind] in E. specialize (E eq_refl).
  replace (concat (repeat (combine [d] (seq 0 (length [d]))) (S k))) with (repeat (d, 0) (S k)) in E.
  - rewrite E. cbn [length]. rewrite Nat.mul_1_r. reflexivity.
  - clear. induction (S k) as [|n IH]; cbn; [reflexivity|]. rewrite IH. reflexivity.
Qed.
