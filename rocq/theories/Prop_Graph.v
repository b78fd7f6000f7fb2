(** Properties C33 and C34: the graph built from an expression. *)
From Coq Require Import Reals String Lia.
From Verif Require Import Base M_Nn M_Graph M_Model S_Graph P_Graph P_Graph2 P_Nn P_Model P_Model2.
Open Scope nat_scope.

(** ** C33 *)
(** The loop runs exactly [length data] times: with less fuel it does not finish, with more nothing
    changes. *)
Theorem C33_traversal_terminates_and_collects :
  forall (ps : list phnode) (outs : list nat), exists data ops,
  unroll ps outs = Some (data, ops) /\
  (forall d, In d data <-> needed ps outs d) /\
  (forall d, In d ops <-> needed ps outs d /\ exists args, call ps d args) /\
  (forall fuel, length data <= fuel -> unroll_loop fuel ps (rev outs) [] [] [] = Some (data, ops)) /\
  (forall fuel, fuel < length data -> unroll_loop fuel ps (rev outs) [] [] [] = None) /\
  (forall L, NoDup L -> (forall d, needed ps outs d -> In d L) -> length data <= length outs + list_sum (map (num_args ps) L)).
Proof. exact traversal. Qed.
Print Assumptions C33_traversal_terminates_and_collects.

Theorem C33_nodes_and_links :
  forall (ps : list phnode) (ins outs : list nat) (g : graph), build ps ins outs = Ok g ->
  NoDup (gr_nodes g) /\
  (forall d, In (GD d) (gr_nodes g) <-> needed ps outs d) /\
  (forall d, In (GO d) (gr_nodes g) <-> needed ps outs d /\ exists args, call ps d args) /\
  (forall e, In e (gr_edges g) <->
     (exists c args i a, needed ps outs c /\ call ps c args /\ nth_error args i = Some a /\ e = mkEdge (GD a) (GO c) i) \/
     (exists c args, needed ps outs c /\ call ps c args /\ e = mkEdge (GO c) (GD c) 0)).
Proof.
  intros ps ins outs g B. destruct (build_ok _ _ _ _ B) as (v & _ & _ & E & _ & ND & NO).
  split; [rewrite E; apply build_graph_spec|]. split; [exact ND|]. split; [exact NO|exact (build_edges _ _ _ _ B)].
Qed.
Print Assumptions C33_nodes_and_links.

(** Construction is defined exactly when every listed input and output is needed and linked to some
    operation; naming an unused input, or an output that is a bare input no operation uses, is
    undefined behaviour (a null node handle). *)
Theorem C33_defined_exactly_when_linked :
  forall (ps : list phnode) (ins outs : list nat),
  ((forall d, In d (ins ++ outs) -> needed ps outs d /\
      ((exists args, call ps d args) \/ exists c args, needed ps outs c /\ call ps c args /\ In d args)) ->
   exists g, build ps ins outs = Ok g) /\
  (forall d, In d (ins ++ outs) ->
      ~ (needed ps outs d /\ ((exists args, call ps d args) \/ exists c args, needed ps outs c /\ call ps c args /\ In d args)) ->
   build ps ins outs = UB).
Proof.
  intros ps ins outs. split; [apply build_defined|]. intros d Hd N.
  destruct (build ps ins outs) as [g| |] eqn:B; [|destruct (build_not_throw _ _ _ B)|reflexivity].
  exfalso. apply N. destruct (build_ok _ _ _ _ B) as (v & _ & _ & _ & IO & _). exact (IO d Hd).
Qed.
Print Assumptions C33_defined_exactly_when_linked.

(** The graph of every program's expression can be sorted. *)
Theorem C33_graph_is_acyclic :
  forall (es : estore) (ins outs : list nat) (g : graph), built es -> Forall (fun d => d < length (es_ph es)) outs ->
  build (es_ph es) ins outs = Ok g -> exists ord, is_topo g ord.
Proof. exact order_exists. Qed.
Print Assumptions C33_graph_is_acyclic.

(** Every needed placeholder and every producing call is recorded exactly once in the model. *)
Theorem C33_model_records_exactly_the_needed_part :
  forall (es : estore) (order : graph -> list gnode) (ins outs : list nat) (g : graph),
  built es -> Forall (fun d => d < length (es_ph es)) outs -> build (es_ph es) ins outs = Ok g -> is_topo g (order g) ->
  forall es' m, construct_model order ins outs es = RVal es' m ->
  NoDup (map fst (m_data m)) /\ (forall d, In d (map fst (m_data m)) <-> needed (es_ph es) outs d) /\
  NoDup (map mo_ph (m_ops m)) /\ (forall d, In d (map mo_ph (m_ops m)) <-> needed (es_ph es) outs d /\ exists args, call (es_ph es) d args).
Proof. exact data_complete. Qed.
Print Assumptions C33_model_records_exactly_the_needed_part.

(** ** C34 *)
(** The ids an operation records are those of its arguments and result, followed by as many extra zeros
    as it was visited again. *)
Theorem C34_recorded_ids :
  forall (es : estore) (order : graph -> list gnode) (ins outs : list nat) (g : graph),
  built es -> Forall (fun d => d < length (es_ph es)) outs -> build (es_ph es) ins outs = Ok g -> is_topo g (order g) ->
  forall es' m, construct_model order ins outs es = RVal es' m ->
  forall op, In op (m_ops m) -> exists args k ids i,
  needed (es_ph es) outs (mo_ph op) /\ call (es_ph es) (mo_ph op) args /\ visits (es_ph es) outs (mo_ph op) = S k /\
  Forall2 (fun a j => nth_error (map fst (m_data m)) j = Some a) args ids /\ nth_error (map fst (m_data m)) i = Some (mo_ph op) /\
  mo_in op = ids ++ repeat 0 (k * length args) /\ mo_out op = i :: repeat 0 k.
Proof. exact recorded_ids. Qed.
Print Assumptions C34_recorded_ids.

(** Visited once: no output is needed by a later output, no argument by a later argument. *)
Theorem C34_linked_once :
  forall (ps : list phnode) (outs : list nat),
  in_order ps outs -> (forall c args, needed ps outs c -> call ps c args -> in_order ps args) ->
  forall d, needed ps outs d -> visits ps outs d = 1.
Proof. exact unroll_once. Qed.
Print Assumptions C34_linked_once.

Theorem C34_chain_or_tree_linked_once :
  forall (es : estore) (outs : list nat), built es -> tree (es_ph es) outs ->
  forall d, needed (es_ph es) outs d -> visits (es_ph es) outs d = 1.
Proof.
  intros es outs B T d N. destruct (tree_ok _ _ (store_links_back _ (built_ok _ B)) T) as [H1 H2]. exact (unroll_once _ _ H1 H2 d N).
Qed.
Print Assumptions C34_chain_or_tree_linked_once.

(** Visited again: an argument that a later argument of the same call needs (or repeats), when nothing
    else uses it. *)
Theorem C34_linked_repeatedly :
  forall (es : estore) (outs : list nat) (c : nat) (pre : list nat) (a : nat) (post : list nat), built es ->
  needed (es_ph es) outs c -> call (es_ph es) c (pre ++ a :: post) -> needed (es_ph es) post a ->
  ~ needed_avoiding (es_ph es) c outs a -> 2 <= visits (es_ph es) outs a.
Proof. intros es outs c pre a post B. apply unroll_repeated, store_links_back, built_ok, B. Qed.
Print Assumptions C34_linked_repeatedly.

Theorem C34_outputs_linked_repeatedly :
  forall (ps : list phnode) (pre : list nat) (a : nat) (post : list nat), needed ps post a -> 2 <= visits ps (pre ++ a :: post) a.
Proof. exact unroll_repeated_out. Qed.
Print Assumptions C34_outputs_linked_repeatedly.

(** In particular [y = Add(x, x)] as the only output, and [y = Add(x, f(x))]; but not [y = Add(f(x), x)]
    with [f] a chain. *)
Theorem C34_same_argument_twice :
  forall (es : estore) (y x : nat), built es -> call (es_ph es) y [x; x] -> 2 <= visits (es_ph es) [y] x.
Proof.
  intros es y x B C. apply (C34_linked_repeatedly es [y] y [] x [x] B); [apply need_out; left; reflexivity|exact C|apply need_out; left; reflexivity|].
  assert (NV : forall d, ~ needed_avoiding (es_ph es) y [y] d).
  { intros d A. induction A as [o No [->|[]]|c args a _ IH _ _ _]; [congruence|exact IH]. }
  apply NV.
Qed.
Print Assumptions C34_same_argument_twice.

(** ** Examples *)
Definition ex_es (args : list nat) : estore :=
  mkES [mkPh [2; 3]%Z None; mkPh [2; 3]%Z (Some (0, [0])); mkPh [2; 3]%Z (Some (1, [1])); mkPh [2; 3]%Z (Some (2, args))]
       [ReLU ""; Sigmoid ""; Add ""].
Definition ex_ie : ienv := mkIE (fun _ => 0%R) (fun _ _ _ _ => 0%R).

Lemma ex_built args : args = [2; 1] \/ args = [1; 2] \/ args = [1; 1] -> built (ex_es args).
Proof.
  intros HA.
  pose (e1 := fst (new_input [2; 3]%Z es0)).
  pose (e2 := fst (new_op (ReLU "") e1)). pose (e3 := fst (new_op (Sigmoid "") e2)). pose (e4 := fst (new_op (Add "") e3)).
  assert (B4 : built e4).
  { apply (built_layer _ KAdd [] ""); [|reflexivity]. apply (built_layer _ KSigmoid [] ""); [|reflexivity]. apply (built_layer _ KReLU [] ""); [|reflexivity].
    apply built_input, built_start. }
  eapply (built_apply _ KAdd ex_ie 2 args (ex_es args) 3).
  - eapply (built_apply _ KSigmoid ex_ie 1 [1] _ 2).
    + eapply (built_apply _ KReLU ex_ie 0 [0] _ 1); [exact B4|repeat constructor|reflexivity|exists (ReLU ""); split; reflexivity|reflexivity].
    + repeat constructor.
    + reflexivity.
    + exists (Sigmoid ""). split; reflexivity.
    + reflexivity.
  - destruct HA as [->|[->| ->]]; repeat constructor.
  - destruct HA as [->|[->| ->]]; reflexivity.
  - exists (Add ""). split; reflexivity.
  - destruct HA as [->|[->| ->]]; reflexivity.
Qed.

(** [Add(f(x), x)]: everything is linked once, and the model is constructed. *)
Example C33_C34_nonvacuous :
  let es := ex_es [2; 1] in
  built es /\ (exists g, build (es_ph es) [0] [3] = Ok g /\ is_topo g (by_age 4 g)) /\
  (forall d, d < 4 -> needed (es_ph es) [3] d /\ visits (es_ph es) [3] d = 1) /\
  exists es' m, construct_model (by_age 4) [0] [3] es = RVal es' m /\ map mo_in (m_ops m) = [[0]; [1]; [2; 1]].
Proof.
  cbn zeta. split; [apply ex_built; auto|].
  assert (N : forall d, d < 4 -> needed (es_ph (ex_es [2; 1])) [3] d).
  { assert (N3 : needed (es_ph (ex_es [2; 1])) [3] 3) by (apply need_out; left; reflexivity).
    assert (N2 : needed (es_ph (ex_es [2; 1])) [3] 2) by (eapply need_arg; [exact N3|eexists; eexists; reflexivity|left; reflexivity]).
    assert (N1 : needed (es_ph (ex_es [2; 1])) [3] 1) by (eapply need_arg; [exact N2|eexists; eexists; reflexivity|left; reflexivity]).
    assert (N0 : needed (es_ph (ex_es [2; 1])) [3] 0) by (eapply need_arg; [exact N1|eexists; eexists; reflexivity|left; reflexivity]).
    intros [|[|[|[|d]]]] L; try assumption; lia. }
  split; [|split].
  - eexists. split; [vm_compute; reflexivity|].
    eapply (by_age_topo (es_ph (ex_es [2; 1])) [0] [3]); [apply store_links_back, built_ok, ex_built; auto| |vm_compute; reflexivity].
    intros o [<-|[]]. vm_compute. lia.
  - intros d L. split; [apply N, L|]. destruct d as [|[|[|[|d]]]]; try (vm_compute; reflexivity). lia.
  - eexists. eexists. split; [vm_compute; reflexivity|reflexivity].
Qed.

(** [Add(x, f(x))] and [Add(x, x)]: [x] is visited twice and the operation producing it is linked twice. *)
Example C34_repeated_nonvacuous :
  (exists es' m, construct_model (by_age 4) [0] [3] (ex_es [1; 2]) = RVal es' m /\
     map mo_in (m_ops m) = [[0; 0]; [1]; [1; 2]] /\ map mo_out (m_ops m) = [[1; 0]; [2]; [3]]) /\
  (exists es' m, construct_model (by_age 4) [0] [3] (ex_es [1; 1]) = RVal es' m /\
     map mo_in (m_ops m) = [[0; 0]; [1; 1]] /\ map mo_out (m_ops m) = [[1; 0]; [2]]).
Proof. split; eexists; eexists; (split; [vm_compute; reflexivity|split; reflexivity]). Qed.
