(** Properties C35 and C36: names of layers, keys of parameters and state. *)
From Coq Require Import Reals String Lia.
From Verif Require Import Base M_Layers M_Optim M_Nn M_Graph M_Model S_Graph P_Graph P_Graph2 P_Nn P_Model P_Model2 Prop_Graph.
Local Open Scope string_scope.
Open Scope nat_scope.

(** ** C35 *)
(** Construction of a model of any program's expression: never undefined, and successful exactly when no
    layer object is used twice and the intended names are pairwise distinct. *)
Theorem C35_constructed_exactly_when_names_are_distinct :
  forall (es : estore) (order : graph -> list gnode) (ins outs : list nat) (g : graph),
  built es -> Forall (fun d => d < length (es_ph es)) outs -> build (es_ph es) ins outs = Ok g -> is_topo g (order g) ->
  (NoDup (used_layers es (order g)) /\ NoDup (intended_names es (order g)) -> exists es' m, construct_model order ins outs es = RVal es' m) /\
  (~ (NoDup (used_layers es (order g)) /\ NoDup (intended_names es (order g))) -> exists es', construct_model order ins outs es = RExc es').
Proof. exact names_decide. Qed.
Print Assumptions C35_constructed_exactly_when_names_are_distinct.

Theorem C35_get_layer :
  forall (es : estore) (order : graph -> list gnode) (ins outs : list nat) (g : graph),
  built es -> Forall (fun d => d < length (es_ph es)) outs -> build (es_ph es) ins outs = Ok g -> is_topo g (order g) ->
  forall es' m, construct_model order ins outs es = RVal es' m ->
  map (fun l => name_in es' (ml_info l)) (m_layers m) = intended_names es (order g) /\
  Forall (fun n => n <> "") (intended_names es (order g)) /\
  (forall j l, nth_error (m_layers m) j = Some l -> get_layer m (name_in es' (ml_info l)) = Ok l) /\
  (forall n, ~ In n (intended_names es (order g)) -> get_layer m n = Throw).
Proof. exact layer_names. Qed.
Print Assumptions C35_get_layer.

Theorem C35_generated_names_never_collide :
  forall (es : estore) (ord : list gnode) (j j' i i' : nat) (li li' : linfo), built es ->
  nth_error (used_layers es ord) j = Some i -> nth_error (used_layers es ord) j' = Some i' ->
  nth_error (es_info es) i = Some li -> nth_error (es_info es) i' = Some li' -> li_name li = "" -> li_name li' = "" ->
  j <> j' -> intended_name es j i <> intended_name es j' i'.
Proof. intros es ord j j' i i' li li' B. apply generated_distinct, built_ok, B. Qed.
Print Assumptions C35_generated_names_never_collide.

(** ** C36 *)
Theorem C36_keys_are_complete_and_distinct :
  forall (es : estore) (order : graph -> list gnode) (ins outs : list nat) (g : graph),
  built es -> Forall (fun d => d < length (es_ph es)) outs -> build (es_ph es) ins outs = Ok g -> is_topo g (order g) ->
  forall es' m, construct_model order ins outs es = RVal es' m ->
  NoDup (map fst (m_params m)) /\ NoDup (map fst (m_state m)) /\
  (forall op li k p, In op (m_ops m) -> nth_error (es_info es') (mo_info op) = Some li -> In (k, p) (li_params li) ->
     find_key (m_params m) (li_name li ++ "." ++ k) = Some (mo_info op, k) /\
     find_key (m_state m) (li_name li ++ "." ++ k) = Some (SRParam (mo_info op) k)) /\
  (forall op li k t, In op (m_ops m) -> nth_error (es_info es') (mo_info op) = Some li -> In (k, t) (li_bufs li) ->
     find_key (m_state m) (li_name li ++ "." ++ k) = Some (SRBuf (mo_info op) k)) /\
  (forall key i k, find_key (m_params m) key = Some (i, k) -> exists op li p, In op (m_ops m) /\ mo_info op = i /\
     nth_error (es_info es') i = Some li /\ In (k, p) (li_params li) /\ key = (li_name li ++ "." ++ k)%string) /\
  (forall key r, find_key (m_state m) key = Some r -> exists op li k, In op (m_ops m) /\ nth_error (es_info es') (mo_info op) = Some li /\
     key = (li_name li ++ "." ++ k)%string /\
     ((r = SRParam (mo_info op) k /\ exists p, In (k, p) (li_params li)) \/ (r = SRBuf (mo_info op) k /\ exists t, In (k, t) (li_bufs li)))).
Proof. exact state_keys. Qed.
Print Assumptions C36_keys_are_complete_and_distinct.

(** Whatever characters the layer names contain. *)
Theorem C36_key_determines_layer_and_name :
  forall (n1 n2 p1 p2 : string), In p1 (param_keys ++ buf_keys) -> In p2 (param_keys ++ buf_keys) ->
  (n1 ++ "." ++ p1 = n2 ++ "." ++ p2)%string -> n1 = n2 /\ p1 = p2.
Proof. intros n1 n2 p1 p2 H1 H2. apply key_inj; apply keys_dot_free; assumption. Qed.
Print Assumptions C36_key_determines_layer_and_name.

(** ** Examples: a chain ReLU, Sigmoid, Add with generated names; the same with clashing user names; and
    a model with a Linear layer (symbolic parameters). *)
Example C35_nonvacuous :
  (exists es' m, construct_model (by_age 4) [0] [3] (ex_es [2; 1]) = RVal es' m /\
     map (fun l => name_in es' (ml_info l)) (m_layers m) = ["relu0"; "sigmoid1"; "add2"] /\
     get_layer m "add2" = Ok (mkML 2 [2; 1] [3]) /\ get_layer m "add3" = Throw) /\
  exists es', construct_model (by_age 4) [0] [3]
     (mkES (es_ph (ex_es [2; 1])) [ReLU "a"; Sigmoid "b"; Add "a"]) = RExc es'.
Proof. split; [eexists; eexists; split; [vm_compute; reflexivity|repeat split]|eexists; vm_compute; reflexivity]. Qed.

Definition ex_linear (p q : prm) : estore :=
  mkES [mkPh [2; 3]%Z None; mkPh [2; 4]%Z (Some (0, [0]))]
       [mkLI "fc.1" "Linear" [("units", AInt 4%Z)] [("weight", p); ("bias", q)] []].
Example C36_nonvacuous : forall p q,
  exists es' m, construct_model (by_age 2) [0] [1] (ex_linear p q) = RVal es' m /\
  m_params m = [("fc.1.weight", (0, "weight")); ("fc.1.bias", (0, "bias"))] /\
  find_key (m_state m) "fc.1.bias" = Some (SRParam 0 "bias").
Proof. intros p q. eexists. eexists. split; [vm_compute; reflexivity|]. split; reflexivity. Qed.
