(** Vocabulary for statements about expressions and the graphs built from them. *)
From Coq Require Import String Permutation.
From Verif Require Import Base M_Nn M_Graph M_Model.
Open Scope nat_scope.

(** Placeholder [c] is the result of a layer call with arguments [args]. *)
Definition call (ps : list phnode) (c : nat) (args : list nat) : Prop :=
  exists s i, nth_error ps c = Some (mkPh s (Some (i, args))).

(** The placeholders from which some of [outs] can be computed. *)
Inductive needed (ps : list phnode) (outs : list nat) : nat -> Prop :=
| need_out o : In o outs -> needed ps outs o
| need_arg c args a : needed ps outs c -> call ps c args -> In a args -> needed ps outs a.

(** The same without going through [x]. *)
Inductive needed_avoiding (ps : list phnode) (x : nat) (outs : list nat) : nat -> Prop :=
| avoid_out o : o <> x -> In o outs -> needed_avoiding ps x outs o
| avoid_arg c args a : needed_avoiding ps x outs c -> call ps c args -> In a args -> a <> x -> needed_avoiding ps x outs a.

(** No entry of the list is needed by a later one (in particular entries are distinct). *)
Definition in_order (ps : list phnode) (l : list nat) : Prop :=
  forall i j a b, i < j -> nth_error l i = Some a -> nth_error l j = Some b -> ~ needed ps [b] a.

(** A use of a placeholder: position [i] in the list of outputs, or argument [i] of call [c]. *)
Definition use (ps : list phnode) (outs : list nat) (p : nat) (u : option nat * nat) : Prop :=
  match u with
  | (None, i) => nth_error outs i = Some p
  | (Some c, i) => needed ps outs c /\ exists args, call ps c args /\ nth_error args i = Some p
  end.
(** A chain or tree: nothing is used twice. *)
Definition tree (ps : list phnode) (outs : list nat) : Prop :=
  forall p u v, use ps outs p u -> use ps outs p v -> u = v.

(** Programs using the layer API.  [built es]: the store after some sequence of calls, each of which
    returned or threw; arguments are placeholders and layer objects that exist. *)
Inductive built : estore -> Prop :=
| built_start : built es0
| built_input es s : built es -> built (fst (new_input s es))
| built_layer es k m name li : built es -> construct k m name = Ok li -> built (fst (new_op li es))
| built_apply es k I info args es' p :
    built es -> Forall (fun a => a < length (es_ph es)) args -> length args = num_in k ->
    (exists li, nth_error (es_info es) info = Some li /\ layer_table (li_type li) = Some k) ->
    apply_op k I info args es = RVal es' p -> built es'
| built_apply_exc es k I info args es' :
    built es -> Forall (fun a => a < length (es_ph es)) args -> length args = num_in k ->
    (exists li, nth_error (es_info es) info = Some li /\ layer_table (li_type li) = Some k) ->
    apply_op k I info args es = RExc es' -> built es'
| built_make es I type name m args es' p :
    built es -> Forall (fun a => a < length (es_ph es)) args ->
    make_layer I type name m args es = RVal es' p -> built es'
| built_make_exc es I type name m args es' :
    built es -> Forall (fun a => a < length (es_ph es)) args ->
    make_layer I type name m args es = RExc es' -> built es'
| built_model es order ins outs es' m :
    built es -> construct_model order ins outs es = RVal es' m -> built es'
| built_model_exc es order ins outs es' :
    built es -> construct_model order ins outs es = RExc es' -> built es'.

(** A topological order of the nodes of a graph: every node once, sources before targets. *)
Definition before {A} (a b : A) (l : list A) : Prop := exists l1 l2 l3, l = l1 ++ a :: l2 ++ b :: l3.
Definition is_topo (g : graph) (ord : list gnode) : Prop :=
  NoDup ord /\ (forall n, In n ord <-> In n (gr_nodes g)) /\
  forall e, In e (gr_edges g) -> before (ed_src e) (ed_dst e) ord.

(** How often the traversal visits a placeholder, and its number. *)
Definition visits (ps : list phnode) (outs : list nat) (d : nat) : nat :=
  match unroll ps outs with Some (data, _) => count_occ Nat.eq_dec data d | None => 0 end.

(** The layer objects a graph uses, in the order given by the graph library, and the name each is meant
    to have: the user's, or the lower-cased type followed by the position. *)
Local Open Scope string_scope.
Definition used_layers (es : estore) (ord : list gnode) : list nat :=
  map (fun d => match nth_error (es_ph es) d with Some (mkPh _ (Some (i, _))) => i | _ => 0 end) (op_nodes ord).
Definition intended_name (es : estore) (j i : nat) : string :=
  match nth_error (es_info es) i with
  | Some li => if String.eqb (li_name li) "" then lower (li_type li) ++ to_string j else li_name li
  | None => ""
  end.
Definition intended_names (es : estore) (ord : list gnode) : list string :=
  map (fun '(j, i) => intended_name es j i) (combine (seq 0 (length (used_layers es ord))) (used_layers es ord)).

(** The name a layer object has. *)
Definition name_in (es : estore) (i : nat) : string :=
  match nth_error (es_info es) i with Some li => li_name li | None => "" end.
