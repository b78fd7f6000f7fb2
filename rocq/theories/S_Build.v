(** Vocabulary for statements about rebuilding a model from its configuration. *)
From Coq Require Import Reals String.
From Verif Require Import Base M_Layers M_Optim M_Nn M_Graph M_Model S_Nn S_Graph.
Open Scope nat_scope.

Definition same_description (a b : linfo) : Prop := li_name a = li_name b /\ li_type a = li_type b /\ li_attrs a = li_attrs b.

(** [li] has the parameters and buffers, values aside, that a new layer of its type and attributes has
    after a call with [args]. *)
Definition initialised (ps : list phnode) (args : list nat) (li : linfo) : Prop :=
  exists k I ss li0 li1, layer_table (li_type li) = Some k /\
    Forall2 (fun a s => exists p, nth_error ps a = Some p /\ ph_shape p = s) args ss /\
    construct k (li_attrs li) (li_name li) = Ok li0 /\ linit k I ss li0 = Ret li1 /\ alike li li1.

(** The part of an expression needed for [outs] has a copy: [f] maps its placeholders to different
    placeholders of the same shapes, made by layers with the same description from the copies of the
    arguments. *)
Record copied (ps : list phnode) (infos : list linfo) (outs : list nat) (f : nat -> nat) (ps' : list phnode) (infos' : list linfo) : Prop := {
  cp_inj : forall d e, needed ps outs d -> needed ps outs e -> f d = f e -> d = e;
  cp_leaf : forall d s, needed ps outs d -> nth_error ps d = Some (mkPh s None) -> nth_error ps' (f d) = Some (mkPh s None);
  cp_call : forall d s i args, needed ps outs d -> nth_error ps d = Some (mkPh s (Some (i, args))) ->
    exists i' li li', nth_error ps' (f d) = Some (mkPh s (Some (i', map f args))) /\
      nth_error infos i = Some li /\ nth_error infos' i' = Some li' /\ same_description li li' /\ initialised ps' (map f args) li' }.

(** The placeholders of [l], in the order of their numbers in the model. *)
Definition by_number (m : model) (l : list nat) : list nat := filter (fun d => existsb (Nat.eqb d) l) (map fst (m_data m)).

(** What is assumed of the sorting of the graph library. *)
Definition sorts (order : graph -> list gnode) : Prop := forall g, (exists ord, is_topo g ord) -> is_topo g (order g).

(** Equal values of parameters and buffers, by name; gradients do not count. *)
Definition same_values (a b : linfo) : Prop :=
  (forall k, option_map (fun p => (p_data p, p_train p)) (find_key (li_params a) k) = option_map (fun p => (p_data p, p_train p)) (find_key (li_params b) k)) /\
  (forall k, find_key (li_bufs a) k = find_key (li_bufs b) k).
Definition same_state (m : model) (infos : list linfo) (m2 : model) (infos2 : list linfo) : Prop :=
  forall l l2 a b, In l (m_layers m) -> In l2 (m_layers m2) -> nth_error infos (ml_info l) = Some a -> nth_error infos2 (ml_info l2) = Some b ->
    li_name a = li_name b -> same_values a b.
