(** Model of src/model/graphbuilder.cpp: collecting the part of the expression that the outputs need and
    linking it into a graph.

    A graph node is the placeholder or the call (named by the placeholder it produces) it stands for;
    the maps [m_data] and [m_ops] of the builder make the correspondence one to one. *)
From Coq Require Import String.
From Verif Require Import Base M_Nn.
Open Scope nat_scope.

Definition memb (x : nat) (l : list nat) : bool := existsb (Nat.eqb x) l.

(** The arguments of a placeholder's producer, if it has one. *)
Definition args_of (ps : list phnode) (d : nat) : option (list nat) :=
  match nth_error ps d with
  | Some p => match ph_call p with Some (_, args) => Some args | None => None end
  | None => None
  end.

(** graphbuilder.cpp:109-113: the arguments not yet reached are pushed, the last one ends up on top. *)
Definition push_args (reached : list nat) (args stack : list nat) : list nat :=
  fold_left (fun st a => if memb a reached then st else a :: st) args stack.

(** graphbuilder.cpp:88-114, the loop.  One unit of fuel per iteration; [None] when it is used up.
    [reached] is the set of placeholders popped so far.  Returns [all_data] and [all_ops]. *)
Fixpoint unroll_loop (fuel : nat) (ps : list phnode) (stack reached : list nat) (all_data all_ops : list nat)
  : option (list nat * list nat) :=
  match stack with
  | [] => Some (all_data, all_ops)
  | d :: rest =>
      match fuel with
      | O => None
      | S fuel =>
          let all_data := all_data ++ [d] in
          let reached := d :: reached in
          match args_of ps d with
          | None => unroll_loop fuel ps rest reached all_data all_ops
          | Some args => unroll_loop fuel ps (push_args reached args rest) reached all_data (all_ops ++ [d])
          end
      end
  end.

(** The number of argument links of the whole store. *)
Definition num_args (ps : list phnode) (d : nat) : nat :=
  match args_of ps d with Some args => length args | None => 0 end.
Definition all_links (ps : list phnode) : nat := list_sum (map (num_args ps) (seq 0 (length ps))).

(** graphbuilder.cpp:77-117: the outputs are pushed in order, so the last one is popped first. *)
Definition unroll (ps : list phnode) (outs : list nat) : option (list nat * list nat) :=
  unroll_loop (length outs + all_links ps) ps (rev outs) [] [] [].

(** graph.hpp: data and operation nodes, edges with ports. *)
Inductive gnode := GD (d : nat) | GO (d : nat).
Definition gnode_eqb (a b : gnode) : bool :=
  match a, b with
  | GD i, GD j => i =? j
  | GO i, GO j => i =? j
  | _, _ => false
  end.
Record edge := mkEdge { ed_src : gnode; ed_dst : gnode; ed_port : nat }.
Record graph := mkG { gr_nodes : list gnode; gr_edges : list edge }.

(** graphbuilder.cpp:119-150, [getOpNode] and [getDataNode]: the node is created on first use. *)
Definition get_node (n : gnode) (g : graph) : graph :=
  if existsb (gnode_eqb n) (gr_nodes g) then g else mkG (gr_nodes g ++ [n]) (gr_edges g).
Definition link (a b : gnode) (p : nat) (g : graph) : graph :=
  mkG (gr_nodes g) (gr_edges g ++ [mkEdge a b p]).

(** graphbuilder.cpp:24-32 *)
Fixpoint link_args (op : nat) (port : nat) (args : list nat) (g : graph) : graph :=
  match args with
  | [] => g
  | a :: t => link_args op (S port) t (link (GD a) (GO op) port (get_node (GD a) g))
  end.

(** graphbuilder.cpp:20-33 *)
Definition link_op (ps : list phnode) (g : graph) (op : nat) : graph :=
  match args_of ps op with
  | Some args => link_args op 0 args (get_node (GO op) g)
  | None => g
  end.

(** graphbuilder.cpp:37-50 *)
Definition link_data (ps : list phnode) (g : graph) (d : nat) : graph :=
  match args_of ps d with
  | None => g
  | Some _ => link (GO d) (GD d) 0 (get_node (GO d) (get_node (GD d) g))
  end.

Definition build_graph (ps : list phnode) (u : list nat * list nat) : graph :=
  fold_left (link_data ps) (fst u) (fold_left (link_op ps) (snd u) (mkG [] [])).

(** graph.hpp:23-27 and graphbuilder.cpp:63-71: inputs are marked first, outputs afterwards. *)
Inductive storage := SInput | SOutput | SInternal.
Definition storage_of (ins outs : list nat) (d : nat) : storage :=
  if memb d outs then SOutput else if memb d ins then SInput else SInternal.

(** graphbuilder.cpp:16-75.  Marking a placeholder that has no node ([m_data[]] yields a null handle,
    line 53) is undefined.  The fuel never runs out (Prop_Graph); that case is reported as undefined. *)
Definition build (ps : list phnode) (ins outs : list nat) : res graph :=
  match unroll ps outs with
  | None => UB
  | Some u =>
      let g := build_graph ps u in
      if forallb (fun d => existsb (gnode_eqb (GD d)) (gr_nodes g)) (ins ++ outs) then Ok g else UB
  end.
