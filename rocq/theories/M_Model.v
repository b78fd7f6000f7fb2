(** Model of src/model/model.cpp: numbering of the graph nodes, layer names, the collections a Model
    offers, its configuration, and Model::Build.

    The order in which the graph library sorts the nodes is an argument [ord]; all that is assumed of
    it is [is_topo] (S_Graph).  Hash maps are lists of entries in order of insertion. *)
From Coq Require Import Reals String Ascii DecimalString.
From Verif Require Import Base M_Layers M_Optim M_Nn M_Graph.
Local Open Scope string_scope.
Open Scope nat_scope.

(** model.cpp:23-37 *)
Definition data_nodes (ord : list gnode) : list nat :=
  flat_map (fun n => match n with GD d => [d] | GO _ => [] end) ord.
Definition op_nodes (ord : list gnode) : list nat :=
  flat_map (fun n => match n with GO d => [d] | GD _ => [] end) ord.

(** Position of the first occurrence. *)
Fixpoint index_of (x : nat) (l : list nat) : res nat :=
  match l with
  | [] => UB
  | y :: t => if y =? x then Ok 0 else i <- index_of x t ;; Ok (S i)
  end.

(** model.cpp:58-64: the id of a data node is its position among the data nodes. *)
Definition data_id (ord : list gnode) (d : nat) : res nat := index_of d (data_nodes ord).

(** model.cpp:84-89 and 91-96: the vector gets one zero per edge, then the id of the other end of every
    edge is written at the port of the edge. *)
Definition edge_ids (ord : list gnode) (es : list (nat * nat)) : res (list nat) :=
  fold_res (fun e v => i <- data_id ord (fst e) ;; wr v (snd e) i) es (repeat 0 (length es)).

Definition in_edges (g : graph) (op : nat) : list (nat * nat) :=
  flat_map (fun e => match ed_src e, ed_dst e with
                     | GD d, GO o => if o =? op then [(d, ed_port e)] else []
                     | _, _ => []
                     end) (gr_edges g).
Definition out_edges (g : graph) (op : nat) : list (nat * nat) :=
  flat_map (fun e => match ed_src e, ed_dst e with
                     | GO o, GD d => if o =? op then [(d, ed_port e)] else []
                     | _, _ => []
                     end) (gr_edges g).

(** graph.hpp:12-18, [graph::Op]: the call, its layer description and the numbers of its ends. *)
Record mop := mkOp { mo_ph : nat; mo_info : nat; mo_in : list nat; mo_out : list nat }.

(** model.cpp:77-81: [::tolower] on every character of the type, then the position in decimal. *)
Definition lower_ascii (c : ascii) : ascii :=
  let n := nat_of_ascii c in
  if (65 <=? n) && (n <=? 90) then ascii_of_nat (n + 32) else c.
Fixpoint lower (s : string) : string :=
  match s with
  | EmptyString => EmptyString
  | String c t => String (lower_ascii c) (lower t)
  end.
Definition to_string (n : nat) : string := NilZero.string_of_uint (Nat.to_uint n).
Definition auto_name (type : string) (idx : nat) : string := lower type ++ to_string idx.

Definition rename (li : linfo) (name : string) : linfo :=
  mkLI name (li_type li) (li_attrs li) (li_params li) (li_bufs li).

(** model.cpp:76-82 *)
Definition name_info (infos : list linfo) (info idx : nat) : res (list linfo) :=
  li <- rd infos info ;;
  Ok (if String.eqb (li_name li) "" then upd infos info (rename li (auto_name (li_type li) idx)) else infos).

Definition info_of (ps : list phnode) (d : nat) : res nat :=
  p <- rd ps d ;; match ph_call p with Some (i, _) => Ok i | None => UB end.

(** model.cpp:66-97: names and ids of the operations, in sorted order; [idx] counts them. *)
Fixpoint init_ops (ps : list phnode) (g : graph) (ord : list gnode) (idx : nat) (ops : list nat) (infos : list linfo)
  : res (list linfo * list mop) :=
  match ops with
  | [] => Ok (infos, [])
  | d :: t =>
      info <- info_of ps d ;;
      infos1 <- name_info infos info idx ;;
      i <- edge_ids ord (in_edges g d) ;;
      o <- edge_ids ord (out_edges g d) ;;
      '(infos2, rest) <- init_ops ps g ord (S idx) t infos1 ;;
      Ok (infos2, mkOp d info i o :: rest)
  end.

(** model.cpp:41-52 *)
Fixpoint check_names (seen : list string) (names : list string) : res unit :=
  match names with
  | [] => Ok tt
  | n :: t => if existsb (String.eqb n) seen then Throw else check_names (n :: seen) t
  end.

(** A layer as the user sees it (src/model/layer.cpp): description, inputs, outputs. *)
Record mlayer := mkML { ml_info : nat; ml_ins : list nat; ml_outs : list nat }.

(** Where a state tensor lives: a parameter or a buffer of a layer description. *)
Inductive sref := SRParam (info : nat) (name : string) | SRBuf (info : nat) (name : string).

(** model.hpp:107-133, [Model::Config] *)
Record opinfo (F : Type) := mkOI { oi_name : string; oi_type : string; oi_attrs : list (string * attr F);
                                   oi_in : list Z; oi_out : list Z }.
Record config (F : Type) := mkCfg { c_in : list Z; c_out : list Z; c_ph : list (Z * (shape * Z)); c_ops : list (opinfo F) }.
Arguments mkOI {F}. Arguments oi_name {F}. Arguments oi_type {F}. Arguments oi_attrs {F}. Arguments oi_in {F}. Arguments oi_out {F}.
Arguments mkCfg {F}. Arguments c_in {F}. Arguments c_out {F}. Arguments c_ph {F}. Arguments c_ops {F}.

(** model_impl.hpp:19-35 without the backend.  [m_data]: placeholder and storage of every data node, in
    order of their ids. *)
Record model := mkM { m_graph : graph; m_ord : list gnode;
                      m_ops : list mop; m_data : list (nat * storage);
                      m_in : list nat; m_out : list nat;              (* placeholders *)
                      m_layers : list mlayer; m_lmap : list (string * mlayer);
                      m_params : list (string * (nat * string)); m_state : list (string * sref);
                      m_cfg : config R }.

(** model.cpp:188-219: layers, parameters and state of one operation. *)
Definition collect_layer (infos : list linfo) (g : graph) (op : mop)
    (a : list mlayer * list (string * mlayer) * list (string * (nat * string)) * list (string * sref))
  : res (list mlayer * list (string * mlayer) * list (string * (nat * string)) * list (string * sref)) :=
  let '(ls, lm, ps, ss) := a in
  li <- rd infos (mo_info op) ;;
  let l := mkML (mo_info op) (map fst (in_edges g (mo_ph op))) (map fst (out_edges g (mo_ph op))) in
  let lm1 := emplace lm (li_name li) l in
  l1 <- at_key lm1 (li_name li) ;;                                    (* it->second *)
  li1 <- rd infos (ml_info l1) ;;
  let '(ps1, ss1) := fold_left (fun '(ps, ss) e =>
        let key := li_name li ++ "." ++ fst e in
        (emplace ps key (ml_info l1, fst e), emplace ss key (SRParam (ml_info l1) (fst e)))) (li_params li1) (ps, ss) in
  let ss2 := fold_left (fun ss e => emplace ss (li_name li ++ "." ++ fst e) (SRBuf (ml_info l1) (fst e))) (li_bufs li1) ss1 in
  Ok (app ls [l1], lm1, ps1, ss2).

(** model.cpp:102-129 *)
Definition create_config (ps : list phnode) (infos : list linfo) (data : list (nat * storage)) (ops : list mop) : res (config R) :=
  let ids := seq 0 (length data) in
  phs <- map_res (fun '(i, (d, _)) => p <- rd ps d ;; Ok (Z.of_nat i, (ph_shape p, Z.of_nat i))) (combine ids data) ;;
  let pick s := flat_map (fun '(i, (_, s')) => match s, s' with SInput, SInput | SOutput, SOutput => [Z.of_nat i] | _, _ => [] end)
                         (combine ids data) in
  os <- map_res (fun op => li <- rd infos (mo_info op) ;;
                   Ok (mkOI (li_name li) (li_type li) (li_attrs li) (map Z.of_nat (mo_in op)) (map Z.of_nat (mo_out op)))) ops ;;
  Ok (mkCfg (pick SInput) (pick SOutput) phs os).

(** model.cpp:172-222, the constructor.  The names given in [initNodeId] stay in the store when a later
    step throws. *)
Definition construct_model (order : graph -> list gnode) (ins outs : list nat) (es : estore) : outcome model :=
  match build (es_ph es) ins outs with
  | Throw => RExc es
  | UB => RBad
  | Ok g =>
      let ord := order g in
      match init_ops (es_ph es) g ord 0 (op_nodes ord) (es_info es) with
      | Throw => RExc es
      | UB => RBad
      | Ok (infos, ops) =>
          let es1 := mkES (es_ph es) infos in
          let data := map (fun d => (d, storage_of ins outs d)) (data_nodes ord) in
          match (names <- map_res (fun op => li <- rd infos (mo_info op) ;; Ok (li_name li)) ops ;;
                 _ <- check_names [] names ;;
                 '(ls, lm, ps, ss) <- fold_res (collect_layer infos g) ops ([], [], [], []) ;;
                 cfg <- create_config (es_ph es) infos data ops ;;
                 Ok (mkM g ord ops data ins outs ls lm ps ss cfg)) with
          | Ok m => RVal es1 m
          | Throw => RExc es1
          | UB => RBad
          end
      end
  end.

(** model.cpp:156-160 *)
Definition get_layer (m : model) (name : string) : res mlayer := at_key (m_lmap m) name.

(** [std::unordered_map<int, Placeholder>] *)
Fixpoint find_id {A} (m : list (Z * A)) (k : Z) : option A :=
  match m with
  | [] => None
  | (k', v) :: t => if (k' =? k)%Z then Some v else find_id t k
  end.
Definition at_id {A} (m : list (Z * A)) (k : Z) : res A := match find_id m k with Some v => Ok v | None => Throw end.
Definition emplace_id {A} (m : list (Z * A)) (k : Z) (v : A) : list (Z * A) :=
  match find_id m k with Some _ => m | None => app m [(k, v)] end.

(** model.cpp:270-272 *)
Fixpoint build_inputs (phm : list (Z * (shape * Z))) (ids : list Z) (m : list (Z * nat)) (es : estore) : outcome (list (Z * nat)) :=
  match ids with
  | [] => RVal es m
  | id :: t =>
      match at_id phm id with
      | Ok (s, _) => let '(es1, p) := new_input s es in build_inputs phm t (emplace_id m id p) es1
      | Throw => RExc es
      | UB => RBad
      end
  end.

(** model.cpp:276-284; [I k] is what initialising the [k]-th operation's parameters obtains. *)
Fixpoint build_ops (I : nat -> ienv) (k : nat) (ops : list (opinfo R)) (m : list (Z * nat)) (es : estore) : outcome (list (Z * nat)) :=
  match ops with
  | [] => RVal es m
  | op :: t =>
      match map_res (at_id m) (oi_in op) with
      | Throw => RExc es
      | UB => RBad
      | Ok inps =>
          match oi_out op with
          | [] => RBad                                   (* out_ids[0] *)
          | o :: _ =>
              match make_layer (I k) (oi_type op) (oi_name op) (oi_attrs op) inps es with
              | RVal es1 p => build_ops I (S k) t (emplace_id m o p) es1
              | RExc es1 => RExc es1
              | RBad => RBad
              end
          end
      end
  end.

(** model.cpp:267-296 *)
Definition Build (order : graph -> list gnode) (I : nat -> ienv) (c : config R) (es : estore) : outcome model :=
  match build_inputs (c_ph c) (c_in c) [] es with
  | RVal es1 m =>
      match build_ops I 0 (c_ops c) m es1 with
      | RVal es2 m2 =>
          match map_res (at_id m2) (c_in c), map_res (at_id m2) (c_out c) with
          | Ok i, Ok o => construct_model order i o es2
          | UB, _ | _, UB => RBad
          | _, _ => RExc es2
          end
      | RExc es2 => RExc es2
      | RBad => RBad
      end
  | RExc es1 => RExc es1
  | RBad => RBad
  end.
