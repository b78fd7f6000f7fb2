(** Specification for C59: which models can be saved, and what loading must bring back. *)
From Coq Require Import Reals String Permutation.
From Verif Require Import Base M_Layers M_Optim M_Nn M_Graph M_Model M_Backend M_Serial M_Saved S_Serial S_Graph S_Build.
Open Scope nat_scope.

(** A number that is a float: its bit pattern gives it back. *)
Definition exact (bits : R -> Z) (value : Z -> R) (x : R) : Prop := word32 (bits x) /\ value (bits x) = x.

(** All floats a file of the model holds: those in attributes and those in tensors. *)
Definition attr_floats (a : attr R) : list R := match a with AFloat x => [x] | AFloat2 x y => [x; y] | _ => [] end.
Definition floats_of (m : model) (infos : list linfo) : list R :=
  (flat_map (fun o => flat_map (fun e => attr_floats (snd e)) (oi_attrs o)) (c_ops (m_cfg m)) ++
   flat_map (fun e => tdat (snd e)) (state_view m infos))%list.

(** The floats are floats; names, shapes and numbers are such that the file can hold them and that there is
    memory for reading them. *)
Definition savable (bits : R -> Z) (value : Z -> R) (can : Z -> bool) (m : model) (infos : list linfo) : Prop :=
  Forall (exact bits value) (floats_of m infos) /\
  good_cfg can (cfg_map bits (m_cfg m)) /\ good_dict can (dict_of bits m infos).

(** [c'] is [c], its hash maps (placeholders, attributes) iterated in another order. *)
Definition iterated {F} (c c' : config F) : Prop :=
  c_in c' = c_in c /\ c_out c' = c_out c /\ Permutation (c_ph c) (c_ph c') /\
  Forall2 (fun o o' => oi_name o' = oi_name o /\ oi_type o' = oi_type o /\ oi_in o' = oi_in o /\ oi_out o' = oi_out o /\
                       Permutation (oi_attrs o) (oi_attrs o')) (c_ops c) (c_ops c').

(** Same names and shapes of parameters and buffers, same description. *)
Definition same_tensors (a b : linfo) : Prop :=
  same_description a b /\
  map (fun e => (fst e, tsh (p_data (snd e)))) (li_params a) = map (fun e => (fst e, tsh (p_data (snd e)))) (li_params b) /\
  map (fun e => (fst e, tsh (snd e))) (li_bufs a) = map (fun e => (fst e, tsh (snd e))) (li_bufs b).
(** The tensors have as many numbers as their shapes say. *)
Definition tensors_ok (li : linfo) : Prop :=
  (forall k p, In (k, p) (li_params li) -> twf (p_data p)) /\ (forall k t, In (k, t) (li_bufs li) -> twf t).

(** Same description, same names of parameters and buffers. *)
Definition kept (a b : linfo) : Prop :=
  same_description a b /\ map fst (li_params b) = map fst (li_params a) /\ map fst (li_bufs b) = map fst (li_bufs a).

(** Every layer used for [outs] has the parameters and buffers that a new layer has after one call with these
    arguments. *)
Definition as_made (ps : list phnode) (outs : list nat) (infos : list linfo) : Prop :=
  forall d s i args, needed ps outs d -> nth_error ps d = Some (mkPh s (Some (i, args))) ->
  exists li li0, nth_error infos i = Some li /\ initialised ps args li0 /\ same_tensors li li0 /\ tensors_ok li.
