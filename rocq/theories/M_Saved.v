(** Model of saving a whole model and loading it again (src/serialization.cpp:299-310), and of the sample
    programs in mode "test".

    [bits] and [value] stand for the encoding of floats: numbers of the model that are floats are exact reals,
    in a file they are bit patterns.  Hash maps are lists; the order in which they are iterated when they are
    written is an argument. *)
From Coq Require Import Reals String Ascii.
From Verif Require Import Base M_Layers M_Optim M_Nn M_Graph M_Model M_Backend M_Serial M_DataLoader M_Train M_Sample.
Open Scope nat_scope.
Local Open Scope list_scope.

(** A configuration with its floats replaced. *)
Definition attr_map {F F'} (f : F -> F') (a : attr F) : attr F' :=
  match a with
  | AInt z => AInt z
  | AFloat x => AFloat (f x)
  | AInt2 x y => AInt2 x y
  | AFloat2 x y => AFloat2 (f x) (f y)
  | AOther => AOther
  end.
Definition op_map {F F'} (f : F -> F') (o : opinfo F) : opinfo F' :=
  mkOI (oi_name o) (oi_type o) (map (fun e => (fst e, attr_map f (snd e))) (oi_attrs o)) (oi_in o) (oi_out o).
Definition cfg_map {F F'} (f : F -> F') (c : config F) : config F' :=
  mkCfg (c_in c) (c_out c) (c_ph c) (map (op_map f) (c_ops c)).

(** model.cpp:228-234 with 199-218, [Model::state()]: the tensors of parameters and buffers by name. *)
Definition get_state (infos : list linfo) (r : sref) : option ten :=
  match r with
  | SRParam i k => match get_par infos (i, k) with Some p => Some (p_data p) | None => None end
  | SRBuf i k => match nth_error infos i with Some li => find_key (li_bufs li) k | None => None end
  end.
Definition state_view (m : model) (infos : list linfo) : tmap :=
  flat_map (fun e => match get_state infos (snd e) with Some t => [(fst e, t)] | None => [] end) (m_state m).

(** Writing into the memory of such a tensor. *)
Definition put_state (infos : list linfo) (r : sref) (d : list R) : list linfo :=
  match r with
  | SRParam i k => on_par (fun p => mkP (set_dat (p_data p) d) (p_grad p) (p_train p)) infos (i, k)
  | SRBuf i k =>
      match nth_error infos i with
      | Some li => match find_key (li_bufs li) k with Some t => upd infos i (set_buf li k (set_dat t d)) | None => infos end
      | None => infos
      end
  end.

Section Codec.
Variables (bits : R -> Z) (value : Z -> R).

(** The memory of a tensor, and the floats in it. *)
Definition mem_of (t : ten) : sten := mkS (map Z.of_nat (tsh t)) (flat_map (fun x => write_float (bits x)) (tdat t)).
Fixpoint floats (n : nat) (b : bytes) : list R :=
  match n with O => [] | S n => value (unle (firstn 4 b)) :: floats n (skipn 4 b) end.
Definition dict_of (m : model) (infos : list linfo) : sdict := map (fun e => (fst e, mem_of (snd e))) (state_view m infos).

(** The model after its state dictionary has been filled. *)
Definition state_write (m : model) (d : sdict) (infos : list linfo) : list linfo :=
  fold_left (fun infos e => match find_key d (fst e) with
                            | Some s => put_state infos (snd e) (floats (Nat.div (length (s_mem s)) 4) (s_mem s))
                            | None => infos
                            end) (m_state m) infos.

(** serialization.cpp:299-303, [dw::save]: the bytes of the file. *)
Definition save_model (iter_cfg : config Z -> config Z) (iter_dict : sdict -> sdict) (m : model) (infos : list linfo) : res bytes :=
  save (iter_cfg (cfg_map bits (m_cfg m))) (iter_dict (dict_of m infos)).

(** serialization.cpp:305-310, [dw::load]; [None]: the file cannot be opened.  The result: the new model and
    the layers, those of the model being filled. *)
Definition load_model (can : Z -> bool) (junk : bytes -> bytes) (order : graph -> list gnode) (I : nat -> ienv)
    (f : option bytes) (es : estore) : outcome (model * list linfo) :=
  match load_cfg can junk (match f with Some s => s | None => [] end) with
  | Ok (c, s) =>
      match Build order I (cfg_map value c) es with
      | RVal es1 m =>
          match load_state can (dict_of m (es_info es1)) s with
          | Ret (d, _) => RVal es1 (m, state_write m d (es_info es1))
          | Exc (d, _) => RExc (mkES (es_ph es1) (state_write m d (es_info es1)))
          | Bad => RBad
          end
      | RExc es1 => RExc es1
      | RBad => RBad
      end
  | Throw => RExc es
  | UB => RBad
  end.

(** mnist/main.cpp:24-72 in mode "test", and the same lines of the other samples: the lines printed.  There is
    no training loader; its place is taken by an empty one. *)
Definition test_main {D2 G} (next : G -> Z -> Z * G) (iter_order : list Z -> list Z) (fuel turns : nat) (world : nat -> outside)
    (can : Z -> bool) (junk_bytes : bytes -> bytes) (order : graph -> list gnode) (I : nat -> ienv) (make_opt : pmap -> optimizer)
    (f : option bytes) (batch_size : Z) (test_set : dataset R D2) (junk : nat -> R) (d2 : D2) (g : G) : fate (list line) :=
  match load_model can junk_bytes order I f es0 with
  | RVal es (m, infos) =>
      fbind (prepare (es_ph es) m infos make_opt junk tt d2 g) (fun s =>
      fbind (validate next iter_order fuel turns world m batch_size test_set s) (fun s =>
      FDone (v_out s)))
  | RExc _ => FThrow
  | RBad => FUndefined
  end.
End Codec.
