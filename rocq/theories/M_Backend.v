(** Model of src/runtime/cpu/cpubackend.cpp and of the run-time part of src/model/model.cpp.

    Parameters and buffers live in the layer descriptions ([es_info]); a CPU layer object refers to
    them and has caches of its own.  Here a layer value holds both: [load] fetches the current
    parameters and buffers before a virtual call and [lstore] puts them back after it.

    Tensors bound to inputs, outputs and output gradients are the caller's: their contents after the
    call are returned.  Simplifications: the caller's tensors share no memory with each other, with
    parameters or with the tensors of the model; the handles inside a Parameter are not replaced;
    when a layer's forward throws, that layer has written nothing; [compile] creates the layers before
    it allocates tensors (only which failure is reported first depends on it). *)
From Coq Require Import Reals String.
From Verif Require Import Base Sums M_Im2col S_Im2col M_Kernels M_Conv M_Layers M_Optim M_Nn M_Graph M_Model.
Local Open Scope string_scope.
Open Scope nat_scope.

(** The layer with the current parameters and buffers of its description (the references and handles
    taken by the constructors cited at [create_layer]). *)
Definition par (li : linfo) (k : string) : res prm := match find_key (li_params li) k with Some p => Ok p | None => UB end.
Definition bufr (li : linfo) (k : string) : res ten := match find_key (li_bufs li) k with Some t => Ok t | None => UB end.
Definition load (li : linfo) (L : layer) : res layer :=
  match L with
  | LLinear _ _ => w <- par li "weight" ;; b <- par li "bias" ;; Ok (LLinear w b)
  | LConv g _ _ c => w <- par li "weight" ;; b <- par li "bias" ;; Ok (LConv g w b c)
  | LDropout p _ => m <- par li "mask" ;; Ok (LDropout p m)
  | LBN1 e a _ _ s _ _ c =>
      g <- par li "gamma" ;; b <- par li "beta" ;; rm <- bufr li "running_mean" ;; rv <- bufr li "running_var" ;;
      Ok (LBN1 e a g b s rm rv c)
  | LBN2 e a _ _ s _ _ c ni no =>
      g <- par li "gamma" ;; b <- par li "beta" ;; rm <- bufr li "running_mean" ;; rv <- bufr li "running_var" ;;
      Ok (LBN2 e a g b s rm rv c ni no)
  | _ => Ok L
  end.

Definition set_par (li : linfo) (k : string) (p : prm) : linfo :=
  mkLI (li_name li) (li_type li) (li_attrs li) (set_key (li_params li) k p) (li_bufs li).
Definition set_buf (li : linfo) (k : string) (t : ten) : linfo :=
  mkLI (li_name li) (li_type li) (li_attrs li) (li_params li) (set_key (li_bufs li) k t).
Definition lstore (L : layer) (li : linfo) : linfo :=
  match L with
  | LLinear w b => set_par (set_par li "weight" w) "bias" b
  | LConv _ w b _ => set_par (set_par li "weight" w) "bias" b
  | LDropout _ m => set_par li "mask" m
  | LBN1 _ _ g b _ rm rv _ => set_buf (set_buf (set_par (set_par li "gamma" g) "beta" b) "running_mean" rm) "running_var" rv
  | LBN2 _ _ g b _ rm rv _ _ _ => set_buf (set_buf (set_par (set_par li "gamma" g) "beta" b) "running_mean" rm) "running_var" rv
  | _ => li
  end.

(** cpubackend.hpp:29-34: the layers in sorted order, tensors and gradients by data id. *)
Record backend := mkB { b_layers : list layer; b_mem : list ten; b_grad : list ten }.

(** cpubackend.cpp:43-61 *)
Definition alloc_mem (ps : list phnode) (junk : nat -> R) (d : nat * storage) : res ten :=
  match snd d with
  | SInternal => p <- rd ps (fst d) ;; new_ten (ph_shape p) junk
  | _ => Ok empty_ten
  end.
Definition alloc_grad (ps : list phnode) (junk : nat -> R) (d : nat * storage) : res ten :=
  match snd d with
  | SInternal | SInput => p <- rd ps (fst d) ;; new_ten (ph_shape p) junk
  | SOutput => Ok empty_ten
  end.

(** cpubackend.cpp:25-66, the constructor *)
Definition new_backend (ps : list phnode) (junk : nat -> R) (m : model) (infos : list linfo) : res backend :=
  ls <- map_res (fun op => li <- rd infos (mo_info op) ;; create_layer li) (m_ops m) ;;
  mem <- map_res (alloc_mem ps junk) (m_data m) ;;
  gr <- map_res (alloc_grad ps junk) (m_data m) ;;
  Ok (mkB ls mem gr).

(** The data id of a placeholder of the model ([handles[i]], its [Data::id]). *)
Definition id_of (m : model) (d : nat) : res nat := index_of d (map fst (m_data m)).

(** cpubackend.cpp:68-75: sizes are not compared. *)
Fixpoint bind_ids (ids : list nat) (ts : list ten) (mem : list ten) : res (list ten) :=
  match ids, ts with
  | [], _ => Ok mem
  | i :: it, t :: tl => mem' <- wr mem i t ;; bind_ids it tl mem'
  | _ :: _, [] => UB
  end.

(** The caller's tensors afterwards: those still bound, that is, whose id was not bound again. *)
Fixpoint unbind (ids later : list nat) (mem : list ten) (ts : list ten) : res (list ten) :=
  match ids, ts with
  | i :: it, t :: tl => t' <- (if memb i (it ++ later)%list then Ok t else rd mem i) ;; r <- unbind it later mem tl ;; Ok (t' :: r)
  | _, _ => Ok ts
  end.

(** cpubackend.cpp:83, 92-93 *)
Definition extract (mem : list ten) (ids : list nat) : res (list ten) := map_res (rd mem) ids.

(** One iteration of cpubackend.cpp:86-98. *)
Definition fwd_step (E : env) (op : mop) (L : layer) (infos : list linfo) (mem : list ten)
  : res (list linfo * layer * list ten) :=
  ins <- extract mem (mo_in op) ;; outs <- extract mem (mo_out op) ;;
  li <- rd infos (mo_info op) ;; L0 <- load li L ;;
  '(L1, o) <- lforward E L0 ins outs ;;
  k <- front (mo_out op) ;; mem1 <- wr mem k o ;;
  Ok (upd infos (mo_info op) (lstore L1 li), L1, mem1).

(** The loop.  [E d]: what the operation producing placeholder [d] obtains from outside. *)
Fixpoint fwd_ops (E : nat -> env) (ops : list mop) (ls : list layer) (infos : list linfo) (mem : list ten)
  : st (list linfo * list layer * list ten) :=
  match ops, ls with
  | [], _ => Ret (infos, ls, mem)
  | op :: ot, L :: lt =>
      lift (infos, ls, mem) (fwd_step (E (mo_ph op)) op L infos mem) (fun '(infos1, L1, mem1) =>
      match fwd_ops E ot lt infos1 mem1 with
      | Ret (i2, l2, m2) => Ret (i2, L1 :: l2, m2)
      | Exc (i2, l2, m2) => Exc (i2, L1 :: l2, m2)
      | Bad => Bad
      end)
  | _ :: _, [] => Bad
  end.

(** What a call of Model::forward leaves behind: descriptions, backend, the caller's inputs and outputs. *)
Definition fstate := (list linfo * option backend * list ten * list ten)%type.

(** cpubackend.cpp:77-99 *)
Definition backend_forward (E : nat -> env) (m : model) (infos : list linfo) (b : backend) (ins outs : list ten) : st fstate :=
  match (ii <- map_res (id_of m) (m_in m) ;; oi <- map_res (id_of m) (m_out m) ;;
         mem1 <- bind_ids ii ins (b_mem b) ;; mem2 <- bind_ids oi outs mem1 ;; Ok (ii, oi, mem2)) with
  | Ok (ii, oi, mem) =>
      let back ls mem' := mkB ls mem' (b_grad b) in
      match fwd_ops E (m_ops m) (b_layers b) infos mem with
      | Ret (infos', ls, mem') =>
          match unbind ii oi mem' ins, unbind oi [] mem' outs with
          | Ok ins', Ok outs' => Ret (infos', Some (back ls mem'), ins', outs')
          | _, _ => Bad
          end
      | Exc (infos', ls, mem') =>
          match unbind ii oi mem' ins, unbind oi [] mem' outs with
          | Ok ins', Ok outs' => Exc (infos', Some (back ls mem'), ins', outs')
          | _, _ => Bad
          end
      | Bad => Bad
      end
  | Throw => Exc (infos, Some b, ins, outs)
  | UB => Bad
  end.

(** model.cpp:254-258 *)
Definition model_forward (E : nat -> env) (m : model) (infos : list linfo) (bo : option backend) (ins outs : list ten) : st fstate :=
  match bo with
  | None => Exc (infos, None, ins, outs)
  | Some b => backend_forward E m infos b ins outs
  end.

(** model.cpp:240-244 *)
Definition model_forward1 (E : nat -> env) (m : model) (infos : list linfo) (bo : option backend) (i o : ten) : st fstate :=
  model_forward E m infos bo [i] [o].

(** cpubackend.cpp:104-116 with initializers.cpp:9-11 *)
Definition zero_ten (t : ten) : ten := set_dat t (repeat 0%R (tot t)).
Definition zero_grads (data : list (nat * storage)) (grad : list ten) : list ten :=
  map (fun '((_, s), t) => match s with SOutput => t | _ => zero_ten t end) (combine data grad).

(** One iteration of cpubackend.cpp:127-147. *)
Definition bwd_step (E : env) (mem : list ten) (op : mop) (L : layer) (infos : list linfo) (grad : list ten)
  : st (list linfo * layer * list ten) :=
  lift (infos, L, grad)
    (_ <- extract grad (mo_in op) ;; ins <- extract mem (mo_in op) ;; outs <- extract mem (mo_out op) ;;
     gouts <- extract grad (mo_out op) ;; li <- rd infos (mo_info op) ;; L0 <- load li L ;; Ok (ins, outs, gouts, li, L0))
    (fun '(ins, outs, gouts, li, L0) =>
  lift (infos, L, grad) (lupdate E L0 ins gouts) (fun L1 =>
  let infos1 := upd infos (mo_info op) (lstore L1 li) in
  lift (infos1, L1, grad) (lbackward E L1 ins outs grad (mo_in op) (mo_out op)) (fun '(L2, grad1) =>
  Ret (upd infos (mo_info op) (lstore L2 li), L2, grad1)))).

(** The loop runs from the last operation to the first. *)
Fixpoint bwd_ops (E : nat -> env) (mem : list ten) (ops : list mop) (ls : list layer) (infos : list linfo) (grad : list ten)
  : st (list linfo * list layer * list ten) :=
  match ops, ls with
  | [], _ => Ret (infos, ls, grad)
  | op :: ot, L :: lt =>
      match bwd_ops E mem ot lt infos grad with
      | Ret (i1, l1, g1) =>
          match bwd_step (E (mo_ph op)) mem op L i1 g1 with
          | Ret (i2, L2, g2) => Ret (i2, L2 :: l1, g2)
          | Exc (i2, L2, g2) => Exc (i2, L2 :: l1, g2)
          | Bad => Bad
          end
      | Exc (i1, l1, g1) => Exc (i1, L :: l1, g1)
      | Bad => Bad
      end
  | _ :: _, [] => Bad
  end.

(** What a call of Model::backward leaves behind: descriptions, backend, the caller's output gradients
    (inputs and outputs are only read). *)
Definition bstate := (list linfo * option backend * list ten)%type.

(** cpubackend.cpp:101-148 *)
Definition backend_backward (E : nat -> env) (m : model) (infos : list linfo) (b : backend) (ins outs gouts : list ten) : st bstate :=
  let gr0 := zero_grads (m_data m) (b_grad b) in
  match (ii <- map_res (id_of m) (m_in m) ;; oi <- map_res (id_of m) (m_out m) ;;
         mem1 <- bind_ids ii ins (b_mem b) ;; mem2 <- bind_ids oi outs mem1 ;; gr1 <- bind_ids oi gouts gr0 ;; Ok (oi, mem2, gr1)) with
  | Ok (oi, mem, gr) =>
      match bwd_ops E mem (m_ops m) (b_layers b) infos gr with
      | Ret (infos', ls, gr') =>
          match unbind oi [] gr' gouts with Ok g' => Ret (infos', Some (mkB ls mem gr'), g') | _ => Bad end
      | Exc (infos', ls, gr') =>
          match unbind oi [] gr' gouts with Ok g' => Exc (infos', Some (mkB ls mem gr'), g') | _ => Bad end
      | Bad => Bad
      end
  | Throw => Exc (infos, Some (mkB (b_layers b) (b_mem b) gr0), gouts)
  | UB => Bad
  end.

(** model.cpp:260-265 *)
Definition model_backward (E : nat -> env) (m : model) (infos : list linfo) (bo : option backend) (ins outs gouts : list ten) : st bstate :=
  match bo with
  | None => Exc (infos, None, gouts)
  | Some b => backend_backward E m infos b ins outs gouts
  end.

(** model.cpp:236-238: when the constructor throws, the old backend stays. *)
Definition model_compile (ps : list phnode) (junk : nat -> R) (m : model) (infos : list linfo) (bo : option backend) : st (option backend) :=
  match new_backend ps junk m infos with
  | Ok b => Ret (Some b)
  | Throw => Exc bo
  | UB => Bad
  end.

(** parameter.cpp:33-35 *)
Definition train_prm (mode : bool) (p : prm) : prm := mkP (p_data p) (p_grad p) mode.
Definition on_par (f : prm -> prm) (infos : list linfo) (r : nat * string) : list linfo :=
  match nth_error infos (fst r) with
  | Some li => match find_key (li_params li) (snd r) with
               | Some p => upd infos (fst r) (set_par li (snd r) (f p))
               | None => infos
               end
  | None => infos
  end.

(** model.cpp:166-170 *)
Definition model_train (mode : bool) (m : model) (infos : list linfo) : list linfo :=
  fold_left (fun infos e => on_par (train_prm mode) infos (snd e)) (m_params m) infos.

(** model.cpp:162-164: the parameters by name, as an optimizer sees them, and what it leaves. *)
Definition get_par (infos : list linfo) (r : nat * string) : option prm :=
  match nth_error infos (fst r) with Some li => find_key (li_params li) (snd r) | None => None end.
Definition params_view (m : model) (infos : list linfo) : pmap :=
  flat_map (fun e => match get_par infos (snd e) with Some p => [(fst e, p)] | None => [] end) (m_params m).
Definition params_write (m : model) (pm : pmap) (infos : list linfo) : list linfo :=
  fold_left (fun infos e => match find_key pm (fst e) with Some p => on_par (fun _ => p) infos (snd e) | None => infos end) (m_params m) infos.
