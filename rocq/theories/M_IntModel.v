(** Models run on the layers of [M_Int]: the backend's loops with 32-bit ints in the layers. *)
From Coq Require Import Reals String.
From Verif Require Import Base Sums M_Layers M_Nn M_Graph M_Model M_Backend M_Int.
Open Scope nat_scope.

(** One iteration of cpubackend.cpp:86-98. *)
Definition fwd_step32 (E : env) (op : mop) (L : layer) (infos : list linfo) (mem : list ten)
  : res (list linfo * layer * list ten) :=
  ins <- extract mem (mo_in op) ;; outs <- extract mem (mo_out op) ;;
  li <- rd infos (mo_info op) ;; L0 <- load li L ;;
  '(L1, o) <- lforward32 E L0 ins outs ;;
  k <- front (mo_out op) ;; mem1 <- wr mem k o ;;
  Ok (upd infos (mo_info op) (lstore L1 li), L1, mem1).

Fixpoint fwd_ops32 (E : nat -> env) (ops : list mop) (ls : list layer) (infos : list linfo) (mem : list ten)
  : st (list linfo * list layer * list ten) :=
  match ops, ls with
  | [], _ => Ret (infos, ls, mem)
  | op :: ot, L :: lt =>
      lift (infos, ls, mem) (fwd_step32 (E (mo_ph op)) op L infos mem) (fun '(infos1, L1, mem1) =>
      match fwd_ops32 E ot lt infos1 mem1 with
      | Ret (i2, l2, m2) => Ret (i2, L1 :: l2, m2)
      | Exc (i2, l2, m2) => Exc (i2, L1 :: l2, m2)
      | Bad => Bad
      end)
  | _ :: _, [] => Bad
  end.

(** cpubackend.cpp:77-99 with model.cpp:254-258 *)
Definition model_forward32 (E : nat -> env) (m : model) (infos : list linfo) (bo : option backend) (ins outs : list ten) : st fstate :=
  match bo with
  | None => Exc (infos, None, ins, outs)
  | Some b =>
  match (ii <- map_res (id_of m) (m_in m) ;; oi <- map_res (id_of m) (m_out m) ;;
         mem1 <- bind_ids ii ins (b_mem b) ;; mem2 <- bind_ids oi outs mem1 ;; Ok (ii, oi, mem2)) with
  | Ok (ii, oi, mem) =>
      let back ls mem' := mkB ls mem' (b_grad b) in
      match fwd_ops32 E (m_ops m) (b_layers b) infos mem with
      | Ret (infos', ls, mem') =>
          match unbind ii oi mem' ins, unbind oi [] mem' outs with
          | Ok ins', Ok outs' => Ret (infos', Some (back ls mem'), ins', outs')
          | _, _ => Bad
          end
      | Exc (infos', ls, mem') =>
          match unbind ii oi mem' ins, unbind oi [] mem' outs with
          | Ok ins', Ok outs' => Exc (infos', Some (back ls mem'), ins', outs')
          | _, _ => Bad
          end
      | Bad => Bad
      end
  | Throw => Exc (infos, Some b, ins, outs)
  | UB => Bad
  end
  end.

(** One iteration of cpubackend.cpp:127-147. *)
Definition bwd_step32 (E : env) (mem : list ten) (op : mop) (L : layer) (infos : list linfo) (grad : list ten)
  : st (list linfo * layer * list ten) :=
  lift (infos, L, grad)
    (_ <- extract grad (mo_in op) ;; ins <- extract mem (mo_in op) ;; outs <- extract mem (mo_out op) ;;
     gouts <- extract grad (mo_out op) ;; li <- rd infos (mo_info op) ;; L0 <- load li L ;; Ok (ins, outs, gouts, li, L0))
    (fun '(ins, outs, gouts, li, L0) =>
  lift (infos, L, grad) (lupdate32 E L0 ins gouts) (fun L1 =>
  let infos1 := upd infos (mo_info op) (lstore L1 li) in
  lift (infos1, L1, grad) (lbackward32 E L1 ins outs grad (mo_in op) (mo_out op)) (fun '(L2, grad1) =>
  Ret (upd infos (mo_info op) (lstore L2 li), L2, grad1)))).

Fixpoint bwd_ops32 (E : nat -> env) (mem : list ten) (ops : list mop) (ls : list layer) (infos : list linfo) (grad : list ten)
  : st (list linfo * list layer * list ten) :=
  match ops, ls with
  | [], _ => Ret (infos, ls, grad)
  | op :: ot, L :: lt =>
      match bwd_ops32 E mem ot lt infos grad with
      | Ret (i1, l1, g1) =>
          match bwd_step32 (E (mo_ph op)) mem op L i1 g1 with
          | Ret (i2, L2, g2) => Ret (i2, L2 :: l1, g2)
          | Exc (i2, L2, g2) => Exc (i2, L2 :: l1, g2)
          | Bad => Bad
          end
      | Exc (i1, l1, g1) => Exc (i1, L :: l1, g1)
      | Bad => Bad
      end
  | _ :: _, [] => Bad
  end.

(** cpubackend.cpp:101-148 with model.cpp:260-265 *)
Definition model_backward32 (E : nat -> env) (m : model) (infos : list linfo) (bo : option backend) (ins outs gouts : list ten) : st bstate :=
  match bo with
  | None => Exc (infos, None, gouts)
  | Some b =>
  let gr0 := zero_grads (m_data m) (b_grad b) in
  match (ii <- map_res (id_of m) (m_in m) ;; oi <- map_res (id_of m) (m_out m) ;;
         mem1 <- bind_ids ii ins (b_mem b) ;; mem2 <- bind_ids oi outs mem1 ;; gr1 <- bind_ids oi gouts gr0 ;; Ok (oi, mem2, gr1)) with
  | Ok (oi, mem, gr) =>
      match bwd_ops32 E mem (m_ops m) (b_layers b) infos gr with
      | Ret (infos', ls, gr') =>
          match unbind oi [] gr' gouts with Ok g' => Ret (infos', Some (mkB ls mem gr'), g') | _ => Bad end
      | Exc (infos', ls, gr') =>
          match unbind oi [] gr' gouts with Ok g' => Exc (infos', Some (mkB ls mem gr'), g') | _ => Bad end
      | Bad => Bad
      end
  | Throw => Exc (infos, Some (mkB (b_layers b) (b_mem b) gr0), gouts)
  | UB => Bad
  end
  end.
