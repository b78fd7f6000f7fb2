(** Model of training a model: the optimizer objects of include/deepworks/optimizer.hpp bound to the
    parameters of a model, and the loop of samples/mnist/main.cpp and samples/cifar10/main.cpp. *)
From Coq Require Import Reals String.
From Verif Require Import Base Sums M_Kernels M_Layers M_Optim M_Loss M_Nn M_Graph M_Model M_Backend.
Open Scope R_scope.

(** optimizer.hpp:9-63, the members besides the reference to the parameters. *)
Inductive optimizer :=
| SGD (lr : R)
| Momentum (lr gamma : R) (velocities : tmap)
| Adam (lr b1 b2 eps : R) (num_iterations : nat) (moments : tmap * tmap).

(** optimizer.cpp:13, 41-45, 76-84: construction from [model.params()]. *)
Definition new_momentum (lr gamma : R) (ps : pmap) : optimizer := Momentum lr gamma (momentum_new ps).
Definition new_adam (lr b1 b2 eps : R) (num_iterations : nat) (ps : pmap) : optimizer := Adam lr b1 b2 eps num_iterations (adam_new ps).

(** optimizer.cpp:37-39, 72-74, 121-123: set_lr *)
Definition set_lr (r : R) (o : optimizer) : optimizer :=
  match o with
  | SGD _ => SGD r
  | Momentum _ gamma v => Momentum r gamma v
  | Adam _ b1 b2 eps t s => Adam r b1 b2 eps t s
  end.

(** step() on the parameters it refers to (optimizer.cpp:15-31, 47-66, 86-115). *)
Definition opt_step (o : optimizer) (ps : pmap) : st (pmap * optimizer) :=
  match o with
  | SGD lr =>
      match sgd_step lr ps with
      | Ret (p, _) => Ret (p, o) | Exc (p, _) => Exc (p, o) | Bad => Bad
      end
  | Momentum lr gamma vel =>
      match momentum_step lr gamma ps vel with
      | Ret (p, v) => Ret (p, Momentum lr gamma v) | Exc (p, v) => Exc (p, Momentum lr gamma v) | Bad => Bad
      end
  | Adam lr b1 b2 eps t s =>
      match adam_step lr b1 b2 eps t ps s with
      | (t', Ret (p, s')) => Ret (p, Adam lr b1 b2 eps t' s')
      | (t', Exc (p, s')) => Exc (p, Adam lr b1 b2 eps t' s')
      | (_, Bad) => Bad
      end
  end.

(** The same on the parameters of a model. *)
Definition model_step (o : optimizer) (m : model) (infos : list linfo) : st (list linfo * optimizer) :=
  match opt_step o (params_view m infos) with
  | Ret (ps, o') => Ret (params_write m ps infos, o')
  | Exc (ps, o') => Exc (params_write m ps infos, o')
  | Bad => Bad
  end.

(** A program that uses a compiled model and one optimizer: what it does next. *)
Inductive tcall :=
| TForward (E : nat -> env) (ins outs : list ten)
| TBackward (E : nat -> env) (ins outs gouts : list ten)
| TTrain (mode : bool)
| TStep
| TLr (lr : R).
Record tstate := mkTS { ts_info : list linfo; ts_backend : option backend; ts_opt : optimizer }.

Definition tact (m : model) (c : tcall) (s : tstate) : st tstate :=
  match c with
  | TForward E ins outs =>
      match model_forward E m (ts_info s) (ts_backend s) ins outs with
      | Ret (i, b, _, _) => Ret (mkTS i b (ts_opt s)) | Exc (i, b, _, _) => Exc (mkTS i b (ts_opt s)) | Bad => Bad
      end
  | TBackward E ins outs gouts =>
      match model_backward E m (ts_info s) (ts_backend s) ins outs gouts with
      | Ret (i, b, _) => Ret (mkTS i b (ts_opt s)) | Exc (i, b, _) => Exc (mkTS i b (ts_opt s)) | Bad => Bad
      end
  | TTrain mode => Ret (mkTS (model_train mode m (ts_info s)) (ts_backend s) (ts_opt s))
  | TStep =>
      match model_step (ts_opt s) m (ts_info s) with
      | Ret (i, o) => Ret (mkTS i (ts_backend s) o) | Exc (i, o) => Exc (mkTS i (ts_backend s) o) | Bad => Bad
      end
  | TLr r => Ret (mkTS (ts_info s) (ts_backend s) (set_lr r (ts_opt s)))
  end.
(** A run ends at the first exception. *)
Fixpoint tacts (m : model) (cs : list tcall) (s : tstate) : st tstate :=
  match cs with
  | [] => Ret s
  | c :: t => match tact m c s with Ret s' => tacts m t s' | Exc s' => Exc s' | Bad => Bad end
  end.

(** The criterion, the tensors a training loop keeps, and the whole state (cifar10/main.cpp:60-98). *)
Record loop := mkLoop { l_ts : tstate; l_crit : ce; l_pred : ten; l_grad : ten }.

(** A gradient tensor whose elements are all finite. *)
Fixpoint finite (l : list (option R)) : option (list R) :=
  match l with
  | [] => Some []
  | x :: t => match x, finite t with Some a, Some r => Some (a :: r) | _, _ => None end
  end.

(** One iteration of the training loop, cifar10/main.cpp:110-117, mnist/main.cpp:83-90: forward, loss,
    gradient of the loss, backward, optimizer step.  Returns the loss as well.  Simplification: an
    iteration whose loss gradient is not finite is not followed further ([None]). *)
Definition train_iteration (m : model) (E E2 : nat -> env) (EL : env) (X y : ten) (s : loop) : st (option (loop * option R)) :=
  match model_forward E m (ts_info (l_ts s)) (ts_backend (l_ts s)) [X] [l_pred s] with
  | Ret (infos1, b1, _, [pred]) =>
      match ce_forward EL (l_crit s) pred y with
      | Ok (crit, loss) =>
          match ce_backward pred y (l_grad s) with
          | Ok g =>
              match finite g with
              | Some gd =>
                  let go := set_dat (l_grad s) gd in
                  match model_backward E2 m infos1 b1 [X] [pred] [go] with
                  | Ret (infos2, b2, [go']) =>
                      match model_step (ts_opt (l_ts s)) m infos2 with
                      | Ret (infos3, o) => Ret (Some (mkLoop (mkTS infos3 b2 o) crit pred go', loss))
                      | Exc _ => Exc None
                      | Bad => Bad
                      end
                  | Ret _ => Bad
                  | Exc _ => Exc None
                  | Bad => Bad
                  end
              | None => Ret None
              end
          | Throw => Exc None
          | UB => Bad
          end
      | Throw => Exc None
      | UB => Bad
      end
  | Ret _ => Bad
  | Exc _ => Exc None
  | Bad => Bad
  end.

(** The inner loop of cifar10/main.cpp:108-122, mnist/main.cpp:81-95, on the batches it gets: for each the
    environments and the two tensors; the losses in the order of the batches.  It is not followed beyond an
    iteration whose loss gradient is not finite. *)
Record batch := mkBatch { b_fwd : nat -> env; b_bwd : nat -> env; b_loss : env; b_X : ten; b_y : ten }.
Fixpoint train_batches (m : model) (bs : list batch) (s : loop) : st (option (loop * list (option R))) :=
  match bs with
  | [] => Ret (Some (s, []))
  | x :: t =>
      match train_iteration m (b_fwd x) (b_bwd x) (b_loss x) (b_X x) (b_y x) s with
      | Ret (Some (s', l)) =>
          match train_batches m t s' with
          | Ret (Some (s'', ls)) => Ret (Some (s'', l :: ls))
          | r => r
          end
      | Ret None => Ret None
      | Exc _ => Exc None
      | Bad => Bad
      end
  end.
