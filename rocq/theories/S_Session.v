(** What a training session did to the optimizer. *)
From Coq Require Import Reals String.
From Verif Require Import Base Sums M_Layers M_Optim M_Nn M_Graph M_Model M_Backend M_Train S_Optim.
Open Scope nat_scope.

(** The gradients and the trainable flags of the parameters of a model, by name. *)
Definition grads_now (m : model) (infos : list linfo) (key : string) : list R :=
  match find_key (params_view m infos) key with Some p => tdat (p_grad p) | None => [] end.
Definition flags_now (m : model) (infos : list linfo) (key : string) : bool :=
  match find_key (params_view m infos) key with Some p => p_train p | None => false end.

(** The steps and changes of the learning rate of a session [cs] that starts in [s], each step with the
    gradients and flags the parameters have when it is made. *)
Fixpoint history (m : model) (cs : list tcall) (s : tstate) : list event :=
  match cs with
  | [] => []
  | c :: t =>
      match c with
      | TStep => [EStep (grads_now m (ts_info s)) (flags_now m (ts_info s))]
      | TLr r => [ELr r]
      | _ => []
      end ++ match tact m c s with Ret s' => history m t s' | _ => [] end
  end%list.

(** Calls that cannot move a weight, and calls that cannot unfreeze one. *)
Definition no_step (c : tcall) : Prop := match c with TStep => False | _ => True end.
Definition no_thaw (c : tcall) : Prop := match c with TTrain true => False | _ => True end.
