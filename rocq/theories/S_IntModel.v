(** Vocabulary for statements about whole models on 32-bit ints. *)
From Coq Require Import Reals String.
From Verif Require Import Base M_Layers M_Nn M_Graph M_Model M_Backend M_IntModel S_Grad S_Graph S_Run S_Plain S_Int.
Open Scope nat_scope.

(** [act] of [S_Run] with forward and backward on 32-bit ints. *)
Definition act32 (ps : list phnode) (m : model) (a : action) (s : mstate) : option (mstate * bool) :=
  let (infos, bo) := s in
  match a with
  | Forward E ins outs =>
      match model_forward32 E m infos bo ins outs with
      | Ret (i, b, _, _) => Some ((i, b), false) | Exc (i, b, _, _) => Some ((i, b), true) | Bad => None end
  | Backward E ins outs gouts =>
      match model_backward32 E m infos bo ins outs gouts with
      | Ret (i, b, _) => Some ((i, b), false) | Exc (i, b, _) => Some ((i, b), true) | Bad => None end
  | _ => act ps m a s
  end.
Fixpoint acts32 (ps : list phnode) (m : model) (h : list action) (s : mstate) : option mstate :=
  match h with
  | [] => Some s
  | a :: t => match act32 ps m a s with Some (s', _) => acts32 ps m t s' | None => None end
  end.

(** The parameters and their gradients keep their shapes. *)
Definition keeps_shapes (infos infos' : list linfo) : Prop :=
  Forall2 (fun li li' => Forall2 (fun e e' => fst e' = fst e /\ tsh (p_data (snd e')) = tsh (p_data (snd e)) /\ tsh (p_grad (snd e')) = tsh (p_grad (snd e)))
    (li_params li) (li_params li')) infos infos'.

(** Calls with tensors of the shapes of the placeholders; changes, such as steps of an optimizer, that keep shapes. *)
Definition suits (ps : list phnode) (ins outs : list nat) (a : action) : Prop :=
  match a with
  | Compile _ => False
  | Forward E xs ys => shaped ps ins xs /\ shaped ps outs ys /\ forall d, is_argmax (e_amax (E d))
  | Backward _ xs ys gs => shaped ps ins xs /\ shaped ps outs ys /\ shaped ps outs gs
  | Train _ => True
  | Change f => forall infos, keeps_shapes infos (f infos)
  end.

(** Every layer of the model has room, and recorded positions are positions. *)
Definition fits_ints (ps : list phnode) (m : model) (infos : list linfo) (b : backend) : Prop :=
  forall d L args, produces m infos b d L -> call ps d args -> room L (map (dims ps) args) (dims ps d) /\ positions L.
