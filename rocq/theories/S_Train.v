(** Vocabulary for statements about training sessions. *)
From Coq Require Import Reals String.
From Verif Require Import Base Sums M_Layers M_Optim M_Nn M_Graph M_Model M_Backend M_Train S_Grad S_Partial S_Graph S_Run S_Fit S_Primed.
Open Scope nat_scope.

(** Every layer of the compiled model is in a [good] state for the shapes of the expression, and is
    reached once unless it does not mind being reached several times. *)
Definition layers_are (good : layer -> list (list nat) -> list nat -> Prop)
                      (ps : list phnode) (outs : list nat) (m : model) (infos : list linfo) (b : backend) : Prop :=
  forall d args, needed ps outs d -> call ps d args -> exists L, produces m infos b d L /\
    good L (map (dims ps) args) (dims ps d) /\ (visits ps outs d = 1 \/ tolerant L = true).

(** The parameters of the model exist, and their gradients have their shapes. *)
Definition params_sound (m : model) (infos : list linfo) : Prop :=
  forall key r, In (key, r) (m_params m) -> exists p, get_par infos r = Some p /\ prm_ok (tsh (p_data p)) p.

(** Every parameter of a layer of the model is a parameter of the model. *)
Definition owns (m : model) (infos : list linfo) : Prop :=
  forall op k p, In op (m_ops m) -> get_par infos (mo_info op, k) = Some p -> exists key, In (key, (mo_info op, k)) (m_params m).

(** A compiled model that can be used; [ran]: after its first forward. *)
Definition usable (ran : bool) (ps : list phnode) (outs : list nat) (m : model) (infos : list linfo) (b : backend) : Prop :=
  backend_fits ps m b /\ layers_are (if ran then primed else fits) ps outs m infos b /\ params_sound m infos /\ owns m infos.

(** The tensors an optimizer keeps: one for each parameter, of its size. *)
Definition keeps (m : model) (infos : list linfo) (v : tmap) : Prop :=
  forall key r p, In (key, r) (m_params m) -> get_par infos r = Some p -> exists t, find_key v key = Some t /\ tot t = tot (p_data p).
Definition opt_fits (m : model) (infos : list linfo) (o : optimizer) : Prop :=
  match o with
  | SGD _ => True
  | Momentum _ _ v => keeps m infos v
  | Adam _ _ _ _ _ (v1, v2) => keeps m infos v1 /\ keeps m infos v2
  end.

(** The rules a program has to follow: tensors of the shapes of the model's inputs and outputs, and no
    backward before the first forward. *)
Fixpoint legal (ps : list phnode) (ins outs : list nat) (ran : bool) (cs : list tcall) : Prop :=
  match cs with
  | [] => True
  | TForward E xs os :: t => (forall d, fair (E d)) /\ shaped ps ins xs /\ shaped ps outs os /\ legal ps ins outs true t
  | TBackward E xs os gs :: t => ran = true /\ shaped ps ins xs /\ shaped ps outs os /\ shaped ps outs gs /\ legal ps ins outs ran t
  | TTrain _ :: t | TStep :: t | TLr _ :: t => legal ps ins outs ran t
  end.
Definition ever_ran (ran : bool) (cs : list tcall) : bool := orb ran (existsb (fun c => match c with TForward _ _ _ => true | _ => false end) cs).
