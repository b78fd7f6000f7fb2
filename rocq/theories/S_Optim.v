(** Histories of optimizer use. *)
From Coq Require Import Reals String.
From Verif Require Import Base Sums M_Im2col M_Kernels M_Conv M_Layers M_Optim S_Grad.
Open Scope R_scope.

(** What happens to a model in training: a training step, before which the gradients and the trainable
    flags have been set to anything, or a change of the learning rate. *)
Inductive event :=
| EStep (grad : string -> list R) (train : string -> bool)
| ELr (lr : R).

(** Gradients and flags are set by the rest of the program (backward, train). *)
Definition prepare (g : string -> list R) (tr : string -> bool) (ps : pmap) : pmap :=
  map (fun '(k, p) => (k, mkP (p_data p) (set_dat (p_grad p) (g k)) (tr k))) ps.

(** The keys are distinct, and every parameter is consistent. *)
Definition pmap_ok (ps : pmap) : Prop :=
  NoDup (map fst ps) /\ forall k p, In (k, p) ps -> prm_ok (tsh (p_data p)) p.

(** The gradients given by an event fit the parameters. *)
Definition event_ok (ps : pmap) (e : event) : Prop :=
  match e with
  | EStep g _ => forall k p, In (k, p) ps -> length (g k) = tot (p_data p)
  | ELr _ => True
  end.

(** The steps in which parameter [k] was trainable, with the learning rate of the step, the gradient and
    the number of the step (counting all steps). *)
Fixpoint active (k : string) (lr : R) (t : nat) (evs : list event) : list (R * list R * nat) :=
  match evs with
  | [] => []
  | EStep g tr :: es => (if tr k then [(lr, g k, S t)] else []) ++ active k lr (S t) es
  | ELr r :: es => active k r t es
  end.

(** Running a history; the learning rate is a member of the optimizer. *)
Fixpoint run_sgd (lr : R) (ps : pmap) (evs : list event) : st pmap :=
  match evs with
  | [] => Ret ps
  | ELr r :: es => run_sgd r ps es
  | EStep g tr :: es =>
      match sgd_step lr (prepare g tr ps) with
      | Ret (ps', _) => run_sgd lr ps' es | Exc (ps', _) => Exc ps' | Bad => Bad
      end
  end.
Fixpoint run_momentum (lr gamma : R) (ps : pmap) (vel : tmap) (evs : list event) : st (pmap * tmap) :=
  match evs with
  | [] => Ret (ps, vel)
  | ELr r :: es => run_momentum r gamma ps vel es
  | EStep g tr :: es =>
      match momentum_step lr gamma (prepare g tr ps) vel with
      | Ret (ps', vel') => run_momentum lr gamma ps' vel' es | Exc s => Exc s | Bad => Bad
      end
  end.
Fixpoint run_adam (lr b1 b2 eps : R) (t : nat) (ps : pmap) (s : tmap * tmap) (evs : list event) : nat * st (pmap * (tmap * tmap)) :=
  match evs with
  | [] => (t, Ret (ps, s))
  | ELr r :: es => run_adam r b1 b2 eps t ps s es
  | EStep g tr :: es =>
      match adam_step lr b1 b2 eps t (prepare g tr ps) s with
      | (t', Ret (ps', s')) => run_adam lr b1 b2 eps t' ps' s' es | (t', Exc s) => (t', Exc s) | (t', Bad) => (t', Bad)
      end
  end.

(** Exponentially weighted sum of a sequence, the last element with weight 1. *)
Fixpoint ewsum (gamma : R) (l : list R) : R :=
  match l with
  | [] => 0
  | x :: t => gamma ^ length t * x + ewsum gamma t
  end.
(** All non-empty prefixes, shortest first. *)
Definition prefixes {V} (l : list V) : list (list V) := map (fun n => firstn (S n) l) (seq 0 (length l)).

(** The change Adam makes to element [i] of a parameter in the last of the active steps [pre], from the
    textbook definition: bias-corrected exponential averages of the gradients and of their squares. *)
Definition adam_move (b1 b2 eps : R) (i : nat) (pre : list (R * list R * nat)) : R :=
  let '(lr, _, t) := last pre (0, [], O) in
  let m := (1 - b1) * ewsum b1 (map (fun '(_, g, _) => g.[i]) pre) in
  let v := (1 - b2) * ewsum b2 (map (fun '(_, g, _) => g.[i] * g.[i]) pre) in
  lr * (m / (1 - b1 ^ t)) / (sqrt (v / (1 - b2 ^ t)) + eps).

(** Entries with the same key and the same shape. *)
Definition same_shapes (ps ps' : pmap) : Prop :=
  map fst ps' = map fst ps /\ forall k p p', In (k, p) ps -> In (k, p') ps' -> tsh (p_data p') = tsh (p_data p) /\ tot (p_data p') = tot (p_data p).
(** Number of steps in a history. *)
Definition steps_in (evs : list event) : nat := length (filter (fun e => match e with EStep _ _ => true | ELr _ => false end) evs).
(** Parameter [k] is trainable in every step and element [i] of its gradient is always [c]. *)
Definition always (k : string) (i : nat) (c : R) (evs : list event) : Prop :=
  forall g tr, In (EStep g tr) evs -> tr k = true /\ (g k).[i] = c.
(** Parameter [k] is frozen in every step. *)
Definition frozen_event (k : string) (e : event) : Prop := match e with EStep _ tr => tr k = false | ELr _ => True end.
(** The learning rate in force after a history. *)
Definition final_lr (lr : R) (evs : list event) : R := fold_left (fun lr e => match e with ELr r => r | EStep _ _ => lr end) evs lr.
