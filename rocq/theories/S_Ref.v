(** Specification vocabulary for the agreement with the reference kernels. *)
From Coq Require Import Reals String.
From Verif Require Import Base Sums M_Im2col S_Im2col M_Kernels M_Conv M_Layers M_Optim M_Ref S_Grad S_Optim.
Open Scope R_scope.

(** Element-wise sum of two vectors. *)
Definition vplus (a b : list R) : list R := map (fun '(x, y) => x + y) (combine a b).

(** [backward], given the gradient [go] of the output, adds [r] to the gradient of the input (a tensor of
    shape [sh]), wherever the two gradients are kept, and changes no other gradient. *)
Definition adds_to_gradient (E : env) (L L' : layer) (ins outs : list ten) (go : ten) (sh : list nat) (r : list R) : Prop :=
  forall gm kg ko gi, ten_ok sh gi -> nth_error gm kg = Some gi -> nth_error gm ko = Some go ->
  lbackward E L ins outs gm [kg] [ko] = Ok (L', upd gm kg (mkT sh (vplus (tdat gi) r))).

(** The same when [backward] replaces the gradient of the input. *)
Definition replaces_gradient (E : env) (L L' : layer) (ins outs : list ten) (go : ten) (sh : list nat) (r : list R) : Prop :=
  forall gm kg ko gi, ten_ok sh gi -> nth_error gm kg = Some gi -> nth_error gm ko = Some go ->
  lbackward E L ins outs gm [kg] [ko] = Ok (L', upd gm kg (mkT sh r)).

(** A history of training steps and learning rate changes with the reference optimizers. *)
Fixpoint run_ref_sgd (lr : R) (ps : pmap) (evs : list event) : st pmap :=
  match evs with
  | [] => Ret ps
  | ELr r :: es => run_ref_sgd r ps es
  | EStep g tr :: es =>
      match ref_sgd_step lr (prepare g tr ps) with
      | Ret (ps', _) => run_ref_sgd lr ps' es | Exc (ps', _) => Exc ps' | Bad => Bad
      end
  end.
Fixpoint run_ref_momentum (lr gamma : R) (ps : pmap) (vel : tmap) (evs : list event) : st (pmap * tmap) :=
  match evs with
  | [] => Ret (ps, vel)
  | ELr r :: es => run_ref_momentum r gamma ps vel es
  | EStep g tr :: es =>
      match ref_momentum_step lr gamma (prepare g tr ps) vel with
      | Ret (ps', vel') => run_ref_momentum lr gamma ps' vel' es | Exc s => Exc s | Bad => Bad
      end
  end.
(** The number of the step, counted from 1, is passed to the reference. *)
Fixpoint run_ref_adam (lr b1 b2 eps : R) (done : nat) (ps : pmap) (s : tmap * tmap) (evs : list event) : st (pmap * (tmap * tmap)) :=
  match evs with
  | [] => Ret (ps, s)
  | ELr r :: es => run_ref_adam r b1 b2 eps done ps s es
  | EStep g tr :: es =>
      match ref_adam_step lr b1 b2 eps (S done) (prepare g tr ps) s with
      | Ret (ps', s') => run_ref_adam lr b1 b2 eps (S done) ps' s' es | Exc s => Exc s | Bad => Bad
      end
  end.
