(** Property C73: no gradient makes Adam move a weight by more than a fixed multiple of the learning rate.

    Histories are those of C29: lists of steps, with any gradients and any set of frozen parameters, and of
    changes of the learning rate.  [active k lr t evs] lists the steps in which parameter [k] is trainable
    with the learning rate in force. *)
From Coq Require Import Reals Lra Lia String.
From Verif Require Import Base BaseFacts Sums M_Im2col M_Kernels M_Conv M_Layers M_Optim S_Grad S_Optim P_Optim S_AdamBound P_AdamBound.
Open Scope R_scope.

(** Over a whole history no element moves further than the learning rates of the steps in which its
    parameter is trainable, added up, times [adam_limit]: the gradients do not occur in the bound. *)
Theorem C73_histories_are_bounded :
  forall (lr b1 b2 eps : R) (t : nat) (ps : pmap) (evs : list event),
  0 <= b1 < 1 -> 0 < b2 < 1 -> b1 * b1 < b2 -> 0 < eps -> pmap_ok ps -> (forall e, In e evs -> event_ok ps e) ->
  exists t' ps' s', run_adam lr b1 b2 eps t ps (adam_new ps) evs = (t', Ret (ps', s')) /\ same_shapes ps ps' /\
  forall k p p' i, In (k, p) ps -> In (k, p') ps' -> (i < tot (p_data p))%nat ->
    Rabs ((tdat (p_data p')).[i] - (tdat (p_data p)).[i]) <= lsum (map (fun '(lr, _, _) => Rabs lr) (active k lr t evs)) * adam_limit b1 b2.
Proof. exact run_bound. Qed.
Print Assumptions C73_histories_are_bounded.

(** One more step after any history: step number [t2] moves no element by more than the learning rate in
    force times [adam_factor b1 b2 t2], whatever its gradients are, and moves no frozen element at all. *)
Theorem C73_steps_are_bounded :
  forall (lr b1 b2 eps : R) (t : nat) (ps : pmap) (evs : list event) (g : string -> list R) (tr : string -> bool),
  0 <= b1 < 1 -> 0 < b2 < 1 -> b1 * b1 < b2 -> 0 < eps -> pmap_ok ps -> (forall e, In e (evs ++ [EStep g tr]) -> event_ok ps e) ->
  exists t1 ps1 s1 t2 ps2 s2,
  run_adam lr b1 b2 eps t ps (adam_new ps) evs = (t1, Ret (ps1, s1)) /\
  run_adam lr b1 b2 eps t ps (adam_new ps) (evs ++ [EStep g tr]) = (t2, Ret (ps2, s2)) /\
  t2 = S t1 /\ map fst ps1 = map fst ps /\ map fst ps2 = map fst ps /\
  forall k p1 p2 i, In (k, p1) ps1 -> In (k, p2) ps2 -> (i < tot (p_data p1))%nat ->
    Rabs ((tdat (p_data p2)).[i] - (tdat (p_data p1)).[i]) <= Rabs (final_lr lr evs) * adam_factor b1 b2 t2 /\
    (tr k = false -> (tdat (p_data p2)).[i] = (tdat (p_data p1)).[i]).
Proof. exact step_bound. Qed.
Print Assumptions C73_steps_are_bounded.

(** The factor of every step is at most the limit, and with the default coefficients at most 7.3. *)
Theorem C73_factors :
  (forall (b1 b2 : R) (t : nat), 0 <= b1 < 1 -> 0 < b2 < 1 -> b1 * b1 < b2 -> (0 < t)%nat -> adam_factor b1 b2 t <= adam_limit b1 b2) /\
  (forall t : nat, (0 < t)%nat -> adam_factor (9 / 10) (999 / 1000) t <= 73 / 10).
Proof. split; [intros; apply factor_limit; assumption|exact default_factor]. Qed.
Print Assumptions C73_factors.

(** The scale of the gradients does not matter: multiplying all of them, and epsilon, by the same positive
    number leaves every weight after every history as it was.  No condition on the coefficients. *)
Theorem C73_scale_does_not_matter :
  forall (lr b1 b2 eps c : R) (t : nat) (ps : pmap) (evs evs' : list event),
  0 < c -> pmap_ok ps -> (forall e, In e evs -> event_ok ps e) -> Forall2 (rescaled c) evs evs' ->
  exists t' ps1 s1 ps2 s2,
  run_adam lr b1 b2 eps t ps (adam_new ps) evs = (t', Ret (ps1, s1)) /\ run_adam lr b1 b2 (c * eps) t ps (adam_new ps) evs' = (t', Ret (ps2, s2)) /\
  map fst ps1 = map fst ps /\ map fst ps2 = map fst ps /\
  forall k p1 p2 i, In (k, p1) ps1 -> In (k, p2) ps2 -> (i < tot (p_data p1))%nat -> (tdat (p_data p2)).[i] = (tdat (p_data p1)).[i].
Proof. exact run_rescaled. Qed.
Print Assumptions C73_scale_does_not_matter.

(** The factor is above 1 for a reason.  With the default coefficients and epsilon, one gradient of 1000 after
    enough steps with gradient zero moves a weight by more than three times the learning rate, although a
    gradient that is 1000 in every step moves it by less than the learning rate per step (C29). *)
Theorem C73_finding_rare_gradients_move_more :
  forall (lr : R) (ps : pmap) (z g : string -> list R) (tr : string -> bool) (k : string) (p : prm) (i : nat),
  0 < lr -> pmap_ok ps -> event_ok ps (EStep z tr) -> event_ok ps (EStep g tr) -> In (k, p) ps -> (i < tot (p_data p))%nat ->
  tr k = true -> (z k).[i] = 0 -> (g k).[i] = 1000 ->
  exists n t' ps' s' p',
  run_adam lr (9 / 10) (999 / 1000) (1 / 1000) 0 ps (adam_new ps) (repeat (EStep z tr) n ++ [EStep g tr]) = (t', Ret (ps', s')) /\ In (k, p') ps' /\
  (tdat (p_data p')).[i] < (tdat (p_data p)).[i] - 3 * lr.
Proof. exact rare_moves. Qed.
Print Assumptions C73_finding_rare_gradients_move_more.

(** The condition on the coefficients is needed, and the constructor does not check it.  With 0.9 and 0.5, for
    any bound there are a gradient and a number of zero gradients after it such that one more step, with
    gradient zero, moves the weight by more than the bound times the learning rate. *)
Theorem C73_finding_coefficients_without_a_bound :
  forall (lr eps : R) (ps : pmap) (z : string -> list R) (tr : string -> bool) (k : string) (p : prm) (i : nat) (gr : R -> string -> list R) (bound : R),
  0 < lr -> 0 < eps -> pmap_ok ps -> event_ok ps (EStep z tr) -> (forall c, event_ok ps (EStep (gr c) tr) /\ (gr c k).[i] = c) ->
  In (k, p) ps -> (i < tot (p_data p))%nat -> tr k = true -> (z k).[i] = 0 ->
  exists c n t1 ps1 s1 p1 t2 ps2 s2 p2,
  run_adam lr (9 / 10) (1 / 2) eps 0 ps (adam_new ps) (EStep (gr c) tr :: repeat (EStep z tr) n) = (t1, Ret (ps1, s1)) /\
  run_adam lr (9 / 10) (1 / 2) eps 0 ps (adam_new ps) ((EStep (gr c) tr :: repeat (EStep z tr) n) ++ [EStep z tr]) = (t2, Ret (ps2, s2)) /\
  In (k, p1) ps1 /\ In (k, p2) ps2 /\ (tdat (p_data p2)).[i] < (tdat (p_data p1)).[i] - bound * lr.
Proof. exact unbounded_moves. Qed.
Print Assumptions C73_finding_coefficients_without_a_bound.

(** ** Example: two parameters, one of them frozen in the first step. *)
Definition exb_ps : pmap :=
  [("w"%string, mkP (mkT [2]%nat [1; 2]) (mkT [2]%nat [0; 0]) true); ("b"%string, mkP (mkT [1]%nat [3]) (mkT [1]%nat [0]) true)].
Definition exb_z (k : string) : list R := if String.eqb k "w" then [0; 0] else [0].
Definition exb_g (k : string) : list R := if String.eqb k "w" then [1000; - 2] else [4].
Definition exb_evs : list event := [EStep exb_g (fun k => String.eqb k "b"); ELr (1 / 2); EStep exb_g (fun _ => true)].
Example C73_nonvacuous :
  pmap_ok exb_ps /\ (forall e, In e (exb_evs ++ [EStep exb_z (fun _ => true)]) -> event_ok exb_ps e) /\
  0 <= 9 / 10 < 1 /\ 0 < 999 / 1000 < 1 /\ 9 / 10 * (9 / 10) < 999 / 1000 /\
  lsum (map (fun '(lr, _, _) => Rabs lr) (active "b" 1 0 exb_evs)) = 3 / 2 /\ final_lr 1 exb_evs = 1 / 2 /\
  (exb_z "w").[0] = 0 /\ (exb_g "w").[0] = 1000 /\ event_ok exb_ps (EStep exb_g (fun _ => true)) /\
  (forall c, event_ok exb_ps (EStep (fun k => if String.eqb k "w" then [c; 1] else [c]) (fun _ => true))) /\
  Forall2 (rescaled 3) exb_evs [EStep (fun k => map (Rmult 3) (exb_g k)) (fun k => String.eqb k "b"); ELr (1 / 2); EStep (fun k => map (Rmult 3) (exb_g k)) (fun _ => true)].
Proof.
  split; [split; [cbn; constructor; [intros [H|[]]; discriminate|]; constructor; [intros []|constructor]|intros k p [H|[H|[]]]; injection H as <- <-; repeat split; reflexivity]|].
  split; [intros e [<-|[<-|[<-|[<-|[]]]]]; cbn; try exact I; intros k p [H|[H|[]]]; injection H as <- <-; reflexivity|].
  split; [lra|split; [lra|split; [lra|split; [unfold lsum; cbn; rewrite !Rabs_right by lra; lra|split; [reflexivity|split; [reflexivity|split; [reflexivity|]]]]]]].
  split; [intros k p [H|[H|[]]]; injection H as <- <-; reflexivity|split; [intros c k p [H|[H|[]]]; injection H as <- <-; reflexivity|]].
  repeat constructor.
Qed.
