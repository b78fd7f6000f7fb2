(** Properties C27, C28 and C29: the optimizers, over arbitrary training histories.

    A history is a list of events: a step, with any gradients and any set of frozen parameters, or a change
    of the learning rate.  [active k lr t evs] lists the steps of the history in which parameter [k] was
    trainable, with the learning rate, the gradient and the number of the step. *)
From Coq Require Import Reals Lra String Permutation.
From Verif Require Import Base BaseFacts Sums M_Im2col M_Kernels M_Conv M_Layers M_Optim S_Grad S_Optim P_Optim.
Open Scope R_scope.

(** ** C27 SGD *)
Theorem C27_sgd_step :
  forall (lr : R) (ps : pmap), pmap_ok ps ->
  exists ps', sgd_step lr ps = Ret (ps', tt) /\ map fst ps' = map fst ps /\ pmap_ok ps' /\
  forall k p, In (k, p) ps -> exists p', In (k, p') ps' /\
    p_grad p' = p_grad p /\ p_train p' = p_train p /\ tsh (p_data p') = tsh (p_data p) /\
    (p_train p = false -> p' = p) /\
    (p_train p = true -> forall i, (i < tot (p_data p))%nat ->
       (tdat (p_data p')).[i] = (tdat (p_data p)).[i] - lr * (tdat (p_grad p)).[i]).
Proof. exact sgd_spec. Qed.
Print Assumptions C27_sgd_step.

Theorem C27_iteration_order_is_irrelevant :
  forall (lr : R) (ps1 ps2 : pmap), Permutation ps1 ps2 -> pmap_ok ps1 ->
  exists r1 r2, sgd_step lr ps1 = Ret (r1, tt) /\ sgd_step lr ps2 = Ret (r2, tt) /\ Permutation r1 r2.
Proof. exact sgd_perm. Qed.
Print Assumptions C27_iteration_order_is_irrelevant.

(** Over a whole history every weight decreases by the sum of lr * gradient over the steps in which the
    parameter was trainable, each with the learning rate in force at that step. *)
Theorem C27_sgd_history :
  forall (evs : list event) (lr : R) (ps : pmap) (t : nat),
  pmap_ok ps -> (forall e, In e evs -> event_ok ps e) ->
  exists ps', run_sgd lr ps evs = Ret ps' /\ same_shapes ps ps' /\ pmap_ok ps' /\
  forall k p, In (k, p) ps -> exists p', In (k, p') ps' /\
    forall i, (i < tot (p_data p))%nat ->
      (tdat (p_data p')).[i] = (tdat (p_data p)).[i] - lsum (map (fun '(lr, g, _) => lr * g.[i]) (active k lr t evs)).
Proof. exact run_sgd_spec. Qed.
Print Assumptions C27_sgd_history.

(** A trainable parameter whose gradient has another shape is rejected. *)
Theorem C27_mismatched_gradient_throws :
  forall (lr : R) (ps : pmap),
  (forall k p, In (k, p) ps -> prm_ok (tsh (p_data p)) p \/ (p_train p = true /\ tsh (p_grad p) <> tsh (p_data p))) ->
  (exists k p, In (k, p) ps /\ p_train p = true /\ tsh (p_grad p) <> tsh (p_data p)) ->
  exists ps', sgd_step lr ps = Exc (ps', tt).
Proof. exact sgd_mismatch. Qed.
Print Assumptions C27_mismatched_gradient_throws.

(** ** C28 Momentum *)
Theorem C28_momentum_history :
  forall (lr gamma : R) (t : nat) (ps : pmap) (evs : list event),
  pmap_ok ps -> (forall e, In e evs -> event_ok ps e) ->
  exists ps' vel', run_momentum lr gamma ps (momentum_new ps) evs = Ret (ps', vel') /\ same_shapes ps ps' /\ pmap_ok ps' /\
  forall k p, In (k, p) ps -> exists p' v, In (k, p') ps' /\ find_key vel' k = Some v /\ length (tdat v) = tot (p_data p) /\
    forall i, (i < tot (p_data p))%nat ->
      (* velocity: sum over the active steps of gamma^(steps since) * lr * gradient *)
      (tdat v).[i] = ewsum gamma (map (fun '(lr, g, _) => lr * g.[i]) (active k lr t evs)) /\
      (* weight: reduced by the velocity reached after each active step *)
      (tdat (p_data p')).[i] = (tdat (p_data p)).[i]
        - lsum (map (fun pre => ewsum gamma (map (fun '(lr, g, _) => lr * g.[i]) pre)) (prefixes (active k lr t evs))).
Proof. exact run_momentum_spec. Qed.
Print Assumptions C28_momentum_history.

(** The weighted sum written out: element [j] of [T] has weight gamma^(T-1-j). *)
Theorem C28_weights_of_the_velocity_sum :
  forall (gamma : R) (l : list R), ewsum gamma l = rsum (length l) (fun j => gamma ^ (length l - 1 - j) * l.[j]).
Proof. exact ewsum_rsum. Qed.
Print Assumptions C28_weights_of_the_velocity_sum.

Theorem C28_iteration_order_is_irrelevant :
  forall (lr gamma : R) (ps1 ps2 : pmap) (vel : tmap), Permutation ps1 ps2 -> pmap_ok ps1 ->
  (forall k p, In (k, p) ps1 -> exists v, find_key vel k = Some v /\ length (tdat v) = tot (p_data p)) ->
  exists r1 r2 v1 v2, momentum_step lr gamma ps1 vel = Ret (r1, v1) /\ momentum_step lr gamma ps2 vel = Ret (r2, v2) /\
    Permutation r1 r2 /\ forall k, option_map tdat (find_key v1 k) = option_map tdat (find_key v2 k).
Proof. exact mom_perm. Qed.
Print Assumptions C28_iteration_order_is_irrelevant.

(** ** C29 Adam *)
Theorem C29_adam_history :
  forall (lr b1 b2 eps : R) (t : nat) (ps : pmap) (evs : list event),
  pmap_ok ps -> (forall e, In e evs -> event_ok ps e) ->
  exists ps' s',
  (* the counter advances once per step, whatever is frozen *)
  run_adam lr b1 b2 eps t ps (adam_new ps) evs = ((t + steps_in evs)%nat, Ret (ps', s')) /\ same_shapes ps ps' /\ pmap_ok ps' /\
  forall k p, In (k, p) ps -> exists p' m v, In (k, p') ps' /\ find_key (fst s') k = Some m /\ find_key (snd s') k = Some v /\
    length (tdat m) = tot (p_data p) /\ length (tdat v) = tot (p_data p) /\
    forall i, (i < tot (p_data p))%nat ->
      (tdat m).[i] = (1 - b1) * ewsum b1 (map (fun '(_, g, _) => g.[i]) (active k lr t evs)) /\
      (tdat v).[i] = (1 - b2) * ewsum b2 (map (fun '(_, g, _) => g.[i] * g.[i]) (active k lr t evs)) /\
      (tdat (p_data p')).[i] = (tdat (p_data p)).[i] - lsum (map (adam_move b1 b2 eps i) (prefixes (active k lr t evs))).
Proof. exact run_adam_spec. Qed.
Print Assumptions C29_adam_history.

(** Constant gradient [c] for an element of a parameter that is never frozen, with the default initial
    counter: every step moves the element by lr * c / (|c| + eps), so the bias-corrected moments are exactly
    [c] and [c * c]. *)
Theorem C29_constant_gradient :
  forall (lr b1 b2 eps : R) (ps : pmap) (evs : list event) (k : string) (p : prm) (i : nat) (c : R),
  0 <= b1 < 1 -> 0 <= b2 < 1 -> 0 < eps ->
  pmap_ok ps -> (forall e, In e evs -> event_ok ps e) -> In (k, p) ps -> (i < tot (p_data p))%nat -> always k i c evs ->
  exists ps' s' p' m v, run_adam lr b1 b2 eps 0 ps (adam_new ps) evs = (steps_in evs, Ret (ps', s')) /\
    In (k, p') ps' /\ find_key (fst s') k = Some m /\ find_key (snd s') k = Some v /\
    (tdat (p_data p')).[i] = (tdat (p_data p)).[i] - lsum (map (fun '(lr, _, _) => lr) (active k lr 0 evs)) * (c / (Rabs c + eps)) /\
    length (active k lr 0 evs) = steps_in evs /\
    ((0 < steps_in evs)%nat -> (tdat m).[i] / (1 - b1 ^ steps_in evs) = c /\ (tdat v).[i] / (1 - b2 ^ steps_in evs) = c * c).
Proof.
  intros lr b1 b2 eps ps evs k p i c H1 H2 Heps Hok He Hin Hi Ha.
  destruct (run_adam_spec lr b1 b2 eps 0 ps evs Hok He) as (ps' & s' & E & _ & _ & V).
  destruct (V k p Hin) as (p' & m & v & Hin' & Fm & Fv & _ & _ & C). destruct (C i Hi) as (C1 & C2 & C3).
  destruct (active_always k i c evs Ha lr 0) as (A1 & A2 & A3).
  exists ps', s', p', m, v. split; [exact E|]. split; [exact Hin'|]. split; [exact Fm|]. split; [exact Fv|]. split; [|split; [exact A2|]].
  - rewrite C3, (adam_total_const b1 b2 eps i c) by (try assumption; rewrite A2; exact A1).
    f_equal. f_equal. f_equal. apply map_ext. intros [[l g] t]. reflexivity.
  - intros Hpos. rewrite C1, C2. rewrite (ewsum_const b1 c), (ewsum_const b2 (c * c)), !map_length, !A2.
    + destruct (steps_in evs) as [|n]; [lia|]. pose proof (pow_lt1 b1 n H1). pose proof (pow_lt1 b2 n H2). split; field; lra.
    + intros y Hy. apply in_map_iff in Hy. destruct Hy as ([[l g] t] & <- & Hy). rewrite <- (A3 _ Hy). reflexivity.
    + intros y Hy. apply in_map_iff in Hy. destruct Hy as ([[l g] t] & <- & Hy). exact (A3 _ Hy).
Qed.
Print Assumptions C29_constant_gradient.

(** Finding: a parameter frozen in the first steps is under-corrected.  In its first active step with
    gradient [c] the corrected first moment is [c] times a factor below 1, and it moves accordingly. *)
Theorem C29_frozen_parameter_is_under_corrected :
  forall (lr b1 b2 eps : R) (ps : pmap) (evs : list event) (g : string -> list R) (tr : string -> bool) (k : string) (p : prm) (i : nat),
  0 < b1 < 1 -> 0 <= b2 < 1 -> 0 < eps ->
  pmap_ok ps -> (forall e, In e (evs ++ [EStep g tr]) -> event_ok ps e) -> In (k, p) ps -> (i < tot (p_data p))%nat ->
  (forall e, In e evs -> frozen_event k e) -> (0 < steps_in evs)%nat -> tr k = true ->
  let f := steps_in evs in let c := (g k).[i] in
  let mean_hat := c * ((1 - b1) / (1 - b1 ^ S f)) in
  let variance_hat := c * c * ((1 - b2) / (1 - b2 ^ S f)) in
  (exists ps' s' p', run_adam lr b1 b2 eps 0 ps (adam_new ps) (evs ++ [EStep g tr]) = (S f, Ret (ps', s')) /\ In (k, p') ps' /\
    (tdat (p_data p')).[i] = (tdat (p_data p)).[i] - final_lr lr evs * mean_hat / (sqrt variance_hat + eps)) /\
  (1 - b1) / (1 - b1 ^ S f) < 1.
Proof.
  intros lr b1 b2 eps ps evs g tr k p i H1 H2 Heps Hok He Hin Hi Hf Hpos Htr. cbv zeta.
  assert (H1' : 0 <= b1 < 1) by lra. pose proof (pow_lt1 b1 (steps_in evs) H1') as P1. pose proof (pow_lt1 b2 (steps_in evs) H2) as P2. split.
  - destruct (run_adam_spec lr b1 b2 eps 0 ps (evs ++ [EStep g tr]) Hok He) as (ps' & s' & E & _ & _ & V).
    destruct (V k p Hin) as (p' & m & v & Hin' & _ & _ & _ & _ & C). destruct (C i Hi) as (_ & _ & C3).
    exists ps', s', p'. split; [rewrite E; f_equal; unfold steps_in; rewrite filter_app, app_length; cbn; lia|]. split; [exact Hin'|].
    rewrite C3, (active_frozen k evs [EStep g tr] Hf lr 0). cbn [active]. rewrite Htr. cbn [app Nat.add].
    unfold prefixes, lsum. cbn [length seq map firstn fold_right]. unfold adam_move. cbn [last map ewsum length pow].
    match goal with |- _ - (?a + 0) = _ - ?b => replace (a + 0) with b; [reflexivity|] end. rewrite Rplus_0_r. f_equal; [f_equal; field; cbn in P1; lra|].
    f_equal. f_equal. field. cbn in P2. lra.
  - apply Rmult_lt_reg_r with (1 - b1 ^ S (steps_in evs)); [lra|]. unfold Rdiv. rewrite Rmult_assoc, Rinv_l, Rmult_1_r, Rmult_1_l by lra.
    pose proof (pow_decr b1 1 (S (steps_in evs)) H1 ltac:(lia)) as D. rewrite pow_1 in D. lra.
Qed.
Print Assumptions C29_frozen_parameter_is_under_corrected.

Theorem C29_iteration_order_is_irrelevant :
  forall (lr b1 b2 eps : R) (t : nat) (ps1 ps2 : pmap) (s : tmap * tmap), Permutation ps1 ps2 -> pmap_ok ps1 ->
  (forall k p, In (k, p) ps1 -> exists m v, find_key (fst s) k = Some m /\ find_key (snd s) k = Some v /\
     length (tdat m) = tot (p_data p) /\ length (tdat v) = tot (p_data p)) ->
  exists r1 r2 s1 s2, adam_step lr b1 b2 eps t ps1 s = (S t, Ret (r1, s1)) /\ adam_step lr b1 b2 eps t ps2 s = (S t, Ret (r2, s2)) /\
    Permutation r1 r2 /\
    forall k p, In (k, p) ps1 -> option_map tdat (find_key (fst s1) k) = option_map tdat (find_key (fst s2) k) /\
                                 option_map tdat (find_key (snd s1) k) = option_map tdat (find_key (snd s2) k).
Proof. exact adam_perm. Qed.
Print Assumptions C29_iteration_order_is_irrelevant.

(** ** Examples *)
Definition ex_ps : pmap :=
  [("w"%string, mkP (mkT [2]%nat [1; 2]) (mkT [2]%nat [0; 0]) true); ("b"%string, mkP (mkT [1]%nat [3]) (mkT [1]%nat [0]) true)].
Definition ex_g (k : string) : list R := if String.eqb k "w" then [1; - 2] else [4].
Definition ex_evs : list event :=
  [EStep ex_g (fun k => String.eqb k "b"); ELr (1 / 2); EStep ex_g (fun _ => true)].

Lemma ex_ps_ok : pmap_ok ex_ps.
Proof.
  split.
  - cbn. constructor; [intros [H|[]]; discriminate|]. constructor; [intros []|constructor].
  - intros k p [H|[H|[]]]; injection H as <- <-; repeat split; reflexivity.
Qed.
Lemma ex_evs_ok : forall e, In e ex_evs -> event_ok ex_ps e.
Proof. intros e [<-|[<-|[<-|[]]]]; cbn; try exact I; intros k p [H|[H|[]]]; injection H as <- <-; reflexivity. Qed.

(** "w" is frozen in the first step, which the second step under-corrects; "b" is always trainable. *)
Example C27_C28_C29_nonvacuous :
  pmap_ok ex_ps /\ (forall e, In e ex_evs -> event_ok ex_ps e) /\
  active "w" 1 0 ex_evs = [(1 / 2, [1; - 2], 2%nat)] /\ active "b" 1 0 ex_evs = [(1, [4], 1%nat); (1 / 2, [4], 2%nat)] /\
  always "b" 0 4 ex_evs /\ frozen_event "w" (EStep ex_g (fun k => String.eqb k "b")) /\
  Permutation ex_ps (rev ex_ps) /\
  (exists ps', run_sgd 1 ex_ps ex_evs = Ret ps' /\ exists p', In ("b"%string, p') ps' /\ (tdat (p_data p')).[0] = -3).
Proof.
  split; [exact ex_ps_ok|]. split; [exact ex_evs_ok|]. split; [reflexivity|]. split; [reflexivity|]. split; [|split; [reflexivity|split; [apply Permutation_rev|]]].
  - intros g tr [H|[H|[H|[]]]]; try discriminate; injection H as <- <-; split; reflexivity.
  - destruct (run_sgd_spec ex_evs 1 ex_ps 0 ex_ps_ok ex_evs_ok) as (ps' & E & _ & _ & V). exists ps'. split; [exact E|].
    destruct (V "b"%string _ (or_intror (or_introl eq_refl))) as (p' & Hin & W). exists p'. split; [exact Hin|]. rewrite W by (cbn; lia). unfold lsum. cbn. lra.
Qed.
