(** C70: the optimizers with momentum in floats, with overflow, infinities and NaN. *)
From Coq Require Import Reals Lra Lia String List.
From Verif Require Import Base BaseFacts Sums M_Kernels M_Layers M_Optim S_Grad M_Round M_Ieee S_Ieee P_Ieee P_Ieee9 M_IeeeOpt S_IeeeOpt P_IeeeOpt P_IeeeOpt2 P_IeeeOpt3.
Import ListNotations.
Open Scope R_scope.

(** The expressions evaluated in floats are, over the reals, what SGDMomentum and Adam do with a parameter (C28, C29). *)
Theorem C70_expressions_are_the_steps :
  (forall lr gamma k p vel v, p_train p = true -> prm_ok (tsh (p_data p)) p -> find_key vel k = Some v -> length (tdat v) = tot (p_data p) ->
     let w := tdat (p_data p) in let g := tdat (p_grad p) in
     let v' := tab (tot (p_data p)) (fun i => ev (arrays [w; g; tdat v]) (momentum_v_ex gamma lr i)) in
     momentum_one lr gamma k p vel = Ok (set_weight p (tab (tot (p_data p)) (fun i => ev (arrays [w; g; v']) (momentum_w_ex i))), set_key vel k (set_dat v v'))) /\
  (forall lr b1 b2 eps t k p s mm vv, p_train p = true -> prm_ok (tsh (p_data p)) p -> find_key (fst s) k = Some mm -> find_key (snd s) k = Some vv ->
     length (tdat mm) = tot (p_data p) -> length (tdat vv) = tot (p_data p) ->
     let w := tdat (p_data p) in let g := tdat (p_grad p) in
     let m' := tab (tot (p_data p)) (fun i => ev (arrays [tdat mm; g; [1 - b1]]) (adam_m_ex b1 i)) in
     let v' := tab (tot (p_data p)) (fun i => ev (arrays [tdat vv; g; [1 - b2]]) (adam_v_ex b2 i)) in
     adam_one lr b1 b2 eps t k p s =
       Ok (set_weight p (tab (tot (p_data p)) (fun i => ev (arrays [w; m'; v'; [1 - b1 ^ t]; [1 - b2 ^ t]]) (adam_w_ex lr eps i))),
           (set_key (fst s) k (set_dat mm m'), set_key (snd s) k (set_dat vv v')))).
Proof. split; [exact momentum_is|exact adam_is]. Qed.
Print Assumptions C70_expressions_are_the_steps.

(** One step of SGDMomentum: with room, nothing overflows, velocities keep their bound, and velocities and weights are near
    gamma * v + lr * g and w - v'. *)
Theorem C70_momentum_step_is_accurate :
  forall (lib : flt -> flt -> Prop) (gamma lr : R) (n : nat) (w g v w' v' : nat -> flt) (W G V : R),
  fmomentum lib gamma lr n w g v w' v' -> finite_up_to W n w -> finite_up_to G n g -> finite_up_to V n v ->
  settles gamma lr G V -> W + V <= top ->
  finite_up_to (grown (W + V)) n w' /\ finite_up_to V n v' /\
  forall p, (p < n)%nat ->
    Rabs (fval (v' p) - (gamma * fval (v p) + lr * fval (g p))) <= velocity_error gamma lr V G /\
    Rabs (fval (w' p) - (fval (w p) - fval (v' p))) <= eps32 * (W + V) + tiny32.
Proof. exact momentum_one_step. Qed.
Print Assumptions C70_momentum_step_is_accurate.

(** Any number of steps: for |gamma| up to 1 - 2^-10 and gradients up to [G], velocities that start at zero never
    exceed 2 |lr| G / (1 - |gamma|), but for 2^-100, and the weights are finite as long as adding that much at every step
    stays finite. *)
Theorem C70_momentum_stays_finite :
  forall (lib : flt -> flt -> Prop) (gamma lr : R) (n : nat) (gs : list (nat -> flt)) (w v w' v' : nat -> flt) (W G : R),
  let V := 2 * (Rabs lr * G) / (1 - Rabs gamma) + / 2 ^ 100 in
  Rabs gamma <= 1 - / 2 ^ 10 -> 0 <= G -> Rabs lr * G <= 2 ^ 100 -> 0 <= W ->
  fmomentums lib gamma lr n gs w v w' v' -> (forall p, v p = Fin 0) -> finite_up_to W n w -> Forall (finite_up_to G n) gs ->
  drifted W V (length gs) <= top ->
  finite_up_to (drifted W V (length gs)) n w' /\ finite_up_to V n v'.
Proof.
  intros lib gamma lr n gs w v w' v' W G V GA G0 LG W0 R0 V0 FW FG T.
  assert (P10 : 0 < / 2 ^ 10) by (apply Rinv_0_lt_compat, pow_lt; lra).
  assert (VP : 0 <= V).
  { unfold V. assert (0 < / 2 ^ 100) by (apply Rinv_0_lt_compat, pow_lt; lra).
    assert (0 <= 2 * (Rabs lr * G) / (1 - Rabs gamma)).
    { apply Rmult_le_pos; [|apply Rlt_le, Rinv_0_lt_compat; lra]. pose proof (Rmult_le_pos _ _ (Rabs_pos lr) G0). lra. } lra. }
  apply (momentum_runs lib gamma lr n G V (velocity_settles gamma lr G GA G0 LG) VP gs w v); try assumption.
  intros p _. exists 0. split; [apply V0|]. split; [exact isf_0|]. rewrite Rabs_R0. exact VP.
Qed.
Print Assumptions C70_momentum_stays_finite.

(** One step of Adam: the moving averages are near beta * old + (1 - beta) * new, and the weight is near w minus the exact
    change for the new averages: within 14 units of 2^-23 of the change and one of the weight. *)
Theorem C70_adam_step_is_accurate :
  forall (lib : flt -> flt -> Prop) (lr b1 b2 eps c : R) (c1 c2 : flt) (n : nat) (w g m v w' m' v' : nat -> flt) (W G M V : R),
  fadam lib lr b1 b2 eps c1 c2 n w g m v w' m' v' -> adam_room lr b1 b2 eps c G M V -> isf (1 - b1) -> isf (1 - b2) ->
  correction c c1 -> correction c c2 -> Rabs lr <= 1 -> / 2 ^ 40 <= eps <= 1 -> 0 <= G ->
  finite_up_to W n w -> finite_up_to G n g -> finite_up_to M n m -> finite_up_to V n v -> nonneg n v -> W + adam_change lr eps c M <= top ->
  forall p, (p < n)%nat ->
    Rabs (fval (m' p) - (b1 * fval (m p) + (1 - b1) * fval (g p))) <= velocity_error b1 (1 - b1) M G /\
    Rabs (fval (v' p) - (b2 * fval (v p) + (1 - b2) * (fval (g p) * fval (g p)))) <= variance_error b2 V G /\
    let change := lr * (fval (m' p) / fval c1) / (sqrt (fval (v' p) / fval c2) + eps) in
    Rabs (fval (w' p) - (fval (w p) - change)) <= eps32 * (Rabs (fval (w p)) + 14 * Rabs change) + 8 * (tiny32 / eps).
Proof. exact adam_step_near. Qed.
Print Assumptions C70_adam_step_is_accurate.

(** Adam: with room for the moving averages, which start at zero, nothing overflows in any number of steps, averages keep
    their bounds, no variance is negative, and the weights are finite as long as changing by the largest change at every
    step stays finite.  [c]: the least of the numbers 1 - pow(beta, t). *)
Theorem C70_adam_stays_finite :
  forall (lib : flt -> flt -> Prop) (lr b1 b2 eps c : R) (n : nat) (cs : list (flt * flt)) (gs : list (nat -> flt))
         (w m v w' m' v' : nat -> flt) (W G M V : R),
  adam_room lr b1 b2 eps c G M V -> 0 <= G -> 0 <= M -> 0 <= V -> 0 <= W ->
  fadams lib lr b1 b2 eps n cs gs w m v w' m' v' -> Forall (fun k => correction c (fst k) /\ correction c (snd k)) cs ->
  (forall p, m p = Fin 0 /\ v p = Fin 0) -> finite_up_to W n w -> Forall (finite_up_to G n) gs ->
  drifted W (adam_change lr eps c M) (length gs) <= top ->
  finite_up_to (drifted W (adam_change lr eps c M) (length gs)) n w' /\ finite_up_to M n m' /\ finite_up_to V n v' /\ nonneg n v'.
Proof.
  intros lib lr b1 b2 eps c n cs gs w m v w' m' v' W G M V RM G0 M0 V0 W0 R0 FC Z FW FG T.
  assert (CP : 0 < c) by (destruct RM as ((o & _ & _ & C & _) & _); exact C). assert (EP : 0 < eps) by (destruct RM as (_ & _ & E & _); exact E).
  apply (adam_runs lib lr b1 b2 eps c n G M V RM G0 (change_pos lr eps c M EP CP M0) gs cs w m v); try assumption.
  - intros p _. exists 0. split; [apply Z|]. split; [exact isf_0|]. rewrite Rabs_R0. exact M0.
  - intros p _. exists 0. split; [apply Z|]. split; [exact isf_0|]. rewrite Rabs_R0. exact V0.
  - intros p _. rewrite (proj2 (Z p)). cbn [fval]. lra.
Qed.
Print Assumptions C70_adam_stays_finite.

(** Finding: no optimizer recovers.  A weight that is infinite or NaN stays infinite or NaN whatever gradients follow; one
    such gradient makes the weight so with SGD and SGDMomentum, and with SGDMomentum the velocity, too. *)
Theorem C70_finding_lost_values_stay_lost :
  forall (lib : flt -> flt -> Prop) (n p : nat), (p < n)%nat ->
  (forall lr gs w w', fsgds lib lr n gs w w' -> lost (w p) \/ (exists g, In g gs /\ lost (g p)) -> lost (w' p)) /\
  (forall gamma lr gs w v w' v', fmomentums lib gamma lr n gs w v w' v' ->
     (lost (w p) -> lost (w' p)) /\ (lost (v p) -> lost (v' p)) /\ (lost (v p) -> gs <> [] -> lost (w' p))) /\
  (forall gamma lr gs g w v w' v', fmomentums lib gamma lr n gs w v w' v' -> In g gs -> lost (g p) -> lost (v' p) /\ lost (w' p)) /\
  (forall lr b1 b2 eps cs gs w m v w' m' v', fadams lib lr b1 b2 eps n cs gs w m v w' m' v' -> lost (w p) -> lost (w' p)).
Proof.
  intros lib n p Hp. split; [intros lr; exact (sgds_lost lib lr n p Hp)|]. split.
  - intros gamma lr gs w v w' v' R0. destruct (momentums_lost lib gamma lr n p Hp gs w v w' v' R0) as (A & B & C). auto.
  - split; [|intros lr b1 b2 eps cs gs; exact (adams_lost lib lr b1 b2 eps n p Hp gs cs)].
    intros gamma lr gs g. exact (momentums_lost_gradient lib gamma lr n p g Hp gs).
Qed.
Print Assumptions C70_finding_lost_values_stay_lost.

(** Finding: with Adam a weight whose moving variance has become infinite never changes again, whatever finite gradients
    follow, and nothing reports it. *)
Theorem C70_finding_adam_freezes :
  forall (lib : flt -> flt -> Prop) (lr b1 b2 eps c : R) (n p : nat) (x G M : R) (cs ds : list (flt * flt)) (gs hs : list (nat -> flt))
         (w m v w' m' v' : nat -> flt),
  (p < n)%nat -> 0 < b2 <= 1 - / 2 ^ 24 -> mean_room lr b1 c G M -> length cs = length gs ->
  fadams lib lr b1 b2 eps n (cs ++ ds) (gs ++ hs) w m v w' m' v' ->
  Forall (fun k => correction c (fst k) /\ correction c (snd k)) ds -> Forall (finite_up_to G n) hs ->
  exists w1 m1 v1 : nat -> flt, fadams lib lr b1 b2 eps n cs gs w m v w1 m1 v1 /\
    (w1 p = Fin x -> isf x -> (exists y, m1 p = Fin y /\ Rabs y <= M) -> v1 p = Inf false -> w' p = Fin x /\ v' p = Inf false).
Proof.
  intros lib lr b1 b2 eps c n p x G M cs ds gs hs w m v w' m' v' Hp B2 RM L R0 FC FG. apply adams_app in R0; [|exact L]. destruct R0 as (w1 & m1 & v1 & A & B).
  exists w1, m1, v1. split; [exact A|]. intros E1 Ix E2 E3. exact (adam_frozen lib lr b1 b2 eps c n p x G M Hp B2 RM Ix hs ds w1 m1 v1 w' m' v' B FC FG E1 E2 E3).
Qed.
Print Assumptions C70_finding_adam_freezes.

(** A gradient of 2^76, a finite float, does this: its square is no finite float.  The weight stays 1 in that step and in
    all that follow. *)
Theorem C70_finding_one_large_gradient_freezes :
  exists w1 m1 v1 : nat -> flt,
    fadam exp_lib (/ 1024) (7 / 8) (1023 / 1024) (/ 2 ^ 27) (Fin (/ 8)) (Fin (/ 1024)) 1 (fun _ => Fin 1) (fun _ => Fin (2 ^ 76)) (fun _ => Fin 0) (fun _ => Fin 0) w1 m1 v1 /\
    w1 0%nat = Fin 1 /\ v1 0%nat = Inf false /\
    forall cs gs w' m' v', fadams exp_lib (/ 1024) (7 / 8) (1023 / 1024) (/ 2 ^ 27) 1 cs gs w1 m1 v1 w' m' v' ->
      Forall (fun k => correction (/ 1024) (fst k) /\ correction (/ 1024) (snd k)) cs -> Forall (finite_up_to (2 ^ 76) 1) gs -> w' 0%nat = Fin 1.
Proof.
  assert (P24 : / 2 ^ 24 = / 16777216) by (f_equal; lra). assert (B2 : 0 < 1023 / 1024 <= 1 - / 2 ^ 24) by (rewrite P24; lra).
  assert (T : top < 2 ^ 76 * 2 ^ 76).
  { rewrite <- pow_add. unfold top. apply (Rmult_lt_reg_r (2 ^ 149)); [apply pow_lt; lra|]. unfold Rdiv. rewrite Rmult_assoc, Rinv_l, Rmult_1_r by (apply pow_nonzero; lra).
    rewrite <- pow_add, pow2_IZR. apply IZR_lt. vm_compute. reflexivity. }
  destruct (overflows exp_lib exp_lib_total (/ 1024) (7 / 8) (1023 / 1024) (/ 2 ^ 27) (Fin (/ 8)) (Fin (/ 1024)) (fun _ => Fin 1) (fun _ => Fin 0) (2 ^ 76) B2 T) as (w1 & m1 & v1 & S & V1).
  pose proof (mean_room_case 76 ltac:(lia)) as RM. assert (P76 : 0 < 2 ^ 76) by (apply pow_lt; lra).
  destruct (adam_still exp_lib _ _ _ _ (/ 1024) _ _ 1 _ _ _ _ w1 m1 v1 0 1 (2 ^ 76) (2 * 2 ^ 76) S ltac:(lia) RM) as (W1 & M1); try reflexivity; try exact V1.
  - exists (/ 8). split; [reflexivity|lra].
  - exists (/ 1024). split; [reflexivity|lra].
  - exact isf_1.
  - exists (2 ^ 76). split; [reflexivity|]. rewrite Rabs_right; lra.
  - exists 0. split; [reflexivity|]. rewrite Rabs_R0. lra.
  - exists w1, m1, v1. split; [exact S|]. split; [exact W1|]. split; [exact V1|]. intros cs gs w' m' v' R0 FC FG.
    exact (proj1 (adam_frozen exp_lib _ _ _ _ (/ 1024) 1 0 1 (2 ^ 76) (2 * 2 ^ 76) ltac:(lia) B2 RM isf_1 gs cs w1 m1 v1 w' m' v' R0 FC FG W1 M1 V1)).
Qed.
Print Assumptions C70_finding_one_large_gradient_freezes.

(** Steps exist for all numbers, and there are numbers with room: for Adam with beta 7/8 and 1023/1024, gradients up to 1
    and averages up to 2. *)
Example C70_nonvacuous :
  (forall gamma lr n gs w v, exists w' v', fmomentums exp_lib gamma lr n gs w v w' v') /\
  (forall lr b1 b2 eps n gs cs w m v, length cs = length gs -> exists w' m' v', fadams exp_lib lr b1 b2 eps n cs gs w m v w' m' v') /\
  settles (9 / 10) (/ 100) 1 (2 * (Rabs (/ 100) * 1) / (1 - Rabs (9 / 10)) + / 2 ^ 100) /\
  adam_room (/ 1024) (7 / 8) (1023 / 1024) (/ 2 ^ 27) (/ 1024) 1 2 2 /\ isf (1 - 7 / 8) /\ isf (1 - 1023 / 1024) /\
  finite_up_to 1 5 (fun _ => Fin 1) /\ correction (/ 1024) (Fin (/ 8)).
Proof.
  split; [intros; apply (momentums_ex exp_lib exp_lib_total)|]. split; [intros; apply (adams_ex exp_lib exp_lib_total); assumption|].
  split; [apply velocity_settles; [replace (/ 2 ^ 10) with (/ 1024) by (f_equal; lra); rewrite Rabs_right; lra|lra|rewrite Rabs_right by lra; assert (1 <= 2 ^ 100) by (apply pow_R1_Rle; lra); lra]|].
  split; [exact adam_room_case|].
  split; [replace (1 - 7 / 8) with (/ 2 ^ 3) by (replace (2 ^ 3) with 8 by lra; lra); apply isf_inv2; lia|].
  split; [replace (1 - 1023 / 1024) with (/ 2 ^ 10) by (replace (2 ^ 10) with 1024 by lra; lra); apply isf_inv2; lia|]. split; [intros p _; exists 1; split; [reflexivity|]; split; [exact isf_1|rewrite Rabs_R1; lra]|]. exists (/ 8). split; [reflexivity|lra].
Qed.
