(** Property C72: training dense classifiers with SGD in floats, over any number of iterations.  The model is the arithmetic of
    M_Ieee: any rounding, any order of sums, infinities and NaN. *)
From Coq Require Import Reals Lra Lia List.
From Verif Require Import Base BaseFacts Sums M_Im2col M_Kernels M_Layers S_Float M_Round S_Round P_Float P_Round M_Ieee S_Ieee P_Ieee P_Ieee2 P_Ieee3 P_Ieee4 P_Ieee5 P_Ieee7 P_Ieee8 P_Ieee9 P_Ieee10 P_Ieee11 P_Ieee12
  M_IeeeOpt S_IeeeOpt P_IeeeOpt Prop_Ieee M_IeeeDense S_IeeeDense P_IeeeDense Prop_IeeeDense M_IeeeTrain S_IeeeTrain P_IeeeTrain.
Import ListNotations.
Open Scope R_scope.

(** The expressions, evaluated exactly, are what the kernels compute. *)
Theorem C72_expressions_are_the_kernels :
  forall (K m : nat) (x w b : list R) (p : nat),
  ev (arrays [x; w; b]) (linear_out_ex K m p) = rsum K (fun k => x.[p / m * K + k] * w.[p mod m * K + k]) + b.[p mod m] /\
  linear_ex K m w b p = EAdd (ESum K (fun k => EMul (EVar 0 (p / m * K + k)) (EConst w.[p mod m * K + k]))) (EConst b.[p mod m]) /\
  forall (E : env) (a : act) (ins : list (list nat)) (out : list nat),
  act_ex a p = layer_ex E (match a with AReLU => LReLU | ALeaky alpha => LLeaky alpha | AELU alpha => LELU alpha | ASigmoid => LSigmoid end) ins out p.
Proof. intros K m x w b p. split; [reflexivity|]. split; [reflexivity|]. intros E [| | |] ins out; reflexivity. Qed.
Print Assumptions C72_expressions_are_the_kernels.

(** Training is one iteration after another, on the network and with the velocities that the one before has left. *)
Theorem C72_training_in_parts :
  forall (lib : flt -> flt -> Prop) (rows m : nat) (gamma lr : R) (l l' : list lin) (vs vs' : list ((nat -> flt) * (nat -> flt))) (before after : list ((nat -> flt) * (nat -> nat))) (b : (nat -> flt) * (nat -> nat)),
  (ftraining lib rows m lr l (before ++ after) l' <-> exists l1, ftraining lib rows m lr l before l1 /\ ftraining lib rows m lr l1 after l') /\
  (ftraining lib rows m lr l [b] l' <-> fiteration lib rows m lr l b l') /\
  (mtraining lib rows m gamma lr l vs (before ++ after) l' vs' <-> exists l1 vs1, mtraining lib rows m gamma lr l vs before l1 vs1 /\ mtraining lib rows m gamma lr l1 vs1 after l' vs') /\
  (mtraining lib rows m gamma lr l vs [b] l' vs' <-> miteration lib rows m gamma lr l vs b l' vs').
Proof.
  intros lib rows m gamma lr l l' vs vs' before after b. split; [|split; [|split]].
  - revert l. induction before as [|c t IH]; intros l; cbn [app ftraining].
    + split; [intros T; exists l; split; [reflexivity|exact T]|intros (l1 & -> & T); exact T].
    + split.
      * intros (l1 & I & T). apply IH in T. destruct T as (l2 & T1 & T2). exists l2. split; [exists l1; split; assumption|exact T2].
      * intros (l2 & (l1 & I & T1) & T2). exists l1. split; [exact I|]. apply IH. exists l2. split; assumption.
  - cbn. split; [intros (l1 & I & ->); exact I|intros I; exists l'; split; [exact I|reflexivity]].
  - revert l vs. induction before as [|c t IH]; intros l vs; cbn [app mtraining].
    + split; [intros T; exists l, vs; split; [split; reflexivity|exact T]|intros (l1 & vs1 & (-> & ->) & T); exact T].
    + split.
      * intros (l1 & vs1 & I & T). apply IH in T. destruct T as (l2 & vs2 & T1 & T2). exists l2, vs2. split; [exists l1, vs1; split; assumption|exact T2].
      * intros (l2 & vs2 & (l1 & vs1 & I & T1) & T2). exists l1, vs1. split; [exact I|]. apply IH. exists l2, vs2. split; assumption.
  - cbn. split; [intros (l1 & vs1 & I & (-> & ->)); exact I|intros I; exists l', vs'; split; [exact I|split; reflexivity]].
Qed.
Print Assumptions C72_training_in_parts.

(** A network of Linear layers with ReLU, LeakyReLU, ELU, Sigmoid or nothing between them, then Softmax and cross entropy,
    trained with SGD on any batches of inputs up to [A]: if weights begin with at most [W0] and the bounds leave room for
    weights up to [Wb], with logits up to 30, then after any number of iterations for which the bound on weights is still at
    most [Wb] all weights and biases are finite and within it. *)
Theorem C72_training_stays_finite :
  forall (lib : flt -> flt -> Prop) (u eta : R) (rows n m : nat) (lr A B W0 Wb G : R) (l l' : list lin) (batches : list ((nat -> flt) * (nat -> nat))),
  exp_ok lib -> exp_near u eta lib -> 0 <= u <= / 2 -> 0 <= eta <= / 2 ^ 149 -> (forall a, exists r, lib a r) ->
  (0 < rows)%nat -> (rows <= 2 ^ 23)%nat -> (m <= 2 ^ 23)%nat ->
  0 <= A -> 1 <= B -> 2 * B <= top -> 0 <= W0 -> Wb <= top -> 0 <= G <= top -> Rabs lr * G <= top ->
  chained n m l -> small W0 l -> forward_room Wb A B l -> net_out Wb A l <= 30 -> backward_room rows Wb B G l ->
  Forall (batch_ok rows n m A) batches -> bound_after lr G W0 (length batches) <= Wb ->
  ftraining lib rows m lr l batches l' ->
  small (bound_after lr G W0 (length batches)) l' /\ same_layers l l'.
Proof.
  intros lib u eta rows n m lr A B W0 Wb G l l' batches EO EN Hu He LT R0 RL LM A0 B1 BT W00 WT (G0 & GT) LG CH SM FR N30 BR BO BA TR.
  pose proof (bound_after_ge lr G G0 (length batches) W0 W00) as BG.
  exact (training_static lib u eta EO EN Hu He LT rows n m R0 RL LM lr A B Wb G A0 B1 BT ltac:(lra) WT G0 GT LG batches l l' W0 CH SM W00 BA FR N30 BR BO TR).
Qed.
Print Assumptions C72_training_stays_finite.

(** And the loss of every batch on the way is finite. *)
Theorem C72_losses_stay_finite :
  forall (lib lg : flt -> flt -> Prop) (u eta : R) (rows n m : nat) (lr A B W0 Wb G : R) (l l1 : list lin) (before : list ((nat -> flt) * (nat -> nat)))
         (batch : (nat -> flt) * (nat -> nat)) (acts : list ((nat -> flt) * (nat -> flt))) (z prob : nat -> flt) (loss : flt),
  exp_ok lib -> exp_near u eta lib -> 0 <= u <= / 2 -> 0 <= eta <= / 2 ^ 149 -> (forall a, exists r, lib a r) -> log_ok lg ->
  (0 < rows)%nat -> (rows <= 2 ^ 23)%nat -> (m <= 2 ^ 23)%nat ->
  0 <= A -> 1 <= B -> 2 * B <= top -> 0 <= W0 -> Wb <= top -> 0 <= G <= top -> Rabs lr * G <= top ->
  chained n m l -> small W0 l -> forward_room Wb A B l -> net_out Wb A l <= 30 -> backward_room rows Wb B G l ->
  Forall (batch_ok rows n m A) before -> batch_ok rows n m A batch -> bound_after lr G W0 (length before) <= Wb ->
  ftraining lib rows m lr l before l1 ->
  fforward lib rows (fst batch) l1 acts z -> fsoftmax lib (among [z]) rows m prob -> floss lg rows m prob (snd batch) loss ->
  exists x, loss = Fin x /\ Rabs x <= 512.
Proof.
  intros lib lg u eta rows n m lr A B W0 Wb G l l1 before batch acts z prob loss EO EN Hu He LT LO R0 RL LM A0 B1 BT W00 WT GG LG CH SM FR N30 BR BO BB BA TR FW SX FL.
  destruct (C72_training_stays_finite lib u eta rows n m lr A B W0 Wb G l l1 before EO EN Hu He LT R0 RL LM A0 B1 BT W00 WT GG LG CH SM FR N30 BR BO BA TR) as (S1 & E1).
  pose proof (bound_after_ge lr G (proj1 GG) (length before) W0 W00) as BG.
  exact (loss_small lib u eta EO EN Hu He rows n m R0 RL LM A B Wb A0 BT ltac:(lra) lg l1 batch acts z prob loss LO (same_chained _ _ _ _ E1 CH) (small_mono _ _ _ BA S1) (same_room _ _ _ _ _ E1 FR)
           (small_logits lib EO rows n m A B Wb A0 BT ltac:(lra) l1 batch (same_chained _ _ _ _ E1 CH) (small_mono _ _ _ BA S1) (same_room _ _ _ _ _ E1 FR) ltac:(rewrite <- (same_out _ _ _ _ E1); exact N30) BB) BB FW SX FL).
Qed.
Print Assumptions C72_losses_stay_finite.

(** Each iteration is a step of gradient descent but for errors: the new weights are near those of a step along the exact
    gradient, by the chain rule, of the loss, at the activations of the forward pass. *)
Theorem C72_iterations_are_accurate :
  forall (lib : flt -> flt -> Prop) (u eta : R) (rows n m : nat) (lr A B Wb G : R) (l l' : list lin) (batch : (nat -> flt) * (nat -> nat)),
  exp_ok lib -> exp_near u eta lib -> 0 <= u <= / 2 -> 0 <= eta <= / 2 ^ 149 -> (forall a, exists r, lib a r) ->
  (0 < rows)%nat -> (rows <= 2 ^ 23)%nat -> (m <= 2 ^ 23)%nat ->
  0 <= A -> 1 <= B -> 2 * B <= top -> 0 <= Wb -> 0 <= G <= top -> Rabs lr * G <= top -> Wb + grown (Rabs lr * G) <= top ->
  chained n m l -> small Wb l -> forward_room Wb A B l -> no_confident_mistake lib rows m l batch -> backward_room rows Wb B G l ->
  batch_ok rows n m A batch -> fiteration lib rows m lr l batch l' ->
  exists acts z prob, fforward lib rows (fst batch) l acts z /\ fsoftmax lib (among [z]) rows m prob /\
  let h p := (fval (prob p) - (if (p mod m =? snd batch (p / m))%nat then 1 else 0)) / INR rows in
  let ds := denses l acts (map (fun _ => (fun _ => Fin 0, fun _ => Fin 0)) l) in
  forall k s s', nth_error l k = Some s -> nth_error l' k = Some s' ->
  exists x, option_map fst (nth_error acts k) = Some x /\
  let err := step_error lr Wb G (dot_error rows (rows - 1) (dense_size Wb (2 / INR rows) (map bare l) k)
                                   (dense_error u eta Wb (2 / INR rows) (32 * eps32 / INR rows) (map bare l) k) B) in
  (forall p, (p < l_out s * l_in s)%nat -> exists y, l_w s' p = Fin y /\
     Rabs (y - (fval (l_w s p) - lr * rsum rows (fun i => dense_grad h ds k (i * l_out s + p / l_in s)%nat * fval (x (i * l_in s + p mod l_in s)%nat)))) <= err) /\
  (forall p, (p < l_out s)%nat -> exists y, l_b s' p = Fin y /\
     Rabs (y - (fval (l_b s p) - lr * rsum rows (fun i => dense_grad h ds k (i * l_out s + p)%nat))) <= err).
Proof.
  intros lib u eta rows n m lr A B Wb G l l' batch EO EN Hu He LT R0 RL LM A0 B1 BT W0 (G0 & GT) LG WG CH SM RM N30 BR BO (acts & z & prob & grads & FW & SX & LGR & CB & AS).
  exists acts, z, prob. split; [exact FW|]. split; [exact SX|].
  pose proof (logits_ok lib EO rows n m A B Wb A0 BT W0 l batch acts z CH SM RM BO FW) as ZF. pose proof (N30 acts z FW) as GAP. destruct BO as (BI & BL).
  destruct (forward_ok lib EO rows n A B Wb (fst batch) A0 W0 BT BI l m acts z CH SM RM FW) as (_ & LA & OK). specialize (OK grads LGR).
  pose proof (softmax_reads lib rows m z (fun p => Fin (fval (z p))) prob ZF SX) as SX'.
  assert (PY : forall p, (p < rows * m)%nat -> prob p = Fin (fval (prob p))) by (intros p Hp; destruct (C67_softmax_never_overflows lib (fun p => fval (z p)) rows m prob EO SX' p Hp) as (y & -> & _); reflexivity).
  pose proof (C71_classifier_gradients_are_accurate lib rows m (snd batch) (fun p => fval (z p)) prob (denses l acts grads) u eta (fun p => fval (prob p)) B Wb EO EN Hu He LT R0 RL LM BL SX' CB GAP PY OK B1 W0) as AC.
  cbv beta zeta in AC. specialize (AC ltac:(intros k Hk; rewrite (denses_length _ _ _ LA LGR) in Hk; rewrite (dense_size_bare Wb l acts grads _ k LA LGR); destruct (BR k Hk); split; [assumption|lra])).
  intros h ds k s s' NS NS'. assert (Hk : (k < length l)%nat) by (apply nth_error_Some; congruence).
  destruct (nth_error acts k) as [(x, arg)|] eqn:NA; [|apply nth_error_None in NA; lia]. destruct (nth_error grads k) as [g|] eqn:NG; [|apply nth_error_None in NG; lia]. exists x. split; [reflexivity|]. intros err.
  pose proof (denses_nth l acts grads k s (x, arg) g NS NA NG) as ND. destruct (AC k _ ND) as (C1 & C2). cbn [d_in d_out d_x d_dw d_db fst snd] in C1, C2.
  assert (EG : forall gr, length gr = length l -> forall h, dense_grad h (denses l acts gr) k = dense_grad h ds k) by (intros gr Lgr h0; apply (dense_grad_bare l acts gr _ h0 k LA Lgr); rewrite map_length; reflexivity).
  destruct (BR k Hk) as (_ & DG).
  assert (ST : stepped lib lr s g s') by exact (stepped_nth lib lr l grads l' k s g s' AS NS NG NS'). destruct ST as (_ & _ & _ & SW & SB).
  unfold small in SM. rewrite Forall_forall in SM. destruct (SM s (nth_error_In _ _ NS)) as (PW & PB).
  rewrite (dense_size_bare Wb l acts grads _ k LA LGR) in C1, C2. rewrite (dense_error_bare u eta Wb l acts grads _ _ k LA LGR) in C1, C2. split; intros p Hp.
  - destruct (PW p Hp) as (w & EW & WB). destruct (C1 p Hp) as (d & ED & DB & DE). rewrite (EG grads LGR) in DE.
    destruct (sgd_close lr w d _ _ Wb G (l_w s' p) lib (among [l_w s; fst g]) p EW ED WB ltac:(lra) DE LG WG (SW p Hp)) as (y & EY & _ & YE). exists y. split; [exact EY|]. rewrite EW. exact YE.
  - destruct (PB p Hp) as (w & EW & WB). destruct (C2 p Hp) as (d & ED & DB & DE). rewrite (EG grads LGR) in DE.
    destruct (sgd_close lr w d _ _ Wb G (l_b s' p) lib (among [l_b s; snd g]) p EW ED WB ltac:(lra) DE LG WG (SB p Hp)) as (y & EY & _ & YE). exists y. split; [exact EY|]. rewrite EW. exact YE.
Qed.
Print Assumptions C72_iterations_are_accurate.

(** The same with SGDMomentum, as the samples for Iris and MNIST are trained: velocities begin at zero and never exceed
    2 |lr| G / (1 - |gamma|), but for 2^-100; the bound on weights grows by that much at every iteration. *)
Theorem C72_momentum_training_stays_finite :
  forall (lib : flt -> flt -> Prop) (u eta : R) (rows n m : nat) (gamma lr A B W0 Wb G : R) (l l' : list lin) (vs vs' : list ((nat -> flt) * (nat -> flt))) (batches : list ((nat -> flt) * (nat -> nat))),
  let V := 2 * (Rabs lr * G) / (1 - Rabs gamma) + / 2 ^ 100 in
  exp_ok lib -> exp_near u eta lib -> 0 <= u <= / 2 -> 0 <= eta <= / 2 ^ 149 -> (forall a, exists r, lib a r) ->
  (0 < rows)%nat -> (rows <= 2 ^ 23)%nat -> (m <= 2 ^ 23)%nat ->
  0 <= A -> 1 <= B -> 2 * B <= top -> 0 <= W0 -> Wb <= top -> 0 <= G <= top -> Rabs lr * G <= 2 ^ 100 -> Rabs gamma <= 1 - / 2 ^ 10 ->
  chained n m l -> small W0 l -> forward_room Wb A B l -> net_out Wb A l <= 30 -> backward_room rows Wb B G l ->
  Forall (batch_ok rows n m A) batches -> drifted W0 V (length batches) <= Wb ->
  length vs = length l -> (forall v, In v vs -> forall p, fst v p = Fin 0 /\ snd v p = Fin 0) ->
  mtraining lib rows m gamma lr l vs batches l' vs' ->
  small (drifted W0 V (length batches)) l' /\ slow V l' vs' /\ same_layers l l'.
Proof.
  intros lib u eta rows n m gamma lr A B W0 Wb G l l' vs vs' batches V EO EN Hu He LT R0 RL LM A0 B1 BT W00 WT (G0 & GT) LG GA CH SM FR N30 BR BO BA LV VZ TR.
  assert (P10 : 0 < / 2 ^ 10) by (apply Rinv_0_lt_compat, pow_lt; lra). assert (P100 : 0 < / 2 ^ 100) by (apply Rinv_0_lt_compat, pow_lt; lra).
  assert (V0 : 0 <= V) by (unfold V; assert (0 <= 2 * (Rabs lr * G) / (1 - Rabs gamma)) by (apply Rmult_le_pos; [pose proof (Rmult_le_pos _ _ (Rabs_pos lr) G0); lra|apply Rlt_le, Rinv_0_lt_compat; lra]); lra).
  pose proof (drifted_mono W0 V 0 (length batches) W00 V0 ltac:(lia)) as DM. cbn [drifted] in DM.
  assert (LT' : Rabs lr * G <= top) by (pose proof top_big; assert (2 ^ 100 <= 2 ^ 127) by (apply Rle_pow; [lra|lia]); lra).
  assert (SL : slow V l vs).
  { clear - LV VZ V0. revert vs LV VZ. induction l as [|s t IH]; intros [|v vs] LV VZ; try discriminate; constructor.
    - split; intros p _; exists 0; (split; [apply (VZ v (or_introl eq_refl) p)|rewrite Rabs_R0; exact V0]).
    - apply IH; [cbn in LV; lia|]. intros q Hq. apply VZ. right. exact Hq. }
  exact (mtraining_static lib u eta EO EN Hu He LT rows n m R0 RL LM lr A B Wb G A0 B1 BT ltac:(lra) WT GT gamma V (velocity_settles gamma lr G GA G0 LG) V0 batches l vs l' vs' W0 CH SM SL W00 BA FR N30 BR BO TR).
Qed.
Print Assumptions C72_momentum_training_stays_finite.
Theorem C72_momentum_losses_stay_finite :
  forall (lib lg : flt -> flt -> Prop) (u eta : R) (rows n m : nat) (gamma lr A B W0 Wb G : R) (l l1 : list lin) (vs vs1 : list ((nat -> flt) * (nat -> flt))) (before : list ((nat -> flt) * (nat -> nat)))
         (batch : (nat -> flt) * (nat -> nat)) (acts : list ((nat -> flt) * (nat -> flt))) (z prob : nat -> flt) (loss : flt),
  let V := 2 * (Rabs lr * G) / (1 - Rabs gamma) + / 2 ^ 100 in
  exp_ok lib -> exp_near u eta lib -> 0 <= u <= / 2 -> 0 <= eta <= / 2 ^ 149 -> (forall a, exists r, lib a r) -> log_ok lg ->
  (0 < rows)%nat -> (rows <= 2 ^ 23)%nat -> (m <= 2 ^ 23)%nat ->
  0 <= A -> 1 <= B -> 2 * B <= top -> 0 <= W0 -> Wb <= top -> 0 <= G <= top -> Rabs lr * G <= 2 ^ 100 -> Rabs gamma <= 1 - / 2 ^ 10 ->
  chained n m l -> small W0 l -> forward_room Wb A B l -> net_out Wb A l <= 30 -> backward_room rows Wb B G l ->
  Forall (batch_ok rows n m A) before -> batch_ok rows n m A batch -> drifted W0 V (length before) <= Wb ->
  length vs = length l -> (forall v, In v vs -> forall p, fst v p = Fin 0 /\ snd v p = Fin 0) ->
  mtraining lib rows m gamma lr l vs before l1 vs1 ->
  fforward lib rows (fst batch) l1 acts z -> fsoftmax lib (among [z]) rows m prob -> floss lg rows m prob (snd batch) loss ->
  exists x, loss = Fin x /\ Rabs x <= 512.
Proof.
  intros lib lg u eta rows n m gamma lr A B W0 Wb G l l1 vs vs1 before batch acts z prob loss V EO EN Hu He LT LO R0 RL LM A0 B1 BT W00 WT GG LG GA CH SM FR N30 BR BO BB BA LV VZ TR FW SX FL.
  destruct (C72_momentum_training_stays_finite lib u eta rows n m gamma lr A B W0 Wb G l l1 vs vs1 before EO EN Hu He LT R0 RL LM A0 B1 BT W00 WT GG LG GA CH SM FR N30 BR BO BA LV VZ TR) as (S1 & _ & E1).
  assert (V0 : 0 <= V).
  { assert (P10 : 0 < / 2 ^ 10) by (apply Rinv_0_lt_compat, pow_lt; lra). assert (P100 : 0 < / 2 ^ 100) by (apply Rinv_0_lt_compat, pow_lt; lra).
    unfold V. assert (0 <= 2 * (Rabs lr * G) / (1 - Rabs gamma)) by (apply Rmult_le_pos; [pose proof (Rmult_le_pos _ _ (Rabs_pos lr) (proj1 GG)); lra|apply Rlt_le, Rinv_0_lt_compat; lra]). lra. }
  pose proof (drifted_mono W0 V 0 (length before) W00 V0 ltac:(lia)) as DM. cbn [drifted] in DM.
  exact (loss_small lib u eta EO EN Hu He rows n m R0 RL LM A B Wb A0 BT ltac:(lra) lg l1 batch acts z prob loss LO (same_chained _ _ _ _ E1 CH) (small_mono _ _ _ BA S1) (same_room _ _ _ _ _ E1 FR)
           (small_logits lib EO rows n m A B Wb A0 BT ltac:(lra) l1 batch (same_chained _ _ _ _ E1 CH) (small_mono _ _ _ BA S1) (same_room _ _ _ _ _ E1 FR) ltac:(rewrite <- (same_out _ _ _ _ E1); exact N30) BB) BB FW SX FL).
Qed.
Print Assumptions C72_momentum_losses_stay_finite.

(** Each iteration with SGDMomentum, but for errors: v' = gamma v + lr g, with the exact gradient of the loss at the
    activations of the forward pass, and w' = w - v'. *)
Theorem C72_momentum_iterations_are_accurate :
  forall (lib : flt -> flt -> Prop) (u eta : R) (rows n m : nat) (gamma lr A B Wb G V : R) (l l' : list lin) (vs vs' : list ((nat -> flt) * (nat -> flt))) (batch : (nat -> flt) * (nat -> nat)),
  exp_ok lib -> exp_near u eta lib -> 0 <= u <= / 2 -> 0 <= eta <= / 2 ^ 149 -> (forall a, exists r, lib a r) ->
  (0 < rows)%nat -> (rows <= 2 ^ 23)%nat -> (m <= 2 ^ 23)%nat ->
  0 <= A -> 1 <= B -> 2 * B <= top -> 0 <= Wb -> 0 <= G <= top -> settles gamma lr G V -> Wb + V <= top ->
  chained n m l -> small Wb l -> slow V l vs -> forward_room Wb A B l -> no_confident_mistake lib rows m l batch -> backward_room rows Wb B G l ->
  batch_ok rows n m A batch -> miteration lib rows m gamma lr l vs batch l' vs' ->
  exists acts z prob, fforward lib rows (fst batch) l acts z /\ fsoftmax lib (among [z]) rows m prob /\
  let h p := (fval (prob p) - (if (p mod m =? snd batch (p / m))%nat then 1 else 0)) / INR rows in
  let ds := denses l acts (map (fun _ => (fun _ => Fin 0, fun _ => Fin 0)) l) in
  forall k s s' v v', nth_error l k = Some s -> nth_error l' k = Some s' -> nth_error vs k = Some v -> nth_error vs' k = Some v' ->
  exists x, option_map fst (nth_error acts k) = Some x /\
  let err := dot_error rows (rows - 1) (dense_size Wb (2 / INR rows) (map bare l) k)
               (dense_error u eta Wb (2 / INR rows) (32 * eps32 / INR rows) (map bare l) k) B in
  (forall p, (p < l_out s * l_in s)%nat -> exists y w', fst v' p = Fin y /\ l_w s' p = Fin w' /\
     Rabs (y - (gamma * fval (fst v p) + lr * rsum rows (fun i => dense_grad h ds k (i * l_out s + p / l_in s)%nat * fval (x (i * l_in s + p mod l_in s)%nat)))) <= velocity_error gamma lr V G + Rabs lr * err /\
     Rabs (w' - (fval (l_w s p) - y)) <= eps32 * (Wb + V) + tiny32) /\
  (forall p, (p < l_out s)%nat -> exists y b', snd v' p = Fin y /\ l_b s' p = Fin b' /\
     Rabs (y - (gamma * fval (snd v p) + lr * rsum rows (fun i => dense_grad h ds k (i * l_out s + p)%nat))) <= velocity_error gamma lr V G + Rabs lr * err /\
     Rabs (b' - (fval (l_b s p) - y)) <= eps32 * (Wb + V) + tiny32).
Proof.
  intros lib u eta rows n m gamma lr A B Wb G V l l' vs vs' batch EO EN Hu He LT R0 RL LM A0 B1 BT W0 (G0 & GT) ST WV CH SM SL RM N30 BR BO (acts & z & prob & grads & FW & SX & LGR & CB & AS).
  exists acts, z, prob. split; [exact FW|]. split; [exact SX|].
  pose proof (logits_ok lib EO rows n m A B Wb A0 BT W0 l batch acts z CH SM RM BO FW) as ZF. pose proof (N30 acts z FW) as GAP. destruct BO as (BI & BL).
  destruct (forward_ok lib EO rows n A B Wb (fst batch) A0 W0 BT BI l m acts z CH SM RM FW) as (_ & LA & OK). specialize (OK grads LGR).
  pose proof (softmax_reads lib rows m z (fun p => Fin (fval (z p))) prob ZF SX) as SX'.
  assert (PY : forall p, (p < rows * m)%nat -> prob p = Fin (fval (prob p))) by (intros p Hp; destruct (C67_softmax_never_overflows lib (fun p => fval (z p)) rows m prob EO SX' p Hp) as (y & -> & _); reflexivity).
  pose proof (C71_classifier_gradients_are_accurate lib rows m (snd batch) (fun p => fval (z p)) prob (denses l acts grads) u eta (fun p => fval (prob p)) B Wb EO EN Hu He LT R0 RL LM BL SX' CB GAP PY OK B1 W0) as AC.
  cbv beta zeta in AC. specialize (AC ltac:(intros k Hk; rewrite (denses_length _ _ _ LA LGR) in Hk; rewrite (dense_size_bare Wb l acts grads _ k LA LGR); destruct (BR k Hk); split; [assumption|lra])).
  intros h ds k s s' v v' NS NS' NV NV'. assert (Hk : (k < length l)%nat) by (apply nth_error_Some; congruence).
  destruct (nth_error acts k) as [(x, arg)|] eqn:NA; [|apply nth_error_None in NA; lia]. destruct (nth_error grads k) as [g|] eqn:NG; [|apply nth_error_None in NG; lia]. exists x. split; [reflexivity|]. intros err.
  pose proof (denses_nth l acts grads k s (x, arg) g NS NA NG) as ND. destruct (AC k _ ND) as (C1 & C2). cbn [d_in d_out d_x d_dw d_db fst snd] in C1, C2.
  assert (EG : forall gr, length gr = length l -> forall h, dense_grad h (denses l acts gr) k = dense_grad h ds k) by (intros gr Lgr h0; apply (dense_grad_bare l acts gr _ h0 k LA Lgr); rewrite map_length; reflexivity).
  destruct (BR k Hk) as (_ & DG). destruct (pushed_nth lib gamma lr l grads vs l' vs' k s g v s' v' AS NS NG NV NS' NV') as (_ & _ & _ & SW & SB). destruct (slow_nth V l vs k s v SL NS NV) as (V1 & V2).
  unfold small in SM. rewrite Forall_forall in SM. destruct (SM s (nth_error_In _ _ NS)) as (PW & PB).
  rewrite (dense_size_bare Wb l acts grads _ k LA LGR) in C1, C2. rewrite (dense_error_bare u eta Wb l acts grads _ _ k LA LGR) in C1, C2.
  assert (FIN : forall a T E y c, Rabs (a - T) <= E -> Rabs (y - (gamma * c + lr * a)) <= velocity_error gamma lr V G -> Rabs (y - (gamma * c + lr * T)) <= velocity_error gamma lr V G + Rabs lr * E).
  { intros a T E y c H1 H2. replace (y - (gamma * c + lr * T)) with ((y - (gamma * c + lr * a)) + lr * (a - T)) by ring. pose proof (Rabs_triang (y - (gamma * c + lr * a)) (lr * (a - T))) as TR. rewrite Rabs_mult in TR.
    pose proof (Rmult_le_compat_l _ _ _ (Rabs_pos lr) H1). lra. }
  destruct (momentum_small lib lr G gamma _ _ _ _ _ _ Wb V SW ST WV PW ltac:(intros p Hp; destruct (C1 p Hp) as (d & ED & DB & _); exists d; split; [exact ED|lra]) V1) as (M1 & M2 & M3).
  destruct (momentum_small lib lr G gamma _ _ _ _ _ _ Wb V SB ST WV PB ltac:(intros p Hp; destruct (C2 p Hp) as (d & ED & DB & _); exists d; split; [exact ED|lra]) V2) as (M4 & M5 & M6). split; intros p Hp.
  - destruct (C1 p Hp) as (d & ED & DB & DE). rewrite (EG grads LGR) in DE. destruct (M1 p Hp) as (w & EW & _). destruct (M2 p Hp) as (y & EY & _). destruct (M3 p Hp) as (Q1 & Q2).
    rewrite EY in Q1, Q2. rewrite ED in Q1. rewrite EW in Q2. cbn [fval] in Q1, Q2. exists y, w. split; [exact EY|]. split; [exact EW|]. split; [exact (FIN d _ _ y _ DE Q1)|exact Q2].
  - destruct (C2 p Hp) as (d & ED & DB & DE). rewrite (EG grads LGR) in DE. destruct (M4 p Hp) as (w & EW & _). destruct (M5 p Hp) as (y & EY & _). destruct (M6 p Hp) as (Q1 & Q2).
    rewrite EY in Q1, Q2. rewrite ED in Q1. rewrite EW in Q2. cbn [fval] in Q1, Q2. exists y, w. split; [exact EY|]. split; [exact EW|]. split; [exact (FIN d _ _ y _ DE Q1)|exact Q2].
Qed.
Print Assumptions C72_momentum_iterations_are_accurate.

(** Without a limit on logits: weights stay finite, within the bound, until a confident mistake; the loss of a batch without
    one is finite. *)
Theorem C72_finite_until_a_confident_mistake :
  forall (lib lg : flt -> flt -> Prop) (u eta : R) (rows n m : nat) (lr A B W0 Wb G : R) (l l' : list lin) (batches : list ((nat -> flt) * (nat -> nat))),
  exp_ok lib -> exp_near u eta lib -> 0 <= u <= / 2 -> 0 <= eta <= / 2 ^ 149 -> (forall a, exists r, lib a r) -> log_ok lg ->
  (0 < rows)%nat -> (rows <= 2 ^ 23)%nat -> (m <= 2 ^ 23)%nat ->
  0 <= A -> 1 <= B -> 2 * B <= top -> 0 <= W0 -> Wb <= top -> 0 <= G <= top -> Rabs lr * G <= top ->
  chained n m l -> small W0 l -> forward_room Wb A B l -> backward_room rows Wb B G l ->
  Forall (batch_ok rows n m A) batches -> bound_after lr G W0 (length batches) <= Wb ->
  (forall before batch after l1, batches = before ++ batch :: after -> ftraining lib rows m lr l before l1 -> no_confident_mistake lib rows m l1 batch) ->
  ftraining lib rows m lr l batches l' ->
  small (bound_after lr G W0 (length batches)) l' /\ same_layers l l' /\
  forall batch acts z prob loss, batch_ok rows n m A batch -> no_confident_mistake lib rows m l' batch ->
    fforward lib rows (fst batch) l' acts z -> fsoftmax lib (among [z]) rows m prob -> floss lg rows m prob (snd batch) loss -> exists x, loss = Fin x /\ Rabs x <= 512.
Proof.
  intros lib lg u eta rows n m lr A B W0 Wb G l l' batches EO EN Hu He LT LO R0 RL LM A0 B1 BT W00 WT (G0 & GT) LG CH SM FR BR BO BA NM TR.
  pose proof (bound_after_ge lr G G0 (length batches) W0 W00) as BG. assert (WP : 0 <= Wb) by lra.
  destruct (training_small lib u eta EO EN Hu He LT rows n m R0 RL LM lr A B Wb G A0 B1 BT WP WT G0 GT LG batches l l' W0 CH SM W00 BA FR NM BR BO TR) as (S1 & E1). split; [exact S1|]. split; [exact E1|].
  intros batch acts z prob loss BB NB FW SX FL.
  exact (loss_small lib u eta EO EN Hu He rows n m R0 RL LM A B Wb A0 BT WP lg l' batch acts z prob loss LO (same_chained _ _ _ _ E1 CH) (small_mono _ _ _ BA S1) (same_room _ _ _ _ _ E1 FR) NB BB FW SX FL).
Qed.
Print Assumptions C72_finite_until_a_confident_mistake.
Theorem C72_momentum_finite_until_a_confident_mistake :
  forall (lib lg : flt -> flt -> Prop) (u eta : R) (rows n m : nat) (gamma lr A B W0 Wb G V : R) (l l' : list lin) (vs vs' : list ((nat -> flt) * (nat -> flt))) (batches : list ((nat -> flt) * (nat -> nat))),
  exp_ok lib -> exp_near u eta lib -> 0 <= u <= / 2 -> 0 <= eta <= / 2 ^ 149 -> (forall a, exists r, lib a r) -> log_ok lg ->
  (0 < rows)%nat -> (rows <= 2 ^ 23)%nat -> (m <= 2 ^ 23)%nat ->
  0 <= A -> 1 <= B -> 2 * B <= top -> 0 <= W0 -> Wb <= top -> 0 <= G <= top -> 0 <= V -> settles gamma lr G V ->
  chained n m l -> small W0 l -> slow V l vs -> forward_room Wb A B l -> backward_room rows Wb B G l ->
  Forall (batch_ok rows n m A) batches -> drifted W0 V (length batches) <= Wb ->
  (forall before batch after l1 vs1, batches = before ++ batch :: after -> mtraining lib rows m gamma lr l vs before l1 vs1 -> no_confident_mistake lib rows m l1 batch) ->
  mtraining lib rows m gamma lr l vs batches l' vs' ->
  small (drifted W0 V (length batches)) l' /\ slow V l' vs' /\ same_layers l l' /\
  forall batch acts z prob loss, batch_ok rows n m A batch -> no_confident_mistake lib rows m l' batch ->
    fforward lib rows (fst batch) l' acts z -> fsoftmax lib (among [z]) rows m prob -> floss lg rows m prob (snd batch) loss -> exists x, loss = Fin x /\ Rabs x <= 512.
Proof.
  intros lib lg u eta rows n m gamma lr A B W0 Wb G V l l' vs vs' batches EO EN Hu He LT LO R0 RL LM A0 B1 BT W00 WT (G0 & GT) V0 SE CH SM SL FR BR BO BA NM TR.
  pose proof (drifted_mono W0 V 0 (length batches) W00 V0 ltac:(lia)) as DM. cbn [drifted] in DM. assert (WP : 0 <= Wb) by lra.
  destruct (mtraining_small lib u eta EO EN Hu He LT rows n m R0 RL LM lr A B Wb G A0 B1 BT WP WT GT gamma V SE V0 batches l vs l' vs' W0 CH SM SL W00 BA FR NM BR BO TR) as (S1 & SL1 & E1).
  split; [exact S1|]. split; [exact SL1|]. split; [exact E1|].
  intros batch acts z prob loss BB NB FW SX FL.
  exact (loss_small lib u eta EO EN Hu He rows n m R0 RL LM A B Wb A0 BT WP lg l' batch acts z prob loss LO (same_chained _ _ _ _ E1 CH) (small_mono _ _ _ BA S1) (same_room _ _ _ _ _ E1 FR) NB BB FW SX FL).
Qed.
Print Assumptions C72_momentum_finite_until_a_confident_mistake.

(** Finding: training never recovers.  A weight or bias that is infinite or NaN stays so whatever batches follow; with
    SGDMomentum a velocity does, too, and takes its weight along. *)
Theorem C72_finding_training_never_recovers :
  forall (lib : flt -> flt -> Prop) (rows m : nat) (gamma lr : R) (l l' : list lin) (batches : list ((nat -> flt) * (nat -> nat))) (k : nat) (s : lin),
  nth_error l k = Some s ->
  (ftraining lib rows m lr l batches l' ->
   exists s', nth_error l' k = Some s' /\ (forall p, (p < l_out s * l_in s)%nat -> lost (l_w s p) -> lost (l_w s' p)) /\ (forall p, (p < l_out s)%nat -> lost (l_b s p) -> lost (l_b s' p))) /\
  forall (vs vs' : list ((nat -> flt) * (nat -> flt))) (v : (nat -> flt) * (nat -> flt)), nth_error vs k = Some v -> mtraining lib rows m gamma lr l vs batches l' vs' ->
   exists s' v', nth_error l' k = Some s' /\ nth_error vs' k = Some v' /\
    (forall p, (p < l_out s * l_in s)%nat -> (lost (l_w s p) -> lost (l_w s' p)) /\ (lost (fst v p) -> lost (fst v' p) /\ (batches <> [] -> lost (l_w s' p)))) /\
    (forall p, (p < l_out s)%nat -> (lost (l_b s p) -> lost (l_b s' p)) /\ (lost (snd v p) -> lost (snd v' p) /\ (batches <> [] -> lost (l_b s' p)))).
Proof.
  intros lib rows m gamma lr l l' batches k s NS. split.
  - intros TR. destruct (training_lost lib rows m lr batches l l' k s TR NS) as (s' & N & _ & _ & P1 & P2). exists s'. auto.
  - intros vs vs' v NV TR. destruct (mtraining_lost lib rows m gamma lr batches l vs l' vs' k s v TR NS NV) as (s' & v' & N1 & N2 & _ & _ & P1 & P2). exists s', v'. auto.
Qed.
Print Assumptions C72_finding_training_never_recovers.

(** For up to four million iterations the bound on weights grows no faster than the number of iterations. *)
Theorem C72_bounds_grow_slowly :
  forall (lr G b : R) (k : nat), 0 <= G -> 0 <= b -> (k <= 2 ^ 22)%nat -> bound_after lr G b k <= 2 * (b + INR k * (2 * (Rabs lr * G) + / 2 ^ 147)) /\
  forall V, 0 <= V -> drifted b V k <= 2 * (b + INR k * (V + / 2 ^ 149)).
Proof. intros lr G b k G0 B0 Hk. split; [exact (bound_linear lr G b k G0 B0 Hk)|]. intros V V0. exact (drifted_linear b V k B0 V0 Hk). Qed.
Print Assumptions C72_bounds_grow_slowly.

(** Iterations exist, whatever the numbers are. *)
Lemma forward_exists rows n input : forall l m, chained n m l -> exists acts z, fforward exp_lib rows input l acts z /\ length acts = length l.
Proof.
  assert (X := fun v e => fev_ex exp_lib exp_lib_total v e). induction l as [|s t IH]; intros m CH; [exists [], input; split; reflexivity|]. destruct CH as (_ & CH). destruct (IH _ CH) as (acts & pre & FW & LA).
  assert (Z : exists x arg : nat -> flt, match l_act s with None => x = pre | Some a => (forall p, (p < rows * l_in s)%nat -> fev exp_lib (among [pre]) (act_ex a p) (x p)) /\ arg = match a with ASigmoid => x | _ => pre end end).
  { destruct (l_act s) as [a|]; [|exists pre, pre; reflexivity]. destruct (choose (rows * l_in s) (fun p r => fev exp_lib (among [pre]) (act_ex a p) r)) as (x & Q); [intros p _; apply X; destruct a; cbn; auto 20|]. eexists x, _. split; [exact Q|reflexivity]. }
  destruct Z as (x & arg & Q). destruct (choose (rows * l_out s) (fun p r => fev exp_lib (among [x; l_w s; l_b s]) (linear_out_ex (l_in s) (l_out s) p) r)) as (z & ZP); [intros p _; apply X; cbn; auto|].
  exists ((x, arg) :: acts), z. split; [|cbn; lia]. cbn. exists pre. auto.
Qed.
Lemma grads_exist : forall l acts ds, length acts = length l ->
  Forall2 (fun s s' => exists dw db, s' = mkDense (d_in s) (d_out s) (d_x s) (d_w s) (d_act s) (d_arg s) dw db) (denses l acts (map (fun _ => (fun _ => Fin 0, fun _ => Fin 0)) l)) ds ->
  exists grads, length grads = length l /\ ds = denses l acts grads.
Proof.
  induction l as [|s t IH]; intros [|a acts] ds LA F; try discriminate; cbn [denses map] in F; inversion F as [|? ? ? ? (dw & db & ->) F']; subst; [exists []; split; reflexivity|].
  destruct (IH acts _ ltac:(cbn in LA; lia) F') as (grads & LG & ->). exists ((dw, db) :: grads). split; [cbn; lia|reflexivity].
Qed.
Lemma step_exists lr : forall l grads, length grads = length l -> exists l', all_stepped exp_lib lr l grads l'.
Proof.
  assert (X := fun v e => fev_ex exp_lib exp_lib_total v e). induction l as [|s t IH]; intros [|g grads] LG; try discriminate; [exists []; exact Logic.I|]. destruct (IH grads ltac:(cbn in LG; lia)) as (t' & AS).
  destruct (choose (l_out s * l_in s) (fun p r => fev exp_lib (among [l_w s; fst g]) (sgd_ex lr p) r)) as (w & W); [intros p _; apply X; cbn; auto|].
  destruct (choose (l_out s) (fun p r => fev exp_lib (among [l_b s; snd g]) (sgd_ex lr p) r)) as (b & Q); [intros p _; apply X; cbn; auto|].
  exists (mkLin (l_in s) (l_out s) (l_act s) w b :: t'). split; [repeat split; assumption|exact AS].
Qed.
Lemma stepped_chained lib lr n : forall l grads l' m, all_stepped lib lr l grads l' -> chained n m l -> chained n m l'.
Proof.
  induction l as [|s t IH]; intros [|g grads] [|s' l'] m AS CH; try contradiction; [exact CH|]. destruct AS as ((E1 & E2 & _) & AS). destruct CH as (C1 & C2). split; [congruence|]. rewrite E1. exact (IH _ _ _ AS C2).
Qed.
Lemma iteration_exists rows n m lr l batch : chained n m l -> exists l', fiteration exp_lib rows m lr l batch l' /\ chained n m l'.
Proof.
  intros CH. assert (X := fun v e => fev_ex exp_lib exp_lib_total v e). destruct (forward_exists rows n (fst batch) l m CH) as (acts & z & FW & LA). destruct (fsoftmax_ex exp_lib exp_lib_total (among [z]) rows m) as (prob & SX).
  destruct (choose (rows * m) (fun p r => fev exp_lib (among [prob]) (loss_grad_ex rows m (snd batch) p) r)) as (gout & GO); [intros p _; apply X; unfold loss_grad_ex; destruct (_ =? _)%nat; cbn; auto|].
  destruct (choose (rows * m) (fun p r => fev exp_lib (among [prob; gout]) (softmax_grad_ex m p) r)) as (gin & GI); [intros p _; apply X; cbn; auto|].
  assert (OK : forall l acts m, length acts = length l -> chained n m l ->
     (fix ok m l := match l with [] => True | s :: t => d_out s = m /\ ok (d_in s) t end) m (denses l acts (map (fun _ => (fun _ => Fin 0, fun _ => Fin 0)) l))).
  { clear. induction l as [|s t IH]; intros [|a acts] m LA CH; try discriminate; [exact Logic.I|]. destruct CH as (C1 & C2). split; [exact C1|]. apply IH; [cbn in LA; lia|exact C2]. }
  destruct (backward_exists rows _ m gin (OK l acts m LA CH)) as (ds & FD & BW). destruct (grads_exist l acts ds LA FD) as (grads & LGR & ->).
  destruct (step_exists lr l grads LGR) as (l' & AS). exists l'. split; [|exact (stepped_chained _ _ _ _ _ _ _ AS CH)].
  exists acts, z, prob, grads. repeat (split; [assumption|]). split; [|exact AS]. exists gout, gin. auto.
Qed.
Lemma training_exists rows n m lr batches : forall l, chained n m l -> exists l', ftraining exp_lib rows m lr l batches l'.
Proof.
  induction batches as [|b t IH]; intros l CH; [exists l; reflexivity|]. destruct (iteration_exists rows n m lr l b CH) as (l1 & IT & C1). destruct (IH l1 C1) as (l' & TR). exists l', l1. auto.
Qed.

Lemma push_exists gamma lr : forall l grads vs, length grads = length l -> length vs = length l -> exists l' vs', all_pushed exp_lib gamma lr l grads vs l' vs'.
Proof.
  assert (X := fun v e => fev_ex exp_lib exp_lib_total v e).
  assert (ONE : forall n w g v, exists w' v', fmomentum exp_lib gamma lr n w g v w' v').
  { intros n w g v. destruct (choose n (fun p r => fev exp_lib (among [w; g; v]) (momentum_v_ex gamma lr p) r)) as (v' & V); [intros p _; apply X; cbn; auto|].
    destruct (choose n (fun p r => fev exp_lib (among [w; g; v']) (momentum_w_ex p) r)) as (w' & W); [intros p _; apply X; cbn; auto|]. exists w', v'. split; assumption. }
  induction l as [|s t IH]; intros [|g grads] [|v vs] LG LV; try discriminate; [exists [], []; exact Logic.I|]. destruct (IH grads vs ltac:(cbn in LG; lia) ltac:(cbn in LV; lia)) as (t' & vs' & AS).
  destruct (ONE (l_out s * l_in s)%nat (l_w s) (fst g) (fst v)) as (w' & v1 & M1). destruct (ONE (l_out s) (l_b s) (snd g) (snd v)) as (b' & v2 & M2).
  exists (mkLin (l_in s) (l_out s) (l_act s) w' b' :: t'), ((v1, v2) :: vs'). split; [repeat split; try (apply M1); apply M2|exact AS].
Qed.
Lemma pushed_chained lib gamma lr n : forall l grads vs l' vs' m, all_pushed lib gamma lr l grads vs l' vs' -> chained n m l -> chained n m l' /\ length vs' = length l'.
Proof.
  induction l as [|s t IH]; intros [|g grads] [|v vs] [|s' l'] [|v' vs'] m AS CH; try contradiction; [split; [exact CH|reflexivity]|]. destruct AS as ((E1 & E2 & _) & AS). destruct CH as (C1 & C2). destruct (IH _ _ _ _ _ AS C2) as (I1 & I2).
  split; [split; [congruence|rewrite E1; exact I1]|cbn; lia].
Qed.
Lemma mtraining_exists rows n m gamma lr batches : forall l vs, chained n m l -> length vs = length l -> exists l' vs', mtraining exp_lib rows m gamma lr l vs batches l' vs'.
Proof.
  induction batches as [|b t IH]; intros l vs CH LV; [exists l, vs; split; reflexivity|].
  destruct (iteration_exists rows n m lr l b CH) as (_ & (acts & z & prob & grads & FW & SX & LGR & CB & _) & _). destruct (push_exists gamma lr l grads vs LGR LV) as (l1 & vs1 & AS).
  destruct (pushed_chained _ _ _ _ _ _ _ _ _ _ AS CH) as (C1 & L1). destruct (IH l1 vs1 C1 L1) as (l' & vs' & TR). exists l', vs', l1, vs1. split; [|exact TR]. exists acts, z, prob, grads. auto.
Qed.

(** Three layers with two inputs and outputs each, ReLU, Sigmoid and nothing before them, and a batch of two: from any weights
    up to 1/4 there is room for a thousand iterations of SGD, and a hundred of SGDMomentum, on any batches of numbers up to 1. *)
Example C72_nonvacuous :
  exp_ok exp_lib /\ exp_near eps32 tiny32 exp_lib /\ (forall a, exists r, exp_lib a r) /\ (exists lg, log_ok lg) /\ 2 * 4 <= top /\ 60 <= top /\ Rabs (/ 2 ^ 20) * 60 <= top /\ 1 + grown (Rabs (/ 2 ^ 20) * 60) <= top /\
  forall (w1 b1 w2 b2 w3 b3 : nat -> flt) (batches : list ((nat -> flt) * (nat -> nat))),
  let l := [mkLin 2 2 (Some AReLU) w1 b1; mkLin 2 2 (Some ASigmoid) w2 b2; mkLin 2 2 None w3 b3] in
  (length batches <= 10 ^ 3)%nat ->
  chained 2 2 l /\ forward_room 1 1 4 l /\ net_out 1 1 l <= 30 /\ (small 1 l -> forall batch, batch_ok 2 2 2 1 batch -> no_confident_mistake exp_lib 2 2 l batch) /\ backward_room 2 1 4 60 l /\ bound_after (/ 2 ^ 20) 60 (/ 4) (length batches) <= 1 /\
  (exists l', ftraining exp_lib 2 2 (/ 2 ^ 20) l batches l') /\
  let V := 2 * (Rabs (/ 2 ^ 20) * 60) / (1 - Rabs (9 / 10)) + / 2 ^ 100 in
  settles (9 / 10) (/ 2 ^ 20) 60 V /\ 1 + V <= top /\ Rabs (9 / 10) <= 1 - / 2 ^ 10 /\ ((length batches <= 10 ^ 2)%nat -> drifted (/ 4) V (length batches) <= 1) /\
  forall vs, length vs = length l -> exists l' vs', mtraining exp_lib 2 2 (9 / 10) (/ 2 ^ 20) l vs batches l' vs'.
Proof.
  assert (TP : 2 ^ 100 <= top) by (pose proof top_big; assert (2 ^ 100 <= 2 ^ 127) by (apply Rle_pow; [lra|lia]); lra).
  assert (T64 : 2 ^ 60 <= 2 ^ 100) by (apply Rle_pow; [lra|lia]). assert (E60 : 2 ^ 60 = 1152921504606846976) by lra.
  pose proof eps32_pos as E0. pose proof tiny32_pos as T0.
  assert (E8 : eps32 <= / 1024) by (unfold eps32; apply Rinv_le_contravar; [lra|]; replace 1024 with (2 ^ 10) by ring; apply Rle_pow; [lra|lia]).
  assert (T8 : tiny32 <= / 1024) by (unfold tiny32; apply Rinv_le_contravar; [lra|]; replace 1024 with (2 ^ 10) by ring; apply Rle_pow; [lra|lia]).
  assert (LR : Rabs (/ 2 ^ 20) = / 1048576) by (rewrite Rabs_right; [f_equal; ring|left; apply Rinv_0_lt_compat, pow_lt; lra]).
  assert (GR : forall x C, 0 <= x <= C -> 0 <= grown x <= C + C / 100 + / 100) by (intros x C A0; unfold grown; nra).
  split; [exact exp_lib_ok|]. split; [exact exp_lib_near|]. split; [exact exp_lib_total|]. split; [exists log_lib; exact log_lib_ok|].
  split; [lra|]. split; [lra|]. split; [rewrite LR; lra|]. split; [rewrite LR; pose proof (GR (/ 1048576 * 60) 1 ltac:(lra)); lra|].
  intros w1 b1 w2 b2 w3 b3 batches l LB. assert (CH : chained 2 2 l) by (cbn; auto).
  assert (P3 : forall c, (c <= 2)%nat -> 1 <= (1 + eps32) ^ c <= 1 + / 400).
  { intros c Hc. split; [apply pow_R1_Rle; lra|]. apply Rle_trans with ((1 + eps32) ^ 2); [apply Rle_pow; [lra|exact Hc]|]. apply Rle_trans with ((1 + / 1024) ^ 2); [apply pow_incr; lra|lra]. }
  assert (SG : forall n x C, (n <= 3)%nat -> 0 <= x <= C -> 0 <= sum_grown n x <= C + C / 100 + / 100).
  { intros n x C Hn A0. unfold sum_grown. destruct (P3 (n - 1)%nat ltac:(lia)) as (Q1 & Q2). assert (I3 : 0 <= INR (n - 1) <= 2).
    { split; [apply pos_INR|]. replace 2 with (INR 2) by (cbn; lra). apply le_INR. lia. }
    assert (0 <= INR (n - 1) * (1 + eps32) ^ (n - 1) <= 3) by (split; nra). assert (0 <= INR (n - 1) * (1 + eps32) ^ (n - 1) * tiny32 <= / 300) by (split; nra). nra. }
  assert (I2 : INR 2 = 2) by (cbn; lra).
  assert (LO : forall x C, 0 <= x <= C -> 0 <= lin_out 2 x 1 <= C * 21 / 10 + 12 / 10).
  { intros x C XC. unfold lin_out. rewrite I2, Rmult_1_r. pose proof (GR _ _ XC) as G1. pose proof (SG 2%nat (2 * grown x) (2 * (C + C / 100 + / 100)) ltac:(lia) ltac:(lra)) as G2.
    pose proof (GR (sum_grown 2 (2 * grown x) + 1) _ ltac:(split; [|apply Rplus_le_compat_r; apply G2]; lra)). lra. }
  assert (IN : forall F C, 0 <= F <= C -> 0 <= sum_grown 3 (INR 2 * grown (F * 1)) <= 21 / 10 * C + / 10).
  { intros F C FC. rewrite I2, Rmult_1_r. pose proof (GR F C FC) as G1. pose proof (SG 3%nat (2 * grown F) (2 * (C + C / 100 + / 100)) ltac:(lia) ltac:(lra)). lra. }
  assert (AC : forall a Q C, slope a = 1 -> 0 <= Q <= C -> 0 <= act_size (Some a) Q <= 21 / 20 * C + / 10).
  { intros a Q C S5 QC. cbn [act_size]. rewrite S5, Rmult_1_r. pose proof (GR _ _ QC) as G1. pose proof (GR _ _ G1). lra. }
  assert (N1 := LO 1 1 ltac:(lra)). assert (N3 := LO _ _ N1).
  assert (RM : forward_room 1 1 4 l) by (cbn [forward_room net_out l l_in l_act act_out]; repeat split; lra). assert (N30 : net_out 1 1 l <= 30) by (cbn [net_out l l_in l_act act_out]; lra).
  split; [exact CH|]. split; [exact RM|]. split; [exact N30|]. split; [|split; [|split; [|split]]].
  - intros SM batch BO. exact (small_logits exp_lib exp_lib_ok 2 2 2 1 4 1 ltac:(lra) ltac:(lra) ltac:(lra) l batch CH SM RM N30 BO).
  - intros k Hk. assert (I22 : 2 / INR 2 = 1) by (rewrite I2; lra). rewrite I22.
    assert (SZ : 0 <= dense_size 1 1 (map bare l) k <= 6).
    { assert (S1 := AC AReLU _ _ eq_refl (IN 1 1 ltac:(lra))). assert (S2 := AC ASigmoid _ _ eq_refl (IN _ _ S1)).
      destruct k as [|[|[|k]]]; cbn [dense_size d_out d_act map bare l l_out l_act]; [lra|lra|lra|cbn in Hk; lia]. }
    split; [lra|]. rewrite I2. pose proof (GR (dense_size 1 1 (map bare l) k * 4) 24 ltac:(lra)) as G1. pose proof (SG 2%nat (2 * grown (dense_size 1 1 (map bare l) k * 4)) _ ltac:(lia) ltac:(split; [|apply Rmult_le_compat_l; [|apply G1]]; lra)). lra.
  - eapply Rle_trans; [apply bound_linear; [lra|lra|]|].
    + apply Nat.le_trans with (10 ^ 3)%nat; [exact LB|]. apply Nat.le_trans with (2 ^ 10)%nat; [apply Nat.leb_le; reflexivity|apply Nat.pow_le_mono_r; lia].
    + apply le_INR in LB. rewrite pow_INR in LB. replace (INR 10 ^ 3) with 1000 in LB by (cbn; lra). rewrite LR. pose proof (pos_INR (length batches)).
      assert (T7 : / 2 ^ 147 <= / 1048576) by (apply Rinv_le_contravar; [lra|]; replace 1048576 with (2 ^ 20) by ring; apply Rle_pow; [lra|lia]). nra.
  - exact (training_exists 2 2 2 _ batches l CH).
  - intros V. assert (AG : Rabs (9 / 10) = 9 / 10) by (apply Rabs_right; lra). assert (P10 : / 2 ^ 10 = / 1024) by (f_equal; ring).
    assert (T7 : 0 < / 2 ^ 100 <= / 1048576) by (split; [apply Rinv_0_lt_compat, pow_lt; lra|apply Rinv_le_contravar; [lra|]; replace 1048576 with (2 ^ 20) by ring; apply Rle_pow; [lra|lia]]).
    assert (VB : 0 <= V <= 12 / 10000) by (unfold V; rewrite AG, LR; lra).
    split; [apply velocity_settles; [rewrite AG, P10; lra|lra|rewrite LR; apply Rle_trans with (2 ^ 60); lra]|]. split; [lra|]. split; [rewrite AG, P10; lra|]. split; [|intros vs LV; exact (mtraining_exists 2 2 2 _ _ batches l vs CH LV)].
    intros LC. eapply Rle_trans; [apply drifted_linear; [lra|lra|]|].
    + apply Nat.le_trans with (10 ^ 2)%nat; [exact LC|]. apply Nat.le_trans with (2 ^ 10)%nat; [apply Nat.leb_le; reflexivity|apply Nat.pow_le_mono_r; lia].
    + apply le_INR in LC. rewrite pow_INR in LC. replace (INR 10 ^ 2) with 100 in LC by (cbn; lra). pose proof (pos_INR (length batches)).
      assert (T9 : 0 < / 2 ^ 149 <= / 1048576) by (split; [apply Rinv_0_lt_compat, pow_lt; lra|apply Rinv_le_contravar; [lra|]; replace 1048576 with (2 ^ 20) by ring; apply Rle_pow; [lra|lia]]).
      assert (INR (length batches) * (V + / 2 ^ 149) <= 100 * (13 / 10000)) by (apply Rmult_le_compat; lra). lra.
Qed.
