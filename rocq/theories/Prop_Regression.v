(** Property C74: training a classifier that is one Linear layer with Softmax and cross entropy by SGD does
    nearly as well as any fixed choice of weights, converges on one batch, and learns separable samples.

    [regression_step] is one iteration of the training loop and [regression_train] the loop over the batches;
    [regression_loss] is the loss of a batch with the given weights.  [batch_ok U K A] says that a batch has
    [K] features, labels of [U] classes, and samples of norm at most [A]. *)
From Coq Require Import Reals Lra Lia String.
From Verif Require Import Base BaseFacts Sums M_Im2col M_Kernels M_Conv M_Layers M_Loss M_Optim S_Grad S_Loss M_Regression S_Regression P_Regression P_Separable.
Open Scope R_scope.

(** Over any sequence of batches the losses of the iterations, added up, exceed those of any other weights
    [V] and biases [d], kept fixed, by at most their squared distance from the initial ones over twice the
    learning rate, plus the learning rate times 1 + A^2 for each iteration. *)
Theorem C74_nearly_as_good_as_any_weights :
  forall (E : env) (U K : nat) (lr A : R) (V d : prm) (batches : list (ten * ten)) (W b : prm),
  0 < lr -> Forall (batch_ok U K A) batches -> prm_ok [U; K] V -> prm_ok [U] d ->
  prm_ok [U; K] W -> prm_ok [U] b -> p_train W = true -> p_train b = true ->
  exists W2 b2 ls ls', regression_train E lr W b batches = Ok (W2, b2, ls) /\ length ls = length batches /\
    Forall2 (fun xt l' => regression_loss E V d (fst xt) (snd xt) = Ok l') batches ls' /\
    lsum ls <= lsum ls' + distance2 U K W b V d / (2 * lr) + lr * (1 + A * A) * INR (length batches).
Proof. exact train_regret_div. Qed.
Print Assumptions C74_nearly_as_good_as_any_weights.

(** An iteration moves the weights closer to any weights whose loss on the batch is smaller by more than
    lr * (1 + A^2). *)
Theorem C74_moves_closer_to_better_weights :
  forall (E : env) (U K : nat) (lr A : R) (x target : ten) (W b V d : prm),
  batch_ok U K A (x, target) -> 0 < lr ->
  prm_ok [U; K] W -> prm_ok [U] b -> p_train W = true -> p_train b = true -> prm_ok [U; K] V -> prm_ok [U] d ->
  exists W2 b2 l l', regression_step E lr W b x target = Ok (W2, b2, l) /\ regression_loss E V d x target = Ok l' /\
    distance2 U K W2 b2 V d <= distance2 U K W b V d - 2 * lr * (l - l' - lr * (1 + A * A)) /\
    (lr * (1 + A * A) < l - l' -> distance2 U K W2 b2 V d < distance2 U K W b V d).
Proof. exact moves_closer. Qed.
Print Assumptions C74_moves_closer_to_better_weights.

(** The gradients an iteration stores bound the loss of all other weights from below: the loss is convex. *)
Theorem C74_gradients_bound_the_loss_of_all_weights :
  forall (E : env) (U K : nat) (lr A : R) (x target : ten) (W b V d : prm),
  batch_ok U K A (x, target) ->
  prm_ok [U; K] W -> prm_ok [U] b -> p_train W = true -> p_train b = true -> prm_ok [U; K] V -> prm_ok [U] d ->
  exists W2 b2 l l', regression_step E lr W b x target = Ok (W2, b2, l) /\ regression_loss E W b x target = Ok l /\ regression_loss E V d x target = Ok l' /\
    l + rsum U (fun j => (tdat (p_grad b2)).[j] * ((tdat (p_data d)).[j] - (tdat (p_data b)).[j]) +
      rsum K (fun k => (tdat (p_grad W2)).[j * K + k] * ((tdat (p_data V)).[j * K + k] - (tdat (p_data W)).[j * K + k]))) <= l'.
Proof. exact gradient_inequality. Qed.
Print Assumptions C74_gradients_bound_the_loss_of_all_weights.

(** Where the gradients of all weights and biases are zero, no weights have a smaller loss. *)
Theorem C74_zero_gradients_mean_smallest_loss :
  forall (E : env) (U K : nat) (lr A : R) (x target : ten) (W b W2 b2 : prm) (l : R) (V d : prm),
  batch_ok U K A (x, target) ->
  prm_ok [U; K] W -> prm_ok [U] b -> p_train W = true -> p_train b = true -> prm_ok [U; K] V -> prm_ok [U] d ->
  regression_step E lr W b x target = Ok (W2, b2, l) ->
  (forall j, (j < U)%nat -> (tdat (p_grad b2)).[j] = 0) -> (forall q, (q < U * K)%nat -> (tdat (p_grad W2)).[q] = 0) ->
  exists l', regression_loss E V d x target = Ok l' /\ l <= l'.
Proof. exact zero_gradient. Qed.
Print Assumptions C74_zero_gradients_mean_smallest_loss.

(** With a learning rate of at most 1 / (9 * (1 + A^2)) an iteration makes the loss of its batch smaller by at
    least 8/9 of the learning rate times the sum of the squares of the gradients it stored. *)
Theorem C74_loss_decreases :
  forall (E : env) (U K : nat) (lr A : R) (x target : ten) (W b : prm),
  batch_ok U K A (x, target) -> 0 <= lr -> lr * (1 + A * A) <= 1 / 9 ->
  prm_ok [U; K] W -> prm_ok [U] b -> p_train W = true -> p_train b = true ->
  exists W2 b2 l l2, regression_step E lr W b x target = Ok (W2, b2, l) /\ regression_loss E W2 b2 x target = Ok l2 /\
    l2 <= l - 8 / 9 * lr * rsum U (fun j => (tdat (p_grad b2)).[j] ^ 2 + rsum K (fun k => (tdat (p_grad W2)).[j * K + k] ^ 2)).
Proof. exact decreases. Qed.
Print Assumptions C74_loss_decreases.

(** With such a learning rate, [T] iterations on one batch reach a loss above that of any other weights [V]
    and biases [d] by at most a constant, which does not depend on [T], divided by [T]. *)
Theorem C74_converges_to_the_smallest_loss :
  forall (E : env) (U K : nat) (lr A : R) (x target : ten) (W b V d : prm) (T : nat),
  batch_ok U K A (x, target) -> 0 < lr -> lr * (1 + A * A) <= 1 / 9 -> (0 < T)%nat ->
  prm_ok [U; K] W -> prm_ok [U] b -> p_train W = true -> p_train b = true -> prm_ok [U; K] V -> prm_ok [U] d ->
  exists W2 b2 ls l l2 l', regression_train E lr W b (repeat (x, target) T) = Ok (W2, b2, ls) /\
    regression_loss E W b x target = Ok l /\ regression_loss E W2 b2 x target = Ok l2 /\ regression_loss E V d x target = Ok l' /\
    l2 <= l' + (distance2 U K W b V d / (2 * lr) + l) / INR T.
Proof. exact converges. Qed.
Print Assumptions C74_converges_to_the_smallest_loss.

(** With such a learning rate, over any sequence of batches, the losses of the iterations, added up, are at most
    16/7 of those of any other weights and biases, kept fixed, plus a constant: nothing is added for each iteration. *)
Theorem C74_total_loss_is_bounded :
  forall (E : env) (U K : nat) (lr A : R) (V d : prm) (batches : list (ten * ten)) (W b : prm),
  0 < lr -> lr * (1 + A * A) <= 1 / 9 -> Forall (batch_ok U K A) batches -> prm_ok [U; K] V -> prm_ok [U] d ->
  prm_ok [U; K] W -> prm_ok [U] b -> p_train W = true -> p_train b = true ->
  exists W2 b2 ls ls', regression_train E lr W b batches = Ok (W2, b2, ls) /\ length ls = length batches /\
    Forall2 (fun xt l' => regression_loss E V d (fst xt) (snd xt) = Ok l') batches ls' /\
    lsum ls <= 16 / 7 * lsum ls' + 8 / 7 * (distance2 U K W b V d / lr).
Proof. exact train_total_div. Qed.
Print Assumptions C74_total_loss_is_bounded.

(** If some weights separate the classes of a batch, enough iterations on it reach an accuracy of 1, and all
    further iterations keep it. *)
Theorem C74_separable_samples_are_learnt :
  forall (E : env) (U K : nat) (lr A : R) (x target : ten) (W b V d : prm),
  is_argmax (e_amax E) -> batch_ok U K A (x, target) -> 0 < lr -> lr * (1 + A * A) <= 1 / 9 ->
  prm_ok [U; K] W -> prm_ok [U] b -> p_train W = true -> p_train b = true ->
  prm_ok [U; K] V -> prm_ok [U] d -> separates U K V d x target ->
  exists T0, forall T, (T0 <= T)%nat ->
  exists W2 b2 ls, regression_train E lr W b (repeat (x, target) T) = Ok (W2, b2, ls) /\ regression_accuracy E W2 b2 x target = Ok 1.
Proof. exact separable. Qed.
Print Assumptions C74_separable_samples_are_learnt.

(** With such a learning rate, if some weights separate the classes of all batches with a common margin, the
    average loss of the iterations falls below any positive number, whatever the sequence of batches. *)
Theorem C74_average_loss_on_separable_batches_vanishes :
  forall (E : env) (U K : nat) (lr A m : R) (V d W b : prm),
  0 < lr -> lr * (1 + A * A) <= 1 / 9 -> (0 < U)%nat -> prm_ok [U; K] V -> prm_ok [U] d ->
  prm_ok [U; K] W -> prm_ok [U] b -> p_train W = true -> p_train b = true -> 0 < m -> forall eps, 0 < eps ->
  exists C, forall batches : list (ten * ten),
  Forall (batch_ok U K A) batches -> Forall (fun xt => separates_by m U K V d (fst xt) (snd xt)) batches ->
  exists W2 b2 ls, regression_train E lr W b batches = Ok (W2, b2, ls) /\ length ls = length batches /\
    lsum ls <= eps * INR (length batches) + C.
Proof. exact separable_average. Qed.
Print Assumptions C74_average_loss_on_separable_batches_vanishes.

(** Then the iterations that misclassify a sample of their batch become rare as well: for any positive [eps], all
    but a share of [eps] of the iterations, and a constant number of them, have an accuracy of 1. *)
Theorem C74_misclassifying_iterations_are_rare :
  forall (E : env) (U K : nat) (lr A m : R) (B : nat) (V d W b : prm),
  is_argmax (e_amax E) -> 0 < lr -> lr * (1 + A * A) <= 1 / 9 -> (0 < U)%nat -> (0 < B)%nat -> prm_ok [U; K] V -> prm_ok [U] d ->
  prm_ok [U; K] W -> prm_ok [U] b -> p_train W = true -> p_train b = true -> 0 < m -> forall eps, 0 < eps ->
  exists C, forall batches : list (ten * ten),
  Forall (batch_ok U K A) batches -> Forall (fun xt => (tot (snd xt) <= B)%nat) batches ->
  Forall (fun xt => separates_by m U K V d (fst xt) (snd xt)) batches ->
  exists accs, train_accuracies E lr W b batches = Ok accs /\ length accs = length batches /\
    INR (below_one accs) <= eps * INR (length batches) + C.
Proof. exact few_mistakes. Qed.
Print Assumptions C74_misclassifying_iterations_are_rare.

(** ** Example: two samples of two features and two classes. *)
Definition exr_x : ten := mkT [2; 2]%nat [3; 4; - 1; 2].
Definition exr_t : ten := mkT [2; 1]%nat [1; 0].
Definition exr_p (sh : list nat) (l : list R) : prm := mkP (mkT sh l) (mkT sh l) true.
Example C74_nonvacuous :
  batch_ok 2 2 5 (exr_x, exr_t) /\ prm_ok [2; 2]%nat (exr_p [2; 2]%nat [0; 0; 0; 0]) /\ prm_ok [2]%nat (exr_p [2]%nat [0; 0]) /\
  prm_ok [2; 2]%nat (exr_p [2; 2]%nat [- 1; 0; 1; 0]) /\
  distance2 2 2 (exr_p [2; 2]%nat [0; 0; 0; 0]) (exr_p [2]%nat [0; 0]) (exr_p [2; 2]%nat [- 1; 0; 1; 0]) (exr_p [2]%nat [0; 0]) = 2 /\
  0 < 1 / 300 /\ 1 / 300 * (1 + 5 * 5) <= 1 / 9 /\
  separates 2 2 (exr_p [2; 2]%nat [- 1; 0; 1; 0]) (exr_p [2]%nat [0; 0]) exr_x exr_t /\
  separates_by 2 2 2 (exr_p [2; 2]%nat [- 1; 0; 1; 0]) (exr_p [2]%nat [0; 0]) exr_x exr_t.
Proof.
  split; [|split; [repeat split|split; [repeat split|split; [repeat split|split; [unfold distance2; cbn; lra|split; [lra|split; [lra|]]]]]]].
  2: { split; intros i c j Hi Hc Hj N; (destruct i as [|[|i]]; [| |cbn in Hi; lia]); (destruct c as [|[|c]]; try lia); (destruct j as [|[|j]]; try lia); try congruence; unfold score; cbn; lra. }
  exists 2%nat, (fun i => 1 - i)%nat. split; [lia|split; [split; reflexivity|split]].
  - split; [split; reflexivity|split; [unfold int_max; lia|]]. intros [|[|i]] Hi; [| |lia]; cbn; (split; [lia|lra]).
  - intros [|[|i]] Hi; [| |lia]; cbn; lra.
Qed.
(** Equal samples with different labels and zero weights: the gradients are zero, as [C74_zero_gradients_mean_smallest_loss] assumes. *)
Example C74_nonvacuous_zero_gradients : forall E : env,
  exists W2 b2 l, regression_step E 1 (exr_p [2; 1]%nat [0; 0]) (exr_p [2]%nat [0; 0]) (mkT [2; 1]%nat [1; 1]) exr_t = Ok (W2, b2, l) /\
    (forall j, (j < 2)%nat -> (tdat (p_grad b2)).[j] = 0) /\ (forall q, (q < 2 * 1)%nat -> (tdat (p_grad W2)).[q] = 0).
Proof.
  intros E.
  assert (HX : ten_ok [2; 1]%nat (mkT [2; 1]%nat [1; 1])) by (split; reflexivity).
  assert (HL : S_Loss.labels 2 2 exr_t (fun i => 1 - i)%nat).
  { split; [split; reflexivity|split; [unfold int_max; lia|]]. intros [|[|i]] Hi; [| |lia]; cbn; (split; [lia|lra]). }
  destruct (step_spec E 2 2 1 (fun i => 1 - i)%nat (mkT [2; 1]%nat [1; 1]) exr_t ltac:(lia) HX HL 1 (exr_p [2; 1]%nat [0; 0]) (exr_p [2]%nat [0; 0])) as (Z & W2 & b2 & VZ & RS & _ & _ & _ & _ & _ & _ & _ & Eb & EW); [repeat split|repeat split|reflexivity|reflexivity|].
  assert (Z0 : forall i j, (i < 2)%nat -> (j < 2)%nat -> Z.[i * 2 + j] = 0) by (intros i j Hi Hj; rewrite VZ by assumption; unfold logit; destruct i as [|[|i]]; [| |lia]; destruct j as [|[|j]]; try lia; cbn; lra).
  assert (SV : forall i j, (i < 2)%nat -> (j < 2)%nat -> P_Vjp3.softmax_val 2 Z i j = 1 / 2) by (intros i j Hi Hj; unfold P_Vjp3.softmax_val; cbn [rsum]; rewrite !Z0 by lia; rewrite exp_0; field).
  exists W2, b2, (loss_of 2 2 Z (fun i => 1 - i)%nat). split; [exact RS|split].
  - intros j Hj. rewrite Eb by exact Hj. cbn [rsum]. unfold resid. rewrite !SV by lia. unfold delta. destruct j as [|[|j]]; [| |lia]; cbn; lra.
  - intros q Hq. replace q with (q * 1 + 0)%nat by lia. rewrite EW by lia. cbn [rsum]. unfold resid. rewrite !SV by lia. unfold delta. destruct q as [|[|q]]; [| |lia]; cbn; lra.
Qed.
