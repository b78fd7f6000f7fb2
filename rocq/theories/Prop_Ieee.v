(** Property C67: overflow, infinities and NaN.  Every operation follows IEEE 754 (M_Ieee): large results become
    infinite, undefined ones NaN; the rounding mode and the order of sums are arbitrary. *)
From Coq Require Import Reals String Lia Lra.
From Verif Require Import Base BaseFacts Sums M_Im2col S_Im2col M_Layers M_Kernels M_Optim M_Nn M_Graph M_Model M_Backend M_Loss S_Grad S_Loss S_Graph S_Run S_Fit S_Float
  P_Graph P_Graph2 P_Nn P_Model P_Model2 P_Run P_Fwd P_Load P_Fwd2 P_Run2 P_Fit P_Eval2 P_Vjp2 Prop_Graph Prop_Model Prop_Run Prop_Bwd
  M_Round S_Round P_Round P_Round4 M_Ieee S_Ieee P_Ieee P_Ieee2 P_Ieee3 P_Ieee4 P_Ieee5 P_Ieee6 P_Ieee7 P_Ieee8 P_Ieee9 P_Ieee10 P_Ieee11 P_Ieee12.
Import ListNotations.
Open Scope R_scope.

(** ** Softmax and Sigmoid *)
(** Whatever finite numbers [z] Softmax gets, however large: it gives finite floats between 0 and 1, and the largest
    number of a row gets a positive one. *)
Theorem C67_softmax_never_overflows :
  forall (lib : flt -> flt -> Prop) (z : nat -> R) (n m : nat) (out : nat -> flt), exp_ok lib ->
  fsoftmax lib (among [fun p => Fin (z p)]) n m out ->
  forall q, (q < n * m)%nat -> exists y, out q = Fin y /\ isf y /\ 0 <= y <= 1 /\
    ((m <= 2 ^ 23)%nat -> (forall k, (k < m)%nat -> z (q / m * m + k)%nat <= z q) -> / 2 ^ 28 <= y).
Proof.
  intros lib z n m out EO SM q Hq. pose proof (SM' lib n m z out SM) as S'.
  destruct (softmax_unit lib EO (zv z) n m out q S' Hq) as (y & E & Fy & Y). exists y. split; [exact E|]. split; [exact Fy|]. split; [exact Y|]. intros LM MX.
  destruct (softmax_top lib EO (zv z) n m out q S' Hq LM MX) as (y' & E' & L). rewrite E in E'. injection E' as <-. exact L.
Qed.
Print Assumptions C67_softmax_never_overflows.

Theorem C67_sigmoid_never_overflows :
  forall (lib : flt -> flt -> Prop) (z : nat -> R) (p : nat) (r : flt), exp_ok lib -> Rabs (z p) <= top ->
  fev lib (among [fun p => Fin (z p)]) (sigmoid_ex p) r -> exists y, r = Fin y /\ isf y /\ 0 <= y <= 1.
Proof.
  intros lib z p r EO T F. apply (sigmoid_unit lib EO (zv z) p r T). apply (fev_reads lib (among [fun p => Fin (z p)])); [|exact F]. intros a i _. apply among_zv.
Qed.
Print Assumptions C67_sigmoid_never_overflows.

(** ** Networks *)
(** [Bd] bounds the elements of every placeholder's values: of the inputs, and through each layer as in
    [bounded_by].  If the bounds stay below the largest float, no infinity and no NaN occurs, and the bounds hold. *)
Theorem C67_networks_stay_finite :
  forall (es : estore) (ins outs : list nat) (m : model) (infos : list linfo) (b : backend) (E : nat -> env) (tins : list ten)
         (Bd : nat -> R) (lib : flt -> flt -> Prop) (V : nat -> ften),
  constructed es ins outs m -> closed (es_ph es) ins outs -> shaped (es_ph es) ins tins -> exp_ok lib ->
  Forall2 (fun d t => up_to (Bd d) t) ins tins ->
  (forall d, needed (es_ph es) outs d -> 0 <= Bd d <= top) ->
  (forall d args, needed (es_ph es) outs d -> call (es_ph es) d args ->
     exists L, produces m infos b d L /\ fits L (map (dims (es_ph es)) args) (dims (es_ph es) d) /\
       bounded_by L (map (dims (es_ph es)) args) (dims (es_ph es) d) (map Bd args) (Bd d)) ->
  float_evaluation lib (es_ph es) ins outs tins E (produces m infos b) V ->
  forall d, needed (es_ph es) outs d -> exists t, V d = lift t /\ ten_ok (dims (es_ph es) d) t /\ up_to (Bd d) t.
Proof.
  intros es ins outs m infos b E tins Bd lib V C CL SI EO UI BT FT EV d N.
  exists (real_of (V d)). exact (network_finite es ins outs m C CL infos b E tins Bd lib V SI EO UI BT FT EV d N).
Qed.
Print Assumptions C67_networks_stay_finite.

(** In that case the evaluation is one of those of C64, with the errors of 32-bit floats, if exp has these errors
    and its arguments are moderate: what C64 says about rounding holds of IEEE arithmetic. *)
Theorem C67_finite_networks_are_rounded_evaluations :
  forall (es : estore) (ins outs : list nat) (m : model) (infos : list linfo) (b : backend) (E : nat -> env) (tins : list ten)
         (Bd : nat -> R) (lib : flt -> flt -> Prop) (V : nat -> ften) (u eta : R),
  constructed es ins outs m -> closed (es_ph es) ins outs -> shaped (es_ph es) ins tins -> exp_ok lib ->
  Forall2 (fun d t => up_to (Bd d) t) ins tins ->
  (forall d, needed (es_ph es) outs d -> 0 <= Bd d <= top) ->
  (forall d args, needed (es_ph es) outs d -> call (es_ph es) d args ->
     exists L, produces m infos b d L /\ fits L (map (dims (es_ph es)) args) (dims (es_ph es) d) /\
       bounded_by L (map (dims (es_ph es)) args) (dims (es_ph es) d) (map Bd args) (Bd d)) ->
  float_evaluation lib (es_ph es) ins outs tins E (produces m infos b) V ->
  eps32 <= u <= 1 -> tiny32 <= eta <= 1 -> exp_near u eta lib ->
  (forall d args L a0 rest, needed (es_ph es) outs d -> call (es_ph es) d args -> produces m infos b d L ->
     exponential L = true -> args = a0 :: rest -> Bd a0 <= 32) ->
  exists W, (forall d, needed (es_ph es) outs d -> V d = lift (W d)) /\
    rounded_evaluation u eta (es_ph es) ins outs tins E (produces m infos b) W.
Proof.
  intros es ins outs m infos b E tins Bd lib V u eta C CL SI EO UI BT FT EV Hu He NE KE. exists (fun d => real_of (V d)). split.
  - intros d N. exact (proj1 (network_finite es ins outs m C CL infos b E tins Bd lib V SI EO UI BT FT EV d N)).
  - exact (network_rounded es ins outs m C CL infos b E tins Bd lib V SI EO UI BT FT EV u eta Hu He NE KE).
Qed.
Print Assumptions C67_finite_networks_are_rounded_evaluations.

(** Every model whose layers fit has such an evaluation, for every input. *)
Theorem C67_float_evaluations_exist :
  forall (es : estore) (ins outs : list nat) (m : model) (infos : list linfo) (b : backend) (E : nat -> env) (tins : list ten) (lib : flt -> flt -> Prop),
  constructed es ins outs m -> closed (es_ph es) ins outs -> shaped (es_ph es) ins tins -> (forall a, exists r, lib a r) ->
  (forall d args, needed (es_ph es) outs d -> call (es_ph es) d args ->
     exists L, produces m infos b d L /\ fits L (map (dims (es_ph es)) args) (dims (es_ph es) d)) ->
  exists V, float_evaluation lib (es_ph es) ins outs tins E (produces m infos b) V.
Proof.
  intros es ins outs m infos b E tins lib C CL SI LT FT. pose proof (constructed_mfacts _ _ _ _ C) as MF. destruct C as (B & VO & _).
  assert (LB : links_back (es_ph es)) by (apply store_links_back, built_ok, B).
  apply (float_evaluation_exists _ _ _ _ MF CL LB E infos b tins lib LT SI FT). intros d N. eapply needed_lt; [|exact LB|exact N]. intros o Ho. rewrite Forall_forall in VO. auto.
Qed.
Print Assumptions C67_float_evaluations_exist.

(** Rounding to nearest is one of the roundings, and the result of every rounding that does not overflow is a
    neighbour: its errors are those of 32-bit floats. *)
Theorem C67_roundings :
  (forall x y, nearest_float x y -> rnd x (Fin y)) /\ (forall x, exists r, rnd x r) /\
  (forall x r, Rabs x <= top -> rnd x r -> exists y, r = Fin y /\ isf y /\ near eps32 tiny32 x y) /\
  (forall x r, isf x -> rnd x r -> r = Fin x).
Proof.
  split; [exact nearest_rounds|]. split; [exact rnd_ex|]. split.
  - intros x r T R0. destruct (rnd_fin x r T R0) as (y & E & Ry & N). exists y. split; [exact E|]. split; [exact (rounds_isf _ _ Ry)|exact N].
  - intros x r Fx R0. destruct (rnd_fin x r (isf_le_top x Fx) R0) as (y & -> & Ry & _). f_equal. exact (rounds_self x y Fx Ry).
Qed.
Print Assumptions C67_roundings.

(** ** Training: the last layer *)
(** With exact arithmetic, the expressions of [floss] and [last_step] are what the code computes. *)
Theorem C67_expressions_are_the_kernels :
  (forall E st n m pred target c, (0 < n)%nat -> ce_ok st -> ten_ok [n; m]%nat pred -> labels n m target c ->
     (forall i, (i < n)%nat -> 0 < (tdat pred).[i * m + c i]) ->
     exists st', ce_forward E st pred target = Ok (st', Some (ev (arrays [tab n (fun i => ln (tdat pred).[i * m + c i])]) (loss_ex n)))) /\
  (forall n m pred target go c, (0 < n)%nat -> ten_ok [n; m]%nat pred -> labels n m target c -> ten_ok [n; m]%nat go ->
     (forall i, (i < n)%nat -> 0 < (tdat pred).[i * m + c i]) ->
     exists g, ce_backward pred target go = Ok (map Some g) /\ length g = (n * m)%nat /\
       forall p, (p < n * m)%nat -> g.[p] = ev (arrays [tdat pred]) (loss_grad_ex n m c p)) /\
  (forall n m out go gi, length out = (n * m)%nat -> length go = (n * m)%nat -> length gi = (n * m)%nat ->
     softmax_input_grad n m out n m go n m gi = Ok (tab (n * m) (fun p => ev (arrays [out; go; gi]) (softmax_grad_ex m p)))) /\
  (forall n K m x go dW, length x = (n * K)%nat -> length go = (n * m)%nat -> length dW = (m * K)%nat ->
     linear_weight_grad n K x n m go m K dW = Ok (tab (m * K) (fun p => ev (arrays [x; go]) (linear_grad_ex n K m p)))) /\
  (forall n m x go db, length go = (n * m)%nat -> length db = m ->
     linear_bias_grad n m go m db = Ok (tab m (fun p => ev (arrays [x; go]) (bias_grad_ex n m p)))) /\
  (forall lr k p s, p_train p = true -> prm_ok (tsh (p_data p)) p ->
     sgd_one lr k p s = Ok (set_weight p (tab (tot (p_data p)) (fun i => ev (arrays [tdat (p_data p); tdat (p_grad p)]) (sgd_ex lr i))), tt)) /\
  (forall n K m w go gi, length go = (n * m)%nat -> length w = (m * K)%nat -> length gi = (n * K)%nat ->
     linear_input_grad n m go m K w n K gi = Ok (tab (n * K) (fun p => ev (arrays [w; go; gi]) (linear_input_ex K m p)))) /\
  (forall n x go gi, length x = n -> length go = n -> length gi = n ->
     elementwise_grad relu_grad n x n go n gi = Ok (tab n (fun p => ev (arrays [x; go; gi]) (relu_grad_ex p)))).
Proof.
  split; [exact loss_is|]. split; [exact loss_grad_is|]. split; [exact softmax_grad_is|]. split; [exact linear_grad_is|]. split; [exact bias_grad_is|]. split; [exact sgd_is|].
  split; [exact linear_input_is|exact relu_grad_is].
Qed.
Print Assumptions C67_expressions_are_the_kernels.

(** One step for any batch and classifier: if the logit of each sample's class is at most 60 below the sample's
    largest one, the loss is finite and the gradients at the logits are at most 16; if the bounds on inputs, weights and
    learning rate leave room, weights and bias are finite after the step. *)
Theorem C67_training_step_stays_finite :
  forall (lib lg : flt -> flt -> Prop) (rows K m : nat) (label : nat -> nat) (lr : R) (z : nat -> R)
         (prob input w b gin w' b' : nat -> flt) (loss : flt) (u eta : R) (xr wr br : nat -> R) (B Wb : R),
  exp_ok lib -> exp_near u eta lib -> u <= / 2 -> 0 <= eta <= / 2 ^ 149 -> log_ok lg ->
  (0 < rows)%nat -> (rows <= 2 ^ 23)%nat -> (m <= 2 ^ 23)%nat -> (forall i, (i < rows)%nat -> (label i < m)%nat) ->
  fsoftmax lib (among [fun p => Fin (z p)]) rows m prob -> floss lg rows m prob label loss ->
  last_step lib rows K m label lr prob input w b gin w' b' ->
  (forall i k, (i < rows)%nat -> (k < m)%nat -> z (i * m + k)%nat - 60 <= z (i * m + label i)%nat) ->
  (exists l, loss = Fin l /\ Rabs l <= 512) /\
  (forall p, (p < rows * m)%nat -> exists g, gin p = Fin g /\ isf g /\ Rabs g <= 16) /\
  let D := sum_grown rows (INR rows * grown (16 * B)) in
  ((forall p, (p < rows * K)%nat -> input p = Fin (xr p) /\ Rabs (xr p) <= B) ->
   (forall p, (p < m * K)%nat -> w p = Fin (wr p) /\ Rabs (wr p) <= Wb) ->
   (forall p, (p < m)%nat -> b p = Fin (br p) /\ Rabs (br p) <= Wb) ->
   1 <= B -> 16 * B <= top -> D <= top -> Rabs lr * D <= top -> Wb + grown (Rabs lr * D) <= top ->
   (forall p, (p < m * K)%nat -> exists x, w' p = Fin x /\ Rabs x <= grown (Wb + grown (Rabs lr * D))) /\
   (forall p, (p < m)%nat -> exists x, b' p = Fin x /\ Rabs x <= grown (Wb + grown (Rabs lr * D)))).
Proof.
  intros lib lg rows K m label lr z prob input w b gin w' b' loss u eta xr wr br B Wb EO EN Hu He LO R0 RL LM LAB SM FL ST GAP. split; [|split].
  - apply (loss_finite lg LO rows m prob label loss R0 RL); [|exact FL]. intros i Hi.
    destruct (label_prob lib EO rows m label z prob R0 RL LM LAB SM u eta EN Hu He GAP i Hi) as (y & E & Fy & Y). exists y. split; [exact E|]. split; [exact Fy|].
    assert (0 < / 2 ^ 124) by (apply Rinv_0_lt_compat, pow_lt; lra). lra.
  - exact (input_gradient lib EO rows K m label lr z prob input w b gin w' b' R0 RL LM LAB SM ST u eta xr wr br EN Hu He GAP).
  - intros D IN WE BI B1 T1 T2 T3 T4.
    exact (step_finite lib EO rows K m label lr z prob input w b gin w' b' R0 RL LM LAB SM ST u eta xr wr br B Wb EN Hu He GAP IN WE BI B1 T1 T2 T3 T4).
Qed.
Print Assumptions C67_training_step_stays_finite.

(** And the step is accurate: with [y] the probabilities, the loss is near the mean of their negative logarithms, the
    gradients at the logits are near (y - 1) / rows for the labelled and y / rows for the other classes, and the new
    weights are near those of a step of gradient descent along the exact gradient
    (C16, C25: sums over the batch of gradient times input). *)
Theorem C67_training_step_is_accurate :
  forall (lib lg : flt -> flt -> Prop) (rows K m : nat) (label : nat -> nat) (lr : R) (z : nat -> R)
         (prob input w b gin w' b' : nat -> flt) (loss : flt) (u eta e : R) (y xr wr br : nat -> R) (B Wb : R),
  exp_ok lib -> exp_near u eta lib -> u <= / 2 -> 0 <= eta <= / 2 ^ 149 -> log_ok lg -> log_near e lg ->
  (0 < rows)%nat -> (rows <= 2 ^ 23)%nat -> (m <= 2 ^ 23)%nat -> (forall i, (i < rows)%nat -> (label i < m)%nat) ->
  fsoftmax lib (among [fun p => Fin (z p)]) rows m prob -> floss lg rows m prob label loss ->
  last_step lib rows K m label lr prob input w b gin w' b' ->
  (forall i k, (i < rows)%nat -> (k < m)%nat -> z (i * m + k)%nat - 60 <= z (i * m + label i)%nat) ->
  (forall p, (p < rows * m)%nat -> prob p = Fin (y p)) ->
  let target p := if (p mod m =? label (p / m))%nat then 1 else 0 in
  (exists l, loss = Fin l /\ Rabs (l - - rsum rows (fun i => ln (y (i * m + label i)%nat)) / INR rows) <= e + 105 * sum_error rows + 1000 * eps32) /\
  (forall p, (p < rows * m)%nat -> exists g, gin p = Fin g /\ Rabs (g - (y p - target p) / INR rows) <= 32 * eps32 / INR rows) /\
  let D := sum_grown rows (INR rows * grown (16 * B)) in
  let E := (40 * eps32 + 4 * sum_error rows) * B in
  let err := Rabs lr * E + eps32 * (Wb + 3 * (Rabs lr * (B + E))) + 3 * tiny32 in
  ((forall p, (p < rows * K)%nat -> input p = Fin (xr p) /\ Rabs (xr p) <= B) ->
   (forall p, (p < m * K)%nat -> w p = Fin (wr p) /\ Rabs (wr p) <= Wb) ->
   (forall p, (p < m)%nat -> b p = Fin (br p) /\ Rabs (br p) <= Wb) ->
   1 <= B -> 16 * B <= top -> D <= top -> Rabs lr * D <= top -> Wb + grown (Rabs lr * D) <= top ->
   (forall p, (p < m * K)%nat -> exists x, w' p = Fin x /\
      Rabs (x - (wr p - lr * rsum rows (fun i => (y (i * m + p / K)%nat - target (i * m + p / K)%nat) / INR rows * xr (i * K + p mod K)%nat))) <= err) /\
   (forall p, (p < m)%nat -> exists x, b' p = Fin x /\
      Rabs (x - (br p - lr * rsum rows (fun i => (y (i * m + p)%nat - target (i * m + p)%nat) / INR rows))) <= err)).
Proof.
  intros lib lg rows K m label lr z prob input w b gin w' b' loss u eta e y xr wr br B Wb EO EN Hu He LO LN R0 RL LM LAB SM FL ST GAP PY target. split; [|split].
  - exact (loss_accurate lib EO rows m label z prob input w b gin w' b' R0 RL LM LAB SM u eta EN Hu He GAP y PY lg e loss LO LN FL).
  - intros p Hp. destruct (logits_accurate lib EO rows K m label lr z prob input w b gin w' b' R0 RL LM LAB SM u eta EN Hu He GAP y PY ST p Hp) as (g & EG & G).
    exists g. split; [exact EG|]. assert (N1 : 1 <= INR rows) by (apply (le_INR 1); lia).
    replace (g - (y p - target p) / INR rows) with ((g * INR rows - (y p - target p)) * / INR rows) by (field; lra). assert (IN : 0 < / INR rows) by (apply Rinv_0_lt_compat; lra).
    rewrite Rabs_mult, (Rabs_right (/ INR rows)) by lra. apply Rmult_le_compat_r; [lra|exact G].
  - intros D E err IN WE BI B1 T1 T2 T3 T4.
    exact (step_accurate lib EO rows K m label lr z prob input w b gin w' b' R0 RL LM LAB SM u eta EN Hu He GAP y PY ST xr wr br B Wb IN WE BI B1 T1 T2 T3 T4).
Qed.
Print Assumptions C67_training_step_is_accurate.

(** Finding: if the logit of one sample's class is 104 or more below another one, its probability is zero, the loss
    infinite, and after one step of SGD every weight and bias of the layer is NaN, whatever the learning rate and the
    other samples. *)
Theorem C67_finding_confident_mistakes_destroy_the_weights :
  forall (lib lg : flt -> flt -> Prop) (rows K m : nat) (label : nat -> nat) (lr : R) (z : nat -> R)
         (prob input w b gin w' b' : nat -> flt) (loss : flt) (i k : nat),
  exp_ok lib -> exp_underflows lib -> log_ok lg ->
  (rows <= 2 ^ 23)%nat -> (m <= 2 ^ 23)%nat -> (forall i, (i < rows)%nat -> (label i < m)%nat) ->
  fsoftmax lib (among [fun p => Fin (z p)]) rows m prob -> floss lg rows m prob label loss ->
  last_step lib rows K m label lr prob input w b gin w' b' ->
  (i < rows)%nat -> (k < m)%nat -> z (i * m + label i)%nat <= z (i * m + k)%nat - 104 ->
  prob (i * m + label i)%nat = Fin 0 /\ loss = Inf false /\
  (forall j, (j < m)%nat -> gin (i * m + j)%nat = NaN) /\
  (forall p, (p < m * K)%nat -> w' p = NaN) /\ (forall p, (p < m)%nat -> b' p = NaN).
Proof.
  intros lib lg rows K m label lr z prob input w b gin w' b' loss i k EO EU LO RL LM LAB SM FL ST Hi Hk GAP.
  apply (destroyed lib EO rows K m label lr z prob input w b gin w' b' (Nat.le_lt_trans _ _ _ (Nat.le_0_l i) Hi) RL LM LAB SM ST lg loss i k EU LO Hi Hk GAP FL).
Qed.
Print Assumptions C67_finding_confident_mistakes_destroy_the_weights.

(** And they stay NaN: no further step changes that, whatever the batch and its labels. *)
Theorem C67_finding_nan_weights_stay :
  forall (lib : flt -> flt -> Prop) (rows K m : nat) (label : nat -> nat) (lr : R) (prob input w b gin w' b' : nat -> flt),
  last_step lib rows K m label lr prob input w b gin w' b' ->
  (forall p, (p < m * K)%nat -> w p = NaN -> w' p = NaN) /\ (forall p, (p < m)%nat -> b p = NaN -> b' p = NaN).
Proof.
  intros lib rows K m label lr prob input w b gin w' b' (gout & dW & db & _ & _ & _ & _ & W' & B').
  split; intros p Hp E; [specialize (W' p Hp); rename W' into F|specialize (B' p Hp); rename B' into F]; destruct F as (x & y & X & _ & S); cbn in X; rewrite E in X; subst x; unfold fsub in S; exact S.
Qed.
Print Assumptions C67_finding_nan_weights_stay.

(** A loss exists for all numbers. *)
Lemma loss_exists rows m prob label : exists r, floss log_lib rows m prob label r.
Proof.
  destruct (choose rows (fun i r => log_lib (prob (i * m + label i)%nat) r)) as (ls & L); [intros; apply log_lib_total|].
  destruct (fsummed_ex (tab rows ls)) as (s & S), (rnd_ex (INR rows)) as (n & N), (fadd_ex (Fin 0) (fopp s)) as (x & X), (fdiv_ex x n) as (r & Hr). exists r, ls. split; [exact L|].
  exists x, n. split; [|split; [exact N|exact Hr]]. exists (Fin 0), s. split; [reflexivity|]. split; [|exact X]. exists ls. split; [reflexivity|exact S].
Qed.

(** ** Multilayer perceptrons *)
(** One step of a network Linear, ReLU, ..., Linear, Softmax of any depth and widths: the new weights and bias of every
    layer [k], counted from the last, are finite and near those of a step along the exact gradient, by the chain rule, of the
    loss ([grad_at]). *)
Theorem C67_mlp_step_is_accurate :
  forall (lib : flt -> flt -> Prop) (rows m : nat) (label : nat -> nat) (lr : R) (z : nat -> R) (prob : nat -> flt) (l : list stage) (u eta : R) (y : nat -> R) (B Wb : R),
  exp_ok lib -> exp_near u eta lib -> u <= / 2 -> 0 <= eta <= / 2 ^ 149 ->
  (0 < rows)%nat -> (rows <= 2 ^ 23)%nat -> (m <= 2 ^ 23)%nat -> (forall i, (i < rows)%nat -> (label i < m)%nat) ->
  fsoftmax lib (among [fun p => Fin (z p)]) rows m prob -> mlp_step lib rows m label lr prob l ->
  (forall i k, (i < rows)%nat -> (k < m)%nat -> z (i * m + k)%nat - 60 <= z (i * m + label i)%nat) ->
  (forall p, (p < rows * m)%nat -> prob p = Fin (y p)) ->
  Forall (stage_ok rows B Wb) l -> 1 <= B -> 0 <= Wb ->
  let h p := (y p - (if (p mod m =? label (p / m))%nat then 1 else 0)) / INR rows in
  let F k := grad_size Wb (2 / INR rows) l k in
  let e k := grad_error Wb (2 / INR rows) (32 * eps32 / INR rows) l k in
  let D k := sum_grown rows (INR rows * grown (F k * B)) in
  (forall k, (k < length l)%nat -> F k <= top /\ D k <= top /\ Rabs lr * D k <= top /\ Wb + grown (Rabs lr * D k) <= top) ->
  forall k s, nth_error l k = Some s ->
  let err := step_error lr Wb (D k) (dot_error rows (rows - 1) (F k) (e k) B) in
  (forall p, (p < s_out s * s_in s)%nat -> exists x, s_w' s p = Fin x /\ Rabs x <= grown (Wb + grown (Rabs lr * D k)) /\
     Rabs (x - (fval (s_w s p) - lr * rsum rows (fun i => grad_at h l k (i * s_out s + p / s_in s)%nat * fval (s_x s (i * s_in s + p mod s_in s)%nat)))) <= err) /\
  (forall p, (p < s_out s)%nat -> exists x, s_b' s p = Fin x /\ Rabs x <= grown (Wb + grown (Rabs lr * D k)) /\
     Rabs (x - (fval (s_b s p) - lr * rsum rows (fun i => grad_at h l k (i * s_out s + p)%nat))) <= err).
Proof.
  intros lib rows m label lr z prob l u eta y B Wb EO EN Hu He R0 RL LM LAB SM ST GAP PY OK B1 W0 h F e D TP k s NS. destruct l as [|s0 t]; [destruct k; discriminate|].
  destruct (mlp_last lib rows m label lr prob s0 t ST) as (gin & LS & LT).
  assert (N1 : 1 <= INR rows) by (apply (le_INR 1); lia). assert (IN : 0 < / INR rows) by (apply Rinv_0_lt_compat; lra).
  apply (steps_close lib rows lr B Wb R0 B1 W0 (s0 :: t) m gin h (2 / INR rows) (32 * eps32 / INR rows)); [unfold Rdiv; lra| |exact LT|exact OK|exact TP|exact NS].
  intros p Hp. destruct (logits_accurate lib EO rows (s_in s0) m label lr z prob (s_x s0) (s_w s0) (s_b s0) gin (s_w' s0) (s_b' s0) R0 RL LM LAB SM u eta EN Hu He GAP y PY LS p Hp) as (g & EG & G).
  set (tg := if (p mod m =? label (p / m))%nat then 1 else 0) in *. exists g. split; [exact EG|].
  assert (DE : Rabs (g - h p) <= 32 * eps32 / INR rows).
  { unfold h. fold tg. replace (g - (y p - tg) / INR rows) with ((g * INR rows - (y p - tg)) * / INR rows) by (field; lra).
    rewrite Rabs_mult, (Rabs_right (/ INR rows)) by lra. apply Rmult_le_compat_r; [lra|exact G]. }
  split; [|exact DE]. destruct (C67_softmax_never_overflows lib z rows m prob EO SM p Hp) as (y1 & EY & _ & Y & _). rewrite PY in EY by exact Hp. injection EY as <-.
  assert (HB : Rabs (h p) <= 1 / INR rows).
  { unfold h, Rdiv. fold tg. rewrite Rabs_mult, (Rabs_right (/ INR rows)) by lra. apply Rmult_le_compat_r; [lra|]. unfold tg. destruct (p mod m =? label (p / m))%nat; apply Rabs_le; lra. }
  replace g with ((g - h p) + h p) by ring. eapply Rle_trans; [apply Rabs_triang|].
  assert (E32 : 32 * eps32 <= 1).
  { assert (eps32 <= / 64) by (unfold eps32; apply Rinv_le_contravar; [lra|]; replace 64 with (2 ^ 6) by ring; apply Rle_pow; [lra|lia]). lra. }
  assert (32 * eps32 / INR rows <= 1 / INR rows) by (unfold Rdiv; apply Rmult_le_compat_r; lra). unfold Rdiv in *. lra.
Qed.
Print Assumptions C67_mlp_step_is_accurate.

(** Finding: after a confident mistake in sample [i], every parameter of the last layer is NaN, and in the layers before it
    those of every unit [c] that was active for that sample, as long as the layers behind have one such unit each. *)
Theorem C67_finding_mistakes_destroy_the_layers_before :
  forall (lib : flt -> flt -> Prop) (rows m : nat) (label : nat -> nat) (lr : R) (z : nat -> R) (prob : nat -> flt) (s0 : stage) (t : list stage) (i k : nat),
  exp_ok lib -> exp_underflows lib ->
  (rows <= 2 ^ 23)%nat -> (m <= 2 ^ 23)%nat -> (forall i, (i < rows)%nat -> (label i < m)%nat) ->
  fsoftmax lib (among [fun p => Fin (z p)]) rows m prob -> mlp_step lib rows m label lr prob (s0 :: t) ->
  (i < rows)%nat -> (k < m)%nat -> z (i * m + label i)%nat <= z (i * m + k)%nat - 104 ->
  let active s c := (c < s_in s)%nat /\ flt_ltb (Fin 0) (s_pre s (i * s_in s + c)%nat) = true in
  (forall p, (p < m * s_in s0)%nat -> s_w' s0 p = NaN) /\ (forall p, (p < m)%nat -> s_b' s0 p = NaN) /\
  (forall d sd s c, nth_error (s0 :: t) d = Some sd -> nth_error (s0 :: t) (S d) = Some s ->
     (forall d' s', (d' < d)%nat -> nth_error (s0 :: t) d' = Some s' -> exists c', active s' c') -> active sd c ->
     s_b' s c = NaN /\ forall q, (q < s_in s)%nat -> s_w' s (c * s_in s + q)%nat = NaN).
Proof.
  intros lib rows m label lr z prob s0 t i k EO EU RL LM LAB SM ST Hi Hk GAP active. destruct (mlp_last lib rows m label lr prob s0 t ST) as (gin & LS & LT).
  destruct (loss_exists rows m prob label) as (loss & FL).
  destruct (C67_finding_confident_mistakes_destroy_the_weights lib log_lib rows (s_in s0) m label lr z prob (s_x s0) (s_w s0) (s_b s0) gin (s_w' s0) (s_b' s0) loss i k
              EO EU log_lib_ok RL LM LAB SM FL LS Hi Hk GAP) as (_ & _ & GN & WN & BN). split; [exact WN|]. split; [exact BN|].
  intros d sd s c N0 N1 AC (Hc & CC). exact (nan_spreads lib rows lr i Hi (s0 :: t) m gin k LT Hk (GN k Hk) d sd s c N0 N1 AC Hc CC).
Qed.
Print Assumptions C67_finding_mistakes_destroy_the_layers_before.

(** ** Cases *)
(** Steps exist for all numbers: results of all operations exist. *)
Lemma step_exists rows K m label lr prob input w b : (0 < rows)%nat -> (0 < m)%nat -> exists gin w' b', last_step exp_lib rows K m label lr prob input w b gin w' b'.
Proof.
  intros R0 M0. assert (X := fun v e => fev_ex exp_lib exp_lib_total v e).
  destruct (choose (rows * m) (fun p r => fev exp_lib (among [prob]) (loss_grad_ex rows m label p) r)) as (gout & G).
  { intros p _. apply X. unfold loss_grad_ex. destruct (p mod m =? label (p / m))%nat; cbn; auto. }
  destruct (choose (rows * m) (fun p r => fev exp_lib (among [prob; gout]) (softmax_grad_ex m p) r)) as (gin & GI); [intros p _; apply X; cbn; auto 10|].
  destruct (choose (m * K) (fun p r => fev exp_lib (among [input; gin]) (linear_grad_ex rows K m p) r)) as (dW & DW); [intros p _; apply X; cbn; auto|].
  destruct (choose m (fun p r => fev exp_lib (among [input; gin]) (bias_grad_ex rows m p) r)) as (db & DB); [intros p _; apply X; cbn; auto|].
  destruct (choose (m * K) (fun p r => fev exp_lib (among [w; dW]) (sgd_ex lr p) r)) as (w' & W'); [intros p _; apply X; cbn; auto|].
  destruct (choose m (fun p r => fev exp_lib (among [b; db]) (sgd_ex lr p) r)) as (b' & B'); [intros p _; apply X; cbn; auto|].
  exists gin, w', b', gout, dW, db. auto 10.
Qed.
(** Two samples, three classes: a moderate batch, and one with a confident mistake in the second sample. *)
Example C67_nonvacuous :
  exp_ok exp_lib /\ exp_near eps32 tiny32 exp_lib /\ exp_underflows exp_lib /\ log_ok log_lib /\ log_near (105 * eps32) log_lib /\ eps32 <= / 2 /\ 0 <= tiny32 <= / 2 ^ 149 /\
  forall (z : nat -> R) (input w b : nat -> flt), exists prob loss gin w' b',
    fsoftmax exp_lib (among [fun p => Fin (z p)]) 2 3 prob /\ floss log_lib 2 3 prob (fun i => i) loss /\
    last_step exp_lib 2 5 3 (fun i => i) (/ 8) prob input w b gin w' b'.
Proof.
  split; [exact exp_lib_ok|]. split; [exact exp_lib_near|]. split; [exact exp_lib_underflows|]. split; [exact log_lib_ok|]. split; [exact log_lib_near|].
  split. { unfold eps32. apply Rinv_le_contravar; [lra|]. replace 2 with (2 ^ 1) at 1 by ring. apply Rle_pow; [lra|lia]. }
  split. { pose proof tiny32_pos. unfold tiny32 in *. lra. }
  intros z input w b. destruct (fsoftmax_ex exp_lib exp_lib_total (among [fun p => Fin (z p)]) 2 3) as (prob & P). destruct (loss_exists 2 3 prob (fun i => i)) as (loss & L).
  destruct (step_exists 2 5 3 (fun i => i) (/ 8) prob input w b ltac:(lia) ltac:(lia)) as (gin & w' & b' & S). exists prob, loss, gin, w', b'. auto.
Qed.
(** The conditions on bounds are met by a batch of two with inputs, weights and bias up to 1. *)
Example C67_bounds_nonvacuous : let D := sum_grown 2 (INR 2 * grown (16 * 1)) in
  16 * 1 <= top /\ D <= top /\ Rabs (/ 8) * D <= top /\ 1 + grown (Rabs (/ 8) * D) <= top.
Proof.
  pose proof eps32_pos as E0. pose proof tiny32_pos as T0.
  assert (E8 : eps32 <= / 8) by (unfold eps32; apply Rinv_le_contravar; [lra|]; replace 8 with (2 ^ 3) by ring; apply Rle_pow; [lra|lia]).
  assert (T8 : tiny32 <= / 8) by (unfold tiny32; apply Rinv_le_contravar; [lra|]; replace 8 with (2 ^ 3) by ring; apply Rle_pow; [lra|lia]).
  assert (TP : 128 <= top) by (pose proof top_big; assert (2 ^ 7 <= 2 ^ 127) by (apply Rle_pow; [lra|lia]); lra).
  intros D. assert (DB : 0 <= D <= 64).
  { unfold D, sum_grown, grown. replace (2 - 1)%nat with 1%nat by lia. rewrite pow_1. cbn [INR]. assert (0 <= eps32 * eps32 <= / 8 * / 8) by (split; [nra|apply Rmult_le_compat; lra]).
    assert (0 <= eps32 * tiny32 <= / 8 * / 8) by (split; [nra|apply Rmult_le_compat; lra]). nra. }
  rewrite Rabs_right by lra. split; [lra|]. split; [lra|]. split; [lra|]. unfold grown. assert (eps32 * (/ 8 * D) <= / 8 * 8) by (apply Rmult_le_compat; lra). lra.
Qed.

(** The network of C38: x, Linear, Sigmoid, Add, with weights, bias and input up to 1. *)
Definition ex67_bd (d : nat) : R := match d with 0%nat => 1 | 1%nat => 5 | 2%nat => 1 | _ => 8 end.
Example C67_networks_nonvacuous : forall (W c : prm) (E : nat -> env) (x : ten), prm_ok [4; 3]%nat W -> prm_ok [4]%nat c -> ten_ok [2; 3]%nat x ->
  (forall i, Rabs (tdat (p_data W)).[i] <= 1) -> (forall i, Rabs (tdat (p_data c)).[i] <= 1) -> up_to 1 x ->
  constructed ex3_es [0%nat] [3%nat] ex3_m /\ closed (es_ph ex3_es) [0%nat] [3%nat] /\ shaped (es_ph ex3_es) [0%nat] [x] /\
  Forall2 (fun d t => up_to (ex67_bd d) t) [0%nat] [x] /\ (forall d, 0 <= ex67_bd d <= top) /\
  (forall d args, needed (es_ph ex3_es) [3%nat] d -> call (es_ph ex3_es) d args ->
     exists L, produces ex3_m (ex3_infos W c) (ex3_b W c) d L /\ fits L (map (dims (es_ph ex3_es)) args) (dims (es_ph ex3_es) d) /\
       bounded_by L (map (dims (es_ph ex3_es)) args) (dims (es_ph ex3_es) d) (map ex67_bd args) (ex67_bd d)) /\
  exists V, float_evaluation exp_lib (es_ph ex3_es) [0%nat] [3%nat] [x] E (produces ex3_m (ex3_infos W c) (ex3_b W c)) V.
Proof.
  intros W c E x HW Hc Tx WB CB XB. split; [exact ex3_constructed|]. split; [exact ex3_closed|].
  assert (SI : shaped (es_ph ex3_es) [0%nat] [x]) by (apply Forall2_cons; [exact Tx|apply Forall2_nil]). split; [exact SI|].
  split; [apply Forall2_cons; [exact XB|apply Forall2_nil]|].
  assert (TP : 8 <= top) by (pose proof top_big; assert (2 ^ 3 <= 2 ^ 127) by (apply Rle_pow; [lra|lia]); lra).
  split; [intros d; unfold ex67_bd; destruct d as [|[|[|d]]]; lra|].
  pose proof eps32_pos as E0. pose proof tiny32_pos as T0.
  assert (E8 : eps32 <= / 64) by (unfold eps32; apply Rinv_le_contravar; [lra|]; replace 64 with (2 ^ 6) by ring; apply Rle_pow; [lra|lia]).
  assert (T8 : tiny32 <= / 64) by (unfold tiny32; apply Rinv_le_contravar; [lra|]; replace 64 with (2 ^ 6) by ring; apply Rle_pow; [lra|lia]).
  assert (FT : forall d args, needed (es_ph ex3_es) [3%nat] d -> call (es_ph ex3_es) d args ->
     exists L, produces ex3_m (ex3_infos W c) (ex3_b W c) d L /\ fits L (map (dims (es_ph ex3_es)) args) (dims (es_ph ex3_es) d) /\
       bounded_by L (map (dims (es_ph ex3_es)) args) (dims (es_ph ex3_es) d) (map ex67_bd args) (ex67_bd d)).
  { intros d args N Ca. assert (LT : (d < 4)%nat) by (apply Nat.lt_succ_r, (needed_le (es_ph ex3_es)); [apply store_links_back, built_ok, ex3_built|exact N]).
    destruct (ex3_produces W c d LT args Ca) as (L & PL & Q). exists L. split; [exact PL|].
    destruct d as [|[|[|[|d]]]]; try contradiction; destruct Q as [-> ->].
    - split; [apply (fit_linear W c 2 4 [3%nat]); [discriminate|exact HW|exact Hc]|].
      change (forall j, (j < 4)%nat -> affine_grown 3 (1 * rsum 3 (fun k => Rabs (tdat (p_data W)).[j * 3 + k])) (Rabs (tdat (p_data c)).[j]) <= 5).
      intros j _. assert (RS : rsum 3 (fun k => Rabs (tdat (p_data W)).[j * 3 + k]) <= 3).
      { eapply Rle_trans; [apply (rsum_le 3 _ (fun _ => 1)); intros k _; apply WB|]. rewrite rsum_const. cbn [INR]. lra. }
      unfold affine_grown. change (3 + 1)%nat with 4%nat. assert (P4 : 0 <= (1 + eps32) ^ 4 <= (1 + / 64) ^ 4) by (split; [apply pow_le; lra|apply pow_incr; lra]).
      assert (P5 : (1 + / 64) ^ 4 <= 1 + / 8) by lra. pose proof (CB j) as CJ. pose proof (Rabs_pos (tdat (p_data c)).[j]) as C0.
      assert (S0 : 0 <= rsum 3 (fun k => Rabs (tdat (p_data W)).[j * 3 + k])) by (apply rsum_nonneg; intros; apply Rabs_pos).
      assert (A1 : (1 + eps32) ^ 4 * (1 * rsum 3 (fun k => Rabs (tdat (p_data W)).[j * 3 + k]) + Rabs (tdat (p_data c)).[j]) <= (1 + / 8) * 4) by (apply Rmult_le_compat; lra).
      replace (INR (2 * 3 + 1)) with 7 by (rewrite INR_IZR_INZ; reflexivity).
      assert (A2 : 7 * (1 + eps32) ^ 4 * tiny32 <= 7 * (1 + / 8) * / 64) by (apply Rmult_le_compat; lra). lra.
    - split; [apply fit_sigmoid|]. cbn. lra.
    - split; [apply fit_add|]. cbn [bounded_by map ex67_bd]. unfold grown.
      change ((1 + eps32) * (1 + 5) + tiny32 <= 8) || change ((1 + eps32) * (5 + 1) + tiny32 <= 8). lra. }
  split; [exact FT|]. apply (C67_float_evaluations_exist _ _ _ _ (ex3_infos W c) (ex3_b W c) E [x] exp_lib ex3_constructed ex3_closed SI exp_lib_total).
  intros d args N Ca. destruct (FT d args N Ca) as (L & PL & F & _). eauto.
Qed.


(** Two layers with 5 inputs, 4 hidden units and 3 classes, a batch of two: steps exist for all numbers ... *)
Lemma stage_exists rows lr K m x w b pre g : (0 < rows)%nat -> exists w' b' gz, forall t, linear_steps exp_lib rows lr K gz t -> linear_steps exp_lib rows lr m g (mkStage K m x w b w' b' pre :: t).
Proof.
  intros R0. assert (X := fun v e => fev_ex exp_lib exp_lib_total v e).
  destruct (choose (m * K) (fun p r => fev exp_lib (among [x; g]) (linear_grad_ex rows K m p) r)) as (dW & DW); [intros p _; apply X; cbn; auto|].
  destruct (choose m (fun p r => fev exp_lib (among [x; g]) (bias_grad_ex rows m p) r)) as (db & DB); [intros p _; apply X; cbn; auto|].
  destruct (choose (m * K) (fun p r => fev exp_lib (among [w; dW]) (sgd_ex lr p) r)) as (w' & W'); [intros p _; apply X; cbn; auto|].
  destruct (choose m (fun p r => fev exp_lib (among [b; db]) (sgd_ex lr p) r)) as (b' & B'); [intros p _; apply X; cbn; auto|].
  destruct (choose (rows * K) (fun p r => fev exp_lib (among [w; g]) (linear_input_ex K m p) r)) as (gx & GX).
  { intros p _. apply X. cbn. intros [|j] _; cbn; auto. }
  destruct (choose (rows * K) (fun p r => fev exp_lib (among [pre; gx]) (relu_grad_ex p) r)) as (gz & GZ); [intros p _; apply X; cbn; auto 10|].
  exists w', b', gz. intros t T. split; [reflexivity|]. exists dW, db, gx, gz. cbn. auto 10.
Qed.
Example C67_mlp_nonvacuous : forall (z : nat -> R) (x2 w2 b2 pre x1 w1 b1 : nat -> flt), exists prob w2' b2' w1' b1',
  fsoftmax exp_lib (among [fun p => Fin (z p)]) 2 3 prob /\
  mlp_step exp_lib 2 3 (fun i => i) (/ 8) prob [mkStage 4 3 x2 w2 b2 w2' b2' pre; mkStage 5 4 x1 w1 b1 w1' b1' (fun _ => Fin 0)].
Proof.
  intros z x2 w2 b2 pre x1 w1 b1. assert (X := fun v e => fev_ex exp_lib exp_lib_total v e).
  destruct (fsoftmax_ex exp_lib exp_lib_total (among [fun p => Fin (z p)]) 2 3) as (prob & P).
  destruct (choose (2 * 3) (fun p r => fev exp_lib (among [prob]) (loss_grad_ex 2 3 (fun i => i) p) r)) as (gout & G).
  { intros p _. apply X. unfold loss_grad_ex. destruct (p mod 3 =? p / 3)%nat; cbn; auto. }
  destruct (choose (2 * 3) (fun p r => fev exp_lib (among [prob; gout]) (softmax_grad_ex 3 p) r)) as (gin & GI); [intros p _; apply X; cbn; auto 10|].
  destruct (stage_exists 2 (/ 8) 4 3 x2 w2 b2 pre gin ltac:(lia)) as (w2' & b2' & gz & S2).
  destruct (stage_exists 2 (/ 8) 5 4 x1 w1 b1 (fun _ => Fin 0) gz ltac:(lia)) as (w1' & b1' & gz1 & S1).
  exists prob, w2', b2', w1', b1'. split; [exact P|]. exists gout, gin. split; [exact G|]. split; [exact GI|]. apply S2, S1. exact Logic.I.
Qed.
(** ... and inputs, weights and bias up to 1 leave room. *)
Example C67_mlp_bounds_nonvacuous : forall (x2 w2 b2 w2' b2' pre x1 w1 b1 w1' b1' pre1 : nat -> flt),
  let l := [mkStage 4 3 x2 w2 b2 w2' b2' pre; mkStage 5 4 x1 w1 b1 w1' b1' pre1] in
  let F k := grad_size 1 (2 / INR 2) l k in let D k := sum_grown 2 (INR 2 * grown (F k * 1)) in
  forall k, (k < length l)%nat -> F k <= top /\ D k <= top /\ Rabs (/ 8) * D k <= top /\ 1 + grown (Rabs (/ 8) * D k) <= top.
Proof.
  intros x2 w2 b2 w2' b2' pre x1 w1 b1 w1' b1' pre1 l F D k Hk.
  pose proof eps32_pos as E0. pose proof tiny32_pos as T0.
  assert (E8 : eps32 <= / 8) by (unfold eps32; apply Rinv_le_contravar; [lra|]; replace 8 with (2 ^ 3) by ring; apply Rle_pow; [lra|lia]).
  assert (T8 : tiny32 <= / 8) by (unfold tiny32; apply Rinv_le_contravar; [lra|]; replace 8 with (2 ^ 3) by ring; apply Rle_pow; [lra|lia]).
  assert (TP : 1024 <= top) by (pose proof top_big; assert (2 ^ 10 <= 2 ^ 127) by (apply Rle_pow; [lra|lia]); lra).
  assert (GR : forall A, 0 <= A -> 0 <= grown A <= 2 * A + 1) by (intros A A0; unfold grown; nra).
  assert (P3 : forall c, (c <= 3)%nat -> 1 <= (1 + eps32) ^ c <= 2).
  { intros c Hc. split; [apply pow_R1_Rle; lra|]. apply Rle_trans with ((1 + eps32) ^ 3); [apply Rle_pow; [lra|exact Hc]|]. apply Rle_trans with ((1 + / 8) ^ 3); [apply pow_incr; lra|lra]. }
  assert (SG : forall n A, (n <= 4)%nat -> 0 <= A -> 0 <= sum_grown n A <= 2 * A + 1).
  { intros n A Hn A0. unfold sum_grown. destruct (P3 (n - 1)%nat ltac:(lia)) as (Q1 & Q2). assert (I3 : 0 <= INR (n - 1) <= 3).
    { split; [apply pos_INR|]. replace 3 with (INR 3) by (cbn; lra). apply le_INR. lia. }
    assert (0 <= INR (n - 1) * (1 + eps32) ^ (n - 1) <= 6) by (split; nra). nra. }
  assert (FB : 0 <= F k <= 19).
  { unfold F, l. destruct k as [|[|k]]; [cbn; lra| |cbn in Hk; lia]. cbn [grad_size s_out]. replace (2 / INR 2 * 1) with 1 by (cbn; field).
    pose proof (GR 1 ltac:(lra)) as G1. assert (I3 : INR 3 = 3) by (cbn; lra). rewrite I3. pose proof (SG 4%nat (3 * grown 1) ltac:(lia) ltac:(lra)) as S4. lra. }
  assert (DB : 0 <= D k <= 160).
  { unfold D. pose proof (GR (F k * 1) ltac:(lra)) as G1. assert (I2 : INR 2 = 2) by (cbn; lra). rewrite I2. pose proof (SG 2%nat (2 * grown (F k * 1)) ltac:(lia) ltac:(lra)) as S4. lra. }
  rewrite Rabs_right by lra. pose proof (GR (/ 8 * D k) ltac:(lra)) as G2. split; [lra|]. split; [lra|]. split; lra.
Qed.
