(** Properties C15 to C24 and C51: the remaining layers. *)
From Coq Require Import Reals Lra.
From Verif Require Import Base BaseFacts Sums S_Stats S_BN S_Act M_Im2col S_Im2col M_Kernels M_Conv M_Layers M_Par S_Grad S_Partial P_Par P_Layers P_BN P_BN3 P_Layers2.
Open Scope R_scope.

(** Tensors for the examples: elements 1, 2, 3, ... *)
Definition cnt (sh : list nat) : ten := mkT sh (tab (prodN sh) (fun i => INR i + 1)).
Definition cprm (tr : bool) (sh : list nat) : prm := mkP (cnt sh) (cnt sh) tr.
Definition zeros_t (sh : list nat) : ten := mkT sh (tab (prodN sh) (fun _ => 0)).

(** ** C15 GlobalAvgPooling *)
Theorem C15_global_average_pooling :
  forall (E : env) (n c h w : nat) (x o : ten), (0 < h * w)%nat -> ten_ok [n; c; h; w] x -> ten_ok [n; c; 1%nat; 1%nat] o ->
  exists o', lforward E LGap [x] [o] = Ok (LGap, o') /\ ten_ok [n; c; 1%nat; 1%nat] o' /\
    (forall i k, (i < n)%nat -> (k < c)%nat ->
       (tdat o').[i * c + k] =
       rsum h (fun y => rsum w (fun z => (tdat x).[((i * c + k) * h + y) * w + z])) / INR (h * w)) /\
    forall go gi gm kg ko, ten_ok [n; c; 1%nat; 1%nat] go -> ten_ok [n; c; h; w] gi ->
      nth_error gm kg = Some gi -> nth_error gm ko = Some go ->
      exists gi', lbackward E LGap [x] [o'] gm [kg] [ko] = Ok (LGap, upd gm kg gi') /\ ten_ok [n; c; h; w] gi' /\
        (forall i k y z, (i < n)%nat -> (k < c)%nat -> (y < h)%nat -> (z < w)%nat ->
           (tdat gi').[((i * c + k) * h + y) * w + z] =
           (tdat gi).[((i * c + k) * h + y) * w + z] + (tdat go).[i * c + k] / INR (h * w)) /\
        rsum (n * c * (h * w)) (fun p => (tdat gi').[p] - (tdat gi).[p]) = rsum (n * c) (fun p => (tdat go).[p]).
Proof. exact gap_spec. Qed.
Print Assumptions C15_global_average_pooling.

Theorem C15_global_average_pooling_gradients_are_derivatives :
  forall (E : env) (n c h w : nat) (x : ten), (0 < h * w)%nat -> ten_ok [n; c; h; w] x ->
  correct_gradients E LGap [x] [n; c; 1%nat; 1%nat].
Proof. exact gap_gradients. Qed.
Print Assumptions C15_global_average_pooling_gradients_are_derivatives.

Example C15_nonvacuous : (0 < 2 * 3)%nat /\ ten_ok [2; 1; 2; 3]%nat (cnt [2; 1; 2; 3]%nat) /\ ten_ok [2; 1; 1; 1]%nat (cnt [2; 1; 1; 1]%nat) /\
  grads_ready LGap [[2; 1; 2; 3]]%nat [2; 1; 1; 1]%nat [cnt [2; 1; 2; 3]%nat; cnt [2; 1; 1; 1]%nat] [0%nat] 1 (cnt [2; 1; 1; 1]%nat).
Proof.
  repeat split; auto; [lia|intros [H|[]]; discriminate|]. intros p Hp. destruct p; [|cbn in Hp; lia].
  eexists. split; [reflexivity|]. repeat split. discriminate.
Qed.

(** ** C16 Linear *)
Theorem C16_linear_forward :
  forall (E : env) (W b : prm) (n u : nat) (rest : list nat) (x o : ten),
  rest <> [] -> prm_ok [u; prodN rest] W -> prm_ok [u] b -> ten_ok (n :: rest) x -> ten_ok [n; u] o ->
  exists o', lforward E (LLinear W b) [x] [o] = Ok (LLinear W b, o') /\ ten_ok [n; u] o' /\
    forall i j, (i < n)%nat -> (j < u)%nat ->
      (tdat o').[i * u + j] =
      (tdat (p_data b)).[j] +
      rsum (prodN rest) (fun k => (tdat x).[i * prodN rest + k] * (tdat (p_data W)).[j * prodN rest + k]).
Proof. exact linear_spec. Qed.
Print Assumptions C16_linear_forward.

Theorem C16_linear_gradients_are_derivatives :
  forall (E : env) (W b : prm) (n u : nat) (rest : list nat) (x : ten),
  rest <> [] -> prm_ok [u; prodN rest] W -> prm_ok [u] b -> ten_ok (n :: rest) x ->
  correct_gradients E (LLinear W b) [x] [n; u].
Proof. exact linear_gradients. Qed.
Print Assumptions C16_linear_gradients_are_derivatives.

Example C16_nonvacuous : [2; 3]%nat <> [] /\ prm_ok [4; prodN [2; 3]]%nat (cprm true [4; 6]%nat) /\ prm_ok [4]%nat (cprm true [4]%nat) /\
  ten_ok [5; 2; 3]%nat (cnt [5; 2; 3]%nat) /\ ten_ok [5; 4]%nat (cnt [5; 4]%nat).
Proof. repeat split. discriminate. Qed.

(** ** C17 Activations *)
Theorem C17_activations :
  forall (E E2 : env) (alpha : R) (x o : ten), twf x -> ten_ok (tsh x) o ->
  activation E E2 LReLU relu_fn x o /\ activation E E2 (LLeaky alpha) (leaky_fn alpha) x o /\
  activation E E2 (LELU alpha) (elu_fn alpha) x o /\ activation E E2 LSigmoid sigmoid_fn x o.
Proof.
  exact (fun E E2 alpha x o H1 H2 => conj (relu_activation E E2 x o H1 H2) (conj (leaky_activation E E2 alpha x o H1 H2)
    (conj (elu_activation E E2 alpha x o H1 H2) (sigmoid_activation E E2 x o H1 H2)))).
Qed.
Print Assumptions C17_activations.

Theorem C17_activation_gradients_are_derivatives :
  forall (E : env) (alpha : R) (x : ten), twf x ->
  correct_gradients E LSigmoid [x] (tsh x) /\
  (no_zero x -> correct_gradients E LReLU [x] (tsh x) /\ correct_gradients E (LLeaky alpha) [x] (tsh x) /\
                correct_gradients E (LELU alpha) [x] (tsh x)).
Proof.
  exact (fun E alpha x H => conj (sigmoid_gradients E x H)
    (fun Hz => conj (relu_gradients E x H Hz) (conj (leaky_gradients E alpha x H Hz) (elu_gradients E alpha x H Hz)))).
Qed.
Print Assumptions C17_activation_gradients_are_derivatives.

Example C17_nonvacuous : let x := mkT [3]%nat [-1; 2; -3] in twf x /\ ten_ok (tsh x) (cnt [3]%nat) /\ no_zero x /\
  derivable_pt_lim relu_fn 2 1.
Proof.
  split; [reflexivity|]. split; [split; reflexivity|]. split.
  - intros i Hi. unfold tot in Hi. cbn in Hi. destruct i as [|[|[|i]]]; cbn; try lra. lia.
  - intros eps He. exists (mkposreal 1 Rlt_0_1). intros h Hh Hd. cbn in Hd. apply Rabs_def2 in Hd. unfold relu_fn.
    rewrite (Rmax_right 0 (2 + h)) by lra. rewrite (Rmax_right 0 2) by lra. replace ((2 + h - 2) / h - 1) with 0 by (field; exact Hh).
    rewrite Rabs_R0. exact He.
Qed.

(** ** C18 Softmax *)
Theorem C18_softmax_is_a_distribution :
  forall (E : env) (n m : nat) (x o : ten), (0 < m)%nat -> ten_ok [n; m] x -> ten_ok [n; m] o ->
  exists o', lforward E LSoftmax [x] [o] = Ok (LSoftmax, o') /\ ten_ok [n; m] o' /\
    (forall i j, (i < n)%nat -> (j < m)%nat -> 0 < (tdat o').[i * m + j] <= 1) /\
    (forall i, (i < n)%nat -> rsum m (fun j => (tdat o').[i * m + j]) = 1) /\
    (forall i j k, (i < n)%nat -> (j < m)%nat -> (k < m)%nat ->
       ((tdat x).[i * m + j] < (tdat x).[i * m + k] <-> (tdat o').[i * m + j] < (tdat o').[i * m + k])) /\
    (* adding a constant to a row changes nothing in that row *)
    (forall x2 o2 i c, ten_ok [n; m] x2 -> ten_ok [n; m] o2 -> (i < n)%nat ->
       (forall k, (k < m)%nat -> (tdat x2).[i * m + k] = (tdat x).[i * m + k] + c) ->
       exists o2', lforward E LSoftmax [x2] [o2] = Ok (LSoftmax, o2') /\
         forall j, (j < m)%nat -> (tdat o2').[i * m + j] = (tdat o').[i * m + j]).
Proof.
  intros E n m x o Hm Hx Ho. destruct (softmax_spec E n m x o Hm Hx Ho) as (o' & F & To & V).
  exists o'. split; [exact F|]. split; [exact To|]. split; [|split; [|split]].
  - intros i j Hi Hj. rewrite V by assumption. split; [apply softmax_pos; exact Hm|apply softmax_le1; exact Hj].
  - intros i Hi. rewrite (rsum_ext m _ _ (fun j Hj => V i j Hi Hj)). apply softmax_sum. exact Hm.
  - intros i j k Hi Hj Hk. rewrite !V by assumption. apply softmax_order; assumption.
  - intros x2 o2 i c Hx2 Ho2 Hi Hc. destruct (softmax_spec E n m x2 o2 Hm Hx2 Ho2) as (o2' & F2 & _ & V2).
    exists o2'. split; [exact F2|]. intros j Hj. rewrite V, V2 by assumption. apply softmax_shift_row with c; assumption.
Qed.
Print Assumptions C18_softmax_is_a_distribution.

(** The kernel with any other function in place of the exponential gives the same result as long as the
    two functions agree on non-positive arguments: it is never evaluated at a positive one. *)
Theorem C18_exponential_only_of_nonpositive_numbers :
  forall (ex : R -> R) (nX mX : nat) (X : list R) (nR mR : nat) (r : list R), (forall z, z <= 0 -> ex z = exp z) ->
  softmax_forward_with ex nX mX X nR mR r = softmax_forward nX mX X nR mR r.
Proof. intros ex nX mX X nR mR r H. exact (softmax_only_nonpositive ex exp nX mX X nR mR r H). Qed.
Print Assumptions C18_exponential_only_of_nonpositive_numbers.

(** The denominator is at least 1, so the division is harmless. *)
Theorem C18_denominator_at_least_one :
  forall (m : nat) (f : nat -> R), (0 < m)%nat -> 1 <= rsum m (fun k => exp (f k - rmax m f)).
Proof. exact softmax_denominator. Qed.
Print Assumptions C18_denominator_at_least_one.

Example C18_nonvacuous : (0 < 3)%nat /\ ten_ok [2; 3]%nat (cnt [2; 3]%nat) /\
  (forall k, (k < 3)%nat -> (tdat (mkT [2; 3]%nat [3; 4; 5; 4; 5; 6])).[1 * 3 + k] = (tdat (cnt [2; 3]%nat)).[1 * 3 + k] + 0) /\
  (exists ex : R -> R, (forall z, z <= 0 -> ex z = exp z) /\ ex 1 <> exp 1).
Proof.
  split; [lia|]. split; [split; reflexivity|]. split.
  - intros [|[|[|k]]] Hk; cbn; try lra; lia.
  - exists (fun z => if Rle_dec z 0 then exp z else 0). split.
    + intros z Hz. destruct (Rle_dec z 0); [reflexivity|contradiction].
    + destruct (Rle_dec 1 0); [lra|]. pose proof (exp_pos 1). lra.
Qed.

(** ** C19 Softmax gradient *)
Theorem C19_softmax_gradients_are_derivatives :
  forall (E : env) (n m : nat) (x : ten), (0 < m)%nat -> ten_ok [n; m] x -> correct_gradients E LSoftmax [x] [n; m].
Proof. exact softmax_gradients. Qed.
Print Assumptions C19_softmax_gradients_are_derivatives.

Theorem C19_added_rows_sum_to_zero :
  forall (E E2 : env) (n m : nat) (x o : ten), (0 < m)%nat -> ten_ok [n; m] x -> ten_ok [n; m] o ->
  exists o', lforward E LSoftmax [x] [o] = Ok (LSoftmax, o') /\
    forall go gi gm kg ko, ten_ok [n; m] go -> ten_ok [n; m] gi -> nth_error gm kg = Some gi -> nth_error gm ko = Some go ->
    exists gi', lbackward E2 LSoftmax [x] [o'] gm [kg] [ko] = Ok (LSoftmax, upd gm kg gi') /\
      forall i, (i < n)%nat -> rsum m (fun j => (tdat gi').[i * m + j] - (tdat gi).[i * m + j]) = 0.
Proof. exact softmax_rows_zero. Qed.
Print Assumptions C19_added_rows_sum_to_zero.
(* Hypotheses met: [C18_nonvacuous]. *)

(** ** C20 BatchNorm in training mode *)
Theorem C20_batchnorm1d_normalises :
  forall (E : env) (eps alpha : R) (gamma beta : prm) (std rmean rvar centered : ten) (n m : nat) (x o : ten),
  (0 < n)%nat -> 0 < eps -> bn1_state m gamma beta std rmean rvar centered -> p_train gamma = true -> p_train beta = true ->
  ten_ok [n; m] x -> ten_ok [n; m] o ->
  exists L' o', lforward E (LBN1 eps alpha gamma beta std rmean rvar centered) [x] [o] = Ok (L', o') /\ ten_ok [n; m] o' /\
    forall j, (j < m)%nat ->
      let v := variance n (fun i => (tdat x).[i * m + j]) in
      mean n (fun i => (tdat o').[i * m + j]) = (tdat (p_data beta)).[j] /\
      variance n (fun i => (tdat o').[i * m + j]) = (tdat (p_data gamma)).[j] ^ 2 * (v / (v + eps)).
Proof. exact bn1_normalises. Qed.
Print Assumptions C20_batchnorm1d_normalises.

(** Each output is the normalised input, scaled and shifted. *)
Theorem C20_batchnorm1d_output :
  forall (E : env) (eps alpha : R) (gamma beta : prm) (std rmean rvar centered : ten) (n m : nat) (x o : ten),
  (0 < n)%nat -> bn1_state m gamma beta std rmean rvar centered -> p_train gamma = true -> p_train beta = true ->
  ten_ok [n; m] x -> ten_ok [n; m] o ->
  exists L' o', lforward E (LBN1 eps alpha gamma beta std rmean rvar centered) [x] [o] = Ok (L', o') /\
    forall i j, (i < n)%nat -> (j < m)%nat ->
      let f := fun i => (tdat x).[i * m + j] in
      (tdat o').[i * m + j] =
      (tdat (p_data gamma)).[j] * ((f i - mean n f) / sqrt (variance n f + eps)) + (tdat (p_data beta)).[j].
Proof.
  intros E eps alpha gamma beta std rmean rvar centered n m x o Hn Hst Hg Hb Hx Ho.
  destruct (bn1_forward E eps alpha gamma beta std rmean rvar centered n m x o true (fun _ => Hn) Hst Hg Hb Hx Ho)
    as (s' & m' & v' & c' & o' & F & _ & _ & _ & V & _). do 2 eexists. split; [exact F|exact V].
Qed.
Print Assumptions C20_batchnorm1d_output.

Theorem C20_batchnorm2d_normalises :
  forall (E : env) (eps alpha : R) (gamma beta : prm) (std rmean rvar centered nin nout : ten) (N C H W : nat) (x o : ten),
  (0 < N * H * W)%nat -> 0 < eps -> bn2_state C gamma beta std rmean rvar -> bn2_room (N * C * H * W) centered nin nout ->
  p_train gamma = true -> p_train beta = true -> ten_ok [N; C; H; W] x -> ten_ok [N; C; H; W] o ->
  exists L' o', lforward E (LBN2 eps alpha gamma beta std rmean rvar centered nin nout) [x] [o] = Ok (L', o') /\
    ten_ok [N; C; H; W] o' /\
    forall c, (c < C)%nat ->
      let v := variance3 N H W (fun n h w => (tdat x).[((n * C + c) * H + h) * W + w]) in
      mean3 N H W (fun n h w => (tdat o').[((n * C + c) * H + h) * W + w]) = (tdat (p_data beta)).[c] /\
      variance3 N H W (fun n h w => (tdat o').[((n * C + c) * H + h) * W + w]) = (tdat (p_data gamma)).[c] ^ 2 * (v / (v + eps)).
Proof. exact bn2_normalises. Qed.
Print Assumptions C20_batchnorm2d_normalises.

Theorem C20_batchnorm2d_output :
  forall (E : env) (eps alpha : R) (gamma beta : prm) (std rmean rvar centered nin nout : ten) (N C H W : nat) (x o : ten),
  (0 < N * H * W)%nat -> bn2_state C gamma beta std rmean rvar -> bn2_room (N * C * H * W) centered nin nout ->
  p_train gamma = true -> p_train beta = true -> ten_ok [N; C; H; W] x -> ten_ok [N; C; H; W] o ->
  exists L' o', lforward E (LBN2 eps alpha gamma beta std rmean rvar centered nin nout) [x] [o] = Ok (L', o') /\
    forall n c h w, (n < N)%nat -> (c < C)%nat -> (h < H)%nat -> (w < W)%nat ->
      let f := fun n h w => (tdat x).[((n * C + c) * H + h) * W + w] in
      (tdat o').[((n * C + c) * H + h) * W + w] =
      (tdat (p_data gamma)).[c] * ((f n h w - mean3 N H W f) / sqrt (variance3 N H W f + eps)) + (tdat (p_data beta)).[c].
Proof.
  intros E eps alpha gamma beta std rmean rvar centered nin nout N C H W x o Hn Hst Hr Hg Hb Hx Ho.
  destruct (bn2_forward E eps alpha gamma beta std rmean rvar centered nin nout N C H W x o true (fun _ => Hn) Hst Hr Hg Hb Hx Ho)
    as (s' & m' & v' & c' & ni' & no' & o' & F & _ & _ & _ & _ & _ & V & _). do 2 eexists. split; [exact F|exact V].
Qed.
Print Assumptions C20_batchnorm2d_output.

Example C20_nonvacuous : bn1_state 3 (cprm true [3]%nat) (cprm true [3]%nat) (cnt [3]%nat) (zeros_t [3]%nat) (zeros_t [3]%nat) empty_ten /\
  ten_ok [4; 3]%nat (cnt [4; 3]%nat) /\ bn2_state 3 (cprm true [3]%nat) (cprm true [3]%nat) (cnt [3]%nat) (zeros_t [3]%nat) (zeros_t [3]%nat) /\
  bn2_room (2 * 3 * 2 * 2) empty_ten empty_ten empty_ten /\ ten_ok [2; 3; 2; 2]%nat (cnt [2; 3; 2; 2]%nat).
Proof.
  split; [repeat (split; [repeat split|]); left; reflexivity|]. split; [repeat split|]. split; [repeat split|]. split; [split; left; reflexivity|]. repeat split.
Qed.

(** ** C21 Running statistics and evaluation mode *)
Theorem C21_batchnorm1d_running_statistics :
  forall (m : nat) (e a : R) (g b : prm) (s rm rv c : ten) (cs : list bncall),
  ten_ok [m] s -> ten_ok [m] rm -> ten_ok [m] rv -> buf_ok c -> (forall k, In k cs -> call1_ok m k) ->
  exists L', bn_history (LBN1 e a g b s rm rv c) cs = Ok L' /\
    forall j, (j < m)%nat ->
      (bn_mean L').[j] = running a (tdat rm).[j] (map (call1_mean m j) (filter training_call cs)) /\
      (bn_var L').[j] = running a (tdat rv).[j] (map (call1_var m j) (filter training_call cs)) /\
      (0 <= a <= 1 -> 0 <= (tdat rv).[j] -> 0 <= (bn_var L').[j]).
Proof. exact bn1_running. Qed.
Print Assumptions C21_batchnorm1d_running_statistics.

(** BatchNorm2D: for batches no larger than the first one (see below for larger ones). *)
Theorem C21_batchnorm2d_running_statistics :
  forall (C : nat) (e a : R) (g b : prm) (s rm rv c ni no : ten) (k0 : bncall) (cs : list bncall),
  ten_ok [C] s -> ten_ok [C] rm -> ten_ok [C] rv -> tot c = O -> tot ni = O ->
  (forall k, In k (k0 :: cs) -> call2_ok C k /\ (tot (c_x k) <= tot (c_x k0))%nat) ->
  exists L', bn_history (LBN2 e a g b s rm rv c ni no) (k0 :: cs) = Ok L' /\
    forall j, (j < C)%nat ->
      (bn_mean L').[j] = running a (tdat rm).[j] (map (call2_mean C j) (filter training_call (k0 :: cs))) /\
      (bn_var L').[j] = running a (tdat rv).[j] (map (call2_var C j) (filter training_call (k0 :: cs))) /\
      (0 <= a <= 1 -> 0 <= (tdat rv).[j] -> 0 <= (bn_var L').[j]).
Proof. exact bn2_running. Qed.
Print Assumptions C21_batchnorm2d_running_statistics.

(** Evaluation after any history: the output of sample [i] is a function of that sample and the running
    statistics, which do not change; nor do gamma and beta; so repeating the call repeats the result. *)
Theorem C21_batchnorm1d_evaluation :
  forall (m : nat) (e a : R) (g b : prm) (s rm rv c : ten) (cs : list bncall) (k : bncall),
  ten_ok [m] s -> ten_ok [m] rm -> ten_ok [m] rv -> buf_ok c -> (forall k', In k' (cs ++ [k]) -> call1_ok m k') ->
  training_call k = false ->
  exists L1 L2 out, bn_history (LBN1 e a g b s rm rv c) cs = Ok L1 /\ bn_call L1 k = Ok (L2, out) /\
    bn_mean L2 = bn_mean L1 /\ bn_var L2 = bn_var L1 /\ lparams L2 = [c_gamma k; c_beta k] /\
    (forall i j, (i < nth 0 (tsh (c_x k)) O)%nat -> (j < m)%nat ->
       (tdat out).[i * m + j] =
       (tdat (p_data (c_gamma k))).[j] * (((tdat (c_x k)).[i * m + j] - (bn_mean L1).[j]) / sqrt ((bn_var L1).[j] + e)) +
       (tdat (p_data (c_beta k))).[j]) /\
    exists L3, bn_call L2 k = Ok (L3, out).
Proof. exact bn1_evaluation. Qed.
Print Assumptions C21_batchnorm1d_evaluation.

Theorem C21_batchnorm2d_evaluation :
  forall (C : nat) (e a : R) (g b : prm) (s rm rv c ni no : ten) (k0 : bncall) (cs : list bncall) (k : bncall),
  ten_ok [C] s -> ten_ok [C] rm -> ten_ok [C] rv -> tot c = O -> tot ni = O ->
  (forall k', In k' (k0 :: cs ++ [k]) -> call2_ok C k' /\ (tot (c_x k') <= tot (c_x k0))%nat) ->
  training_call k = false ->
  exists L1 L2 out, bn_history (LBN2 e a g b s rm rv c ni no) (k0 :: cs) = Ok L1 /\ bn_call L1 k = Ok (L2, out) /\
    bn_mean L2 = bn_mean L1 /\ bn_var L2 = bn_var L1 /\ lparams L2 = [c_gamma k; c_beta k] /\
    (forall n j h w, (n < nth 0 (tsh (c_x k)) O)%nat -> (j < C)%nat -> (h < nth 2 (tsh (c_x k)) O)%nat -> (w < nth 3 (tsh (c_x k)) O)%nat ->
       let p := (((n * C + j) * nth 2 (tsh (c_x k)) O + h) * nth 3 (tsh (c_x k)) O + w)%nat in
       (tdat out).[p] =
       (tdat (p_data (c_gamma k))).[j] * (((tdat (c_x k)).[p] - (bn_mean L1).[j]) / sqrt ((bn_var L1).[j] + e)) +
       (tdat (p_data (c_beta k))).[j]) /\
    exists L3, bn_call L2 k = Ok (L3, out).
Proof. exact bn2_evaluation. Qed.
Print Assumptions C21_batchnorm2d_evaluation.

(** Finding: a batch larger than the first one makes BatchNorm2D write past its buffers. *)
Theorem C21_batchnorm2d_larger_batch_is_undefined :
  forall (E : env) (eps alpha : R) (gamma beta : prm) (std rmean rvar centered nin nout : ten) (N C H W : nat) (x o : ten),
  p_train beta = p_train gamma -> ten_ok [N; C; H; W] x -> ten_ok [N; C; H; W] o ->
  (0 < tot nin < N * C * H * W)%nat ->
  lforward E (LBN2 eps alpha gamma beta std rmean rvar centered nin nout) [x] [o] = UB.
Proof. exact bn2_larger_batch. Qed.
Print Assumptions C21_batchnorm2d_larger_batch_is_undefined.

(** A training batch of 2, an evaluation batch of 3, another training batch of 1. *)
Definition ex_call (tr : bool) (sh : list nat) (m : nat) : bncall :=
  mkBC (mkEnv (fun _ => 0) (fun _ => O) (fun _ => 0) (fun _ _ => O)) (cprm tr [m]) (cprm tr [m]) (cnt sh) (zeros_t sh).
Example C21_nonvacuous :
  (forall k, In k [ex_call true [2; 2]%nat 2; ex_call false [3; 2]%nat 2; ex_call true [1; 2]%nat 2] -> call1_ok 2 k) /\
  (forall k, In k [ex_call true [3; 1; 2; 2]%nat 1; ex_call false [2; 1; 2; 2]%nat 1; ex_call true [1; 1; 2; 2]%nat 1] ->
     call2_ok 1 k /\ (tot (c_x k) <= 12)%nat) /\
  running (1 / 2) 0 (map (call1_mean 2 0) (filter training_call [ex_call true [2; 2]%nat 2; ex_call false [3; 2]%nat 2; ex_call true [1; 2]%nat 2])) = 1.
Proof.
  split; [|split].
  - intros k [<-|[<-|[<-|[]]]]; (split; [repeat split|split; [repeat split|split; [reflexivity|]]]);
      [exists 2%nat|exists 3%nat|exists 1%nat]; (split; [split; reflexivity|split; [split; reflexivity|lia]]).
  - intros k [<-|[<-|[<-|[]]]]; (split; [|unfold tot; cbn; lia]);
      (split; [repeat split|split; [repeat split|split; [reflexivity|]]]);
      [exists 3%nat, 2%nat, 2%nat|exists 2%nat, 2%nat, 2%nat|exists 1%nat, 2%nat, 2%nat];
      (split; [split; reflexivity|split; [split; reflexivity|lia]]).
  - unfold running, call1_mean, mean. cbn. lra.
Qed.

(** ** C22 BatchNorm gradients *)
Theorem C22_batchnorm1d_gradients_are_derivatives :
  forall (E : env) (eps alpha : R) (gamma beta : prm) (std rmean rvar centered : ten) (n m : nat) (x : ten),
  (0 < n)%nat -> 0 < eps -> bn1_state m gamma beta std rmean rvar centered -> p_train gamma = true -> p_train beta = true ->
  ten_ok [n; m] x -> correct_gradients E (LBN1 eps alpha gamma beta std rmean rvar centered) [x] [n; m].
Proof. exact bn1_gradients. Qed.
Print Assumptions C22_batchnorm1d_gradients_are_derivatives.

Theorem C22_batchnorm2d_gradients_are_derivatives :
  forall (E : env) (eps alpha : R) (gamma beta : prm) (std rmean rvar centered nin nout : ten) (N C H W : nat) (x : ten),
  (0 < N * C * H * W)%nat -> 0 < eps -> bn2_state C gamma beta std rmean rvar -> bn2_fit (N * C * H * W) centered nin nout ->
  p_train gamma = true -> p_train beta = true -> ten_ok [N; C; H; W] x ->
  correct_gradients E (LBN2 eps alpha gamma beta std rmean rvar centered nin nout) [x] [N; C; H; W].
Proof. exact bn2_gradients. Qed.
Print Assumptions C22_batchnorm2d_gradients_are_derivatives.

(** Finding: after an evaluation-mode forward, some element of every feature whose incoming gradients do not
    cancel gets a gradient that is not the derivative. *)
Theorem C22_batchnorm1d_evaluation_gradient_is_wrong :
  forall (E E2 : env) (eps alpha : R) (gamma beta : prm) (std rmean rvar centered : ten) (n m : nat) (x o : ten),
  (0 < n)%nat -> bn1_state m gamma beta std rmean rvar centered -> p_train gamma = false -> p_train beta = false ->
  (forall j, (j < m)%nat -> 0 < (tdat rvar).[j] + eps) ->
  ten_ok [n; m] x -> ten_ok [n; m] o ->
  let L := LBN1 eps alpha gamma beta std rmean rvar centered in
  exists L1 o', lforward E L [x] [o] = Ok (L1, o') /\
    forall gm kg ko gi go, ten_ok [n; m] gi -> ten_ok [n; m] go -> nth_error gm kg = Some gi -> nth_error gm ko = Some go ->
    exists L2 L3 gi', lupdate E2 L1 [x] [go] = Ok L2 /\ lbackward E2 L2 [x] [o'] gm [kg] [ko] = Ok (L3, upd gm kg gi') /\
      forall j, (j < m)%nat -> (tdat (p_data gamma)).[j] * rsum n (fun i => (tdat go).[i * m + j]) <> 0 ->
      exists i r, (i < n)%nat /\ partial_of E (fun _ => L) (bump_input [x] 0 (i * m + j)) [n; m] go r /\
        (tdat gi').[i * m + j] - (tdat gi).[i * m + j] <> r.
Proof. exact bn1_eval_backward. Qed.
Print Assumptions C22_batchnorm1d_evaluation_gradient_is_wrong.

Theorem C22_batchnorm2d_evaluation_gradient_is_wrong :
  forall (E E2 : env) (eps alpha : R) (gamma beta : prm) (std rmean rvar centered nin nout : ten) (N C H W : nat) (x o : ten),
  (0 < N * C * H * W)%nat -> bn2_state C gamma beta std rmean rvar -> bn2_fit (N * C * H * W) centered nin nout ->
  p_train gamma = false -> p_train beta = false ->
  (forall j, (j < C)%nat -> 0 < (tdat rvar).[j] + eps) ->
  ten_ok [N; C; H; W] x -> ten_ok [N; C; H; W] o ->
  let L := LBN2 eps alpha gamma beta std rmean rvar centered nin nout in
  exists L1 o', lforward E L [x] [o] = Ok (L1, o') /\
    forall gm kg ko gi go, ten_ok [N; C; H; W] gi -> ten_ok [N; C; H; W] go ->
    nth_error gm kg = Some gi -> nth_error gm ko = Some go ->
    exists L2 L3 gi', lupdate E2 L1 [x] [go] = Ok L2 /\ lbackward E2 L2 [x] [o'] gm [kg] [ko] = Ok (L3, upd gm kg gi') /\
      forall c, (c < C)%nat ->
        (tdat (p_data gamma)).[c] * rsum N (fun n => rsum H (fun h => rsum W (fun w => (tdat go).[((n * C + c) * H + h) * W + w]))) <> 0 ->
        exists n h w r, (n < N)%nat /\ (h < H)%nat /\ (w < W)%nat /\
          partial_of E (fun _ => L) (bump_input [x] 0 (((n * C + c) * H + h) * W + w)) [N; C; H; W] go r /\
          (tdat gi').[((n * C + c) * H + h) * W + w] <> r.
Proof.
  intros E E2 eps alpha gamma beta std rmean rvar centered nin nout N C H W x o H1 H2 [H3 H4].
  exact (bn2_eval_backward E E2 eps alpha gamma beta std rmean rvar centered nin nout N C H W x o H1 H2 H3 H4).
Qed.
Print Assumptions C22_batchnorm2d_evaluation_gradient_is_wrong.

Example C22_nonvacuous :
  bn1_state 3 (cprm false [3]%nat) (cprm false [3]%nat) (cnt [3]%nat) (zeros_t [3]%nat) (zeros_t [3]%nat) empty_ten /\
  (forall j, (j < 3)%nat -> 0 < (tdat (zeros_t [3]%nat)).[j] + 1) /\
  (tdat (p_data (cprm false [3]%nat))).[1] * rsum 2 (fun i => (tdat (cnt [2; 3]%nat)).[i * 3 + 1]) <> 0 /\
  bn2_fit (2 * 3 * 2 * 2) empty_ten empty_ten empty_ten.
Proof.
  split; [repeat (split; [repeat split|]); left; reflexivity|]. split; [|split; [cbn; lra|split; left; reflexivity]].
  intros [|[|[|j]]] Hj; cbn; try lra; lia.
Qed.

(** ** C23 BatchNorm2D replaces the gradient of its input *)
Theorem C23_batchnorm2d_overwrites_input_gradient :
  forall (E : env) (eps alpha : R) (gamma beta : prm) (std rmean rvar centered nin nout : ten) (N C H W : nat) (x : ten),
  (0 < N * C * H * W)%nat -> 0 < eps -> bn2_state C gamma beta std rmean rvar -> bn2_fit (N * C * H * W) centered nin nout ->
  p_train gamma = true -> p_train beta = true -> ten_ok [N; C; H; W] x ->
  let L := LBN2 eps alpha gamma beta std rmean rvar centered nin nout in
  exists L1 out, (forall o, ten_ok [N; C; H; W] o -> lforward E L [x] [o] = Ok (L1, out)) /\
    forall E2 gm kg ko gi go, ten_ok [N; C; H; W] gi -> ten_ok [N; C; H; W] go ->
      nth_error gm kg = Some gi -> nth_error gm ko = Some go -> kg <> ko ->
    exists L2 L3 gm' gi', lupdate E2 L1 [x] [go] = Ok L2 /\ lbackward E2 L2 [x] [out] gm [kg] [ko] = Ok (L3, gm') /\
      nth_error gm' kg = Some gi' /\ (forall k, k <> kg -> nth_error gm' k = nth_error gm k) /\
      forall i r, (i < N * C * H * W)%nat -> partial_of E (fun _ => L) (bump_input [x] 0 i) [N; C; H; W] go r ->
        (* the derivative is stored, so it has been added exactly when the old value was zero *)
        (tdat gi').[i] = r /\ ((tdat gi').[i] = (tdat gi).[i] + r <-> (tdat gi).[i] = 0).
Proof. exact bn2_backward_overwrites. Qed.
Print Assumptions C23_batchnorm2d_overwrites_input_gradient.

(** In any state of the layer, whatever backward does, it does not depend on the old input gradient. *)
Theorem C23_batchnorm2d_ignores_old_input_gradient :
  forall (E : env) (L : layer) (ins outs gm : list ten) (kg ko : nat) (gi gi2 go : ten) (N C H W : nat),
  is_bn2 L -> ten_ok [N; C; H; W] gi -> ten_ok [N; C; H; W] gi2 -> ten_ok [N; C; H; W] go ->
  nth_error gm kg = Some gi -> nth_error gm ko = Some go -> kg <> ko ->
  lbackward E L ins outs (upd gm kg gi2) [kg] [ko] = lbackward E L ins outs gm [kg] [ko].
Proof. exact bn2_overwrites. Qed.
Print Assumptions C23_batchnorm2d_ignores_old_input_gradient.

(** Finding: after a forward pass with a smaller batch than the first one, backward mixes dimensions. *)
Theorem C23_batchnorm2d_backward_after_smaller_batch_is_undefined :
  forall (E : env) (eps alpha : R) (gamma beta : prm) (std rmean rvar centered nin nout : ten) (N C H W : nat)
         (ins outs gm : list ten) (kg ko : nat) (go : ten),
  ten_ok [N; C; H; W] go -> nth_error gm ko = Some go -> (0 < C)%nat ->
  (N * C * H * W < tot nin)%nat -> (tot nin mod C = 0)%nat -> (N * C * H * W <= tot nout)%nat ->
  lbackward E (LBN2 eps alpha gamma beta std rmean rvar centered nin nout) ins outs gm [kg] [ko] = UB.
Proof. exact bn2_smaller_batch. Qed.
Print Assumptions C23_batchnorm2d_backward_after_smaller_batch_is_undefined.

Example C23_nonvacuous :
  bn2_state 3 (cprm true [3]%nat) (cprm true [3]%nat) (cnt [3]%nat) (zeros_t [3]%nat) (zeros_t [3]%nat) /\
  bn2_fit (2 * 3 * 2 * 2) empty_ten empty_ten empty_ten /\ ten_ok [2; 3; 2; 2]%nat (cnt [2; 3; 2; 2]%nat) /\
  (tdat (cnt [2; 3; 2; 2]%nat)).[0] <> 0 /\ (1 * 3 * 2 * 2 < tot (cnt [2; 2; 2; 3]%nat))%nat /\ (tot (cnt [2; 2; 2; 3]%nat) mod 3 = 0)%nat.
Proof.
  split; [repeat split|]. split; [split; left; reflexivity|]. split; [repeat split|]. split; [cbn; lra|].
  split; [unfold tot; cbn; lia|reflexivity].
Qed.

(** ** C24 Dropout *)
Theorem C24_dropout_evaluation_is_identity :
  forall (E : env) (p : R) (mask : prm) (x o : ten), p_train mask = false -> twf x -> ten_ok (tsh x) o -> tot o <> 0%nat ->
  lforward E (LDropout p mask) [x] [o] = Ok (LDropout p mask, x).
Proof. exact dropout_eval_spec. Qed.
Print Assumptions C24_dropout_evaluation_is_identity.

Theorem C24_dropout_training :
  forall (E : env) (p : R) (mask : prm) (x o : ten), p_train mask = true -> twf x -> prm_ok (tsh x) mask -> ten_ok (tsh x) o ->
  exists mask' o', lforward E (LDropout p mask) [x] [o] = Ok (LDropout p mask', o') /\ ten_ok (tsh x) o' /\
    ten_ok (tsh x) (p_data mask') /\ p_grad mask' = p_grad mask /\ p_train mask' = true /\
    (forall i, (i < tot x)%nat -> (tdat (p_data mask')).[i] = e_rnd E i) /\
    (forall i, (i < tot x)%nat -> e_rnd E i < p -> (tdat o').[i] = 0) /\
    (forall i, (i < tot x)%nat -> p <= e_rnd E i -> (tdat o').[i] = (tdat x).[i] / (1 - p)).
Proof. exact dropout_train_spec. Qed.
Print Assumptions C24_dropout_training.

(** Averaged over a draw uniform on [0,1], the output 0 / x/(1-p) is x. *)
Theorem C24_dropout_draw_average :
  forall p v : R, 0 < p < 1 ->
  exists pr : Riemann_integrable (fun u => (if Rlt_dec u p then 0 else v / (1 - p))) 0 1, RiemannInt pr = v.
Proof. exact dropout_average. Qed.
Print Assumptions C24_dropout_draw_average.

(** Finding: backward adds (1-p) times the derivative of the forward pass with the same draws. *)
Theorem C24_dropout_gradient_lacks_scale :
  forall (E E2 : env) (p : R) (mask : prm) (x o : ten),
  p < 1 -> p_train mask = true -> twf x -> prm_ok (tsh x) mask -> ten_ok (tsh x) o ->
  exists L1 o', lforward E (LDropout p mask) [x] [o] = Ok (L1, o') /\
    forall gm kg ko gi go, ten_ok (tsh x) gi -> ten_ok (tsh x) go -> nth_error gm kg = Some gi -> nth_error gm ko = Some go ->
    exists L2 L3 gi', lupdate E2 L1 [x] [go] = Ok L2 /\ lbackward E2 L2 [x] [o'] gm [kg] [ko] = Ok (L3, upd gm kg gi') /\
      forall i, (i < tot x)%nat -> exists r,
        partial_of E (fun _ => LDropout p mask) (bump_input [x] 0 i) (tsh x) go r /\
        (tdat gi').[i] = (tdat gi).[i] + (1 - p) * r.
Proof. exact dropout_gradient. Qed.
Print Assumptions C24_dropout_gradient_lacks_scale.

(** Finding: after an evaluation-mode forward, backward still applies the mask of an earlier training pass. *)
Theorem C24_dropout_backward_uses_stored_mask :
  forall (E : env) (p : R) (mask : prm) (x o : ten) (gm : list ten) (kg ko : nat) (gi go : ten),
  ten_ok (tsh x) (p_data mask) -> ten_ok (tsh x) gi -> ten_ok (tsh x) go -> nth_error gm kg = Some gi -> nth_error gm ko = Some go ->
  exists gi', lbackward E (LDropout p mask) [x] [o] gm [kg] [ko] = Ok (LDropout p mask, upd gm kg gi') /\ ten_ok (tsh x) gi' /\
    forall i, (i < prodN (tsh x))%nat ->
      (tdat gi').[i] = (tdat gi).[i] + (if Rlt_dec (tdat (p_data mask)).[i] p then 0 else (tdat go).[i]).
Proof. exact dropout_back_spec. Qed.
Print Assumptions C24_dropout_backward_uses_stored_mask.

Example C24_nonvacuous : prm_ok [2; 2]%nat (cprm true [2; 2]%nat) /\ ten_ok [2; 2]%nat (cnt [2; 2]%nat) /\ tot (cnt [2; 2]%nat) <> 0%nat /\ 0 < 1 / 2 < 1.
Proof. repeat split; try lra. discriminate. Qed.

(** ** C51 Add *)
Theorem C51_add_forward_and_backward :
  forall (E : env) (x y o : ten), twf x -> twf y -> tsh y = tsh x -> ten_ok (tsh x) o ->
  exists o', lforward E LAdd [x; y] [o] = Ok (LAdd, o') /\ ten_ok (tsh x) o' /\
    (forall i, (i < tot x)%nat -> (tdat o').[i] = (tdat x).[i] + (tdat y).[i]) /\
    forall go gm k0 k1 ko g0 g1, ten_ok (tsh x) go -> ten_ok (tsh x) g0 -> ten_ok (tsh x) g1 ->
      nth_error gm k0 = Some g0 -> nth_error gm k1 = Some g1 -> nth_error gm ko = Some go -> k0 <> ko -> k1 <> ko ->
      exists gm', lbackward E LAdd [x; y] [o'] gm [k0; k1] [ko] = Ok (LAdd, gm') /\ length gm' = length gm /\
        forall k g, nth_error gm k = Some g -> exists g', nth_error gm' k = Some g' /\ tsh g' = tsh g /\ tot g' = tot g /\
          forall i, (i < tot g)%nat -> (tdat g').[i] = (tdat g).[i] +
            (if (k0 =? k)%nat then (tdat go).[i] else 0) + (if (k1 =? k)%nat then (tdat go).[i] else 0).
Proof. exact add_spec. Qed.
Print Assumptions C51_add_forward_and_backward.

Theorem C51_add_gradients_are_derivatives :
  forall (E : env) (x y : ten), twf x -> twf y -> tsh y = tsh x -> correct_gradients E LAdd [x; y] (tsh x).
Proof. exact add_gradients. Qed.
Print Assumptions C51_add_gradients_are_derivatives.

(** The parallel loop over the elements: array 0 is the incoming gradient, [a0] and [a1] those of the
    two inputs, possibly the same array. *)
Theorem C51_add_backward_any_schedule :
  forall (n a0 a1 : nat) (m0 : mem R) (sched : list nat), a0 <> 0%nat -> a1 <> 0%nat ->
  (forall t, In t sched -> (t < n)%nat) -> finished n (exec sched (m0, add_prog real_arith a0 a1)) ->
  forall A i, fst (exec sched (m0, add_prog real_arith a0 a1)) (A, i) =
    m0 (A, i) + (if (i <? n)%nat then (if (A =? a0)%nat then m0 (0%nat, i) else 0) + (if (A =? a1)%nat then m0 (0%nat, i) else 0) else 0).
Proof. exact add_any_schedule. Qed.
Print Assumptions C51_add_backward_any_schedule.

Example C51_nonvacuous : twf (cnt [2; 2]%nat) /\ ten_ok (tsh (cnt [2; 2]%nat)) (cnt [2; 2]%nat) /\
  finished 2 (exec [0; 1; 1; 0; 0; 1; 1; 0; 0; 1; 1; 0]%nat (mem_of [[5; 6]; [1; 2]], add_prog real_arith 1 1)).
Proof.
  split; [reflexivity|]. split; [split; reflexivity|]. intros t Ht. destruct t as [|[|t]]; [reflexivity|reflexivity|lia].
Qed.
