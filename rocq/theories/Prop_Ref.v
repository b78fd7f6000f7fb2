(** C63: layers, loss and optimizers compute what the project's reference kernels compute. *)
From Coq Require Import Reals Lra String.
From Verif Require Import Base BaseFacts Sums M_Im2col S_Im2col M_Kernels M_Conv M_Layers M_Loss M_Optim M_Ref.
From Verif Require Import S_Grad S_Loss S_Optim S_Ref P_BN P_BN3 P_Kernels P_Loss P_Ref2 P_Ref3 P_Ref4.
Open Scope R_scope.

(** ** Linear.  The reference buffers have the right length and any contents; so have the library's. *)
Theorem C63_linear :
  forall E E2 W b n u rest x o go r0 dW0 gi0 db0, rest <> [] ->
  prm_ok [u; prodN rest] W -> prm_ok [u] b -> ten_ok (n :: rest) x -> ten_ok [n; u] o -> ten_ok [n; u] go ->
  length r0 = (n * u)%nat -> length dW0 = (u * prodN rest)%nat -> length gi0 = (n * prodN rest)%nat -> length db0 = u ->
  (exists r1 r, ref_linear_forward (tdat x) (tdat (p_data W)) r0 n (prodN rest) u = Ok r1 /\
     ref_add_bias (tdat (p_data b)) r1 n u = Ok r /\
     lforward E (LLinear W b) [x] [o] = Ok (LLinear W b, mkT [n; u] r)) /\
  (exists dW r db,
     ref_linear_backward (tdat x) (tdat (p_data W)) (tdat go) dW0 gi0 n (prodN rest) u = Ok (dW, r) /\
     ref_linear_bias_backward (tdat go) db0 n u = Ok db /\
     adds_to_gradient E (LLinear W b) (LLinear W b) [x] [o] go (n :: rest) r /\
     lupdate E2 (LLinear W b) [x] [go] = Ok (LLinear (set_grad W dW) (set_grad b db))).
Proof.
  intros. split; [apply linear_agrees|apply linear_backward_agrees]; assumption.
Qed.
Print Assumptions C63_linear.

(** ** Activations: forward, and backward after it. *)
Theorem C63_activations :
  forall E alpha x o go f0 g0, twf x -> ten_ok (tsh x) o -> ten_ok (tsh x) go -> length f0 = tot x -> length g0 = tot x ->
  (exists y r, ref_relu_forward (tdat x) f0 (tot x) = Ok y /\ lforward E LReLU [x] [o] = Ok (LReLU, mkT (tsh x) y) /\
     ref_relu_backward y (tdat go) g0 (tot x) = Ok r /\ adds_to_gradient E LReLU LReLU [x] [mkT (tsh x) y] go (tsh x) r) /\
  (exists y r, ref_leaky_forward (tdat x) f0 alpha = Ok y /\ lforward E (LLeaky alpha) [x] [o] = Ok (LLeaky alpha, mkT (tsh x) y) /\
     ref_leaky_backward (tdat x) (tdat go) g0 alpha = Ok r /\
     adds_to_gradient E (LLeaky alpha) (LLeaky alpha) [x] [mkT (tsh x) y] go (tsh x) r) /\
  (exists y r, ref_elu_forward (tdat x) f0 alpha = Ok y /\ lforward E (LELU alpha) [x] [o] = Ok (LELU alpha, mkT (tsh x) y) /\
     ref_elu_backward (tdat x) (tdat go) g0 alpha = Ok r /\
     adds_to_gradient E (LELU alpha) (LELU alpha) [x] [mkT (tsh x) y] go (tsh x) r) /\
  (exists y r, ref_sigmoid_forward (tdat x) f0 = Ok y /\ lforward E LSigmoid [x] [o] = Ok (LSigmoid, mkT (tsh x) y) /\
     ref_sigmoid_backward (tdat x) (tdat go) g0 = Ok r /\ adds_to_gradient E LSigmoid LSigmoid [x] [mkT (tsh x) y] go (tsh x) r).
Proof.
  intros. split; [apply relu_agrees; assumption|]. split; [apply leaky_agrees; assumption|].
  split; [apply elu_agrees; assumption|apply sigmoid_agrees; assumption].
Qed.
Print Assumptions C63_activations.

(** ** Softmax.  The two forward functions subtract different numbers from a row before exponentiating. *)
Theorem C63_softmax :
  forall E n m x o go f0 g0, (0 < m)%nat -> ten_ok [n; m] x -> ten_ok [n; m] o -> ten_ok [n; m] go ->
  length f0 = (n * m)%nat -> length g0 = (n * m)%nat ->
  (exists y, ref_softmax_forward (tdat x) f0 n m = Ok y /\ lforward E LSoftmax [x] [o] = Ok (LSoftmax, mkT [n; m] y)) /\
  (exists r, ref_softmax_backward (tdat go) (tdat o) g0 n m = Ok r /\ adds_to_gradient E LSoftmax LSoftmax [x] [o] go [n; m] r).
Proof. intros. split; [apply softmax_agrees|apply softmax_backward_agrees]; assumption. Qed.
Print Assumptions C63_softmax.

(** ** Dropout, given the mask the library drew. *)
Theorem C63_dropout :
  forall E p mask x o go f0 g0, p < 1 -> twf x -> prm_ok (tsh x) mask -> ten_ok (tsh x) o -> tot o <> O -> ten_ok (tsh x) go ->
  length f0 = tot x -> length g0 = tot go ->
  (exists y mask', ref_dropout_forward (tdat x) (tdat (p_data mask')) f0 p (p_train mask) = Ok y /\
     lforward E (LDropout p mask) [x] [o] = Ok (LDropout p mask', mkT (tsh x) y) /\
     (if p_train mask then tdat (p_data mask') = tab (tot x) (e_rnd E) else mask' = mask)) /\
  (exists r, ref_dropout_backward (tdat (p_data mask)) (tdat go) g0 p = Ok r /\
     adds_to_gradient E (LDropout p mask) (LDropout p mask) [x] [o] go (tsh x) r).
Proof.
  intros E p mask x o go f0 g0 Hp Wx Hm Ho Ht Hgo Lf Lg. split; [apply dropout_agrees; assumption|].
  apply dropout_backward_agrees; [split; [exact (proj1 Hm)|exact (proj1 (proj2 Hm))]|exact Hgo|exact Lg].
Qed.
Print Assumptions C63_dropout.

(** Finding: the reference backward pass of Dropout is not the derivative of the reference forward pass
    either: an element that is kept is scaled by 1/(1-p), and its gradient is not.  So comparing with the
    reference cannot reveal the missing factor of the library (see C24). *)
Theorem C63_finding_dropout_reference :
  forall p u, 0 < p < 1 -> p <= u ->
  (forall t, ref_dropout_forward [t] [u] [0] p true = Ok [t / (1 - p)]) /\
  ref_dropout_backward [u] [1] [0] p = Ok [1] /\
  forall t, derivable_pt_lim (fun t => t / (1 - p)) t (1 / (1 - p)) /\ 1 / (1 - p) <> 1.
Proof.
  intros p u Hp Hu. assert (EG : geb u p = true) by (unfold geb; destruct (Rle_dec p u); [reflexivity|contradiction]).
  split; [|split].
  - intros t. cbn. rewrite EG. reflexivity.
  - cbn. rewrite EG. reflexivity.
  - intros t. split.
    + unfold Rdiv. rewrite Rmult_1_l. pose proof (derivable_pt_lim_scal id (/ (1 - p)) t 1 (derivable_pt_lim_id t)) as D.
      unfold mult_real_fct, id in D. rewrite Rmult_1_r in D.
      intros eps He. destruct (D eps He) as [d Hd]. exists d. intros h H1 H2. specialize (Hd h H1 H2).
      replace ((t + h) * / (1 - p) - t * / (1 - p)) with (/ (1 - p) * (t + h) - / (1 - p) * t) by ring. exact Hd.
    + intros E1. assert (1 = 1 - p) by (apply (Rmult_eq_reg_l (/ (1 - p))); [rewrite Rinv_l by lra; unfold Rdiv in E1; lra|apply Rinv_neq_0_compat; lra]). lra.
Qed.
Print Assumptions C63_finding_dropout_reference.

(** ** Global average pooling and Add *)
Theorem C63_global_average_pooling :
  forall E n c h w x o go f0 g0, (0 < h * w)%nat -> ten_ok [n; c; h; w] x -> ten_ok [n; c; 1%nat; 1%nat] o -> ten_ok [n; c; 1%nat; 1%nat] go ->
  length f0 = (n * c)%nat -> length g0 = (n * c * (h * w))%nat ->
  (exists y, ref_gap_forward n c (h * w) (tdat x) f0 = Ok y /\ lforward E LGap [x] [o] = Ok (LGap, mkT [n; c; 1%nat; 1%nat] y)) /\
  (exists r, ref_gap_backward n c (h * w) (tdat go) g0 = Ok r /\ adds_to_gradient E LGap LGap [x] [o] go [n; c; h; w] r).
Proof. intros. split; [apply gap_agrees|apply gap_backward_agrees]; assumption. Qed.
Print Assumptions C63_global_average_pooling.

Theorem C63_add :
  forall E x y o go g0 g1, twf x -> twf y -> tsh y = tsh x -> ten_ok (tsh x) o -> ten_ok (tsh x) go -> length g0 = tot go -> length g1 = tot go ->
  (exists r, ref_add_forward x y o = Ok r /\ lforward E LAdd [x; y] [o] = Ok (LAdd, mkT (tsh x) r)) /\
  (exists r0 r1, ref_add_backward (tdat go) g0 g1 = Ok (r0, r1) /\
     forall gm k0 k1 ko gi0 gi1, ten_ok (tsh x) gi0 -> ten_ok (tsh x) gi1 ->
     nth_error gm k0 = Some gi0 -> nth_error gm k1 = Some gi1 -> nth_error gm ko = Some go -> k0 <> ko -> k1 <> ko ->
     exists gm', lbackward E LAdd [x; y] [o] gm [k0; k1] [ko] = Ok (LAdd, gm') /\
       accum gm [k0; k1] (fun p i => (nth p [r0; r1] []).[i]) gm').
Proof.
  intros E x y o go g0 g1 Wx Wy Sy Ho Hgo L0 L1. split; [apply add_agrees; assumption|].
  destruct (add_backward_agrees E x y o go g0 g1 L0 L1) as (r0 & r1 & F & B). exists r0, r1. split; [exact F|].
  intros gm k0 k1 ko gi0 gi1 H0 H1 N0 N1 No D0 D1. destruct Hgo as [Sgo Wgo]. rewrite <- Sgo in H0, H1.
  apply (B gm k0 k1 ko gi0 gi1); assumption.
Qed.
Print Assumptions C63_add.

(** ** Batch normalisation.  In training mode the batch is not empty; in evaluation mode the running
    variances are not negative. *)
Theorem C63_batchnorm1d_forward :
  forall E eps alpha gamma beta std rmean rvar centered n m x o tr f0 c0 s0, 0 < eps ->
  (tr = true -> 0 < n)%nat -> (tr = false -> forall j, (j < m)%nat -> 0 <= (tdat rvar).[j]) ->
  bn1_state m gamma beta std rmean rvar centered -> p_train gamma = tr -> p_train beta = tr ->
  ten_ok [n; m] x -> ten_ok [n; m] o -> length f0 = (n * m)%nat -> length c0 = (n * m)%nat -> length s0 = m ->
  exists y c s rm rv,
    ref_bn_forward n m (tdat x) f0 c0 s0 (tdat rmean) (tdat rvar) tr eps alpha (tdat (p_data gamma)) (tdat (p_data beta)) = Ok (y, c, s, rm, rv) /\
    lforward E (LBN1 eps alpha gamma beta std rmean rvar centered) [x] [o] =
    Ok (LBN1 eps alpha gamma beta (mkT [m] s) (mkT [m] rm) (mkT [m] rv) (mkT [n; m] c), mkT [n; m] y) /\
    length c = (n * m)%nat /\ length s = m.
Proof. intros. apply bn1_agrees; assumption. Qed.
Print Assumptions C63_batchnorm1d_forward.

Theorem C63_batchnorm1d_backward :
  forall E E2 eps alpha gamma beta std rmean rvar centered n m x o go g0 gg0 bg0, (0 < n)%nat ->
  (forall j, (j < m)%nat -> 0 < (tdat std).[j]) ->
  prm_ok [m] gamma -> prm_ok [m] beta -> ten_ok [m] std -> ten_ok [n; m] centered -> ten_ok [n; m] go ->
  length g0 = (n * m)%nat -> length gg0 = m -> length bg0 = m ->
  let L := LBN1 eps alpha gamma beta std rmean rvar centered in
  exists r gg bg, ref_bn_backward n m (tdat centered) (tdat std) (tdat go) g0 (tdat (p_data gamma)) gg0 bg0 = Ok (r, gg, bg) /\
    adds_to_gradient E L L [x] [o] go [n; m] r /\
    lupdate E2 L [x] [go] = Ok (LBN1 eps alpha (set_grad gamma gg) (set_grad beta bg) std rmean rvar centered).
Proof. intros. apply bn1_backward_agrees; assumption. Qed.
Print Assumptions C63_batchnorm1d_backward.

(** The library keeps the centered input in NHWC order, the reference in NCHW order. *)
Theorem C63_batchnorm2d_forward :
  forall N C H W E eps alpha gamma beta std rmean rvar centered nin nout x o tr junk f0 c0 s0, 0 < eps ->
  let T := (N * C * H * W)%nat in
  (tr = true -> 0 < N * H * W)%nat -> (tr = false -> forall j, (j < C)%nat -> 0 <= (tdat rvar).[j]) ->
  bn2_state C gamma beta std rmean rvar ->
  (tot nin = 0 \/ (tot nin = T /\ tot nout = T))%nat -> (tot centered = 0 \/ tot centered = T)%nat ->
  p_train gamma = tr -> p_train beta = tr ->
  ten_ok [N; C; H; W] x -> ten_ok [N; C; H; W] o -> length f0 = T -> length c0 = T -> length s0 = C ->
  exists y c s rm rv cent' nin' nout',
    ref_bn2_forward junk N C H W (tdat x) f0 (tdat (p_data gamma)) (tdat (p_data beta)) (tdat rmean) (tdat rvar) c0 s0 tr alpha eps
      = Ok (y, c, s, rm, rv) /\
    lforward E (LBN2 eps alpha gamma beta std rmean rvar centered nin nout) [x] [o] =
    Ok (LBN2 eps alpha gamma beta (mkT [C] s) (mkT [C] rm) (mkT [C] rv) cent' nin' nout', mkT [N; C; H; W] y) /\
    (forall d, length d = T -> nhwc2nchw N C H W (tdat cent') d = Ok c) /\
    tot cent' = T /\ tot nin' = T /\ tot nout' = T /\ length c = T /\ length s = C.
Proof. intros. apply bn2_agrees; assumption. Qed.
Print Assumptions C63_batchnorm2d_forward.

Theorem C63_batchnorm2d_backward :
  forall N C H W E E2 eps alpha gamma beta std rmean rvar centered nin nout c x o go junk g0 gg0 bg0,
  let T := (N * C * H * W)%nat in
  (0 < N * H * W)%nat -> (0 < C)%nat -> (forall j, (j < C)%nat -> 0 < (tdat std).[j]) ->
  prm_ok [C] gamma -> prm_ok [C] beta -> ten_ok [C] std -> tot centered = T -> tot nin = T -> tot nout = T ->
  (forall d, length d = T -> nhwc2nchw N C H W (tdat centered) d = Ok c) ->
  ten_ok [N; C; H; W] go -> length g0 = T -> length gg0 = C -> length bg0 = C ->
  exists r gg bg nin' nout' nout2, ref_bn2_backward junk N C H W c (tdat std) (tdat go) g0 (tdat (p_data gamma)) gg0 bg0 = Ok (r, gg, bg) /\
    replaces_gradient E (LBN2 eps alpha gamma beta std rmean rvar centered nin nout)
      (LBN2 eps alpha gamma beta std rmean rvar centered nin' nout') [x] [o] go [N; C; H; W] r /\
    lupdate E2 (LBN2 eps alpha gamma beta std rmean rvar centered nin nout) [x] [go] =
      Ok (LBN2 eps alpha (set_grad gamma gg) (set_grad beta bg) std rmean rvar centered nin nout2).
Proof. intros. apply bn2_backward_agrees; assumption. Qed.
Print Assumptions C63_batchnorm2d_backward.

(** ** Cross entropy.  The forward values are equal for all labels and predictions, also where they are
    not finite and where an access is undefined. *)
Theorem C63_loss_forward :
  forall E st n m pred target, ce_ok st -> ten_ok [n; m] pred -> ten_ok [n; 1%nat] target ->
  ref_ce_forward pred target = (r <- ce_forward E st pred target ;; Ok (snd r)).
Proof. exact ce_forward_agrees. Qed.
Print Assumptions C63_loss_forward.

Theorem C63_loss_backward :
  forall n m pred target go, (Z.of_nat m <= int_max)%Z -> ten_ok [n; m] pred -> ten_ok [n; 1%nat] target -> ten_ok [n; m] go ->
  (forall i, (i < n)%nat -> (0 <= truncR (tdat target).[i] < Z.of_nat m)%Z) ->
  ref_ce_backward pred target go = ce_backward pred target go.
Proof. exact ce_backward_agrees. Qed.
Print Assumptions C63_loss_backward.

(** Finding: a label outside its row that still points into the tensor is accepted by both, and then they
    differ when two rows point to the same element: the library assigns, the reference accumulates. *)
Theorem C63_finding_label_outside_row :
  forall a b, b <> 0 ->
  let pred := mkT [2%nat; 1%nat] [a; b] in
  let target := mkT [2%nat; 1%nat] [1; 0] in
  ce_backward pred target pred = Ok [Some 0; Some (- (1 / (2 * b)))] /\
  ref_ce_backward pred target pred = Ok [Some 0; Some (- (1 / b))].
Proof.
  intros a b Hb pred target.
  assert (T1 : truncR 1 = 1%Z) by (rewrite (truncR_nat 1 1); [reflexivity|cbn; lra]).
  assert (T0 : truncR 0 = 0%Z) by (rewrite (truncR_nat 0 0); [reflexivity|cbn; lra]).
  assert (EA : forall v w, xdiv v 2 = Some w <-> v / 2 = w).
  { intros v w. unfold xdiv. destruct (Req_EM_T 2 0); [lra|]. split; [intros [= <-]; reflexivity|intros <-; reflexivity]. }
  assert (EB : forall v, xdiv v b = Some (v / b)) by (intros v; unfold xdiv; destruct (Req_EM_T b 0); [contradiction|reflexivity]).
  assert (EC : xdiv 1 (b * 2) = Some (1 / (b * 2))) by (unfold xdiv; destruct (Req_EM_T (b * 2) 0); [lra|reflexivity]).
  assert (E2 : INR 2 = 2) by (cbn; lra).
  split.
  - unfold ce_backward, ce_dims, match_target, cast_int, pred, target. cbn [tsh tdat length seq map_res rd nth_error bind].
    cbv -[Rdiv Rmult Rplus Rminus Ropp IZR INR truncR xdiv Rinv fits_int Z.ltb Z.add Z.mul Z.of_nat Z.to_nat].
    rewrite T1, T0. cbv -[Rdiv Rmult Rplus Rminus Ropp IZR INR truncR xdiv Rinv].
    rewrite E2, EB. do 2 f_equal; [apply EA; field|f_equal; apply EA; field; exact Hb].
  - unfold ref_ce_backward, pred, target, cast_int.
    cbv -[Rdiv Rmult Rplus Rminus Ropp IZR INR truncR xdiv Rinv fits_int Z.ltb Z.add Z.mul Z.of_nat Z.to_nat].
    rewrite !Rmult_1_r, T1, T0. cbv -[Rdiv Rmult Rplus Rminus Ropp IZR INR truncR xdiv Rinv].
    rewrite E2, EC. do 4 f_equal. field. exact Hb.
Qed.
Print Assumptions C63_finding_label_outside_row.

(** ** Optimizers: one step, from any state whose tensors fit the parameters (a missing entry makes both
    throw at the same parameter). *)
Theorem C63_optimizer_step :
  forall lr ps, pmap_ok ps ->
  sgd_step lr ps = ref_sgd_step lr ps /\
  (forall gamma vel, (forall k p v, In (k, p) ps -> find_key vel k = Some v -> tot v = tot (p_data p)) ->
     momentum_step lr gamma ps vel = ref_momentum_step lr gamma ps vel) /\
  (forall b1 b2 eps t s, 0 <= b1 < 1 -> 0 <= b2 < 1 -> 0 < eps ->
     (forall k p v, In (k, p) ps -> find_key (fst s) k = Some v -> tot v = tot (p_data p)) ->
     (forall k p v, In (k, p) ps -> find_key (snd s) k = Some v -> tot v = tot (p_data p)) ->
     adam_step lr b1 b2 eps t ps s = (S t, ref_adam_step lr b1 b2 eps (S t) ps s)).
Proof.
  intros lr ps Hok. split; [apply sgd_step_agrees; exact Hok|]. split.
  - intros. apply momentum_step_agrees; assumption.
  - intros. apply adam_step_agrees; assumption.
Qed.
Print Assumptions C63_optimizer_step.

(** Whole histories, from newly made optimizers. *)
Theorem C63_optimizer_histories :
  forall evs lr ps, pmap_ok ps -> (forall e, In e evs -> event_ok ps e) ->
  run_sgd lr ps evs = run_ref_sgd lr ps evs /\
  (forall gamma, run_momentum lr gamma ps (momentum_new ps) evs = run_ref_momentum lr gamma ps (momentum_new ps) evs) /\
  (forall b1 b2 eps, 0 <= b1 < 1 -> 0 <= b2 < 1 -> 0 < eps ->
     snd (run_adam lr b1 b2 eps 0 ps (adam_new ps) evs) = run_ref_adam lr b1 b2 eps 0 ps (adam_new ps) evs).
Proof.
  intros evs lr ps Hok He.
  assert (HV : forall k p v, In (k, p) ps -> find_key (momentum_new ps) k = Some v -> tot v = tot (p_data p)).
  { intros k p v Hin Hf. rewrite (P_Optim.find_momentum_new ps k p (proj1 Hok) Hin) in Hf. injection Hf as <-.
    unfold tot. rewrite P_Optim.zeros_len. destruct (proj2 Hok k p Hin) as (_ & Wp & _). unfold twf in Wp. rewrite Wp. reflexivity. }
  split; [apply run_ref_sgd_agrees; assumption|]. split.
  - intros. apply run_ref_momentum_agrees; assumption.
  - intros. apply run_ref_adam_agrees; assumption.
Qed.
Print Assumptions C63_optimizer_histories.

(** ** Concrete cases that meet the hypotheses *)
Definition ex_W : prm := mkP (mkT [2%nat; 3%nat] [1; -1; 2; 3; 0; 1]) (mkT [2%nat; 3%nat] [0; 0; 0; 0; 0; 0]) true.
Definition ex_b : prm := mkP (mkT [2%nat] [1; 2]) (mkT [2%nat] [0; 0]) true.
Definition ex_x : ten := mkT [2%nat; 3%nat] [1; 2; 3; -1; 0; 4].

Example C63_nonvacuous :
  prm_ok [2%nat; prodN [3%nat]] ex_W /\ prm_ok [2%nat] ex_b /\ ten_ok [2%nat; 3%nat] ex_x /\
  pmap_ok [("w"%string, ex_W); ("b"%string, ex_b)] /\
  bn1_state 2 ex_b ex_b (mkT [2%nat] [1; 1]) (mkT [2%nat] [0; 5]) (mkT [2%nat] [1; 4]) (mkT [] []) /\
  bn2_state 2 ex_b ex_b (mkT [2%nat] [1; 1]) (mkT [2%nat] [0; 5]) (mkT [2%nat] [1; 4]) /\
  (0 <= truncR (tdat (mkT [2%nat; 1%nat] [2%R; 0%R])).[0%nat] < Z.of_nat 3)%Z /\
  (forall e, In e [EStep (fun k => if String.eqb k "w" then [1; 1; 1; 1; 1; 1] else [1; 2]) (fun k => String.eqb k "w"); ELr (1/2);
                   EStep (fun k => if String.eqb k "w" then [0; 2; 0; 2; 0; 2] else [3; 4]) (fun _ => true)] ->
     event_ok [("w"%string, ex_W); ("b"%string, ex_b)] e).
Proof.
  assert (PW : prm_ok [2%nat; 3%nat] ex_W) by (repeat split).
  assert (PB : prm_ok [2%nat] ex_b) by (repeat split).
  split; [exact PW|]. split; [exact PB|]. split; [split; reflexivity|]. split.
  { split.
    - cbn. constructor; [intros [H|[]]; discriminate|]. constructor; [intros []|constructor].
    - intros k p [H|[H|[]]]; injection H as <- <-; [exact PW|exact PB]. }
  split; [split; [exact PB|split; [exact PB|split; [split; reflexivity|split; [split; reflexivity|split; [split; reflexivity|left; reflexivity]]]]]|].
  split; [split; [exact PB|split; [exact PB|split; [split; reflexivity|split; split; reflexivity]]]|].
  split.
  { cbn [tdat nth]. rewrite (truncR_nat 2 2) by (cbn; lra). lia. }
  intros e [<-|[<-|[<-|[]]]]; cbn [event_ok]; auto; intros k p [H|[H|[]]]; injection H as <- <-; reflexivity.
Qed.
