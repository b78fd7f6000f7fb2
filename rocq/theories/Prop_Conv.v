(** Properties C09, C11, C12, C13: convolution and max pooling. *)
From Coq Require Import Reals Lra.
From Verif Require Import Base BaseFacts Sums M_Im2col S_Im2col M_Kernels M_Conv M_Layers S_Grad S_Partial P_Conv2 P_Kernels P_Layout.
Open Scope R_scope.

(** ** C09 Convolution forward *)
Theorem C09_convolution_is_padded_cross_correlation :
  forall (E : env) (g : geom) (W b : prm) (buf : ten) (n cin h w cout ho wo : nat) (x o : ten),
  sizes_ok g h w ho wo -> validate_geom g = Ok tt ->
  prm_ok [cout; cin; KH g; KW g] W -> prm_ok [cout] b ->
  ten_ok [n; cin; h; w] x -> ten_ok [n; cout; ho; wo] o ->
  exists buf' o', lforward E (LConv g W b buf) [x] [o] = Ok (LConv g W b buf', o') /\
    ten_ok [n; cout; ho; wo] o' /\
    forall i oc r q, (i < n)%nat -> (oc < cout)%nat -> (r < ho)%nat -> (q < wo)%nat ->
      (tdat o').[((i * cout + oc) * ho + r) * wo + q] =
      (tdat (p_data b)).[oc] +
      rsum cin (fun c => rsum (KH g) (fun a => rsum (KW g) (fun d =>
        (tdat (p_data W)).[((oc * cin + c) * KH g + a) * KW g + d] *
        padded 0 h w (tdat x) (i * cin + c) (win_row g a r) (win_col g d q)))).
Proof. intros E g W b buf n cin h w cout ho wo x o H1 H2 H3 H4 H5. exact (conv_forward_spec E g W b buf n cin h w cout ho wo x H1 H2 H3 H4 H5 o). Qed.
Print Assumptions C09_convolution_is_padded_cross_correlation.

(** A 2x2 kernel, padding 1, stride 2, on two 3x3 images with one channel, three output channels. *)
Definition ex_g : geom := mkGeom 2 2 1 1 2 2 1 1.
Definition ex_t (sh : list nat) : ten := mkT sh (tab (prodN sh) INR).
Definition ex_p (sh : list nat) : prm := mkP (ex_t sh) (ex_t sh) true.
Example C09_nonvacuous :
  sizes_ok ex_g 3 3 2 2 /\ validate_geom ex_g = Ok tt /\
  prm_ok [3; 1; KH ex_g; KW ex_g]%nat (ex_p [3; 1; 2; 2]%nat) /\ prm_ok [3]%nat (ex_p [3]%nat) /\
  ten_ok [2; 1; 3; 3]%nat (ex_t [2; 1; 3; 3]%nat) /\ ten_ok [2; 3; 2; 2]%nat (ex_t [2; 3; 2; 2]%nat) /\
  (0 < 2 * (1 * KH ex_g * KW ex_g) * (2 * 2))%nat.
Proof. repeat split; cbn; lia. Qed.

(** ** C11 Convolution gradients *)
Theorem C11_convolution_gradients_are_partial_derivatives :
  forall (E : env) (g : geom) (W b : prm) (buf : ten) (n cin h w cout ho wo : nat) (x : ten),
  sizes_ok g h w ho wo -> validate_geom g = Ok tt ->
  prm_ok [cout; cin; KH g; KW g] W -> prm_ok [cout] b -> ten_ok [n; cin; h; w] x ->
  (0 < n * (cin * KH g * KW g) * (ho * wo))%nat ->
  correct_gradients E (LConv g W b buf) [x] [n; cout; ho; wo].
Proof. exact conv_gradients. Qed.
Print Assumptions C11_convolution_gradients_are_partial_derivatives.
(* Hypotheses met: [C09_nonvacuous]. *)

(** The gradient tensors a backward call needs exist, e.g. after the allocation of the CPU backend. *)
Example C11_nonvacuous : grads_ready (LConv ex_g (ex_p [3; 1; 2; 2]%nat) (ex_p [3]%nat) empty_ten)
   [[2; 1; 3; 3]]%nat [2; 3; 2; 2]%nat [ex_t [2; 1; 3; 3]%nat; ex_t [2; 3; 2; 2]%nat] [0%nat] 1 (ex_t [2; 3; 2; 2]%nat) /\ NoDup [0%nat].
Proof.
  split; [|repeat constructor; intros []]. repeat split; auto.
  - intros [H|[]]; discriminate.
  - intros p Hp. destruct p as [|p]; [|cbn in Hp; lia]. eexists. split; [reflexivity|]. repeat split. discriminate.
Qed.

(** ** C12 MaxPooling forward *)
Theorem C12_maxpooling_is_window_maximum :
  forall (E : env) (g : geom) (ind : iten) (buf : ten) (n c h w ho wo : nat) (x o : ten),
  sizes_ok g h w ho wo -> validate_geom g = Ok tt -> ibuf_ok ind ->
  ten_ok [n; c; h; w] x -> is_argmax (e_amax E) -> am_ext (e_amax E) -> ten_ok [n; c; ho; wo] o ->
  exists ind' buf' o', lforward E (LMaxPool g ind buf) [x] [o] = Ok (LMaxPool g ind' buf', o') /\
    ten_ok [n; c; ho; wo] o' /\
    forall i r q, (i < n * c)%nat -> (r < ho)%nat -> (q < wo)%nat ->
      exists a d, (a < KH g)%nat /\ (d < KW g)%nat /\
        (tdat o').[(i * ho + r) * wo + q] = wcell g h w (tdat x) i r q a d /\
        forall a' d', (a' < KH g)%nat -> (d' < KW g)%nat ->
          wcell g h w (tdat x) i r q a' d' <= (tdat o').[(i * ho + r) * wo + q].
Proof. intros E g ind buf n c h w ho wo x o H1 H2 H3 H4 H5 H6. exact (maxpool_forward_spec E g ind buf n c h w ho wo x H1 H2 H3 H4 H5 H6 o). Qed.
Print Assumptions C12_maxpooling_is_window_maximum.

(** Without padding the cells of a window are exactly pixels. *)
Theorem C12_without_padding_every_cell_is_a_pixel :
  forall (g : geom) (h w ho wo r q a d : nat),
  sizes_ok g h w ho wo -> validate_geom g = Ok tt ->
  g_ph g = 0%Z -> g_pw g = 0%Z -> g_dh g = 1%Z -> g_dw g = 1%Z ->
  (g_kh g <= Z.of_nat h)%Z -> (g_kw g <= Z.of_nat w)%Z ->
  (r < ho)%nat -> (q < wo)%nat -> (a < KH g)%nat -> (d < KW g)%nat ->
  inside h w (win_row g a r) (win_col g d q) = true.
Proof. exact no_padding_inside. Qed.
Print Assumptions C12_without_padding_every_cell_is_a_pixel.

(** Finding: where the window overlaps the padding and all its pixels are below the smallest positive
    float, the output is that constant instead of a pixel. *)
Theorem C12_padded_window_of_smaller_pixels_yields_constant :
  forall (E : env) (g : geom) (ind : iten) (buf : ten) (n c h w ho wo : nat) (x o o' : ten) (L' : layer) (i r q a0 d0 : nat),
  sizes_ok g h w ho wo -> validate_geom g = Ok tt -> ibuf_ok ind ->
  ten_ok [n; c; h; w] x -> is_argmax (e_amax E) -> am_ext (e_amax E) -> ten_ok [n; c; ho; wo] o ->
  lforward E (LMaxPool g ind buf) [x] [o] = Ok (L', o') ->
  (i < n * c)%nat -> (r < ho)%nat -> (q < wo)%nat -> (a0 < KH g)%nat -> (d0 < KW g)%nat ->
  inside h w (win_row g a0 r) (win_col g d0 q) = false ->
  (forall a d, (a < KH g)%nat -> (d < KW g)%nat -> inside h w (win_row g a r) (win_col g d q) = true ->
     (tdat x).[pixel h w i (win_row g a r) (win_col g d q)] < / 2 ^ 126) ->
  (tdat o').[(i * ho + r) * wo + q] = / 2 ^ 126.
Proof. exact maxpool_padded_negative. Qed.
Print Assumptions C12_padded_window_of_smaller_pixels_yields_constant.

(** An arg max as Eigen's: the first largest index. *)
Example C12_nonvacuous : exists E, is_argmax (e_amax E) /\ am_ext (e_amax E) /\
  ten_ok [2; 1; 3; 3]%nat (ex_t [2; 1; 3; 3]%nat) /\ ibuf_ok (mkIT [] []) /\
  sizes_ok ex_g 3 3 2 2 /\ inside 3 3 (win_row ex_g 0 0) (win_col ex_g 0 0) = false.
Proof.
  exists (mkEnv (fun _ => 0) (fun _ => O) (fun _ => 0) first_max). repeat split; try apply first_max_spec; try exact first_max_ext; auto. left. reflexivity.
Qed.

(** ** C13 MaxPooling backward *)
Theorem C13_maxpooling_gradient_goes_to_one_maximal_cell :
  forall (E : env) (g : geom) (ind : iten) (buf : ten) (n c h w ho wo : nat) (x : ten),
  sizes_ok g h w ho wo -> validate_geom g = Ok tt -> ibuf_ok ind ->
  ten_ok [n; c; h; w] x -> is_argmax (e_amax E) -> am_ext (e_amax E) ->
  forall (o : ten) (E2 : env) (go gi : ten) (gm : list ten) (k kout : nat),
  ten_ok [n; c; ho; wo] o -> ten_ok [n; c; ho; wo] go -> ten_ok [n; c; h; w] gi ->
  nth_error gm k = Some gi -> nth_error gm kout = Some go -> k <> kout ->
  exists L1 out L2 gi' (sa sd : nat -> nat -> nat -> nat),
    lforward E (LMaxPool g ind buf) [x] [o] = Ok (L1, out) /\
    lbackward E2 L1 [x] [out] gm [k] [kout] = Ok (L2, upd gm k gi') /\ ten_ok [n; c; h; w] gi' /\
    (* (sa, sd) is the kernel position selected in each window; it holds the output value *)
    (forall i r q, (i < n * c)%nat -> (r < ho)%nat -> (q < wo)%nat ->
       (sa i r q < KH g)%nat /\ (sd i r q < KW g)%nat /\
       (tdat out).[(i * ho + r) * wo + q] = wcell g h w (tdat x) i r q (sa i r q) (sd i r q)) /\
    (* a pixel receives the gradients of exactly the windows that selected it *)
    (forall i y z, (i < n * c)%nat -> (0 <= y < Z.of_nat h)%Z -> (0 <= z < Z.of_nat w)%Z ->
       (tdat gi').[pixel h w i y z] = (tdat gi).[pixel h w i y z] +
       rsum ho (fun r => rsum wo (fun q =>
         if ((win_row g (sa i r q) r =? y) && (win_col g (sd i r q) q =? z))%Z
         then (tdat go).[(i * ho + r) * wo + q] else 0))) /\
    (* and nothing is lost but the gradients of windows that selected padding *)
    rsum (n * c * (h * w)) (fun p => (tdat gi').[p] - (tdat gi).[p]) =
    rsum (n * c) (fun i => rsum ho (fun r => rsum wo (fun q =>
      if inside h w (win_row g (sa i r q) r) (win_col g (sd i r q) q)
      then (tdat go).[(i * ho + r) * wo + q] else 0))).
Proof. exact maxpool_backward_spec. Qed.
Print Assumptions C13_maxpooling_gradient_goes_to_one_maximal_cell.

Theorem C13_maxpooling_gradient_is_derivative_at_clear_maxima :
  forall (E : env) (g : geom) (ind : iten) (buf : ten) (n c h w ho wo : nat) (x : ten),
  sizes_ok g h w ho wo -> validate_geom g = Ok tt -> ibuf_ok ind ->
  ten_ok [n; c; h; w] x -> is_argmax (e_amax E) -> am_ext (e_amax E) ->
  clear_maxima g (n * c) h w ho wo x ->
  correct_gradients E (LMaxPool g ind buf) [x] [n; c; ho; wo].
Proof. exact maxpool_gradients. Qed.
Print Assumptions C13_maxpooling_gradient_is_derivative_at_clear_maxima.

(** A 2x2 image under one 2x2 window: the largest cell is unique. *)
Definition ex_g2 : geom := mkGeom 2 2 0 0 2 2 1 1.
Example C13_nonvacuous : sizes_ok ex_g2 2 2 1 1 /\ validate_geom ex_g2 = Ok tt /\
  clear_maxima ex_g2 (1 * 1) 2 2 1 1 (mkT [1; 1; 2; 2]%nat [1; 4; 2; 3]).
Proof.
  split; [|split]; [repeat split|reflexivity|]. intros i r q Hi Hr Hq.
  assert (i = 0 /\ r = 0 /\ q = 0)%nat as (-> & -> & ->) by lia.
  exists 0%nat, 1%nat. split; [cbn; lia|]. split; [cbn; lia|]. intros a d Ha Hd Hne. left.
  change (KH ex_g2) with 2%nat in Ha. change (KW ex_g2) with 2%nat in Hd.
  assert (Ha' : a = 0%nat \/ a = 1%nat) by lia. assert (Hd' : d = 0%nat \/ d = 1%nat) by lia.
  destruct Ha' as [-> | ->], Hd' as [-> | ->]; try (exfalso; apply Hne; reflexivity); unfold wcell, padded; cbn; change (Pos.to_nat 1) with 1%nat; cbn; lra.
Qed.
