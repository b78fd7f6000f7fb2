(** Properties C06, C07, C08, C14: window geometry and layout conversions. *)
From Coq Require Import Reals Lra.
From Verif Require Import Base BaseFacts Sums M_Im2col S_Im2col P_Im2col P_Layout.
Open Scope Z_scope.

(** ** C06 Output size = number of window positions *)
Theorem C06_output_size_counts_windows :
  forall inp pad kernel stride : Z, 0 < stride -> kernel <= inp + 2 * pad ->
  exists n, layer_out_size inp pad kernel stride = Ok n /\ 1 <= n /\
    (* window number t starts at t*stride; it fits exactly when t is one of 0 .. n-1 *)
    (forall t, (0 <= t /\ t * stride + kernel <= inp + 2 * pad) <-> 0 <= t < n) /\
    (* and the kernels recompute the same number *)
    im2col_out_size inp pad kernel stride 1 = Ok n.
Proof.
  intros inp pad kernel stride Hs Hf.
  destruct (layer_out_size_fits inp pad kernel stride Hs Hf) as (n & E & Hn & Ht).
  exists n. rewrite im2col_size_is_layer_size. auto.
Qed.
Print Assumptions C06_output_size_counts_windows.

Example C06_nonvacuous : 0 < 2 /\ 3 <= 8 + 2 * 1 /\ layer_out_size 8 1 3 2 = Ok 4.
Proof. repeat split; lia. Qed.

(** When the kernel does not fit no window position exists; the reported size is 0, as it should be, only
    for an overhang of at least one stride and less than two. *)
Theorem C06_output_size_when_kernel_does_not_fit :
  forall inp pad kernel stride : Z, 0 < stride -> inp + 2 * pad < kernel ->
  exists n, layer_out_size inp pad kernel stride = Ok n /\
    (forall t, ~ (0 <= t /\ t * stride + kernel <= inp + 2 * pad)) /\
    (n = 1 <-> kernel - (inp + 2 * pad) < stride) /\
    (stride <= kernel - (inp + 2 * pad) -> n = 1 - (kernel - (inp + 2 * pad)) / stride /\ n <= 0).
Proof. exact layer_out_size_too_small. Qed.
Print Assumptions C06_output_size_when_kernel_does_not_fit.

Example C06_unfit_nonvacuous : 0 < 2 /\ 2 + 2 * 0 < 3 /\ layer_out_size 2 0 3 2 = Ok 1.
Proof. repeat split; lia. Qed.

(** ** C07 im2col *)
Theorem C07_im2col_lays_out_padded_windows :
  forall (V : Type) (g : geom) (ch h w ho wo : nat) (fill : V) (src dst : list V),
  sizes_ok g h w ho wo ->
  length src = (ch * h * w)%nat ->
  (ch * KH g * KW g * ho * wo <= length dst)%nat ->
  exists dst', im2col g (Z.of_nat ch) (Z.of_nat h) (Z.of_nat w) fill src dst = Ok dst' /\
    length dst' = length dst /\
    (forall c a b r q, (c < ch -> a < KH g -> b < KW g -> r < ho -> q < wo ->
       nth ((((c * KH g + a) * KW g + b) * ho + r) * wo + q) dst' fill =
       padded fill h w src c (win_row g a r) (win_col g b q)))%nat /\
    (forall i, (ch * KH g * KW g * ho * wo <= i)%nat -> nth i dst' fill = nth i dst fill).
Proof. intros V g ch h w ho wo fill src dst Hsz. exact (im2col_spec g ch h w ho wo Hsz fill src dst). Qed.
Print Assumptions C07_im2col_lays_out_padded_windows.

(** A 1x3x3 image, 2x2 kernel, padding 1, stride 2. *)
Definition ex_geom : geom := mkGeom 2 2 1 1 2 2 1 1.
Example C07_nonvacuous : sizes_ok ex_geom 3 3 2 2 /\
  im2col ex_geom 1 3 3 0 [1;2;3;4;5;6;7;8;9] (repeat 7 16) =
  Ok [0;0;0;5; 0;0;4;6; 0;2;0;8; 1;3;7;9].
Proof. repeat split. Qed.

(** Negative output sizes (the kernel overhangs by two strides or more) are undefined behaviour. *)
Theorem C07_negative_output_size_is_undefined :
  forall (V : Type) (g : geom) (ch h w n : Z) (fill : V) (src dst : list V),
  0 < ch -> 0 < g_kh g -> 0 < g_kw g -> g_sw g <> 0 ->
  im2col_out_size h (g_ph g) (g_kh g) (g_sh g) (g_dh g) = Ok n -> n < 0 ->
  im2col g ch h w fill src dst = UB.
Proof. exact (@im2col_negative_rows). Qed.
Print Assumptions C07_negative_output_size_is_undefined.

Example C07_negative_nonvacuous : im2col_out_size 1 0 5 2 1 = Ok (-1).
Proof. reflexivity. Qed.

(** ** C08 col2im *)
Theorem C08_col2im_adds_all_windows_of_a_pixel :
  forall (g : geom) (ch h w ho wo : nat) (src dst : list R),
  sizes_ok g h w ho wo ->
  length dst = (ch * h * w)%nat -> (ch * KH g * KW g * ho * wo <= length src)%nat ->
  exists dst', col2im Rplus g (Z.of_nat ch) (Z.of_nat h) (Z.of_nat w) src dst = Ok dst' /\
    length dst' = length dst /\
    forall c y x, (c < ch)%nat -> 0 <= y < Z.of_nat h -> 0 <= x < Z.of_nat w ->
      nth (pixel h w c y x) dst' 0%R =
      (nth (pixel h w c y x) dst 0%R + gathered g ho wo src c y x)%R.
Proof.
  intros g ch h w ho wo src dst Hsz. exact (col2im_spec g ch h w ho wo Hsz src dst).
Qed.
Print Assumptions C08_col2im_adds_all_windows_of_a_pixel.

Theorem C08_col2im_is_adjoint_of_im2col :
  forall (g : geom) (ch h w ho wo : nat) (x y zero buf : list R),
  sizes_ok g h w ho wo ->
  let n := (ch * KH g * KW g * ho * wo)%nat in
  length x = (ch * h * w)%nat -> length buf = n -> length y = n ->
  length zero = (ch * h * w)%nat -> (forall i, nth i zero 0%R = 0%R) ->
  exists cx iy,
    im2col g (Z.of_nat ch) (Z.of_nat h) (Z.of_nat w) 0%R x buf = Ok cx /\
    col2im Rplus g (Z.of_nat ch) (Z.of_nat h) (Z.of_nat w) y zero = Ok iy /\
    rsum n (fun i => nth i cx 0 * nth i y 0)%R =
    rsum (ch * h * w) (fun i => nth i x 0 * nth i iy 0)%R.
Proof.
  intros g ch h w ho wo x y zero buf Hsz. exact (im2col_col2im_adjoint g ch h w ho wo Hsz x y zero buf).
Qed.
Print Assumptions C08_col2im_is_adjoint_of_im2col.

(** The geometry of [C07_nonvacuous]; pixel (2,2) is seen once, at kernel (1,1) of the last window. *)
Example C08_nonvacuous : sizes_ok ex_geom 3 3 2 2 /\
  col2im Z.add ex_geom 1 3 3 [1;2;3;4; 5;6;7;8; 9;10;11;12; 13;14;15;16] (repeat 100 9) =
  Ok [113; 110; 114; 107; 104; 108; 115; 112; 116].
Proof. repeat split. Qed.

(** ** C14 Layout conversions *)
Theorem C14_layout_conversion_moves_every_element :
  forall (V : Type) (N C H W : nat) (src dst : list V) (v0 : V),
  length src = (N * C * H * W)%nat -> length dst = (N * C * H * W)%nat ->
  (exists dst', nchw2nhwc N C H W src dst = Ok dst' /\ length dst' = length dst /\
    forall n c h w, (n < N -> c < C -> h < H -> w < W ->
      nth (((n * H + h) * W + w) * C + c) dst' v0 = nth (((n * C + c) * H + h) * W + w) src v0)%nat) /\
  (exists dst', nhwc2nchw N C H W src dst = Ok dst' /\ length dst' = length dst /\
    forall n c h w, (n < N -> c < C -> h < H -> w < W ->
      nth (((n * C + c) * H + h) * W + w) dst' v0 = nth (((n * H + h) * W + w) * C + c) src v0)%nat).
Proof.
  intros V N C H W src dst v0 Hs Hd.
  exact (conj (nchw2nhwc_spec N C H W src dst v0 Hs Hd) (nhwc2nchw_spec N C H W src dst v0 Hs Hd)).
Qed.
Print Assumptions C14_layout_conversion_moves_every_element.

Theorem C14_layout_conversions_are_inverse :
  forall (V : Type) (N C H W : nat) (x buf1 buf2 : list V),
  length x = (N * C * H * W)%nat -> length buf1 = (N * C * H * W)%nat -> length buf2 = (N * C * H * W)%nat ->
  (exists y, nchw2nhwc N C H W x buf1 = Ok y /\ nhwc2nchw N C H W y buf2 = Ok x) /\
  (exists y, nhwc2nchw N C H W x buf1 = Ok y /\ nchw2nhwc N C H W y buf2 = Ok x).
Proof. exact (@layout_roundtrip). Qed.
Print Assumptions C14_layout_conversions_are_inverse.

Example C14_nonvacuous :
  nchw2nhwc 1 2 2 3 [1;2;3;4;5;6; 11;12;13;14;15;16] (repeat 0 12) =
  Ok [1;11;2;12;3;13;4;14;5;15;6;16].
Proof. reflexivity. Qed.
