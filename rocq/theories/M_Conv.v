(** Model of the convolution and max-pooling kernels of src/runtime/cpu/kernels/kernels.cpp.
    [Tensor(shape, pointer)] views of a part of an array are modelled as slices; an access outside
    the view is [UB] even when it would stay inside the underlying array. *)
From Coq Require Import Reals Lra.
From Verif Require Import Base Sums M_Im2col S_Im2col M_Kernels.
Open Scope nat_scope.

(** A view of [n] elements starting at offset [off]. *)
Definition slice {V} (off n : nat) (l : list V) : res (list V) :=
  if off + n <=? length l then Ok (firstn n (skipn off l)) else UB.

(** Writing a view back. *)
Definition splice {V} (off : nat) (s l : list V) : list V :=
  firstn off l ++ s ++ skipn (off + length s) l.

(** Sizes shared by the convolution kernels (kernels.cpp:89-102). *)
Record cdims := mkCd { cd_cin : nat; cd_h : nat; cd_w : nat; cd_cout : nat; cd_ho : nat; cd_wo : nat }.

Definition cd_rows (g : geom) (d : cdims) : nat := cd_cin d * KH g * KW g.
Definition cd_cols (d : cdims) : nat := cd_ho d * cd_wo d.

(** kernels.cpp:107-116, one iteration of the batch loop.  The state is (im2col_buf, output).
    [geom] carries dilation 1, the default argument of im2col (kernels.hpp). *)
Definition conv_step (g : geom) (d : cdims) (input weights bias : list R) (b : nat)
                     (s : list R * list R) : res (list R * list R) :=
  let '(buf, output) := s in
  let rows := cd_rows g d in let cols := cd_cols d in
  let in_off := cd_cin d * cd_h d * cd_w d in
  let out_off := cd_cout d * cd_ho d * cd_wo d in
  src <- slice (b * in_off) in_off input ;;
  plane <- slice (b * (rows * cols)) (rows * cols) buf ;;
  X <- im2col g (Z.of_nat (cd_cin d)) (Z.of_nat (cd_h d)) (Z.of_nat (cd_w d)) 0%R src plane ;;
  let buf' := splice (b * (rows * cols)) X buf in
  _ <- emap (cd_cout d * rows) weights ;; _ <- emap (cd_cout d) bias ;;
  result <- slice (b * out_off) (cd_cout d * cols) output ;;
  let r1 := put2 (cd_cout d) cols
              (fun i j => rsum rows (fun k => el weights rows i k * el X cols k j)%R) result in
  let r2 := put2 (cd_cout d) cols (fun i j => el r1 cols i j + bias.[i])%R r1 in
  Ok (buf', splice (b * out_off) r2 output).

(** kernels.cpp:81-117 executed sequentially; see [M_ConvPar] for the OpenMP loop. *)
Definition conv_forward (g : geom) (d : cdims) (batch : nat) (input weights bias buf output : list R)
  : res (list R * list R) :=
  forr batch (conv_step g d input weights bias) (buf, output).

(** kernels.cpp:142-152, one iteration; [junk] is the fresh uninitialised [grad_im2col_buf]. *)
Definition conv_input_grad_step (g : geom) (d : cdims) (grad_output weights junk : list R) (b : nat)
                                (grad_input : list R) : res (list R) :=
  let rows := cd_rows g d in let cols := cd_cols d in
  let in_off := cd_cin d * cd_h d * cd_w d in
  let out_off := cd_cout d * cd_ho d * cd_wo d in
  _ <- emap (cd_cout d * rows) weights ;;
  _ <- emap (rows * cols) junk ;;
  go <- slice (b * out_off) (cd_cout d * cols) grad_output ;;
  let grad_col := put2 rows cols
        (fun k j => rsum (cd_cout d) (fun i => el weights rows i k * el go cols i j)%R) junk in
  gi <- slice (b * in_off) in_off grad_input ;;
  gi' <- col2im Rplus g (Z.of_nat (cd_cin d)) (Z.of_nat (cd_h d)) (Z.of_nat (cd_w d)) grad_col gi ;;
  Ok (splice (b * in_off) gi' grad_input).

(** kernels.cpp:119-153 *)
Definition conv_input_grad (g : geom) (d : cdims) (batch : nat) (junk : nat -> list R)
                           (grad_output weights grad_input : list R) : res (list R) :=
  forr batch (fun b => conv_input_grad_step g d grad_output weights (junk b) b) grad_input.

(** initializer::zeros (initializers.cpp:9-11) *)
Definition zeros (l : list R) : list R := tab (length l) (fun _ => 0%R).

(** kernels.cpp:155-177 *)
Definition conv_weights_grad (batch c_out rows cols : nat) (grad_output im2col_buf grad_weights : list R)
  : res (list R) :=
  _ <- emap (c_out * rows) grad_weights ;;
  forr batch (fun b dW =>
    go <- slice (b * (c_out * cols)) (c_out * cols) grad_output ;;
    col <- slice (b * (rows * cols)) (rows * cols) im2col_buf ;;
    Ok (put2 c_out rows
         (fun i k => el dW rows i k + rsum cols (fun j => el go cols i j * el col cols k j))%R dW))
    (zeros grad_weights).

(** kernels.cpp:179-195 *)
Definition conv_bias_grad (batch c_out cols : nat) (grad_output grad_bias : list R) : res (list R) :=
  _ <- emap c_out grad_bias ;;
  forr batch (fun b db =>
    go <- slice (b * (c_out * cols)) (c_out * cols) grad_output ;;
    Ok (put c_out (fun i => db.[i] + rsum cols (fun j => el go cols i j))%R db))
    (zeros grad_bias).

(** ** Max pooling *)

(** [std::numeric_limits<float>::min()] = 2^-126, the fill value of kernels.cpp:223. *)
Definition flt_min : R := (/ 2 ^ 126)%R.

(** kernels.cpp:226-229: [maxCoeff(&max_row)] of column [j]; [am n f] is the row Eigen reports.  The
    [float] array [max_indices] holds small integers; they are modelled as naturals. *)
Definition pool_cols (am : nat -> (nat -> R) -> nat) (i rows cols : nat) (col : list R)
                     (s : list R * list nat) : res (list R * list nat) :=
  forr cols (fun j '(dst, ind) =>
    if rows =? 0 then UB else
    let f := fun k => el col cols k j in
    dst' <- wr dst (i * cols + j) (f (am rows f)) ;;
    ind' <- wr ind (i * cols + j) (am rows f) ;;
    Ok (dst', ind')) s.

(** kernels.cpp:197-231; [planes = batch * c].  Returns (output, max_indices, im2col_buf). *)
Definition maxpool_forward (am : nat -> (nat -> R) -> nat) (g : geom) (planes h w ho wo : nat)
                           (input output : list R) (indices : list nat) (buf : list R)
  : res (list R * list nat * list R) :=
  let rows := KH g * KW g in let cols := ho * wo in
  forr planes (fun i '(output, indices, buf) =>
    src <- slice (i * (h * w)) (h * w) input ;;
    buf' <- im2col g 1 (Z.of_nat h) (Z.of_nat w) flt_min src buf ;;
    _ <- emap (rows * cols) buf' ;;
    '(output', indices') <- pool_cols am i rows cols buf' (output, indices) ;;
    Ok (output', indices', buf')) (output, indices, buf).

(** kernels.cpp:233-269.  Returns (grad_input, im2col_buf). *)
Definition maxpool_input_grad (g : geom) (planes h w ho wo : nat) (grad_output : list R)
                              (indices : list nat) (buf grad_input : list R) : res (list R * list R) :=
  let cols := ho * wo in
  forr planes (fun i '(grad_input, buf) =>
    buf' <- forr cols (fun j buf =>
              row <- rd indices (i * cols + j) ;;
              v <- rd grad_output (i * cols + j) ;;
              wr buf (row * cols + j) v) (zeros buf) ;;
    gi <- slice (i * (h * w)) (h * w) grad_input ;;
    gi' <- col2im Rplus g 1 (Z.of_nat h) (Z.of_nat w) buf' gi ;;
    Ok (splice (i * (h * w)) gi' grad_input, buf')) (grad_input, buf).
