(** The integer arithmetic of the layers, as the machine does it: sizes, offsets and positions are [int]s of 32 bits, and
    a result outside the range is undefined behaviour.  The other model files compute with unbounded numbers; here the
    layers are modelled once more with every [int] operation checked.  Offsets that the code computes in [size_t]
    (products with the [size_t] counters of the batch loops, and everything in NCHW2NHWC and NHWC2NCHW) stay unbounded.
    Window positions that MaxPooling keeps in a float tensor are rounded to a float. *)
From Coq Require Import Reals String.
From Verif Require Import Base Sums M_Tensor M_Im2col S_Im2col M_Kernels M_Conv M_Layers M_Nn.
Open Scope Z_scope.

(** The result of an [int] operation. *)
Definition int_ (z : Z) : res Z := if fits_int z then Ok z else UB.

(** C++ integer division on [int] (INT_MIN / -1 overflows). *)
Definition quot32 (a b : Z) : res Z := if b =? 0 then UB else int_ (Z.quot a b).

(** nn.cpp:221-222 and 258-259 *)
Definition out_size32 (inp pad kernel stride : Z) : res Z :=
  p2 <- int_ (2 * pad) ;; a <- int_ (inp + p2) ;; b <- int_ (a - kernel) ;; q <- quot32 b stride ;; int_ (q + 1).

(** kernels.cpp:420-421 and 477-478 *)
Definition im2col_out_size32 (inp pad kernel stride dilation : Z) : res Z :=
  p2 <- int_ (2 * pad) ;; a <- int_ (inp + p2) ;;
  k1 <- int_ (kernel - 1) ;; dk <- int_ (dilation * k1) ;; e <- int_ (dk + 1) ;;
  b <- int_ (a - e) ;; q <- quot32 b stride ;; int_ (q + 1).

(** [k * dilation - pad], kernels.cpp:426, 433, 483, 488 *)
Definition start32 (k dilation pad : Z) : res Z := a <- int_ (k * dilation) ;; int_ (a - pad).

(** [input_row * w + input_col], kernels.cpp:436 and 491 *)
Definition place32 (row w col : Z) : res Z := a <- int_ (row * w) ;; int_ (a + col).

(** nn.cpp:215-224 and 251-261, the shapes that MaxPooling and Convolution layers give their result; the other [outShape]
    functions do not compute. *)
Definition window_out32 (m : amap) (s : shape) : res (Z * Z) :=
  '(kh, kw) <- get_int2 m "kernel" ;;
  '(ph, pw) <- get_int2 m "padding" ;;
  '(sh, sw) <- get_int2 m "stride" ;;
  h <- dim s 2 ;; w <- dim s 3 ;;
  ho <- out_size32 h ph kh sh ;; wo <- out_size32 w pw kw sw ;;
  Ok (ho, wo).
Definition out_shape32 (k : kind) (m : amap) (ss : list shape) : res shape :=
  match k with
  | KMaxPool =>
      s <- rd ss 0 ;;
      _ <- dw_assert (length s =? 4)%nat ;;
      '(ho, wo) <- window_out32 m s ;; n <- dim s 0 ;; c <- dim s 1 ;; Ok [n; c; ho; wo]
  | KConv =>
      s <- rd ss 0 ;;
      _ <- dw_assert (length s =? 4)%nat ;;
      out <- get_int m "out_channels" ;;
      '(ho, wo) <- window_out32 m s ;; n <- dim s 0 ;; Ok [n; out; ho; wo]
  | _ => out_shape k m ss
  end.

Section Windows.
Context {V : Type}.

(** kernels.cpp:393-446, [im2col] *)
Definition im2col32 (g : geom) (ch h w : Z) (fill_value : V) (src dst : list V) : res (list V) :=
  h_out <- im2col_out_size32 h (g_ph g) (g_kh g) (g_sh g) (g_dh g) ;;
  w_out <- im2col_out_size32 w (g_pw g) (g_kw g) (g_sw g) (g_dw g) ;;
  nch <- count_down ch ;;
  '(dst', _) <-
  forr nch (fun c '(dst, p) =>
    s <-
    forr (Z.to_nat (g_kh g)) (fun k_h '(dst, p) =>
      forr (Z.to_nat (g_kw g)) (fun k_w '(dst, p) =>
        row0 <- start32 (Z.of_nat k_h) (g_dh g) (g_ph g) ;;
        nrow <- count_down h_out ;;
        '(dst, p, _) <-
        forr nrow (fun _ '(dst, p, input_row) =>
          ncol <- count_down w_out ;;
          '(dst, p) <-
          (if negb ((0 <=? input_row) && (input_row <? h)) then
             forr ncol (fun _ '(dst, p) =>
               dst' <- wr dst p fill_value ;; Ok (dst', S p)) (dst, p)
           else
             col0 <- start32 (Z.of_nat k_w) (g_dw g) (g_pw g) ;;
             '(dst, p, _) <-
             forr ncol (fun _ '(dst, p, input_col) =>
               v <- (if (0 <=? input_col) && (input_col <? w)
                     then i <- place32 input_row w input_col ;; rdz src (Z.of_nat c * (h * w) + i)
                     else Ok fill_value) ;;
               dst' <- wr dst p v ;;
               col' <- int_ (input_col + g_sw g) ;;
               Ok (dst', S p, col'))
               (dst, p, col0) ;;
             Ok (dst, p)) ;;
          row' <- int_ (input_row + g_sh g) ;;
          Ok (dst, p, row'))
          (dst, p, row0) ;;
        Ok (dst, p)) (dst, p)) (dst, p) ;;
    _ <- int_ (h * w) ;;                                       (* src += h * w *)
    Ok s) (dst, O) ;;
  Ok dst'.

(** kernels.cpp:448-502, [col2im] *)
Definition col2im32 (add : V -> V -> V) (g : geom) (ch h w : Z) (src dst : list V) : res (list V) :=
  h_out <- im2col_out_size32 h (g_ph g) (g_kh g) (g_sh g) (g_dh g) ;;
  w_out <- im2col_out_size32 w (g_pw g) (g_kw g) (g_sw g) (g_dw g) ;;
  nch <- count_down ch ;;
  '(dst', _) <-
  forr nch (fun c '(dst, p) =>
    s <-
    forr (Z.to_nat (g_kh g)) (fun k_h '(dst, p) =>
      forr (Z.to_nat (g_kw g)) (fun k_w '(dst, p) =>
        row0 <- start32 (Z.of_nat k_h) (g_dh g) (g_ph g) ;;
        nrow <- count_down h_out ;;
        '(dst, p, _) <-
        forr nrow (fun _ '(dst, p, input_row) =>
          '(dst, p) <-
          (if negb ((0 <=? input_row) && (input_row <? h)) then
             ncol <- count_down w_out ;;
             Ok (dst, (p + ncol)%nat)
           else
             col0 <- start32 (Z.of_nat k_w) (g_dw g) (g_pw g) ;;
             ncol <- count_down w_out ;;
             '(dst, p, _) <-
             forr ncol (fun _ '(dst, p, input_col) =>
               dst' <- (if (0 <=? input_col) && (input_col <? w)
                        then i <- place32 input_row w input_col ;;
                             d <- rdz dst (Z.of_nat c * (h * w) + i) ;;
                             s <- rd src p ;;
                             wrz dst (Z.of_nat c * (h * w) + i) (add d s)
                        else Ok dst) ;;
               col' <- int_ (input_col + g_sw g) ;;
               Ok (dst', S p, col'))
               (dst, p, col0) ;;
             Ok (dst, p)) ;;
          row' <- int_ (input_row + g_sh g) ;;
          Ok (dst, p, row'))
          (dst, p, row0) ;;
        Ok (dst, p)) (dst, p)) (dst, p) ;;
    _ <- int_ (h * w) ;;                                       (* dst += h_in * w_in *)
    Ok s) (dst, O) ;;
  Ok dst'.

End Windows.

Open Scope nat_scope.
Definition ints (s : list nat) : shape := map Z.of_nat s.

(** [a * b * ...] on [int]s, from left to right. *)
Fixpoint times32 (acc : Z) (s : list Z) : res Z :=
  match s with [] => Ok acc | d :: t => a <- int_ (acc * d) ;; times32 a t end.

(** ** Convolution *)
(** kernels.cpp:108-116; the two [Tensor]s over existing memory compute their sizes (tensor.cpp:61-64, 66-77). *)
Definition conv_step32 (g : geom) (d : cdims) (input weights bias : list R) (b : nat)
                       (s : list R * list R) : res (list R * list R) :=
  let '(buf, output) := s in
  let rows := cd_rows g d in let cols := cd_cols d in
  let in_off := cd_cin d * cd_h d * cd_w d in
  let out_off := cd_cout d * cd_ho d * cd_wo d in
  _ <- int_prod (ints [1; cd_cin d; cd_h d; cd_w d]) ;;
  src <- slice (b * in_off) in_off input ;;
  _ <- int_prod (ints [rows; cols]) ;;
  plane <- slice (b * (rows * cols)) (rows * cols) buf ;;
  X <- im2col32 g (Z.of_nat (cd_cin d)) (Z.of_nat (cd_h d)) (Z.of_nat (cd_w d)) 0%R src plane ;;
  let buf' := splice (b * (rows * cols)) X buf in
  _ <- emap (cd_cout d * rows) weights ;; _ <- emap (cd_cout d) bias ;;
  result <- slice (b * out_off) (cd_cout d * cols) output ;;
  let r1 := put2 (cd_cout d) cols
              (fun i j => rsum rows (fun k => el weights rows i k * el X cols k j)%R) result in
  let r2 := put2 (cd_cout d) cols (fun i j => el r1 cols i j + bias.[i])%R r1 in
  Ok (buf', splice (b * out_off) r2 output).

(** kernels.cpp:81-117, with the sizes of 98-102 *)
Definition conv_forward32 (g : geom) (d : cdims) (batch : nat) (input weights bias buf output : list R)
  : res (list R * list R) :=
  _ <- times32 (Z.of_nat (cd_cin d)) [g_kh g; g_kw g] ;; _ <- times32 (Z.of_nat (cd_ho d)) (ints [cd_wo d]) ;;
  _ <- times32 (Z.of_nat (cd_cin d)) (ints [cd_h d; cd_w d]) ;;
  _ <- times32 (Z.of_nat (cd_cout d)) (ints [cd_ho d; cd_wo d]) ;;
  forr batch (conv_step32 g d input weights bias) (buf, output).

(** cpuconvolution.cpp:34-54 *)
Definition conv_fwd32 (E : env) (g : geom) (W b : prm) (buf i o : ten) : res (ten * ten) :=
  '(batch, c_in, h, w) <- dims4 i ;; '(_, _, ho, wo) <- dims4 o ;;
  c_out <- dim0 (p_data W) ;;
  let d := mkCd c_in h w c_out ho wo in
  rows <- times32 (Z.of_nat c_in) [g_kh g; g_kw g] ;;
  cols <- times32 (Z.of_nat ho) (ints [wo]) ;;
  n <- times32 (Z.of_nat batch) [rows; cols] ;;
  let buf1 := if tot buf =? Z.to_nat n then buf else fresh E [Z.to_nat n] in
  '(bd, od) <- conv_forward32 g d batch (tdat i) (tdat (p_data W)) (tdat (p_data b)) (tdat buf1) (tdat o) ;;
  Ok (set_dat buf1 bd, set_dat o od).

(** kernels.cpp:143-152 *)
Definition conv_input_grad_step32 (g : geom) (d : cdims) (grad_output weights junk : list R) (b : nat)
                                  (grad_input : list R) : res (list R) :=
  let rows := cd_rows g d in let cols := cd_cols d in
  let in_off := cd_cin d * cd_h d * cd_w d in
  let out_off := cd_cout d * cd_ho d * cd_wo d in
  _ <- emap (cd_cout d * rows) weights ;;
  _ <- int_prod (ints [rows; cols]) ;;
  _ <- emap (rows * cols) junk ;;
  go <- slice (b * out_off) (cd_cout d * cols) grad_output ;;
  let grad_col := put2 rows cols
        (fun k j => rsum (cd_cout d) (fun i => el weights rows i k * el go cols i j)%R) junk in
  _ <- int_prod (ints [1; cd_cin d; cd_h d; cd_w d]) ;;
  gi <- slice (b * in_off) in_off grad_input ;;
  gi' <- col2im32 Rplus g (Z.of_nat (cd_cin d)) (Z.of_nat (cd_h d)) (Z.of_nat (cd_w d)) grad_col gi ;;
  Ok (splice (b * in_off) gi' grad_input).

(** kernels.cpp:119-153, with the sizes of 137-139 *)
Definition conv_input_grad32 (g : geom) (d : cdims) (batch : nat) (junk : nat -> list R)
                             (grad_output weights grad_input : list R) : res (list R) :=
  _ <- times32 (Z.of_nat (cd_cin d)) [g_kh g; g_kw g] ;; _ <- times32 (Z.of_nat (cd_ho d)) (ints [cd_wo d]) ;;
  _ <- times32 (Z.of_nat (cd_cout d)) (ints [cd_ho d; cd_wo d]) ;;
  forr batch (fun b => conv_input_grad_step32 g d grad_output weights (junk b) b) grad_input.

(** ** Max pooling *)
(** The conversion of an [int] to a [float]: 24 binary digits, to nearest, ties to even. *)
Definition to_float (n : nat) : nat :=
  let z := Z.of_nat n in
  let e := (Z.log2 z - 23)%Z in
  if (e <=? 0)%Z then n else
  let m := (z / 2 ^ e)%Z in
  let r := (z mod 2 ^ e)%Z in
  let up := ((2 ^ (e - 1) <? r) || ((r =? 2 ^ (e - 1)) && Z.odd m))%Z%bool in
  Z.to_nat ((if up then m + 1 else m) * 2 ^ e).

(** kernels.cpp:226-229; [max_indices] is a tensor of floats. *)
Definition pool_cols32 (am : nat -> (nat -> R) -> nat) (i rows cols : nat) (col : list R)
                       (s : list R * list nat) : res (list R * list nat) :=
  forr cols (fun j '(dst, ind) =>
    if rows =? 0 then UB else
    let f := fun k => el col cols k j in
    dst' <- wr dst (i * cols + j) (f (am rows f)) ;;
    ind' <- wr ind (i * cols + j) (to_float (am rows f)) ;;
    Ok (dst', ind')) s.

(** kernels.cpp:197-231; [batch * c] is the bound of the loop. *)
Definition maxpool_forward32 (am : nat -> (nat -> R) -> nat) (g : geom) (batch c h w ho wo : nat)
                             (input output : list R) (indices : list nat) (buf : list R)
  : res (list R * list nat * list R) :=
  _ <- times32 (Z.of_nat h) (ints [w]) ;; _ <- times32 (g_kh g) [g_kw g] ;; _ <- times32 (Z.of_nat ho) (ints [wo]) ;;
  _ <- times32 (Z.of_nat batch) (ints [c]) ;;
  let rows := KH g * KW g in let cols := ho * wo in
  forr (batch * c) (fun i '(output, indices, buf) =>
    _ <- int_prod (ints [1; 1; h; w]) ;;
    src <- slice (i * (h * w)) (h * w) input ;;
    buf' <- im2col32 g 1 (Z.of_nat h) (Z.of_nat w) flt_min src buf ;;
    _ <- emap (rows * cols) buf' ;;
    '(output', indices') <- pool_cols32 am i rows cols buf' (output, indices) ;;
    Ok (output', indices', buf')) (output, indices, buf).

(** cpumaxpooling.cpp:26-42 *)
Definition maxpool_fwd32 (E : env) (g : geom) (ind : iten) (buf i o : ten) : res (iten * ten * ten) :=
  ind1 <- (if nshape_eqb (ish ind) (tsh o) then Ok ind
           else n <- int_prod (ints (tsh o)) ;; Ok (mkIT (tsh o) (tab (Z.to_nat n) (e_ijunk E)))) ;;
  '(_, _, ho, wo) <- dims4 o ;;
  rows <- times32 (g_kh g) [g_kw g] ;; cols <- times32 (Z.of_nat ho) (ints [wo]) ;; n <- times32 rows [cols] ;;
  let buf1 := if tot buf =? Z.to_nat n then buf else fresh E [Z.to_nat n] in
  '(batch, c, h, w) <- dims4 i ;;
  '(od, id, bd) <- maxpool_forward32 (e_amax E) g batch c h w ho wo (tdat i) (tdat o) (idat ind1) (tdat buf1) ;;
  Ok (mkIT (ish ind1) id, set_dat buf1 bd, set_dat o od).

(** kernels.cpp:233-269; the matrix of 253 is not used, its sizes are computed. *)
Definition maxpool_input_grad32 (g : geom) (batch c h w ho wo : nat) (grad_output : list R)
                                (indices : list nat) (buf grad_input : list R) : res (list R * list R) :=
  _ <- times32 (g_kh g) [g_kw g] ;; _ <- times32 (Z.of_nat ho) (ints [wo]) ;; _ <- times32 (Z.of_nat batch) (ints [c]) ;;
  let cols := ho * wo in
  forr (batch * c) (fun i '(grad_input, buf) =>
    buf' <- forr cols (fun j buf =>
              row <- rd indices (i * cols + j) ;;
              v <- rd grad_output (i * cols + j) ;;
              _ <- place32 (Z.of_nat row) (Z.of_nat cols) (Z.of_nat j) ;;
              wr buf (row * cols + j) v) (zeros buf) ;;
    _ <- int_prod (ints [1; 1; h; w]) ;;
    gi <- slice (i * (h * w)) (h * w) grad_input ;;
    gi' <- col2im32 Rplus g 1 (Z.of_nat h) (Z.of_nat w) buf' gi ;;
    Ok (splice (i * (h * w)) gi' grad_input, buf')) (grad_input, buf).

(** ** The layers *)
(** cpulinear.cpp:35, 57 and 76 *)
Definition second_shape32 (s : list nat) : res nat :=
  match s with [] => UB | _ :: t => n <- int_prod (ints t) ;; Ok (Z.to_nat n) end.

(** The [forward] virtual methods; the layers left out do no integer arithmetic besides taking over the sizes of tensors. *)
Definition lforward32 (E : env) (L : layer) (ins outs : list ten) : res (layer * ten) :=
  match L with
  | LGap =>                                                    (* cpuglobalavgpooling.cpp:5-11, kernels.cpp:366-375 *)
      i <- front ins ;; o <- front outs ;;
      '(n, c, h, w) <- dims4 i ;;
      p <- times32 (Z.of_nat h) (ints [w]) ;; r <- times32 (Z.of_nat n) (ints [c]) ;;
      d <- gap_forward (Z.to_nat r) (Z.to_nat p) (tdat i) (tdat o) ;;
      Ok (L, set_dat o d)
  | LLinear W b =>                                             (* cpulinear.cpp:23-44 *)
      _ <- validate_linear ins outs ;;
      i <- front ins ;; o <- front outs ;;
      '(w0, w1) <- dims2 (p_data W) ;; b0 <- dim0 (p_data b) ;;
      i0 <- dim0 i ;; '(o0, o1) <- dims2 o ;;
      i1 <- second_shape32 (tsh i) ;;
      d1 <- linear_forward i0 i1 (tdat i) w0 w1 (tdat (p_data W)) o0 o1 (tdat o) ;;
      d2 <- linear_add_bias o0 o1 d1 b0 (tdat (p_data b)) o0 o1 d1 ;;
      Ok (L, set_dat o d2)
  | LConv g W b buf =>                                         (* cpuconvolution.cpp:21-55 *)
      _ <- validate_geom g ;;
      i <- front ins ;; o <- front outs ;;
      '(buf', o') <- conv_fwd32 E g W b buf i o ;;
      Ok (LConv g W b buf', o')
  | LMaxPool g ind buf =>                                      (* cpumaxpooling.cpp:15-43 *)
      _ <- validate_geom g ;;
      i <- front ins ;; o <- front outs ;;
      '(ind', buf', o') <- maxpool_fwd32 E g ind buf i o ;;
      Ok (LMaxPool g ind' buf', o')
  | LBN2 eps alpha gamma beta std rmean rvar centered nin nout =>  (* cpubatchnorm2d.cpp:26-74: sizes of 53-54, 58, 63-65 *)
      _ <- validate_rank 4 ins outs ;;
      i <- front ins ;; o <- front outs ;;
      _ <- dw_assert (Bool.eqb (p_train gamma) (p_train beta)) ;;
      '(N, C, H, W) <- dims4 i ;;
      _ <- (if tot nin =? 0 then int_prod (ints [N; H; W; C]) else Ok 0%Z) ;;
      nhw <- times32 (Z.of_nat N) (ints [H; W]) ;;
      _ <- (if tot centered =? 0 then int_prod [nhw; Z.of_nat C] else Ok 0%Z) ;;
      '(std', rm', rv', c', ni', no', o') <- bn2_fwd E eps alpha gamma beta std rmean rvar centered nin nout i o ;;
      Ok (LBN2 eps alpha gamma beta std' rm' rv' c' ni' no', o')
  | _ => lforward E L ins outs
  end.

(** The [updateGradients] virtual methods. *)
Definition lupdate32 (E : env) (L : layer) (ins gouts : list ten) : res layer :=
  match L with
  | LLinear W b =>                                             (* cpulinear.cpp:66-83 *)
      '(w0, w1) <- dims2 (p_grad W) ;; b0 <- dim0 (p_grad b) ;;
      go <- front gouts ;; '(g0, g1) <- dims2 go ;;
      i <- front ins ;; i0 <- dim0 i ;; i1 <- second_shape32 (tsh i) ;;
      dW <- linear_weight_grad i0 i1 (tdat i) g0 g1 (tdat go) w0 w1 (tdat (p_grad W)) ;;
      db <- linear_bias_grad g0 g1 (tdat go) b0 (tdat (p_grad b)) ;;
      Ok (LLinear (set_grad W dW) (set_grad b db))
  | LConv g W b buf =>                                         (* cpuconvolution.cpp:80-87, kernels.cpp:155-195 *)
      _ <- dw_assert (negb (tot buf =? 0)) ;;
      go <- front gouts ;;
      '(batch, c_out, ho, wo) <- dims4 go ;;
      '(_, k1, k2, k3) <- dims4 (p_grad W) ;;
      rows <- times32 (Z.of_nat k1) (ints [k2; k3]) ;; cols <- times32 (Z.of_nat ho) (ints [wo]) ;;
      dW <- conv_weights_grad batch c_out (Z.to_nat rows) (Z.to_nat cols) (tdat go) (tdat buf) (tdat (p_grad W)) ;;
      _ <- times32 (Z.of_nat c_out) (ints [ho; wo]) ;;
      db <- conv_bias_grad batch c_out (ho * wo) (tdat go) (tdat (p_grad b)) ;;
      Ok (LConv g (set_grad W dW) (set_grad b db) buf)
  | _ => lupdate E L ins gouts
  end.

(** The [backward] virtual methods. *)
Definition lbackward32 (E : env) (L : layer) (ins outs : list ten) (gm : list ten) (gins gouts : list nat)
  : res (layer * list ten) :=
  match L with
  | LGap =>                                                    (* cpuglobalavgpooling.cpp:13-21, kernels.cpp:377-391 *)
      k <- front gouts ;; go <- rd gm k ;;
      gm' <- on_grad gm gins (fun gi =>
               '(n, c, h, w) <- dims4 gi ;;
               p <- times32 (Z.of_nat h) (ints [w]) ;; r <- times32 (Z.of_nat n) (ints [c]) ;;
               gap_input_grad (Z.to_nat r) (Z.to_nat p) (tdat go) (tdat gi)) ;;
      Ok (L, gm')
  | LLinear W b =>                                             (* cpulinear.cpp:46-64 *)
      '(w0, w1) <- dims2 (p_data W) ;;
      k <- front gouts ;; go <- rd gm k ;; '(g0, g1) <- dims2 go ;;
      i <- front ins ;; i1 <- second_shape32 (tsh i) ;;
      gm' <- on_grad gm gins (fun gi =>
               gi0 <- dim0 gi ;;
               linear_input_grad g0 g1 (tdat go) w0 w1 (tdat (p_data W)) gi0 i1 (tdat gi)) ;;
      Ok (L, gm')
  | LConv g W b buf =>                                         (* cpuconvolution.cpp:57-78 *)
      _ <- dw_assert (negb (tot buf =? 0)) ;;
      k <- front gouts ;; go <- rd gm k ;;
      '(batch, c_out, ho, wo) <- dims4 go ;;
      gm' <- on_grad gm gins (fun gi =>
               '(_, c_in, h, w) <- dims4 gi ;;
               let d := mkCd c_in h w c_out ho wo in
               conv_input_grad32 g d batch (fun _ => tab (cd_rows g d * cd_cols d) (e_junk E))
                                 (tdat go) (tdat (p_data W)) (tdat gi)) ;;
      Ok (L, gm')
  | LMaxPool g ind buf =>                                      (* cpumaxpooling.cpp:45-59 *)
      k <- front gouts ;; go <- rd gm k ;;
      _ <- dw_assert (nshape_eqb (ish ind) (tsh go)) ;;
      kg <- front gins ;; gi <- rd gm kg ;;
      '(batch, c, h, w) <- dims4 gi ;; '(_, _, ho, wo) <- dims4 go ;;
      '(gd, bd) <- maxpool_input_grad32 g batch c h w ho wo (tdat go) (idat ind) (tdat buf) (tdat gi) ;;
      Ok (LMaxPool g ind (set_dat buf bd), upd gm kg (set_dat gi gd))
  | _ => lbackward E L ins outs gm gins gouts
  end.
