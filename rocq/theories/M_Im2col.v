(** Model of the data-movement kernels of src/runtime/cpu/kernels/kernels.cpp: im2col, col2im and the
    layout conversions, and of the output-size formulas of src/expression/nn.cpp.

    Tensors appear as their flat data.  The element type is arbitrary.  [int] arithmetic is unbounded
    (no overflow of the index computations is considered).  A loop of the form
    [for (int k = n; k; k--)] with a negative [n] does not stop before it overflows: outcome [UB]. *)
From Verif Require Import Base.
Open Scope Z_scope.

(** C++ integer division; dividing by zero is undefined behaviour. *)
Definition int_div (a b : Z) : res Z := if b =? 0 then UB else Ok (Z.quot a b).

(** nn.cpp:221-222 and 258-259, the [h_out]/[w_out] of [MaxPooling::outShape] and
    [Convolution::outShape]. *)
Definition layer_out_size (inp pad kernel stride : Z) : res Z :=
  q <- int_div (inp + 2 * pad - kernel) stride ;; Ok (q + 1).

(** kernels.cpp:420-421 and 477-478, the [h_out]/[w_out] computed inside im2col and col2im. *)
Definition im2col_out_size (inp pad kernel stride dilation : Z) : res Z :=
  q <- int_div (inp + 2 * pad - (dilation * (kernel - 1) + 1)) stride ;; Ok (q + 1).

(** [for (int k = n; k; k--)]: runs [n] times for [n >= 0]. *)
Definition count_down (n : Z) : res nat := if n <? 0 then UB else Ok (Z.to_nat n).

(** [std::array<int,2>] arguments of a convolution-like kernel. *)
Record geom := mkGeom {
  g_kh : Z; g_kw : Z;      (* kernel   *)
  g_ph : Z; g_pw : Z;      (* padding  *)
  g_sh : Z; g_sw : Z;      (* stride   *)
  g_dh : Z; g_dw : Z       (* dilation *)
}.

Section Im2col.
Context {V : Type}.

(** kernels.cpp:393-446, [im2col].  [src] is the image data, [dst] the column buffer.  The loop
    state is (dst, dst pointer), plus [input_row] / [input_col] where the C++ keeps them. *)
Definition im2col (g : geom) (ch h w : Z) (fill_value : V) (src dst : list V) : res (list V) :=
  h_out <- im2col_out_size h (g_ph g) (g_kh g) (g_sh g) (g_dh g) ;;
  w_out <- im2col_out_size w (g_pw g) (g_kw g) (g_sw g) (g_dw g) ;;
  nch <- count_down ch ;;
  '(dst', _) <-
  forr nch (fun c '(dst, p) =>
    forr (Z.to_nat (g_kh g)) (fun k_h '(dst, p) =>
      forr (Z.to_nat (g_kw g)) (fun k_w '(dst, p) =>
        nrow <- count_down h_out ;;
        '(dst, p, _) <-
        forr nrow (fun _ '(dst, p, input_row) =>
          ncol <- count_down w_out ;;
          '(dst, p) <-
          (if negb ((0 <=? input_row) && (input_row <? h)) then
             forr ncol (fun _ '(dst, p) =>
               dst' <- wr dst p fill_value ;; Ok (dst', S p)) (dst, p)
           else
             '(dst, p, _) <-
             forr ncol (fun _ '(dst, p, input_col) =>
               v <- (if (0 <=? input_col) && (input_col <? w)
                     then rdz src (Z.of_nat c * (h * w) + (input_row * w + input_col))
                     else Ok fill_value) ;;
               dst' <- wr dst p v ;;
               Ok (dst', S p, input_col + g_sw g))
               (dst, p, Z.of_nat k_w * g_dw g - g_pw g) ;;
             Ok (dst, p)) ;;
          Ok (dst, p, input_row + g_sh g))
          (dst, p, Z.of_nat k_h * g_dh g - g_ph g) ;;
        Ok (dst, p)) (dst, p)) (dst, p)) (dst, O) ;;
  Ok dst'.

(** kernels.cpp:448-502, [col2im].  [src] is the column buffer, [dst] the image, [add] the [+=] of
    the element type. *)
Definition col2im (add : V -> V -> V) (g : geom) (ch h w : Z) (src dst : list V) : res (list V) :=
  h_out <- im2col_out_size h (g_ph g) (g_kh g) (g_sh g) (g_dh g) ;;
  w_out <- im2col_out_size w (g_pw g) (g_kw g) (g_sw g) (g_dw g) ;;
  nch <- count_down ch ;;
  '(dst', _) <-
  forr nch (fun c '(dst, p) =>
    forr (Z.to_nat (g_kh g)) (fun k_h '(dst, p) =>
      forr (Z.to_nat (g_kw g)) (fun k_w '(dst, p) =>
        nrow <- count_down h_out ;;
        '(dst, p, _) <-
        forr nrow (fun _ '(dst, p, input_row) =>
          '(dst, p) <-
          (if negb ((0 <=? input_row) && (input_row <? h)) then
             ncol <- count_down w_out ;;      (* src += w_out; w_out >= 0 is checked here too *)
             Ok (dst, (p + ncol)%nat)
           else
             ncol <- count_down w_out ;;
             '(dst, p, _) <-
             forr ncol (fun _ '(dst, p, input_col) =>
               dst' <- (if (0 <=? input_col) && (input_col <? w)
                        then let i := Z.of_nat c * (h * w) + (input_row * w + input_col) in
                             d <- rdz dst i ;;
                             s <- rd src p ;;
                             wrz dst i (add d s)
                        else Ok dst) ;;
               Ok (dst', S p, input_col + g_sw g))
               (dst, p, Z.of_nat k_w * g_dw g - g_pw g) ;;
             Ok (dst, p)) ;;
          Ok (dst, p, input_row + g_sh g))
          (dst, p, Z.of_nat k_h * g_dh g - g_ph g) ;;
        Ok (dst, p)) (dst, p)) (dst, p)) (dst, O) ;;
  Ok dst'.

(** kernels.cpp:504-521, [utils::NCHW2NHWC]; [input_data++] is the second component. *)
Definition nchw2nhwc (N C H W : nat) (src dst : list V) : res (list V) :=
  '(dst', _) <-
  forr N (fun n '(dst, p) =>
    forr C (fun c '(dst, p) =>
      forr H (fun h '(dst, p) =>
        forr W (fun w '(dst, p) =>
          v <- rd src p ;;
          dst' <- wr dst (((n * H + h) * W + w) * C + c)%nat v ;;
          Ok (dst', S p)) (dst, p)) (dst, p)) (dst, p)) (dst, O) ;;
  Ok dst'.

(** kernels.cpp:523-540, [utils::NHWC2NCHW]. *)
Definition nhwc2nchw (N C H W : nat) (src dst : list V) : res (list V) :=
  '(dst', _) <-
  forr N (fun n '(dst, p) =>
    forr H (fun h '(dst, p) =>
      forr W (fun w '(dst, p) =>
        forr C (fun c '(dst, p) =>
          v <- rd src p ;;
          dst' <- wr dst (((n * C + c) * H + h) * W + w)%nat v ;;
          Ok (dst', S p)) (dst, p)) (dst, p)) (dst, p)) (dst, O) ;;
  Ok dst'.

End Im2col.
