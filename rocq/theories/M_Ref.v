(** Model of the reference kernels of the unit tests, tests/unit/kernels_reference.cpp.

    Raw pointers are flat lists of reals, read and written one element at a time as in the loops of the
    C++; an access outside the list is [UB].  Simplifications: [float] arithmetic is exact real arithmetic;
    in the loss kernels a value that is not a finite number is [None]; index arithmetic does not overflow;
    tensors have the strides of a fresh tensor (C01).  The kernels that call libtorch (convolution and
    max pooling, lines 409-502) are not modelled. *)
From Coq Require Import Reals Lra String.
From Verif Require Import Base Sums M_Im2col S_Im2col M_Kernels M_Conv M_Layers M_Loss M_Optim.
Open Scope R_scope.

(** [std::vector<float>(n)] *)
Definition vec0 (n : nat) : list R := tab n (fun _ => 0).

(** [d[c] = f(d[c])] *)
Definition modify (d : list R) (c : nat) (f : R -> R) : res (list R) := x <- rd d c ;; wr d c (f x).

(** ** Linear *)

(** kernels_reference.cpp:387-396 *)
Definition ref_matmul (in1 in2 out : list R) (m n l : nat) : res (list R) :=
  forr m (fun i => forr l (fun j out =>
    out1 <- wr out (i * l + j)%nat 0 ;;
    forr n (fun k out =>
      a <- rd in1 (i * n + k)%nat ;; b <- rd in2 (k * l + j)%nat ;;
      modify out (i * l + j)%nat (fun x => x + a * b)) out1)) out.

(** kernels_reference.cpp:398-407 *)
Definition ref_transpose (inp : list R) (rows cols : nat) : res (list R) :=
  forr rows (fun i => forr cols (fun j t =>
    v <- rd inp (i * cols + j)%nat ;; wr t (j * rows + i)%nat v)) (vec0 (rows * cols)).

(** kernels_reference.cpp:15-19 *)
Definition ref_linear_forward (X W result : list R) (batch_size in_features out_features : nat) : res (list R) :=
  WT <- ref_transpose W out_features in_features ;;
  ref_matmul X WT result batch_size in_features out_features.

(** kernels_reference.cpp:21-27 *)
Definition ref_add_bias (b result : list R) (batch_size out_features : nat) : res (list R) :=
  forr batch_size (fun s => forr out_features (fun i result =>
    v <- rd b i ;; modify result (s * out_features + i)%nat (fun x => x + v))) result.

(** kernels_reference.cpp:29-38; returns (dW, grad_input). *)
Definition ref_linear_backward (input W grad_output dW grad_input : list R)
    (batch_size in_features out_features : nat) : res (list R * list R) :=
  gT <- ref_transpose grad_output batch_size out_features ;;
  dW' <- ref_matmul gT input dW out_features batch_size in_features ;;
  gi' <- ref_matmul grad_output W grad_input batch_size out_features in_features ;;
  Ok (dW', gi').

(** kernels_reference.cpp:40-48 *)
Definition ref_linear_bias_backward (grad_output db : list R) (batch_size out_features : nat) : res (list R) :=
  forr out_features (fun j db =>
    sum <- forr batch_size (fun i sum => v <- rd grad_output (i * out_features + j)%nat ;; Ok (sum + v)) 0 ;;
    wr db j sum) db.

(** ** Softmax *)

(** [std::numeric_limits<float>::min()] *)
Definition float_min : R := / 2 ^ 126.

(** kernels_reference.cpp:50-79 *)
Definition ref_softmax_forward (X result : list R) (batch_size in_features : nat) : res (list R) :=
  rows_max <- forr batch_size (fun i => forr in_features (fun j mx =>
                x <- rd X (i * in_features + j)%nat ;; modify mx i (fun m => Rmax m x)))
              (tab batch_size (fun _ => float_min)) ;;
  exp_x <- forr batch_size (fun i => forr in_features (fun j e =>
             x <- rd X (i * in_features + j)%nat ;; m <- rd rows_max i ;;
             wr e (i * in_features + j)%nat (exp (x - m)))) (vec0 (batch_size * in_features)) ;;
  exp_sum <- forr batch_size (fun i => forr in_features (fun j s =>
               e <- rd exp_x (i * in_features + j)%nat ;; modify s i (fun x => x + e))) (vec0 batch_size) ;;
  forr batch_size (fun i => forr in_features (fun j r =>
    e <- rd exp_x (i * in_features + j)%nat ;; s <- rd exp_sum i ;;
    wr r (i * in_features + j)%nat (e / s))) result.

(** kernels_reference.cpp:81-95 *)
Definition ref_softmax_backward (grad_output output grad_input : list R) (batch_size in_features : nat) : res (list R) :=
  k <- forr batch_size (fun i => forr in_features (fun j k =>
         g <- rd grad_output (i * in_features + j)%nat ;; o <- rd output (i * in_features + j)%nat ;;
         modify k i (fun x => x + g * o))) (vec0 batch_size) ;;
  forr batch_size (fun i => forr in_features (fun j r =>
    o <- rd output (i * in_features + j)%nat ;; g <- rd grad_output (i * in_features + j)%nat ;; ki <- rd k i ;;
    wr r (i * in_features + j)%nat (o * (g - ki)))) grad_input.

(** ** Element-wise activations *)

(** [std::transform] with one and with two inputs (and the loop of lines 98-100). *)
Definition transform1 (op : R -> R) (inp out : list R) (size : nat) : res (list R) :=
  forr size (fun i out => x <- rd inp i ;; wr out i (op x)) out.
Definition transform2 (op : R -> R -> R) (in1 in2 out : list R) (size : nat) : res (list R) :=
  forr size (fun i out => x <- rd in1 i ;; y <- rd in2 i ;; wr out i (op x y)) out.

(** kernels_reference.cpp:97-101, 103-107 *)
Definition ref_relu_forward (inp out : list R) (size : nat) : res (list R) :=
  transform1 (fun x => if ltb 0 x then x else 0) inp out size.
Definition ref_relu_backward (output grad_output grad_input : list R) (size : nat) : res (list R) :=
  transform2 (fun o go => if ltb 0 o then go else 0) output grad_output grad_input size.

(** kernels_reference.cpp:109-117, 119-129 *)
Definition ref_leaky_forward (inp out : list R) (alpha : R) : res (list R) :=
  transform1 (fun x => if ltb x 0 then alpha * x else x) inp out (length inp).
Definition ref_leaky_backward (inp grad_output grad_input : list R) (alpha : R) : res (list R) :=
  transform2 (fun x go => go * (if ltb x 0 then alpha else 1)) inp grad_output grad_input (length inp).

(** kernels_reference.cpp:131-138, 139-150 *)
Definition ref_sigmoid_forward (inp out : list R) : res (list R) :=
  transform1 (fun x => 1 / (1 + exp (- x))) inp out (length inp).
Definition ref_sigmoid_backward (inp grad_output grad_input : list R) : res (list R) :=
  transform2 (fun x go => let sigmoid := 1 / (1 + exp (- x)) in go * (sigmoid * (1 - sigmoid)))
             inp grad_output grad_input (length inp).

(** kernels_reference.cpp:152-160, 162-172 *)
Definition ref_elu_forward (inp out : list R) (alpha : R) : res (list R) :=
  transform1 (fun x => if ltb x 0 then alpha * (exp x - 1) else x) inp out (length inp).
Definition ref_elu_backward (inp grad_output grad_input : list R) (alpha : R) : res (list R) :=
  transform2 (fun x go => go * (if ltb x 0 then alpha * exp x else 1)) inp grad_output grad_input (length inp).

(** ** Loss *)

(** kernels_reference.cpp:174-189 *)
Definition ref_ce_forward (X target : ten) : res (option R) :=
  '(batch_size, n_classes) <- dims2 X ;;
  loss <- forr batch_size (fun i loss =>
            t <- rd (tdat target) i ;; c <- cast_int t ;;
            x <- rdz (tdat X) (c + Z.of_nat n_classes * Z.of_nat i)%Z ;;
            Ok (obind loss (fun a => obind (xlog x) (fun b => Some (a - b))))) (Some 0) ;;
  Ok (obind loss (fun a => xdiv a (INR batch_size))).

(** kernels_reference.cpp:191-207; [strides] = (number of columns, 1). *)
Definition ref_ce_backward (X target grad_output : ten) : res (list (option R)) :=
  '(batch_size, n_classes) <- dims2 X ;;
  let grad := tab (tot grad_output) (fun _ => Some 0) in
  forr batch_size (fun i grad =>
    t <- rd (tdat target) i ;; j <- cast_int (t * 1) ;;
    let k := (Z.of_nat i * Z.of_nat n_classes + j)%Z in
    x <- rdz (tdat X) k ;;
    g <- rdz grad k ;;
    wrz grad k (obind g (fun a => obind (xdiv 1 (x * INR batch_size)) (fun b => Some (a - b))))) grad.

(** ** Optimizers *)

(** kernels_reference.cpp:209-222 *)
Definition ref_sgd_one (lr : R) (k : string) (p : prm) (s : unit) : res (prm * unit) :=
  if p_train p then
    w' <- forr (tot (p_data p)) (fun i w => g <- rd (tdat (p_grad p)) i ;; modify w i (fun x => x - lr * g)) (tdat (p_data p)) ;;
    Ok (set_weight p w', tt)
  else Ok (p, tt).
Definition ref_sgd_step (lr : R) (ps : pmap) : st (pmap * unit) := each (ref_sgd_one lr) ps tt.

(** kernels_reference.cpp:224-239 *)
Definition ref_momentum_one (lr gamma : R) (k : string) (p : prm) (vel : tmap) : res (prm * tmap) :=
  if p_train p then
    v <- at_key vel k ;;
    '(v', w') <- forr (tot (p_data p)) (fun j s =>
       let '(v, w) := s in
       g <- rd (tdat (p_grad p)) j ;;
       v1 <- modify v j (fun x => gamma * x + lr * g) ;;
       vj <- rd v1 j ;;
       w1 <- modify w j (fun x => x - vj) ;;
       Ok (v1, w1)) (tdat v, tdat (p_data p)) ;;
    Ok (set_weight p w', set_key vel k (set_dat v v'))
  else Ok (p, vel).
Definition ref_momentum_step (lr gamma : R) (ps : pmap) (vel : tmap) : st (pmap * tmap) :=
  each (ref_momentum_one lr gamma) ps vel.

(** kernels_reference.cpp:241-264; [n_iterations] is an argument of the call. *)
Definition ref_adam_one (lr b1 b2 eps : R) (n_iterations : nat) (k : string) (p : prm) (s : tmap * tmap)
  : res (prm * (tmap * tmap)) :=
  if p_train p then
    mm <- at_key (fst s) k ;; vv <- at_key (snd s) k ;;
    '(m', v', w') <- forr (tot (p_data p)) (fun j s =>
       let '(m, v, w) := s in
       g <- rd (tdat (p_grad p)) j ;;
       m1 <- modify m j (fun x => b1 * x + (1 - b1) * g) ;;
       v1 <- modify v j (fun x => b2 * x + (1 - b2) * g * g) ;;
       mj <- rd m1 j ;; vj <- rd v1 j ;;
       let mean_hat := mj / (1 - b1 ^ n_iterations) in
       let variance_hat := vj / (1 - b2 ^ n_iterations) in
       w1 <- modify w j (fun x => x - lr * mean_hat / (sqrt variance_hat + eps)) ;;
       Ok (m1, v1, w1)) (tdat mm, tdat vv, tdat (p_data p)) ;;
    Ok (set_weight p w', (set_key (fst s) k (set_dat mm m'), set_key (snd s) k (set_dat vv v')))
  else Ok (p, s).
Definition ref_adam_step (lr b1 b2 eps : R) (n_iterations : nat) (ps : pmap) (s : tmap * tmap) : st (pmap * (tmap * tmap)) :=
  each (ref_adam_one lr b1 b2 eps n_iterations) ps s.

(** ** Batch normalisation *)

(** kernels_reference.cpp:284-311, the part that depends on the mode; returns (input_centered, std,
    running_mean, running_var). *)
Definition ref_bn_train (n m : nat) (input centered std rmean rvar : list R) (eps alpha : R)
  : res (list R * list R * list R * list R) :=
  '(_, _, c', s', rm', rv') <- forr m (fun j s =>
     let '(mean, var, c, std, rm, rv) := s in
     mean1 <- forr n (fun i mean => x <- rd input (j + m * i)%nat ;; modify mean j (fun a => a + x / INR n)) mean ;;
     '(c1, var1) <- forr n (fun i s =>
        let '(c, var) := s in
        x <- rd input (j + m * i)%nat ;; mu <- rd mean1 j ;;
        c1 <- wr c (j + m * i)%nat (x - mu) ;;
        y <- rd c1 (j + m * i)%nat ;;
        var1 <- modify var j (fun a => a + y * y / INR n) ;;
        Ok (c1, var1)) (c, var) ;;
     v <- rd var1 j ;; mu <- rd mean1 j ;;
     std1 <- wr std j (sqrt (v + eps)) ;;
     rm1 <- modify rm j (fun a => a * alpha + mu * (1 - alpha)) ;;
     rv1 <- modify rv j (fun a => a * alpha + v * (1 - alpha)) ;;
     Ok (mean1, var1, c1, std1, rm1, rv1)) (vec0 m, vec0 m, centered, std, rmean, rvar) ;;
  Ok (c', s', rm', rv').
Definition ref_bn_eval (n m : nat) (input centered std rmean rvar : list R) (eps : R)
  : res (list R * list R * list R * list R) :=
  '(c', s') <- forr m (fun j s =>
     let '(c, std) := s in
     c1 <- forr n (fun i c => x <- rd input (j + m * i)%nat ;; mu <- rd rmean j ;; wr c (j + m * i)%nat (x - mu)) c ;;
     v <- rd rvar j ;;
     std1 <- wr std j (sqrt (v + eps)) ;;
     Ok (c1, std1)) (centered, std) ;;
  Ok (c', s', rmean, rvar).

(** kernels_reference.cpp:266-325; returns (output, input_centered, std, running_mean, running_var).
    [n] and [m] are the dimensions of the input. *)
Definition ref_bn_forward (n m : nat) (input output centered std rmean rvar : list R)
    (is_training : bool) (eps alpha : R) (gamma beta : list R) : res (list R * list R * list R * list R * list R) :=
  '(c', s', rm', rv') <- (if is_training then ref_bn_train n m input centered std rmean rvar eps alpha
                          else ref_bn_eval n m input centered std rmean rvar eps) ;;
  out <- forr n (fun i => forr m (fun j out =>
           c <- rd c' (j + m * i)%nat ;; s <- rd s' j ;; g <- rd gamma j ;; b <- rd beta j ;;
           wr out (j + m * i)%nat (c / s * g + b))) output ;;
  Ok (out, c', s', rm', rv').

(** kernels_reference.cpp:327-385; returns (grad_input, gamma_grad, betta_grad). *)
Definition ref_bn_backward (n m : nat) (centered std grad_output grad_input gamma gamma_grad beta_grad : list R)
  : res (list R * list R * list R) :=
  '(bg, gg) <- forr n (fun i => forr m (fun j s =>
     let '(bg, gg) := s in
     g <- rd grad_output (j + m * i)%nat ;;
     bg1 <- modify bg j (fun a => a + g) ;;
     c <- rd centered (j + m * i)%nat ;; sd <- rd std j ;;
     gg1 <- modify gg j (fun a => a + c / sd * g) ;;
     Ok (bg1, gg1))) (map (fun _ => 0) beta_grad, map (fun _ => 0) gamma_grad) ;;
  '(gxn, _, gvar) <- forr m (fun j s =>
     let '(gxn, gstd, gvar) := s in
     '(gxn1, gstd1) <- forr n (fun i s =>
        let '(gxn, gstd) := s in
        g <- rd grad_output (j + m * i)%nat ;; ga <- rd gamma j ;;
        gxn1 <- wr gxn (j + m * i)%nat (g * ga) ;;
        x <- rd gxn1 (j + m * i)%nat ;; c <- rd centered (j + m * i)%nat ;; sd <- rd std j ;;
        gstd1 <- modify gstd j (fun a => a - x * c / (sd * sd)) ;;
        Ok (gxn1, gstd1)) (gxn, gstd) ;;
     gs <- rd gstd1 j ;; sd <- rd std j ;;
     gvar1 <- wr gvar j (gs / (2 * sd)) ;;
     Ok (gxn1, gstd1, gvar1)) (vec0 (n * m), vec0 m, vec0 m) ;;
  '(_, _, gi) <- forr m (fun j s =>
     let '(gxc, gmu, gi) := s in
     '(gxc1, gmu1) <- forr n (fun i s =>
        let '(gxc, gmu) := s in
        x <- rd gxn (j + m * i)%nat ;; sd <- rd std j ;; c <- rd centered (j + m * i)%nat ;; gv <- rd gvar j ;;
        gxc1 <- wr gxc (j + m * i)%nat (x / sd + c * gv * 2 / INR n) ;;
        y <- rd gxc1 (j + m * i)%nat ;;
        gmu1 <- modify gmu j (fun a => a + y) ;;
        Ok (gxc1, gmu1)) (gxc, gmu) ;;
     gi1 <- forr n (fun i gi =>
        y <- rd gxc1 (j + m * i)%nat ;; mu <- rd gmu1 j ;;
        wr gi (j + m * i)%nat (y - mu / INR n)) gi ;;
     Ok (gxc1, gmu1, gi1)) (vec0 (n * m), vec0 m, grad_input) ;;
  Ok (gi, gg, bg).

(** kernels_reference.cpp:564-600; the local tensors start with arbitrary contents, [junk]. *)
Definition ref_bn2_forward (junk : nat -> R) (N C H W : nat) (input output gamma beta rmean rvar centered std : list R)
    (is_train : bool) (alpha eps : R) : res (list R * list R * list R * list R * list R) :=
  let n := (N * H * W)%nat in
  nhwc_in <- nchw2nhwc N C H W input (tab (n * C) junk) ;;
  c2d <- nchw2nhwc N C H W centered (tab (n * C) junk) ;;
  '(nhwc_out, c2d', s', rm', rv') <- ref_bn_forward n C nhwc_in (tab (n * C) junk) c2d std rmean rvar is_train eps alpha gamma beta ;;
  c' <- nhwc2nchw N C H W c2d' centered ;;
  o' <- nhwc2nchw N C H W nhwc_out output ;;
  Ok (o', c', s', rm', rv').

(** kernels_reference.cpp:602-630 *)
Definition ref_bn2_backward (junk : nat -> R) (N C H W : nat) (centered std grad_output grad_input gamma gamma_grad beta_grad : list R)
  : res (list R * list R * list R) :=
  let n := (N * H * W)%nat in
  g2d <- nchw2nhwc N C H W grad_output (tab (n * C) junk) ;;
  c2d <- nchw2nhwc N C H W centered (tab (n * C) junk) ;;
  '(gi2d, gg, bg) <- ref_bn_backward n C c2d std g2d (tab (n * C) junk) gamma gamma_grad beta_grad ;;
  gi <- nhwc2nchw N C H W gi2d grad_input ;;
  Ok (gi, gg, bg).

(** ** Dropout *)

(** kernels_reference.cpp:504-520, 522-533 *)
Definition ref_dropout_forward (inp mask out : list R) (p : R) (is_train : bool) : res (list R) :=
  if is_train then transform2 (fun m x => if geb m p then x / (1 - p) else 0) mask inp out (length inp)
  else transform1 (fun x => x) inp out (length inp).
Definition ref_dropout_backward (mask grad_output grad_input : list R) (p : R) : res (list R) :=
  transform2 (fun m g => if geb m p then g else 0) mask grad_output grad_input (length grad_output).

(** ** Global average pooling *)

(** kernels_reference.cpp:535-548 *)
Definition ref_gap_forward (batch channels plane_size : nat) (input output : list R) : res (list R) :=
  forr (batch * channels) (fun i out =>
    s <- forr plane_size (fun q a => x <- rd input (i * plane_size + q)%nat ;; Ok (a + x)) 0 ;;
    wr out i (s / INR plane_size)) output.

(** kernels_reference.cpp:550-562 *)
Definition ref_gap_backward (batch channels plane_size : nat) (grad_output grad_input : list R) : res (list R) :=
  forr (batch * channels) (fun i gi =>
    g <- rd grad_output i ;;
    forr plane_size (fun q gi => wr gi (i * plane_size + q)%nat (g / INR plane_size)) gi) grad_input.

(** ** Add *)

(** kernels_reference.cpp:632-645 *)
Definition ref_add_forward (in0 in1 out : ten) : res (list R) :=
  _ <- dw_assert (nshape_eqb (tsh in0) (tsh in1) && nshape_eqb (tsh in0) (tsh out)) ;;
  transform2 Rplus (tdat in0) (tdat in1) (tdat out) (tot in0).

(** kernels_reference.cpp:647-652; returns (grad_input0, grad_input1). *)
Definition ref_add_backward (grad_output grad_input0 grad_input1 : list R) : res (list R * list R) :=
  g0 <- transform1 (fun x => x) grad_output grad_input0 (length grad_output) ;;
  g1 <- transform1 (fun x => x) grad_output grad_input1 (length grad_output) ;;
  Ok (g0, g1).
