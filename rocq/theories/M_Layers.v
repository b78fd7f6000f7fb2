(** Model of the CPU layers, src/runtime/cpu/layers/*.cpp.

    A tensor is a shape and its flat data.  A layer object carries its parameters (data, gradient,
    trainable flag), buffers and caches.  [forward] gets the input and output tensors and returns the
    layer and the new contents of the (single) output; [backward] updates the gradient memory, a list
    of tensors indexed by data id, so that two inputs of a layer may be the same tensor. *)
From Coq Require Import Reals Lra.
From Verif Require Import Base Sums M_Im2col S_Im2col M_Kernels M_Conv.
Open Scope nat_scope.

Definition prodN (s : list nat) : nat := fold_right Nat.mul 1 s.
Definition nshape_eqb : list nat -> list nat -> bool := list_eqb Nat.eqb.

Record ten := mkT { tsh : list nat; tdat : list R }.
Definition twf (t : ten) : Prop := length (tdat t) = prodN (tsh t).
Definition tot (t : ten) : nat := length (tdat t).
Definition set_dat (t : ten) (d : list R) : ten := mkT (tsh t) d.
Definition empty_ten : ten := mkT [] [].

(** The index tensor of MaxPooling. *)
Record iten := mkIT { ish : list nat; idat : list nat }.

(** src/parameter.cpp:4-8, Parameter::Impl *)
Record prm := mkP { p_data : ten; p_grad : ten; p_train : bool }.

(** What a call obtains from outside: contents of fresh memory, random draws, Eigen's choice among
    equal maxima. *)
Record env := mkEnv { e_junk : nat -> R; e_ijunk : nat -> nat; e_rnd : nat -> R;
                      e_amax : nat -> (nat -> R) -> nat }.

(** Tensor(shape) / allocate(shape) (src/runtime/tensor.cpp:57-59, 89-95) *)
Definition fresh (E : env) (s : list nat) : ten := mkT s (tab (prodN s) (e_junk E)).

Inductive layer :=
| LReLU
| LSigmoid
| LSoftmax
| LGap
| LAdd
| LLeaky (alpha : R)
| LELU (alpha : R)
| LLinear (W b : prm)
| LConv (g : geom) (W b : prm) (buf : ten)
| LMaxPool (g : geom) (ind : iten) (buf : ten)
| LDropout (p : R) (mask : prm)
| LBN1 (eps alpha : R) (gamma beta : prm) (std rmean rvar centered : ten)
| LBN2 (eps alpha : R) (gamma beta : prm) (std rmean rvar centered nin nout : ten).

(** [v.front()]: undefined on an empty vector. [v.at(i)] throws. [shape[i]] is unchecked. *)
Definition front {A} (l : list A) : res A := rd l 0.
Definition at_ {A} (l : list A) (i : nat) : res A :=
  match nth_error l i with Some x => Ok x | None => Throw end.

(** The common [validate] of the activation layers (cpurelu.cpp:4-11, cpuelu.cpp:3-10,
    cpuleakyrelu.cpp:3-10, cpusigmoid.cpp:3-10, cpudropout.cpp:9-16). *)
Definition validate_same (ins outs : list ten) : res unit :=
  _ <- dw_assert (length ins =? 1) ;;
  _ <- dw_assert (length outs =? 1) ;;
  i <- front ins ;; o <- front outs ;;
  dw_assert (nshape_eqb (tsh i) (tsh o)).

(** cpusoftmax.cpp:3-10, cpubatchnorm1d.cpp:17-24 ([r] = 2), cpubatchnorm2d.cpp:17-24 ([r] = 4) *)
Definition validate_rank (r : nat) (ins outs : list ten) : res unit :=
  _ <- dw_assert (length ins =? 1) ;;
  _ <- dw_assert (length outs =? 1) ;;
  i <- front ins ;; o <- front outs ;;
  _ <- dw_assert (length (tsh i) =? r) ;;
  dw_assert (length (tsh o) =? r).

(** cpulinear.cpp:14-21 *)
Definition validate_linear (ins outs : list ten) : res unit :=
  _ <- dw_assert (length ins =? 1) ;;
  _ <- dw_assert (length outs =? 1) ;;
  i <- front ins ;; o <- front outs ;;
  _ <- dw_assert (negb (length (tsh i) =? 1)) ;;
  dw_assert (negb (length (tsh o) =? 1)).

(** cpuconvolution.cpp:10-19, cpumaxpooling.cpp:4-13 *)
Definition validate_geom (g : geom) : res unit :=
  _ <- dw_assert ((0 <? g_kh g) && (0 <? g_kw g))%Z ;;
  _ <- dw_assert ((0 <=? g_ph g) && (0 <=? g_pw g))%Z ;;
  dw_assert ((0 <? g_sh g) && (0 <? g_sw g))%Z.

(** cpulinear.cpp:35: product of the dimensions after the first. *)
Definition second_shape (s : list nat) : res nat :=
  match s with [] => UB | _ :: t => Ok (prodN t) end.

(** An activation layer's forward. *)
Definition act_forward (op : R -> R) (L : layer) (ins outs : list ten) : res (layer * ten) :=
  _ <- validate_same ins outs ;;
  i <- front ins ;; o <- front outs ;;
  d <- elementwise op (tot i) (tdat i) (tot o) (tdat o) ;;
  Ok (L, set_dat o d).

Definition dims2 (t : ten) : res (nat * nat) :=
  a <- rd (tsh t) 0 ;; b <- rd (tsh t) 1 ;; Ok (a, b).
Definition dims4 (t : ten) : res (nat * nat * nat * nat) :=
  a <- rd (tsh t) 0 ;; b <- rd (tsh t) 1 ;; c <- rd (tsh t) 2 ;; d <- rd (tsh t) 3 ;; Ok (a, b, c, d).
Definition dim0 (t : ten) : res nat := rd (tsh t) 0.

(** cpulinear.cpp:23-44 *)
Definition linear_fwd (W b : prm) (i o : ten) : res ten :=
  '(w0, w1) <- dims2 (p_data W) ;; b0 <- dim0 (p_data b) ;;
  i0 <- dim0 i ;; '(o0, o1) <- dims2 o ;;
  i1 <- second_shape (tsh i) ;;
  d1 <- linear_forward i0 i1 (tdat i) w0 w1 (tdat (p_data W)) o0 o1 (tdat o) ;;
  d2 <- linear_add_bias o0 o1 d1 b0 (tdat (p_data b)) o0 o1 d1 ;;
  Ok (set_dat o d2).

(** cpuconvolution.cpp:34-54; returns (im2col_buf, output). *)
Definition conv_fwd (E : env) (g : geom) (W b : prm) (buf i o : ten) : res (ten * ten) :=
  '(batch, c_in, h, w) <- dims4 i ;; '(_, _, ho, wo) <- dims4 o ;;
  c_out <- dim0 (p_data W) ;;
  let d := mkCd c_in h w c_out ho wo in
  let n := batch * cd_rows g d * cd_cols d in
  let buf1 := if tot buf =? n then buf else fresh E [n] in
  '(bd, od) <- conv_forward g d batch (tdat i) (tdat (p_data W)) (tdat (p_data b)) (tdat buf1) (tdat o) ;;
  Ok (set_dat buf1 bd, set_dat o od).

(** cpumaxpooling.cpp:26-42; returns (max_indices, im2col_buf, output). *)
Definition maxpool_fwd (E : env) (g : geom) (ind : iten) (buf i o : ten) : res (iten * ten * ten) :=
  let ind1 := if nshape_eqb (ish ind) (tsh o) then ind
              else mkIT (tsh o) (tab (prodN (tsh o)) (e_ijunk E)) in
  '(_, _, ho, wo) <- dims4 o ;;
  let n := KH g * KW g * (ho * wo) in
  let buf1 := if tot buf =? n then buf else fresh E [n] in
  '(batch, c, h, w) <- dims4 i ;;
  '(od, id, bd) <- maxpool_forward (e_amax E) g (batch * c) h w ho wo (tdat i) (tdat o) (idat ind1) (tdat buf1) ;;
  Ok (mkIT (ish ind1) id, set_dat buf1 bd, set_dat o od).

(** cpubatchnorm1d.cpp:33-68 *)
Definition bn1_fwd (E : env) (eps alpha : R) (gamma beta : prm) (std rmean rvar centered i o : ten)
  : res (ten * ten * ten * ten * ten) :=
  let cent1 := if nshape_eqb (tsh centered) (tsh i) then centered else fresh E (tsh i) in
  _ <- dw_assert (Bool.eqb (p_train gamma) (p_train beta)) ;;
  let training := p_train gamma && p_train beta in
  '(n, m) <- dims2 i ;; '(on, om) <- dims2 o ;; '(cn, cm) <- dims2 cent1 ;;
  sm <- dim0 std ;; mm <- dim0 rmean ;; vm <- dim0 rvar ;; gm <- dim0 (p_data gamma) ;; bm <- dim0 (p_data beta) ;;
  _ <- same n on ;; _ <- same m om ;; _ <- same n cn ;; _ <- same m cm ;;
  _ <- same m sm ;; _ <- same m mm ;; _ <- same m vm ;; _ <- same m gm ;; _ <- same m bm ;;
  '(od, cd, sd, md, vd) <- bn_forward n m (tdat i) (tdat o) (tdat cent1) (tdat std) (tdat rmean) (tdat rvar)
                              training eps alpha (tdat (p_data gamma)) (tdat (p_data beta)) ;;
  Ok (set_dat std sd, set_dat rmean md, set_dat rvar vd, set_dat cent1 cd, set_dat o od).

(** cpubatchnorm2d.cpp:33-73; the buffers are allocated only when empty. *)
Definition bn2_fwd (E : env) (eps alpha : R) (gamma beta : prm) (std rmean rvar centered nin nout i o : ten)
  : res (ten * ten * ten * ten * ten * ten * ten) :=
  _ <- dw_assert (Bool.eqb (p_train gamma) (p_train beta)) ;;
  let training := p_train gamma in
  '(N, C, H, W) <- dims4 i ;;
  let '(nin1, nout1) := if tot nin =? 0 then (fresh E [N; H; W; C], fresh E [N; H; W; C]) else (nin, nout) in
  let cent1 := if tot centered =? 0 then fresh E [N * H * W; C] else centered in
  nd <- nchw2nhwc N C H W (tdat i) (tdat nin1) ;;
  '(od, cd, sd, md, vd) <- bn_forward (N * H * W) C nd (tdat nout1) (tdat cent1) (tdat std) (tdat rmean) (tdat rvar)
                              training eps alpha (tdat (p_data gamma)) (tdat (p_data beta)) ;;
  '(N', C', H', W') <- dims4 o ;;
  out <- nhwc2nchw N' C' H' W' od (tdat o) ;;
  Ok (set_dat std sd, set_dat rmean md, set_dat rvar vd, set_dat cent1 cd,
      set_dat nin1 nd, set_dat nout1 od, set_dat o out).

(** The [forward] virtual method. *)
Definition lforward (E : env) (L : layer) (ins outs : list ten) : res (layer * ten) :=
  match L with
  | LReLU => act_forward relu L ins outs                       (* cpurelu.cpp:13-22 *)
  | LSigmoid => act_forward sigmoid L ins outs                 (* cpusigmoid.cpp:12-21 *)
  | LLeaky a => act_forward (leaky a) L ins outs               (* cpuleakyrelu.cpp:12-23 *)
  | LELU a => act_forward (elu a) L ins outs                   (* cpuelu.cpp:12-23 *)
  | LSoftmax =>                                                (* cpusoftmax.cpp:12-23 *)
      _ <- validate_rank 2 ins outs ;;
      i <- front ins ;; o <- front outs ;;
      '(n, m) <- dims2 i ;; '(on, om) <- dims2 o ;;
      d <- softmax_forward n m (tdat i) on om (tdat o) ;;
      Ok (L, set_dat o d)
  | LGap =>                                                    (* cpuglobalavgpooling.cpp:5-11 *)
      i <- front ins ;; o <- front outs ;;
      '(n, c, h, w) <- dims4 i ;;
      d <- gap_forward (n * c) (h * w) (tdat i) (tdat o) ;;
      Ok (L, set_dat o d)
  | LAdd =>                                                    (* cpuadd.cpp:4-11 *)
      x <- at_ ins 0 ;; y <- at_ ins 1 ;; o <- at_ outs 0 ;;
      d <- add_forward (tdat x) (tdat y) (tdat o) ;;
      Ok (L, set_dat o d)
  | LLinear W b =>
      _ <- validate_linear ins outs ;;
      i <- front ins ;; o <- front outs ;;
      o' <- linear_fwd W b i o ;;
      Ok (L, o')
  | LConv g W b buf =>                                         (* cpuconvolution.cpp:21-55 *)
      _ <- validate_geom g ;;
      i <- front ins ;; o <- front outs ;;
      '(buf', o') <- conv_fwd E g W b buf i o ;;
      Ok (LConv g W b buf', o')
  | LMaxPool g ind buf =>                                      (* cpumaxpooling.cpp:15-43 *)
      _ <- validate_geom g ;;
      i <- front ins ;; o <- front outs ;;
      '(ind', buf', o') <- maxpool_fwd E g ind buf i o ;;
      Ok (LMaxPool g ind' buf', o')
  | LDropout p mask =>                                         (* cpudropout.cpp:18-31 *)
      _ <- validate_same ins outs ;;
      i <- front ins ;; o <- front outs ;;
      if p_train mask then
        '(md, d) <- dropout_forward (e_rnd E) (tdat i) (tdat (p_data mask)) (tdat o) p ;;
        Ok (LDropout p (mkP (set_dat (p_data mask) md) (p_grad mask) (p_train mask)), set_dat o d)
      else
        _ <- dw_assert (nshape_eqb (tsh i) (tsh o)) ;;         (* copyTo, tensor.cpp:79-87 *)
        _ <- dw_assert (negb (tot o =? 0)) ;;
        Ok (L, set_dat o (tdat i))
  | LBN1 eps alpha gamma beta std rmean rvar centered =>       (* cpubatchnorm1d.cpp:26-69 *)
      _ <- validate_rank 2 ins outs ;;
      i <- front ins ;; o <- front outs ;;
      '(std', rm', rv', c', o') <- bn1_fwd E eps alpha gamma beta std rmean rvar centered i o ;;
      Ok (LBN1 eps alpha gamma beta std' rm' rv' c', o')
  | LBN2 eps alpha gamma beta std rmean rvar centered nin nout =>  (* cpubatchnorm2d.cpp:26-74 *)
      _ <- validate_rank 4 ins outs ;;
      i <- front ins ;; o <- front outs ;;
      '(std', rm', rv', c', ni', no', o') <- bn2_fwd E eps alpha gamma beta std rmean rvar centered nin nout i o ;;
      Ok (LBN2 eps alpha gamma beta std' rm' rv' c' ni' no', o')
  end.

Definition set_grad (p : prm) (d : list R) : prm := mkP (p_data p) (set_dat (p_grad p) d) (p_train p).

(** The [updateGradients] virtual method (default: nothing, cpulayer.cpp:55-57). *)
Definition lupdate (E : env) (L : layer) (ins gouts : list ten) : res layer :=
  match L with
  | LLinear W b =>                                             (* cpulinear.cpp:66-83 *)
      '(w0, w1) <- dims2 (p_grad W) ;; b0 <- dim0 (p_grad b) ;;
      go <- front gouts ;; '(g0, g1) <- dims2 go ;;
      i <- front ins ;; i0 <- dim0 i ;; i1 <- second_shape (tsh i) ;;
      dW <- linear_weight_grad i0 i1 (tdat i) g0 g1 (tdat go) w0 w1 (tdat (p_grad W)) ;;
      db <- linear_bias_grad g0 g1 (tdat go) b0 (tdat (p_grad b)) ;;
      Ok (LLinear (set_grad W dW) (set_grad b db))
  | LConv g W b buf =>                                         (* cpuconvolution.cpp:80-87 *)
      _ <- dw_assert (negb (tot buf =? 0)) ;;
      go <- front gouts ;;
      '(batch, c_out, ho, wo) <- dims4 go ;;
      '(_, k1, k2, k3) <- dims4 (p_grad W) ;;
      dW <- conv_weights_grad batch c_out (k1 * k2 * k3) (ho * wo) (tdat go) (tdat buf) (tdat (p_grad W)) ;;
      db <- conv_bias_grad batch c_out (ho * wo) (tdat go) (tdat (p_grad b)) ;;
      Ok (LConv g (set_grad W dW) (set_grad b db) buf)
  | LBN1 eps alpha gamma beta std rmean rvar centered =>       (* cpubatchnorm1d.cpp:90-105 *)
      '(n, m) <- dims2 centered ;; sm <- dim0 std ;; gm <- dim0 (p_grad gamma) ;; bm <- dim0 (p_grad beta) ;;
      go <- front gouts ;; '(gn, gmm) <- dims2 go ;;
      _ <- same n gn ;; _ <- same m gmm ;; _ <- same m sm ;; _ <- same m gm ;; _ <- same m bm ;;
      '(gg, gb) <- bn_param_grad n m (tdat centered) (tdat std) (tdat go)
                                 (tdat (p_grad gamma)) (tdat (p_grad beta)) ;;
      Ok (LBN1 eps alpha (set_grad gamma gg) (set_grad beta gb) std rmean rvar centered)
  | LBN2 eps alpha gamma beta std rmean rvar centered nin nout =>  (* cpubatchnorm2d.cpp:99-112 *)
      go <- front gouts ;;
      '(N, C, H, W) <- dims4 go ;;
      if C =? 0 then UB else                                   (* division by C *)
      nd <- nchw2nhwc N C H W (tdat go) (tdat nout) ;;
      '(gg, gb) <- bn_param_grad (tot go / C) C (tdat centered) (tdat std) nd
                                 (tdat (p_grad gamma)) (tdat (p_grad beta)) ;;
      Ok (LBN2 eps alpha (set_grad gamma gg) (set_grad beta gb) std rmean rvar centered nin (set_dat nout nd))
  | _ => Ok L
  end.

(** Updating one tensor of the gradient memory. *)
Definition on_grad (gm : list ten) (ids : list nat) (f : ten -> res (list R)) : res (list ten) :=
  k <- front ids ;; gi <- rd gm k ;; d <- f gi ;; Ok (upd gm k (set_dat gi d)).

(** An activation layer's backward; [a] is the tensor the gradient kernel looks at. *)
Definition act_backward (op : R -> R -> R) (a : ten) (go : ten) (gm : list ten) (ids : list nat) : res (list ten) :=
  on_grad gm ids (fun gi => elementwise_grad op (tot a) (tdat a) (tot go) (tdat go) (tot gi) (tdat gi)).

(** [p[i] += v] for a tensor of the gradient memory. *)
Definition grad_incr (gm : list ten) (k i : nat) (v : R) : res (list ten) :=
  t <- rd gm k ;; x <- rd (tdat t) i ;; d <- wr (tdat t) i (x + v)%R ;; Ok (upd gm k (set_dat t d)).

(** The [backward] virtual method.  [gins]/[gouts]: data ids of grad_inputs / grad_outputs. *)
Definition lbackward (E : env) (L : layer) (ins outs : list ten) (gm : list ten) (gins gouts : list nat)
  : res (layer * list ten) :=
  match L with
  | LReLU =>                                                   (* cpurelu.cpp:24-35 *)
      i <- front ins ;; k <- front gouts ;; go <- rd gm k ;;
      gm' <- act_backward relu_grad i go gm gins ;; Ok (L, gm')
  | LLeaky a =>                                                (* cpuleakyrelu.cpp:25-38 *)
      i <- front ins ;; k <- front gouts ;; go <- rd gm k ;;
      gm' <- act_backward (leaky_grad a) i go gm gins ;; Ok (L, gm')
  | LELU a =>                                                  (* cpuelu.cpp:25-38 *)
      i <- front ins ;; k <- front gouts ;; go <- rd gm k ;;
      gm' <- act_backward (elu_grad a) i go gm gins ;; Ok (L, gm')
  | LSigmoid =>                                                (* cpusigmoid.cpp:23-34 *)
      o <- front outs ;; k <- front gouts ;; go <- rd gm k ;;
      gm' <- act_backward sigmoid_grad o go gm gins ;; Ok (L, gm')
  | LSoftmax =>                                                (* cpusoftmax.cpp:25-36 *)
      k <- front gouts ;; go <- rd gm k ;; o <- front outs ;;
      '(n, m) <- dims2 o ;; '(gn, gmm) <- dims2 go ;;
      gm' <- on_grad gm gins (fun gi =>
               '(gin, gim) <- dims2 gi ;;
               softmax_input_grad n m (tdat o) gn gmm (tdat go) gin gim (tdat gi)) ;;
      Ok (L, gm')
  | LGap =>                                                    (* cpuglobalavgpooling.cpp:13-21 *)
      k <- front gouts ;; go <- rd gm k ;;
      gm' <- on_grad gm gins (fun gi =>
               '(n, c, h, w) <- dims4 gi ;;
               gap_input_grad (n * c) (h * w) (tdat go) (tdat gi)) ;;
      Ok (L, gm')
  | LAdd =>                                                    (* cpuadd.cpp:13-26 *)
      k <- at_ gouts 0 ;; go <- rd gm k ;;
      k0 <- at_ gins 0 ;; k1 <- at_ gins 1 ;;
      gm' <- forr (tot go) (fun i gm =>
               go <- rd gm k ;; v <- rd (tdat go) i ;;
               gm1 <- grad_incr gm k0 i v ;;
               go1 <- rd gm1 k ;; v1 <- rd (tdat go1) i ;;
               grad_incr gm1 k1 i v1) gm ;;
      Ok (L, gm')
  | LLinear W b =>                                             (* cpulinear.cpp:46-64 *)
      '(w0, w1) <- dims2 (p_data W) ;;
      k <- front gouts ;; go <- rd gm k ;; '(g0, g1) <- dims2 go ;;
      i <- front ins ;; i1 <- second_shape (tsh i) ;;
      gm' <- on_grad gm gins (fun gi =>
               gi0 <- dim0 gi ;;
               linear_input_grad g0 g1 (tdat go) w0 w1 (tdat (p_data W)) gi0 i1 (tdat gi)) ;;
      Ok (L, gm')
  | LConv g W b buf =>                                         (* cpuconvolution.cpp:57-78 *)
      _ <- dw_assert (negb (tot buf =? 0)) ;;
      k <- front gouts ;; go <- rd gm k ;;
      '(batch, c_out, ho, wo) <- dims4 go ;;
      gm' <- on_grad gm gins (fun gi =>
               '(_, c_in, h, w) <- dims4 gi ;;
               let d := mkCd c_in h w c_out ho wo in
               conv_input_grad g d batch (fun _ => tab (cd_rows g d * cd_cols d) (e_junk E))
                               (tdat go) (tdat (p_data W)) (tdat gi)) ;;
      Ok (L, gm')
  | LMaxPool g ind buf =>                                      (* cpumaxpooling.cpp:45-59 *)
      k <- front gouts ;; go <- rd gm k ;;
      _ <- dw_assert (nshape_eqb (ish ind) (tsh go)) ;;
      kg <- front gins ;; gi <- rd gm kg ;;
      '(batch, c, h, w) <- dims4 gi ;; '(_, _, ho, wo) <- dims4 go ;;
      '(gd, bd) <- maxpool_input_grad g (batch * c) h w ho wo (tdat go) (idat ind) (tdat buf) (tdat gi) ;;
      Ok (LMaxPool g ind (set_dat buf bd), upd gm kg (set_dat gi gd))
  | LDropout p mask =>                                         (* cpudropout.cpp:33-42 *)
      k <- front gouts ;; go <- rd gm k ;;
      gm' <- on_grad gm gins (fun gi => dropout_input_grad (tdat (p_data mask)) (tdat go) (tdat gi) p) ;;
      Ok (L, gm')
  | LBN1 eps alpha gamma beta std rmean rvar centered =>       (* cpubatchnorm1d.cpp:71-88 *)
      '(n, m) <- dims2 centered ;; sm <- dim0 std ;; gmm <- dim0 (p_data gamma) ;;
      k <- front gouts ;; go <- rd gm k ;; '(gn, gc) <- dims2 go ;;
      gm' <- on_grad gm gins (fun gi =>
               '(gin, gic) <- dims2 gi ;;
               _ <- same n gn ;; _ <- same m gc ;; _ <- same n gin ;; _ <- same m gic ;;
               _ <- same m sm ;; _ <- same m gmm ;;
               bn_input_grad n m (tdat centered) (tdat std) (tdat go) (tdat gi) (tdat (p_data gamma))) ;;
      Ok (L, gm')
  | LBN2 eps alpha gamma beta std rmean rvar centered nin nout =>  (* cpubatchnorm2d.cpp:76-97 *)
      k <- front gouts ;; go <- rd gm k ;;
      '(N, C, H, W) <- dims4 go ;;
      if C =? 0 then UB else
      nd <- nchw2nhwc N C H W (tdat go) (tdat nout) ;;
      _ <- same (tot go / C) (tot nin / C) ;;
      gd <- bn_input_grad (tot go / C) C (tdat centered) (tdat std) nd (zeros (tdat nin)) (tdat (p_data gamma)) ;;
      gm' <- on_grad gm gins (fun gi =>
               '(N', C', H', W') <- dims4 gi ;;
               nhwc2nchw N' C' H' W' gd (tdat gi)) ;;
      Ok (LBN2 eps alpha gamma beta std rmean rvar centered (set_dat nin gd) (set_dat nout nd), gm')
  end.

(** The parameters of a layer ([LayerInfo::params()]), in the order of nn.cpp's init functions. *)
Definition lparams (L : layer) : list prm :=
  match L with
  | LLinear W b => [W; b]
  | LConv _ W b _ => [W; b]
  | LDropout _ m => [m]
  | LBN1 _ _ g b _ _ _ _ => [g; b]
  | LBN2 _ _ g b _ _ _ _ _ _ => [g; b]
  | _ => []
  end.
