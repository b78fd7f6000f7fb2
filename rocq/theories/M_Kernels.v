(** Model of the arithmetic kernels of src/runtime/cpu/kernels/kernels.cpp.

    Arrays are flat lists of reals.  Simplifications: [float] arithmetic is exact real arithmetic
    (no rounding, NaN, infinity); an Eigen expression is evaluated by its documented meaning.
    A matrix or vector map carries its dimensions explicitly, as in the C++ calls; a map larger than
    the array behind it, and operands whose dimensions do not agree (an Eigen assertion, or an
    out-of-bounds access when assertions are compiled out), are [UB]. *)
From Coq Require Import Reals Lra.
From Verif Require Import Base Sums.
Open Scope R_scope.

(** An Eigen map of [n] elements over the array [d] (kernels.hpp: [Matrix], [Vector], ... aliases). *)
Definition emap (n : nat) (d : list R) : res unit := if (n <=? length d)%nat then Ok tt else UB.

(** Dimension agreement required by Eigen. *)
Definition same (a b : nat) : res unit := if (a =? b)%nat then Ok tt else UB.

(** Coefficient (i, j) of a row-major matrix with [c] columns. *)
Definition el (d : list R) (c i j : nat) : R := d.[i * c + j].

(** Assignment of [n] coefficients through a map. *)
Definition put (n : nat) (f : nat -> R) (d : list R) : list R := tab n f ++ skipn n d.

(** Assignment of an [r] x [c] matrix through a map. *)
Definition put2 (r c : nat) (f : nat -> nat -> R) (d : list R) : list R :=
  put (r * c) (fun p => f (p / c)%nat (p mod c)%nat) d.

(** Maximum of [f 0 .. f (n-1)], [n >= 1]. *)
Fixpoint rmax (n : nat) (f : nat -> R) : R :=
  match n with
  | O => f O
  | S m => Rmax (rmax m f) (f m)
  end.

(** C++ comparison operators on values. *)
Definition ltb (x y : R) : bool := if Rlt_dec x y then true else false.
Definition geb (x y : R) : bool := if Rle_dec y x then true else false.

(** ** Linear *)

(** kernels.cpp:12-14 *)
Definition linear_forward (nX mX : nat) (X : list R) (nW mW : nat) (W : list R)
                          (nR mR : nat) (result : list R) : res (list R) :=
  _ <- emap (nX * mX) X ;; _ <- emap (nW * mW) W ;; _ <- emap (nR * mR) result ;;
  _ <- same mX mW ;; _ <- same nX nR ;; _ <- same nW mR ;;
  Ok (put2 nR mR (fun i j => rsum mX (fun k => el X mX i k * el W mW j k)) result).

(** kernels.cpp:16-18 (called with [X] and [result] the same array) *)
Definition linear_add_bias (nX mX : nat) (X : list R) (nb : nat) (b : list R)
                           (nR mR : nat) (result : list R) : res (list R) :=
  _ <- emap (nX * mX) X ;; _ <- emap nb b ;; _ <- emap (nR * mR) result ;;
  _ <- same mX nb ;; _ <- same nX nR ;; _ <- same mX mR ;;
  Ok (put2 nR mR (fun i j => el X mX i j + b.[j]) result).

(** kernels.cpp:20-24 *)
Definition linear_input_grad (nd md : nat) (dx : list R) (nW mW : nat) (W : list R)
                             (ng mg : nat) (grad_input : list R) : res (list R) :=
  _ <- emap (nd * md) dx ;; _ <- emap (nW * mW) W ;; _ <- emap (ng * mg) grad_input ;;
  _ <- same md nW ;; _ <- same nd ng ;; _ <- same mW mg ;;
  Ok (put2 ng mg (fun i k => el grad_input mg i k + rsum md (fun j => el dx md i j * el W mW j k)) grad_input).

(** kernels.cpp:26-28 *)
Definition linear_weight_grad (nI mI : nat) (input : list R) (nd md : nat) (dx : list R)
                              (nW mW : nat) (dW : list R) : res (list R) :=
  _ <- emap (nI * mI) input ;; _ <- emap (nd * md) dx ;; _ <- emap (nW * mW) dW ;;
  _ <- same nd nI ;; _ <- same md nW ;; _ <- same mI mW ;;
  Ok (put2 nW mW (fun j k => rsum nd (fun i => el dx md i j * el input mI i k)) dW).

(** kernels.cpp:30-32 *)
Definition linear_bias_grad (nd md : nat) (dx : list R) (nb : nat) (db : list R) : res (list R) :=
  _ <- emap (nd * md) dx ;; _ <- emap nb db ;; _ <- same md nb ;;
  Ok (put nb (fun j => rsum nd (fun i => el dx md i j)) db).

(** ** Softmax *)

(** kernels.cpp:34-37, with the exponential function as an argument; [maxCoeff] of an empty row is an
    Eigen assertion. *)
Definition softmax_forward_with (ex : R -> R) (nX mX : nat) (X : list R) (nR mR : nat) (result : list R)
  : res (list R) :=
  _ <- emap (nX * mX) X ;; _ <- emap (nR * mR) result ;; _ <- same nX nR ;; _ <- same mX mR ;;
  if ((0 <? nX) && (mX =? 0))%nat then UB else
  let e := fun i j => ex (el X mX i j - rmax mX (fun k => el X mX i k)) in
  Ok (put2 nR mR (fun i j => e i j / rsum mX (fun k => e i k)) result).
Definition softmax_forward := softmax_forward_with exp.

(** kernels.cpp:39-42 *)
Definition softmax_input_grad (n m : nat) (output : list R) (ng mg : nat) (grad_output : list R)
                              (ni mi : nat) (grad_input : list R) : res (list R) :=
  _ <- emap (n * m) output ;; _ <- emap (ng * mg) grad_output ;; _ <- emap (ni * mi) grad_input ;;
  _ <- same n ng ;; _ <- same m mg ;; _ <- same n ni ;; _ <- same m mi ;;
  let k := fun i => rsum m (fun j => el grad_output m i j * el output m i j) in
  Ok (put2 ni mi (fun i j => el grad_input m i j + el output m i j * (el grad_output m i j - k i)) grad_input).

(** ** Element-wise activations *)

(** [result = op(X)] over whole vectors. *)
Definition elementwise (op : R -> R) (nX : nat) (X : list R) (nR : nat) (result : list R) : res (list R) :=
  _ <- emap nX X ;; _ <- emap nR result ;; _ <- same nX nR ;;
  Ok (put nR (fun i => op X.[i]) result).

(** [grad_input += op(a, grad_output)] over whole vectors. *)
Definition elementwise_grad (op : R -> R -> R) (na : nat) (a : list R) (ng : nat) (grad_output : list R)
                            (ni : nat) (grad_input : list R) : res (list R) :=
  _ <- emap na a ;; _ <- emap ng grad_output ;; _ <- emap ni grad_input ;; _ <- same na ng ;; _ <- same na ni ;;
  Ok (put ni (fun i => grad_input.[i] + op a.[i] grad_output.[i]) grad_input).

(** kernels.cpp:44-52 *)
Definition relu (x : R) : R := if ltb 0 x then x else 0.
Definition relu_grad (x g : R) : R := if ltb 0 x then g else 0.

(** kernels.cpp:54-62 *)
Definition leaky (alpha x : R) : R := if ltb x 0 then x * alpha else x.
Definition leaky_grad (alpha x g : R) : R := if ltb x 0 then g * alpha else g.

(** kernels.cpp:64-71 *)
Definition elu (alpha x : R) : R := if ltb x 0 then (exp x - 1) * alpha else x.
Definition elu_grad (alpha x g : R) : R := g * (if ltb x 0 then exp x * alpha else 1).

(** kernels.cpp:73-79; the gradient takes the layer's output. *)
Definition sigmoid (x : R) : R := / (exp (x * -1) + 1).
Definition sigmoid_grad (y g : R) : R := g * (y * (y * -1 + 1)).

(** ** Batch normalisation *)

(** kernels.cpp:295-316.  Returns (output, input_centered, std, running_mean, running_var).
    The mean over zero rows is an Eigen assertion: [UB].  A zero [std] yields infinities in the
    code; the theorems assume [eps > 0]. *)
Definition bn_forward (n m : nat) (input : list R) (output centered std rmean rvar : list R)
                      (is_training : bool) (eps alpha : R) (gamma beta : list R)
  : res (list R * list R * list R * list R * list R) :=
  _ <- emap (n * m) input ;; _ <- emap (n * m) output ;; _ <- emap (n * m) centered ;;
  _ <- emap m std ;; _ <- emap m rmean ;; _ <- emap m rvar ;; _ <- emap m gamma ;; _ <- emap m beta ;;
  if ((n =? 0) && is_training)%nat%bool then UB else
  let '(centered', std', rmean', rvar') :=
    if is_training then
      let mean := fun j => rsum n (fun i => el input m i j) / INR n in
      let centered' := put2 n m (fun i j => el input m i j - mean j) centered in
      let var := fun j => rsum n (fun i => el centered' m i j * el centered' m i j) / INR n in
      (centered', put m (fun j => sqrt (var j + eps)) std,
       put m (fun j => rmean.[j] * alpha + mean j * (1 - alpha)) rmean,
       put m (fun j => rvar.[j] * alpha + var j * (1 - alpha)) rvar)
    else
      (put2 n m (fun i j => el input m i j - rmean.[j]) centered,
       put m (fun j => sqrt (rvar.[j] + eps)) std, rmean, rvar) in
  Ok (put2 n m (fun i j => el centered' m i j * (gamma.[j] / std'.[j]) + beta.[j]) output,
      centered', std', rmean', rvar').

(** kernels.cpp:318-337 *)
Definition bn_input_grad (n m : nat) (centered std : list R) (grad_output grad_input gamma : list R)
  : res (list R) :=
  _ <- emap (n * m) centered ;; _ <- emap m std ;; _ <- emap (n * m) grad_output ;;
  _ <- emap (n * m) grad_input ;; _ <- emap m gamma ;;
  let g_norm := fun i j => el grad_output m i j * gamma.[j] in
  let g_std := fun j => rsum n (fun i => el centered m i j * g_norm i j / (std.[j] * std.[j])) * -1 in
  let g_var := fun j => g_std j / (std.[j] * 2) in
  let g_cent := fun i j => g_norm i j / std.[j] + el centered m i j * g_var j * (2 / INR n) in
  let g_mu := fun j => rsum n (fun i => g_cent i j) in
  Ok (put2 n m (fun i j => el grad_input m i j + (g_cent i j - g_mu j / INR n)) grad_input).

(** kernels.cpp:339-344; returns (gamma_grad, beta_grad) *)
Definition bn_param_grad (n m : nat) (centered std : list R) (grad_output gamma_grad beta_grad : list R)
  : res (list R * list R) :=
  _ <- emap (n * m) centered ;; _ <- emap m std ;; _ <- emap (n * m) grad_output ;;
  _ <- emap m gamma_grad ;; _ <- emap m beta_grad ;;
  Ok (put m (fun j => rsum n (fun i => el centered m i j / std.[j] * el grad_output m i j)) gamma_grad,
      put m (fun j => rsum n (fun i => el grad_output m i j)) beta_grad).

(** ** Dropout *)

(** kernels.cpp:346-353; [u] is the vector the generator produces for the mask (initializers.cpp:28-32
    fills every element of [mask]). Returns (mask, output). *)
Definition dropout_forward (u : nat -> R) (input mask output : list R) (p : R) : res (list R * list R) :=
  let mask' := tab (length mask) u in
  _ <- same (length input) (length mask) ;; _ <- same (length input) (length output) ;;
  Ok (mask', put (length output) (fun i => (if geb mask'.[i] p then input.[i] else 0) / (1 - p)) output).

(** kernels.cpp:355-364 *)
Definition dropout_input_grad (mask grad_output grad_input : list R) (p : R) : res (list R) :=
  _ <- same (length mask) (length grad_output) ;; _ <- same (length mask) (length grad_input) ;;
  Ok (put (length grad_input)
          (fun i => grad_input.[i] + (if geb mask.[i] p then grad_output.[i] else 0)) grad_input).

(** ** Global average pooling *)

(** kernels.cpp:366-375; [rows = batch * channels], [total] the size of the output vector. *)
Definition gap_forward (rows plane : nat) (input : list R) (output : list R) : res (list R) :=
  _ <- emap (rows * plane) input ;; _ <- same rows (length output) ;;
  if ((0 <? rows) && (plane =? 0))%nat then UB else
  Ok (put rows (fun i => rsum plane (fun j => el input plane i j) / INR plane) output).

(** kernels.cpp:377-391 *)
Definition gap_input_grad (rows plane : nat) (grad_output grad_input : list R) : res (list R) :=
  forr rows (fun i d =>
    forr plane (fun j d =>
      v <- rd d (i * plane + j)%nat ;;
      o <- rd grad_output i ;;
      wr d (i * plane + j)%nat (v + o / INR plane)) d) grad_input.

(** ** Add *)

(** kernels.cpp:542-548 *)
Definition add_forward (x1 x2 result : list R) : res (list R) :=
  _ <- same (length x1) (length x2) ;; _ <- same (length x1) (length result) ;;
  Ok (put (length result) (fun i => x1.[i] + x2.[i]) result).
