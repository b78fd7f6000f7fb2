(** Model of src/initializers.cpp on the tensor heap of M_Tensor, with real elements.

    The random engine and [std::uniform_real_distribution] are an arbitrary function: [dist lo hi k] is
    the [k]-th number drawn from [dist(lo, hi)].  Simplification: elements and bounds are real numbers. *)
From Coq Require Import Reals.
From Verif Require Import Base M_Tensor.
Open Scope R_scope.

(** initializers.cpp:9-11 *)
Definition init_zeros (h : heap R) (x : nat) : st (heap R) := fill h x 0.

(** initializers.cpp:13-15 *)
Definition init_constant (h : heap R) (x : nat) (v : R) : st (heap R) := fill h x v.

(** The constructor [std::uniform_real_distribution<float> dist(lo, hi)] requires [lo <= hi]
    (initializers.cpp:24 and 30), the draws follow in element order (25 and 31). *)
Definition draw_all (dist : R -> R -> nat -> R) (h : heap R) (x : nat) (lo hi : R) : st (heap R) :=
  if Rle_dec lo hi then generate h x (dist lo hi) else Bad.

(** initializers.cpp:28-32 *)
Definition init_uniform (dist : R -> R -> nat -> R) (h : heap R) (x : nat) (lo hi : R) : st (heap R) :=
  draw_all dist h x lo hi.

(** initializers.cpp:21-22: [tensor.total() / shape[0]] is a division of [size_t]s; dividing by zero is
    undefined. *)
Definition xavier_features (s : shape) (total : Z) : res (Z * Z) :=
  match s with
  | [a; b] => Ok (a, b)
  | a :: _ => if (a =? 0)%Z then UB else Ok ((total / (a mod size_mod))%Z, a)
  | [] => Throw                                       (* line 20 *)
  end.

(** initializers.cpp:17-26.  The sum of the two feature counts is an [int]; a sum of zero makes the bound
    infinite, which the distribution's constructor does not allow. *)
Definition init_xavier (dist : R -> R -> nat -> R) (h : heap R) (x : nat) : st (heap R) :=
  lift h (var_desc h x) (fun '(_, d) =>
  lift h (xavier_features (d_shape d) (d_total d)) (fun '(i, o) =>
  if negb (fits_int (i + o)) then Bad else
  if (i + o =? 0)%Z then Bad else
  let a := sqrt 6 / IZR (i + o) in
  draw_all dist h x (- a) a)).
