(** Model of the places where the library keeps integers in [float]: class labels, the indices stored by
    MaxPooling, and the count of correct predictions of the accuracy metrics.

    A finite 32-bit float is an integer multiple of 2^-149; it is modelled by that integer.  Arithmetic
    is exact arithmetic followed by [rnd], rounding to the nearest float, ties to even (IEEE 754).
    Simplification: infinities and NaN, which these computations never reach, are left out. *)
From Verif Require Import Base.
Open Scope Z_scope.

Definition unit_ : Z := 2 ^ 149.                      (* the number 1 *)

(** Rounding of a non-negative number: keep 24 significant bits. *)
Definition rnd_pos (x : Z) : Z :=
  let e := Z.max 0 (Z.log2 x - 23) in
  let q := x / 2 ^ e in
  let r := x mod 2 ^ e in
  if (2 ^ e <? 2 * r) || ((2 * r =? 2 ^ e) && Z.odd q) then (q + 1) * 2 ^ e else q * 2 ^ e.
Definition rnd (x : Z) : Z := if x <? 0 then - rnd_pos (- x) else rnd_pos x.

(** Conversions between int and float; from float to int truncates towards zero. *)
Definition of_int (n : Z) : Z := rnd (n * unit_).
Definition to_int (x : Z) : Z := Z.quot x unit_.
Definition fadd (x y : Z) : Z := rnd (x + y).

(** kernels.cpp:228 [indices[i] = max_row] and 262 [int row = indices_ptr[i]]. *)
Definition stored_index (r : Z) : Z := to_int (of_int r).

(** kernels.cpp:278 [static_cast<int>(target(0, i))], the label being kept as a float by the caller. *)
Definition stored_label (n : Z) : Z := to_int (of_int n).

(** metrics.cpp:28-29 [pred_col == label]: the column is converted to float. *)
Definition same_label (col : Z) (label : Z) : bool := of_int col =? label.

(** metrics.cpp:23-30 and 44-51: [acc += pred == label] over all rows, [hits] saying which rows are
    predicted correctly. *)
Definition count_hits (hits : list bool) : Z :=
  fold_left (fun acc b => fadd acc (of_int (if b : bool then 1 else 0))) hits 0.
