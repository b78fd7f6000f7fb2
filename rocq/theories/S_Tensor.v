(** Specification vocabulary for tensors, independent of the model: products, valid multi-indices
    and row-major offsets. *)
From Verif Require Import Base.

Definition prodZ (s : shape) : Z := fold_right Z.mul 1%Z s.

(** A multi-index of a shape: one coordinate per dimension, within the dimension. *)
Definition valid_index (idx : list Z) (s : shape) : Prop :=
  Forall2 (fun i d => (0 <= i < d)%Z) idx s.

(** The flat offset [sum_k index[k]*strides[k]]. *)
Fixpoint offset (idx strides : list Z) : Z :=
  match idx, strides with
  | i :: idx', s :: strides' => (i * s + offset idx' strides')%Z
  | _, _ => 0%Z
  end.

(** Stride [k] is the product of the dimensions to the right of [k]. *)
Definition row_major (s : shape) (strides : list Z) : Prop :=
  length strides = length s /\
  forall k, k < length s -> nth k strides 0%Z = prodZ (skipn (S k) s).

(** Every partial product of the dimensions, from the left, is representable as [int]. *)
Definition fits (s : shape) : Prop :=
  forall n, (int_min <= prodZ (firstn n s) <= int_max)%Z.

Definition nonneg (s : shape) : Prop := Forall (fun d => 0 <= d)%Z s.
