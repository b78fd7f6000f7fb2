(** Specification for C52: 32-bit floats in units of 2^-149. *)
From Verif Require Import Base.
Open Scope Z_scope.

(** Finite floats: a significand of 24 bits and an exponent. *)
Definition float32 (x : Z) : Prop := exists m e, Z.abs m < 2 ^ 24 /\ 0 <= e <= 253 /\ x = m * 2 ^ e.

(** The significand (with all 24 bits) is even. *)
Definition even_significand (x : Z) : Prop :=
  exists m e, Z.even m = true /\ 2 ^ 23 <= Z.abs m < 2 ^ 24 /\ 0 <= e <= 253 /\ x = m * 2 ^ e.

(** [y] is the float nearest to the exact value [x]; between two equally near ones, the even one. *)
Definition rounded (x y : Z) : Prop :=
  float32 y /\
  (forall z, float32 z -> Z.abs (x - y) <= Z.abs (x - z)) /\
  (forall z, float32 z -> z <> y -> Z.abs (x - z) = Z.abs (x - y) -> even_significand y).

(** How often [true] occurs. *)
Fixpoint trues (l : list bool) : Z :=
  match l with [] => 0 | b :: t => (if b then 1 else 0) + trues t end.
