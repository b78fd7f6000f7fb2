(** Specification for C49. *)
From Coq Require Import String Ascii.
From Verif Require Import Base S_Tensor M_Tensor S_Heap M_Image.
Local Open Scope string_scope.
Open Scope nat_scope.

Definition no_dot (s : string) : Prop := forall a b, s <> a ++ "." ++ b.
(** The text after the last dot, or the whole path when it has none. *)
Definition has_extension (path e : string) : Prop :=
  no_dot e /\ (path = e \/ exists p, path = p ++ "." ++ e).

(** A decoded image with 8 (or more) bits per sample: positive dimensions, a total an int can hold, one
    row per line, every row with at least [width * channels] bytes. *)
Definition decoded_well (i : image) : Prop :=
  (0 < i_h i)%Z /\ (0 < i_w i)%Z /\ (0 < i_c i)%Z /\ fits [i_h i; i_w i; i_c i] /\
  length (i_rows i) = Z.to_nat (i_h i) /\
  Forall (fun r : list Z => (i_w i * i_c i <= Z.of_nat (length r))%Z) (i_rows i).

(** Byte [c] of pixel [x] in line [y]. *)
Definition sample (i : image) (y x c : nat) : option Z :=
  match nth_error (i_rows i) y with Some r => nth_error r (x * Z.to_nat (i_c i) + c) | None => None end.

(** [l] is the image in height, width, channel order, and nothing else. *)
Definition holds_image {V} (of_byte : Z -> V) (i : image) (l : list V) : Prop :=
  Z.of_nat (length l) = (i_h i * i_w i * i_c i)%Z /\
  forall y x c, y < Z.to_nat (i_h i) -> x < Z.to_nat (i_w i) -> c < Z.to_nat (i_c i) ->
    exists v, sample i y x c = Some v /\ nth_error l ((y * Z.to_nat (i_w i) + x) * Z.to_nat (i_c i) + c) = Some (of_byte v).
