(** Specification for C42-C46: what may be stored, and what a dictionary looks like afterwards. *)
From Coq Require Import String Ascii.
From Verif Require Import Base M_Optim M_Nn M_Model M_Serial.
Open Scope Z_scope.
Local Open Scope list_scope.

Definition int32 (z : Z) : Prop := - 2 ^ 31 <= z < 2 ^ 31.
Definition word32 (z : Z) : Prop := 0 <= z < 2 ^ 32.

(** Strings and lists of int that exist in memory ([can n]: [n] bytes can be allocated). *)
Definition good_string (can : Z -> bool) (s : string) : Prop :=
  Z.of_nat (String.length s) < 2 ^ 63 /\ can (Z.of_nat (String.length s)) = true.
Definition good_ints (can : Z -> bool) (l : list Z) : Prop :=
  4 * Z.of_nat (length l) < 2 ^ 63 /\ can (4 * Z.of_nat (length l)) = true /\ Forall int32 l.

(** A state dictionary (in the order its hash map iterates): distinct names, fewer entries than an int
    can count. *)
Definition good_entry (can : Z -> bool) (e : string * sten) : Prop :=
  good_string can (fst e) /\ good_ints can (s_shape (snd e)).
Definition good_dict (can : Z -> bool) (d : sdict) : Prop :=
  Z.of_nat (length d) < 2 ^ 31 /\ NoDup (map fst d) /\ Forall (good_entry can) d.

(** [d] has an entry of the same name, shape and number of elements. *)
Definition matches (d : sdict) (e : string * sten) : Prop :=
  exists t, find_key d (fst e) = Some t /\ s_shape t = s_shape (snd e) /\ length (s_mem t) = length (s_mem (snd e)).

(** [d'] is [d] after the entries [es] (distinct names) have been stored in it. *)
Definition stored (es d d' : sdict) : Prop :=
  map fst d' = map fst d /\
  forall k, find_key d' k = match find_key es k with Some t => Some t | None => find_key d k end.

(** [d'] is [d] after the entries [es] and the first [j] bytes of the entry [e] have been stored in it. *)
Definition stored_and_part (es : sdict) (e : option (string * sten)) (j : nat) (d d' : sdict) : Prop :=
  map fst d' = map fst d /\
  forall k, find_key d' k =
    match find_key es k with
    | Some t => Some t
    | None =>
        match e, find_key d k with
        | Some (name, t), Some old =>
            if String.eqb name k then Some (mkS (s_shape old) (firstn j (s_mem t) ++ skipn j (s_mem old))) else Some old
        | _, x => x
        end
    end.

(** Same names, shapes and sizes. *)
Definition same_layout (d d' : sdict) : Prop :=
  Forall2 (fun e e' : string * sten => fst e' = fst e /\ s_shape (snd e') = s_shape (snd e) /\ length (s_mem (snd e')) = length (s_mem (snd e))) d d'.

(** Configurations: distinct keys in the maps, every id an int, attributes of the supported types. *)
Definition good_attr (a : attr Z) : Prop :=
  match a with
  | AInt z => int32 z
  | AFloat w => word32 w
  | AInt2 x y => int32 x /\ int32 y
  | AFloat2 x y => word32 x /\ word32 y
  | AOther => False
  end.
Definition good_op (can : Z -> bool) (o : opinfo Z) : Prop :=
  good_string can (oi_name o) /\ good_string can (oi_type o) /\ good_ints can (oi_in o) /\ good_ints can (oi_out o) /\
  Z.of_nat (length (oi_attrs o)) < 2 ^ 31 /\ NoDup (map fst (oi_attrs o)) /\
  Forall (fun e => good_string can (fst e) /\ good_attr (snd e)) (oi_attrs o).
Definition good_cfg (can : Z -> bool) (c : config Z) : Prop :=
  good_ints can (c_in c) /\ good_ints can (c_out c) /\
  Z.of_nat (length (c_ph c)) < 2 ^ 31 /\ NoDup (map fst (c_ph c)) /\
  Forall (fun e => int32 (fst e) /\ good_ints can (fst (snd e)) /\ snd (snd e) = fst e) (c_ph c) /\
  Z.of_nat (length (c_ops c)) < 2 ^ 31 /\ Forall (good_op can) (c_ops c).
