(** Model of src/serialization.cpp:107-149, [save_dot], and of the operators that print shapes
    (include/deepworks/shape.hpp:13-26) and tensors (src/runtime/tensor.cpp:124-140).

    A stream is the text written to it.  Simplifications: writing never fails; of a call that throws the text
    written so far is not kept. *)
From Coq Require Import String Ascii DecimalString.
From Verif Require Import Base M_Tensor M_Optim M_Nn M_Model.
Local Open Scope string_scope.
Open Scope nat_scope.

(** [os << i] and [std::to_string(i)] for an [int] or [size_t]: decimal digits, a minus sign in front of them. *)
Definition int_string (z : Z) : string := NilZero.string_of_int (Z.to_int z).

(** The newline character, [std::endl], and the quotation mark. *)
Definition endl : string := String "010" "".
Definition quote : string := String """" "".

(** shape.hpp:19-21; [k] turns are left. *)
Fixpoint shape_loop (k i : nat) (s : shape) : res string :=
  match k with
  | O => Ok ""
  | S k => d <- rd s i ;; r <- shape_loop k (S i) s ;; Ok (int_string d ++ ", " ++ r)
  end.
(** shape.hpp:13-26 *)
Definition print_shape (s : shape) : res string :=
  if (length s =? 0) then Ok "{ }" else
  a <- shape_loop (length s - 1) 0 s ;;
  b <- rd s (length s - 1) ;;
  Ok ("{" ++ a ++ int_string b ++ "}").

(** tensor.cpp:124-140.  How a number is printed is an argument ([std::ostream] with its current format). *)
Section Tensor.
Context {V : Type}.
Variable fmt : V -> string.
(** [data_ptr[index]] *)
Definition read_at (h : @heap V) (p : ptr) (index : nat) : res V :=
  match p with
  | None => UB
  | Some (b, o) => l <- load h (Some (b, o + index)) 1 ;; rd l 0
  end.
Fixpoint tensor_loop (h : @heap V) (p : ptr) (k index : nat) : res string :=
  match k with
  | O => Ok ""
  | S k => v <- read_at h p index ;; r <- tensor_loop h p k (S index) ;; Ok (fmt v ++ ", " ++ r)
  end.
Definition print_tensor (h : @heap V) (x : nat) : res string :=
  '(_, d) <- var_desc h x ;;
  if (d_total d =? 0)%Z then Ok "[ ]" else
  let total := Z.to_nat (d_total d) in
  a <- tensor_loop h (d_data d) (total - 1) 0 ;;
  v <- read_at h (d_data d) (total - 1) ;;
  Ok ("[" ++ a ++ fmt v ++ "]").
End Tensor.

(** One piece of text after the other. *)
Fixpoint out_all {A} (f : A -> res string) (l : list A) : res string :=
  match l with
  | [] => Ok ""
  | a :: t => x <- f a ;; y <- out_all f t ;; Ok (x ++ y)
  end.
(** [ade::util::indexed] *)
Definition indexed {A} (l : list A) : list (nat * A) := combine (seq 0 (length l)) l.

Section Dot.
Context {F : Type}.
Variable cfg : config F.

(** serialization.cpp:115, 133, 143 *)
Definition ph_string (ph : shape * Z) : string := "Placeholder_" ++ int_string (snd ph).
(** serialization.cpp:114-118; the order is that of the hash map. *)
Definition dot_ph (e : Z * (shape * Z)) : res string :=
  let name := ph_string (snd e) in
  s <- print_shape (fst (snd e)) ;;
  Ok (name ++ " " ++ "[label=" ++ quote ++ name ++ endl ++ s ++ quote ++ " ]" ++ endl).
(** serialization.cpp:120-124 *)
Definition dot_op (op : opinfo F) : res string :=
  Ok (oi_name op ++ " [shape=box, label=" ++ quote ++ oi_name op ++ " (" ++ oi_type op ++ ")" ++ quote ++ " ]" ++ endl).
(** serialization.cpp:127-135 *)
Definition dot_in (op : opinfo F) (it : nat * Z) : res string :=
  let '(port, in_id) := it in
  ph <- at_id (c_ph cfg) in_id ;;
  Ok (ph_string ph ++ " -> " ++ quote ++ oi_name op ++ quote ++ " [ label = " ++ quote ++ "in_port: "
      ++ int_string (Z.of_nat port) ++ quote ++ " ]" ++ endl).
(** serialization.cpp:137-145 *)
Definition dot_out (op : opinfo F) (it : nat * Z) : res string :=
  let '(port, out_id) := it in
  ph <- at_id (c_ph cfg) out_id ;;
  Ok (oi_name op ++ " -> " ++ ph_string ph ++ " [ label = " ++ quote ++ "out_port: "
      ++ int_string (Z.of_nat port) ++ quote ++ " ];" ++ endl).
(** serialization.cpp:126-146 *)
Definition dot_edges (op : opinfo F) : res string :=
  a <- out_all (dot_in op) (indexed (oi_in op)) ;;
  b <- out_all (dot_out op) (indexed (oi_out op)) ;;
  Ok (a ++ b).

(** serialization.cpp:107-149 *)
Definition save_dot : res string :=
  a <- out_all dot_ph (c_ph cfg) ;;
  b <- out_all dot_op (c_ops cfg) ;;
  c <- out_all dot_edges (c_ops cfg) ;;
  Ok ("digraph Deepworks_model {" ++ endl ++ "rankdir=" ++ quote ++ "LR" ++ quote ++ endl ++ a ++ b ++ c ++ "}").
End Dot.
