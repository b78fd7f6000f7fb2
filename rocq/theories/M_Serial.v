(** Model of src/serialization.cpp: writing and reading state dictionaries and configurations.

    A file is its list of bytes; the machine is the usual little-endian one (int and float have 4
    bytes, size_t has 8).  An [std::ifstream] is the list of bytes that have not been read yet.  Its
    failure flag needs no separate component: [read] fails only after it has taken all remaining bytes,
    and from then on stores nothing.

    Floats are their bit patterns: a tensor is its shape and the bytes of its memory, a float attribute
    is a number below 2^32.

    Simplifications: writing never fails (a crash or a full disk leaves a prefix of the bytes, see
    [S_Serial]); the tensors of a dictionary do not share memory. *)
From Coq Require Import String Ascii NArith.
From Verif Require Import Base M_Optim M_Nn M_Model.
Local Open Scope string_scope.
Open Scope Z_scope.
Local Open Scope list_scope.

Definition bytes := list ascii.

(** Tensors and dictionaries: [total() * sizeof(float)] is the size of the memory. *)
Record sten := mkS { s_shape : shape; s_mem : bytes }.
Definition sdict := list (string * sten).

(** The representation of numbers: the low [k] bytes, lowest first. *)
Fixpoint le (k : nat) (z : Z) : bytes :=
  match k with
  | O => []
  | S k' => ascii_of_N (Z.to_N (z mod 256)) :: le k' (z / 256)
  end.
Fixpoint unle (b : bytes) : Z :=
  match b with
  | [] => 0
  | c :: t => Z.of_N (N_of_ascii c) + 256 * unle t
  end.
Definition signed (z : Z) : Z := if z <? 2 ^ 31 then z else z - 2 ^ 32.

(** serialization.cpp:11-14 *)
Definition write_int (z : Z) : bytes := le 4 z.
Definition write_size (z : Z) : bytes := le 8 z.
Definition write_float (w : Z) : bytes := le 4 w.

(** serialization.cpp:23-28 for strings and for vectors of int *)
Definition write_string (s : string) : bytes :=
  write_size (Z.of_nat (String.length s)) ++ list_ascii_of_string s.
Definition write_ints (l : list Z) : bytes :=
  write_size (Z.of_nat (length l)) ++ flat_map write_int l.

(** [file.read(p, n)] into memory holding [old]: the bytes that are there replace the first bytes. *)
Definition read_into (n : Z) (old : bytes) (s : bytes) : bytes * bytes :=
  let got := firstn (Z.to_nat n) s in (got ++ skipn (length got) old, skipn (Z.to_nat n) s).

Definition zeros (n : Z) : bytes := repeat zero (Z.to_nat n).

(** serialization.cpp:16-21: the value is zero before the read. *)
Definition read_int (s : bytes) : Z * bytes := let '(b, s1) := read_into 4 (zeros 4) s in (signed (unle b), s1).
Definition read_size (s : bytes) : Z * bytes := let '(b, s1) := read_into 8 (zeros 8) s in (unle b, s1).
Definition read_float (s : bytes) : Z * bytes := let '(b, s1) := read_into 4 (zeros 4) s in (unle b, s1).

(** Memory holding [n] ints *)
Fixpoint ints (n : nat) (b : bytes) : list Z :=
  match n with O => [] | S n' => signed (unle (firstn 4 b)) :: ints n' (skipn 4 b) end.

Section Reading.
(** Whether a container of that many bytes can be allocated ([resize] throws otherwise). *)
Variable can : Z -> bool.
(** The bytes of an uninitialised local variable (it may depend on anything). *)
Variable junk : bytes -> bytes.

(** serialization.cpp:30-38.  [resize] fills with zeros and throws when the size exceeds [max_size()] or
    the memory. *)
Definition read_string (s : bytes) : res (string * bytes) :=
  let '(n, s1) := read_size s in
  if (n <? 2 ^ 63) && can n then
    let '(b, s2) := read_into n (zeros n) s1 in Ok (string_of_list_ascii b, s2)
  else Throw.
Definition read_ints (s : bytes) : res (list Z * bytes) :=
  let '(n, s1) := read_size s in
  if (4 * n <? 2 ^ 63) && can (4 * n) then
    let '(b, s2) := read_into (4 * n) (zeros (4 * n)) s1 in Ok (ints (Z.to_nat n) b, s2)
  else Throw.

(** serialization.cpp:40-48 for an array of two 4-byte values: the array is not initialised and the size
    in the file is not checked; storing more than 8 bytes is a buffer overflow. *)
Definition read_array (s : bytes) : res (bytes * bytes) :=
  let '(n, s1) := read_size s in
  let m := (n * 4) mod 2 ^ 64 in
  let got := firstn (Z.to_nat m) s1 in
  if (8 <? length got)%nat then UB
  else Ok (firstn 8 (got ++ skipn (length got) (junk s)), skipn (Z.to_nat m) s1).

(** [for (int i = 0; i < size; ++i)] with [size] a size_t: incrementing the largest int is undefined. *)
Fixpoint count {A} (n : nat) (i : Z) (body : A -> bytes -> res (A * bytes)) (a : A) (s : bytes) : res (A * bytes) :=
  match n with
  | O => Ok (a, s)
  | S n' =>
      '(a1, s1) <- body a s ;;
      if i =? 2 ^ 31 - 1 then UB else count n' (i + 1) body a1 s1
  end.

(** serialization.cpp:55-70; the enumeration at 50-53. *)
Definition save_entry (e : string * sten) : bytes :=
  write_string (fst e) ++ write_ints (s_shape (snd e)) ++ s_mem (snd e).
Definition save_state (d : sdict) : bytes :=
  write_int 0 ++ write_size (Z.of_nat (length d)) ++ flat_map save_entry d.

(** serialization.cpp:88-104 *)
Fixpoint load_entries (n : nat) (i : Z) (d : sdict) (s : bytes) : st (sdict * bytes) :=
  match n with
  | O => Ret (d, s)
  | S n' =>
      match read_string s with
      | Throw => Exc (d, s)
      | UB => Bad
      | Ok (name, s1) =>
          match find_key d name with
          | None => Exc (d, s1)
          | Some t =>
              match read_ints s1 with
              | Throw => Exc (d, s1)
              | UB => Bad
              | Ok (sh, s2) =>
                  if list_eq_dec Z.eq_dec (s_shape t) sh then
                    let '(mem, s3) := read_into (Z.of_nat (length (s_mem t))) (s_mem t) s2 in
                    let d1 := set_key d name (mkS (s_shape t) mem) in
                    if i =? 2 ^ 31 - 1 then Bad else load_entries n' (i + 1) d1 s3
                  else Exc (d, s2)
              end
          end
      end
  end.

(** serialization.cpp:80-105: the dictionary and the rest of the file. *)
Definition load_state (d : sdict) (s : bytes) : st (sdict * bytes) :=
  let '(kind, s1) := read_int s in
  if kind =? 0 then
    let '(size, s2) := read_size s1 in load_entries (Z.to_nat size) 0 d s2
  else Exc (d, s1).

(** serialization.cpp:72-78; [None]: the file cannot be opened. *)
Definition load_state_file (d : sdict) (f : option bytes) : st sdict :=
  match f with
  | None => Exc d
  | Some s => match load_state d s with Ret (d1, _) => Ret d1 | Exc (d1, _) => Exc d1 | Bad => Bad end
  end.

(** serialization.cpp:151-181; layer_info.hpp:14-23 gives the numbers. *)
Definition write_attribute (a : attr Z) : res bytes :=
  match a with
  | AInt z => Ok (write_int 0 ++ write_int 1 ++ write_int z)
  | AFloat w => Ok (write_int 0 ++ write_int 2 ++ write_float w)
  | AInt2 x y => Ok (write_int 1 ++ write_int 1 ++ write_size 2 ++ write_int x ++ write_int y)
  | AFloat2 x y => Ok (write_int 1 ++ write_int 2 ++ write_size 2 ++ write_float x ++ write_float y)
  | AOther => Throw
  end.

(** serialization.cpp:183-211 *)
Definition read_attribute (s : bytes) : res (attr Z * bytes) :=
  let '(sh, s1) := read_int s in
  let '(ty, s2) := read_int s1 in
  if sh =? 0 then
    if ty =? 1 then let '(z, s3) := read_int s2 in Ok (AInt z, s3)
    else if ty =? 2 then let '(w, s3) := read_float s2 in Ok (AFloat w, s3)
    else Throw
  else if sh =? 1 then
    if ty =? 1 then '(b, s3) <- read_array s2 ;; Ok (AInt2 (signed (unle (firstn 4 b))) (signed (unle (skipn 4 b))), s3)
    else if ty =? 2 then '(b, s3) <- read_array s2 ;; Ok (AFloat2 (unle (firstn 4 b)) (unle (skipn 4 b)), s3)
    else Throw
  else Throw.

Definition concat_res {A} (f : A -> res bytes) (l : list A) : res bytes := bs <- map_res f l ;; Ok (concat bs).

(** serialization.cpp:213-219 *)
Definition write_attributes (l : list (string * attr Z)) : res bytes :=
  b <- concat_res (fun '(k, a) => v <- write_attribute a ;; Ok (write_string k ++ v)) l ;;
  Ok (write_size (Z.of_nat (length l)) ++ b).

(** serialization.cpp:221-230 *)
Definition read_attributes (s : bytes) : res (list (string * attr Z) * bytes) :=
  let '(n, s1) := read_size s in
  count (Z.to_nat n) 0 (fun m s => '(k, s1) <- read_string s ;; '(a, s2) <- read_attribute s1 ;; Ok (emplace m k a, s2)) [] s1.

(** serialization.cpp:232-260 *)
Definition write_op (o : opinfo Z) : res bytes :=
  b <- write_attributes (oi_attrs o) ;;
  Ok (write_string (oi_name o) ++ write_string (oi_type o) ++ write_ints (oi_in o) ++ write_ints (oi_out o) ++ b).
Definition save_cfg (c : config Z) : res bytes :=
  ops <- concat_res write_op (c_ops c) ;;
  Ok (write_int 1 ++ write_ints (c_in c) ++ write_ints (c_out c)
      ++ write_size (Z.of_nat (length (c_ph c))) ++ flat_map (fun '(id, (sh, _)) => write_int id ++ write_ints sh) (c_ph c)
      ++ write_size (Z.of_nat (length (c_ops c))) ++ ops).

(** serialization.cpp:262-297.  A file that cannot be opened gives no bytes; nothing checks for it. *)
Definition read_op (s : bytes) : res (opinfo Z * bytes) :=
  '(name, s1) <- read_string s ;; '(ty, s2) <- read_string s1 ;;
  '(i, s3) <- read_ints s2 ;; '(o, s4) <- read_ints s3 ;;
  '(a, s5) <- read_attributes s4 ;;
  Ok (mkOI name ty a i o, s5).
Definition load_cfg (s : bytes) : res (config Z * bytes) :=
  let '(kind, s1) := read_int s in
  if kind =? 1 then
    '(i, s2) <- read_ints s1 ;; '(o, s3) <- read_ints s2 ;;
    let '(np, s4) := read_size s3 in
    '(phs, s5) <- count (Z.to_nat np) 0 (fun m s => let '(id, s1) := read_int s in '(sh, s2) <- read_ints s1 ;;
                                                   Ok (emplace_id m id (sh, id), s2)) [] s4 ;;
    let '(no, s6) := read_size s5 in
    '(ops, s7) <- count (Z.to_nat no) 0 (fun l s => '(op, s1) <- read_op s ;; Ok (l ++ [op], s1)) [] s6 ;;
    Ok (mkCfg i o phs ops, s7)
  else Throw.
Definition load_cfg_file (f : option bytes) : res (config Z) :=
  '(c, _) <- load_cfg (match f with Some s => s | None => [] end) ;; Ok c.

(** serialization.cpp:299-303: both parts in one file. *)
Definition save (c : config Z) (d : sdict) : res bytes := b <- save_cfg c ;; Ok (b ++ save_state d).
(** serialization.cpp:305-310, with the model's dictionary given as a function of the configuration
    ([Model::Build] is modelled in M_Model). *)
Definition load (state_of : config Z -> sdict) (f : option bytes) : res (config Z * st sdict) :=
  '(c, s) <- load_cfg (match f with Some s => s | None => [] end) ;;
  Ok (c, match load_state (state_of c) s with Ret (d, _) => Ret d | Exc (d, _) => Exc d | Bad => Bad end).
End Reading.
