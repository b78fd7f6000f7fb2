(** Model of src/io/image_reader.cpp: choosing the decoder and copying the decoded rows into a tensor.

    libpng and libjpeg are not modelled: what opening and decoding a file gives is an argument.  The
    tensors are those of M_Tensor.  [of_byte] converts an [unsigned char] to the element type. *)
From Coq Require Import String Ascii.
From Verif Require Import Base M_Tensor.
Local Open Scope string_scope.
Open Scope nat_scope.

(** [std::string_view::find_last_of(".")] *)
Fixpoint find_last_dot (s : string) : option nat :=
  match s with
  | EmptyString => None
  | String c t =>
      match find_last_dot t with
      | Some i => Some (S i)
      | None => if Ascii.eqb c "." then Some 0 else None
      end
  end.

(** image_reader.cpp:19 and 23: [path.substr(path.find_last_of(".") + 1)]; [npos + 1] is 0. *)
Definition extension (path : string) : string :=
  let i := match find_last_dot path with Some i => S i | None => 0 end in
  substring i (String.length path - i) path.

(** image_reader.cpp:18-24 *)
Definition is_png (path : string) : bool := String.eqb (extension path) "png".
Definition is_jpeg (path : string) : bool := String.eqb (extension path) "jpg" || String.eqb (extension path) "jpeg".

(** What a decoder finds: no file, something it cannot read, or the dimensions and, for each line, the
    buffer the library fills ([i_rows]; its size is the library's number of bytes per row). *)
Record image := mkI { i_h : Z; i_w : Z; i_c : Z; i_rows : list (list Z) }.
Inductive decoded := Missing | Broken | Image (i : image).

Section Read.
Context {V : Type}.
Variable of_byte : Z -> V.
Notation heap := (heap V).

(** image_reader.cpp:84-88 and 152-154: [copy_n(row, width * channels, &dst[h * width * channels])] for
    every line; reading past the end of a row buffer is undefined. *)
Definition shift (p : ptr) (n : nat) : ptr := match p with Some (b, o) => Some (b, o + n) | None => None end.
Fixpoint copy_rows (n : nat) (p : ptr) (y : nat) (rows : list (list Z)) (h : heap) : st heap :=
  match rows with
  | [] => Ret h
  | r :: t =>
      if n <=? length r
      then st_bind (store h (shift p (y * n)) (map of_byte (firstn n r))) (copy_rows n p (S y) t)
      else Bad
  end.

(** image_reader.cpp:63-71 and 130-139, then the copying.  [mem_ok], [junk]: as for [allocate].
    [height * width * channels] is computed in int. *)
Definition read_pixels (i : image) (mem_ok : bool) (junk : nat -> V) (x : nat) (h : heap) : st heap :=
  let s := [i_h i; i_w i; i_c i] in
  lift h (var_desc h x) (fun '(_, d) =>
  st_bind (if empty d then allocate h x s mem_ok junk
           else lift h (int_prod s) (fun t => lift h (dw_assert (t mod size_mod =? d_total d)%Z) (fun _ => Ret h)))
  (fun h1 =>
  lift h1 (var_desc h1 x) (fun '(_, d1) =>
  copy_rows (Z.to_nat (i_w i * i_c i)) (d_data d1) 0 (i_rows i) h1))).

(** image_reader.cpp:100-166.  A file that cannot be opened is closed ([fclose(NULL)]) before the
    exception is thrown.  A file that is not a PNG throws.  Simplification: an error after the header
    has been read (a jump into the second [setjmp], then an exception) is not modelled. *)
Definition read_png (D : decoded) (mem_ok : bool) (junk : nat -> V) (x : nat) (h : heap) : st heap :=
  match D with
  | Missing => Bad
  | Broken => Exc h
  | Image i => read_pixels i mem_ok junk x h
  end.

(** image_reader.cpp:26-93.  The error handler of libjpeg that is installed here ends the process, which
    is modelled like undefined behaviour. *)
Definition read_jpeg (D : decoded) (mem_ok : bool) (junk : nat -> V) (x : nat) (h : heap) : st heap :=
  match D with
  | Missing | Broken => Bad
  | Image i => read_pixels i mem_ok junk x h
  end.

(** image_reader.cpp:174-184 *)
Definition read_image (png jpeg : string -> decoded) (path : string) (mem_ok : bool) (junk : nat -> V) (x : nat) (h : heap) : st heap :=
  if is_png path then read_png (png path) mem_ok junk x h
  else if is_jpeg path then read_jpeg (jpeg path) mem_ok junk x h
  else lift h (dw_assert false) (fun _ => Ret h).

(** image_reader.cpp:186-190: the new tensor is the last variable. *)
Definition read_image_new (png jpeg : string -> decoded) (path : string) (mem_ok : bool) (junk : nat -> V) (h : heap) : st heap :=
  st_bind (new_default h) (fun h1 => read_image png jpeg path mem_ok junk (length (h_vars h)) h1).
End Read.
