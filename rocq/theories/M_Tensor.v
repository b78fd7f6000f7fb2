(** Model of deepworks::Tensor (src/runtime/tensor.cpp, include/deepworks/tensor.hpp) and of the
    deterministic initializers (src/initializers.cpp:9-15).

    A C++ [Tensor] is a [shared_ptr] to a [Descriptor]; copying the [Tensor] copies the pointer.
    The model has three stores: variables (C++ [Tensor] objects) naming descriptors, descriptors, and
    memory blocks.  The element type is arbitrary.

    Simplifications: descriptors and blocks are never reclaimed because the last handle goes out of
    scope (only [allocate] releases the block it replaces); a fresh block has arbitrary contents,
    given by an argument; running out of memory is modelled separately ([allocate_oom]). *)
From Verif Require Import Base.

Section Tensor.
Context {V : Type}.

(** A raw [float*]: null, or an offset into a block. *)
Definition ptr := option (nat * nat).

(** tensor.cpp:35-41, [struct Tensor::Descriptor]. *)
Record desc := mkDesc {
  d_strides : list Z;          (* std::vector<size_t> *)
  d_shape   : shape;           (* std::vector<int> *)
  d_memory  : option nat;      (* std::shared_ptr<float>: the owned block, if any *)
  d_data    : ptr;
  d_total   : Z                (* size_t *)
}.

(** Blocks: [None] once deleted. *)
Record heap := mkHeap {
  h_vars   : list nat;                 (* C++ variable -> descriptor *)
  h_descs  : list desc;
  h_blocks : list (option (list V))
}.

Definition heap0 : heap := mkHeap [] [] [].

Definition size_mod : Z := 18446744073709551616.   (* 2^64 *)

(** tensor.cpp:43-52, [calculateStrides]: the loop runs from the last dimension to the first and
    multiplies a [size_t] (arithmetic modulo 2^64; a negative [int] converts modulo 2^64).
    Returns the strides and the running product after the loop. *)
Fixpoint strides_loop (s : shape) : list Z * Z :=
  match s with
  | [] => ([], 1%Z)
  | d :: t => let '(st, acc) := strides_loop t in
              (acc :: st, ((acc * d) mod size_mod)%Z)
  end.
Definition calculateStrides (s : shape) : list Z := fst (strides_loop s).

(** [std::accumulate(shape.begin(), shape.end(), 1, std::multiplies<>())] on [int]
    (tensor.cpp:73-76 and 98): signed overflow of a partial product is undefined behaviour. *)
Fixpoint int_prod_from (acc : Z) (s : shape) : res Z :=
  match s with
  | [] => Ok acc
  | d :: t => if fits_int (acc * d) then int_prod_from (acc * d) t else UB
  end.
Definition int_prod (s : shape) : res Z := int_prod_from 1 s.

(** tensor.cpp:54-55 with the member initialisers of 35-41. *)
Definition desc0 : desc := mkDesc [] [] None None 0.

Definition set_desc (h : heap) (k : nat) (d : desc) : heap :=
  mkHeap (h_vars h) (upd (h_descs h) k d) (h_blocks h).

(** Variable lookup: the descriptor a C++ [Tensor] variable refers to. *)
Definition var_desc (h : heap) (x : nat) : res (nat * desc) :=
  k <- rd (h_vars h) x ;;
  d <- rd (h_descs h) k ;;
  Ok (k, d).

(** tensor.cpp:66-77, [Tensor::init] on the descriptor number [k]: the assertion, then the three
    assignments in source order. *)
Definition have_negative_dim (s : shape) : bool := existsb (fun d => d <? 0)%Z s.

Definition init (h : heap) (k : nat) (s : shape) : st heap :=
  lift h (dw_assert (negb (have_negative_dim s))) (fun _ =>
  lift h (rd (h_descs h) k) (fun d =>
  let h1 := set_desc h k (mkDesc (d_strides d) s (d_memory d) (d_data d) (d_total d)) in
  let h2 := set_desc h1 k (mkDesc (calculateStrides s) s (d_memory d) (d_data d) (d_total d)) in
  lift h2 (int_prod s) (fun t =>
  Ret (set_desc h2 k (mkDesc (calculateStrides s) s (d_memory d) (d_data d) t))))).

(** Deleting the block owned by a [shared_ptr] that is reset (tensor.cpp:92-93). *)
Definition free_block (b : option nat) (bs : list (option (list V))) : list (option (list V)) :=
  match b with
  | None => bs
  | Some b => upd bs b None
  end.

(** tensor.cpp:89-95, [Tensor::allocate] on descriptor [k].  [junk i] is the indeterminate initial
    content of cell [i] of the new block; [mem_ok] tells whether [new Type[...]] (line 92) succeeds
    or throws std::bad_alloc. *)
Definition allocate_desc (h : heap) (k : nat) (s : shape) (mem_ok : bool) (junk : nat -> V) : st heap :=
  st_bind (init h k s) (fun h1 =>
  lift h1 (rd (h_descs h1) k) (fun d =>
  if mem_ok then
    let nb := length (h_blocks h1) in
    Ret (mkHeap (h_vars h1)
                (upd (h_descs h1) k
                     (mkDesc (d_strides d) (d_shape d) (Some nb) (Some (nb, 0)) (d_total d)))
                (free_block (d_memory d) (h_blocks h1) ++ [Some (tab (Z.to_nat (d_total d)) junk)]))
  else Exc h1)).

Definition allocate (h : heap) (x : nat) (s : shape) (mem_ok : bool) (junk : nat -> V) : st heap :=
  lift h (rd (h_vars h) x) (fun k => allocate_desc h k s mem_ok junk).

(** tensor.cpp:54-55, default constructor: [new Descriptor()], returning the heap and the number of
    the new descriptor; naming it by a variable is the last step of every constructor. *)
Definition new_descriptor (h : heap) : heap * nat :=
  (mkHeap (h_vars h) (h_descs h ++ [desc0]) (h_blocks h), length (h_descs h)).
Definition bind_var (h : heap) (k : nat) : heap :=
  mkHeap (h_vars h ++ [k]) (h_descs h) (h_blocks h).

Definition new_default (h : heap) : st heap :=
  let '(h1, k) := new_descriptor h in Ret (bind_var h1 k).

(** tensor.cpp:57-59, [Tensor(shape)].  If it throws no variable comes into existence. *)
Definition new_shape (h : heap) (s : shape) (mem_ok : bool) (junk : nat -> V) : st heap :=
  let '(h1, k) := new_descriptor h in
  st_bind (allocate_desc h1 k s mem_ok junk) (fun h2 => Ret (bind_var h2 k)).

(** tensor.cpp:61-64, [Tensor(shape, data)]. *)
Definition new_view (h : heap) (s : shape) (p : ptr) : st heap :=
  let '(h1, k) := new_descriptor h in
  st_bind (init h1 k s) (fun h2 =>
  lift h2 (rd (h_descs h2) k) (fun d =>
  Ret (bind_var (set_desc h2 k (mkDesc (d_strides d) (d_shape d) (d_memory d) p (d_total d))) k))).

(** Implicit copy constructor / assignment of include/deepworks/tensor.hpp:14-44
    (a [shared_ptr] member): the variable names the same descriptor. *)
Definition copy_var (h : heap) (x : nat) : st heap :=
  lift h (rd (h_vars h) x) (fun k => Ret (bind_var h k)).
Definition assign_var (h : heap) (x y : nat) : st heap :=
  lift h (rd (h_vars h) y) (fun k =>
  lift h (wr (h_vars h) x k) (fun vs =>
  Ret (mkHeap vs (h_descs h) (h_blocks h)))).

(** tensor.cpp:97-103, [Tensor::reshape].  [shape_total_size == total] compares an [int] with a
    [size_t], i.e. modulo 2^64. *)
Definition reshape (h : heap) (x : nat) (s : shape) : st heap :=
  lift h (var_desc h x) (fun '(k, d) =>
  lift h (int_prod s) (fun t =>
  lift h (dw_assert (t mod size_mod =? d_total d)%Z) (fun _ =>
  let h1 := set_desc h k (mkDesc (d_strides d) s (d_memory d) (d_data d) (d_total d)) in
  Ret (set_desc h1 k (mkDesc (calculateStrides s) s (d_memory d) (d_data d) (d_total d)))))).

(** Reading [n] elements through a pointer / writing a list of elements through a pointer. *)
Definition load (h : heap) (p : ptr) (n : nat) : res (list V) :=
  match n, p with
  | O, _ => Ok []
  | S _, None => UB
  | S _, Some (b, o) =>
      blk <- rd (h_blocks h) b ;;
      match blk with
      | None => UB
      | Some c => if (o + n <=? length c) then Ok (firstn n (skipn o c)) else UB
      end
  end.

Definition splice (c : list V) (o : nat) (vs : list V) : list V :=
  firstn o c ++ vs ++ skipn (o + length vs) c.

Definition store (h : heap) (p : ptr) (vs : list V) : st heap :=
  match vs, p with
  | [], _ => Ret h
  | _ :: _, None => Bad
  | _ :: _, Some (b, o) =>
      lift h (rd (h_blocks h) b) (fun blk =>
      match blk with
      | None => Bad
      | Some c => if (o + length vs <=? length c)
                  then Ret (mkHeap (h_vars h) (h_descs h) (upd (h_blocks h) b (Some (splice c o vs))))
                  else Bad
      end)
  end.

(** tensor.cpp:113-115. *)
Definition empty (d : desc) : bool := (d_total d =? 0)%Z.

(** tensor.cpp:79-87, [Tensor::copyTo].  Overlapping views are copied as if the source were read
    completely first. *)
Definition copyTo (h : heap) (x y : nat) : st heap :=
  lift h (var_desc h x) (fun '(_, dx) =>
  lift h (var_desc h y) (fun '(_, dy) =>
  lift h (dw_assert (shape_eqb (d_shape dx) (d_shape dy)
                     && shape_eqb (d_strides dx) (d_strides dy))) (fun _ =>
  lift h (dw_assert (negb (empty dy))) (fun _ =>
  lift h (load h (d_data dx) (Z.to_nat (d_total dx))) (fun vs =>
  store h (d_data dy) vs))))).

(** src/initializers.cpp:9-15, [zeros] and [constant]: [std::fill_n(data, total, value)]. *)
Definition fill (h : heap) (x : nat) (v : V) : st heap :=
  lift h (var_desc h x) (fun '(_, d) =>
  store h (d_data d) (repeat v (Z.to_nat (d_total d)))).

(** src/initializers.cpp:17-32, [uniform]/[xavierUniform]: [std::generate_n] with arbitrary draws. *)
Definition generate (h : heap) (x : nat) (draws : nat -> V) : st heap :=
  lift h (var_desc h x) (fun '(_, d) =>
  store h (d_data d) (tab (Z.to_nat (d_total d)) draws)).

(** A user writing one element, [t.data()[i] = v]. *)
Definition set_elem (h : heap) (x : nat) (i : nat) (v : V) : st heap :=
  lift h (var_desc h x) (fun '(_, d) =>
  match d_data d with
  | None => Bad
  | Some (b, o) => store h (Some (b, o + i)) [v]
  end).

(** All elements behind a variable, in memory order ([data()[0..total())]). *)
Definition contents (h : heap) (x : nat) : res (list V) :=
  '(_, d) <- var_desc h x ;;
  load h (d_data d) (Z.to_nat (d_total d)).

(** [x.data() + off]. *)
Definition data_plus (h : heap) (x off : nat) : res ptr :=
  '(_, d) <- var_desc h x ;;
  Ok (match d_data d with
      | None => None
      | Some (b, o) => Some (b, o + off)
      end).

(** The Tensor API as a set of calls, for statements about arbitrary histories. *)
Inductive call :=
| CNew                                                          (* Tensor()                    *)
| CNewShape (s : shape) (mem_ok : bool) (junk : nat -> V)       (* Tensor(shape)               *)
| CView (s : shape) (x off : nat)                               (* Tensor(shape, x.data()+off) *)
| CCopy (x : nat)                                               (* Tensor y(x)                 *)
| CAssign (x y : nat)                                           (* x = y                       *)
| CAllocate (x : nat) (s : shape) (mem_ok : bool) (junk : nat -> V)
| CReshape (x : nat) (s : shape)
| CCopyTo (x y : nat)                                           (* x.copyTo(y)                 *)
| CFill (x : nat) (v : V)                                       (* zeros / constant            *)
| CGenerate (x : nat) (draws : nat -> V)                        (* uniform / xavierUniform     *)
| CSet (x : nat) (i : nat) (v : V).                             (* x.data()[i] = v             *)

Definition run_call (h : heap) (c : call) : st heap :=
  match c with
  | CNew => new_default h
  | CNewShape s ok junk => new_shape h s ok junk
  | CView s x off => lift h (data_plus h x off) (fun p => new_view h s p)
  | CCopy x => copy_var h x
  | CAssign x y => assign_var h x y
  | CAllocate x s ok junk => allocate h x s ok junk
  | CReshape x s => reshape h x s
  | CCopyTo x y => copyTo h x y
  | CFill x v => fill h x v
  | CGenerate x draws => generate h x draws
  | CSet x i v => set_elem h x i v
  end.

(** A history: the program catches exceptions and goes on with the state they left behind;
    [None] once there has been undefined behaviour. *)
Fixpoint run (h : heap) (cs : list call) : option heap :=
  match cs with
  | [] => Some h
  | c :: t => match run_call h c with
              | Ret h' | Exc h' => run h' t
              | Bad => None
              end
  end.

End Tensor.
Arguments heap : clear implicits.
Arguments call : clear implicits.
