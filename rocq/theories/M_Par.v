(** Loops under [#pragma omp parallel for] as sets of threads.

    An iteration is a program of single element reads and writes on shared memory; the threads'
    accesses are interleaved arbitrarily.  Memory is a family of arrays; an access is an array number and
    an index.  (Real threads run several iterations each: that is one of the interleavings.  The memory
    model is sequentially consistent, which is what C++ guarantees to a program without data races;
    [C10_no_data_race] proves there are none.)

    The elements belong to any type with any arithmetic, so that nothing depends on laws that [float]
    does not have (associativity, distributivity). *)
From Coq Require Import Reals.
From Verif Require Import Base Sums M_Im2col S_Im2col M_Kernels M_Conv.
Open Scope nat_scope.

Definition addr := (nat * nat)%type.
Definition addr_eqb (a b : addr) : bool := (fst a =? fst b) && (snd a =? snd b).

(** What the loops compute with: the constant zero, addition, and the sum of products of two vectors, in
    whatever order Eigen adds them up. *)
Record arith (V : Type) := mkArith { a_zero : V; a_add : V -> V -> V; a_dot : list V -> list V -> V }.
Arguments mkArith {V}.
Arguments a_zero {V}.
Arguments a_add {V}.
Arguments a_dot {V}.

(** Exact arithmetic. *)
Definition real_arith : arith R :=
  mkArith 0%R Rplus (fun x y => rsum (length x) (fun i => x.[i] * y.[i])%R).

Section Programs.
Context {V : Type}.

Definition mem := addr -> V.
Definition mset (m : mem) (a : addr) (v : V) : mem := fun b => if addr_eqb a b then v else m b.

Inductive prog :=
| Done
| Rd (a : addr) (k : V -> prog)
| Wr (a : addr) (v : V) (p : prog).

Fixpoint seqp (p q : prog) : prog :=
  match p with
  | Done => q
  | Rd a k => Rd a (fun v => seqp (k v) q)
  | Wr a v p' => Wr a v (seqp p' q)
  end.

Fixpoint forp (n : nat) (body : nat -> prog) : prog :=
  match n with O => Done | S k => seqp (forp k body) (body k) end.

(** Running a program alone. *)
Fixpoint run (p : prog) (m : mem) : mem :=
  match p with
  | Done => m
  | Rd a k => run (k (m a)) m
  | Wr a v p' => run p' (mset m a v)
  end.

(** One element access of thread [t]. *)
Definition step_thread (t : nat) (c : mem * (nat -> prog)) : mem * (nat -> prog) :=
  let set p := fun u => if u =? t then p else snd c u in
  match snd c t with
  | Done => c
  | Rd a k => (fst c, set (k (fst c a)))
  | Wr a v p => (mset (fst c) a v, set p)
  end.

(** A schedule names the thread that makes the next access. *)
Definition exec (sched : list nat) (c : mem * (nat -> prog)) : mem * (nat -> prog) :=
  fold_left (fun c t => step_thread t c) sched c.

(** All of the first [n] threads have finished. *)
Definition finished (n : nat) (c : mem * (nat -> prog)) : Prop := forall t, t < n -> snd c t = Done.

(** The cells a program writes, or reads or writes, on some path. *)
Fixpoint may_write (a : addr) (p : prog) : Prop :=
  match p with
  | Done => False
  | Rd _ k => exists v, may_write a (k v)
  | Wr b _ p' => a = b \/ may_write a p'
  end.
Fixpoint may_access (a : addr) (p : prog) : Prop :=
  match p with
  | Done => False
  | Rd b k => a = b \/ exists v, may_access a (k v)
  | Wr b _ p' => a = b \/ may_access a p'
  end.

(** Reading the cells [u 0, v 0 .. u (n-1), v (n-1)]. *)
Fixpoint read2 (n : nat) (u v : nat -> addr) (k : list V -> list V -> prog) : prog :=
  match n with
  | O => k [] []
  | S m => read2 m u v (fun xs ys => Rd (u m) (fun x => Rd (v m) (fun y => k (xs ++ [x]) (ys ++ [y]))))
  end.

Variable A : arith V.

(** [k (sum_i m(u i) * m(v i))] *)
Definition dot_then (n : nat) (u v : nat -> addr) (k : V -> prog) : prog :=
  read2 n u v (fun xs ys => k (a_dot A xs ys)).

(** [*a += s] *)
Definition incr (a : addr) (s : V) : prog := Rd a (fun v => Wr a (a_add A v s) Done).

Section Conv.
Variables (g : geom) (d : cdims).
Notation cin := (cd_cin d).
Notation h := (cd_h d).
Notation w := (cd_w d).
Notation cout := (cd_cout d).
Notation ho := (cd_ho d).
Notation wo := (cd_wo d).
Notation rows := (cd_rows g d).
Notation cols := (cd_cols d).

(** im2col / col2im loop nests (kernels.cpp:393-445, 447-498): [body] gets the image offset of the
    window position, if it lies inside the image, and the running column index. *)
Definition windows (body : option nat -> nat -> prog) : prog :=
  forp cin (fun c => forp (KH g) (fun a => forp (KW g) (fun e => forp ho (fun r => forp wo (fun q =>
    let y := win_row g a r in let x := win_col g e q in
    body (if inside h w y x then Some (pixel h w c y x) else None)
         ((((c * KH g + a) * KW g + e) * ho + r) * wo + q)))))).

(** Arrays: 0 input, 1 weights, 2 bias, 3 im2col_buf, 4 output.
    kernels.cpp:107-116; Eigen evaluates the product and the bias addition coefficient by coefficient. *)
Definition conv_prog (b : nat) : prog :=
  seqp (windows (fun src p =>
          match src with
          | Some i => Rd (0, b * (cin * h * w) + i) (fun v => Wr (3, b * (rows * cols) + p) v Done)
          | None => Wr (3, b * (rows * cols) + p) (a_zero A) Done
          end))
  (seqp (forp cout (fun o => forp cols (fun j =>
          dot_then rows (fun k => (1, o * rows + k)) (fun k => (3, b * (rows * cols) + (k * cols + j)))
            (fun s => Wr (4, b * (cout * cols) + (o * cols + j)) s Done))))
        (forp cout (fun o => forp cols (fun j =>
          Rd (2, o) (fun v => incr (4, b * (cout * cols) + (o * cols + j)) v))))).

(** Arrays: 0 grad_output, 1 weights, 2 grad_input, 3 + b the private grad_im2col_buf of iteration [b].
    kernels.cpp:142-152 *)
Definition conv_grad_prog (b : nat) : prog :=
  seqp (forp rows (fun k => forp cols (fun j =>
          dot_then cout (fun o => (1, o * rows + k)) (fun o => (0, b * (cout * cols) + (o * cols + j)))
            (fun s => Wr (3 + b, k * cols + j) s Done))))
       (windows (fun dst p =>
          match dst with
          | Some i => Rd (3 + b, p) (fun s => incr (2, b * (cin * h * w) + i) s)
          | None => Done
          end)).
End Conv.

(** Arrays: 0 grad_output, [a0], [a1] the input gradients (possibly the same). cpuadd.cpp:21-25 *)
Definition add_prog (a0 a1 : nat) (i : nat) : prog :=
  Rd (0, i) (fun v => seqp (incr (a0, i) v) (Rd (0, i) (fun v' => incr (a1, i) v'))).

End Programs.
Arguments mem V : clear implicits.
Arguments prog V : clear implicits.

(** Memory holding the given arrays. *)
Definition mem_of (arrays : list (list R)) : mem R := fun a => nth (snd a) (nth (fst a) arrays []) 0%R.
