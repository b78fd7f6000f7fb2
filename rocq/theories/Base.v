(** Outcomes, array access, counted loops and list updates shared by all model files.
    Nothing here models a particular C++ function; the library code uses these notions
    everywhere (exceptions, raw pointers, [for] loops). *)
From Coq Require Export List Arith ZArith Lia Bool Permutation.
From Coq Require Export ZifyBool ZifyNat.
Export ListNotations.

(** The result of a C++ call: a value, a thrown exception, or undefined behaviour. *)
Inductive res (A : Type) : Type :=
| Ok (a : A)
| Throw
| UB.
Arguments Ok {A} a.
Arguments Throw {A}.
Arguments UB {A}.

Definition bind {A B} (x : res A) (k : A -> res B) : res B :=
  match x with
  | Ok a => k a
  | Throw => Throw
  | UB => UB
  end.

Notation "x <- e ;; k" := (bind e (fun x => k))
  (at level 61, e at next level, right associativity).
Notation "' p <- e ;; k" := (bind e (fun p => k))
  (at level 61, p pattern, e at next level, right associativity).

(** The result of a call that mutates a state: finished, threw (with the state it left behind), or
    undefined behaviour. *)
Inductive st (S : Type) : Type :=
| Ret (s : S)
| Exc (s : S)
| Bad.
Arguments Ret {S} s.
Arguments Exc {S} s.
Arguments Bad {S}.

Definition st_bind {S} (x : st S) (k : S -> st S) : st S :=
  match x with
  | Ret s => k s
  | Exc s => Exc s
  | Bad => Bad
  end.

(** A pure computation inside a stateful call: an exception leaves the current state. *)
Definition lift {S A} (s : S) (x : res A) (k : A -> st S) : st S :=
  match x with
  | Ok a => k a
  | Throw => Exc s
  | UB => Bad
  end.

(** [DeepWorks_Assert(b)] (include/deepworks/utils/assert.hpp:43-44): throws when [b] is false. *)
Definition dw_assert (b : bool) : res unit := if b then Ok tt else Throw.

(** Reading and writing through a raw pointer into an array. *)
Definition rd {V} (l : list V) (i : nat) : res V :=
  match nth_error l i with
  | Some v => Ok v
  | None => UB
  end.

Fixpoint upd {V} (l : list V) (i : nat) (v : V) : list V :=
  match l, i with
  | [], _ => []
  | _ :: t, O => v :: t
  | x :: t, S j => x :: upd t j v
  end.

Definition wr {V} (l : list V) (i : nat) (v : V) : res (list V) :=
  if i <? length l then Ok (upd l i v) else UB.

(** The same with a signed offset, as in [src[input_row * w + input_col]]. *)
Definition rdz {V} (l : list V) (i : Z) : res V :=
  if (i <? 0)%Z then UB else rd l (Z.to_nat i).
Definition wrz {V} (l : list V) (i : Z) (v : V) : res (list V) :=
  if (i <? 0)%Z then UB else wr l (Z.to_nat i) v.

(** [for (i = 0; i < n; ++i) body(i)]. *)
Fixpoint forr {S} (n : nat) (body : nat -> S -> res S) (s : S) : res S :=
  match n with
  | O => Ok s
  | Datatypes.S m => s' <- forr m body s ;; body m s'
  end.

(** A vector whose [i]-th element is [f i]. *)
Definition tab {V} (n : nat) (f : nat -> V) : list V := map f (seq 0 n).

(** Sequential execution of an action for every element of a list ([std::for_each]). *)
Fixpoint fold_res {A S} (f : A -> S -> res S) (l : list A) (s : S) : res S :=
  match l with
  | [] => Ok s
  | a :: t => s' <- f a s ;; fold_res f t s'
  end.

Fixpoint map_res {A B} (f : A -> res B) (l : list A) : res (list B) :=
  match l with
  | [] => Ok []
  | a :: t => b <- f a ;; bs <- map_res f t ;; Ok (b :: bs)
  end.

Definition shape := list Z.

Definition list_eqb {A} (eqb : A -> A -> bool) : list A -> list A -> bool :=
  fix go l1 l2 :=
    match l1, l2 with
    | [], [] => true
    | x :: t, y :: u => eqb x y && go t u
    | _, _ => false
    end.

Definition shape_eqb : shape -> shape -> bool := list_eqb Z.eqb.

(** [int] range (32-bit two's complement). *)
Definition int_max : Z := 2147483647.
Definition int_min : Z := -2147483648.
Definition fits_int (z : Z) : bool := ((int_min <=? z) && (z <=? int_max))%Z.
