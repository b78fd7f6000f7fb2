(** Observations of a heap of tensors used in the statements of Prop_Tensor.  Only the fields a user
    can see ([shape()], [strides()], [total()], [data()]) and the memory cells appear here. *)
From Verif Require Import Base S_Tensor M_Tensor.

Section Heap.
Context {V : Type}.
Notation heap := (heap V).
Notation call := (call V).

(** What a variable denotes. *)
Definition denotes (h : heap) (x k : nat) (d : desc) : Prop :=
  nth_error (h_vars h) x = Some k /\ nth_error (h_descs h) k = Some d.

Definition live (h : heap) (b : nat) (c : list V) : Prop := nth_error (h_blocks h) b = Some (Some c).

(** The cells behind a variable exist: it owns its storage, or it is empty, or it is a view into a
    live block that is large enough. *)
Definition accessible (h : heap) (x : nat) : Prop :=
  exists k d, denotes h x k d /\
    (d_memory d <> None \/ d_total d = 0%Z \/
     exists b o c, d_data d = Some (b, o) /\ live h b c /\ o + Z.to_nat (d_total d) <= length c).

(** The caller's obligations for one call: variables exist, element totals are representable,
    memory does not run out, views are still backed by live storage when their data is used. *)
Definition legal (h : heap) (c : call) : Prop :=
  let var x := x < length (h_vars h) in
  match c with
  | CNew => True
  | CNewShape s ok _ => ok = true /\ (nonneg s -> fits s)
  | CView s x _ => var x /\ (nonneg s -> fits s)
  | CCopy x => var x
  | CAssign x y => var x /\ var y
  | CAllocate x s ok _ => var x /\ ok = true /\ (nonneg s -> fits s)
  | CReshape x s => var x /\ fits s
  | CCopyTo x y => accessible h x /\ accessible h y
  | CFill x _ => accessible h x
  | CGenerate x _ => accessible h x
  | CSet x i _ => accessible h x /\ forall k d, denotes h x k d -> i < Z.to_nat (d_total d)
  end.

(** Handles that name the same descriptor keep doing so, whatever happens, unless one of them is
    reassigned. *)
Definition reassigns (c : call) (x : nat) : Prop :=
  match c with CAssign y _ => y = x | _ => False end.

(** The variable whose tensor a call may modify. *)
Definition target (c : call) : option nat :=
  match c with
  | CAllocate x _ _ _ | CReshape x _ | CFill x _ | CGenerate x _ | CSet x _ _ => Some x
  | CCopyTo _ y => Some y
  | _ => None
  end.

(** Everything observable about descriptor [k]: the descriptor and the cells of the block it owns. *)
Definition same_view (h h' : heap) (k : nat) : Prop :=
  nth_error (h_descs h') k = nth_error (h_descs h) k /\
  forall d b, nth_error (h_descs h) k = Some d -> d_memory d = Some b ->
              nth_error (h_blocks h') b = nth_error (h_blocks h) b.

(** A tensor that has just been given storage for shape [s]. *)
Definition fresh_tensor (h : heap) (x : nat) (s : shape) (junk : nat -> V) : Prop :=
  exists k d b, denotes h x k d /\ d_shape d = s /\ d_total d = prodZ s /\
    d_strides d = calculateStrides s /\ d_memory d = Some b /\ d_data d = Some (b, 0) /\
    live h b (tab (Z.to_nat (prodZ s)) junk).

(** Nothing observable changed: same variables, same descriptors, same memory (a constructor that
    threw may have left an unreachable descriptor behind). *)
Definition unchanged (h h' : heap) : Prop :=
  h_vars h' = h_vars h /\ h_blocks h' = h_blocks h /\
  forall k, k < length (h_descs h) -> nth_error (h_descs h') k = nth_error (h_descs h) k.

(** The cells a variable covers: block and offset range. *)
Definition covers (h : heap) (x : nat) (b i : nat) : Prop :=
  exists k d o, denotes h x k d /\ d_data d = Some (b, o) /\ o <= i < o + Z.to_nat (d_total d).

Definition cell (h : heap) (b i : nat) : option V :=
  match nth_error (h_blocks h) b with
  | Some (Some c) => nth_error c i
  | _ => None
  end.

(** States a program can reach from the empty heap by calls that respect the caller's obligations. *)
Definition reachable (h : heap) : Prop :=
  exists cs, (forall cs1 c cs2 h', cs = cs1 ++ c :: cs2 -> run heap0 cs1 = Some h' -> legal h' c) /\
             run heap0 cs = Some h.

End Heap.
