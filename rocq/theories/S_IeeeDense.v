(** Vocabulary for statements about backward passes of dense networks in floats. *)
From Coq Require Import Reals.
From Verif Require Import Base Sums M_Kernels M_Round M_Ieee S_Ieee S_Act M_IeeeDense.
Open Scope R_scope.

(** The derivative of an activation, from its input; of Sigmoid, from its output. *)
Definition derivative (a : act) (x : R) : R :=
  match a with
  | AReLU => if Rlt_dec 0 x then 1 else 0
  | ALeaky alpha => if Rlt_dec x 0 then alpha else 1
  | AELU alpha => if Rlt_dec x 0 then exp x * alpha else 1
  | ASigmoid => x * (1 - x)
  end.
(** The documented functions (S_Act), and what the derivative is taken from. *)
Definition act_fn (a : act) : R -> R := match a with AReLU => relu_fn | ALeaky alpha => leaky_fn alpha | AELU alpha => elu_fn alpha | ASigmoid => sigmoid_fn end.
Definition act_reads (a : act) (x : R) : R := match a with ASigmoid => sigmoid_fn x | _ => x end.
(** The exact gradient, by the chain rule, of the output of layer [k] of the list, when it is [g] for the first of the list. *)
Fixpoint dense_grad (g : nat -> R) (l : list dense) (k : nat) : nat -> R :=
  match k, l with
  | S k', s :: t =>
      dense_grad (fun p => (match d_act s with None => 1 | Some a => derivative a (fval (d_arg s p)) end) *
                           rsum (d_out s) (fun j => g (p / d_in s * d_out s + j)%nat * fval (d_w s (j * d_in s + p mod d_in s)%nat))) t k'
  | _, _ => g
  end.

(** Bounds on the derivative as computed and on its error; [u], [eta]: the errors of exp. *)
Definition slope (a : act) : R :=
  match a with AReLU | ASigmoid => 1 | ALeaky alpha => Rmax 1 (Rabs alpha) | AELU alpha => Rmax 1 (grown (2 * Rabs alpha)) end.
Definition slope_error (u eta : R) (a : act) : R :=
  match a with
  | AReLU | ALeaky _ => 0
  | AELU alpha => Rabs alpha * (u + eta) + (eps32 * (2 * Rabs alpha) + tiny32)
  | ASigmoid => 2 * (eps32 + tiny32)
  end.
(** Size and error of a gradient behind an activation, when it is at most [F] with error [e] before. *)
Definition act_size (a : option act) (F : R) : R := match a with None => F | Some a => grown (grown (F * slope a)) end.
Definition act_error (u eta : R) (a : option act) (F e : R) : R :=
  match a with
  | None => e
  | Some a => (F * slope_error u eta a + slope a * e + (eps32 * (F * slope a) + tiny32)) + (eps32 * grown (F * slope a) + tiny32)
  end.
(** How large the gradient at layer [k] can be, and its error, if it is at most [F] with error [e] at the first. *)
Fixpoint dense_size (Wb F : R) (l : list dense) (k : nat) : R :=
  match k, l with
  | S k', s :: t => dense_size Wb (act_size (d_act s) (sum_grown (S (d_out s)) (INR (d_out s) * grown (F * Wb)))) t k'
  | _, _ => F
  end.
Fixpoint dense_error (u eta Wb F e : R) (l : list dense) (k : nat) : R :=
  match k, l with
  | S k', s :: t => dense_error u eta Wb (act_size (d_act s) (sum_grown (S (d_out s)) (INR (d_out s) * grown (F * Wb))))
                      (act_error u eta (d_act s) (sum_grown (S (d_out s)) (INR (d_out s) * grown (F * Wb))) (dot_error (d_out s) (d_out s) F e Wb)) t k'
  | _, _ => e
  end.
(** Inputs up to [B], weights up to [Wb]; activations were applied to finite numbers, ELU to numbers from -65 on, and
    outputs of Sigmoid lie between 0 and 1 (C67). *)
Definition dense_ok (rows : nat) (B Wb : R) (s : dense) : Prop :=
  (forall p, (p < rows * d_in s)%nat -> d_x s p = Fin (fval (d_x s p)) /\ Rabs (fval (d_x s p)) <= B) /\
  (forall p, (p < d_out s * d_in s)%nat -> d_w s p = Fin (fval (d_w s p)) /\ Rabs (fval (d_w s p)) <= Wb) /\
  match d_act s with
  | None => True
  | Some a => (forall p, (p < rows * d_in s)%nat -> d_arg s p = Fin (fval (d_arg s p)) /\
                 match a with AELU _ => - 65 <= fval (d_arg s p) | ASigmoid => isf (fval (d_arg s p)) /\ 0 <= fval (d_arg s p) <= 1 | _ => True end) /\
              match a with AELU alpha => 2 * Rabs alpha <= top | _ => True end
  end.

(** Unit [c] before the layer got numbers that are not positive, with ReLU, or gave 0 or 1, with Sigmoid, for all samples. *)
Definition saturated (rows : nat) (s : dense) (c : nat) : Prop :=
  match d_act s with
  | Some AReLU => forall i, (i < rows)%nat -> fval (d_arg s (i * d_in s + c)%nat) <= 0
  | Some ASigmoid => forall i, (i < rows)%nat -> fval (d_arg s (i * d_in s + c)%nat) = 0 \/ fval (d_arg s (i * d_in s + c)%nat) = 1
  | _ => False
  end.
