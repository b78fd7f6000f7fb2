(** Backward passes of dense networks with any activations in floats, with the arithmetic of M_Ieee. *)
From Coq Require Import Reals.
From Verif Require Import Base M_Round M_Ieee.
Open Scope R_scope.

(** The activation layers of src/runtime/cpu/layers: cpurelu.cpp, cpuleakyrelu.cpp, cpuelu.cpp, cpusigmoid.cpp. *)
Inductive act := AReLU | ALeaky (alpha : R) | AELU (alpha : R) | ASigmoid.
(** kernels.cpp:48-52, 58-62, 68-71, 76-79: element [p] of the gradient of the input; variables: 0 the input, for Sigmoid the
    output (cpusigmoid.cpp:23-34), 1 the gradient of the output, 2 the gradient of the input so far. *)
Definition act_part_ex (a : act) (p : nat) : ex :=
  match a with
  | AReLU => EIf (EConst 0) (EVar 0 p) (EVar 1 p) (EConst 0)
  | ALeaky alpha => EIf (EVar 0 p) (EConst 0) (EMul (EVar 1 p) (EConst alpha)) (EVar 1 p)
  | AELU alpha => EMul (EVar 1 p) (EIf (EVar 0 p) (EConst 0) (EMul (EExp (EVar 0 p)) (EConst alpha)) (EConst 1))
  | ASigmoid => EMul (EVar 1 p) (EMul (EVar 0 p) (EAdd (EMul (EVar 0 p) (EConst (-1))) (EConst 1)))
  end.
Definition act_grad_ex (a : act) (p : nat) : ex := EAdd (EVar 2 p) (act_part_ex a p).

(** A Linear layer and the activation before it, if there is one: numbers of inputs and outputs, input, weights, what the
    activation's gradient reads (its input, for Sigmoid its output), and the gradients of weights and bias that backward
    leaves. *)
Record dense := mkDense { d_in : nat; d_out : nat; d_x : nat -> flt; d_w : nat -> flt; d_act : option act; d_arg : nat -> flt;
                          d_dw : nat -> flt; d_db : nat -> flt }.
(** The layers from the last to the first; [g]: the gradient of the output of the first in the list, [m] wide.
    cpubackend.cpp:125-147, gradients of inputs starting at zero (104-115); cpulinear.cpp:45-83
    and the backward methods of the activations. *)
Fixpoint dense_backward (lib : flt -> flt -> Prop) (rows m : nat) (g : nat -> flt) (l : list dense) : Prop :=
  match l with
  | [] => True
  | s :: t =>
      d_out s = m /\
      (forall p, (p < m * d_in s)%nat -> fev lib (among [d_x s; g]) (linear_grad_ex rows (d_in s) m p) (d_dw s p)) /\
      (forall p, (p < m)%nat -> fev lib (among [d_x s; g]) (bias_grad_ex rows m p) (d_db s p)) /\
      exists gx gz,
        (forall p, (p < rows * d_in s)%nat -> fev lib (among [d_w s; g]) (linear_input_ex (d_in s) m p) (gx p)) /\
        (match d_act s with
         | None => gz = gx
         | Some a => forall p, (p < rows * d_in s)%nat -> fev lib (among [d_arg s; gx]) (act_grad_ex a p) (gz p)
         end) /\
        dense_backward lib rows (d_in s) gz t
  end.
(** From the loss on: loss.cpp:39-64, cpusoftmax.cpp:25-37. *)
Definition classifier_backward (lib : flt -> flt -> Prop) (rows m : nat) (label : nat -> nat) (prob : nat -> flt) (l : list dense) : Prop :=
  exists gout gin,
    (forall p, (p < rows * m)%nat -> fev lib (among [prob]) (loss_grad_ex rows m label p) (gout p)) /\
    (forall p, (p < rows * m)%nat -> fev lib (among [prob; gout]) (softmax_grad_ex m p) (gin p)) /\
    dense_backward lib rows m gin l.
