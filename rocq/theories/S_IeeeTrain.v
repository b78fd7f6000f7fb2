(** Vocabulary for statements about training dense classifiers in floats. *)
From Coq Require Import Reals.
From Verif Require Import Base Sums M_Round M_Ieee S_Ieee M_IeeeDense S_IeeeDense M_IeeeTrain.
Open Scope R_scope.

(** The layers fit together: [n] inputs and [m] outputs of the network. *)
Fixpoint chained (n m : nat) (l : list lin) : Prop :=
  match l with [] => n = m | s :: t => l_out s = m /\ chained n (l_in s) t end.
(** All weights and biases are finite and at most [b]. *)
Definition small (b : R) (l : list lin) : Prop :=
  Forall (fun s => (forall p, (p < l_out s * l_in s)%nat -> exists x, l_w s p = Fin x /\ Rabs x <= b) /\
                   (forall p, (p < l_out s)%nat -> exists x, l_b s p = Fin x /\ Rabs x <= b)) l.
(** The two networks have the same layers but for weights and biases. *)
Definition same_layers (l l' : list lin) : Prop :=
  map (fun s => (l_in s, l_out s, l_act s)) l = map (fun s => (l_in s, l_out s, l_act s)) l'.

(** How large results can be in a forward pass: of an activation, if its input is at most [P]; of Linear, if its input is at
    most [X] and weights and bias at most [Wb]; of the network, if its input is at most [A]. *)
Definition act_out (a : option act) (P : R) : R :=
  match a with
  | None | Some AReLU => P
  | Some (ALeaky alpha) => Rmax P (grown (P * Rabs alpha))
  | Some (AELU alpha) => Rmax P (grown (grown 1 * Rabs alpha))
  | Some ASigmoid => 1
  end.
Definition lin_out (K : nat) (X Wb : R) : R := grown (sum_grown K (INR K * grown (X * Wb)) + Wb).
Fixpoint net_out (Wb A : R) (l : list lin) : R :=
  match l with [] => A | s :: t => lin_out (l_in s) (act_out (l_act s) (net_out Wb A t)) Wb end.
(** Within the layers results stay below the largest float, inputs of ELU up to 65, and inputs of Linear up to [B]. *)
Fixpoint forward_room (Wb A B : R) (l : list lin) : Prop :=
  match l with
  | [] => True
  | s :: t => forward_room Wb A B t /\ net_out Wb A t <= match l_act s with Some (AELU _) => 65 | _ => top end /\
              act_out (l_act s) (net_out Wb A t) <= B /\ net_out Wb A (s :: t) <= top
  end.
(** Gradients of the output of layer [k] up to [dense_size] (C71), those of weights and biases up to [G]. *)
Definition bare (s : lin) : dense :=
  mkDense (l_in s) (l_out s) (fun _ => Fin 0) (l_w s) (l_act s) (fun _ => Fin 0) (fun _ => Fin 0) (fun _ => Fin 0).
Definition backward_room (rows : nat) (Wb B G : R) (l : list lin) : Prop :=
  forall k, (k < length l)%nat ->
  dense_size Wb (2 / INR rows) (map bare l) k <= top /\ sum_grown rows (INR rows * grown (dense_size Wb (2 / INR rows) (map bare l) k * B)) <= G.
(** What one step adds to the bound on weights. *)
Definition next_bound (lr G b : R) : R := grown (b + grown (Rabs lr * G)).
Definition bound_after (lr G b : R) (n : nat) : R := Nat.iter n (next_bound lr G) b.
(** A batch: inputs of [rows] samples with [n] numbers each, finite and up to [A], and labels below [m]. *)
Definition batch_ok (rows n m : nat) (A : R) (b : (nat -> flt) * (nat -> nat)) : Prop :=
  (forall p, (p < rows * n)%nat -> exists x, fst b p = Fin x /\ Rabs x <= A) /\ forall i, (i < rows)%nat -> (snd b i < m)%nat.
(** Velocities of all layers are finite and at most [V]. *)
Definition slow (V : R) (l : list lin) (vs : list ((nat -> flt) * (nat -> flt))) : Prop :=
  Forall2 (fun s v => (forall p, (p < l_out s * l_in s)%nat -> exists x, fst v p = Fin x /\ Rabs x <= V) /\
                      (forall p, (p < l_out s)%nat -> exists x, snd v p = Fin x /\ Rabs x <= V)) l vs.
(** No confident mistake on the batch: in every forward pass the logit of each label is at most 60 below the largest of its
    sample (a label's probability below exp(-60) is the mistake that can destroy the weights, C67). *)
Definition no_confident_mistake (lib : flt -> flt -> Prop) (rows m : nat) (l : list lin) (batch : (nat -> flt) * (nat -> nat)) : Prop :=
  forall acts z, fforward lib rows (fst batch) l acts z ->
  forall i k, (i < rows)%nat -> (k < m)%nat -> fval (z (i * m + k)%nat) - 60 <= fval (z (i * m + snd batch i)%nat).
