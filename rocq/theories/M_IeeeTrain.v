(** Training of dense classifiers with SGD in floats, with the arithmetic of M_Ieee. *)
From Coq Require Import Reals.
From Verif Require Import Base M_Round M_Ieee M_IeeeOpt M_IeeeDense.
Open Scope R_scope.

(** A Linear layer and the activation before it, if there is one: numbers of inputs and outputs, weights and bias.  A network
    is the list of its layers from the last to the first. *)
Record lin := mkLin { l_in : nat; l_out : nat; l_act : option act; l_w : nat -> flt; l_b : nat -> flt }.

(** kernels.cpp:12-18 (cpulinear.cpp:23-43): element [p] of the output; variables: 0 the input, 1 the weights, 2 the bias. *)
Definition linear_out_ex (K m p : nat) : ex :=
  EAdd (ESum K (fun k => EMul (EVar 0 (p / m * K + k)) (EVar 1 (p mod m * K + k)))) (EVar 2 (p mod m)).
(** kernels.cpp:44-46, 54-56, 64-66, 73-75 *)
Definition act_ex (a : act) (p : nat) : ex :=
  match a with AReLU => relu_ex p | ALeaky alpha => leaky_ex alpha p | AELU alpha => elu_ex alpha p | ASigmoid => sigmoid_ex p end.

(** cpubackend.cpp:77-99: a forward pass; [z]: what the last layer gives; [acts]: for each layer its input, and what backward
    of the activation before it reads (C71). *)
Fixpoint fforward (lib : flt -> flt -> Prop) (rows : nat) (input : nat -> flt) (l : list lin) (acts : list ((nat -> flt) * (nat -> flt)))
                  (z : nat -> flt) : Prop :=
  match l, acts with
  | [], [] => z = input
  | s :: t, (x, arg) :: acts' =>
      exists pre, fforward lib rows input t acts' pre /\
        (match l_act s with
         | None => x = pre
         | Some a => (forall p, (p < rows * l_in s)%nat -> fev lib (among [pre]) (act_ex a p) (x p)) /\ arg = match a with ASigmoid => x | _ => pre end
         end) /\
        forall p, (p < rows * l_out s)%nat -> fev lib (among [x; l_w s; l_b s]) (linear_out_ex (l_in s) (l_out s) p) (z p)
  | _, _ => False
  end.

(** The layers with what backward reads and the gradients it leaves. *)
Fixpoint denses (l : list lin) (acts grads : list ((nat -> flt) * (nat -> flt))) : list dense :=
  match l, acts, grads with
  | s :: t, xa :: u, g :: v => mkDense (l_in s) (l_out s) (fst xa) (l_w s) (l_act s) (snd xa) (fst g) (snd g) :: denses t u v
  | _, _, _ => []
  end.

(** optimizer.cpp:15-32: a step of SGD for one layer with gradients [g] of weights and bias. *)
Definition stepped (lib : flt -> flt -> Prop) (lr : R) (s : lin) (g : (nat -> flt) * (nat -> flt)) (s' : lin) : Prop :=
  l_in s' = l_in s /\ l_out s' = l_out s /\ l_act s' = l_act s /\
  (forall p, (p < l_out s * l_in s)%nat -> fev lib (among [l_w s; fst g]) (sgd_ex lr p) (l_w s' p)) /\
  (forall p, (p < l_out s)%nat -> fev lib (among [l_b s; snd g]) (sgd_ex lr p) (l_b s' p)).
Fixpoint all_stepped (lib : flt -> flt -> Prop) (lr : R) (l : list lin) (grads : list ((nat -> flt) * (nat -> flt))) (l' : list lin) : Prop :=
  match l, grads, l' with
  | [], [], [] => True
  | s :: t, g :: u, s' :: t' => stepped lib lr s g s' /\ all_stepped lib lr t u t'
  | _, _, _ => False
  end.

(** One iteration of the samples' training loops (e.g. samples/mnist/main.cpp:88-93) on a batch of [rows] samples with their
    labels: forward, Softmax, backward of the loss and of the network, step. *)
Definition fiteration (lib : flt -> flt -> Prop) (rows m : nat) (lr : R) (l : list lin) (batch : (nat -> flt) * (nat -> nat)) (l' : list lin) : Prop :=
  exists acts z prob grads,
    fforward lib rows (fst batch) l acts z /\ fsoftmax lib (among [z]) rows m prob /\
    length grads = length l /\ classifier_backward lib rows m (snd batch) prob (denses l acts grads) /\ all_stepped lib lr l grads l'.
Fixpoint ftraining (lib : flt -> flt -> Prop) (rows m : nat) (lr : R) (l : list lin) (batches : list ((nat -> flt) * (nat -> nat))) (l' : list lin) : Prop :=
  match batches with
  | [] => l' = l
  | b :: t => exists l1, fiteration lib rows m lr l b l1 /\ ftraining lib rows m lr l1 t l'
  end.

(** optimizer.cpp:46-65: a step of SGDMomentum for one layer; [v], [v']: the velocities of weights and bias before and after. *)
Definition pushed (lib : flt -> flt -> Prop) (gamma lr : R) (s : lin) (g v : (nat -> flt) * (nat -> flt)) (s' : lin) (v' : (nat -> flt) * (nat -> flt)) : Prop :=
  l_in s' = l_in s /\ l_out s' = l_out s /\ l_act s' = l_act s /\
  fmomentum lib gamma lr (l_out s * l_in s) (l_w s) (fst g) (fst v) (l_w s') (fst v') /\
  fmomentum lib gamma lr (l_out s) (l_b s) (snd g) (snd v) (l_b s') (snd v').
Fixpoint all_pushed (lib : flt -> flt -> Prop) (gamma lr : R) (l : list lin) (grads vs : list ((nat -> flt) * (nat -> flt))) (l' : list lin)
                    (vs' : list ((nat -> flt) * (nat -> flt))) : Prop :=
  match l, grads, vs, l', vs' with
  | [], [], [], [], [] => True
  | s :: t, g :: u, v :: w, s' :: t', v' :: w' => pushed lib gamma lr s g v s' v' /\ all_pushed lib gamma lr t u w t' w'
  | _, _, _, _, _ => False
  end.
(** The samples' loops with SGDMomentum (samples/mnist/main.cpp:50, 88-93, samples/iris/main.cpp:50). *)
Definition miteration (lib : flt -> flt -> Prop) (rows m : nat) (gamma lr : R) (l : list lin) (vs : list ((nat -> flt) * (nat -> flt)))
                      (batch : (nat -> flt) * (nat -> nat)) (l' : list lin) (vs' : list ((nat -> flt) * (nat -> flt))) : Prop :=
  exists acts z prob grads,
    fforward lib rows (fst batch) l acts z /\ fsoftmax lib (among [z]) rows m prob /\
    length grads = length l /\ classifier_backward lib rows m (snd batch) prob (denses l acts grads) /\ all_pushed lib gamma lr l grads vs l' vs'.
Fixpoint mtraining (lib : flt -> flt -> Prop) (rows m : nat) (gamma lr : R) (l : list lin) (vs : list ((nat -> flt) * (nat -> flt)))
                   (batches : list ((nat -> flt) * (nat -> nat))) (l' : list lin) (vs' : list ((nat -> flt) * (nat -> flt))) : Prop :=
  match batches with
  | [] => l' = l /\ vs' = vs
  | b :: t => exists l1 vs1, miteration lib rows m gamma lr l vs b l1 vs1 /\ mtraining lib rows m gamma lr l1 vs1 t l' vs'
  end.
