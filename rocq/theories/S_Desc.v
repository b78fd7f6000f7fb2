(** Vocabulary for statements about training iterations. *)
From Coq Require Import Reals.
From Verif Require Import Base Sums M_Layers M_Loss M_Graph M_Model M_Backend M_Train S_Grad S_Loss S_Fit S_Train.
Open Scope R_scope.

(** The mean negative log-likelihood of the labels [lab 0 .. lab (n-1)] of [c] classes. *)
Definition mean_nll (n c : nat) (lab : nat -> nat) (pred : ten) : R :=
  - rsum n (fun i => ln (tdat pred).[i * c + lab i]) / INR n.

(** The layer that makes output [o] of the compiled model is Softmax. *)
Definition ends_in_softmax (m : model) (b : backend) (o : nat) : Prop :=
  exists j op, nth_error (m_ops m) j = Some op /\ mo_ph op = o /\ nth_error (b_layers b) j = Some LSoftmax.

(** A batch of [n] samples of shape [sh] with labels of [c] classes. *)
Definition batch_ok (n c : nat) (sh : list nat) (x : batch) : Prop :=
  (forall d, fair (b_fwd x d)) /\ ten_ok sh (b_X x) /\ exists lab, labels n c (b_y x) lab.
