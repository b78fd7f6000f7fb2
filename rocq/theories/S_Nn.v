(** Vocabulary for statements about make_layer. *)
From Coq Require Import Reals String.
From Verif Require Import Base M_Layers M_Optim M_Nn.
Local Open Scope string_scope.

(** Two layers that differ at most in the values of their parameters and buffers. *)
Definition alike (a b : linfo) : Prop :=
  li_name a = li_name b /\ li_type a = li_type b /\ li_attrs a = li_attrs b /\
  Forall2 (fun x y => fst x = fst y /\ tsh (p_data (snd x)) = tsh (p_data (snd y)) /\ tsh (p_grad (snd x)) = tsh (p_grad (snd y)) /\
                      p_train (snd x) = p_train (snd y)) (li_params a) (li_params b) /\
  Forall2 (fun x y => fst x = fst y /\ tsh (snd x) = tsh (snd y)) (li_bufs a) (li_bufs b).

(** The thirteen supported types. *)
Definition supported : list string :=
  ["Linear"; "ReLU"; "BatchNorm1D"; "Softmax"; "MaxPooling"; "Convolution"; "ELU"; "LeakyReLU"; "Sigmoid"; "Dropout"; "BatchNorm2D"; "GlobalAvgPooling"; "Add"].
