(** Vocabulary for statements about models in evaluation mode. *)
From Coq Require Import Reals.
From Verif Require Import Base Sums M_Layers M_Nn M_Graph M_Model M_Backend S_Grad S_Partial S_Graph S_Run.
Open Scope nat_scope.

(** Sample [r] of a batch: the [r]-th slice along the first dimension. *)
Definition sample (t : ten) (r : nat) : list R :=
  let k := prodN (tl (tsh t)) in firstn k (skipn (r * k) (tdat t)).

(** Dropout and BatchNorm are in evaluation mode. *)
Definition evaluating (L : layer) : Prop :=
  match L with
  | LDropout _ mask => p_train mask = false
  | LBN1 _ _ gamma _ _ _ _ _ | LBN2 _ _ gamma _ _ _ _ _ _ _ => p_train gamma = false
  | _ => True
  end.

(** The same type, attributes, weights and running statistics.  Gradients, flags and caches may differ, and
    what only training looks at: the fraction dropped and the mask of Dropout, the momentum of BatchNorm. *)
Definition same_weights (L L' : layer) : Prop :=
  match L, L' with
  | LReLU, LReLU | LSigmoid, LSigmoid | LSoftmax, LSoftmax | LGap, LGap | LAdd, LAdd | LDropout _ _, LDropout _ _ => True
  | LLeaky a, LLeaky a' | LELU a, LELU a' => a' = a
  | LLinear W b, LLinear W' b' => p_data W' = p_data W /\ p_data b' = p_data b
  | LConv g W b _, LConv g' W' b' _ => g' = g /\ p_data W' = p_data W /\ p_data b' = p_data b
  | LMaxPool g _ _, LMaxPool g' _ _ => g' = g
  | LBN1 e _ g b _ rm rv _, LBN1 e' _ g' b' _ rm' rv' _
  | LBN2 e _ g b _ rm rv _ _ _, LBN2 e' _ g' b' _ rm' rv' _ _ _ =>
      e' = e /\ p_data g' = p_data g /\ p_data b' = p_data b /\ rm' = rm /\ rv' = rv
  | _, _ => False
  end.

(** An expression for batches of [n] samples and one for batches of [n'] are the same network: the same
    calls of layers with the same weights on samples of the same shapes.  [f]: the placeholder of the second that
    stands for a placeholder of the first. *)
Record same_network (ps : list phnode) (outs : list nat) (n : nat) (layer_of : nat -> layer -> Prop)
                    (ps' : list phnode) (outs' : list nat) (n' : nat) (layer_of' : nat -> layer -> Prop) (f : nat -> nat) : Prop := {
  sn_shape : forall d, needed ps outs d -> exists rest, dims ps d = n :: rest /\ dims ps' (f d) = n' :: rest;
  sn_call : forall d args, needed ps outs d -> call ps d args -> needed ps' outs' (f d) /\ call ps' (f d) (map f args);
  sn_weights : forall d L L', needed ps outs d -> layer_of d L -> layer_of' (f d) L' -> same_weights L L' }.

(** Every layer of the compiled model is in evaluation mode. *)
Definition eval_mode (ps : list phnode) (outs : list nat) (m : model) (infos : list linfo) (b : backend) : Prop :=
  forall d L, needed ps outs d -> produces m infos b d L -> evaluating L.
