(** Vocabulary for statements about running a model. *)
From Coq Require Import Reals String.
From Verif Require Import Base Sums M_Layers M_Optim M_Nn M_Graph M_Model M_Backend S_Grad S_Partial S_Graph.
Open Scope nat_scope.

(** The dimensions of a placeholder. *)
Definition dims (ps : list phnode) (d : nat) : list nat :=
  match nth_error ps d with Some p => map Z.to_nat (ph_shape p) | None => [] end.

(** A compiled model: one layer per operation, memory for what the caller does not provide. *)
Definition backend_fits (ps : list phnode) (m : model) (b : backend) : Prop :=
  length (b_layers b) = length (m_ops m) /\ length (b_mem b) = length (m_data m) /\ length (b_grad b) = length (m_data m) /\
  forall i d s, nth_error (m_data m) i = Some (d, s) ->
    (s = SInternal -> exists t, nth_error (b_mem b) i = Some t /\ ten_ok (dims ps d) t) /\
    (s <> SOutput -> exists t, nth_error (b_grad b) i = Some t /\ ten_ok (dims ps d) t).

(** The layer that produces placeholder [d], in its present state. *)
Definition produces (m : model) (infos : list linfo) (b : backend) (d : nat) (L : layer) : Prop :=
  exists j op L0 li, nth_error (m_ops m) j = Some op /\ mo_ph op = d /\ nth_error (b_layers b) j = Some L0 /\
    nth_error infos (mo_info op) = Some li /\ load li L0 = Ok L.

(** The layer computes [t] from [xs], whatever the output tensor held before. *)
Definition computes (E : env) (L : layer) (xs : list ten) (sh : list nat) (t : ten) : Prop :=
  ten_ok sh t /\ exists L', forall o, ten_ok sh o -> lforward E L xs [o] = Ok (L', t).

(** [V] gives every placeholder the value obtained by evaluating the expression from the inputs up. *)
Definition evaluation (ps : list phnode) (ins outs : list nat) (tins : list ten)
                      (E : nat -> env) (layer_of : nat -> layer -> Prop) (V : nat -> ten) : Prop :=
  Forall2 (fun d t => V d = t) ins tins /\
  forall d args, needed ps outs d -> call ps d args ->
    exists L, layer_of d L /\ computes (E d) L (map V args) (dims ps d) (V d).

(** Inputs are placeholders without producer, all that are needed; outputs are results of layers. *)
Definition closed (ps : list phnode) (ins outs : list nat) : Prop :=
  NoDup ins /\ NoDup outs /\
  (forall d, In d ins -> ~ exists args, call ps d args) /\
  (forall d, In d outs -> exists args, call ps d args) /\
  (forall d, needed ps outs d -> (exists args, call ps d args) \/ In d ins).

(** Layers that do not look at the number of their inputs and outputs. *)
Definition tolerant (L : layer) : bool :=
  match L with LGap | LAdd | LConv _ _ _ _ | LMaxPool _ _ _ => true | _ => false end.
Definition links_ok (ps : list phnode) (outs : list nat) (layer_of : nat -> layer -> Prop) : Prop :=
  forall d L, layer_of d L -> visits ps outs d = 1 \/ tolerant L = true.

(** Tensors of the shapes of the given placeholders. *)
Definition shaped (ps : list phnode) (ds : list nat) (ts : list ten) : Prop := Forall2 (fun d t => ten_ok (dims ps d) t) ds ts.

(** ** Histories of calls on one model *)
(** [Change]: anything the program does to the layers from outside, such as an optimizer step. *)
Inductive action :=
| Compile (junk : nat -> R)
| Forward (E : nat -> env) (ins outs : list ten)
| Backward (E : nat -> env) (ins outs gouts : list ten)
| Train (mode : bool)
| Change (f : list linfo -> list linfo).
Definition mstate := (list linfo * option backend)%type.

(** The state after one call, and whether it threw; [None]: undefined behaviour. *)
Definition act (ps : list phnode) (m : model) (a : action) (s : mstate) : option (mstate * bool) :=
  let (infos, bo) := s in
  match a with
  | Compile junk => match model_compile ps junk m infos bo with Ret b => Some ((infos, b), false) | Exc b => Some ((infos, b), true) | Bad => None end
  | Forward E ins outs =>
      match model_forward E m infos bo ins outs with
      | Ret (i, b, _, _) => Some ((i, b), false) | Exc (i, b, _, _) => Some ((i, b), true) | Bad => None end
  | Backward E ins outs gouts =>
      match model_backward E m infos bo ins outs gouts with
      | Ret (i, b, _) => Some ((i, b), false) | Exc (i, b, _) => Some ((i, b), true) | Bad => None end
  | Train mode => Some ((model_train mode m infos, bo), false)
  | Change f => Some ((f infos, bo), false)
  end.
Fixpoint acts (ps : list phnode) (m : model) (h : list action) (s : mstate) : option mstate :=
  match h with
  | [] => Some s
  | a :: t => match act ps m a s with Some (s', _) => acts ps m t s' | None => None end
  end.
Definition is_compile (a : action) : bool := match a with Compile _ => true | _ => false end.

(** A model of an expression a program has built. *)
Definition constructed (es : estore) (ins outs : list nat) (m : model) : Prop :=
  built es /\ Forall (fun d => d < length (es_ph es)) outs /\
  exists order g es', build (es_ph es) ins outs = Ok g /\ is_topo g (order g) /\ construct_model order ins outs es = RVal es' m.

(** ** Gradients of a model *)
(** The layer's gradients are right wherever its inputs and parameters move (see S_Grad). *)
Definition right_gradients (E : env) (L : layer) (xs : list ten) (inshs : list (list nat)) (osh : list nat) : Prop :=
  forall P I, P 0%R = pvals L -> I 0%R = xs -> layer_vjp E L inshs osh 0 P I.

(** The gradient of a placeholder that BatchNorm2D reads is nobody else's. *)
Definition exclusive (ps : list phnode) (outs : list nat) (d : nat) (args : list nat) : Prop :=
  forall a, In a args -> ~ In a outs /\ forall d' args', needed ps outs d' -> call ps d' args' -> In a args' -> d' = d.

(** Element [e] of the parameter [r] moved by [s]. *)
Definition move_par (infos : list linfo) (r : nat * string) (e : nat) (s : R) : list linfo :=
  on_par (fun p => with_data p (bump (tdat (p_data p)) e s)) infos r.

(** The sum over the outputs of <gradient, output>. *)
Definition objective (gouts os : list ten) : R :=
  rsum (length gouts) (fun j => weighted (nth j gouts empty_ten) (nth j os empty_ten)).

(** The names of the parameters the output of a layer depends on. *)
Definition param_names (L : layer) : list string :=
  match L with
  | LLinear _ _ | LConv _ _ _ _ => ["weight"; "bias"]
  | LBN1 _ _ _ _ _ _ _ _ | LBN2 _ _ _ _ _ _ _ _ _ _ => ["gamma"; "beta"]
  | _ => []
  end%string.

(** Nothing differs but the gradients of parameters. *)
Definition same_but_gradients (infos infos' : list linfo) : Prop :=
  Forall2 (fun li li' => li_name li' = li_name li /\ li_type li' = li_type li /\ li_attrs li' = li_attrs li /\ li_bufs li' = li_bufs li /\
    Forall2 (fun e e' => fst e' = fst e /\ p_data (snd e') = p_data (snd e) /\ p_train (snd e') = p_train (snd e)) (li_params li) (li_params li')) infos infos'.
