(** Vocabulary for statements about training as descent along the gradient of the loss. *)
From Coq Require Import Reals String.
From Verif Require Import Base Sums M_Tensor M_Im2col M_Kernels M_Layers M_Optim M_Loss M_Nn M_Graph M_Model M_Backend M_Train M_DataLoader M_Sample
  S_Grad S_Partial S_Loss S_Graph S_Run S_Fit S_Train S_Plain S_Desc S_Sample.
Open Scope nat_scope.

(** ** Networks that can be differentiated *)
(** No layer draws random numbers, nothing is divided by zero, and what BatchNorm2D reads (and overwrites in
    the backward pass) is read by nothing else. *)
Record differentiable (t : list row) : Prop := {
  df_layer : forall r, In r t ->
    match r_layer r with ADropout _ => False | ABatchNorm1D eps _ | ABatchNorm2D eps _ => (0 < eps)%R | _ => True end;
  df_alone : forall j r eps alpha a, nth_error t j = Some r -> r_layer r = ABatchNorm2D eps alpha -> In a (r_args r) ->
    forall j' r', nth_error t j' = Some r' -> In a (r_args r') -> j' = j }.

(** [V a] is the value of placeholder [a].  Rectifiers get no zero, and in no window of a max pooling do two
    elements share the largest value. *)
Definition away_from_kinks (t : list row) (V : nat -> ten) : Prop :=
  forall r, In r t ->
  match r_layer r with
  | AReLU | ALeakyReLU _ | AELU _ => Forall (fun a => no_zero (V a)) (r_args r)
  | AMaxPooling w => forall a n c h wd ho wo, r_args r = [a] -> r_in r = [[n; c; h; wd]] -> r_out r = [n; c; ho; wo] ->
      clear_maxima (window_of w) (n * c) h wd ho wo (V a)
  | _ => True
  end.

(** ** The rules of the optimizers *)
(** [moves o o' name e d w w']: a step of [o] moves element [e] of the parameter called [name] from [w] to [w']
    if [d] is the derivative; [o'] is the optimizer afterwards. *)
Inductive moves : optimizer -> optimizer -> string -> nat -> R -> R -> R -> Prop :=
| by_sgd lr name e d w : moves (SGD lr) (SGD lr) name e d w (w - lr * d)
| by_momentum lr gamma vel vel' name e d w v v' :
    find_key vel name = Some v -> find_key vel' name = Some v' ->
    ((tdat v').[e] = gamma * (tdat v).[e] + lr * d)%R ->
    moves (Momentum lr gamma vel) (Momentum lr gamma vel') name e d w (w - (tdat v').[e])
| by_adam lr b1 b2 eps k ms vs ms' vs' name e d w m v m' v' :
    find_key ms name = Some m -> find_key vs name = Some v -> find_key ms' name = Some m' -> find_key vs' name = Some v' ->
    ((tdat m').[e] = b1 * (tdat m).[e] + (1 - b1) * d)%R -> ((tdat v').[e] = b2 * (tdat v).[e] + (1 - b2) * (d * d))%R ->
    moves (Adam lr b1 b2 eps k (ms, vs)) (Adam lr b1 b2 eps (S k) (ms', vs')) name e d w
      (w - lr * ((tdat m').[e] / (1 - b1 ^ S k)) / (sqrt ((tdat v').[e] / (1 - b2 ^ S k)) + eps)).

(** ** Descent *)
(** [d] is the derivative of the loss on batch [x] with respect to element [e] of parameter [r]: forward with
    that element moved by [s] writes [out s], for any content of the tensor it writes to. *)
Definition slope (m : model) (n c : nat) (lab : nat -> nat) (x : batch) (s0 : loop) (r : nat * string) (e : nat) (d : R) : Prop :=
  exists out,
    (forall s T, ten_ok [n; c] T -> exists infos' bo',
       model_forward (b_fwd x) m (move_par (ts_info (l_ts s0)) r e s) (ts_backend (l_ts s0)) [b_X x] [T] = Ret (infos', bo', [b_X x], [out s])) /\
    derivable_pt_lim (fun s => mean_nll n c lab (out s)) 0 d.

(** From [s] to [s'] every element of every parameter moves by the rule of the optimizer. *)
Definition descends (m : model) (n c : nat) (lab : nat -> nat) (x : batch) (s s' : loop) : Prop :=
  forall name r p, In (name, r) (m_params m) -> get_par (ts_info (l_ts s)) r = Some p ->
  exists p', get_par (ts_info (l_ts s')) r = Some p' /\ tsh (p_data p') = tsh (p_data p) /\
  forall e, e < tot (p_data p) -> exists d, slope m n c lab x s r e d /\
    moves (ts_opt (l_ts s)) (ts_opt (l_ts s')) name e d (tdat (p_data p)).[e] (tdat (p_data p')).[e].

(** The model in training mode. *)
Definition in_training (m : model) (s : loop) : loop :=
  mkLoop (mkTS (model_train true m (ts_info (l_ts s))) (ts_backend (l_ts s)) (ts_opt (l_ts s))) (l_crit s) (l_pred s) (l_grad s).

Section Run.
Context {D1 : Type}.
Variables (I : nat -> ienv) (n c : nat) (rest : list nat) (t : list row) (m : model) (train_set : dataset R D1) (item1 : Z -> list R * list R).

(** [V d] is the value of placeholder [d] if the model, as it is in [s], is applied to batch [x]. *)
Definition values_in (s : loop) (x : batch) (V : nat -> ten) : Prop :=
  exists b, ts_backend (l_ts s) = Some b /\
    evaluation (es_ph (expression I (n :: rest) t)) [0] [length t] [b_X x] (b_fwd x) (produces m (ts_info (l_ts s)) b) V.

(** Iterations on [bs] lead from [s] to [s1], each along the gradient of the loss on its batch. *)
Fixpoint descending (bs : list batch) (s s1 : loop) : Prop :=
  match bs with
  | [] => s1 = s
  | x :: bs' => exists lab s', labels n c (b_y x) lab /\ (exists V, values_in s x V) /\
      (forall V, values_in s x V ->
         train_iteration m (b_fwd x) (b_bwd x) (b_loss x) (b_X x) (b_y x) s = Ret (Some (s', Some (mean_nll n c lab (V (length t))))) /\
         (away_from_kinks t V -> descends m n c lab x s s')) /\
      descending bs' s' s1
  end.

(** [k] epochs from [s] to [s']: each trains on full batches of different samples of the training set; the
    evaluation after it leaves the weights and the optimizer as they are. *)
Inductive descent_run : nat -> loop -> loop -> Prop :=
| descent_end s : descent_run 0 s s
| descent_epoch k s bs s1 s2 s3 :
    length bs = full train_set n ->
    Forall (fun b => exists idx, NoDup idx /\ Forall (fun j => 0 <= j < ds_size train_set)%Z idx /\ batch_of n rest item1 idx (b_X b) (b_y b)) bs ->
    descending bs (in_training m s) s1 ->
    ts_info (l_ts s2) = model_train false m (ts_info (l_ts s1)) -> ts_opt (l_ts s2) = ts_opt (l_ts s1) ->
    descent_run k s2 s3 -> descent_run (S k) s s3.
End Run.
