(** Vocabulary for statements about the sample programs: networks written as tables, and what a training run
    prints. *)
From Coq Require Import Reals String.
From Verif Require Import Base Sums M_Tensor M_Im2col M_Kernels M_Layers M_Optim M_Loss M_Nn M_Graph M_Model M_Backend M_DataLoader M_Train M_Sample
  S_Grad S_Loss S_DataLoader S_Graph S_Run S_Fit S_Train S_Plain S_Desc S_Eval.
Open Scope string_scope.
Open Scope nat_scope.

(** ** Networks *)
(** A line of the table: the layer, its name, which placeholders it is applied to (0: the input, [j]: the
    result of line [j], counted from 1), and the shapes of its arguments and of its result. *)
Record row := mkRow { r_layer : lspec; r_name : string; r_args : list nat; r_in : list (list nat); r_out : list nat }.

(** The expression the table describes. *)
Definition lines {A B} (f : nat -> A -> B) (l : list A) : list B := map (fun '(j, x) => f j x) (combine (seq 0 (length l)) l).
Definition expression (I : nat -> ienv) (input : list nat) (t : list row) : estore :=
  mkES (mkPh (zs input) None :: lines (fun j r => mkPh (zs (r_out r)) (Some (j, r_args r))) t)
       (lines (fun j r => description (I j) (r_layer r) (r_in r) (r_name r)) t).

(** [t] is a classifier: samples of shape [rest], [n] at a time, go in; scores for [c] classes come out of a
    final Softmax. *)
Record classifier (n c : nat) (rest : list nat) (t : list row) : Prop := {
  cl_input : proper (n :: rest);
  cl_row : forall j r, nth_error t j = Some r ->
    Forall2 (fun a sh => a <= j /\ nth_error ((n :: rest) :: map r_out t) a = Some sh) (r_args r) (r_in r) /\
    meant_for (r_layer r) (r_in r) (r_out r) /\ exists sh, r_out r = n :: sh;
  cl_last : exists before r, t = (before ++ [r])%list /\ r_layer r = ASoftmax /\ r_out r = [n; c];
  cl_names : Forall (fun r => r_name r = "") t \/ (NoDup (map r_name t) /\ Forall (fun r => r_name r <> "") t);
  (* no argument is needed by a later argument of the same layer *)
  cl_order : forall r I, In r t -> in_order (es_ph (expression I (n :: rest) t)) (r_args r) }.

(** *** The networks of the samples, as tables *)
Definition perceptron_table (n i o : nat) : list row :=
  [mkRow (ALinear 100) "linear0" [0] [[n; i]] [n; 100];
   mkRow AReLU "relu1" [1] [[n; 100]] [n; 100];
   mkRow (ABatchNorm1D (1 / 1000)%R (5 / 100)%R) "batchnorm1d" [2] [[n; 100]] [n; 100];
   mkRow (ALinear o) "linear2" [3] [[n; 100]] [n; o];
   mkRow ASoftmax "softmax3" [4] [[n; o]] [n; o]].
Definition mnist_table (n : nat) := perceptron_table n 784 10.
Definition iris_table (n : nat) := perceptron_table n 4 3.

Definition conv5 : lspec := AConvolution 64 (mkWin 5 5 2 2 1 1).
Definition pool2 : lspec := AMaxPooling (mkWin 2 2 0 0 2 2).
Definition cifar10_table (n : nat) : list row :=
  [mkRow conv5 "conv1" [0] [[n; 3; 32; 32]] [n; 64; 32; 32];
   mkRow pool2 "pool2" [1] [[n; 64; 32; 32]] [n; 64; 16; 16];
   mkRow AReLU "relu3" [2] [[n; 64; 16; 16]] [n; 64; 16; 16];
   mkRow conv5 "conv4" [3] [[n; 64; 16; 16]] [n; 64; 16; 16];
   mkRow pool2 "pool5" [4] [[n; 64; 16; 16]] [n; 64; 8; 8];
   mkRow AReLU "relu6" [5] [[n; 64; 8; 8]] [n; 64; 8; 8];
   mkRow (ALinear 384) "linear7" [6] [[n; 64; 8; 8]] [n; 384];
   mkRow AReLU "relu8" [7] [[n; 384]] [n; 384];
   mkRow (ABatchNorm1D (1 / 1000)%R (5 / 100)%R) "batchnorm1d9" [8] [[n; 384]] [n; 384];
   mkRow (ALinear 192) "linear10" [9] [[n; 384]] [n; 192];
   mkRow AReLU "relu11" [10] [[n; 192]] [n; 192];
   mkRow (ABatchNorm1D (1 / 1000)%R (5 / 100)%R) "batchnorm1d12" [11] [[n; 192]] [n; 192];
   mkRow (ALinear 10) "linear13" [12] [[n; 192]] [n; 10];
   mkRow ASoftmax "softmax14" [13] [[n; 10]] [n; 10]].

(** A residual network: convolutions of 3 x 3 moved by [s], followed by normalisation. *)
Definition conv3 (c s : nat) : lspec := AConvolution c (mkWin 3 3 1 1 s s).
Definition norm2 : lspec := ABatchNorm2D (1 / 100000)%R (1 / 10)%R.
(** A block from [c] channels of [h] x [h] to [c'] channels of [h'] x [h'] reading placeholder [x]; its first
    line makes placeholder [a]. *)
Definition head_rows (n x a c h c' h' s : nat) : list row :=
  [mkRow (conv3 c' s) "" [x] [[n; c; h; h]] [n; c'; h'; h'];
   mkRow norm2 "" [a] [[n; c'; h'; h']] [n; c'; h'; h'];
   mkRow AReLU "" [a + 1] [[n; c'; h'; h']] [n; c'; h'; h'];
   mkRow (conv3 c' 1) "" [a + 2] [[n; c'; h'; h']] [n; c'; h'; h'];
   mkRow norm2 "" [a + 3] [[n; c'; h'; h']] [n; c'; h'; h']].
Definition plain_block (n x a c h : nat) : list row :=
  head_rows n x a c h c h 1 ++
  [mkRow AAdd "" [a + 4; x] [[n; c; h; h]; [n; c; h; h]] [n; c; h; h];
   mkRow AReLU "" [a + 5] [[n; c; h; h]] [n; c; h; h]].
Definition down_block (n x a c h c' h' : nat) : list row :=
  head_rows n x a c h c' h' 2 ++
  [mkRow (conv3 c' 2) "" [x] [[n; c; h; h]] [n; c'; h'; h'];
   mkRow norm2 "" [a + 5] [[n; c'; h'; h']] [n; c'; h'; h'];
   mkRow AAdd "" [a + 4; a + 6] [[n; c'; h'; h']; [n; c'; h'; h']] [n; c'; h'; h'];
   mkRow AReLU "" [a + 7] [[n; c'; h'; h']] [n; c'; h'; h']].
Definition cifar100_table (n : nat) : list row :=
  [mkRow (conv3 16 1) "" [0] [[n; 3; 32; 32]] [n; 16; 32; 32];
   mkRow norm2 "" [1] [[n; 16; 32; 32]] [n; 16; 32; 32];
   mkRow AReLU "" [2] [[n; 16; 32; 32]] [n; 16; 32; 32]] ++
  plain_block n 3 4 16 32 ++ plain_block n 10 11 16 32 ++
  down_block n 17 18 16 32 32 16 ++ plain_block n 26 27 32 16 ++
  down_block n 33 34 32 16 64 8 ++ plain_block n 42 43 64 8 ++
  [mkRow AGlobalAvgPooling "" [49] [[n; 64; 8; 8]] [n; 64; 1; 1];
   mkRow (ALinear 100) "" [50] [[n; 64; 1; 1]] [n; 100];
   mkRow ASoftmax "" [51] [[n; 100]] [n; 100]].

(** ** Datasets for a classifier *)
(** Sample [j] has data of shape [rest] and one label, a class below [c]; the dataset works whenever asked. *)
Definition labelled {D} (ds : dataset R D) (n c : nat) (rest : list nat) (item : Z -> list R * list R) (label : Z -> nat) : Prop :=
  ds_shape ds = (zs rest, [1%Z]) /\ dataset_ok ds item /\ never_throws ds /\ (ds_size ds + Z.of_nat n <= int_max)%Z /\
  forall j, (0 <= j < ds_size ds)%Z -> snd (item j) = [INR (label j)] /\ label j < c.

(** Full batches of [n] in a dataset. *)
Definition full {D} (ds : dataset R D) (n : nat) : nat := Z.to_nat (ds_size ds / Z.of_nat n).

(** The batch [X], [y] consists of the samples [idx], one after the other. *)
Definition batch_of (n : nat) (rest : list nat) (item : Z -> list R * list R) (idx : list Z) (X y : ten) : Prop :=
  length idx = n /\ X = mkT (n :: rest) (flat_map (fun j => fst (item j)) idx) /\ y = mkT [n; 1] (flat_map (fun j => snd (item j)) idx).

(** ** Training runs *)
Definition total (l : list R) : R := fold_right Rplus 0%R l.
Definition mean (l : list R) : option R := match l with [] => None | _ => Some (total l / INR (length l))%R end.

(** What epoch [i] prints. *)
Definition epoch_lines (i n : nat) (freq : Z) (losses : list R) (acc : option R) : list line :=
  Epoch i ::
  flat_map (fun t => if (Z.of_nat (t * n) mod freq =? 0)%Z then [Loss (mean (firstn t losses))] else []) (seq 1 (length losses)) ++
  [Loss (mean losses); Accuracy acc].

(** A printed number is a number, and in the range it should be in. *)
Definition sound_line (l : line) : Prop :=
  match l with
  | Loss v => exists x, v = Some x /\ (0 <= x)%R
  | Accuracy v => exists x, v = Some x /\ (0 <= x <= 1)%R
  | _ => True
  end.

Section Epoch.
Context {D1 D2 : Type}.
Variables (m : model) (n c : nat) (rest : list nat).
Variables (train_set : dataset R D1) (item1 : Z -> list R * list R).
Variables (test_set : dataset R D2) (item2 : Z -> list R * list R) (label2 : Z -> nat).

(** [scores j] is what the model gives for sample [j] of the test set: in whatever batch, at whatever place. *)
Definition predicts (infos : list linfo) (bo : option backend) (scores : Z -> list R) : Prop :=
  forall j E idx X y T r, (0 <= j < ds_size test_set)%Z -> (forall d, fair (E d)) ->
  Forall (fun j => 0 <= j < ds_size test_set)%Z idx -> batch_of n rest item2 idx X y -> nth_error idx r = Some j -> ten_ok [n; c] T ->
  exists bo' p, model_forward E m infos bo [X] [T] = Ret (infos, bo', [X], [p]) /\ ten_ok [n; c] p /\ sample p r = scores j.

(** One epoch, from [s] to [s']: the model learns from batches of [n] different samples, as many as there
    are full batches; then it is evaluated on the first samples of the test set, as many as fill batches: [acc]
    is the share of those whose label has the highest score.  Evaluation changes nothing but the mode. *)
Definition epoch_run (s s' : loop) (losses : list R) (acc : option R) : Prop :=
  exists batches s1,
    train_batches m batches (mkLoop (mkTS (model_train true m (ts_info (l_ts s))) (ts_backend (l_ts s)) (ts_opt (l_ts s))) (l_crit s) (l_pred s) (l_grad s)) =
      Ret (Some (s1, map Some losses)) /\
    length batches = full train_set n /\ Forall (fun l => 0 <= l)%R losses /\
    Forall (fun b => (forall d, fair (b_fwd b d)) /\
      exists idx, NoDup idx /\ Forall (fun j => 0 <= j < ds_size train_set)%Z idx /\ batch_of n rest item1 idx (b_X b) (b_y b)) batches /\
    ts_info (l_ts s') = model_train false m (ts_info (l_ts s1)) /\ ts_opt (l_ts s') = ts_opt (l_ts s1) /\
    exists scores best, predicts (ts_info (l_ts s')) (ts_backend (l_ts s')) scores /\
      (forall j, (0 <= j < ds_size test_set)%Z -> length (scores j) = c) /\
      match full test_set n with
      | O => acc = None
      | _ => (forall j, j < full test_set n * n -> max_col c (scores (Z.of_nat j)) 0 (best j)) /\
             exists v, acc = Some v /\ share (full test_set n * n) (fun j => best j = label2 (Z.of_nat j)) v
      end.

(** [k] epochs, the first being number [i]; [out] is what they print. *)
Inductive training_run (freq : Z) : nat -> nat -> loop -> loop -> list line -> Prop :=
| run_end i s : training_run freq 0 i s s []
| run_epoch k i s s1 s2 losses acc out :
    epoch_run s s1 losses acc -> training_run freq k (S i) s1 s2 out ->
    training_run freq (S k) i s s2 (epoch_lines i n freq losses acc ++ out).
End Epoch.

(** ** The programs *)
(** A way to create one of the library's optimizers. *)
Inductive new_optimizer : (pmap -> optimizer) -> Prop :=
| new_sgd lr : new_optimizer (fun _ => SGD lr)
| new_sgdm lr gamma : new_optimizer (new_momentum lr gamma)
| new_ad lr b1 b2 eps t : new_optimizer (new_adam lr b1 b2 eps t).

(** A generator of indices delivers numbers in the range asked for, and within [fuel] draws [n] different ones. *)
Definition in_range {G} (next : G -> Z -> Z * G) : Prop := forall g ub, (0 <= ub)%Z -> (0 <= fst (next g ub) <= ub)%Z.
Definition enough {G} (next : G -> Z -> Z * G) (fuel : nat) (n : nat) (size : Z) : Prop :=
  (Z.of_nat n <= size)%Z -> forall g, exists u, NoDup u /\ length u = n /\ incl u (draws next fuel (size - 1) g).

(** The state before the first epoch: the model just compiled, every layer in its initial state. *)
Definition at_start (I : nat -> ienv) (n c : nat) (rest : list nat) (t : list row) (m : model) (infos : list linfo) (make_opt : pmap -> optimizer) (s : loop) : Prop :=
  exists b P, s = mkLoop (mkTS infos (Some b) (make_opt (params_view m infos))) (mkCE [] []) P P /\ ten_ok [n; c] P /\
    forall j r, nth_error t j = Some r -> needed (es_ph (expression I (n :: rest) t)) [length t] (S j) ->
      produces m infos b (S j) (start (I j) (r_layer r) (r_in r)).

(** A sample program: how it builds its network and its optimizer; the network as a table, the shape of the
    samples and the number of classes; how many numbers a batch takes up for each sample. *)
Record sample_program := mkSample {
  sp_net : (nat -> ienv) -> Z -> prog (nat * nat); sp_opt : pmap -> optimizer;
  sp_table : nat -> list row; sp_rest : list nat; sp_classes : nat; sp_room : Z }.
Definition mnist := mkSample mnist_net sample_momentum mnist_table [784] 10 784.
Definition iris := mkSample iris_net sample_momentum iris_table [4] 3 100.
Definition cifar10 := mkSample cifar10_net sample_adam cifar10_table [3; 32; 32] 10 65536.
Definition cifar100 := mkSample cifar100_net sample_momentum cifar100_table [3; 32; 32] 100 16384.
