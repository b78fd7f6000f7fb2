(** Model of the sample programs samples/mnist/main.cpp, samples/iris/main.cpp, samples/cifar10/main.cpp and
    samples/cifar100/main.cpp: the networks they build, training with validation, and validation alone.  The
    four [main] functions differ in the network, the optimizer and the dataset only.

    Simplifications: command line arguments are already parsed; what [main] prints is a list of lines with
    exact values; a float that is not finite is [None].  A loop that is still running after [turns]
    iterations, or a search for random indices after [fuel] draws, is the outcome [FEndless]; a training
    iteration whose loss gradient is not finite is not followed further ([FInfinite]). *)
From Coq Require Import Reals String.
From Verif Require Import Base Sums M_Tensor M_Kernels M_Layers M_Optim M_Loss M_Nn M_Graph M_Model M_Backend M_DataLoader M_Train.
Open Scope string_scope.
Open Scope nat_scope.

(** ** The networks *)
(** Building an expression, statement by statement; the first exception ends it. *)
Definition prog (A : Type) := estore -> outcome A.
Definition pret {A} (a : A) : prog A := fun es => RVal es a.
Definition pbind {A B} (p : prog A) (f : A -> prog B) : prog B :=
  fun es => match p es with RVal es1 a => f a es1 | RExc es1 => RExc es1 | RBad => RBad end.
Notation "'do' x <- p ;; q" := (pbind p (fun x => q)) (at level 60, x name, p at next level, right associativity).

(** [dw::Placeholder in(shape)] *)
Definition p_input (s : shape) : prog nat := fun es => let '(es1, p) := new_input s es in RVal es1 p.
(** [dw::Linear(100, "linear0")(out)]: a layer object is created and applied at once.  [I j] is what
    initialising the [j]-th layer object obtains. *)
Definition p_layer (I : nat -> ienv) (k : kind) (li : linfo) (args : list nat) : prog nat :=
  fun es => let '(es1, i) := new_op li es in apply_op k (I i) i args es1.
(** [x.shape()[j]] *)
Definition p_dim (x j : nat) : prog Z :=
  fun es => match (p <- rd (es_ph es) x ;; dim (ph_shape p) j) with Ok z => RVal es z | Throw => RExc es | UB => RBad end.

(** mnist/main.cpp:9-22 ([buildMNISTModel]) and iris/main.cpp:9-22 ([buildIrisModel]): a perceptron with one
    hidden layer; they differ in [in_features] and [out_features]. *)
Definition perceptron (in_features out_features : Z) (I : nat -> ienv) (batch_size : Z) : prog (nat * nat) :=
  do i <- p_input [batch_size; in_features] ;;
  do o <- p_layer I KLinear (Linear 100 "linear0") [i] ;;
  do o <- p_layer I KReLU (ReLU "relu1") [o] ;;
  do o <- p_layer I KBN1 (BatchNorm1D (1 / 1000)%R (5 / 100)%R "batchnorm1d") [o] ;;
  do o <- p_layer I KLinear (Linear out_features "linear2") [o] ;;
  do o <- p_layer I KSoftmax (Softmax "softmax3") [o] ;;
  pret (i, o).
Definition mnist_net := perceptron (28 * 28) 10.
Definition iris_net := perceptron 4 3.

(** cifar10/main.cpp:9-43, [buildCIFAR10Model] *)
Definition cifar10_net (I : nat -> ienv) (batch_size : Z) : prog (nat * nat) :=
  let kernel_conv := (5, 5)%Z in let padding_conv := (2, 2)%Z in let stride_conv := (1, 1)%Z in
  let kernel_pool := (2, 2)%Z in let padding_pool := (0, 0)%Z in let stride_pool := (2, 2)%Z in
  do i <- p_input [batch_size; 3; 32; 32]%Z ;;
  do o <- p_layer I KConv (Convolution 64 kernel_conv padding_conv stride_conv "conv1") [i] ;;
  do o <- p_layer I KMaxPool (MaxPooling kernel_pool padding_pool stride_pool "pool2") [o] ;;
  do o <- p_layer I KReLU (ReLU "relu3") [o] ;;
  do o <- p_layer I KConv (Convolution 64 kernel_conv padding_conv stride_conv "conv4") [o] ;;
  do o <- p_layer I KMaxPool (MaxPooling kernel_pool padding_pool stride_pool "pool5") [o] ;;
  do o <- p_layer I KReLU (ReLU "relu6") [o] ;;
  do o <- p_layer I KLinear (Linear 384 "linear7") [o] ;;
  do o <- p_layer I KReLU (ReLU "relu8") [o] ;;
  do o <- p_layer I KBN1 (BatchNorm1D (1 / 1000)%R (5 / 100)%R "batchnorm1d9") [o] ;;
  do o <- p_layer I KLinear (Linear 192 "linear10") [o] ;;
  do o <- p_layer I KReLU (ReLU "relu11") [o] ;;
  do o <- p_layer I KBN1 (BatchNorm1D (1 / 1000)%R (5 / 100)%R "batchnorm1d12") [o] ;;
  do o <- p_layer I KLinear (Linear 10 "linear13") [o] ;;
  do o <- p_layer I KSoftmax (Softmax "softmax14") [o] ;;
  pret (i, o).

(** cifar100/main.cpp:9-27, [create_basic_block]; BatchNorm2D with the defaults of nn.hpp. *)
Definition bn2d : linfo := BatchNorm2D (1 / 100000)%R (1 / 10)%R "".
Definition conv3x3 (c_out stride : Z) : linfo := Convolution c_out (3, 3)%Z (1, 1)%Z (stride, stride) "".
Definition create_basic_block (I : nat -> ienv) (x : nat) (c_out stride : Z) (downsample : bool) : prog nat :=
  do o <- p_layer I KConv (conv3x3 c_out stride) [x] ;;
  do o <- p_layer I KBN2 bn2d [o] ;;
  do o <- p_layer I KReLU (ReLU "") [o] ;;
  do o <- p_layer I KConv (conv3x3 c_out 1) [o] ;;
  do o <- p_layer I KBN2 bn2d [o] ;;
  do x <- (if downsample then do x <- p_layer I KConv (conv3x3 c_out stride) [x] ;; p_layer I KBN2 bn2d [x] else pret x) ;;
  do x <- p_layer I KAdd (Add "") [o; x] ;;
  p_layer I KReLU (ReLU "") [x].

(** cifar100/main.cpp:29-37, [make_layer] *)
Definition two_blocks (I : nat -> ienv) (x : nat) (c_out stride : Z) : prog nat :=
  do c <- p_dim x 1 ;;
  let downsample := negb (stride =? 1)%Z || negb (c =? c_out)%Z in
  do x <- create_basic_block I x c_out stride downsample ;;
  create_basic_block I x c_out 1 false.

(** cifar100/main.cpp:39-57, [buildResnetModel] *)
Definition cifar100_net (I : nat -> ienv) (batch_size : Z) : prog (nat * nat) :=
  do i <- p_input [batch_size; 3; 32; 32]%Z ;;
  do o <- p_layer I KConv (conv3x3 16 1) [i] ;;
  do o <- p_layer I KBN2 bn2d [o] ;;
  do o <- p_layer I KReLU (ReLU "") [o] ;;
  do o <- two_blocks I o 16 1 ;;
  do o <- two_blocks I o 32 2 ;;
  do o <- two_blocks I o 64 2 ;;
  do o <- p_layer I KGap (GlobalAvgPooling "") [o] ;;
  do o <- p_layer I KLinear (Linear 100 "") [o] ;;
  do o <- p_layer I KSoftmax (Softmax "") [o] ;;
  pret (i, o).

(** [return {in, out}] *)
Definition p_model (order : graph -> list gnode) (net : prog (nat * nat)) : prog model :=
  do io <- net ;; construct_model order [fst io] [snd io].

(** mnist/main.cpp:50, iris/main.cpp:50, cifar100/main.cpp:86 and cifar10/main.cpp:72, with the defaults of
    optimizer.hpp:26, 44-45: what the optimizer is created with. *)
Definition sample_momentum (ps : pmap) : optimizer := new_momentum (1 / 100)%R (9 / 10)%R ps.
Definition sample_adam (ps : pmap) : optimizer := new_adam (1 / 1000)%R (9 / 10)%R (999 / 1000)%R (1 / 1000)%R 0 ps.

(** ** Training and validation *)
Inductive line := Epoch (i : nat) | Loss (v : option R) | Accuracy (v : option R) | Saved.

(** How a program ends. *)
Inductive fate (A : Type) := FDone (a : A) | FThrow | FUndefined | FEndless | FInfinite.
Arguments FDone {A} a. Arguments FThrow {A}. Arguments FUndefined {A}. Arguments FEndless {A}. Arguments FInfinite {A}.
Definition fbind {A B} (r : fate A) (f : A -> fate B) : fate B :=
  match r with FDone a => f a | FThrow => FThrow | FUndefined => FUndefined | FEndless => FEndless | FInfinite => FInfinite end.

(** The tensor a loader has filled, as the model sees it. *)
Definition ten_of (t : tv R) : ten := mkT (map Z.to_nat (v_shape t)) (v_data t).

(** Floats: [a += b], and [a / n] for an [int] [n]. *)
Definition fadd (a b : option R) : option R := match a, b with Some x, Some y => Some (x + y)%R | _, _ => None end.
Definition fdiv (a : option R) (n : Z) : option R := match a with Some x => xdiv x (IZR n) | None => None end.

(** What one iteration of a loop obtains from outside. *)
Record outside := mkOut { o_jx : nat -> R; o_jy : nat -> R; o_fwd : nat -> env; o_bwd : nat -> env; o_loss : env; o_acc : env }.

Section Main.
Context {D1 D2 G : Type}.
Variable next : G -> Z -> Z * G.
Variable iter_order : list Z -> list Z.
Variables fuel turns : nat.
Variable world : nat -> outside.
Variable m : model.
Variables batch_size freq : Z.
Variable train_set : dataset R D1.
Variable test_set : dataset R D2.

(** The variables of [main]: model, optimizer, criterion, [predict] and [grad_output]; [X] and [y]; the two
    loaders; how many batches were asked for so far; what was printed. *)
Record vars := mkVars { v_loop : loop; v_X : tv R; v_y : tv R; v_train : loader D1 G; v_val : loader D2 G; v_tick : nat; v_out : list line }.
Definition print (l : line) (s : vars) : vars :=
  mkVars (v_loop s) (v_X s) (v_y s) (v_train s) (v_val s) (v_tick s) (v_out s ++ [l])%list.

(** [model.train(mode)], mnist/main.cpp:59, 81, 104 *)
Definition set_mode (mode : bool) (s : vars) : vars :=
  let ts := l_ts (v_loop s) in
  mkVars (mkLoop (mkTS (model_train mode m (ts_info ts)) (ts_backend ts) (ts_opt ts)) (l_crit (v_loop s)) (l_pred (v_loop s)) (l_grad (v_loop s)))
         (v_X s) (v_y s) (v_train s) (v_val s) (v_tick s) (v_out s).

(** mnist/main.cpp:86-98, cifar10/main.cpp:108-120, the training loop. *)
Fixpoint train_while (k : nat) (loss : option R) (train_iter : Z) (s : vars) : fate (vars * option R * Z) :=
  match k with
  | O => FEndless
  | S k =>
      let w := world (v_tick s) in
      match pull next iter_order fuel train_set batch_size true (v_train s) (v_X s) (v_y s) (o_jx w) (o_jy w) with
      | PRet false l X y => FDone (mkVars (v_loop s) X y l (v_val s) (S (v_tick s)) (v_out s), loss, train_iter)
      | PRet true l X y =>
          match train_iteration m (o_fwd w) (o_bwd w) (o_loss w) (ten_of X) (ten_of y) (v_loop s) with
          | Ret (Some (lp, v)) =>
              let loss := fadd loss v in
              let train_iter := (train_iter + 1)%Z in
              let s := mkVars lp X y l (v_val s) (S (v_tick s)) (v_out s) in
              if negb (fits_int (train_iter * batch_size)) then FUndefined else
              if (freq =? 0)%Z then FUndefined else
              train_while k loss train_iter
                (if (Z.rem (train_iter * batch_size) freq =? 0)%Z then print (Loss (fdiv loss train_iter)) s else s)
          | Ret None => FInfinite
          | Exc _ => FThrow
          | Bad => FUndefined
          end
      | PExc _ _ _ => FThrow
      | PBad => FUndefined
      | PRun => FEndless
      end
  end.

(** mnist/main.cpp:64-68, 109-113, the validation loop. *)
Fixpoint val_while (k : nat) (acc : option R) (val_iter : Z) (s : vars) : fate (vars * option R * Z) :=
  match k with
  | O => FEndless
  | S k =>
      let w := world (v_tick s) in
      match pull next iter_order fuel test_set batch_size false (v_val s) (v_X s) (v_y s) (o_jx w) (o_jy w) with
      | PRet false l X y => FDone (mkVars (v_loop s) X y (v_train s) l (S (v_tick s)) (v_out s), acc, val_iter)
      | PRet true l X y =>
          let lp := v_loop s in let ts := l_ts lp in
          match model_forward (o_fwd w) m (ts_info ts) (ts_backend ts) [ten_of X] [l_pred lp] with
          | Ret (infos, b, _, [p]) =>
              match accuracy (o_acc w) p (ten_of y) with
              | Ok a => val_while k (fadd acc a) (val_iter + 1)
                          (mkVars (mkLoop (mkTS infos b (ts_opt ts)) (l_crit lp) p (l_grad lp)) X y (v_train s) l (S (v_tick s)) (v_out s))
              | Throw => FThrow
              | UB => FUndefined
              end
          | Ret _ => FUndefined
          | Exc _ => FThrow
          | Bad => FUndefined
          end
      | PExc _ _ _ => FThrow
      | PBad => FUndefined
      | PRun => FEndless
      end
  end.

(** mnist/main.cpp:58-72, 103-117: evaluation mode, the loop, the average. *)
Definition validate (s : vars) : fate vars :=
  fbind (val_while turns (Some 0%R) 0 (set_mode false s)) (fun '(s, acc, val_iter) =>
  FDone (print (Accuracy (fdiv acc val_iter)) s)).

(** mnist/main.cpp:78-117, one epoch. *)
Definition epoch (i : nat) (s : vars) : fate vars :=
  fbind (train_while turns (Some 0%R) 0 (set_mode true (print (Epoch i) s))) (fun '(s, loss, train_iter) =>
  validate (print (Loss (fdiv loss train_iter)) s)).

(** mnist/main.cpp:77 *)
Fixpoint epochs (n i : nat) (s : vars) : fate vars :=
  match n with O => FDone s | S n => fbind (epoch i s) (epochs n (S i)) end.

End Main.

(** mnist/main.cpp:48-56, 75-76, what precedes the loops; the model's expression is [es], its layers [infos]. *)
Definition prepare {D1 D2 G} (ps : list phnode) (m : model) (infos : list linfo) (make_opt : pmap -> optimizer)
    (junk : nat -> R) (d1 : D1) (d2 : D2) (g : G) : fate (@vars D1 D2 G) :=
  match model_compile ps junk m infos None with
  | Ret b =>
      match (o <- rd (m_out m) 0 ;; p <- rd ps o ;; new_ten (ph_shape p) junk) with
      | Ok t =>
          FDone (mkVars (mkLoop (mkTS infos b (make_opt (params_view m infos))) (mkCE [] []) t t)
                        (mkTv [] []) (mkTv [] []) (mkLd 0 d1 g) (mkLd 0 d2 g) 0 [])
      | Throw => FThrow
      | UB => FUndefined
      end
  | Exc _ => FThrow
  | Bad => FUndefined
  end.

(** mnist/main.cpp:24-124 in mode "train", up to [dw::save]: the lines printed, and the model to be saved. *)
Definition train_main {D1 D2 G} (next : G -> Z -> Z * G) (iter_order : list Z -> list Z) (fuel turns : nat) (world : nat -> outside)
    (order : graph -> list gnode) (net : Z -> prog (nat * nat)) (make_opt : pmap -> optimizer)
    (batch_size num_epochs freq : Z) (train_set : dataset R D1) (test_set : dataset R D2)
    (junk : nat -> R) (d1 : D1) (d2 : D2) (g : G) : fate (list line * estore * model * list linfo) :=
  match p_model order (net batch_size) es0 with
  | RVal es m =>
      fbind (prepare (es_ph es) m (es_info es) make_opt junk d1 d2 g) (fun s =>
      fbind (epochs next iter_order fuel turns world m batch_size freq train_set test_set (Z.to_nat num_epochs) 0 s) (fun s =>
      FDone (v_out (print Saved s), es, m, ts_info (l_ts (v_loop s)))))
  | RExc _ => FThrow
  | RBad => FUndefined
  end.
