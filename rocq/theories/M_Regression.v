(** Training a classifier that is one Linear layer with Softmax (multinomial regression) by the training loop
    of the samples: forward, loss, backward, optimizer step for each batch. *)
From Coq Require Import Reals String.
From Verif Require Import Base Sums M_Im2col M_Kernels M_Conv M_Layers M_Loss M_Optim.
Open Scope R_scope.

(** Values of a gradient tensor all of whose elements have been written (loss.cpp:38-66 writes all of them). *)
Fixpoint written (l : list (option R)) : res (list R) :=
  match l with
  | [] => Ok []
  | Some v :: l => r <- written l ;; Ok (v :: r)
  | None :: _ => UB
  end.

(** samples/iris/main.cpp:88-90, samples/mnist/main.cpp:88-90: model.forward(X, predict) and
    criterion.forward(predict, y) for the network of one Linear layer and Softmax.  Simplified: the tensors
    between the layers are fresh (their old contents do not matter, C16 and C18), and so is the loss object. *)
Definition regression_loss (E : env) (W b : prm) (x target : ten) : res R :=
  '(w0, _) <- dims2 (p_data W) ;; n <- dim0 x ;;
  '(_, z) <- lforward E (LLinear W b) [x] [zeros_like [n; w0]] ;;
  '(_, p) <- lforward E LSoftmax [z] [zeros_like [n; w0]] ;;
  '(_, l) <- ce_forward E ce_new p target ;;
  match l with Some v => Ok v | None => UB end.

(** samples/iris/main.cpp:88-93, samples/mnist/main.cpp:88-93: one iteration; as above, then criterion.backward(predict, y, grad_output), model.backward(X, predict,
    grad_output) and opt.step() with SGD (src/runtime/cpu/cpubackend.cpp: backward first sets the gradients
    between the layers to zero). *)
Definition regression_step (E : env) (lr : R) (W b : prm) (x target : ten) : res (prm * prm * R) :=
  '(w0, _) <- dims2 (p_data W) ;; n <- dim0 x ;;
  '(_, z) <- lforward E (LLinear W b) [x] [zeros_like [n; w0]] ;;
  '(_, p) <- lforward E LSoftmax [z] [zeros_like [n; w0]] ;;
  '(_, l) <- ce_forward E ce_new p target ;;
  g <- ce_backward p target (zeros_like [n; w0]) ;;
  gv <- written g ;;
  '(_, gm) <- lbackward E LSoftmax [z] [p] [zeros_like [n; w0]; mkT [n; w0] gv] [0%nat] [1%nat] ;;
  gz <- front gm ;;
  L <- lupdate E (LLinear W b) [x] [gz] ;;
  match L, l with
  | LLinear W1 b1, Some v =>
      '(W2, _) <- sgd_one lr "weight" W1 tt ;; '(b2, _) <- sgd_one lr "bias" b1 tt ;; Ok (W2, b2, v)
  | _, _ => UB
  end.

(** samples/iris/main.cpp:86-94, samples/mnist/main.cpp:86-94: the loop over the batches; returns the final weights and the loss of each iteration. *)
Fixpoint regression_train (E : env) (lr : R) (W b : prm) (batches : list (ten * ten)) : res (prm * prm * list R) :=
  match batches with
  | [] => Ok (W, b, [])
  | (x, target) :: rest =>
      '(W1, b1, l) <- regression_step E lr W b x target ;;
      '(W2, b2, ls) <- regression_train E lr W1 b1 rest ;; Ok (W2, b2, l :: ls)
  end.

(** samples/iris/main.cpp:65-66,111-112, samples/mnist/main.cpp:65-66,111-112: model.forward(X, predict) and
    metric::accuracy(predict, y) of the test and validation loops. *)
Definition regression_accuracy (E : env) (W b : prm) (x target : ten) : res R :=
  '(w0, _) <- dims2 (p_data W) ;; n <- dim0 x ;;
  '(_, z) <- lforward E (LLinear W b) [x] [zeros_like [n; w0]] ;;
  '(_, p) <- lforward E LSoftmax [z] [zeros_like [n; w0]] ;;
  a <- accuracy E p target ;;
  match a with Some v => Ok v | None => UB end.

(** samples/iris/main.cpp:86-94, samples/mnist/main.cpp:86-94 with metric::accuracy (metrics.cpp:12-32) of the predictions of each
    iteration: the samples compute it in separate loops only (lines 65-66, 111-112), a user may in the loop itself. *)
Fixpoint train_accuracies (E : env) (lr : R) (W b : prm) (batches : list (ten * ten)) : res (list R) :=
  match batches with
  | [] => Ok []
  | (x, target) :: rest =>
      a <- regression_accuracy E W b x target ;;
      '(W1, b1, _) <- regression_step E lr W b x target ;;
      r <- train_accuracies E lr W1 b1 rest ;; Ok (a :: r)
  end.
