(** Model of src/loss.cpp, src/metrics.cpp and of the loss kernels of kernels.cpp:271-293.

    Arithmetic is over the reals.  A value that is not a finite number in the C++ program (logarithm of a
    non-positive number, division by zero) is [None].  Dimensions are natural numbers and index arithmetic
    does not overflow. *)
From Coq Require Import Reals Lra R_Ifp.
From Verif Require Import Base Sums M_Im2col M_Kernels M_Conv M_Layers.
Open Scope R_scope.

(** Extended arithmetic. *)
Definition xlog (x : R) : option R := if Rlt_dec 0 x then Some (ln x) else None.
Definition xdiv (x y : R) : option R := if Req_EM_T y 0 then None else Some (x / y).
Definition obind {A B} (x : option A) (f : A -> option B) : option B :=
  match x with Some a => f a | None => None end.
Fixpoint xsum (l : list (option R)) : option R :=
  match l with
  | [] => Some 0
  | x :: t => obind x (fun a => obind (xsum t) (fun b => Some (a + b)))
  end.

(** [static_cast<int>(x)]: truncation; undefined when the result does not fit. *)
Definition truncR (x : R) : Z := if Rlt_dec x 0 then Z.opp (Int_part (- x)) else Int_part x.
Definition cast_int (x : R) : res Z := if fits_int (truncR x) then Ok (truncR x) else UB.

(** kernels.cpp:275-281, MatchTargetTo1dMatrix *)
Definition match_target (target : list R) (batch_size n_classes : nat) : res (list Z) :=
  map_res (fun i => t <- rd target i ;; c <- cast_int t ;; Ok (c + Z.of_nat n_classes * Z.of_nat i)%Z) (seq 0 batch_size).

(** kernels.cpp:271-273, CPULog *)
Definition cpu_log (n m : nat) (X : list R) (LogX : list (option R)) : res (list (option R)) :=
  _ <- emap (n * m) X ;;
  _ <- (if (n * m <=? length LogX)%nat then Ok tt else UB) ;;
  Ok (tab (n * m) (fun i => xlog X.[i]) ++ skipn (n * m) LogX).

(** kernels.cpp:283-293, CPUNLLLoss; an index outside the map is undefined. *)
Definition nll_loss (n m : nat) (predictions : list (option R)) (target : list R) : res (option R) :=
  slice <- match_target target n m ;;
  vals <- map_res (fun k => if (k <? Z.of_nat (n * m))%Z then rdz predictions k else UB) slice ;;
  Ok (obind (xsum vals) (fun s => xdiv (- s) (INR n))).

(** loss.hpp, the member [log_predictions] (its elements may be non-finite). *)
Record ce := mkCE { ce_sh : list nat; ce_dat : list (option R) }.
Definition ce_new : ce := mkCE [] [].

(** The assertions of loss.cpp:14-22 and 40-49; returns (batch_size, n_classes). *)
Definition ce_dims (pred target : ten) : res (nat * nat) :=
  _ <- dw_assert (length (tsh pred) =? 2)%nat ;;
  '(n, m) <- dims2 pred ;;
  _ <- dw_assert (length (tsh target) =? 2)%nat ;;
  '(t0, t1) <- dims2 target ;;
  _ <- dw_assert (t0 =? n)%nat ;;
  _ <- dw_assert (t1 =? 1)%nat ;;
  Ok (n, m).

(** loss.cpp:13-37 *)
Definition ce_forward (E : env) (st : ce) (pred target : ten) : res (ce * option R) :=
  '(n, m) <- ce_dims pred target ;;
  _ <- emap (n * m) (tdat pred) ;; _ <- emap n (tdat target) ;;
  let st1 := if nshape_eqb (ce_sh st) (tsh pred) then st
             else mkCE (tsh pred) (tab (prodN (tsh pred)) (fun i => Some (e_junk E i))) in
  lg <- cpu_log n m (tdat pred) (ce_dat st1) ;;
  v <- nll_loss n m lg (tdat target) ;;
  Ok (mkCE (ce_sh st1) lg, v).

(** One element of loss.cpp:61: [grad(k) = -1 / prob(k)]. *)
Definition ce_write (n m : nat) (prob : list R) (k : Z) (g : list (option R)) : res (list (option R)) :=
  if (k <? Z.of_nat (n * m))%Z then
    p <- rdz prob k ;; wrz g k (xdiv (-1) p)
  else UB.

(** loss.cpp:39-64; the new contents of [grad_output]. *)
Definition ce_backward (pred target grad_output : ten) : res (list (option R)) :=
  _ <- dw_assert (length (tsh pred) =? 2)%nat ;;
  _ <- dw_assert (nshape_eqb (tsh grad_output) (tsh pred)) ;;
  '(n, m) <- ce_dims pred target ;;
  _ <- emap (n * m) (tdat pred) ;; _ <- emap n (tdat target) ;; _ <- emap (n * m) (tdat grad_output) ;;
  let g0 := tab (tot grad_output) (fun _ => Some 0) in
  slice <- match_target (tdat target) n m ;;
  g1 <- fold_res (ce_write n m (tdat pred)) slice g0 ;;
  Ok (map (fun x => obind x (fun v => xdiv v (INR n))) g1).

(** The index Eigen's [row(i).maxCoeff(&index)] returns; asserts that the row is not empty. *)
Definition row_argmax (E : env) (d : list R) (m i : nat) : res nat :=
  if (m =? 0)%nat then UB else Ok (e_amax E m (fun k => el d m i k)).

(** [acc += b] *)
Definition add_bool (acc : R) (b : bool) : R := acc + (if b then 1 else 0).
Definition reqb (x y : R) : bool := if Req_EM_T x y then true else false.

(** metrics.cpp:12-32; [pred_col == label] converts the index to float. *)
Definition accuracy (E : env) (y_pred y_true : ten) : res (option R) :=
  _ <- dw_assert (length (tsh y_pred) =? 2)%nat ;;
  '(rows, cols) <- dims2 y_pred ;;
  _ <- dw_assert (tot y_true =? rows)%nat ;;
  _ <- emap (rows * cols) (tdat y_pred) ;; _ <- emap rows (tdat y_true) ;;
  acc <- forr rows (fun i acc =>
           c <- row_argmax E (tdat y_pred) cols i ;;
           label <- rd (tdat y_true) i ;;
           Ok (add_bool acc (reqb (INR c) label))) 0 ;;
  Ok (xdiv acc (INR rows)).

(** metrics.cpp:34-53 *)
Definition accuracy_onehot (E : env) (y_pred y_true : ten) : res (option R) :=
  _ <- dw_assert (nshape_eqb (tsh y_true) (tsh y_pred)) ;;
  _ <- dw_assert (length (tsh y_pred) =? 2)%nat ;;
  '(rows, cols) <- dims2 y_pred ;;
  _ <- emap (rows * cols) (tdat y_pred) ;; _ <- emap (rows * cols) (tdat y_true) ;;
  acc <- forr rows (fun i acc =>
           c <- row_argmax E (tdat y_pred) cols i ;;
           l <- row_argmax E (tdat y_true) cols i ;;
           Ok (add_bool acc (c =? l)%nat)) 0 ;;
  Ok (xdiv acc (INR rows)).
