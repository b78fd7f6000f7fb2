(** Arithmetic of 32-bit floats with overflow, infinities and NaN.

    The expressions of M_Round get a third meaning, [fev]: every operation follows IEEE 754.  A result is
    rounded up, down or to nearest ([rnd]): the statements hold for every rounding mode.  Too large results
    become infinite.

    Simplifications: zero has no sign, so a number divided by zero may be either infinity; a product may also
    stay unrounded, as in a fused multiply-add; sums are added in any order and bracketing; what the library's
    exp and log give is an argument. *)
From Coq Require Import Reals Permutation.
From Verif Require Import Base Sums S_Float M_Im2col M_Kernels M_Conv M_Layers M_Optim M_Nn M_Graph M_Model M_Backend M_Round.
Open Scope R_scope.

Inductive flt := Fin (r : R) | Inf (neg : bool) | NaN.

(** A finite float; the largest one. *)
Definition isf (x : R) : Prop := exists z, float32 z /\ x = IZR z / 2 ^ 149.
Definition top : R := IZR ((2 ^ 24 - 1) * 2 ^ 253) / 2 ^ 149.

(** [r] may be the rounded [x]: no float lies between the two. *)
Definition rnd (x : R) (r : flt) : Prop :=
  match r with
  | Fin y => isf y /\ forall f, isf f -> (x <= f -> y <= f) /\ (f <= x -> f <= y)
  | Inf neg => top < Rabs x /\ if neg then x < 0 else 0 < x
  | NaN => False
  end.

Definition fopp (a : flt) : flt := match a with Fin x => Fin (- x) | Inf s => Inf (negb s) | NaN => NaN end.
Definition fadd (a b r : flt) : Prop :=
  match a, b with
  | NaN, _ | _, NaN => r = NaN
  | Fin x, Fin y => rnd (x + y) r
  | Inf s, Inf t => r = if Bool.eqb s t then Inf s else NaN
  | Inf s, Fin _ | Fin _, Inf s => r = Inf s
  end.
Definition fsub (a b r : flt) : Prop := fadd a (fopp b) r.
Definition fmul (a b r : flt) : Prop :=
  match a, b with
  | NaN, _ | _, NaN => r = NaN
  | Fin x, Fin y => rnd (x * y) r \/ r = Fin (x * y)
  | Inf s, Inf t => r = Inf (xorb s t)
  | Inf s, Fin y | Fin y, Inf s => r = if Req_EM_T y 0 then NaN else Inf (xorb s (ltb y 0))
  end.
Definition fdiv (a b r : flt) : Prop :=
  match a, b with
  | NaN, _ | _, NaN => r = NaN
  | Fin x, Fin y => if Req_EM_T y 0 then (if Req_EM_T x 0 then r = NaN else exists s, r = Inf s) else rnd (x / y) r
  | Inf s, Inf t => r = NaN
  | Inf s, Fin y => if Req_EM_T y 0 then exists t, r = Inf t else r = Inf (xorb s (ltb y 0))
  | Fin _, Inf _ => r = Fin 0
  end.
Definition fsqrt (a r : flt) : Prop :=
  match a with
  | Fin x => if ltb x 0 then r = NaN else rnd (sqrt x) r
  | Inf false => r = Inf false
  | _ => r = NaN
  end.
(** Comparison is false when a NaN takes part. *)
Definition flt_ltb (a b : flt) : bool :=
  match a, b with
  | Fin x, Fin y => ltb x y
  | Inf true, Fin _ | Inf true, Inf false | Fin _, Inf false => true
  | _, _ => false
  end.
(** [r] is the largest of [n] values; with a NaN among them it may be anything. *)
Definition fmax (n : nat) (xs : nat -> flt) (r : flt) : Prop :=
  (exists k, (k < n)%nat /\ xs k = NaN) \/
  exists k, (k < n)%nat /\ r = xs k /\ forall j, (j < n)%nat -> flt_ltb r (xs j) = false.

Inductive ftree := FLeaf (x : flt) | FNode (a b : ftree).
Fixpoint fleaves (t : ftree) : list flt :=
  match t with FLeaf x => [x] | FNode a b => (fleaves a ++ fleaves b)%list end.
Fixpoint fadded (t : ftree) (r : flt) : Prop :=
  match t with
  | FLeaf x => r = x
  | FNode a b => exists x y, fadded a x /\ fadded b y /\ fadd x y r
  end.
Definition fsummed (l : list flt) (r : flt) : Prop :=
  match l with [] => r = Fin 0 | _ => exists t, Permutation l (fleaves t) /\ fadded t r end.

(** The possible values of an expression; [lib] relates arguments and results of exp. *)
Fixpoint fev (lib : flt -> flt -> Prop) (v : nat -> nat -> flt) (e : ex) (r : flt) : Prop :=
  match e with
  | EVar a i => r = v a i
  | EConst x => r = Fin x
  | EInt n => rnd (INR n) r
  | EAdd a b => exists x y, fev lib v a x /\ fev lib v b y /\ fadd x y r
  | ESub a b => exists x y, fev lib v a x /\ fev lib v b y /\ fsub x y r
  | EMul a b => exists x y, fev lib v a x /\ fev lib v b y /\ fmul x y r
  | EDiv a b => exists x y, fev lib v a x /\ fev lib v b y /\ fdiv x y r
  | EExp a => exists x, fev lib v a x /\ lib x r
  | ESqrt a => exists x, fev lib v a x /\ fsqrt x r
  | EIf a b c d => exists x y, fev lib v a x /\ fev lib v b y /\ if flt_ltb x y then fev lib v c r else fev lib v d r
  | ESum n f => exists xs, (forall k, (k < n)%nat -> fev lib v (f k) (xs k)) /\ fsummed (tab n xs) r
  | EMax n f => exists xs, (forall k, (k < n)%nat -> fev lib v (f k) (xs k)) /\ fmax n xs r
  end.

(** ** Tensors of floats *)
Record ften := mkFT { fsh : list nat; fdat : list flt }.
Definition fnth (l : list flt) (i : nat) : flt := nth i l (Fin 0).
Definition fvalues (xs : list ften) (a i : nat) : flt := fnth (fdat (nth a xs (mkFT [] []))) i.
(** The tensor of floats with these finite elements. *)
Definition lift (t : ten) : ften := mkFT (tsh t) (map Fin (tdat t)).

(** kernels.cpp:34-37: the matrix of exponentials is computed once, then its elements are divided by the sums of their rows. *)
Definition softmax_exp_ex (m q : nat) : ex := EExp (ESub (EVar 0 q) (EMax m (fun k => EVar 0 (q / m * m + k)))).
Definition fsoftmax (lib : flt -> flt -> Prop) (v : nat -> nat -> flt) (n m : nat) (out : nat -> flt) : Prop :=
  exists es, (forall q, (q < n * m)%nat -> fev lib v (softmax_exp_ex m q) (es q)) /\
    forall q, (q < n * m)%nat -> exists s, fsummed (tab m (fun k => es (q / m * m + k)%nat)) s /\ fdiv (es q) s (out q).

(** kernels.cpp:295-316: the centred values are computed once ([cs], a matrix of [n] rows and [m] columns); variable 1 of
    [bn_out_ex].  [row], [col]: where element [p] of the output is in that matrix. *)
Definition bn_cent_ex (n : nat) (at_ : nat -> nat -> nat) (training : bool) (rmean : list R) (i j : nat) : ex :=
  ESub (EVar 0 (at_ i j)) (if training then EDiv (ESum n (fun i => EVar 0 (at_ i j))) (EInt n) else EConst rmean.[j]).
Definition bn_out_ex (n m : nat) (training : bool) (eps : R) (gamma beta rvar : list R) (i j : nat) : ex :=
  let var := if training then EDiv (ESum n (fun i => EMul (EVar 1 (i * m + j)) (EVar 1 (i * m + j)))) (EInt n) else EConst rvar.[j] in
  EAdd (EMul (EVar 1 (i * m + j)) (EDiv (EConst gamma.[j]) (ESqrt (EAdd var (EConst eps))))) (EConst beta.[j]).
Definition fbn (lib : flt -> flt -> Prop) (v : nat -> nat -> flt) (n m : nat) (at_ : nat -> nat -> nat) (training : bool) (eps : R)
               (gamma beta rmean rvar : list R) (row col : nat -> nat) (total : nat) (out : nat -> flt) : Prop :=
  exists cs, length cs = (n * m)%nat /\
    (forall i j, (i < n)%nat -> (j < m)%nat -> fev lib v (bn_cent_ex n at_ training rmean i j) (fnth cs (i * m + j))) /\
    forall p, (p < total)%nat ->
      fev lib (fun a q => if (a =? 1)%nat then fnth cs q else v a q) (bn_out_ex n m training eps gamma beta rvar (row p) (col p)) (out p).

(** [t] may be the output of the layer. *)
Definition fcomputes (lib : flt -> flt -> Prop) (E : env) (L : layer) (xs : list ften) (sh : list nat) (t : ften) : Prop :=
  fsh t = sh /\ length (fdat t) = prodN sh /\
  match L, map fsh xs, sh with
  | LSoftmax, _, [n; m] => fsoftmax lib (fvalues xs) n m (fnth (fdat t))
  | LBN1 eps _ gamma beta _ rm rv _, [[n; m]], _ =>            (* cpubatchnorm1d.cpp:26-69 *)
      fbn lib (fvalues xs) n m (fun i j => i * m + j)%nat (p_train gamma) eps (tdat (p_data gamma)) (tdat (p_data beta)) (tdat rm) (tdat rv)
          (fun p => p / m)%nat (fun p => p mod m)%nat (prodN sh) (fnth (fdat t))
  | LBN2 eps _ gamma beta _ rm rv _ _ _, [[N; C; H; W]], _ =>  (* cpubatchnorm2d.cpp:26-74 *)
      fbn lib (fvalues xs) (N * H * W) C (nchw_at C (H * W)) (p_train gamma) eps (tdat (p_data gamma)) (tdat (p_data beta)) (tdat rm) (tdat rv)
          (fun p => p / (H * W) / C * (H * W) + p mod (H * W))%nat (fun p => (p / (H * W)) mod C)%nat (prodN sh) (fnth (fdat t))
  | _, _, _ => forall p, (p < prodN sh)%nat -> fev lib (fvalues xs) (layer_ex E L (map fsh xs) sh p) (fnth (fdat t) p)
  end.

(** ** Loss, gradients and step *)
(** kernels.cpp:283-293, from the logarithms of the labelled predictions; -x is written 0 - x. *)
Definition loss_ex (rows : nat) : ex := EDiv (ESub (EConst 0) (ESum rows (fun i => EVar 0 i))) (EInt rows).
(** loss.cpp:13-37, kernels.cpp:271-293: [rows] rows of [m] predictions; [label i] is the class of row [i].  [lg]: the
    library's log; there is no exp. *)
Definition floss (lg : flt -> flt -> Prop) (rows m : nat) (pred : nat -> flt) (label : nat -> nat) (r : flt) : Prop :=
  exists ls, (forall i, (i < rows)%nat -> lg (pred (i * m + label i)%nat) (ls i)) /\ fev (fun _ _ => False) (fun _ => ls) (loss_ex rows) r.
(** loss.cpp:53-63; variable 0: the predictions. *)
Definition loss_grad_ex (rows m : nat) (label : nat -> nat) (p : nat) : ex :=
  EDiv (if (p mod m =? label (p / m))%nat then EDiv (EConst (-1)) (EVar 0 p) else EConst 0) (EInt rows).
(** kernels.cpp:39-42; variables: 0 the output, 1 its gradient, 2 the gradient of the input so far. *)
Definition softmax_grad_ex (m : nat) (p : nat) : ex :=
  let i := (p / m)%nat in
  EAdd (EVar 2 p) (EMul (EVar 0 p) (ESub (EVar 1 p) (ESum m (fun k => EMul (EVar 1 (i * m + k)) (EVar 0 (i * m + k)))))).
(** kernels.cpp:26-28: element [p] of the weight gradients of Linear with [K] inputs, [m] outputs and [rows] rows;
    variables: 0 the input, 1 the gradient of the output. *)
Definition linear_grad_ex (rows K m : nat) (p : nat) : ex :=
  ESum rows (fun i => EMul (EVar 1 (i * m + p / K)) (EVar 0 (i * K + p mod K))).
(** optimizer.cpp:15-32; variables: 0 the parameter, 1 its gradient. *)
Definition sgd_ex (lr : R) (p : nat) : ex := ESub (EVar 0 p) (EMul (EConst lr) (EVar 1 p)).

(** kernels.cpp:30-32: element [p] of the bias gradients. *)
Definition bias_grad_ex (rows m : nat) (p : nat) : ex := ESum rows (fun i => EVar 1 (i * m + p)).

(** The elements of the given arrays. *)
Definition among (fs : list (nat -> flt)) (a i : nat) : flt := nth a fs (fun _ => Fin 0) i.

(** What one step of training does in the last Linear layer, before Softmax and CrossEntropyLoss: [rows] samples,
    [K] inputs and [m] classes.  [prob] is what Softmax gave, [gin] the gradient of its input, which starts at zero
    (cpubackend.cpp:103-115), [input] the input of the Linear layer, [w] and [b] its weights and bias before the step,
    [w'] and [b'] after it.  In the order of the program: loss.cpp:39-64, cpusoftmax.cpp:25-36, cpulinear.cpp:66-83 and
    optimizer.cpp:15-32. *)
Definition last_step (lib : flt -> flt -> Prop) (rows K m : nat) (label : nat -> nat) (lr : R) (prob input w b gin w' b' : nat -> flt) : Prop :=
  exists gout dW db,
    (forall p, (p < rows * m)%nat -> fev lib (among [prob]) (loss_grad_ex rows m label p) (gout p)) /\
    (forall p, (p < rows * m)%nat -> fev lib (among [prob; gout]) (softmax_grad_ex m p) (gin p)) /\
    (forall p, (p < m * K)%nat -> fev lib (among [input; gin]) (linear_grad_ex rows K m p) (dW p)) /\
    (forall p, (p < m)%nat -> fev lib (among [input; gin]) (bias_grad_ex rows m p) (db p)) /\
    (forall p, (p < m * K)%nat -> fev lib (among [w; dW]) (sgd_ex lr p) (w' p)) /\
    (forall p, (p < m)%nat -> fev lib (among [b; db]) (sgd_ex lr p) (b' p)).

(** ** Training a multilayer perceptron *)
(** kernels.cpp:20-24: element [p] of the gradient of Linear's input, [K] inputs and [m] outputs; variables: 0 the
    weights, 1 the gradient of the output, 2 the gradient of the input so far.  Eigen adds the products to the old value in
    any order. *)
Definition linear_input_ex (K m : nat) (p : nat) : ex :=
  ESum (S m) (fun j => match j with O => EVar 2 p | S j => EMul (EVar 1 (p / K * m + j)) (EVar 0 (j * K + p mod K)) end).
(** kernels.cpp:48-52; variables: 0 the input, 1 the gradient of the output, 2 the gradient of the input so far. *)
Definition relu_grad_ex (p : nat) : ex := EAdd (EVar 2 p) (EIf (EConst 0) (EVar 0 p) (EVar 1 p) (EConst 0)).

(** A Linear layer in a step: numbers of inputs and outputs, its input, weights and bias before and after the step.
    [s_pre]: the input of the ReLU before it (of no importance for the first layer). *)
Record stage := mkStage { s_in : nat; s_out : nat; s_x : nat -> flt; s_w : nat -> flt; s_b : nat -> flt;
                          s_w' : nat -> flt; s_b' : nat -> flt; s_pre : nat -> flt }.
(** The layers from the last to the first; [g]: the gradient of the output of the first in the list, [m] wide.
    cpubackend.cpp:117-147 in the order of the layers, gradients of inputs starting at zero (103-115); cpulinear.cpp:46-83,
    cpurelu.cpp:24-35; then optimizer.cpp:15-32. *)
Fixpoint linear_steps (lib : flt -> flt -> Prop) (rows : nat) (lr : R) (m : nat) (g : nat -> flt) (l : list stage) : Prop :=
  match l with
  | [] => True
  | s :: t =>
      s_out s = m /\
      exists dW db gx gz,
        (forall p, (p < m * s_in s)%nat -> fev lib (among [s_x s; g]) (linear_grad_ex rows (s_in s) m p) (dW p)) /\
        (forall p, (p < m)%nat -> fev lib (among [s_x s; g]) (bias_grad_ex rows m p) (db p)) /\
        (forall p, (p < m * s_in s)%nat -> fev lib (among [s_w s; dW]) (sgd_ex lr p) (s_w' s p)) /\
        (forall p, (p < m)%nat -> fev lib (among [s_b s; db]) (sgd_ex lr p) (s_b' s p)) /\
        (forall p, (p < rows * s_in s)%nat -> fev lib (among [s_w s; g]) (linear_input_ex (s_in s) m p) (gx p)) /\
        (forall p, (p < rows * s_in s)%nat -> fev lib (among [s_pre s; gx]) (relu_grad_ex p) (gz p)) /\
        linear_steps lib rows lr (s_in s) gz t
  end.
(** The whole step for a network Linear, ReLU, ..., Linear, Softmax with CrossEntropyLoss; [prob]: the output. *)
Definition mlp_step (lib : flt -> flt -> Prop) (rows m : nat) (label : nat -> nat) (lr : R) (prob : nat -> flt) (l : list stage) : Prop :=
  exists gout gin,
    (forall p, (p < rows * m)%nat -> fev lib (among [prob]) (loss_grad_ex rows m label p) (gout p)) /\
    (forall p, (p < rows * m)%nat -> fev lib (among [prob; gout]) (softmax_grad_ex m p) (gin p)) /\
    linear_steps lib rows lr m gin l.
