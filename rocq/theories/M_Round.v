(** The layers' forward passes in rounded arithmetic.

    What every element of a layer's output is computed from is written down as an expression, operation by
    operation as in the code.  An expression has two meanings: [ev], exact, and [rev], in which every
    operation is rounded.  [near u eta x y]: [y] may be the result of an operation whose exact result is [x];
    [u] bounds the relative error and [eta] the absolute error of results too small for full precision.
    [float] rounded to nearest has [u = 2^-24] and [eta = 2^-150] (C64_float32).  As [near] also admits the
    exact result, fused multiply-add and intermediate results of higher precision are included.

    Simplifications: all numbers that occur are finite ([rev] relates an expression to real numbers only);
    an addition of many numbers takes place in any order and bracketing, as Eigen vectorises it; where the
    code computes a value once and uses it several times, [rev] allows it to be computed again. *)
From Coq Require Import Reals Lra Permutation.
From Verif Require Import Base Sums M_Im2col S_Im2col M_Kernels M_Conv M_Layers.
Open Scope R_scope.

Definition near (u eta x y : R) : Prop := Rabs (y - x) <= u * Rabs x + eta.

(** A bracketing of a sum. *)
Inductive tree := Leaf (x : R) | Node (a b : tree).
Fixpoint leaves (t : tree) : list R :=
  match t with Leaf x => [x] | Node a b => leaves a ++ leaves b end.

(** [r] may be the result of the additions of [t]. *)
Fixpoint added (u eta : R) (t : tree) (r : R) : Prop :=
  match t with
  | Leaf x => r = x
  | Node a b => exists x y, added u eta a x /\ added u eta b y /\ near u eta (x + y) r
  end.

(** [r] may be the sum of the list, added up in some order. *)
Definition summed (u eta : R) (l : list R) (r : R) : Prop :=
  match l with [] => r = 0 | _ => exists t, Permutation l (leaves t) /\ added u eta t r end.

(** [EVar a i]: element [i] of input [a].  [EConst]: a float in memory or a literal.  [EInt]: an integer
    converted to float.  [EIf a b c d]: [a < b ? c : d].  [ESum], [EMax]: of [n] values. *)
Inductive ex :=
| EVar (a i : nat)
| EConst (r : R)
| EInt (n : nat)
| EAdd (a b : ex)
| ESub (a b : ex)
| EMul (a b : ex)
| EDiv (a b : ex)
| EExp (a : ex)
| ESqrt (a : ex)
| EIf (a b c d : ex)
| ESum (n : nat) (f : nat -> ex)
| EMax (n : nat) (f : nat -> ex).

(** The exact value. *)
Fixpoint ev (v : nat -> nat -> R) (e : ex) : R :=
  match e with
  | EVar a i => v a i
  | EConst r => r
  | EInt n => INR n
  | EAdd a b => ev v a + ev v b
  | ESub a b => ev v a - ev v b
  | EMul a b => ev v a * ev v b
  | EDiv a b => ev v a / ev v b
  | EExp a => exp (ev v a)
  | ESqrt a => sqrt (ev v a)
  | EIf a b c d => if ltb (ev v a) (ev v b) then ev v c else ev v d
  | ESum n f => rsum n (fun k => ev v (f k))
  | EMax n f => rmax n (fun k => ev v (f k))
  end.

(** The possible values in rounded arithmetic.  Maxima and comparisons are exact; a division by zero and the
    root of a negative number have no finite value. *)
Fixpoint rev (u eta : R) (v : nat -> nat -> R) (e : ex) (r : R) : Prop :=
  match e with
  | EVar a i => r = v a i
  | EConst x => r = x
  | EInt n => near u eta (INR n) r
  | EAdd a b => exists x y, rev u eta v a x /\ rev u eta v b y /\ near u eta (x + y) r
  | ESub a b => exists x y, rev u eta v a x /\ rev u eta v b y /\ near u eta (x - y) r
  | EMul a b => exists x y, rev u eta v a x /\ rev u eta v b y /\ near u eta (x * y) r
  | EDiv a b => exists x y, rev u eta v a x /\ rev u eta v b y /\ y <> 0 /\ near u eta (x / y) r
  | EExp a => exists x, rev u eta v a x /\ near u eta (exp x) r
  | ESqrt a => exists x, rev u eta v a x /\ 0 <= x /\ near u eta (sqrt x) r
  | EIf a b c d => exists x y, rev u eta v a x /\ rev u eta v b y /\ if ltb x y then rev u eta v c r else rev u eta v d r
  | ESum n f => exists xs, (forall k, (k < n)%nat -> rev u eta v (f k) (xs k)) /\ summed u eta (tab n xs) r
  | EMax n f => exists xs, (forall k, (k < n)%nat -> rev u eta v (f k) (xs k)) /\ (0 < n)%nat /\ r = rmax n xs
  end.

(** ** What the layers compute *)

(** kernels.cpp:12-18 (cpulinear.cpp:23-44): [X * W.transpose()], then the bias; [K] inputs, [m] outputs per row. *)
Definition linear_ex (K m : nat) (W b : list R) (p : nat) : ex :=
  let i := (p / m)%nat in let j := (p mod m)%nat in
  EAdd (ESum K (fun k => EMul (EVar 0 (i * K + k)) (EConst W.[j * K + k]))) (EConst b.[j]).

(** A cell of im2col's matrix (kernels.cpp:393-445): a pixel of plane [i], or the fill value. *)
Definition cell_ex (fill : R) (h w i : nat) (y x : Z) : ex :=
  if inside h w y x then EVar 0 (pixel h w i y x) else EConst fill.

(** kernels.cpp:107-116: product of the weights and im2col's matrix, then the bias. *)
Definition conv_ex (g : geom) (cin h w cout ho wo : nat) (W b : list R) (p : nat) : ex :=
  let j := (p mod (ho * wo))%nat in let r := (j / wo)%nat in let q := (j mod wo)%nat in
  let o := ((p / (ho * wo)) mod cout)%nat in let n := (p / (ho * wo) / cout)%nat in
  let rows := (cin * KH g * KW g)%nat in
  EAdd (ESum rows (fun k =>
          let c := (k / KW g / KH g)%nat in let a := ((k / KW g) mod KH g)%nat in let d := (k mod KW g)%nat in
          EMul (EConst W.[o * rows + k]) (cell_ex 0 h w (n * cin + c) (win_row g a r) (win_col g d q))))
       (EConst b.[o]).

(** kernels.cpp:220-230 *)
Definition maxpool_ex (g : geom) (h w ho wo : nat) (p : nat) : ex :=
  let j := (p mod (ho * wo))%nat in let r := (j / wo)%nat in let q := (j mod wo)%nat in
  let i := (p / (ho * wo))%nat in
  EMax (KH g * KW g) (fun k =>
    cell_ex flt_min h w i (win_row g (k / KW g) r) (win_col g (k mod KW g) q)).

(** kernels.cpp:34-37 *)
Definition softmax_ex (m : nat) (p : nat) : ex :=
  let i := (p / m)%nat in
  let e := fun k => EExp (ESub (EVar 0 (i * m + k)) (EMax m (fun k => EVar 0 (i * m + k)))) in
  EDiv (e (p mod m)%nat) (ESum m e).

(** kernels.cpp:366-375 *)
Definition gap_ex (plane : nat) (p : nat) : ex :=
  EDiv (ESum plane (fun j => EVar 0 (p * plane + j))) (EInt plane).

(** kernels.cpp:44-47, 54-57, 64-66, 73-75 *)
Definition relu_ex (p : nat) : ex := EIf (EConst 0) (EVar 0 p) (EVar 0 p) (EConst 0).
Definition leaky_ex (alpha : R) (p : nat) : ex :=
  EIf (EVar 0 p) (EConst 0) (EMul (EVar 0 p) (EConst alpha)) (EVar 0 p).
Definition elu_ex (alpha : R) (p : nat) : ex :=
  EIf (EVar 0 p) (EConst 0) (EMul (ESub (EExp (EVar 0 p)) (EConst 1)) (EConst alpha)) (EVar 0 p).
Definition sigmoid_ex (p : nat) : ex :=
  EDiv (EConst 1) (EAdd (EExp (EMul (EVar 0 p) (EConst (-1)))) (EConst 1)).

(** kernels.cpp:346-353 (cpudropout.cpp:18-31); evaluation mode copies. *)
Definition dropout_ex (training : bool) (rnd : nat -> R) (q : R) (p : nat) : ex :=
  if training then EDiv (if geb (rnd p) q then EVar 0 p else EConst 0) (ESub (EConst 1) (EConst q))
  else EVar 0 p.

(** kernels.cpp:295-316; [at_ i j] is where element (i, j) of the n x m matrix lies in the input. *)
Definition bn_ex (n : nat) (at_ : nat -> nat -> nat) (training : bool) (eps : R) (gamma beta rmean rvar : list R)
                 (i j : nat) : ex :=
  let mean := if training then EDiv (ESum n (fun i => EVar 0 (at_ i j))) (EInt n) else EConst rmean.[j] in
  let cent := fun i => ESub (EVar 0 (at_ i j)) mean in
  let var := if training then EDiv (ESum n (fun i => EMul (cent i) (cent i))) (EInt n) else EConst rvar.[j] in
  EAdd (EMul (cent i) (EDiv (EConst gamma.[j]) (ESqrt (EAdd var (EConst eps))))) (EConst beta.[j]).

(** NCHW2NHWC and NHWC2NCHW (kernels.cpp:500-540): where row [i], column [c] of BatchNorm2D's matrix is. *)
Definition nchw_at (C HW i c : nat) : nat := ((i / HW * C + c) * HW + i mod HW)%nat.

(** Element [p] of the output of a layer, for inputs of shapes [inshs] and an output of shape [osh]. *)
Definition layer_ex (E : env) (L : layer) (inshs : list (list nat)) (osh : list nat) (p : nat) : ex :=
  match L, inshs, osh with
  | LReLU, _, _ => relu_ex p
  | LSigmoid, _, _ => sigmoid_ex p
  | LLeaky a, _, _ => leaky_ex a p
  | LELU a, _, _ => elu_ex a p
  | LSoftmax, _, [_; m] => softmax_ex m p
  | LGap, [[_; _; h; w]], _ => gap_ex (h * w) p
  | LAdd, _, _ => EAdd (EVar 0 p) (EVar 1 p)                  (* kernels.cpp:542-548 *)
  | LLinear W b, [_ :: rest], [_; m] => linear_ex (prodN rest) m (tdat (p_data W)) (tdat (p_data b)) p
  | LConv g W b _, [[_; cin; h; w]], [_; cout; ho; wo] =>
      conv_ex g cin h w cout ho wo (tdat (p_data W)) (tdat (p_data b)) p
  | LMaxPool g _ _, [[_; _; h; w]], [_; _; ho; wo] => maxpool_ex g h w ho wo p
  | LDropout q mask, _, _ => dropout_ex (p_train mask) (e_rnd E) q p
  | LBN1 eps _ gamma beta _ rm rv _, [[n; m]], _ =>            (* cpubatchnorm1d.cpp:26-69 *)
      bn_ex n (fun i j => i * m + j)%nat (p_train gamma) eps (tdat (p_data gamma)) (tdat (p_data beta))
            (tdat rm) (tdat rv) (p / m) (p mod m)
  | LBN2 eps _ gamma beta _ rm rv _ _ _, [[N; C; H; W]], _ =>  (* cpubatchnorm2d.cpp:26-74 *)
      bn_ex (N * H * W) (nchw_at C (H * W)) (p_train gamma) eps (tdat (p_data gamma)) (tdat (p_data beta))
            (tdat rm) (tdat rv) (p / (H * W) / C * (H * W) + p mod (H * W)) ((p / (H * W)) mod C)
  | _, _, _ => EConst 0
  end.

(** The elements of the inputs. *)
Definition values (xs : list ten) (a i : nat) : R := (tdat (nth a xs empty_ten)).[i].

(** [t] may be the output of the layer in rounded arithmetic. *)
Definition rcomputes (u eta : R) (E : env) (L : layer) (xs : list ten) (sh : list nat) (t : ten) : Prop :=
  tsh t = sh /\ twf t /\
  forall p, (p < prodN sh)%nat -> rev u eta (values xs) (layer_ex E L (map tsh xs) sh p) (tdat t).[p].

(** ** A program that rounds with a function *)
(** Every operation rounded with [fl], sums bracketed as [pick] says: one of the ways [rev] allows.  [None]: a
    division by zero or the root of a negative number. *)
Fixpoint fl_added (fl : R -> R) (t : tree) : R :=
  match t with Leaf x => x | Node a b => fl (fl_added fl a + fl_added fl b) end.
Fixpoint all_some (n : nat) (f : nat -> option R) : option (list R) :=
  match n with
  | O => Some []
  | S k => match all_some k f, f k with Some l, Some x => Some (l ++ [x])%list | _, _ => None end
  end.
Fixpoint flv (fl : R -> R) (pick : list R -> tree) (v : nat -> nat -> R) (e : ex) : option R :=
  match e with
  | EVar a i => Some (v a i)
  | EConst x => Some x
  | EInt n => Some (fl (INR n))
  | EAdd a b => match flv fl pick v a, flv fl pick v b with Some x, Some y => Some (fl (x + y)) | _, _ => None end
  | ESub a b => match flv fl pick v a, flv fl pick v b with Some x, Some y => Some (fl (x - y)) | _, _ => None end
  | EMul a b => match flv fl pick v a, flv fl pick v b with Some x, Some y => Some (fl (x * y)) | _, _ => None end
  | EDiv a b => match flv fl pick v a, flv fl pick v b with
                | Some x, Some y => if Req_EM_T y 0 then None else Some (fl (x / y))
                | _, _ => None
                end
  | EExp a => match flv fl pick v a with Some x => Some (fl (exp x)) | None => None end
  | ESqrt a => match flv fl pick v a with Some x => if ltb x 0 then None else Some (fl (sqrt x)) | None => None end
  | EIf a b c d => match flv fl pick v a, flv fl pick v b with
                   | Some x, Some y => if ltb x y then flv fl pick v c else flv fl pick v d
                   | _, _ => None
                   end
  | ESum n f => match all_some n (fun k => flv fl pick v (f k)) with
                | Some [] => Some 0
                | Some (x :: l) => Some (fl_added fl (pick (x :: l)))
                | None => None
                end
  | EMax n f => match all_some n (fun k => flv fl pick v (f k)) with
                | Some (x :: l) => Some (rmax (S (length l)) (fun k => (x :: l).[k]))
                | _ => None
                end
  end.
