(** Correct gradients of a layer, as partial derivatives. *)
From Coq Require Import Reals Lra.
From Verif Require Import Base Sums M_Im2col S_Im2col M_Kernels M_Conv M_Layers S_Grad.
Open Scope R_scope.

(** Element [i] of an array moved by [s]. *)
Definition bump (l : list R) (i : nat) (s : R) : list R := upd l i (l.[i] + s).

(** Element [i] of input [p] moved by [s]. *)
Definition bump_input (xs : list ten) (p i : nat) (s : R) : list ten :=
  upd xs p (set_dat (nth p xs empty_ten) (bump (tdat (nth p xs empty_ten)) i s)).

(** The current parameter values, and with element [i] of parameter [k] moved by [s]. *)
Definition pvals (L : layer) : list (list R) := map (fun p => tdat (p_data p)) (dparams L).
Definition bump_param (L : layer) (k i : nat) (s : R) : layer :=
  with_params L (upd (pvals L) k (bump (nth k (pvals L) []) i s)).

(** The number of the output, weighted by the incoming gradient, that backward differentiates. *)
Definition weighted (go out : ten) : R := rsum (tot go) (fun i => (tdat go).[i] * (tdat out).[i]).

(** [r] is the derivative at 0 of the weighted output of the layers [Ls s] on the inputs [xs s]. *)
Definition partial_of (E : env) (Ls : R -> layer) (xs : R -> list ten) (osh : list nat) (go : ten) (r : R) : Prop :=
  exists O, (forall s o, tsh o = osh -> twf o -> exists L', lforward E (Ls s) (xs s) [o] = Ok (L', O s)) /\
            derivable_pt_lim (fun s => weighted go (O s)) 0 r.

(** Forward succeeds on [xs].  For every incoming gradient, every content of the gradient tensors and
    every environment of the backward pass: updateGradients and backward succeed, leave parameters and
    the gradient tensors of other placeholders alone, add to the gradient of each input the partial
    derivative with respect to that input, and store in the gradient of each parameter the partial
    derivative with respect to that parameter. *)
Definition correct_gradients (E : env) (L : layer) (xs : list ten) (osh : list nat) : Prop :=
  exists L1 out,
    (forall o, tsh o = osh -> twf o -> lforward E L xs [o] = Ok (L1, out)) /\ tsh out = osh /\ twf out /\
    forall E2 gm gins kout go, grads_ready L (map tsh xs) osh gm gins kout go -> NoDup gins ->
    exists L2 L3 gm',
      lupdate E2 L1 xs [go] = Ok L2 /\
      lbackward E2 L2 xs [out] gm gins [kout] = Ok (L3, gm') /\
      map p_data (dparams L3) = map p_data (dparams L) /\
      length gm' = length gm /\
      (forall k, ~ In k gins -> nth_error gm' k = nth_error gm k) /\
      (forall p x g g' i, nth_error xs p = Some x -> nth_error gm (nth p gins O) = Some g ->
         nth_error gm' (nth p gins O) = Some g' -> (i < tot x)%nat ->
         partial_of E (fun _ => L) (bump_input xs p i) osh go ((tdat g').[i] - (tdat g).[i])) /\
      (forall k q q' i, nth_error (dparams L) k = Some q -> nth_error (dparams L3) k = Some q' ->
         (i < tot (p_data q))%nat ->
         partial_of E (bump_param L k i) (fun _ => xs) osh go (tdat (p_grad q')).[i]).

(** The value of window (r, q) of plane [i] at kernel position (a, d); padding holds [flt_min]. *)
Definition wcell (g : geom) (h w : nat) (x : list R) (i r q a d : nat) : R :=
  padded flt_min h w x i (win_row g a r) (win_col g d q).

(** Every window has a single largest cell, or only padding cells are largest. *)
Definition clear_maxima (g : geom) (planes h w ho wo : nat) (x : ten) : Prop :=
  forall i r q, (i < planes)%nat -> (r < ho)%nat -> (q < wo)%nat ->
  exists a0 d0, (a0 < KH g)%nat /\ (d0 < KW g)%nat /\
    forall a d, (a < KH g)%nat -> (d < KW g)%nat -> (a, d) <> (a0, d0) ->
      wcell g h w (tdat x) i r q a d < wcell g h w (tdat x) i r q a0 d0 \/
      (inside h w (win_row g a r) (win_col g d q) = false /\ inside h w (win_row g a0 r) (win_col g d0 q) = false).
