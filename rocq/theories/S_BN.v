(** Specification vocabulary for batch normalisation over a history of forward passes. *)
From Coq Require Import Reals Lra.
From Verif Require Import Base Sums S_Stats M_Im2col M_Kernels M_Conv M_Layers S_Grad.
Open Scope R_scope.

(** The exponentially weighted statistic after seeing [stats], oldest first, starting from [r0]. *)
Definition running (alpha r0 : R) (stats : list R) : R :=
  let T := length stats in
  alpha ^ T * r0 + rsum T (fun k => (1 - alpha) * alpha ^ (T - 1 - k) * stats.[k]).

(** One forward call.  Between calls the user may have changed the learnt parameters and the mode in
    any way (optimiser steps, Model::train), so each call comes with its own gamma and beta. *)
Record bncall := mkBC { c_env : env; c_gamma : prm; c_beta : prm; c_x : ten; c_o : ten }.

Definition bn_call (L : layer) (c : bncall) : res (layer * ten) :=
  match L with
  | LBN1 e a _ _ s m v ce => lforward (c_env c) (LBN1 e a (c_gamma c) (c_beta c) s m v ce) [c_x c] [c_o c]
  | LBN2 e a _ _ s m v ce ni no => lforward (c_env c) (LBN2 e a (c_gamma c) (c_beta c) s m v ce ni no) [c_x c] [c_o c]
  | _ => UB
  end.

Fixpoint bn_history (L : layer) (cs : list bncall) : res layer :=
  match cs with
  | [] => Ok L
  | c :: cs => '(L', _) <- bn_call L c ;; bn_history L' cs
  end.

(** The running mean and variance a batch normalisation layer holds. *)
Definition bn_mean (L : layer) : list R :=
  match L with LBN1 _ _ _ _ _ m _ _ => tdat m | LBN2 _ _ _ _ _ m _ _ _ _ => tdat m | _ => [] end.
Definition bn_var (L : layer) : list R :=
  match L with LBN1 _ _ _ _ _ _ v _ => tdat v | LBN2 _ _ _ _ _ _ v _ _ _ => tdat v | _ => [] end.

Definition training_call (c : bncall) : bool := p_train (c_gamma c).

(** A call a BatchNorm1D layer of [m] features accepts, and its batch statistics. *)
Definition call1_ok (m : nat) (c : bncall) : Prop :=
  prm_ok [m] (c_gamma c) /\ prm_ok [m] (c_beta c) /\ p_train (c_beta c) = p_train (c_gamma c) /\
  exists n, ten_ok [n; m] (c_x c) /\ ten_ok [n; m] (c_o c) /\ (training_call c = true -> 0 < n)%nat.
Definition call1_mean (m j : nat) (c : bncall) : R :=
  mean (nth 0 (tsh (c_x c)) O) (fun i => (tdat (c_x c)).[i * m + j]).
Definition call1_var (m j : nat) (c : bncall) : R :=
  variance (nth 0 (tsh (c_x c)) O) (fun i => (tdat (c_x c)).[i * m + j]).

(** The same for BatchNorm2D with [C] channels. *)
Definition call2_ok (C : nat) (c : bncall) : Prop :=
  prm_ok [C] (c_gamma c) /\ prm_ok [C] (c_beta c) /\ p_train (c_beta c) = p_train (c_gamma c) /\
  exists N H W, ten_ok [N; C; H; W] (c_x c) /\ ten_ok [N; C; H; W] (c_o c) /\ (training_call c = true -> 0 < N * H * W)%nat.
Definition call2_at (C j : nat) (c : bncall) (n h w : nat) : R :=
  (tdat (c_x c)).[((n * C + j) * nth 2 (tsh (c_x c)) O + h) * nth 3 (tsh (c_x c)) O + w].
Definition call2_mean (C j : nat) (c : bncall) : R :=
  mean3 (nth 0 (tsh (c_x c)) O) (nth 2 (tsh (c_x c)) O) (nth 3 (tsh (c_x c)) O) (call2_at C j c).
Definition call2_var (C j : nat) (c : bncall) : R :=
  variance3 (nth 0 (tsh (c_x c)) O) (nth 2 (tsh (c_x c)) O) (nth 3 (tsh (c_x c)) O) (call2_at C j c).

(** A newly created layer: running statistics zero, no buffers yet. *)
Definition new_bn1 (m : nat) (L : layer) : Prop :=
  exists e a g b s rm rv c, L = LBN1 e a g b s rm rv c /\ ten_ok [m] s /\ ten_ok [m] rm /\ ten_ok [m] rv /\ buf_ok c /\
    all_zero rm /\ all_zero rv.
Definition new_bn2 (C : nat) (L : layer) : Prop :=
  exists e a g b s rm rv c ni no, L = LBN2 e a g b s rm rv c ni no /\ ten_ok [C] s /\ ten_ok [C] rm /\ ten_ok [C] rv /\
    tot c = O /\ tot ni = O /\ tot no = O /\ all_zero rm /\ all_zero rv.
