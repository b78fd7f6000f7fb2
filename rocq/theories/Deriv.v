(** Derivatives of real functions: a thin layer over the standard library's [derivable_pt_lim]. *)
From Coq Require Import Reals Lra.
From Verif Require Import Base BaseFacts Sums.
Open Scope R_scope.

Notation dl := derivable_pt_lim.

Lemma dl_eq f t l l' : dl f t l -> l = l' -> dl f t l'.
Proof. intros H <-. exact H. Qed.

(** Equality in a neighbourhood is enough. *)
Lemma dl_local f g t l : (exists e, 0 < e /\ forall s, Rabs (s - t) < e -> f s = g s) -> dl f t l -> dl g t l.
Proof.
  intros (e & He & Hfg) H eps Heps. destruct (H eps Heps) as [d Hd].
  assert (Hm : 0 < Rmin d e) by (apply Rmin_pos; [apply cond_pos|exact He]).
  exists (mkposreal _ Hm). cbn. intros h Hh Hlt.
  assert (Rabs h < d) by (eapply Rlt_le_trans; [exact Hlt|apply Rmin_l]).
  assert (Rabs h < e) by (eapply Rlt_le_trans; [exact Hlt|apply Rmin_r]).
  rewrite <- !Hfg.
  - apply Hd; assumption.
  - replace (t - t) with 0 by ring. rewrite Rabs_R0. exact He.
  - replace (t + h - t) with h by ring. assumption.
Qed.

Lemma dl_ext f g t l : (forall s, f s = g s) -> dl f t l -> dl g t l.
Proof. intros H. apply dl_local. exists 1. split; [lra|]. intros; apply H. Qed.

Lemma dl_const c t : dl (fun _ => c) t 0.
Proof. apply (derivable_pt_lim_const c). Qed.

Lemma dl_id t : dl (fun s => s) t 1.
Proof. apply derivable_pt_lim_id. Qed.

Lemma dl_plus f g t a b : dl f t a -> dl g t b -> dl (fun s => f s + g s) t (a + b).
Proof. apply derivable_pt_lim_plus. Qed.

Lemma dl_minus f g t a b : dl f t a -> dl g t b -> dl (fun s => f s - g s) t (a - b).
Proof. apply derivable_pt_lim_minus. Qed.

Lemma dl_opp f t a : dl f t a -> dl (fun s => - f s) t (- a).
Proof. apply derivable_pt_lim_opp. Qed.

Lemma dl_mult f g t a b : dl f t a -> dl g t b -> dl (fun s => f s * g s) t (a * g t + f t * b).
Proof. apply derivable_pt_lim_mult. Qed.

Lemma dl_scal c f t a : dl f t a -> dl (fun s => c * f s) t (c * a).
Proof. apply derivable_pt_lim_scal. Qed.

Lemma dl_div f g t a b : dl f t a -> dl g t b -> g t <> 0 ->
  dl (fun s => f s / g s) t ((a * g t - b * f t) / Rsqr (g t)).
Proof. apply derivable_pt_lim_div. Qed.

Lemma dl_comp f g t a b : dl f t a -> dl g (f t) b -> dl (fun s => g (f s)) t (b * a).
Proof. apply (derivable_pt_lim_comp f g). Qed.

Lemma dl_inv f t a : dl f t a -> f t <> 0 -> dl (fun s => / f s) t (- a / Rsqr (f t)).
Proof.
  intros H Hn. apply dl_ext with (f := fun s => 1 / f s); [intros s; unfold Rdiv; ring|].
  eapply dl_eq; [apply dl_div; [apply dl_const|exact H|exact Hn]|].
  unfold Rdiv. ring.
Qed.

Lemma dl_exp f t a : dl f t a -> dl (fun s => exp (f s)) t (exp (f t) * a).
Proof. intros H. apply (dl_comp f exp); [exact H|apply derivable_pt_lim_exp]. Qed.

Lemma dl_ln f t a : dl f t a -> 0 < f t -> dl (fun s => ln (f s)) t (/ f t * a).
Proof. intros H Hp. apply (dl_comp f ln); [exact H|apply derivable_pt_lim_ln; exact Hp]. Qed.

Lemma dl_sqrt f t a : dl f t a -> 0 < f t -> dl (fun s => sqrt (f s)) t (/ (2 * sqrt (f t)) * a).
Proof. intros H Hp. apply (dl_comp f sqrt); [exact H|apply derivable_pt_lim_sqrt; exact Hp]. Qed.

Lemma dl_rsum n (f : R -> nat -> R) t (a : nat -> R) :
  (forall i, (i < n)%nat -> dl (fun s => f s i) t (a i)) ->
  dl (fun s => rsum n (f s)) t (rsum n a).
Proof.
  induction n as [|n IH]; intros H; cbn [rsum].
  - apply dl_const.
  - apply dl_plus; [apply IH; intros; apply H; lia|apply H; lia].
Qed.

Lemma dl_unique f t a b : dl f t a -> dl f t b -> a = b.
Proof. apply uniqueness_limite. Qed.

Lemma dl_continuous f t a : dl f t a -> continuity_pt f t.
Proof. intros H. apply derivable_continuous_pt. exists a. exact H. Qed.

(** A differentiable function keeps a strict inequality in a neighbourhood. *)
Lemma dl_keeps_gt f t a c : dl f t a -> c < f t -> exists e, 0 < e /\ forall s, Rabs (s - t) < e -> c < f s.
Proof.
  intros H Hc. pose proof (dl_continuous _ _ _ H) as HC.
  destruct (HC (f t - c) ltac:(lra)) as (e & He & Hlim).
  exists e. split; [exact He|]. intros s Hs.
  destruct (Req_dec s t) as [->|Hne]; [exact Hc|].
  assert (R_dist (f s) (f t) < f t - c) as Hd.
  { apply Hlim. split; [split; [exact I|congruence]|exact Hs]. }
  unfold R_dist in Hd. apply Rabs_def2 in Hd. lra.
Qed.

Lemma dl_keeps_lt f t a c : dl f t a -> f t < c -> exists e, 0 < e /\ forall s, Rabs (s - t) < e -> f s < c.
Proof.
  intros H Hc. destruct (dl_keeps_gt (fun s => - f s) t (- a) (- c)) as (e & He & Hs).
  - apply dl_opp. exact H.
  - lra.
  - exists e. split; [exact He|]. intros s Hd. specialize (Hs s Hd). lra.
Qed.
