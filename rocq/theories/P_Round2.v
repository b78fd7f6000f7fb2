(** Rounded evaluation of an expression tends to its exact value. *)
From Coq Require Import Reals Lra Permutation.
From Verif Require Import Base BaseFacts Sums M_Kernels M_Round P_Round.
Open Scope R_scope.

Definition stable (v : nat -> nat -> R) (e : ex) : Prop :=
  forall eps, 0 < eps -> exists del, 0 < del /\ forall u eta w r, 0 <= u <= del -> 0 <= eta <= del ->
    (forall a i, Rabs (w a i - v a i) <= del) -> rev u eta w e r -> Rabs (r - ev v e) <= eps.

(** Every division, root and comparison of the exact evaluation is harmless. *)
Fixpoint good (v : nat -> nat -> R) (e : ex) : Prop :=
  match e with
  | EVar _ _ | EConst _ | EInt _ => True
  | EAdd a b | ESub a b | EMul a b => good v a /\ good v b
  | EDiv a b => good v a /\ good v b /\ ev v b <> 0
  | EExp a => good v a
  | ESqrt a => good v a /\ 0 <= ev v a
  | EIf a b c d => good v a /\ good v b /\ (ev v a < ev v b -> good v c) /\ (ev v b < ev v a -> good v d) /\
                   (ev v a = ev v b -> good v c /\ good v d /\ ev v c = ev v d)
  | ESum n f => forall k, (k < n)%nat -> good v (f k)
  | EMax n f => (0 < n)%nat /\ forall k, (k < n)%nat -> good v (f k)
  end.

Lemma pos_min a b : 0 < a -> 0 < b -> exists c, 0 < c /\ c <= a /\ c <= b.
Proof. intros A B. exists (Rmin a b). split; [apply Rmin_glb_lt; assumption|]. split; [apply Rmin_l|apply Rmin_r]. Qed.
Lemma pos_min3 a b c : 0 < a -> 0 < b -> 0 < c -> exists d, 0 < d /\ d <= a /\ d <= b /\ d <= c.
Proof. intros A B C. destruct (pos_min a b A B) as (x & X & Xa & Xb). destruct (pos_min x c X C) as (d & D & Dx & Dc). exists d. repeat split; lra. Qed.

Lemma scaled c eps : 0 < eps -> exists del, 0 < del /\ del * Rabs c <= eps.
Proof.
  intros H. pose proof (Rabs_pos c). exists (eps / (Rabs c + 1)). split; [apply Rdiv_lt_0_compat; lra|].
  apply Rle_trans with (eps / (Rabs c + 1) * (Rabs c + 1)).
  - apply Rmult_le_compat_l; [|lra]. apply Rlt_le, Rdiv_lt_0_compat; lra.
  - right. field. lra.
Qed.

Lemma round_step x0 eps : 0 < eps -> exists del, 0 < del /\ forall u eta x r, 0 <= u <= del -> 0 <= eta <= del ->
  Rabs (x - x0) <= eps / 2 -> near u eta x r -> Rabs (r - x0) <= eps.
Proof.
  intros H. destruct (scaled (Rabs x0 + eps / 2 + 1) (eps / 2) ltac:(lra)) as (del & D & B). exists del. split; [exact D|].
  intros u eta x r Hu He Hx Hn. unfold near in Hn. pose proof (Rabs_pos x0).
  rewrite (Rabs_right (Rabs x0 + eps / 2 + 1)) in B by lra.
  assert (X : Rabs x <= Rabs x0 + eps / 2). { replace x with (x0 + (x - x0)) by ring. eapply Rle_trans; [apply Rabs_triang|]. lra. }
  assert (U : u * Rabs x <= del * (Rabs x0 + eps / 2)) by (apply Rmult_le_compat; try lra; apply Rabs_pos).
  replace (r - x0) with ((r - x) + (x - x0)) by ring. eapply Rle_trans; [apply Rabs_triang|]. nra.
Qed.

(** Continuity of the operations. *)
Definition cont1 (D : R -> Prop) (f : R -> R) (x0 : R) : Prop :=
  forall eps, 0 < eps -> exists del, 0 < del /\ forall x, Rabs (x - x0) <= del -> D x -> Rabs (f x - f x0) <= eps.
Definition cont2 (D : R -> R -> Prop) (f : R -> R -> R) (x0 y0 : R) : Prop :=
  forall eps, 0 < eps -> exists del, 0 < del /\ forall x y, Rabs (x - x0) <= del -> Rabs (y - y0) <= del -> D x y -> Rabs (f x y - f x0 y0) <= eps.

Lemma cont1_pt D f x0 : continuity_pt f x0 -> cont1 D f x0.
Proof.
  intros C eps H. destruct (C eps H) as (a & A & B). exists (a / 2). split; [lra|]. intros x Hx _.
  destruct (Req_dec x x0) as [->|N]; [replace (f x0 - f x0) with 0 by ring; rewrite Rabs_R0; lra|].
  apply Rlt_le. apply (B x). split; [split; [exact I|congruence]|]. cbn. unfold R_dist. lra.
Qed.

Lemma cont2_add : forall x0 y0, cont2 (fun _ _ => True) Rplus x0 y0.
Proof.
  intros x0 y0 eps H. exists (eps / 2). split; [lra|]. intros x y Hx Hy _.
  replace (x + y - (x0 + y0)) with ((x - x0) + (y - y0)) by ring. eapply Rle_trans; [apply Rabs_triang|]. lra.
Qed.
Lemma cont2_sub : forall x0 y0, cont2 (fun _ _ => True) Rminus x0 y0.
Proof.
  intros x0 y0 eps H. exists (eps / 2). split; [lra|]. intros x y Hx Hy _.
  replace (x - y - (x0 - y0)) with ((x - x0) + - (y - y0)) by ring. eapply Rle_trans; [apply Rabs_triang|]. rewrite Rabs_Ropp. lra.
Qed.
Lemma cont2_mul : forall x0 y0, cont2 (fun _ _ => True) Rmult x0 y0.
Proof.
  intros x0 y0 eps H. destruct (scaled (Rabs x0 + 1 + Rabs y0) eps H) as (d1 & D1 & B1).
  destruct (pos_min d1 1 D1 ltac:(lra)) as (del & D & Da & Db). exists del. split; [exact D|]. intros x y Hx Hy _.
  pose proof (Rabs_pos x0). pose proof (Rabs_pos y0). rewrite (Rabs_right (Rabs x0 + 1 + Rabs y0)) in B1 by lra.
  assert (X : Rabs x <= Rabs x0 + 1). { replace x with (x0 + (x - x0)) by ring. eapply Rle_trans; [apply Rabs_triang|]. lra. }
  replace (x * y - x0 * y0) with (x * (y - y0) + y0 * (x - x0)) by ring. eapply Rle_trans; [apply Rabs_triang|]. rewrite !Rabs_mult.
  assert (A1 : Rabs x * Rabs (y - y0) <= (Rabs x0 + 1) * del) by (apply Rmult_le_compat; try apply Rabs_pos; lra).
  assert (A2 : Rabs y0 * Rabs (x - x0) <= Rabs y0 * del) by (apply Rmult_le_compat_l; lra).
  assert (A3 : del * (Rabs x0 + 1 + Rabs y0) <= d1 * (Rabs x0 + 1 + Rabs y0)) by (apply Rmult_le_compat_r; lra).
  lra.
Qed.
Lemma cont2_div : forall x0 y0, y0 <> 0 -> cont2 (fun _ y => y <> 0) Rdiv x0 y0.
Proof.
  intros x0 y0 N eps H. destruct (cont2_mul x0 (/ y0) eps H) as (d1 & D1 & B1).
  destruct (cont1_pt (fun y => y <> 0) Rinv y0) with (eps := d1) as (d2 & D2 & B2); [|exact D1|].
  { change Rinv with (/ (fun x : R => x))%F. apply continuity_pt_inv; [apply derivable_continuous_pt, derivable_pt_id|exact N]. }
  destruct (pos_min d1 d2 D1 D2) as (del & D & Da & Db). exists del. split; [exact D|]. intros x y Hx Hy Ny.
  apply (B1 x (/ y)); [lra| |exact Logic.I]. apply B2; [lra|exact Ny].
Qed.

Lemma stable_op2 v a b (f : R -> R -> R) (D : R -> R -> Prop) (e : ex) :
  stable v a -> stable v b -> cont2 D f (ev v a) (ev v b) -> ev v e = f (ev v a) (ev v b) ->
  (forall u eta w r, rev u eta w e r -> exists x y, rev u eta w a x /\ rev u eta w b y /\ D x y /\ near u eta (f x y) r) ->
  stable v e.
Proof.
  intros A B C EV RV eps H. rewrite EV. destruct (round_step (f (ev v a) (ev v b)) eps H) as (d1 & D1 & B1).
  destruct (C (eps / 2) ltac:(lra)) as (d2 & D2 & B2). destruct (A d2 D2) as (d3 & D3 & B3). destruct (B d2 D2) as (d4 & D4 & B4).
  destruct (pos_min3 d1 d3 d4 D1 D3 D4) as (del & Dl & L1 & L2 & L3). exists del. split; [exact Dl|].
  intros u eta w r Hu He Hw Hr. destruct (RV _ _ _ _ Hr) as (x & y & Hx & Hy & Dxy & Hn).
  apply (B1 u eta (f x y) r); [lra|lra| |exact Hn]. apply B2; [| |exact Dxy].
  - apply (B3 u eta w x); [lra|lra| |exact Hx]. intros c i. specialize (Hw c i). lra.
  - apply (B4 u eta w y); [lra|lra| |exact Hy]. intros c i. specialize (Hw c i). lra.
Qed.
Lemma stable_op1 v a (f : R -> R) (D : R -> Prop) (e : ex) :
  stable v a -> cont1 D f (ev v a) -> ev v e = f (ev v a) ->
  (forall u eta w r, rev u eta w e r -> exists x, rev u eta w a x /\ D x /\ near u eta (f x) r) ->
  stable v e.
Proof.
  intros A C EV RV eps H. rewrite EV. destruct (round_step (f (ev v a)) eps H) as (d1 & D1 & B1).
  destruct (C (eps / 2) ltac:(lra)) as (d2 & D2 & B2). destruct (A d2 D2) as (d3 & D3 & B3).
  destruct (pos_min d1 d3 D1 D3) as (del & Dl & L1 & L2). exists del. split; [exact Dl|].
  intros u eta w r Hu He Hw Hr. destruct (RV _ _ _ _ Hr) as (x & Hx & Dx & Hn).
  apply (B1 u eta (f x) r); [lra|lra| |exact Hn]. apply B2; [|exact Dx].
  apply (B3 u eta w x); [lra|lra| |exact Hx]. intros c i. specialize (Hw c i). lra.
Qed.

(** A common bound for finitely many. *)
Lemma common n (P : nat -> R -> Prop) : (forall k d d', (k < n)%nat -> P k d -> 0 < d' <= d -> P k d') ->
  (forall k, (k < n)%nat -> exists d, 0 < d /\ P k d) -> exists d, 0 < d /\ forall k, (k < n)%nat -> P k d.
Proof.
  induction n as [|n IH]; intros M H; [exists 1; split; [lra|intros; lia]|].
  destruct IH as (d1 & D1 & B1); [intros k d d' L; apply M; lia|intros k L; apply H; lia|].
  destruct (H n ltac:(lia)) as (d2 & D2 & B2). destruct (pos_min d1 d2 D1 D2) as (d & D & L1 & L2). exists d. split; [exact D|].
  intros k L. destruct (Nat.eq_dec k n) as [->|N]; [apply (M n d2 d); [lia|exact B2|lra]|]. apply (M k d1 d); [lia|apply B1; lia|lra].
Qed.

Definition near_terms (v : nat -> nat -> R) (n : nat) (f : nat -> ex) (eps del : R) : Prop :=
  forall k, (k < n)%nat -> forall u eta w r, 0 <= u <= del -> 0 <= eta <= del ->
    (forall a i, Rabs (w a i - v a i) <= del) -> rev u eta w (f k) r -> Rabs (r - ev v (f k)) <= eps.
Lemma stable_terms v n f eps : (forall k, (k < n)%nat -> stable v (f k)) -> 0 < eps -> exists del, 0 < del /\ near_terms v n f eps del.
Proof.
  intros S H. apply (common n (fun k del => forall u eta w r, 0 <= u <= del -> 0 <= eta <= del ->
    (forall a i, Rabs (w a i - v a i) <= del) -> rev u eta w (f k) r -> Rabs (r - ev v (f k)) <= eps)).
  - intros k d d' L B D u eta w r Hu He Hw Hr. apply (B u eta w r); [lra|lra| |exact Hr]. intros a i. specialize (Hw a i). lra.
  - intros k L. exact (S k L eps H).
Qed.

Lemma rsum_abs_le n f : Rabs (rsum n f) <= rsum n (fun k => Rabs (f k)).
Proof. rewrite <- lsum_tab, <- labs_tab. apply lsum_le_labs. Qed.
Lemma rsum_le n f g : (forall k, (k < n)%nat -> f k <= g k) -> rsum n f <= rsum n g.
Proof. induction n as [|n IH]; intros H; cbn; [lra|]. apply Rplus_le_compat; [apply IH; intros; apply H; lia|apply H; lia]. Qed.

Lemma pow2_pos n : 1 <= 2 ^ n.
Proof. apply pow_R1_Rle. lra. Qed.
Lemma pow1_small u n : 0 <= u <= 1 -> (1 + u) ^ n - 1 <= u * 2 ^ n.
Proof.
  intros H. cut ((1 + u) ^ n - 1 <= u * (2 ^ n - 1)); [pose proof (pow2_pos n); nra|].
  induction n as [|n IH]; cbn [pow]; [lra|]. pose proof (pow2_pos n) as P2.
  apply Rle_trans with ((1 + u) * (u * (2 ^ n - 1)) + u); [|assert (0 <= u * (2 ^ n - 1)) by (apply Rmult_le_pos; lra); nra].
  assert ((1 + u) * ((1 + u) ^ n - 1) <= (1 + u) * (u * (2 ^ n - 1))) by (apply Rmult_le_compat_l; lra). lra.
Qed.
Lemma pow1_le2 u n : 0 <= u <= 1 -> (1 + u) ^ n <= 2 ^ n.
Proof. intros H. apply pow_incr. lra. Qed.

Lemma stable_sum v n f : (forall k, (k < n)%nat -> stable v (f k)) -> stable v (ESum n f).
Proof.
  intros S eps H.
  assert (Hn : 0 < INR n + 1) by (pose proof (pos_INR n); lra).
  destruct (pos_min 1 (eps / (2 * (INR n + 1))) ltac:(lra) ltac:(apply Rdiv_lt_0_compat; lra)) as (e1 & E1 & E1a & E1b).
  destruct (stable_terms v n f e1 S E1) as (d1 & D1 & B1).
  set (A := rsum n (fun k => Rabs (ev v (f k)))).
  assert (PA : 0 <= A) by (pose proof (rsum_abs_le n (fun k => ev v (f k))); pose proof (Rabs_pos (rsum n (fun k => ev v (f k)))); unfold A; lra).
  set (T := 2 ^ (n - 1) * (A + 2 * INR n)).
  pose proof (pow2_pos (n - 1)) as P2. pose proof (pos_INR n) as PN.
  assert (PT : 0 <= T) by (unfold T; apply Rmult_le_pos; lra).
  destruct (scaled T (eps / 2) ltac:(lra)) as (d2 & D2 & B2). rewrite (Rabs_right T) in B2 by lra.
  destruct (pos_min3 d1 d2 1 D1 D2 ltac:(lra)) as (del & D & L1 & L2 & L3). exists del. split; [exact D|].
  intros u eta w r Hu He Hw Hr. cbn [ev]. cbn [rev] in Hr. destruct Hr as (xs & Hx & Hs).
  assert (X : forall k, (k < n)%nat -> Rabs (xs k - ev v (f k)) <= e1).
  { intros k L. apply (B1 k L u eta w (xs k)); [lra|lra| |apply Hx; exact L]. intros a i. specialize (Hw a i). lra. }
  assert (SX : Rabs (rsum n xs - rsum n (fun k => ev v (f k))) <= INR n * e1).
  { rewrite <- rsum_minus. eapply Rle_trans; [apply rsum_abs_le|]. rewrite <- rsum_const. apply rsum_le. exact X. }
  assert (SA : rsum n (fun k => Rabs (xs k)) <= A + INR n).
  { replace (A + INR n) with (rsum n (fun k => Rabs (ev v (f k)) + 1)) by (rewrite rsum_plus, rsum_const; unfold A; ring).
    apply rsum_le. intros k L. specialize (X k L). replace (xs k) with (ev v (f k) + (xs k - ev v (f k))) by ring.
    eapply Rle_trans; [apply Rabs_triang|]. lra. }
  pose proof (summed_bound u eta n xs r ltac:(lra) ltac:(lra) Hs) as SB.
  pose proof (pow1_small u (n - 1) ltac:(lra)) as Q1. pose proof (pow1_le2 u (n - 1) ltac:(lra)) as Q2. pose proof (pow1_ge u (n - 1) ltac:(lra)) as Q3.
  assert (SP : 0 <= rsum n (fun k => Rabs (xs k))) by (pose proof (rsum_abs_le n xs); pose proof (Rabs_pos (rsum n xs)); lra).
  assert (N1 : 0 <= INR (n - 1) <= INR n) by (split; [apply pos_INR|apply le_INR; lia]).
  assert (G1 : ((1 + u) ^ (n - 1) - 1) * rsum n (fun k => Rabs (xs k)) <= (del * 2 ^ (n - 1)) * (A + INR n)).
  { apply Rmult_le_compat; [lra|exact SP| |exact SA]. eapply Rle_trans; [exact Q1|]. apply Rmult_le_compat_r; lra. }
  assert (G2 : INR (n - 1) * (1 + u) ^ (n - 1) * eta <= INR n * 2 ^ (n - 1) * del).
  { apply Rmult_le_compat; [apply Rmult_le_pos; lra|lra| |lra]. apply Rmult_le_compat; lra. }
  assert (G3 : (del * 2 ^ (n - 1)) * (A + INR n) + INR n * 2 ^ (n - 1) * del = del * T) by (unfold T; ring).
  assert (G4 : del * T <= d2 * T) by (apply Rmult_le_compat_r; assumption).
  assert (G5 : INR n * e1 <= eps / 2).
  { apply Rle_trans with (INR n * (eps / (2 * (INR n + 1)))); [apply Rmult_le_compat_l; assumption|].
    apply Rle_trans with ((INR n + 1) * (eps / (2 * (INR n + 1)))).
    - apply Rmult_le_compat_r; [|lra]. apply Rlt_le, Rdiv_lt_0_compat; lra.
    - right. field. lra. }
  replace (r - rsum n (fun k => ev v (f k))) with ((r - rsum n xs) + (rsum n xs - rsum n (fun k => ev v (f k)))) by ring.
  eapply Rle_trans; [apply Rabs_triang|]. lra.
Qed.

Lemma rmax_close n f g e : (0 < n)%nat -> (forall k, (k < n)%nat -> Rabs (f k - g k) <= e) -> Rabs (rmax n f - rmax n g) <= e.
Proof.
  intros Hn H.
  assert (G : forall m, (m <= n)%nat -> Rabs (rmax m f - rmax m g) <= e).
  { induction m as [|m IH]; intros Hm; cbn [rmax]; [apply H; exact Hn|].
    specialize (IH ltac:(lia)). specialize (H m ltac:(lia)). revert IH H.
    unfold Rmax. destruct (Rle_dec (rmax m f) (f m)), (Rle_dec (rmax m g) (g m)); unfold Rabs; repeat destruct Rcase_abs; lra. }
  apply G. lia.
Qed.

Lemma stable_max v n f : (0 < n)%nat -> (forall k, (k < n)%nat -> stable v (f k)) -> stable v (EMax n f).
Proof.
  intros Hn S eps H. destruct (stable_terms v n f eps S H) as (d & D & B). exists d. split; [exact D|].
  intros u eta w r Hu He Hw Hr. cbn [rev] in Hr. destruct Hr as (xs & Hx & _ & ->). cbn [ev].
  apply rmax_close; [exact Hn|]. intros k L. apply (B k L u eta w); auto.
Qed.

Lemma stable_if v a b c d : stable v a -> stable v b -> (ev v a < ev v b -> stable v c) -> (ev v b < ev v a -> stable v d) ->
  (ev v a = ev v b -> stable v c /\ stable v d /\ ev v c = ev v d) -> stable v (EIf a b c d).
Proof.
  intros A B C D Q eps H. unfold ltb. destruct (Rtotal_order (ev v a) (ev v b)) as [L|[L|L]].
  - set (gap := (ev v b - ev v a) / 3). assert (G : 0 < gap) by (unfold gap; lra).
    destruct (A gap G) as (d1 & D1 & B1). destruct (B gap G) as (d2 & D2 & B2). destruct (C L eps H) as (d3 & D3 & B3).
    destruct (pos_min3 d1 d2 d3 D1 D2 D3) as (del & Dl & L1 & L2 & L3). exists del. split; [exact Dl|].
    intros u eta w r Hu He Hw Hr. cbn [rev] in Hr. destruct Hr as (x & y & Hx & Hy & Hr). cbn [ev]. unfold ltb in Hr |- *.
    assert (W : forall c, del <= c -> forall a i, Rabs (w a i - v a i) <= c) by (intros c0 Hc a0 i0; specialize (Hw a0 i0); lra).
    specialize (B1 u eta w x ltac:(lra) ltac:(lra) (W _ L1) Hx). specialize (B2 u eta w y ltac:(lra) ltac:(lra) (W _ L2) Hy).
    assert (XY : x < y). { revert B1 B2. unfold gap, Rabs. repeat destruct Rcase_abs; lra. }
    destruct (Rlt_dec x y); [|contradiction]. destruct (Rlt_dec (ev v a) (ev v b)); [|contradiction].
    apply (B3 u eta w); auto; lra.
  - destruct (Q L) as (SC & SD & EE). destruct (SC eps H) as (d1 & D1 & B1). destruct (SD eps H) as (d2 & D2 & B2).
    destruct (pos_min d1 d2 D1 D2) as (del & Dl & L1 & L2). exists del. split; [exact Dl|].
    intros u eta w r Hu He Hw Hr. cbn [rev] in Hr. destruct Hr as (x & y & Hx & Hy & Hr). cbn [ev]. unfold ltb in Hr |- *.
    assert (W : forall c, del <= c -> forall a i, Rabs (w a i - v a i) <= c) by (intros c0 Hc a0 i0; specialize (Hw a0 i0); lra).
    destruct (Rlt_dec (ev v a) (ev v b)); [lra|].
    destruct (Rlt_dec x y); [rewrite <- EE; apply (B1 u eta w); auto; lra|apply (B2 u eta w); auto; lra].
  - set (gap := (ev v a - ev v b) / 3). assert (G : 0 < gap) by (unfold gap; lra).
    destruct (A gap G) as (d1 & D1 & B1). destruct (B gap G) as (d2 & D2 & B2). destruct (D L eps H) as (d3 & D3 & B3).
    destruct (pos_min3 d1 d2 d3 D1 D2 D3) as (del & Dl & L1 & L2 & L3). exists del. split; [exact Dl|].
    intros u eta w r Hu He Hw Hr. cbn [rev] in Hr. destruct Hr as (x & y & Hx & Hy & Hr). cbn [ev]. unfold ltb in Hr |- *.
    assert (W : forall c, del <= c -> forall a i, Rabs (w a i - v a i) <= c) by (intros c0 Hc a0 i0; specialize (Hw a0 i0); lra).
    specialize (B1 u eta w x ltac:(lra) ltac:(lra) (W _ L1) Hx). specialize (B2 u eta w y ltac:(lra) ltac:(lra) (W _ L2) Hy).
    assert (XY : ~ x < y). { revert B1 B2. unfold gap, Rabs. repeat destruct Rcase_abs; lra. }
    destruct (Rlt_dec x y); [contradiction|]. destruct (Rlt_dec (ev v a) (ev v b)); [lra|].
    apply (B3 u eta w); auto; lra.
Qed.

Lemma exp_cont x : continuity_pt exp x.
Proof. apply derivable_continuous_pt. apply derivable_pt_exp. Qed.

Lemma good_stable v e : good v e -> stable v e.
Proof.
  induction e as [a i|r|n|a IHa b IHb|a IHa b IHb|a IHa b IHb|a IHa b IHb|a IHa|a IHa|a IHa b IHb c IHc d IHd|n f IH|n f IH]; intros G; cbn [good] in G.
  - intros eps H. exists eps. split; [exact H|]. intros u eta w r Hu He Hw ->. cbn. apply Hw.
  - intros eps H. exists eps. split; [exact H|]. intros u eta w q Hu He Hw ->. cbn. replace (r - r) with 0 by ring. rewrite Rabs_R0. lra.
  - intros eps H. cbn [ev]. destruct (round_step (INR n) eps H) as (d & D & B). exists d. split; [exact D|].
    intros u eta w r Hu He Hw Hr. apply (B u eta (INR n) r Hu He); [|exact Hr]. replace (INR n - INR n) with 0 by ring. rewrite Rabs_R0. lra.
  - destruct G as [Ga Gb]. apply (stable_op2 v a b Rplus (fun _ _ => True)); auto; [apply cont2_add|].
    intros u eta w r (x & y & Hx & Hy & Hn). exists x, y. auto.
  - destruct G as [Ga Gb]. apply (stable_op2 v a b Rminus (fun _ _ => True)); auto; [apply cont2_sub|].
    intros u eta w r (x & y & Hx & Hy & Hn). exists x, y. auto.
  - destruct G as [Ga Gb]. apply (stable_op2 v a b Rmult (fun _ _ => True)); auto; [apply cont2_mul|].
    intros u eta w r (x & y & Hx & Hy & Hn). exists x, y. auto.
  - destruct G as (Ga & Gb & N). apply (stable_op2 v a b Rdiv (fun _ y => y <> 0)); [auto|auto|apply cont2_div; exact N|reflexivity|].
    intros u eta w r (x & y & Hx & Hy & Ny & Hn). exists x, y. auto.
  - apply (stable_op1 v a exp (fun _ => True)); [auto|apply cont1_pt, exp_cont|reflexivity|].
    intros u eta w r (x & Hx & Hn). exists x. auto.
  - destruct G as [Ga Pa]. apply (stable_op1 v a sqrt (fun x => 0 <= x)); [auto|apply cont1_pt, continuity_pt_sqrt; exact Pa|reflexivity|].
    intros u eta w r (x & Hx & Px & Hn). exists x. auto.
  - destruct G as (Ga & Gb & Gc & Gd & Ge). apply stable_if; auto. intros E. destruct (Ge E) as (X & Y & Z). auto.
  - apply stable_sum. auto.
  - destruct G as [N G]. apply stable_max; auto.
Qed.

(** The exact evaluation is one of the rounded ones. *)
Lemma near_refl u eta x : 0 <= u -> 0 <= eta -> near u eta x x.
Proof. intros Hu He. unfold near. replace (x - x) with 0 by ring. rewrite Rabs_R0. pose proof (Rabs_pos x). nra. Qed.
Fixpoint left_tree (x : R) (l : list R) : tree := match l with [] => Leaf x | y :: t => Node (Leaf x) (left_tree y t) end.
Lemma left_leaves l : forall x, leaves (left_tree x l) = x :: l.
Proof. induction l as [|y l IH]; intros x; cbn; [reflexivity|]. rewrite IH. reflexivity. Qed.
Lemma left_added u eta l : 0 <= u -> 0 <= eta -> forall x, added u eta (left_tree x l) (lsum (x :: l)).
Proof.
  intros Hu He. induction l as [|y l IH]; intros x; cbn [left_tree added]; [cbn; ring|].
  exists x, (lsum (y :: l)). split; [reflexivity|]. split; [apply IH|]. cbn. apply near_refl; assumption.
Qed.
Lemma exact_rev u eta v e : 0 <= u -> 0 <= eta -> good v e -> rev u eta v e (ev v e).
Proof.
  intros Hu He. pose proof (near_refl u eta) as NR.
  induction e as [a i|r|n|a IHa b IHb|a IHa b IHb|a IHa b IHb|a IHa b IHb|a IHa|a IHa|a IHa b IHb c IHc d IHd|n f IH|n f IH]; intros G; cbn [good] in G; cbn [rev ev]; auto.
  - destruct G. exists (ev v a), (ev v b). auto.
  - destruct G. exists (ev v a), (ev v b). auto.
  - destruct G. exists (ev v a), (ev v b). auto.
  - destruct G as (? & ? & ?). exists (ev v a), (ev v b). auto 6.
  - exists (ev v a). auto.
  - destruct G. exists (ev v a). auto.
  - destruct G as (Ga & Gb & Gc & Gd & Ge). exists (ev v a), (ev v b). split; [auto|]. split; [auto|].
    unfold ltb. destruct (Rlt_dec (ev v a) (ev v b)) as [L|L]; [auto|].
    destruct (Req_dec (ev v a) (ev v b)) as [E|E]; [apply IHd; apply Ge; exact E|]. apply IHd, Gd. lra.
  - exists (fun k => ev v (f k)). split; [auto|]. rewrite <- lsum_tab. destruct (tab n (fun k => ev v (f k))) as [|x l]; cbn [summed]; [reflexivity|].
    exists (left_tree x l). rewrite left_leaves. split; [apply Permutation_refl|]. apply left_added; assumption.
  - destruct G as [N G]. exists (fun k => ev v (f k)). auto.
Qed.
