(** Training a multilayer perceptron in floats. *)
From Coq Require Import Reals Lra Lia ZArith Permutation List Bool.
From Verif Require Import Base BaseFacts Sums S_Float M_Im2col S_Im2col M_Kernels M_Conv M_Layers M_Optim M_Loss S_Grad S_Loss M_Round S_Round P_Kernels P_Float P_Round P_Round2 P_Round5 P_Loss P_Vjp2 P_Optim M_Ieee S_Ieee P_Ieee P_Ieee2 P_Ieee3 P_Ieee4 P_Ieee5 P_Ieee7 P_Ieee8 P_Ieee10 P_Ieee11.
Import ListNotations.
Open Scope R_scope.

Lemma growth_ge c : 1 <= (1 + eps32) ^ c. Proof. apply pow_R1_Rle. pose proof eps32_pos. lra. Qed.
Lemma sum_grown_le n A : 0 <= A -> A <= sum_grown n A.
Proof.
  intros A0. unfold sum_grown. pose proof (growth_ge (n - 1)) as P. pose proof (pos_INR (n - 1)) as N. pose proof tiny32_pos as T.
  assert (0 <= INR (n - 1) * (1 + eps32) ^ (n - 1) * tiny32) by (apply Rmult_le_pos; [apply Rmult_le_pos|]; lra). nra.
Qed.
Lemma sum_error_pos c : 0 <= sum_error c. Proof. unfold sum_error. pose proof (growth_ge c). lra. Qed.

(** A sum against the sum of exact terms. *)
Lemma sum_close n (ys ts : nat -> R) SA SE r : rsum n (fun k => Rabs (ys k)) <= SA -> rsum n (fun k => Rabs (ys k - ts k)) <= SE -> sum_grown n SA <= top ->
  fsummed (tab n (fun k => Fin (ys k))) r ->
  exists s, r = Fin s /\ Rabs s <= sum_grown n SA /\ Rabs (s - rsum n ts) <= SE + sum_error (n - 1) * SA + INR (n - 1) * (1 + eps32) ^ (n - 1) * tiny32.
Proof.
  intros A E T F. pose proof (sum_grown_mono n _ _ A) as GM. destruct (fsummed_fin n ys r ltac:(lra) F) as (s & -> & SU & SB). exists s. split; [reflexivity|]. split; [lra|].
  pose proof (summed_bound eps32 tiny32 n ys s (Rlt_le _ _ eps32_pos) (Rlt_le _ _ tiny32_pos) SU) as B.
  replace (s - rsum n ts) with ((s - rsum n ys) + rsum n (fun k => ys k - ts k)) by (rewrite rsum_minus; ring).
  eapply Rle_trans; [apply Rabs_triang|]. pose proof (rsum_abs_le n (fun k => ys k - ts k)) as RA. pose proof (sum_error_pos (n - 1)) as SP. unfold sum_error in *.
  assert (((1 + eps32) ^ (n - 1) - 1) * rsum n (fun k => Rabs (ys k)) <= ((1 + eps32) ^ (n - 1) - 1) * SA) by (apply Rmult_le_compat_l; assumption). lra.
Qed.

(** One product. *)
Lemma product_close g h x F e B r : 0 <= F -> 0 <= B -> Rabs g <= F -> Rabs (g - h) <= e -> Rabs x <= B -> F * B <= top -> fmul (Fin g) (Fin x) r ->
  exists q, r = Fin q /\ Rabs q <= grown (F * B) /\ Rabs (q - h * x) <= e * B + eps32 * (F * B) + tiny32.
Proof.
  intros F0 B0 G H X T M. assert (A : Rabs (g * x) <= F * B) by (rewrite Rabs_mult; apply Rmult_le_compat; try apply Rabs_pos; assumption).
  destruct (mul_near g x r ltac:(lra) M) as (q & -> & N). exists q. split; [reflexivity|]. pose proof eps32_pos as E0. split.
  - unfold grown. apply (near_abs eps32 tiny32 (g * x)); [lra|exact N|exact A].
  - unfold near in N. replace (q - h * x) with ((q - g * x) + (g - h) * x) by ring. eapply Rle_trans; [apply Rabs_triang|]. rewrite (Rabs_mult (g - h)).
    assert (Rabs (g - h) * Rabs x <= e * B) by (apply Rmult_le_compat; try apply Rabs_pos; assumption).
    assert (eps32 * Rabs (g * x) <= eps32 * (F * B)) by (apply Rmult_le_compat_l; lra). lra.
Qed.

Lemma rsum_head n f : rsum (S n) f = f 0%nat + rsum n (fun k => f (S k)).
Proof. induction n as [|n IH]; [cbn; ring|]. change (rsum (S (S n)) f) with (rsum (S n) f + f (S n)). rewrite IH. cbn [rsum]. ring. Qed.

(** The update. *)
Lemma sgd_close lr w d T E Wb D r lib v p : v 0%nat p = Fin w -> v 1%nat p = Fin d -> Rabs w <= Wb -> Rabs d <= D -> Rabs (d - T) <= E ->
  Rabs lr * D <= top -> Wb + grown (Rabs lr * D) <= top -> fev lib v (sgd_ex lr p) r ->
  exists x, r = Fin x /\ Rabs x <= grown (Wb + grown (Rabs lr * D)) /\ Rabs (x - (w - lr * T)) <= step_error lr Wb D E.
Proof.
  intros EW ED WB DB DE T1 T2 (a & q & A & (l & b & L & Hb & M) & S). cbn in A, L, Hb. subst. rewrite EW in S. rewrite ED in M. pose proof eps32_pos as E0. pose proof tiny32_pos as T0.
  assert (LD : Rabs (lr * d) <= Rabs lr * D) by (rewrite Rabs_mult; apply Rmult_le_compat_l; [apply Rabs_pos|exact DB]).
  destruct (mul_near lr d q ltac:(lra) M) as (q' & -> & NQ). assert (QB : Rabs q' <= grown (Rabs lr * D)) by (unfold grown; apply (near_abs eps32 tiny32 (lr * d)); [lra|exact NQ|exact LD]).
  unfold near in NQ. unfold fsub in S. cbn in S.
  assert (WQ : Rabs (w + - q') <= Wb + grown (Rabs lr * D)) by (eapply Rle_trans; [apply Rabs_triang|]; rewrite Rabs_Ropp; lra).
  destruct (rnd_fin (w + - q') r) as (x & -> & _ & NX); [lra|exact S|]. exists x. split; [reflexivity|]. split.
  { unfold grown at 1. apply (near_abs eps32 tiny32 (w + - q')); [lra|exact NX|exact WQ]. }
  unfold near in NX. unfold step_error.
  replace (x - (w - lr * T)) with ((x - (w + - q')) + - ((q' - lr * d) + lr * (d - T))) by ring. eapply Rle_trans; [apply Rabs_triang|]. rewrite Rabs_Ropp.
  pose proof (Rabs_triang (q' - lr * d) (lr * (d - T))) as TR. rewrite (Rabs_mult lr (d - T)) in TR.
  assert (A1 : Rabs lr * Rabs (d - T) <= Rabs lr * E) by (apply Rmult_le_compat_l; [apply Rabs_pos|exact DE]).
  assert (A2 : eps32 * Rabs (lr * d) <= eps32 * (Rabs lr * D)) by (apply Rmult_le_compat_l; lra).
  assert (A3 : eps32 * Rabs (w + - q') <= eps32 * (Wb + grown (Rabs lr * D))) by (apply Rmult_le_compat_l; lra). lra.
Qed.

(** Sums of two or more floats are floats. *)
Lemma fadd_isf a b s : fadd a b (Fin s) -> isf s.
Proof.
  destruct a as [x|n|], b as [y|n'|]; cbn; try discriminate.
  - intros (H & _). exact H.
  - destruct (Bool.eqb n n'); discriminate.
Qed.
Lemma fsummed_isf x y l s : fsummed (x :: y :: l) (Fin s) -> isf s.
Proof.
  intros (t & P & A). destruct t as [z|a b].
  - apply Permutation_length in P. cbn in P. lia.
  - destruct A as (u & v & _ & _ & F). exact (fadd_isf _ _ _ F).
Qed.

Section Stage.
Variable lib : flt -> flt -> Prop.
Variables rows K m : nat.
Hypothesis R0 : (0 < rows)%nat.
Variables (g : nat -> flt) (h : nat -> R) (F e : R).
Hypothesis F0 : 0 <= F.
Hypothesis G : forall p, (p < rows * m)%nat -> exists x, g p = Fin x /\ Rabs x <= F /\ Rabs (x - h p) <= e.

Lemma e_pos p : (p < rows * m)%nat -> 0 <= e.
Proof. intros Hp. destruct (G p Hp) as (x & _ & _ & E). pose proof (Rabs_pos (x - h p)). lra. Qed.

(** Weights *)
Lemma weight_close (x : nat -> flt) B p r : 0 <= B -> (forall q, (q < rows * K)%nat -> x q = Fin (fval (x q)) /\ Rabs (fval (x q)) <= B) -> (p < m * K)%nat ->
  sum_grown rows (INR rows * grown (F * B)) <= top -> fev lib (among [x; g]) (linear_grad_ex rows K m p) r ->
  exists d, r = Fin d /\ Rabs d <= sum_grown rows (INR rows * grown (F * B)) /\
    Rabs (d - rsum rows (fun i => h (i * m + p / K)%nat * fval (x (i * K + p mod K)%nat))) <= dot_error rows (rows - 1) F e B.
Proof.
  intros B0 X Hp T (xs & XS & SU). assert (K0 : (0 < K)%nat) by (destruct K; [rewrite Nat.mul_0_r in Hp; lia|lia]).
  assert (PK : (p / K < m)%nat) by (apply Nat.div_lt_upper_bound; nia). assert (QK : (p mod K < K)%nat) by (apply Nat.mod_upper_bound; lia).
  assert (FB : 0 <= F * B) by (apply Rmult_le_pos; assumption). pose proof (grown_ge (F * B) FB) as GG.
  assert (N1 : 1 <= INR rows) by (apply (le_INR 1); lia). assert (FT : F * B <= top).
  { pose proof (sum_grown_le rows (INR rows * grown (F * B)) ltac:(nra)) as SL. nra. }
  assert (PR : forall i, (i < rows)%nat -> exists q, xs i = Fin q /\ Rabs q <= grown (F * B) /\ Rabs (q - h (i * m + p / K)%nat * fval (x (i * K + p mod K)%nat)) <= e * B + eps32 * (F * B) + tiny32).
  { intros i Hi. destruct (XS i Hi) as (a & b & A & Bb & ML). cbn in A, Bb. subst a b. destruct (G (i * m + p / K)%nat (row_in rows m i _ Hi PK)) as (y & EY & YF & YE).
    destruct (X (i * K + p mod K)%nat (row_in rows K i _ Hi QK)) as (EX & XB). rewrite EY, EX in ML. exact (product_close y _ _ F e B (xs i) F0 B0 YF YE XB FT ML). }
  assert (EX : tab rows xs = tab rows (fun i => Fin (fval (xs i)))) by (apply ftab_ext; intros i Hi; destruct (PR i Hi) as (q & -> & _); reflexivity). rewrite EX in SU.
  destruct (sum_close rows (fun i => fval (xs i)) (fun i => h (i * m + p / K)%nat * fval (x (i * K + p mod K)%nat)) (INR rows * grown (F * B)) (INR rows * (e * B + eps32 * (F * B) + tiny32)) r) as (s & -> & SB & SE).
  - rewrite <- rsum_const. apply rsum_le. intros i Hi. destruct (PR i Hi) as (q & -> & Q & _). exact Q.
  - rewrite <- rsum_const. apply rsum_le. intros i Hi. destruct (PR i Hi) as (q & -> & _ & Q). exact Q.
  - exact T.
  - exact SU.
  - exists s. split; [reflexivity|]. split; [exact SB|]. unfold dot_error. exact SE.
Qed.

(** Bias *)
Lemma bias_close (x : nat -> flt) B p r : 1 <= B -> (p < m)%nat -> sum_grown rows (INR rows * grown (F * B)) <= top -> fev lib (among [x; g]) (bias_grad_ex rows m p) r ->
  exists d, r = Fin d /\ Rabs d <= sum_grown rows (INR rows * grown (F * B)) /\ Rabs (d - rsum rows (fun i => h (i * m + p)%nat)) <= dot_error rows (rows - 1) F e B.
Proof.
  intros B1 Hp T (xs & XS & SU). assert (FB : F <= F * B) by nra. pose proof (grown_ge (F * B) ltac:(lra)) as GG. assert (N1 : 1 <= INR rows) by (apply (le_INR 1); lia).
  assert (PR : forall i, (i < rows)%nat -> exists q, xs i = Fin q /\ Rabs q <= grown (F * B) /\ Rabs (q - h (i * m + p)%nat) <= e * B + eps32 * (F * B) + tiny32).
  { intros i Hi. pose proof (XS i Hi) as A. cbn in A. pose proof (row_in rows m i p Hi Hp) as Hq. destruct (G _ Hq) as (y & EY & YF & YE). exists y. rewrite A, EY. split; [reflexivity|]. split; [lra|].
    pose proof (e_pos _ Hq). pose proof eps32_pos. pose proof tiny32_pos. nra. }
  assert (EX : tab rows xs = tab rows (fun i => Fin (fval (xs i)))) by (apply ftab_ext; intros i Hi; destruct (PR i Hi) as (q & -> & _); reflexivity). rewrite EX in SU.
  destruct (sum_close rows (fun i => fval (xs i)) (fun i => h (i * m + p)%nat) (INR rows * grown (F * B)) (INR rows * (e * B + eps32 * (F * B) + tiny32)) r) as (s & -> & SB & SE).
  - rewrite <- rsum_const. apply rsum_le. intros i Hi. destruct (PR i Hi) as (q & -> & Q & _). exact Q.
  - rewrite <- rsum_const. apply rsum_le. intros i Hi. destruct (PR i Hi) as (q & -> & _ & Q). exact Q.
  - exact T.
  - exact SU.
  - exists s. split; [reflexivity|]. split; [exact SB|]. unfold dot_error. exact SE.
Qed.

(** The gradient of the input *)
Lemma input_close (w : nat -> flt) Wb p r : 0 <= Wb -> (forall q, (q < m * K)%nat -> w q = Fin (fval (w q)) /\ Rabs (fval (w q)) <= Wb) -> (p < rows * K)%nat ->
  sum_grown (S m) (INR m * grown (F * Wb)) <= top -> fev lib (among [w; g]) (linear_input_ex K m p) r ->
  exists d, r = Fin d /\ isf d /\ Rabs d <= sum_grown (S m) (INR m * grown (F * Wb)) /\
    Rabs (d - rsum m (fun j => h (p / K * m + j)%nat * fval (w (j * K + p mod K)%nat))) <= dot_error m m F e Wb.
Proof.
  intros B0 X Hp T (xs & XS & SU). assert (K0 : (0 < K)%nat) by (destruct K; [rewrite Nat.mul_0_r in Hp; lia|lia]).
  assert (PK : (p / K < rows)%nat) by (apply Nat.div_lt_upper_bound; nia). assert (QK : (p mod K < K)%nat) by (apply Nat.mod_upper_bound; lia).
  assert (FB : 0 <= F * Wb) by (apply Rmult_le_pos; assumption). pose proof (grown_ge (F * Wb) FB) as GG.
  assert (Z : xs 0%nat = Fin 0) by exact (XS 0%nat ltac:(lia)).
  assert (PR : forall j, (j < m)%nat -> exists q, xs (S j) = Fin q /\ Rabs q <= grown (F * Wb) /\ Rabs (q - h (p / K * m + j)%nat * fval (w (j * K + p mod K)%nat)) <= e * Wb + eps32 * (F * Wb) + tiny32).
  { intros j Hj. assert (N1 : 1 <= INR m) by (apply (le_INR 1); lia). assert (FT : F * Wb <= top).
    { pose proof (sum_grown_le (S m) (INR m * grown (F * Wb)) ltac:(nra)) as SL. nra. }
    destruct (XS (S j) ltac:(lia)) as (a & b & A & Bb & ML). cbn in A, Bb. subst a b. destruct (G (p / K * m + j)%nat (row_in rows m _ _ PK Hj)) as (y & EY & YF & YE).
    destruct (X (j * K + p mod K)%nat (row_in m K j _ Hj QK)) as (EX & XB). rewrite EY, EX in ML. exact (product_close y _ _ F e Wb (xs (S j)) F0 B0 YF YE XB FT ML). }
  assert (EX : tab (S m) xs = tab (S m) (fun i => Fin (fval (xs i)))).
  { apply ftab_ext. intros [|i] Hi; [rewrite Z; reflexivity|destruct (PR i ltac:(lia)) as (q & -> & _); reflexivity]. }
  pose proof SU as SU0. rewrite EX in SU.
  destruct (sum_close (S m) (fun i => fval (xs i)) (fun i => match i with O => 0 | S j => h (p / K * m + j)%nat * fval (w (j * K + p mod K)%nat) end)
              (INR m * grown (F * Wb)) (INR m * (e * Wb + eps32 * (F * Wb) + tiny32)) r) as (s & -> & SB & SE).
  - rewrite rsum_head, Z. cbn [fval]. rewrite Rabs_R0, Rplus_0_l, <- rsum_const. apply rsum_le. intros i Hi. destruct (PR i Hi) as (q & -> & Q & _). exact Q.
  - rewrite rsum_head, Z. cbn [fval]. rewrite Rminus_0_r, Rabs_R0, Rplus_0_l, <- rsum_const. apply rsum_le. intros i Hi. destruct (PR i Hi) as (q & -> & _ & Q). exact Q.
  - exact T.
  - exact SU.
  - exists s. split; [reflexivity|]. split; [|split; [exact SB|]].
    + destruct m as [|m'].
      * cbn in SU0. destruct SU0 as (t & P & A). destruct t as [z|a b]; [|destruct A as (u & v & _ & _ & FA); exact (fadd_isf _ _ _ FA)].
        cbn in A, P. apply Permutation_length_1 in P. subst z. rewrite Z in A. injection A as ->. exact isf_0.
      * unfold tab in SU0. cbn [seq map] in SU0. exact (fsummed_isf _ _ _ _ SU0).
    + rewrite rsum_head, Rplus_0_l in SE. replace (S m - 1)%nat with m in SE by lia. unfold dot_error. exact SE.
Qed.
End Stage.

Lemma relu_close lib (pre gx : nat -> flt) p r x : gx p = Fin x -> isf x -> fev lib (among [pre; gx]) (relu_grad_ex p) r -> r = Fin (if flt_ltb (Fin 0) (pre p) then x else 0).
Proof.
  intros E Fx (a & b & A & (c & d & C & D & I) & S). cbn in A, C, D. subst a c d. cbn [fadd] in S. unfold among in *. cbn [nth] in *. destruct (flt_ltb (Fin 0) (pre p)).
  - cbn [fev nth] in I. subst b. rewrite E in S. apply (fadd_zero_l x r Fx). exact S.
  - cbn [fev] in I. subst b. apply (fadd_zero_l 0 r isf_0). exact S.
Qed.

Section Steps.
Variable lib : flt -> flt -> Prop.
Variables (rows : nat) (lr B Wb : R).
Hypothesis R0 : (0 < rows)%nat.
Hypothesis B1 : 1 <= B.
Hypothesis W0 : 0 <= Wb.

Definition Dk (F : R) : R := sum_grown rows (INR rows * grown (F * B)).

Lemma steps_close l : forall m g h F e, 0 <= F -> (forall p, (p < rows * m)%nat -> exists x, g p = Fin x /\ Rabs x <= F /\ Rabs (x - h p) <= e) ->
  linear_steps lib rows lr m g l -> Forall (stage_ok rows B Wb) l ->
  (forall k, (k < length l)%nat -> let D := Dk (grad_size Wb F l k) in grad_size Wb F l k <= top /\ D <= top /\ Rabs lr * D <= top /\ Wb + grown (Rabs lr * D) <= top) ->
  forall k s, nth_error l k = Some s ->
  let D := Dk (grad_size Wb F l k) in let E := step_error lr Wb D (dot_error rows (rows - 1) (grad_size Wb F l k) (grad_error Wb F e l k) B) in
  (forall p, (p < s_out s * s_in s)%nat -> exists x, s_w' s p = Fin x /\ Rabs x <= grown (Wb + grown (Rabs lr * D)) /\
     Rabs (x - (fval (s_w s p) - lr * rsum rows (fun i => grad_at h l k (i * s_out s + p / s_in s)%nat * fval (s_x s (i * s_in s + p mod s_in s)%nat)))) <= E) /\
  (forall p, (p < s_out s)%nat -> exists x, s_b' s p = Fin x /\ Rabs x <= grown (Wb + grown (Rabs lr * D)) /\
     Rabs (x - (fval (s_b s p) - lr * rsum rows (fun i => grad_at h l k (i * s_out s + p)%nat))) <= E).
Proof.
  induction l as [|s0 t IH]; intros m g h F e F0 G ST OK TP k s NS; [destruct k; discriminate|].
  destruct ST as (SO & dW & db & gx & gz & S1 & S2 & S3 & S4 & S5 & S6 & S7). pose proof (Forall_inv OK) as (OX & OW & OB). pose proof (Forall_inv_tail OK) as OT.
  rewrite SO in *. destruct k as [|k].
  - injection NS as <-. cbn [grad_size grad_error grad_at]. destruct (TP 0%nat ltac:(cbn; lia)) as (_ & T1 & T2 & T3). cbn [grad_size] in T1, T2, T3. set (D := Dk F) in *. rewrite SO. split.
    + intros p Hp. destruct (weight_close lib rows (s_in s0) m R0 g h F e F0 G (s_x s0) B p (dW p) ltac:(lra) OX Hp T1 (S1 p Hp)) as (d & ED & DB & DE). destruct (OW p Hp) as (EW & WB).
      apply (sgd_close lr (fval (s_w s0 p)) d _ _ Wb D (s_w' s0 p) lib (among [s_w s0; dW]) p EW ED WB DB DE T2 T3). exact (S3 p Hp).
    + intros p Hp. destruct (bias_close lib rows m R0 g h F e F0 G (s_x s0) B p (db p) B1 Hp T1 (S2 p Hp)) as (d & ED & DB & DE). destruct (OB p Hp) as (EW & WB).
      apply (sgd_close lr (fval (s_b s0 p)) d _ _ Wb D (s_b' s0 p) lib (among [s_b s0; db]) p EW ED WB DB DE T2 T3). exact (S4 p Hp).
  - cbn [nth_error] in NS. cbn [grad_size grad_error grad_at]. rewrite SO.
    assert (LT : (0 < length t)%nat) by (destruct t; [destruct k; discriminate|cbn; lia]).
    assert (T1 : sum_grown (S m) (INR m * grown (F * Wb)) <= top).
    { destruct (TP 1%nat ltac:(cbn; lia)) as (T1 & _). cbn [grad_size] in T1. rewrite SO in T1. destruct t; exact T1. }
    assert (FW : 0 <= grown (F * Wb)) by (pose proof (grown_ge (F * Wb) (Rmult_le_pos _ _ F0 W0)); pose proof (Rmult_le_pos _ _ F0 W0); lra).
    refine (IH (s_in s0) gz _ (sum_grown (S m) (INR m * grown (F * Wb))) (dot_error m m F e Wb) _ _ S7 OT _ k s NS).
    + pose proof (sum_grown_le (S m) (INR m * grown (F * Wb)) (Rmult_le_pos _ _ (pos_INR m) FW)). pose proof (Rmult_le_pos _ _ (pos_INR m) FW). lra.
    + intros p Hp. destruct (input_close lib rows (s_in s0) m R0 g h F e F0 G (s_w s0) Wb p (gx p) W0 OW Hp T1 (S5 p Hp)) as (d & ED & FD & DB & DE).
      pose proof (relu_close lib (s_pre s0) gx p (gz p) d ED FD (S6 p Hp)) as EZ. cbn beta. destruct (flt_ltb (Fin 0) (s_pre s0 p)).
      * exists d. split; [exact EZ|]. split; [exact DB|exact DE].
      * exists 0. split; [exact EZ|]. rewrite Rminus_0_r, Rabs_R0. split; [pose proof (Rabs_pos d); lra|]. eapply Rle_trans; [apply Rabs_pos|exact DE].
    + intros k' Hk'. pose proof (TP (S k') ltac:(cbn; lia)) as TQ. cbn [grad_size] in TQ. rewrite SO in TQ. exact TQ.
Qed.
End Steps.

(** ** NaN *)
Lemma input_nan lib K m v p r j : (j < m)%nat -> v 1%nat (p / K * m + j)%nat = NaN -> fev lib v (linear_input_ex K m p) r -> r = NaN.
Proof.
  intros Hj E (xs & XS & SU). apply (fsummed_nan (S m) xs r (S j) ltac:(lia)); [|exact SU]. destruct (XS (S j) ltac:(lia)) as (a & b & A & _ & ML). cbn in A. rewrite E in A. subst a. exact ML.
Qed.
Lemma relu_nan lib v p r : v 1%nat p = NaN -> flt_ltb (Fin 0) (v 0%nat p) = true -> fev lib v (relu_grad_ex p) r -> r = NaN.
Proof.
  intros E T (a & b & _ & (c & d & C & D & I) & S). cbn in C, D. subst c d. rewrite T in I. cbn in I. rewrite E in I. subst b. exact (fadd_nan_r _ _ S).
Qed.

Section Nan.
Variable lib : flt -> flt -> Prop.
Variables (rows : nat) (lr : R) (i : nat).
Hypothesis Hi : (i < rows)%nat.

(** Unit [j] of the first layer of the list has a NaN for sample [i]. *)
Lemma unit_nan m g s t j : linear_steps lib rows lr m g (s :: t) -> (j < m)%nat -> g (i * m + j)%nat = NaN ->
  s_b' s j = NaN /\ forall q, (q < s_in s)%nat -> s_w' s (j * s_in s + q)%nat = NaN.
Proof.
  intros (SO & dW & db & gx & gz & S1 & S2 & S3 & S4 & _) Hj NA. split.
  - apply (sgd_nan lib lr (among [s_b s; db]) j); [|apply S4, Hj]. cbn. destruct (S2 j Hj) as (xs & XS & SU). apply (fsummed_nan rows xs (db j) i Hi); [|exact SU]. rewrite (XS i Hi). exact NA.
  - intros q Hq. assert (Hp : (j * s_in s + q < m * s_in s)%nat) by (apply row_in; assumption).
    apply (sgd_nan lib lr (among [s_w s; dW]) (j * s_in s + q)%nat); [|apply S3, Hp]. cbn. apply (linear_grad_nan lib rows m (s_in s) (among [s_x s; g]) (j * s_in s + q) _ i Hi); [|apply S1, Hp].
    rewrite div_in by exact Hq. exact NA.
Qed.

Lemma nan_spreads l : forall m g j, linear_steps lib rows lr m g l -> (j < m)%nat -> g (i * m + j)%nat = NaN ->
  forall k s0 s c, nth_error l k = Some s0 -> nth_error l (S k) = Some s ->
  (forall k' s', (k' < k)%nat -> nth_error l k' = Some s' -> exists c', (c' < s_in s')%nat /\ flt_ltb (Fin 0) (s_pre s' (i * s_in s' + c')%nat) = true) ->
  (c < s_in s0)%nat -> flt_ltb (Fin 0) (s_pre s0 (i * s_in s0 + c)%nat) = true ->
  s_b' s c = NaN /\ forall q, (q < s_in s)%nat -> s_w' s (c * s_in s + q)%nat = NaN.
Proof.
  induction l as [|s1 t IH]; intros m g j ST Hj NA k s0 s c N0 N1 AC Hc CC; [destruct k; discriminate|].
  pose proof ST as (SO & dW & db & gx & gz & S1 & S2 & S3 & S4 & S5 & S6 & S7).
  assert (GZ : forall c', (c' < s_in s1)%nat -> flt_ltb (Fin 0) (s_pre s1 (i * s_in s1 + c')%nat) = true -> gz (i * s_in s1 + c')%nat = NaN).
  { intros c' Hc' AA. pose proof (row_in rows _ i c' Hi Hc') as Hp.
    assert (E : gx (i * s_in s1 + c')%nat = NaN) by (apply (input_nan lib (s_in s1) m (among [s_w s1; g]) (i * s_in s1 + c')%nat _ j Hj); [rewrite div_in by exact Hc'; exact NA|exact (S5 _ Hp)]).
    apply (relu_nan lib (among [s_pre s1; gx]) (i * s_in s1 + c')%nat); [exact E|exact AA|exact (S6 _ Hp)]. }
  destruct k as [|k].
  - cbn in N0, N1. injection N0 as <-. destruct t as [|s2 t]; [discriminate|]. injection N1 as ->. exact (unit_nan (s_in s1) gz s t c S7 Hc (GZ c Hc CC)).
  - cbn [nth_error] in N0, N1. destruct (AC 0%nat s1 ltac:(lia) eq_refl) as (c1 & Hc1 & A1).
    apply (IH (s_in s1) gz c1 S7 Hc1 (GZ c1 Hc1 A1) k s0 s c N0 N1); [|exact Hc|exact CC]. intros k' s' L' N'. exact (AC (S k') s' ltac:(lia) N').
Qed.
End Nan.

(** The step of the last layer. *)
Lemma mlp_last lib rows m label lr prob s t : mlp_step lib rows m label lr prob (s :: t) ->
  exists gin, last_step lib rows (s_in s) m label lr prob (s_x s) (s_w s) (s_b s) gin (s_w' s) (s_b' s) /\ linear_steps lib rows lr m gin (s :: t).
Proof.
  intros (gout & gin & G1 & G2 & ST). exists gin. split; [|exact ST]. destruct ST as (_ & dW & db & gx & gz & S1 & S2 & S3 & S4 & _). exists gout, dW, db. auto 10.
Qed.

(** ** The expressions are the kernels *)
Lemma linear_input_is n K m w go gi : length go = (n * m)%nat -> length w = (m * K)%nat -> length gi = (n * K)%nat ->
  linear_input_grad n m go m K w n K gi = Ok (tab (n * K) (fun p => ev (arrays [w; go; gi]) (linear_input_ex K m p))).
Proof.
  intros L1 L2 L3. unfold linear_input_grad. rewrite !emap_Ok by lia. rewrite !same_refl. cbn [bind]. rewrite put2_full by exact L3. f_equal. apply ftab_ext. intros p Hp.
  assert (M0 : (0 < K)%nat) by (destruct K; [rewrite Nat.mul_0_r in Hp; lia|lia]).
  unfold linear_input_ex. cbn [ev]. rewrite rsum_head. cbn [ev arrays nth]. unfold el.
  assert (Ep : p = (p / K * K + p mod K)%nat) by (rewrite (Nat.mul_comm (p / K)); apply Nat.div_mod; lia). rewrite <- Ep. reflexivity.
Qed.
Lemma relu_grad_is n x go gi : length x = n -> length go = n -> length gi = n ->
  elementwise_grad relu_grad n x n go n gi = Ok (tab n (fun p => ev (arrays [x; go; gi]) (relu_grad_ex p))).
Proof.
  intros L1 L2 L3. unfold elementwise_grad. rewrite !emap_Ok by lia. rewrite !same_refl. cbn [bind]. rewrite put_full by exact L3. reflexivity.
Qed.
