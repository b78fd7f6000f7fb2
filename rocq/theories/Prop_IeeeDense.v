(** Property C71: the gradients of dense networks with any activations in floats.  The model is the arithmetic of M_Ieee:
    any rounding, any order of sums, infinities and NaN. *)
From Coq Require Import Reals Lra Lia List.
From Verif Require Import Base BaseFacts Sums M_Im2col M_Kernels M_Layers S_Float S_Act M_Round S_Round P_Float P_Round M_Ieee S_Ieee P_Ieee P_Ieee2 P_Ieee7 P_Ieee9 P_Ieee10 P_Ieee11 P_Ieee12
  Prop_Ieee P_IeeeOpt M_IeeeDense S_IeeeDense P_IeeeDense.
Import ListNotations.
Open Scope R_scope.

(** The expressions, evaluated exactly, are what the kernels compute, and [derivative] is the derivative of the documented
    function, where there is one. *)
Theorem C71_expressions_are_the_kernels :
  (forall (n : nat) (a : act) (x go gi : list R), length x = n -> length go = n -> length gi = n ->
     elementwise_grad (match a with AReLU => relu_grad | ALeaky alpha => leaky_grad alpha | AELU alpha => elu_grad alpha | ASigmoid => sigmoid_grad end) n x n go n gi =
     Ok (tab n (fun p => ev (arrays [x; go; gi]) (act_grad_ex a p)))) /\
  (forall (a : act) (x l : R), derivable_pt_lim (act_fn a) x l -> derivative a (act_reads a x) = l) /\
  (forall (a : act) (x go gi : R), ev (fun v _ => match v with 0%nat => x | 1%nat => go | _ => gi end) (act_grad_ex a 0) = gi + go * derivative a x).
Proof.
  split; [exact act_grad_is|]. split; [exact derivative_is|]. intros a x go gi. unfold act_grad_ex. cbn [ev]. f_equal.
  destruct a as [|alpha|alpha|]; cbn [act_part_ex ev derivative]; unfold ltb; try destruct (Rlt_dec _ _); ring.
Qed.
Print Assumptions C71_expressions_are_the_kernels.

(** Backward passes through Linear layers with ReLU, LeakyReLU, ELU, Sigmoid or nothing between them, any number, any
    widths: if the gradient of the output is at most [F] and within [e] of [h], the gradients of all weights and biases of
    layer [k], counted from the last, are finite and near the exact ones, by the chain rule. *)
Theorem C71_gradients_are_accurate :
  forall (lib : flt -> flt -> Prop) (rows m : nat) (g : nat -> flt) (h : nat -> R) (l : list dense) (u eta B Wb F e : R),
  exp_ok lib -> exp_near u eta lib -> 0 <= u -> 0 <= eta -> (0 < rows)%nat -> 1 <= B -> 0 <= Wb -> 0 <= F ->
  (forall p, (p < rows * m)%nat -> exists x, g p = Fin x /\ Rabs x <= F /\ Rabs (x - h p) <= e) ->
  dense_backward lib rows m g l -> Forall (dense_ok rows B Wb) l ->
  let D k := sum_grown rows (INR rows * grown (dense_size Wb F l k * B)) in
  (forall k, (k < length l)%nat -> dense_size Wb F l k <= top /\ D k <= top) ->
  forall k s, nth_error l k = Some s ->
  let err := dot_error rows (rows - 1) (dense_size Wb F l k) (dense_error u eta Wb F e l k) B in
  (forall p, (p < d_out s * d_in s)%nat -> exists x, d_dw s p = Fin x /\ Rabs x <= D k /\
     Rabs (x - rsum rows (fun i => dense_grad h l k (i * d_out s + p / d_in s)%nat * fval (d_x s (i * d_in s + p mod d_in s)%nat))) <= err) /\
  (forall p, (p < d_out s)%nat -> exists x, d_db s p = Fin x /\ Rabs x <= D k /\
     Rabs (x - rsum rows (fun i => dense_grad h l k (i * d_out s + p)%nat)) <= err).
Proof.
  intros lib rows m g h l u eta B Wb F e EO EN U0 H0 R0 B1 W0 F0 G BW OK D TP k s NS.
  exact (dense_close lib u eta EO EN U0 H0 rows B Wb R0 B1 W0 l m g h F e F0 G BW OK TP k s NS).
Qed.
Print Assumptions C71_gradients_are_accurate.

(** The gradient of the loss behind Softmax, for labels that are not too unlikely. *)
Lemma classifier_gradient lib rows m label z prob l u eta y :
  exp_ok lib -> exp_near u eta lib -> u <= / 2 -> 0 <= eta <= / 2 ^ 149 -> (forall a, exists r, lib a r) ->
  (0 < rows)%nat -> (rows <= 2 ^ 23)%nat -> (m <= 2 ^ 23)%nat -> (forall i, (i < rows)%nat -> (label i < m)%nat) ->
  fsoftmax lib (among [fun p => Fin (z p)]) rows m prob -> classifier_backward lib rows m label prob l ->
  (forall i k, (i < rows)%nat -> (k < m)%nat -> z (i * m + k)%nat - 60 <= z (i * m + label i)%nat) ->
  (forall p, (p < rows * m)%nat -> prob p = Fin (y p)) ->
  exists gin, (forall p, (p < rows * m)%nat -> exists x, gin p = Fin x /\ Rabs x <= 2 / INR rows /\
                 Rabs (x - (y p - (if (p mod m =? label (p / m))%nat then 1 else 0)) / INR rows) <= 32 * eps32 / INR rows) /\ dense_backward lib rows m gin l.
Proof.
  intros EO EN Hu He LT R0 RL LM LAB SM (gout & gin & S1 & S2 & BW) GAP PY. exists gin. split; [|exact BW].
  assert (X := fun v e => fev_ex lib LT v e). set (z0 := fun _ : nat => Fin 0).
  destruct (choose m (fun p r => fev lib (among [z0; gin]) (bias_grad_ex rows m p) r)) as (db & DB); [intros p _; apply X; cbn; auto|].
  destruct (choose m (fun p r => fev lib (among [z0; db]) (sgd_ex 0 p) r)) as (b' & B'); [intros p _; apply X; cbn; auto|].
  assert (LS : last_step lib rows 0 m label 0 prob z0 z0 z0 gin z0 b').
  { exists gout, z0, db. split; [exact S1|]. split; [exact S2|]. split; [intros p Hp; rewrite Nat.mul_0_r in Hp; lia|]. split; [exact DB|]. split; [intros p Hp; rewrite Nat.mul_0_r in Hp; lia|exact B']. }
  assert (N1 : 1 <= INR rows) by (apply (le_INR 1); lia). assert (IN : 0 < / INR rows) by (apply Rinv_0_lt_compat; lra).
  intros p Hp. destruct (logits_accurate lib EO rows 0 m label 0 z prob z0 z0 z0 gin z0 b' R0 RL LM LAB SM u eta EN Hu He GAP y PY LS p Hp) as (g & EG & G). unfold target in G.
  set (tg := if (p mod m =? label (p / m))%nat then 1 else 0) in *. exists g. split; [exact EG|].
  assert (DE : Rabs (g - (y p - tg) / INR rows) <= 32 * eps32 / INR rows).
  { replace (g - (y p - tg) / INR rows) with ((g * INR rows - (y p - tg)) * / INR rows) by (field; lra).
    rewrite Rabs_mult, (Rabs_right (/ INR rows)) by lra. apply Rmult_le_compat_r; [lra|exact G]. }
  split; [|exact DE]. destruct (C67_softmax_never_overflows lib z rows m prob EO SM p Hp) as (y1 & EY & _ & Y & _). rewrite PY in EY by exact Hp. injection EY as <-.
  assert (HB : Rabs ((y p - tg) / INR rows) <= 1 / INR rows).
  { unfold Rdiv. rewrite Rabs_mult, (Rabs_right (/ INR rows)) by lra. apply Rmult_le_compat_r; [lra|]. unfold tg. destruct (p mod m =? label (p / m))%nat; apply Rabs_le; lra. }
  replace g with ((g - (y p - tg) / INR rows) + (y p - tg) / INR rows) by ring. eapply Rle_trans; [apply Rabs_triang|].
  assert (E32 : 32 * eps32 <= 1).
  { assert (eps32 <= / 64) by (unfold eps32; apply Rinv_le_contravar; [lra|]; replace 64 with (2 ^ 6) by ring; apply Rle_pow; [lra|lia]). lra. }
  assert (32 * eps32 / INR rows <= 1 / INR rows) by (unfold Rdiv; apply Rmult_le_compat_r; lra). unfold Rdiv in *. lra.
Qed.

(** From the loss on: a network that ends with Linear, Softmax and CrossEntropyLoss. *)
Theorem C71_classifier_gradients_are_accurate :
  forall (lib : flt -> flt -> Prop) (rows m : nat) (label : nat -> nat) (z : nat -> R) (prob : nat -> flt) (l : list dense) (u eta : R) (y : nat -> R) (B Wb : R),
  exp_ok lib -> exp_near u eta lib -> 0 <= u <= / 2 -> 0 <= eta <= / 2 ^ 149 -> (forall a, exists r, lib a r) ->
  (0 < rows)%nat -> (rows <= 2 ^ 23)%nat -> (m <= 2 ^ 23)%nat -> (forall i, (i < rows)%nat -> (label i < m)%nat) ->
  fsoftmax lib (among [fun p => Fin (z p)]) rows m prob -> classifier_backward lib rows m label prob l ->
  (forall i k, (i < rows)%nat -> (k < m)%nat -> z (i * m + k)%nat - 60 <= z (i * m + label i)%nat) ->
  (forall p, (p < rows * m)%nat -> prob p = Fin (y p)) ->
  Forall (dense_ok rows B Wb) l -> 1 <= B -> 0 <= Wb ->
  let h p := (y p - (if (p mod m =? label (p / m))%nat then 1 else 0)) / INR rows in
  let F k := dense_size Wb (2 / INR rows) l k in
  let D k := sum_grown rows (INR rows * grown (F k * B)) in
  (forall k, (k < length l)%nat -> F k <= top /\ D k <= top) ->
  forall k s, nth_error l k = Some s ->
  let err := dot_error rows (rows - 1) (F k) (dense_error u eta Wb (2 / INR rows) (32 * eps32 / INR rows) l k) B in
  (forall p, (p < d_out s * d_in s)%nat -> exists x, d_dw s p = Fin x /\ Rabs x <= D k /\
     Rabs (x - rsum rows (fun i => dense_grad h l k (i * d_out s + p / d_in s)%nat * fval (d_x s (i * d_in s + p mod d_in s)%nat))) <= err) /\
  (forall p, (p < d_out s)%nat -> exists x, d_db s p = Fin x /\ Rabs x <= D k /\
     Rabs (x - rsum rows (fun i => dense_grad h l k (i * d_out s + p)%nat)) <= err).
Proof.
  intros lib rows m label z prob l u eta y B Wb EO EN (U0 & U1) He LT R0 RL LM LAB SM BW GAP PY OK B1 W0 h F D TP k s NS.
  destruct (classifier_gradient lib rows m label z prob l u eta y EO EN U1 He LT R0 RL LM LAB SM BW GAP PY) as (gin & G & BK).
  assert (N1 : 1 <= INR rows) by (apply (le_INR 1); lia). assert (IN : 0 < / INR rows) by (apply Rinv_0_lt_compat; lra).
  refine (C71_gradients_are_accurate lib rows m gin h l u eta B Wb (2 / INR rows) (32 * eps32 / INR rows) EO EN U0 (proj1 He) R0 B1 W0 _ G BK OK TP k s NS).
  unfold Rdiv. lra.
Qed.
Print Assumptions C71_classifier_gradients_are_accurate.

(** Finding: a unit with Sigmoid whose output has been rounded to 0 or 1 for all samples of a batch learns nothing from it,
    however wrong the network is, and neither does a unit with ReLU that was inactive: the gradients of its weights and of
    its bias are exactly zero, and SGD leaves them as they are. *)
Theorem C71_finding_saturated_units_learn_nothing :
  forall (lib : flt -> flt -> Prop) (rows m : nat) (g : nat -> flt) (l : list dense) (u eta B Wb F : R),
  exp_ok lib -> exp_near u eta lib -> 0 <= u -> 0 <= eta -> (0 < rows)%nat -> 0 <= Wb -> 0 <= F ->
  (forall p, (p < rows * m)%nat -> exists x, g p = Fin x /\ Rabs x <= F) ->
  dense_backward lib rows m g l -> Forall (dense_ok rows B Wb) l ->
  (forall k, (k < length l)%nat -> dense_size Wb F l k <= top /\ sum_grown rows (INR rows * grown (dense_size Wb F l k * B)) <= top) ->
  forall k s t c, nth_error l k = Some s -> nth_error l (S k) = Some t -> (c < d_in s)%nat -> saturated rows s c ->
  d_db t c = Fin 0 /\ (forall q, (q < d_in t)%nat -> d_dw t (c * d_in t + q)%nat = Fin 0) /\
  forall (lr x : R) (r : flt), isf x ->
    (fev lib (among [fun _ => Fin x; d_db t]) (sgd_ex lr c) r -> r = Fin x) /\
    (forall q, (q < d_in t)%nat -> fev lib (among [fun _ => Fin x; d_dw t]) (sgd_ex lr (c * d_in t + q)) r -> r = Fin x).
Proof.
  intros lib rows m g l u eta B Wb F EO EN U0 H0 R0 W0 F0 G BW OK TP k s t c NS NT Hc SA.
  assert (G' : forall p, (p < rows * m)%nat -> exists x, g p = Fin x /\ Rabs x <= F /\ Rabs (x - fval (g p)) <= 0).
  { intros p Hp. destruct (G p Hp) as (x & EX & XB). exists x. split; [exact EX|]. split; [exact XB|]. rewrite EX. cbn [fval]. rewrite Rminus_diag_eq, Rabs_R0 by reflexivity. lra. }
  destruct (dense_dead lib u eta EO EN U0 H0 rows B Wb R0 W0 l m g (fun p => fval (g p)) F 0 F0 G' BW OK TP k s t c NS NT Hc SA) as (Z1 & Z2).
  split; [exact Z1|]. split; [exact Z2|]. intros lr x r Ix. pose proof (isf_le_top x Ix) as Tx.
  assert (ST : forall d p, d p = Fin 0 -> fev lib (among [fun _ => Fin x; d]) (sgd_ex lr p) r -> r = Fin x).
  { intros d p E (a & b & A & (i & j & I & J & M) & SB). cbn in A, I, J. subst a i j. rewrite E in M. pose proof (mul_zero_r _ _ M) as ->.
    destruct (sub_fin x 0 r (Rabs x) SB) as (w & -> & W & _); [rewrite Rminus_0_r; lra|exact Tx|]. rewrite Rminus_0_r in W. f_equal. exact (rounds_self _ _ Ix W). }
  split; [apply ST, Z1|]. intros q Hq. apply ST, Z2, Hq.
Qed.
Print Assumptions C71_finding_saturated_units_learn_nothing.

(** Backward passes exist for all numbers. *)
Lemma backward_exists rows (l : list dense) : forall m g, (fix ok m l := match l with [] => True | s :: t => d_out s = m /\ ok (d_in s) t end) m l ->
  exists l', Forall2 (fun s s' => exists dw db, s' = mkDense (d_in s) (d_out s) (d_x s) (d_w s) (d_act s) (d_arg s) dw db) l l' /\ dense_backward exp_lib rows m g l'.
Proof.
  assert (X := fun v e => fev_ex exp_lib exp_lib_total v e). induction l as [|s t IH]; intros m g W; [exists []; split; [constructor|exact Logic.I]|]. destruct W as (W1 & W2).
  destruct (choose (m * d_in s) (fun p r => fev exp_lib (among [d_x s; g]) (linear_grad_ex rows (d_in s) m p) r)) as (dw & DW); [intros p _; apply X; cbn; auto|].
  destruct (choose m (fun p r => fev exp_lib (among [d_x s; g]) (bias_grad_ex rows m p) r)) as (db & DB); [intros p _; apply X; cbn; auto|].
  destruct (choose (rows * d_in s) (fun p r => fev exp_lib (among [d_w s; g]) (linear_input_ex (d_in s) m p) r)) as (gx & GX).
  { intros p _. apply X. cbn. intros [|j] _; cbn; auto. }
  assert (Z : exists gz, match d_act s with None => gz = gx | Some a => forall p, (p < rows * d_in s)%nat -> fev exp_lib (among [d_arg s; gx]) (act_grad_ex a p) (gz p) end).
  { destruct (d_act s) as [a|]; [|exists gx; reflexivity]. apply (choose (rows * d_in s) (fun p r => fev exp_lib (among [d_arg s; gx]) (act_grad_ex a p) r)). intros p _. apply X. destruct a; cbn; auto 20. }
  destruct Z as (gz & GZ). destruct (IH (d_in s) gz W2) as (t' & FT & BT). exists (mkDense (d_in s) (d_out s) (d_x s) (d_w s) (d_act s) (d_arg s) dw db :: t').
  split; [constructor; [exists dw, db; reflexivity|exact FT]|]. cbn. split; [exact W1|]. split; [exact DW|]. split; [exact DB|]. exists gx, gz. auto.
Qed.

(** Four layers with three inputs and outputs each, Sigmoid, LeakyReLU, ELU and nothing before them, a batch of two: the
    conditions hold for inputs, weights and gradients up to 1.  The units with Sigmoid are saturated. *)
Example C71_nonvacuous :
  exp_ok exp_lib /\ exp_near eps32 tiny32 exp_lib /\ (forall a, exists r, exp_lib a r) /\ forall g : nat -> flt, exists l : list dense,
  dense_backward exp_lib 2 3 g l /\ Forall (dense_ok 2 1 1) l /\ map d_act l = [Some ASigmoid; Some (ALeaky (/ 8)); Some (AELU 1); None] /\
  (forall k, (k < length l)%nat -> dense_size 1 1 l k <= top /\ sum_grown 2 (INR 2 * grown (dense_size 1 1 l k * 1)) <= top) /\
  exists s, nth_error l 0 = Some s /\ saturated 2 s 1.
Proof.
  split; [exact exp_lib_ok|]. split; [exact exp_lib_near|]. split; [exact exp_lib_total|]. intros g.
  set (one := fun _ : nat => Fin 1). set (mk := fun a => mkDense 3 3 one one a one one one).
  destruct (backward_exists 2 [mk (Some ASigmoid); mk (Some (ALeaky (/ 8))); mk (Some (AELU 1)); mk None] 3 g ltac:(cbn; auto)) as (l & FL & BW).
  exists l. split; [exact BW|]. inversion FL as [|? s1 ? t1 (dw1 & db1 & ->) F1]; subst. inversion F1 as [|? s2 ? t2 (dw2 & db2 & ->) F2]; subst.
  inversion F2 as [|? s3 ? t3 (dw3 & db3 & ->) F3]; subst. inversion F3 as [|? s4 ? t4 (dw4 & db4 & ->) F4]; subst. inversion F4; subst. clear FL F1 F2 F3 F4 BW.
  assert (TP : 2 ^ 100 <= top) by (pose proof top_big; assert (2 ^ 100 <= 2 ^ 127) by (apply Rle_pow; [lra|lia]); lra).
  assert (T64 : 2 ^ 60 <= 2 ^ 100) by (apply Rle_pow; [lra|lia]). assert (E60 : 2 ^ 60 = 1152921504606846976) by lra.
  split; [|split; [reflexivity|split]].
  - repeat (apply Forall_cons; [unfold dense_ok; cbn; unfold one; cbn; rewrite ?Rabs_R1; pose proof isf_1; repeat split; auto; try lra|]). apply Forall_nil.
  - pose proof eps32_pos as E0. pose proof tiny32_pos as T0.
    assert (E8 : eps32 <= / 8) by (unfold eps32; apply Rinv_le_contravar; [lra|]; replace 8 with (2 ^ 3) by ring; apply Rle_pow; [lra|lia]).
    assert (T8 : tiny32 <= / 8) by (unfold tiny32; apply Rinv_le_contravar; [lra|]; replace 8 with (2 ^ 3) by ring; apply Rle_pow; [lra|lia]).
    assert (GR : forall A C, 0 <= A <= C -> 0 <= grown A <= 2 * C + 1) by (intros A C A0; unfold grown; nra).
    assert (P3 : forall c, (c <= 3)%nat -> 1 <= (1 + eps32) ^ c <= 2).
    { intros c Hc. split; [apply pow_R1_Rle; lra|]. apply Rle_trans with ((1 + eps32) ^ 3); [apply Rle_pow; [lra|exact Hc]|]. apply Rle_trans with ((1 + / 8) ^ 3); [apply pow_incr; lra|lra]. }
    assert (SG : forall n A C, (n <= 4)%nat -> 0 <= A <= C -> 0 <= sum_grown n A <= 2 * C + 1).
    { intros n A C Hn A0. unfold sum_grown. destruct (P3 (n - 1)%nat ltac:(lia)) as (Q1 & Q2). assert (I3 : 0 <= INR (n - 1) <= 3).
      { split; [apply pos_INR|]. replace 3 with (INR 3) by (cbn; lra). apply le_INR. lia. }
      assert (0 <= INR (n - 1) * (1 + eps32) ^ (n - 1) <= 6) by (split; nra). nra. }
    assert (I3 : INR 3 = 3) by (cbn; lra). assert (I2 : INR 2 = 2) by (cbn; lra).
    assert (IN : forall F C, 0 <= F <= C -> 0 <= sum_grown 4 (INR 3 * grown (F * 1)) <= 12 * C + 7).
    { intros F C FC. rewrite I3, Rmult_1_r. pose proof (GR F C FC) as G1. pose proof (SG 4%nat (3 * grown F) (3 * (2 * C + 1)) ltac:(lia) ltac:(lra)). lra. }
    assert (AC : forall a Q C, slope a <= 5 -> 0 <= Q <= C -> 0 <= act_size (Some a) Q <= 20 * C + 3).
    { intros a Q C S5 QC. pose proof (slope_ge a). cbn [act_size]. pose proof (GR (Q * slope a) (C * 5) ltac:(split; [nra|apply Rmult_le_compat; lra])) as G1. pose proof (GR _ _ G1). lra. }
    assert (L1 : slope ASigmoid <= 5) by (cbn; lra). assert (L2 : slope (ALeaky (/ 8)) <= 5) by (cbn; apply Rmax_lub; [lra|rewrite Rabs_right; lra]).
    assert (L3 : slope (AELU 1) <= 5) by (cbn; rewrite Rabs_R1; apply Rmax_lub; [lra|pose proof (GR (2 * 1) 2 ltac:(lra)); lra]).
    intros k Hk. set (l := [_; _; _; _]) in *.
    assert (SZ : 0 <= dense_size 1 1 l k <= 100000000).
    { assert (S1 := AC _ _ _ L1 (IN 1 1 ltac:(lra))). assert (S2 := AC _ _ _ L2 (IN _ _ S1)). assert (S3 := AC _ _ _ L3 (IN _ _ S2)).
      unfold l, mk. destruct k as [|[|[|[|k]]]]; cbn [dense_size d_out d_act]; [lra|lra|lra|lra|cbn in Hk; lia]. }
    split; [lra|]. rewrite I2, Rmult_1_r. pose proof (GR _ _ SZ) as G1. pose proof (SG 2%nat (2 * grown (dense_size 1 1 l k)) (2 * (2 * 100000000 + 1)) ltac:(lia) ltac:(lra)). lra.
  - eexists. split; [reflexivity|]. unfold saturated. cbn. intros i _. right. reflexivity.
Qed.
