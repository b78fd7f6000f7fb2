(** Integer arithmetic that leaves the range of [int]. *)
From Coq Require Import Reals Lra Lia String.
From Verif Require Import Base BaseFacts Sums M_Tensor M_Im2col S_Im2col M_Kernels M_Conv M_Layers M_Nn M_Int S_Grad S_Plain S_Int P_Layout P_Plain P_BN P_BN2 P_Vjp2 P_Eval P_BN3 P_Int.
Open Scope Z_scope.

Lemma ordinary_walks inp pad kernel stride : 0 <= inp -> 0 <= pad -> 0 < kernel -> 0 < stride -> kernel <= inp + 2 * pad -> inp + 2 * pad + stride <= 2147483647 ->
  walks inp pad kernel stride 1 (Z.quot (inp + 2 * pad - kernel) stride + 1).
Proof.
  intros H1 H2 H3 H4 H5 H6. rewrite Z.quot_div_nonneg by lia. pose proof (Z.mul_div_le (inp + 2 * pad - kernel) stride H4) as D.
  revert D. generalize ((inp + 2 * pad - kernel) / stride). intros q D. unfold walks. repeat split; nia.
Qed.

(** ** Nothing throws *)
Lemma bind_nt {A B} (a : res A) (f : A -> res B) : a <> Throw -> (forall x, f x <> Throw) -> bind a f <> Throw.
Proof. intros H1 H2. destruct a; cbn; [apply H2|congruence|discriminate]. Qed.
Lemma forr_nt {S} n (b : nat -> S -> res S) : (forall i s, b i s <> Throw) -> forall s, forr n b s <> Throw.
Proof. intros H. induction n as [|n IH]; intros s; cbn; [discriminate|]. apply bind_nt; [apply IH|intros x; apply H]. Qed.
Lemma rd_nt {V} (l : list V) i : rd l i <> Throw.
Proof. unfold rd. destruct (nth_error l i); discriminate. Qed.
Lemma wr_nt {V} (l : list V) i v : wr l i v <> Throw.
Proof. unfold wr. destruct (i <? length l)%nat; discriminate. Qed.
Lemma rdz_nt {V} (l : list V) i : rdz l i <> Throw.
Proof. unfold rdz. destruct (i <? 0); [discriminate|apply rd_nt]. Qed.
Lemma cd_nt n : count_down n <> Throw.
Proof. unfold count_down. destruct (n <? 0); discriminate. Qed.
Lemma quot32_nt a b : quot32 a b <> Throw.
Proof. unfold quot32. destruct (b =? 0); [discriminate|apply int_nothrow]. Qed.
Lemma times32_nt s : forall a, times32 a s <> Throw.
Proof. induction s as [|d t IH]; intros a; cbn [times32]; [discriminate|]. apply bind_nt; [apply int_nothrow|exact IH]. Qed.
Lemma int_prod_nt s : int_prod s <> Throw.
Proof. unfold int_prod. generalize 1. induction s as [|d t IH]; intros a; cbn [int_prod_from]; [discriminate|]. destruct (fits_int (a * d)); [apply IH|discriminate]. Qed.
Lemma ios_nt a b c d e : im2col_out_size32 a b c d e <> Throw.
Proof. unfold im2col_out_size32. repeat (apply bind_nt; [first [apply int_nothrow|apply quot32_nt]|intros ?]). apply int_nothrow. Qed.

Lemma im2col32_nt {V} g ch h w (fill : V) src dst : im2col32 g ch h w fill src dst <> Throw.
Proof.
  unfold im2col32. apply bind_nt; [apply ios_nt|intros ho]. apply bind_nt; [apply ios_nt|intros wo]. apply bind_nt; [apply cd_nt|intros nch].
  apply bind_nt; [|intros [d' p']; discriminate]. apply forr_nt. intros c [d p].
  apply bind_nt; [|intros s; apply bind_nt; [apply int_nothrow|discriminate]].
  apply forr_nt. intros kh [d1 p1]. apply forr_nt. intros kw [d2 p2]. apply bind_nt; [apply bind_nt; [apply int_nothrow|intros ?; apply int_nothrow]|intros row0].
  apply bind_nt; [apply cd_nt|intros nrow]. apply bind_nt; [|intros [[d3 p3] r3]; discriminate]. apply forr_nt. intros i [[d4 p4] r4].
  apply bind_nt; [apply cd_nt|intros ncol].
  apply bind_nt; [|intros [d5 p5]; apply bind_nt; [apply int_nothrow|discriminate]].
  destruct (negb _).
  - apply forr_nt. intros j [d5 p5]. apply bind_nt; [apply wr_nt|discriminate].
  - apply bind_nt; [apply bind_nt; [apply int_nothrow|intros ?; apply int_nothrow]|intros col0]. apply bind_nt; [|intros [[d5 p5] r5]; discriminate].
    apply forr_nt. intros j [[d5 p5] c5]. apply bind_nt.
    + destruct (_ && _); [|discriminate]. apply bind_nt; [apply bind_nt; [apply int_nothrow|intros ?; apply int_nothrow]|intros ?; apply rdz_nt].
    + intros v. apply bind_nt; [apply wr_nt|intros ?]. apply bind_nt; [apply int_nothrow|discriminate].
Qed.

(** ** Far positions *)
Lemma ios_exact a b c d e r : im2col_out_size32 a b c d e = Ok r -> im2col_out_size a b c d e = Ok r.
Proof.
  unfold im2col_out_size32, im2col_out_size, int_div, quot32. intros H.
  do 6 (match type of H with bind ?x _ = _ => destruct x eqn:?; cbn [bind] in H; [|discriminate..] end).
  repeat match goal with E : int_ _ = Ok _ |- _ => apply int_inv in E; destruct E as [-> _] end.
  destruct (d =? 0); cbn [bind] in *; [discriminate|].
  match type of H with bind ?x _ = _ => destruct x eqn:Q; cbn [bind] in H; [|discriminate..] end. apply int_inv in Q. destruct Q as [-> _]. apply int_inv in H. destruct H as [-> _]. reflexivity.
Qed.

Lemma forr_inv_ok {S} (Inv : nat -> S -> Prop) (b : nat -> S -> res S) s : (forall i s s', Inv i s -> b i s = Ok s' -> Inv (Datatypes.S i) s') -> Inv O s ->
  forall m a, forr m b s = Ok a -> Inv m a.
Proof.
  intros Pr I0. induction m as [|m IH]; intros a E; cbn [forr] in E; [injection E as <-; exact I0|].
  destruct (forr m b s) as [a'| |]; cbn [bind] in E; try discriminate. exact (Pr _ _ _ (IH _ eq_refl) E).
Qed.

Lemma im2col_far {V} g ch h w ho (fill : V) src dst : 0 < ch -> 0 < g_kh g -> 0 < g_kw g -> 0 < ho ->
  im2col_out_size h (g_ph g) (g_kh g) (g_sh g) (g_dh g) = Ok ho -> 2147483647 < (g_kh g - 1) * g_dh g - g_ph g + ho * g_sh g ->
  im2col32 g ch h w fill src dst = UB.
Proof.
  intros Pc Pk1 Pk2 Ph SZ Far. destruct (im2col32 g ch h w fill src dst) as [r| |] eqn:X; [exfalso|exfalso; exact (im2col32_nt _ _ _ _ _ _ _ X)|reflexivity].
  unfold im2col32 in X. destruct (im2col_out_size32 h _ _ _ _) as [ho'| |] eqn:E1; cbn [bind] in X; try discriminate. apply ios_exact in E1. rewrite SZ in E1. injection E1 as <-.
  destruct (im2col_out_size32 w _ _ _ _) as [wo| |]; cbn [bind] in X; try discriminate.
  unfold count_down in X at 1. destruct (Z.ltb_spec ch 0); [discriminate|]. cbn [bind] in X.
  match type of X with bind ?a _ = _ => destruct a as [[d' p']| |] eqn:F; cbn [bind] in X; try discriminate end.
  apply forr_prefix with (p := O) in F; [|lia]. destruct F as ([d0 p0] & b0 & _ & F).
  match type of F with bind ?a _ = _ => destruct a as [s1| |] eqn:F1; cbn [bind] in F; try discriminate end. clear F.
  apply forr_prefix with (p := Z.to_nat (g_kh g - 1)) in F1; [|lia]. destruct F1 as ([d1 p1] & b1 & _ & F1).
  apply forr_prefix with (p := O) in F1; [|lia]. destruct F1 as ([d2 p2] & b2 & _ & F2).
  destruct (start32 _ _ _) as [row0| |] eqn:ST; cbn [bind] in F2; try discriminate.
  assert (R0 : row0 = (g_kh g - 1) * g_dh g - g_ph g).
  { unfold start32 in ST. destruct (int_ (Z.of_nat _ * _)) eqn:I1; cbn [bind] in ST; try discriminate. apply int_inv in I1. apply int_inv in ST. destruct I1 as [-> _]. destruct ST as [-> _]. rewrite Z2Nat.id by lia. reflexivity. }
  unfold count_down in F2 at 1. destruct (Z.ltb_spec ho 0); [lia|]. cbn [bind] in F2.
  match type of F2 with bind ?a _ = _ => destruct a as [[[d3 p3] r3]| |] eqn:F3; cbn [bind] in F2; try discriminate end.
  assert (I : r3 = row0 + Z.of_nat (Z.to_nat ho) * g_sh g /\ ((0 < Z.to_nat ho)%nat -> r3 <= int_max)).
  { revert F3. generalize (Z.to_nat ho). intros m F3.
    pose (Inv := fun (k : nat) (s : list V * nat * Z) => snd s = row0 + Z.of_nat k * g_sh g /\ ((0 < k)%nat -> snd s <= int_max)).
    assert (G : Inv m (d3, p3, r3)); [|exact G]. revert F3. apply (forr_inv_ok Inv).
    - intros k [[d p] row] s' [I1 _] B. cbn [snd] in I1. destruct (count_down wo) as [nc| |]; cbn [bind] in B; try discriminate.
      match type of B with bind ?a _ = _ => destruct a as [[d4 p4]| |]; cbn [bind] in B; try discriminate end.
      destruct (int_ (row + g_sh g)) eqn:I2; cbn [bind] in B; try discriminate. apply int_inv in I2. destruct I2 as [-> I2]. injection B as <-. split; cbn [snd]; [lia|intros _; exact I2].
    - split; cbn [snd]; lia. }
  destruct I as [I1 I2]. specialize (I2 ltac:(lia)). unfold int_max in I2. rewrite Z2Nat.id in I1 by lia. lia.
Qed.

(** ** Large batches *)
Lemma times32_big s : forall a, Forall (fun d => 0 < d) s -> 0 < a -> 2147483647 < fold_left Z.mul s a -> s <> [] -> times32 a s = UB.
Proof.
  induction s as [|d t IH]; intros a F Pa L NE; [congruence|]. inversion_clear F as [|? ? Fd Ft]. cbn [times32 fold_left] in *.
  destruct (Z.le_gt_cases (a * d) int_max) as [H|H].
  - rewrite int_ok by (unfold int_min; nia). cbn [bind]. destruct t as [|e t']; [cbn [fold_left] in L; unfold int_max in H; lia|]. apply IH; [exact Ft|nia|exact L|discriminate].
  - rewrite int_big by exact H. reflexivity.
Qed.
Lemma times32_exact s : forall a r, times32 a s = Ok r -> r = fold_left Z.mul s a.
Proof.
  induction s as [|d t IH]; intros a r H; cbn [times32 fold_left] in *; [congruence|]. destruct (int_ (a * d)) eqn:E; cbn [bind] in H; try discriminate.
  apply int_inv in E. destruct E as [-> _]. exact (IH _ _ H).
Qed.

Lemma conv_batch_UB E g W b buf i o n cin h w m c2 ho wo cout rest : tsh i = [n; cin; h; w] -> tsh o = [m; c2; ho; wo] -> tsh (p_data W) = cout :: rest ->
  (0 < n)%nat -> (0 < cin)%nat -> 0 < g_kh g -> 0 < g_kw g -> (0 < ho)%nat -> (0 < wo)%nat ->
  2147483647 < Z.of_nat n * (Z.of_nat cin * g_kh g * g_kw g) * (Z.of_nat ho * Z.of_nat wo) ->
  conv_fwd32 E g W b buf i o = UB.
Proof.
  intros Hi Ho HW Pn Pc Pk1 Pk2 Ph Pw L. unfold conv_fwd32, dims4, dim0. rewrite Hi, Ho, HW. cbn [rd nth_error bind]. cbv zeta.
  destruct (times32 (Z.of_nat cin) [g_kh g; g_kw g]) as [rows| |] eqn:E1; cbn [bind]; [|exfalso; exact (times32_nt _ _ E1)|reflexivity]. apply times32_exact in E1. cbn [fold_left] in E1.
  destruct (times32 (Z.of_nat ho) (ints [wo])) as [cols| |] eqn:E2; cbn [bind]; [|exfalso; exact (times32_nt _ _ E2)|reflexivity]. apply times32_exact in E2. cbn [fold_left ints map] in E2. subst rows cols.
  rewrite times32_big; [reflexivity|repeat constructor; repeat apply Z.mul_pos_pos; lia|lia|cbn [fold_left]; exact L|discriminate].
Qed.

Lemma pool_buf_UB E g ind buf i o m c2 ho wo : tsh o = [m; c2; ho; wo] ->
  0 < g_kh g -> 0 < g_kw g -> (0 < ho)%nat -> (0 < wo)%nat -> 2147483647 < (g_kh g * g_kw g) * (Z.of_nat ho * Z.of_nat wo) ->
  maxpool_fwd32 E g ind buf i o = UB.
Proof.
  intros Ho Pk1 Pk2 Ph Pw L. unfold maxpool_fwd32.
  match goal with |- bind ?a _ = _ => destruct a as [ind1| |] eqn:EI; cbn [bind]; [|exfalso|reflexivity] end.
  2: { destruct (nshape_eqb _ _); [discriminate|]. destruct (int_prod (ints (tsh o))) eqn:EP; try discriminate. exact (int_prod_nt _ EP). }
  unfold dims4 at 1. rewrite Ho. cbn [rd nth_error bind].
  destruct (times32 (g_kh g) [g_kw g]) as [rows| |] eqn:E1; cbn [bind]; [|exfalso; exact (times32_nt _ _ E1)|reflexivity]. apply times32_exact in E1. cbn [fold_left] in E1.
  destruct (times32 (Z.of_nat ho) (ints [wo])) as [cols| |] eqn:E2; cbn [bind]; [|exfalso; exact (times32_nt _ _ E2)|reflexivity]. apply times32_exact in E2. cbn [fold_left ints map] in E2. subst rows cols.
  rewrite times32_big; [reflexivity|repeat constructor; repeat apply Z.mul_pos_pos; lia|repeat apply Z.mul_pos_pos; lia|cbn [fold_left]; exact L|discriminate].
Qed.

Ltac step := match goal with |- bind ?a _ = UB => let E := fresh "E" in destruct a as [?x| |] eqn:E; cbn [bind];
  [|exfalso; solve [exact (times32_nt _ _ E)|exact (int_prod_nt _ E)|revert E; unfold slice; destruct (_ <=? _)%nat; discriminate]|reflexivity] end.

Lemma conv_far_UB E g W b buf i o n cin h w m c2 ho wo cout rest : tsh i = [n; cin; h; w] -> tsh o = [m; c2; ho; wo] -> tsh (p_data W) = cout :: rest ->
  (0 < n)%nat -> (0 < cin)%nat -> 0 < g_kh g -> 0 < g_kw g -> (0 < ho)%nat -> sizes_ok g h w ho wo ->
  2147483647 < (g_kh g - 1) * g_dh g - g_ph g + Z.of_nat ho * g_sh g ->
  conv_fwd32 E g W b buf i o = UB.
Proof.
  intros Hi Ho HW Pn Pc Pk1 Pk2 Ph [SZ _] L. unfold conv_fwd32, dims4, dim0. rewrite Hi, Ho, HW. cbn [rd nth_error bind]. cbv zeta.
  step. step. step. match goal with |- bind ?a _ = UB => assert (X : a = UB); [|rewrite X; reflexivity] end.
  unfold conv_forward32. cbn [cd_cin cd_h cd_w cd_cout cd_ho cd_wo]. step. step. step. step.
  apply forr_first_UB; [exact Pn|]. unfold conv_step32. cbn [cd_cin cd_h cd_w cd_cout cd_ho cd_wo]. step. step. step. step.
  rewrite (im2col_far g _ _ _ (Z.of_nat ho)); [reflexivity|lia|assumption|assumption|lia|exact SZ|exact L].
Qed.

Lemma pool_far_UB E g ind buf i o n c h w m c2 ho wo : tsh i = [n; c; h; w] -> tsh o = [m; c2; ho; wo] ->
  (0 < n)%nat -> (0 < c)%nat -> 0 < g_kh g -> 0 < g_kw g -> (0 < ho)%nat -> sizes_ok g h w ho wo ->
  2147483647 < (g_kh g - 1) * g_dh g - g_ph g + Z.of_nat ho * g_sh g ->
  maxpool_fwd32 E g ind buf i o = UB.
Proof.
  intros Hi Ho Pn Pc Pk1 Pk2 Ph [SZ _] L. unfold maxpool_fwd32.
  match goal with |- bind ?a _ = _ => destruct a as [ind1| |] eqn:EI; cbn [bind]; [|exfalso|reflexivity] end.
  2: { destruct (nshape_eqb _ _); [discriminate|]. destruct (int_prod (ints (tsh o))) eqn:EP; try discriminate. exact (int_prod_nt _ EP). }
  unfold dims4. rewrite Hi, Ho. cbn [rd nth_error bind]. step. step. step. cbv zeta.
  match goal with |- bind ?a _ = UB => assert (X : a = UB); [|rewrite X; reflexivity] end.
  unfold maxpool_forward32. step. step. step. step. cbv zeta.
  apply forr_first_UB; [apply Nat.mul_pos_pos; assumption|]. step. step.
  rewrite (im2col_far g _ _ _ (Z.of_nat ho)); [reflexivity|lia|assumption|assumption|lia|exact SZ|exact L].
Qed.

Lemma to_float_odd z : 16777216 < z < 33554432 -> Z.odd z = true -> to_float (Z.to_nat z) <> Z.to_nat z.
Proof.
  intros B O E. unfold to_float in E. rewrite Z2Nat.id in E by lia.
  assert (LG : Z.log2 z = 24) by (apply Z.log2_unique; [lia|]; change (2 ^ 24) with 16777216; change (2 ^ Z.succ 24) with 33554432; lia).
  rewrite LG in E. change (24 - 23 <=? 0) with false in E. cbv iota in E. change (2 ^ (24 - 23)) with 2 in E. apply (f_equal Z.of_nat) in E. rewrite (Z2Nat.id z) in E by lia.
  assert (N : 0 <= z / 2) by (apply Z.div_pos; lia). revert E. match goal with |- context [if ?b then _ else _] => destruct b end; intros E; rewrite Z2Nat.id in E by lia; rewrite <- E in O; rewrite Z.odd_mul in O; rewrite Bool.andb_false_r in O; discriminate.
Qed.
