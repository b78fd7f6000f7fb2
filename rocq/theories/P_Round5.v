(** Error bounds for sums of products; floats; programs that round with a function. *)
From Coq Require Import Reals Lra Permutation.
From Verif Require Import Base BaseFacts Sums M_Im2col S_Im2col M_Kernels M_Conv M_Layers M_Optim M_Nn M_Graph M_Model M_Backend S_Grad S_Partial S_Graph S_Run S_Fit S_Float
  P_Kernels P_Conv2 P_Vjp2 P_Vjp3 P_Pool P_Layers P_Fit P_Eval P_Float M_Round S_Round P_Round P_Round2 P_Round3 P_Round4.
Open Scope R_scope.

Lemma affine_bound u eta e K (x x' w y : nat -> R) b s r : 0 <= u -> 0 <= eta -> 0 <= e ->
  (forall k, (k < K)%nat -> Rabs (x' k - x k) <= e) -> (forall k, (k < K)%nat -> near u eta (x' k * w k) (y k)) ->
  summed u eta (tab K y) s -> near u eta (s + b) r ->
  Rabs (r - (rsum K (fun k => x k * w k) + b)) <=
    affine_error u eta e K (rsum K (fun k => Rabs (x k) * Rabs (w k))) (rsum K (fun k => Rabs (w k))) (Rabs b).
Proof.
  intros Hu He Hd X Y SU F. pose proof (summed_bound u eta K y s Hu He SU) as SB.
  set (A := rsum K (fun k => Rabs (x k) * Rabs (w k))). set (B := rsum K (fun k => Rabs (w k))).
  assert (A0 : 0 <= A) by (unfold A; replace 0 with (rsum K (fun _ => 0)) by apply rsum_0; apply rsum_le; intros k _; apply Rmult_le_pos; apply Rabs_pos).
  assert (B0 : 0 <= B) by (unfold B; replace 0 with (rsum K (fun _ => 0)) by apply rsum_0; apply rsum_le; intros k _; apply Rabs_pos).
  (* one product *)
  assert (P1 : forall k, (k < K)%nat -> Rabs (y k - x k * w k) <= u * (Rabs (x k) * Rabs (w k)) + (1 + u) * e * Rabs (w k) + eta).
  { intros k Hk. specialize (X k Hk). specialize (Y k Hk). unfold near in Y. rewrite Rabs_mult in Y.
    assert (T : Rabs (x' k * w k - x k * w k) <= e * Rabs (w k)).
    { replace (x' k * w k - x k * w k) with ((x' k - x k) * w k) by ring. rewrite Rabs_mult. apply Rmult_le_compat_r; [apply Rabs_pos|exact X]. }
    assert (T2 : Rabs (x' k) <= Rabs (x k) + e). { replace (x' k) with (x k + (x' k - x k)) by ring. pose proof (Rabs_triang (x k) (x' k - x k)). lra. }
    pose proof (Rabs_triang (y k - x' k * w k) (x' k * w k - x k * w k)) as T3.
    replace (y k - x' k * w k + (x' k * w k - x k * w k)) with (y k - x k * w k) in T3 by ring.
    assert (T4 : u * (Rabs (x' k) * Rabs (w k)) <= u * ((Rabs (x k) + e) * Rabs (w k))).
    { apply Rmult_le_compat_l; [exact Hu|]. apply Rmult_le_compat_r; [apply Rabs_pos|exact T2]. }
    lra. }
  assert (P2 : forall k, (k < K)%nat -> Rabs (y k) <= (1 + u) * (Rabs (x k) * Rabs (w k)) + (1 + u) * e * Rabs (w k) + eta).
  { intros k Hk. specialize (P1 k Hk). pose proof (Rabs_triang (x k * w k) (y k - x k * w k)) as T. replace (x k * w k + (y k - x k * w k)) with (y k) in T by ring.
    rewrite Rabs_mult in T. lra. }
  assert (LIN : forall a c d, rsum K (fun k => a * (Rabs (x k) * Rabs (w k)) + c * Rabs (w k) + d) = a * A + c * B + INR K * d).
  { intros a c d. unfold A, B. rewrite !rsum_plus, !rsum_scal_l, rsum_const. reflexivity. }
  assert (Q1 : Rabs (rsum K y - rsum K (fun k => x k * w k)) <= u * A + (1 + u) * e * B + INR K * eta).
  { rewrite <- rsum_minus. eapply Rle_trans; [apply rsum_abs_le|]. rewrite <- LIN. apply rsum_le. exact P1. }
  assert (Q2 : rsum K (fun k => Rabs (y k)) <= (1 + u) * A + (1 + u) * e * B + INR K * eta).
  { rewrite <- LIN. apply rsum_le. exact P2. }
  set (z := rsum K (fun k => x k * w k)) in *.
  assert (ZA : Rabs z <= A). { unfold z, A. eapply Rle_trans; [apply rsum_abs_le|]. apply rsum_le. intros k _. rewrite Rabs_mult. apply Rle_refl. }
  set (D := Rabs (s - z)).
  assert (FD : Rabs (r - (z + b)) <= (1 + u) * D + u * (A + Rabs b) + eta).
  { unfold near in F. pose proof (Rabs_triang (r - (s + b)) (s - z)) as T. replace (r - (s + b) + (s - z)) with (r - (z + b)) in T by ring.
    pose proof (Rabs_triang (s - z) (z + b)) as T2. replace (s - z + (z + b)) with (s + b) in T2 by ring. pose proof (Rabs_triang z b) as T3. fold D in T, T2.
    assert (T4 : u * Rabs (s + b) <= u * (D + (A + Rabs b))) by (apply Rmult_le_compat_l; [exact Hu|]; lra). lra. }
  assert (DB : D <= ((1 + u) ^ K - 1) * A + (1 + u) ^ K * (e * B) + INR (2 * K) * (1 + u) ^ K * eta).
  { destruct K as [|K].
    - assert (A = 0) as -> by reflexivity. assert (B = 0) as -> by reflexivity. unfold D, z. cbn in SU. subst s. cbn. rewrite Rminus_0_r, Rabs_R0. lra.
    - replace (S K - 1)%nat with K in SB by lia. cbn [pow]. pose proof (pow1_ge u K Hu) as PK. set (P := (1 + u) ^ K) in *.
      pose proof (Rabs_triang (s - rsum (S K) y) (rsum (S K) y - z)) as T. replace (s - rsum (S K) y + (rsum (S K) y - z)) with (s - z) in T by ring. fold D in T.
      assert (G : (P - 1) * rsum (S K) (fun k => Rabs (y k)) <= (P - 1) * ((1 + u) * A + (1 + u) * e * B + INR (S K) * eta)) by (apply Rmult_le_compat_l; lra).
      assert (NN : 0 <= INR K) by apply pos_INR. rewrite mult_INR. change (INR 2) with (1 + 1). rewrite S_INR in *.
      assert (D <= ((1 + u) * P - 1) * A + (1 + u) * P * (e * B) + ((INR K + 1) * P + INR K * P) * eta) by lra.
      assert (((INR K + 1) * P + INR K * P) * eta <= (1 + 1) * (INR K + 1) * ((1 + u) * P) * eta).
      { apply Rmult_le_compat_r; [exact He|]. replace ((1 + 1) * (INR K + 1) * ((1 + u) * P)) with (((INR K + 1) * P + INR K * P) + P * (1 + 2 * u * (INR K + 1))) by ring.
        assert (0 <= P * (1 + 2 * u * (INR K + 1))); [|lra]. apply Rmult_le_pos; [lra|]. assert (0 <= u * (INR K + 1)) by (apply Rmult_le_pos; lra). lra. }
      lra. }
  unfold affine_error. replace (K + 1)%nat with (S K) by lia. cbn [pow]. pose proof (pow1_ge u K Hu) as PK. set (P := (1 + u) ^ K) in *.
  replace (2 * K + 1)%nat with (S (2 * K)) by lia. rewrite S_INR. set (N := INR (2 * K)) in *. assert (N0 : 0 <= N) by apply pos_INR.
  assert (G : (1 + u) * D <= (1 + u) * ((P - 1) * A + P * (e * B) + N * P * eta)) by (apply Rmult_le_compat_l; lra).
  assert (UP : u <= (1 + u) * P - 1) by nra.
  assert (G1 : u * Rabs b <= ((1 + u) * P - 1) * Rabs b) by (apply Rmult_le_compat_r; [apply Rabs_pos|exact UP]).
  assert (G2 : eta <= (1 + u) * P * eta) by (rewrite <- (Rmult_1_l eta) at 1; apply Rmult_le_compat_r; [exact He|nra]).
  lra.
Qed.

(** ** Floats *)
Lemma float_near X : 0 <= X <= IZR ((2 ^ 24 - 1) * 2 ^ 253) -> exists z, float32 z /\ Rabs (IZR z - X) <= X / 2 ^ 24 + 1 / 2.
Proof.
  intros [X0 XM]. destruct (archimed X) as [U1 U2]. set (n := (up X - 1)%Z).
  assert (N1 : IZR n <= X < IZR n + 1) by (unfold n; rewrite minus_IZR; lra).
  assert (N0 : (0 <= n)%Z) by (assert (-1 < n)%Z; [|lia]; apply lt_IZR; lra).
  assert (NM : (n <= (2 ^ 24 - 1) * 2 ^ 253)%Z) by (apply le_IZR; lra).
  destruct (rnd_pos_parts n N0) as (E0 & EQ & EM & EQ2 & EB). set (e := Z.max 0 (Z.log2 n - 23)) in *. set (q := (n / 2 ^ e)%Z) in *.
  assert (E1 : (e <= 253)%Z).
  { assert (Z.log2 n <= 276)%Z; [|lia]. destruct (Z.eq_dec n 0) as [->|NZ]; [cbn; lia|]. assert (Z.log2 n < 277)%Z; [|lia]. apply Z.log2_lt_pow2; [lia|].
    eapply Z.le_lt_trans; [exact NM|]. reflexivity. }
  assert (PE : (0 < 2 ^ e)%Z) by (apply Z.pow_pos_nonneg; lia).
  assert (L1 : IZR (q * 2 ^ e) <= X) by (apply Rle_trans with (IZR n); [apply IZR_le; lia|lra]).
  assert (L2 : X < IZR ((q + 1) * 2 ^ e)) by (apply Rlt_le_trans with (IZR (n + 1)); [rewrite plus_IZR; lra|apply IZR_le; lia]).
  assert (H : IZR (2 ^ e) / 2 <= X / 2 ^ 24 + 1 / 2).
  { assert (X24 : 0 <= X / 2 ^ 24) by (apply Rmult_le_pos; [exact X0|apply Rlt_le, Rinv_0_lt_compat, pow_lt; lra]).
    destruct EB as [->|EB]; [change (2 ^ 0)%Z with 1%Z; lra|].
    assert (IZR (2 ^ e) * 2 ^ 23 <= X).
    { eapply Rle_trans; [|exact L1]. replace (2 ^ 23)%R with (IZR (2 ^ 23)) by (symmetry; exact (pow_IZR 2 23)). rewrite <- mult_IZR. apply IZR_le. nia. }
    replace (2 ^ 24)%R with (2 * 2 ^ 23)%R by (simpl; ring). assert (P : 0 < 2 ^ 23) by (apply pow_lt; lra). set (p := 2 ^ 23) in *.
    assert (IZR (2 ^ e) / 2 <= X / (2 * p)); [|lra]. apply (Rmult_le_reg_r (2 * p)); [lra|]. unfold Rdiv. rewrite (Rmult_assoc X), Rinv_l by lra. lra. }
  rewrite mult_IZR, plus_IZR in L2. rewrite mult_IZR in L1.
  destruct (Rle_dec (X - IZR q * IZR (2 ^ e)) (IZR (2 ^ e) / 2)) as [C|C].
  - exists (q * 2 ^ e)%Z. split; [exists q, e; split; [lia|]; split; [lia|reflexivity]|]. rewrite mult_IZR, Rabs_left1 by lra. lra.
  - exists ((q + 1) * 2 ^ e)%Z. split.
    + destruct (Z.eq_dec e 253) as [E3|E3]; [|apply float32_mult; lia]. exists (q + 1)%Z, e. split; [|split; [lia|reflexivity]].
      destruct (Z.eq_dec q (2 ^ 24 - 1)) as [Q|Q]; [|lia]. exfalso. apply C. rewrite E3, Q in *. rewrite mult_IZR in XM.
      assert (0 < IZR (2 ^ 253)) by (apply IZR_lt; reflexivity). lra.
    + rewrite mult_IZR, plus_IZR, Rabs_right by lra. lra.
Qed.

Lemma float32_near x y : Rabs x <= IZR ((2 ^ 24 - 1) * 2 ^ 253) / 2 ^ 149 -> nearest_float x y -> near (/ 2 ^ 24) (/ 2 ^ 150) x y.
Proof.
  intros HX (m & Fm & -> & Hm). assert (P : 0 < 2 ^ 149) by (apply pow_lt; lra).
  assert (X : 0 <= Rabs x * 2 ^ 149 <= IZR ((2 ^ 24 - 1) * 2 ^ 253)).
  { split; [apply Rmult_le_pos; [apply Rabs_pos|lra]|]. apply (Rmult_le_compat_r (2 ^ 149)) in HX; [|lra]. unfold Rdiv in HX. rewrite Rmult_assoc, Rinv_l, Rmult_1_r in HX by lra. exact HX. }
  destruct (float_near _ X) as (z & Fz & Bz).
  assert (W : exists w, float32 w /\ Rabs (IZR w / 2 ^ 149 - x) = Rabs (IZR z - Rabs x * 2 ^ 149) / 2 ^ 149).
  { assert (G : forall s, Rabs s = 1 -> Rabs x = s * x -> Rabs (s * IZR z / 2 ^ 149 - x) = Rabs (IZR z - Rabs x * 2 ^ 149) / 2 ^ 149).
    { intros s Hs Hx. assert (SS : s * s = 1) by (unfold Rabs in Hs; destruct (Rcase_abs s) in Hs; nra).
      replace (s * IZR z / 2 ^ 149 - x) with (s * ((IZR z - Rabs x * 2 ^ 149) / 2 ^ 149)).
      - rewrite Rabs_mult, Hs, Rmult_1_l. unfold Rdiv. rewrite Rabs_mult, (Rabs_right (/ 2 ^ 149)); [reflexivity|]. apply Rle_ge, Rlt_le, Rinv_0_lt_compat, P.
      - rewrite Hx. replace (s * ((IZR z - s * x * 2 ^ 149) / 2 ^ 149)) with (s * IZR z / 2 ^ 149 - s * s * x) by (field; lra). rewrite SS. ring. }
    destruct (Rcase_abs x) as [N|N].
    - exists (- z)%Z. split; [apply float32_opp, Fz|]. rewrite opp_IZR. replace (- IZR z) with ((-1) * IZR z) by ring. apply G; [rewrite Rabs_left1; lra|rewrite Rabs_left; lra].
    - exists z. split; [exact Fz|]. replace (IZR z) with (1 * IZR z) at 1 by ring. apply G; [apply Rabs_R1|rewrite Rabs_right; lra]. }
  destruct W as (w & Fw & Ew). specialize (Hm w Fw). rewrite Ew in Hm. unfold near. eapply Rle_trans; [exact Hm|].
  apply Rle_trans with ((Rabs x * 2 ^ 149 / 2 ^ 24 + 1 / 2) / 2 ^ 149).
  - apply Rmult_le_compat_r; [apply Rlt_le, Rinv_0_lt_compat, P|exact Bz].
  - replace (2 ^ 150) with (2 * 2 ^ 149) by (simpl; ring). assert (P2 : 0 < 2 ^ 24) by (apply pow_lt; lra). apply Req_le. set (p := 2 ^ 149) in *. set (t := 2 ^ 24) in *. field. lra.
Qed.

(** ** Rounding with a function *)
Lemma fl_tree u eta fl : (forall x, near u eta x (fl x)) -> forall t, added u eta t (fl_added fl t).
Proof. intros F. induction t as [x|a IHa b IHb]; cbn; [reflexivity|]. eauto. Qed.

Lemma all_some_spec n f l : all_some n f = Some l -> length l = n /\ forall k, (k < n)%nat -> f k = Some l.[k].
Proof.
  revert l. induction n as [|n IH]; intros l H; cbn in H; [injection H as <-; split; [reflexivity|intros; lia]|].
  destruct (all_some n f) as [l'|]; [|discriminate]. destruct (f n) as [x|] eqn:E; [|discriminate]. injection H as <-. destruct (IH l' eq_refl) as [L B].
  split; [rewrite app_length, L; cbn; lia|]. intros k Hk. destruct (Nat.eq_dec k n) as [->|N].
  - rewrite E, app_nth2 by lia. rewrite L, Nat.sub_diag. reflexivity.
  - rewrite app_nth1 by lia. apply B. lia.
Qed.

Lemma tab_of_list n (l : list R) : length l = n -> tab n (fun k => l.[k]) = l.
Proof. intros <-. apply (nth_ext _ _ 0 0); [apply tab_length|]. intros k Hk. rewrite tab_length in Hk. rewrite nth_tab by exact Hk. reflexivity. Qed.

Lemma flv_rev u eta fl pick v e : (forall x, near u eta x (fl x)) -> (forall x l, Permutation (x :: l) (leaves (pick (x :: l)))) -> forall r, flv fl pick v e = Some r -> rev u eta v e r.
Proof.
  intros F PK. induction e as [a i|x|n|a IHa b IHb|a IHa b IHb|a IHa b IHb|a IHa b IHb|a IHa|a IHa|a IHa b IHb c IHc d IHd|n f IH|n f IH]; intros r H; cbn [flv rev] in *.
  - congruence.
  - congruence.
  - injection H as <-. apply F.
  - destruct (flv fl pick v a) as [x|]; [|discriminate]. destruct (flv fl pick v b) as [y|]; [|discriminate]. injection H as <-. exists x, y. auto.
  - destruct (flv fl pick v a) as [x|]; [|discriminate]. destruct (flv fl pick v b) as [y|]; [|discriminate]. injection H as <-. exists x, y. auto.
  - destruct (flv fl pick v a) as [x|]; [|discriminate]. destruct (flv fl pick v b) as [y|]; [|discriminate]. injection H as <-. exists x, y. auto.
  - destruct (flv fl pick v a) as [x|]; [|discriminate]. destruct (flv fl pick v b) as [y|]; [|discriminate]. destruct (Req_EM_T y 0); [discriminate|]. injection H as <-. exists x, y. auto.
  - destruct (flv fl pick v a) as [x|]; [|discriminate]. injection H as <-. exists x. auto.
  - destruct (flv fl pick v a) as [x|]; [|discriminate]. unfold ltb in H. destruct (Rlt_dec x 0) as [|NN]; [discriminate|]. injection H as <-. exists x. split; [auto|]. split; [lra|apply F].
  - destruct (flv fl pick v a) as [x|]; [|discriminate]. destruct (flv fl pick v b) as [y|]; [|discriminate]. exists x, y. split; [auto|]. split; [auto|]. destruct (ltb x y); auto.
  - destruct (all_some n (fun k => flv fl pick v (f k))) as [l|] eqn:A; [|discriminate]. destruct (all_some_spec _ _ _ A) as [L B].
    exists (fun k => l.[k]). split; [intros k Hk; apply IH, B, Hk|]. rewrite (tab_of_list n l L). destruct l as [|x l]; cbn in H |- *; [congruence|]. injection H as <-.
    exists (pick (x :: l)). split; [apply PK|apply fl_tree, F].
  - destruct (all_some n (fun k => flv fl pick v (f k))) as [l|] eqn:A; [|discriminate]. destruct (all_some_spec _ _ _ A) as [L B].
    exists (fun k => l.[k]). split; [intros k Hk; apply IH, B, Hk|]. destruct l as [|x l]; [discriminate|]. injection H as <-. rewrite <- L. split; [cbn; lia|reflexivity].
Qed.
