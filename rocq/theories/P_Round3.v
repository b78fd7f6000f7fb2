(** The expressions of [layer_ex] are what the layers compute, and are harmless. *)
From Coq Require Import Reals Lra Permutation.
From Verif Require Import Base BaseFacts Sums M_Im2col S_Im2col M_Kernels M_Conv M_Layers M_Graph M_Model M_Backend S_Grad S_Partial S_Stats S_BN S_Act S_Graph S_Run S_Fit
  P_Kernels P_Conv P_Conv2 P_Vjp1 P_Vjp2 P_Vjp3 P_VjpConv P_Pool P_Partial P_BN P_BN2 P_BN3 P_Layers P_Layers2 P_Fit P_Ref2 P_Eval M_Round S_Round P_Round P_Round2.
Open Scope nat_scope.

Lemma padded_cell fill h w x i y z n : length (tdat x) = n * (h * w) -> i < n ->
  padded fill h w (tdat x) i y z = ev (values [x]) (cell_ex fill h w i y z).
Proof.
  intros L Hi. unfold padded, cell_ex. destruct (inside h w y z) eqn:I; [|reflexivity]. cbn [ev]. unfold values. cbn [nth].
  unfold inside in I. apply andb_prop in I as [I I4]. apply andb_prop in I as [I I3]. apply andb_prop in I as [I1 I2].
  apply Z.leb_le in I1, I3. apply Z.ltb_lt in I2, I4. apply nth_indep. unfold pixel. rewrite L, Nat.mul_assoc.
  apply mult_lt; [apply mult_lt|]; lia.
Qed.

Lemma rsum3 a b c f : rsum (a * b * c) f = rsum a (fun i => rsum b (fun j => rsum c (fun k => f ((i * b + j) * c + k)))).
Proof. rewrite (rsum_mult (a * b) c), (rsum_mult a b). reflexivity. Qed.

Lemma index4 p P j a b e f c h w : p = P * (h * w) + j -> P = a * c + b -> j = e * w + f -> p = ((a * c + b) * h + e) * w + f.
Proof. intros -> -> ->. ring. Qed.
Lemma index3 p P j e f h w : p = P * (h * w) + j -> j = e * w + f -> p = (P * h + e) * w + f.
Proof. intros -> ->. ring. Qed.

Ltac the1 X x T := let X1 := fresh in inversion X as [|? x ? ? T X1]; subst; clear X; inversion X1; subst; clear X1.

Lemma fits_ex E L inshs osh xs t p : fits L inshs osh -> Forall2 ten_ok inshs xs -> fair E -> computes E L xs osh t -> p < prodN osh ->
  (tdat t).[p] = ev (values xs) (layer_ex E L inshs osh p).
Proof.
  intros F X [FA FX] C Hp. apply computes_at in C as (Tt & L' & R).
  assert (Lt : tot t = prodN osh) by (apply (ten_ok_len _ _ Tt)).
  destruct F as [sh|sh|a sh|a sh|n m Hm|n c h w Hm|sh|W b n u rest Hr HW Hb|g W b buf batch cin h w cout ho wo Hs Hg HW Hb Hpos
    |g ind buf n c h w ho wo Hs Hg Hi|q mask sh Hk Hpos|e a g b s rm rv c n m Hn Ht Hg Hb Hs Hrm Hrv Hc|e a g b s rm rv c ni no N C H W Hn Ht Hg Hb Hs Hrm Hrv Hni Hc].
  - the1 X x Tx. destruct Tx as [Sx Wx]. assert (Tt' : ten_ok (tsh x) t) by (rewrite Sx; exact Tt).
    destruct (act_spec E LReLU relu x t (fun _ _ => eq_refl) Wx Tt') as (o & F1 & _ & V). same F1 R. rewrite V by (unfold tot, twf in *; congruence).
    reflexivity.
  - the1 X x Tx. destruct Tx as [Sx Wx]. assert (Tt' : ten_ok (tsh x) t) by (rewrite Sx; exact Tt).
    destruct (act_spec E LSigmoid sigmoid x t (fun _ _ => eq_refl) Wx Tt') as (o & F1 & _ & V). same F1 R. rewrite V by (unfold tot, twf in *; congruence).
    cbn [layer_ex]. unfold sigmoid_ex. cbn [ev]. unfold sigmoid, Rdiv. rewrite Rmult_1_l. reflexivity.
  - the1 X x Tx. destruct Tx as [Sx Wx]. assert (Tt' : ten_ok (tsh x) t) by (rewrite Sx; exact Tt).
    destruct (act_spec E (LLeaky a) (leaky a) x t (fun _ _ => eq_refl) Wx Tt') as (o & F1 & _ & V). same F1 R. rewrite V by (unfold tot, twf in *; congruence).
    reflexivity.
  - the1 X x Tx. destruct Tx as [Sx Wx]. assert (Tt' : ten_ok (tsh x) t) by (rewrite Sx; exact Tt).
    destruct (act_spec E (LELU a) (elu a) x t (fun _ _ => eq_refl) Wx Tt') as (o & F1 & _ & V). same F1 R. rewrite V by (unfold tot, twf in *; congruence).
    reflexivity.
  - the1 X x Tx. destruct (softmax_spec E n m x t Hm Tx Tt) as (o & F1 & _ & V). same F1 R.
    rewrite prodN2 in Hp. destruct (divmod_lt p n m Hp) as (A & B & D). rewrite D at 1. rewrite V by assumption.
    unfold softmax_val. cbn [layer_ex]. unfold softmax_ex. cbn [ev]. unfold values. cbn [nth].
    pose proof (softmax_shifted m (fun k => (tdat x).[p / m * m + k]) 0 (rmax m (fun k => (tdat x).[p / m * m + k])) (p mod m) Hm) as SS.
    cbv beta in SS. rewrite <- SS. rewrite Rminus_0_r. f_equal. apply rsum_ext. intros k Hk. rewrite Rminus_0_r. reflexivity.
  - the1 X x Tx. destruct (gap_spec E n c h w x t Hm Tx Tt) as (o & F1 & _ & V & _). same F1 R.
    assert (Hp' : p < n * c) by (unfold prodN in Hp; cbn in Hp; lia). destruct (divmod_lt p n c Hp') as (A & B & D).
    rewrite D at 1. rewrite V by assumption. cbn [layer_ex]. unfold gap_ex. cbn [ev]. unfold values. cbn [nth]. f_equal.
    rewrite (rsum_mult h w). apply rsum_ext. intros y Hy. apply rsum_ext. intros z Hz. f_equal. rewrite <- D. ring.
  - inversion X as [|? x ? ? Tx X1]; subst; clear X. inversion X1 as [|? y ? ? Ty X2]; subst; clear X1. inversion X2; subst; clear X2.
    destruct Tx as [Sx Wx]. destruct Ty as [Sy Wy]. assert (Tt' : ten_ok (tsh x) t) by (rewrite Sx; exact Tt).
    destruct (add_spec E x y t Wx Wy ltac:(congruence) Tt') as (o & F1 & _ & V & _). same F1 R. rewrite V by (unfold tot, twf in *; congruence). reflexivity.
  - the1 X x Tx. destruct (linear_spec E W b n u rest x t Hr HW Hb Tx Tt) as (o & F1 & _ & V). same F1 R.
    rewrite prodN2 in Hp. destruct (divmod_lt p n u Hp) as (A & B & D). rewrite D at 1. rewrite V by assumption. cbn [layer_ex]. unfold linear_ex. cbn [ev].
    rewrite Rplus_comm. reflexivity.
  - the1 X x Tx. pose proof (ten_ok_len _ _ Tx) as Lx. rewrite prodN4 in Lx.
    destruct (conv_forward_spec E g W b buf batch cin h w cout ho wo x Hs Hg HW Hb Tx t Tt) as (buf' & o & F1 & _ & V). same F1 R.
    rewrite prodN4 in Hp.
    assert (Hp' : p < (batch * cout) * (ho * wo)) by (rewrite Nat.mul_assoc; exact Hp).
    destruct (divmod_lt p (batch * cout) (ho * wo) Hp') as (A & B & D). destruct (divmod_lt _ _ _ A) as (A1 & A2 & A3).
    assert (B' : p mod (ho * wo) < ho * wo) by exact B. destruct (divmod_lt _ ho wo B') as (B1 & B2 & B3).
    set (j := p mod (ho * wo)) in *. set (P := p / (ho * wo)) in *.
    assert (Dp : p = ((P / cout * cout + P mod cout) * ho + j / wo) * wo + j mod wo) by (eapply index4; eassumption).
    rewrite Dp at 1. rewrite V by assumption. cbn [layer_ex]. unfold conv_ex. fold j. fold P. cbn [ev]. rewrite Rplus_comm. f_equal.
    rewrite rsum3. apply rsum_ext. intros c Hc. apply rsum_ext. intros a Ha. apply rsum_ext. intros d Hd.
    destruct (divmod_nat (c * KH g + a) (KW g) d Hd) as [E1 E2]. destruct (divmod_nat c (KH g) a Ha) as [E3 E4]. rewrite E1, E2, E3, E4.
    cbn [ev]. f_equal; [f_equal; ring|]. apply (padded_cell _ _ _ _ _ _ _ (batch * cin)); [rewrite Lx; ring|]. apply mult_lt; assumption.
  - the1 X x Tx. pose proof (ten_ok_len _ _ Tx) as Lx. rewrite prodN4 in Lx.
    destruct (maxpool_forward_spec E g ind buf n c h w ho wo x Hs Hg Hi Tx FA FX t Tt) as (ind' & buf' & o & F1 & _ & V). same F1 R.
    rewrite prodN4 in Hp.
    assert (Hp' : p < (n * c) * (ho * wo)) by (rewrite Nat.mul_assoc; exact Hp).
    destruct (divmod_lt p (n * c) (ho * wo) Hp') as (A & B & D).
    assert (B' : p mod (ho * wo) < ho * wo) by exact B. destruct (divmod_lt _ ho wo B') as (B1 & B2 & B3).
    set (j := p mod (ho * wo)) in *. set (P := p / (ho * wo)) in *.
    assert (Dp : p = (P * ho + j / wo) * wo + j mod wo) by (eapply index3; eassumption).
    destruct (V P (j / wo) (j mod wo) A B1 B2) as (a & d & Ha & Hd & Va & Vm). rewrite <- Dp in Va, Vm.
    cbn [layer_ex]. unfold maxpool_ex. fold j. fold P. cbn [ev].
    assert (CE : forall a d, wcell g h w (tdat x) P (j / wo) (j mod wo) a d = ev (values [x]) (cell_ex flt_min h w P (win_row g a (j / wo)) (win_col g d (j mod wo)))).
    { intros a' d'. unfold wcell. apply (padded_cell _ _ _ _ _ _ _ (n * c)); [rewrite Lx; ring|exact A]. }
    pose proof (geom_rows g Hg) as GR. apply Rle_antisym.
    + rewrite Va, CE. eapply Rle_trans; [|apply (P_Kernels.rmax_ge _ _ (a * KW g + d)); apply mult_lt; assumption].
      destruct (divmod_nat a (KW g) d Hd) as [E1 E2]. rewrite E1, E2. apply Rle_refl.
    + destruct (rmax_attained (KH g * KW g) (fun k => ev (values [x]) (cell_ex flt_min h w P (win_row g (k / KW g) (j / wo)) (win_col g (k mod KW g) (j mod wo)))) GR) as (k & Hk & ->).
      rewrite <- CE. destruct (divmod_lt k _ _ Hk) as (K1 & K2 & _). apply Vm; assumption.
  - the1 X x Tx. destruct Tx as [Sx Wx]. assert (Tt' : ten_ok (tsh x) t) by (rewrite Sx; exact Tt). cbn [layer_ex]. unfold dropout_ex.
    destruct (p_train mask) eqn:TR.
    + assert (Hk' : prm_ok (tsh x) mask) by (rewrite Sx; exact Hk).
      destruct (dropout_train_spec E q mask x t TR Wx Hk' Tt') as (mask' & o & F1 & _ & _ & _ & _ & _ & V0 & V1). same F1 R.
      assert (Hpx : p < tot x) by (unfold tot, twf in *; congruence). unfold geb. destruct (Rle_dec q (e_rnd E p)) as [G|G]; cbn [ev].
      * rewrite V1 by assumption. reflexivity.
      * rewrite V0 by (try assumption; lra). unfold Rdiv. rewrite Rmult_0_l. reflexivity.
    + assert (NZ : tot t <> 0) by lia. rewrite (dropout_eval_spec E q mask x t TR Wx Tt' NZ) in R. injection R as _ <-. reflexivity.
  - the1 X x Tx. assert (ST : bn1_state m g b s rm rv c) by (split; [|split; [|split; [|split; [|split]]]]; assumption).
    destruct (bn1_forward E e a g b s rm rv c n m x t (p_train g) (fun _ => Hn) ST eq_refl Ht Tx Tt) as (s' & rm' & rv' & c' & o & F1 & _ & _ & _ & V & _). same F1 R.
    rewrite prodN2 in Hp. destruct (divmod_lt p n m Hp) as (A & B & D). rewrite D at 1. rewrite V by assumption. cbn [layer_ex]. unfold bn_ex. cbn [ev].
    f_equal. destruct (p_train g); cbn [ev]; unfold values; cbn [nth]; [|unfold Rdiv; ring].
    unfold variance, mean.
    rewrite (rsum_ext n (fun i => ((tdat x).[i * m + p mod m] - rsum n (fun i0 => (tdat x).[i0 * m + p mod m]) / INR n) ^ 2)%R
                        (fun i => (((tdat x).[i * m + p mod m] - rsum n (fun i0 => (tdat x).[i0 * m + p mod m]) / INR n) * ((tdat x).[i * m + p mod m] - rsum n (fun i0 => (tdat x).[i0 * m + p mod m]) / INR n))%R)) by (intros; ring).
    unfold Rdiv. ring.
  - the1 X x Tx. assert (ST : bn2_state C g b s rm rv) by (split; [|split; [|split; [|split]]]; assumption).
    assert (RM : bn2_room (N * C * H * W) c ni no) by (unfold bn2_room; destruct Hni as [->|[-> ->]], Hc as [->| ->]; auto).
    assert (PS : (p_train g = true -> 0 < N * H * W)%nat) by (intros _; destruct N, C, H, W; cbn in *; lia).
    destruct (bn2_forward E e a g b s rm rv c ni no N C H W x t (p_train g) PS ST RM eq_refl Ht Tx Tt)
      as (s' & rm' & rv' & c' & ni' & no' & o & F1 & _ & _ & _ & _ & _ & V & _). same F1 R.
    rewrite prodN4 in Hp. assert (Hp' : p < (N * C) * (H * W)) by (rewrite Nat.mul_assoc; exact Hp).
    destruct (divmod_lt p (N * C) (H * W) Hp') as (A & B & D). destruct (divmod_lt _ _ _ A) as (A1 & A2 & A3).
    assert (B' : p mod (H * W) < H * W) by exact B. destruct (divmod_lt _ H W B') as (B1 & B2 & B3).
    cbn [layer_ex]. set (j := p mod (H * W)) in *. set (P := p / (H * W)) in *.
    assert (Dp : p = ((P / C * C + P mod C) * H + j / W) * W + j mod W) by (eapply index4; eassumption).
    rewrite Dp at 1. rewrite V by assumption. unfold bn_ex. cbn [ev]. f_equal.
    assert (AT : forall i c0, i < N * H * W -> nchw_at C (H * W) i c0 = ((i / W / H * C + c0) * H + i / W mod H) * W + i mod W).
    { intros i c0 Hi. unfold nchw_at. assert (Hi' : i < N * (H * W)) by lia. destruct (divmod_lt i N (H * W) Hi') as (I1 & I2 & I3).
      assert (I2' : i mod (H * W) < H * W) by exact I2. destruct (divmod_lt _ H W I2') as (J1 & J2 & J3).
      assert (Q1 : i / W = i / (H * W) * H + i mod (H * W) / W).
      { assert (EI : i = (i / (H * W) * H + i mod (H * W) / W) * W + i mod (H * W) mod W) by (eapply index3; eassumption). rewrite EI at 1.
        destruct (divmod_nat (i / (H * W) * H + i mod (H * W) / W) W (i mod (H * W) mod W) J2) as [Q _]. exact Q. }
      assert (Q2 : i mod W = i mod (H * W) mod W).
      { assert (EI : i = (i / (H * W) * H + i mod (H * W) / W) * W + i mod (H * W) mod W) by (eapply index3; eassumption). rewrite EI at 1.
        destruct (divmod_nat (i / (H * W) * H + i mod (H * W) / W) W (i mod (H * W) mod W) J2) as [_ Q]. exact Q. }
      destruct (divmod_nat (i / (H * W)) H (i mod (H * W) / W) J1) as [Q3 Q4]. rewrite Q2, Q1, Q3, Q4.
      replace (((i / (H * W) * C + c0) * H + i mod (H * W) / W) * W + i mod (H * W) mod W)
        with ((i / (H * W) * C + c0) * (H * W) + (i mod (H * W) / W * W + i mod (H * W) mod W)) by ring. rewrite <- J3. reflexivity. }
    assert (A0 : nchw_at C (H * W) (P / C * (H * W) + j) (P mod C) = ((P / C * C + P mod C) * H + j / W) * W + j mod W).
    { unfold nchw_at. destruct (divmod_nat (P / C) (H * W) j B) as [Q1 Q2]. rewrite Q1, Q2.
      replace (((P / C * C + P mod C) * H + j / W) * W + j mod W) with ((P / C * C + P mod C) * (H * W) + (j / W * W + j mod W)) by ring. rewrite <- B3. reflexivity. }
    rewrite A0. cbn beta in *.
    destruct (p_train g); cbn [ev]; unfold values; cbn [nth]; [|unfold Rdiv; ring].
    rewrite variance3_flat, mean3_flat. unfold variance, mean.
    assert (MS : rsum (N * H * W) (fun k => (tdat x).[nchw_at C (H * W) k (P mod C)]) =
                 rsum (N * H * W) (fun i => (tdat x).[((i / W / H * C + P mod C) * H + i / W mod H) * W + i mod W])) by (apply rsum_ext; intros i Hi; rewrite AT by exact Hi; reflexivity).
    rewrite MS. set (mu := (rsum (N * H * W) (fun i => (tdat x).[((i / W / H * C + P mod C) * H + i / W mod H) * W + i mod W]) / INR (N * H * W))%R).
    assert (VS : rsum (N * H * W) (fun k => (((tdat x).[nchw_at C (H * W) k (P mod C)] - mu) * ((tdat x).[nchw_at C (H * W) k (P mod C)] - mu))%R) =
                 rsum (N * H * W) (fun i => (((tdat x).[((i / W / H * C + P mod C) * H + i / W mod H) * W + i mod W] - mu) ^ 2)%R))
      by (apply rsum_ext; intros i Hi; rewrite AT by exact Hi; ring).
    rewrite VS. unfold Rdiv. ring.
Qed.
