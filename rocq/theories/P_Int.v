(** Integer arithmetic within the range of [int]. *)
From Coq Require Import Reals Lra Lia String.
From Verif Require Import Base BaseFacts Sums M_Tensor M_Im2col S_Im2col M_Kernels M_Conv M_Layers M_Nn M_Int S_Grad S_Plain S_Int P_Layout P_Plain P_BN P_BN2 P_Vjp2 P_Eval.
Open Scope Z_scope.

Lemma int_ok z : int_min <= z <= int_max -> int_ z = Ok z.
Proof. intros H. unfold int_, fits_int. destruct (Z.leb_spec int_min z); [|lia]. destruct (Z.leb_spec z int_max); [reflexivity|lia]. Qed.
Lemma int_big z : int_max < z -> int_ z = UB.
Proof. intros H. unfold int_, fits_int. destruct (Z.leb_spec z int_max); [lia|]. rewrite andb_false_r. reflexivity. Qed.
Lemma int_inv z r : int_ z = Ok r -> r = z /\ z <= int_max.
Proof. unfold int_, fits_int. destruct (Z.leb_spec int_min z); [|discriminate]. destruct (Z.leb_spec z int_max); [|discriminate]. cbn. intros [= <-]. auto. Qed.
Lemma int_nothrow z : int_ z <> Throw.
Proof. unfold int_. destruct (fits_int z); discriminate. Qed.

(** ** Sizes *)
Lemma quot_ok a b : 0 < b -> int_min + 1 <= a <= int_max - 1 ->
  quot32 a b = Ok (Z.quot a b) /\ int_ (Z.quot a b + 1) = Ok (Z.quot a b + 1).
Proof.
  intros Hb Ha. assert (Q : Z.abs (Z.quot a b) <= Z.abs a).
  { rewrite <- (Z.quot_abs a b) by lia. rewrite (Z.abs_eq b) by lia. rewrite Z.quot_div_nonneg by (try apply Z.abs_nonneg; lia). apply Z.div_le_upper_bound; [lia|]. pose proof (Z.abs_nonneg a) as N. revert N. generalize (Z.abs a). intros t N. nia. }
  assert (U : Z.quot a b <= int_max - 1).
  { apply Z.le_trans with (Z.quot (int_max - 1) b); [apply Z.quot_le_mono; lia|]. rewrite Z.quot_div_nonneg by (unfold int_max; lia). apply Z.div_le_upper_bound; [lia|]. unfold int_max; nia. }
  unfold quot32. destruct (Z.eqb_spec b 0); [lia|]. unfold int_min, int_max in *. revert Q U. generalize (Z.quot a b). intros q Q U. split; apply int_ok; unfold int_min, int_max; lia.
Qed.

Lemma out_size_small inp pad kernel stride : 0 <= inp -> 0 <= pad -> 0 < kernel <= int_max -> 0 < stride ->
  out_size32 inp pad kernel stride = if inp + 2 * pad <=? int_max then layer_out_size inp pad kernel stride else UB.
Proof.
  intros H1 H2 H3 H4. unfold out_size32, layer_out_size, int_div. destruct (Z.leb_spec (inp + 2 * pad) int_max) as [L|L].
  - rewrite int_ok by (unfold int_min; lia). cbn [bind]. rewrite int_ok by (unfold int_min; lia). cbn [bind].
    rewrite int_ok by (unfold int_min, int_max in *; lia). cbn [bind].
    destruct (quot_ok (inp + 2 * pad - kernel) stride H4) as [Q1 Q2]; [unfold int_min, int_max in *; lia|].
    rewrite Q1. cbn [bind]. rewrite Q2. destruct (Z.eqb_spec stride 0); [lia|]. reflexivity.
  - destruct (Z.leb_spec (2 * pad) int_max) as [P|P]; [|rewrite int_big by lia; reflexivity].
    rewrite int_ok by (unfold int_min; lia). cbn [bind]. rewrite int_big by lia. reflexivity.
Qed.

Lemma im2col_size_small inp pad kernel stride dilation out : walks inp pad kernel stride dilation out ->
  im2col_out_size32 inp pad kernel stride dilation = im2col_out_size inp pad kernel stride dilation.
Proof.
  intros (H1 & H2 & H3 & H4 & H5 & H6 & H7 & _). unfold im2col_out_size32, im2col_out_size, int_div.
  assert (D0 : 0 <= dilation * (kernel - 1)) by nia. assert (K : kernel - 1 <= dilation * (kernel - 1)) by nia.
  set (dk := dilation * (kernel - 1)) in *.
  rewrite int_ok by (unfold int_min, int_max; lia). cbn [bind]. rewrite int_ok by (unfold int_min, int_max; lia). cbn [bind].
  rewrite int_ok by (unfold int_min, int_max; lia). cbn [bind]. fold dk. rewrite int_ok by (unfold int_min, int_max; lia). cbn [bind].
  rewrite int_ok by (unfold int_min, int_max; lia). cbn [bind]. rewrite int_ok by (unfold int_min, int_max; lia). cbn [bind].
  destruct (quot_ok (inp + 2 * pad - (dk + 1)) stride H4) as [Q1 Q2]; [unfold int_min, int_max in *; lia|].
  rewrite Q1. cbn [bind]. rewrite Q2. destruct (Z.eqb_spec stride 0); [lia|]. reflexivity.
Qed.

(** ** Loops *)
Lemma forr_same {S} (Inv : nat -> S -> Prop) n (b1 b2 : nat -> S -> res S) s :
  (forall i s, (i < n)%nat -> Inv i s -> b1 i s = b2 i s) ->
  (forall i s s', (i < n)%nat -> Inv i s -> b2 i s = Ok s' -> Inv (Datatypes.S i) s') ->
  Inv O s -> forr n b1 s = forr n b2 s.
Proof.
  intros Eq Pr I0. assert (G : forall m, (m <= n)%nat -> forr m b1 s = forr m b2 s /\ forall a, forr m b2 s = Ok a -> Inv m a).
  { induction m as [|m IH]; intros L; [split; [reflexivity|]; intros a E; cbn in E; injection E as <-; exact I0|].
    destruct (IH ltac:(lia)) as [E1 E2]. cbn [forr]. rewrite E1. destruct (forr m b2 s) as [a| |] eqn:F; cbn [bind]; [|split; [reflexivity|discriminate]..].
    specialize (E2 a eq_refl). split; [apply Eq; [lia|exact E2]|]. intros c. apply Pr; [lia|exact E2]. }
  apply (G n). lia.
Qed.

Lemma start_ok k dilation pad kernel inp stride out : walks inp pad kernel stride dilation out -> 0 <= k < kernel ->
  start32 k dilation pad = Ok (k * dilation - pad).
Proof.
  intros (H1 & H2 & H3 & H4 & H5 & H6 & H7 & H8) Hk. unfold start32.
  assert (0 <= k * dilation <= dilation * (kernel - 1)) by nia.
  rewrite int_ok by (unfold int_min, int_max; lia). cbn [bind]. apply int_ok. unfold int_min, int_max; lia.
Qed.
Lemma step_ok k dilation pad kernel inp stride out t : walks inp pad kernel stride dilation out -> 0 <= k < kernel -> 0 <= t < out ->
  int_ (k * dilation - pad + t * stride + stride) = Ok (k * dilation - pad + t * stride + stride).
Proof.
  intros (H1 & H2 & H3 & H4 & H5 & H6 & H7 & H8) Hk Ht. apply int_ok.
  assert (0 <= k * dilation <= (kernel - 1) * dilation) by nia. assert (0 <= t * stride) by nia. assert (t * stride + stride <= out * stride) by nia.
  unfold int_min, int_max. lia.
Qed.
Lemma place_ok h w r c : 0 <= r < h -> 0 <= c < w -> h * w <= int_max -> place32 r w c = Ok (r * w + c).
Proof.
  intros Hr Hc Hm. unfold place32. assert (0 <= r * w <= h * w) by nia. assert (r * w + c < h * w) by nia.
  rewrite int_ok by (unfold int_min; lia). cbn [bind]. apply int_ok. unfold int_min. lia.
Qed.

Section Windows.
Context {V : Type} (g : geom) (ch h w ho wo : nat).
Hypothesis SZ : sizes_ok g h w ho wo.
Hypothesis WF : windows_fit g h w ho wo.
Hypothesis HW : Z.of_nat h * Z.of_nat w <= int_max.

Lemma im2col_small (fill : V) src dst : im2col32 g (Z.of_nat ch) (Z.of_nat h) (Z.of_nat w) fill src dst = im2col g (Z.of_nat ch) (Z.of_nat h) (Z.of_nat w) fill src dst.
Proof.
  destruct WF as [WH WW]. destruct SZ as [SH SW]. unfold im2col32, im2col. rewrite (im2col_size_small _ _ _ _ _ _ WH), (im2col_size_small _ _ _ _ _ _ WW).
  rewrite SH, SW. cbn [bind]. apply bind_ext. intros nch.
  match goal with |- bind ?a _ = bind ?b _ => assert (X : a = b); [|rewrite X; reflexivity] end.
  apply forr_ext. intros c [d p] _. rewrite int_ok by (unfold int_min; nia). cbn [bind].
  match goal with |- bind ?a _ = ?b => assert (X : a = b); [|rewrite X; destruct b; reflexivity] end.
  apply forr_ext. intros kh [d1 p1] Hkh. apply forr_ext. intros kw [d2 p2] Hkw.
  rewrite (start_ok (Z.of_nat kh) _ _ _ _ _ _ WH) by lia. cbn [bind]. unfold count_down.
  destruct (Z.ltb_spec (Z.of_nat ho) 0); [reflexivity|]. cbn [bind].
  match goal with |- bind ?a _ = bind ?b _ => assert (X : a = b); [|rewrite X; reflexivity] end.
  apply (forr_same (fun i s => snd s = Z.of_nat kh * g_dh g - g_ph g + Z.of_nat i * g_sh g)); [| |cbn [snd]; lia].
  - intros i [[d3 p3] row] Hi E. cbn [snd] in E. destruct (Z.ltb_spec (Z.of_nat wo) 0); [reflexivity|]. cbn [bind].
    match goal with |- bind ?a _ = bind ?b _ => assert (X : a = b) end.
    { destruct (negb _) eqn:NB; [reflexivity|]. apply negb_false_iff, andb_true_iff in NB. destruct NB as [N1 N2]. apply Z.leb_le in N1. apply Z.ltb_lt in N2.
      rewrite (start_ok (Z.of_nat kw) _ _ _ _ _ _ WW) by lia. cbn [bind].
      match goal with |- bind ?a _ = bind ?b _ => assert (X : a = b); [|rewrite X; reflexivity] end.
      apply (forr_same (fun i s => snd s = Z.of_nat kw * g_dw g - g_pw g + Z.of_nat i * g_sw g)); [| |cbn [snd]; lia].
      - intros j [[d4 p4] col] Hj Ec. cbn [snd] in Ec.
        assert (IC : int_ (col + g_sw g) = Ok (col + g_sw g)) by (rewrite Ec; apply (step_ok (Z.of_nat kw) _ _ _ _ _ _ _ WW); lia).
        destruct ((0 <=? col) && (col <? Z.of_nat w))%bool eqn:IB.
        + apply andb_true_iff in IB. destruct IB as [I1 I2]. apply Z.leb_le in I1. apply Z.ltb_lt in I2.
          rewrite (place_ok (Z.of_nat h)) by (assumption || lia). cbn [bind]. apply bind_ext. intros v. apply bind_ext. intros d5. rewrite IC. reflexivity.
        + cbn [bind]. apply bind_ext. intros d5. rewrite IC. reflexivity.
      - intros j [[d4 p4] col] s' Hj Ec F. cbn [snd] in Ec.
        match type of F with bind ?a _ = _ => destruct a as [v| |] end; cbn [bind] in F; try discriminate. destruct (wr d4 p4 v); cbn [bind] in F; try discriminate. injection F as <-. cbn [snd]. lia. }
    rewrite X. apply bind_ext. intros [d4 p4]. rewrite E, (step_ok (Z.of_nat kh) _ _ _ _ _ _ _ WH) by lia. reflexivity.
  - intros i [[d3 p3] row] s' Hi E F. cbn [snd] in E. destruct (Z.ltb_spec (Z.of_nat wo) 0); [discriminate|]. cbn [bind] in F.
    match type of F with bind ?a _ = _ => destruct a as [[d4 p4]| |] end; cbn [bind] in F; try discriminate. injection F as <-. cbn [snd]. lia.
Qed.

Lemma col2im_small add (src dst : list V) : col2im32 add g (Z.of_nat ch) (Z.of_nat h) (Z.of_nat w) src dst = col2im add g (Z.of_nat ch) (Z.of_nat h) (Z.of_nat w) src dst.
Proof.
  destruct WF as [WH WW]. destruct SZ as [SH SW]. unfold col2im32, col2im. rewrite (im2col_size_small _ _ _ _ _ _ WH), (im2col_size_small _ _ _ _ _ _ WW).
  rewrite SH, SW. cbn [bind]. apply bind_ext. intros nch.
  match goal with |- bind ?a _ = bind ?b _ => assert (X : a = b); [|rewrite X; reflexivity] end.
  apply forr_ext. intros c [d p] _. rewrite int_ok by (unfold int_min; nia). cbn [bind].
  match goal with |- bind ?a _ = ?b => assert (X : a = b); [|rewrite X; destruct b; reflexivity] end.
  apply forr_ext. intros kh [d1 p1] Hkh. apply forr_ext. intros kw [d2 p2] Hkw.
  rewrite (start_ok (Z.of_nat kh) _ _ _ _ _ _ WH) by lia. cbn [bind]. unfold count_down.
  destruct (Z.ltb_spec (Z.of_nat ho) 0); [reflexivity|]. cbn [bind].
  match goal with |- bind ?a _ = bind ?b _ => assert (X : a = b); [|rewrite X; reflexivity] end.
  apply (forr_same (fun i s => snd s = Z.of_nat kh * g_dh g - g_ph g + Z.of_nat i * g_sh g)); [| |cbn [snd]; lia].
  - intros i [[d3 p3] row] Hi E. cbn [snd] in E.
    match goal with |- bind ?a _ = bind ?b _ => assert (X : a = b) end.
    { destruct (negb _) eqn:NB; [reflexivity|]. apply negb_false_iff, andb_true_iff in NB. destruct NB as [N1 N2]. apply Z.leb_le in N1. apply Z.ltb_lt in N2.
      rewrite (start_ok (Z.of_nat kw) _ _ _ _ _ _ WW) by lia. cbn [bind]. destruct (Z.ltb_spec (Z.of_nat wo) 0); [reflexivity|]. cbn [bind].
      match goal with |- bind ?a _ = bind ?b _ => assert (X : a = b); [|rewrite X; reflexivity] end.
      apply (forr_same (fun i s => snd s = Z.of_nat kw * g_dw g - g_pw g + Z.of_nat i * g_sw g)); [| |cbn [snd]; lia].
      - intros j [[d4 p4] col] Hj Ec. cbn [snd] in Ec.
        assert (IC : int_ (col + g_sw g) = Ok (col + g_sw g)) by (rewrite Ec; apply (step_ok (Z.of_nat kw) _ _ _ _ _ _ _ WW); lia).
        destruct ((0 <=? col) && (col <? Z.of_nat w))%bool eqn:IB.
        + apply andb_true_iff in IB. destruct IB as [I1 I2]. apply Z.leb_le in I1. apply Z.ltb_lt in I2.
          rewrite (place_ok (Z.of_nat h)) by (assumption || lia). cbn [bind]. apply bind_ext. intros d5. rewrite IC. reflexivity.
        + cbn [bind]. rewrite IC. reflexivity.
      - intros j [[d4 p4] col] s' Hj Ec F. cbn [snd] in Ec.
        match type of F with bind ?a _ = _ => destruct a as [v| |] end; cbn [bind] in F; try discriminate. injection F as <-. cbn [snd]. lia. }
    rewrite X. apply bind_ext. intros [d4 p4]. rewrite E, (step_ok (Z.of_nat kh) _ _ _ _ _ _ _ WH) by lia. reflexivity.
  - intros i [[d3 p3] row] s' Hi E F. cbn [snd] in E.
    match type of F with bind ?a _ = _ => destruct a as [[d4 p4]| |] end; cbn [bind] in F; try discriminate. injection F as <-. cbn [snd]. lia.
Qed.
End Windows.

(** ** Products *)
Open Scope nat_scope.
Lemma int_small n : small n -> int_ (Z.of_nat n) = Ok (Z.of_nat n).
Proof. intros H. unfold int_. rewrite (fits_small n H). reflexivity. Qed.
Lemma times_ok s : Forall (fun d => 0 < d) s -> forall a, 0 < a -> small (a * prodN s) -> times32 (Z.of_nat a) (ints s) = Ok (Z.of_nat (a * prodN s)).
Proof.
  induction 1 as [|d t Hd Ht IH]; intros a Ha S; cbn [ints map times32 prodN fold_right]; [rewrite Nat.mul_1_r; reflexivity|].
  fold (ints t) (prodN t). rewrite <- Nat2Z.inj_mul. cbn [prodN fold_right] in S. fold (prodN t) in S. pose proof (prod_pos t Ht) as P.
  rewrite int_small by (unfold small in *; nia). cbn [bind]. rewrite IH by (rewrite <- ?Nat.mul_assoc; first [assumption|nia]). rewrite Nat.mul_assoc. reflexivity.
Qed.
Lemma int_prod_ok s : proper s -> int_prod (ints s) = Ok (Z.of_nat (prodN s)).
Proof. exact (int_prod_zs s). Qed.
Lemma kernel_ints g : (0 < g_kh g)%Z -> (0 < g_kw g)%Z -> [g_kh g; g_kw g] = ints [KH g; KW g] /\ 0 < KH g /\ 0 < KW g.
Proof. intros H1 H2. unfold ints, KH, KW. cbn [map]. rewrite !Z2Nat.id by lia. split; [reflexivity|]. lia. Qed.
Lemma small_le a b : small b -> a <= b -> small a.
Proof. unfold small. lia. Qed.
Lemma times2 a b : 0 < a -> 0 < b -> small (a * b) -> times32 (Z.of_nat a) (ints [b]) = Ok (Z.of_nat (a * b)).
Proof. intros Ha Hb S. rewrite times_ok; [rewrite prodN1; reflexivity|repeat constructor; assumption|exact Ha|rewrite prodN1; exact S]. Qed.
Lemma times3 a b c : 0 < a -> 0 < b -> 0 < c -> small (a * b * c) -> times32 (Z.of_nat a) (ints [b; c]) = Ok (Z.of_nat (a * b * c)).
Proof.
  intros Ha Hb Hc S. rewrite times_ok; [rewrite prodN2, Nat.mul_assoc; reflexivity|repeat constructor; assumption|exact Ha|rewrite prodN2, Nat.mul_assoc; exact S].
Qed.
Lemma proper4 a b c d : proper [a; b; c; d] -> 0 < a /\ 0 < b /\ 0 < c /\ 0 < d /\ small (a * b * c * d).
Proof. intros [F S]. rewrite prodN4 in S. inversion_clear F as [|? ? F1 F2]. inversion_clear F2 as [|? ? F3 F4]. inversion_clear F4 as [|? ? F5 F6]. inversion_clear F6. auto. Qed.

(** ** Convolution *)
Lemma mid a b c : 0 < a -> 0 < b -> 0 < c -> a <= b * a * c /\ c <= b * a * c /\ a * c <= b * a * c /\ a <= a * c /\ c <= a * c.
Proof. intros Ha Hb Hc. assert (a <= b * a) by nia. assert (1 <= b * a) by lia. assert (b * a <= b * a * c) by nia. assert (a * c <= b * a * c) by nia. repeat split; nia. Qed.
Lemma le_times a b : 0 < a -> b <= a * b.
Proof. nia. Qed.
Lemma walks_kernel i p k s d o : walks i p k s d o -> (0 < k)%Z.
Proof. intros (_ & _ & H & _). exact H. Qed.

Lemma fold4 a b c d : proper [a; b; c; d] -> forall b', 0 < b' -> small (b' * c * d) -> small (b * c * d) /\ proper [1; b; c; d] /\ small (c * d) /\ (Z.of_nat c * Z.of_nat d <= int_max)%Z.
Proof.
  intros P b' Hb' S. destruct (proper4 _ _ _ _ P) as (Ha & Hb & Hc & Hd & Sm).
  assert (L : b * c * d <= a * b * c * d) by (rewrite <- !Nat.mul_assoc; apply le_times; lia).
  assert (L2 : c * d <= b' * c * d) by (rewrite <- !Nat.mul_assoc; apply le_times; lia).
  split; [exact (small_le _ _ Sm L)|]. split.
  { split; [repeat constructor; lia|]. rewrite prodN4, Nat.mul_1_l. exact (small_le _ _ Sm L). }
  pose proof (small_le _ _ S L2) as S2. split; [exact S2|]. unfold small, int_max in *. lia.
Qed.

Lemma conv_fwd_small E g W b buf i o n cin h w m c2 ho wo cout rest :
  tsh i = [n; cin; h; w] -> made i -> tsh o = [m; c2; ho; wo] -> tsh (p_data W) = cout :: rest -> 0 < cout -> 0 < ho -> 0 < wo ->
  small (cout * ho * wo) ->
  windows_fit g h w ho wo -> sizes_ok g h w ho wo -> small (n * (cin * KH g * KW g) * (ho * wo)) ->
  conv_fwd32 E g W b buf i o = conv_fwd E g W b buf i o.
Proof.
  intros Hi Mi Ho HW Pc Ph Pw Sout WF SZ Scol. unfold made in Mi. rewrite Hi in Mi.
  destruct (proper4 _ _ _ _ Mi) as (Pn & Pcin & Phh & Pww & Sin). destruct WF as [WH WWd].
  destruct (kernel_ints g (walks_kernel _ _ _ _ _ _ WH) (walks_kernel _ _ _ _ _ _ WWd)) as (KI & Pk1 & Pk2).
  assert (Shw : small (cin * h * w)) by (apply (small_le _ _ Sin); rewrite <- !Nat.mul_assoc; apply le_times; lia).
  destruct (fold4 n cin h w Mi cin Pcin Shw) as (_ & P1 & Shw2 & ZHW).
  assert (Pr : 0 < cin * KH g * KW g) by (repeat apply Nat.mul_pos_pos; assumption).
  assert (Pcl : 0 < ho * wo) by (apply Nat.mul_pos_pos; assumption).
  destruct (mid _ _ _ Pr Pn Pcl) as (Q1 & Q2 & Q3 & _ & _).
  pose proof (small_le _ _ Scol Q1) as Srows. pose proof (small_le _ _ Scol Q2) as Scols. pose proof (small_le _ _ Scol Q3) as Src.
  unfold conv_fwd32, conv_fwd, dims4, dim0. rewrite Hi, Ho, HW. cbn [rd nth_error bind].
  rewrite KI, (times3 cin (KH g) (KW g)) by assumption. cbn [bind]. rewrite (times2 ho wo) by assumption. cbn [bind].
  change [Z.of_nat (cin * KH g * KW g); Z.of_nat (ho * wo)] with (ints [cin * KH g * KW g; ho * wo]).
  rewrite times3 by assumption. cbn [bind]. rewrite Nat2Z.id. unfold cd_rows, cd_cols. cbn [cd_cin cd_ho cd_wo].
  match goal with |- bind ?a _ = bind ?b _ => assert (X : a = b); [|rewrite X; reflexivity] end.
  unfold conv_forward32, conv_forward. cbn [cd_cin cd_h cd_w cd_cout cd_ho cd_wo].
  rewrite KI, (times3 cin (KH g) (KW g)) by assumption. cbn [bind]. rewrite (times2 ho wo) by assumption. cbn [bind].
  rewrite (times3 cin h w) by assumption. cbn [bind]. rewrite (times3 cout ho wo) by assumption. cbn [bind].
  apply forr_ext. intros t [bu ou] _. unfold conv_step32, conv_step, cd_rows, cd_cols. cbn [cd_cin cd_h cd_w cd_cout cd_ho cd_wo].
  rewrite (int_prod_ok [1; cin; h; w]) by exact P1. cbn [bind]. apply bind_ext. intros src.
  rewrite int_prod_ok by (split; [repeat constructor; assumption|rewrite prodN2; exact Src]). cbn [bind]. apply bind_ext. intros plane.
  rewrite (im2col_small g cin h w ho wo SZ (conj WH WWd) ZHW). reflexivity.
Qed.

Lemma conv_bwd_small g junk n cin h w cout ho wo go wt gi : 0 < cin -> 0 < h -> 0 < w -> 0 < cout -> 0 < ho -> 0 < wo ->
  small (cin * h * w) -> small (cout * ho * wo) -> windows_fit g h w ho wo -> sizes_ok g h w ho wo -> small ((cin * KH g * KW g) * (ho * wo)) ->
  conv_input_grad32 g (mkCd cin h w cout ho wo) n junk go wt gi = conv_input_grad g (mkCd cin h w cout ho wo) n junk go wt gi.
Proof.
  intros Pcin Phh Pww Pc Ph Pw Sin Sout [WH WWd] SZ Scol.
  destruct (kernel_ints g (walks_kernel _ _ _ _ _ _ WH) (walks_kernel _ _ _ _ _ _ WWd)) as (KI & Pk1 & Pk2).
  assert (P1 : proper [1; cin; h; w]) by (split; [repeat constructor; lia|rewrite prodN4, Nat.mul_1_l; exact Sin]).
  destruct (fold4 _ _ _ _ P1 cin Pcin Sin) as (_ & _ & Shw2 & ZHW).
  assert (Pr : 0 < cin * KH g * KW g) by (repeat apply Nat.mul_pos_pos; assumption).
  assert (Pcl : 0 < ho * wo) by (apply Nat.mul_pos_pos; assumption).
  destruct (mid _ _ _ Pr Pr Pcl) as (_ & _ & _ & Q1 & Q2).
  pose proof (small_le _ _ Scol Q1) as Srows. pose proof (small_le _ _ Scol Q2) as Scols.
  unfold conv_input_grad32, conv_input_grad. cbn [cd_cin cd_h cd_w cd_cout cd_ho cd_wo].
  rewrite KI, (times3 cin (KH g) (KW g)) by assumption. cbn [bind]. rewrite (times2 ho wo) by assumption. cbn [bind].
  rewrite (times3 cout ho wo) by assumption. cbn [bind].
  apply forr_ext. intros t gd _. unfold conv_input_grad_step32, conv_input_grad_step, cd_rows, cd_cols. cbn [cd_cin cd_h cd_w cd_cout cd_ho cd_wo].
  apply bind_ext. intros _. rewrite int_prod_ok by (split; [repeat constructor; assumption|rewrite prodN2; exact Scol]). cbn [bind].
  apply bind_ext. intros _. apply bind_ext. intros go'. rewrite (int_prod_ok [1; cin; h; w]) by exact P1. cbn [bind]. apply bind_ext. intros gi'.
  rewrite (col2im_small g cin h w ho wo SZ (conj WH WWd) ZHW). reflexivity.
Qed.

(** ** Max pooling *)
Lemma to_float_exact n : (Z.of_nat n <= 2 ^ 24)%Z -> to_float n = n.
Proof.
  intros H. unfold to_float. destruct (Z.leb_spec (Z.log2 (Z.of_nat n) - 23) 0) as [L|L]; [reflexivity|].
  assert (L2 : (2 ^ 24 <= Z.of_nat n)%Z).
  { destruct (Z.le_gt_cases (Z.of_nat n) 0) as [N|N]; [rewrite Z.log2_nonpos in L by exact N; lia|]. apply Z.log2_le_pow2; lia. }
  assert (E : (Z.of_nat n = 2 ^ 24)%Z) by lia. rewrite E. rewrite <- (Nat2Z.id n) at 1. rewrite E. reflexivity.
Qed.

Lemma pool_cols_small am i rows cols col s : (forall f, 0 < rows -> am rows f < rows) -> (Z.of_nat rows <= 16777216)%Z ->
  pool_cols32 am i rows cols col s = pool_cols am i rows cols col s.
Proof.
  intros A R. unfold pool_cols32, pool_cols. apply forr_ext. intros j [d ind] _. destruct (Nat.eqb_spec rows 0) as [Z|Z]; [reflexivity|].
  cbv zeta. apply bind_ext. intros d'. rewrite to_float_exact; [reflexivity|]. specialize (A (fun k => el col cols k j)). change (2 ^ 24)%Z with 16777216%Z. lia.
Qed.

Lemma maxpool_fwd_small E g ind buf i o n c h w m c2 ho wo :
  tsh i = [n; c; h; w] -> made i -> tsh o = [m; c2; ho; wo] -> made o ->
  windows_fit g h w ho wo -> sizes_ok g h w ho wo -> small (KH g * KW g * (ho * wo)) -> (Z.of_nat (KH g * KW g) <= 16777216)%Z ->
  (forall k f, 0 < k -> e_amax E k f < k) ->
  maxpool_fwd32 E g ind buf i o = maxpool_fwd E g ind buf i o.
Proof.
  intros Hi Mi Ho Mo [WH WWd] SZ Scol K24 AM. unfold made in Mi, Mo. assert (IP := int_prod_ok _ Mo). rewrite Hi in Mi. rewrite Ho in Mo.
  destruct (proper4 _ _ _ _ Mi) as (Pn & Pc & Phh & Pww & Sin). destruct (proper4 _ _ _ _ Mo) as (Pm & Pc2 & Ph & Pw & Sout).
  destruct (kernel_ints g (walks_kernel _ _ _ _ _ _ WH) (walks_kernel _ _ _ _ _ _ WWd)) as (KI & Pk1 & Pk2).
  assert (K1 : g_kh g = Z.of_nat (KH g)) by (unfold ints in KI; cbn [map] in KI; congruence). assert (K2 : [g_kw g] = ints [KW g]) by (unfold ints in *; cbn [map] in *; congruence).
  assert (Q0 : c * h * w <= n * c * h * w) by (rewrite <- !Nat.mul_assoc; apply le_times; lia).
  assert (Q00 : n * c <= n * c * h * w) by (rewrite <- Nat.mul_assoc; apply Nat.le_trans with ((h * w) * (n * c)); [apply le_times, Nat.mul_pos_pos; assumption|rewrite (Nat.mul_comm (h * w)); lia]).
  destruct (fold4 _ _ _ _ Mi c Pc (small_le _ _ Sin Q0)) as (_ & _ & Shw & ZHW).
  assert (P1 : proper [1; 1; h; w]) by (split; [repeat constructor; lia|rewrite prodN4, !Nat.mul_1_l; exact Shw]).
  assert (Pr : 0 < KH g * KW g) by (apply Nat.mul_pos_pos; assumption). assert (Pcl : 0 < ho * wo) by (apply Nat.mul_pos_pos; assumption).
  destruct (mid _ _ _ Pr Pr Pcl) as (_ & _ & _ & Q1 & Q2). pose proof (small_le _ _ Scol Q1) as Srows. pose proof (small_le _ _ Scol Q2) as Scols.
  unfold maxpool_fwd32, maxpool_fwd. cbv zeta. rewrite IP. cbn [bind]. rewrite Nat2Z.id.
  assert (X : (if nshape_eqb (ish ind) (tsh o) then Ok ind else Ok (mkIT (tsh o) (tab (prodN (tsh o)) (e_ijunk E)))) =
    Ok (if nshape_eqb (ish ind) (tsh o) then ind else mkIT (tsh o) (tab (prodN (tsh o)) (e_ijunk E)))) by (destruct (nshape_eqb _ _); reflexivity).
  rewrite X. cbn [bind]. clear X. set (ind1 := if nshape_eqb _ _ then _ else _). clearbody ind1.
  unfold dims4. rewrite Hi, Ho. cbn [rd nth_error bind]. rewrite K1, K2, (times2 (KH g) (KW g)) by assumption. cbn [bind]. rewrite (times2 ho wo) by assumption. cbn [bind].
  change [Z.of_nat (ho * wo)] with (ints [ho * wo]). rewrite times2 by assumption. cbn [bind]. rewrite Nat2Z.id.
  set (buf1 := if tot buf =? _ then _ else _). clearbody buf1.
  match goal with |- bind ?a _ = bind ?b _ => assert (X : a = b); [|rewrite X; reflexivity] end.
  unfold maxpool_forward32, maxpool_forward. rewrite K1, K2, (times2 h w) by assumption. cbn [bind].
  rewrite (times2 (KH g) (KW g)), (times2 ho wo), (times2 n c) by (first [assumption|exact (small_le _ _ Sin Q00)]). cbn [bind].
  apply forr_ext. intros t [[oo ii] bb] _. rewrite int_prod_ok by exact P1. cbn [bind]. apply bind_ext. intros src.
  change 1%Z with (Z.of_nat 1) at 1 2. rewrite (im2col_small g 1 h w ho wo SZ (conj WH WWd) ZHW). apply bind_ext. intros buf'. apply bind_ext. intros _.
  rewrite pool_cols_small; [reflexivity|intros f; apply AM|exact K24].
Qed.

Lemma maxpool_bwd_small g n c h w ho wo go ind buf gi : 0 < n -> 0 < c -> 0 < h -> 0 < w -> 0 < ho -> 0 < wo ->
  small (n * c * h * w) -> windows_fit g h w ho wo -> sizes_ok g h w ho wo -> small (KH g * KW g * (ho * wo)) ->
  Forall (fun k => k < KH g * KW g) ind ->
  maxpool_input_grad32 g n c h w ho wo go ind buf gi = maxpool_input_grad g (n * c) h w ho wo go ind buf gi.
Proof.
  intros Pn Pc Phh Pww Ph Pw Sin [WH WWd] SZ Scol FI.
  destruct (kernel_ints g (walks_kernel _ _ _ _ _ _ WH) (walks_kernel _ _ _ _ _ _ WWd)) as (KI & Pk1 & Pk2).
  assert (K1 : g_kh g = Z.of_nat (KH g)) by (unfold ints in KI; cbn [map] in KI; congruence). assert (K2 : [g_kw g] = ints [KW g]) by (unfold ints in *; cbn [map] in *; congruence).
  assert (Mi : proper [n; c; h; w]) by (split; [repeat constructor; lia|rewrite prodN4; exact Sin]).
  assert (Q0 : c * h * w <= n * c * h * w) by (rewrite <- !Nat.mul_assoc; apply le_times; lia).
  assert (Q00 : n * c <= n * c * h * w) by (rewrite <- Nat.mul_assoc; apply Nat.le_trans with ((h * w) * (n * c)); [apply le_times, Nat.mul_pos_pos; assumption|rewrite (Nat.mul_comm (h * w)); lia]).
  destruct (fold4 _ _ _ _ Mi c Pc (small_le _ _ Sin Q0)) as (_ & _ & Shw & ZHW).
  assert (P1 : proper [1; 1; h; w]) by (split; [repeat constructor; lia|rewrite prodN4, !Nat.mul_1_l; exact Shw]).
  assert (Pr : 0 < KH g * KW g) by (apply Nat.mul_pos_pos; assumption). assert (Pcl : 0 < ho * wo) by (apply Nat.mul_pos_pos; assumption).
  destruct (mid _ _ _ Pr Pr Pcl) as (_ & _ & _ & Q1 & Q2). pose proof (small_le _ _ Scol Q1) as Srows. pose proof (small_le _ _ Scol Q2) as Scols.
  unfold maxpool_input_grad32, maxpool_input_grad. rewrite K1, K2.
  rewrite (times2 (KH g) (KW g)), (times2 ho wo), (times2 n c) by (first [assumption|exact (small_le _ _ Sin Q00)]). cbn [bind]. cbv zeta.
  apply forr_ext. intros t [gd bb] _.
  match goal with |- bind ?a _ = bind ?b _ => assert (X : a = b) end.
  { apply forr_ext. intros j b' Hj. destruct (rd ind (t * (ho * wo) + j)) as [row| |] eqn:R; cbn [bind]; [|reflexivity..]. apply bind_ext. intros v.
    assert (RW : row < KH g * KW g).
    { unfold rd in R. destruct (nth_error ind _) as [r|] eqn:N; [|discriminate]. injection R as <-. rewrite Forall_forall in FI. apply FI, (nth_error_In _ _ N). }
    rewrite (place_ok (Z.of_nat (KH g * KW g))); [reflexivity|lia|lia|]. unfold small, int_max in *. rewrite Nat2Z.inj_mul in Scol at 1. exact Scol. }
  rewrite X. apply bind_ext. intros buf'. rewrite int_prod_ok by exact P1. cbn [bind]. apply bind_ext. intros gi'.
  change 1%Z with (Z.of_nat 1) at 1 2. rewrite (col2im_small g 1 h w ho wo SZ (conj WH WWd) ZHW). reflexivity.
Qed.

(** ** The layers *)
Lemma prod_app a : forall b, prodN (a ++ b) = prodN a * prodN b.
Proof. induction a as [|x a IH]; intros b; cbn [app prodN fold_right]; [unfold prodN; lia|]. fold (prodN a) (prodN (a ++ b)). rewrite IH. lia. Qed.
Lemma proper_cons a s : proper (a :: s) -> 0 < a /\ proper s.
Proof.
  intros [F S]. inversion_clear F as [|? ? Fa Fs]. split; [exact Fa|]. split; [exact Fs|]. apply (small_le _ _ S). cbn [prodN fold_right]. fold (prodN s). apply le_times, Fa.
Qed.
Lemma proper_firstn k : forall s, proper s -> proper (firstn k s).
Proof.
  induction k as [|k IH]; intros s P; [split; [constructor|unfold small, prodN; cbn; lia]|]. destruct s as [|a t]; [exact P|]. destruct P as [F S]. inversion_clear F as [|? ? Fa Ft].
  cbn [firstn]. assert (Pt : proper t) by (apply (proper_cons a); split; [constructor; assumption|exact S]).
  destruct (IH t Pt) as [F' S']. split; [constructor; assumption|]. apply (small_le _ _ S). cbn [prodN fold_right]. fold (prodN t) (prodN (firstn k t)).
  apply Nat.mul_le_mono_l. rewrite <- (firstn_skipn k t) at 2. rewrite prod_app. pose proof (prod_pos (skipn k t)) as Ps.
  assert (Fs : Forall (fun d => 0 < d) (skipn k t)) by (apply Forall_forall; intros x Hx; rewrite Forall_forall in Ft; apply Ft; rewrite <- (firstn_skipn k t); apply in_or_app; right; exact Hx).
  specialize (Ps Fs). nia.
Qed.
Lemma dims4_made t a b c d : made t -> dims4 t = Ok (a, b, c, d) -> proper [a; b; c; d].
Proof.
  intros M H. unfold made in M. apply (proper_firstn 4) in M. unfold dims4, rd in H. destruct (tsh t) as [|a' [|b' [|c' [|d' s]]]]; cbn in H; try discriminate. injection H as -> -> -> ->. exact M.
Qed.
Lemma front_made l t : Forall made l -> front l = Ok t -> made t.
Proof. intros F H. destruct l; [discriminate|]. injection H as ->. inversion F; assumption. Qed.
Lemma rd_made l k t : Forall made l -> rd l k = Ok t -> made t.
Proof. intros F H. unfold rd in H. destruct (nth_error l k) as [x|] eqn:N; [|discriminate]. injection H as ->. rewrite Forall_forall in F. apply F, (nth_error_In _ _ N). Qed.
Lemma second_shape_small t : made t -> second_shape32 (tsh t) = second_shape (tsh t).
Proof.
  intros M. unfold second_shape32, second_shape. destruct (tsh t) as [|a s] eqn:E; [reflexivity|]. unfold made in M. rewrite E in M. destruct (proper_cons _ _ M) as [_ P].
  rewrite (int_prod_ok s P). cbn [bind]. rewrite Nat2Z.id. reflexivity.
Qed.
Lemma quad a b c d : proper [a; b; c; d] -> small (c * d) /\ small (a * b) /\ small (a * c * d) /\ proper [a; c; d; b] /\ proper [a * c * d; b].
Proof.
  intros P. destruct (proper4 _ _ _ _ P) as (Pa & Pb & Pc & Pd & S).
  assert (E1 : a * b * c * d = a * c * d * b) by ring. assert (E2 : a * b * c * d = (a * b) * (c * d)) by ring. assert (E3 : a * c * d = a * (c * d)) by ring.
  assert (L1 : c * d <= a * b * c * d) by (rewrite E2; apply le_times, Nat.mul_pos_pos; assumption).
  assert (L2 : a * b <= a * b * c * d) by (rewrite E2, (Nat.mul_comm (a * b)); apply le_times, Nat.mul_pos_pos; assumption).
  assert (L3 : a * c * d <= a * b * c * d) by (rewrite E1, (Nat.mul_comm (a * c * d)); apply le_times; assumption).
  split; [exact (small_le _ _ S L1)|]. split; [exact (small_le _ _ S L2)|]. split; [exact (small_le _ _ S L3)|]. split.
  - split; [repeat constructor; assumption|]. rewrite prodN4, <- E1. exact S.
  - split; [repeat constructor; [repeat apply Nat.mul_pos_pos; assumption|assumption]|]. rewrite prodN2, <- E1. exact S.
Qed.

Lemma lforward_small E L ins outs : (forall g W b buf, L <> LConv g W b buf) -> (forall g ind buf, L <> LMaxPool g ind buf) ->
  Forall made ins -> lforward32 E L ins outs = lforward E L ins outs.
Proof.
  intros NC NM FI. destruct L; try reflexivity; try (exfalso; eapply NC; reflexivity); try (exfalso; eapply NM; reflexivity); cbn [lforward32 lforward].
  - destruct (front ins) as [i| |] eqn:Fi; cbn [bind]; [|reflexivity..]. apply bind_ext. intros o. pose proof (front_made _ _ FI Fi) as Mi.
    destruct (dims4 i) as [[[[a b] c] d]| |] eqn:D; cbn [bind]; [|reflexivity..]. pose proof (dims4_made _ _ _ _ _ Mi D) as P. destruct (proper4 _ _ _ _ P) as (Pa & Pb & Pc & Pd & _).
    destruct (quad _ _ _ _ P) as (Q1 & Q2 & _). rewrite (times2 c d), (times2 a b) by assumption. cbn [bind]. rewrite !Nat2Z.id. reflexivity.
  - apply bind_ext. intros _. unfold linear_fwd. destruct (front ins) as [i| |] eqn:Fi; cbn [bind]; [|reflexivity..]. pose proof (front_made _ _ FI Fi) as Mi. apply bind_ext. intros o.
    destruct (dims2 (p_data W)) as [[w0 w1]| |]; cbn [bind]; [|reflexivity..]. destruct (dim0 (p_data b)); cbn [bind]; [|reflexivity..]. destruct (dim0 i); cbn [bind]; [|reflexivity..].
    destruct (dims2 o) as [[o0 o1]| |]; cbn [bind]; [|reflexivity..]. rewrite (second_shape_small i Mi). destruct (second_shape (tsh i)); cbn [bind]; [|reflexivity..].
    destruct (linear_forward _ _ _ _ _ _ _ _ _) as [d1| |]; cbn [bind]; [|reflexivity..]. destruct (linear_add_bias _ _ _ _ _ _ _ _); reflexivity.
  - apply bind_ext. intros _. destruct (front ins) as [i| |] eqn:Fi; cbn [bind]; [|reflexivity..]. pose proof (front_made _ _ FI Fi) as Mi. apply bind_ext. intros o.
    unfold bn2_fwd at 2. destruct (dw_assert _) as [[]| |] eqn:DA; cbn [bind]; [|reflexivity..].
    destruct (dims4 i) as [[[[a b] c] d]| |] eqn:D; cbn [bind]; [|reflexivity..]. pose proof (dims4_made _ _ _ _ _ Mi D) as P. destruct (proper4 _ _ _ _ P) as (Pa & Pb & Pc & Pd & _).
    destruct (quad _ _ _ _ P) as (Q1 & Q2 & Q3 & Q4 & Q5).
    rewrite (int_prod_ok _ Q4). assert (X : (if tot nin =? 0 then Ok (Z.of_nat (prodN [a; c; d; b])) else Ok 0%Z) = Ok (if tot nin =? 0 then Z.of_nat (prodN [a; c; d; b]) else 0%Z)) by (destruct (tot nin =? 0); reflexivity).
    rewrite X. cbn [bind]. rewrite (times3 a c d) by assumption. cbn [bind].
    change [Z.of_nat (a * c * d); Z.of_nat b] with (ints [a * c * d; b]). rewrite (int_prod_ok _ Q5).
    assert (Y : forall z, (if tot centered =? 0 then Ok z else Ok 0%Z) = Ok (if tot centered =? 0 then z else 0%Z)) by (intros z; destruct (tot centered =? 0); reflexivity).
    rewrite Y. cbn [bind]. unfold bn2_fwd. rewrite DA, D. cbn [bind]. reflexivity.
Qed.

Lemma lupdate_small E L ins gouts : (forall g W b buf, L <> LConv g W b buf) -> Forall made ins -> lupdate32 E L ins gouts = lupdate E L ins gouts.
Proof.
  intros NC FI. destruct L; try reflexivity; try (exfalso; eapply NC; reflexivity). cbn [lupdate32 lupdate].
  destruct (dims2 _) as [[w0 w1]| |]; cbn [bind]; [|reflexivity..]. apply bind_ext. intros b0. apply bind_ext. intros go. destruct (dims2 go) as [[g0 g1]| |]; cbn [bind]; [|reflexivity..].
  destruct (front ins) as [i| |] eqn:Fi; cbn [bind]; [|reflexivity..]. pose proof (front_made _ _ FI Fi) as Mi. rewrite (second_shape_small i Mi). reflexivity.
Qed.

Lemma lbackward_small E L ins outs gm gins gouts : (forall g W b buf, L <> LConv g W b buf) -> (forall g ind buf, L <> LMaxPool g ind buf) ->
  Forall made ins -> Forall made gm -> lbackward32 E L ins outs gm gins gouts = lbackward E L ins outs gm gins gouts.
Proof.
  intros NC NM FI FG. destruct L; try reflexivity; try (exfalso; eapply NC; reflexivity); try (exfalso; eapply NM; reflexivity); cbn [lbackward32 lbackward].
  - apply bind_ext. intros k. apply bind_ext. intros go. unfold on_grad. destruct (front gins) as [kg| |]; cbn [bind]; [|reflexivity..].
    destruct (rd gm kg) as [gi| |] eqn:R; cbn [bind]; [|reflexivity..]. pose proof (rd_made _ _ _ FG R) as Mi.
    destruct (dims4 gi) as [[[[a b] c] d]| |] eqn:D; cbn [bind]; [|reflexivity..]. pose proof (dims4_made _ _ _ _ _ Mi D) as P. destruct (proper4 _ _ _ _ P) as (Pa & Pb & Pc & Pd & _).
    destruct (quad _ _ _ _ P) as (Q1 & Q2 & _). rewrite (times2 c d), (times2 a b) by assumption. cbn [bind]. rewrite !Nat2Z.id. reflexivity.
  - destruct (dims2 (p_data W)) as [[w0 w1]| |]; cbn [bind]; [|reflexivity..]. apply bind_ext. intros k. apply bind_ext. intros go. destruct (dims2 go) as [[g0 g1]| |]; cbn [bind]; [|reflexivity..].
    destruct (front ins) as [i| |] eqn:Fi; cbn [bind]; [|reflexivity..]. pose proof (front_made _ _ FI Fi) as Mi. rewrite (second_shape_small i Mi). reflexivity.
Qed.

Lemma conv_upd_small E g W b buf ins gouts go n cout ho wo k0 k1 k2 k3 : front gouts = Ok go -> tsh go = [n; cout; ho; wo] -> made go ->
  tsh (p_grad W) = [k0; k1; k2; k3] -> made (p_grad W) -> lupdate32 E (LConv g W b buf) ins gouts = lupdate E (LConv g W b buf) ins gouts.
Proof.
  intros Fg Hg Mg Hw Mw. cbn [lupdate32 lupdate]. rewrite Fg. apply bind_ext. intros _. cbn [bind]. unfold made in Mg, Mw. rewrite Hg in Mg. rewrite Hw in Mw.
  destruct (proper4 _ _ _ _ Mg) as (Pn & Pc & Ph & Pw & Sg). destruct (proper4 _ _ _ _ Mw) as (Pk0 & Pk1 & Pk2 & Pk3 & Sw).
  destruct (quad _ _ _ _ Mg) as (Q1 & _). destruct (proper_cons _ _ Mg) as [_ [_ Sg3]]. destruct (proper_cons _ _ Mw) as [_ [_ Sw3]]. rewrite prodN3 in Sg3, Sw3.
  unfold dims4. rewrite Hg, Hw. cbn [rd nth_error bind]. rewrite (times3 k1 k2 k3), (times2 ho wo), (times3 cout ho wo) by assumption. cbn [bind]. rewrite !Nat2Z.id.
  apply bind_ext. intros dW. reflexivity.
Qed.
