(** Property C69: sizes and positions are ints of 32 bits. *)
From Coq Require Import Reals Lra Lia String.
From Verif Require Import Base BaseFacts Sums M_Tensor M_Im2col S_Im2col M_Kernels M_Conv M_Layers M_Nn M_Int S_Grad S_Partial S_Plain S_Int P_Layout P_Plain P_BN P_BN2 P_Vjp2 P_Eval P_BN3 P_Conv2 P_Int P_Int2 Prop_Conv.
Open Scope nat_scope.

(** ** Sizes of results *)
(** The size computed by a Convolution or MaxPooling layer is the mathematical one exactly when the padded input size is an int. *)
Theorem C69_result_sizes :
  forall inp pad kernel stride : Z, (0 <= inp)%Z -> (0 <= pad)%Z -> (0 < kernel <= 2147483647)%Z -> (0 < stride)%Z ->
  ((inp + 2 * pad <= 2147483647)%Z -> out_size32 inp pad kernel stride = Ok (Z.quot (inp + 2 * pad - kernel) stride + 1)%Z) /\
  ((2147483647 < inp + 2 * pad)%Z -> out_size32 inp pad kernel stride = UB).
Proof.
  intros inp pad kernel stride H1 H2 H3 H4. rewrite (out_size_small inp pad kernel stride H1 H2 H3 H4). unfold layer_out_size, int_div. unfold int_max.
  destruct (Z.leb_spec (inp + 2 * pad) 2147483647) as [L|L]; (split; intros G; [|try lia; try reflexivity]); try lia; try reflexivity.
  destruct (Z.eqb_spec stride 0); [lia|]. reflexivity.
Qed.
Print Assumptions C69_result_sizes.

(** The shape given to the result is that of the unbounded model. *)
Theorem C69_result_shapes :
  forall (k : kind) (m : amap) (n c h w kh kw ph pw sh sw : Z) (more : list shape),
  get_int2 m "kernel" = Ok (kh, kw) -> get_int2 m "padding" = Ok (ph, pw) -> get_int2 m "stride" = Ok (sh, sw) ->
  (0 <= h)%Z -> (0 <= w)%Z -> (0 <= ph)%Z -> (0 <= pw)%Z -> (0 < kh <= 2147483647)%Z -> (0 < kw <= 2147483647)%Z -> (0 < sh)%Z -> (0 < sw)%Z ->
  (h + 2 * ph <= 2147483647)%Z -> (w + 2 * pw <= 2147483647)%Z ->
  out_shape32 k m ([n; c; h; w] :: more) = out_shape k m ([n; c; h; w] :: more).
Proof.
  intros k m n c h w kh kw ph pw sh sw more EK EP ES H1 H2 H3 H4 H5 H6 H7 H8 H9 H10.
  assert (X : window_out32 m [n; c; h; w] = window_out m [n; c; h; w]).
  { unfold window_out32, window_out. rewrite EK, EP, ES. cbn [bind]. unfold dim. cbn.
    rewrite !out_size_small by assumption. unfold int_max. destruct (Z.leb_spec (h + 2 * ph) 2147483647); [|lia]. destruct (Z.leb_spec (w + 2 * pw) 2147483647); [|lia]. reflexivity. }
  destruct k; try reflexivity; unfold out_shape32, out_shape; cbn [rd nth_error bind]; rewrite X; reflexivity.
Qed.
Print Assumptions C69_result_shapes.

(** ** Convolution *)
(** Forward, backward and the gradients of the parameters are those of unbounded arithmetic when the tensors are within
    the library's limits, the windows' positions are ints, and the unfolded batch has at most INT_MAX elements. *)
Theorem C69_convolution_is_exact :
  forall (E : env) (g : geom) (W b : prm) (buf : ten) (n cin h w cout ho wo : nat),
  proper [n; cin; h; w] -> proper [n; cout; ho; wo] -> proper [cout; cin; KH g; KW g] ->
  tsh (p_data W) = [cout; cin; KH g; KW g] -> tsh (p_grad W) = [cout; cin; KH g; KW g] ->
  windows_fit g h w ho wo -> sizes_ok g h w ho wo -> small (n * (cin * KH g * KW g) * (ho * wo)) ->
  (forall i o, tsh i = [n; cin; h; w] -> tsh o = [n; cout; ho; wo] ->
     lforward32 E (LConv g W b buf) [i] [o] = lforward E (LConv g W b buf) [i] [o]) /\
  (forall ins outs gm ki ko gi go, rd gm ki = Ok gi -> tsh gi = [n; cin; h; w] -> rd gm ko = Ok go -> tsh go = [n; cout; ho; wo] ->
     lbackward32 E (LConv g W b buf) ins outs gm [ki] [ko] = lbackward E (LConv g W b buf) ins outs gm [ki] [ko]) /\
  (forall ins go, tsh go = [n; cout; ho; wo] -> lupdate32 E (LConv g W b buf) ins [go] = lupdate E (LConv g W b buf) ins [go]).
Proof.
  intros E g W b buf n cin h w cout ho wo Pi Po Pw HW HG WF SZ SC. destruct (proper4 _ _ _ _ Pi) as (Qn & Qc & Qh & Qw & Qs). destruct (proper4 _ _ _ _ Po) as (Rn & Rc & Rh & Rw & Rs).
  destruct (proper_cons _ _ Pi) as [_ [_ S3]]. destruct (proper_cons _ _ Po) as [_ [_ T3]]. rewrite prodN3 in S3, T3.
  split; [|split].
  - intros i o Hi Ho. cbn [lforward32 lforward]. unfold front. cbn [rd nth_error]. apply bind_ext. intros _. cbn [bind].
    rewrite (conv_fwd_small E g W b buf i o n cin h w n cout ho wo cout [cin; KH g; KW g]); try assumption; [reflexivity|]. unfold made. rewrite Hi. exact Pi.
  - intros ins outs gm ki ko gi go Ri Hi Ro Ho. cbn [lbackward32 lbackward]. apply bind_ext. intros _. change (front [ko]) with (Ok ko). cbn [bind]. rewrite Ro. cbn [bind]. unfold dims4 at 1 3. rewrite Ho. cbn [rd nth_error bind].
    unfold on_grad. change (front [ki]) with (Ok ki). cbn [bind]. rewrite Ri. cbn [bind]. unfold dims4. rewrite Hi. cbn [rd nth_error bind]. cbv zeta.
    destruct (proper4 _ _ _ _ Pw) as (_ & _ & Qk1 & Qk2 & _).
    assert (P1 : 0 < cin * KH g * KW g) by (repeat apply Nat.mul_pos_pos; assumption). assert (P2 : 0 < ho * wo) by (apply Nat.mul_pos_pos; assumption).
    destruct (mid _ _ _ P1 Qn P2) as (_ & _ & Q3 & _ & _).
    rewrite conv_bwd_small; try assumption; [reflexivity|]. exact (small_le _ _ SC Q3).
  - intros ins go Hg. apply (conv_upd_small E g W b buf ins [go] go n cout ho wo cout cin (KH g) (KW g)); auto; unfold made; [rewrite Hg|rewrite HG]; assumption.
Qed.
Print Assumptions C69_convolution_is_exact.

(** So the value computed with ints is the padded cross-correlation. *)
Theorem C69_convolution_is_padded_cross_correlation :
  forall (E : env) (g : geom) (W b : prm) (buf : ten) (n cin h w cout ho wo : nat) (x o : ten),
  proper [n; cin; h; w] -> proper [n; cout; ho; wo] -> proper [cout; cin; KH g; KW g] ->
  windows_fit g h w ho wo -> sizes_ok g h w ho wo -> small (n * (cin * KH g * KW g) * (ho * wo)) ->
  prm_ok [cout; cin; KH g; KW g] W -> prm_ok [cout] b -> ten_ok [n; cin; h; w] x -> ten_ok [n; cout; ho; wo] o ->
  exists buf' o', lforward32 E (LConv g W b buf) [x] [o] = Ok (LConv g W b buf', o') /\ ten_ok [n; cout; ho; wo] o' /\
    forall i oc r q, i < n -> oc < cout -> r < ho -> q < wo ->
      ((tdat o').[((i * cout + oc) * ho + r) * wo + q] =
      (tdat (p_data b)).[oc] +
      rsum cin (fun c => rsum (KH g) (fun a => rsum (KW g) (fun d =>
        (tdat (p_data W)).[((oc * cin + c) * KH g + a) * KW g + d] *
        padded 0 h w (tdat x) (i * cin + c) (win_row g a r) (win_col g d q)))))%R.
Proof.
  intros E g W b buf n cin h w cout ho wo x o Pi Po Pw WF SZ SC HW Hb Hx Ho.
  destruct (C69_convolution_is_exact E g W b buf n cin h w cout ho wo Pi Po Pw) as (F & _); try assumption; try apply HW.
  rewrite F by (first [apply Hx|apply Ho]). apply (C09_convolution_is_padded_cross_correlation E g W b buf n cin h w cout ho wo x o SZ); try assumption.
  destruct WF as ((_ & A1 & A2 & A3 & _) & (_ & B1 & B2 & B3 & _)). unfold validate_geom.
  destruct (Z.ltb_spec 0 (g_kh g)); [|lia]. destruct (Z.ltb_spec 0 (g_kw g)); [|lia]. destruct (Z.leb_spec 0 (g_ph g)); [|lia]. destruct (Z.leb_spec 0 (g_pw g)); [|lia].
  destruct (Z.ltb_spec 0 (g_sh g)); [|lia]. destruct (Z.ltb_spec 0 (g_sw g)); [|lia]. reflexivity.
Qed.
Print Assumptions C69_convolution_is_padded_cross_correlation.

(** ** Max pooling *)
(** Here one image plane is unfolded at a time; the recorded positions are exact for windows of up to 2^24 elements. *)
Theorem C69_maxpooling_is_exact :
  forall (E : env) (g : geom) (ind : iten) (buf : ten) (n c h w ho wo : nat),
  proper [n; c; h; w] -> proper [n; c; ho; wo] ->
  windows_fit g h w ho wo -> sizes_ok g h w ho wo -> small (KH g * KW g * (ho * wo)) ->
  (forall i o, tsh i = [n; c; h; w] -> tsh o = [n; c; ho; wo] -> is_argmax (e_amax E) -> (Z.of_nat (KH g * KW g) <= 16777216)%Z ->
     lforward32 E (LMaxPool g ind buf) [i] [o] = lforward E (LMaxPool g ind buf) [i] [o]) /\
  (forall ins outs gm ki ko gi go, rd gm ki = Ok gi -> tsh gi = [n; c; h; w] -> rd gm ko = Ok go -> tsh go = [n; c; ho; wo] ->
     Forall (fun k => k < KH g * KW g) (idat ind) ->
     lbackward32 E (LMaxPool g ind buf) ins outs gm [ki] [ko] = lbackward E (LMaxPool g ind buf) ins outs gm [ki] [ko]).
Proof.
  intros E g ind buf n c h w ho wo Pi Po WF SZ SC. split.
  - intros i o Hi Ho AM K. cbn [lforward32 lforward]. unfold front. cbn [rd nth_error]. apply bind_ext. intros _. cbn [bind].
    rewrite (maxpool_fwd_small E g ind buf i o n c h w n c ho wo); try assumption; [reflexivity|unfold made; rewrite Hi; exact Pi|unfold made; rewrite Ho; exact Po|]. intros k f Hk. apply AM, Hk.
  - intros ins outs gm ki ko gi go Ri Hi Ro Ho FI. cbn [lbackward32 lbackward]. change (front [ko]) with (Ok ko). change (front [ki]) with (Ok ki). cbn [bind]. rewrite Ro. cbn [bind]. apply bind_ext. intros _. rewrite Ri. cbn [bind]. unfold dims4. rewrite Hi, Ho. cbn [rd nth_error bind].
    destruct (proper4 _ _ _ _ Pi) as (Qn & Qc & Qh & Qw & Qs). destruct (proper4 _ _ _ _ Po) as (Rn & Rc & Rh & Rw & Rs).
    rewrite maxpool_bwd_small by assumption. reflexivity.
Qed.
Print Assumptions C69_maxpooling_is_exact.

(** ** The other layers *)
Theorem C69_other_layers_are_exact :
  forall (E : env) (L : layer), (forall g W b buf, L <> LConv g W b buf) -> (forall g ind buf, L <> LMaxPool g ind buf) ->
  (forall ins outs, Forall made ins -> lforward32 E L ins outs = lforward E L ins outs) /\
  (forall ins outs gm gins gouts, Forall made ins -> Forall made gm -> lbackward32 E L ins outs gm gins gouts = lbackward E L ins outs gm gins gouts) /\
  (forall ins gouts, Forall made ins -> lupdate32 E L ins gouts = lupdate E L ins gouts).
Proof.
  intros E L NC NM. split; [|split].
  - intros ins outs FI. apply lforward_small; assumption.
  - intros ins outs gm gins gouts FI FG. apply lbackward_small; assumption.
  - intros ins gouts FI. apply lupdate_small; assumption.
Qed.
Print Assumptions C69_other_layers_are_exact.

(** ** Ordinary windows *)
(** Windows of a kernel that fits the padded image stay within the range of int when padded size plus stride does. *)
Theorem C69_ordinary_windows_fit :
  forall inp pad kernel stride : Z, (0 <= inp)%Z -> (0 <= pad)%Z -> (0 < kernel)%Z -> (0 < stride)%Z ->
  (kernel <= inp + 2 * pad)%Z -> (inp + 2 * pad + stride <= 2147483647)%Z ->
  walks inp pad kernel stride 1 (Z.quot (inp + 2 * pad - kernel) stride + 1).
Proof. exact ordinary_walks. Qed.
Print Assumptions C69_ordinary_windows_fit.

(** ** Findings *)
(** The whole batch is unfolded into one buffer: when that has more than INT_MAX elements, forward is undefined behaviour,
    although input, parameters and output are within the limits. *)
Theorem C69_finding_large_batches_are_undefined :
  forall (E : env) (g : geom) (W b : prm) (buf i o : ten) (n cin h w cout ho wo : nat) (rest : list nat),
  validate_geom g = Ok tt -> tsh i = [n; cin; h; w] -> tsh o = [n; cout; ho; wo] -> tsh (p_data W) = cout :: rest ->
  0 < n -> 0 < cin -> 0 < ho -> 0 < wo ->
  (2147483647 < Z.of_nat n * (Z.of_nat cin * g_kh g * g_kw g) * (Z.of_nat ho * Z.of_nat wo))%Z ->
  lforward32 E (LConv g W b buf) [i] [o] = UB.
Proof.
  intros E g W b buf i o n cin h w cout ho wo rest V Hi Ho HW Pn Pc Ph Pw L. cbn [lforward32]. change (front [i]) with (Ok i). change (front [o]) with (Ok o). rewrite V. cbn [bind].
  assert (K : (0 < g_kh g /\ 0 < g_kw g)%Z).
  { unfold validate_geom in V. destruct ((0 <? g_kh g) && (0 <? g_kw g))%Z eqn:B; [|discriminate]. apply andb_true_iff in B. destruct B as [B1 B2]. apply Z.ltb_lt in B1, B2. auto. }
  rewrite (conv_batch_UB E g W b buf i o n cin h w n cout ho wo cout rest) by (assumption || apply K). reflexivity.
Qed.
Print Assumptions C69_finding_large_batches_are_undefined.

(** A 3x3 convolution with padding 1 of 256 images of 128x128 pixels with 64 channels: every tensor is within the limits. *)
Definition ex69_n (z : Z) : nat := Z.to_nat z.
Definition ex69_g : geom := mkGeom 3 3 1 1 1 1 1 1.
Example C69_large_batches_nonvacuous :
  let sh := [ex69_n 256; 64; ex69_n 128; ex69_n 128] in
  proper sh /\ proper [64; 64; 3; 3] /\ validate_geom ex69_g = Ok tt /\
  sizes_ok ex69_g (ex69_n 128) (ex69_n 128) (ex69_n 128) (ex69_n 128) /\
  (2147483647 < Z.of_nat (ex69_n 256) * (Z.of_nat 64 * g_kh ex69_g * g_kw ex69_g) * (Z.of_nat (ex69_n 128) * Z.of_nat (ex69_n 128)))%Z.
Proof.
  cbv zeta. split; [|split; [|split; [reflexivity|split]]].
  - split; [repeat constructor|]. unfold small. rewrite prodN4, !Nat2Z.inj_mul. unfold ex69_n. rewrite !Z2Nat.id by lia. vm_compute. discriminate.
  - split; [repeat constructor|]. unfold small. rewrite prodN4, !Nat2Z.inj_mul. vm_compute. discriminate.
  - split; reflexivity.
  - vm_compute. reflexivity.
Qed.

(** The position behind the last window is computed as well: when it is not an int, forward is undefined behaviour,
    although every window that is looked at lies inside the padded image. *)
Theorem C69_finding_large_strides_are_undefined :
  forall (E : env) (g : geom) (n cin h w ho wo : nat), validate_geom g = Ok tt -> sizes_ok g h w ho wo -> 0 < n -> 0 < cin -> 0 < ho ->
  (2147483647 < (g_kh g - 1) * g_dh g - g_ph g + Z.of_nat ho * g_sh g)%Z ->
  (forall W b buf i o cout rest, tsh i = [n; cin; h; w] -> tsh o = [n; cout; ho; wo] -> tsh (p_data W) = cout :: rest ->
     lforward32 E (LConv g W b buf) [i] [o] = UB) /\
  (forall ind buf i o, tsh i = [n; cin; h; w] -> tsh o = [n; cin; ho; wo] -> lforward32 E (LMaxPool g ind buf) [i] [o] = UB).
Proof.
  intros E g n cin h w ho wo V SZ Pn Pc Ph L.
  assert (K : (0 < g_kh g /\ 0 < g_kw g)%Z).
  { unfold validate_geom in V. destruct ((0 <? g_kh g) && (0 <? g_kw g))%Z eqn:B; [|discriminate]. apply andb_true_iff in B. destruct B as [B1 B2]. apply Z.ltb_lt in B1, B2. auto. }
  split.
  - intros W b buf i o cout rest Hi Ho HW. cbn [lforward32]. change (front [i]) with (Ok i). change (front [o]) with (Ok o). rewrite V. cbn [bind].
    rewrite (conv_far_UB E g W b buf i o n cin h w n cout ho wo cout rest) by (assumption || apply K). reflexivity.
  - intros ind buf i o Hi Ho. cbn [lforward32]. change (front [i]) with (Ok i). change (front [o]) with (Ok o). rewrite V. cbn [bind].
    rewrite (pool_far_UB E g ind buf i o n cin h w n cin ho wo) by (assumption || apply K). reflexivity.
Qed.
Print Assumptions C69_finding_large_strides_are_undefined.

(** One 2x2 window over a 2x2 image, with the stride INT_MAX: exact arithmetic gives the one element of the result. *)
Definition ex69_far : geom := mkGeom 2 2 0 0 2147483647 2147483647 1 1.
Example C69_large_strides_nonvacuous :
  validate_geom ex69_far = Ok tt /\ sizes_ok ex69_far 2 2 1 1 /\ (2147483647 < (g_kh ex69_far - 1) * g_dh ex69_far - g_ph ex69_far + Z.of_nat 1 * g_sh ex69_far)%Z /\
  (forall E, exists L o, lforward E (LConv ex69_far (ex_p [1; 1; 2; 2]) (ex_p [1]) empty_ten) [ex_t [1; 1; 2; 2]] [ex_t [1; 1; 1; 1]] = Ok (L, o)).
Proof.
  split; [reflexivity|]. split; [split; reflexivity|]. split; [vm_compute; reflexivity|].
  intros E. destruct (C09_convolution_is_padded_cross_correlation E ex69_far (ex_p [1; 1; 2; 2]) (ex_p [1]) empty_ten 1 1 2 2 1 1 1 (ex_t [1; 1; 2; 2]) (ex_t [1; 1; 1; 1])) as (buf' & o' & X & _);
    try (repeat split; cbn; lia). rewrite X. eauto.
Qed.

(** A max pooling window that does not fit an int when unfolded. *)
Theorem C69_finding_large_pooling_windows_are_undefined :
  forall (E : env) (g : geom) (ind : iten) (buf i o : ten) (m c ho wo : nat),
  validate_geom g = Ok tt -> tsh o = [m; c; ho; wo] -> 0 < ho -> 0 < wo ->
  (2147483647 < g_kh g * g_kw g * (Z.of_nat ho * Z.of_nat wo))%Z -> lforward32 E (LMaxPool g ind buf) [i] [o] = UB.
Proof.
  intros E g ind buf i o m c ho wo V Ho Ph Pw L. cbn [lforward32]. change (front [i]) with (Ok i). change (front [o]) with (Ok o). rewrite V. cbn [bind].
  assert (K : (0 < g_kh g /\ 0 < g_kw g)%Z).
  { unfold validate_geom in V. destruct ((0 <? g_kh g) && (0 <? g_kw g))%Z eqn:B; [|discriminate]. apply andb_true_iff in B. destruct B as [B1 B2]. apply Z.ltb_lt in B1, B2. auto. }
  rewrite (pool_buf_UB E g ind buf i o m c ho wo) by (assumption || apply K). reflexivity.
Qed.
Print Assumptions C69_finding_large_pooling_windows_are_undefined.

(** The recorded position of a maximum is a float: odd positions between 2^24 and 2^25 are recorded wrongly, so that
    the gradient goes to another element. *)
Theorem C69_finding_positions_are_rounded :
  forall (z : Z) (rows : nat) (col : list R) (am : nat -> (nat -> R) -> nat) (y : R) (p : nat),
  (16777216 < z < 33554432)%Z -> Z.odd z = true -> 0 < rows -> (forall f, am rows f = Z.to_nat z) ->
  exists q, pool_cols32 am 0 rows 1 col ([y], [p]) = Ok ([el col 1 (Z.to_nat z) 0], [q]) /\ q <> Z.to_nat z.
Proof.
  intros z rows col am y p B O Pr A. exists (to_float (Z.to_nat z)). split; [|apply to_float_odd; assumption].
  unfold pool_cols32. cbn [forr bind]. destruct (Nat.eqb_spec rows 0); [lia|]. rewrite A. reflexivity.
Qed.
Print Assumptions C69_finding_positions_are_rounded.
Example C69_positions_nonvacuous : (16777216 < 16777217 < 33554432)%Z /\ Z.odd 16777217 = true.
Proof. split; [lia|reflexivity]. Qed.

(** ** The hypotheses are met *)
Example C69_nonvacuous :
  proper [2; 1; 3; 3] /\ proper [2; 3; 2; 2] /\ proper [3; 1; KH ex_g; KW ex_g] /\ windows_fit ex_g 3 3 2 2 /\ sizes_ok ex_g 3 3 2 2 /\
  small (2 * (1 * KH ex_g * KW ex_g) * (2 * 2)) /\ small (KH ex_g * KW ex_g * (2 * 2)) /\ (Z.of_nat (KH ex_g * KW ex_g) <= 16777216)%Z /\
  prm_ok [3; 1; KH ex_g; KW ex_g] (ex_p [3; 1; 2; 2]) /\ Forall made [ex_t [2; 1; 3; 3]].
Proof.
  assert (P1 : proper [2; 1; 3; 3]) by (split; [repeat constructor|vm_compute; discriminate]).
  split; [exact P1|]. split; [split; [repeat constructor|vm_compute; discriminate]|]. split; [split; [repeat constructor|vm_compute; discriminate]|].
  split; [unfold windows_fit, walks; cbn; lia|]. split; [split; reflexivity|]. split; [vm_compute; discriminate|]. split; [vm_compute; discriminate|]. split; [vm_compute; discriminate|].
  split; [repeat split|]. constructor; [exact P1|constructor].
Qed.
