(** Convolution and max-pooling layers in terms of images, windows and pixels. *)
From Coq Require Import Reals Lra.
From Verif Require Import Base BaseFacts Sums Deriv M_Im2col S_Im2col P_Im2col P_Layout M_Kernels M_Conv M_Layers P_Kernels P_Conv S_Grad S_Partial P_Vjp1 P_Vjp2 P_BN P_BN2 P_VjpConv P_Pool P_Partial.
Open Scope R_scope.

Lemma pixel_shift h w k i y x : (k * (h * w) + pixel h w i y x)%nat = pixel h w (k + i) y x.
Proof. unfold pixel. ring. Qed.

Lemma sizes_geom_pos g : validate_geom g = Ok tt ->
  (0 < g_kh g)%Z /\ (0 < g_kw g)%Z /\ (0 <= g_ph g)%Z /\ (0 <= g_pw g)%Z /\ (0 < g_sh g)%Z /\ (0 < g_sw g)%Z.
Proof.
  unfold validate_geom, dw_assert.
  destruct ((0 <? g_kh g) && (0 <? g_kw g))%Z eqn:E1; [|discriminate].
  destruct ((0 <=? g_ph g) && (0 <=? g_pw g))%Z eqn:E2; [|discriminate].
  destruct ((0 <? g_sh g) && (0 <? g_sw g))%Z eqn:E3; [|discriminate]. intros _. lia.
Qed.

Section Conv.
Variables (E : env) (g : geom) (W b : prm) (buf : ten) (n cin h w cout ho wo : nat) (x : ten).
Hypothesis Hsz : sizes_ok g h w ho wo.
Hypothesis Hg : validate_geom g = Ok tt.
Hypothesis HW : prm_ok [cout; cin; KH g; KW g] W.
Hypothesis Hb : prm_ok [cout] b.
Hypothesis Hx : ten_ok [n; cin; h; w] x.

Lemma conv_forward_spec o : ten_ok [n; cout; ho; wo] o ->
  exists buf' o', lforward E (LConv g W b buf) [x] [o] = Ok (LConv g W b buf', o') /\
    ten_ok [n; cout; ho; wo] o' /\
    forall i oc r q, (i < n)%nat -> (oc < cout)%nat -> (r < ho)%nat -> (q < wo)%nat ->
      (tdat o').[((i * cout + oc) * ho + r) * wo + q] =
      (tdat (p_data b)).[oc] +
      rsum cin (fun c => rsum (KH g) (fun a => rsum (KW g) (fun d =>
        (tdat (p_data W)).[((oc * cin + c) * KH g + a) * KW g + d] *
        padded 0 h w (tdat x) (i * cin + c) (win_row g a r) (win_col g d q)))).
Proof.
  intros Ho. destruct (prm_ok_len _ _ HW) as [LW _]. destruct (prm_ok_len _ _ Hb) as [Lb _].
  rewrite prodN1 in Lb. rewrite prodN4 in LW.
  pose proof (conv_fwd_Ok g n cin h w cout ho wo W b buf Hsz HW E x o (tdat (p_data W)) (tdat (p_data b)) Hx Ho) as F.
  rewrite !with_data_id in F.
  cbn [lforward]. rewrite Hg. cbn [bind]. unfold front. cbn [rd nth_error bind].
  rewrite F; [|rewrite LW; ring|exact Lb]. cbn [bind]. do 2 eexists. split; [reflexivity|].
  split. { split; [reflexivity|]. unfold twf. cbn [tdat tsh]. rewrite tab_length, prodN4. ring. }
  intros i oc r q Hi Hoc Hr Hq. cbn [tdat].
  assert (Hj : (r * wo + q < ho * wo)%nat) by (apply mult_lt; assumption).
  replace (((i * cout + oc) * ho + r) * wo + q)%nat with (i * (cout * (ho * wo)) + (oc * (ho * wo) + (r * wo + q)))%nat by ring.
  rewrite nth_tab by (apply mult_lt; [exact Hi|apply mult_lt; assumption]).
  rewrite oval_at by assumption. unfold conv_val. rewrite Rplus_comm. f_equal.
  rewrite rows_sum. cbn [cd_cin]. apply rsum_ext. intros c Hc. apply rsum_ext. intros a Ha. apply rsum_ext. intros d Hd.
  unfold cd_rows, cd_cols. cbn [cd_cin cd_ho cd_wo cd_h cd_w].
  f_equal; [f_equal; ring|].
  rewrite (colv_cell g (mkCd cin h w cout ho wo) 0 _ c a d r q) by assumption. cbn [cd_h cd_w].
  unfold padded. destruct (inside h w (win_row g a r) (win_col g d q)) eqn:Ei; [|reflexivity].
  f_equal. replace (i * (cin * h * w))%nat with (i * cin * (h * w))%nat by ring. apply pixel_shift.
Qed.

Lemma conv_gradients : (0 < n * (cin * KH g * KW g) * (ho * wo))%nat ->
  correct_gradients E (LConv g W b buf) [x] [n; cout; ho; wo].
Proof.
  intros Hne. destruct Hx as [Sx Wx]. apply vjp_partials.
  - intros y [<-|[]]. exact Wx.
  - intros P I _ _. cbn [map]. rewrite Sx. apply conv_vjp; assumption.
Qed.
End Conv.

Section Pool.
Variables (E : env) (g : geom) (ind : iten) (buf : ten) (n c h w ho wo : nat) (x : ten).
Hypothesis Hsz : sizes_ok g h w ho wo.
Hypothesis Hg : validate_geom g = Ok tt.
Hypothesis Hind : ibuf_ok ind.
Hypothesis Hx : ten_ok [n; c; h; w] x.
Hypothesis Ham : is_argmax (e_amax E).
Hypothesis Hext : am_ext (e_amax E).
Notation X := (fun q => (tdat x).[q]).
Notation planes := (n * c)%nat.
Notation rows := (KH g * KW g)%nat.

Lemma cell_wcell y i r q a d : (a < KH g)%nat -> (d < KW g)%nat -> (r < ho)%nat -> (q < wo)%nat ->
  length y = (planes * (h * w))%nat -> (i < planes)%nat ->
  cell g h w ho wo (fun p => y.[p]) i (r * wo + q) (a * KW g + d) = wcell g h w y i r q a d.
Proof.
  intros Ha Hd Hr Hq Ly Hi. unfold cell.
  pose proof (colv_cell g (mkCd 1 h w 1 ho wo) flt_min (fun p => y.[i * (h * w) + p]) 0 a d r q Ha Hd Hr Hq) as F.
  cbn [Nat.mul Nat.add] in F. unfold cd_cols in F. cbn [cd_ho cd_wo cd_h cd_w] in F.
  rewrite F. unfold wcell, padded.
  destruct (inside h w (win_row g a r) (win_col g d q)) eqn:Ei; [|reflexivity].
  rewrite pixel_shift, Nat.add_0_r. apply nth_indep.
  unfold inside in Ei. rewrite !andb_true_iff in Ei. unfold pixel.
  rewrite Ly. rewrite Nat.mul_assoc. apply mult_lt; [apply mult_lt; [exact Hi|]|]; lia.
Qed.

Notation ar i r q := (arow g h w ho wo (e_amax E) X i (r * wo + q)).

Lemma ar_lt i r q : (ar i r q < rows)%nat.
Proof. apply Ham. apply (geom_rows g Hg). Qed.

Lemma ar_dec i r q : exists a d, (a < KH g)%nat /\ (d < KW g)%nat /\ ar i r q = (a * KW g + d)%nat.
Proof.
  destruct (divmod_lt _ _ _ (ar_lt i r q)) as (A & B & D). eauto.
Qed.

Lemma x_len : length (tdat x) = (planes * (h * w))%nat.
Proof. rewrite (ten_ok_len _ _ Hx), prodN4. ring. Qed.

Lemma maxpool_forward_spec o : ten_ok [n; c; ho; wo] o ->
  exists ind' buf' o', lforward E (LMaxPool g ind buf) [x] [o] = Ok (LMaxPool g ind' buf', o') /\
    ten_ok [n; c; ho; wo] o' /\
    forall i r q, (i < planes)%nat -> (r < ho)%nat -> (q < wo)%nat ->
      exists a d, (a < KH g)%nat /\ (d < KW g)%nat /\
        (tdat o').[(i * ho + r) * wo + q] = wcell g h w (tdat x) i r q a d /\
        forall a' d', (a' < KH g)%nat -> (d' < KW g)%nat ->
          wcell g h w (tdat x) i r q a' d' <= (tdat o').[(i * ho + r) * wo + q].
Proof.
  intros Ho. destruct (maxpool_fwd_Ok g n c h w ho wo ind buf Hsz Hg Hind E x o Ham Hext Hx Ho) as (bsh & bd & F & Lb).
  cbn [lforward]. rewrite Hg. cbn [bind]. unfold front. cbn [rd nth_error bind]. rewrite F. cbn [bind].
  do 3 eexists. split; [reflexivity|].
  split. { split; [reflexivity|]. unfold twf. cbn [tdat tsh]. rewrite tab_length, prodN4. ring. }
  intros i r q Hi Hr Hq. assert (Hj : (r * wo + q < ho * wo)%nat) by (apply mult_lt; assumption).
  destruct (ar_dec i r q) as (a & d & Ha & Hd & Ea).
  cbn [tdat]. replace ((i * ho + r) * wo + q)%nat with (i * (ho * wo) + (r * wo + q))%nat by ring.
  rewrite nth_tab by (apply mult_lt; assumption). destruct (divmod_nat i (ho * wo) _ Hj) as [-> ->].
  exists a, d. split; [exact Ha|]. split; [exact Hd|]. rewrite Ea.
  rewrite cell_wcell by (auto; apply x_len). split; [reflexivity|].
  intros a' d' Ha' Hd'. rewrite <- !cell_wcell by (auto; apply x_len). rewrite <- Ea.
  apply Ham; [apply (geom_rows g Hg)|]. apply mult_lt; assumption.
Qed.

Lemma flat_cell r q a d : (a < KH g)%nat -> (d < KW g)%nat -> (r < ho)%nat -> (q < wo)%nat ->
  flat_src g h w ho wo ((a * KW g + d) * (ho * wo) + (r * wo + q)) =
  if inside h w (win_row g a r) (win_col g d q) then Some (pixel h w 0 (win_row g a r) (win_col g d q)) else None.
Proof.
  intros Ha Hd Hr Hq.
  replace ((a * KW g + d) * (ho * wo) + (r * wo + q))%nat with (lin5 (KH g) (KW g) ho wo 0 a d r q) by (unfold lin5; ring).
  apply flat_src_cell; assumption.
Qed.

Lemma clear_maxima_max : clear_maxima g (n * c) h w ho wo x -> clear_max g planes h w ho wo X.
Proof.
  intros H i j Hi Hj. destruct (divmod_lt j ho wo Hj) as (Hr & Hq & Ej). set (r := (j / wo)%nat) in *. set (q := j mod wo) in *.
  rewrite Ej. clear Ej.
  destruct (H i r q Hi Hr Hq) as (a0 & d0 & Ha0 & Hd0 & Hm).
  exists (a0 * KW g + d0)%nat. split; [apply mult_lt; assumption|]. intros k Hk Hne.
  destruct (divmod_lt k _ _ Hk) as (Ha & Hd & Ek). set (a := (k / KW g)%nat) in *. set (d := k mod KW g) in *.
  rewrite Ek in *. clear Ek. rewrite !flat_cell by assumption. rewrite !cell_wcell by (auto; apply x_len).
  destruct (Hm a d Ha Hd) as [Hlt|[E1 E2]].
  - intros [= -> ->]. apply Hne. reflexivity.
  - left. exact Hlt.
  - right. rewrite E1, E2. auto.
Qed.

Lemma maxpool_gradients : clear_maxima g (n * c) h w ho wo x -> correct_gradients E (LMaxPool g ind buf) [x] [n; c; ho; wo].
Proof.
  intros Hc. pose proof Hx as [Sx Wx]. apply vjp_partials.
  - intros y [<-|[]]. exact Wx.
  - intros P I _ EI. cbn [map]. rewrite Sx. apply maxpool_vjp; auto.
    intros y Ey. rewrite EI in Ey. injection Ey as <-. apply clear_maxima_max. exact Hc.
Qed.

(** Backward returns each gradient to the selected cell. *)
Lemma maxpool_backward_spec o E2 go gi gm k kout :
  ten_ok [n; c; ho; wo] o -> ten_ok [n; c; ho; wo] go -> ten_ok [n; c; h; w] gi ->
  nth_error gm k = Some gi -> nth_error gm kout = Some go -> k <> kout ->
  exists L1 out L2 gi' (sa sd : nat -> nat -> nat -> nat),
    lforward E (LMaxPool g ind buf) [x] [o] = Ok (L1, out) /\
    lbackward E2 L1 [x] [out] gm [k] [kout] = Ok (L2, upd gm k gi') /\ ten_ok [n; c; h; w] gi' /\
    (forall i r q, (i < planes)%nat -> (r < ho)%nat -> (q < wo)%nat ->
       (sa i r q < KH g)%nat /\ (sd i r q < KW g)%nat /\
       (tdat out).[(i * ho + r) * wo + q] = wcell g h w (tdat x) i r q (sa i r q) (sd i r q)) /\
    (forall i y z, (i < planes)%nat -> (0 <= y < Z.of_nat h)%Z -> (0 <= z < Z.of_nat w)%Z ->
       (tdat gi').[pixel h w i y z] = (tdat gi).[pixel h w i y z] +
       rsum ho (fun r => rsum wo (fun q =>
         if ((win_row g (sa i r q) r =? y) && (win_col g (sd i r q) q =? z))%Z
         then (tdat go).[(i * ho + r) * wo + q] else 0))) /\
    rsum (planes * (h * w)) (fun p => (tdat gi').[p] - (tdat gi).[p]) =
    rsum planes (fun i => rsum ho (fun r => rsum wo (fun q =>
      if inside h w (win_row g (sa i r q) r) (win_col g (sd i r q) q)
      then (tdat go).[(i * ho + r) * wo + q] else 0))).
Proof.
  intros Ho Hgo Hgi Gk Gout Hne. pose proof (geom_rows g Hg) as Hr0.
  destruct (maxpool_fwd_Ok g n c h w ho wo ind buf Hsz Hg Hind E x o Ham Hext Hx Ho) as (bsh & bd & F & Lb).
  set (IXt := tab (planes * (ho * wo)) (fun p => arow g h w ho wo (e_amax E) X (p / (ho * wo)) (p mod (ho * wo)))) in *.
  assert (Lgo : length (tdat go) = (planes * (ho * wo))%nat) by (rewrite (ten_ok_len _ _ Hgo), prodN4; ring).
  assert (Lgi : length (tdat gi) = (planes * (h * w))%nat) by (rewrite (ten_ok_len _ _ Hgi), prodN4; ring).
  assert (Hri : forall p, (p < planes * (ho * wo))%nat -> (nth p IXt O < rows)%nat).
  { intros p Hp. unfold IXt. rewrite nth_tab by exact Hp. apply Ham. exact Hr0. }
  destruct (maxpool_input_grad_tab g planes h w ho wo (e_amax E) Hsz Hr0 (tdat go) IXt bd (tdat gi) Lgo) as (bd2 & Eg & L2); auto.
  { apply tab_length. }
  assert (IXv : forall i r q, (i < planes -> r < ho -> q < wo -> nth (i * (ho * wo) + (r * wo + q)) IXt O = ar i r q)%nat).
  { intros i r q Hi Hr Hq. assert (Hj : (r * wo + q < ho * wo)%nat) by (apply mult_lt; assumption).
    unfold IXt. rewrite nth_tab by (apply mult_lt; assumption). destruct (divmod_nat i (ho * wo) _ Hj) as [-> ->]. reflexivity. }
  set (sa := fun i r q => (ar i r q / KW g)%nat). set (sd := fun i r q => (ar i r q) mod KW g).
  assert (Hsel : forall i r q, (sa i r q < KH g)%nat /\ (sd i r q < KW g)%nat /\ ar i r q = (sa i r q * KW g + sd i r q)%nat).
  { intros i r q. apply divmod_lt. apply ar_lt. }
  eexists _, _, _, (mkT [n; c; h; w] _), sa, sd. split.
  { cbn [lforward]. rewrite Hg. cbn [bind]. unfold front. cbn [rd nth_error bind]. rewrite F. cbn [bind]. reflexivity. }
  split.
  { cbn [lbackward]. mred. rewrite (nth_error_rd _ _ _ Gout). mred.
    destruct Hgo as [Sgo _]. destruct Hgi as [Sgi _].
    rewrite Sgo. cbn [ish]. rewrite nshape_eqb_refl. cbn [dw_assert bind]. rewrite (nth_error_rd _ _ _ Gk). mred.
    rewrite Sgi. mred. cbn [idat]. fold IXt. rewrite Eg. cbn [bind]. unfold set_dat. rewrite Sgi. reflexivity. }
  split. { split; [reflexivity|]. unfold twf. cbn [tdat tsh]. rewrite tab_length, prodN4. ring. }
  assert (Hig : forall i p, (i < planes)%nat -> (p < h * w)%nat ->
     pool_igrad g h w ho wo (fun q => nth q IXt O) (fun q => (tdat go).[q]) i p =
     rsum ho (fun r => rsum wo (fun q =>
        if inside h w (win_row g (sa i r q) r) (win_col g (sd i r q) q) then
          if (pixel h w 0 (win_row g (sa i r q) r) (win_col g (sd i r q) q) =? p)%nat
          then (tdat go).[(i * ho + r) * wo + q] else 0 else 0))).
  { intros i p Hi Hp. unfold pool_igrad. rewrite rsum_mult. apply rsum_ext. intros r Hr. apply rsum_ext. intros q Hq.
    destruct (Hsel i r q) as (S1 & S2 & S3).
    rewrite IXv by assumption. rewrite S3. rewrite flat_cell by assumption.
    destruct (inside h w _ _); [|reflexivity].
    replace ((i * ho + r) * wo + q)%nat with (i * (ho * wo) + (r * wo + q))%nat by ring. reflexivity. }
  split; [|split].
  - intros i r q Hi Hr Hq. destruct (Hsel i r q) as (S1 & S2 & S3). split; [exact S1|]. split; [exact S2|].
    cbn [tdat]. assert (Hj : (r * wo + q < ho * wo)%nat) by (apply mult_lt; assumption).
    replace ((i * ho + r) * wo + q)%nat with (i * (ho * wo) + (r * wo + q))%nat by ring.
    rewrite nth_tab by (apply mult_lt; assumption). destruct (divmod_nat i (ho * wo) _ Hj) as [-> ->].
    rewrite S3. apply cell_wcell; auto. apply x_len.
  - intros i y z Hi Hy Hz. cbn [tdat].
    assert (Hp : (pixel h w 0 y z < h * w)%nat).
    { unfold pixel. cbn [Nat.mul Nat.add]. apply mult_lt; lia. }
    assert (Ep : pixel h w i y z = (i * (h * w) + pixel h w 0 y z)%nat) by (rewrite pixel_shift; f_equal; lia).
    rewrite Ep. rewrite nth_tab by (apply mult_lt; assumption). f_equal.
    destruct (divmod_nat i (h * w) _ Hp) as [-> ->]. rewrite Hig by assumption.
    apply rsum_ext. intros r Hr. apply rsum_ext. intros q Hq.
    set (wy := win_row g (sa i r q) r). set (wx := win_col g (sd i r q) q).
    destruct (inside h w wy wx) eqn:Ei.
    + unfold inside in Ei. rewrite !andb_true_iff in Ei.
      destruct (Z.eqb_spec wy y) as [Ey|Ny], (Z.eqb_spec wx z) as [Ez|Nz]; cbn [andb].
      * rewrite Ey, Ez, Nat.eqb_refl. reflexivity.
      * destruct (Nat.eqb_spec (pixel h w 0 wy wx) (pixel h w 0 y z)) as [Eq|]; [|reflexivity]. exfalso. apply Nz.
        unfold pixel in Eq. cbn [Nat.mul Nat.add] in Eq. rewrite Ey in Eq. lia.
      * destruct (Nat.eqb_spec (pixel h w 0 wy wx) (pixel h w 0 y z)) as [Eq|]; [|reflexivity]. exfalso. apply Ny.
        unfold pixel in Eq. cbn [Nat.mul Nat.add] in Eq. rewrite Ez in Eq.
        destruct (divmod_nat (Z.to_nat wy) w (Z.to_nat z)) as [D1 _]; [lia|].
        destruct (divmod_nat (Z.to_nat y) w (Z.to_nat z)) as [D2 _]; [lia|]. rewrite Eq in D1. lia.
      * destruct (Nat.eqb_spec (pixel h w 0 wy wx) (pixel h w 0 y z)) as [Eq|]; [|reflexivity]. exfalso. apply Ny.
        unfold pixel in Eq. cbn [Nat.mul Nat.add] in Eq.
        destruct (divmod_nat (Z.to_nat wy) w (Z.to_nat wx)) as [D1 _]; [lia|].
        destruct (divmod_nat (Z.to_nat y) w (Z.to_nat z)) as [D2 _]; [lia|]. rewrite Eq in D1. lia.
    + destruct (Z.eqb_spec wy y) as [Ey|Ny]; [|reflexivity]. destruct (Z.eqb_spec wx z) as [Ez|Nz]; [|reflexivity].
      exfalso. unfold inside in Ei. rewrite Ey, Ez in Ei. lia.
  - cbn [tdat]. rewrite rsum_mult. apply rsum_ext. intros i Hi.
    transitivity (rsum (h * w) (fun p => pool_igrad g h w ho wo (fun q => nth q IXt O) (fun q => (tdat go).[q]) i p)).
    + apply rsum_ext. intros p Hp. rewrite nth_tab by (apply mult_lt; assumption).
      destruct (divmod_nat i (h * w) p Hp) as [-> ->]. lra.
    + etransitivity; [apply rsum_ext; intros p Hp; apply (Hig i p Hi Hp)|]. rewrite rsum_swap. apply rsum_ext. intros r Hr.
      rewrite rsum_swap. apply rsum_ext. intros q Hq.
      set (wy := win_row g (sa i r q) r). set (wx := win_col g (sd i r q) q).
      destruct (inside h w wy wx) eqn:Ei; [|apply rsum_zero; reflexivity].
      assert (Hp : (pixel h w 0 wy wx < h * w)%nat).
      { unfold inside in Ei. rewrite !andb_true_iff in Ei. unfold pixel. cbn [Nat.mul Nat.add]. apply mult_lt; lia. }
      rewrite (rsum_single _ (pixel h w 0 wy wx)); [rewrite Nat.eqb_refl; reflexivity|exact Hp|].
      intros p _ Hpne. destruct (Nat.eqb_spec (pixel h w 0 wy wx) p); [congruence|reflexivity].
Qed.
End Pool.

(** Without padding, and with a kernel that fits, every window position is a pixel. *)
Lemma no_padding_inside g h w ho wo r q a d : sizes_ok g h w ho wo -> validate_geom g = Ok tt ->
  g_ph g = 0%Z -> g_pw g = 0%Z -> g_dh g = 1%Z -> g_dw g = 1%Z ->
  (g_kh g <= Z.of_nat h)%Z -> (g_kw g <= Z.of_nat w)%Z ->
  (r < ho)%nat -> (q < wo)%nat -> (a < KH g)%nat -> (d < KW g)%nat ->
  inside h w (win_row g a r) (win_col g d q) = true.
Proof.
  intros [S1 S2] Hg P1 P2 D1 D2 K1 K2 Hr Hq Ha Hd.
  destruct (sizes_geom_pos g Hg) as (G1 & G2 & G3 & G4 & G5 & G6).
  rewrite P1, D1 in S1. rewrite P2, D2 in S2.
  rewrite im2col_size_is_layer_size in S1, S2.
  destruct (layer_out_size_fits (Z.of_nat h) 0 (g_kh g) (g_sh g) G5) as (n1 & E1 & _ & T1); [lia|].
  destruct (layer_out_size_fits (Z.of_nat w) 0 (g_kw g) (g_sw g) G6) as (n2 & E2 & _ & T2); [lia|].
  rewrite E1 in S1. rewrite E2 in S2. injection S1 as ->. injection S2 as ->.
  destruct (proj2 (T1 (Z.of_nat r))) as [_ B1]; [lia|]. destruct (proj2 (T2 (Z.of_nat q))) as [_ B2]; [lia|].
  unfold inside, win_row, win_col, KH, KW in *. rewrite P1, P2, D1, D2.
  assert (0 <= Z.of_nat r * g_sh g)%Z by (apply Z.mul_nonneg_nonneg; lia).
  assert (0 <= Z.of_nat q * g_sw g)%Z by (apply Z.mul_nonneg_nonneg; lia).
  rewrite !andb_true_iff. repeat split; lia.
Qed.

Lemma maxpool_padded_negative (E : env) (g : geom) (ind : iten) (buf : ten) (n c h w ho wo : nat) (x o o' : ten) (L' : layer) (i r q a0 d0 : nat) :
  sizes_ok g h w ho wo -> validate_geom g = Ok tt -> ibuf_ok ind ->
  ten_ok [n; c; h; w] x -> is_argmax (e_amax E) -> am_ext (e_amax E) -> ten_ok [n; c; ho; wo] o ->
  lforward E (LMaxPool g ind buf) [x] [o] = Ok (L', o') ->
  (i < n * c)%nat -> (r < ho)%nat -> (q < wo)%nat -> (a0 < KH g)%nat -> (d0 < KW g)%nat ->
  inside h w (win_row g a0 r) (win_col g d0 q) = false ->
  (forall a d, (a < KH g)%nat -> (d < KW g)%nat -> inside h w (win_row g a r) (win_col g d q) = true ->
     (tdat x).[pixel h w i (win_row g a r) (win_col g d q)] < / 2 ^ 126) ->
  (tdat o').[(i * ho + r) * wo + q] = / 2 ^ 126.
Proof.
  intros Hsz Hg Hind Hx Ham Hext Ho F Hi Hr Hq Ha Hd Hout Hneg.
  destruct (maxpool_forward_spec E g ind buf n c h w ho wo x Hsz Hg Hind Hx Ham Hext o Ho) as (i1 & b1 & o1 & F1 & _ & H).
  rewrite F in F1. injection F1 as -> ->. destruct (H i r q Hi Hr Hq) as (a & d & Ha1 & Hd1 & Ev & Hm).
  pose proof (Hm a0 d0 Ha Hd) as H0.
  assert (E0 : wcell g h w (tdat x) i r q a0 d0 = flt_min) by (unfold wcell, padded; rewrite Hout; reflexivity).
  rewrite E0 in H0. clear E0. rewrite Ev in *. unfold wcell, padded in *. destruct (inside h w (win_row g a r) (win_col g d q)) eqn:Ei; [|reflexivity].
  specialize (Hneg a d Ha1 Hd1 Ei). unfold flt_min in *.
  rewrite (nth_indep _ (/ 2 ^ 126) 0) in H0; [lra|].
  unfold inside in Ei. rewrite !andb_true_iff in Ei. rewrite (x_len n c h w x Hx).
  unfold pixel. rewrite Nat.mul_assoc. apply mult_lt; [apply mult_lt; [exact Hi|]|]; lia.
Qed.

(** The first index of a largest value, as Eigen's [maxCoeff] finds it. *)
Fixpoint first_max (n : nat) (f : nat -> R) : nat :=
  match n with
  | O => O
  | S m => if Rlt_dec (f (first_max m f)) (f m) then m else first_max m f
  end.

Lemma first_max_spec n f : (0 < n)%nat -> (first_max n f < n)%nat /\ forall k, (k < n)%nat -> f k <= f (first_max n f).
Proof.
  induction n as [|n IH]; [lia|]. intros _. cbn [first_max].
  destruct n as [|n].
  - cbn [first_max]. destruct (Rlt_dec (f O) (f O)); split; try lia; intros k Hk; replace k with O by lia; lra.
  - destruct IH as [H1 H2]; [lia|]. destruct (Rlt_dec _ _) as [Hl|Hl]; split; try lia; intros k Hk.
    + destruct (Nat.eq_dec k (S n)) as [->|]; [lra|]. apply Rle_trans with (f (first_max (S n) f)); [apply H2; lia|lra].
    + destruct (Nat.eq_dec k (S n)) as [->|]; [lra|]. apply H2. lia.
Qed.

Lemma first_max_ext n f f' : (forall k, (k < n)%nat -> f k = f' k) -> first_max n f = first_max n f'.
Proof.
  induction n as [|n IH]; intros H; [reflexivity|]. cbn [first_max]. rewrite IH by (intros; apply H; lia).
  destruct n as [|n].
  - cbn [first_max]. rewrite H by lia. reflexivity.
  - destruct (first_max_spec (S n) f') as [H1 _]; [lia|]. rewrite !H by lia. reflexivity.
Qed.
