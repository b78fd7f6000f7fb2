(** Proofs about the NCHW <-> NHWC conversions and the output-size formula. *)
From Verif Require Import Base BaseFacts M_Im2col P_Im2col.
Open Scope nat_scope.

(** Offset of element (i,j,k,l) in a 4-dimensional row-major array with trailing sizes B, C, D. *)
Definition lin4 (B C D i j k l : nat) : nat := ((i * B + j) * C + k) * D + l.

Lemma lin4_lt A B C D i j k l : i < A -> j < B -> k < C -> l < D -> lin4 B C D i j k l < A * B * C * D.
Proof. intros. unfold lin4. repeat apply mult_lt; assumption. Qed.

Lemma lin4_inj B C D i j k l i' j' k' l' :
  j < B -> k < C -> l < D -> j' < B -> k' < C -> l' < D ->
  lin4 B C D i j k l = lin4 B C D i' j' k' l' -> i = i' /\ j = j' /\ k = k' /\ l = l'.
Proof.
  intros Hj Hk Hl Hj' Hk' Hl' E. unfold lin4 in E.
  destruct (divmod_nat ((i * B + j) * C + k) D l Hl) as [D1 M1].
  destruct (divmod_nat ((i' * B + j') * C + k') D l' Hl') as [D1' M1'].
  rewrite E in D1, M1. rewrite D1' in D1. rewrite M1' in M1.
  destruct (divmod_nat (i * B + j) C k Hk) as [D2 M2].
  destruct (divmod_nat (i' * B + j') C k' Hk') as [D2' M2'].
  rewrite <- D1 in D2, M2. rewrite D2' in D2. rewrite M2' in M2.
  destruct (divmod_nat i B j Hj) as [D3 M3].
  destruct (divmod_nat i' B j' Hj') as [D3' M3'].
  rewrite <- D2 in D3, M3. rewrite D3' in D3. rewrite M3' in M3. auto.
Qed.

Lemma lin4_surj A B C D p : p < A * B * C * D ->
  exists i j k l, i < A /\ j < B /\ k < C /\ l < D /\ p = lin4 B C D i j k l.
Proof.
  intros Hp.
  assert (D <> 0 /\ C <> 0 /\ B <> 0) as (Z1 & Z2 & Z3).
  { repeat split; intros E; rewrite E in Hp; rewrite ?Nat.mul_0_r, ?Nat.mul_0_l in Hp; lia. }
  assert (p / D < A * B * C) by (apply Nat.div_lt_upper_bound; lia).
  assert (p / D / C < A * B) by (apply Nat.div_lt_upper_bound; lia).
  assert (p / D / C / B < A) by (apply Nat.div_lt_upper_bound; lia).
  exists (p / D / C / B), ((p / D / C) mod B), ((p / D) mod C), (p mod D).
  repeat split; try (apply Nat.mod_upper_bound; assumption); auto.
  unfold lin4.
  rewrite (Nat.mul_comm _ B), <- (Nat.div_mod (p / D / C) B) by lia.
  rewrite (Nat.mul_comm _ C), <- (Nat.div_mod (p / D) C) by lia.
  rewrite (Nat.mul_comm _ D), <- (Nat.div_mod p D) by lia. reflexivity.
Qed.

Section Layout.
Context {V : Type}.

(** A copy loop that writes element [p] of the source to position [pi p]. *)
Lemma scatter_loop n (pi : nat -> nat) (src dst : list V) (v0 : V) :
  n <= length src -> (forall p, p < n -> pi p < length dst) ->
  (forall p p', p < n -> p' < n -> pi p = pi p' -> p = p') ->
  exists dst', forr n (fun p d => v <- rd src p ;; wr d (pi p) v) dst = Ok dst' /\
    length dst' = length dst /\
    (forall p, p < n -> nth (pi p) dst' v0 = nth p src v0) /\
    (forall i, (forall p, p < n -> pi p <> i) -> nth i dst' v0 = nth i dst v0).
Proof.
  intros Hs Hpi Hinj.
  destruct (forr_inv (fun m d => length d = length dst /\
      (forall p, p < m -> nth (pi p) d v0 = nth p src v0) /\
      (forall i, (forall p, p < m -> pi p <> i) -> nth i d v0 = nth i dst v0))
      n (fun p d => v <- rd src p ;; wr d (pi p) v) dst) as (dst' & E & H).
  - repeat split; auto; intros; lia.
  - intros p d Hp (Hl & H1 & H2).
    rewrite (rd_Ok src p v0) by lia. cbn [bind]. rewrite wr_Ok by (rewrite Hl; auto).
    eexists. split; [reflexivity|]. split; [rewrite upd_length; exact Hl|]. split.
    + intros p' Hp'. destruct (Nat.eq_dec p p') as [<-|Hne].
      * apply nth_upd_eq. rewrite Hl. auto.
      * rewrite nth_upd_neq; [apply H1; lia|]. intros Epi. apply Hne. apply Hinj; auto; lia.
    + intros i Hi. rewrite nth_upd_neq by (apply Hi; lia). apply H2. intros p' Hp'. apply Hi. lia.
  - exists dst'. split; [exact E|]. exact H.
Qed.

(** Four nested loops with a running source pointer. *)
Lemma scatter4 A B C D (pos : nat -> nat -> nat -> nat -> nat) (src dst : list V) :
  ('(dst', _) <-
   forr A (fun i '(dst, p) => forr B (fun j '(dst, p) => forr C (fun k '(dst, p) => forr D (fun l '(dst, p) =>
     v <- rd src p ;; dst' <- wr dst (pos i j k l) v ;; Ok (dst', S p)) (dst, p)) (dst, p)) (dst, p)) (dst, 0) ;;
   Ok dst') =
  forr (A * B * C * D) (fun p d =>
    v <- rd src p ;;
    wr d (pos (p / D / C / B) ((p / D / C) mod B) ((p / D) mod C) (p mod D)) v) dst.
Proof.
  rewrite (ptr_loop A (B * (C * D)) 0 _
    (fun i => forr B (fun j => forr C (fun k => forr D (fun l d =>
      v <- rd src (lin4 B C D i j k l) ;; wr d (pos i j k l) v))))).
  - rewrite bind_res_map. rewrite forr_mult, forr_mult, forr_mult.
    match goal with |- bind (forr A ?f dst) _ = forr A ?g dst => transitivity (forr A f dst) end.
    + destruct (forr A _ dst); reflexivity.
    + apply forr_ext. intros i d Hi. apply forr_ext. intros j d1 Hj. apply forr_ext. intros k d2 Hk.
      apply forr_ext. intros l d3 Hl. unfold lin4.
      destruct (divmod_nat ((i * B + j) * C + k) D l Hl) as [-> ->].
      destruct (divmod_nat (i * B + j) C k Hk) as [-> ->].
      destruct (divmod_nat i B j Hj) as [-> ->]. reflexivity.
  - intros i d Hi. rewrite (ptr_loop B (C * D) _ _
      (fun j => forr C (fun k => forr D (fun l d =>
        v <- rd src (lin4 B C D i j k l) ;; wr d (pos i j k l) v)))).
    { apply bind_ext. intros d1. f_equal. f_equal. lia. }
    intros j d1 Hj. rewrite (ptr_loop C D _ _
      (fun k => forr D (fun l d => v <- rd src (lin4 B C D i j k l) ;; wr d (pos i j k l) v))).
    { apply bind_ext. intros d2. f_equal. f_equal. lia. }
    intros k d2 Hk. rewrite (ptr_loop D 1 _ _
      (fun l d => v <- rd src (lin4 B C D i j k l) ;; wr d (pos i j k l) v)).
    { apply bind_ext. intros d3. f_equal. f_equal. lia. }
    intros l d3 Hl.
    replace (0 + i * (B * (C * D)) + j * (C * D) + k * D + l * 1) with (lin4 B C D i j k l)
      by (unfold lin4; ring).
    unfold res_map. rewrite bind_assoc. apply bind_ext. intros v. apply bind_ext. intros d4.
    f_equal. f_equal. unfold lin4. ring.
Qed.

Lemma nchw2nhwc_gen N C H W (src dst : list V) v0 :
  N * C * H * W <= length src -> N * C * H * W <= length dst ->
  exists dst', nchw2nhwc N C H W src dst = Ok dst' /\ length dst' = length dst /\
    (forall i, N * C * H * W <= i -> nth i dst' v0 = nth i dst v0) /\
    forall n c h w, n < N -> c < C -> h < H -> w < W ->
      nth (((n * H + h) * W + w) * C + c) dst' v0 = nth (((n * C + c) * H + h) * W + w) src v0.
Proof.
  intros Hs Hd. unfold nchw2nhwc.
  rewrite (scatter4 N C H W (fun n c h w => lin4 H W C n h w c)).
  assert (Hpi : forall p, p < N * C * H * W ->
     lin4 H W C (p / W / H / C) ((p / W) mod H) (p mod W) ((p / W / H) mod C) < N * C * H * W).
  { intros p Hp. destruct (lin4_surj N C H W p Hp) as (n & c & h & w & Hn & Hc & Hh & Hw & ->).
    unfold lin4 at 2 3 4 5.
    destruct (divmod_nat ((n * C + c) * H + h) W w Hw) as [-> ->].
    destruct (divmod_nat (n * C + c) H h Hh) as [-> ->]. destruct (divmod_nat n C c Hc) as [-> ->].
    replace (N * C * H * W) with (N * H * W * C) by ring. apply lin4_lt; assumption. }
  destruct (scatter_loop (N * C * H * W)
     (fun p => lin4 H W C (p / W / H / C) ((p / W) mod H) (p mod W) ((p / W / H) mod C)) src dst v0) as
     (dst' & E & Hl & H1 & H2).
  - exact Hs.
  - intros p Hp. specialize (Hpi p Hp). lia.
  - intros p p' Hp Hp'.
    destruct (lin4_surj N C H W p Hp) as (n & c & h & w & Hn & Hc & Hh & Hw & ->).
    destruct (lin4_surj N C H W p' Hp') as (n' & c' & h' & w' & Hn' & Hc' & Hh' & Hw' & ->).
    unfold lin4 at 2 3 4 5 7 8 9 10.
    destruct (divmod_nat ((n * C + c) * H + h) W w Hw) as [-> ->].
    destruct (divmod_nat (n * C + c) H h Hh) as [-> ->]. destruct (divmod_nat n C c Hc) as [-> ->].
    destruct (divmod_nat ((n' * C + c') * H + h') W w' Hw') as [-> ->].
    destruct (divmod_nat (n' * C + c') H h' Hh') as [-> ->]. destruct (divmod_nat n' C c' Hc') as [-> ->].
    intros E. apply lin4_inj in E; try assumption. destruct E as (-> & -> & -> & ->). reflexivity.
  - exists dst'. split; [exact E|]. split; [exact Hl|]. split; [intros i Hi; apply H2; intros p Hp Ei; revert Hi; rewrite <- Ei; apply Nat.lt_nge; apply Hpi; exact Hp|]. intros n c h w Hn Hc Hh Hw.
    specialize (H1 (lin4 C H W n c h w) (lin4_lt N C H W n c h w Hn Hc Hh Hw)).
    unfold lin4 in H1 at 2 3 4 5.
    destruct (divmod_nat ((n * C + c) * H + h) W w Hw) as [Q1 Q2]. rewrite Q1, Q2 in H1.
    destruct (divmod_nat (n * C + c) H h Hh) as [Q3 Q4]. rewrite Q3, Q4 in H1.
    destruct (divmod_nat n C c Hc) as [Q5 Q6]. rewrite Q5, Q6 in H1. exact H1.
Qed.

Lemma nchw2nhwc_spec N C H W (src dst : list V) v0 :
  length src = N * C * H * W -> length dst = N * C * H * W ->
  exists dst', nchw2nhwc N C H W src dst = Ok dst' /\ length dst' = length dst /\
    forall n c h w, n < N -> c < C -> h < H -> w < W ->
      nth (((n * H + h) * W + w) * C + c) dst' v0 = nth (((n * C + c) * H + h) * W + w) src v0.
Proof.
  intros Hs Hd. destruct (nchw2nhwc_gen N C H W src dst v0) as (d & E & L & _ & V0); [lia|lia|]. exists d. auto.
Qed.

Lemma nhwc2nchw_gen N C H W (src dst : list V) v0 :
  N * C * H * W <= length src -> N * C * H * W <= length dst ->
  exists dst', nhwc2nchw N C H W src dst = Ok dst' /\ length dst' = length dst /\
    (forall i, N * C * H * W <= i -> nth i dst' v0 = nth i dst v0) /\
    forall n c h w, n < N -> c < C -> h < H -> w < W ->
      nth (((n * C + c) * H + h) * W + w) dst' v0 = nth (((n * H + h) * W + w) * C + c) src v0.
Proof.
  intros Hs Hd. unfold nhwc2nchw.
  assert (Ecomm : N * C * H * W = N * H * W * C) by ring.
  rewrite (scatter4 N H W C (fun n h w c => lin4 C H W n c h w)).
  assert (Hpi : forall p, p < N * H * W * C ->
     lin4 C H W (p / C / W / H) (p mod C) ((p / C / W) mod H) ((p / C) mod W) < N * C * H * W).
  { intros p Hp. destruct (lin4_surj N H W C p Hp) as (n & h & w & c & Hn & Hh & Hw & Hc & ->).
    unfold lin4 at 2 3 4 5.
    destruct (divmod_nat ((n * H + h) * W + w) C c Hc) as [-> ->].
    destruct (divmod_nat (n * H + h) W w Hw) as [-> ->]. destruct (divmod_nat n H h Hh) as [-> ->].
    apply lin4_lt; assumption. }
  destruct (scatter_loop (N * H * W * C)
     (fun p => lin4 C H W (p / C / W / H) (p mod C) ((p / C / W) mod H) ((p / C) mod W)) src dst v0) as
     (dst' & E & Hl & H1 & H2).
  - lia.
  - intros p Hp. specialize (Hpi p Hp). lia.
  - intros p p' Hp Hp'.
    destruct (lin4_surj N H W C p Hp) as (n & h & w & c & Hn & Hh & Hw & Hc & ->).
    destruct (lin4_surj N H W C p' Hp') as (n' & h' & w' & c' & Hn' & Hh' & Hw' & Hc' & ->).
    unfold lin4 at 2 3 4 5 7 8 9 10.
    destruct (divmod_nat ((n * H + h) * W + w) C c Hc) as [-> ->].
    destruct (divmod_nat (n * H + h) W w Hw) as [-> ->]. destruct (divmod_nat n H h Hh) as [-> ->].
    destruct (divmod_nat ((n' * H + h') * W + w') C c' Hc') as [-> ->].
    destruct (divmod_nat (n' * H + h') W w' Hw') as [-> ->]. destruct (divmod_nat n' H h' Hh') as [-> ->].
    intros E. apply lin4_inj in E; try assumption. destruct E as (-> & -> & -> & ->). reflexivity.
  - exists dst'. split; [exact E|]. split; [exact Hl|]. split; [intros i Hi; apply H2; intros p Hp Ei; revert Hi; rewrite <- Ei; apply Nat.lt_nge; apply Hpi; exact Hp|]. intros n c h w Hn Hc Hh Hw.
    specialize (H1 (lin4 H W C n h w c) (lin4_lt N H W C n h w c Hn Hh Hw Hc)).
    unfold lin4 in H1 at 2 3 4 5.
    destruct (divmod_nat ((n * H + h) * W + w) C c Hc) as [Q1 Q2]. rewrite Q1, Q2 in H1.
    destruct (divmod_nat (n * H + h) W w Hw) as [Q3 Q4]. rewrite Q3, Q4 in H1.
    destruct (divmod_nat n H h Hh) as [Q5 Q6]. rewrite Q5, Q6 in H1. exact H1.
Qed.

Lemma nhwc2nchw_spec N C H W (src dst : list V) v0 :
  length src = N * C * H * W -> length dst = N * C * H * W ->
  exists dst', nhwc2nchw N C H W src dst = Ok dst' /\ length dst' = length dst /\
    forall n c h w, n < N -> c < C -> h < H -> w < W ->
      nth (((n * C + c) * H + h) * W + w) dst' v0 = nth (((n * H + h) * W + w) * C + c) src v0.
Proof.
  intros Hs Hd. destruct (nhwc2nchw_gen N C H W src dst v0) as (d & E & L & _ & V0); [lia|lia|]. exists d. auto.
Qed.

Lemma layout_roundtrip N C H W (x buf1 buf2 : list V) :
  length x = N * C * H * W -> length buf1 = N * C * H * W -> length buf2 = N * C * H * W ->
  (exists y, nchw2nhwc N C H W x buf1 = Ok y /\ nhwc2nchw N C H W y buf2 = Ok x) /\
  (exists y, nhwc2nchw N C H W x buf1 = Ok y /\ nchw2nhwc N C H W y buf2 = Ok x).
Proof.
  intros Hx H1 H2.
  destruct x as [|v0 x'].
  { cbn in Hx. assert (E0 : N * C * H * W = 0) by lia.
    destruct buf1; [|cbn in H1; lia]. destruct buf2; [|cbn in H2; lia].
    assert (A1 : nchw2nhwc N C H W (@nil V) [] = Ok []).
    { unfold nchw2nhwc. rewrite (scatter4 N C H W (fun n c h w => lin4 H W C n h w c)).
      rewrite E0. reflexivity. }
    assert (A2 : nhwc2nchw N C H W (@nil V) [] = Ok []).
    { unfold nhwc2nchw. rewrite (scatter4 N H W C (fun n h w c => lin4 C H W n c h w)).
      replace (N * H * W * C) with 0 by (rewrite <- E0; ring). reflexivity. }
    split; exists []; auto. }
  set (x := v0 :: x') in *. split.
  - destruct (nchw2nhwc_spec N C H W x buf1 v0 Hx H1) as (y & Ey & Ly & Cy).
    destruct (nhwc2nchw_spec N C H W y buf2 v0) as (z & Ez & Lz & Cz); [lia|lia|].
    exists y. split; [exact Ey|]. rewrite Ez. f_equal. apply list_ext with (d := v0); [lia|].
    intros i Hi. rewrite Lz, H2 in Hi. destruct (lin4_surj N C H W i Hi) as (n & c & h & w & Hn & Hc & Hh & Hw & ->).
    unfold lin4. rewrite Cz by assumption. apply Cy; assumption.
  - destruct (nhwc2nchw_spec N C H W x buf1 v0 Hx H1) as (y & Ey & Ly & Cy).
    destruct (nchw2nhwc_spec N C H W y buf2 v0) as (z & Ez & Lz & Cz); [lia|lia|].
    exists y. split; [exact Ey|]. rewrite Ez. f_equal. apply list_ext with (d := v0); [lia|].
    intros i Hi. rewrite Lz, H2 in Hi. replace (N * C * H * W) with (N * H * W * C) in Hi by ring.
    destruct (lin4_surj N H W C i Hi) as (n & h & w & c & Hn & Hh & Hw & Hc & ->).
    unfold lin4. rewrite Cz by assumption. apply Cy; assumption.
Qed.

End Layout.

(** * Output sizes *)
Open Scope Z_scope.

Lemma layer_out_size_fits inp pad kernel stride :
  0 < stride -> kernel <= inp + 2 * pad ->
  exists n, layer_out_size inp pad kernel stride = Ok n /\ 1 <= n /\
    forall t, (0 <= t /\ t * stride + kernel <= inp + 2 * pad) <-> 0 <= t < n.
Proof.
  intros Hs Hf. unfold layer_out_size, int_div.
  destruct (Z.eqb_spec stride 0); [lia|]. cbn [bind].
  rewrite Z.quot_div_nonneg by lia.
  eexists. split; [reflexivity|].
  pose proof (Z.div_pos (inp + 2 * pad - kernel) stride ltac:(lia) Hs) as Hp.
  split; [lia|]. intros t.
  pose proof (Z.mul_div_le (inp + 2 * pad - kernel) stride Hs).
  pose proof (Z.mul_succ_div_gt (inp + 2 * pad - kernel) stride Hs).
  split; intros H2; split; try lia.
  - assert (t <= (inp + 2 * pad - kernel) / stride); [|lia].
    apply Z.div_le_lower_bound; lia.
  - nia.
Qed.

Lemma layer_out_size_too_small inp pad kernel stride :
  0 < stride -> inp + 2 * pad < kernel ->
  exists n, layer_out_size inp pad kernel stride = Ok n /\
    (forall t, ~ (0 <= t /\ t * stride + kernel <= inp + 2 * pad)) /\
    (n = 1 <-> kernel - (inp + 2 * pad) < stride) /\
    (stride <= kernel - (inp + 2 * pad) -> n = 1 - (kernel - (inp + 2 * pad)) / stride /\ n <= 0).
Proof.
  intros Hs Hf. unfold layer_out_size, int_div.
  destruct (Z.eqb_spec stride 0); [lia|]. cbn [bind].
  set (D := kernel - (inp + 2 * pad)).
  replace (inp + 2 * pad - kernel) with (- D) by (unfold D; ring).
  rewrite Z.quot_opp_l by lia. rewrite Z.quot_div_nonneg by (unfold D; lia).
  eexists. split; [reflexivity|]. split; [|split].
  - intros t [Ht H]. nia.
  - split; intros H.
    + destruct (Z_lt_le_dec D stride) as [|L]; [assumption|].
      assert (1 <= D / stride) by (apply Z.div_le_lower_bound; lia). lia.
    + rewrite Z.div_small by (unfold D in *; lia). lia.
  - intros H. assert (1 <= D / stride) by (apply Z.div_le_lower_bound; lia). lia.
Qed.

(** With dilation 1 im2col computes the same size as the layer. *)
Lemma im2col_size_is_layer_size inp pad kernel stride :
  im2col_out_size inp pad kernel stride 1 = layer_out_size inp pad kernel stride.
Proof. unfold im2col_out_size, layer_out_size. do 2 f_equal. ring. Qed.

Lemma forr_first_UB {S} n (body : nat -> S -> res S) s : (0 < n)%nat -> body O s = UB -> forr n body s = UB.
Proof.
  intros Hn Hb. induction n as [|n IH]; [lia|]. rewrite forr_S.
  destruct n as [|n]; [exact Hb|]. rewrite IH by lia. reflexivity.
Qed.

Lemma im2col_negative_rows {V} g ch h w n (fill : V) src dst :
  0 < ch -> 0 < g_kh g -> 0 < g_kw g -> g_sw g <> 0 ->
  im2col_out_size h (g_ph g) (g_kh g) (g_sh g) (g_dh g) = Ok n -> n < 0 ->
  im2col g ch h w fill src dst = UB.
Proof.
  intros Hc Hkh Hkw Hsw E Hn. unfold im2col. rewrite E. cbn [bind].
  unfold im2col_out_size at 1, int_div. destruct (Z.eqb_spec (g_sw g) 0); [contradiction|]. cbn [bind].
  unfold count_down at 1. destruct (Z.ltb_spec ch 0); [lia|]. cbn [bind].
  rewrite forr_first_UB; [reflexivity|lia|].
  apply forr_first_UB; [lia|]. apply forr_first_UB; [lia|].
  unfold count_down at 1. destruct (Z.ltb_spec n 0); [reflexivity|lia].
Qed.
