(** Proofs about im2col and col2im. *)
From Coq Require Import Reals Lra.
From Verif Require Import Base BaseFacts Sums M_Im2col S_Im2col.
Open Scope nat_scope.

(** Loops that carry a pointer advancing by [sz] per iteration. *)
Lemma ptr_loop {D} n sz p0 (B : nat -> D * nat -> res (D * nat)) (B2 : nat -> D -> res D) d0 :
  (forall i d, i < n -> B i (d, p0 + i * sz) = res_map (fun d => (d, p0 + S i * sz)) (B2 i d)) ->
  forr n B (d0, p0) = res_map (fun d => (d, p0 + n * sz)) (forr n B2 d0).
Proof.
  intros H. replace (d0, p0) with ((fun i (d : D) => (d, p0 + i * sz)) 0 d0) by (cbn; f_equal; lia).
  apply (forr_map (fun i (d : D) => (d, p0 + i * sz))). exact H.
Qed.

(** ... and a coordinate advancing by [s]. *)
Lemma ptr_loop3 {D} n sz p0 x0 s (B : nat -> D * nat * Z -> res (D * nat * Z)) (B2 : nat -> D -> res D) d0 :
  (forall i d, i < n -> B i (d, p0 + i * sz, (Z.of_nat i * s + x0)%Z) =
                        res_map (fun d => (d, p0 + S i * sz, (Z.of_nat (S i) * s + x0)%Z)) (B2 i d)) ->
  forr n B (d0, p0, x0) = res_map (fun d => (d, p0 + n * sz, (Z.of_nat n * s + x0)%Z)) (forr n B2 d0).
Proof.
  intros H.
  replace (d0, p0, x0) with ((fun i (d : D) => (d, p0 + i * sz, (Z.of_nat i * s + x0)%Z)) 0 d0)
    by (cbn; f_equal; f_equal; lia).
  apply (forr_map (fun i (d : D) => (d, p0 + i * sz, (Z.of_nat i * s + x0)%Z))). exact H.
Qed.

Lemma count_down_nat n : count_down (Z.of_nat n) = Ok n.
Proof.
  unfold count_down. destruct (Z.ltb_spec (Z.of_nat n) 0); [lia|]. rewrite Nat2Z.id. reflexivity.
Qed.

Lemma inside_split h w y x :
  inside h w y x = ((0 <=? y) && (y <? Z.of_nat h))%Z && ((0 <=? x) && (x <? Z.of_nat w))%Z.
Proof. unfold inside. rewrite !andb_assoc. reflexivity. Qed.

Lemma inside_spec h w y x :
  inside h w y x = true <-> (0 <= y < Z.of_nat h)%Z /\ (0 <= x < Z.of_nat w)%Z.
Proof. unfold inside. lia. Qed.

Section Im2col.
Context {V : Type}.
Variable g : geom.
Variables ch h w ho wo : nat.
Hypothesis Hsz : sizes_ok g h w ho wo.

Notation kh := (KH g).
Notation kw := (KW g).

(** im2col without pointers: every cell is written at its linear index. *)
Definition im2col_cell (fill : V) (src : list V) (c a b r q : nat) : res V :=
  let y := win_row g a r in let x := win_col g b q in
  if inside h w y x then rdz src (Z.of_nat c * (Z.of_nat h * Z.of_nat w) + (y * Z.of_nat w + x))%Z
  else Ok fill.

Lemma im2col_nested fill (src dst : list V) :
  im2col g (Z.of_nat ch) (Z.of_nat h) (Z.of_nat w) fill src dst =
  forr ch (fun c => forr kh (fun a => forr kw (fun b => forr ho (fun r => forr wo (fun q d =>
    v <- im2col_cell fill src c a b r q ;;
    wr d (lin5 kh kw ho wo c a b r q) v))))) dst.
Proof.
  unfold im2col. destruct Hsz as [-> ->]. cbn [bind]. rewrite count_down_nat. cbn [bind].
  rewrite (ptr_loop ch (kh * (kw * (ho * wo))) 0 _
    (fun c => forr kh (fun a => forr kw (fun b => forr ho (fun r => forr wo (fun q d =>
       v <- im2col_cell fill src c a b r q ;;
       wr d (lin5 kh kw ho wo c a b r q) v)))))).
  { rewrite bind_res_map. destruct (forr ch _ dst); reflexivity. }
  intros c d0 Hc. fold (KH g). fold (KW g).
  rewrite (ptr_loop kh (kw * (ho * wo)) _ _
    (fun a => forr kw (fun b => forr ho (fun r => forr wo (fun q d =>
       v <- im2col_cell fill src c a b r q ;;
       wr d (lin5 kh kw ho wo c a b r q) v))))).
  { apply bind_ext. intros d1. f_equal. f_equal. lia. }
  intros a d1 Ha.
  rewrite (ptr_loop kw (ho * wo) _ _
    (fun b => forr ho (fun r => forr wo (fun q d =>
       v <- im2col_cell fill src c a b r q ;;
       wr d (lin5 kh kw ho wo c a b r q) v)))).
  { apply bind_ext. intros d2. f_equal. f_equal. lia. }
  intros b d2 Hb. rewrite !count_down_nat. cbn [bind].
  rewrite (ptr_loop3 ho wo _ _ (g_sh g) _
    (fun r => forr wo (fun q d =>
       v <- im2col_cell fill src c a b r q ;;
       wr d (lin5 kh kw ho wo c a b r q) v))).
  { rewrite bind_res_map. apply bind_ext. intros d3. f_equal. f_equal. lia. }
  intros r d3 Hr.
  assert (Ey : (Z.of_nat r * g_sh g + (Z.of_nat a * g_dh g - g_ph g))%Z = win_row g a r) by (unfold win_row; lia).
  rewrite Ey. cbn [bind].
  set (P := 0 + c * (kh * (kw * (ho * wo))) + a * (kw * (ho * wo)) + b * (ho * wo) + r * wo).
  assert (EP : forall q, P + q * 1 = lin5 kh kw ho wo c a b r q) by (intros q; unfold P, lin5; ring).
  assert (Rest : forall x : res (list V),
      bind (res_map (fun d => (d, P + wo * 1)) x)
           (fun '(dst, p) => Ok (dst, p, (win_row g a r + g_sh g)%Z)) =
      res_map (fun d => (d, 0 + c * (kh * (kw * (ho * wo))) + a * (kw * (ho * wo)) + b * (ho * wo) + S r * wo,
                         (Z.of_nat (S r) * g_sh g + (Z.of_nat a * g_dh g - g_ph g))%Z)) x).
  { intros x. rewrite bind_res_map. apply bind_ext. intros d4. f_equal. f_equal; [f_equal; unfold P; lia|lia]. }
  destruct ((0 <=? win_row g a r) && (win_row g a r <? Z.of_nat h))%Z eqn:Erow; cbn [negb].
  - rewrite (ptr_loop3 wo 1 _ _ (g_sw g) _
      (fun q d =>
         v <- im2col_cell fill src c a b r q ;;
         wr d (lin5 kh kw ho wo c a b r q) v)).
    + rewrite bind_res_map. fold P. rewrite <- Rest. unfold res_map. rewrite !bind_assoc.
      apply bind_ext. intros d4. reflexivity.
    + intros q d4 Hq. fold P.
      assert (Ex : (Z.of_nat q * g_sw g + (Z.of_nat b * g_dw g - g_pw g))%Z = win_col g b q) by (unfold win_col; lia).
      rewrite Ex, EP. unfold im2col_cell. rewrite inside_split, Erow. cbn [andb].
      unfold res_map. rewrite bind_assoc. apply bind_ext. intros v. apply bind_ext. intros d5.
      f_equal. f_equal; [f_equal; rewrite <- EP; lia|lia].
  - rewrite (ptr_loop wo 1 _ _
      (fun q d =>
         v <- im2col_cell fill src c a b r q ;;
         wr d (lin5 kh kw ho wo c a b r q) v)).
    + fold P. apply Rest.
    + intros q d4 Hq. fold P. rewrite EP. unfold im2col_cell. rewrite inside_split, Erow. cbn [andb bind].
      apply bind_ext. intros d5. f_equal. f_equal. rewrite <- EP. lia.
Qed.

(** col2im without pointers. *)
Definition col2im_cell (add : V -> V -> V) (src : list V) (c a b r q p : nat) (d : list V) : res (list V) :=
  let y := win_row g a r in let x := win_col g b q in
  if inside h w y x then
    let i := (Z.of_nat c * (Z.of_nat h * Z.of_nat w) + (y * Z.of_nat w + x))%Z in
    v <- rdz d i ;; s <- rd src p ;; wrz d i (add v s)
  else Ok d.

Lemma col2im_nested add (src dst : list V) :
  col2im add g (Z.of_nat ch) (Z.of_nat h) (Z.of_nat w) src dst =
  forr ch (fun c => forr kh (fun a => forr kw (fun b => forr ho (fun r => forr wo (fun q d =>
    col2im_cell add src c a b r q (lin5 kh kw ho wo c a b r q) d))))) dst.
Proof.
  unfold col2im. destruct Hsz as [-> ->]. cbn [bind]. rewrite count_down_nat. cbn [bind].
  rewrite (ptr_loop ch (kh * (kw * (ho * wo))) 0 _
    (fun c => forr kh (fun a => forr kw (fun b => forr ho (fun r => forr wo (fun q d =>
       col2im_cell add src c a b r q (lin5 kh kw ho wo c a b r q) d)))))).
  { rewrite bind_res_map. destruct (forr ch _ dst); reflexivity. }
  intros c d0 Hc. fold (KH g). fold (KW g).
  rewrite (ptr_loop kh (kw * (ho * wo)) _ _
    (fun a => forr kw (fun b => forr ho (fun r => forr wo (fun q d =>
       col2im_cell add src c a b r q (lin5 kh kw ho wo c a b r q) d))))).
  { apply bind_ext. intros d1. f_equal. f_equal. lia. }
  intros a d1 Ha.
  rewrite (ptr_loop kw (ho * wo) _ _
    (fun b => forr ho (fun r => forr wo (fun q d =>
       col2im_cell add src c a b r q (lin5 kh kw ho wo c a b r q) d)))).
  { apply bind_ext. intros d2. f_equal. f_equal. lia. }
  intros b d2 Hb. rewrite !count_down_nat. cbn [bind].
  rewrite (ptr_loop3 ho wo _ _ (g_sh g) _
    (fun r => forr wo (fun q d =>
       col2im_cell add src c a b r q (lin5 kh kw ho wo c a b r q) d))).
  { rewrite bind_res_map. apply bind_ext. intros d3. f_equal. f_equal. lia. }
  intros r d3 Hr.
  assert (Ey : (Z.of_nat r * g_sh g + (Z.of_nat a * g_dh g - g_ph g))%Z = win_row g a r) by (unfold win_row; lia).
  rewrite Ey. cbn [bind].
  set (P := 0 + c * (kh * (kw * (ho * wo))) + a * (kw * (ho * wo)) + b * (ho * wo) + r * wo).
  assert (EP : forall q, P + q * 1 = lin5 kh kw ho wo c a b r q) by (intros q; unfold P, lin5; ring).
  assert (Rest : forall x : res (list V),
      bind (res_map (fun d => (d, P + wo * 1)) x)
           (fun '(dst, p) => Ok (dst, p, (win_row g a r + g_sh g)%Z)) =
      res_map (fun d => (d, 0 + c * (kh * (kw * (ho * wo))) + a * (kw * (ho * wo)) + b * (ho * wo) + S r * wo,
                         (Z.of_nat (S r) * g_sh g + (Z.of_nat a * g_dh g - g_ph g))%Z)) x).
  { intros x. rewrite bind_res_map. apply bind_ext. intros d4. f_equal. f_equal; [f_equal; unfold P; lia|lia]. }
  destruct ((0 <=? win_row g a r) && (win_row g a r <? Z.of_nat h))%Z eqn:Erow; cbn [negb].
  - rewrite (ptr_loop3 wo 1 _ _ (g_sw g) _
      (fun q d => col2im_cell add src c a b r q (lin5 kh kw ho wo c a b r q) d)).
    + rewrite bind_res_map. fold P. rewrite <- Rest. unfold res_map. rewrite !bind_assoc.
      apply bind_ext. intros d4. reflexivity.
    + intros q d4 Hq. fold P.
      assert (Ex : (Z.of_nat q * g_sw g + (Z.of_nat b * g_dw g - g_pw g))%Z = win_col g b q) by (unfold win_col; lia).
      rewrite Ex, EP. unfold col2im_cell. rewrite inside_split, Erow. cbn [andb].
      unfold res_map. apply bind_ext. intros d5.
      f_equal. f_equal; [f_equal; rewrite <- EP; lia|lia].
  - cbn [bind].
    transitivity (res_map (fun d => (d, P + wo * 1, (win_row g a r + g_sh g)%Z))
                    (forr wo (fun q d => col2im_cell add src c a b r q (lin5 kh kw ho wo c a b r q) d) d3)).
    + rewrite (forr_ext wo _ (fun _ d => Ok d)).
      * rewrite forr_noop. cbn. fold P. do 3 f_equal. lia.
      * intros q d4 Hq. unfold col2im_cell. rewrite inside_split, Erow. reflexivity.
    + rewrite <- Rest. rewrite bind_res_map. reflexivity.
Qed.

(** ** Flat form *)
Definition flat_src (p : nat) : option nat :=
  let q := p mod wo in let p1 := p / wo in
  let r := p1 mod ho in let p2 := p1 / ho in
  let b := p2 mod kw in let p3 := p2 / kw in
  let a := p3 mod kh in let c := p3 / kh in
  let y := win_row g a r in let x := win_col g b q in
  if inside h w y x then Some (pixel h w c y x) else None.

Definition NC : nat := ch * kh * kw * ho * wo.

Lemma flat_src_cell c a b r q :
  a < kh -> b < kw -> r < ho -> q < wo ->
  flat_src (lin5 kh kw ho wo c a b r q) =
  if inside h w (win_row g a r) (win_col g b q)
  then Some (pixel h w c (win_row g a r) (win_col g b q)) else None.
Proof.
  intros Ha Hb Hr Hq. unfold flat_src, lin5.
  destruct (divmod_nat ((((c * kh + a) * kw + b) * ho + r)) wo q Hq) as [-> ->].
  destruct (divmod_nat (((c * kh + a) * kw + b)) ho r Hr) as [-> ->].
  destruct (divmod_nat ((c * kh + a)) kw b Hb) as [-> ->].
  destruct (divmod_nat c kh a Ha) as [-> ->]. reflexivity.
Qed.

Lemma pixel_Z c y x :
  (0 <= y < Z.of_nat h)%Z -> (0 <= x < Z.of_nat w)%Z ->
  (Z.of_nat c * (Z.of_nat h * Z.of_nat w) + (y * Z.of_nat w + x))%Z = Z.of_nat (pixel h w c y x).
Proof. intros Hy Hx. unfold pixel. rewrite Nat2Z.inj_add, Nat2Z.inj_mul, Nat2Z.inj_add, Nat2Z.inj_mul, !Z2Nat.id by lia. ring. Qed.

Lemma pixel_lt c y x : c < ch ->
  (0 <= y < Z.of_nat h)%Z -> (0 <= x < Z.of_nat w)%Z -> pixel h w c y x < ch * h * w.
Proof.
  intros Hc Hy Hx. unfold pixel. apply mult_lt; [|lia]. apply mult_lt; lia.
Qed.

Lemma NC_dec p : p < NC ->
  let q := p mod wo in let p1 := p / wo in
  let r := p1 mod ho in let p2 := p1 / ho in
  let b := p2 mod kw in let p3 := p2 / kw in
  let a := p3 mod kh in let c := p3 / kh in
  q < wo /\ r < ho /\ b < kw /\ a < kh /\ c < ch /\ p = lin5 kh kw ho wo c a b r q.
Proof.
  unfold NC. intros Hp. cbv zeta.
  assert (wo <> 0 /\ ho <> 0 /\ kw <> 0 /\ kh <> 0) as (Z1 & Z2 & Z3 & Z4).
  { repeat split; intros E; rewrite E in Hp; rewrite ?Nat.mul_0_r, ?Nat.mul_0_l in Hp; lia. }
  assert (p / wo < ch * kh * kw * ho) by (apply Nat.div_lt_upper_bound; lia).
  assert (p / wo / ho < ch * kh * kw) by (apply Nat.div_lt_upper_bound; lia).
  assert (p / wo / ho / kw < ch * kh) by (apply Nat.div_lt_upper_bound; lia).
  assert (p / wo / ho / kw / kh < ch) by (apply Nat.div_lt_upper_bound; lia).
  repeat split; try (apply Nat.mod_upper_bound; assumption); auto.
  unfold lin5.
  rewrite (Nat.mul_comm _ kh), <- (Nat.div_mod (p / wo / ho / kw) kh) by lia.
  rewrite (Nat.mul_comm _ kw), <- (Nat.div_mod (p / wo / ho) kw) by lia.
  rewrite (Nat.mul_comm _ ho), <- (Nat.div_mod (p / wo) ho) by lia.
  rewrite (Nat.mul_comm _ wo), <- (Nat.div_mod p wo) by lia. reflexivity.
Qed.

Lemma flat_src_lt p i : p < NC -> flat_src p = Some i -> i < ch * h * w.
Proof.
  intros Hp E. destruct (NC_dec p Hp) as (Hq & Hr & Hb & Ha & Hc & Ep).
  rewrite Ep in E. rewrite flat_src_cell in E by assumption.
  destruct (inside _ _ _ _) eqn:Ei; [|discriminate]. injection E as <-.
  apply inside_spec in Ei. destruct Ei. apply pixel_lt; assumption.
Qed.

Lemma im2col_flat fill (src dst : list V) :
  length src = ch * h * w -> NC <= length dst ->
  im2col g (Z.of_nat ch) (Z.of_nat h) (Z.of_nat w) fill src dst =
  Ok (tab NC (fun p => match flat_src p with Some i => nth i src fill | None => fill end) ++ skipn NC dst).
Proof.
  intros Hs Hd. rewrite im2col_nested.
  rewrite (nest5 ch kh kw ho wo (fun c a b r q p d =>
             v <- im2col_cell fill src c a b r q ;; wr d p v)).
  rewrite <- (forr_write_seq NC _ dst Hd). apply forr_ext.
  intros p d Hp. cbv zeta. fold NC in Hp.
  destruct (NC_dec p Hp) as (Hq & Hr & Hb & Ha & Hc & Ep).
  unfold im2col_cell, flat_src. cbv zeta.
  destruct (inside h w _ _) eqn:Ei; cbn [bind]; [|reflexivity].
  apply inside_spec in Ei as [Ey Ex]. rewrite pixel_Z by assumption.
  pose proof (pixel_lt _ _ _ Hc Ey Ex). rewrite (rdz_Ok _ _ fill) by lia. rewrite Nat2Z.id. reflexivity.
Qed.

Lemma im2col_spec fill (src dst : list V) :
  length src = ch * h * w -> NC <= length dst ->
  exists dst', im2col g (Z.of_nat ch) (Z.of_nat h) (Z.of_nat w) fill src dst = Ok dst' /\
    length dst' = length dst /\
    (forall c a b r q, c < ch -> a < kh -> b < kw -> r < ho -> q < wo ->
       nth (col_cell kh kw ho wo c a b r q) dst' fill =
       padded fill h w src c (win_row g a r) (win_col g b q)) /\
    (forall i, NC <= i -> nth i dst' fill = nth i dst fill).
Proof.
  intros Hs Hd. eexists. split; [apply im2col_flat; assumption|]. split; [|split].
  - rewrite app_length, tab_length, skipn_length. lia.
  - intros c a b r q Hc Ha Hb Hr Hq. unfold col_cell.
    pose proof (lin5_lt ch kh kw ho wo c a b r q Hc Ha Hb Hr Hq) as L.
    rewrite app_nth1 by (rewrite tab_length; exact L). rewrite nth_tab by exact L.
    rewrite flat_src_cell by assumption. unfold padded. destruct (inside _ _ _ _); reflexivity.
  - intros i Hi. rewrite app_nth2 by (rewrite tab_length; exact Hi). rewrite tab_length.
    rewrite <- (firstn_skipn NC dst) at 2. rewrite app_nth2 by (rewrite firstn_length; lia).
    rewrite firstn_length, Nat.min_l by lia. reflexivity.
Qed.

End Im2col.

(** * col2im over the reals *)
Section Col2im.
Variable g : geom.
Variables ch h w ho wo : nat.
Hypothesis Hsz : sizes_ok g h w ho wo.
Notation kh := (KH g).
Notation kw := (KW g).
Notation NC := (NC g ch ho wo).
Notation flat_src := (flat_src g h w ho wo).
Open Scope R_scope.

Lemma col2im_flat (src dst : list R) :
  length dst = (ch * h * w)%nat -> (NC <= length src)%nat ->
  exists dst', col2im Rplus g (Z.of_nat ch) (Z.of_nat h) (Z.of_nat w) src dst = Ok dst' /\
    length dst' = length dst /\
    forall i, (i < ch * h * w)%nat ->
      dst'.[i] = dst.[i] + rsum NC (fun p => match flat_src p with
                                             | Some j => if Nat.eqb j i then src.[p] else 0
                                             | None => 0 end).
Proof.
  intros Hd Hs. rewrite (col2im_nested g ch h w ho wo Hsz).
  rewrite (nest5 ch kh kw ho wo (fun c a b r q p d => col2im_cell g h w Rplus src c a b r q p d)).
  apply (forr_inv (fun n d => length d = length dst /\
     forall i, (i < ch * h * w)%nat ->
      d.[i] = dst.[i] + rsum n (fun p => match flat_src p with
                                         | Some j => if Nat.eqb j i then src.[p] else 0
                                         | None => 0 end))).
  - split; [reflexivity|]. intros i Hi. cbn. ring.
  - intros p d Hp [Hl Hc]. cbv zeta. fold NC in Hp.
    destruct (NC_dec g ch ho wo p Hp) as (Hq & Hr & Hb & Ha & Hcc & Ep).
    set (c := (p / wo / ho / kw / kh)%nat) in *. set (a := ((p / wo / ho / kw) mod kh)%nat) in *.
    set (b := ((p / wo / ho) mod kw)%nat) in *. set (r := ((p / wo) mod ho)%nat) in *.
    set (q := (p mod wo)%nat) in *.
    assert (Esrc : flat_src p = if inside h w (win_row g a r) (win_col g b q)
              then Some (pixel h w c (win_row g a r) (win_col g b q)) else None).
    { rewrite Ep. apply flat_src_cell; assumption. }
    unfold col2im_cell. destruct (inside h w _ _) eqn:Ei.
    + apply inside_spec in Ei as [Ey Ex]. rewrite pixel_Z by assumption.
      pose proof (pixel_lt ch h w c _ _ Hcc Ey Ex) as L.
      set (j := pixel h w c (win_row g a r) (win_col g b q)) in *.
      rewrite (rdz_Ok d _ 0) by lia. cbn [bind].
      rewrite (rd_Ok src p 0) by lia. cbn [bind].
      rewrite wrz_Ok by lia. rewrite Nat2Z.id.
      eexists. split; [reflexivity|]. split; [rewrite upd_length; exact Hl|].
      intros i Hi. rewrite nth_upd. rewrite Esrc || idtac. cbn [rsum]. rewrite Esrc.
      destruct (Nat.eqb_spec j i) as [Ej|Ej].
      * assert (Lb : (j <? length d)%nat = true) by (apply Nat.ltb_lt; lia). rewrite Lb. cbn [andb].
        rewrite Ej. rewrite (Hc i Hi). ring.
      * cbn [andb]. rewrite (Hc i Hi). ring.
    + eexists. split; [reflexivity|]. split; [exact Hl|].
      intros i Hi. cbn [rsum]. rewrite Esrc. rewrite (Hc i Hi). ring.
Qed.

(** The flat sum regrouped by kernel and output position. *)
Lemma gathered_flat (src : list R) c y x :
  (c < ch)%nat -> (0 <= y < Z.of_nat h)%Z -> (0 <= x < Z.of_nat w)%Z ->
  rsum NC (fun p => match flat_src p with
                    | Some j => if Nat.eqb j (pixel h w c y x) then src.[p] else 0
                    | None => 0 end) = gathered g ho wo src c y x.
Proof.
  intros Hc Hy Hx. unfold NC, gathered. rewrite !rsum_mult.
  rewrite (rsum_single ch c).
  - apply rsum_ext. intros a Ha. apply rsum_ext. intros b Hb. apply rsum_ext. intros r Hr.
    apply rsum_ext. intros q Hq. fold (lin5 kh kw ho wo c a b r q).
    rewrite flat_src_cell by assumption.
    destruct (inside h w _ _) eqn:Ei.
    + apply inside_spec in Ei as [Ey Ex]. unfold pixel.
      destruct (Nat.eqb_spec ((c * h + Z.to_nat (win_row g a r)) * w + Z.to_nat (win_col g b q))
                             ((c * h + Z.to_nat y) * w + Z.to_nat x)) as [E|E].
      * assert (Z.to_nat (win_row g a r) = Z.to_nat y /\ Z.to_nat (win_col g b q) = Z.to_nat x) as [E1 E2].
        { destruct (divmod_nat (c * h + Z.to_nat (win_row g a r)) w (Z.to_nat (win_col g b q))) as [D1 M1]; [lia|].
          destruct (divmod_nat (c * h + Z.to_nat y) w (Z.to_nat x)) as [D2 M2]; [lia|].
          rewrite E in D1, M1. split; lia. }
        destruct (Z.eqb_spec (win_row g a r) y); [|lia].
        destruct (Z.eqb_spec (win_col g b q) x); [reflexivity|lia].
      * destruct (Z.eqb_spec (win_row g a r) y) as [E1|]; [|reflexivity].
        destruct (Z.eqb_spec (win_col g b q) x) as [E2|]; [|reflexivity].
        exfalso. apply E. rewrite E1, E2. reflexivity.
    + destruct (Z.eqb_spec (win_row g a r) y) as [E1|]; [|reflexivity].
      destruct (Z.eqb_spec (win_col g b q) x) as [E2|]; [|reflexivity].
      exfalso. rewrite E1, E2 in Ei.
      assert (inside h w y x = true) by (apply inside_spec; split; assumption). congruence.
  - exact Hc.
  - intros c' Hc' Hne. apply rsum_zero. intros a Ha. apply rsum_zero. intros b Hb.
    apply rsum_zero. intros r Hr. apply rsum_zero. intros q Hq.
    fold (lin5 kh kw ho wo c' a b r q). rewrite flat_src_cell by assumption.
    destruct (inside h w _ _) eqn:Ei; [|reflexivity].
    apply inside_spec in Ei as [Ey Ex]. unfold pixel.
    destruct (Nat.eqb_spec ((c' * h + Z.to_nat (win_row g a r)) * w + Z.to_nat (win_col g b q))
                           ((c * h + Z.to_nat y) * w + Z.to_nat x)) as [E|E]; [|reflexivity].
    exfalso. apply Hne.
    destruct (divmod_nat (c' * h + Z.to_nat (win_row g a r)) w (Z.to_nat (win_col g b q))) as [D1 _]; [lia|].
    destruct (divmod_nat (c * h + Z.to_nat y) w (Z.to_nat x)) as [D2 _]; [lia|].
    rewrite E, D2 in D1.
    destruct (divmod_nat c' h (Z.to_nat (win_row g a r))) as [D3 _]; [lia|].
    destruct (divmod_nat c h (Z.to_nat y)) as [D4 _]; [lia|].
    rewrite <- D1, D4 in D3. auto.
Qed.

Lemma col2im_spec (src dst : list R) :
  length dst = (ch * h * w)%nat -> (NC <= length src)%nat ->
  exists dst', col2im Rplus g (Z.of_nat ch) (Z.of_nat h) (Z.of_nat w) src dst = Ok dst' /\
    length dst' = length dst /\
    forall c y x, (c < ch)%nat -> (0 <= y < Z.of_nat h)%Z -> (0 <= x < Z.of_nat w)%Z ->
      dst'.[pixel h w c y x] = dst.[pixel h w c y x] + gathered g ho wo src c y x.
Proof.
  intros Hd Hs. destruct (col2im_flat src dst Hd Hs) as (dst' & E & Hl & Hc).
  exists dst'. split; [exact E|]. split; [exact Hl|].
  intros c y x Hcc Hy Hx. rewrite Hc by (apply pixel_lt; assumption).
  rewrite gathered_flat by assumption. reflexivity.
Qed.

(** Adjointness with image slices. *)
Lemma im2col_col2im_adjoint (x y zero buf : list R) :
  length x = (ch * h * w)%nat -> length buf = NC -> length y = NC ->
  length zero = (ch * h * w)%nat -> (forall i, zero.[i] = 0) ->
  exists cx iy,
    im2col g (Z.of_nat ch) (Z.of_nat h) (Z.of_nat w) 0 x buf = Ok cx /\
    col2im Rplus g (Z.of_nat ch) (Z.of_nat h) (Z.of_nat w) y zero = Ok iy /\
    dotp NC (fun i => cx.[i]) (fun i => y.[i]) =
    dotp (ch * h * w) (fun i => x.[i]) (fun i => iy.[i]).
Proof.
  intros Hx Hb Hy Hz H0.
  destruct (col2im_flat y zero Hz) as (iy & Ei & Li & Ci); [lia|].
  eexists. exists iy. split; [apply (im2col_flat g ch h w ho wo Hsz); [exact Hx|lia]|].
  split; [exact Ei|]. unfold dotp.
  transitivity (rsum NC (fun p => match flat_src p with Some i => x.[i] | None => 0 end * y.[p])).
  - apply rsum_ext. intros p Hp. rewrite app_nth1 by (rewrite tab_length; exact Hp).
    rewrite nth_tab by exact Hp. reflexivity.
  - rewrite (rsum_regroup NC (ch * h * w)).
    + apply rsum_ext. intros i Hi. rewrite Ci by exact Hi. rewrite H0. ring.
    + intros p i Hp E. apply (flat_src_lt g ch h w ho wo p i Hp E).
Qed.

End Col2im.
