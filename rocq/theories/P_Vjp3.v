(** Gradients of Softmax, global average pooling, Add and Dropout. *)
From Coq Require Import Reals Lra.
From Verif Require Import Base BaseFacts Sums Deriv M_Im2col S_Im2col M_Kernels M_Conv M_Layers P_Kernels S_Grad P_Vjp1 P_Vjp2.
Open Scope R_scope.

(** * Softmax *)
Definition softmax_val (m : nat) (X : list R) (i j : nat) : R :=
  exp X.[i * m + j] / rsum m (fun k => exp X.[i * m + k]).

Lemma exp_sum_pos m f : (0 < m)%nat -> 0 < rsum m (fun k => exp (f k)).
Proof. intros H. apply rsum_pos; [exact H|]. intros. apply exp_pos. Qed.

Lemma softmax_shift m (f : nat -> R) c j : (0 < m)%nat ->
  exp (f j - c) / rsum m (fun k => exp (f k - c)) = exp (f j) / rsum m (fun k => exp (f k)).
Proof.
  intros Hm. pose proof (exp_sum_pos m f Hm) as Hs. pose proof (exp_pos c) as Hc.
  rewrite (rsum_ext m (fun k => exp (f k - c)) (fun k => exp (f k) / exp c)).
  2:{ intros k _. unfold Rminus, Rdiv. rewrite exp_plus, exp_Ropp. reflexivity. }
  rewrite rsum_div_r. unfold Rminus. rewrite exp_plus, exp_Ropp. field. split; lra.
Qed.

Lemma softmax_forward_Ok n m X r : length X = (n * m)%nat -> length r = (n * m)%nat -> (0 < m)%nat ->
  softmax_forward n m X n m r = Ok (tab (n * m) (fun p => softmax_val m X (p / m) (p mod m))).
Proof.
  intros LX Lr Hm. unfold softmax_forward, softmax_forward_with. rewrite !emap_Ok by lia. rewrite !same_refl. cbn [bind].
  destruct (Nat.eqb_spec m 0); [lia|]. rewrite andb_false_r. rewrite put2_full by exact Lr.
  f_equal. apply tab_ext. intros p Hp. unfold softmax_val, el.
  apply (softmax_shift m (fun k => X.[p / m * m + k])). exact Hm.
Qed.

Lemma softmax_vjp E n m t P I : (0 < m)%nat -> layer_vjp E LSoftmax [[n; m]] [n; m] t P I.
Proof.
  intros Hm. apply vjp_one. intros dP X dX HP _ [HX HdX]. rewrite prodN2 in *.
  assert (HXs : forall s, length (tdat (X s)) = (n * m)%nat).
  { intros s. destruct (HX s) as [S1 S2]. unfold twf in S2. rewrite S2, S1. apply prodN2. }
  set (y := softmax_val m (tdat (X t))).
  set (dv := fun i j => y i j * (dX (i * m + j)%nat - rsum m (fun k => y i k * dX (i * m + k)%nat))).
  exists (fun s p => softmax_val m (tdat (X s)) (p / m) (p mod m)), (fun _ => LSoftmax),
         (fun p => dv (p / m)%nat (p mod m)).
  split; [|split].
  - intros s o So Wo. cbn [with_params lforward]. destruct (HX s) as [S1 S2].
    unfold validate_rank, dw_assert. mred. cbn [length Nat.eqb]. rewrite S1, So. mred. cbn [length Nat.eqb].
    rewrite ?S1, ?So. mred.
    rewrite softmax_forward_Ok; auto; [|unfold twf in Wo; rewrite Wo, So; apply prodN2].
    cbn [bind]. unfold set_dat. rewrite So. reflexivity.
  - intros p Hp. destruct (divmod_lt p n m Hp) as (P1 & P2 & _). unfold dv.
    set (i := (p / m)%nat) in *. set (j := p mod m) in *.
    pose proof (exp_sum_pos m (fun k => (tdat (X t)).[i * m + k]) Hm) as Hs.
    eapply dl_eq.
    + unfold softmax_val. apply dl_div.
      * apply (dl_exp (fun s => (tdat (X s)).[i * m + j])). apply HdX. apply mult_lt; assumption.
      * apply (dl_rsum m (fun s k => exp (tdat (X s)).[i * m + k])). intros k Hk.
        apply (dl_exp (fun s => (tdat (X s)).[i * m + k])). apply HdX. apply mult_lt; assumption.
      * lra.
    + unfold y, softmax_val. unfold Rsqr.
      set (S := rsum m (fun k => exp (tdat (X t)).[i * m + k])) in *.
      rewrite (rsum_ext m (fun k => exp (tdat (X t)).[i * m + k] / S * dX (i * m + k)%nat)
                          (fun k => exp (tdat (X t)).[i * m + k] * dX (i * m + k)%nat / S))
        by (intros; field; lra).
      rewrite rsum_div_r. field. lra.
  - intros E2 go gi So Wo Si Wi _.
    assert (Lgo : length (tdat go) = (n * m)%nat) by (unfold twf in Wo; rewrite Wo, So; apply prodN2).
    assert (Lgi : length (tdat gi) = (n * m)%nat) by (unfold twf in Wi; rewrite Wi, Si; apply prodN2).
    set (c := fun p => y (p / m)%nat (p mod m) * (el (tdat go) m (p / m) (p mod m) -
                 rsum m (fun j => el (tdat go) m (p / m) j * y (p / m)%nat j))).
    exists LSoftmax, LSoftmax, c. split; [reflexivity|]. split; [|split; [reflexivity|]].
    + intros gm k kout Gk Gout Hne. cbn [lbackward]. mred. rewrite (nth_error_rd _ _ _ Gout). mred.
      rewrite So. mred. erewrite on_grad_Ok; [reflexivity|exact Gk|]. mred. rewrite Si. mred.
      unfold softmax_input_grad. rewrite !emap_Ok by (rewrite ?tab_length; lia). rewrite !same_refl. cbn [bind].
      rewrite put2_full by exact Lgi. f_equal. apply tab_ext. intros p Hp.
      destruct (divmod_lt p n m Hp) as (P1 & P2 & P3). unfold el at 1. rewrite <- P3. f_equal.
      assert (Hy : forall i j, (i < n)%nat -> (j < m)%nat ->
         el (tab (n * m) (fun p0 => softmax_val m (tdat (X t)) (p0 / m) (p0 mod m))) m i j = y i j).
      { intros i j Hi Hj. unfold el. rewrite nth_tab by (apply mult_lt; assumption).
        destruct (divmod_nat i m j Hj) as [-> ->]. reflexivity. }
      unfold c. rewrite Hy by assumption. f_equal. f_equal. apply rsum_ext. intros j Hj.
      rewrite Hy by assumption. reflexivity.
    + cbn [dparams lparams length rsum]. rewrite Rplus_0_r. rewrite !rsum_mult.
      apply rsum_ext. intros i Hi.
      set (A := rsum m (fun j => el (tdat go) m i j * y i j)).
      set (B := rsum m (fun k => y i k * dX (i * m + k)%nat)).
      transitivity (rsum m (fun j => el (tdat go) m i j * y i j * dX (i * m + j)%nat) - A * B).
      * unfold A. rewrite <- rsum_scal_r, <- rsum_minus. apply rsum_ext. intros j Hj.
        destruct (divmod_nat i m j Hj) as [-> ->]. unfold dv. fold B. unfold el. ring.
      * unfold B. rewrite <- rsum_scal_l, <- rsum_minus. apply rsum_ext. intros j Hj. unfold c.
        destruct (divmod_nat i m j Hj) as [-> ->]. fold A. ring.
Qed.

(** * Global average pooling *)
Lemma incr_loop n (f : nat -> R) d : (n <= length d)%nat ->
  forr n (fun p d => v <- rd d p ;; wr d p (v + f p)) d =
  Ok (tab n (fun p => d.[p] + f p) ++ skipn n d).
Proof.
  intros Hn.
  destruct (forr_inv (fun k s => length s = length d /\
      (forall p, (p < k)%nat -> s.[p] = d.[p] + f p) /\ (forall p, (k <= p)%nat -> s.[p] = d.[p])) n
      (fun p d => v <- rd d p ;; wr d p (v + f p)) d) as (s' & E & L & H1 & H2).
  - repeat split; auto. intros; lia.
  - intros p s Hp (L & H1 & H2). rewrite (rd_Ok s p 0) by lia. cbn [bind]. rewrite wr_Ok by lia.
    eexists. split; [reflexivity|]. rewrite upd_length. split; [exact L|]. split.
    + intros q Hq. destruct (Nat.eq_dec p q) as [<-|Hne].
      * rewrite nth_upd_eq by lia. rewrite H2 by lia. reflexivity.
      * rewrite nth_upd_neq by exact Hne. apply H1. lia.
    + intros q Hq. rewrite nth_upd_neq by lia. apply H2. lia.
  - rewrite E. f_equal. apply list_ext with (d := 0).
    + rewrite app_length, tab_length, skipn_length. lia.
    + intros i Hi. destruct (Nat.lt_ge_cases i n) as [Hl|Hl].
      * rewrite app_nth1 by (rewrite tab_length; exact Hl). rewrite nth_tab by exact Hl. apply H1. exact Hl.
      * rewrite app_nth2 by (rewrite tab_length; exact Hl). rewrite tab_length, nth_skipn.
        replace (n + (i - n))%nat with i by lia. apply H2. exact Hl.
Qed.

Lemma gap_input_grad_Ok rows plane go gi : length go = rows -> length gi = (rows * plane)%nat ->
  gap_input_grad rows plane go gi = Ok (tab (rows * plane) (fun p => gi.[p] + go.[p / plane] / INR plane)).
Proof.
  intros Lgo Lgi. unfold gap_input_grad.
  transitivity (forr (rows * plane) (fun p d => v <- rd d p ;; wr d p (v + go.[p / plane] / INR plane)) gi).
  - rewrite forr_mult. apply forr_ext. intros i s Hi. apply forr_ext. intros j s' Hj.
    apply bind_ext. intros v. rewrite (rd_Ok go i 0) by lia. cbn [bind].
    destruct (divmod_nat i plane j Hj) as [-> _]. reflexivity.
  - rewrite (incr_loop (rows * plane) (fun p => go.[p / plane] / INR plane)) by lia.
    rewrite skipn_all2 by lia. rewrite app_nil_r. reflexivity.
Qed.

Lemma gap_vjp E n c h w t P I : (0 < h * w)%nat -> layer_vjp E LGap [[n; c; h; w]] [n; c; 1%nat; 1%nat] t P I.
Proof.
  intros Hpl. apply vjp_one. intros dP X dX HP _ [HX HdX].
  set (pl := (h * w)%nat) in *. set (rows := (n * c)%nat).
  assert (E1 : prodN [n; c; 1%nat; 1%nat] = rows) by (unfold prodN, rows; cbn [fold_right]; lia).
  assert (E2 : prodN [n; c; h; w] = (rows * pl)%nat) by (unfold prodN, rows, pl; cbn [fold_right]; lia).
  rewrite E1. rewrite E2 in *.
  assert (HXs : forall s, length (tdat (X s)) = (rows * pl)%nat).
  { intros s. destruct (HX s) as [S1 S2]. unfold twf in S2. rewrite S2, S1. apply E2. }
  exists (fun s i => rsum pl (fun j => el (tdat (X s)) pl i j) / INR pl), (fun _ => LGap),
         (fun i => rsum pl (fun j => dX (i * pl + j)%nat) / INR pl).
  split; [|split].
  - intros s o So Wo. cbn [with_params lforward]. destruct (HX s) as [S1 S2].
    mred. rewrite S1. mred. unfold gap_forward. fold rows pl.
    assert (Lo : length (tdat o) = rows) by (unfold twf in Wo; rewrite Wo, So; exact E1).
    rewrite emap_Ok by (rewrite HXs; lia). rewrite Lo, same_refl. cbn [bind].
    destruct (Nat.eqb_spec pl 0); [lia|]. rewrite andb_false_r. cbn [bind].
    rewrite put_full by exact Lo. unfold set_dat. rewrite So. reflexivity.
  - intros i Hi. unfold Rdiv.
    eapply dl_eq; [apply dl_mult; [|apply dl_const]|].
    + apply (dl_rsum pl (fun s j => el (tdat (X s)) pl i j)). intros j Hj. apply HdX. apply mult_lt; assumption.
    + cbn beta. ring.
  - intros E' go gi So Wo Si Wi _.
    assert (Lgo : length (tdat go) = rows) by (unfold twf in Wo; rewrite Wo, So; exact E1).
    assert (Lgi : length (tdat gi) = (rows * pl)%nat) by (unfold twf in Wi; rewrite Wi, Si; exact E2).
    exists LGap, LGap, (fun p => (tdat go).[p / pl] / INR pl).
    split; [reflexivity|]. split; [|split; [reflexivity|]].
    + intros gm k kout Gk Gout Hne. cbn [lbackward]. mred. rewrite (nth_error_rd _ _ _ Gout). mred.
      erewrite on_grad_Ok; [reflexivity|exact Gk|]. mred. rewrite Si. mred. fold rows pl.
      apply gap_input_grad_Ok; assumption.
    + cbn [dparams lparams length rsum]. rewrite Rplus_0_r. rewrite rsum_mult.
      apply rsum_ext. intros i Hi. unfold Rdiv. rewrite <- rsum_scal_r, <- rsum_scal_l.
      apply rsum_ext. intros j Hj. destruct (divmod_nat i pl j Hj) as [-> _]. ring.
Qed.

(** * Dropout *)
Definition dropped (u : R) (p x : R) : R := if geb u p then x else 0.

Lemma geb_true x y : y <= x -> geb x y = true.
Proof. intros H. unfold geb. destruct (Rle_dec y x); [reflexivity|contradiction]. Qed.
Lemma geb_false x y : x < y -> geb x y = false.
Proof. intros H. unfold geb. destruct (Rle_dec y x); [lra|reflexivity]. Qed.

Lemma dropout_forward_Ok u x md od p : length x = length md -> length x = length od ->
  dropout_forward u x md od p =
  Ok (tab (length md) u, tab (length x) (fun i => dropped (u i) p x.[i] / (1 - p))).
Proof.
  intros H1 H2. unfold dropout_forward. rewrite !same_Ok by assumption. cbn [bind].
  rewrite put_full by reflexivity. rewrite H2. f_equal. f_equal. apply tab_ext. intros i Hi.
  rewrite nth_tab by lia. reflexivity.
Qed.

(** With p = 0 and draws in [0, 1) Dropout is the identity and its gradient is right. *)
Lemma dropout_vjp_p0 E mask sh t P I :
  prm_ok sh mask -> p_train mask = true -> (forall i, (i < prodN sh)%nat -> 0 <= e_rnd E i) ->
  layer_vjp E (LDropout 0 mask) [sh] sh t P I.
Proof.
  intros (M1 & M2 & _) Ht Hu. apply vjp_one. intros dP X dX HP _ [HX HdX].
  assert (HXs : forall s, length (tdat (X s)) = prodN sh).
  { intros s. destruct (HX s) as [S1 S2]. unfold twf in S2. rewrite S2, S1. reflexivity. }
  assert (Lm : length (tdat (p_data mask)) = prodN sh) by (unfold twf in M2; rewrite M2, M1; reflexivity).
  set (mk := mkP (set_dat (p_data mask) (tab (prodN sh) (e_rnd E))) (p_grad mask) true).
  exists (fun s i => (tdat (X s)).[i]), (fun _ => LDropout 0 mk), dX. split; [|split].
  - intros s o So Wo. cbn [with_params lforward]. destruct (HX s) as [S1 S2].
    assert (Lo : length (tdat o) = prodN sh) by (unfold twf in Wo; rewrite Wo, So; reflexivity).
    rewrite validate_same_Ok by congruence. mred. rewrite Ht.
    rewrite dropout_forward_Ok by (rewrite HXs; congruence). mred. rewrite Lm, HXs.
    unfold set_dat. rewrite So. f_equal. f_equal. f_equal. apply tab_ext. intros i Hi. unfold dropped.
    rewrite geb_true by (apply Hu; exact Hi). field.
  - exact HdX.
  - intros E' go gi So Wo Si Wi _.
    assert (Lgo : length (tdat go) = prodN sh) by (unfold twf in Wo; rewrite Wo, So; reflexivity).
    assert (Lgi : length (tdat gi) = prodN sh) by (unfold twf in Wi; rewrite Wi, Si; reflexivity).
    exists (LDropout 0 mk), (LDropout 0 mk), (fun i => (tdat go).[i]).
    split; [reflexivity|]. split; [|split; [reflexivity|]].
    + intros gm k kout Gk Gout Hne. cbn [lbackward]. mred. rewrite (nth_error_rd _ _ _ Gout). mred.
      erewrite on_grad_Ok; [reflexivity|exact Gk|]. unfold mk. mred. unfold dropout_input_grad.
      rewrite !same_Ok by (rewrite tab_length; congruence). cbn [bind]. rewrite put_full by reflexivity.
      rewrite Lgi. f_equal. apply tab_ext. intros i Hi. rewrite nth_tab by exact Hi.
      rewrite geb_true by (apply Hu; exact Hi). reflexivity.
    + cbn [dparams lparams length rsum]. ring.
Qed.

(** * Add *)
Lemma ready2 L sh1 sh2 osh gm gins kout go : grads_ready L [sh1; sh2] osh gm gins kout go ->
  exists k0 k1 g0 g1, gins = [k0; k1] /\ nth_error gm k0 = Some g0 /\ nth_error gm k1 = Some g1 /\
    tsh g0 = sh1 /\ twf g0 /\ tsh g1 = sh2 /\ twf g1 /\ k0 <> kout /\ k1 <> kout /\
    nth_error gm kout = Some go /\ tsh go = osh /\ twf go.
Proof.
  intros (H1 & H2 & H3 & H4 & H5 & H6). destruct (len2 gins H4) as (k0 & k1 & ->).
  destruct (H6 O) as (g0 & G1 & G2 & G3 & _); [cbn; lia|].
  destruct (H6 1%nat) as (g1 & G4 & G5 & G6 & _); [cbn; lia|]. cbn in *.
  exists k0, k1, g0, g1. repeat split; auto; intros ->; apply H5; auto.
Qed.

Lemma grad_incr_Ok gm k i v g : nth_error gm k = Some g -> (i < tot g)%nat ->
  grad_incr gm k i v = Ok (upd gm k (set_dat g (upd (tdat g) i ((tdat g).[i] + v)))).
Proof.
  intros Hk Hi. unfold grad_incr. rewrite (nth_error_rd _ _ _ Hk). cbn [bind].
  rewrite (rd_Ok (tdat g) i 0) by exact Hi. cbn [bind]. rewrite wr_Ok by exact Hi. reflexivity.
Qed.

(** State of the gradient memory when the first [n] elements have been processed. *)
Definition accum_upto (n : nat) (gm : list ten) (ids : list nat) (c : nat -> nat -> R) (gm' : list ten) : Prop :=
  length gm' = length gm /\
  forall k g, nth_error gm k = Some g ->
    exists g', nth_error gm' k = Some g' /\ tsh g' = tsh g /\ tot g' = tot g /\
      (forall i, (i < n)%nat -> (i < tot g)%nat ->
        (tdat g').[i] = (tdat g).[i] + rsum (length ids) (fun p => if (nth p ids O =? k)%nat then c p i else 0)) /\
      (forall i, (n <= i)%nat -> (tdat g').[i] = (tdat g).[i]).

Lemma add_backward_Ok gm k0 k1 kout go g0 g1 :
  nth_error gm k0 = Some g0 -> nth_error gm k1 = Some g1 -> nth_error gm kout = Some go ->
  k0 <> kout -> k1 <> kout -> tot g0 = tot go -> tot g1 = tot go ->
  exists gm', forr (tot go) (fun i gm =>
               go <- rd gm kout ;; v <- rd (tdat go) i ;;
               gm1 <- grad_incr gm k0 i v ;;
               go1 <- rd gm1 kout ;; v1 <- rd (tdat go1) i ;;
               grad_incr gm1 k1 i v1) gm = Ok gm' /\ accum gm [k0; k1] (fun _ i => (tdat go).[i]) gm'.
Proof.
  intros H0 H1 Hout N0 N1 T0 T1.
  destruct (forr_inv (fun n gm' => accum_upto n gm [k0; k1] (fun _ i => (tdat go).[i]) gm') (tot go)
    (fun i gm => go <- rd gm kout ;; v <- rd (tdat go) i ;;
               gm1 <- grad_incr gm k0 i v ;;
               go1 <- rd gm1 kout ;; v1 <- rd (tdat go1) i ;;
               grad_incr gm1 k1 i v1) gm) as (gm' & Egm & [L H]).
  - split; [reflexivity|]. intros k g Hk. exists g. repeat split; auto. intros; lia.
  - intros i s Hi [L H].
    destruct (H kout go Hout) as (go' & G1 & G2 & G3 & G4 & G5).
    rewrite (nth_error_rd _ _ _ G1). cbn [bind].
    rewrite (rd_Ok (tdat go') i 0) by (unfold tot in *; lia). cbn [bind].
    assert (Hg : (tdat go').[i] = (tdat go).[i]) by (apply G5; lia). rewrite Hg.
    destruct (H k0 g0 H0) as (a & A1 & A2 & A3 & A4 & A5).
    rewrite (grad_incr_Ok s k0 i _ a A1) by lia. cbn [bind].
    set (s1 := upd s k0 _).
    assert (G1' : nth_error s1 kout = Some go') by (unfold s1; rewrite nth_error_upd_neq by exact N0; exact G1).
    rewrite (nth_error_rd _ _ _ G1'). cbn [bind].
    rewrite (rd_Ok (tdat go') i 0) by (unfold tot in *; lia). cbn [bind]. rewrite Hg.
    assert (Ls : (k0 < length s)%nat) by (apply nth_error_Some; congruence).
    assert (B : exists b, nth_error s1 k1 = Some b /\ tot b = tot go).
    { unfold s1. rewrite nth_error_upd. destruct (Nat.eqb_spec k0 k1) as [Ek|Nk].
      - destruct (Nat.ltb_spec k0 (length s)); [|lia]. cbn. eexists. split; [reflexivity|].
        unfold tot. cbn. rewrite upd_length. unfold tot in *. lia.
      - cbn. destruct (H k1 g1 H1) as (b & B1 & B2 & B3 & _). exists b. split; [exact B1|lia]. }
    destruct B as (b & B1 & B2). rewrite (grad_incr_Ok s1 k1 i _ b B1) by lia.
    eexists. split; [reflexivity|]. split; [unfold s1; rewrite !upd_length; exact L|].
    intros k g Hk. destruct (H k g Hk) as (c & C1 & C2 & C3 & C4 & C5).
    assert (L1 : (k1 < length s1)%nat) by (apply nth_error_Some; congruence).
    destruct (Nat.eq_dec k1 k) as [->|Nk1].
    + rewrite nth_error_upd_eq by exact L1. eexists. split; [reflexivity|].
      destruct (Nat.eq_dec k0 k) as [->|Nk0].
      * (* both ports are the same tensor *)
        assert (a = c) by congruence. subst c.
        assert (b = set_dat a (upd (tdat a) i ((tdat a).[i] + (tdat go).[i]))).
        { unfold s1 in B1. rewrite nth_error_upd_eq in B1 by exact Ls. congruence. } subst b.
        cbn [set_dat tsh tdat]. split; [exact C2|]. split; [unfold tot in *; cbn; rewrite !upd_length; exact C3|]. split.
        -- intros q Hq Tq. cbn [length rsum nth]. rewrite Nat.eqb_refl. destruct (Nat.eq_dec i q) as [<-|Nq].
           ++ rewrite nth_upd_eq by (rewrite upd_length; unfold tot in *; lia).
              rewrite nth_upd_eq by (unfold tot in *; lia). rewrite C5 by lia. ring.
           ++ rewrite !nth_upd_neq by exact Nq. rewrite C4 by lia. cbn [length rsum nth]. rewrite Nat.eqb_refl. ring.
        -- intros q Hq. rewrite !nth_upd_neq by lia. apply C5. lia.
      * assert (b = c).
        { unfold s1 in B1. rewrite nth_error_upd_neq in B1 by exact Nk0. congruence. } subst b.
        cbn [set_dat tsh tdat]. split; [exact C2|]. split; [unfold tot in *; cbn; rewrite !upd_length; exact C3|]. split.
        -- intros q Hq Tq. cbn [length rsum nth]. rewrite Nat.eqb_refl. destruct (Nat.eqb_spec k0 k); [contradiction|].
           destruct (Nat.eq_dec i q) as [<-|Nq].
           ++ rewrite nth_upd_eq by (unfold tot in *; lia). rewrite C5 by lia. ring.
           ++ rewrite nth_upd_neq by exact Nq. rewrite C4 by lia. cbn [length rsum nth]. rewrite Nat.eqb_refl.
              destruct (Nat.eqb_spec k0 k); [contradiction|]. ring.
        -- intros q Hq. rewrite nth_upd_neq by lia. apply C5. lia.
    + rewrite nth_error_upd_neq by exact Nk1. unfold s1.
      destruct (Nat.eq_dec k0 k) as [->|Nk0].
      * rewrite nth_error_upd_eq by exact Ls. eexists. split; [reflexivity|]. assert (a = c) by congruence. subst c.
        cbn [set_dat tsh tdat]. split; [exact C2|]. split; [unfold tot in *; cbn; rewrite !upd_length; exact C3|]. split.
        -- intros q Hq Tq. cbn [length rsum nth]. rewrite Nat.eqb_refl. destruct (Nat.eqb_spec k1 k); [contradiction|].
           destruct (Nat.eq_dec i q) as [<-|Nq].
           ++ rewrite nth_upd_eq by (unfold tot in *; lia). rewrite C5 by lia. ring.
           ++ rewrite nth_upd_neq by exact Nq. rewrite C4 by lia. cbn [length rsum nth]. rewrite Nat.eqb_refl.
              destruct (Nat.eqb_spec k1 k); [contradiction|]. ring.
        -- intros q Hq. rewrite nth_upd_neq by lia. apply C5. lia.
      * rewrite nth_error_upd_neq by exact Nk0. exists c. split; [exact C1|]. split; [exact C2|]. split; [exact C3|].
        assert (Z : forall q, rsum (length [k0; k1]) (fun p => if (nth p [k0; k1] O =? k)%nat then (tdat go).[q] else 0) = 0).
        { intros q. cbn [length rsum nth]. destruct (Nat.eqb_spec k0 k); [contradiction|].
          destruct (Nat.eqb_spec k1 k); [contradiction|]. ring. }
        split.
        -- intros q Hq Tq. rewrite Z. destruct (Nat.eq_dec i q) as [<-|Nq]; [rewrite C5 by lia; ring|].
           rewrite C4 by lia. rewrite Z. reflexivity.
        -- intros q Hq. apply C5. lia.
  - exists gm'. split; [exact Egm|]. split; [exact L|]. intros k g Hk.
    destruct (H k g Hk) as (g' & C1 & C2 & C3 & C4 & C5). exists g'. repeat split; auto.
    intros i Hi. destruct (Nat.lt_ge_cases i (tot go)) as [Hl|Hl]; [apply C4; assumption|].
    rewrite C5 by exact Hl. cbn [length rsum nth].
    rewrite (nth_overflow (tdat go)) by exact Hl.
    destruct (k0 =? k)%nat, (k1 =? k)%nat; ring.
Qed.

Lemma add_vjp E sh t P I : layer_vjp E LAdd [sh; sh] sh t P I.
Proof.
  intros dP dI HP HI. destruct (icurve2 _ _ _ _ _ HI) as (X & Y & EX & [HX HdX] & [HY HdY]).
  exists (fun s => mkT sh (tab (prodN sh) (fun i => (tdat (X s)).[i] + (tdat (Y s)).[i]))), (fun _ => LAdd),
         (fun i => dI O i + dI 1%nat i).
  split; [|split; [split|]].
  - intros s o Ho Wo. rewrite EX. cbn [with_params lforward at_ nth_error bind].
    destruct (HX s) as [SX WX]. destruct (HY s) as [SY WY]. unfold twf in *. unfold add_forward.
    rewrite !same_Ok by congruence. cbn [bind]. rewrite put_full by reflexivity. unfold set_dat. rewrite Ho, Wo, Ho. reflexivity.
  - intros s. split; [reflexivity|]. unfold twf. cbn. apply tab_length.
  - intros i Hi. apply dl_ext with (f := fun s => (tdat (X s)).[i] + (tdat (Y s)).[i]).
    + intros s. cbn [tdat]. rewrite nth_tab by exact Hi. reflexivity.
    + apply dl_plus; auto.
  - intros E2 gm gins kout go HR.
    destruct (ready2 _ _ _ _ _ _ _ _ HR) as (k0 & k1 & g0 & g1 & -> & G0 & G1 & S0 & W0 & S1 & W1 & N0 & N1 & Gout & So & Wo).
    unfold twf in *.
    destruct (add_backward_Ok gm k0 k1 kout go g0 g1) as (gm' & B1 & B2); auto; try (unfold tot; congruence).
    exists LAdd, LAdd, gm', (fun _ i => (tdat go).[i]).
    split; [reflexivity|]. split; [|split; [exact B2|split; [reflexivity|]]].
    + cbn [lbackward]. unfold at_. cbn [nth_error bind]. rewrite (nth_error_rd _ _ _ Gout). cbn [bind].
      rewrite B1. reflexivity.
    + cbn [dparams lparams length rsum nth]. rewrite Rplus_0_r, Rplus_0_l, <- rsum_plus.
      apply rsum_ext. intros i Hi. ring.
Qed.
