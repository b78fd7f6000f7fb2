(** Forward formulas and gradients of the layers without spatial windows. *)
From Coq Require Import Reals Lra.
From Verif Require Import Base BaseFacts Sums Deriv M_Im2col S_Im2col M_Kernels M_Conv M_Layers P_Kernels S_Grad S_Partial P_Partial P_Vjp1 P_Vjp2 P_Vjp3 P_BN P_BN2.
Open Scope R_scope.

(** ** Global average pooling *)
Lemma gap_gradients E n c h w x : (0 < h * w)%nat -> ten_ok [n; c; h; w] x ->
  correct_gradients E LGap [x] [n; c; 1%nat; 1%nat].
Proof.
  intros H [Sx Wx]. apply vjp_partials; [intros y [<-|[]]; exact Wx|]. intros P I _ _. cbn [map]. rewrite Sx. apply gap_vjp. exact H.
Qed.

Lemma gap_spec E n c h w x o : (0 < h * w)%nat -> ten_ok [n; c; h; w] x -> ten_ok [n; c; 1%nat; 1%nat] o ->
  exists o', lforward E LGap [x] [o] = Ok (LGap, o') /\ ten_ok [n; c; 1%nat; 1%nat] o' /\
    (forall i k, (i < n)%nat -> (k < c)%nat ->
       (tdat o').[i * c + k] =
       rsum h (fun y => rsum w (fun z => (tdat x).[((i * c + k) * h + y) * w + z])) / INR (h * w)) /\
    forall go gi gm kg ko, ten_ok [n; c; 1%nat; 1%nat] go -> ten_ok [n; c; h; w] gi ->
      nth_error gm kg = Some gi -> nth_error gm ko = Some go ->
      exists gi', lbackward E LGap [x] [o'] gm [kg] [ko] = Ok (LGap, upd gm kg gi') /\ ten_ok [n; c; h; w] gi' /\
        (forall i k y z, (i < n)%nat -> (k < c)%nat -> (y < h)%nat -> (z < w)%nat ->
           (tdat gi').[((i * c + k) * h + y) * w + z] =
           (tdat gi).[((i * c + k) * h + y) * w + z] + (tdat go).[i * c + k] / INR (h * w)) /\
        rsum (n * c * (h * w)) (fun p => (tdat gi').[p] - (tdat gi).[p]) = rsum (n * c) (fun p => (tdat go).[p]).
Proof.
  intros Hp Hx Ho. pose proof (ten_ok_len _ _ Hx) as Lx. pose proof (ten_ok_len _ _ Ho) as Lo.
  assert (E1 : prodN [n; c; 1%nat; 1%nat] = (n * c)%nat) by (unfold prodN; cbn [fold_right]; lia).
  assert (E2 : prodN [n; c; h; w] = (n * c * (h * w))%nat) by (unfold prodN; cbn [fold_right]; lia).
  rewrite E1 in Lo. rewrite E2 in Lx. destruct Hx as [Sx _]. destruct Ho as [So _].
  eexists. split; [|split; [|split]].
  - cbn [lforward]. mred. rewrite Sx. mred. unfold gap_forward. rewrite emap_Ok by lia. rewrite Lo, same_refl. cbn [bind].
    destruct (Nat.eqb_spec (h * w) 0); [lia|]. rewrite andb_false_r. cbn [bind]. rewrite put_full by exact Lo.
    unfold set_dat. rewrite So. reflexivity.
  - split; [reflexivity|]. unfold twf. cbn [tdat tsh]. rewrite tab_length. symmetry. exact E1.
  - intros i k Hi Hk. cbn [tdat]. rewrite nth_tab by (apply mult_lt; assumption). f_equal.
    rewrite rsum_mult. apply rsum_ext. intros y Hy. apply rsum_ext. intros z Hz. unfold el. f_equal. ring.
  - intros go gi gm kg ko Hgo Hgi Gk Gout.
    pose proof (ten_ok_len _ _ Hgo) as Lgo. pose proof (ten_ok_len _ _ Hgi) as Lgi. rewrite E1 in Lgo. rewrite E2 in Lgi.
    destruct Hgi as [Si _]. eexists. split; [|split; [|split]].
    + cbn [lbackward]. mred. rewrite (nth_error_rd _ _ _ Gout). mred.
      erewrite on_grad_Ok; [reflexivity|exact Gk|]. mred. rewrite Si. mred. apply gap_input_grad_Ok; assumption.
    + split; [exact Si|]. unfold twf. cbn [tdat tsh set_dat]. rewrite tab_length, Si. symmetry. exact E2.
    + intros i k y z Hi Hk Hy Hz. cbn [tdat set_dat].
      replace (((i * c + k) * h + y) * w + z)%nat with ((i * c + k) * (h * w) + (y * w + z))%nat by ring.
      assert (Hq : (y * w + z < h * w)%nat) by (apply mult_lt; assumption).
      rewrite nth_tab by (apply mult_lt; [apply mult_lt; assumption|exact Hq]).
      destruct (divmod_nat (i * c + k) (h * w) _ Hq) as [-> _]. reflexivity.
    + cbn [tdat set_dat]. rewrite rsum_mult. apply rsum_ext. intros i Hi.
      transitivity (rsum (h * w) (fun _ => (tdat go).[i] / INR (h * w))).
      * apply rsum_ext. intros j Hj. rewrite nth_tab by (apply mult_lt; assumption).
        destruct (divmod_nat i (h * w) j Hj) as [-> _]. ring.
      * rewrite rsum_const. field. apply not_0_INR. lia.
Qed.

(** ** Linear *)
Lemma linear_gradients E W b n u rest x : rest <> [] -> prm_ok [u; prodN rest] W -> prm_ok [u] b ->
  ten_ok (n :: rest) x -> correct_gradients E (LLinear W b) [x] [n; u].
Proof.
  intros Hr HW Hb [Sx Wx]. apply vjp_partials; [intros y [<-|[]]; exact Wx|]. intros P I _ _. cbn [map]. rewrite Sx.
  apply linear_vjp; assumption.
Qed.

Lemma linear_spec E W b n u rest x o : rest <> [] -> prm_ok [u; prodN rest] W -> prm_ok [u] b ->
  ten_ok (n :: rest) x -> ten_ok [n; u] o ->
  exists o', lforward E (LLinear W b) [x] [o] = Ok (LLinear W b, o') /\ ten_ok [n; u] o' /\
    forall i j, (i < n)%nat -> (j < u)%nat ->
      (tdat o').[i * u + j] =
      (tdat (p_data b)).[j] +
      rsum (prodN rest) (fun k => (tdat x).[i * prodN rest + k] * (tdat (p_data W)).[j * prodN rest + k]).
Proof.
  intros Hr HW Hb [Sx Wx] [So Wo]. destruct (prm_ok_len _ _ HW) as [LW _]. destruct (prm_ok_len _ _ Hb) as [Lb _].
  rewrite prodN2 in LW. rewrite prodN1 in Lb.
  eexists. split; [|split].
  - cbn [lforward]. rewrite (validate_linear_Ok n u rest W Hr HW x o) by assumption. unfold front. cbn [rd nth_error bind].
    pose proof (linear_fwd_Ok n u rest W b) as F. specialize (F HW Hb (tdat (p_data W)) (tdat (p_data b)) x o LW Lb Sx Wx So Wo).
    rewrite !with_data_id in F. rewrite F. reflexivity.
  - split; [reflexivity|]. unfold twf. cbn [tdat tsh]. rewrite tab_length, prodN2. reflexivity.
  - intros i j Hi Hj. cbn [tdat]. rewrite nth_tab by (apply mult_lt; assumption).
    destruct (divmod_nat i u j Hj) as [-> ->]. unfold lin_val. ring.
Qed.

(** ** Activations *)
Lemma act_spec E L op x o : (forall ins outs, lforward E L ins outs = act_forward op L ins outs) ->
  twf x -> ten_ok (tsh x) o ->
  exists o', lforward E L [x] [o] = Ok (L, o') /\ ten_ok (tsh x) o' /\
    forall i, (i < tot x)%nat -> (tdat o').[i] = op (tdat x).[i].
Proof.
  intros Hf Wx [So Wo]. rewrite Hf. rewrite act_forward_Ok; [|auto|exact Wx|exact Wo].
  eexists. split; [reflexivity|]. split; [split; [reflexivity|]; unfold twf; cbn; apply tab_length|].
  intros i Hi. cbn [tdat]. rewrite nth_tab; [reflexivity|]. unfold tot in Hi. unfold twf in Wx. lia.
Qed.

Lemma relu_Rmax x : relu x = Rmax 0 x.
Proof.
  unfold relu, ltb. destruct (Rlt_dec 0 x); unfold Rmax; destruct (Rle_dec 0 x); try lra.
Qed.

(** A function that is the identity on the right of 0 can only have derivative 1 at 0. *)
Lemma right_derivative f l : f 0 = 0 -> (forall h, 0 < h -> f h = h) -> derivable_pt_lim f 0 l -> l = 1.
Proof.
  intros F0 Fr Hd. destruct (Req_dec l 1) as [E|Hne]; [exact E|exfalso].
  assert (Hp : 0 < Rabs (1 - l)) by (apply Rabs_pos_lt; lra).
  destruct (Hd _ Hp) as [d H]. pose proof (cond_pos d) as Dp.
  specialize (H (d / 2)). rewrite Rplus_0_l, F0, Fr in H by lra.
  replace ((d / 2 - 0) / (d / 2)) with 1 in H by (field; lra).
  assert (Rabs (1 - l) < Rabs (1 - l)); [|lra]. apply H; [lra|]. rewrite Rabs_right; lra.
Qed.

Lemma left_derivative f l : f 0 = 0 -> (forall h, h < 0 -> f h = 0) -> derivable_pt_lim f 0 l -> l = 0.
Proof.
  intros F0 Fr Hd. destruct (Req_dec l 0) as [E|Hne]; [exact E|exfalso].
  assert (Hp : 0 < Rabs (0 - l)) by (apply Rabs_pos_lt; lra).
  destruct (Hd _ Hp) as [d H]. pose proof (cond_pos d) as Dp.
  specialize (H (- (d / 2))). rewrite Rplus_0_l, F0, Fr in H by lra.
  replace ((0 - 0) / - (d / 2)) with 0 in H by (field; lra).
  assert (Rabs (0 - l) < Rabs (0 - l)); [|lra]. apply H; [lra|]. rewrite Rabs_left; lra.
Qed.

Lemma relu_any x l g : derivable_pt_lim relu x l -> relu_grad x g = g * l.
Proof.
  intros Hd. destruct (Req_dec x 0) as [->|Hne].
  - exfalso. assert (R0 : relu 0 = 0) by (unfold relu; rewrite ltb_false; lra).
    assert (l = 1) by (apply (right_derivative relu); auto; intros h Hh; unfold relu; rewrite ltb_true; lra).
    assert (l = 0) by (apply (left_derivative relu); auto; intros h Hh; unfold relu; rewrite ltb_false; lra).
    lra.
  - destruct (relu_derive x Hne) as (l' & D & G). rewrite G. f_equal. exact (dl_unique _ _ _ _ D Hd).
Qed.

Lemma leaky_any a x l g : derivable_pt_lim (leaky a) x l -> leaky_grad a x g = g * l.
Proof.
  intros Hd. destruct (Req_dec x 0) as [->|Hne].
  - assert (l = 1).
    { apply (right_derivative (leaky a)); auto; [unfold leaky; rewrite ltb_false; lra|].
      intros h Hh. unfold leaky. rewrite ltb_false; lra. }
    subst l. unfold leaky_grad. rewrite ltb_false; lra.
  - destruct (leaky_derive a x Hne) as (l' & D & G). rewrite G. f_equal. exact (dl_unique _ _ _ _ D Hd).
Qed.

Lemma elu_any a x l g : derivable_pt_lim (elu a) x l -> elu_grad a x g = g * l.
Proof.
  intros Hd. destruct (Req_dec x 0) as [->|Hne].
  - assert (l = 1).
    { apply (right_derivative (elu a)); auto; [unfold elu; rewrite ltb_false; lra|].
      intros h Hh. unfold elu. rewrite ltb_false; lra. }
    subst l. unfold elu_grad. rewrite ltb_false; lra.
  - destruct (elu_derive a x Hne) as (l' & D & G). rewrite G. f_equal. exact (dl_unique _ _ _ _ D Hd).
Qed.

Lemma sigmoid_any x l g : derivable_pt_lim sigmoid x l -> sigmoid_grad (sigmoid x) g = g * l.
Proof.
  intros Hd. destruct (sigmoid_derive x) as (l' & D & G). rewrite G. f_equal. exact (dl_unique _ _ _ _ D Hd).
Qed.

Lemma act_back E L (op : R -> R) (gop : R -> R -> R) (from_output : bool) x o gm kg ko gi go :
  (forall x o gm gins gouts, lbackward E L [x] [o] gm gins gouts =
     (k <- front gouts ;; go <- rd gm k ;;
      gm' <- act_backward gop (if from_output then o else x) go gm gins ;; Ok (L, gm'))) ->
  (forall v l g, derivable_pt_lim op v l -> gop (if from_output then op v else v) g = g * l) ->
  twf x -> ten_ok (tsh x) o -> (forall i, (i < tot x)%nat -> (tdat o).[i] = op (tdat x).[i]) ->
  ten_ok (tsh x) gi -> ten_ok (tsh x) go -> nth_error gm kg = Some gi -> nth_error gm ko = Some go ->
  exists gi', lbackward E L [x] [o] gm [kg] [ko] = Ok (L, upd gm kg gi') /\ ten_ok (tsh x) gi' /\
    forall i l, (i < tot x)%nat -> derivable_pt_lim op (tdat x).[i] l ->
      (tdat gi').[i] = (tdat gi).[i] + (tdat go).[i] * l.
Proof.
  intros Hb Hg Wx Ho Hov Hgi Hgo Gk Gout. rewrite Hb. unfold front. cbn [rd nth_error bind].
  rewrite (nth_error_rd _ _ _ Gout). cbn [bind]. unfold act_backward.
  pose proof (ten_ok_len _ _ Ho) as Lo. pose proof (ten_ok_len _ _ Hgi) as Lgi. pose proof (ten_ok_len _ _ Hgo) as Lgo.
  unfold twf in Wx. unfold tot in *.
  set (a := if from_output then o else x).
  assert (La : length (tdat a) = prodN (tsh x)) by (unfold a; destruct from_output; congruence).
  erewrite on_grad_Ok; [|exact Gk|]; cycle 1.
  { rewrite La, Lgi, Lgo. apply elementwise_grad_Ok; assumption. }
  cbn [bind]. eexists. split; [reflexivity|]. destruct Hgi as [Si _]. split.
  { split; [exact Si|]. unfold twf. cbn [tdat tsh set_dat]. rewrite tab_length, Si. reflexivity. }
  intros i l Hi Hd. cbn [tdat set_dat]. rewrite nth_tab by lia. f_equal.
  rewrite <- (Hg _ _ _ Hd). f_equal. unfold a. destruct from_output; [apply Hov; exact Hi|reflexivity].
Qed.

(** ** Softmax *)
Lemma rmax_ge n f k : (k < n)%nat -> f k <= rmax n f.
Proof.
  intros Hk. induction n as [|n IH]; [lia|]. cbn [rmax]. destruct (Nat.eq_dec k n) as [->|]; [apply Rmax_r|].
  apply Rle_trans with (rmax n f); [apply IH; lia|apply Rmax_l].
Qed.

Lemma softmax_only_nonpositive ex ex' nX mX X nR mR r : (forall z, z <= 0 -> ex z = ex' z) ->
  softmax_forward_with ex nX mX X nR mR r = softmax_forward_with ex' nX mX X nR mR r.
Proof.
  intros H. unfold softmax_forward_with.
  destruct (emap (nX * mX) X); try reflexivity. cbn [bind]. destruct (emap (nR * mR) r); try reflexivity. cbn [bind].
  unfold same. destruct (nX =? nR)%nat; try reflexivity. cbn [bind].
  destruct (mX =? mR)%nat eqn:EmR; try reflexivity. cbn [bind].
  destruct ((0 <? nX) && (mX =? 0))%nat; [reflexivity|]. f_equal. unfold put2, put. f_equal.
  apply Nat.eqb_eq in EmR. subst mR.
  apply tab_ext. intros p Hp. destruct (divmod_lt _ _ _ Hp) as (P1 & P2 & _).
  assert (Hz : forall i j, (j < mX)%nat -> el X mX i j - rmax mX (fun k => el X mX i k) <= 0).
  { intros i j Hj. pose proof (rmax_ge mX (fun k => el X mX i k) j Hj). cbn beta in *. lra. }
  rewrite (H _ (Hz _ _ P2)). f_equal. apply rsum_ext. intros k Hk. apply H. apply Hz. exact Hk.
Qed.

(** The divisor is at least 1. *)
Lemma softmax_denominator m (f : nat -> R) : (0 < m)%nat -> 1 <= rsum m (fun k => exp (f k - rmax m f)).
Proof.
  intros Hm.
  assert (Ha : exists k, (k < m)%nat /\ f k = rmax m f).
  { clear -Hm. induction m as [|m IH]; [lia|]. destruct (Nat.eq_dec m 0) as [->|].
    - exists 0%nat. split; [lia|]. cbn. unfold Rmax. destruct (Rle_dec (f 0%nat) (f 0%nat)); reflexivity.
    - destruct IH as (k & Hk & Ek); [lia|]. cbn [rmax]. unfold Rmax. destruct (Rle_dec (rmax m f) (f m)).
      + exists m. auto.
      + exists k. auto. }
  destruct Ha as (k & Hk & Ek).
  apply Rle_trans with (exp (f k - rmax m f)).
  - rewrite Ek. replace (rmax m f - rmax m f) with 0 by ring. rewrite exp_0. lra.
  - apply (rsum_term_le m (fun k => exp (f k - rmax m f)) k); [exact Hk|intros; left; apply exp_pos].
Qed.

Lemma softmax_spec E n m x o : (0 < m)%nat -> ten_ok [n; m] x -> ten_ok [n; m] o ->
  exists o', lforward E LSoftmax [x] [o] = Ok (LSoftmax, o') /\ ten_ok [n; m] o' /\
    forall i j, (i < n)%nat -> (j < m)%nat -> (tdat o').[i * m + j] = softmax_val m (tdat x) i j.
Proof.
  intros Hm Hx Ho. pose proof (ten_ok_len _ _ Hx) as Lx. pose proof (ten_ok_len _ _ Ho) as Lo. rewrite prodN2 in *.
  destruct Hx as [Sx _]. destruct Ho as [So _]. eexists. split; [|split].
  - cbn [lforward]. rewrite validate_rank_Ok by (rewrite ?Sx, ?So; reflexivity). mred. rewrite ?Sx. mred. rewrite ?So. mred.
    rewrite softmax_forward_Ok by assumption. mred. unfold set_dat. rewrite So. reflexivity.
  - split; [reflexivity|]. unfold twf. cbn [tdat tsh]. rewrite tab_length, prodN2. reflexivity.
  - intros i j Hi Hj. cbn [tdat]. rewrite nth_tab by (apply mult_lt; assumption).
    destruct (divmod_nat i m j Hj) as [-> ->]. reflexivity.
Qed.

Lemma softmax_pos m X i j : (0 < m)%nat -> 0 < softmax_val m X i j.
Proof.
  intros Hm. unfold softmax_val. apply Rdiv_lt_0_compat; [apply exp_pos|].
  apply (exp_sum_pos m (fun k => X.[i * m + k]) Hm).
Qed.

Lemma softmax_sum m X i : (0 < m)%nat -> rsum m (fun j => softmax_val m X i j) = 1.
Proof.
  intros Hm. pose proof (exp_sum_pos m (fun k => X.[i * m + k]) Hm) as Hp. cbn beta in Hp.
  unfold softmax_val. rewrite rsum_div_r. field. lra.
Qed.

Lemma softmax_le1 m X i j : (j < m)%nat -> softmax_val m X i j <= 1.
Proof.
  intros Hj. rewrite <- (softmax_sum m X i) by lia.
  apply (rsum_term_le m (fun j => softmax_val m X i j) j); [exact Hj|].
  intros k Hk. left. apply softmax_pos. lia.
Qed.

Lemma softmax_order m X i j k : (j < m)%nat -> (k < m)%nat ->
  (X.[i * m + j] < X.[i * m + k] <-> softmax_val m X i j < softmax_val m X i k) /\
  (X.[i * m + j] = X.[i * m + k] <-> softmax_val m X i j = softmax_val m X i k).
Proof.
  intros Hj Hk. assert (Hm : (0 < m)%nat) by lia.
  pose proof (exp_sum_pos m (fun k => X.[i * m + k]) Hm) as Hp. cbn beta in Hp. unfold softmax_val.
  set (S := rsum m _) in *. split; split; intros H.
  - unfold Rdiv. apply Rmult_lt_compat_r; [apply Rinv_0_lt_compat; exact Hp|]. apply exp_increasing. exact H.
  - apply exp_lt_inv. apply Rmult_lt_reg_r with (/ S); [apply Rinv_0_lt_compat; exact Hp|]. exact H.
  - rewrite H. reflexivity.
  - apply exp_inv. apply Rmult_eq_reg_r with (/ S); [exact H|]. apply Rinv_neq_0_compat. lra.
Qed.

Lemma softmax_shift_row m X X' i j c : (0 < m)%nat -> (forall k, (k < m)%nat -> X'.[i * m + k] = X.[i * m + k] + c) ->
  (j < m)%nat -> softmax_val m X' i j = softmax_val m X i j.
Proof.
  intros Hm HX Hj. unfold softmax_val. rewrite HX by exact Hj.
  rewrite (rsum_ext m (fun k => exp X'.[i * m + k]) (fun k => exp (X.[i * m + k] - (- c)))).
  - replace (X.[i * m + j] + c) with (X.[i * m + j] - (- c)) by ring.
    apply (softmax_shift m (fun k => X.[i * m + k]) (- c) j Hm).
  - intros k Hk. rewrite HX by exact Hk. f_equal. ring.
Qed.

Lemma softmax_gradients E n m x : (0 < m)%nat -> ten_ok [n; m] x -> correct_gradients E LSoftmax [x] [n; m].
Proof.
  intros Hm [Sx Wx]. apply vjp_partials; [intros y [<-|[]]; exact Wx|]. intros P I _ _. cbn [map]. rewrite Sx.
  apply softmax_vjp. exact Hm.
Qed.

Lemma softmax_rows_zero E E2 n m x o : (0 < m)%nat -> ten_ok [n; m] x -> ten_ok [n; m] o ->
  exists o', lforward E LSoftmax [x] [o] = Ok (LSoftmax, o') /\
    forall go gi gm kg ko, ten_ok [n; m] go -> ten_ok [n; m] gi -> nth_error gm kg = Some gi -> nth_error gm ko = Some go ->
    exists gi', lbackward E2 LSoftmax [x] [o'] gm [kg] [ko] = Ok (LSoftmax, upd gm kg gi') /\
      forall i, (i < n)%nat -> rsum m (fun j => (tdat gi').[i * m + j] - (tdat gi).[i * m + j]) = 0.
Proof.
  intros Hm Hx Ho. destruct (softmax_spec E n m x o Hm Hx Ho) as (o' & F & [So Wo] & V). exists o'. split; [exact F|].
  intros go gi gm kg ko Hgo Hgi Gk Gout.
  pose proof (ten_ok_len _ _ Hgo) as Lgo. pose proof (ten_ok_len _ _ Hgi) as Lgi. rewrite prodN2 in *.
  destruct Hgo as [Sgo _]. destruct Hgi as [Sgi _]. unfold twf in Wo. rewrite So, prodN2 in Wo.
  eexists. split.
  - cbn [lbackward]. mred. rewrite (nth_error_rd _ _ _ Gout). mred. rewrite So. mred. rewrite Sgo. mred.
    erewrite on_grad_Ok; [reflexivity|exact Gk|]. mred. rewrite Sgi. mred.
    unfold softmax_input_grad. rewrite !emap_Ok by lia. rewrite !same_refl. cbn [bind]. reflexivity.
  - intros i Hi. cbn [tdat set_dat]. rewrite put2_full by exact Lgi.
    set (K := rsum m (fun j => el (tdat go) m i j * el (tdat o') m i j)).
    transitivity (rsum m (fun j => el (tdat go) m i j * el (tdat o') m i j - K * softmax_val m (tdat x) i j)).
    + apply rsum_ext. intros j Hj. rewrite nth_tab by (apply mult_lt; assumption).
      destruct (divmod_nat i m j Hj) as [-> ->]. fold K. rewrite <- V by assumption. unfold el. ring.
    + rewrite rsum_minus, rsum_scal_l, softmax_sum by exact Hm. fold K. ring.
Qed.

(** ** Add *)
Lemma add_gradients E x y : twf x -> twf y -> tsh y = tsh x -> correct_gradients E LAdd [x; y] (tsh x).
Proof.
  intros Wx Wy S. apply vjp_partials; [intros z [<-|[<-|[]]]; assumption|]. intros P I _ _. cbn [map]. rewrite S. apply add_vjp.
Qed.

Lemma add_spec E x y o : twf x -> twf y -> tsh y = tsh x -> ten_ok (tsh x) o ->
  exists o', lforward E LAdd [x; y] [o] = Ok (LAdd, o') /\ ten_ok (tsh x) o' /\
    (forall i, (i < tot x)%nat -> (tdat o').[i] = (tdat x).[i] + (tdat y).[i]) /\
    forall go gm k0 k1 ko g0 g1, ten_ok (tsh x) go -> ten_ok (tsh x) g0 -> ten_ok (tsh x) g1 ->
      nth_error gm k0 = Some g0 -> nth_error gm k1 = Some g1 -> nth_error gm ko = Some go -> k0 <> ko -> k1 <> ko ->
      exists gm', lbackward E LAdd [x; y] [o'] gm [k0; k1] [ko] = Ok (LAdd, gm') /\ length gm' = length gm /\
        forall k g, nth_error gm k = Some g -> exists g', nth_error gm' k = Some g' /\ tsh g' = tsh g /\ tot g' = tot g /\
          forall i, (i < tot g)%nat -> (tdat g').[i] = (tdat g).[i] +
            (if (k0 =? k)%nat then (tdat go).[i] else 0) + (if (k1 =? k)%nat then (tdat go).[i] else 0).
Proof.
  intros Wx Wy S [So Wo]. unfold twf in *. eexists. split; [|split; [|split]].
  - cbn [lforward]. unfold at_. cbn [nth_error bind]. unfold add_forward. rewrite !same_Ok by congruence. cbn [bind].
    rewrite put_full by reflexivity. reflexivity.
  - split; [exact So|]. unfold twf. cbn [tdat tsh set_dat]. rewrite tab_length. congruence.
  - intros i Hi. cbn [tdat set_dat]. rewrite nth_tab; [reflexivity|]. unfold tot in Hi. congruence.
  - intros go gm k0 k1 ko g0 g1 [S1 W1] [S2 W2] [S3 W3] G0 G1 Go N0 N1. unfold twf in *.
    destruct (add_backward_Ok gm k0 k1 ko go g0 g1) as (gm' & B1 & [BL B2]); auto; try (unfold tot; congruence).
    exists gm'. split; [|split; [exact BL|]].
    + cbn [lbackward]. unfold at_. cbn [nth_error bind]. rewrite (nth_error_rd _ _ _ Go). cbn [bind]. rewrite B1. reflexivity.
    + intros k g Gk. destruct (B2 k g Gk) as (g' & E' & A1 & A2 & A3). exists g'. repeat split; auto.
      intros i Hi. rewrite (A3 i Hi). cbn [length rsum nth]. ring.
Qed.

(** ** Dropout *)
Lemma dropout_eval_spec E p mask x o : p_train mask = false -> twf x -> ten_ok (tsh x) o -> tot o <> 0%nat ->
  lforward E (LDropout p mask) [x] [o] = Ok (LDropout p mask, x).
Proof.
  intros Ht Wx [So Wo] Hne. cbn [lforward]. rewrite validate_same_Ok by congruence. mred. rewrite Ht.
  rewrite So, nshape_eqb_refl. unfold dw_assert. destruct (Nat.eqb_spec (tot o) 0); [contradiction|]. cbn [negb bind].
  unfold set_dat. rewrite So. destruct x as [s d]. reflexivity.
Qed.

Lemma dropout_train_spec E p mask x o : p_train mask = true -> twf x -> prm_ok (tsh x) mask -> ten_ok (tsh x) o ->
  exists mask' o', lforward E (LDropout p mask) [x] [o] = Ok (LDropout p mask', o') /\ ten_ok (tsh x) o' /\
    ten_ok (tsh x) (p_data mask') /\ p_grad mask' = p_grad mask /\ p_train mask' = true /\
    (forall i, (i < tot x)%nat -> (tdat (p_data mask')).[i] = e_rnd E i) /\
    (forall i, (i < tot x)%nat -> e_rnd E i < p -> (tdat o').[i] = 0) /\
    (forall i, (i < tot x)%nat -> p <= e_rnd E i -> (tdat o').[i] = (tdat x).[i] / (1 - p)).
Proof.
  intros Ht Wx Pm [So Wo]. destruct (prm_ok_len _ _ Pm) as [Lm _]. destruct Pm as (M1 & _).
  unfold twf in *. unfold tot. do 2 eexists. split.
  - cbn [lforward]. rewrite validate_same_Ok by congruence. mred. rewrite Ht.
    rewrite dropout_forward_Ok by congruence. mred. reflexivity.
  - cbn [tsh tdat set_dat p_data p_grad p_train]. split; [|split; [|split; [reflexivity|split; [reflexivity|]]]].
    + split; [exact So|]. unfold twf. cbn [tdat tsh set_dat]. rewrite tab_length. congruence.
    + split; [exact M1|]. unfold twf. cbn [tdat tsh set_dat]. rewrite tab_length. congruence.
    + split; [|split]; intros i Hi.
      * rewrite nth_tab by lia. reflexivity.
      * intros Hu. rewrite nth_tab by exact Hi. unfold dropped. rewrite geb_false by exact Hu. unfold Rdiv. ring.
      * intros Hu. rewrite nth_tab by exact Hi. unfold dropped. rewrite geb_true by exact Hu. reflexivity.
Qed.

Lemma dropout_back_spec E p mask x o gm kg ko gi go :
  ten_ok (tsh x) (p_data mask) -> ten_ok (tsh x) gi -> ten_ok (tsh x) go ->
  nth_error gm kg = Some gi -> nth_error gm ko = Some go ->
  exists gi', lbackward E (LDropout p mask) [x] [o] gm [kg] [ko] = Ok (LDropout p mask, upd gm kg gi') /\ ten_ok (tsh x) gi' /\
    forall i, (i < prodN (tsh x))%nat ->
      (tdat gi').[i] = (tdat gi).[i] + (if Rlt_dec (tdat (p_data mask)).[i] p then 0 else (tdat go).[i]).
Proof.
  intros Hm Hgi Hgo Gk Gout. pose proof (ten_ok_len _ _ Hm) as Lm. pose proof (ten_ok_len _ _ Hgi) as Lgi.
  pose proof (ten_ok_len _ _ Hgo) as Lgo. destruct Hgi as [Si _]. eexists. split; [|split].
  - cbn [lbackward]. mred. rewrite (nth_error_rd _ _ _ Gout). mred. erewrite on_grad_Ok; [reflexivity|exact Gk|].
    unfold dropout_input_grad. rewrite !same_Ok by congruence. cbn [bind]. rewrite put_full by reflexivity. reflexivity.
  - split; [exact Si|]. unfold twf. cbn [tdat tsh set_dat]. rewrite tab_length. congruence.
  - intros i Hi. cbn [tdat set_dat]. rewrite nth_tab by congruence. f_equal. unfold geb.
    destruct (Rle_dec p _), (Rlt_dec _ p); try reflexivity; lra.
Qed.

(** The integral of the output over the draw. *)
Lemma dropped_step p v : 0 < p < 1 -> Riemann_integrable (fun u => dropped u p v / (1 - p)) 0 1.
Proof.
  intros Hp.
  assert (A : IsStepFun (fun u => dropped u p v / (1 - p)) 0 1).
  { exists [0; p; 1]. exists [0; v / (1 - p)].
    split; [|split; [|split; [|split]]].
    - intros i Hi. destruct i as [|[|i]]; cbn in *; try lra. lia.
    - cbn. unfold Rmin. destruct (Rle_dec 0 1); lra.
    - cbn. unfold Rmax. destruct (Rle_dec 0 1); lra.
    - reflexivity.
    - intros i Hi. destruct i as [|[|i]]; cbn in *; try lia; intros u Hu; unfold open_interval in Hu; cbn in Hu; unfold dropped.
      + rewrite geb_false by lra. unfold Rdiv. ring.
      + rewrite geb_true by lra. reflexivity. }
  intros eps. exists (mkStepFun A).
  exists (mkStepFun (StepFun_P4 0 1 0)). split.
  - intros t Ht. cbn. unfold fct_cte. rewrite Rminus_diag_eq by reflexivity. rewrite Rabs_R0. lra.
  - rewrite StepFun_P18. rewrite Rmult_0_l, Rabs_R0. apply cond_pos.
Qed.

Lemma dropped_mean p v (pr : Riemann_integrable (fun u => dropped u p v / (1 - p)) 0 1) : 0 < p < 1 -> RiemannInt pr = v.
Proof.
  intros Hp.
  assert (pr1 : Riemann_integrable (fun u => dropped u p v / (1 - p)) 0 p) by (apply (RiemannInt_P22 pr); lra).
  assert (pr2 : Riemann_integrable (fun u => dropped u p v / (1 - p)) p 1) by (apply (RiemannInt_P23 pr); lra).
  rewrite <- (RiemannInt_P26 pr1 pr2 pr).
  rewrite (RiemannInt_P18 pr1 (RiemannInt_P14 0 p 0)) by (try lra; intros u Hu; unfold dropped, fct_cte; rewrite geb_false by lra; unfold Rdiv; ring).
  rewrite (RiemannInt_P18 pr2 (RiemannInt_P14 p 1 (v / (1 - p)))) by (try lra; intros u Hu; unfold dropped, fct_cte; rewrite geb_true by lra; reflexivity).
  rewrite !RiemannInt_P15. field. lra.
Qed.
