(** Batch normalisation: values, statistics and gradients. *)
From Coq Require Import Reals Lra.
From Verif Require Import Base BaseFacts Sums Deriv M_Im2col S_Im2col P_Layout M_Kernels M_Conv M_Layers P_Kernels S_Grad P_Vjp1 P_Vjp2.
Open Scope R_scope.

(** Statistics of column [j] of an [n] x [m] matrix given by its flat elements. *)
Section Stats.
Variables (n m : nat) (eps : R).

Definition bmean (x : nat -> R) (j : nat) : R := rsum n (fun i => x (i * m + j)%nat) / INR n.
Definition bcent (x : nat -> R) (i j : nat) : R := x (i * m + j)%nat - bmean x j.
Definition bvar (x : nat -> R) (j : nat) : R := rsum n (fun i => bcent x i j * bcent x i j) / INR n.
Definition bstd (x : nat -> R) (j : nat) : R := sqrt (bvar x j + eps).
Definition bval (x ga be : nat -> R) (i j : nat) : R := bcent x i j * (ga j / bstd x j) + be j.

(** Input gradient, as the kernel computes it. *)
Definition bgcent (x g ga : nat -> R) (i j : nat) : R :=
  let sd := bstd x j in
  g (i * m + j)%nat * ga j / sd +
  bcent x i j * (rsum n (fun i => bcent x i j * (g (i * m + j)%nat * ga j) / (sd * sd)) * -1 / (sd * 2)) * (2 / INR n).
Definition bigrad (x g ga : nat -> R) (i j : nat) : R :=
  bgcent x g ga i j - rsum n (fun i => bgcent x g ga i j) / INR n.

Definition dmean (dx : nat -> R) (j : nat) : R := rsum n (fun i => dx (i * m + j)%nat) / INR n.
Definition dcent (dx : nat -> R) (i j : nat) : R := dx (i * m + j)%nat - dmean dx j.
Definition dvar (x dx : nat -> R) (j : nat) : R := rsum n (fun i => 2 * (bcent x i j * dcent dx i j)) / INR n.
Definition dstd (x dx : nat -> R) (j : nat) : R := dvar x dx j / (2 * bstd x j).
Definition dval (x dx ga dga dbe : nat -> R) (i j : nat) : R :=
  dcent dx i j * (ga j / bstd x j) +
  bcent x i j * (dga j / bstd x j - ga j * dstd x dx j / (bstd x j * bstd x j)) + dbe j.

Lemma bvar_nonneg x j : (0 < n)%nat -> 0 <= bvar x j.
Proof.
  intros Hn. unfold bvar, Rdiv. apply Rmult_le_pos.
  - apply rsum_nonneg. intros i _. apply Rle_0_sqr.
  - left. apply Rinv_0_lt_compat. apply lt_0_INR. exact Hn.
Qed.

Lemma bstd_pos x j : (0 < n)%nat -> 0 < eps -> 0 < bstd x j.
Proof. intros Hn He. apply sqrt_lt_R0. pose proof (bvar_nonneg x j Hn). lra. Qed.

Lemma bstd_sqr x j : (0 < n)%nat -> 0 < eps -> bstd x j * bstd x j = bvar x j + eps.
Proof. intros Hn He. apply sqrt_sqrt. pose proof (bvar_nonneg x j Hn). lra. Qed.

Lemma bcent_sum x j : (0 < n)%nat -> rsum n (fun i => bcent x i j) = 0.
Proof.
  intros Hn. unfold bcent. rewrite rsum_minus, rsum_const. unfold bmean.
  field. apply not_0_INR. lia.
Qed.

Lemma dl_bmean (x : R -> nat -> R) dx t j : (j < m)%nat ->
  (forall q, (q < n * m)%nat -> dl (fun s => x s q) t (dx q)) -> dl (fun s => bmean (x s) j) t (dmean dx j).
Proof.
  intros Hj Hx. unfold bmean, dmean, Rdiv.
  eapply dl_eq; [apply dl_mult; [|apply dl_const]|].
  - apply (dl_rsum n (fun s i => x s (i * m + j)%nat)). intros i Hi. apply Hx. apply mult_lt; assumption.
  - cbn beta. ring.
Qed.

Lemma dl_bcent (x : R -> nat -> R) dx t i j : (i < n)%nat -> (j < m)%nat ->
  (forall q, (q < n * m)%nat -> dl (fun s => x s q) t (dx q)) -> dl (fun s => bcent (x s) i j) t (dcent dx i j).
Proof.
  intros Hi Hj Hx. unfold bcent, dcent. apply dl_minus; [apply Hx; apply mult_lt; assumption|].
  apply dl_bmean; assumption.
Qed.

Lemma dl_bvar (x : R -> nat -> R) dx t j : (j < m)%nat ->
  (forall q, (q < n * m)%nat -> dl (fun s => x s q) t (dx q)) -> dl (fun s => bvar (x s) j) t (dvar (x t) dx j).
Proof.
  intros Hj Hx. unfold bvar, dvar, Rdiv.
  eapply dl_eq; [apply dl_mult; [|apply dl_const]|].
  - apply (dl_rsum_mult n (fun s i => bcent (x s) i j) (fun s i => bcent (x s) i j)).
    + intros i Hi. apply dl_bcent; eassumption.
    + intros i Hi. apply dl_bcent; eassumption.
  - cbn beta. rewrite Rmult_0_r, Rplus_0_r. f_equal. apply rsum_ext. intros i Hi. ring.
Qed.

Lemma dl_bstd (x : R -> nat -> R) dx t j : (0 < n)%nat -> 0 < eps -> (j < m)%nat ->
  (forall q, (q < n * m)%nat -> dl (fun s => x s q) t (dx q)) -> dl (fun s => bstd (x s) j) t (dstd (x t) dx j).
Proof.
  intros Hn He Hj Hx. unfold bstd, dstd. eapply dl_eq.
  - apply (dl_sqrt (fun s => bvar (x s) j + eps)).
    + apply dl_plus; [apply dl_bvar; eassumption|apply dl_const].
    + pose proof (bvar_nonneg (x t) j Hn). lra.
  - fold (bstd (x t) j). rewrite Rplus_0_r. unfold Rdiv. ring.
Qed.

Lemma dl_bval (x ga be : R -> nat -> R) dx dga dbe t i j :
  (0 < n)%nat -> 0 < eps -> (i < n)%nat -> (j < m)%nat ->
  (forall q, (q < n * m)%nat -> dl (fun s => x s q) t (dx q)) ->
  dl (fun s => ga s j) t (dga j) -> dl (fun s => be s j) t (dbe j) ->
  dl (fun s => bval (x s) (ga s) (be s) i j) t (dval (x t) dx (ga t) dga dbe i j).
Proof.
  intros Hn He Hi Hj Hx Hg Hb. unfold bval. pose proof (bstd_pos (x t) j Hn He) as Hs. eapply dl_eq.
  - apply dl_plus; [|exact Hb]. apply (dl_mult (fun s => bcent (x s) i j)); [apply dl_bcent; eassumption|].
    apply dl_div; [exact Hg|apply dl_bstd; eassumption|]. lra.
  - unfold dval, Rsqr. field. lra.
Qed.

(** The kernel's gradients are the gradients of [bval], column by column. *)
Lemma bn_column (x dx g ga dga dbe : nat -> R) j : (0 < n)%nat -> 0 < eps ->
  rsum n (fun i => g (i * m + j)%nat * dval x dx ga dga dbe i j) =
  rsum n (fun i => bigrad x g ga i j * dx (i * m + j)%nat) +
  (rsum n (fun i => bcent x i j / bstd x j * g (i * m + j)%nat) * dga j +
   rsum n (fun i => g (i * m + j)%nat) * dbe j).
Proof.
  intros Hn He. pose proof (bstd_pos x j Hn He) as Hs.
  assert (Hi : INR n <> 0) by (apply not_0_INR; lia).
  set (sd := bstd x j) in *. set (G := fun i => g (i * m + j)%nat).
  set (K := rsum n (fun i => bcent x i j * G i)).
  (* replacing dx by its centred version *)
  assert (Hc : rsum n (fun i => bigrad x g ga i j * dx (i * m + j)%nat) =
               rsum n (fun i => bgcent x g ga i j * dcent dx i j)).
  { unfold bigrad, dcent, dmean. set (D := fun i => dx (i * m + j)%nat).
    set (Q := fun i => bgcent x g ga i j).
    transitivity (rsum n (fun i => Q i * D i) - rsum n Q / INR n * rsum n D).
    - rewrite <- rsum_scal_l, <- rsum_minus. apply rsum_ext. intros i _. unfold Q, D. ring.
    - transitivity (rsum n (fun i => Q i * D i) - rsum n Q * (rsum n D / INR n)); [field; exact Hi|].
      rewrite <- rsum_scal_r, <- rsum_minus. apply rsum_ext. intros i _. unfold Q, D. ring. }
  rewrite Hc.
  assert (Hq : forall i, bgcent x g ga i j =
     ga j / sd * G i - ga j * K / (sd * sd) / sd / INR n * bcent x i j).
  { intros i. unfold bgcent. fold sd.
    rewrite (rsum_ext n (fun i0 => bcent x i0 j * (g (i0 * m + j)%nat * ga j) / (sd * sd))
                        (fun i0 => bcent x i0 j * G i0 * (ga j / (sd * sd)))) by (intros; unfold G; field; lra).
    rewrite rsum_scal_r. fold K. unfold G. field. split; lra. }
  transitivity (ga j / sd * rsum n (fun i => G i * dcent dx i j) -
                ga j * K / (sd * sd) * dstd x dx j + K / sd * dga j + rsum n G * dbe j).
  - rewrite <- (rsum_scal_r n (dbe j) G). unfold K.
    replace (ga j * rsum n (fun i => bcent x i j * G i) / (sd * sd) * dstd x dx j) with
            (rsum n (fun i => bcent x i j * G i) * (ga j / (sd * sd) * dstd x dx j)) by (field; lra).
    replace (rsum n (fun i => bcent x i j * G i) / sd * dga j) with
            (rsum n (fun i => bcent x i j * G i) * (dga j / sd)) by (field; lra).
    rewrite <- !rsum_scal_r, <- rsum_scal_l, <- rsum_minus, <- !rsum_plus.
    apply rsum_ext. intros i _. unfold dval. fold sd. unfold G. field. lra.
  - rewrite (rsum_ext n (fun i => bgcent x g ga i j * dcent dx i j)
      (fun i => ga j / sd * (G i * dcent dx i j) -
                (ga j * K / (sd * sd) / (2 * sd)) * (2 * (bcent x i j * dcent dx i j) / INR n)))
      by (intros i _; rewrite Hq; field; split; lra).
    rewrite rsum_minus, !rsum_scal_l, rsum_div_r. fold (dvar x dx j). unfold dstd. fold sd.
    rewrite (rsum_ext n (fun i => bcent x i j / sd * g (i * m + j)%nat) (fun i => bcent x i j * G i * / sd))
      by (intros; unfold G; field; lra).
    rewrite rsum_scal_r. fold K. unfold G. field. lra.
Qed.

End Stats.

(** * The kernels *)
Section Kernel.
Variables (n m : nat) (eps alpha : R).
Hypothesis Hn : (0 < n)%nat.

Lemma bn_forward_train x od cd sd rm rv ga be :
  length x = (n * m)%nat -> length od = (n * m)%nat -> length cd = (n * m)%nat ->
  length sd = m -> length rm = m -> length rv = m -> length ga = m -> length be = m ->
  let X := fun q => x.[q] in
  bn_forward n m x od cd sd rm rv true eps alpha ga be =
  Ok (tab (n * m) (fun p => bval n m eps X (fun j => ga.[j]) (fun j => be.[j]) (p / m) (p mod m)),
      tab (n * m) (fun p => bcent n m X (p / m) (p mod m)),
      tab m (bstd n m eps X),
      tab m (fun j => rm.[j] * alpha + bmean n m X j * (1 - alpha)),
      tab m (fun j => rv.[j] * alpha + bvar n m X j * (1 - alpha))).
Proof.
  intros Lx Lo Lc Ls Lrm Lrv Lga Lbe X. unfold bn_forward. rewrite !emap_Ok by lia. cbn [bind].
  destruct (Nat.eqb_spec n 0); [lia|]. cbn [andb].
  rewrite !put2_full by assumption. rewrite !put_full by assumption.
  assert (Hc : forall i j, (i < n)%nat -> (j < m)%nat ->
    el (tab (n * m) (fun p => el x m (p / m) (p mod m) - rsum n (fun i => el x m i (p mod m)) / INR n)) m i j =
    bcent n m X i j).
  { intros i j Hi Hj. unfold el at 1. rewrite nth_tab by (apply mult_lt; assumption).
    destruct (divmod_nat i m j Hj) as [-> ->]. reflexivity. }
  assert (Hv : forall j, (j < m)%nat ->
    rsum n (fun i => el (tab (n * m) (fun p => el x m (p / m) (p mod m) - rsum n (fun i0 => el x m i0 (p mod m)) / INR n)) m i j *
                     el (tab (n * m) (fun p => el x m (p / m) (p mod m) - rsum n (fun i0 => el x m i0 (p mod m)) / INR n)) m i j) / INR n =
    bvar n m X j).
  { intros j Hj. unfold bvar. f_equal. apply rsum_ext. intros i Hi. rewrite Hc by assumption. reflexivity. }
  f_equal. repeat match goal with |- (_, _) = (_, _) => apply f_equal2 end; try reflexivity.
  - apply tab_ext. intros p Hp. destruct (divmod_lt p n m Hp) as (P1 & P2 & _). rewrite Hc by assumption.
    rewrite nth_tab by exact P2. rewrite Hv by exact P2. reflexivity.
  - apply tab_ext. intros j Hj. rewrite Hv by exact Hj. reflexivity.
  - apply tab_ext. intros j Hj. rewrite Hv by exact Hj. reflexivity.
Qed.

(** The backward kernels on the caches left by a training forward pass. *)
Lemma bn_input_grad_Ok X go gi ga :
  length go = (n * m)%nat -> length gi = (n * m)%nat -> length ga = m ->
  bn_input_grad n m (tab (n * m) (fun p => bcent n m X (p / m) (p mod m))) (tab m (bstd n m eps X)) go gi ga =
  Ok (tab (n * m) (fun p => gi.[p] + bigrad n m eps X (fun q => go.[q]) (fun j => ga.[j]) (p / m) (p mod m))).
Proof.
  intros Lgo Lgi Lga. unfold bn_input_grad. rewrite !emap_Ok by (rewrite ?tab_length; lia). cbn [bind].
  rewrite put2_full by assumption. f_equal. apply tab_ext. intros p Hp.
  destruct (divmod_lt p n m Hp) as (P1 & P2 & P3). unfold el at 1. rewrite <- P3. f_equal.
  set (j := p mod m) in *.
  assert (Hc : forall i, (i < n)%nat -> el (tab (n * m) (fun p => bcent n m X (p / m) (p mod m))) m i j = bcent n m X i j).
  { intros i Hi. unfold el. rewrite nth_tab by (apply mult_lt; assumption).
    destruct (divmod_nat i m j P2) as [-> ->]. reflexivity. }
  rewrite !nth_tab by exact P2. unfold bigrad.
  assert (Hk : rsum n (fun i => el (tab (n * m) (fun p => bcent n m X (p / m) (p mod m))) m i j *
                  (el go m i j * ga.[j]) / (bstd n m eps X j * bstd n m eps X j)) =
               rsum n (fun i => bcent n m X i j * (go.[i * m + j] * ga.[j]) / (bstd n m eps X j * bstd n m eps X j))).
  { apply rsum_ext. intros i Hi. rewrite Hc by exact Hi. reflexivity. }
  rewrite Hk. apply f_equal2; [|apply f_equal2; [|reflexivity]].
  - rewrite Hc by exact P1. reflexivity.
  - apply rsum_ext. intros i Hi. rewrite Hc by exact Hi. reflexivity.
Qed.

Lemma bn_param_grad_Ok X go gg gb :
  length go = (n * m)%nat -> length gg = m -> length gb = m ->
  bn_param_grad n m (tab (n * m) (fun p => bcent n m X (p / m) (p mod m))) (tab m (bstd n m eps X)) go gg gb =
  Ok (tab m (fun j => rsum n (fun i => bcent n m X i j / bstd n m eps X j * go.[i * m + j])),
      tab m (fun j => rsum n (fun i => go.[i * m + j]))).
Proof.
  intros Lgo Lgg Lgb. unfold bn_param_grad. rewrite !emap_Ok by (rewrite ?tab_length; lia). cbn [bind].
  rewrite !put_full by assumption. f_equal. f_equal. apply tab_ext. intros j Hj. apply rsum_ext. intros i Hi.
  unfold el. rewrite nth_tab by (apply mult_lt; assumption). rewrite nth_tab by exact Hj.
  destruct (divmod_nat i m j Hj) as [-> ->]. reflexivity.
Qed.

End Kernel.

(** * BatchNorm1D *)

Lemma ten_ok_len sh t : ten_ok sh t -> length (tdat t) = prodN sh.
Proof. intros [S W]. unfold twf in W. congruence. Qed.

Lemma fresh_ok E sh : ten_ok sh (fresh E sh).
Proof. split; [reflexivity|]. unfold twf. cbn. apply tab_length. Qed.

Definition bn1_state (m : nat) (gamma beta : prm) (std rmean rvar centered : ten) : Prop :=
  prm_ok [m] gamma /\ prm_ok [m] beta /\ ten_ok [m] std /\ ten_ok [m] rmean /\ ten_ok [m] rvar /\ buf_ok centered.

Lemma prm_ok_len sh p : prm_ok sh p -> length (tdat (p_data p)) = prodN sh /\ length (tdat (p_grad p)) = prodN sh.
Proof. intros (A & B & C & D). unfold twf in *. split; congruence. Qed.

Lemma validate_rank_Ok r x o : length (tsh x) = r -> length (tsh o) = r -> validate_rank r [x] [o] = Ok tt.
Proof.
  intros H1 H2. unfold validate_rank, dw_assert, front, rd. cbn [length Nat.eqb bind nth_error].
  rewrite H1, H2, Nat.eqb_refl. reflexivity.
Qed.

Section BN1.
Variables (n m : nat) (eps alpha : R) (gamma beta : prm) (std rmean rvar centered : ten).
Hypothesis Hn : (0 < n)%nat.
Hypothesis He : 0 < eps.
Hypothesis Hst : bn1_state m gamma beta std rmean rvar centered.
Hypothesis Htg : p_train gamma = true.
Hypothesis Htb : p_train beta = true.
Notation L := (LBN1 eps alpha gamma beta std rmean rvar centered).

Lemma bn1_fwd_train E ga be x o : ten_ok [n; m] x -> ten_ok [n; m] o -> length ga = m -> length be = m ->
  let X := fun q => (tdat x).[q] in
  bn1_fwd E eps alpha (with_data gamma ga) (with_data beta be) std rmean rvar centered x o =
  Ok (mkT [m] (tab m (bstd n m eps X)),
      mkT [m] (tab m (fun j => (tdat rmean).[j] * alpha + bmean n m X j * (1 - alpha))),
      mkT [m] (tab m (fun j => (tdat rvar).[j] * alpha + bvar n m X j * (1 - alpha))),
      mkT [n; m] (tab (n * m) (fun p => bcent n m X (p / m) (p mod m))),
      mkT [n; m] (tab (n * m) (fun p => bval n m eps X (fun j => ga.[j]) (fun j => be.[j]) (p / m) (p mod m)))).
Proof.
  intros Hx Ho Lga Lbe X. destruct Hst as (Pg & Pb & Ts & Tm & Tv & Wc).
  pose proof (ten_ok_len _ _ Hx) as Lx. pose proof (ten_ok_len _ _ Ho) as Lo. rewrite prodN2 in Lx, Lo.
  pose proof (ten_ok_len _ _ Ts) as Ls. pose proof (ten_ok_len _ _ Tm) as Lm. pose proof (ten_ok_len _ _ Tv) as Lv.
  rewrite prodN1 in Ls, Lm, Lv.
  destruct Hx as [Sx Wx], Ho as [So Wo], Ts as [Ss Ws], Tm as [Sm Wm], Tv as [Sv Wv].
  destruct Pg as (Pg1 & _), Pb as (Pb1 & _).
  unfold bn1_fwd. set (c1 := if nshape_eqb (tsh centered) (tsh x) then centered else fresh E (tsh x)).
  assert (Hc1 : ten_ok [n; m] c1).
  { unfold c1. destruct (nshape_eqb (tsh centered) (tsh x)) eqn:Ec.
    - apply nshape_eqb_spec in Ec. split; [congruence|]. destruct Wc as [E9|Wc]; [congruence|exact Wc].
    - rewrite Sx. apply fresh_ok. }
  pose proof (ten_ok_len _ _ Hc1) as Lc. rewrite prodN2 in Lc. destruct Hc1 as [Sc Wc1].
  cbn [with_data p_train]. rewrite Htg, Htb. cbn [Bool.eqb dw_assert bind andb].
  mred. rewrite Sx, So, Sc. mred. rewrite Ss, Sm, Sv. mred. rewrite Pg1, Pb1. mred.
  rewrite !same_refl. cbn [bind].
  rewrite (bn_forward_train n m eps alpha Hn) by assumption. cbn [bind].
  unfold set_dat. rewrite Ss, Sm, Sv, Sc, So. reflexivity.
Qed.

Lemma bn1_vjp E t P I : layer_vjp E L [[n; m]] [n; m] t P I.
Proof.
  apply vjp_one. intros dP X dX HP _ [HX HdX]. rewrite prodN2 in *.
  destruct (pcurve2 L gamma beta P t dP eq_refl HP) as (A & B & EP & LA & LB & DA & DB).
  pose proof Hst as (Pg & Pb & Ts & Tm & Tv & Wc).
  destruct (prm_ok_len _ _ Pg) as [Lg Lgg]. destruct (prm_ok_len _ _ Pb) as [Lb Lgb].
  rewrite prodN1 in Lg, Lgg, Lb, Lgb. unfold tot in *. rewrite Lg in *. rewrite Lb in *.
  assert (HXs : forall s, length (tdat (X s)) = (n * m)%nat).
  { intros s. rewrite (ten_ok_len [n; m]) by apply HX. apply prodN2. }
  set (xs := fun s q => (tdat (X s)).[q]).
  set (ds := fun p => dval n m eps (xs t) dX (fun j => (A t).[j]) (dP O) (dP 1%nat) (p / m) (p mod m)).
  exists (fun s p => bval n m eps (xs s) (fun j => (A s).[j]) (fun j => (B s).[j]) (p / m) (p mod m)),
    (fun s => LBN1 eps alpha (with_data gamma (A s)) (with_data beta (B s))
        (mkT [m] (tab m (bstd n m eps (xs s))))
        (mkT [m] (tab m (fun j => (tdat rmean).[j] * alpha + bmean n m (xs s) j * (1 - alpha))))
        (mkT [m] (tab m (fun j => (tdat rvar).[j] * alpha + bvar n m (xs s) j * (1 - alpha))))
        (mkT [n; m] (tab (n * m) (fun p => bcent n m (xs s) (p / m) (p mod m))))), ds.
  split; [|split].
  - intros s o So Wo. rewrite EP. cbn [with_params lforward].
    destruct (HX s) as [S1 S2]. rewrite validate_rank_Ok by (rewrite ?S1, ?So; reflexivity). cbn [bind].
    unfold front. cbn [rd nth_error bind]. rewrite bn1_fwd_train by (auto; split; assumption). reflexivity.
  - intros p Hp. destruct (divmod_lt p n m Hp) as (P1 & P2 & _). unfold ds.
    apply (dl_bval n m eps xs (fun s j => (A s).[j]) (fun s j => (B s).[j])); auto.
  - intros E2 go gi So Wo Si Wi _.
    assert (Lgo : length (tdat go) = (n * m)%nat) by (rewrite (ten_ok_len [n; m]) by (split; assumption); apply prodN2).
    assert (Lgi : length (tdat gi) = (n * m)%nat) by (rewrite (ten_ok_len [n; m]) by (split; assumption); apply prodN2).
    set (G := fun q => (tdat go).[q]).
    set (gg := tab m (fun j => rsum n (fun i => bcent n m (xs t) i j / bstd n m eps (xs t) j * G (i * m + j)%nat))).
    set (gb := tab m (fun j => rsum n (fun i => G (i * m + j)%nat))).
    set (LL := LBN1 eps alpha (set_grad (with_data gamma (A t)) gg) (set_grad (with_data beta (B t)) gb)
        (mkT [m] (tab m (bstd n m eps (xs t))))
        (mkT [m] (tab m (fun j => (tdat rmean).[j] * alpha + bmean n m (xs t) j * (1 - alpha))))
        (mkT [m] (tab m (fun j => (tdat rvar).[j] * alpha + bvar n m (xs t) j * (1 - alpha))))
        (mkT [n; m] (tab (n * m) (fun p => bcent n m (xs t) (p / m) (p mod m))))).
    exists LL, LL, (fun p => bigrad n m eps (xs t) G (fun j => (A t).[j]) (p / m) (p mod m)).
    destruct Pg as (Pg1 & Pg2 & Pg3 & Pg4), Pb as (Pb1 & Pb2 & Pb3 & Pb4).
    split; [|split; [|split]].
    + cbn [lupdate]. mred. rewrite Pg3, Pb3. mred. rewrite So. mred. rewrite !same_refl. cbn [bind].
      rewrite bn_param_grad_Ok by assumption. reflexivity.
    + intros gm k kout Gk Gout Hne. unfold LL. cbn [lbackward]. mred. rewrite Pg1. mred.
      rewrite (nth_error_rd _ _ _ Gout). mred. rewrite So. mred.
      erewrite on_grad_Ok; [reflexivity|exact Gk|]. mred. rewrite Si. mred. rewrite !same_refl. cbn [bind].
      apply bn_input_grad_Ok; auto.
    + rewrite EP. reflexivity.
    + cbn [dparams lparams length map rsum]. rewrite EP. cbn [nth]. rewrite LA, LB. unfold LL.
      cbn [lparams dparams map nth]. mred.
      rewrite !rsum_mult. rewrite (rsum_swap n m), (rsum_swap n m). rewrite Rplus_0_l, <- !rsum_plus.
      apply rsum_ext. intros j Hj. unfold gg, gb. rewrite !nth_tab by exact Hj.
      transitivity (rsum n (fun i => G (i * m + j)%nat * dval n m eps (xs t) dX (fun j => (A t).[j]) (dP O) (dP 1%nat) i j)).
      * apply rsum_ext. intros i Hi. unfold ds. destruct (divmod_nat i m j Hj) as [-> ->]. reflexivity.
      * rewrite bn_column by assumption. f_equal. apply rsum_ext. intros i Hi.
        destruct (divmod_nat i m j Hj) as [-> ->]. reflexivity.
Qed.

End BN1.
