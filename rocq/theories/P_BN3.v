(** Batch normalisation: what forward computes, running statistics over histories, evaluation mode. *)
From Coq Require Import Reals Lra.
From Verif Require Import Base BaseFacts Sums Deriv S_Stats S_BN M_Im2col S_Im2col P_Layout M_Kernels M_Conv M_Layers P_Kernels S_Grad S_Partial P_Partial P_Vjp1 P_Vjp2 P_BN P_BN2.
Open Scope R_scope.

(** ** The kernel in both modes *)
Lemma bn_forward_gen tr n m x od cd sd rm rv eps alpha ga be :
  (tr = true -> 0 < n)%nat ->
  (n * m <= length x)%nat -> (n * m <= length od)%nat -> (n * m <= length cd)%nat ->
  length sd = m -> length rm = m -> length rv = m -> length ga = m -> length be = m ->
  let mu := fun j => if tr : bool then mean n (fun i => x.[i * m + j]) else rm.[j] in
  let v := fun j => if tr : bool then variance n (fun i => x.[i * m + j]) else rv.[j] in
  exists od' cd' sd' rm' rv',
    bn_forward n m x od cd sd rm rv tr eps alpha ga be = Ok (od', cd', sd', rm', rv') /\
    length od' = length od /\ length cd' = length cd /\ length sd' = m /\ length rm' = m /\ length rv' = m /\
    (forall i j, (i < n)%nat -> (j < m)%nat ->
       od'.[i * m + j] = ga.[j] * ((x.[i * m + j] - mu j) / sqrt (v j + eps)) + be.[j]) /\
    (forall i j, (i < n)%nat -> (j < m)%nat -> cd'.[i * m + j] = x.[i * m + j] - mu j) /\
    (forall j, (j < m)%nat -> sd'.[j] = sqrt (v j + eps)) /\
    (if tr then forall j, (j < m)%nat -> rm'.[j] = rm.[j] * alpha + mean n (fun i => x.[i * m + j]) * (1 - alpha)
           else rm' = rm) /\
    (if tr then forall j, (j < m)%nat -> rv'.[j] = rv.[j] * alpha + variance n (fun i => x.[i * m + j]) * (1 - alpha)
           else rv' = rv).
Proof.
  intros Hn Lx Lo Lc Ls Lrm Lrv Lga Lbe mu v. unfold bn_forward. rewrite !emap_Ok by lia. cbn [bind].
  replace ((n =? 0)%nat && tr)%bool with false.
  2:{ destruct tr; [|destruct (n =? 0)%nat; reflexivity]. destruct (Nat.eqb_spec n 0); [specialize (Hn eq_refl); lia|reflexivity]. }
  destruct tr.
  - set (c' := put2 n m _ cd).
    assert (Hc : forall i j, (i < n)%nat -> (j < m)%nat -> el c' m i j = x.[i * m + j] - mu j).
    { intros i j Hi Hj. unfold c'. rewrite el_put2 by assumption. reflexivity. }
    assert (Hv : forall j, (j < m)%nat -> rsum n (fun i => el c' m i j * el c' m i j) / INR n = v j).
    { intros j Hj. unfold v, variance. f_equal. apply rsum_ext. intros i Hi. rewrite Hc by assumption. unfold mu. ring. }
    do 5 eexists. split; [reflexivity|]. unfold c'.
    split; [apply put2_length; exact Lo|]. split; [apply put2_length; exact Lc|].
    split; [rewrite put_length; lia|]. split; [rewrite put_length; lia|]. split; [rewrite put_length; lia|]. fold c'.
    split; [|split; [|split; [|split]]].
    + intros i j Hi Hj. pose proof (el_put2 n m (fun i j => el c' m i j * (ga.[j] / (put m (fun j => sqrt (rsum n (fun i => el c' m i j * el c' m i j) / INR n + eps)) sd).[j]) + be.[j]) od i j Hi Hj) as P.
      unfold el at 1 in P. rewrite P. rewrite Hc, nth_put, Hv by assumption. unfold Rdiv. ring.
    + intros i j Hi Hj. apply Hc; assumption.
    + intros j Hj. rewrite nth_put, Hv by exact Hj. reflexivity.
    + intros j Hj. rewrite nth_put by exact Hj. reflexivity.
    + intros j Hj. rewrite nth_put, Hv by exact Hj. reflexivity.
  - set (c' := put2 n m _ cd).
    assert (Hc : forall i j, (i < n)%nat -> (j < m)%nat -> el c' m i j = x.[i * m + j] - mu j).
    { intros i j Hi Hj. unfold c'. rewrite el_put2 by assumption. reflexivity. }
    do 5 eexists. split; [reflexivity|]. unfold c'.
    split; [apply put2_length; exact Lo|]. split; [apply put2_length; exact Lc|].
    split; [rewrite put_length; lia|]. split; [exact Lrm|]. split; [exact Lrv|]. fold c'.
    split; [|split; [|split; [|split]]].
    + intros i j Hi Hj. pose proof (el_put2 n m (fun i j => el c' m i j * (ga.[j] / (put m (fun j => sqrt (rv.[j] + eps)) sd).[j]) + be.[j]) od i j Hi Hj) as P.
      unfold el at 1 in P. rewrite P. rewrite Hc, nth_put by assumption. unfold v, Rdiv. ring.
    + intros i j Hi Hj. apply Hc; assumption.
    + intros j Hj. rewrite nth_put by exact Hj. reflexivity.
    + reflexivity.
    + reflexivity.
Qed.

(** ** Mean and variance of an affine image *)
Lemma mean_ext n f g : (forall i, (i < n)%nat -> f i = g i) -> mean n f = mean n g.
Proof. intros H. unfold mean. f_equal. apply rsum_ext. exact H. Qed.
Lemma variance_ext n f g : (forall i, (i < n)%nat -> f i = g i) -> variance n f = variance n g.
Proof.
  intros H. unfold variance. f_equal. apply rsum_ext. intros i Hi. rewrite H by exact Hi. rewrite (mean_ext n f g H). reflexivity.
Qed.
Lemma mean_affine n f a b : (0 < n)%nat -> mean n (fun i => a * f i + b) = a * mean n f + b.
Proof.
  intros Hn. unfold mean. rewrite rsum_plus, rsum_scal_l, rsum_const. field. apply not_0_INR. lia.
Qed.
Lemma variance_affine n f a b : (0 < n)%nat -> variance n (fun i => a * f i + b) = a ^ 2 * variance n f.
Proof.
  intros Hn. unfold variance at 1. rewrite mean_affine by exact Hn.
  rewrite (rsum_ext n _ (fun i => a ^ 2 * (f i - mean n f) ^ 2)) by (intros; ring).
  rewrite rsum_scal_l. unfold variance, Rdiv. ring.
Qed.
Lemma variance_nonneg n f : 0 <= variance n f.
Proof.
  unfold variance, Rdiv. destruct (Nat.eq_dec n 0) as [->|Hn]; [cbn [rsum]; lra|].
  apply Rmult_le_pos.
  - apply rsum_nonneg. intros i Hi. cbn. rewrite Rmult_1_r. apply Rle_0_sqr.
  - left. apply Rinv_0_lt_compat. apply lt_0_INR. lia.
Qed.

Lemma normalised_mean n f ga be eps : (0 < n)%nat -> 0 < eps ->
  mean n (fun i => ga * ((f i - mean n f) / sqrt (variance n f + eps)) + be) = be.
Proof.
  intros Hn He. set (s := sqrt (variance n f + eps)).
  rewrite (mean_ext n _ (fun i => (ga / s) * f i + (be - ga / s * mean n f))) by (intros; unfold Rdiv; ring).
  rewrite mean_affine by exact Hn. ring.
Qed.
Lemma normalised_variance n f ga be eps : (0 < n)%nat -> 0 < eps ->
  variance n (fun i => ga * ((f i - mean n f) / sqrt (variance n f + eps)) + be) =
  ga ^ 2 * (variance n f / (variance n f + eps)).
Proof.
  intros Hn He. pose proof (variance_nonneg n f) as Hv. set (s := sqrt (variance n f + eps)).
  assert (Hs : 0 < s) by (apply sqrt_lt_R0; lra).
  assert (Hss : s * s = variance n f + eps) by (apply sqrt_sqrt; lra).
  rewrite (variance_ext n _ (fun i => (ga / s) * f i + (be - ga / s * mean n f))) by (intros; unfold Rdiv; ring).
  rewrite variance_affine by exact Hn. rewrite <- Hss. field. lra.
Qed.

(** ** BatchNorm1D *)
Definition set_train (tr : bool) (p : prm) : prm := mkP (p_data p) (p_grad p) tr.

Lemma bn1_forward E eps alpha gamma beta std rmean rvar centered n m x o tr :
  (tr = true -> 0 < n)%nat ->
  bn1_state m gamma beta std rmean rvar centered -> p_train gamma = tr -> p_train beta = tr ->
  ten_ok [n; m] x -> ten_ok [n; m] o ->
  let f := fun j i => (tdat x).[i * m + j] in
  let mu := fun j => if tr : bool then mean n (f j) else (tdat rmean).[j] in
  let v := fun j => if tr : bool then variance n (f j) else (tdat rvar).[j] in
  exists std' rmean' rvar' cent' o',
    lforward E (LBN1 eps alpha gamma beta std rmean rvar centered) [x] [o] =
      Ok (LBN1 eps alpha gamma beta std' rmean' rvar' cent', o') /\
    bn1_state m gamma beta std' rmean' rvar' cent' /\ ten_ok [n; m] cent' /\ ten_ok [n; m] o' /\
    (forall i j, (i < n)%nat -> (j < m)%nat ->
       (tdat o').[i * m + j] =
       (tdat (p_data gamma)).[j] * ((f j i - mu j) / sqrt (v j + eps)) + (tdat (p_data beta)).[j]) /\
    (forall i j, (i < n)%nat -> (j < m)%nat -> (tdat cent').[i * m + j] = f j i - mu j) /\
    (forall j, (j < m)%nat -> (tdat std').[j] = sqrt (v j + eps)) /\
    (if tr then forall j, (j < m)%nat -> (tdat rmean').[j] = (tdat rmean).[j] * alpha + mean n (f j) * (1 - alpha)
           else rmean' = rmean) /\
    (if tr then forall j, (j < m)%nat -> (tdat rvar').[j] = (tdat rvar).[j] * alpha + variance n (f j) * (1 - alpha)
           else rvar' = rvar).
Proof.
  intros Hn (Pg & Pb & Ts & Tm & Tv & Wc) Htg Htb Hx Ho f mu v.
  destruct (prm_ok_len _ _ Pg) as [Lg _]. destruct (prm_ok_len _ _ Pb) as [Lb _].
  pose proof (ten_ok_len _ _ Hx) as Lx. pose proof (ten_ok_len _ _ Ho) as Lo.
  pose proof (ten_ok_len _ _ Ts) as Ls. pose proof (ten_ok_len _ _ Tm) as Lm. pose proof (ten_ok_len _ _ Tv) as Lv.
  rewrite prodN1 in *. rewrite prodN2 in *.
  set (c1 := if nshape_eqb (tsh centered) (tsh x) then centered else fresh E (tsh x)).
  assert (Hc1 : ten_ok [n; m] c1).
  { unfold c1. destruct Hx as [Sx _]. destruct (nshape_eqb (tsh centered) (tsh x)) eqn:Es.
    - apply nshape_eqb_spec in Es. split; [congruence|]. destruct Wc as [E9|Wc]; [congruence|exact Wc].
    - rewrite Sx. apply fresh_ok. }
  pose proof (ten_ok_len _ _ Hc1) as Lc1. rewrite prodN2 in Lc1.
  destruct (bn_forward_gen tr n m (tdat x) (tdat o) (tdat c1) (tdat std) (tdat rmean) (tdat rvar) eps alpha
              (tdat (p_data gamma)) (tdat (p_data beta)) Hn) as (od' & cd' & sd' & rm' & rv' & F & K); try lia.
  destruct K as (K1 & K2 & K3 & K4 & K5 & K6 & K7 & K8 & K9 & K10).
  destruct Hx as [Sx Wx], Ho as [So Wo], Hc1 as [Sc Wc1], Ts as [Ss Ws], Tm as [Sm Wm], Tv as [Sv Wv].
  destruct Pg as (Pg1 & Pg2) eqn:EPg. destruct Pb as (Pb1 & Pb2) eqn:EPb. clear EPg EPb.
  exists (set_dat std sd'), (set_dat rmean rm'), (set_dat rvar rv'), (set_dat c1 cd'), (set_dat o od').
  split; [|split; [|split; [|split; [|split; [|split; [|split; [|split]]]]]]].
  - cbn [lforward]. rewrite validate_rank_Ok by (rewrite ?Sx, ?So; reflexivity). unfold front. cbn [rd nth_error bind].
    unfold bn1_fwd. fold c1. rewrite Htg, Htb. replace (Bool.eqb tr tr) with true by (destruct tr; reflexivity).
    replace (tr && tr)%bool with tr by (destruct tr; reflexivity). cbn [dw_assert bind]. mred.
    rewrite Sx. mred. rewrite So. mred. rewrite Sc. mred. rewrite Ss. mred. rewrite Sm. mred. rewrite Sv. mred.
    rewrite Pg1. mred. rewrite Pb1. mred. rewrite !same_refl. mred. rewrite F. reflexivity.
  - assert (KO : forall t d, tsh t = [m] -> length d = m -> ten_ok [m] (set_dat t d)).
    { intros t d St Ld. split; [exact St|]. unfold twf. cbn [set_dat tsh tdat]. rewrite St, prodN1. exact Ld. }
    repeat split; try assumption; try (apply KO; assumption).
    all: try apply Pg2; try apply Pb2.
    all: try (right; unfold twf; cbn [set_dat tsh tdat]; rewrite Sc, prodN2; lia).
    all: unfold twf; cbn [set_dat tsh tdat]; rewrite ?Ss, ?Sm, ?Sv, ?Sc, ?prodN1, ?prodN2; lia.
  - split; [exact Sc|]. unfold twf. cbn [set_dat tsh tdat]. rewrite Sc, prodN2. lia.
  - split; [exact So|]. unfold twf. cbn [set_dat tsh tdat]. rewrite So, prodN2. lia.
  - exact K6.
  - exact K7.
  - exact K8.
  - destruct tr; [exact K9|]. rewrite K9. destruct rmean; reflexivity.
  - destruct tr; [exact K10|]. rewrite K10. destruct rvar; reflexivity.
Qed.

(** ** BatchNorm2D *)
Lemma mean_planes N C H W (nd : list R) (f : nat -> nat -> nat -> R) c :
  (forall n h w, (n < N)%nat -> (h < H)%nat -> (w < W)%nat -> nd.[((n * H + h) * W + w) * C + c] = f n h w) ->
  mean (N * H * W) (fun i => nd.[i * C + c]) = mean3 N H W f.
Proof.
  intros Hf. unfold mean, mean3. f_equal. rewrite (rsum_mult (N * H) W), (rsum_mult N H).
  apply rsum_ext. intros n Hn. apply rsum_ext. intros h Hh. apply rsum_ext. intros w Hw. apply Hf; assumption.
Qed.
Lemma variance_planes N C H W (nd : list R) (f : nat -> nat -> nat -> R) c :
  (forall n h w, (n < N)%nat -> (h < H)%nat -> (w < W)%nat -> nd.[((n * H + h) * W + w) * C + c] = f n h w) ->
  variance (N * H * W) (fun i => nd.[i * C + c]) = variance3 N H W f.
Proof.
  intros Hf. unfold variance, variance3. rewrite (mean_planes N C H W nd f c Hf). f_equal.
  rewrite (rsum_mult (N * H) W), (rsum_mult N H).
  apply rsum_ext. intros n Hn. apply rsum_ext. intros h Hh. apply rsum_ext. intros w Hw. rewrite Hf by assumption. reflexivity.
Qed.

(** Everything but the buffers is in order. *)
Definition bn2_state (C : nat) (gamma beta : prm) (std rmean rvar : ten) : Prop :=
  prm_ok [C] gamma /\ prm_ok [C] beta /\ ten_ok [C] std /\ ten_ok [C] rmean /\ ten_ok [C] rvar.
(** The buffers are still empty, or have room for [T] elements. *)
Definition bn2_room (T : nat) (centered nin nout : ten) : Prop :=
  (tot nin = 0 \/ (T <= tot nin /\ T <= tot nout))%nat /\ (tot centered = 0 \/ T <= tot centered)%nat.

Lemma bn2_forward E eps alpha gamma beta std rmean rvar centered nin nout N C H W x o tr :
  (tr = true -> 0 < N * H * W)%nat ->
  bn2_state C gamma beta std rmean rvar -> bn2_room (N * C * H * W) centered nin nout ->
  p_train gamma = tr -> p_train beta = tr ->
  ten_ok [N; C; H; W] x -> ten_ok [N; C; H; W] o ->
  let f := fun c n h w => (tdat x).[((n * C + c) * H + h) * W + w] in
  let mu := fun c => if tr : bool then mean3 N H W (f c) else (tdat rmean).[c] in
  let v := fun c => if tr : bool then variance3 N H W (f c) else (tdat rvar).[c] in
  exists std' rmean' rvar' cent' nin' nout' o',
    lforward E (LBN2 eps alpha gamma beta std rmean rvar centered nin nout) [x] [o] =
      Ok (LBN2 eps alpha gamma beta std' rmean' rvar' cent' nin' nout', o') /\
    bn2_state C gamma beta std' rmean' rvar' /\
    (tot nin' = if (tot nin =? 0)%nat then (N * C * H * W)%nat else tot nin) /\
    (tot nout' = if (tot nin =? 0)%nat then (N * C * H * W)%nat else tot nout) /\
    (tot cent' = if (tot centered =? 0)%nat then (N * C * H * W)%nat else tot centered) /\
    ten_ok [N; C; H; W] o' /\
    (forall n c h w, (n < N)%nat -> (c < C)%nat -> (h < H)%nat -> (w < W)%nat ->
       (tdat o').[((n * C + c) * H + h) * W + w] =
       (tdat (p_data gamma)).[c] * ((f c n h w - mu c) / sqrt (v c + eps)) + (tdat (p_data beta)).[c]) /\
    (forall n c h w, (n < N)%nat -> (c < C)%nat -> (h < H)%nat -> (w < W)%nat ->
       (tdat cent').[((n * H + h) * W + w) * C + c] = f c n h w - mu c) /\
    (forall c, (c < C)%nat -> (tdat std').[c] = sqrt (v c + eps)) /\
    (if tr then forall c, (c < C)%nat -> (tdat rmean').[c] = (tdat rmean).[c] * alpha + mean3 N H W (f c) * (1 - alpha)
           else rmean' = rmean) /\
    (if tr then forall c, (c < C)%nat -> (tdat rvar').[c] = (tdat rvar).[c] * alpha + variance3 N H W (f c) * (1 - alpha)
           else rvar' = rvar).
Proof.
  intros Hn (Pg & Pb & Ts & Tm & Tv) [Hb Hcb] Htg Htb Hx Ho f mu v.
  destruct (prm_ok_len _ _ Pg) as [Lg _]. destruct (prm_ok_len _ _ Pb) as [Lb _].
  pose proof (ten_ok_len _ _ Hx) as Lx. pose proof (ten_ok_len _ _ Ho) as Lo.
  pose proof (ten_ok_len _ _ Ts) as Ls. pose proof (ten_ok_len _ _ Tm) as Lm. pose proof (ten_ok_len _ _ Tv) as Lv.
  rewrite prodN1 in *. rewrite prodN4 in *.
  assert (Hbuf : exists ni1 no1, (if (tot nin =? 0)%nat then (fresh E [N; H; W; C], fresh E [N; H; W; C]) else (nin, nout)) = (ni1, no1) /\
     (N * C * H * W <= length (tdat ni1))%nat /\ (N * C * H * W <= length (tdat no1))%nat /\
     (length (tdat ni1) = if (tot nin =? 0)%nat then (N * C * H * W)%nat else tot nin) /\
     (length (tdat no1) = if (tot nin =? 0)%nat then (N * C * H * W)%nat else tot nout)).
  { destruct (Nat.eqb_spec (tot nin) 0) as [E0|E0].
    - do 2 eexists. split; [reflexivity|]. cbn [fresh tdat tsh]. rewrite tab_length, prodN4.
      replace (N * H * W * C)%nat with (N * C * H * W)%nat by ring. auto.
    - do 2 eexists. split; [reflexivity|]. destruct Hb as [E1|[E1 E2]]; [lia|]. auto. }
  destruct Hbuf as (ni1 & no1 & Ebuf & Lni & Lno & Kni & Kno).
  assert (Hc : exists c1, (if (tot centered =? 0)%nat then fresh E [(N * H * W)%nat; C] else centered) = c1 /\
     (N * C * H * W <= length (tdat c1))%nat /\
     (length (tdat c1) = if (tot centered =? 0)%nat then (N * C * H * W)%nat else tot centered)).
  { destruct (Nat.eqb_spec (tot centered) 0) as [E0|E0].
    - eexists. split; [reflexivity|]. cbn [fresh tdat tsh]. rewrite tab_length, prodN2.
      replace (N * H * W * C)%nat with (N * C * H * W)%nat by ring. auto.
    - eexists. split; [reflexivity|]. destruct Hcb as [E1|E1]; [lia|]. auto. }
  destruct Hc as (c1 & Ec & Lc & Kc).
  destruct (nchw2nhwc_gen N C H W (tdat x) (tdat ni1) 0) as (nd & End & Lnd & _ & Vnd); [lia|lia|].
  assert (ET : (N * C * H * W = N * H * W * C)%nat) by ring.
  destruct (bn_forward_gen tr (N * H * W) C nd (tdat no1) (tdat c1) (tdat std) (tdat rmean) (tdat rvar) eps alpha
              (tdat (p_data gamma)) (tdat (p_data beta)) Hn) as (od' & cd' & sd' & rm' & rv' & F & K); try lia.
  destruct K as (K1 & K2 & K3 & K4 & K5 & K6 & K7 & K8 & K9 & K10).
  assert (Em : forall c, (c < C)%nat -> mean (N * H * W) (fun i => nd.[i * C + c]) = mean3 N H W (f c)).
  { intros c Hcc. apply mean_planes. intros. apply Vnd; assumption. }
  assert (Ev : forall c, (c < C)%nat -> variance (N * H * W) (fun i => nd.[i * C + c]) = variance3 N H W (f c)).
  { intros c Hcc. apply variance_planes. intros. apply Vnd; assumption. }
  destruct (nhwc2nchw_gen N C H W od' (tdat o) 0) as (out & Eout & Lout & _ & Vout); [lia|lia|].
  destruct Hx as [Sx Wx], Ho as [So Wo], Ts as [Ss Ws], Tm as [Sm Wm], Tv as [Sv Wv].
  assert (HR : forall n h w, (n < N)%nat -> (h < H)%nat -> (w < W)%nat -> ((n * H + h) * W + w < N * H * W)%nat).
  { intros. apply mult_lt; [apply mult_lt|]; assumption. }
  exists (set_dat std sd'), (set_dat rmean rm'), (set_dat rvar rv'), (set_dat c1 cd'), (set_dat ni1 nd), (set_dat no1 od'), (set_dat o out).
  split; [|split; [|split; [|split; [|split; [|split; [|split; [|split; [|split; [|split]]]]]]]]].
  - cbn [lforward]. rewrite validate_rank_Ok by (rewrite ?Sx, ?So; reflexivity). unfold front. cbn [rd nth_error bind].
    unfold bn2_fwd. rewrite Htg, Htb. replace (Bool.eqb tr tr) with true by (destruct tr; reflexivity).
    cbn [dw_assert bind]. mred. rewrite Sx. mred. rewrite Ebuf, Ec, End. cbn [bind]. rewrite F. cbn [bind]. rewrite So. mred. rewrite Eout. reflexivity.
  - assert (KO : forall t d, tsh t = [C] -> length d = C -> ten_ok [C] (set_dat t d)).
    { intros t d St Ld. split; [exact St|]. unfold twf. cbn [set_dat tsh tdat]. rewrite St, prodN1. exact Ld. }
    split; [exact Pg|]. split; [exact Pb|]. split; [apply KO; assumption|]. split; apply KO; assumption.
  - unfold tot. cbn [set_dat tdat]. rewrite Lnd. exact Kni.
  - unfold tot. cbn [set_dat tdat]. rewrite K1. exact Kno.
  - unfold tot. cbn [set_dat tdat]. rewrite K2. exact Kc.
  - split; [exact So|]. unfold twf. cbn [set_dat tsh tdat]. rewrite So, prodN4. lia.
  - intros n c h w H1 H2 H3 H4. cbn [set_dat tdat]. rewrite Vout by assumption. rewrite K6 by (auto; apply HR; assumption).
    rewrite Vnd by assumption. unfold mu, v, f. destruct tr; [|reflexivity]. rewrite Em, Ev by assumption. reflexivity.
  - intros n c h w H1 H2 H3 H4. cbn [set_dat tdat]. rewrite K7 by (auto; apply HR; assumption).
    rewrite Vnd by assumption. unfold mu, f. destruct tr; [|reflexivity]. rewrite Em by assumption. reflexivity.
  - intros c Hcc. cbn [set_dat tdat]. rewrite K8 by assumption. unfold v. destruct tr; [|reflexivity]. rewrite Ev by assumption. reflexivity.
  - destruct tr.
    + intros c Hcc. cbn [set_dat tdat]. rewrite K9, Em by assumption. reflexivity.
    + rewrite K9. destruct rmean; reflexivity.
  - destruct tr.
    + intros c Hcc. cbn [set_dat tdat]. rewrite K10, Ev by assumption. reflexivity.
    + rewrite K10. destruct rvar; reflexivity.
Qed.

Lemma mean3_flat a b c f : mean3 a b c f = mean (a * b * c) (fun p => f (p / c / b)%nat (p / c mod b)%nat (p mod c)%nat).
Proof.
  unfold mean3, mean. f_equal. rewrite (rsum_mult (a * b) c), (rsum_mult a b).
  apply rsum_ext. intros i Hi. apply rsum_ext. intros j Hj. apply rsum_ext. intros k Hk.
  destruct (divmod_nat (i * b + j) c k Hk) as [-> ->]. destruct (divmod_nat i b j Hj) as [-> ->]. reflexivity.
Qed.
Lemma variance3_flat a b c f : variance3 a b c f = variance (a * b * c) (fun p => f (p / c / b)%nat (p / c mod b)%nat (p mod c)%nat).
Proof.
  unfold variance3, variance. rewrite <- mean3_flat. f_equal. rewrite (rsum_mult (a * b) c), (rsum_mult a b).
  apply rsum_ext. intros i Hi. apply rsum_ext. intros j Hj. apply rsum_ext. intros k Hk.
  destruct (divmod_nat (i * b + j) c k Hk) as [-> ->]. destruct (divmod_nat i b j Hj) as [-> ->]. reflexivity.
Qed.
Lemma mean3_ext a b c f g : (forall i j k, (i < a)%nat -> (j < b)%nat -> (k < c)%nat -> f i j k = g i j k) -> mean3 a b c f = mean3 a b c g.
Proof.
  intros H. unfold mean3. f_equal. apply rsum_ext. intros i Hi. apply rsum_ext. intros j Hj. apply rsum_ext. intros k Hk. apply H; assumption.
Qed.
Lemma variance3_ext a b c f g : (forall i j k, (i < a)%nat -> (j < b)%nat -> (k < c)%nat -> f i j k = g i j k) -> variance3 a b c f = variance3 a b c g.
Proof.
  intros H. unfold variance3. rewrite (mean3_ext a b c f g H). f_equal.
  apply rsum_ext. intros i Hi. apply rsum_ext. intros j Hj. apply rsum_ext. intros k Hk. rewrite H by assumption. reflexivity.
Qed.
Lemma variance3_nonneg a b c f : 0 <= variance3 a b c f.
Proof. rewrite variance3_flat. apply variance_nonneg. Qed.

(** ** Training mode normalises *)
Lemma bn1_normalises E eps alpha gamma beta std rmean rvar centered n m x o :
  (0 < n)%nat -> 0 < eps -> bn1_state m gamma beta std rmean rvar centered -> p_train gamma = true -> p_train beta = true ->
  ten_ok [n; m] x -> ten_ok [n; m] o ->
  exists L' o', lforward E (LBN1 eps alpha gamma beta std rmean rvar centered) [x] [o] = Ok (L', o') /\ ten_ok [n; m] o' /\
    forall j, (j < m)%nat ->
      let v := variance n (fun i => (tdat x).[i * m + j]) in
      mean n (fun i => (tdat o').[i * m + j]) = (tdat (p_data beta)).[j] /\
      variance n (fun i => (tdat o').[i * m + j]) = (tdat (p_data gamma)).[j] ^ 2 * (v / (v + eps)).
Proof.
  intros Hn He Hst Hg Hb Hx Ho.
  destruct (bn1_forward E eps alpha gamma beta std rmean rvar centered n m x o true (fun _ => Hn) Hst Hg Hb Hx Ho)
    as (s' & rm' & rv' & c' & o' & F & _ & _ & To & Vo & _).
  do 2 eexists. split; [exact F|]. split; [exact To|]. intros j Hj v. split.
  - rewrite (mean_ext n _ _ (fun i Hi => Vo i j Hi Hj)). cbn beta iota. apply (normalised_mean n (fun i => (tdat x).[i * m + j])); assumption.
  - rewrite (variance_ext n _ _ (fun i Hi => Vo i j Hi Hj)). cbn beta iota. apply (normalised_variance n (fun i => (tdat x).[i * m + j])); assumption.
Qed.

Lemma bn2_normalises E eps alpha gamma beta std rmean rvar centered nin nout N C H W x o :
  (0 < N * H * W)%nat -> 0 < eps -> bn2_state C gamma beta std rmean rvar -> bn2_room (N * C * H * W) centered nin nout ->
  p_train gamma = true -> p_train beta = true -> ten_ok [N; C; H; W] x -> ten_ok [N; C; H; W] o ->
  exists L' o', lforward E (LBN2 eps alpha gamma beta std rmean rvar centered nin nout) [x] [o] = Ok (L', o') /\
    ten_ok [N; C; H; W] o' /\
    forall c, (c < C)%nat ->
      let v := variance3 N H W (fun n h w => (tdat x).[((n * C + c) * H + h) * W + w]) in
      mean3 N H W (fun n h w => (tdat o').[((n * C + c) * H + h) * W + w]) = (tdat (p_data beta)).[c] /\
      variance3 N H W (fun n h w => (tdat o').[((n * C + c) * H + h) * W + w]) = (tdat (p_data gamma)).[c] ^ 2 * (v / (v + eps)).
Proof.
  intros Hn He Hst Hroom Hg Hb Hx Ho.
  destruct (bn2_forward E eps alpha gamma beta std rmean rvar centered nin nout N C H W x o true (fun _ => Hn) Hst Hroom Hg Hb Hx Ho)
    as (s' & rm' & rv' & c' & ni' & no' & o' & F & _ & _ & _ & _ & To & Vo & _).
  do 2 eexists. split; [exact F|]. split; [exact To|]. intros c Hc v. cbn beta iota in Vo.
  pose proof (normalised_mean (N * H * W)%nat (fun p => (tdat x).[((p / W / H * C + c) * H + p / W mod H) * W + p mod W]) (tdat (p_data gamma)).[c] (tdat (p_data beta)).[c] eps Hn He) as Hm.
  pose proof (normalised_variance (N * H * W)%nat (fun p => (tdat x).[((p / W / H * C + c) * H + p / W mod H) * W + p mod W]) (tdat (p_data gamma)).[c] (tdat (p_data beta)).[c] eps Hn He) as Hv.
  rewrite <- (mean3_flat N H W (fun n h w => (tdat x).[((n * C + c) * H + h) * W + w])) in Hm, Hv.
  rewrite <- (variance3_flat N H W (fun n h w => (tdat x).[((n * C + c) * H + h) * W + w])) in Hm, Hv.
  fold v in Hm, Hv. split.
  - rewrite <- Hm.
    rewrite (mean3_ext N H W _ _ (fun n h w Hn' Hh Hw => Vo n c h w Hn' Hc Hh Hw)). rewrite mean3_flat. reflexivity.
  - rewrite <- Hv.
    rewrite (variance3_ext N H W _ _ (fun n h w Hn' Hh Hw => Vo n c h w Hn' Hc Hh Hw)). rewrite variance3_flat. reflexivity.
Qed.

(** ** Histories *)
Lemma running_cons alpha r0 s l : running alpha r0 (s :: l) = running alpha (r0 * alpha + s * (1 - alpha)) l.
Proof.
  unfold running. cbn [length]. change (S (length l)) with (1 + length l)%nat at 2. rewrite rsum_add.
  replace (S (length l) - 1)%nat with (length l) by lia. cbn [rsum]. change ((s :: l).[0]) with s. rewrite Nat.sub_0_r.
  rewrite (rsum_ext (length l) _ (fun k => (1 - alpha) * alpha ^ (length l - 1 - k) * l.[k])).
  - cbn [pow]. ring.
  - intros k Hk. change ((s :: l).[1 + k]) with l.[k]. replace (length l - (1 + k))%nat with (length l - 1 - k)%nat by lia. reflexivity.
Qed.

Lemma running_nonneg alpha r0 l : 0 <= alpha <= 1 -> 0 <= r0 -> (forall s, In s l -> 0 <= s) -> 0 <= running alpha r0 l.
Proof.
  intros Ha. revert r0. induction l as [|s l IH]; intros r0 H0 Hl.
  - unfold running. cbn. lra.
  - rewrite running_cons. apply IH; [|intros; apply Hl; right; assumption].
    assert (0 <= s) by (apply Hl; left; reflexivity).
    apply Rplus_le_le_0_compat; apply Rmult_le_pos; lra.
Qed.

Lemma bn1_history e a m cs : forall g b s rm rv c,
  ten_ok [m] s -> ten_ok [m] rm -> ten_ok [m] rv -> buf_ok c -> (forall c, In c cs -> call1_ok m c) ->
  exists g' b' s' rm' rv' c',
    bn_history (LBN1 e a g b s rm rv c) cs = Ok (LBN1 e a g' b' s' rm' rv' c') /\
    ten_ok [m] s' /\ ten_ok [m] rm' /\ ten_ok [m] rv' /\ buf_ok c' /\
    forall j, (j < m)%nat ->
      (tdat rm').[j] = running a (tdat rm).[j] (map (call1_mean m j) (filter training_call cs)) /\
      (tdat rv').[j] = running a (tdat rv).[j] (map (call1_var m j) (filter training_call cs)).
Proof.
  induction cs as [|k cs IH]; intros g b s rm rv c Ts Tm Tv Wc Hok; cbn [bn_history].
  - do 6 eexists. split; [reflexivity|]. split; [exact Ts|]. split; [exact Tm|]. split; [exact Tv|]. split; [exact Wc|].
    intros j Hj. unfold running. cbn. split; ring.
  - destruct (Hok k (or_introl eq_refl)) as (Pg & Pb & Et & n & Hx & Ho & Hn).
    destruct (bn1_forward (c_env k) e a (c_gamma k) (c_beta k) s rm rv c n m (c_x k) (c_o k) (training_call k) Hn)
      as (s1 & rm1 & rv1 & c1 & o1 & F & (_ & _ & Ts1 & Tm1 & Tv1 & Wc1) & _ & _ & _ & _ & _ & Vm & Vv);
      [repeat split; (apply Pg || apply Pb || apply Ts || apply Tm || apply Tv || exact Wc)|reflexivity|exact Et|exact Hx|exact Ho|].
    cbn [bn_call]. rewrite F. cbn [bind].
    destruct (IH (c_gamma k) (c_beta k) s1 rm1 rv1 c1 Ts1 Tm1 Tv1 Wc1) as (g' & b' & s' & rm' & rv' & c' & F' & T1 & T2 & T3 & T4 & V);
      [intros; apply Hok; right; assumption|].
    exists g', b', s', rm', rv', c'. split; [exact F'|]. split; [exact T1|]. split; [exact T2|]. split; [exact T3|]. split; [exact T4|].
    intros j Hj. destruct (V j Hj) as [V1 V2]. cbn [filter]. destruct Hx as [Sx _].
    destruct (training_call k) eqn:Etr.
    + cbn [map]. rewrite !running_cons. rewrite V1, V2, Vm, Vv by exact Hj. unfold call1_mean, call1_var. rewrite Sx. split; reflexivity.
    + subst rm1 rv1. split; assumption.
Qed.

Lemma bn2_history e a C R cs : forall g b s rm rv c ni no,
  ten_ok [C] s -> ten_ok [C] rm -> ten_ok [C] rv -> bn2_room R c ni no ->
  (forall c, In c cs -> call2_ok C c /\ (tot (c_x c) <= R)%nat) ->
  (tot c = O \/ tot ni = O -> match cs with k :: _ => tot (c_x k) = R | [] => True end) ->
  exists g' b' s' rm' rv' c' ni' no',
    bn_history (LBN2 e a g b s rm rv c ni no) cs = Ok (LBN2 e a g' b' s' rm' rv' c' ni' no') /\
    ten_ok [C] s' /\ ten_ok [C] rm' /\ ten_ok [C] rv' /\ bn2_room R c' ni' no' /\
    forall j, (j < C)%nat ->
      (tdat rm').[j] = running a (tdat rm).[j] (map (call2_mean C j) (filter training_call cs)) /\
      (tdat rv').[j] = running a (tdat rv).[j] (map (call2_var C j) (filter training_call cs)).
Proof.
  induction cs as [|k cs IH]; intros g b s rm rv c ni no Ts Tm Tv Hr Hok Hfirst; cbn [bn_history].
  - do 8 eexists. split; [reflexivity|]. split; [exact Ts|]. split; [exact Tm|]. split; [exact Tv|]. split; [exact Hr|].
    intros j Hj. unfold running. cbn. split; ring.
  - destruct (Hok k (or_introl eq_refl)) as ((Pg & Pb & Et & N & H & W & Hx & Ho & Hn) & HR).
    assert (Lx : tot (c_x k) = (N * C * H * W)%nat) by (unfold tot; rewrite (ten_ok_len _ _ Hx), prodN4; reflexivity).
    destruct Hr as [Hr1 Hr2].
    assert (Hroom : bn2_room (N * C * H * W) c ni no).
    { rewrite Lx in HR. split; [destruct Hr1; [left; assumption|right; lia]|destruct Hr2; [left; assumption|right; lia]]. }
    destruct (bn2_forward (c_env k) e a (c_gamma k) (c_beta k) s rm rv c ni no N C H W (c_x k) (c_o k) (training_call k) Hn)
      as (s1 & rm1 & rv1 & c1 & ni1 & no1 & o1 & F & (_ & _ & Ts1 & Tm1 & Tv1) & Ki & Ko & Kc & _ & _ & _ & _ & Vm & Vv);
      [repeat split; (apply Pg || apply Pb || apply Ts || apply Tm || apply Tv)|exact Hroom|reflexivity|exact Et|exact Hx|exact Ho|].
    cbn [bn_call]. rewrite F. cbn [bind].
    assert (Hc1 : (R <= tot c1)%nat).
    { rewrite Kc. destruct (Nat.eqb_spec (tot c) 0) as [E0|E0]; [rewrite <- Lx, Hfirst by auto; lia|lia]. }
    assert (Hi1 : (R <= tot ni1 /\ R <= tot no1)%nat).
    { rewrite Ki, Ko. destruct (Nat.eqb_spec (tot ni) 0) as [E0|E0]; [rewrite <- Lx, Hfirst by auto; lia|lia]. }
    destruct (IH (c_gamma k) (c_beta k) s1 rm1 rv1 c1 ni1 no1 Ts1 Tm1 Tv1) as (g' & b' & s' & rm' & rv' & c' & ni' & no' & F' & T1 & T2 & T3 & T4 & V);
      [split; right; lia|intros; apply Hok; right; assumption| |].
    { intros Hz. destruct cs as [|k2 cs]; [exact I|]. destruct (Hok k2 (or_intror (or_introl eq_refl))) as [_ H2]. lia. }
    exists g', b', s', rm', rv', c', ni', no'. split; [exact F'|]. split; [exact T1|]. split; [exact T2|]. split; [exact T3|]. split; [exact T4|].
    intros j Hj. destruct (V j Hj) as [V1 V2]. cbn [filter]. destruct Hx as [Sx _].
    destruct (training_call k) eqn:Etr.
    + cbn [map]. rewrite !running_cons. rewrite V1, V2, Vm, Vv by exact Hj. unfold call2_mean, call2_var, call2_at. rewrite Sx. split; reflexivity.
    + subst rm1 rv1. split; assumption.
Qed.

(** ** Layers that compute an affine function of each element *)
Lemma affine_partial E L sh x go (a b : nat -> R) q :
  ten_ok sh x -> ten_ok sh go -> (q < prodN sh)%nat ->
  (forall x' o, ten_ok sh x' -> ten_ok sh o -> exists L' o', lforward E L [x'] [o] = Ok (L', o') /\ ten_ok sh o' /\
     forall p, (p < prodN sh)%nat -> (tdat o').[p] = a p * (tdat x').[p] + b p) ->
  partial_of E (fun _ => L) (bump_input [x] 0 q) sh go ((tdat go).[q] * a q).
Proof.
  intros Hx Hgo Hq HL. pose proof (ten_ok_len _ _ Hx) as Lx. pose proof (ten_ok_len _ _ Hgo) as Lgo.
  set (xb := fun s => set_dat x (bump (tdat x) q s)).
  assert (Hxb : forall s, ten_ok sh (xb s)).
  { intros s. destruct Hx as [Sx Wx]. split; [exact Sx|]. unfold twf, xb in *. cbn [set_dat tsh tdat]. unfold bump. rewrite upd_length. exact Wx. }
  exists (fun s => mkT sh (tab (prodN sh) (fun p => a p * (tdat (xb s)).[p] + b p))). split.
  - intros s o So Wo. unfold bump_input. cbn [upd nth]. fold (xb s).
    destruct (HL (xb s) o (Hxb s) (conj So Wo)) as (L' & o' & F & To & V). exists L'. rewrite F. f_equal. f_equal.
    pose proof (ten_ok_len _ _ To) as Lo. destruct To as [So' _]. destruct o' as [so' d']. cbn [tsh tdat] in *. subst so'. f_equal.
    apply list_ext with (d := 0); [rewrite tab_length; exact Lo|]. intros p Hp. rewrite Lo in Hp. rewrite nth_tab by exact Hp.
    apply V. exact Hp.
  - unfold weighted, tot. rewrite Lgo. cbn [tdat].
    apply dl_eq with (rsum (prodN sh) (fun p => if (p =? q)%nat then (tdat go).[q] * a q else 0)).
    + apply dl_ext with (fun s => rsum (prodN sh) (fun p => (tdat go).[p] * (a p * (tdat (xb s)).[p] + b p))).
      { intros s. apply rsum_ext. intros p Hp. rewrite nth_tab by exact Hp. reflexivity. }
      apply dl_rsum. intros p Hp. unfold xb, bump. cbn [set_dat tdat].
      destruct (Nat.eqb_spec p q) as [->|Hne].
      * apply dl_ext with (fun s => (tdat go).[q] * a q * s + (tdat go).[q] * (a q * (tdat x).[q] + b q)).
        { intros s. rewrite nth_upd_eq by lia. ring. }
        apply dl_eq with ((tdat go).[q] * a q * 1 + 0); [|ring].
        apply dl_plus; [apply dl_scal; apply dl_id|apply dl_const].
      * apply dl_ext with (fun _ => (tdat go).[p] * (a p * (tdat x).[p] + b p)).
        { intros s. rewrite nth_upd_neq by congruence. reflexivity. }
        apply dl_const.
    + rewrite (rsum_indicator (prodN sh) q (fun _ => (tdat go).[q] * a q)). apply Nat.ltb_lt in Hq. rewrite Hq. reflexivity.
Qed.

(** ** Backward after an evaluation-mode forward *)
Lemma bn_input_grad_columns n m cent std go gi ga :
  (0 < n)%nat -> (n * m <= length cent)%nat -> length std = m -> (n * m <= length go)%nat -> (n * m <= length gi)%nat -> length ga = m ->
  exists gi', bn_input_grad n m cent std go gi ga = Ok gi' /\ length gi' = length gi /\
    forall j, (j < m)%nat -> rsum n (fun i => gi'.[i * m + j] - gi.[i * m + j]) = 0.
Proof.
  intros Hn Lc Ls Lgo Lgi Lga. unfold bn_input_grad. rewrite !emap_Ok by lia. cbn [bind].
  eexists. split; [reflexivity|]. split; [apply put2_length; exact Lgi|]. intros j Hj.
  set (gv := fun j => rsum n (fun i => el cent m i j * (el go m i j * ga.[j]) / (std.[j] * std.[j])) * -1 / (std.[j] * 2)).
  set (gc := fun i j => el go m i j * ga.[j] / std.[j] + el cent m i j * gv j * (2 / INR n)).
  etransitivity.
  - apply rsum_ext with (g := fun i => gc i j - rsum n (fun i => gc i j) / INR n). intros i Hi.
    match goal with |- (put2 n m ?f gi).[_] - _ = _ => pose proof (el_put2 n m f gi i j Hi Hj) as P end.
    unfold el at 1 in P. rewrite P. unfold gc, gv, el. ring.
  - rewrite rsum_minus, rsum_const. field. apply not_0_INR. lia.
Qed.

Lemma rsum_differ n f g : rsum n f <> rsum n g -> exists i, (i < n)%nat /\ f i <> g i.
Proof.
  induction n as [|n IH]; cbn [rsum]; intros H; [lra|].
  destruct (Req_dec (f n) (g n)) as [E|E]; [|exists n; auto].
  destruct IH as (i & Hi & Hne); [rewrite E in H; intros E2; apply H; rewrite E2; reflexivity|]. exists i. auto.
Qed.

Lemma bn1_eval_backward E E2 eps alpha gamma beta std rmean rvar centered n m x o :
  (0 < n)%nat -> bn1_state m gamma beta std rmean rvar centered -> p_train gamma = false -> p_train beta = false ->
  (forall j, (j < m)%nat -> 0 < (tdat rvar).[j] + eps) ->
  ten_ok [n; m] x -> ten_ok [n; m] o ->
  let L := LBN1 eps alpha gamma beta std rmean rvar centered in
  exists L1 o', lforward E L [x] [o] = Ok (L1, o') /\
    forall gm kg ko gi go, ten_ok [n; m] gi -> ten_ok [n; m] go -> nth_error gm kg = Some gi -> nth_error gm ko = Some go ->
    exists L2 L3 gi', lupdate E2 L1 [x] [go] = Ok L2 /\ lbackward E2 L2 [x] [o'] gm [kg] [ko] = Ok (L3, upd gm kg gi') /\
      forall j, (j < m)%nat -> (tdat (p_data gamma)).[j] * rsum n (fun i => (tdat go).[i * m + j]) <> 0 ->
      exists i r, (i < n)%nat /\ partial_of E (fun _ => L) (bump_input [x] 0 (i * m + j)) [n; m] go r /\
        (tdat gi').[i * m + j] - (tdat gi).[i * m + j] <> r.
Proof.
  intros Hn Hst Hg Hb Hpos Hx Ho L.
  destruct (bn1_forward E eps alpha gamma beta std rmean rvar centered n m x o false ltac:(discriminate) Hst Hg Hb Hx Ho)
    as (s' & rm' & rv' & c' & o' & F & Hst' & Tc & To & Vo & Vc & Vs & _).
  do 2 eexists. split; [exact F|]. intros gm kg ko gi go Hgi Hgo Gk Gout.
  destruct Hst' as (Pg & Pb & Ts & Tm & Tv & Wc).
  destruct (prm_ok_len _ _ Pg) as [Lg Lgg]. destruct (prm_ok_len _ _ Pb) as [Lb Lbg].
  pose proof (ten_ok_len _ _ Hgi) as Lgi. pose proof (ten_ok_len _ _ Hgo) as Lgo.
  pose proof (ten_ok_len _ _ Ts) as Ls. pose proof (ten_ok_len _ _ Tc) as Lc. rewrite prodN1 in *. rewrite prodN2 in *.
  destruct (bn_input_grad_columns n m (tdat c') (tdat s') (tdat go) (tdat gi) (tdat (p_data gamma)) Hn) as (gi' & Eg & Lg' & Cg); try lia.
  destruct Tc as [Sc _], Ts as [Ss _], Hgi as [Sgi Wgi]. destruct Pg as (Pg1 & Pg2 & Pg3 & Pg4). destruct Pb as (Pb1 & Pb2 & Pb3 & Pb4).
  do 2 eexists. exists (set_dat gi gi'). split; [|split].
  - cbn [lupdate]. mred. rewrite Sc. mred. rewrite Ss. mred. rewrite Pg3. mred. rewrite Pb3. mred. destruct Hgo as [Sgo _]. rewrite Sgo. mred.
    rewrite !same_refl. mred. unfold bn_param_grad. rewrite !emap_Ok by lia. mred. reflexivity.
  - cbn [lbackward]. mred. rewrite Sc. mred. rewrite Ss. mred. cbn [set_grad p_data]. rewrite Pg1. mred. rewrite (nth_error_rd _ _ _ Gout). mred.
    destruct Hgo as [Sgo _]. rewrite Sgo. mred. erewrite on_grad_Ok; [reflexivity|exact Gk|]. mred. rewrite Sgi. mred. rewrite !same_refl. mred. exact Eg.
  - intros j Hj Hne. cbn [set_dat tdat].
    set (a := fun p => (tdat (p_data gamma)).[p mod m] / sqrt ((tdat rvar).[p mod m] + eps)).
    set (b := fun p => (tdat (p_data beta)).[p mod m] - a p * (tdat rmean).[p mod m]).
    assert (Hs : 0 < sqrt ((tdat rvar).[j] + eps)) by (apply sqrt_lt_R0; apply Hpos; exact Hj).
    destruct (rsum_differ n (fun i => gi'.[i * m + j] - (tdat gi).[i * m + j]) (fun i => (tdat go).[i * m + j] * a (i * m + j)%nat)) as (i & Hi & Hd).
    { rewrite Cg by exact Hj. intros E0. apply Hne.
      rewrite (rsum_ext n _ (fun i => (tdat go).[i * m + j] * ((tdat (p_data gamma)).[j] / sqrt ((tdat rvar).[j] + eps)))) in E0.
      - rewrite rsum_scal_r in E0. symmetry in E0. apply Rmult_integral in E0. destruct E0 as [E0|E0]; [rewrite E0; ring|].
        assert ((tdat (p_data gamma)).[j] = 0).
        { apply Rmult_eq_reg_r with (/ sqrt ((tdat rvar).[j] + eps)); [unfold Rdiv in E0; lra|]. apply Rinv_neq_0_compat. lra. }
        rewrite H. ring.
      - intros i Hi. unfold a. destruct (divmod_nat i m j Hj) as [_ ->]. reflexivity. }
    exists i. eexists. split; [exact Hi|]. split; [|exact Hd].
    apply affine_partial with (b := b); [exact Hx|exact Hgo|rewrite prodN2; apply mult_lt; assumption|].
    intros x' o1 Hx' Ho1.
    destruct (bn1_forward E eps alpha gamma beta std rmean rvar centered n m x' o1 false ltac:(discriminate) Hst Hg Hb Hx' Ho1)
      as (s2 & rm2 & rv2 & c2 & o2 & F2 & _ & _ & To2 & Vo2 & _).
    do 2 eexists. split; [exact F2|]. split; [exact To2|]. intros p Hp. rewrite prodN2 in Hp.
    destruct (divmod_lt _ _ _ Hp) as (P1 & P2 & P3). unfold b, a. specialize (Vo2 _ _ P1 P2). cbn beta iota in Vo2. rewrite <- P3 in Vo2. rewrite Vo2.
    unfold Rdiv. ring.
Qed.

Lemma bn2_eval_backward E E2 eps alpha gamma beta std rmean rvar centered nin nout N C H W x o :
  (0 < N * C * H * W)%nat -> bn2_state C gamma beta std rmean rvar ->
  (tot nin = 0 \/ (tot nin = N * C * H * W /\ tot nout = N * C * H * W))%nat ->
  (tot centered = 0 \/ tot centered = N * C * H * W)%nat ->
  p_train gamma = false -> p_train beta = false ->
  (forall j, (j < C)%nat -> 0 < (tdat rvar).[j] + eps) ->
  ten_ok [N; C; H; W] x -> ten_ok [N; C; H; W] o ->
  let L := LBN2 eps alpha gamma beta std rmean rvar centered nin nout in
  exists L1 o', lforward E L [x] [o] = Ok (L1, o') /\
    forall gm kg ko gi go, ten_ok [N; C; H; W] gi -> ten_ok [N; C; H; W] go ->
    nth_error gm kg = Some gi -> nth_error gm ko = Some go ->
    exists L2 L3 gi', lupdate E2 L1 [x] [go] = Ok L2 /\ lbackward E2 L2 [x] [o'] gm [kg] [ko] = Ok (L3, upd gm kg gi') /\
      forall c, (c < C)%nat ->
        (tdat (p_data gamma)).[c] * rsum N (fun n => rsum H (fun h => rsum W (fun w => (tdat go).[((n * C + c) * H + h) * W + w]))) <> 0 ->
        exists n h w r, (n < N)%nat /\ (h < H)%nat /\ (w < W)%nat /\
          partial_of E (fun _ => L) (bump_input [x] 0 (((n * C + c) * H + h) * W + w)) [N; C; H; W] go r /\
          (tdat gi').[((n * C + c) * H + h) * W + w] <> r.
Proof.
  intros HT Hst Hbuf Hcb Hg Hb Hpos Hx Ho L.
  assert (ET : (N * C * H * W = N * H * W * C)%nat) by ring.
  assert (HC : (0 < C)%nat) by (destruct C; lia).
  assert (Hn : (0 < N * H * W)%nat) by (destruct (N * H * W)%nat; lia).
  assert (Hroom : bn2_room (N * C * H * W) centered nin nout) by (split; [destruct Hbuf; [left|right]; lia|destruct Hcb; [left|right]; lia]).
  destruct (bn2_forward E eps alpha gamma beta std rmean rvar centered nin nout N C H W x o false ltac:(discriminate) Hst Hroom Hg Hb Hx Ho)
    as (s' & rm' & rv' & c' & ni' & no' & o' & F & Hst' & Ki & Ko & Kc & To & Vo & Vc & Vs & _).
  do 2 eexists. split; [exact F|]. intros gm kg ko gi go Hgi Hgo Gk Gout.
  destruct Hst' as (Pg & Pb & Ts & Tm & Tv).
  destruct (prm_ok_len _ _ Pg) as [Lg Lgg]. destruct (prm_ok_len _ _ Pb) as [Lb Lbg].
  pose proof (ten_ok_len _ _ Hgi) as Lgi. pose proof (ten_ok_len _ _ Hgo) as Lgo.
  pose proof (ten_ok_len _ _ Ts) as Ls. rewrite prodN1 in *. rewrite prodN4 in *.
  assert (Ki' : length (tdat ni') = (N * C * H * W)%nat) by (fold (tot ni'); rewrite Ki; destruct (Nat.eqb_spec (tot nin) 0); lia).
  assert (Ko' : length (tdat no') = (N * C * H * W)%nat) by (fold (tot no'); rewrite Ko; destruct (Nat.eqb_spec (tot nin) 0); lia).
  assert (Kc' : length (tdat c') = (N * C * H * W)%nat) by (fold (tot c'); rewrite Kc; destruct (Nat.eqb_spec (tot centered) 0); lia).
  assert (Ediv : (N * C * H * W / C = N * H * W)%nat) by (rewrite ET; apply Nat.div_mul; lia).
  assert (EC : (C =? 0)%nat = false) by (apply Nat.eqb_neq; lia).
  destruct (nchw2nhwc_gen N C H W (tdat go) (tdat no') 0) as (nd & End & Lnd & _ & Vnd); [lia|lia|].
  destruct (nchw2nhwc_gen N C H W (tdat go) nd 0) as (nd2 & End2 & Lnd2 & _ & Vnd2); [lia|lia|].
  assert (Lz : length (zeros (tdat ni')) = (N * C * H * W)%nat) by (unfold zeros; rewrite tab_length; exact Ki').
  destruct (bn_input_grad_columns (N * H * W) C (tdat c') (tdat s') nd2 (zeros (tdat ni')) (tdat (p_data gamma)) Hn)
    as (gd & Eg & Lgd & Cg); try lia.
  destruct (nhwc2nchw_gen N C H W gd (tdat gi) 0) as (gi' & Egi & Lgi' & _ & Vgi); [lia|lia|].
  destruct Ts as [Ss _], Hgi as [Sgi Wgi].
  do 2 eexists. exists (set_dat gi gi'). split; [|split].
  - cbn [lupdate]. mred. destruct Hgo as [Sgo _]. rewrite Sgo. mred. rewrite EC, End. cbn [bind].
    unfold tot. rewrite Lgo, Ediv. unfold bn_param_grad. rewrite !emap_Ok by lia. mred. reflexivity.
  - cbn [lbackward]. mred. rewrite (nth_error_rd _ _ _ Gout). mred. destruct Hgo as [Sgo _]. rewrite Sgo. mred. rewrite EC.
    cbn [set_dat tdat]. rewrite End2. cbn [bind]. unfold tot. rewrite Lgo, Ki', same_refl, Ediv. cbn [bind set_grad p_data]. rewrite Eg. cbn [bind].
    erewrite on_grad_Ok; [reflexivity|exact Gk|]. mred. rewrite Sgi. mred. exact Egi.
  - intros c Hc Hne. cbn [set_dat tdat].
    set (chan := fun p => (p / W / H mod C)%nat).
    set (a := fun p => (tdat (p_data gamma)).[chan p] / sqrt ((tdat rvar).[chan p] + eps)).
    set (b := fun p => (tdat (p_data beta)).[chan p] - a p * (tdat rmean).[chan p]).
    assert (Hchan : forall n c h w, (c < C)%nat -> (h < H)%nat -> (w < W)%nat -> chan (((n * C + c) * H + h) * W + w)%nat = c).
    { intros n1 c1 h1 w1 H1 H2 H3. unfold chan. destruct (divmod_nat ((n1 * C + c1) * H + h1) W w1 H3) as [-> _].
      destruct (divmod_nat (n1 * C + c1) H h1 H2) as [-> _]. destruct (divmod_nat n1 C c1 H1) as [_ ->]. reflexivity. }
    assert (Hs : 0 < sqrt ((tdat rvar).[c] + eps)) by (apply sqrt_lt_R0; apply Hpos; exact Hc).
    set (P := fun n h w => (((n * C + c) * H + h) * W + w)%nat).
    assert (Sgd : rsum N (fun n => rsum H (fun h => rsum W (fun w => gi'.[P n h w]))) = 0).
    { etransitivity; [|exact (Cg c Hc)]. rewrite (rsum_mult (N * H) W), (rsum_mult N H).
      apply rsum_ext. intros n1 H1. apply rsum_ext. intros h1 H2. apply rsum_ext. intros w1 H3. unfold P. rewrite Vgi by assumption.
      unfold zeros. rewrite nth_tab; [ring|]. rewrite Ki', ET. apply mult_lt; [apply mult_lt; [apply mult_lt|]|]; assumption. }
    destruct (rsum_differ N (fun n => rsum H (fun h => rsum W (fun w => gi'.[P n h w])))
                (fun n => rsum H (fun h => rsum W (fun w => (tdat go).[P n h w] * a (P n h w))))) as (n1 & Hn1 & D1).
    { rewrite Sgd. intros E0. apply Hne.
      assert (E1 : rsum N (fun n => rsum H (fun h => rsum W (fun w => (tdat go).[P n h w] * a (P n h w)))) =
                   rsum N (fun n => rsum H (fun h => rsum W (fun w => (tdat go).[P n h w]))) * ((tdat (p_data gamma)).[c] / sqrt ((tdat rvar).[c] + eps))).
      { rewrite <- rsum_scal_r. apply rsum_ext. intros n1 H1. rewrite <- rsum_scal_r. apply rsum_ext. intros h1 H2. rewrite <- rsum_scal_r.
        apply rsum_ext. intros w1 H3. unfold a, P. rewrite Hchan by assumption. reflexivity. }
      rewrite E1 in E0. symmetry in E0. apply Rmult_integral in E0. destruct E0 as [E0|E0]; [unfold P in E0; rewrite E0; ring|].
      assert (EZ : (tdat (p_data gamma)).[c] = 0).
      { apply Rmult_eq_reg_r with (/ sqrt ((tdat rvar).[c] + eps)); [unfold Rdiv in E0; lra|]. apply Rinv_neq_0_compat. lra. }
      rewrite EZ. ring. }
    apply rsum_differ in D1. destruct D1 as (h1 & Hh1 & D1). apply rsum_differ in D1. destruct D1 as (w1 & Hw1 & D1).
    exists n1, h1, w1. eexists. split; [exact Hn1|]. split; [exact Hh1|]. split; [exact Hw1|]. split; [|exact D1].
    apply affine_partial with (b := b); [exact Hx|exact Hgo|rewrite prodN4; unfold P; apply (lin4_lt N C H W); assumption|].
    intros x' o1 Hx' Ho1.
    destruct (bn2_forward E eps alpha gamma beta std rmean rvar centered nin nout N C H W x' o1 false ltac:(discriminate) Hst Hroom Hg Hb Hx' Ho1)
      as (s2 & rm2 & rv2 & c2 & ni2 & no2 & o2 & F2 & _ & _ & _ & _ & To2 & Vo2 & _).
    do 2 eexists. split; [exact F2|]. split; [exact To2|]. intros p Hp. rewrite prodN4 in Hp.
    destruct (nchw_surj N C H W p Hp) as (n2 & c3 & h2 & w2 & H1 & H2 & H3 & H4 & ->).
    specialize (Vo2 _ _ _ _ H1 H2 H3 H4). cbn beta iota in Vo2. rewrite Vo2. unfold b, a. rewrite Hchan by assumption. unfold Rdiv. ring.
Qed.

(** ** BatchNorm2D replaces the gradient of its input *)
Lemma nhwc2nchw_full N C H W (src d1 d2 : list R) : length d1 = (N * C * H * W)%nat -> length d2 = (N * C * H * W)%nat ->
  (N * C * H * W <= length src)%nat -> nhwc2nchw N C H W src d1 = nhwc2nchw N C H W src d2.
Proof.
  intros L1 L2 Ls.
  destruct (nhwc2nchw_gen N C H W src d1 0) as (r1 & E1 & K1 & _ & V1); [lia|lia|].
  destruct (nhwc2nchw_gen N C H W src d2 0) as (r2 & E2 & K2 & _ & V2); [lia|lia|].
  rewrite E1, E2. f_equal. apply list_ext with (d := 0); [lia|]. intros p Hp. rewrite K1, L1 in Hp.
  destruct (nchw_surj N C H W p Hp) as (n2 & c3 & h2 & w2 & H1 & H2 & H3 & H4 & ->).
  rewrite V1, V2 by assumption. reflexivity.
Qed.

Definition is_bn2 (L : layer) : Prop := exists e a g b s m v c ni no, L = LBN2 e a g b s m v c ni no.

Lemma upd_upd {V} (l : list V) k x y : upd (upd l k x) k y = upd l k y.
Proof. revert k. induction l as [|h t IH]; intros [|k]; cbn; try reflexivity. rewrite IH. reflexivity. Qed.

Lemma bn2_overwrites E L ins outs gm kg ko gi gi2 go N C H W : is_bn2 L ->
  ten_ok [N; C; H; W] gi -> ten_ok [N; C; H; W] gi2 -> ten_ok [N; C; H; W] go ->
  nth_error gm kg = Some gi -> nth_error gm ko = Some go -> kg <> ko ->
  lbackward E L ins outs (upd gm kg gi2) [kg] [ko] = lbackward E L ins outs gm [kg] [ko].
Proof.
  intros (e & a & g & b & s & m & v & c & ni & no & ->) Hgi Hgi2 Hgo Gk Gout Hne.
  assert (Hk : (kg < length gm)%nat) by (apply nth_error_Some; rewrite Gk; discriminate).
  assert (Gk2 : nth_error (upd gm kg gi2) kg = Some gi2) by (rewrite nth_error_upd_eq by exact Hk; reflexivity).
  assert (Gout2 : nth_error (upd gm kg gi2) ko = Some go) by (rewrite nth_error_upd_neq by exact Hne; exact Gout).
  cbn [lbackward]. mred. rewrite (nth_error_rd _ _ _ Gout), (nth_error_rd _ _ _ Gout2). mred.
  destruct Hgo as [Sgo Wgo] eqn:E1. clear E1. rewrite Sgo. mred.
  destruct (Nat.eqb_spec C 0) as [EC|EC]; [reflexivity|].
  destruct (nchw2nhwc N C H W (tdat go) (tdat no)) as [nd| |] eqn:End; cbn [bind]; try reflexivity.
  unfold same. destruct (Nat.eqb_spec (tot go / C) (tot ni / C)) as [Ed|Ed]; [|reflexivity]. cbn [bind].
  destruct (bn_input_grad (tot go / C) C (tdat c) (tdat s) nd (zeros (tdat ni)) (tdat (p_data g))) as [gd| |] eqn:Egd; cbn [bind]; try reflexivity.
  assert (Lgo : tot go = (N * C * H * W)%nat) by (unfold tot; unfold twf in Wgo; rewrite Wgo, Sgo; apply prodN4).
  assert (Lgd : length gd = tot ni).
  { unfold bn_input_grad in Egd. unfold emap in Egd.
    repeat match type of Egd with context [if ?b then _ else _] => destruct b eqn:?; cbn [bind] in Egd; try discriminate end.
    injection Egd as <-. rewrite put2_length; [unfold zeros; rewrite tab_length; reflexivity|].
    apply Nat.leb_le. assumption. }
  assert (Hlen : (N * C * H * W <= length gd)%nat).
  { rewrite Lgd. pose proof (Nat.mul_div_le (tot ni) C EC) as H1. rewrite <- Ed, Lgo in H1.
    replace (N * C * H * W)%nat with (N * H * W * C)%nat in * by ring. rewrite Nat.div_mul in H1 by exact EC. lia. }
  pose proof (ten_ok_len _ _ Hgi) as Lgi. pose proof (ten_ok_len _ _ Hgi2) as Lgi2. rewrite prodN4 in *.
  unfold on_grad, front. cbn [rd nth_error bind]. rewrite (nth_error_rd _ _ _ Gk), (nth_error_rd _ _ _ Gk2). mred.
  destruct Hgi as [Si _], Hgi2 as [Si2 _]. rewrite Si, Si2. mred.
  rewrite (nhwc2nchw_full N C H W gd (tdat gi2) (tdat gi) Lgi2 Lgi Hlen).
  destruct (nhwc2nchw N C H W gd (tdat gi)) as [r| |]; cbn [bind]; try reflexivity.
  rewrite upd_upd. unfold set_dat. rewrite Si, Si2. reflexivity.
Qed.

(** ** Gradients in training mode *)
Lemma bn1_gradients E eps alpha gamma beta std rmean rvar centered n m x :
  (0 < n)%nat -> 0 < eps -> bn1_state m gamma beta std rmean rvar centered -> p_train gamma = true -> p_train beta = true ->
  ten_ok [n; m] x -> correct_gradients E (LBN1 eps alpha gamma beta std rmean rvar centered) [x] [n; m].
Proof.
  intros Hn He Hst Hg Hb [Sx Wx]. apply vjp_partials; [intros y [<-|[]]; exact Wx|]. intros P I _ _. cbn [map]. rewrite Sx.
  apply bn1_vjp; assumption.
Qed.

(** The buffers are still empty, or were allocated by a forward pass with this batch. *)
Definition bn2_fit (T : nat) (centered nin nout : ten) : Prop :=
  (tot nin = 0 \/ (tot nin = T /\ tot nout = T))%nat /\ (tot centered = 0 \/ tot centered = T)%nat.

Lemma bn2_gradients E eps alpha gamma beta std rmean rvar centered nin nout N C H W x :
  (0 < N * C * H * W)%nat -> 0 < eps -> bn2_state C gamma beta std rmean rvar -> bn2_fit (N * C * H * W) centered nin nout ->
  p_train gamma = true -> p_train beta = true -> ten_ok [N; C; H; W] x ->
  correct_gradients E (LBN2 eps alpha gamma beta std rmean rvar centered nin nout) [x] [N; C; H; W].
Proof.
  intros Hn He (Pg & Pb & Ts & Tm & Tv) [Hf1 Hf2] Hg Hb [Sx Wx]. apply vjp_partials; [intros y [<-|[]]; exact Wx|]. intros P I _ _. cbn [map]. rewrite Sx.
  apply bn2_vjp; assumption.
Qed.

Lemma partial_of_unique E Ls xs osh go r r' : (exists o, tsh o = osh /\ twf o) -> partial_of E Ls xs osh go r -> partial_of E Ls xs osh go r' -> r = r'.
Proof.
  intros (o & So & Wo) (O & HO & D) (O' & HO' & D').
  refine (dl_unique _ _ _ _ D _). apply dl_ext with (fun s => weighted go (O' s)); [|exact D'].
  intros s. destruct (HO s o So Wo) as (L1 & E1). destruct (HO' s o So Wo) as (L2 & E2). rewrite E1 in E2. injection E2 as _ <-. reflexivity.
Qed.

(** For any content [gi] of the input gradient, backward leaves there the derivative itself. *)
Lemma bn2_backward_overwrites E eps alpha gamma beta std rmean rvar centered nin nout N C H W x :
  (0 < N * C * H * W)%nat -> 0 < eps -> bn2_state C gamma beta std rmean rvar -> bn2_fit (N * C * H * W) centered nin nout ->
  p_train gamma = true -> p_train beta = true -> ten_ok [N; C; H; W] x ->
  let L := LBN2 eps alpha gamma beta std rmean rvar centered nin nout in
  exists L1 out, (forall o, ten_ok [N; C; H; W] o -> lforward E L [x] [o] = Ok (L1, out)) /\
    forall E2 gm kg ko gi go, ten_ok [N; C; H; W] gi -> ten_ok [N; C; H; W] go ->
      nth_error gm kg = Some gi -> nth_error gm ko = Some go -> kg <> ko ->
    exists L2 L3 gm' gi', lupdate E2 L1 [x] [go] = Ok L2 /\ lbackward E2 L2 [x] [out] gm [kg] [ko] = Ok (L3, gm') /\
      nth_error gm' kg = Some gi' /\ (forall k, k <> kg -> nth_error gm' k = nth_error gm k) /\
      forall i r, (i < N * C * H * W)%nat -> partial_of E (fun _ => L) (bump_input [x] 0 i) [N; C; H; W] go r ->
        (tdat gi').[i] = r /\ ((tdat gi').[i] = (tdat gi).[i] + r <-> (tdat gi).[i] = 0).
Proof.
  intros Hn He Hst Hf Hg Hb Hx L.
  destruct (bn2_gradients E eps alpha gamma beta std rmean rvar centered nin nout N C H W x Hn He Hst Hf Hg Hb Hx)
    as (L1 & out & F & So & Wo & B). exists L1, out. split; [intros o [S1 W1]; apply F; assumption|].
  intros E2 gm kg ko gi go Hgi Hgo Gk Gout Hne.
  set (z := mkT [N; C; H; W] (tab (N * C * H * W) (fun _ => 0))).
  assert (Hz : ten_ok [N; C; H; W] z) by (split; [reflexivity|]; unfold twf, z; cbn [tsh tdat]; rewrite tab_length, prodN4; reflexivity).
  assert (Hk : (kg < length gm)%nat) by (apply nth_error_Some; rewrite Gk; discriminate).
  assert (Gk2 : nth_error (upd gm kg z) kg = Some z) by (rewrite nth_error_upd_eq by exact Hk; reflexivity).
  assert (Gout2 : nth_error (upd gm kg z) ko = Some go) by (rewrite nth_error_upd_neq by exact Hne; exact Gout).
  assert (Ezero : forall i, (tdat z).[i] = 0).
  { intros i. unfold z. cbn [tdat]. destruct (Nat.lt_ge_cases i (N * C * H * W)) as [Hi|Hi]; [rewrite nth_tab by exact Hi; reflexivity|].
    apply nth_overflow. rewrite tab_length. exact Hi. }
  destruct Hx as [Sx Wx] eqn:EHx. clear EHx. destruct Hgo as [Sgo Wgo] eqn:EHg. clear EHg.
  destruct (B E2 (upd gm kg z) [kg] ko go) as (L2 & L3 & gm' & U & Bk & _ & Lgm & Hfr & HI & _).
  { split; [exact Gout2|]. split; [exact Sgo|]. split; [exact Wgo|]. split; [reflexivity|]. split; [intros [E0|[]]; congruence|].
    intros p Hp. cbn [map length] in Hp. assert (p = O) by lia. subst p. exists z. cbn [nth map]. rewrite Sx.
    split; [exact Gk2|]. split; [reflexivity|]. split; [apply Hz|]. intros _ i Hi. apply Ezero. }
  { constructor; [intros []|constructor]. }
  assert (HL2 : is_bn2 L2).
  { destruct (bn2_forward E eps alpha gamma beta std rmean rvar centered nin nout N C H W x z true) as (s1 & m1 & v1 & c1 & ni1 & no1 & o1 & F1 & _);
      [intros _; destruct (N * H * W)%nat eqn:E0; [replace (N * C * H * W)%nat with (N * H * W * C)%nat in Hn by ring; lia|lia]
      |exact Hst| |exact Hg|exact Hb|split; assumption|exact Hz|].
    { destruct Hf as [H1 H2]. split; [destruct H1; [left|right]; lia|destruct H2; [left|right]; lia]. }
    destruct Hz as [Z1 Z2]. rewrite (F z Z1 Z2) in F1. injection F1 as -> _.
    cbn [lupdate] in U. revert U. mred. rewrite Sgo. mred. destruct (C =? 0)%nat; [discriminate|].
    destruct (nchw2nhwc N C H W (tdat go) (tdat no1)); cbn [bind]; try discriminate.
    destruct (bn_param_grad _ _ _ _ _ _ _) as [[? ?]| |]; cbn [bind]; try discriminate. intros [= <-]. do 10 eexists. reflexivity. }
  rewrite (bn2_overwrites E2 L2 [x] [out] gm kg ko gi z go N C H W HL2 Hgi Hz (conj Sgo Wgo) Gk Gout Hne) in Bk.
  rewrite upd_length in Lgm.
  destruct (nth_error gm' kg) as [gi'|] eqn:Egi'; [|apply nth_error_None in Egi'; lia].
  exists L2, L3, gm', gi'. split; [exact U|]. split; [exact Bk|]. split; [exact Egi'|]. split.
  - intros k Hkn. rewrite Hfr by (intros [E0|[]]; congruence). apply nth_error_upd_neq. congruence.
  - intros i r Hi Hr.
    assert (Lx : tot x = (N * C * H * W)%nat) by (unfold tot; unfold twf in Wx; rewrite Wx, Sx; apply prodN4).
    specialize (HI O x z gi' i eq_refl Gk2 Egi'). rewrite Lx in HI. specialize (HI Hi). rewrite Ezero, Rminus_0_r in HI.
    assert (Er : (tdat gi').[i] = r) by (exact (partial_of_unique _ _ _ _ _ _ _ (ex_intro _ z Hz) HI Hr)).
    split; [exact Er|]. rewrite Er. split; intros; lra.
Qed.

(** ** The buffers keep the size of the first batch *)
Lemma forr_prefix {S} n (body : nat -> S -> res S) s r : forr n body s = Ok r ->
  forall p, (p < n)%nat -> exists a b, forr p body s = Ok a /\ body p a = Ok b.
Proof.
  revert r. induction n as [|n IH]; intros r H p Hp; [lia|]. cbn [forr] in H.
  destruct (forr n body s) as [a| |] eqn:Ea; cbn [bind] in H; try discriminate.
  destruct (Nat.eq_dec p n) as [->|]; [exists a, r; auto|]. apply (IH a); [reflexivity|lia].
Qed.

Lemma nchw2nhwc_overflow N C H W (src dst : list R) : (length dst < N * C * H * W)%nat -> nchw2nhwc N C H W src dst = UB.
Proof.
  intros Hl. unfold nchw2nhwc. rewrite (scatter4 N C H W (fun n c h w => (((n * H + h) * W + w) * C + c)%nat)).
  set (body := fun p d => _). set (T := (N * C * H * W)%nat) in *.
  assert (Hnt : forall n d, forr n body d <> Throw).
  { induction n as [|n IH]; intros d; cbn [forr]; [discriminate|]. specialize (IH d). destruct (forr n body d) as [d1| |]; cbn [bind]; [|congruence|discriminate].
    unfold body, rd, wr. destruct (nth_error src n); cbn [bind lift]; [|discriminate]. destruct (_ <? _)%nat; discriminate. }
  assert (Hlen : forall n d r, forr n body d = Ok r -> length r = length d).
  { induction n as [|n IH]; intros d r; cbn [forr]; [intros [= <-]; reflexivity|]. destruct (forr n body d) as [d1| |] eqn:E1; cbn [bind]; try discriminate.
    unfold body, rd, wr. destruct (nth_error src n); cbn [bind lift]; [|discriminate]. destruct (_ <? _)%nat; [|discriminate]. intros [= <-]. rewrite upd_length. apply IH. exact E1. }
  destruct (forr T body dst) as [r| |] eqn:Er; [exfalso| |reflexivity]; [|exfalso; exact (Hnt T dst Er)].
  destruct (nhwc_surj N C H W (T - 1)) as (n & c & h & w & Hn & Hc & Hh & Hw & Eq); [fold T; lia|].
  destruct (forr_prefix T body dst r Er (((n * C + c) * H + h) * W + w)) as (d & d' & E1 & E2); [apply (lin4_lt N C H W); assumption|].
  unfold body in E2. cbn beta in E2.
  destruct (divmod_nat ((n * C + c) * H + h) W w Hw) as [D1 M1]. rewrite D1, M1 in E2.
  destruct (divmod_nat (n * C + c) H h Hh) as [D2 M2]. rewrite D2, M2 in E2.
  destruct (divmod_nat n C c Hc) as [D3 M3]. rewrite D3, M3 in E2. rewrite <- Eq in E2.
  unfold rd, wr in E2. destruct (nth_error src _); cbn [bind lift] in E2; [|discriminate].
  rewrite (Hlen _ _ _ E1) in E2. destruct (Nat.ltb_spec (T - 1) (length dst)); [lia|discriminate].
Qed.

Lemma bn2_larger_batch E eps alpha gamma beta std rmean rvar centered nin nout N C H W x o :
  p_train beta = p_train gamma -> ten_ok [N; C; H; W] x -> ten_ok [N; C; H; W] o ->
  (0 < tot nin < N * C * H * W)%nat ->
  lforward E (LBN2 eps alpha gamma beta std rmean rvar centered nin nout) [x] [o] = UB.
Proof.
  intros Ht [Sx _] [So _] Hlt. cbn [lforward]. rewrite validate_rank_Ok by (rewrite ?Sx, ?So; reflexivity). unfold front. cbn [rd nth_error bind].
  unfold bn2_fwd. rewrite Ht. replace (Bool.eqb (p_train gamma) (p_train gamma)) with true by (destruct (p_train gamma); reflexivity).
  cbn [dw_assert bind]. mred. rewrite Sx. mred. destruct (Nat.eqb_spec (tot nin) 0); [lia|].
  rewrite nchw2nhwc_overflow by (unfold tot in Hlt; lia). reflexivity.
Qed.

Lemma bn2_smaller_batch E eps alpha gamma beta std rmean rvar centered nin nout N C H W ins outs gm kg ko go :
  ten_ok [N; C; H; W] go -> nth_error gm ko = Some go -> (0 < C)%nat ->
  (N * C * H * W < tot nin)%nat -> (tot nin mod C = 0)%nat -> (N * C * H * W <= tot nout)%nat ->
  lbackward E (LBN2 eps alpha gamma beta std rmean rvar centered nin nout) ins outs gm [kg] [ko] = UB.
Proof.
  intros Hgo Gout HC Hlt Hmod Hno. pose proof (ten_ok_len _ _ Hgo) as Lgo. rewrite prodN4 in Lgo. destruct Hgo as [Sgo _].
  cbn [lbackward]. mred. rewrite (nth_error_rd _ _ _ Gout). mred. rewrite Sgo. mred. destruct (Nat.eqb_spec C 0); [reflexivity|].
  destruct (nchw2nhwc_gen N C H W (tdat go) (tdat nout) 0) as (nd & -> & _); [lia|unfold tot in Hno; lia|]. cbn [bind].
  unfold same. destruct (Nat.eqb_spec (tot go / C) (tot nin / C)) as [E0|]; [exfalso|reflexivity].
  unfold tot at 1 in E0. rewrite Lgo in E0. replace (N * C * H * W)%nat with (N * H * W * C)%nat in * by ring.
  rewrite Nat.div_mul in E0 by lia. pose proof (Nat.div_mod (tot nin) C ltac:(lia)) as Hd. rewrite Hmod in Hd. nia.
Qed.

(** ** Statements over histories *)
Lemma call1_var_nonneg m j cs s : In s (map (call1_var m j) cs) -> 0 <= s.
Proof. rewrite in_map_iff. intros (c & <- & _). apply variance_nonneg. Qed.
Lemma call2_var_nonneg m j cs s : In s (map (call2_var m j) cs) -> 0 <= s.
Proof. rewrite in_map_iff. intros (c & <- & _). apply variance3_nonneg. Qed.

Lemma bn1_running m e a g b s rm rv c cs :
  ten_ok [m] s -> ten_ok [m] rm -> ten_ok [m] rv -> buf_ok c -> (forall k, In k cs -> call1_ok m k) ->
  exists L', bn_history (LBN1 e a g b s rm rv c) cs = Ok L' /\
    forall j, (j < m)%nat ->
      (bn_mean L').[j] = running a (tdat rm).[j] (map (call1_mean m j) (filter training_call cs)) /\
      (bn_var L').[j] = running a (tdat rv).[j] (map (call1_var m j) (filter training_call cs)) /\
      (0 <= a <= 1 -> 0 <= (tdat rv).[j] -> 0 <= (bn_var L').[j]).
Proof.
  intros H1 H2 H3 H4 H5. destruct (bn1_history e a m cs g b s rm rv c H1 H2 H3 H4 H5) as (g' & b' & s' & m' & v' & c' & F & _ & _ & _ & _ & V).
  eexists. split; [exact F|]. intros j Hj. destruct (V j Hj) as [V1 V2]. cbn [bn_mean bn_var]. split; [exact V1|]. split; [exact V2|].
  intros Ha H0. rewrite V2. apply running_nonneg; auto. intros x Hx. exact (call1_var_nonneg _ _ _ _ Hx).
Qed.

Lemma bn2_running C e a g b s rm rv c ni no k0 cs :
  ten_ok [C] s -> ten_ok [C] rm -> ten_ok [C] rv -> tot c = O -> tot ni = O ->
  (forall k, In k (k0 :: cs) -> call2_ok C k /\ (tot (c_x k) <= tot (c_x k0))%nat) ->
  exists L', bn_history (LBN2 e a g b s rm rv c ni no) (k0 :: cs) = Ok L' /\
    forall j, (j < C)%nat ->
      (bn_mean L').[j] = running a (tdat rm).[j] (map (call2_mean C j) (filter training_call (k0 :: cs))) /\
      (bn_var L').[j] = running a (tdat rv).[j] (map (call2_var C j) (filter training_call (k0 :: cs))) /\
      (0 <= a <= 1 -> 0 <= (tdat rv).[j] -> 0 <= (bn_var L').[j]).
Proof.
  intros H1 H2 H3 H4 H5 H6.
  destruct (bn2_history e a C (tot (c_x k0)) (k0 :: cs) g b s rm rv c ni no H1 H2 H3) as (g' & b' & s' & m' & v' & c' & ni' & no' & F & _ & _ & _ & _ & V);
    [split; left; assumption|exact H6|intros; reflexivity|].
  eexists. split; [exact F|]. intros j Hj. destruct (V j Hj) as [V1 V2]. cbn [bn_mean bn_var]. split; [exact V1|]. split; [exact V2|].
  intros Ha H0. rewrite V2. apply running_nonneg; auto. intros x Hx. exact (call2_var_nonneg _ _ _ _ Hx).
Qed.

Lemma ten_eq sh a b : ten_ok sh a -> ten_ok sh b -> (forall p, (p < prodN sh)%nat -> (tdat a).[p] = (tdat b).[p]) -> a = b.
Proof.
  intros Ha Hb H. pose proof (ten_ok_len _ _ Ha) as La. pose proof (ten_ok_len _ _ Hb) as Lb. destruct Ha as [Sa _], Hb as [Sb _].
  destruct a as [sa da], b as [sb db]. cbn [tsh tdat] in *. subst. f_equal. apply list_ext with (d := 0); [lia|]. intros p Hp. apply H. lia.
Qed.

Lemma bn1_evaluation m e a g b s rm rv c cs k :
  ten_ok [m] s -> ten_ok [m] rm -> ten_ok [m] rv -> buf_ok c -> (forall k', In k' (cs ++ [k]) -> call1_ok m k') ->
  training_call k = false ->
  exists L1 L2 out, bn_history (LBN1 e a g b s rm rv c) cs = Ok L1 /\ bn_call L1 k = Ok (L2, out) /\
    bn_mean L2 = bn_mean L1 /\ bn_var L2 = bn_var L1 /\ lparams L2 = [c_gamma k; c_beta k] /\
    (forall i j, (i < nth 0 (tsh (c_x k)) O)%nat -> (j < m)%nat ->
       (tdat out).[i * m + j] =
       (tdat (p_data (c_gamma k))).[j] * (((tdat (c_x k)).[i * m + j] - (bn_mean L1).[j]) / sqrt ((bn_var L1).[j] + e)) +
       (tdat (p_data (c_beta k))).[j]) /\
    exists L3, bn_call L2 k = Ok (L3, out).
Proof.
  intros H1 H2 H3 H4 H5 H6.
  destruct (bn1_history e a m cs g b s rm rv c H1 H2 H3 H4) as (g1 & b1 & s1 & m1 & v1 & c1 & F & T1 & T2 & T3 & T4 & _);
    [intros; apply H5; apply in_or_app; left; assumption|].
  destruct (H5 k) as (Pg & Pb & Et & n & Hx & Ho & _); [apply in_or_app; right; left; reflexivity|].
  unfold training_call in H6. rewrite H6 in Et.
  destruct (bn1_forward (c_env k) e a (c_gamma k) (c_beta k) s1 m1 v1 c1 n m (c_x k) (c_o k) false ltac:(discriminate))
    as (s2 & m2 & v2 & c2 & out & F2 & Hst2 & _ & To & Vo & _ & _ & -> & ->);
    [repeat split; (apply Pg || apply Pb || apply T1 || apply T2 || apply T3 || exact T4)|exact H6|exact Et|exact Hx|exact Ho|].
  do 3 eexists. split; [exact F|]. split; [exact F2|]. split; [reflexivity|]. split; [reflexivity|]. split; [reflexivity|].
  cbn [bn_mean bn_var bn_call]. split.
  - destruct Hx as [Sx _]. rewrite Sx. cbn [nth]. exact Vo.
  - destruct (bn1_forward (c_env k) e a (c_gamma k) (c_beta k) s2 m1 v1 c2 n m (c_x k) (c_o k) false ltac:(discriminate) Hst2 H6 Et Hx Ho)
      as (s3 & m3 & v3 & c3 & out3 & F3 & _ & _ & To3 & Vo3 & _).
    eexists. rewrite F3. f_equal. f_equal. apply ten_eq with [n; m]; [exact To3|exact To|]. intros p Hp. rewrite prodN2 in Hp.
    destruct (divmod_lt _ _ _ Hp) as (P1 & P2 & P3). rewrite P3. rewrite Vo3, Vo by assumption. reflexivity.
Qed.

Lemma bn2_evaluation C e a g b s rm rv c ni no k0 cs k :
  ten_ok [C] s -> ten_ok [C] rm -> ten_ok [C] rv -> tot c = O -> tot ni = O ->
  (forall k', In k' (k0 :: cs ++ [k]) -> call2_ok C k' /\ (tot (c_x k') <= tot (c_x k0))%nat) ->
  training_call k = false ->
  exists L1 L2 out, bn_history (LBN2 e a g b s rm rv c ni no) (k0 :: cs) = Ok L1 /\ bn_call L1 k = Ok (L2, out) /\
    bn_mean L2 = bn_mean L1 /\ bn_var L2 = bn_var L1 /\ lparams L2 = [c_gamma k; c_beta k] /\
    (forall n j h w, (n < nth 0 (tsh (c_x k)) O)%nat -> (j < C)%nat -> (h < nth 2 (tsh (c_x k)) O)%nat -> (w < nth 3 (tsh (c_x k)) O)%nat ->
       let p := (((n * C + j) * nth 2 (tsh (c_x k)) O + h) * nth 3 (tsh (c_x k)) O + w)%nat in
       (tdat out).[p] =
       (tdat (p_data (c_gamma k))).[j] * (((tdat (c_x k)).[p] - (bn_mean L1).[j]) / sqrt ((bn_var L1).[j] + e)) +
       (tdat (p_data (c_beta k))).[j]) /\
    exists L3, bn_call L2 k = Ok (L3, out).
Proof.
  intros H1 H2 H3 H4 H5 H6 H7.
  destruct (bn2_history e a C (tot (c_x k0)) (k0 :: cs) g b s rm rv c ni no H1 H2 H3)
    as (g1 & b1 & s1 & m1 & v1 & c1 & ni1 & no1 & F & T1 & T2 & T3 & T4 & _);
    [split; left; assumption| |intros; reflexivity|].
  { intros k' Hk'. apply H6. destruct Hk' as [<-|Hk']; [left; reflexivity|right; apply in_or_app; left; exact Hk']. }
  destruct (H6 k) as ((Pg & Pb & Et & N & H & W & Hx & Ho & _) & Hle); [right; apply in_or_app; right; left; reflexivity|].
  unfold training_call in H7. rewrite H7 in Et.
  assert (Lx : tot (c_x k) = (N * C * H * W)%nat) by (unfold tot; rewrite (ten_ok_len _ _ Hx), prodN4; reflexivity).
  assert (Hroom : bn2_room (N * C * H * W) c1 ni1 no1).
  { destruct T4 as [R1 R2]. rewrite Lx in Hle. split; [destruct R1; [left; assumption|right; lia]|destruct R2; [left; assumption|right; lia]]. }
  destruct (bn2_forward (c_env k) e a (c_gamma k) (c_beta k) s1 m1 v1 c1 ni1 no1 N C H W (c_x k) (c_o k) false ltac:(discriminate))
    as (s2 & m2 & v2 & c2 & ni2 & no2 & out & F2 & Hst2 & Ki & Ko & Kc & To & Vo & _ & _ & -> & ->);
    [repeat split; (apply Pg || apply Pb || apply T1 || apply T2 || apply T3)|exact Hroom|exact H7|exact Et|exact Hx|exact Ho|].
  do 3 eexists. split; [exact F|]. split; [exact F2|]. split; [reflexivity|]. split; [reflexivity|]. split; [reflexivity|].
  cbn [bn_mean bn_var bn_call]. split.
  - destruct Hx as [Sx _]. rewrite Sx. cbn [nth]. intros n j h w Hn Hj Hh Hw. exact (Vo n j h w Hn Hj Hh Hw).
  - assert (Hroom2 : bn2_room (N * C * H * W) c2 ni2 no2).
    { destruct Hroom as [R1 R2]. unfold bn2_room. rewrite Ki, Ko, Kc. destruct (Nat.eqb_spec (tot ni1) 0), (Nat.eqb_spec (tot c1) 0); lia. }
    destruct (bn2_forward (c_env k) e a (c_gamma k) (c_beta k) s2 m1 v1 c2 ni2 no2 N C H W (c_x k) (c_o k) false ltac:(discriminate) Hst2 Hroom2 H7 Et Hx Ho)
      as (s3 & m3 & v3 & c3 & ni3 & no3 & out3 & F3 & _ & _ & _ & _ & To3 & Vo3 & _).
    eexists. rewrite F3. f_equal. f_equal. apply ten_eq with [N; C; H; W]; [exact To3|exact To|]. intros p Hp. rewrite prodN4 in Hp.
    destruct (nchw_surj N C H W p Hp) as (n2 & c4 & h2 & w2 & Q1 & Q2 & Q3 & Q4 & ->). rewrite Vo3, Vo by assumption. reflexivity.
Qed.
