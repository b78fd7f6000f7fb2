(** BatchNorm2D given a batch of another size than its output has. *)
From Coq Require Import Reals Lra Lia.
From Verif Require Import Base BaseFacts Sums S_Stats S_BN M_Im2col S_Im2col M_Kernels M_Conv M_Layers S_Grad S_Partial P_Layout P_Kernels P_Partial P_Vjp1 P_Vjp2 P_BN P_BN2 P_BN3 P_Idem.
Open Scope R_scope.

Lemma nhwc2nchw_underflow N C H W (src dst : list R) : (length src < N * C * H * W)%nat -> nhwc2nchw N C H W src dst = UB.
Proof.
  intros Hl. unfold nhwc2nchw. rewrite (scatter4 N H W C (fun n h w c => lin4 C H W n c h w)).
  replace (N * C * H * W)%nat with (N * H * W * C)%nat in Hl by ring.
  set (body := fun p d => _). set (T := (N * H * W * C)%nat) in *.
  assert (Hnt : forall n d, forr n body d <> Throw).
  { induction n as [|n IH]; intros d; cbn [forr]; [discriminate|]. specialize (IH d). destruct (forr n body d) as [d1| |]; cbn [bind]; [|congruence|discriminate].
    unfold body, rd, wr. destruct (nth_error src n); cbn [bind lift]; [|discriminate]. destruct (_ <? _)%nat; discriminate. }
  destruct (forr T body dst) as [r| |] eqn:Er; [exfalso|exfalso; exact (Hnt T dst Er)|reflexivity].
  destruct (forr_prefix T body dst r Er (length src) Hl) as (d & d' & E1 & E2).
  unfold body, rd in E2. assert (X : nth_error src (length src) = None) by (apply nth_error_None; lia). rewrite X in E2. discriminate E2.
Qed.

Lemma put2_frame n m f d p : (n * m <= p)%nat -> (n * m <= length d)%nat -> (put2 n m f d).[p] = d.[p].
Proof.
  intros H L. unfold put2, put. rewrite app_nth2 by (rewrite tab_length; lia). rewrite tab_length. rewrite nth_skipn. f_equal. lia.
Qed.

Lemma bn_forward_frame tr n m x od cd sd rm rv eps alpha ga be od' cd' sd' rm' rv' :
  bn_forward n m x od cd sd rm rv tr eps alpha ga be = Ok (od', cd', sd', rm', rv') ->
  forall p, (n * m <= p)%nat -> od'.[p] = od.[p].
Proof.
  unfold bn_forward, emap. intros H p Hp.
  destruct (n * m <=? length x)%nat; cbn [bind] in H; [|discriminate].
  destruct (Nat.leb_spec (n * m) (length od)) as [L|]; cbn [bind] in H; [|discriminate].
  repeat (match type of H with (bind (if ?c then _ else _) _) = _ => destruct c end; cbn [bind] in H; [|discriminate]).
  destruct ((n =? 0)%nat && tr)%bool; [discriminate|].
  destruct tr; injection H as <- _ _ _ _; apply put2_frame; assumption.
Qed.

Section Other.
Context (E : env) (eps alpha : R) (gamma beta : prm) (std rmean rvar centered nin nout : ten) (k n C H W : nat) (x o : ten) (tr : bool).
Hypothesis Hn : (tr = true -> 0 < k * H * W)%nat.
Hypothesis HS : bn2_state C gamma beta std rmean rvar.
Hypothesis HR : bn2_room (k * C * H * W) centered nin nout.
Hypothesis Htg : p_train gamma = tr.
Hypothesis Htb : p_train beta = tr.
Hypothesis Hx : ten_ok [k; C; H; W] x.
Hypothesis Ho : ten_ok [n; C; H; W] o.
Let f := fun c n h w => (tdat x).[((n * C + c) * H + h) * W + w].
Let mu := fun c => if tr : bool then mean3 k H W (f c) else (tdat rmean).[c].
Let v := fun c => if tr : bool then variance3 k H W (f c) else (tdat rvar).[c].
Let room := if (tot nin =? 0)%nat then (k * C * H * W)%nat else tot nout.

Lemma bn2_other :
  ((room < n * C * H * W)%nat -> lforward E (LBN2 eps alpha gamma beta std rmean rvar centered nin nout) [x] [o] = UB) /\
  ((n * C * H * W <= room)%nat -> exists std' rmean' rvar' cent' nin' nout' o',
    lforward E (LBN2 eps alpha gamma beta std rmean rvar centered nin nout) [x] [o] =
      Ok (LBN2 eps alpha gamma beta std' rmean' rvar' cent' nin' nout', o') /\
    bn2_state C gamma beta std' rmean' rvar' /\
    (tot nin' = if (tot nin =? 0)%nat then (k * C * H * W)%nat else tot nin) /\
    tot nout' = room /\
    (tot cent' = if (tot centered =? 0)%nat then (k * C * H * W)%nat else tot centered) /\
    ten_ok [n; C; H; W] o' /\
    (forall i c h w, (i < k)%nat -> (i < n)%nat -> (c < C)%nat -> (h < H)%nat -> (w < W)%nat ->
       (tdat o').[((i * C + c) * H + h) * W + w] =
       (tdat (p_data gamma)).[c] * ((f c i h w - mu c) / sqrt (v c + eps)) + (tdat (p_data beta)).[c]) /\
    (forall i c h w, (k <= i)%nat -> (i < n)%nat -> (c < C)%nat -> (h < H)%nat -> (w < W)%nat ->
       (tdat o').[((i * C + c) * H + h) * W + w] = (tdat nout).[((i * H + h) * W + w) * C + c]) /\
    (forall i c h w, (i < n)%nat -> (c < C)%nat -> (h < H)%nat -> (w < W)%nat ->
       (tdat nout').[((i * H + h) * W + w) * C + c] = (tdat o').[((i * C + c) * H + h) * W + w])).
Proof.
  destruct HS as (Pg & Pb & Ts & Tm & Tv). destruct HR as [Hb Hcb].
  destruct (prm_ok_len _ _ Pg) as [Lg _]. destruct (prm_ok_len _ _ Pb) as [Lb _].
  pose proof (ten_ok_len _ _ Hx) as Lx. pose proof (ten_ok_len _ _ Ho) as Lo.
  pose proof (ten_ok_len _ _ Ts) as Ls. pose proof (ten_ok_len _ _ Tm) as Lm. pose proof (ten_ok_len _ _ Tv) as Lv.
  rewrite prodN1 in *. rewrite prodN4 in *.
  assert (Hbuf : exists ni1 no1, (if (tot nin =? 0)%nat then (fresh E [k; H; W; C], fresh E [k; H; W; C]) else (nin, nout)) = (ni1, no1) /\
     (k * C * H * W <= length (tdat ni1))%nat /\ (k * C * H * W <= length (tdat no1))%nat /\
     (length (tdat ni1) = if (tot nin =? 0)%nat then (k * C * H * W)%nat else tot nin) /\
     (length (tdat no1) = room) /\ (tot nin <> 0%nat -> no1 = nout)).
  { unfold room. destruct (Nat.eqb_spec (tot nin) 0) as [E0|E0].
    - do 2 eexists. split; [reflexivity|]. cbn [fresh tdat tsh]. rewrite tab_length, prodN4.
      replace (k * H * W * C)%nat with (k * C * H * W)%nat by ring. split; [lia|]. split; [lia|]. split; [reflexivity|]. split; [reflexivity|]. lia.
    - do 2 eexists. split; [reflexivity|]. destruct Hb as [E1|[E1 E2]]; [lia|]. unfold tot in *. auto 10. }
  destruct Hbuf as (ni1 & no1 & Ebuf & Lni & Lno & Kni & Kno & Keep).
  assert (Hc : exists c1, (if (tot centered =? 0)%nat then fresh E [(k * H * W)%nat; C] else centered) = c1 /\
     (k * C * H * W <= length (tdat c1))%nat /\
     (length (tdat c1) = if (tot centered =? 0)%nat then (k * C * H * W)%nat else tot centered)).
  { destruct (Nat.eqb_spec (tot centered) 0) as [E0|E0].
    - eexists. split; [reflexivity|]. cbn [fresh tdat tsh]. rewrite tab_length, prodN2.
      replace (k * H * W * C)%nat with (k * C * H * W)%nat by ring. auto.
    - eexists. split; [reflexivity|]. destruct Hcb as [E1|E1]; [lia|]. auto. }
  destruct Hc as (c1 & Ec & Lc & Kc).
  destruct (nchw2nhwc_gen k C H W (tdat x) (tdat ni1) 0) as (nd & End & Lnd & _ & Vnd); [lia|lia|].
  assert (ET : (k * C * H * W = k * H * W * C)%nat) by ring.
  destruct (bn_forward_gen tr (k * H * W) C nd (tdat no1) (tdat c1) (tdat std) (tdat rmean) (tdat rvar) eps alpha
              (tdat (p_data gamma)) (tdat (p_data beta)) Hn) as (od' & cd' & sd' & rm' & rv' & F & K); try lia.
  destruct K as (K1 & K2 & K3 & K4 & K5 & K6 & K7 & K8 & K9 & K10).
  pose proof (bn_forward_frame _ _ _ _ _ _ _ _ _ _ _ _ _ _ _ _ _ _ F) as FR.
  assert (Em : forall c, (c < C)%nat -> mean (k * H * W) (fun i => nd.[i * C + c]) = mean3 k H W (f c)).
  { intros c Hcc. apply mean_planes. intros. apply Vnd; assumption. }
  assert (Ev : forall c, (c < C)%nat -> variance (k * H * W) (fun i => nd.[i * C + c]) = variance3 k H W (f c)).
  { intros c Hcc. apply variance_planes. intros. apply Vnd; assumption. }
  destruct Hx as [Sx Wx], Ho as [So Wo], Ts as [Ss Ws], Tm as [Sm Wm], Tv as [Sv Wv].
  assert (RED : forall r, nhwc2nchw n C H W od' (tdat o) = r -> lforward E (LBN2 eps alpha gamma beta std rmean rvar centered nin nout) [x] [o] =
    bind r (fun out => Ok (LBN2 eps alpha gamma beta (set_dat std sd') (set_dat rmean rm') (set_dat rvar rv') (set_dat c1 cd') (set_dat ni1 nd) (set_dat no1 od'), set_dat o out))).
  { intros r Er. cbn [lforward]. rewrite validate_rank_Ok by (rewrite ?Sx, ?So; reflexivity). unfold front. cbn [rd nth_error bind].
    unfold bn2_fwd. rewrite Htg, Htb. replace (Bool.eqb tr tr) with true by (destruct tr; reflexivity).
    cbn [dw_assert bind]. mred. rewrite Sx. mred. rewrite Ebuf, Ec, End. cbn [bind]. rewrite F. cbn [bind]. rewrite So. mred. rewrite Er. destruct r; reflexivity. }
  split.
  { intros Hlt. rewrite (RED UB); [reflexivity|]. apply nhwc2nchw_underflow. lia. }
  intros Hge. destruct (nhwc2nchw_gen n C H W od' (tdat o) 0) as (out & Eout & Lout & _ & Vout); [lia|lia|].
  exists (set_dat std sd'), (set_dat rmean rm'), (set_dat rvar rv'), (set_dat c1 cd'), (set_dat ni1 nd), (set_dat no1 od'), (set_dat o out).
  split; [exact (RED (Ok out) Eout)|].
  split.
  { assert (KO : forall t d, tsh t = [C] -> length d = C -> ten_ok [C] (set_dat t d)).
    { intros t d St Ld. split; [exact St|]. unfold twf. cbn [set_dat tsh tdat]. rewrite St, prodN1. exact Ld. }
    split; [exact Pg|]. split; [exact Pb|]. split; [apply KO; assumption|]. split; apply KO; assumption. }
  split; [unfold tot; cbn [set_dat tdat]; rewrite Lnd; exact Kni|].
  split; [unfold tot; cbn [set_dat tdat]; rewrite K1; exact Kno|].
  split; [unfold tot; cbn [set_dat tdat]; rewrite K2; exact Kc|].
  split; [split; [exact So|]; unfold twf; cbn [set_dat tsh tdat]; rewrite So, prodN4; lia|].
  cbn [set_dat tdat]. split; [|split].
  - intros i c h w H1 H1' H2 H3 H4. rewrite Vout by assumption.
    assert (HI : ((i * H + h) * W + w < k * H * W)%nat) by (apply mult_lt; [apply mult_lt|]; assumption).
    rewrite K6 by assumption.
    rewrite Vnd by assumption. unfold mu, v, f. destruct tr; [|reflexivity]. rewrite Em, Ev by assumption. reflexivity.
  - intros i c h w H1 H1' H2 H3 H4. rewrite Vout by assumption.
    assert (GE : (k * H * W * C <= ((i * H + h) * W + w) * C + c)%nat).
    { apply Nat.le_trans with ((i * H * W) * C)%nat; [|nia]. do 3 apply Nat.mul_le_mono_r. exact H1. }
    rewrite FR by exact GE. rewrite Keep; [reflexivity|]. intros E0. unfold room in Hge, Kno. rewrite E0 in Hge. cbn [Nat.eqb] in Hge.
    assert (k * C * H * W < n * C * H * W)%nat; [|lia]. apply Nat.mul_lt_mono_pos_r; [lia|]. apply Nat.mul_lt_mono_pos_r; [lia|]. apply Nat.mul_lt_mono_pos_r; lia.
  - intros i c h w H1 H2 H3 H4. rewrite Vout by assumption. reflexivity.
Qed.
End Other.

Lemma bn2_other_larger E eps alpha gamma beta std rmean rvar centered nin nout k n C H W x o :
  p_train beta = p_train gamma -> ten_ok [k; C; H; W] x -> ten_ok [n; C; H; W] o ->
  (0 < tot nin < k * C * H * W)%nat ->
  lforward E (LBN2 eps alpha gamma beta std rmean rvar centered nin nout) [x] [o] = UB.
Proof.
  intros Ht [Sx _] [So _] Hlt. cbn [lforward]. rewrite validate_rank_Ok by (rewrite ?Sx, ?So; reflexivity). unfold front. cbn [rd nth_error bind].
  unfold bn2_fwd. rewrite Ht. replace (Bool.eqb (p_train gamma) (p_train gamma)) with true by (destruct (p_train gamma); reflexivity).
  cbn [dw_assert bind]. mred. rewrite Sx. mred. destruct (Nat.eqb_spec (tot nin) 0); [lia|].
  rewrite nchw2nhwc_overflow by (unfold tot in Hlt; lia). reflexivity.
Qed.
