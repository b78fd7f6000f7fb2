(** BatchNorm2D: the layout conversions as index maps, and its gradients. *)
From Coq Require Import Reals Lra.
From Verif Require Import Base BaseFacts Sums Deriv M_Im2col S_Im2col P_Layout M_Kernels M_Conv M_Layers P_Kernels S_Grad P_Vjp1 P_Vjp2 P_BN.
Open Scope R_scope.

Section Maps.
Variables (N C H W : nat).
Notation T := (N * C * H * W)%nat.

(** NCHW position of NHWC position [q], and back. *)
Definition sig (q : nat) : nat :=
  ((((q / C / W / H) * C + q mod C) * H + (q / C / W) mod H) * W + (q / C) mod W)%nat.
Definition tau (p : nat) : nat :=
  ((((p / W / H / C) * H + (p / W) mod H) * W + p mod W) * C + (p / W / H) mod C)%nat.

Lemma sig_at n c h w : (c < C -> h < H -> w < W -> sig (((n * H + h) * W + w) * C + c) = ((n * C + c) * H + h) * W + w)%nat.
Proof.
  intros Hc Hh Hw. unfold sig.
  destruct (divmod_nat ((n * H + h) * W + w) C c Hc) as [-> ->].
  destruct (divmod_nat (n * H + h) W w Hw) as [-> ->].
  destruct (divmod_nat n H h Hh) as [-> ->]. reflexivity.
Qed.

Lemma tau_at n c h w : (c < C -> h < H -> w < W -> tau (((n * C + c) * H + h) * W + w) = ((n * H + h) * W + w) * C + c)%nat.
Proof.
  intros Hc Hh Hw. unfold tau.
  destruct (divmod_nat ((n * C + c) * H + h) W w Hw) as [-> ->].
  destruct (divmod_nat (n * C + c) H h Hh) as [-> ->].
  destruct (divmod_nat n C c Hc) as [-> ->]. reflexivity.
Qed.

Lemma nhwc_surj q : (q < T)%nat -> exists n c h w, (n < N /\ c < C /\ h < H /\ w < W /\ q = ((n * H + h) * W + w) * C + c)%nat.
Proof.
  intros Hq. destruct (lin4_surj N H W C q) as (n & h & w & c & Hn & Hh & Hw & Hc & E); [lia|].
  exists n, c, h, w. unfold lin4 in E. auto.
Qed.

Lemma nchw_surj p : (p < T)%nat -> exists n c h w, (n < N /\ c < C /\ h < H /\ w < W /\ p = ((n * C + c) * H + h) * W + w)%nat.
Proof.
  intros Hq. destruct (lin4_surj N C H W p) as (n & c & h & w & Hn & Hc & Hh & Hw & E); [lia|].
  exists n, c, h, w. unfold lin4 in E. auto.
Qed.

Lemma sig_lt q : (q < T -> sig q < T)%nat.
Proof.
  intros Hq. destruct (nhwc_surj q Hq) as (n & c & h & w & Hn & Hc & Hh & Hw & ->). rewrite sig_at by assumption.
  apply (lin4_lt N C H W); assumption.
Qed.

Lemma tau_lt p : (p < T -> tau p < T)%nat.
Proof.
  intros Hq. destruct (nchw_surj p Hq) as (n & c & h & w & Hn & Hc & Hh & Hw & ->). rewrite tau_at by assumption.
  replace T with (N * H * W * C)%nat by ring. apply (lin4_lt N H W C); assumption.
Qed.

Lemma sig_tau p : (p < T -> sig (tau p) = p)%nat.
Proof.
  intros Hq. destruct (nchw_surj p Hq) as (n & c & h & w & Hn & Hc & Hh & Hw & ->).
  rewrite tau_at, sig_at by assumption. reflexivity.
Qed.

Lemma tau_sig q : (q < T -> tau (sig q) = q)%nat.
Proof.
  intros Hq. destruct (nhwc_surj q Hq) as (n & c & h & w & Hn & Hc & Hh & Hw & ->).
  rewrite sig_at, tau_at by assumption. reflexivity.
Qed.

Lemma nchw2nhwc_tab (src dst : list R) : length src = T -> length dst = T ->
  nchw2nhwc N C H W src dst = Ok (tab T (fun q => src.[sig q])).
Proof.
  intros Ls Ld. destruct (nchw2nhwc_spec N C H W src dst 0 Ls Ld) as (d & E & L & Hd). rewrite E. f_equal.
  apply list_ext with (d := 0); [rewrite tab_length; congruence|]. intros q Hq. rewrite L, Ld in Hq.
  rewrite nth_tab by exact Hq. destruct (nhwc_surj q Hq) as (n & c & h & w & Hn & Hc & Hh & Hw & ->).
  rewrite sig_at by assumption. apply Hd; assumption.
Qed.

Lemma nhwc2nchw_tab (src dst : list R) : length src = T -> length dst = T ->
  nhwc2nchw N C H W src dst = Ok (tab T (fun p => src.[tau p])).
Proof.
  intros Ls Ld. destruct (nhwc2nchw_spec N C H W src dst 0 Ls Ld) as (d & E & L & Hd). rewrite E. f_equal.
  apply list_ext with (d := 0); [rewrite tab_length; congruence|]. intros q Hq. rewrite L, Ld in Hq.
  rewrite nth_tab by exact Hq. destruct (nchw_surj q Hq) as (n & c & h & w & Hn & Hc & Hh & Hw & ->).
  rewrite tau_at by assumption. apply Hd; assumption.
Qed.

(** Summing over NCHW positions is summing over NHWC positions. *)
Lemma rsum_sig f : rsum T f = rsum T (fun q => f (sig q)).
Proof.
  replace (rsum T (fun q => f (sig q))) with (rsum (N * H * W * C) (fun q => f (sig q))) by (f_equal; ring).
  rewrite !rsum_mult. apply rsum_ext. intros n Hn.
  transitivity (rsum H (fun h => rsum C (fun c => rsum W (fun w => f (((n * C + c) * H + h) * W + w)%nat)))).
  { rewrite rsum_swap. reflexivity. }
  apply rsum_ext. intros h Hh. rewrite rsum_swap. apply rsum_ext. intros w Hw. apply rsum_ext. intros c Hc.
  rewrite sig_at by assumption. reflexivity.
Qed.

End Maps.

Section BN2.
Variables (N C H W : nat) (eps alpha : R) (gamma beta : prm) (std rmean rvar centered nin nout : ten).
Notation T := (N * C * H * W)%nat.
Notation n := (N * H * W)%nat.
Hypothesis HT : (0 < T)%nat.
Hypothesis He : 0 < eps.
Hypothesis Pg : prm_ok [C] gamma.
Hypothesis Pb : prm_ok [C] beta.
Hypothesis Ts : ten_ok [C] std.
Hypothesis Tm : ten_ok [C] rmean.
Hypothesis Tv : ten_ok [C] rvar.
(** The buffers are still empty, or were allocated by a forward pass with this batch size. *)
Hypothesis Hbuf : tot nin = O \/ (tot nin = T /\ tot nout = T).
Hypothesis Hcent : tot centered = O \/ tot centered = T.
Hypothesis Htg : p_train gamma = true.
Hypothesis Htb : p_train beta = true.
Notation L := (LBN2 eps alpha gamma beta std rmean rvar centered nin nout).

Notation sg := (sig C H W).
Notation ta := (tau C H W).

Lemma T_nC : T = (n * C)%nat.
Proof. ring. Qed.
Lemma n_pos : (0 < n)%nat.
Proof. rewrite T_nC in HT. destruct n; lia. Qed.
Lemma C_pos : (0 < C)%nat.
Proof. rewrite T_nC in HT. destruct C; lia. Qed.

Definition shin (E : env) : list nat := if (tot nin =? 0)%nat then [N; H; W; C] else tsh nin.
Definition shout (E : env) : list nat := if (tot nin =? 0)%nat then [N; H; W; C] else tsh nout.
Definition shcent : list nat := if (tot centered =? 0)%nat then [n; C] else tsh centered.

Lemma prodN4 a b c d : prodN [a; b; c; d] = (a * b * c * d)%nat.
Proof. unfold prodN. cbn [fold_right]. ring. Qed.

Lemma bn2_fwd_train E ga be x o : ten_ok [N; C; H; W] x -> ten_ok [N; C; H; W] o -> length ga = C -> length be = C ->
  let X := fun q => (tdat x).[sg q] in
  let Y := tab T (fun p => bval n C eps X (fun j => ga.[j]) (fun j => be.[j]) (p / C) (p mod C)) in
  bn2_fwd E eps alpha (with_data gamma ga) (with_data beta be) std rmean rvar centered nin nout x o =
  Ok (mkT [C] (tab C (bstd n C eps X)),
      mkT [C] (tab C (fun j => (tdat rmean).[j] * alpha + bmean n C X j * (1 - alpha))),
      mkT [C] (tab C (fun j => (tdat rvar).[j] * alpha + bvar n C X j * (1 - alpha))),
      mkT shcent (tab T (fun p => bcent n C X (p / C) (p mod C))),
      mkT (shin E) (tab T X), mkT (shout E) Y,
      mkT [N; C; H; W] (tab T (fun p => bval n C eps X (fun j => ga.[j]) (fun j => be.[j]) (ta p / C) (ta p mod C)))).
Proof.
  intros Hx Ho Lga Lbe X Y. pose proof n_pos as Hn. pose proof C_pos as HC.
  pose proof (ten_ok_len _ _ Hx) as Lx. pose proof (ten_ok_len _ _ Ho) as Lo. rewrite prodN4 in Lx, Lo.
  pose proof (ten_ok_len _ _ Ts) as Ls. pose proof (ten_ok_len _ _ Tm) as Lm. pose proof (ten_ok_len _ _ Tv) as Lv.
  rewrite prodN1 in Ls, Lm, Lv.
  destruct Hx as [Sx Wx], Ho as [So Wo]. destruct Ts as [Ss Ws], Tm as [Sm Wm], Tv as [Sv Wv].
  unfold bn2_fwd. cbn [with_data p_train]. rewrite Htg, Htb. cbn [Bool.eqb dw_assert bind].
  mred. rewrite Sx. mred.
  assert (Hb : exists ni1 no1, (if (tot nin =? 0)%nat then (fresh E [N; H; W; C], fresh E [N; H; W; C]) else (nin, nout)) = (ni1, no1) /\
     length (tdat ni1) = T /\ length (tdat no1) = T /\ tsh ni1 = shin E /\ tsh no1 = shout E).
  { unfold shin, shout. destruct (Nat.eqb_spec (tot nin) 0) as [E0|E0].
    - do 2 eexists. split; [reflexivity|]. cbn [fresh tdat tsh]. rewrite tab_length, prodN4. repeat split; ring.
    - do 2 eexists. split; [reflexivity|]. destruct Hbuf as [E1|[E1 E2]]; [lia|]. auto. }
  destruct Hb as (ni1 & no1 & -> & Lni & Lno & Sni & Sno).
  assert (Hc : exists c1, (if (tot centered =? 0)%nat then fresh E [(N * H * W)%nat; C] else centered) = c1 /\
     length (tdat c1) = T /\ tsh c1 = shcent).
  { unfold shcent. destruct (Nat.eqb_spec (tot centered) 0) as [E0|E0].
    - eexists. split; [reflexivity|]. cbn [fresh tdat tsh]. rewrite tab_length, prodN2. split; [ring|reflexivity].
    - eexists. split; [reflexivity|]. destruct Hcent as [E1|E1]; [lia|]. auto. }
  destruct Hc as (c1 & -> & Lc & Sc).
  rewrite nchw2nhwc_tab by assumption. cbn [bind].
  rewrite (bn_forward_train n C eps alpha Hn) by (rewrite ?tab_length; try assumption; rewrite ?T_nC in *; assumption || reflexivity).
  cbn [bind].
  assert (EX : forall q, (q < n * C)%nat -> (tab T (fun q => (tdat x).[sg q])).[q] = X q).
  { intros q Hq. rewrite nth_tab by (rewrite T_nC; exact Hq). reflexivity. }
  assert (Em : forall j, (j < C)%nat -> bmean n C (fun q => (tab T (fun q => (tdat x).[sg q])).[q]) j = bmean n C X j).
  { intros j Hj. unfold bmean. f_equal. apply rsum_ext. intros i Hi. apply EX. apply mult_lt; assumption. }
  assert (Ec : forall i j, (i < n)%nat -> (j < C)%nat -> bcent n C (fun q => (tab T (fun q => (tdat x).[sg q])).[q]) i j = bcent n C X i j).
  { intros i j Hi Hj. unfold bcent. rewrite Em by exact Hj. f_equal. apply EX. apply mult_lt; assumption. }
  assert (Ev : forall j, (j < C)%nat -> bvar n C (fun q => (tab T (fun q => (tdat x).[sg q])).[q]) j = bvar n C X j).
  { intros j Hj. unfold bvar. f_equal. apply rsum_ext. intros i Hi. rewrite Ec by assumption. reflexivity. }
  assert (Ed : forall j, (j < C)%nat -> bstd n C eps (fun q => (tab T (fun q => (tdat x).[sg q])).[q]) j = bstd n C eps X j).
  { intros j Hj. unfold bstd. rewrite Ev by exact Hj. reflexivity. }
  assert (EY : tab (n * C) (fun p => bval n C eps (fun q => (tab T (fun q => (tdat x).[sg q])).[q]) (fun j => ga.[j]) (fun j => be.[j]) (p / C) (p mod C)) = Y).
  { unfold Y. rewrite <- T_nC. apply tab_ext. intros p Hp. rewrite T_nC in Hp. destruct (divmod_lt p n C Hp) as (P1 & P2 & _).
    unfold bval. rewrite Ec, Ed by assumption. reflexivity. }
  rewrite EY. rewrite So. mred.
  rewrite nhwc2nchw_tab by (unfold Y; rewrite ?tab_length; assumption || reflexivity). cbn [bind].
  unfold set_dat. rewrite Ss, Sm, Sv, Sni, Sno, So, Sc. f_equal.
  repeat match goal with |- (_, _) = (_, _) => apply f_equal2 end; try reflexivity.
  - f_equal. apply tab_ext. intros j Hj. apply Ed. exact Hj.
  - f_equal. apply tab_ext. intros j Hj. rewrite Em by exact Hj. reflexivity.
  - f_equal. apply tab_ext. intros j Hj. rewrite Ev by exact Hj. reflexivity.
  - f_equal. rewrite <- T_nC. apply tab_ext. intros p Hp. rewrite T_nC in Hp. destruct (divmod_lt p n C Hp) as (P1 & P2 & _). apply Ec; assumption.
  - f_equal. apply tab_ext. intros p Hp. unfold Y. rewrite nth_tab; [reflexivity|]. apply tau_lt. exact Hp.
Qed.

Lemma tau_divmod p : (p < T)%nat -> (ta p / C < n)%nat /\ (ta p mod C < C)%nat.
Proof.
  intros Hp. pose proof (tau_lt N C H W p Hp) as Ht. rewrite T_nC in Ht.
  destruct (divmod_lt _ _ _ Ht) as (A & B & _). auto.
Qed.

Lemma bn2_vjp E t P I : layer_vjp E L [[N; C; H; W]] [N; C; H; W] t P I.
Proof.
  apply vjp_one. intros dP X dX HP _ [HX HdX]. rewrite prodN4 in *.
  pose proof n_pos as Hn. pose proof C_pos as HC.
  destruct (pcurve2 L gamma beta P t dP eq_refl HP) as (A & B & EP & LA & LB & DA & DB).
  destruct (prm_ok_len _ _ Pg) as [Lg Lgg]. destruct (prm_ok_len _ _ Pb) as [Lb Lgb].
  rewrite prodN1 in Lg, Lgg, Lb, Lgb. unfold tot in DA, DB, LA, LB. rewrite Lg in *. rewrite Lb in *.
  assert (HXs : forall s, length (tdat (X s)) = T).
  { intros s. rewrite (ten_ok_len [N; C; H; W]) by apply HX. apply prodN4. }
  set (xs := fun s q => (tdat (X s)).[sg q]). set (dx := fun q => dX (sg q)).
  set (dsn := fun p => dval n C eps (xs t) dx (fun j => (A t).[j]) (dP O) (dP 1%nat) (p / C) (p mod C)).
  set (LL := fun g1 g2 s nd1 nd2 => LBN2 eps alpha g1 g2
        (mkT [C] (tab C (bstd n C eps (xs s))))
        (mkT [C] (tab C (fun j => (tdat rmean).[j] * alpha + bmean n C (xs s) j * (1 - alpha))))
        (mkT [C] (tab C (fun j => (tdat rvar).[j] * alpha + bvar n C (xs s) j * (1 - alpha))))
        (mkT shcent (tab T (fun p => bcent n C (xs s) (p / C) (p mod C))))
        (mkT (shin E) nd1) (mkT (shout E) nd2)).
  exists (fun s p => bval n C eps (xs s) (fun j => (A s).[j]) (fun j => (B s).[j]) (ta p / C) (ta p mod C)),
    (fun s => LL (with_data gamma (A s)) (with_data beta (B s)) s (tab T (xs s))
       (tab T (fun p => bval n C eps (xs s) (fun j => (A s).[j]) (fun j => (B s).[j]) (p / C) (p mod C)))),
    (fun p => dsn (ta p)).
  split; [|split].
  - intros s o So Wo. rewrite EP. cbn [with_params lforward].
    destruct (HX s) as [S1 S2]. rewrite validate_rank_Ok by (rewrite ?S1, ?So; reflexivity). cbn [bind].
    unfold front. cbn [rd nth_error bind]. rewrite bn2_fwd_train by (auto; split; assumption). reflexivity.
  - intros p Hp. destruct (tau_divmod p Hp) as [P1 P2]. unfold dsn.
    apply (dl_bval n C eps xs (fun s j => (A s).[j]) (fun s j => (B s).[j])); auto.
    intros q Hq. unfold xs, dx. apply HdX. apply sig_lt. rewrite T_nC. exact Hq.
  - intros E2 go gi So Wo Si Wi Hz. specialize (Hz eq_refl).
    assert (Lgo : length (tdat go) = T) by (rewrite (ten_ok_len [N; C; H; W]) by (split; assumption); apply prodN4).
    assert (Lgi : length (tdat gi) = T) by (rewrite (ten_ok_len [N; C; H; W]) by (split; assumption); apply prodN4).
    set (G := fun q => (tdat go).[sg q]).
    set (gg := tab C (fun j => rsum n (fun i => bcent n C (xs t) i j / bstd n C eps (xs t) j * G (i * C + j)%nat))).
    set (gb := tab C (fun j => rsum n (fun i => G (i * C + j)%nat))).
    set (gr := fun q => bigrad n C eps (xs t) G (fun j => (A t).[j]) (q / C) (q mod C)).
    exists (LL (set_grad (with_data gamma (A t)) gg) (set_grad (with_data beta (B t)) gb) t (tab T (xs t)) (tab T G)),
           (LL (set_grad (with_data gamma (A t)) gg) (set_grad (with_data beta (B t)) gb) t (tab T gr) (tab T G)),
           (fun p => gr (ta p)).
    assert (Ediv : (T / C = n)%nat) by (rewrite T_nC; apply Nat.div_mul; lia).
    assert (Ecent : tab T (fun p => bcent n C (xs t) (p / C) (p mod C)) =
                    tab (n * C) (fun p => bcent n C (xs t) (p / C) (p mod C))) by (rewrite T_nC; reflexivity).
    assert (EG : forall i j, (i < n)%nat -> (j < C)%nat -> (tab T G).[i * C + j] = G (i * C + j)%nat).
    { intros i j Hi Hj. rewrite nth_tab; [reflexivity|]. rewrite T_nC. apply mult_lt; assumption. }
    destruct (Nat.eqb_spec C 0) as [|_]; [lia|]. assert (EC : (C =? 0)%nat = false) by (apply Nat.eqb_neq; lia).
    split; [|split; [|split]].
    + unfold LL. cbn [lupdate]. mred. rewrite So. mred. rewrite EC.
      rewrite nchw2nhwc_tab by (rewrite ?tab_length; assumption || reflexivity). cbn [bind].
      unfold tot. rewrite Lgo, Ediv, Ecent.
      rewrite bn_param_grad_Ok by (rewrite ?tab_length; assumption || apply T_nC). cbn [bind].
      unfold gg, gb. f_equal. f_equal; [f_equal|f_equal].
      * apply tab_ext. intros j Hj. apply rsum_ext. intros i Hi. fold G. rewrite EG by assumption. reflexivity.
      * apply tab_ext. intros j Hj. apply rsum_ext. intros i Hi. fold G. rewrite EG by assumption. reflexivity.
    + intros gm k kout Gk Gout Hne. unfold LL. cbn [lbackward]. mred.
      rewrite (nth_error_rd _ _ _ Gout). mred. rewrite So. mred. rewrite EC.
      rewrite nchw2nhwc_tab by (rewrite ?tab_length; assumption || reflexivity). cbn [bind].
      unfold tot, zeros. mred. rewrite tab_length, Lgo, same_refl, Ediv. cbn [bind]. rewrite Ecent.
      rewrite bn_input_grad_Ok by (rewrite ?tab_length; assumption || apply T_nC || apply LA). cbn [bind].
      assert (Egr : tab (n * C) (fun p => (tab T (fun _ => 0)).[p] +
                bigrad n C eps (xs t) (fun q => (tab T (fun q0 => (tdat go).[sg q0])).[q]) (fun j => (A t).[j]) (p / C) (p mod C)) = tab T gr).
      { rewrite <- T_nC. apply tab_ext. intros p Hp. rewrite nth_tab by exact Hp. rewrite T_nC in Hp. rewrite Rplus_0_l. unfold gr.
        destruct (divmod_lt p n C Hp) as (P1 & P2 & _).
        assert (Eb : forall i, (i < n)%nat -> bgcent n C eps (xs t) (fun q => (tab T (fun q0 => (tdat go).[sg q0])).[q]) (fun j => (A t).[j]) i (p mod C) =
                          bgcent n C eps (xs t) G (fun j => (A t).[j]) i (p mod C)).
        { intros i Hi. unfold bgcent. fold G. rewrite EG by assumption. f_equal. f_equal. f_equal. f_equal. f_equal.
          apply rsum_ext. intros i' Hi'. rewrite EG by assumption. reflexivity. }
        unfold bigrad. rewrite Eb by exact P1. f_equal. f_equal. apply rsum_ext. intros i Hi. apply Eb. exact Hi. }
      rewrite Egr.
      erewrite on_grad_Ok; [cbn [bind]; reflexivity|exact Gk|]. mred. rewrite Si. mred.
      rewrite nhwc2nchw_tab by (rewrite ?tab_length; assumption || reflexivity).
      f_equal. apply tab_ext. intros p Hp. rewrite nth_tab by (apply tau_lt; exact Hp).
      rewrite Hz by (unfold tot; lia). ring.
    + rewrite EP. reflexivity.
    + cbn [dparams lparams length map rsum]. rewrite EP. cbn [nth]. rewrite LA, LB. unfold LL.
      cbn [lparams dparams map nth]. mred.
      rewrite (rsum_sig N C H W (fun i => (tdat go).[i] * dsn (ta i))).
      rewrite (rsum_sig N C H W (fun i => gr (ta i) * dX i)).
      rewrite (rsum_ext T (fun q => (tdat go).[sg q] * dsn (ta (sg q))) (fun q => G q * dsn q))
        by (intros q Hq; rewrite (tau_sig N) by exact Hq; reflexivity).
      rewrite (rsum_ext T (fun q => gr (ta (sg q)) * dX (sg q)) (fun q => gr q * dx q))
        by (intros q Hq; rewrite (tau_sig N) by exact Hq; reflexivity).
      rewrite T_nC, !(rsum_mult n C). rewrite (rsum_swap n C), (rsum_swap n C). rewrite Rplus_0_l, <- !rsum_plus.
      apply rsum_ext. intros j Hj. unfold gg, gb. rewrite !nth_tab by exact Hj.
      transitivity (rsum n (fun i => G (i * C + j)%nat * dval n C eps (xs t) dx (fun j => (A t).[j]) (dP O) (dP 1%nat) i j)).
      * apply rsum_ext. intros i Hi. unfold dsn. destruct (divmod_nat i C j Hj) as [-> ->]. reflexivity.
      * rewrite bn_column by assumption. f_equal. apply rsum_ext. intros i Hi. unfold gr.
        destruct (divmod_nat i C j Hj) as [-> ->]. reflexivity.
Qed.

End BN2.
