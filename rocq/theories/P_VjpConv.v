(** Gradients of the Convolution layer. *)
From Coq Require Import Reals Lra.
From Verif Require Import Base BaseFacts Sums Deriv M_Im2col S_Im2col P_Im2col P_Layout M_Kernels M_Conv M_Layers P_Kernels P_Conv S_Grad P_Vjp1 P_Vjp2 P_BN P_BN2.
Open Scope R_scope.

Section ConvVjp.
Variables (g : geom) (batch cin h w cout ho wo : nat) (W b : prm) (buf : ten).
Notation d := (mkCd cin h w cout ho wo).
Notation rows := (cin * KH g * KW g)%nat.
Notation cols := (ho * wo)%nat.
Notation rc := (rows * cols)%nat.
Notation in_off := (cin * h * w)%nat.
Notation oc := (cout * cols)%nat.
Notation flat_src := (flat_src g h w ho wo).
Notation colv := (colv g d).
Notation conv_val := (conv_val g d).
Notation gcol := (gcol g d).
Notation conv_igrad := (conv_igrad g d).
Hypothesis Hsz : sizes_ok g h w ho wo.
Hypothesis Hg : validate_geom g = Ok tt.
Hypothesis HW : prm_ok [cout; cin; KH g; KW g] W.
Hypothesis Hb : prm_ok [cout] b.

(** Position of output (i, o, j) for the flat output index [p]. *)
Definition oval (X Wd bd : nat -> R) (p : nat) : R := conv_val X Wd bd (p / oc) ((p mod oc) / cols) ((p mod oc) mod cols).
Definition bval_ (X : nat -> R) (p : nat) : R := colv 0 (fun i => X (p / rc * in_off + i)%nat) (p mod rc).

Lemma oval_at X Wd bd i o j : (o < cout)%nat -> (j < cols)%nat ->
  oval X Wd bd (i * oc + (o * cols + j)) = conv_val X Wd bd i o j.
Proof.
  intros Ho Hj. unfold oval. destruct (divmod_nat i oc (o * cols + j)) as [-> ->]; [apply mult_lt; assumption|].
  destruct (divmod_nat o cols j Hj) as [-> ->]. reflexivity.
Qed.

Lemma oc_dec p : (p < batch * oc)%nat -> exists i o j, (i < batch)%nat /\ (o < cout)%nat /\ (j < cols)%nat /\ p = (i * oc + (o * cols + j))%nat.
Proof.
  intros Hp. destruct (divmod_lt p batch oc Hp) as (P1 & P2 & P3).
  destruct (divmod_lt _ _ _ P2) as (Q1 & Q2 & Q3).
  exists (p / oc)%nat, ((p mod oc) / cols)%nat, ((p mod oc) mod cols). repeat split; auto. rewrite <- Q3. exact P3.
Qed.

Lemma conv_forward_tab X Wd bd bf o :
  length X = (batch * in_off)%nat -> length Wd = (cout * rows)%nat -> length bd = cout ->
  length bf = (batch * rc)%nat -> length o = (batch * oc)%nat ->
  conv_forward g d batch X Wd bd bf o =
  Ok (tab (batch * rc) (bval_ (fun i => X.[i])),
      tab (batch * oc) (oval (fun i => X.[i]) (fun i => Wd.[i]) (fun i => bd.[i]))).
Proof.
  intros LX LW Lb Lf Lo.
  destruct (conv_forward_flat g d Hsz batch X Wd bd bf o) as (bf' & o' & E & L1 & L2 & H1 & H2); auto.
  - unfold cd_rows, cd_cols. cbn. lia.
  - cbn [cd_cout cd_ho cd_wo]. rewrite Lo. ring.
  - rewrite E. f_equal. apply f_equal2.
    + apply list_ext with (d := 0); [rewrite tab_length; lia|]. intros p Hp. rewrite nth_tab by lia.
      destruct (divmod_lt p batch rc) as (P1 & P2 & P3); [lia|]. unfold bval_. rewrite P3 at 1.
      apply (H1 (p / rc)%nat (p mod rc)); assumption.
    + apply list_ext with (d := 0); [rewrite tab_length; lia|]. intros p Hp. rewrite nth_tab by lia.
      destruct (oc_dec p) as (i & q & j & Hi & Hq & Hj & ->); [lia|]. rewrite oval_at by assumption.
      rewrite <- H2 by assumption. f_equal. cbn [cd_cout cd_ho cd_wo]. unfold cd_cols. cbn. ring.
Qed.

Lemma conv_input_grad_tab junk go Wd gi :
  length go = (batch * oc)%nat -> length Wd = (cout * rows)%nat ->
  length gi = (batch * in_off)%nat ->
  conv_input_grad g d batch (fun _ => tab rc junk) go Wd gi =
  Ok (tab (batch * in_off) (fun p => gi.[p] + conv_igrad (fun i => Wd.[i]) (fun i => go.[i]) (p / in_off) (p mod in_off))).
Proof.
  intros Lgo LW Lgi.
  destruct (conv_input_grad_flat g d Hsz batch (fun _ => tab rc junk) go Wd gi) as (gi' & E & L & H1); auto.
  - cbn [cd_cout cd_ho cd_wo]. rewrite Lgo. ring.
  - intros i Hi. rewrite tab_length. reflexivity.
  - rewrite E. f_equal. apply list_ext with (d := 0); [rewrite tab_length; lia|]. intros p Hp. rewrite nth_tab by lia.
    destruct (divmod_lt p batch in_off) as (P1 & P2 & P3); [lia|].
    rewrite P3 at 1 2. apply H1; assumption.
Qed.

Lemma conv_weights_grad_tab go bf gW :
  length go = (batch * oc)%nat -> length bf = (batch * rc)%nat -> length gW = (cout * rows)%nat ->
  conv_weights_grad batch cout rows cols go bf gW =
  Ok (tab (cout * rows) (fun p => rsum batch (fun i => rsum cols (fun j =>
       go.[i * oc + (p / rows * cols + j)] * bf.[i * rc + (p mod rows * cols + j)])))).
Proof.
  intros Lgo Lb LW. destruct (conv_weights_grad_flat g d batch go bf gW) as (dW & E & L & H1); auto.
  - cbn. unfold cd_rows, cd_cols. cbn. lia.
  - unfold cd_rows, cd_cols in *. cbn [cd_cin cd_cout cd_ho cd_wo] in *. rewrite E. f_equal.
    apply list_ext with (d := 0); [rewrite tab_length; lia|]. intros p Hp. rewrite nth_tab by lia.
    destruct (divmod_lt p cout rows) as (P1 & P2 & P3); [lia|]. rewrite P3 at 1. apply H1; assumption.
Qed.

Lemma conv_bias_grad_tab go gb :
  length go = (batch * oc)%nat -> length gb = cout ->
  conv_bias_grad batch cout cols go gb =
  Ok (tab cout (fun o => rsum batch (fun i => rsum cols (fun j => go.[i * oc + (o * cols + j)])))).
Proof.
  intros Lgo Lb. destruct (conv_bias_grad_flat d batch go gb) as (db & E & L & H1); auto.
  unfold cd_cols in *. cbn [cd_cout cd_ho cd_wo] in *. rewrite E. f_equal.
  apply list_ext with (d := 0); [rewrite tab_length; lia|]. intros p Hp. rewrite nth_tab by lia. apply H1. lia.
Qed.

(** Derivatives *)
Lemma flat_src_lt' p i : (p < rc)%nat -> flat_src p = Some i -> (i < in_off)%nat.
Proof.
  intros Hp. apply (flat_src_lt g cin h w ho wo). unfold NC. fold (KH g) (KW g).
  replace (cin * KH g * KW g * ho * wo)%nat with rc by ring. exact Hp.
Qed.

Lemma dl_colv (x : R -> nat -> R) dx t i p : (i < batch)%nat -> (p < rc)%nat ->
  (forall q, (q < batch * in_off)%nat -> dl (fun s => x s q) t (dx q)) ->
  dl (fun s => colv 0 (fun k => x s (i * in_off + k)%nat) p) t (colv 0 (fun k => dx (i * in_off + k)%nat) p).
Proof.
  intros Hi Hp Hx. unfold P_Conv.colv. cbn [cd_h cd_w cd_ho cd_wo].
  destruct (flat_src p) as [k|] eqn:Ek; [|apply dl_const].
  apply Hx. apply mult_lt; [exact Hi|]. apply (flat_src_lt' p k Hp Ek).
Qed.

Definition dconv (x dx Wd dW db : nat -> R) (i o j : nat) : R :=
  rsum rows (fun k => dW (o * rows + k)%nat * colv 0 (fun q => x (i * in_off + q)%nat) (k * cols + j) +
                      Wd (o * rows + k)%nat * colv 0 (fun q => dx (i * in_off + q)%nat) (k * cols + j)) + db o.

Lemma dl_conv_val (x Wd bd : R -> nat -> R) dx dW db t i o j :
  (i < batch)%nat -> (o < cout)%nat -> (j < cols)%nat ->
  (forall q, (q < batch * in_off)%nat -> dl (fun s => x s q) t (dx q)) ->
  (forall q, (q < cout * rows)%nat -> dl (fun s => Wd s q) t (dW q)) ->
  (forall q, (q < cout)%nat -> dl (fun s => bd s q) t (db q)) ->
  dl (fun s => conv_val (x s) (Wd s) (bd s) i o j) t (dconv (x t) dx (Wd t) dW db i o j).
Proof.
  intros Hi Ho Hj Hx HWd Hbd. unfold P_Conv.conv_val, dconv. apply dl_plus; [|apply Hbd; exact Ho].
  apply (dl_rsum_mult rows (fun s k => Wd s (o * rows + k)%nat)
           (fun s k => colv 0 (fun q => x s (i * in_off + q)%nat) (k * cols + j))).
  - intros k Hk. apply HWd. apply mult_lt; assumption.
  - intros k Hk. apply dl_colv; auto. apply mult_lt; assumption.
Qed.

(** The adjoint identity for one image. *)
Lemma conv_adjoint (dx Wd go : nat -> R) i :
  rsum cout (fun o => rsum cols (fun j => go (i * oc + (o * cols + j))%nat *
     rsum rows (fun k => Wd (o * rows + k)%nat * colv 0 (fun q => dx (i * in_off + q)%nat) (k * cols + j)))) =
  rsum in_off (fun q => conv_igrad Wd go i q * dx (i * in_off + q)%nat).
Proof.
  transitivity (rsum rc (fun p => colv 0 (fun q => dx (i * in_off + q)%nat) p * gcol Wd go i p)).
  - rewrite rsum_mult.
    transitivity (rsum rows (fun k => rsum cols (fun j => rsum cout (fun o =>
       go (i * oc + (o * cols + j))%nat * (Wd (o * rows + k)%nat * colv 0 (fun q => dx (i * in_off + q)%nat) (k * cols + j)))))).
    + transitivity (rsum cout (fun o => rsum rows (fun k => rsum cols (fun j =>
        go (i * oc + (o * cols + j))%nat * (Wd (o * rows + k)%nat * colv 0 (fun q => dx (i * in_off + q)%nat) (k * cols + j)))))).
      * apply rsum_ext. intros o _. rewrite (rsum_swap rows cols). apply rsum_ext. intros j _. rewrite rsum_scal_l. reflexivity.
      * rewrite rsum_swap. apply rsum_ext. intros k _. rewrite rsum_swap. reflexivity.
    + apply rsum_ext. intros k Hk. apply rsum_ext. intros j Hj. unfold P_Conv.gcol. rewrite <- rsum_scal_l.
      apply rsum_ext. intros o Ho. unfold cd_rows, cd_cols. cbn [cd_cin cd_cout cd_ho cd_wo].
      destruct (divmod_nat k cols j Hj) as [-> ->].
      replace (i * (cout * ho * wo) + (o * cols + j))%nat with (i * oc + (o * cols + j))%nat by ring. ring.
  - unfold P_Conv.colv. cbn [cd_h cd_w cd_ho cd_wo].
    rewrite (rsum_regroup rc in_off flat_src (fun q => dx (i * in_off + q)%nat) (gcol Wd go i)).
    + apply rsum_ext. intros q _. unfold P_Conv.conv_igrad, cd_rows, cd_cols. cbn [cd_cin cd_h cd_w cd_ho cd_wo]. ring.
    + intros p q Hp E. apply (flat_src_lt' p q Hp E).
Qed.

Definition buf_of (E : env) : ten := if (tot buf =? batch * rows * cols)%nat then buf else fresh E [(batch * rows * cols)%nat].

Lemma rc_assoc : (batch * rows * cols = batch * rc)%nat.
Proof. ring. Qed.

Lemma buf_of_len E : length (tdat (buf_of E)) = (batch * rc)%nat.
Proof.
  unfold buf_of. destruct (Nat.eqb_spec (tot buf) (batch * rows * cols)) as [E0|E0].
  - unfold tot in E0. rewrite E0. apply rc_assoc.
  - cbn [fresh tdat]. rewrite tab_length, prodN1. apply rc_assoc.
Qed.

Lemma conv_fwd_Ok E x o Wd bd : ten_ok [batch; cin; h; w] x -> ten_ok [batch; cout; ho; wo] o ->
  length Wd = (cout * rows)%nat -> length bd = cout ->
  conv_fwd E g (with_data W Wd) (with_data b bd) buf x o =
  Ok (mkT (tsh (buf_of E)) (tab (batch * rc) (bval_ (fun i => (tdat x).[i]))),
      mkT [batch; cout; ho; wo] (tab (batch * oc) (oval (fun i => (tdat x).[i]) (fun i => Wd.[i]) (fun i => bd.[i])))).
Proof.
  intros Hx Ho LW Lb. pose proof (ten_ok_len _ _ Hx) as Lx. pose proof (ten_ok_len _ _ Ho) as Lo.
  rewrite prodN4 in Lx, Lo. destruct Hx as [Sx Wx], Ho as [So Wo]. destruct HW as (W1 & _).
  unfold conv_fwd. mred. rewrite Sx, So. mred. rewrite W1. mred.
  unfold cd_rows at 1 2, cd_cols at 1 2. cbn [cd_cin cd_cout cd_ho cd_wo]. fold (buf_of E).
  rewrite conv_forward_tab; auto; try (rewrite ?Lx, ?Lo; ring).
  - cbn [bind]. unfold set_dat. rewrite So. reflexivity.
  - apply buf_of_len.
Qed.

Hypothesis Hne : (0 < batch * rows * cols)%nat.

Lemma conv_vjp E t P I : layer_vjp E (LConv g W b buf) [[batch; cin; h; w]] [batch; cout; ho; wo] t P I.
Proof.
  apply vjp_one. intros dP X dX HP _ [HX HdX].
  replace (prodN [batch; cout; ho; wo]) with (batch * oc)%nat by (rewrite prodN4; ring).
  assert (Ein : prodN [batch; cin; h; w] = (batch * in_off)%nat) by (rewrite prodN4; ring). rewrite Ein in *.
  destruct (pcurve2 (LConv g W b buf) W b P t dP eq_refl HP) as (A & B & EP & LA & LB & DA & DB).
  destruct (prm_ok_len _ _ HW) as [LW LgW]. destruct (prm_ok_len _ _ Hb) as [Lb Lgb].
  rewrite prodN1 in Lb, Lgb. rewrite prodN4 in LW, LgW.
  assert (Ew : (cout * cin * KH g * KW g = cout * rows)%nat) by ring. rewrite Ew in LW, LgW.
  unfold tot in DA, DB, LA, LB. rewrite LW in *. rewrite Lb in *.
  assert (HXs : forall s, length (tdat (X s)) = (batch * in_off)%nat).
  { intros s. rewrite (ten_ok_len [batch; cin; h; w]) by apply HX. exact Ein. }
  set (xs := fun s q => (tdat (X s)).[q]). set (ws := fun s q => (A s).[q]). set (bs := fun s q => (B s).[q]).
  set (LL := fun w1 b1 s => LConv g w1 b1 (mkT (tsh (buf_of E)) (tab (batch * rc) (bval_ (xs s))))).
  set (ds := fun p => dconv (xs t) dX (ws t) (dP O) (dP 1%nat) (p / oc) ((p mod oc) / cols) ((p mod oc) mod cols)).
  exists (fun s => oval (xs s) (ws s) (bs s)), (fun s => LL (with_data W (A s)) (with_data b (B s)) s), ds.
  split; [|split].
  - intros s o So Wo. rewrite EP. cbn [with_params lforward]. rewrite Hg. cbn [bind]. mred.
    destruct (HX s) as [S1 S2]. rewrite conv_fwd_Ok by (auto; split; assumption). reflexivity.
  - intros p Hp. destruct (oc_dec p Hp) as (i & o & j & Hi & Ho & Hj & ->). unfold ds.
    destruct (divmod_nat i oc (o * cols + j)) as [-> ->]; [apply mult_lt; assumption|].
    destruct (divmod_nat o cols j Hj) as [-> ->].
    apply dl_ext with (f := fun s => conv_val (xs s) (ws s) (bs s) i o j).
    + intros s. rewrite oval_at by assumption. reflexivity.
    + apply dl_conv_val; auto.
  - intros E2 go gi So Wo Si Wi _.
    assert (Lgo : length (tdat go) = (batch * oc)%nat) by (rewrite (ten_ok_len [batch; cout; ho; wo]) by (split; assumption); rewrite prodN4; ring).
    assert (Lgi : length (tdat gi) = (batch * in_off)%nat) by (rewrite (ten_ok_len [batch; cin; h; w]) by (split; assumption); exact Ein).
    set (G := fun q => (tdat go).[q]).
    set (gW := tab (cout * rows) (fun p => rsum batch (fun i => rsum cols (fun j =>
       G (i * oc + (p / rows * cols + j))%nat * bval_ (xs t) (i * rc + (p mod rows * cols + j)))))).
    set (gb := tab cout (fun o => rsum batch (fun i => rsum cols (fun j => G (i * oc + (o * cols + j))%nat)))).
    set (L3 := LL (set_grad (with_data W (A t)) gW) (set_grad (with_data b (B t)) gb) t).
    exists L3, L3, (fun p => conv_igrad (ws t) G (p / in_off) (p mod in_off)).
    destruct HW as (W1 & W2 & W3 & W4), Hb as (b1 & b2 & b3 & b4).
    assert (Tb : tot (mkT (tsh (buf_of E)) (tab (batch * rc) (bval_ (xs t)))) = (batch * rc)%nat) by (unfold tot; cbn; apply tab_length).
    assert (Tb0 : (tot (mkT (tsh (buf_of E)) (tab (batch * rc) (bval_ (xs t)))) =? 0)%nat = false).
    { rewrite Tb. apply Nat.eqb_neq. rewrite rc_assoc in Hne. lia. }
    split; [|split; [|split]].
    + unfold LL. cbn [lupdate]. rewrite Tb0. cbn [negb dw_assert bind]. mred. rewrite So. mred. rewrite W3. mred.
      rewrite (conv_weights_grad_tab (tdat go) _ _) by (rewrite ?tab_length; auto). cbn [bind].
      rewrite conv_bias_grad_tab by assumption. cbn [bind]. unfold L3, LL. f_equal. f_equal. f_equal.
      unfold gW. apply tab_ext. intros p Hp. destruct (divmod_lt p cout rows Hp) as (P1 & P2 & _).
      apply rsum_ext. intros i Hi. apply rsum_ext. intros j Hj. f_equal.
      rewrite nth_tab; [reflexivity|]. apply mult_lt; [exact Hi|]. apply mult_lt; assumption.
    + intros gm k kout Gk Gout Hnk. unfold L3, LL. cbn [lbackward]. rewrite Tb0. cbn [negb dw_assert bind]. mred.
      rewrite (nth_error_rd _ _ _ Gout). mred. rewrite So. mred.
      erewrite on_grad_Ok; [reflexivity|exact Gk|]. mred. rewrite Si. mred.
      change (cd_rows g d * cd_cols d)%nat with rc.
      rewrite conv_input_grad_tab by auto. reflexivity.
    + rewrite EP. reflexivity.
    + cbn [dparams lparams length map rsum]. rewrite EP. cbn [nth]. rewrite LA, LB. unfold L3, LL.
      cbn [lparams dparams map nth]. mred. rewrite Rplus_0_l.
      (* split the sum over outputs *)
      transitivity (rsum batch (fun i => rsum cout (fun o => rsum cols (fun j =>
          G (i * oc + (o * cols + j))%nat * rsum rows (fun k => ws t (o * rows + k)%nat * colv 0 (fun q => dX (i * in_off + q)%nat) (k * cols + j))))) +
        (rsum batch (fun i => rsum cout (fun o => rsum cols (fun j =>
          G (i * oc + (o * cols + j))%nat * rsum rows (fun k => dP O (o * rows + k)%nat * colv 0 (fun q => xs t (i * in_off + q)%nat) (k * cols + j))))) +
         rsum batch (fun i => rsum cout (fun o => rsum cols (fun j => G (i * oc + (o * cols + j))%nat * dP 1%nat o))))).
      * rewrite (rsum_mult batch oc). rewrite <- !rsum_plus. apply rsum_ext. intros i Hi.
        rewrite (rsum_mult cout cols). rewrite <- !rsum_plus. apply rsum_ext. intros o Ho. rewrite <- !rsum_plus.
        apply rsum_ext. intros j Hj. unfold ds.
        destruct (divmod_nat i oc (o * cols + j)) as [-> ->]; [apply mult_lt; assumption|].
        destruct (divmod_nat o cols j Hj) as [-> ->]. unfold dconv. rewrite rsum_plus. unfold G. ring.
      * apply f_equal2; [|apply f_equal2].
        -- rewrite (rsum_mult batch in_off). apply rsum_ext. intros i Hi. rewrite conv_adjoint.
           apply rsum_ext. intros q Hq. destruct (divmod_nat i in_off q Hq) as [-> ->]. reflexivity.
        -- rewrite (rsum_mult cout rows). rewrite rsum_swap. apply rsum_ext. intros o Ho.
           transitivity (rsum rows (fun k => rsum batch (fun i => rsum cols (fun j =>
              G (i * oc + (o * cols + j))%nat * colv 0 (fun q => xs t (i * in_off + q)%nat) (k * cols + j))) * dP O (o * rows + k)%nat)).
           ++ transitivity (rsum batch (fun i => rsum rows (fun k => rsum cols (fun j =>
                  G (i * oc + (o * cols + j))%nat * colv 0 (fun q => xs t (i * in_off + q)%nat) (k * cols + j)) * dP O (o * rows + k)%nat))).
              ** apply rsum_ext. intros i Hi.
                 transitivity (rsum cols (fun j => rsum rows (fun k => G (i * oc + (o * cols + j))%nat * colv 0 (fun q => xs t (i * in_off + q)%nat) (k * cols + j) * dP O (o * rows + k)%nat))).
                 --- apply rsum_ext. intros j Hj. rewrite <- rsum_scal_l. apply rsum_ext. intros k Hk. ring.
                 --- rewrite rsum_swap. apply rsum_ext. intros k Hk. rewrite rsum_scal_r. reflexivity.
              ** rewrite rsum_swap. apply rsum_ext. intros k Hk. rewrite rsum_scal_r. reflexivity.
           ++ apply rsum_ext. intros k Hk. f_equal. unfold gW. rewrite nth_tab by (apply mult_lt; assumption).
              destruct (divmod_nat o rows k Hk) as [-> ->].
              apply rsum_ext. intros i Hi. apply rsum_ext. intros j Hj. f_equal. unfold bval_.
              destruct (divmod_nat i rc (k * cols + j)) as [-> ->]; [apply mult_lt; assumption|]. reflexivity.
        -- rewrite rsum_swap. apply rsum_ext. intros o Ho. unfold gb. rewrite nth_tab by exact Ho.
           rewrite <- rsum_scal_r. apply rsum_ext. intros i Hi. rewrite rsum_scal_r. reflexivity.
Qed.

End ConvVjp.
