(** Gradients of Linear, Softmax, global average pooling, Add and Dropout. *)
From Coq Require Import Reals Lra.
From Verif Require Import Base BaseFacts Sums Deriv M_Im2col S_Im2col M_Kernels M_Conv M_Layers P_Kernels S_Grad P_Vjp1.
Open Scope R_scope.

(** A one-input layer, without the bookkeeping of ports and gradient memory. *)
Lemma vjp_one E L sh osh t P I :
  (forall dP X dX, pcurve L P t dP -> (forall s, I s = [X s]) -> tcurve sh X t dX ->
   exists (O : R -> nat -> R) (L' : R -> layer) (dO : nat -> R),
     (forall s o, tsh o = osh -> twf o ->
        lforward E (with_params L (P s)) [X s] [o] = Ok (L' s, mkT osh (tab (prodN osh) (O s)))) /\
     (forall i, (i < prodN osh)%nat -> dl (fun s => O s i) t (dO i)) /\
     forall E2 go gi, tsh go = osh -> twf go -> tsh gi = sh -> twf gi -> (overwrites L = true -> all_zero gi) ->
     exists L2 L3 c,
       lupdate E2 (L' t) [X t] [go] = Ok L2 /\
       (forall gm k kout, nth_error gm k = Some gi -> nth_error gm kout = Some go -> k <> kout ->
          lbackward E2 L2 [X t] [mkT osh (tab (prodN osh) (O t))] gm [k] [kout] =
          Ok (L3, upd gm k (set_dat gi (tab (prodN sh) (fun i => (tdat gi).[i] + c i))))) /\
       map p_data (dparams L3) = map p_data (dparams (with_params L (P t))) /\
       rsum (prodN osh) (fun i => (tdat go).[i] * dO i) =
       rsum (prodN sh) (fun i => c i * dX i) +
       rsum (length (dparams L)) (fun k =>
         rsum (length (nth k (P t) [])) (fun i =>
           (nth k (map (fun p => tdat (p_grad p)) (dparams L3)) []).[i] * dP k i))) ->
  layer_vjp E L [sh] osh t P I.
Proof.
  intros H dP dI HP HI. destruct (icurve1 _ _ _ _ HI) as (X & EX & HX).
  destruct (H dP X (dI O) HP EX HX) as (O & L' & dO & Hf & Hd & Hb).
  exists (fun s => mkT osh (tab (prodN osh) (O s))), L', dO.
  split; [|split; [split|]].
  - intros s o Ho Wo. rewrite EX. apply Hf; assumption.
  - intros s. split; [reflexivity|]. unfold twf. cbn. apply tab_length.
  - intros i Hi. apply dl_ext with (f := fun s => O s i); [|apply Hd; exact Hi].
    intros s. cbn [tdat]. rewrite nth_tab by exact Hi. reflexivity.
  - intros E2 gm gins kout go HR.
    destruct (ready1 _ _ _ _ _ _ _ HR) as (k & gi & -> & Gk & Gs & Gw & Gne & Go1 & Go2 & Go3 & Gz).
    destruct (Hb E2 go gi Go2 Go3 Gs Gw Gz) as (L2 & L3 & c & B1 & B2 & B3 & B4).
    exists L2, L3, (upd gm k (set_dat gi (tab (prodN sh) (fun i => (tdat gi).[i] + c i)))), (fun _ => c).
    rewrite EX. split; [exact B1|]. split; [apply B2; assumption|]. split; [|split; [exact B3|]].
    + apply accum_one; [exact Gk| |].
      * rewrite tab_length. unfold tot, twf in *. congruence.
      * intros i Hi. rewrite nth_tab; [reflexivity|]. unfold tot, twf in *. congruence.
    + rewrite B4. cbn [length rsum nth]. ring.
Qed.

Lemma dl_rsum_mult n (f g : R -> nat -> R) t df dg :
  (forall i, (i < n)%nat -> dl (fun s => f s i) t (df i)) ->
  (forall i, (i < n)%nat -> dl (fun s => g s i) t (dg i)) ->
  dl (fun s => rsum n (fun i => f s i * g s i)) t (rsum n (fun i => df i * g t i + f t i * dg i)).
Proof.
  intros Hf Hg. apply (dl_rsum n (fun s i => f s i * g s i)). intros i Hi.
  apply (dl_mult (fun s => f s i) (fun s => g s i)); auto.
Qed.


Lemma pcurve2 L p q P t dP : dparams L = [p; q] -> pcurve L P t dP ->
  exists A B, (forall s, P s = [A s; B s]) /\
    (forall s, length (A s) = tot (p_data p)) /\ (forall s, length (B s) = tot (p_data q)) /\
    (forall i, (i < tot (p_data p))%nat -> dl (fun s => (A s).[i]) t (dP O i)) /\
    (forall i, (i < tot (p_data q))%nat -> dl (fun s => (B s).[i]) t (dP 1%nat i)).
Proof.
  intros E [Hl Hc]. rewrite E in *.
  exists (fun s => nth 0 (P s) []), (fun s => nth 1 (P s) []).
  split; [|split; [|split; [|split]]].
  - intros s. destruct (len2 (P s) (Hl s)) as (x & y & Es). rewrite Es. reflexivity.
  - apply (Hc O p). reflexivity.
  - apply (Hc 1%nat q). reflexivity.
  - apply (Hc O p). reflexivity.
  - apply (Hc 1%nat q). reflexivity.
Qed.

Lemma prodN2 a b : prodN [a; b] = (a * b)%nat.
Proof. unfold prodN. cbn. lia. Qed.
Lemma prodN1 a : prodN [a] = a.
Proof. unfold prodN. cbn. lia. Qed.

Ltac mred := unfold dims2, dims4, dim0, front;
  cbn [rd nth_error bind second_shape tsh tdat set_dat p_data p_grad p_train set_grad with_data].

(** * Linear *)
Section Linear.
Variables (n u : nat) (rest : list nat) (W b : prm).
Hypothesis Hrest : rest <> [].
Hypothesis HW : prm_ok [u; prodN rest] W.
Hypothesis Hb : prm_ok [u] b.
Notation m := (prodN rest).

Definition lin_val (X Wd bd : list R) (i j : nat) : R :=
  rsum m (fun k => X.[i * m + k] * Wd.[j * m + k]) + bd.[j].

Lemma linear_fwd_Ok Wd bd x o : length Wd = (u * m)%nat -> length bd = u ->
  tsh x = n :: rest -> twf x -> tsh o = [n; u] -> twf o ->
  linear_fwd (with_data W Wd) (with_data b bd) x o =
  Ok (mkT [n; u] (tab (n * u) (fun p => lin_val (tdat x) Wd bd (p / u) (p mod u)))).
Proof.
  intros LW Lb Sx Wx So Wo. destruct HW as (HW1 & HW2 & _). destruct Hb as (Hb1 & Hb2 & _).
  unfold twf in *. rewrite Sx in Wx. rewrite So, prodN2 in Wo. cbn [prodN fold_right] in Wx. fold (prodN rest) in Wx.
  unfold linear_fwd, dims2, dim0. cbn [with_data p_data set_dat tsh tdat]. rewrite HW1, Hb1, Sx, So.
  cbn [rd nth_error bind second_shape].
  unfold linear_forward. rewrite !emap_Ok by lia. rewrite !same_refl. cbn [bind].
  unfold linear_add_bias.
  rewrite !emap_Ok by (rewrite ?put2_length; lia). rewrite !same_refl. cbn [bind].
  rewrite (put2_full n u _ (put2 _ _ _ _)) by (rewrite put2_length; lia).
  unfold set_dat. rewrite So. f_equal. f_equal. apply tab_ext. intros p Hp.
  destruct (divmod_lt p n u Hp) as (P1 & P2 & _). rewrite el_put2 by assumption. reflexivity.
Qed.

Lemma validate_linear_Ok x o : tsh x = n :: rest -> tsh o = [n; u] -> validate_linear [x] [o] = Ok tt.
Proof.
  intros Sx So. unfold validate_linear, dw_assert, front, rd. cbn [length Nat.eqb bind nth_error].
  rewrite Sx, So. destruct rest; [contradiction|]. reflexivity.
Qed.

Lemma linear_vjp E t P I : layer_vjp E (LLinear W b) [n :: rest] [n; u] t P I.
Proof.
  apply vjp_one. intros dP X dX HP _ [HX HdX].
  destruct (pcurve2 (LLinear W b) W b P t dP eq_refl HP) as (A & B & EP & LA & LB & DA & DB).
  pose proof HW as (HW1 & HW2 & HW3 & HW4). pose proof Hb as (Hb1 & Hb2 & Hb3 & Hb4).
  assert (TA : tot (p_data W) = (u * m)%nat) by (unfold tot, twf in *; rewrite HW2, HW1; apply prodN2).
  assert (TB : tot (p_data b) = u) by (unfold tot, twf in *; rewrite Hb2, Hb1; apply prodN1).
  rewrite TA in *. rewrite TB in *.
  assert (HXs : forall s, length (tdat (X s)) = (n * m)%nat).
  { intros s. destruct (HX s) as [S1 S2]. unfold twf in S2. rewrite S2, S1. reflexivity. }
  rewrite prodN2. change (prodN (n :: rest)) with (n * m)%nat in *.
  set (dv := fun i j => rsum m (fun k => dX (i * m + k)%nat * (A t).[j * m + k] +
                                         (tdat (X t)).[i * m + k] * dP O (j * m + k)%nat) + dP 1%nat j).
  exists (fun s p => lin_val (tdat (X s)) (A s) (B s) (p / u) (p mod u)),
         (fun s => with_params (LLinear W b) (P s)), (fun p => dv (p / u)%nat (p mod u)).
  split; [|split].
  - intros s o So Wo. rewrite EP. cbn [with_params lforward]. destruct (HX s) as [S1 S2].
    rewrite validate_linear_Ok by assumption. cbn [bind]. unfold front. cbn [rd nth_error bind].
    rewrite linear_fwd_Ok by auto. reflexivity.
  - intros p Hp. destruct (divmod_lt p n u Hp) as (P1 & P2 & _). unfold lin_val, dv.
    apply dl_plus; [|apply DB; exact P2].
    apply (dl_rsum_mult m (fun s k => (tdat (X s)).[p / u * m + k]) (fun s k => (A s).[p mod u * m + k])).
    + intros k Hk. apply HdX. apply mult_lt; assumption.
    + intros k Hk. apply DA. apply mult_lt; assumption.
  - intros E2 go gi So Wo Si Wi _.
    assert (Lgo : length (tdat go) = (n * u)%nat) by (unfold twf in Wo; rewrite Wo, So; apply prodN2).
    assert (Lgi : length (tdat gi) = (n * m)%nat) by (unfold twf in Wi; rewrite Wi, Si; reflexivity).
    assert (LgW : length (tdat (p_grad W)) = (u * m)%nat) by (unfold twf in HW4; rewrite HW4, HW3; apply prodN2).
    assert (Lgb : length (tdat (p_grad b)) = u) by (unfold twf in Hb4; rewrite Hb4, Hb3; apply prodN1).
    set (gW := tab (u * m) (fun p => rsum n (fun i => el (tdat go) u i (p / m) * el (tdat (X t)) m i (p mod m)))).
    set (gb := tab u (fun j => rsum n (fun i => el (tdat go) u i j))).
    set (c := fun p => rsum u (fun j => el (tdat go) u (p / m) j * el (A t) m j (p mod m))).
    exists (LLinear (set_grad (with_data W (A t)) gW) (set_grad (with_data b (B t)) gb)),
           (LLinear (set_grad (with_data W (A t)) gW) (set_grad (with_data b (B t)) gb)), c.
    destruct (HX t) as [S1 S2].
    split; [|split; [|split]].
    + rewrite EP. cbn [with_params lupdate with_data p_grad]. unfold dims2, dim0, front.
      rewrite HW3, Hb3. cbn [rd nth_error bind]. rewrite So. cbn [rd nth_error bind]. rewrite S1.
      cbn [rd nth_error bind second_shape].
      rewrite ?So, ?S1. cbn [rd nth_error bind second_shape tsh].
      unfold linear_weight_grad. rewrite !emap_Ok by (rewrite ?HXs; lia). rewrite !same_refl. cbn [bind].
      unfold linear_bias_grad. rewrite !emap_Ok by lia. rewrite !same_refl. cbn [bind].
      rewrite put2_full by exact LgW. rewrite put_full by exact Lgb. reflexivity.
    + intros gm k kout Gk Gout Hne. cbn [lbackward set_grad with_data p_data set_dat tsh tdat].
      mred. rewrite HW1. mred. rewrite (nth_error_rd _ _ _ Gout). mred. rewrite So. mred. rewrite S1. mred.
      erewrite on_grad_Ok; [reflexivity|exact Gk|].
      mred. rewrite Si. mred.
      unfold linear_input_grad. rewrite !emap_Ok by (rewrite ?LA; lia). rewrite !same_refl. cbn [bind].
      rewrite put2_full by exact Lgi. f_equal. apply tab_ext. intros p Hp.
      destruct (divmod_lt p n m Hp) as (P1 & P2 & P3). unfold el at 1. rewrite <- P3. reflexivity.
    + rewrite EP. reflexivity.
    + cbn [dparams lparams length map]. cbn [rsum]. rewrite EP. cbn [nth].
      rewrite LA, LB. cbn [set_grad with_data p_grad set_dat tdat].
      rewrite !rsum_mult.
      transitivity (rsum n (fun i => rsum m (fun k => rsum u (fun j => el (tdat go) u i j * el (A t) m j k) * dX (i * m + k)%nat)) +
                    (rsum u (fun j => rsum m (fun k => rsum n (fun i => el (tdat go) u i j * el (tdat (X t)) m i k) * dP O (j * m + k)%nat)) +
                     rsum u (fun j => rsum n (fun i => el (tdat go) u i j) * dP 1%nat j))).
      * transitivity (rsum n (fun i => rsum u (fun j => rsum m (fun k => el (tdat go) u i j * el (A t) m j k * dX (i * m + k)%nat))) +
                      (rsum n (fun i => rsum u (fun j => rsum m (fun k => el (tdat go) u i j * el (tdat (X t)) m i k * dP O (j * m + k)%nat))) +
                       rsum n (fun i => rsum u (fun j => el (tdat go) u i j * dP 1%nat j)))).
        -- rewrite <- !rsum_plus. apply rsum_ext. intros i Hi. rewrite <- !rsum_plus. apply rsum_ext. intros j Hj.
           destruct (divmod_nat i u j Hj) as [-> ->]. unfold dv. rewrite Rmult_plus_distr_l, <- rsum_scal_l.
           rewrite <- Rplus_assoc. f_equal. rewrite <- rsum_plus. apply rsum_ext. intros k Hk. unfold el. ring.
        -- f_equal; [|f_equal].
           ++ apply rsum_ext. intros i Hi. rewrite rsum_swap. apply rsum_ext. intros k Hk.
              rewrite <- rsum_scal_r. reflexivity.
           ++ rewrite rsum_swap. apply rsum_ext. intros j Hj. rewrite rsum_swap. apply rsum_ext. intros k Hk.
              rewrite <- rsum_scal_r. reflexivity.
           ++ rewrite rsum_swap. apply rsum_ext. intros j Hj. rewrite <- rsum_scal_r. reflexivity.
      * f_equal; [|rewrite Rplus_0_l; f_equal].
        -- apply rsum_ext. intros i Hi. apply rsum_ext. intros k Hk. unfold c.
           destruct (divmod_nat i m k Hk) as [-> ->]. reflexivity.
        -- apply rsum_ext. intros j Hj. apply rsum_ext. intros k Hk. unfold gW.
           rewrite nth_tab by (apply mult_lt; assumption).
           destruct (divmod_nat j m k Hk) as [-> ->]. reflexivity.
        -- apply rsum_ext. intros j Hj. unfold gb. rewrite nth_tab by exact Hj. reflexivity.
Qed.

End Linear.
