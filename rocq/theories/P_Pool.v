(** Max pooling: values and gradients. *)
From Coq Require Import Reals Lra.
From Verif Require Import Base BaseFacts Sums Deriv M_Im2col S_Im2col P_Im2col P_Layout M_Kernels M_Conv M_Layers P_Kernels P_Conv S_Grad P_Vjp1 P_Vjp2 P_BN P_BN2.
Open Scope R_scope.


Section Pool.
Variables (g : geom) (planes h w ho wo : nat) (am : nat -> (nat -> R) -> nat).
Notation d := (mkCd 1 h w 1 ho wo).
Notation rows := (KH g * KW g)%nat.
Notation cols := (ho * wo)%nat.
Notation rc := (rows * cols)%nat.
Notation pl := (h * w)%nat.
Notation flat_src := (flat_src g h w ho wo).
Hypothesis Hsz : sizes_ok g h w ho wo.
Hypothesis Hrows : (0 < rows)%nat.
Hypothesis Ham : forall f, (am rows f < rows)%nat.

(** Cell [k] of window [j] of plane [i]. *)
Definition cell (x : nat -> R) (i j k : nat) : R := colv g d flt_min (fun q => x (i * pl + q)%nat) (k * cols + j).

Lemma NC1 : NC g 1 ho wo = rc.
Proof. unfold NC. fold (KH g) (KW g). ring. Qed.

Definition arow (x : nat -> R) (i j : nat) : nat := am rows (cell x i j).

Section AmExt.
(** [maxCoeff] looks only at the coefficients of the column. *)
Hypothesis Hext : forall f f', (forall k, (k < rows)%nat -> f k = f' k) -> am rows f = am rows f'.

Lemma pool_cols_Ok i col dst ind : length col = rc -> (i < planes)%nat ->
  length dst = (planes * cols)%nat -> length ind = (planes * cols)%nat ->
  exists dst' ind', pool_cols am i rows cols col (dst, ind) = Ok (dst', ind') /\
    length dst' = length dst /\ length ind' = length ind /\
    (forall j, (j < cols)%nat -> dst'.[i * cols + j] = el col cols (am rows (fun k => el col cols k j)) j) /\
    (forall j, (j < cols)%nat -> nth (i * cols + j) ind' O = am rows (fun k => el col cols k j)) /\
    (forall q, (q < i * cols \/ i * cols + cols <= q)%nat -> dst'.[q] = dst.[q] /\ nth q ind' O = nth q ind O).
Proof.
  intros Lc Hi Ld Li. unfold pool_cols.
  match goal with |- context [forr cols ?b _] =>
  destruct (forr_inv (fun n (s : list R * list nat) => length (fst s) = length dst /\ length (snd s) = length ind /\
    (forall j, (j < n)%nat -> (fst s).[i * cols + j] = el col cols (am rows (fun k => el col cols k j)) j) /\
    (forall j, (j < n)%nat -> nth (i * cols + j) (snd s) O = am rows (fun k => el col cols k j)) /\
    (forall q, (q < i * cols \/ i * cols + cols <= q)%nat -> (fst s).[q] = dst.[q] /\ nth q (snd s) O = nth q ind O))
    cols b (dst, ind)) as ([dst' ind'] & E & H) end.
  - cbn. repeat split; auto; intros; lia.
  - intros j [ds ix] Hj (L1 & L2 & H1 & H2 & H3). cbn [fst snd] in *.
    destruct (Nat.eqb_spec rows 0) as [|_]; [lia|]. cbv zeta.
    assert (Hp : (i * cols + j < planes * cols)%nat) by (apply mult_lt; assumption).
    rewrite wr_Ok by lia. cbn [bind]. rewrite wr_Ok by lia. cbn [bind].
    eexists. split; [reflexivity|]. cbn [fst snd]. rewrite !upd_length. split; [lia|]. split; [lia|].
    split; [|split].
    + intros j' Hj'. destruct (Nat.eq_dec j j') as [<-|Hne].
      * rewrite nth_upd_eq by lia. reflexivity.
      * rewrite nth_upd_neq by lia. apply H1. lia.
    + intros j' Hj'. destruct (Nat.eq_dec j j') as [<-|Hne].
      * rewrite nth_upd_eq by lia. reflexivity.
      * rewrite nth_upd_neq by lia. apply H2. lia.
    + intros q Hq. rewrite !nth_upd_neq by lia. apply H3. exact Hq.
  - exists dst', ind'. cbn [fst snd] in H. split; [exact E|]. tauto.
Qed.

Lemma maxpool_forward_tab input output indices buf :
  length input = (planes * pl)%nat -> length output = (planes * cols)%nat ->
  length indices = (planes * cols)%nat -> length buf = rc ->
  exists buf', maxpool_forward am g planes h w ho wo input output indices buf =
    Ok (tab (planes * cols) (fun p => cell (fun q => input.[q]) (p / cols) (p mod cols) (arow (fun q => input.[q]) (p / cols) (p mod cols))),
        tab (planes * cols) (fun p => arow (fun q => input.[q]) (p / cols) (p mod cols)), buf') /\
    length buf' = rc.
Proof.
  intros Li Lo Lx Lb. unfold maxpool_forward. set (X := fun q => input.[q]).
  match goal with |- context [forr planes ?b _] =>
  destruct (forr_inv (fun n (s : list R * list nat * list R) =>
    length (fst (fst s)) = (planes * cols)%nat /\ length (snd (fst s)) = (planes * cols)%nat /\ length (snd s) = rc /\
    (forall i j, (i < n)%nat -> (j < cols)%nat -> (fst (fst s)).[i * cols + j] = cell X i j (arow X i j) /\
                                                 nth (i * cols + j) (snd (fst s)) O = arow X i j))
    planes b (output, indices, buf)) as ([[o' x'] b'] & E & L1 & L2 & L3 & H) end.
  - cbn. repeat split; auto; lia.
  - intros i [[o x] bf] Hi (L1 & L2 & L3 & H). cbn [fst snd] in *.
    rewrite slice_Ok by (apply batch_fit with planes; lia). cbn [bind].
    set (src := firstn pl (skipn (i * pl) input)).
    assert (Ls : length src = pl) by (apply slice_length; apply batch_fit with planes; lia).
    pose proof (im2col_flat g 1 h w ho wo Hsz flt_min src bf) as F. change (Z.of_nat 1) with 1%Z in F.
    rewrite F; [|rewrite Ls; ring|rewrite NC1; lia]. clear F. cbn [bind].
    rewrite NC1. rewrite skipn_all2 by lia. rewrite app_nil_r.
    set (col := tab rc _).
    assert (Lc : length col = rc) by apply tab_length.
    assert (Vc : forall k j, (k < rows)%nat -> (j < cols)%nat -> el col cols k j = cell X i j k).
    { intros k j Hk Hj. unfold el, col. assert (Hp : (k * cols + j < rc)%nat) by (apply mult_lt; assumption).
      rewrite nth_tab by exact Hp. unfold cell, colv. cbn [cd_h cd_w cd_ho cd_wo].
      destruct (flat_src (k * cols + j)) as [q|] eqn:Eq; [|reflexivity].
      assert (Hq : (q < pl)%nat).
      { pose proof (flat_src_lt g 1 h w ho wo (k * cols + j)%nat q) as F. rewrite NC1 in F.
        specialize (F Hp Eq). lia. }
      unfold src. rewrite nth_slice by exact Hq. unfold X. apply nth_indep. rewrite Li. apply mult_lt; assumption. }
    rewrite emap_Ok by lia. cbn [bind].
    destruct (pool_cols_Ok i col o x Lc Hi L1 L2) as (o2 & x2 & E & M1 & M2 & V1 & V2 & V3).
    rewrite E. cbn [bind]. eexists. split; [reflexivity|]. cbn [fst snd].
    split; [lia|]. split; [lia|]. split; [exact Lc|].
    intros i' j Hi' Hj. destruct (Nat.eq_dec i' i) as [->|Hne].
    + assert (Ea : am rows (fun k => el col cols k j) = arow X i j).
      { apply Hext. intros k Hk. apply Vc; assumption. }
      rewrite V1, V2, Ea by exact Hj. split; [|reflexivity]. apply Vc; [|exact Hj]. apply Ham.
    + destruct (V3 (i' * cols + j)%nat) as [-> ->]; [apply block_disjoint; [congruence|exact Hj]|].
      apply H; [lia|exact Hj].
  - cbn [fst snd] in *. exists b'. split; [|exact L3]. rewrite E. f_equal. apply f_equal2; [|reflexivity].
    apply f_equal2.
    + apply list_ext with (d := 0); [rewrite tab_length; lia|]. intros p Hp. rewrite nth_tab by lia.
      destruct (divmod_lt p planes cols) as (P1 & P2 & P3); [lia|]. rewrite P3 at 1. apply H; assumption.
    + apply list_ext with (d := O); [rewrite tab_length; lia|]. intros p Hp. rewrite nth_tab by lia.
      destruct (divmod_lt p planes cols) as (P1 & P2 & P3); [lia|]. rewrite P3 at 1. apply H; assumption.
Qed.

End AmExt.

(** Gradient received by pixel [q] of plane [i]. *)
Definition pool_igrad (ind : nat -> nat) (go : nat -> R) (i q : nat) : R :=
  rsum cols (fun j => match flat_src (ind (i * cols + j)%nat * cols + j) with
                      | Some k => if Nat.eqb k q then go (i * cols + j)%nat else 0
                      | None => 0 end).

Lemma scatter_cols i indices go buf : (i < planes)%nat ->
  length go = (planes * cols)%nat -> length indices = (planes * cols)%nat ->
  (forall p, (p < planes * cols)%nat -> (nth p indices O < rows)%nat) -> length buf = rc ->
  exists buf', forr cols (fun j buf =>
              row <- rd indices (i * cols + j) ;;
              v <- rd go (i * cols + j) ;;
              wr buf (row * cols + j) v) (zeros buf) = Ok buf' /\ length buf' = rc /\
    forall k j, (k < rows)%nat -> (j < cols)%nat -> buf'.[k * cols + j] =
      if (nth (i * cols + j) indices O =? k)%nat then go.[i * cols + j] else 0.
Proof.
  clear Ham. intros Hi Lg Li Hr Lb.
  match goal with |- context [forr cols ?b _] =>
  destruct (forr_inv (fun n s => length s = rc /\ forall k j, (k < rows)%nat -> (j < cols)%nat -> s.[k * cols + j] =
      if ((j <? n) && (nth (i * cols + j) indices O =? k))%nat then go.[i * cols + j] else 0) cols b (zeros buf))
     as (b' & E & L & H) end.
  - unfold zeros. rewrite tab_length. split; [exact Lb|]. intros k j Hk Hj. rewrite nth_tab; [reflexivity|].
    rewrite Lb. apply mult_lt; assumption.
  - intros j s Hj (L & H).
    assert (Hp : (i * cols + j < planes * cols)%nat) by (apply mult_lt; assumption).
    rewrite (rd_Ok indices _ O) by lia. cbn [bind]. rewrite (rd_Ok go _ 0) by lia. cbn [bind].
    specialize (Hr _ Hp). set (row := nth (i * cols + j) indices O) in *.
    assert (Hw : (row * cols + j < rc)%nat) by (apply mult_lt; assumption).
    rewrite wr_Ok by lia. eexists. split; [reflexivity|]. rewrite upd_length. split; [exact L|].
    intros k j' Hk Hj'. rewrite nth_upd. rewrite (proj2 (Nat.ltb_lt _ _)) by lia. rewrite andb_true_r.
    destruct (Nat.eqb_spec (row * cols + j) (k * cols + j')) as [Eq|Nq].
    + assert (row = k /\ j = j') as [<- <-].
      { destruct (divmod_nat row cols j Hj) as [D1 M1]. destruct (divmod_nat k cols j' Hj') as [D2 M2].
        rewrite Eq in D1, M1. split; congruence. }
      fold row. rewrite Nat.eqb_refl. destruct (Nat.ltb_spec j (S j)); [reflexivity|lia].
    + rewrite H by assumption. destruct (Nat.eq_dec j j') as [<-|Nj].
      * fold row. destruct (Nat.eqb_spec row k) as [->|]; [contradiction|]. rewrite !andb_false_r. reflexivity.
      * destruct (Nat.ltb_spec j' j), (Nat.ltb_spec j' (S j)); try lia; reflexivity.
  - exists b'. split; [exact E|]. split; [exact L|]. intros k j Hk Hj. rewrite H by assumption.
    destruct (Nat.ltb_spec j cols); [reflexivity|lia].
Qed.

Lemma maxpool_input_grad_tab go indices buf gi :
  length go = (planes * cols)%nat -> length indices = (planes * cols)%nat ->
  (forall p, (p < planes * cols)%nat -> (nth p indices O < rows)%nat) -> length buf = rc ->
  length gi = (planes * pl)%nat ->
  exists buf', maxpool_input_grad g planes h w ho wo go indices buf gi =
    Ok (tab (planes * pl) (fun p => gi.[p] + pool_igrad (fun q => nth q indices O) (fun q => go.[q]) (p / pl) (p mod pl)), buf') /\
    length buf' = rc.
Proof.
  clear Ham. intros Lg Li Hr Lb Lgi. unfold maxpool_input_grad. set (IX := fun q => nth q indices O). set (G := fun q => go.[q]).
  match goal with |- context [forr planes ?b _] =>
  destruct (forr_inv (fun n (s : list R * list R) => length (fst s) = (planes * pl)%nat /\ length (snd s) = rc /\
    (forall i q, (i < n)%nat -> (q < pl)%nat -> (fst s).[i * pl + q] = gi.[i * pl + q] + pool_igrad IX G i q) /\
    (forall p, (n * pl <= p)%nat -> (fst s).[p] = gi.[p])) planes b (gi, buf)) as ([gi' b'] & E & L1 & L2 & H1 & H2) end.
  - cbn. repeat split; auto; lia.
  - intros i [s bf] Hi (L1 & L2 & H1 & H2). cbn [fst snd] in *.
    destruct (scatter_cols i indices go bf Hi Lg Li Hr L2) as (bf' & E & Lf & V). rewrite E. cbn [bind].
    rewrite slice_Ok by (apply batch_fit with planes; lia). cbn [bind].
    set (src := firstn pl (skipn (i * pl) s)).
    assert (Ls : length src = pl) by (apply slice_length; apply batch_fit with planes; lia).
    destruct (col2im_flat g 1 h w ho wo Hsz bf' src) as (src' & E2 & L3 & V2); [rewrite Ls; ring|rewrite NC1; lia|].
    change (Z.of_nat 1) with 1%Z in E2. rewrite E2. cbn [bind]. rewrite NC1 in V2.
    assert (Fit : (i * pl + pl <= length s)%nat) by (apply batch_fit with planes; lia).
    eexists. split; [reflexivity|]. cbn [fst snd].
    split; [rewrite splice_length; lia|]. split; [exact Lf|]. split.
    + intros i' q Hi' Hq. destruct (Nat.eq_dec i' i) as [->|Hne].
      * rewrite nth_splice_in by lia. rewrite V2 by lia. unfold src. rewrite nth_slice by exact Hq.
        rewrite H2 by lia. f_equal. unfold pool_igrad.
        transitivity (rsum rows (fun k => rsum cols (fun j => if (IX (i * cols + j)%nat =? k)%nat then
            match flat_src (k * cols + j) with Some q' => if Nat.eqb q' q then G (i * cols + j)%nat else 0 | None => 0 end else 0))).
        -- rewrite rsum_mult. apply rsum_ext. intros k Hk. apply rsum_ext. intros j Hj. rewrite V by assumption.
           fold (IX (i * cols + j)%nat). destruct (IX (i * cols + j)%nat =? k)%nat; [reflexivity|].
           destruct (flat_src (k * cols + j)) as [q'|]; [|reflexivity]. destruct (q' =? q)%nat; reflexivity.
        -- rewrite rsum_swap. apply rsum_ext. intros j Hj.
           assert (Hrow : (IX (i * cols + j)%nat < rows)%nat) by (apply Hr; apply mult_lt; assumption).
           rewrite (rsum_single rows (IX (i * cols + j)%nat)); [|exact Hrow|].
           ++ rewrite Nat.eqb_refl. reflexivity.
           ++ intros k Hk Nk. destruct (Nat.eqb_spec (IX (i * cols + j)%nat) k); [congruence|reflexivity].
      * rewrite nth_splice_out; [apply H1; [lia|exact Hq]|lia|].
        rewrite L3, Ls. apply block_disjoint; [congruence|exact Hq].
    + intros p Hp. rewrite nth_splice_out; [apply H2; lia|lia|]. right. lia.
  - cbn [fst snd] in *. exists b'. split; [|exact L2]. rewrite E. f_equal. apply f_equal2; [|reflexivity].
    apply list_ext with (d := 0); [rewrite tab_length; lia|]. intros p Hp. rewrite nth_tab by lia.
    destruct (divmod_lt p planes pl) as (P1 & P2 & P3); [lia|]. rewrite P3 at 1 2. apply H1; assumption.
Qed.

(** * Gradient *)

(** Every window has one largest cell, or all its largest cells lie in the padding. *)
Definition clear_max (x : nat -> R) : Prop :=
  forall i j, (i < planes)%nat -> (j < cols)%nat -> exists k0, (k0 < rows)%nat /\
    forall k, (k < rows)%nat -> k <> k0 -> cell x i j k < cell x i j k0 \/
      (flat_src (k * cols + j) = None /\ flat_src (k0 * cols + j) = None).

Lemma dl_cell (x : R -> nat -> R) dx t i j k :
  (i < planes)%nat -> (j < cols)%nat -> (k < rows)%nat ->
  (forall q, (q < planes * pl)%nat -> dl (fun s => x s q) t (dx q)) ->
  dl (fun s => cell (x s) i j k) t (colv g d 0 (fun q => dx (i * pl + q)%nat) (k * cols + j)).
Proof.
  intros Hi Hj Hk Hx. unfold cell, colv. cbn [cd_h cd_w cd_ho cd_wo].
  destruct (flat_src (k * cols + j)) as [q|] eqn:E; [|apply dl_const].
  apply Hx. apply mult_lt; [exact Hi|].
  pose proof (flat_src_lt g 1 h w ho wo (k * cols + j)%nat q) as F. rewrite NC1 in F.
  assert (q < 1 * h * w)%nat by (apply F; [apply mult_lt; assumption|exact E]). lia.
Qed.

Lemma near_all n (Q : nat -> R -> Prop) t :
  (forall k, (k < n)%nat -> exists e, 0 < e /\ forall s, Rabs (s - t) < e -> Q k s) ->
  exists e, 0 < e /\ forall s, Rabs (s - t) < e -> forall k, (k < n)%nat -> Q k s.
Proof.
  induction n as [|n IH]; intros H.
  - exists 1. split; [lra|]. intros. lia.
  - destruct IH as (e1 & He1 & H1); [intros; apply H; lia|]. destruct (H n) as (e2 & He2 & H2); [lia|].
    exists (Rmin e1 e2). split; [apply Rmin_glb_lt; assumption|]. intros s Hs k Hk.
    pose proof (Rmin_l e1 e2). pose proof (Rmin_r e1 e2).
    destruct (Nat.eq_dec k n) as [->|Hne]; [apply H2; lra|apply H1; [lra|lia]].
Qed.

Hypothesis Hmax : forall f k, (k < rows)%nat -> f k <= f (am rows f).

Lemma dl_pool (x : R -> nat -> R) dx t i j :
  (i < planes)%nat -> (j < cols)%nat ->
  (forall q, (q < planes * pl)%nat -> dl (fun s => x s q) t (dx q)) -> clear_max (x t) ->
  dl (fun s => cell (x s) i j (arow (x s) i j)) t (colv g d 0 (fun q => dx (i * pl + q)%nat) (arow (x t) i j * cols + j)).
Proof.
  intros Hi Hj Hx Hc. destruct (Hc i j Hi Hj) as (k0 & Hk0 & Hk).
  assert (Hpad : forall k, flat_src (k * cols + j) = None -> forall s, cell (x s) i j k = flt_min).
  { intros k Ek s. unfold cell, colv. cbn [cd_h cd_w cd_ho cd_wo]. rewrite Ek. reflexivity. }
  (* whichever index is reported near t, its cell is the cell k0 *)
  assert (Hrow : forall s, (forall k, (k < rows)%nat -> k = k0 \/ cell (x s) i j k < cell (x s) i j k0 \/
             (flat_src (k * cols + j) = None /\ flat_src (k0 * cols + j) = None)) ->
             arow (x s) i j = k0 \/ (flat_src (arow (x s) i j * cols + j) = None /\ flat_src (k0 * cols + j) = None)).
  { intros s H. assert (Ha : (arow (x s) i j < rows)%nat) by apply Ham.
    destruct (H _ Ha) as [E|[E|E]]; auto. exfalso.
    pose proof (Hmax (cell (x s) i j) k0 Hk0). unfold arow in E. lra. }
  assert (Hcell : forall s, (arow (x s) i j = k0 \/ (flat_src (arow (x s) i j * cols + j) = None /\ flat_src (k0 * cols + j) = None)) ->
             cell (x s) i j (arow (x s) i j) = cell (x s) i j k0).
  { intros s [E|[E1 E2]]; [rewrite E; reflexivity|]. rewrite !Hpad by assumption. reflexivity. }
  assert (Hnear : exists e, 0 < e /\ forall s, Rabs (s - t) < e -> forall k, (k < rows)%nat ->
     k = k0 \/ cell (x s) i j k < cell (x s) i j k0 \/ (flat_src (k * cols + j) = None /\ flat_src (k0 * cols + j) = None)).
  { apply near_all. intros k Hkr. destruct (Nat.eq_dec k k0) as [->|Hne].
    - exists 1. split; [lra|]. auto.
    - destruct (Hk k Hkr Hne) as [Hlt|Hp]; [|exists 1; split; [lra|]; auto].
      destruct (dl_keeps_lt (fun s => cell (x s) i j k - cell (x s) i j k0) t
        (colv g d 0 (fun q => dx (i * pl + q)%nat) (k * cols + j) - colv g d 0 (fun q => dx (i * pl + q)%nat) (k0 * cols + j)) 0) as (e & He & Hs).
      + apply dl_minus; apply dl_cell; assumption.
      + lra.
      + exists e. split; [exact He|]. intros s Hd. right. left. specialize (Hs s Hd). cbn beta in Hs. lra. }
  destruct Hnear as (e & He & Hn).
  assert (Et : arow (x t) i j = k0 \/ (flat_src (arow (x t) i j * cols + j) = None /\ flat_src (k0 * cols + j) = None)).
  { apply Hrow. apply Hn. rewrite Rminus_diag_eq by reflexivity. rewrite Rabs_R0. exact He. }
  apply dl_local with (f := fun s => cell (x s) i j k0).
  - exists e. split; [exact He|]. intros s Hs. symmetry. apply Hcell. apply Hrow. apply Hn. exact Hs.
  - eapply dl_eq; [apply dl_cell; eassumption|].
    destruct Et as [->|[E1 E2]]; [reflexivity|]. unfold colv. cbn [cd_h cd_w cd_ho cd_wo]. rewrite E1, E2. reflexivity.
Qed.

Lemma pool_adjoint ind go (dx : nat -> R) i : (i < planes)%nat ->
  (forall p, (p < planes * cols)%nat -> (ind p < rows)%nat) ->
  rsum cols (fun j => go (i * cols + j)%nat * colv g d 0 (fun q => dx (i * pl + q)%nat) (ind (i * cols + j)%nat * cols + j)) =
  rsum pl (fun q => pool_igrad ind go i q * dx (i * pl + q)%nat).
Proof.
  clear Ham Hmax. intros Hi Hr. unfold colv. cbn [cd_h cd_w cd_ho cd_wo].
  transitivity (rsum cols (fun j => match flat_src (ind (i * cols + j)%nat * cols + j) with Some k => dx (i * pl + k)%nat | None => 0 end * go (i * cols + j)%nat)).
  - apply rsum_ext. intros j Hj. ring.
  - rewrite (rsum_regroup cols pl (fun j => flat_src (ind (i * cols + j)%nat * cols + j)) (fun q => dx (i * pl + q)%nat) (fun j => go (i * cols + j)%nat)).
    + apply rsum_ext. intros q _. unfold pool_igrad. ring.
    + intros j q Hj E. pose proof (flat_src_lt g 1 h w ho wo (ind (i * cols + j)%nat * cols + j)%nat q) as F. rewrite NC1 in F.
      assert (q < 1 * h * w)%nat; [|lia]. apply F; [|exact E]. apply mult_lt; [|exact Hj]. apply Hr. apply mult_lt; assumption.
Qed.

End Pool.

(** * The layer *)
Lemma geom_rows g : validate_geom g = Ok tt -> (0 < KH g * KW g)%nat.
Proof.
  unfold validate_geom, dw_assert.
  destruct ((0 <? g_kh g) && (0 <? g_kw g))%Z eqn:E; [|discriminate]. intros _.
  apply andb_true_iff in E. destruct E as [E1 E2]. unfold KH, KW. apply Nat.mul_pos_pos; lia.
Qed.

Section PoolVjp.
Variables (g : geom) (n c h w ho wo : nat) (ind : iten) (buf : ten).
Notation rows := (KH g * KW g)%nat.
Notation cols := (ho * wo)%nat.
Notation planes := (n * c)%nat.
Hypothesis Hsz : sizes_ok g h w ho wo.
Hypothesis Hg : validate_geom g = Ok tt.
Hypothesis Hind : ibuf_ok ind.




Lemma pl_assoc : (n * c * h * w = planes * (h * w))%nat.
Proof. ring. Qed.

Lemma maxpool_fwd_Ok E x o : is_argmax (e_amax E) -> am_ext (e_amax E) ->
  ten_ok [n; c; h; w] x -> ten_ok [n; c; ho; wo] o ->
  exists bsh bd, maxpool_fwd E g ind buf x o =
  Ok (mkIT [n; c; ho; wo] (tab (planes * cols) (fun p => arow g h w ho wo (e_amax E) (fun q => (tdat x).[q]) (p / cols) (p mod cols))),
      mkT bsh bd,
      mkT [n; c; ho; wo] (tab (planes * cols) (fun p =>
        cell g h w ho wo (fun q => (tdat x).[q]) (p / cols) (p mod cols)
             (arow g h w ho wo (e_amax E) (fun q => (tdat x).[q]) (p / cols) (p mod cols))))) /\
  length bd = (rows * cols)%nat.
Proof.
  intros Ham Hext Hx Ho. pose proof (ten_ok_len _ _ Hx) as Lx. pose proof (ten_ok_len _ _ Ho) as Lo.
  rewrite prodN4 in Lx, Lo. destruct Hx as [Sx Wx], Ho as [So Wo]. pose proof (geom_rows g Hg) as Hr.
  unfold maxpool_fwd. rewrite So. mred. rewrite So. mred.
  set (ix := if nshape_eqb (ish ind) [n; c; ho; wo] then ind else _).
  assert (Hix : ish ix = [n; c; ho; wo] /\ length (idat ix) = (planes * cols)%nat).
  { unfold ix. destruct (nshape_eqb (ish ind) [n; c; ho; wo]) eqn:En.
    - apply nshape_eqb_spec in En. split; [exact En|]. destruct Hind as [E9|E9]; [rewrite E9 in En; discriminate|]. rewrite E9, En, prodN4. ring.
    - cbn [ish idat]. split; [reflexivity|]. rewrite tab_length, prodN4. ring. }
  destruct Hix as [Six Lix].
  set (bf := if (tot buf =? rows * cols)%nat then buf else _).
  assert (Lbf : length (tdat bf) = (rows * cols)%nat).
  { unfold bf. destruct (Nat.eqb_spec (tot buf) (rows * cols)) as [E0|E0]; [exact E0|].
    cbn [fresh tdat]. rewrite tab_length, prodN1. reflexivity. }
  rewrite Sx. mred.
  destruct (maxpool_forward_tab g planes h w ho wo (e_amax E) Hsz Hr (fun f => proj1 (Ham rows f Hr)) (Hext rows) (tdat x) (tdat o) (idat ix) (tdat bf))
    as (bd & -> & Lbd); auto.
  - rewrite Lx. ring.
  - rewrite Lo. ring.
  - cbn [bind]. exists (tsh bf), bd. split; [|exact Lbd]. unfold set_dat. rewrite Six, So. reflexivity.
Qed.

(** Neither the result nor the layer depends on the previous contents of the output. *)
Lemma maxpool_fwd_same E x : is_argmax (e_amax E) -> am_ext (e_amax E) -> ten_ok [n; c; h; w] x ->
  exists bsh bd, length bd = (rows * cols)%nat /\
    forall o, tsh o = [n; c; ho; wo] -> twf o ->
    lforward E (LMaxPool g ind buf) [x] [o] =
    Ok (LMaxPool g (mkIT [n; c; ho; wo] (tab (planes * cols) (fun p => arow g h w ho wo (e_amax E) (fun q => (tdat x).[q]) (p / cols) (p mod cols)))) (mkT bsh bd),
        mkT [n; c; ho; wo] (tab (planes * cols) (fun p => cell g h w ho wo (fun q => (tdat x).[q]) (p / cols) (p mod cols)
                             (arow g h w ho wo (e_amax E) (fun q => (tdat x).[q]) (p / cols) (p mod cols))))).
Proof.
  intros Ham Hext HX. pose proof (geom_rows g Hg) as Hr.
  assert (Hbnd : forall f, (e_amax E rows f < rows)%nat) by (intros f; apply (Ham rows f Hr)).
  destruct (maxpool_fwd_Ok E x (fresh E [n; c; ho; wo]) Ham Hext HX (fresh_ok _ _)) as (bsh & bd & E0 & L0).
    exists bsh, bd. split; [exact L0|]. intros o So Wo.
    destruct (maxpool_fwd_Ok E x o Ham Hext HX (conj So Wo)) as (bsh' & bd' & E1 & L1).
    cbn [lforward]. rewrite Hg. cbn [bind]. unfold front. cbn [rd nth_error bind]. rewrite E1. cbn [bind].
    assert (Heq : mkT bsh' bd' = mkT bsh bd).
    { (* the buffer does not depend on the output tensor's old contents *)
      clear - E0 E1 So Wo HX Hg Hind Hsz Hr Hext Hbnd.
      unfold maxpool_fwd in E0, E1. revert E0 E1. mred. rewrite So. mred. cbn [fresh tsh]. mred.
      destruct HX as [Sx _]. rewrite Sx. mred.
      set (ix := if nshape_eqb (ish ind) [n; c; ho; wo] then ind else _).
      set (bf := if (tot buf =? _)%nat then buf else _).
      unfold maxpool_forward.
      assert (Hgen : forall m (o1 o2 : list R) (xi : list nat) (b : list R) r1 r2,
         forr m (fun i '(output, indices, buf) =>
            src <- slice (i * (h * w)) (h * w) (tdat x) ;;
            buf' <- im2col g 1 (Z.of_nat h) (Z.of_nat w) flt_min src buf ;;
            _ <- emap (rows * cols) buf' ;;
            '(output', indices') <- pool_cols (e_amax E) i rows cols buf' (output, indices) ;;
            Ok (output', indices', buf')) (o1, xi, b) = Ok r1 ->
         forr m (fun i '(output, indices, buf) =>
            src <- slice (i * (h * w)) (h * w) (tdat x) ;;
            buf' <- im2col g 1 (Z.of_nat h) (Z.of_nat w) flt_min src buf ;;
            _ <- emap (rows * cols) buf' ;;
            '(output', indices') <- pool_cols (e_amax E) i rows cols buf' (output, indices) ;;
            Ok (output', indices', buf')) (o2, xi, b) = Ok r2 -> snd r1 = snd r2).
      { induction m as [|m IH]; intros o1 o2 xi b r1 r2.
        - cbn. intros [= <-] [= <-]. reflexivity.
        - rewrite !forr_S. intros H1 H2. apply bind_Ok in H1, H2.
          destruct H1 as ([[a1 a2] a3] & A1 & A2), H2 as ([[b1 b2] b3] & B1 & B2).
          specialize (IH _ _ _ _ _ _ A1 B1). cbn in IH. subst b3.
          destruct (slice _ _ _) as [src| |]; [|discriminate|discriminate]. cbn [bind] in A2, B2.
          destruct (im2col _ _ _ _ _ _ _) as [bf'| |]; [|discriminate|discriminate]. cbn [bind] in A2, B2.
          destruct (emap _ _); [|discriminate|discriminate]. cbn [bind] in A2, B2.
          apply bind_Ok in A2, B2. destruct A2 as ([u1 u2] & _ & A2), B2 as ([v1 v2] & _ & B2).
          injection A2 as <-. injection B2 as <-. reflexivity. }
      intros H0 H1. apply bind_Ok in H0, H1.
      destruct H0 as ([[a1 a2] a3] & A1 & A2), H1 as ([[b1 b2] b3] & B1 & B2).
      injection A2 as _ A3 A4. injection B2 as _ B3 B4.
      pose proof (Hgen _ _ _ _ _ _ _ A1 B1) as Hs. cbn in Hs. subst b3. congruence. }
    rewrite Heq. reflexivity.
Qed.

(** The backward pass returns to the cells the forward pass selected. *)
Lemma maxpool_vjp E t P I : is_argmax (e_amax E) -> am_ext (e_amax E) ->
  (forall x, I t = [x] -> clear_max g planes h w ho wo (fun q => (tdat x).[q])) ->
  layer_vjp E (LMaxPool g ind buf) [[n; c; h; w]] [n; c; ho; wo] t P I.
Proof.
  intros Ham Hext Hclear. apply vjp_one. intros dP X dX HP EX [HX HdX]. pose proof (geom_rows g Hg) as Hr.
  replace (prodN [n; c; ho; wo]) with (planes * cols)%nat by (rewrite prodN4; ring).
  assert (Ein : prodN [n; c; h; w] = (planes * (h * w))%nat) by (rewrite prodN4; ring). rewrite Ein in *.
  set (am := e_amax E) in *.
  assert (Hbnd : forall f, (am rows f < rows)%nat) by (intros f; apply (Ham rows f Hr)).
  assert (Hmx : forall f k, (k < rows)%nat -> f k <= f (am rows f)) by (intros f k Hk; apply (Ham rows f Hr); exact Hk).
  set (xs := fun s q => (tdat (X s)).[q]).
  set (ar := fun s p => arow g h w ho wo am (xs s) (p / cols) (p mod cols)).
  (* the layer after forward: its buffer is whatever the last plane left *)
  assert (Hfw : forall s, exists bsh bd, length bd = (rows * cols)%nat /\
      forall o, tsh o = [n; c; ho; wo] -> twf o ->
      lforward E (LMaxPool g ind buf) [X s] [o] =
      Ok (LMaxPool g (mkIT [n; c; ho; wo] (tab (planes * cols) (ar s))) (mkT bsh bd),
          mkT [n; c; ho; wo] (tab (planes * cols) (fun p => cell g h w ho wo (xs s) (p / cols) (p mod cols) (ar s p))))).
  { intros s. exact (maxpool_fwd_same E (X s) Ham Hext (HX s)). }
  assert (Hch : exists L' : R -> layer, forall s, exists bsh bd, length bd = (rows * cols)%nat /\
      L' s = LMaxPool g (mkIT [n; c; ho; wo] (tab (planes * cols) (ar s))) (mkT bsh bd) /\
      forall o, tsh o = [n; c; ho; wo] -> twf o ->
      lforward E (LMaxPool g ind buf) [X s] [o] =
      Ok (L' s, mkT [n; c; ho; wo] (tab (planes * cols) (fun p => cell g h w ho wo (xs s) (p / cols) (p mod cols) (ar s p))))).
  { exists (fun s => match lforward E (LMaxPool g ind buf) [X s] [fresh E [n; c; ho; wo]] with Ok (l, _) => l | _ => LReLU end).
    intros s. destruct (Hfw s) as (bsh & bd & Lbd & Hs). exists bsh, bd. split; [exact Lbd|].
    destruct (fresh_ok E [n; c; ho; wo]) as [F1 F2]. rewrite (Hs _ F1 F2). split; [reflexivity|].
    intros o So Wo. apply Hs; assumption. }
  destruct Hch as [L' HL'].
  set (ds := fun p => colv g (mkCd 1 h w 1 ho wo) 0 (fun q => dX (p / cols * (h * w) + q)%nat) (ar t p * cols + p mod cols)).
  exists (fun s p => cell g h w ho wo (xs s) (p / cols) (p mod cols) (ar s p)), L', ds.
  split; [|split].
  - intros s o So Wo. destruct (HL' s) as (bsh & bd & _ & _ & Hs). cbn [with_params]. apply Hs; assumption.
  - intros p Hp. destruct (divmod_lt p planes cols Hp) as (P1 & P2 & _). unfold ds, ar.
    apply (dl_pool g planes h w ho wo am Hr Hbnd Hmx xs dX t); auto. apply Hclear. apply EX.
  - intros E2 go gi So Wo Si Wi _. destruct (HL' t) as (bsh & bd & Lbd & HLt & _).
    assert (Lgo : length (tdat go) = (planes * cols)%nat) by (rewrite (ten_ok_len [n; c; ho; wo]) by (split; assumption); rewrite prodN4; ring).
    assert (Lgi : length (tdat gi) = (planes * (h * w))%nat) by (rewrite (ten_ok_len [n; c; h; w]) by (split; assumption); exact Ein).
    assert (Hri : forall p, (p < planes * cols)%nat -> (nth p (tab (planes * cols) (ar t)) O < rows)%nat).
    { intros p Hp. rewrite nth_tab by exact Hp. apply Hbnd. }
    destruct (maxpool_input_grad_tab g planes h w ho wo am Hsz Hr (tdat go) (tab (planes * cols) (ar t)) bd (tdat gi)) as (bd2 & E0 & L2); auto.
    { apply tab_length. }
    set (c0 := fun p => pool_igrad g h w ho wo (fun q => nth q (tab (planes * cols) (ar t)) O) (fun q => (tdat go).[q]) (p / (h * w)) (p mod (h * w))).
    exists (L' t), (LMaxPool g (mkIT [n; c; ho; wo] (tab (planes * cols) (ar t))) (mkT bsh bd2)), c0.
    rewrite HLt. split; [reflexivity|]. split; [|split; [reflexivity|]].
    + intros gm k kout Gk Gout Hnk. cbn [lbackward]. mred. rewrite (nth_error_rd _ _ _ Gout). mred.
      rewrite So. cbn [ish]. rewrite nshape_eqb_refl. cbn [dw_assert bind]. rewrite (nth_error_rd _ _ _ Gk). mred.
      rewrite Si. mred. cbn [idat]. rewrite E0. reflexivity.
    + cbn [dparams lparams length rsum]. rewrite Rplus_0_r.
      rewrite (rsum_mult planes cols), (rsum_mult planes (h * w)). apply rsum_ext. intros i Hi.
      transitivity (rsum (h * w) (fun q => pool_igrad g h w ho wo (fun q => nth q (tab (planes * cols) (ar t)) O) (fun q => (tdat go).[q]) i q * dX (i * (h * w) + q)%nat)).
      * rewrite <- (pool_adjoint g planes h w ho wo am Hr _ _ dX i Hi Hri).
        apply rsum_ext. intros j Hj. unfold ds. destruct (divmod_nat i cols j Hj) as [D1 D2]. rewrite D1, D2. f_equal.
        f_equal. f_equal. f_equal. rewrite nth_tab by (apply mult_lt; assumption). reflexivity.
      * apply rsum_ext. intros q Hq. unfold c0. destruct (divmod_nat i (h * w) q Hq) as [-> ->]. reflexivity.
Qed.

End PoolVjp.
