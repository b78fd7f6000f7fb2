(** From curves to partial derivatives. *)
From Coq Require Import Reals Lra.
From Verif Require Import Base BaseFacts Sums Deriv M_Im2col S_Im2col M_Kernels M_Conv M_Layers P_Kernels S_Grad S_Partial P_Vjp1 P_Vjp2 P_BN.
Open Scope R_scope.

Lemma bump_length l i s : length (bump l i s) = length l.
Proof. apply upd_length. Qed.

Lemma bump_0 l i : bump l i 0 = l.
Proof.
  unfold bump. apply list_ext with (d := 0); [apply upd_length|]. intros k Hk. rewrite upd_length in Hk.
  rewrite nth_upd. destruct (Nat.eqb_spec i k) as [->|]; [|reflexivity].
  destruct (Nat.ltb_spec k (length l)); [cbn; lra|reflexivity].
Qed.

Lemma upd_same {V} (l : list V) k d : upd l k (nth k l d) = l.
Proof.
  apply list_ext with (d := d); [apply upd_length|]. intros i Hi. rewrite nth_upd.
  destruct (Nat.eqb_spec k i) as [->|]; [|reflexivity].
  destruct (Nat.ltb_spec i (length l)); reflexivity.
Qed.

Definition ind1 (a b : nat) : R := if (a =? b)%nat then 1 else 0.

Lemma dl_bump l i k : dl (fun s => (bump l i s).[k]) 0 (if (k <? length l)%nat then ind1 i k else 0).
Proof.
  unfold bump, ind1. destruct (Nat.ltb_spec k (length l)) as [Hk|Hk].
  - destruct (Nat.eqb_spec i k) as [->|Hne].
    + apply dl_ext with (f := fun s => l.[k] + s).
      * intros s. rewrite nth_upd_eq by exact Hk. reflexivity.
      * eapply dl_eq; [apply dl_plus; [apply dl_const|apply dl_id]|lra].
    + apply dl_ext with (f := fun s => l.[k]); [|apply dl_const]. intros s. rewrite nth_upd_neq by auto. reflexivity.
  - apply dl_ext with (f := fun s => 0); [|apply dl_const]. intros s. symmetry. apply nth_overflow. rewrite upd_length. exact Hk.
Qed.

Lemma dl_bump_in l i k : (k < length l)%nat -> dl (fun s => (bump l i s).[k]) 0 (ind1 i k).
Proof. intros H. pose proof (dl_bump l i k) as D. rewrite (proj2 (Nat.ltb_lt _ _) H) in D. exact D. Qed.

Lemma with_data_id p : with_data p (tdat (p_data p)) = p.
Proof. destruct p as [[sh d] g t]. reflexivity. Qed.

Lemma with_params_id L : with_params L (pvals L) = L.
Proof. destruct L; cbn; rewrite ?with_data_id; reflexivity. Qed.

Lemma nth_error_nth' {V} (l : list V) k d v : nth_error l k = Some v -> nth k l d = v /\ (k < length l)%nat.
Proof.
  intros H. split; [apply nth_error_nth; exact H|]. apply nth_error_Some. congruence.
Qed.

Section Partial.
Variables (E : env) (L : layer) (xs : list ten) (osh : list nat).
Hypothesis Hwf : forall x, In x xs -> twf x.
Hypothesis Hv : forall P I, P 0 = pvals L -> I 0 = xs -> layer_vjp E L (map tsh xs) osh 0 P I.

Let Pc := fun (_ : R) => pvals L.
Let Ic := fun (_ : R) => xs.

Lemma pvals_length : length (pvals L) = length (dparams L).
Proof. unfold pvals. apply map_length. Qed.

Lemma pvals_nth k p : nth_error (dparams L) k = Some p -> nth k (pvals L) [] = tdat (p_data p).
Proof.
  intros H. unfold pvals. apply nth_error_nth. rewrite nth_error_map, H. reflexivity.
Qed.

Lemma pcurve_const : pcurve L Pc 0 (fun _ _ => 0).
Proof.
  split; [intros ?; apply pvals_length|]. intros k p Hk. unfold Pc. rewrite (pvals_nth k p Hk).
  split; [reflexivity|]. intros i _. apply dl_const.
Qed.

Lemma pcurve_bump k i q : nth_error (dparams L) k = Some q ->
  pcurve L (fun s => upd (pvals L) k (bump (nth k (pvals L) []) i s)) 0
         (fun k' i' => ind1 k k' * ind1 i i').
Proof.
  intros Hk. destruct (nth_error_nth' _ _ q _ Hk) as [_ Lk].
  split; [intros s; rewrite upd_length; apply pvals_length|].
  intros k' p Hk'. destruct (Nat.eq_dec k k') as [<-|Hne].
  - assert (q = p) as <- by congruence. split.
    + intros s. rewrite nth_upd_eq by (rewrite pvals_length; exact Lk). rewrite bump_length, (pvals_nth k q Hk). reflexivity.
    + intros i' Hi'. unfold ind1 at 1. rewrite Nat.eqb_refl, Rmult_1_l.
      apply dl_ext with (f := fun s => (bump (nth k (pvals L) []) i s).[i']).
      * intros s. rewrite nth_upd_eq by (rewrite pvals_length; exact Lk). reflexivity.
      * apply dl_bump_in. rewrite (pvals_nth k q Hk). exact Hi'.
  - split.
    + intros s. rewrite nth_upd_neq by auto. rewrite (pvals_nth k' p Hk'). reflexivity.
    + intros i' Hi'. unfold ind1 at 1. rewrite (proj2 (Nat.eqb_neq _ _) Hne), Rmult_0_l.
      apply dl_ext with (f := fun s => (nth k' (pvals L) []).[i']); [|apply dl_const].
      intros s. rewrite nth_upd_neq by auto. reflexivity.
Qed.

Lemma sh_nth p : (p < length xs)%nat -> nth p (map tsh xs) [] = tsh (nth p xs empty_ten).
Proof. intros Hp. rewrite (nth_indep _ [] (tsh empty_ten)) by (rewrite map_length; exact Hp). apply map_nth. Qed.

Lemma icurve_const : icurve (map tsh xs) Ic 0 (fun _ _ => 0).
Proof.
  split; [intros ?; symmetry; apply map_length|]. intros p Hp. rewrite map_length in Hp. rewrite sh_nth by exact Hp.
  split; [|intros i Hi; unfold Ic; apply dl_const]. intros s. split; [reflexivity|]. apply Hwf. apply nth_In. exact Hp.
Qed.

Lemma icurve_bump p i : (p < length xs)%nat ->
  icurve (map tsh xs) (bump_input xs p i) 0 (fun p' i' => ind1 p p' * ind1 i i').
Proof.
  intros Hp. unfold bump_input. split; [intros s; rewrite upd_length; symmetry; apply map_length|].
  intros p' Hp'. rewrite map_length in Hp'. rewrite sh_nth by exact Hp'.
  assert (W : twf (nth p xs empty_ten)) by (apply Hwf; apply nth_In; exact Hp).
  assert (W' : twf (nth p' xs empty_ten)) by (apply Hwf; apply nth_In; exact Hp').
  destruct (Nat.eq_dec p p') as [<-|Hne]; split.
  - intros s. rewrite nth_upd_eq by exact Hp. split; [reflexivity|]. unfold twf. cbn. rewrite bump_length. exact W.
  - intros i' Hi'. unfold ind1 at 1. rewrite Nat.eqb_refl, Rmult_1_l.
    apply dl_ext with (f := fun s => (bump (tdat (nth p xs empty_ten)) i s).[i']).
    + intros s. rewrite nth_upd_eq by exact Hp. reflexivity.
    + apply dl_bump_in. rewrite W. exact Hi'.
  - intros s. rewrite nth_upd_neq by auto. split; [reflexivity|exact W'].
  - intros i' Hi'. unfold ind1 at 1. rewrite (proj2 (Nat.eqb_neq _ _) Hne), Rmult_0_l.
    apply dl_ext with (f := fun s => (tdat (nth p' xs empty_ten)).[i']); [|apply dl_const].
    intros s. rewrite nth_upd_neq by auto. reflexivity.
Qed.

Lemma rsum_ind1 n i (f : nat -> R) : (i < n)%nat -> rsum n (fun k => f k * ind1 i k) = f i.
Proof.
  intros Hi. rewrite (rsum_single n i); [|exact Hi|].
  - unfold ind1. rewrite Nat.eqb_refl. lra.
  - intros k _ Hk. unfold ind1. rewrite (proj2 (Nat.eqb_neq i k)) by auto. lra.
Qed.

Lemma rsum_ind2 n (m : nat -> nat) p i (f : nat -> nat -> R) : (p < n)%nat -> (i < m p)%nat ->
  rsum n (fun k => rsum (m k) (fun j => f k j * (ind1 p k * ind1 i j))) = f p i.
Proof.
  intros Hp Hi. rewrite (rsum_single n p); [|exact Hp|].
  - rewrite <- (rsum_ind1 (m p) i (f p) Hi). apply rsum_ext. intros j _. unfold ind1 at 1. rewrite Nat.eqb_refl. ring.
  - intros k _ Hk. apply rsum_zero. intros j _. unfold ind1 at 1. rewrite (proj2 (Nat.eqb_neq p k)) by auto. ring.
Qed.

Lemma rsum_zero2 n (m : nat -> nat) (f : nat -> nat -> R) : rsum n (fun k => rsum (m k) (fun j => f k j * 0)) = 0.
Proof. apply rsum_zero. intros k _. apply rsum_zero. intros j _. ring. Qed.

Lemma accum_nodup gm gins c gm' p g g' i : accum gm gins c gm' -> NoDup gins -> (p < length gins)%nat ->
  nth_error gm (nth p gins O) = Some g -> nth_error gm' (nth p gins O) = Some g' -> (i < tot g)%nat ->
  (tdat g').[i] - (tdat g).[i] = c p i.
Proof.
  intros [_ H] Hnd Hp Hg Hg' Hi. destruct (H _ _ Hg) as (g2 & E2 & _ & _ & V).
  assert (g2 = g') as -> by congruence. rewrite V by exact Hi.
  rewrite (rsum_single (length gins) p); [|exact Hp|].
  - rewrite Nat.eqb_refl. lra.
  - intros k Hk Hne. destruct (Nat.eqb_spec (nth k gins O) (nth p gins O)) as [Eq|]; [|reflexivity].
    exfalso. apply Hne. apply (NoDup_nth gins O); auto.
Qed.

Lemma accum_frame gm gins c gm' k : accum gm gins c gm' -> (forall g, In g gm -> True) -> ~ In k gins ->
  nth_error gm' k = nth_error gm k.
Proof.
  intros [HL H] _ Hk. destruct (nth_error gm k) as [g|] eqn:Eg.
  - destruct (H _ _ Eg) as (g' & E' & S1 & T1 & V). rewrite E'. f_equal.
    destruct g as [sh d], g' as [sh' d']. cbn in *. subst sh'. f_equal. unfold tot in *. cbn in *.
    apply list_ext with (d := 0); [exact T1|]. intros i Hi. rewrite V by lia. rewrite rsum_zero; [lra|].
    intros q Hq. destruct (Nat.eqb_spec (nth q gins O) k) as [Eq|]; [|reflexivity].
    exfalso. apply Hk. rewrite <- Eq. apply nth_In. exact Hq.
  - apply nth_error_None in Eg. apply nth_error_None. lia.
Qed.

Lemma dl_weighted osh' go O t dO : tot go = prodN osh' -> tcurve osh' O t dO ->
  dl (fun s => weighted go (O s)) t (rsum (prodN osh') (fun i => (tdat go).[i] * dO i)).
Proof.
  intros Hg [_ HO]. unfold weighted. rewrite Hg.
  apply (dl_rsum (prodN osh') (fun s i => (tdat go).[i] * (tdat (O s)).[i])).
  intros i Hi. apply dl_scal. apply HO. exact Hi.
Qed.

Theorem vjp_partials : correct_gradients E L xs osh.
Proof.
  destruct (Hv Pc Ic eq_refl eq_refl _ _ pcurve_const icurve_const) as (O0 & L0 & dO0 & F0 & C0 & B0).
  exists (L0 0), (O0 0). unfold Pc, Ic in F0. rewrite with_params_id in F0.
  split; [intros o; apply F0|]. split; [apply C0|]. split; [apply C0|].
  intros E2 gm gins kout go Hr Hnd.
  destruct (B0 E2 gm gins kout go Hr) as (L2 & L3 & gm' & c & U & B & A & D & _).
  unfold Ic in U, B. exists L2, L3, gm'. unfold Pc in D. rewrite with_params_id in D.
  split; [exact U|]. split; [exact B|]. split; [exact D|]. split; [apply A|].
  split; [intros k Hk; apply (accum_frame _ _ _ _ _ A); auto|].
  destruct Hr as (Hr1 & Hr2 & Hr3 & Hr4 & Hr5 & Hr6). rewrite map_length in Hr4, Hr6.
  assert (Hr' : grads_ready L (map tsh xs) osh gm gins kout go).
  { repeat split; auto; rewrite map_length; auto. }
  assert (Tgo : tot go = prodN osh) by (unfold tot; rewrite Hr3, Hr2; reflexivity).
  assert (Same : forall P I O L' , (forall s o, tsh o = osh -> twf o -> lforward E (with_params L (P s)) (I s) [o] = Ok (L' s, O s)) ->
            P 0 = pvals L -> I 0 = xs -> L' 0 = L0 0 /\ O 0 = O0 0).
  { intros P I O L' HF HP HI. destruct (fresh_ok E osh) as [f1 f2]. specialize (HF 0 _ f1 f2).
    rewrite HP, HI, with_params_id in HF. rewrite (F0 0 _ f1 f2) in HF. injection HF as -> ->. auto. }
  split.
  - intros p x g g' i Hx Hg Hg' Hi. destruct (nth_error_nth' _ _ empty_ten _ Hx) as [Ex Lp].
    assert (HI0 : bump_input xs p i 0 = xs) by (unfold bump_input; rewrite bump_0, Ex; destruct x as [sx dx]; unfold set_dat; cbn [tsh tdat]; rewrite <- Ex; apply upd_same).
    destruct (Hv Pc (bump_input xs p i) eq_refl HI0 _ _ pcurve_const (icurve_bump p i Lp)) as (O1 & L1 & dO1 & F1 & C1 & B1).
    destruct (Same _ _ _ _ F1 eq_refl HI0) as [EL EO].
    destruct (B1 E2 gm gins kout go Hr') as (L2' & L3' & gm2 & c1 & U1 & Bk1 & A1 & D1 & S1).
    rewrite HI0, EL in U1. rewrite U in U1. injection U1 as <-. rewrite HI0, EO in Bk1. rewrite B in Bk1. injection Bk1 as <- <-.
    exists O1. unfold Pc in F1. rewrite with_params_id in F1. split.
    + intros s o So Wo. exists (L1 s). apply F1; assumption.
    + eapply dl_eq; [apply dl_weighted; [exact Tgo|exact C1]|].
      rewrite S1. rewrite rsum_zero2, Rplus_0_r.
      destruct (Hr6 p Lp) as (gi & G1 & G2 & G3 & _). assert (gi = g) as -> by congruence.
      assert (Ti : (i < tot g)%nat).
      { unfold tot. rewrite G3, G2, sh_nth, Ex by exact Lp. rewrite <- (Hwf x); [exact Hi|]. rewrite <- Ex. apply nth_In. exact Lp. }
      rewrite (accum_nodup _ _ _ _ p g g' i A1 Hnd) by (auto; lia).
      rewrite map_length. apply (rsum_ind2 (length xs) (fun p0 => prodN (nth p0 (map tsh xs) [])) p i c1 Lp).
      rewrite sh_nth, Ex by exact Lp. rewrite <- (Hwf x); [exact Hi|]. rewrite <- Ex. apply nth_In. exact Lp.
  - intros k q q' i Hq Hq' Hi.
    set (P1 := fun s => upd (pvals L) k (bump (nth k (pvals L) []) i s)).
    assert (HP0 : P1 0 = pvals L) by (unfold P1; rewrite bump_0; apply upd_same).
    destruct (Hv P1 Ic HP0 eq_refl _ _ (pcurve_bump k i q Hq) icurve_const) as (O1 & L1 & dO1 & F1 & C1 & B1).
    destruct (Same _ _ _ _ F1 HP0 eq_refl) as [EL EO].
    destruct (B1 E2 gm gins kout go Hr') as (L2' & L3' & gm2 & c1 & U1 & Bk1 & A1 & D1 & S1).
    unfold Ic in U1, Bk1. rewrite EL in U1. rewrite U in U1. injection U1 as <-. rewrite EO in Bk1. rewrite B in Bk1. injection Bk1 as <- <-.
    exists O1. split.
    + intros s o So Wo. exists (L1 s). apply F1; assumption.
    + eapply dl_eq; [apply dl_weighted; [exact Tgo|exact C1]|].
      rewrite S1. rewrite rsum_zero2, Rplus_0_l. rewrite HP0.
      destruct (nth_error_nth' _ _ q _ Hq) as [_ Lk].
      rewrite (rsum_ind2 _ (fun k0 => length (nth k0 (pvals L) [])) k i
                (fun k0 i0 => (nth k0 (map (fun p => tdat (p_grad p)) (dparams L3)) []).[i0])).
      * f_equal. apply nth_error_nth. rewrite nth_error_map, Hq'. reflexivity.
      * exact Lk.
      * rewrite (pvals_nth k q Hq). exact Hi.
Qed.
End Partial.
