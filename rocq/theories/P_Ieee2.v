(** Expressions whose evaluation stays finite. *)
From Coq Require Import Reals Lra Lia ZArith Permutation List.
From Verif Require Import Base BaseFacts Sums S_Float M_Kernels M_Round S_Round P_Kernels P_Float P_Round P_Round2 P_Round5 M_Ieee S_Ieee P_Ieee.
Import ListNotations.
Open Scope R_scope.

Lemma ltb_true x y : ltb x y = true -> x < y.
Proof. unfold ltb. destruct (Rlt_dec x y); [auto|discriminate]. Qed.
Lemma ltb_false x y : ltb x y = false -> y <= x.
Proof. unfold ltb. destruct (Rlt_dec x y); [discriminate|lra]. Qed.

Lemma near_exact u eta x : 0 <= u -> 0 <= eta -> near u eta x x.
Proof. apply near_refl. Qed.

(** The value of [x] after one rounding, or unrounded. *)
Definition roundish (x y : R) : Prop := rounds x y \/ y = x.

Lemma roundish_le x y f : roundish x y -> isf f -> x <= f -> y <= f.
Proof. intros [R0| ->]; [apply rounds_le, R0|auto]. Qed.
Lemma roundish_ge x y f : roundish x y -> isf f -> f <= x -> f <= y.
Proof. intros [R0| ->]; [apply rounds_ge, R0|auto]. Qed.
Lemma rounds_grown x y b : Rabs x <= top -> rounds x y -> Rabs x <= b -> Rabs y <= grown b.
Proof.
  intros T R0 B. destruct (rnd_fin x (Fin y) T R0) as (y' & E & _ & N). injection E as <-.
  exact (near_abs _ _ _ _ _ (Rlt_le _ _ eps32_pos) N B).
Qed.
Lemma grown_ge x : 0 <= x -> x <= grown x.
Proof. intros X. unfold grown. pose proof eps32_pos. pose proof tiny32_pos. nra. Qed.
Lemma grown_mono x y : x <= y -> grown x <= grown y.
Proof. intros L. unfold grown. pose proof eps32_pos. apply Rplus_le_compat_r, Rmult_le_compat_l; lra. Qed.
Lemma roundish_grown x y b : Rabs x <= top -> roundish x y -> Rabs x <= b -> Rabs y <= grown b.
Proof.
  intros T [R0| ->] B; [exact (rounds_grown x y b T R0 B)|]. eapply Rle_trans; [exact B|]. apply grown_ge. pose proof (Rabs_pos x). lra.
Qed.

Lemma ftab_ext {A : Type} n (f g : nat -> A) : (forall k, (k < n)%nat -> f k = g k) -> tab n f = tab n g.
Proof. intros E. unfold tab. apply map_ext_in. intros k Hk. apply in_seq in Hk. apply E. lia. Qed.
Lemma rmax_is n xs k : (k < n)%nat -> (forall j, (j < n)%nat -> xs j <= xs k) -> rmax n xs = xs k.
Proof.
  intros Hk M. apply Rle_antisym.
  - destruct (rmax_attained n xs ltac:(lia)) as (j & Hj & ->). apply M, Hj.
  - apply rmax_ge, Hk.
Qed.
Lemma int_top n : (n <= 2 ^ 24)%nat -> INR n <= top.
Proof.
  intros L. pose proof top_big. apply le_INR in L. rewrite pow_INR in L. cbn [INR] in L. replace (1 + 1) with 2 in L by ring.
  assert (2 ^ 24 <= 2 ^ 127) by (apply Rle_pow; [lra|lia]). lra.
Qed.
Lemma int_isf n : (n <= 2 ^ 24)%nat -> isf (INR n).
Proof.
  intros L. rewrite INR_IZR_INZ. apply isf_int; [|lia]. apply Nat2Z.inj_le in L. rewrite Nat2Z.inj_pow in L. exact L.
Qed.

Section Tame.
Variable lib : flt -> flt -> Prop.
Variable lk : Prop.
Variables u eta : R.
Hypothesis Hu : eps32 <= u.
Hypothesis Heta : tiny32 <= eta.
Variable v : nat -> nat -> R.

Definition tame (e : ex) (P : R -> Prop) : Prop :=
  forall r, fev lib (fun a i => Fin (v a i)) e r -> exists x, r = Fin x /\ P x /\ (lk -> rev u eta v e x).

Lemma up x y : near eps32 tiny32 x y -> near u eta x y.
Proof. exact (near_mono _ _ _ _ _ _ Hu Heta). Qed.

Lemma tame_weak e (P Q : R -> Prop) : tame e P -> (forall x, P x -> Q x) -> tame e Q.
Proof. intros T W r F. destruct (T r F) as (x & E & Px & K). eauto. Qed.

Lemma tame_var a i (P : R -> Prop) : P (v a i) -> tame (EVar a i) P.
Proof. intros Hp r F. cbn in F. exists (v a i). split; [exact F|]. split; [exact Hp|]. intros _. reflexivity. Qed.
Lemma tame_const c (P : R -> Prop) : P c -> tame (EConst c) P.
Proof. intros Hp r F. cbn in F. exists c. split; [exact F|]. split; [exact Hp|]. intros _. reflexivity. Qed.

Lemma tame_int n : (n <= 2 ^ 24)%nat -> tame (EInt n) (fun x => x = INR n).
Proof.
  intros L r F. cbn in F. pose proof (int_top n L) as T. assert (A : Rabs (INR n) <= top) by (rewrite Rabs_right; [exact T|apply Rle_ge, pos_INR]).
  destruct (rnd_fin _ _ A F) as (y & -> & R0 & N). exists y. split; [reflexivity|]. split; [apply rounds_self; [apply int_isf, L|exact R0]|]. intros _. exact (up _ _ N).
Qed.

Lemma tame_add a b P Q (T : R -> Prop) : tame a P -> tame b Q ->
  (forall x y, P x -> Q y -> Rabs (x + y) <= top /\ forall z, rounds (x + y) z -> T z) -> tame (EAdd a b) T.
Proof.
  intros A B C r (x & y & Fx & Fy & F). destruct (A _ Fx) as (x' & -> & Px & Kx). destruct (B _ Fy) as (y' & -> & Qy & Ky).
  destruct (C x' y' Px Qy) as (L & Z). destruct (rnd_fin _ _ L F) as (z & -> & R0 & N). exists z. split; [reflexivity|]. split; [exact (Z z R0)|].
  intros k. exists x', y'. split; [exact (Kx k)|]. split; [exact (Ky k)|]. exact (up _ _ N).
Qed.
Lemma tame_sub a b P Q (T : R -> Prop) : tame a P -> tame b Q ->
  (forall x y, P x -> Q y -> Rabs (x - y) <= top /\ forall z, rounds (x - y) z -> T z) -> tame (ESub a b) T.
Proof.
  intros A B C r (x & y & Fx & Fy & F). destruct (A _ Fx) as (x' & -> & Px & Kx). destruct (B _ Fy) as (y' & -> & Qy & Ky).
  destruct (C x' y' Px Qy) as (L & Z). destruct (rnd_fin _ _ L F) as (z & -> & R0 & N). exists z. split; [reflexivity|]. split; [exact (Z z R0)|].
  intros k. exists x', y'. split; [exact (Kx k)|]. split; [exact (Ky k)|]. exact (up _ _ N).
Qed.
Lemma tame_mul a b P Q (T : R -> Prop) : tame a P -> tame b Q ->
  (forall x y, P x -> Q y -> Rabs (x * y) <= top /\ forall z, roundish (x * y) z -> T z) -> tame (EMul a b) T.
Proof.
  intros A B C r (x & y & Fx & Fy & F). destruct (A _ Fx) as (x' & -> & Px & Kx). destruct (B _ Fy) as (y' & -> & Qy & Ky).
  destruct (C x' y' Px Qy) as (L & Z). destruct F as [F|F].
  - destruct (rnd_fin _ _ L F) as (z & -> & R0 & N). exists z. split; [reflexivity|]. split; [exact (Z z (or_introl R0))|].
    intros k. exists x', y'. split; [exact (Kx k)|]. split; [exact (Ky k)|]. exact (up _ _ N).
  - exists (x' * y'). split; [exact F|]. split; [apply Z; right; reflexivity|]. intros k. exists x', y'. split; [exact (Kx k)|]. split; [exact (Ky k)|].
    apply near_exact; [pose proof eps32_pos|pose proof tiny32_pos]; lra.
Qed.
Lemma tame_div a b P Q (T : R -> Prop) : tame a P -> tame b Q ->
  (forall x y, P x -> Q y -> y <> 0 /\ Rabs (x / y) <= top /\ forall z, rounds (x / y) z -> T z) -> tame (EDiv a b) T.
Proof.
  intros A B C r (x & y & Fx & Fy & F). destruct (A _ Fx) as (x' & -> & Px & Kx). destruct (B _ Fy) as (y' & -> & Qy & Ky).
  destruct (C x' y' Px Qy) as (N0 & L & Z). cbn in F. destruct (Req_EM_T y' 0) as [E|_]; [contradiction|].
  destruct (rnd_fin _ _ L F) as (z & -> & R0 & N). exists z. split; [reflexivity|]. split; [exact (Z z R0)|].
  intros k. exists x', y'. split; [exact (Kx k)|]. split; [exact (Ky k)|]. split; [exact N0|]. exact (up _ _ N).
Qed.
Lemma tame_exp a P (T : R -> Prop) : tame a P ->
  (forall x r, P x -> lib (Fin x) r -> exists y, r = Fin y /\ T y /\ (lk -> near u eta (exp x) y)) -> tame (EExp a) T.
Proof.
  intros A C r (x & Fx & F). destruct (A _ Fx) as (x' & -> & Px & Kx). destruct (C x' r Px F) as (y & -> & Ty & N).
  exists y. split; [reflexivity|]. split; [exact Ty|]. intros k. exists x'. split; [exact (Kx k)|exact (N k)].
Qed.
Lemma tame_sqrt a P (T : R -> Prop) : tame a P ->
  (forall x, P x -> 0 <= x /\ sqrt x <= top /\ forall z, rounds (sqrt x) z -> T z) -> tame (ESqrt a) T.
Proof.
  intros A C r (x & Fx & F). destruct (A _ Fx) as (x' & -> & Px & Kx). destruct (C x' Px) as (N0 & L & Z). cbn in F.
  destruct (ltb x' 0) eqn:E; [apply ltb_true in E; lra|].
  assert (L' : Rabs (sqrt x') <= top) by (rewrite Rabs_right; [exact L|apply Rle_ge, sqrt_pos]).
  destruct (rnd_fin _ _ L' F) as (z & -> & R0 & N). exists z. split; [reflexivity|]. split; [exact (Z z R0)|].
  intros k. exists x'. split; [exact (Kx k)|]. split; [exact N0|]. exact (up _ _ N).
Qed.
Lemma tame_if a b c d P Q (T : R -> Prop) : tame a P -> tame b Q ->
  (forall x y, P x -> Q y -> if ltb x y then tame c T else tame d T) -> tame (EIf a b c d) T.
Proof.
  intros A B C r (x & y & Fx & Fy & F). destruct (A _ Fx) as (x' & -> & Px & Kx). destruct (B _ Fy) as (y' & -> & Qy & Ky).
  specialize (C x' y' Px Qy). cbn [flt_ltb] in F. destruct (ltb x' y') eqn:E; destruct (C r F) as (z & -> & Tz & Kz); exists z; (split; [reflexivity|]); (split; [exact Tz|]);
    intros k; exists x', y'; (split; [exact (Kx k)|]); (split; [exact (Ky k)|]); rewrite E; exact (Kz k).
Qed.

Lemma family n f (P : nat -> R -> Prop) xs : (forall k, (k < n)%nat -> tame (f k) (P k)) -> (forall k, (k < n)%nat -> fev lib (fun a i => Fin (v a i)) (f k) (xs k)) ->
  exists ys, (forall k, (k < n)%nat -> xs k = Fin (ys k)) /\ (forall k, (k < n)%nat -> P k (ys k)) /\ (lk -> forall k, (k < n)%nat -> rev u eta v (f k) (ys k)).
Proof.
  intros T F. exists (fun k => match xs k with Fin y => y | _ => 0 end).
  assert (G : forall k, (k < n)%nat -> exists y, xs k = Fin y /\ P k y /\ (lk -> rev u eta v (f k) y)) by (intros k Hk; exact (T k Hk _ (F k Hk))).
  split; [|split].
  - intros k Hk. destruct (G k Hk) as (y & E & _). rewrite E. reflexivity.
  - intros k Hk. destruct (G k Hk) as (y & E & Py & _). rewrite E. exact Py.
  - intros l k Hk. destruct (G k Hk) as (y & E & _ & Ky). rewrite E. exact (Ky l).
Qed.

Lemma added_mono t : forall r, added eps32 tiny32 t r -> added u eta t r.
Proof. induction t as [x|a IHa b IHb]; intros r A; cbn in *; [exact A|]. destruct A as (x & y & A1 & A2 & N). exists x, y. split; [auto|]. split; [auto|]. exact (up _ _ N). Qed.
Lemma summed_mono l r : summed eps32 tiny32 l r -> summed u eta l r.
Proof. unfold summed. destruct l as [|x l]; [auto|]. intros (t & P & A). exists t. split; [exact P|apply added_mono, A]. Qed.

Lemma tame_sum n f (P : nat -> R -> Prop) (b : nat -> R) (T : R -> Prop) : (forall k, (k < n)%nat -> tame (f k) (P k)) ->
  (forall k x, (k < n)%nat -> P k x -> Rabs x <= b k) -> sum_grown n (rsum n b) <= top ->
  (forall xs s, (forall k, (k < n)%nat -> P k (xs k)) -> fsummed (tab n (fun k => Fin (xs k))) (Fin s) -> summed eps32 tiny32 (tab n xs) s -> Rabs s <= sum_grown n (rsum n b) -> T s) ->
  tame (ESum n f) T.
Proof.
  intros A B L Z r (xs & Fx & F). destruct (family n f P xs A Fx) as (ys & E & Py & K).
  assert (E2 : tab n xs = tab n (fun k => Fin (ys k))) by (apply ftab_ext; exact E). rewrite E2 in F.
  assert (M : rsum n (fun k => Rabs (ys k)) <= rsum n b) by (apply rsum_le; intros k Hk; exact (B k _ Hk (Py k Hk))).
  assert (M2 : sum_grown n (rsum n (fun k => Rabs (ys k))) <= sum_grown n (rsum n b)).
  { unfold sum_grown. apply Rplus_le_compat_r, Rmult_le_compat_l; [|exact M]. pose proof (pow1_ge eps32 (n - 1) (Rlt_le _ _ eps32_pos)). lra. }
  destruct (fsummed_fin n ys r ltac:(lra) F) as (s & -> & SU & SB). exists s. split; [reflexivity|]. split; [exact (Z ys s Py F SU ltac:(lra))|].
  intros k. exists ys. split; [exact (K k)|]. exact (summed_mono _ _ SU).
Qed.

Lemma tame_max n f (P : nat -> R -> Prop) (T : R -> Prop) : (0 < n)%nat -> (forall k, (k < n)%nat -> tame (f k) (P k)) ->
  (forall xs k, (forall j, (j < n)%nat -> P j (xs j)) -> (k < n)%nat -> (forall j, (j < n)%nat -> xs j <= xs k) -> T (xs k)) -> tame (EMax n f) T.
Proof.
  intros N0 A Z r (xs & Fx & F). destruct (family n f P xs A Fx) as (ys & E & Py & K). destruct F as [(k & Hk & C)|(k & Hk & -> & M)].
  - rewrite (E k Hk) in C. discriminate.
  - assert (M' : forall j, (j < n)%nat -> ys j <= ys k).
    { intros j Hj. specialize (M j Hj). rewrite (E k Hk), (E j Hj) in M. cbn in M. apply ltb_false in M. exact M. }
    exists (ys k). split; [exact (E k Hk)|]. split; [exact (Z ys k Py Hk M')|]. intros l. exists ys. split; [exact (K l)|]. split; [exact N0|]. symmetry. apply rmax_is; assumption.
Qed.
End Tame.
