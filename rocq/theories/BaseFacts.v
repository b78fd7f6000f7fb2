(** Facts about the combinators of [Base]. *)
From Verif Require Import Base.

Lemma bind_Ok {A B} (x : res A) (k : A -> res B) b :
  bind x k = Ok b <-> exists a, x = Ok a /\ k a = Ok b.
Proof.
  split.
  - destruct x; cbn; intros H; try discriminate. eauto.
  - intros (a & -> & H). exact H.
Qed.

Lemma upd_length {V} (l : list V) i v : length (upd l i v) = length l.
Proof. revert i; induction l as [|x t IH]; intros [|i]; cbn; auto. Qed.

Lemma nth_error_upd {V} (l : list V) i j v :
  nth_error (upd l i v) j =
  if (Nat.eqb i j && (i <? length l))%bool then Some v else nth_error l j.
Proof.
  revert i j; induction l as [|x t IH]; intros [|i] [|j]; cbn; auto.
  - destruct (i =? j); reflexivity.
  - rewrite IH. reflexivity.
Qed.

Lemma nth_upd {V} (l : list V) i j v d :
  nth j (upd l i v) d = if (Nat.eqb i j && (i <? length l))%bool then v else nth j l d.
Proof.
  revert i j; induction l as [|x t IH]; intros [|i] [|j]; cbn; auto.
  - destruct (i =? j); reflexivity.
  - rewrite IH. reflexivity.
Qed.

Lemma nth_upd_eq {V} (l : list V) i v d : i < length l -> nth i (upd l i v) d = v.
Proof.
  intros H. rewrite nth_upd, Nat.eqb_refl.
  destruct (Nat.ltb_spec i (length l)); [reflexivity|lia].
Qed.

Lemma nth_upd_neq {V} (l : list V) i j v d : i <> j -> nth j (upd l i v) d = nth j l d.
Proof.
  intros H. rewrite nth_upd. destruct (Nat.eqb_spec i j); [lia|reflexivity].
Qed.

Lemma nth_error_upd_eq {V} (l : list V) i v :
  i < length l -> nth_error (upd l i v) i = Some v.
Proof.
  intros H. rewrite nth_error_upd, Nat.eqb_refl.
  destruct (Nat.ltb_spec i (length l)); [reflexivity|lia].
Qed.

Lemma nth_error_upd_neq {V} (l : list V) i j v :
  i <> j -> nth_error (upd l i v) j = nth_error l j.
Proof.
  intros H. rewrite nth_error_upd. destruct (Nat.eqb_spec i j); [lia|reflexivity].
Qed.

Lemma upd_nth {V} (l : list V) i d : upd l i (nth i l d) = l.
Proof. revert i; induction l as [|x t IH]; intros [|i]; cbn; auto. f_equal; auto. Qed.

Lemma rd_Ok {V} (l : list V) i d : i < length l -> rd l i = Ok (nth i l d).
Proof.
  intros H. unfold rd. rewrite (nth_error_nth' l d H). reflexivity.
Qed.

Lemma rd_inv {V} (l : list V) i v : rd l i = Ok v -> i < length l /\ forall d, nth i l d = v.
Proof.
  unfold rd. destruct (nth_error l i) eqn:E; intros [=]; subst.
  split.
  - apply nth_error_Some. congruence.
  - intros d. now apply nth_error_nth.
Qed.

Lemma wr_Ok {V} (l : list V) i v : i < length l -> wr l i v = Ok (upd l i v).
Proof. intros H. unfold wr. destruct (Nat.ltb_spec i (length l)); [reflexivity|lia]. Qed.

Lemma rdz_Ok {V} (l : list V) i d :
  (0 <= i < Z.of_nat (length l))%Z -> rdz l i = Ok (nth (Z.to_nat i) l d).
Proof.
  intros H. unfold rdz. destruct (Z.ltb_spec i 0); [lia|].
  apply rd_Ok. lia.
Qed.

Lemma wrz_Ok {V} (l : list V) i v :
  (0 <= i < Z.of_nat (length l))%Z -> wrz l i v = Ok (upd l (Z.to_nat i) v).
Proof.
  intros H. unfold wrz. destruct (Z.ltb_spec i 0); [lia|].
  apply wr_Ok. lia.
Qed.

(** The loop-invariant rule. *)
Lemma forr_inv {S} (P : nat -> S -> Prop) n body s :
  P 0 s ->
  (forall i s, i < n -> P i s -> exists s', body i s = Ok s' /\ P (Datatypes.S i) s') ->
  exists s', forr n body s = Ok s' /\ P n s'.
Proof.
  intros H0 Hstep.
  induction n as [|n IH]; cbn.
  - eauto.
  - destruct IH as (s' & E & HP).
    { intros i t Hi. apply Hstep. lia. }
    rewrite E; cbn. apply Hstep; [lia|exact HP].
Qed.

Lemma forr_ext {S} n (b1 b2 : nat -> S -> res S) s :
  (forall i s, i < n -> b1 i s = b2 i s) -> forr n b1 s = forr n b2 s.
Proof.
  induction n as [|n IH]; cbn; intros H; auto.
  rewrite IH by (intros; apply H; lia).
  destruct (forr n b2 s); cbn; auto.
Qed.

Lemma tab_length {V} n (f : nat -> V) : length (tab n f) = n.
Proof. unfold tab. rewrite map_length, seq_length. reflexivity. Qed.

Lemma nth_tab {V} n (f : nat -> V) i d : i < n -> nth i (tab n f) d = f i.
Proof.
  intros H. unfold tab.
  rewrite nth_indep with (d' := f 0) by (rewrite map_length, seq_length; lia).
  rewrite map_nth, seq_nth by lia. reflexivity.
Qed.

Lemma tab_ext {V} n (f g : nat -> V) : (forall i, i < n -> f i = g i) -> tab n f = tab n g.
Proof.
  intros H. unfold tab. apply map_ext_in. intros i Hi. apply in_seq in Hi. apply H. lia.
Qed.

Lemma tab_nth {V} (l : list V) d : tab (length l) (fun i => nth i l d) = l.
Proof.
  apply nth_ext with (d := d) (d' := d).
  - apply tab_length.
  - intros i Hi. rewrite tab_length in Hi. rewrite nth_tab by exact Hi. reflexivity.
Qed.

Lemma list_ext {V} (l1 l2 : list V) d :
  length l1 = length l2 -> (forall i, i < length l1 -> nth i l1 d = nth i l2 d) -> l1 = l2.
Proof. intros H1 H2. apply nth_ext with (d := d) (d' := d); assumption. Qed.

Lemma tab_S {V} n (f : nat -> V) : tab (S n) f = tab n f ++ [f n].
Proof. unfold tab. rewrite seq_S, map_app. reflexivity. Qed.

Lemma list_eqb_spec {A} (eqb : A -> A -> bool) :
  (forall x y, eqb x y = true <-> x = y) ->
  forall l1 l2, list_eqb eqb l1 l2 = true <-> l1 = l2.
Proof.
  intros H. induction l1 as [|x t IH]; intros [|y u]; cbn; split; intros E;
    try discriminate; auto.
  - apply andb_true_iff in E. destruct E as [E1 E2].
    apply H in E1. apply IH in E2. congruence.
  - injection E as -> ->. apply andb_true_iff. split; [now apply H|now apply IH].
Qed.

Lemma shape_eqb_spec s1 s2 : shape_eqb s1 s2 = true <-> s1 = s2.
Proof. apply list_eqb_spec. apply Z.eqb_eq. Qed.

Lemma shape_eqb_refl s : shape_eqb s s = true.
Proof. now apply shape_eqb_spec. Qed.

Lemma map_res_Ok {A B} (f : A -> res B) l bs :
  map_res f l = Ok bs <-> Forall2 (fun a b => f a = Ok b) l bs.
Proof.
  revert bs; induction l as [|a t IH]; intros bs; cbn.
  - split; [intros [= <-]; constructor|intros H; inversion H; reflexivity].
  - split.
    + intros H. apply bind_Ok in H as (b & Hb & H).
      apply bind_Ok in H as (bs' & Hbs & H). injection H as <-.
      constructor; auto. now apply IH.
    + intros H. inversion H as [|? b ? bs' Hb Ht]; subst.
      rewrite Hb; cbn. apply IH in Ht. rewrite Ht. reflexivity.
Qed.

(** * Re-arranging loops *)
Definition res_map {A B} (f : A -> B) (x : res A) : res B := a <- x ;; Ok (f a).

Lemma bind_assoc {A B C} (x : res A) (f : A -> res B) (g : B -> res C) :
  bind (bind x f) g = bind x (fun a => bind (f a) g).
Proof. destruct x; reflexivity. Qed.

Lemma bind_ext {A B} (x : res A) (f g : A -> res B) : (forall a, f a = g a) -> bind x f = bind x g.
Proof. intros H. destruct x; cbn; auto. Qed.

Lemma bind_res_map {A B C} (x : res A) (f : A -> B) (g : B -> res C) :
  bind (res_map f x) g = bind x (fun a => g (f a)).
Proof. destruct x; reflexivity. Qed.

Lemma res_map_res_map {A B C} (x : res A) (f : A -> B) (g : B -> C) :
  res_map g (res_map f x) = res_map (fun a => g (f a)) x.
Proof. destruct x; reflexivity. Qed.

Lemma res_map_id {A} (x : res A) : res_map (fun a => a) x = x.
Proof. destruct x; reflexivity. Qed.

Lemma forr_S {S} n (body : nat -> S -> res S) s :
  forr (Datatypes.S n) body s = bind (forr n body s) (body n).
Proof. reflexivity. Qed.

Lemma forr_add {S} m n (body : nat -> S -> res S) s :
  forr (m + n) body s = bind (forr m body s) (forr n (fun j => body (m + j))).
Proof.
  induction n as [|n IH].
  - rewrite Nat.add_0_r. cbn. destruct (forr m body s); reflexivity.
  - rewrite Nat.add_succ_r, forr_S, IH, bind_assoc. apply bind_ext. intros a. reflexivity.
Qed.

Lemma forr_mult {S} m n (body : nat -> S -> res S) s :
  forr (m * n) body s = forr m (fun i => forr n (fun j => body (i * n + j))) s.
Proof.
  induction m as [|m IH]; [reflexivity|].
  cbn [Nat.mul]. rewrite Nat.add_comm, forr_add, IH. reflexivity.
Qed.

(** Loop whose state carries redundant counters. *)
Lemma forr_map {S T} (f : nat -> S -> T) n (b1 : nat -> T -> res T) (b2 : nat -> S -> res S) s :
  (forall i s, i < n -> b1 i (f i s) = res_map (f (Datatypes.S i)) (b2 i s)) ->
  forr n b1 (f 0 s) = res_map (f n) (forr n b2 s).
Proof.
  induction n as [|n IH]; intros H.
  - reflexivity.
  - rewrite !forr_S. rewrite IH by (intros; apply H; lia).
    rewrite bind_res_map. unfold res_map at 1. rewrite bind_assoc. apply bind_ext.
    intros a. rewrite H by lia. reflexivity.
Qed.

Lemma forr_noop {S} n (s : S) : forr n (fun _ s => Ok s) s = Ok s.
Proof. induction n as [|n IH]; cbn; [reflexivity|]. rewrite IH. reflexivity. Qed.

Lemma forr_total {S} n (f : nat -> S -> S) s :
  forr n (fun i s => Ok (f i s)) s = Ok (fold_left (fun s i => f i s) (seq 0 n) s).
Proof.
  induction n as [|n IH]; [reflexivity|]. rewrite forr_S, IH, seq_S, fold_left_app. reflexivity.
Qed.

Lemma divmod_nat i n j : j < n -> (i * n + j) / n = i /\ (i * n + j) mod n = j.
Proof.
  intros H. split.
  - rewrite Nat.div_add_l by lia. rewrite Nat.div_small by exact H. lia.
  - rewrite Nat.add_comm, Nat.mod_add by lia. apply Nat.mod_small. exact H.
Qed.

Lemma mult_lt i m j n : i < m -> j < n -> i * n + j < m * n.
Proof. nia. Qed.

(** Five nested loops over a linear index. *)
Definition lin5 (KH KW HO WO c a b r q : nat) : nat := (((c * KH + a) * KW + b) * HO + r) * WO + q.

Lemma nest5 {S} (CH KH KW HO WO : nat) (G : nat -> nat -> nat -> nat -> nat -> nat -> S -> res S) s :
  forr CH (fun c => forr KH (fun a => forr KW (fun b => forr HO (fun r => forr WO (fun q =>
    G c a b r q (lin5 KH KW HO WO c a b r q)))))) s =
  forr (CH * KH * KW * HO * WO) (fun p =>
    let p1 := p / WO in let p2 := p1 / HO in let p3 := p2 / KW in
    G (p3 / KH) (p3 mod KH) (p2 mod KW) (p1 mod HO) (p mod WO) p) s.
Proof.
  rewrite forr_mult, forr_mult, forr_mult, forr_mult.
  apply forr_ext. intros c t Hc. apply forr_ext. intros a t1 Ha. apply forr_ext. intros b t2 Hb.
  apply forr_ext. intros r t3 Hr. apply forr_ext. intros q t4 Hq. cbv zeta. unfold lin5.
  destruct (divmod_nat ((((c * KH + a) * KW + b) * HO + r)) WO q Hq) as [-> ->].
  destruct (divmod_nat (((c * KH + a) * KW + b)) HO r Hr) as [-> ->].
  destruct (divmod_nat ((c * KH + a)) KW b Hb) as [-> ->].
  destruct (divmod_nat c KH a Ha) as [-> ->]. reflexivity.
Qed.

Lemma lin5_lt CH KH KW HO WO c a b r q :
  c < CH -> a < KH -> b < KW -> r < HO -> q < WO ->
  lin5 KH KW HO WO c a b r q < CH * KH * KW * HO * WO.
Proof. intros. unfold lin5. repeat apply mult_lt; assumption. Qed.

(** Writing cell [p] at step [p]. *)
Lemma forr_write_seq {V} (n : nat) (v : nat -> V) (dst : list V) :
  n <= length dst ->
  forr n (fun p d => wr d p (v p)) dst = Ok (tab n v ++ skipn n dst).
Proof.
  intros H. induction n as [|n IH].
  - reflexivity.
  - rewrite forr_S, IH by lia. cbn [bind].
    rewrite wr_Ok by (rewrite app_length, tab_length, skipn_length; lia).
    f_equal. apply list_ext with (d := v 0).
    + rewrite upd_length, !app_length, !tab_length, !skipn_length. lia.
    + rewrite upd_length, app_length, tab_length, skipn_length. intros i Hi.
      rewrite nth_upd, app_length, tab_length, skipn_length.
      destruct (Nat.eqb_spec n i) as [->|Hn]; cbn [andb].
      * destruct (Nat.ltb_spec i (i + (length dst - i))); [|lia].
        rewrite app_nth1 by (rewrite tab_length; lia). rewrite nth_tab by lia. reflexivity.
      * destruct (lt_dec i n) as [L|L].
        -- rewrite !app_nth1 by (rewrite tab_length; lia). rewrite !nth_tab by lia. reflexivity.
        -- rewrite !app_nth2 by (rewrite tab_length; lia). rewrite !tab_length.
           rewrite <- (firstn_skipn (S n) dst) at 1. rewrite skipn_app.
           rewrite firstn_length, Nat.min_l by lia.
           replace (n - S n) with 0 by lia. cbn [skipn].
           rewrite app_nth2.
           ++ f_equal. rewrite skipn_length, firstn_length. lia.
           ++ rewrite skipn_length, firstn_length. lia.
Qed.
