(** Threads with disjoint footprints. *)
From Coq Require Import Reals Lra.
From Verif Require Import Base BaseFacts Sums M_Im2col S_Im2col P_Im2col M_Kernels M_Conv P_Kernels P_Conv M_Par.
Open Scope nat_scope.

Lemma addr_eqb_spec a b : addr_eqb a b = true <-> a = b.
Proof.
  destruct a, b. unfold addr_eqb. cbn. rewrite andb_true_iff, !Nat.eqb_eq. split; [intros [-> ->]; reflexivity|intros [= -> ->]; auto].
Qed.

Section Any.
Context {V : Type}.
Implicit Types (m : mem V) (ps : nat -> prog V).
Variable A : arith V.

Lemma mset_eq m a v : mset m a v a = v.
Proof. unfold mset. rewrite (proj2 (addr_eqb_spec a a) eq_refl). reflexivity. Qed.

Lemma mset_neq m a v b : a <> b -> mset m a v b = m b.
Proof. intros H. unfold mset. destruct (addr_eqb a b) eqn:E; [|reflexivity]. apply addr_eqb_spec in E. contradiction. Qed.

(** [p] writes only inside [W], and reads only inside [W] or [Ro]. *)
Fixpoint safe (W Ro : addr -> Prop) (p : prog V) : Prop :=
  match p with
  | Done => True
  | Rd a k => (W a \/ Ro a) /\ forall v, safe W Ro (k v)
  | Wr a v p' => W a /\ safe W Ro p'
  end.

Lemma safe_seqp W Ro (p q : prog V) : safe W Ro p -> safe W Ro q -> safe W Ro (seqp p q).
Proof.
  induction p as [|a k IH|a v p IH]; cbn; intros Hp Hq; [exact Hq| |].
  - destruct Hp as [H1 H2]. split; [exact H1|]. intros v. apply IH; auto.
  - destruct Hp as [H1 H2]. split; [exact H1|]. apply IH; auto.
Qed.

Lemma safe_forp W Ro n body : (forall i, i < n -> safe W Ro (body i)) -> safe W Ro (forp n body).
Proof.
  induction n as [|n IH]; intros H; [exact I|]. cbn. apply safe_seqp; [apply IH; intros; apply H; lia|apply H; lia].
Qed.

Lemma safe_read2 W Ro n u v : forall k, (forall i, i < n -> (W (u i) \/ Ro (u i)) /\ (W (v i) \/ Ro (v i))) ->
  (forall xs ys, safe W Ro (k xs ys)) -> safe W Ro (read2 n u v k).
Proof.
  induction n as [|n IH]; intros k H Hk; [apply Hk|]. cbn. apply IH; [intros; apply H; lia|].
  intros xs ys. cbn. destruct (H n) as [H1 H2]; [lia|]. auto.
Qed.

Lemma safe_dot W Ro n u v : forall k, (forall i, i < n -> (W (u i) \/ Ro (u i)) /\ (W (v i) \/ Ro (v i))) ->
  (forall s, safe W Ro (k s)) -> safe W Ro (dot_then A n u v k).
Proof. intros k H Hk. apply safe_read2; [exact H|]. intros xs ys. apply Hk. Qed.

Lemma safe_incr (W Ro : addr -> Prop) a s : W a -> safe W Ro (incr A a s).
Proof. intros H. cbn. auto. Qed.

Lemma run_seqp (p q : prog V) : forall m, run (seqp p q) m = run q (run p m).
Proof. induction p as [|a k IH|a v p IH]; intros m; cbn; auto. Qed.

Lemma run_frame W Ro (p : prog V) : safe W Ro p -> forall m a, ~ W a -> run p m a = m a.
Proof.
  induction p as [|b k IH|b v p IH]; cbn; intros Hs m a Ha; [reflexivity| |].
  - apply (IH _ (proj2 Hs _)). exact Ha.
  - rewrite (IH (proj2 Hs) _ _ Ha). apply mset_neq. intros ->. apply Ha. apply Hs.
Qed.

(** The result on [W] depends only on the memory in [W] and [Ro]. *)
Lemma run_local W Ro (p : prog V) : safe W Ro p -> forall m m', (forall a, W a \/ Ro a -> m a = m' a) ->
  forall a, W a -> run p m a = run p m' a.
Proof.
  induction p as [|b k IH|b v p IH]; cbn; intros Hs m m' Hm a Ha; [apply Hm; auto| |].
  - rewrite (Hm b) by apply Hs. apply (IH _ (proj2 Hs _)); auto.
  - apply (IH (proj2 Hs)); [|exact Ha]. intros c Hc. unfold mset. destruct (addr_eqb b c); [reflexivity|]. apply Hm. exact Hc.
Qed.

Section Threads.
Variables (n : nat) (W : nat -> addr -> Prop) (Ro : addr -> Prop).
Hypothesis Hdis : forall t u a, t < n -> u < n -> t <> u -> W t a -> ~ W u a.
Hypothesis Hro : forall t a, t < n -> W t a -> ~ Ro a.

(** Invariant of every execution: what remains of each thread still computes the thread's own result. *)
Definition inv (m0 : mem V) (ps : nat -> prog V) (c : mem V * (nat -> prog V)) : Prop :=
  (forall t, t < n -> safe (W t) Ro (snd c t)) /\
  (forall t a, t < n -> W t a -> run (snd c t) (fst c) a = run (ps t) m0 a) /\
  (forall a, (forall t, t < n -> ~ W t a) -> fst c a = m0 a).

Lemma step_inv m0 ps c t : t < n -> inv m0 ps c -> inv m0 ps (step_thread t c).
Proof.
  intros Ht (S1 & S2 & S3). unfold step_thread. pose proof (S1 t Ht) as Hs. destruct (snd c t) as [|a k|a v p] eqn:Et.
  - repeat split; auto.
  - cbn in Hs. split; [|split]; cbn [fst snd].
    + intros u Hu. destruct (Nat.eqb_spec u t) as [->|]; [apply Hs|apply S1; exact Hu].
    + intros u b Hu Hb. destruct (Nat.eqb_spec u t) as [->|]; [|apply S2; assumption].
      rewrite <- (S2 t b Ht Hb), Et. reflexivity.
    + exact S3.
  - cbn in Hs. split; [|split]; cbn [fst snd].
    + intros u Hu. destruct (Nat.eqb_spec u t) as [->|]; [apply Hs|apply S1; exact Hu].
    + intros u b Hu Hb. destruct (Nat.eqb_spec u t) as [->|Hne].
      * rewrite <- (S2 t b Ht Hb), Et. reflexivity.
      * rewrite <- (S2 u b Hu Hb). apply (run_local (W u) Ro); [apply S1; exact Hu| |exact Hb].
        intros e He. apply mset_neq. intros ->. destruct He as [He|He].
        -- apply (Hdis t u e Ht Hu); auto. apply Hs.
        -- apply (Hro t e Ht); auto. apply Hs.
    + intros b Hb. rewrite mset_neq; [apply S3; exact Hb|]. intros ->. apply (Hb t Ht). apply Hs.
Qed.

Variable ps : nat -> prog V.
Hypothesis Hsafe : forall t, t < n -> safe (W t) Ro (ps t).

Lemma exec_inv m0 sched c : (forall t, In t sched -> t < n) -> inv m0 ps c -> inv m0 ps (exec sched c).
Proof.
  revert c. induction sched as [|t s IH]; intros c Hs Hi; [exact Hi|]. cbn. apply IH.
  - intros u Hu. apply Hs. right. exact Hu.
  - apply step_inv; [apply Hs; left; reflexivity|exact Hi].
Qed.

(** Every complete schedule leaves in each footprint what the thread alone would have left there. *)
Lemma any_schedule m0 sched : (forall t, In t sched -> t < n) -> finished n (exec sched (m0, ps)) ->
  (forall t a, t < n -> W t a -> fst (exec sched (m0, ps)) a = run (ps t) m0 a) /\
  (forall a, (forall t, t < n -> ~ W t a) -> fst (exec sched (m0, ps)) a = m0 a).
Proof.
  intros Hs Hf. destruct (exec_inv m0 sched (m0, ps) Hs) as (I1 & I2 & I3).
  - repeat split; auto.
  - split; [|exact I3]. intros t a Ht Ha. rewrite <- (I2 t a Ht Ha). rewrite (Hf t Ht). reflexivity.
Qed.

(** One thread after the other. *)
Lemma run_in_order m0 k : k <= n ->
  (forall t a, t < k -> W t a -> run (forp k ps) m0 a = run (ps t) m0 a) /\
  (forall a, (forall t, t < k -> ~ W t a) -> run (forp k ps) m0 a = m0 a).
Proof.
  induction k as [|k IH]; intros Hk; [split; [intros; lia|reflexivity]|].
  destruct IH as [I1 I2]; [lia|]. cbn [forp]. rewrite run_seqp. split.
  - intros t a Ht Ha. destruct (Nat.eq_dec t k) as [->|Hne].
    + apply (run_local (W k) Ro); [apply Hsafe; lia| |exact Ha]. intros b [Hb|Hb]; apply I2; intros u Hu Hw.
      * apply (Hdis k u b); auto; lia.
      * apply (Hro u b); auto; lia.
    + rewrite (run_frame (W k) Ro) by first [apply Hsafe; lia | intros Hw; apply (Hdis t k a); auto; lia]. apply I1; [lia|exact Ha].
  - intros a Ha. rewrite (run_frame (W k) Ro) by first [apply Hsafe; lia | apply Ha; lia]. apply I2. intros t Ht. apply Ha. lia.
Qed.

(** Every complete schedule is as good as one thread after the other. *)
Lemma any_schedule_in_order m0 sched : (forall t a, W t a \/ ~ W t a) ->
  (forall t, In t sched -> t < n) -> finished n (exec sched (m0, ps)) ->
  forall a, fst (exec sched (m0, ps)) a = run (forp n ps) m0 a.
Proof.
  intros D Hs Hf a. destruct (any_schedule m0 sched Hs Hf) as [A1 A2]. destruct (run_in_order m0 n (Nat.le_refl n)) as [B1 B2].
  assert (C : (exists t, t < n /\ W t a) \/ forall t, t < n -> ~ W t a).
  { clear -D. induction n as [|k [(t & Ht & H)|H]].
    - right. intros t Ht. lia.
    - left. exists t. split; [lia|exact H].
    - destruct (D k a) as [Hk|Hk]; [left; exists k; split; [lia|exact Hk]|].
      right. intros t Ht. destruct (Nat.eq_dec t k) as [->|]; [exact Hk|apply H; lia]. }
  destruct C as [(t & Ht & H)|H].
  - rewrite (A1 t a Ht H), (B1 t a Ht H). reflexivity.
  - rewrite (A2 a H), (B2 a H). reflexivity.
Qed.

End Threads.

(** Complete schedules exist. *)
Fixpoint psize (p : prog V) (m : mem V) : nat :=
  match p with Done => 0 | Rd a k => S (psize (k (m a)) m) | Wr a v p' => S (psize p' (mset m a v)) end.

Lemma exec_app s1 s2 (c : mem V * (nat -> prog V)) : exec (s1 ++ s2) c = exec s2 (exec s1 c).
Proof. unfold exec. apply fold_left_app. Qed.

Lemma run_one t (p : prog V) : forall m ps, ps t = p ->
  exists ps', exec (repeat t (psize p m)) (m, ps) = (run p m, ps') /\ ps' t = Done /\ forall u, u <> t -> ps' u = ps u.
Proof.
  induction p as [|a k IH|a v p IH]; intros m ps E; cbn [psize repeat run].
  - exists ps. auto.
  - cbn [exec fold_left]. unfold step_thread at 2. cbn [fst snd]. rewrite E.
    destruct (IH (m a) m (fun u => if u =? t then k (m a) else ps u)) as (ps' & E' & D & O).
    { rewrite Nat.eqb_refl. reflexivity. }
    exists ps'. split; [exact E'|]. split; [exact D|]. intros u Hu. rewrite O by exact Hu.
    destruct (Nat.eqb_spec u t); [contradiction|reflexivity].
  - cbn [exec fold_left]. unfold step_thread at 2. cbn [fst snd]. rewrite E.
    destruct (IH (mset m a v) (fun u => if u =? t then p else ps u)) as (ps' & E' & D & O).
    { rewrite Nat.eqb_refl. reflexivity. }
    exists ps'. split; [exact E'|]. split; [exact D|]. intros u Hu. rewrite O by exact Hu.
    destruct (Nat.eqb_spec u t); [contradiction|reflexivity].
Qed.

Lemma complete_schedule n m0 ps : exists sched, (forall t, In t sched -> t < n) /\ finished n (exec sched (m0, ps)).
Proof.
  assert (H : forall k, k <= n -> exists sched, (forall t, In t sched -> t < n) /\
    (forall t, t < k -> snd (exec sched (m0, ps)) t = Done)).
  { induction k as [|k IH]; intros Hk.
    - exists []. split; [intros t []|intros; lia].
    - destruct IH as (s & H1 & H2); [lia|]. destruct (exec s (m0, ps)) as [m1 ps1] eqn:E1.
      destruct (run_one k (ps1 k) m1 ps1 eq_refl) as (ps' & E' & D & O).
      exists (s ++ repeat k (psize (ps1 k) m1)). split.
      + intros t Ht. apply in_app_or in Ht. destruct Ht as [Ht|Ht]; [apply H1; exact Ht|].
        apply repeat_spec in Ht. lia.
      + intros t Ht. rewrite exec_app, E1, E'. cbn [snd] in *. destruct (Nat.eq_dec t k) as [->|]; [exact D|].
        rewrite O by lia. apply H2. lia. }
  apply (H n). lia.
Qed.

Lemma safe_write (W Ro : addr -> Prop) (p : prog V) a : safe W Ro p -> may_write a p -> W a.
Proof.
  induction p as [|b k IH|b v p IH]; cbn; intros Hs H; [contradiction| |].
  - destruct H as [v H]. apply (IH v); [apply Hs|exact H].
  - destruct H as [->|H]; [apply Hs|apply IH; [apply Hs|exact H]].
Qed.
Lemma safe_access (W Ro : addr -> Prop) (p : prog V) a : safe W Ro p -> may_access a p -> W a \/ Ro a.
Proof.
  induction p as [|b k IH|b v p IH]; cbn; intros Hs H; [contradiction| |].
  - destruct H as [->|[v H]]; [apply Hs|]. apply (IH v); [apply Hs|exact H].
  - destruct H as [->|H]; [left; apply Hs|apply IH; [apply Hs|exact H]].
Qed.

Lemma no_race n (W : nat -> addr -> Prop) (Ro : addr -> Prop) ps : (forall t u a, t < n -> u < n -> t <> u -> W t a -> ~ W u a) ->
  (forall t a, t < n -> W t a -> ~ Ro a) -> (forall t, t < n -> safe (W t) Ro (ps t)) ->
  forall t u a, t < n -> u < n -> t <> u -> may_write a (ps t) -> ~ may_access a (ps u).
Proof.
  intros H1 H2 H3 t u a Ht Hu Hne Hw Ha. pose proof (safe_write _ _ _ _ (H3 t Ht) Hw) as W1.
  destruct (safe_access _ _ _ _ (H3 u Hu) Ha) as [W2|R2]; [apply (H1 t u a); auto|apply (H2 t a); auto].
Qed.

(** * Running loops *)
Fixpoint forn {S} (n : nat) (f : nat -> S -> S) (s : S) : S :=
  match n with O => s | Datatypes.S k => f k (forn k f s) end.

Lemma run_forp n body m : run (forp n body) m = forn n (fun i => run (body i)) m.
Proof. induction n as [|n IH]; [reflexivity|]. cbn. rewrite run_seqp, IH. reflexivity. Qed.

Lemma forn_ext {S} n (f f' : nat -> S -> S) s : (forall i s, i < n -> f i s = f' i s) -> forn n f s = forn n f' s.
Proof. induction n as [|n IH]; intros H; [reflexivity|]. cbn. rewrite IH by (intros; apply H; lia). apply H. lia. Qed.

Lemma forn_add {S} a b (f : nat -> S -> S) s : forn (a + b) f s = forn b (fun j => f (a + j)) (forn a f s).
Proof. induction b as [|b IH]; [rewrite Nat.add_0_r; reflexivity|]. rewrite Nat.add_succ_r. cbn. rewrite IH. reflexivity. Qed.

Lemma forn_mult {S} a b (f : nat -> S -> S) s : forn (a * b) f s = forn a (fun i => forn b (fun j => f (i * b + j))) s.
Proof.
  induction a as [|a IH]; [reflexivity|]. cbn [forn]. rewrite <- IH. rewrite Nat.mul_succ_l. apply forn_add.
Qed.

Lemma run_read2 n u v : forall k m, run (read2 n u v k) m = run (k (tab n (fun i => m (u i))) (tab n (fun i => m (v i)))) m.
Proof.
  induction n as [|n IH]; intros k m; [reflexivity|]. cbn [read2]. rewrite IH. cbn [run]. unfold tab.
  rewrite seq_S, !map_app. reflexivity.
Qed.

Lemma forn_inv {S} (P : nat -> S -> Prop) n f s : P 0 s -> (forall i s, i < n -> P i s -> P (Datatypes.S i) (f i s)) -> P n (forn n f s).
Proof. induction n as [|n IH]; intros H0 H; [exact H0|]. cbn. apply H; [lia|]. apply IH; auto. Qed.

(** The flat form of the window loops. *)
Section Conv.
Variables (g : geom) (d : cdims).
Notation cin := (cd_cin d).
Notation h := (cd_h d).
Notation w := (cd_w d).
Notation cout := (cd_cout d).
Notation ho := (cd_ho d).
Notation wo := (cd_wo d).
Notation rows := (cd_rows g d).
Notation cols := (cd_cols d).
Notation rc := (rows * cols).
Notation flat_src := (flat_src g h w ho wo).
Notation in_off := (cin * h * w).
Notation oc := (cout * cols).

Lemma run_windows (body : option nat -> nat -> prog V) m : run (windows g d body) m = forn rc (fun p => run (body (flat_src p) p)) m.
Proof.
  unfold windows. replace rc with (cin * (KH g * (KW g * (ho * wo)))) by (unfold cd_rows, cd_cols; ring).
  rewrite run_forp, forn_mult. apply forn_ext. intros c m1 Hc.
  rewrite run_forp, forn_mult. apply forn_ext. intros a m2 Ha.
  rewrite run_forp, forn_mult. apply forn_ext. intros e m3 He.
  rewrite run_forp, forn_mult. apply forn_ext. intros r m4 Hr.
  rewrite run_forp. apply forn_ext. intros q m5 Hq. cbv zeta.
  replace (c * (KH g * (KW g * (ho * wo))) + (a * (KW g * (ho * wo)) + (e * (ho * wo) + (r * wo + q))))
    with (lin5 (KH g) (KW g) ho wo c a e r q) by (unfold lin5; ring).
  rewrite flat_src_cell by assumption. unfold lin5. reflexivity.
Qed.

Lemma safe_windows W Ro (body : option nat -> nat -> prog V) : (forall o p, (forall i, o = Some i -> i < in_off) -> p < rc -> safe W Ro (body o p)) ->
  safe W Ro (windows g d body).
Proof.
  intros H. unfold windows. do 5 (apply safe_forp; intros). cbv zeta. apply H.
  - intros i5 E. destruct (inside _ _ _ _) eqn:Ei; [|discriminate]. injection E as <-.
    unfold inside in Ei. rewrite !andb_true_iff in Ei. unfold pixel. apply mult_lt; [apply mult_lt; lia|lia].
  - unfold cd_rows, cd_cols. replace (cin * KH g * KW g * (ho * wo)) with (cin * KH g * KW g * ho * wo) by ring.
    repeat (apply mult_lt; [|assumption]); assumption.
Qed.

(** ** Forward *)
Definition fwdW (b : nat) (a : addr) : Prop :=
  (fst a = 3 /\ exists p, p < rc /\ snd a = b * rc + p) \/ (fst a = 4 /\ exists p, p < oc /\ snd a = b * oc + p).
Definition fwdRo (a : addr) : Prop := fst a = 0 \/ fst a = 1 \/ fst a = 2.

Lemma blk_eq n i j p q : p < n -> q < n -> i * n + p = j * n + q -> i = j.
Proof. intros Hp Hq E. destruct (divmod_nat i n p Hp) as [D1 _]. destruct (divmod_nat j n q Hq) as [D2 _]. congruence. Qed.

Lemma fwd_disjoint t u a : t <> u -> fwdW t a -> ~ fwdW u a.
Proof.
  intros Hne [[F (p & Hp & E)]|[F (p & Hp & E)]] [[F' (q & Hq & E')]|[F' (q & Hq & E')]]; try congruence;
  apply Hne; rewrite E in E'; eapply blk_eq; [| |exact E' | | |exact E']; eassumption.
Qed.

Lemma fwd_ro t a : fwdW t a -> ~ fwdRo a.
Proof. intros [[F _]|[F _]] [H|[H|H]]; congruence. Qed.

Lemma fwd_safe b : safe (fwdW b) fwdRo (conv_prog A g d b).
Proof.
  unfold conv_prog. apply safe_seqp; [|apply safe_seqp].
  - apply safe_windows. intros [i|] p Hi Hp; cbn.
    + split; [right; left; reflexivity|]. intros _. split; [|exact I]. left. split; [reflexivity|]. exists p. auto.
    + split; [|exact I]. left. split; [reflexivity|]. exists p. auto.
  - apply safe_forp. intros o Ho. apply safe_forp. intros j Hj. apply safe_dot.
    + intros k Hk. split; [right; right; left; reflexivity|]. left. left. split; [reflexivity|].
      exists (k * cols + j). split; [apply mult_lt; assumption|reflexivity].
    + intros s. cbn. split; [|exact I]. right. split; [reflexivity|].
      exists (o * cols + j). split; [apply mult_lt; assumption|reflexivity].
  - apply safe_forp. intros o Ho. apply safe_forp. intros j Hj. split; [right; right; right; reflexivity|]. intros v.
    apply safe_incr. right. split; [reflexivity|].
    exists (o * cols + j). split; [apply mult_lt; assumption|reflexivity].
Qed.

(** ** Input gradient *)
Definition gradW (b : nat) (a : addr) : Prop :=
  (fst a = 3 + b) \/ (fst a = 2 /\ exists p, p < in_off /\ snd a = b * in_off + p).
Definition gradRo (a : addr) : Prop := fst a = 0 \/ fst a = 1.

Lemma grad_disjoint t u a : t <> u -> gradW t a -> ~ gradW u a.
Proof.
  intros Hne [F|[F (p & Hp & E)]] [F'|[F' (q & Hq & E')]]; try lia.
  apply Hne. rewrite E in E'. eapply blk_eq; [| |exact E']; eassumption.
Qed.

Lemma grad_ro t a : gradW t a -> ~ gradRo a.
Proof. intros [F|[F _]] [H|H]; lia. Qed.

Lemma grad_safe b : safe (gradW b) gradRo (conv_grad_prog A g d b).
Proof.
  unfold conv_grad_prog. apply safe_seqp.
  - apply safe_forp. intros k Hk. apply safe_forp. intros j Hj. apply safe_dot.
    + intros o Ho. split; right; [right|left]; reflexivity.
    + intros s. cbn. split; [|exact I]. left. reflexivity.
  - apply safe_windows. intros [i|] p Hi Hp; [|exact I].
    split; [left; left; reflexivity|]. intros s. apply safe_incr. right. split; [reflexivity|].
    exists i. split; [apply Hi; reflexivity|reflexivity].
Qed.

Lemma blk_dec b n q : (exists p, p < n /\ q = b * n + p) \/ ~ (exists p, p < n /\ q = b * n + p).
Proof.
  destruct (Nat.le_gt_cases (b * n) q) as [H|H]; [|right; intros (p & Hp & E); lia].
  destruct (Nat.lt_ge_cases (q - b * n) n) as [H'|H']; [left; exists (q - b * n); lia|right; intros (p & Hp & E); lia].
Qed.

Lemma fwd_dec t a : fwdW t a \/ ~ fwdW t a.
Proof. unfold fwdW. destruct (Nat.eq_dec (fst a) 3), (Nat.eq_dec (fst a) 4), (blk_dec t rc (snd a)), (blk_dec t oc (snd a)); tauto. Qed.

Lemma grad_dec t a : gradW t a \/ ~ gradW t a.
Proof. unfold gradW. destruct (Nat.eq_dec (fst a) (3 + t)), (Nat.eq_dec (fst a) 2), (blk_dec t in_off (snd a)); tauto. Qed.

(** Bit for bit: whatever the arithmetic, any schedule gives what one thread would give. *)
Lemma conv_in_order batch m0 sched : (forall t, In t sched -> t < batch) ->
  finished batch (exec sched (m0, conv_prog A g d)) ->
  forall a, fst (exec sched (m0, conv_prog A g d)) a = run (forp batch (conv_prog A g d)) m0 a.
Proof.
  apply (any_schedule_in_order batch fwdW fwdRo (fun t u a _ _ => fwd_disjoint t u a) (fun t a _ => fwd_ro t a)
           (conv_prog A g d) (fun t _ => fwd_safe t)). exact fwd_dec.
Qed.

Lemma conv_grad_in_order batch m0 sched : (forall t, In t sched -> t < batch) ->
  finished batch (exec sched (m0, conv_grad_prog A g d)) ->
  forall a, fst (exec sched (m0, conv_grad_prog A g d)) a = run (forp batch (conv_grad_prog A g d)) m0 a.
Proof.
  apply (any_schedule_in_order batch gradW gradRo (fun t u a _ _ => grad_disjoint t u a) (fun t a _ => grad_ro t a)
           (conv_grad_prog A g d) (fun t _ => grad_safe t)). exact grad_dec.
Qed.

End Conv.

(** ** Add *)
Definition addW (a0 a1 : nat) (i : nat) (a : addr) : Prop := (fst a = a0 \/ fst a = a1) /\ snd a = i.
Definition addRo (a : addr) : Prop := fst a = 0.

Lemma add_safe a0 a1 i : safe (addW a0 a1 i) addRo (add_prog A a0 a1 i).
Proof.
  cbn. unfold addW, addRo. cbn. repeat split; auto.
Qed.

Lemma add_in_order n a0 a1 m0 sched : a0 <> 0 -> a1 <> 0 ->
  (forall t, In t sched -> t < n) -> finished n (exec sched (m0, add_prog A a0 a1)) ->
  forall a, fst (exec sched (m0, add_prog A a0 a1)) a = run (forp n (add_prog A a0 a1)) m0 a.
Proof.
  intros H0 H1. apply (any_schedule_in_order n (addW a0 a1) addRo).
  - intros t u a _ _ Hne [_ E] [_ E']. congruence.
  - intros t a _ [[F|F] _] F0; unfold addRo in F0; congruence.
  - intros t _. apply add_safe.
  - intros t a. unfold addW. destruct (Nat.eq_dec (fst a) a0), (Nat.eq_dec (fst a) a1), (Nat.eq_dec (snd a) t); tauto.
Qed.

Lemma conv_no_race g d t u a : t <> u ->
  (may_write a (conv_prog A g d t) -> ~ may_access a (conv_prog A g d u)) /\
  (may_write a (conv_grad_prog A g d t) -> ~ may_access a (conv_grad_prog A g d u)).
Proof.
  intros Hne. split.
  - apply (no_race (S (max t u)) (fwdW g d) fwdRo); try lia.
    + intros t' u' b _ _. apply fwd_disjoint.
    + intros t' b _. apply fwd_ro.
    + intros t' _. apply fwd_safe.
  - apply (no_race (S (max t u)) (gradW d) gradRo); try lia.
    + intros t' u' b _ _. apply grad_disjoint.
    + intros t' b _. apply grad_ro.
    + intros t' _. apply grad_safe.
Qed.

End Any.

Lemma run_dot n u v k (m : mem R) : run (dot_then real_arith n u v k) m = run (k (rsum n (fun i => m (u i) * m (v i))%R)) m.
Proof.
  unfold dot_then. rewrite run_read2. f_equal. f_equal. cbn [a_dot real_arith]. rewrite tab_length. apply rsum_ext.
  intros i Hi. rewrite !nth_tab by exact Hi. reflexivity.
Qed.

Section Conv.
Variables (g : geom) (d : cdims).
Notation cin := (cd_cin d).
Notation h := (cd_h d).
Notation w := (cd_w d).
Notation cout := (cd_cout d).
Notation ho := (cd_ho d).
Notation wo := (cd_wo d).
Notation rows := (cd_rows g d).
Notation cols := (cd_cols d).
Notation rc := (rows * cols).
Notation flat_src := (flat_src g h w ho wo).
Notation in_off := (cin * h * w).
Notation oc := (cout * cols).

(** A loop that writes cell [base + p] of array [A] with a value that does not depend on array [A]. *)
Lemma forn_fill A base n (f : nat -> mem R -> mem R) (v : mem R -> nat -> R) m :
  (forall p m', p < n -> f p m' = mset m' (A, base + p) (v m' p)) ->
  (forall p m', p < n -> (forall a, fst a <> A -> m' a = m a) -> v m' p = v m p) ->
  forall a, forn n f m a = if (fst a =? A) && (base <=? snd a) && (snd a <? base + n) then v m (snd a - base) else m a.
Proof.
  intros Hf Hv.
  assert (K : forall k, k <= n -> forall a, forn k f m a = if (fst a =? A) && (base <=? snd a) && (snd a <? base + k) then v m (snd a - base) else m a).
  { induction k as [|k IH]; intros Hk a.
    - cbn [forn]. destruct (Nat.leb_spec base (snd a)), (Nat.ltb_spec (snd a) (base + 0)); try lia;
        rewrite ?andb_false_r; cbn; rewrite ?andb_false_r; reflexivity.
    - cbn [forn]. rewrite Hf by lia.
      assert (Ev : v (forn k f m) k = v m k).
      { apply Hv; [lia|]. intros b Hb. rewrite IH by lia. destruct (Nat.eqb_spec (fst b) A); [contradiction|]. reflexivity. }
      rewrite Ev. unfold mset. destruct (addr_eqb (A, base + k) a) eqn:Ea.
      + apply addr_eqb_spec in Ea. subst a. cbn [fst snd]. rewrite Nat.eqb_refl.
        destruct (Nat.leb_spec base (base + k)), (Nat.ltb_spec (base + k) (base + S k)); try lia. cbn [andb].
        f_equal. lia.
      + rewrite IH by lia. destruct a as [A' q]. cbn [fst snd].
        assert (Hne : ~ (A' = A /\ q = base + k)).
        { intros [-> ->]. unfold addr_eqb in Ea. cbn in Ea. rewrite !Nat.eqb_refl in Ea. discriminate. }
        destruct (Nat.eqb_spec A' A) as [EA|]; [|reflexivity].
        destruct (Nat.leb_spec base q); [|reflexivity]. cbn [andb].
        destruct (Nat.ltb_spec q (base + k)), (Nat.ltb_spec q (base + S k)); try reflexivity; exfalso; [lia|].
        apply Hne. split; [exact EA|lia]. }
  intros a. apply K. lia.
Qed.

Lemma forn_divmod {S} n m (f : nat -> nat -> S -> S) s :
  forn n (fun i => forn m (f i)) s = forn (n * m) (fun p => f (p / m) (p mod m)) s.
Proof.
  rewrite forn_mult. apply forn_ext. intros i s' Hi. apply forn_ext. intros j s'' Hj.
  destruct (divmod_nat i m j Hj) as [-> ->]. reflexivity.
Qed.

(** The result of one iteration run alone. *)
Lemma run_conv_prog b (m : mem R) :
  (forall p, p < rc -> run (conv_prog real_arith g d b) m (3, b * rc + p) = colv g d 0%R (fun i => m (0, b * in_off + i)) p) /\
  (forall o j, o < cout -> j < cols -> run (conv_prog real_arith g d b) m (4, b * oc + (o * cols + j)) =
     conv_val g d (fun i => m (0, i)) (fun i => m (1, i)) (fun i => m (2, i)) b o j).
Proof.
  unfold conv_prog. rewrite !run_seqp, run_windows. rewrite run_forp.
  set (m1 := forn rc _ m). rewrite run_forp.
  rewrite (forn_ext cout _ (fun o => forn cols (fun j m' => mset m' (4, b * oc + (o * cols + j))
             (rsum rows (fun k => m' (1%nat, o * rows + k)%nat * m' (3%nat, b * rc + (k * cols + j))%nat)%R))) m1).
  2:{ intros o m' Ho. rewrite run_forp. apply forn_ext. intros j m'' Hj. rewrite run_dot. reflexivity. }
  rewrite forn_divmod. set (m2 := forn (cout * cols) _ m1).
  rewrite (forn_ext cout _ (fun o => forn cols (fun j m' => mset m' (4, b * oc + (o * cols + j))
             (m' (4%nat, b * oc + (o * cols + j))%nat + m' (2%nat, o))%R)) m2).
  2:{ intros o m' Ho. rewrite run_forp. apply forn_ext. intros j m'' Hj. cbn. reflexivity. }
  rewrite forn_divmod. set (m3 := forn (cout * cols) _ m2).
  assert (H1 : forall a, m1 a = if (fst a =? 3) && (b * rc <=? snd a) && (snd a <? b * rc + rc)
                      then colv g d 0%R (fun i => m (0, b * in_off + i)) (snd a - b * rc) else m a).
  { intros a. unfold m1.
    rewrite (forn_fill 3 (b * rc) rc _ (fun m p => colv g d 0%R (fun i => m (0, b * in_off + i)) p) m); [reflexivity| |].
    - intros p m' Hp. unfold colv. destruct (flat_src p); reflexivity.
    - intros p m' Hp Hm. unfold colv. destruct (flat_src p); [|reflexivity]. apply Hm. cbn. discriminate. }
  assert (H2 : forall a, m2 a = if (fst a =? 4) && (b * oc <=? snd a) && (snd a <? b * oc + oc)
                      then rsum rows (fun k => m (1%nat, (snd a - b * oc) / cols * rows + k)%nat *
                             colv g d 0 (fun i => m (0%nat, b * in_off + i)%nat) (k * cols + (snd a - b * oc) mod cols))%R
                      else m1 a).
  { intros a. unfold m2.
    rewrite (forn_fill 4 (b * oc) oc _ (fun m p => rsum rows (fun k => m (1%nat, p / cols * rows + k)%nat *
                m (3%nat, b * rc + (k * cols + p mod cols))%nat)%R) m1).
    - destruct ((fst a =? 4) && (b * oc <=? snd a) && (snd a <? b * oc + oc)) eqn:Ea; [|reflexivity].
      rewrite !andb_true_iff in Ea. destruct Ea as [[_ Ea] Eb].
      set (p := snd a - b * oc). assert (Hp : p < cout * cols) by (unfold p; lia).
      destruct (divmod_lt p cout cols Hp) as (P1 & P2 & _).
      apply rsum_ext. intros k Hk. rewrite !H1. cbn [fst snd]. cbn [Nat.eqb andb]. f_equal.
      assert (k * cols + p mod cols < rc) by (apply mult_lt; assumption).
      destruct (Nat.leb_spec (b * rc) (b * rc + (k * cols + p mod cols))); [|lia].
      destruct (Nat.ltb_spec (b * rc + (k * cols + p mod cols)) (b * rc + rc)); [|lia]. cbn [andb].
      f_equal. lia.
    - intros p m' Hp. destruct (divmod_lt p cout cols Hp) as (_ & _ & P3). rewrite <- P3. reflexivity.
    - intros p m' Hp Hm. apply rsum_ext. intros k Hk. f_equal; apply Hm; cbn; discriminate. }
  assert (H3 : forall o j, o < cout -> j < cols -> m3 (4, b * oc + (o * cols + j)) = (m2 (4, b * oc + (o * cols + j))%nat + m2 (2, o)%nat)%R /\
               forall a, fst a <> 4 -> m3 a = m2 a).
  { unfold m3.
    assert (K : forall n, n <= cout * cols ->
      (forall p, p < n -> forn n (fun p m' => mset m' (4, b * oc + (p / cols * cols + p mod cols))
             (m' (4%nat, b * oc + (p / cols * cols + p mod cols))%nat + m' (2%nat, p / cols)%nat)%R) m2 (4, b * oc + p) =
          (m2 (4, b * oc + p)%nat + m2 (2, p / cols)%nat)%R) /\
      (forall p, n <= p -> forn n (fun p m' => mset m' (4, b * oc + (p / cols * cols + p mod cols))
             (m' (4%nat, b * oc + (p / cols * cols + p mod cols))%nat + m' (2%nat, p / cols)%nat)%R) m2 (4, b * oc + p) =
          m2 (4, b * oc + p)%nat) /\
      (forall a, fst a <> 4 -> forn n (fun p m' => mset m' (4, b * oc + (p / cols * cols + p mod cols))
             (m' (4%nat, b * oc + (p / cols * cols + p mod cols))%nat + m' (2%nat, p / cols)%nat)%R) m2 a = m2 a)).
    { induction n as [|n IH]; intros Hn; [cbn; repeat split; intros; try lia; reflexivity|].
      destruct IH as (I1 & I2 & I3); [lia|]. cbn [forn].
      destruct (divmod_lt n cout cols) as (_ & _ & P3); [lia|]. rewrite <- P3. split; [|split].
      - intros p Hp. destruct (Nat.eq_dec p n) as [->|].
        + rewrite mset_eq, I2 by lia. rewrite I3 by (cbn; discriminate). reflexivity.
        + rewrite mset_neq by (intros [= E]; lia). apply I1. lia.
      - intros p Hp. rewrite mset_neq by (intros [= E]; lia). apply I2. lia.
      - intros a Ha. rewrite mset_neq by (intros <-; apply Ha; reflexivity). apply I3. exact Ha. }
    destruct (K (cout * cols)) as (K1 & _ & K3); [lia|]. intros o j Ho Hj. split; [|exact K3].
    rewrite K1 by (apply mult_lt; assumption). destruct (divmod_nat o cols j Hj) as [-> _]. reflexivity. }
  split.
  - intros p Hp.
    assert (E3 : m3 (3, b * rc + p) = m2 (3, b * rc + p)).
    { destruct (Nat.eq_dec cout 0) as [E0|E0].
      - unfold m3. rewrite E0. reflexivity.
      - destruct (Nat.eq_dec cols 0) as [Ec|Ec].
        + unfold m3. rewrite Ec, Nat.mul_0_r. reflexivity.
        + destruct (H3 0 0) as [_ H]; [lia|lia|]. apply H. cbn. discriminate. }
    rewrite E3, H2. cbn [fst snd Nat.eqb andb]. rewrite H1. cbn [fst snd Nat.eqb andb].
    destruct (Nat.leb_spec (b * rc) (b * rc + p)); [|lia].
    destruct (Nat.ltb_spec (b * rc + p) (b * rc + rc)); [|lia]. cbn [andb]. f_equal. lia.
  - intros o j Ho Hj. destruct (H3 o j Ho Hj) as [-> _]. rewrite !H2. cbn [fst snd Nat.eqb andb].
    assert (o * cols + j < oc) by (apply mult_lt; assumption).
    destruct (Nat.leb_spec (b * oc) (b * oc + (o * cols + j))); [|lia].
    destruct (Nat.ltb_spec (b * oc + (o * cols + j)) (b * oc + oc)); [|lia]. cbn [andb].
    replace (b * oc + (o * cols + j) - b * oc) with (o * cols + j) by lia.
    destruct (divmod_nat o cols j Hj) as [-> ->]. rewrite H1. cbn [fst snd Nat.eqb andb]. reflexivity.
Qed.

Hypothesis Hsz : sizes_ok g h w ho wo.

Theorem conv_any_schedule batch input weights bias buf output sched :
  length input = batch * in_off -> length weights = cout * rows -> length bias = cout ->
  length buf = batch * rc -> length output = batch * oc ->
  (forall t, In t sched -> t < batch) ->
  finished batch (exec sched (mem_of [input; weights; bias; buf; output], conv_prog real_arith g d)) ->
  exists buf' output',
    conv_forward g d batch input weights bias buf output = Ok (buf', output') /\
    forall a, fst (exec sched (mem_of [input; weights; bias; buf; output], conv_prog real_arith g d)) a =
              mem_of [input; weights; bias; buf'; output'] a.
Proof.
  intros LX LW Lb Lf Lo Hs Hf. set (m0 := mem_of [input; weights; bias; buf; output]).
  destruct (conv_forward_flat g d Hsz batch input weights bias buf output) as (buf' & output' & E & L1 & L2 & H1 & H2); auto.
    { lia. } { rewrite Lo. unfold cd_cols. ring. }
  exists buf', output'. split; [exact E|].
  destruct (any_schedule batch (fwdW g d) fwdRo (fun t u a _ _ => fwd_disjoint g d t u a) (fun t a _ => fwd_ro g d t a)
              (conv_prog real_arith g d) (fun t _ => fwd_safe real_arith g d t) m0 sched Hs Hf) as [A1 A2].
  assert (Eo : cout * ho * wo = oc) by (unfold cd_cols; ring). rewrite Eo in *.
  intros a. destruct a as [A q].
  assert (Hcases : (exists b p, b < batch /\ p < rc /\ A = 3 /\ q = b * rc + p) \/
                   (exists b o j, b < batch /\ o < cout /\ j < cols /\ A = 4 /\ q = b * oc + (o * cols + j)) \/
                   (A <> 3 /\ A <> 4) \/ (A = 3 /\ batch * rc <= q) \/ (A = 4 /\ batch * oc <= q)).
  { destruct (Nat.eq_dec A 3) as [->|N3].
    - destruct (Nat.lt_ge_cases q (batch * rc)) as [Hq|Hq]; [|tauto]. left.
      destruct (divmod_lt q batch rc Hq) as (P1 & P2 & P3). exists (q / rc), (q mod rc). auto.
    - destruct (Nat.eq_dec A 4) as [->|N4]; [|tauto].
      destruct (Nat.lt_ge_cases q (batch * oc)) as [Hq|Hq]; [|tauto]. right. left.
      destruct (divmod_lt q batch oc Hq) as (P1 & P2 & P3). destruct (divmod_lt _ _ _ P2) as (Q1 & Q2 & Q3).
      exists (q / oc), (q mod oc / cols), ((q mod oc) mod cols). rewrite <- Q3. auto. }
  destruct Hcases as [(b & p & Hb & Hp & -> & ->)|[(b & o & j & Hb & Ho & Hj & -> & ->)|Hrest]].
  - rewrite (A1 b) by first [exact Hb | left; split; [reflexivity|]; exists p; auto].
    destruct (run_conv_prog b m0) as [R1 _]. rewrite R1 by exact Hp. unfold mem_of. cbn [fst snd nth]. rewrite H1 by assumption. reflexivity.
  - rewrite (A1 b) by first [exact Hb | right; split; [reflexivity|]; exists (o * cols + j); split; [apply mult_lt; assumption|reflexivity]].
    destruct (run_conv_prog b m0) as [_ R2]. rewrite R2 by assumption. unfold mem_of. cbn [fst snd nth]. rewrite H2 by assumption. reflexivity.
  - rewrite A2.
    + unfold m0, mem_of. cbn [fst snd]. destruct Hrest as [[N3 N4]|[[-> Hq]|[-> Hq]]].
      * destruct A as [|[|[|[|[|A]]]]]; try reflexivity; contradiction.
      * cbn [nth]. rewrite !nth_overflow; [reflexivity|lia|lia].
      * cbn [nth]. rewrite !nth_overflow; [reflexivity|lia|lia].
    + intros t Ht [[F (p & Hp & Eq)]|[F (p & Hp & Eq)]]; cbn [fst snd] in *;
        destruct Hrest as [[N3 N4]|[[-> Hq]|[-> Hq]]]; try congruence.
      * assert (t * rc + p < batch * rc) by (apply mult_lt; assumption). lia.
      * assert (t * oc + p < batch * oc) by (apply mult_lt; assumption). lia.
Qed.

(** ** Input gradient *)
Lemma run_conv_grad_prog b (m : mem R) :
  forall i, i < in_off -> run (conv_grad_prog real_arith g d b) m (2, b * in_off + i) =
    (m (2, b * in_off + i)%nat + conv_igrad g d (fun k => m (1, k)%nat) (fun k => m (0, k)%nat) b i)%R.
Proof.
  intros i Hi. unfold conv_grad_prog. rewrite run_seqp, run_windows, run_forp.
  rewrite (forn_ext rows _ (fun k => forn cols (fun j m' => mset m' (3 + b, 0 + (k * cols + j))
             (rsum cout (fun o => m' (1%nat, o * rows + k)%nat * m' (0%nat, b * oc + (o * cols + j))%nat)%R))) m).
  2:{ intros k m' Hk. rewrite run_forp. apply forn_ext. intros j m'' Hj. rewrite run_dot. reflexivity. }
  rewrite forn_divmod. set (m1 := forn (rows * cols) _ m).
  assert (Eo : cout * ho * wo = oc) by (unfold cd_cols; ring).
  assert (H1 : forall a, m1 a = if (fst a =? 3 + b) && (0 <=? snd a) && (snd a <? 0 + rc)
             then gcol g d (fun k => m (1, k)) (fun k => m (0, k)) b (snd a - 0) else m a).
  { intros a. unfold m1.
    rewrite (forn_fill (3 + b) 0 rc _ (fun m p => gcol g d (fun k => m (1, k)) (fun k => m (0, k)) b p) m); [reflexivity| |].
    - intros p m' Hp. destruct (divmod_lt p rows cols Hp) as (_ & _ & P3). rewrite <- P3. unfold gcol. rewrite Eo. reflexivity.
    - intros p m' Hp Hm. unfold gcol. apply rsum_ext. intros o Ho. f_equal; apply Hm; cbn; lia. }
  assert (K : forall n, n <= rc ->
     forn n (fun p => run match flat_src p with Some i => Rd (3 + b, p) (fun s => incr real_arith (2, b * in_off + i) s) | None => Done end) m1 (2, b * in_off + i) =
       (m (2%nat, b * in_off + i)%nat + rsum n (fun p => match flat_src p with
          | Some j => if Nat.eqb j i then gcol g d (fun k => m (1%nat, k)) (fun k => m (0%nat, k)) b p else 0 | None => 0 end))%R /\
     (forall a, fst a <> 2 -> forn n (fun p => run match flat_src p with Some i => Rd (3 + b, p) (fun s => incr real_arith (2, b * in_off + i) s) | None => Done end) m1 a = m1 a)).
  { induction n as [|n IH]; intros Hn.
    - cbn [forn rsum]. split; [|reflexivity]. rewrite H1. cbn [fst]. destruct (Nat.eqb_spec 2 (3 + b)); [lia|]. cbn [andb]. lra.
    - destruct IH as [I1 I2]; [lia|]. cbn [forn rsum].
      assert (Hb : m1 (3 + b, n) = gcol g d (fun k => m (1, k)) (fun k => m (0, k)) b n).
      { rewrite H1. cbn [fst snd]. rewrite Nat.eqb_refl. destruct (Nat.ltb_spec n (0 + rc)); [|lia]. cbn. f_equal. lia. }
      destruct (flat_src n) as [j|]; cbn [run incr a_add real_arith].
      + rewrite (I2 (3 + b, n)) by (cbn; lia). rewrite Hb. split.
        * destruct (Nat.eqb_spec j i) as [->|Hne].
          -- rewrite mset_eq, I1. lra.
          -- rewrite mset_neq by (intros [= E]; lia). rewrite I1. lra.
        * intros a Ha. rewrite mset_neq by (intros <-; apply Ha; reflexivity). apply I2. exact Ha.
      + split; [rewrite I1; lra|exact I2]. }
  destruct (K rc) as [K1 _]; [lia|]. rewrite K1. reflexivity.
Qed.

Theorem conv_grad_any_schedule batch go weights gi junk sched :
  length go = batch * oc -> length weights = cout * rows -> length gi = batch * in_off ->
  length junk = batch -> (forall t, t < batch -> length (nth t junk []) = rc) ->
  (forall t, In t sched -> t < batch) ->
  finished batch (exec sched (mem_of (go :: weights :: gi :: junk), conv_grad_prog real_arith g d)) ->
  exists gi', conv_input_grad g d batch (fun b => nth b junk []) go weights gi = Ok gi' /\ length gi' = length gi /\
    (forall i, fst (exec sched (mem_of (go :: weights :: gi :: junk), conv_grad_prog real_arith g d)) (2, i) = gi'.[i]) /\
    (forall A i, A < 2 -> fst (exec sched (mem_of (go :: weights :: gi :: junk), conv_grad_prog real_arith g d)) (A, i) =
                          mem_of (go :: weights :: gi :: junk) (A, i)).
Proof.
  intros Lgo LW Lgi Lj Hj Hs Hf. set (m0 := mem_of (go :: weights :: gi :: junk)).
  assert (Eo : cout * ho * wo = oc) by (unfold cd_cols; ring).
  destruct (conv_input_grad_flat g d Hsz batch (fun b => nth b junk []) go weights gi) as (gi' & E & L & H1); auto.
  { rewrite Eo. exact Lgo. }
  exists gi'. split; [exact E|]. split; [exact L|].
  destruct (any_schedule batch (gradW d) gradRo (fun t u a _ _ => grad_disjoint d t u a) (fun t a _ => grad_ro d t a)
              (conv_grad_prog real_arith g d) (fun t _ => grad_safe real_arith g d t) m0 sched Hs Hf) as [A1 A2].
  split.
  - intros q. destruct (Nat.lt_ge_cases q (batch * in_off)) as [Hq|Hq].
    + destruct (divmod_lt q batch in_off Hq) as (P1 & P2 & P3). set (b := q / in_off) in *. set (i := q mod in_off) in *.
      rewrite P3. rewrite (A1 b) by first [exact P1 | right; split; [reflexivity|]; exists i; auto].
      rewrite run_conv_grad_prog by exact P2. rewrite H1 by assumption. reflexivity.
    + rewrite A2.
      * unfold m0, mem_of. cbn [fst snd nth]. rewrite !nth_overflow; [reflexivity|lia|lia].
      * intros t Ht [F|[F (p & Hp & Eq)]]; cbn [fst snd] in *; [lia|].
        assert (t * in_off + p < batch * in_off) by (apply mult_lt; assumption). lia.
  - intros A i HA. apply A2. intros t Ht [F|[F _]]; cbn [fst] in F; lia.
Qed.

End Conv.

(** ** Add *)
Theorem add_any_schedule n a0 a1 (m0 : mem R) sched : a0 <> 0 -> a1 <> 0 ->
  (forall t, In t sched -> t < n) -> finished n (exec sched (m0, add_prog real_arith a0 a1)) ->
  forall A i, fst (exec sched (m0, add_prog real_arith a0 a1)) (A, i) =
    (m0 (A, i) + (if (i <? n)%nat then (if (A =? a0)%nat then m0 (0, i)%nat else 0) + (if (A =? a1)%nat then m0 (0, i)%nat else 0) else 0))%R.
Proof.
  intros H0 H1 Hs Hf A i.
  destruct (@any_schedule R n (addW a0 a1) addRo) with (ps := add_prog real_arith a0 a1) (m0 := m0) (sched := sched) as [A1 A2]; auto.
  - intros t u a _ _ Hne [_ E] [_ E']. congruence.
  - intros t a _ [[F|F] _] F0; unfold addRo in F0; congruence.
  - intros t _. apply add_safe.
  - assert (Hcase : (i < n /\ (A = a0 \/ A = a1)) \/ ~ (i < n /\ (A = a0 \/ A = a1))).
    { destruct (Nat.lt_ge_cases i n), (Nat.eq_dec A a0), (Nat.eq_dec A a1); intuition lia. }
    destruct Hcase as [[Hi HA]|Hn].
    + rewrite (A1 i) by first [exact Hi | split; [exact HA|reflexivity]]. unfold add_prog. cbn [run seqp incr a_add real_arith].
      rewrite (proj2 (Nat.ltb_lt _ _) Hi).
      assert (E0 : mset m0 (a0, i) (m0 (a0, i)%nat + m0 (0, i)%nat)%R (0, i) = m0 (0, i)) by (apply mset_neq; intros [= E]; congruence).
      rewrite !E0.
      destruct (Nat.eqb_spec A a0) as [N0|N0], (Nat.eqb_spec A a1) as [N1|N1].
      * subst a0 a1. rewrite !mset_eq. lra.
      * subst a0. rewrite mset_neq by (intros [= E]; congruence). rewrite mset_eq. lra.
      * subst a1. rewrite mset_eq. rewrite mset_neq by (intros [= E]; congruence). lra.
      * destruct HA; congruence.
    + rewrite A2.
      * destruct (Nat.ltb_spec i n); [|lra]. destruct (Nat.eqb_spec A a0); [exfalso; apply Hn; auto|].
        destruct (Nat.eqb_spec A a1); [exfalso; apply Hn; auto|]. lra.
      * intros t Ht [F E]. cbn [fst snd] in *. subst t. apply Hn. split; [exact Ht|destruct F; auto].
Qed.

