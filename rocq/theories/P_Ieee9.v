(** Every operation with floats has a result, and every network a float evaluation. *)
From Coq Require Import Reals Lra Lia ZArith Permutation List Bool.
From Verif Require Import Base BaseFacts Sums S_Float M_Im2col S_Im2col M_Kernels M_Conv M_Layers M_Optim M_Nn M_Graph M_Model M_Backend S_Grad S_Fit S_Graph S_Run M_Round S_Round P_Kernels P_Float P_Round P_Round2 P_Round5 M_Ieee S_Ieee P_Ieee P_Ieee2 P_Ieee3 P_Ieee4 P_Ieee5 P_Vjp2 P_Pool P_BN2 P_Run2 P_Graph P_Graph2 P_Model P_Model2 P_Run P_Fwd P_Fwd2 P_Nn P_Load P_Eval P_Fit Prop_Run.
Import ListNotations.
Open Scope R_scope.

(** ** Rounding *)
Lemma float32_dec z : {float32 z} + {~ float32 z}.
Proof.
  destruct (in_dec bool_dec true (map (fun k => (z mod 2 ^ Z.of_nat k =? 0)%Z && (Z.abs (z / 2 ^ Z.of_nat k) <? 2 ^ 24)%Z) (seq 0 254))) as [Y|N].
  - left. apply in_map_iff in Y as (k & E & Hk). apply in_seq in Hk. apply andb_true_iff in E as (E1 & E2). apply Z.eqb_eq in E1. apply Z.ltb_lt in E2.
    exists (z / 2 ^ Z.of_nat k)%Z, (Z.of_nat k). split; [exact E2|]. split; [lia|]. pose proof (Z.div_mod z (2 ^ Z.of_nat k)). assert (0 < 2 ^ Z.of_nat k)%Z by (apply Z.pow_pos_nonneg; lia). lia.
  - right. intros (m & e & A & B & ->). apply N. apply in_map_iff. exists (Z.to_nat e). split; [|apply in_seq; lia]. rewrite Z2Nat.id by lia.
    assert (P : (0 < 2 ^ e)%Z) by (apply Z.pow_pos_nonneg; lia). apply andb_true_iff. split; [apply Z.eqb_eq, Z.mod_mul; lia|]. rewrite Z.div_mul by lia. apply Z.ltb_lt, A.
Qed.

Lemma largest_below n : forall z0, float32 z0 -> exists z, float32 z /\ (z <= z0 + Z.of_nat n)%Z /\ forall y, float32 y -> (y <= z0 + Z.of_nat n)%Z -> (y <= z)%Z.
Proof.
  induction n as [|n IH]; intros z0 F0.
  - exists z0. split; [exact F0|]. split; [lia|]. intros y _ L. lia.
  - destruct (float32_dec (z0 + Z.of_nat (S n))) as [Y|N].
    + exists (z0 + Z.of_nat (S n))%Z. split; [exact Y|]. split; [lia|]. intros y _ L. lia.
    + destruct (IH z0 F0) as (z & Fz & L & M). exists z. split; [exact Fz|]. split; [lia|]. intros y Fy Ly. apply M; [exact Fy|].
      destruct (Z.eq_dec y (z0 + Z.of_nat (S n))) as [->|]; [contradiction|lia].
Qed.

Lemma rounds_ex x : Rabs x <= top -> exists y, rounds x y.
Proof.
  intros T. assert (P : 0 < 2 ^ 149) by (apply pow_lt; lra). pose proof (Rle_abs (- x)) as X0. rewrite Rabs_Ropp in X0. pose proof (Rle_abs x) as X1.
  set (X := x * 2 ^ 149). destruct (archimed X) as [U1 U2]. set (n := (Rdefinitions.up X - 1)%Z).
  assert (N1 : IZR n <= X < IZR n + 1) by (unfold n; rewrite minus_IZR; lra).
  set (b := (- ((2 ^ 24 - 1) * 2 ^ 253))%Z).
  assert (FB : float32 b) by (exists (- (2 ^ 24 - 1))%Z, 253%Z; split; [reflexivity|]; split; [lia|unfold b; ring]).
  assert (BN : (b <= n)%Z).
  { assert (IZR b <= X); [|apply Z.lt_succ_r, lt_IZR; rewrite succ_IZR; lra]. unfold b. rewrite opp_IZR. unfold X. assert (- top <= x) by lra.
    apply (Rmult_le_compat_r (2 ^ 149)) in H; [|lra]. unfold top, Rdiv in H. rewrite Ropp_mult_distr_l, Rmult_assoc, Rinv_l, Rmult_1_r in H by lra. exact H. }
  destruct (largest_below (Z.to_nat (n - b)) b FB) as (z & Fz & L & M). rewrite Z2Nat.id in L, M by lia. replace (b + (n - b))%Z with n in * by ring.
  assert (IP : 0 < / 2 ^ 149) by (apply Rinv_0_lt_compat, P).
  assert (ZX : IZR z / 2 ^ 149 <= x).
  { apply (Rmult_le_reg_r (2 ^ 149)); [exact P|]. unfold Rdiv. rewrite Rmult_assoc, Rinv_l, Rmult_1_r by lra. fold X. apply Rle_trans with (IZR n); [apply IZR_le, L|lra]. }
  exists (IZR z / 2 ^ 149). split; [exists z; auto|]. intros f Ff. split; intros C; [lra|]. destruct Ff as (y & Fy & ->).
  apply Rmult_le_compat_r; [lra|]. apply IZR_le, M; [exact Fy|]. apply Z.lt_succ_r, lt_IZR. rewrite succ_IZR.
  apply (Rmult_le_compat_r (2 ^ 149)) in C; [|lra]. unfold Rdiv in C. rewrite Rmult_assoc, Rinv_l, Rmult_1_r in C by lra. fold X in C. lra.
Qed.
Lemma rnd_ex x : exists r, rnd x r.
Proof.
  destruct (Rle_dec (Rabs x) top) as [T|T]; [destruct (rounds_ex x T) as (y & Y); exists (Fin y); exact Y|]. apply Rnot_le_lt in T.
  destruct (Rtotal_order x 0) as [L|[E|G]]; [exists (Inf true); split; assumption| |exists (Inf false); split; [exact T|exact G]].
  subst x. rewrite Rabs_R0 in T. pose proof top_big. assert (0 < 2 ^ 127) by (apply pow_lt; lra). lra.
Qed.

(** ** Operations *)
Lemma fadd_ex a b : exists r, fadd a b r.
Proof. destruct a as [x|s|], b as [y|t|]; cbn; try (eexists; reflexivity). apply rnd_ex. Qed.
Lemma fmul_ex a b : exists r, fmul a b r.
Proof. destruct a as [x|s|], b as [y|t|]; cbn; try (eexists; reflexivity). exists (Fin (x * y)). right. reflexivity. Qed.
Lemma fdiv_ex a b : exists r, fdiv a b r.
Proof.
  destruct a as [x|s|], b as [y|t|]; cbn; try (eexists; reflexivity).
  - destruct (Req_EM_T y 0); [destruct (Req_EM_T x 0); [eauto|exists (Inf false), false; reflexivity]|apply rnd_ex].
  - destruct (Req_EM_T y 0); [exists (Inf false), false; reflexivity|eauto].
Qed.
Lemma fsqrt_ex a : exists r, fsqrt a r.
Proof. destruct a as [x|[]|]; cbn; try (eexists; reflexivity). destruct (ltb x 0); [eauto|apply rnd_ex]. Qed.

Lemma flt_ltb_trans a b c : a <> NaN -> b <> NaN -> c <> NaN -> flt_ltb b a = false -> flt_ltb c b = false -> flt_ltb c a = false.
Proof.
  destruct a as [x|[]|], b as [y|[]|], c as [w|[]|]; cbn; try congruence. intros _ _ _ A B. apply ltb_false in A. apply ltb_false in B. unfold ltb. destruct (Rlt_dec w x); [lra|reflexivity].
Qed.
Lemma flt_total a b : a <> NaN -> b <> NaN -> flt_ltb a b = false \/ flt_ltb b a = false.
Proof.
  destruct a as [x|[]|], b as [y|[]|]; cbn; try congruence; auto. intros _ _. unfold ltb. destruct (Rlt_dec x y), (Rlt_dec y x); auto. lra.
Qed.
Lemma flt_refl a : flt_ltb a a = false.
Proof. destruct a as [x|[]|]; cbn; try reflexivity. unfold ltb. destruct (Rlt_dec x x); [lra|reflexivity]. Qed.
Lemma flt_eq_nan (a : flt) : {a = NaN} + {a <> NaN}. Proof. destruct a; [right; discriminate|right; discriminate|left; reflexivity]. Qed.

Lemma fmax_ex n xs : (0 < n)%nat -> exists r, fmax n xs r.
Proof.
  intros N0. destruct n as [|n]; [lia|]. clear N0. induction n as [|n IH].
  - exists (xs 0%nat). right. exists 0%nat. split; [lia|]. split; [reflexivity|]. intros j Hj. replace j with 0%nat by lia. apply flt_refl.
  - destruct IH as (r & [(k & Hk & C)|(k & Hk & -> & M)]); [exists NaN; left; exists k; split; [lia|exact C]|].
    destruct (flt_eq_nan (xs k)) as [E|NE]; [exists NaN; left; exists k; split; [lia|exact E]|].
    destruct (flt_eq_nan (xs (S n))) as [E2|NE2]; [exists NaN; left; exists (S n); split; [lia|exact E2]|].
    assert (D : (exists j, (j < S n)%nat /\ xs j = NaN) \/ forall j, (j < S n)%nat -> xs j <> NaN).
    { clear. induction (S n) as [|q [(j & Hj & E)|IH]]; [right; intros; lia|left; exists j; split; [lia|exact E]|].
      destruct (flt_eq_nan (xs q)) as [E|NE]; [left; exists q; split; [lia|exact E]|]. right. intros j Hj. destruct (Nat.eq_dec j q) as [->|]; [exact NE|apply IH; lia]. }
    destruct D as [(j & Hj & E)|D]; [exists NaN; left; exists j; split; [lia|exact E]|].
    destruct (flt_total (xs k) (xs (S n)) NE NE2) as [L|L].
    + exists (xs k). right. exists k. split; [lia|]. split; [reflexivity|]. intros j Hj. destruct (Nat.eq_dec j (S n)) as [->|]; [exact L|apply M; lia].
    + exists (xs (S n)). right. exists (S n). split; [lia|]. split; [reflexivity|]. intros j Hj. destruct (Nat.eq_dec j (S n)) as [->|]; [apply flt_refl|].
      apply (flt_ltb_trans (xs j) (xs k) (xs (S n))); [apply D; lia|exact NE|exact NE2|apply M; lia|exact L].
Qed.

Lemma fsummed_ex l : exists r, fsummed l r.
Proof.
  destruct l as [|x l]; [exists (Fin 0); reflexivity|].
  assert (G : forall l, exists t, Permutation (x :: l) (fleaves t) /\ exists r, fadded t r).
  { clear l. intros l. induction l as [|y l (t & P & r & A)]; [exists (FLeaf x); split; [apply Permutation_refl|exists x; reflexivity]|].
    destruct (fadd_ex y r) as (s & S). exists (FNode (FLeaf y) t). split; [cbn; rewrite perm_swap; apply perm_skip, P|]. exists s, y, r. split; [reflexivity|]. split; [exact A|exact S]. }
  destruct (G l) as (t & P & r & A). exists r, t. split; assumption.
Qed.

Lemma choose n (Q : nat -> flt -> Prop) : (forall k, (k < n)%nat -> exists r, Q k r) -> exists xs : nat -> flt, forall k, (k < n)%nat -> Q k (xs k).
Proof.
  induction n as [|n IH]; intros H; [exists (fun _ => Fin 0); intros; lia|]. destruct IH as (xs & X); [intros; apply H; lia|]. destruct (H n ltac:(lia)) as (r & Hr).
  exists (fun k => if (k =? n)%nat then r else xs k). intros k Hk. destruct (Nat.eqb_spec k n) as [->|]; [exact Hr|apply X; lia].
Qed.

(** Maxima are of at least one value. *)
Fixpoint maxes (e : ex) : Prop :=
  match e with
  | EVar _ _ | EConst _ | EInt _ => True
  | EAdd x y | ESub x y | EMul x y | EDiv x y => maxes x /\ maxes y
  | EExp x | ESqrt x => maxes x
  | EIf x y z w => maxes x /\ maxes y /\ maxes z /\ maxes w
  | ESum n f => forall k, (k < n)%nat -> maxes (f k)
  | EMax n f => (0 < n)%nat /\ forall k, (k < n)%nat -> maxes (f k)
  end.

Section Exist.
Variable lib : flt -> flt -> Prop.
Hypothesis LT : forall a, exists r, lib a r.

Lemma fev_ex v e : maxes e -> exists r, fev lib v e r.
Proof.
  induction e; cbn [maxes fev]; intros Mx.
  - eauto.
  - eauto.
  - apply rnd_ex.
  - destruct (IHe1 (proj1 Mx)) as (x & X), (IHe2 (proj2 Mx)) as (y & Y), (fadd_ex x y) as (z & Z). exists z, x, y. auto.
  - destruct (IHe1 (proj1 Mx)) as (x & X), (IHe2 (proj2 Mx)) as (y & Y), (fadd_ex x (fopp y)) as (z & Z). exists z, x, y. split; [exact X|]. split; [exact Y|exact Z].
  - destruct (IHe1 (proj1 Mx)) as (x & X), (IHe2 (proj2 Mx)) as (y & Y), (fmul_ex x y) as (z & Z). exists z, x, y. auto.
  - destruct (IHe1 (proj1 Mx)) as (x & X), (IHe2 (proj2 Mx)) as (y & Y), (fdiv_ex x y) as (z & Z). exists z, x, y. auto.
  - destruct (IHe Mx) as (x & X), (LT x) as (z & Z). eauto.
  - destruct (IHe Mx) as (x & X), (fsqrt_ex x) as (z & Z). eauto.
  - destruct Mx as (M1 & M2 & M3 & M4). destruct (IHe1 M1) as (x & X), (IHe2 M2) as (y & Y), (IHe3 M3) as (z & Z), (IHe4 M4) as (w & W).
    destruct (flt_ltb x y) eqn:E; [exists z|exists w]; exists x, y; rewrite E; auto.
  - destruct (choose n (fun k r => fev lib v (f k) r) (fun k Hk => H k (Mx k Hk))) as (xs & X). destruct (fsummed_ex (tab n xs)) as (r & Hr). eauto.
  - destruct Mx as (M0 & Mx). destruct (choose n (fun k r => fev lib v (f k) r) (fun k Hk => H k (Mx k Hk))) as (xs & X). destruct (fmax_ex n xs M0) as (r & Hr). eauto.
Qed.

Lemma fsoftmax_ex v n m : exists out, fsoftmax lib v n m out.
Proof.
  destruct (choose (n * m) (fun q r => fev lib v (softmax_exp_ex m q) r)) as (es & ES).
  { intros q Hq. apply fev_ex. cbn. split; [exact Logic.I|]. split; [destruct m; [rewrite Nat.mul_0_r in Hq; lia|lia]|auto]. }
  destruct (choose (n * m) (fun q r => exists s, fsummed (tab m (fun k => es (q / m * m + k)%nat)) s /\ fdiv (es q) s r)) as (out & O); [|exists out, es; auto].
  intros q _. destruct (fsummed_ex (tab m (fun k => es (q / m * m + k)%nat))) as (s & S), (fdiv_ex (es q) s) as (r & Hr). eauto.
Qed.
Lemma fbn_ex v n m at_ tr eps ga be rm rv row col total : exists out, fbn lib v n m at_ tr eps ga be rm rv row col total out.
Proof.
  destruct (choose (n * m) (fun q r => fev lib v (bn_cent_ex n at_ tr rm (q / m) (q mod m)) r)) as (cs & CS).
  { intros q _. apply fev_ex. unfold bn_cent_ex. destruct tr; cbn; auto. }
  destruct (choose total (fun p r => fev lib (fun a q => if (a =? 1)%nat then fnth (tab (n * m) cs) q else v a q) (bn_out_ex n m tr eps ga be rv (row p) (col p)) r)) as (out & O).
  { intros p _. apply fev_ex. unfold bn_out_ex. destruct tr; cbn; auto 10. }
  exists out, (tab (n * m) cs). split; [apply tab_length|]. split; [|exact O]. intros i j Hi Hj. assert (Hq : (i * m + j < n * m)%nat) by nia.
  unfold fnth, tab. rewrite (nth_indep _ _ (cs 0%nat)) by (rewrite map_length, seq_length; exact Hq). rewrite map_nth, seq_nth by exact Hq. cbn [Nat.add].
  specialize (CS _ Hq). rewrite Nat.div_add_l, Nat.div_small in CS by lia. rewrite Nat.add_0_r in CS. rewrite Nat.add_comm, Nat.mod_add, Nat.mod_small in CS by lia. rewrite (Nat.add_comm j) in CS. exact CS.
Qed.

Lemma list_of n (out : nat -> flt) : exists l, length l = n /\ forall p, (p < n)%nat -> fnth l p = out p.
Proof.
  exists (tab n out). split; [apply tab_length|]. intros p Hp. unfold fnth, tab. rewrite (nth_indep _ _ (out 0%nat)) by (rewrite map_length, seq_length; exact Hp). rewrite map_nth, seq_nth by exact Hp. reflexivity.
Qed.

Lemma layer_maxes E L inshs osh p : fits L inshs osh -> maxes (layer_ex E L inshs osh p).
Proof.
  assert (MC : forall fill h w i y x, maxes (cell_ex fill h w i y x)) by (intros; unfold cell_ex; destruct (inside h w y x); exact Logic.I).
  intros F. destruct F; cbn [layer_ex].
  - cbn. auto.
  - cbn. auto 10.
  - cbn. auto 10.
  - cbn. auto 10.
  - cbn. auto 10.
  - cbn. auto 10.
  - cbn. auto.
  - cbn. auto 10.
  - unfold conv_ex. cbn [maxes]. auto 10.
  - unfold maxpool_ex. cbn [maxes]. split; [|auto]. apply geom_rows. exact H0.
  - unfold dropout_ex. destruct (p_train mask); [|exact Logic.I]. destruct (geb _ _); cbn; auto.
  - unfold bn_ex. destruct (p_train g); cbn; auto 20.
  - unfold bn_ex. destruct (p_train g); cbn; auto 20.
Qed.

Lemma fcomputes_ex E L inshs osh xs : fits L inshs osh -> map fsh xs = inshs -> exists t, fcomputes lib E L xs osh t.
Proof.
  intros F S.
  assert (EL : exists l, length l = prodN osh /\ forall p, (p < prodN osh)%nat -> fev lib (fvalues xs) (layer_ex E L (map fsh xs) osh p) (fnth l p)).
  { destruct (choose (prodN osh) (fun p r => fev lib (fvalues xs) (layer_ex E L (map fsh xs) osh p) r)) as (out & O); [intros p _; apply fev_ex; rewrite S; apply layer_maxes, F|].
    destruct (list_of (prodN osh) out) as (l & L1 & L2). exists l. split; [exact L1|]. intros p Hp. rewrite L2 by exact Hp. apply O, Hp. }
  destruct EL as (l & L1 & L2).
  destruct F.
  5:{ destruct (fsoftmax_ex (fvalues xs) n m) as (out & es & O1 & O2). destruct (list_of (n * m) out) as (l' & K1 & K2).
      exists (mkFT [n; m] l'). split; [reflexivity|]. split; [cbn [fdat]; rewrite K1, prodN2; reflexivity|]. cbn [fdat]. exists es. split; [exact O1|].
      intros q Hq. rewrite K2 by exact Hq. apply O2, Hq. }
  11:{ destruct (fbn_ex (fvalues xs) n m (fun i j => i * m + j)%nat (p_train g) e (tdat (p_data g)) (tdat (p_data b)) (tdat rm) (tdat rv) (fun p => p / m)%nat (fun p => p mod m)%nat (prodN [n; m])) as (out & cs & C1 & C2 & C3).
      destruct (list_of (prodN [n; m]) out) as (l' & K1 & K2). exists (mkFT [n; m] l'). split; [reflexivity|]. split; [exact K1|]. rewrite S. cbn [fdat].
      exists cs. split; [exact C1|]. split; [exact C2|]. intros p Hp. rewrite K2 by exact Hp. apply C3, Hp. }
  11:{ destruct (fbn_ex (fvalues xs) (N * H * W) C (nchw_at C (H * W)) (p_train g) e (tdat (p_data g)) (tdat (p_data b)) (tdat rm) (tdat rv)
          (fun p => p / (H * W) / C * (H * W) + p mod (H * W))%nat (fun p => (p / (H * W)) mod C)%nat (prodN [N; C; H; W])) as (out & cs & C1 & C2 & C3).
      destruct (list_of (prodN [N; C; H; W]) out) as (l' & K1 & K2). exists (mkFT [N; C; H; W] l'). split; [reflexivity|]. split; [exact K1|]. rewrite S. cbn [fdat].
      exists cs. split; [exact C1|]. split; [exact C2|]. intros p Hp. rewrite K2 by exact Hp. apply C3, Hp. }
  all: eexists (mkFT _ l); split; [reflexivity|]; split; [exact L1|exact L2].
Qed.
End Exist.

(** ** Networks *)
Section Total.
Variables (ps : list phnode) (ins outs : list nat) (m : model).
Hypothesis MF : mfacts ps ins outs m.
Hypothesis CL : closed ps ins outs.
Hypothesis LB : links_back ps.
Variables (E : nat -> env) (infos : list linfo) (b : backend) (tins : list ten) (lib : flt -> flt -> Prop).
Hypothesis LT : forall a, exists r, lib a r.
Hypothesis SI : shaped ps ins tins.
Hypothesis FT : forall d args, needed ps outs d -> call ps d args -> exists L, produces m infos b d L /\ fits L (map (dims ps) args) (dims ps d).

Lemma float_evaluation_upto N : exists V : nat -> ften, Forall2 (fun d t => V d = lift t) ins tins /\
  (forall d, (d < N)%nat -> needed ps outs d -> fsh (V d) = dims ps d) /\
  (forall d args, (d < N)%nat -> needed ps outs d -> call ps d args -> exists L, produces m infos b d L /\ fcomputes lib (E d) L (map V args) (dims ps d) (V d)).
Proof.
  destruct CL as (NDi & _ & NC & _ & K). induction N as [|N IH].
  - exists (fun d => match index_of d ins with Ok k => lift (nth k tins empty_ten) | _ => lift empty_ten end). split; [|split; intros; lia].
    apply Forall2_intro; [exact (Forall2_len _ _ _ SI)|]. intros k d t Hd Ht. rewrite (index_of_NoDup _ _ _ NDi Hd). f_equal. apply nth_error_nth. exact Ht.
  - destruct IH as (V & V1 & V2 & V3). destruct (in_dec Nat.eq_dec N (map mo_ph (m_ops m))) as [HI|HI].
    + apply in_map_iff in HI. destruct HI as (op & Eop & Hop). destruct (op_spec _ _ _ _ MF op Hop) as (args & _ & Nd & Ca & _). rewrite Eop in Nd, Ca.
      destruct (FT N args Nd Ca) as (L & PL & FL).
      assert (X : map fsh (map V args) = map (dims ps) args).
      { rewrite map_map. apply map_ext_in. intros a Ha. apply V2; [eapply LB; eassumption|eapply need_arg; eassumption]. }
      destruct (fcomputes_ex lib LT (E N) L _ _ (map V args) FL X) as (t & T).
      set (V' := fun d => if (d =? N)%nat then t else V d).
      assert (VL : forall d, (d < N)%nat -> V' d = V d). { intros d Hd. unfold V'. destruct (Nat.eqb_spec d N); [lia|reflexivity]. }
      assert (VN : V' N = t) by (unfold V'; rewrite Nat.eqb_refl; reflexivity).
      assert (VA : forall d args', (d <= N)%nat -> call ps d args' -> map V' args' = map V args').
      { intros d args' Hd Cd. apply map_ext_in. intros a Ha. apply VL. pose proof (LB _ _ _ Cd Ha). lia. }
      exists V'. split; [|split].
      * clear -V1 NC Ca. assert (NI : ~ In N ins) by (intros HI; apply (NC N HI); eauto). clear NC. induction V1 as [|d t' l1 l2 H _ IH]; [constructor|].
        constructor; [|apply IH; intros X; apply NI; right; exact X]. unfold V'. destruct (Nat.eqb_spec d N) as [->|]; [exfalso; apply NI; left; reflexivity|exact H].
      * intros d Hd Nd'. destruct (Nat.eq_dec d N) as [->|]; [rewrite VN; exact (proj1 T)|]. rewrite VL by lia. apply V2; [lia|exact Nd'].
      * intros d args' Hd Nd' Cd. rewrite (VA d args') by (lia || exact Cd). destruct (Nat.eq_dec d N) as [->|].
        -- assert (args' = args) as -> by (destruct Ca as (s1 & i1 & Z1), Cd as (s2 & i2 & Z2); congruence).
           exists L. split; [exact PL|]. rewrite VN. exact T.
        -- rewrite VL by lia. apply V3; [lia|exact Nd'|exact Cd].
    + exists V. split; [exact V1|].
      assert (Z : needed ps outs N -> forall args, ~ call ps N args) by (intros Nd args Ca; apply HI, (mf_call _ _ _ _ MF N Nd); eauto).
      split.
      * intros d Hd Nd. destruct (Nat.eq_dec d N) as [->|]; [|apply V2; [lia|exact Nd]]. destruct (K N Nd) as [(args & Ca)|HN]; [destruct (Z Nd args Ca)|].
        apply In_nth_error in HN. destruct HN as (k & Hk). destruct (Forall2_nth_error _ _ _ V1 k N Hk) as (t & Ht & ->).
        destruct (Forall2_nth_error _ _ _ SI k N Hk) as (t' & Ht' & T). assert (t' = t) as -> by congruence. exact (proj1 T).
      * intros d args Hd Nd Ca. destruct (Nat.eq_dec d N) as [->|]; [destruct (Z Nd args Ca)|]. apply V3; [lia|exact Nd|exact Ca].
Qed.

Theorem float_evaluation_exists : (forall d, needed ps outs d -> (d < length ps)%nat) -> exists V, float_evaluation lib ps ins outs tins E (produces m infos b) V.
Proof.
  intros HN. destruct (float_evaluation_upto (length ps)) as (V & V1 & V2 & V3). exists V. split; [exact V1|]. intros d args Nd Ca. apply V3; auto.
Qed.
End Total.

(** ** A library's exp and log *)
Definition exp_lib (a r : flt) : Prop :=
  match a with
  | Fin x => if Rle_dec x (- (104)) then r = Fin 0 else rnd (exp x) r
  | Inf true => r = Fin 0
  | Inf false => r = Inf false
  | NaN => r = NaN
  end.
Lemma exp_lib_total a : exists r, exp_lib a r.
Proof. destruct a as [x|[]|]; cbn; try (eexists; reflexivity). destruct (Rle_dec x (- (104))); [eauto|apply rnd_ex]. Qed.
Lemma exp_lib_ok : exp_ok exp_lib.
Proof.
  intros a r L. destruct a as [x|[]|]; cbn in L; [|exists 0; split; [exact L|]; split; [exact isf_0|lra]|left; exact L|exact Logic.I].
  destruct (Rle_dec x (- (104))) as [C|C]; [left; exists 0; split; [exact L|]; split; [exact isf_0|]; split; [lra|]; split; intros; lra|].
  pose proof (exp_pos x) as EP. destruct r as [y|s|]; [| |destruct L].
  - left. exists y. split; [reflexivity|]. split; [exact (rounds_isf _ _ L)|]. split; [apply (rounds_ge _ _ _ L isf_0); lra|].
    assert (E1 : x <= 0 -> exp x <= 1) by (intros [H| ->]; [left; rewrite <- exp_0; apply exp_increasing, H|rewrite exp_0; lra]).
    assert (E2 : 0 <= x -> 1 <= exp x) by (intros [H|<-]; [left; rewrite <- exp_0; apply exp_increasing, H|rewrite exp_0; lra]).
    split; intros H; [specialize (E1 H)|specialize (E2 H)]; [pose proof (rounds_le _ _ _ L isf_1 E1); lra|pose proof (rounds_ge _ _ _ L isf_1 E2); lra].
  - right. destruct L as (L1 & L2). destruct s; [lra|]. split; [|reflexivity]. destruct (Rlt_dec 0 x) as [H|H]; [exact H|]. exfalso.
    assert (exp x <= 1) by (apply Rnot_lt_le in H; destruct H as [H| ->]; [left; rewrite <- exp_0; apply exp_increasing, H|rewrite exp_0; lra]).
    rewrite Rabs_right in L1 by lra. pose proof top_big. assert (1 <= 2 ^ 127) by (apply pow_R1_Rle; lra). lra.
Qed.
Lemma exp_lib_underflows : exp_underflows exp_lib.
Proof. split; [|intros r H; exact H]. intros x r L H. cbn in H. destruct (Rle_dec x (- (104))); [exact H|contradiction]. Qed.
Lemma exp_lib_near : exp_near eps32 tiny32 exp_lib.
Proof.
  intros x r X L. cbn in L. pose proof (Rle_abs (- x)) as A1. rewrite Rabs_Ropp in A1. pose proof (Rle_abs x) as A2. destruct (Rle_dec x (- (104))) as [C|C]; [lra|].
  assert (E : exp x <= exp 65) by (destruct (Req_dec x 65) as [->|NE]; [lra|left; apply exp_increasing; lra]). pose proof exp_65 as E65. pose proof (exp_pos x). pose proof (exp_pos 65).
  destruct (rnd_fin (exp x) r) as (y & -> & _ & N); [rewrite Rabs_right by lra; lra|exact L|]. eauto.
Qed.

Definition log_lib (a r : flt) : Prop :=
  match a with
  | Fin x => if Req_EM_T x 0 then r = Inf true else if Rle_dec x 0 then r = NaN else rnd (ln x) r
  | Inf false => r = Inf false
  | _ => r = NaN
  end.
Lemma log_lib_total a : exists r, log_lib a r.
Proof. destruct a as [x|[]|]; cbn; try (eexists; reflexivity). destruct (Req_EM_T x 0); [eauto|]. destruct (Rle_dec x 0); [eauto|apply rnd_ex]. Qed.
Lemma exp_nat n x : exp (x * INR n) = exp x ^ n.
Proof. induction n as [|n IH]; [cbn; rewrite Rmult_0_r; exact exp_0|]. rewrite S_INR, Rmult_plus_distr_l, Rmult_1_r, exp_plus, IH. cbn [pow]. ring. Qed.
Lemma e_27 : 27 / 10 <= exp 1.
Proof.
  replace (exp 1) with (exp (/ 128) ^ 128) by (rewrite <- exp_nat; f_equal; rewrite INR_IZR_INZ; change (IZR (Z.of_nat 128)) with 128; field).
  apply Rle_trans with ((129 / 128) ^ 128).
  - unfold Rdiv. rewrite Rpow_mult_distr, pow_inv. apply (Rmult_le_reg_r (128 ^ 128 * 10)); [apply Rmult_lt_0_compat; [apply pow_lt|]; lra|].
    assert (P : 0 < 128 ^ 128) by (apply pow_lt; lra). replace (27 * / 10 * (128 ^ 128 * 10)) with (27 * 128 ^ 128) by (field; lra).
    replace (129 ^ 128 * / 128 ^ 128 * (128 ^ 128 * 10)) with (129 ^ 128 * 10) by (field; lra). rewrite !pow_IZR, <- !mult_IZR. apply IZR_le. vm_compute. discriminate.
  - apply pow_incr. split; [lra|]. replace (129 / 128) with (1 + / 128) by field. left. apply exp_ineq1. lra.
Qed.
Lemma ln_low x : / 2 ^ 149 <= x -> - (104) <= ln x.
Proof.
  intros L. assert (P : 0 < 2 ^ 149) by (apply pow_lt; lra). assert (IP : 0 < / 2 ^ 149) by (apply Rinv_0_lt_compat, P).
  assert (E : exp (- (104)) <= x).
  { eapply Rle_trans; [|exact L]. rewrite exp_Ropp. apply Rinv_le_contravar; [exact P|]. replace 104 with (1 * INR 104) by (rewrite INR_IZR_INZ; change (IZR (Z.of_nat 104)) with 104; ring).
    rewrite exp_nat. apply Rle_trans with ((27 / 10) ^ 104); [|apply pow_incr; split; [lra|exact e_27]].
    unfold Rdiv. rewrite Rpow_mult_distr, pow_inv. assert (P10 : 0 < 10 ^ 104) by (apply pow_lt; lra). apply (Rmult_le_reg_r (10 ^ 104)); [exact P10|].
    rewrite Rmult_assoc, Rinv_l, Rmult_1_r by lra. rewrite !pow_IZR, <- !mult_IZR. apply IZR_le. vm_compute. discriminate. }
  rewrite <- (ln_exp (- (104))). destruct E as [E| <-]; [left; apply ln_increasing; [apply exp_pos|exact E]|lra].
Qed.
Lemma log_lib_ok : log_ok log_lib.
Proof.
  intros x r L. cbn in L. destruct (Req_EM_T x 0) as [E|NE]; [split; [intros; lra|intros _; exact L]|]. split; [|intros; contradiction]. intros Fx X. destruct (Rle_dec x 0); [lra|].
  assert (XL : / 2 ^ 149 <= x).
  { destruct Fx as (z & _ & ->). assert (P : 0 < / 2 ^ 149) by (apply Rinv_0_lt_compat, pow_lt; lra). assert (Z0 : (0 < z)%Z) by (apply lt_IZR; unfold Rdiv in X; nra). assert (H : (1 <= z)%Z) by lia.
    apply IZR_le in H. unfold Rdiv. nra. }
  pose proof (ln_low x XL) as LL. assert (LU : ln x <= 0) by (destruct (Req_dec x 1) as [->|N1]; [rewrite ln_1; lra|left; rewrite <- ln_1; apply ln_increasing; lra]).
  assert (I104 : isf (- (104))) by (apply isf_opp; apply (isf_int 104); lia).
  destruct (rnd_fin (ln x) r) as (y & -> & Ry & _); [rewrite Rabs_left1 by lra; pose proof top_big; assert (2 ^ 7 <= 2 ^ 127) by (apply Rle_pow; [lra|lia]); lra|exact L|].
  exists y. split; [reflexivity|]. split; [apply (rounds_ge _ _ _ Ry I104 LL)|apply (rounds_le _ _ _ Ry isf_0 LU)].
Qed.
