(** The last layer's training step. *)
From Coq Require Import Reals Lra Lia ZArith Permutation List Bool.
From Verif Require Import Base BaseFacts Sums S_Float M_Im2col S_Im2col M_Kernels M_Conv M_Layers M_Optim M_Loss S_Grad S_Loss M_Round S_Round P_Kernels P_Float P_Round P_Round2 P_Round5 P_Loss P_Vjp2 P_Optim M_Ieee S_Ieee P_Ieee P_Ieee2 P_Ieee3 P_Ieee4 P_Ieee5 P_Ieee7.
Import ListNotations.
Open Scope R_scope.

(** The elements an expression reads. *)
Fixpoint reads (e : ex) (a i : nat) : Prop :=
  match e with
  | EVar b j => a = b /\ i = j
  | EConst _ | EInt _ => False
  | EAdd x y | ESub x y | EMul x y | EDiv x y => reads x a i \/ reads y a i
  | EExp x | ESqrt x => reads x a i
  | EIf x y z w => reads x a i \/ reads y a i \/ reads z a i \/ reads w a i
  | ESum n f | EMax n f => exists k, (k < n)%nat /\ reads (f k) a i
  end.
Lemma fev_reads lib v w e : forall r, (forall a i, reads e a i -> v a i = w a i) -> fev lib v e r -> fev lib w e r.
Proof.
  induction e; cbn [fev reads]; intros res E F.
  - rewrite <- E by (split; reflexivity). exact F.
  - exact F.
  - exact F.
  - destruct F as (x & y & A & B & C). exists x, y. split; [auto|]. split; auto.
  - destruct F as (x & y & A & B & C). exists x, y. split; [auto|]. split; auto.
  - destruct F as (x & y & A & B & C). exists x, y. split; [auto|]. split; auto.
  - destruct F as (x & y & A & B & C). exists x, y. split; [auto|]. split; auto.
  - destruct F as (x & A & B). exists x. split; auto.
  - destruct F as (x & A & B). exists x. split; auto.
  - destruct F as (x & y & A & B & C). exists x, y. split; [auto|]. split; [auto|]. destruct (flt_ltb x y); [apply IHe3|apply IHe4]; auto.
  - destruct F as (xs & A & B). exists xs. split; [|exact B]. intros k Hk. apply H; [|auto]. intros a i Rd. apply E. exists k. auto.
  - destruct F as (xs & A & B). exists xs. split; [|exact B]. intros k Hk. apply H; [|auto]. intros a i Rd. apply E. exists k. auto.
Qed.

Definition val (f : flt) : R := match f with Fin x => x | _ => 0 end.

Section Step.
Variable lib : flt -> flt -> Prop.
Hypothesis EO : exp_ok lib.
Variables rows K m : nat.
Variable label : nat -> nat.
Variable lr : R.
Variable z : nat -> R.
Variables prob input w b gin w' b' : nat -> flt.
Hypothesis R0 : (0 < rows)%nat.
Hypothesis RL : (rows <= 2 ^ 23)%nat.
Hypothesis LM : (m <= 2 ^ 23)%nat.
Hypothesis LAB : forall i, (i < rows)%nat -> (label i < m)%nat.
Hypothesis SM : fsoftmax lib (among [fun p => Fin (z p)]) rows m prob.
Hypothesis ST : last_step lib rows K m label lr prob input w b gin w' b'.

Definition zv (a i : nat) : R := match a with 0%nat => z i | _ => 0 end.
Lemma among_zv a i : among [fun p => Fin (z p)] a i = Fin (zv a i).
Proof. unfold among, zv. destruct a as [|a]; [reflexivity|]. destruct a; reflexivity. Qed.
Lemma SM' : fsoftmax lib (fun a i => Fin (zv a i)) rows m prob.
Proof.
  destruct SM as (es & ES & D). exists es. split; [|exact D]. intros q Hq. apply (fev_reads lib (among [fun p => Fin (z p)])); [|apply ES, Hq]. intros a i _. apply among_zv.
Qed.
Lemma row_at i j : (i < rows)%nat -> (j < m)%nat -> (i * m + j < rows * m)%nat. Proof. intros. nia. Qed.
Lemma div_at i j : (j < m)%nat -> ((i * m + j) / m = i)%nat. Proof. intros. rewrite Nat.div_add_l by lia. rewrite Nat.div_small by assumption. lia. Qed.
Lemma mod_at i j : (j < m)%nat -> ((i * m + j) mod m = j)%nat. Proof. intros. rewrite Nat.add_comm, Nat.mod_add by lia. apply Nat.mod_small. assumption. Qed.

Lemma destroyed lg loss i k : exp_underflows lib -> log_ok lg -> (i < rows)%nat -> (k < m)%nat -> z (i * m + label i)%nat <= z (i * m + k)%nat - 104 ->
  floss lg rows m prob label loss ->
  prob (i * m + label i)%nat = Fin 0 /\ loss = Inf false /\ (forall j, (j < m)%nat -> gin (i * m + j)%nat = NaN) /\ (forall p, (p < m * K)%nat -> w' p = NaN) /\ (forall p, (p < m)%nat -> b' p = NaN).
Proof.
  intros EU LO Hi Hk GAP FL. pose proof (LAB i Hi) as Hl. pose proof (row_at i (label i) Hi Hl) as Hq.
  assert (P0 : prob (i * m + label i)%nat = Fin 0).
  { apply (softmax_zero lib EO zv rows m prob (i * m + label i)%nat k EU SM' Hq Hk). rewrite div_at by exact Hl. exact GAP. }
  split; [exact P0|]. split.
  { apply (loss_infinite lg LO rows m prob label loss i RL Hi P0); [|exact FL]. intros j Hj. apply (softmax_unit lib EO zv rows m prob _ SM'). apply row_at; [exact Hj|apply LAB, Hj]. }
  destruct ST as (gout & dW & db & S1 & S2 & S3 & S4 & S5 & S6).
  assert (GI : exists s, gout (i * m + label i)%nat = Inf s).
  { apply (loss_grad_zero lib label rows m R0 RL (among [prob]) (i * m + label i)%nat); [rewrite mod_at, div_at by exact Hl; reflexivity|exact P0|apply S1, Hq]. }
  destruct GI as (s & GI).
  assert (NA : forall j, (j < m)%nat -> gin (i * m + j)%nat = NaN).
  { intros j Hj. apply (softmax_grad_nan lib m (among [prob; gout]) (i * m + j)%nat _ (label i) s); [lia|exact Hl| | |apply S2, row_at; assumption]; rewrite div_at by exact Hj; [exact P0|exact GI]. }
  split; [exact NA|]. split.
  - intros p Hp. apply (sgd_nan lib lr (among [w; dW]) p); [|apply S5, Hp]. cbn. assert (K0 : (0 < K)%nat) by (destruct K; [rewrite Nat.mul_0_r in Hp; lia|lia]).
    apply (linear_grad_nan lib rows m K (among [input; gin]) p _ i Hi); [|apply S3, Hp]. apply NA. apply Nat.div_lt_upper_bound; nia.
  - intros p Hp. apply (sgd_nan lib lr (among [b; db]) p); [|apply S6, Hp]. cbn. destruct (S4 p Hp) as (xs & XS & SU). apply (fsummed_nan rows xs (db p) i Hi); [|exact SU]. rewrite (XS i Hi). exact (NA p Hp).
Qed.

Section Tame.
Variables (u eta : R) (xr wr br : nat -> R) (B Wb : R).
Hypothesis EN : exp_near u eta lib.
Hypothesis Hu : u <= / 2.
Hypothesis He : 0 <= eta <= / 2 ^ 149.
Hypothesis GAP : forall i k, (i < rows)%nat -> (k < m)%nat -> z (i * m + k)%nat - 60 <= z (i * m + label i)%nat.

Lemma label_prob i : (i < rows)%nat -> exists y, prob (i * m + label i)%nat = Fin y /\ isf y /\ / 2 ^ 124 <= y <= 1.
Proof.
  intros Hi. pose proof (LAB i Hi) as Hl. pose proof (row_at i (label i) Hi Hl) as Hq.
  destruct (softmax_unit lib EO zv rows m prob _ SM' Hq) as (y & E & Fy & Y).
  destruct (softmax_low lib EO zv rows m prob (i * m + label i)%nat u eta EN Hu He SM' Hq LM) as (y' & E' & L).
  { intros k Hk. rewrite div_at by exact Hl. exact (GAP i k Hi Hk). }
  rewrite E in E'. injection E' as <-. exists y. split; [exact E|]. split; [exact Fy|lra].
Qed.

Lemma input_gradient p : (p < rows * m)%nat -> exists g, gin p = Fin g /\ isf g /\ Rabs g <= 16.
Proof.
  intros Hp. assert (M0 : (0 < m)%nat) by (destruct m; [rewrite Nat.mul_0_r in Hp; lia|lia]).
  set (i := (p / m)%nat). assert (Hi : (i < rows)%nat) by (apply Nat.div_lt_upper_bound; nia). pose proof (LAB i Hi) as Hl.
  destruct ST as (gout & dW & db & S1 & S2 & _). destruct (label_prob i Hi) as (y & EY & FY & Y).
  assert (PR : forall k, (k < m)%nat -> exists y, prob (i * m + k)%nat = Fin y /\ 0 <= y <= 1).
  { intros k Hk. destruct (softmax_unit lib EO zv rows m prob _ SM' (row_at i k Hi Hk)) as (t & E & _ & T). eauto. }
  assert (GO : forall k, (k < m)%nat -> k <> label i -> gout (i * m + k)%nat = Fin 0).
  { intros k Hk NE. apply (loss_grad_other lib label rows m R0 RL (among [prob]) (i * m + k)%nat); [rewrite mod_at, div_at by exact Hk; exact NE|apply S1, row_at; assumption]. }
  destruct (loss_grad_label lib label rows m R0 RL (among [prob]) (i * m + label i)%nat (gout (i * m + label i)%nat) y) as (g & EG & G1 & G2);
    [rewrite mod_at, div_at by exact Hl; reflexivity|exact EY|exact Y|apply S1, row_at; assumption|].
  apply (softmax_grad_bounded lib m (fun q => val (prob q)) (fun q => val (gout q)) p (gin p) (label i) Hl LM); fold i.
  - intros k Hk. destruct (PR k Hk) as (t & -> & T). exact T.
  - intros k Hk NE. rewrite (GO k Hk NE). reflexivity.
  - rewrite EG. exact G1.
  - rewrite EG, EY. exact G2.
  - assert (PF : forall k, (k < m)%nat -> prob (i * m + k)%nat = Fin (val (prob (i * m + k)%nat))) by (intros k Hk; destruct (PR k Hk) as (t & -> & _); reflexivity).
    assert (GF : forall k, (k < m)%nat -> gout (i * m + k)%nat = Fin (val (gout (i * m + k)%nat))).
    { intros k Hk. destruct (Nat.eq_dec k (label i)) as [->|NE]; [rewrite EG; reflexivity|rewrite (GO k Hk NE); reflexivity]. }
    assert (Q : (p mod m < m)%nat) by (apply Nat.mod_upper_bound; lia).
    assert (Ep : p = (i * m + p mod m)%nat) by (unfold i; rewrite (Nat.mul_comm (p / m)); apply Nat.div_mod; lia).
    apply (fev_reads lib (among [prob; gout])); [|apply S2, Hp]. unfold softmax_grad_ex. fold i. cbn [reads].
    intros a j [(-> & ->)|[(-> & ->)|[(-> & ->)|(k & Hk & [(-> & ->)|(-> & ->)])]]]; unfold among; cbn [nth].
    + reflexivity.
    + rewrite Ep. apply PF, Q.
    + rewrite Ep. apply GF, Q.
    + apply GF, Hk.
    + apply PF, Hk.
Qed.

Hypothesis IN : forall p, (p < rows * K)%nat -> input p = Fin (xr p) /\ Rabs (xr p) <= B.
Hypothesis WE : forall p, (p < m * K)%nat -> w p = Fin (wr p) /\ Rabs (wr p) <= Wb.
Hypothesis BI : forall p, (p < m)%nat -> b p = Fin (br p) /\ Rabs (br p) <= Wb.
Hypothesis B1 : 1 <= B.
Let D := sum_grown rows (INR rows * S_Ieee.grown (16 * B)).
Hypothesis T1 : 16 * B <= top.
Hypothesis T2 : D <= top.
Hypothesis T3 : Rabs lr * D <= top.
Hypothesis T4 : Wb + S_Ieee.grown (Rabs lr * D) <= top.

Lemma step_finite :
  (forall p, (p < m * K)%nat -> exists x, w' p = Fin x /\ Rabs x <= S_Ieee.grown (Wb + S_Ieee.grown (Rabs lr * D))) /\
  (forall p, (p < m)%nat -> exists x, b' p = Fin x /\ Rabs x <= S_Ieee.grown (Wb + S_Ieee.grown (Rabs lr * D))).
Proof.
  destruct ST as (gout & dW & db & S1 & S2 & S3 & S4 & S5 & S6).
  assert (GF : forall p, (p < rows * m)%nat -> gin p = Fin (val (gin p)) /\ Rabs (val (gin p)) <= 16).
  { intros p Hp. destruct (input_gradient p Hp) as (g & -> & _ & G). split; [reflexivity|exact G]. }
  split.
  - intros p Hp. assert (K0 : (0 < K)%nat) by (destruct K; [rewrite Nat.mul_0_r in Hp; lia|lia]).
    assert (PK : (p / K < m)%nat) by (apply Nat.div_lt_upper_bound; nia). assert (QK : (p mod K < K)%nat) by (apply Nat.mod_upper_bound; lia).
    destruct (linear_grad_bounded lib rows m K xr (fun q => val (gin q)) p (dW p) B) as (d & ED & DB).
    + intros i Hi. apply IN. nia.
    + intros i Hi. apply GF, row_at; assumption.
    + exact T1.
    + exact T2.
    + apply (fev_reads lib (among [input; gin])); [|apply S3, Hp]. unfold linear_grad_ex. cbn [reads].
      intros a j (k & Hk & [(-> & ->)|(-> & ->)]); unfold among; cbn [nth]; [apply GF, row_at; assumption|apply IN; nia].
    + destruct (WE p Hp) as (EW & WB). apply (sgd_bounded lib lr wr (fun q => val (dW q)) p (w' p) Wb D WB); [rewrite ED; exact DB|exact T3|exact T4|].
      apply (fev_reads lib (among [w; dW])); [|apply S5, Hp]. unfold sgd_ex. cbn [reads]. intros a j [(-> & ->)|[[]|(-> & ->)]]; unfold among; cbn [nth]; [exact EW|rewrite ED; reflexivity].
  - intros p Hp.
    assert (DB : exists d, db p = Fin d /\ Rabs d <= D).
    { assert (T : tame lib False eps32 tiny32 (fun _ q => val (gin q)) (bias_grad_ex rows m p) (fun d => Rabs d <= D)).
      { assert (G16 : 16 <= S_Ieee.grown (16 * B)) by (apply Rle_trans with (16 * B); [lra|apply grown_ge; lra]).
        assert (SL : sum_grown rows (INR rows * 16) <= D) by (apply sum_grown_mono, Rmult_le_compat_l; [apply pos_INR|exact G16]).
        unfold bias_grad_ex. apply (tame_sum lib False eps32 tiny32 (Rle_refl _) (Rle_refl _) _ rows _ (fun _ d => Rabs d <= 16) (fun _ => 16)).
        - intros k Hk. apply tame_var. apply GF, row_at; assumption.
        - intros k d _ X. exact X.
        - rewrite rsum_const. lra.
        - intros xs s _ _ _ L. rewrite rsum_const in L. lra. }
      destruct (T (db p)) as (d & E & X & _); [|eauto]. apply (fev_reads lib (among [input; gin])); [|apply S4, Hp]. unfold bias_grad_ex. cbn [reads].
      intros a j (k & Hk & -> & ->). unfold among. cbn [nth]. apply GF, row_at; assumption. }
    destruct DB as (d & ED & DB). destruct (BI p Hp) as (EW & WB). apply (sgd_bounded lib lr br (fun q => val (db q)) p (b' p) Wb D WB); [rewrite ED; exact DB|exact T3|exact T4|].
    apply (fev_reads lib (among [b; db])); [|apply S6, Hp]. unfold sgd_ex. cbn [reads]. intros a j [(-> & ->)|[[]|(-> & ->)]]; unfold among; cbn [nth]; [exact EW|rewrite ED; reflexivity].
Qed.
End Tame.
End Step.

(** ** The expressions are the kernels *)
Lemma loss_is E st n m pred target c : (0 < n)%nat -> ce_ok st -> ten_ok [n; m] pred -> labels n m target c ->
  (forall i, (i < n)%nat -> 0 < (tdat pred).[i * m + c i]) ->
  exists st', ce_forward E st pred target = Ok (st', Some (ev (arrays [tab n (fun i => ln (tdat pred).[i * m + c i])]) (loss_ex n))).
Proof.
  intros N0 CO HP HL POS. destruct (ce_forward_spec E st n m pred target c N0 CO HP HL POS) as (st' & F & _). exists st'. rewrite F. do 3 f_equal. cbn [ev loss_ex arrays nth].
  unfold Rminus. rewrite Rplus_0_l. do 2 f_equal. apply rsum_ext. intros i Hi. rewrite nth_tab by exact Hi. reflexivity.
Qed.
Lemma loss_grad_is n m pred target go c : (0 < n)%nat -> ten_ok [n; m] pred -> labels n m target c -> ten_ok [n; m] go ->
  (forall i, (i < n)%nat -> 0 < (tdat pred).[i * m + c i]) ->
  exists g, ce_backward pred target go = Ok (map Some g) /\ length g = (n * m)%nat /\ forall p, (p < n * m)%nat -> g.[p] = ev (arrays [tdat pred]) (loss_grad_ex n m c p).
Proof.
  intros N0 HP HL HG POS. destruct (ce_backward_spec n m pred target go c N0 HP HL HG POS) as (g & E & L & V). exists g. split; [exact E|]. split; [exact L|].
  intros p Hp. assert (M0 : (0 < m)%nat) by (destruct m; [rewrite Nat.mul_0_r in Hp; lia|lia]).
  assert (Hi : (p / m < n)%nat) by (apply Nat.div_lt_upper_bound; nia). assert (Q : (p mod m < m)%nat) by (apply Nat.mod_upper_bound; lia).
  assert (Ep : p = (p / m * m + p mod m)%nat) by (rewrite (Nat.mul_comm (p / m)); apply Nat.div_mod; lia).
  rewrite Ep at 1. rewrite (V _ _ Hi Q). unfold loss_grad_ex. cbn [ev]. rewrite <- Ep. destruct (p mod m =? c (p / m))%nat; cbn [ev arrays nth]; [reflexivity|unfold Rdiv; ring].
Qed.
Lemma softmax_grad_is n m out go gi : length out = (n * m)%nat -> length go = (n * m)%nat -> length gi = (n * m)%nat ->
  softmax_input_grad n m out n m go n m gi = Ok (tab (n * m) (fun p => ev (arrays [out; go; gi]) (softmax_grad_ex m p))).
Proof.
  intros L1 L2 L3. unfold softmax_input_grad. rewrite !emap_Ok by lia. rewrite !same_refl. cbn [bind]. rewrite put2_full by exact L3. f_equal. apply ftab_ext. intros p Hp.
  assert (M0 : (0 < m)%nat) by (destruct m; [rewrite Nat.mul_0_r in Hp; lia|lia]). unfold el.
  assert (Ep : p = (p / m * m + p mod m)%nat) by (rewrite (Nat.mul_comm (p / m)); apply Nat.div_mod; lia). rewrite <- Ep. reflexivity.
Qed.
Lemma linear_grad_is n K m x go dW : length x = (n * K)%nat -> length go = (n * m)%nat -> length dW = (m * K)%nat ->
  linear_weight_grad n K x n m go m K dW = Ok (tab (m * K) (fun p => ev (arrays [x; go]) (linear_grad_ex n K m p))).
Proof.
  intros L1 L2 L3. unfold linear_weight_grad. rewrite !emap_Ok by lia. rewrite !same_refl. cbn [bind]. rewrite put2_full by exact L3. reflexivity.
Qed.
Lemma bias_grad_is n m x go db : length go = (n * m)%nat -> length db = m ->
  linear_bias_grad n m go m db = Ok (tab m (fun p => ev (arrays [x; go]) (bias_grad_ex n m p))).
Proof.
  intros L2 L3. unfold linear_bias_grad. rewrite !emap_Ok by lia. rewrite !same_refl. cbn [bind]. rewrite put_full by exact L3. reflexivity.
Qed.
Lemma sgd_is lr k p s : p_train p = true -> prm_ok (tsh (p_data p)) p ->
  sgd_one lr k p s = Ok (set_weight p (tab (tot (p_data p)) (fun i => ev (arrays [tdat (p_data p); tdat (p_grad p)]) (sgd_ex lr i))), tt).
Proof.
  intros T Hp. unfold sgd_one. rewrite T. rewrite (proj1 (proj2 (proj2 Hp))), nshape_refl. cbn [dw_assert bind]. pose proof (prm_tot p Hp) as HT. rewrite !emap_Ok by (unfold tot in *; lia).
  cbn [bind]. rewrite HT. rewrite put_full by reflexivity. reflexivity.
Qed.
