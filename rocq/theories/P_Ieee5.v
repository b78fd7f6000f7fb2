(** Every layer keeps within its bounds: the tensors. *)
From Coq Require Import Reals Lra Lia ZArith Permutation List Bool.
From Verif Require Import Base BaseFacts Sums S_Float M_Im2col S_Im2col M_Kernels M_Conv M_Layers M_Optim M_Nn M_Graph M_Model M_Backend S_Grad S_Fit S_Graph S_Run M_Round S_Round P_Kernels P_Float P_Round P_Round2 P_Round5 M_Ieee S_Ieee P_Ieee P_Ieee2 P_Ieee3 P_Ieee4.
Import ListNotations.
Open Scope R_scope.

Lemma one_top : 1 <= top.
Proof. pose proof top_big. assert (1 <= 2 ^ 127) by (apply pow_R1_Rle; lra). lra. Qed.

Lemma exp_65 : 2 * exp 65 + 3 <= top.
Proof.
  assert (E : exp 65 <= 3 ^ 65).
  { replace (exp 65) with (exp 1 ^ 65). - apply pow_incr. split; [left; apply exp_pos|exact exp_le_3].
    - rewrite <- exp_ln with (x := exp 1 ^ 65) by (apply pow_lt, exp_pos). f_equal. rewrite ln_pow by apply exp_pos. rewrite ln_exp. cbn [INR]. ring. }
  pose proof top_big. assert (2 * 3 ^ 65 + 3 <= 2 ^ 127).
  { rewrite pow2_IZR. replace (3 ^ 65) with (IZR (3 ^ 65)) by (rewrite pow_IZR; reflexivity). rewrite <- mult_IZR, <- plus_IZR. apply IZR_le. vm_compute. discriminate. }
  lra.
Qed.

Lemma small_grown a : 0 <= a -> a <= 64 -> grown a <= 65.
Proof.
  intros A B. unfold grown. assert (eps32 <= / 128).
  { unfold eps32. apply Rinv_le_contravar; [lra|]. replace 128 with (2 ^ 7) by ring. apply Rle_pow; [lra|lia]. }
  assert (tiny32 <= / 128). { unfold tiny32. apply Rinv_le_contravar; [lra|]. replace 128 with (2 ^ 7) by ring. apply Rle_pow; [lra|lia]. }
  pose proof eps32_pos. assert (eps32 * a <= / 128 * 64) by (apply Rmult_le_compat; lra). lra.
Qed.

Section Layers.
Variable lib : flt -> flt -> Prop.
Hypothesis EO : exp_ok lib.
Variable lk : Prop.
Variables u eta : R.
Hypothesis Hu : eps32 <= u.
Hypothesis Heta : tiny32 <= eta.
Hypothesis LK : lk -> exp_near u eta lib /\ u <= 1 /\ eta <= 1.
Variable v : nat -> nat -> R.
Notation tame := (tame lib lk u eta v).
Notation fv := (fun a i => Fin (v a i)).

Lemma tame_relu p B : Rabs (v 0%nat p) <= B -> tame (relu_ex p) (fun x => Rabs x <= B).
Proof.
  intros V. unfold relu_ex. apply (tame_if lib lk u eta v _ _ _ _ (fun _ => True) (fun _ => True)); [apply tame_const; auto|apply tame_var; auto|].
  intros x y _ _. destruct (ltb x y); [apply tame_var, V|]. apply tame_const. rewrite Rabs_R0. pose proof (Rabs_pos (v 0%nat p)). lra.
Qed.

Lemma tame_leaky a p B0 B : Rabs (v 0%nat p) <= B0 -> B0 <= B -> grown (B0 * Rabs a) <= B -> B <= top -> tame (leaky_ex a p) (fun x => Rabs x <= B).
Proof.
  intros V L G T. pose proof (Rabs_pos (v 0%nat p)) as V0. pose proof (Rabs_pos a) as A0. unfold leaky_ex.
  apply (tame_if lib lk u eta v _ _ _ _ (fun _ => True) (fun _ => True)); [apply tame_var; auto|apply tame_const; auto|].
  intros x y _ _. destruct (ltb x y); [|apply tame_var; lra].
  apply (tame_mul lib lk u eta Hu Heta v _ _ (fun x => Rabs x <= B0) (fun y => y = a)); [apply tame_var, V|apply tame_const; reflexivity|].
  intros s t S ->. assert (M : Rabs (s * a) <= B0 * Rabs a) by (rewrite Rabs_mult; apply Rmult_le_compat_r; lra).
  assert (B0 * Rabs a <= grown (B0 * Rabs a)) by (apply grown_ge, Rmult_le_pos; lra).
  split; [lra|]. intros z R0. eapply Rle_trans; [|exact G]. apply (roundish_grown (s * a)); [lra|exact R0|exact M].
Qed.

Lemma tame_elu a p B0 B : Rabs (v 0%nat p) <= B0 -> B0 <= B -> grown (Rabs a) <= B -> B <= top -> (lk -> B0 <= 32) -> tame (elu_ex a p) (fun x => Rabs x <= B).
Proof.
  intros V L G T K. pose proof (Rabs_pos (v 0%nat p)) as V0. pose proof (Rabs_pos a) as A0. unfold elu_ex.
  apply (tame_if lib lk u eta v _ _ _ _ (fun x => x = v 0%nat p) (fun y => y = 0)); [apply tame_var; auto|apply tame_const; auto|].
  intros x y -> ->. destruct (ltb (v 0%nat p) 0) eqn:LT; [apply ltb_true in LT|apply tame_var; lra].
  apply (tame_mul lib lk u eta Hu Heta v _ _ (fun x => Rabs x <= 1) (fun y => y = a)); [|apply tame_const; reflexivity|].
  - apply (tame_sub lib lk u eta Hu Heta v _ _ (fun x => 0 <= x <= 2) (fun y => y = 1)); [|apply tame_const; reflexivity|].
    + apply (tame_exp lib lk u eta v _ (fun x => x = v 0%nat p)); [apply tame_var; reflexivity|].
      intros x r -> LB. destruct (EO _ _ LB) as [(y & -> & Fy & Y0 & Y2 & _)|(C & _)]; [|lra]. exists y. split; [reflexivity|]. split; [split; [exact Y0|apply Y2; lra]|].
      intros k. destruct (LK k) as (NE & _). destruct (NE (v 0%nat p) (Fin y)) as (y' & E & N); [specialize (K k); lra|exact LB|]. injection E as <-. exact N.
    + intros x y X ->. pose proof one_top. split; [apply Rabs_le; lra|]. intros z R0. apply Rabs_le. split; [apply (rounds_ge _ _ (-1) R0); [replace (-1) with (- (1)) by ring; apply isf_opp, isf_1|lra]|apply (rounds_le _ _ 1 R0 isf_1); lra].
  - intros s t S ->. assert (M : Rabs (s * a) <= Rabs a) by (rewrite Rabs_mult; rewrite <- (Rmult_1_l (Rabs a)) at 2; apply Rmult_le_compat_r; lra).
    assert (Rabs a <= grown (Rabs a)) by (apply grown_ge; lra).
    split; [lra|]. intros z R0. eapply Rle_trans; [|exact G]. apply (roundish_grown (s * a)); [lra|exact R0|exact M].
Qed.

Lemma tame_plus p B0 B1 B : Rabs (v 0%nat p) <= B0 -> Rabs (v 1%nat p) <= B1 -> grown (B0 + B1) <= B -> B <= top -> tame (EAdd (EVar 0 p) (EVar 1 p)) (fun x => Rabs x <= B).
Proof.
  intros V W G T. pose proof (Rabs_pos (v 0%nat p)). pose proof (Rabs_pos (v 1%nat p)).
  apply (tame_add lib lk u eta Hu Heta v _ _ (fun x => Rabs x <= B0) (fun x => Rabs x <= B1)); [apply tame_var, V|apply tame_var, W|].
  intros x y X Y. assert (M : Rabs (x + y) <= B0 + B1) by (eapply Rle_trans; [apply Rabs_triang|lra]).
  assert (B0 + B1 <= grown (B0 + B1)) by (apply grown_ge; lra). split; [lra|]. intros z R0. eapply Rle_trans; [|exact G]. apply (rounds_grown (x + y)); [lra|exact R0|exact M].
Qed.

Lemma affine_ge K A c : 0 <= A -> 0 <= c -> A <= affine_grown K A c.
Proof.
  intros A0 C0. unfold affine_grown. pose proof (pow1_ge eps32 (K + 1) (Rlt_le _ _ eps32_pos)) as PW. pose proof (pos_INR (2 * K + 1)). pose proof tiny32_pos.
  assert (0 <= INR (2 * K + 1) * (1 + eps32) ^ (K + 1) * tiny32) by (apply Rmult_le_pos; [apply Rmult_le_pos; lra|lra]).
  assert (1 * (A + c) <= (1 + eps32) ^ (K + 1) * (A + c)) by (apply Rmult_le_compat_r; lra). lra.
Qed.
Lemma rsum_term n f k : (k < n)%nat -> (forall j, 0 <= f j) -> f k <= rsum n f.
Proof.
  intros Hk F. pose proof (rsum_indicator n k f) as RI. destruct (Nat.ltb_spec k n); [|lia]. rewrite <- RI. apply rsum_le. intros j _. destruct (Nat.eqb j k); [lra|apply F].
Qed.

(** Products with numbers up to [B0], added up with a number. *)
Lemma tame_products K (f : nat -> ex) (x w : nat -> R) b B0 B : 0 <= B0 -> B <= top -> (forall k, (k < K)%nat -> Rabs (x k) <= B0) ->
  (forall k (T : R -> Prop), (k < K)%nat -> (Rabs (x k * w k) <= top /\ forall z, roundish (x k * w k) z -> T z) -> tame (f k) T) ->
  affine_grown K (B0 * rsum K (fun k => Rabs (w k))) (Rabs b) <= B -> tame (EAdd (ESum K f) (EConst b)) (fun r => Rabs r <= B).
Proof.
  intros B00 T X F G. set (A := B0 * rsum K (fun k => Rabs (w k))) in *.
  assert (WP : 0 <= rsum K (fun k => Rabs (w k))) by (replace 0 with (rsum K (fun _ => 0)) by apply rsum_0; apply rsum_le; intros; apply Rabs_pos).
  assert (A0 : 0 <= A) by (apply Rmult_le_pos; lra). pose proof (affine_ge K A (Rabs b) A0 (Rabs_pos b)) as AG.
  apply (tame_weak lib lk u eta v _ (fun r => Rabs r <= affine_grown K A (Rabs b))); [|intros r L; lra].
  apply (tame_affine lib lk u eta Hu Heta v K f x w b A).
  - intros k Hk. apply F; [exact Hk|]. split; [|auto]. rewrite Rabs_mult. apply Rle_trans with A; [|lra]. unfold A.
    apply Rmult_le_compat; [apply Rabs_pos|apply Rabs_pos|apply X, Hk|]. apply (rsum_term K (fun k => Rabs (w k)) k Hk). intros; apply Rabs_pos.
  - unfold A. rewrite <- rsum_scal_l. apply rsum_le. intros k Hk. apply Rmult_le_compat_r; [apply Rabs_pos|apply X, Hk].
  - lra.
Qed.

Lemma tame_linear K m W b p B0 B : (forall i, Rabs (v 0%nat i) <= B0) -> B <= top ->
  affine_grown K (B0 * rsum K (fun k => Rabs W.[(p mod m) * K + k])) (Rabs b.[p mod m]) <= B -> tame (linear_ex K m W b p) (fun x => Rabs x <= B).
Proof.
  intros V T G. unfold linear_ex. assert (B00 : 0 <= B0) by (pose proof (V 0%nat); pose proof (Rabs_pos (v 0%nat 0%nat)); lra).
  apply (tame_products K _ (fun k => v 0%nat (p / m * K + k)%nat) (fun k => W.[(p mod m) * K + k]) b.[p mod m] B0 B B00 T); [intros; apply V| |exact G].
  intros k P Hk H. apply (tame_mul lib lk u eta Hu Heta v _ _ (fun x => x = v 0%nat (p / m * K + k)%nat) (fun y => y = W.[(p mod m) * K + k])); [apply tame_var; reflexivity|apply tame_const; reflexivity|].
  intros x y -> ->. exact H.
Qed.

Definition cell_val (fill : R) (h w i : nat) (y x : Z) : R := if inside h w y x then v 0%nat (pixel h w i y x) else fill.
Lemma tame_cell fill h w i y x (P : R -> Prop) : P (cell_val fill h w i y x) -> tame (cell_ex fill h w i y x) P.
Proof. unfold cell_val, cell_ex. destruct (inside h w y x); [apply tame_var|apply tame_const]. Qed.

Lemma tame_conv g cin h w cout ho wo W b p B0 B : (forall i, Rabs (v 0%nat i) <= B0) -> B <= top ->
  let K := (cin * KH g * KW g)%nat in let o := ((p / (ho * wo)) mod cout)%nat in
  affine_grown K (B0 * rsum K (fun k => Rabs W.[o * K + k])) (Rabs b.[o]) <= B -> tame (conv_ex g cin h w cout ho wo W b p) (fun x => Rabs x <= B).
Proof.
  intros V T K o G. unfold conv_ex. fold K o. assert (B00 : 0 <= B0) by (pose proof (V 0%nat); pose proof (Rabs_pos (v 0%nat 0%nat)); lra).
  apply (tame_products K _ (fun k => cell_val 0 h w (p / (ho * wo) / cout * cin + k / KW g / KH g) (win_row g ((k / KW g) mod KH g) (p mod (ho * wo) / wo)) (win_col g (k mod KW g) ((p mod (ho * wo)) mod wo)))
    (fun k => W.[o * K + k]) b.[o] B0 B B00 T); [| |exact G].
  - intros k Hk. unfold cell_val. destruct (inside h w _ _); [apply V|rewrite Rabs_R0; exact B00].
  - intros k P Hk H. apply (tame_mul lib lk u eta Hu Heta v _ _ (fun y => y = W.[o * K + k])
      (fun x => x = cell_val 0 h w (p / (ho * wo) / cout * cin + k / KW g / KH g) (win_row g ((k / KW g) mod KH g) (p mod (ho * wo) / wo)) (win_col g (k mod KW g) ((p mod (ho * wo)) mod wo))));
      [apply tame_const; reflexivity|apply tame_cell; reflexivity|].
    intros x y -> ->. rewrite Rmult_comm. exact H.
Qed.

Lemma tame_maxpool g h w ho wo p B0 B : (0 < KH g * KW g)%nat -> (forall i, Rabs (v 0%nat i) <= B0) -> B0 <= B -> Rabs flt_min <= B ->
  tame (maxpool_ex g h w ho wo p) (fun x => Rabs x <= B).
Proof.
  intros K0 V L M. unfold maxpool_ex. apply (tame_max lib lk u eta v _ _ (fun _ x => Rabs x <= B)); [exact K0| |intros xs k P Hk _; apply P, Hk].
  intros k Hk. apply tame_cell. unfold cell_val. destruct (inside h w _ _); [eapply Rle_trans; [apply V|exact L]|exact M].
Qed.

Lemma tame_dropout rnd q p B0 B c : Rabs (v 0%nat p) <= B0 -> isf c -> 0 < c <= 1 - q -> 1 - q <= top -> grown (B0 / c) <= B -> B <= top ->
  tame (dropout_ex true rnd q p) (fun x => Rabs x <= B).
Proof.
  intros V Fc C1 C2 G T. pose proof (Rabs_pos (v 0%nat p)) as V0. unfold dropout_ex. assert (CI : 0 < / c) by (apply Rinv_0_lt_compat; lra).
  apply (tame_div lib lk u eta Hu Heta v _ _ (fun x => Rabs x <= B0) (fun y => c <= y)).
  - destruct (geb (rnd p) q); [apply tame_var, V|apply tame_const; rewrite Rabs_R0; lra].
  - apply (tame_sub lib lk u eta Hu Heta v _ _ (fun x => x = 1) (fun x => x = q)); [apply tame_const; reflexivity|apply tame_const; reflexivity|].
    intros x y -> ->. split; [rewrite Rabs_right; lra|]. intros z R0. apply (rounds_ge _ _ c R0 Fc). lra.
  - intros x y X Y. split; [lra|]. assert (L : Rabs (x / y) <= B0 / c).
    { unfold Rdiv. rewrite Rabs_mult, (Rabs_right (/ y)) by (apply Rle_ge, Rlt_le, Rinv_0_lt_compat; lra). apply Rmult_le_compat; [apply Rabs_pos|left; apply Rinv_0_lt_compat; lra|exact X|apply Rinv_le_contravar; lra]. }
    assert (B0 / c <= grown (B0 / c)) by (apply grown_ge, Rmult_le_pos; lra). split; [lra|]. intros z R0. eapply Rle_trans; [|exact G]. apply (rounds_grown (x / y)); [lra|exact R0|exact L].
Qed.

Lemma tame_sigmoid p B0 : Rabs (v 0%nat p) <= B0 -> B0 <= top -> (lk -> B0 <= 32) -> tame (sigmoid_ex p) (fun x => 0 <= x <= 1).
Proof.
  intros V T K r F. destruct (sigmoid_unit lib EO v p r ltac:(lra) F) as (y & -> & _ & Y). exists y. split; [reflexivity|]. split; [exact Y|].
  intros k. destruct (LK k) as (NE & U1 & H1). specialize (K k). pose proof (Rabs_pos (v 0%nat p)) as VP.
  destruct F as (one & d & E1 & (e & o & (a & (x & w & Ex & Ew & A) & L) & E2 & S) & D). cbn in E1, Ex, Ew, E2. subst one x w o.
  pose proof eps32_pos as EP. pose proof tiny32_pos as TP.
  assert (A1 : exists z, a = Fin z /\ near u eta (v 0%nat p * -1) z /\ Rabs z <= 65).
  { assert (AB : Rabs (v 0%nat p * -1) <= 32) by (rewrite Rabs_mult, (Rabs_left (-1)) by lra; lra).
    assert (AT : Rabs (v 0%nat p * -1) <= top) by (rewrite Rabs_mult, (Rabs_left (-1)) by lra; lra).
    destruct A as [A| ->].
    - destruct (rnd_fin _ _ AT A) as (z & -> & R0 & N). exists z. split; [reflexivity|]. split; [exact (near_mono _ _ _ _ _ _ Hu Heta N)|].
      pose proof (rounds_grown _ _ 32 AT R0 AB). pose proof (small_grown 32 ltac:(lra) ltac:(lra)). lra.
    - eexists. split; [reflexivity|]. split; [apply near_exact; lra|lra]. }
  destruct A1 as (z & -> & NZ & ZB). destruct (NE z e ZB L) as (w & -> & NW).
  assert (WB : Rabs w <= 2 * exp 65 + 1).
  { eapply Rle_trans; [apply (near_abs u eta (exp z) w (exp 65)); [lra|exact NW|]|].
    - rewrite Rabs_right by (left; apply exp_pos). destruct (Rle_dec 65 z) as [C|C]; [assert (z = 65) as -> by (pose proof (Rle_abs z); lra); lra|]. left. apply exp_increasing. lra.
    - pose proof (exp_pos 65). assert (u * exp 65 <= 1 * exp 65) by (apply Rmult_le_compat_r; lra). lra. }
  assert (W0 : 0 <= w) by (destruct (EO _ _ L) as [(w' & E & _ & W0 & _)|(_ & C)]; [injection E as <-; exact W0|discriminate]).
  assert (SB : Rabs (w + 1) <= top) by (pose proof exp_65; rewrite Rabs_right in WB by lra; rewrite Rabs_right by lra; lra).
  destruct (rnd_fin _ _ SB S) as (t & -> & R0 & NT). assert (T1 : 1 <= t) by (apply (rounds_ge _ _ 1 R0 isf_1); lra).
  cbn in D. destruct (Req_EM_T t 0) as [C|_]; [lra|].
  assert (TI : 0 < / t <= 1) by (split; [apply Rinv_0_lt_compat; lra|rewrite <- Rinv_1; apply Rinv_le_contravar; lra]).
  assert (DB : Rabs (1 / t) <= top) by (unfold Rdiv; rewrite Rmult_1_l, Rabs_right by lra; pose proof one_top; lra).
  destruct (rnd_fin _ (Fin y) DB D) as (y' & E & _ & NY). injection E as <-.
  exists 1, t. split; [reflexivity|]. split; [|split; [lra|exact (near_mono _ _ _ _ _ _ Hu Heta NY)]].
  exists w, 1. split; [|split; [reflexivity|exact (near_mono _ _ _ _ _ _ Hu Heta NT)]].
  exists z. split; [|exact NW]. exists (v 0%nat p), (-1). split; [reflexivity|]. split; [reflexivity|exact NZ].
Qed.

(** Softmax: the shared exponentials are possible values of [softmax_ex]. *)
Lemma fsoftmax_rev n m out q B0 : fsoftmax lib fv n m out -> (q < n * m)%nat -> (m <= 2 ^ 23)%nat -> (forall i, Rabs (v 0%nat i) <= B0) -> B0 <= 32 -> lk ->
  exists y, out q = Fin y /\ rev u eta v (softmax_ex m q) y.
Proof.
  intros SM Hq LM V B32 k. destruct (LK k) as (NE & U1 & H1). pose proof eps32_pos as EP. pose proof tiny32_pos as TP.
  destruct (softmax_unit lib EO v n m out q SM Hq) as (y & Ey & _ & _). exists y. split; [exact Ey|].
  destruct SM as (es & ES & D). assert (M0 : (0 < m)%nat) by (destruct m; [rewrite Nat.mul_0_r in Hq; lia|lia]).
  destruct (D q Hq) as (s & SU & DV). rewrite Ey in DV.
  set (i := (q / m)%nat) in *.
  assert (Q : (q mod m < m)%nat) by (apply Nat.mod_upper_bound; lia).
  assert (Eq : (i * m + q mod m = q)%nat) by (unfold i; rewrite (Nat.mul_comm (q / m)); symmetry; apply Nat.div_mod; lia).
  set (ys := fun j => match es (i * m + j)%nat with Fin y => y | _ => 0 end).
  assert (YS : forall j, (j < m)%nat -> es (i * m + j)%nat = Fin (ys j) /\ isf (ys j) /\ 0 <= ys j <= 2 /\ rev u eta v (EExp (ESub (EVar 0 (i * m + j)) (EMax m (fun k => EVar 0 (i * m + k))))) (ys j)).
  { intros j Hj. pose proof (ES _ (in_rows v n m q j Hq Hj)) as F. fold i in F.
    destruct (exponential_range lib EO v m _ _ M0 F) as (z & E & Fz & Z & _). unfold ys. rewrite E. split; [reflexivity|]. split; [exact Fz|]. split; [exact Z|].
    rewrite E in F. unfold softmax_exp_ex in F. rewrite (row_index v) in F by exact Hj.
    assert (TM : tame (EExp (ESub (EVar 0 (i * m + j)) (EMax m (fun k => EVar 0 (i * m + k))))) (fun _ => True)).
    { apply (tame_exp lib lk u eta v _ (fun x => Rabs x <= 65)).
      - apply (tame_sub lib lk u eta Hu Heta v _ _ (fun x => Rabs x <= B0) (fun x => Rabs x <= B0)); [apply tame_var, V| |].
        + apply (tame_max lib lk u eta v m _ (fun _ x => Rabs x <= B0)); [exact M0|intros; apply tame_var, V|intros xs l P Hl _; apply P, Hl].
        + intros x w X W. assert (L : Rabs (x - w) <= 64) by (unfold Rminus; eapply Rle_trans; [apply Rabs_triang|rewrite Rabs_Ropp; lra]).
          assert (LT : Rabs (x - w) <= top) by (pose proof exp_65; pose proof (exp_ineq1 65 ltac:(lra)); lra).
          split; [exact LT|]. intros t R0. pose proof (rounds_grown _ _ 64 LT R0 L). pose proof (small_grown 64 ltac:(lra) ltac:(lra)). lra.
      - intros x r X LB. destruct (NE x r X LB) as (w & -> & N). exists w. split; [reflexivity|]. split; [exact Logic.I|]. intros _. exact N. }
    destruct (TM _ F) as (w & Ew & _ & RV). injection Ew as ->. exact (RV k). }
  rewrite (ftab_ext m _ (fun k => Fin (ys k)) (fun k Hk => proj1 (YS k Hk))) in SU.
  assert (SA : rsum m (fun k => Rabs (ys k)) <= INR m * 2).
  { rewrite <- rsum_const. apply rsum_le. intros j Hj. destruct (YS j Hj) as (_ & _ & B & _). rewrite Rabs_right; lra. }
  assert (MR : INR m <= 2 ^ 23) by (apply le_INR in LM; rewrite pow_INR in LM; cbn [INR] in LM; replace (1 + 1) with 2 in LM by ring; exact LM).
  assert (BT : 3 * (INR m * 2) + 1 <= top).
  { pose proof top_big. assert (2 ^ 26 <= 2 ^ 127) by (apply Rle_pow; [lra|lia]).
    replace (2 ^ 26) with (8 * 2 ^ 23) in * by (rewrite !pow2_IZR; change (8 * IZR 8388608 = IZR 67108864); ring). assert (1 <= 2 ^ 23) by (apply pow_R1_Rle; lra). lra. }
  pose proof (sum_grown_small v m 2 LM ltac:(lra)) as SG. pose proof (sum_grown_mono m _ _ SA) as SM2.
  destruct (fsummed_fin m ys s ltac:(lra) SU) as (t & -> & ST & _).
  assert (ex_t : ys (q mod m)%nat <= t /\ / 2 <= t).
  { destruct (fsummed_above m (fun k => Fin (ys k)) (Fin t)) as [(t' & E & _ & T0 & TD)|C]; [|exact SU| |discriminate].
    - intros j Hj. exists (ys j). destruct (YS j Hj) as (_ & Fy & Y & _). split; [reflexivity|]. split; [exact Fy|lra].
    - injection E as <-. split; [exact (TD _ _ Q eq_refl)|]. destruct (row_max v m i M0) as (j & Hj & MJ). apply Rle_trans with (ys j); [|exact (TD _ _ Hj eq_refl)].
      destruct (exponential_range lib EO v m _ _ M0 (ES _ (in_rows v n m q j Hq Hj))) as (z & Ez & _ & _ & Z1). fold i in Ez. destruct (YS j Hj) as (Ej & _). rewrite Ej in Ez. injection Ez as <-.
      apply Z1. intros l Hl. fold i. rewrite (row_index v) by exact Hj. apply MJ, Hl. }
  destruct ex_t as (T1 & T2). destruct (YS _ Q) as (Ex & _ & X & RX). rewrite Eq in Ex. rewrite Ex in DV. cbn in DV.
  destruct (Req_EM_T t 0) as [C|_]; [lra|]. set (x := ys (q mod m)%nat) in *.
  assert (XD : 0 <= x / t <= 1).
  { assert (0 < / t) by (apply Rinv_0_lt_compat; lra). split; [apply Rmult_le_pos; lra|]. apply (Rmult_le_reg_r t); [lra|]. unfold Rdiv. rewrite Rmult_assoc, Rinv_l, Rmult_1_r by lra. lra. }
  assert (AB : Rabs (x / t) <= top) by (rewrite Rabs_right by lra; pose proof one_top; lra).
  destruct (rnd_fin _ (Fin y) AB DV) as (y' & E & _ & NY). injection E as <-.
  unfold softmax_ex. fold i. exists x, t. split; [exact RX|]. split; [|split; [lra|exact (near_mono _ _ _ _ _ _ Hu Heta NY)]].
  exists ys. split; [intros j Hj; exact (proj2 (proj2 (proj2 (YS j Hj))))|]. apply summed_mono; assumption.
Qed.
End Layers.
