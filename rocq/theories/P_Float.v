From Verif Require Import Base M_Float S_Float.
Open Scope Z_scope.

Lemma pow2_pos e : 0 <= e -> 0 < 2 ^ e.
Proof. intros. apply Z.pow_pos_nonneg; lia. Qed.

(** No float lies strictly between [q * 2^e] and [(q+1) * 2^e] when [q] has 24 bits. *)
Lemma gap q e z : 0 <= e -> (e = 0 \/ 2 ^ 23 <= q) -> float32 z -> z <= q * 2 ^ e \/ (q + 1) * 2 ^ e <= z.
Proof.
  intros He Hq (m & f & Hm & Hf & ->).
  destruct Hq as [->|Hq]; [change (2 ^ 0) with 1; lia|].
  destruct (Z_le_gt_dec (m * 2 ^ f) (q * 2 ^ e)) as [L|G]; [left; exact L|right].
  pose proof (pow2_pos e He). pose proof (pow2_pos f ltac:(lia)).
  assert (E : e <= f).
  { destruct (Z_le_gt_dec e f) as [|N]; [assumption|]. exfalso.
    assert (2 ^ e = 2 ^ (e - f) * 2 ^ f) by (rewrite <- Z.pow_add_r by lia; f_equal; lia).
    assert (2 <= 2 ^ (e - f)) by (replace (e - f) with (1 + (e - f - 1)) by lia; rewrite Z.pow_add_r by lia; pose proof (pow2_pos (e - f - 1) ltac:(lia)); lia).
    assert (2 ^ 24 * 2 ^ f <= q * 2 ^ e).
    { rewrite H1. replace (2 ^ 24) with (2 ^ 23 * 2) by reflexivity. nia. }
    nia. }
  assert (Ef : 2 ^ f = 2 ^ (f - e) * 2 ^ e) by (rewrite <- Z.pow_add_r by lia; f_equal; lia).
  rewrite Ef, Z.mul_assoc in G |- *. generalize dependent (m * 2 ^ (f - e)). intros A GA.
  apply Z.mul_le_mono_nonneg_r; [lia|]. assert (q < A); [|lia]. apply (Z.mul_lt_mono_pos_r (2 ^ e)); lia.
Qed.

Lemma rnd_pos_parts x : 0 <= x -> let e := Z.max 0 (Z.log2 x - 23) in
  0 <= e /\ x = (x / 2 ^ e) * 2 ^ e + x mod 2 ^ e /\ 0 <= x mod 2 ^ e < 2 ^ e /\ 0 <= x / 2 ^ e < 2 ^ 24 /\ (e = 0 \/ 2 ^ 23 <= x / 2 ^ e).
Proof.
  intros Hx e. assert (He : 0 <= e) by lia. pose proof (pow2_pos e He) as P.
  split; [exact He|]. split; [rewrite Z.mul_comm; apply Z.div_mod; lia|]. split; [apply Z.mod_pos_bound; lia|].
  assert (Q : 0 <= x / 2 ^ e < 2 ^ 24).
  { split; [apply Z.div_pos; lia|]. apply Z.div_lt_upper_bound; [lia|]. rewrite <- Z.pow_add_r by lia.
    destruct (Z.eq_dec x 0) as [->|N]; [apply pow2_pos; lia|].
    destruct (Z.log2_spec x ltac:(lia)) as [_ L]. eapply Z.lt_le_trans; [exact L|]. apply Z.pow_le_mono_r; lia. }
  split; [exact Q|].
  destruct (Z_le_gt_dec (Z.log2 x) 23) as [L|G]; [left; lia|right].
  assert (Ee : e = Z.log2 x - 23) by lia.
  apply Z.div_le_lower_bound; [lia|]. rewrite <- Z.pow_add_r by lia.
  destruct (Z.log2_spec x) as [L _]; [pose proof (Z.log2_nonpos x); lia|]. replace (e + 23) with (Z.log2 x) by lia. exact L.
Qed.

Lemma float32_mult q e : 0 <= q <= 2 ^ 24 -> 0 <= e < 253 -> float32 (q * 2 ^ e).
Proof.
  intros Hq He. destruct (Z.eq_dec q (2 ^ 24)) as [->|N].
  - exists (2 ^ 23), (e + 1). split; [reflexivity|]. split; [lia|]. rewrite Z.pow_add_r by lia. change (2 ^ 24) with (2 ^ 23 * 2). change (2 ^ 1) with 2. ring.
  - exists q, e. split; [lia|]. split; [lia|reflexivity].
Qed.

Lemma even_mult q e : 2 ^ 23 <= q <= 2 ^ 24 -> Z.even q = true -> 0 <= e < 253 -> even_significand (q * 2 ^ e).
Proof.
  intros Hq Ev He. destruct (Z.eq_dec q (2 ^ 24)) as [->|N].
  - exists (2 ^ 23), (e + 1). split; [reflexivity|]. split; [split; reflexivity || (cbn; lia)|]. split; [lia|]. rewrite Z.pow_add_r by lia. change (2 ^ 24) with (2 ^ 23 * 2). change (2 ^ 1) with 2. ring.
  - exists q, e. split; [exact Ev|]. split; [lia|]. split; [lia|reflexivity].
Qed.

Lemma rnd_pos_rounded x : 0 <= x < 2 ^ 276 -> rounded x (rnd_pos x).
Proof.
  intros Hx. pose proof (rnd_pos_parts x ltac:(lia)) as H. cbv zeta in H. unfold rnd_pos.
  set (e := Z.max 0 (Z.log2 x - 23)) in *. set (q := x / 2 ^ e) in *. set (r := x mod 2 ^ e) in *.
  destruct H as (He & Ex & Hr & Hq & Hb).
  assert (He2 : e < 253).
  { assert (Z.log2 x < 276); [|lia]. destruct (Z.eq_dec x 0) as [->|N]; [cbn; lia|]. apply Z.log2_lt_pow2; lia. }
  pose proof (pow2_pos e He) as P.
  assert (G : forall z, float32 z -> z <= q * 2 ^ e \/ (q + 1) * 2 ^ e <= z) by (intros z; apply gap; assumption).
  assert (Odd : Z.odd q = negb (Z.even q)) by (symmetry; apply Z.negb_even).
  destruct ((2 ^ e <? 2 * r) || ((2 * r =? 2 ^ e) && Z.odd q)) eqn:C.
  - split; [apply float32_mult; lia|]. split.
    + assert (2 ^ e <= 2 * r) by (apply orb_true_iff in C; destruct C as [C|C]; [lia|apply andb_true_iff in C; lia]).
      intros z Fz. destruct (G z Fz); nia.
    + intros z Fz Nz D. assert (T : 2 * r = 2 ^ e).
      { destruct (Z.eq_dec (2 * r) (2 ^ e)) as [E|N]; [exact E|]. exfalso.
        assert (2 ^ e < 2 * r) by (apply orb_true_iff in C; destruct C as [C|C]; [lia|apply andb_true_iff in C; lia]).
        destruct (G z Fz); nia. }
      assert (Oq : Z.odd q = true) by (apply orb_true_iff in C; destruct C as [C|C]; [lia|apply andb_true_iff in C; tauto]).
      apply even_mult; [|rewrite Z.even_add, Z.even_1|lia].
      * destruct Hb as [E0|Hb]; [|lia]. rewrite E0 in T. change (2 ^ 0) with 1 in T. lia.
      * rewrite Oq in Odd. destruct (Z.even q); [discriminate|reflexivity].
  - apply orb_false_iff in C as [C1 C2]. split; [apply float32_mult; lia|]. split.
    + intros z Fz. destruct (G z Fz); nia.
    + intros z Fz Nz D. assert (T : 2 * r = 2 ^ e).
      { destruct (Z.eq_dec (2 * r) (2 ^ e)) as [E|N]; [exact E|]. exfalso. destruct (G z Fz); nia. }
      apply even_mult; [| |lia].
      * destruct Hb as [E0|Hb]; [|lia]. rewrite E0 in T. change (2 ^ 0) with 1 in T. lia.
      * replace (2 * r =? 2 ^ e) with true in C2 by lia. cbn [andb] in C2. rewrite C2 in Odd. destruct (Z.even q); [reflexivity|discriminate].
Qed.

Lemma float32_opp x : float32 x -> float32 (- x).
Proof. intros (m & e & H1 & H2 & ->). exists (- m), e. split; [lia|]. split; [lia|ring]. Qed.

Lemma rnd_rounded x : Z.abs x < 2 ^ 276 -> rounded x (rnd x).
Proof.
  intros H. unfold rnd. destruct (x <? 0) eqn:S; [|apply rnd_pos_rounded; lia].
  destruct (rnd_pos_rounded (- x) ltac:(lia)) as (A & B & C). split; [apply float32_opp; exact A|]. split.
  - intros z Fz. specialize (B (- z) (float32_opp z Fz)). lia.
  - intros z Fz Nz D. destruct (C (- z) (float32_opp z Fz) ltac:(lia) ltac:(lia)) as (m & e & E1 & E2 & E3 & E4).
    exists (- m), e. split; [rewrite Z.even_opp; exact E1|]. split; [lia|]. split; [exact E3|]. rewrite E4. ring.
Qed.

Lemma rnd_float x : float32 x -> Z.abs x < 2 ^ 276 -> rnd x = x.
Proof.
  intros F B. destruct (rnd_rounded x B) as (_ & N & _). specialize (N x F). lia.
Qed.

Lemma int_float n : Z.abs n <= 2 ^ 24 -> float32 (n * unit_).
Proof.
  intros H. unfold unit_. destruct (Z_lt_ge_dec n 0) as [S|S].
  - replace (n * 2 ^ 149) with (- ((- n) * 2 ^ 149)) by ring. apply float32_opp, float32_mult; lia.
  - apply float32_mult; lia.
Qed.

Lemma int_bound n : Z.abs n <= 2 ^ 24 + 1 -> Z.abs (n * unit_) < 2 ^ 276.
Proof. intros H. rewrite Z.abs_mul. unfold unit_. rewrite (Z.abs_eq (2 ^ 149)) by (vm_compute; discriminate). change (2 ^ 276) with (2 ^ 127 * 2 ^ 149). apply Z.mul_lt_mono_pos_r; [reflexivity|].
  eapply Z.le_lt_trans; [exact H|]. vm_compute. reflexivity. Qed.

Lemma of_int_exact n : Z.abs n <= 2 ^ 24 -> of_int n = n * unit_.
Proof. intros H. unfold of_int. apply rnd_float; [apply int_float; exact H|apply int_bound; lia]. Qed.

Lemma to_of_int n : Z.abs n <= 2 ^ 24 -> to_int (of_int n) = n.
Proof. intros H. rewrite of_int_exact by assumption. unfold to_int. apply Z.quot_mul. vm_compute. discriminate. Qed.

Lemma stuck : rnd ((2 ^ 24 + 1) * unit_) = 2 ^ 24 * unit_.
Proof. vm_compute. reflexivity. Qed.

Lemma trues_nonneg l : 0 <= trues l.
Proof. induction l as [|[] l IH]; cbn [trues]; lia. Qed.

Lemma count_from l : forall n, 0 <= n <= 2 ^ 24 ->
  fold_left (fun acc b => fadd acc (of_int (if b : bool then 1 else 0))) l (n * unit_) = Z.min (n + trues l) (2 ^ 24) * unit_.
Proof.
  induction l as [|b l IH]; intros n Hn; cbn [fold_left trues].
  - f_equal. lia.
  - rewrite of_int_exact by (destruct b; cbn; lia). unfold fadd. rewrite <- Z.mul_add_distr_r.
    pose proof (trues_nonneg l) as P. destruct b.
    + destruct (Z.eq_dec n (2 ^ 24)) as [->|N].
      * rewrite stuck, IH by lia. f_equal. lia.
      * rewrite rnd_float by (try apply int_float; try apply int_bound; lia). rewrite IH by lia. f_equal. lia.
    + rewrite rnd_float by (try apply int_float; try apply int_bound; lia). rewrite IH by lia. f_equal. lia.
Qed.
