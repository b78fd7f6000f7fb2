(** Proofs for [Prop_Models]: models without common layers do not notice each other. *)
From Coq Require Import Reals String List Lia.
From Verif Require Import Base BaseFacts Sums M_Layers M_Optim M_Nn M_Graph M_Model M_Backend M_Train M_Models S_Models P_Models.
Import ListNotations.
Local Open Scope list_scope.
Open Scope nat_scope.

Definition nearr U i1 i2 (x y : tstate * list (list ten)) : Prop := neart U i1 i2 (fst x) (fst y) /\ snd x = snd y.

Lemma trun_near m : own_params m -> forall cs i1 i2 b o, agree (uses m) i1 i2 ->
  same_st (nearr (uses m) i1 i2) (trun m cs (mkTS i1 b o)) (trun m cs (mkTS i2 b o)).
Proof.
  intros OP. induction cs as [|c cs IH]; intros i1 i2 b o A; cbn [trun].
  { cbn. unfold nearr, neart. cbn. auto 10 using untouched_refl. }
  destruct (tact_near m c i1 i2 b o OP A) as [T H].
  destruct (tact m c (mkTS i1 b o)) as [[j1 b1 o1]|[j1 b1 o1]|], (tact m c (mkTS i2 b o)) as [[j2 b2 o2]|[j2 b2 o2]|];
    cbn [same_st] in T |- *; try contradiction; [| |exact Logic.I]; destruct T as (A1 & U1 & U2 & E1 & E2); cbn [ts_info ts_backend ts_opt] in *; subst b2 o2.
  - specialize (IH j1 j2 b1 o1 A1).
    destruct (trun m cs (mkTS j1 b1 o1)) as [[s1 l1]|[s1 l1]|], (trun m cs (mkTS j2 b1 o1)) as [[s2 l2]|[s2 l2]|];
      cbn [same_st] in IH |- *; try contradiction; auto; destruct IH as [(A2 & V1 & V2 & W) E]; cbn [fst snd] in *; subst l2;
      (split; [|cbn [snd]; rewrite H; reflexivity]); cbn [fst];
      (split; [exact A2|]); (split; [exact (untouched_trans _ _ _ _ U1 V1)|]); (split; [exact (untouched_trans _ _ _ _ U2 V2)|exact W]).
  - unfold nearr, neart. cbn. auto 10.
Qed.

(** What a call leaves alone. *)
Lemma agree_refl U i : agree U i i. Proof. intros k _. reflexivity. Qed.
Lemma tact_untouched m c s : own_params m ->
  match tact m c s with Ret s' | Exc s' => untouched (uses m) (ts_info s) (ts_info s') | Bad => True end.
Proof.
  intros OP. destruct s as [i b o]. destruct (tact_near m c i i b o OP (agree_refl _ _)) as [T _].
  destruct (tact m c (mkTS i b o)) as [s|s|]; cbn [same_st] in T; [apply T|apply T|exact Logic.I].
Qed.
Lemma untouched_agree m1 m2 i j : no_common_layer m1 m2 -> untouched (uses m1) i j -> agree (uses m2) i j.
Proof. intros D U k u. unfold numbers. rewrite (U k); [reflexivity|]. intros u1. exact (D k u1 u). Qed.

Lemma of_model_cons {A} i j (a : A) l : of_model i ((j, a) :: l) = if j =? i then a :: of_model i l else of_model i l.
Proof. unfold of_model. cbn [filter fst]. destruct (j =? i); reflexivity. Qed.

Definition separate (P : program) : Prop :=
  (forall i p, nth_error (pg_parts P) i = Some p -> own_params (pt_model p)) /\
  (forall i j p q, i <> j -> nth_error (pg_parts P) i = Some p -> nth_error (pg_parts P) j = Some q -> no_common_layer (pt_model p) (pt_model q)).

Lemma left_part P i p s j : nth_error (pg_parts P) i = Some p ->
  nth_error (pg_parts (left_by P i p s)) j = if j =? i then Some (mkPart (pt_model p) (ts_backend s) (ts_opt s)) else nth_error (pg_parts P) j.
Proof.
  intros H. unfold left_by. cbn [pg_parts]. destruct (Nat.eqb_spec j i) as [->|N].
  - apply nth_error_upd_eq. apply nth_error_Some. congruence.
  - apply nth_error_upd_neq. auto.
Qed.
Lemma left_models P i p s j q : nth_error (pg_parts P) i = Some p -> nth_error (pg_parts (left_by P i p s)) j = Some q ->
  exists q0, nth_error (pg_parts P) j = Some q0 /\ pt_model q0 = pt_model q.
Proof.
  intros H K. rewrite (left_part P i p s j H) in K. destruct (Nat.eqb_spec j i) as [->|N]; [|eauto].
  injection K as <-. exists p. auto.
Qed.
Lemma left_separate P i p s : nth_error (pg_parts P) i = Some p -> separate P -> separate (left_by P i p s).
Proof.
  intros H [S1 S2]. split.
  - intros j q K. destruct (left_models _ _ _ _ _ _ H K) as (q0 & K0 & <-). exact (S1 j q0 K0).
  - intros a b x y N Ka Kb. destruct (left_models _ _ _ _ _ _ H Ka) as (x0 & Kx & <-). destruct (left_models _ _ _ _ _ _ H Kb) as (y0 & Ky & <-).
    exact (S2 a b x0 y0 N Kx Ky).
Qed.

Lemma seen_left P i p s : seen (left_by P i p s) (mkPart (pt_model p) (ts_backend s) (ts_opt s)) = s.
Proof. destruct s. reflexivity. Qed.

Lemma prun_apart : forall cs P P' log, separate P -> prun cs P = Ret (P', log) ->
  forall i p, nth_error (pg_parts P) i = Some p ->
  exists s, trun (pt_model p) (of_model i cs) (seen P p) = Ret (s, of_model i log) /\
    nth_error (pg_parts P') i = Some (mkPart (pt_model p) (ts_backend s) (ts_opt s)) /\
    agree (uses (pt_model p)) (ts_info s) (pg_info P').
Proof.
  induction cs as [|[j c] cs IH]; intros P P' log SP R i p Hp; cbn [prun] in R.
  { injection R as <- <-. exists (seen P p). split; [reflexivity|]. split; [|apply agree_refl]. rewrite Hp. destruct p. reflexivity. }
  unfold pact in R. destruct (nth_error (pg_parts P) j) as [pj|] eqn:Hj; [|discriminate].
  destruct (tact (pt_model pj) c (seen P pj)) as [sj|sj|] eqn:T; [|discriminate|discriminate].
  destruct (prun cs (left_by P j pj sj)) as [[P2 l]|[P2 l]|] eqn:RR; [|discriminate|discriminate]. injection R as <- <-.
  specialize (IH _ _ _ (left_separate P j pj sj Hj SP) RR). rewrite !of_model_cons.
  destruct (Nat.eqb_spec j i) as [->|N].
  - assert (p = pj) by congruence. subst pj.
    destruct (IH i (mkPart (pt_model p) (ts_backend sj) (ts_opt sj))) as (s & R1 & R2 & R3).
    { rewrite (left_part P i p sj i Hj), Nat.eqb_refl. reflexivity. }
    rewrite seen_left in R1. cbn [pt_model] in *. exists s. split; [|split; assumption].
    cbn [trun]. rewrite T, R1. reflexivity.
  - destruct (IH i p) as (s & R1 & R2 & R3).
    { rewrite (left_part P j pj sj i Hj). destruct (Nat.eqb_spec i j); [congruence|exact Hp]. }
    pose proof (tact_untouched (pt_model pj) c (seen P pj) (proj1 SP j pj Hj)) as UT. rewrite T in UT. cbn [seen ts_info] in UT.
    pose proof (untouched_agree _ (pt_model p) _ _ (proj2 SP j i pj p N Hj Hp) UT) as AG.
    unfold seen in R1. cbn [left_by pg_info] in R1.
    pose proof (trun_near (pt_model p) (proj1 SP i p Hp) (of_model i cs) (pg_info P) (ts_info sj) (pt_backend p) (pt_opt p) AG) as TN.
    rewrite R1 in TN. unfold seen.
    destruct (trun (pt_model p) (of_model i cs) (mkTS (pg_info P) (pt_backend p) (pt_opt p))) as [[s' l']|[s' l']|]; cbn [same_st] in TN; try contradiction.
    destruct TN as [(A2 & _ & _ & EB & EO) EL]. cbn [fst snd] in *. exists s'. split; [congruence|]. split; [congruence|].
    intros k u. rewrite (A2 k u). exact (R3 k u).
Qed.

Lemma prun_returns : forall cs P, separate P -> Forall (fun e => fst e < length (pg_parts P)) cs ->
  (forall i p, nth_error (pg_parts P) i = Some p -> exists s l, trun (pt_model p) (of_model i cs) (seen P p) = Ret (s, l)) ->
  exists P' log, prun cs P = Ret (P', log).
Proof.
  induction cs as [|[j c] cs IH]; intros P SP V H; cbn [prun]; [eauto|].
  inversion V as [|x y V1 V2]; subst. cbn [fst] in V1.
  destruct (nth_error (pg_parts P) j) as [pj|] eqn:Hj; [|apply nth_error_None in Hj; lia].
  unfold pact. rewrite Hj. destruct (H j pj Hj) as (s & l & R). rewrite of_model_cons, Nat.eqb_refl in R. cbn [trun] in R.
  destruct (tact (pt_model pj) c (seen P pj)) as [sj|sj|] eqn:T; [|discriminate|discriminate].
  destruct (IH (left_by P j pj sj) (left_separate P j pj sj Hj SP)) as (P2 & l2 & RR).
  - unfold left_by. cbn [pg_parts]. rewrite upd_length. exact V2.
  - intros i q Hq. rewrite (left_part P j pj sj i Hj) in Hq. destruct (Nat.eqb_spec i j) as [->|N].
    + injection Hq as <-. rewrite seen_left. cbn [pt_model].
      destruct (trun (pt_model pj) (of_model j cs) sj) as [[s2 l2]|[s2 l2]|] eqn:T2; [eauto|discriminate|discriminate].
    + destruct (H i q Hq) as (s1 & l1 & R1). rewrite of_model_cons in R1. destruct (Nat.eqb_spec j i) as [E|_]; [congruence|].
      pose proof (tact_untouched (pt_model pj) c (seen P pj) (proj1 SP j pj Hj)) as UT. rewrite T in UT. cbn [seen ts_info] in UT.
      pose proof (untouched_agree _ (pt_model q) _ _ (proj2 SP j i pj q (not_eq_sym N) Hj Hq) UT) as AG.
      unfold seen in R1 |- *. cbn [left_by pg_info].
      pose proof (trun_near (pt_model q) (proj1 SP i q Hq) (of_model i cs) (pg_info P) (ts_info sj) (pt_backend q) (pt_opt q) AG) as TN.
      rewrite R1 in TN.
      destruct (trun (pt_model q) (of_model i cs) (mkTS (ts_info sj) (pt_backend q) (pt_opt q))) as [[s' l']|[s' l']|]; cbn [same_st] in TN; try contradiction. eauto.
  - rewrite RR. eauto.
Qed.

(** A run that ends with an exception. *)
Lemma prun_exc : forall cs P P' log, prun cs P = Exc (P', log) ->
  exists done j c rest P1 P2, cs = done ++ (j, c) :: rest /\ prun done P = Ret (P1, log) /\ pact j c P1 = Exc (P2, []) /\ P' = P2.
Proof.
  induction cs as [|[i c] cs IH]; intros P P' log R; cbn [prun] in R; [discriminate|].
  destruct (pact i c P) as [[P1 h]|[P1 h]|] eqn:A; [| |discriminate].
  - destruct (prun cs P1) as [[P2 l]|[P2 l]|] eqn:RR; [discriminate| |discriminate]. injection R as <- <-.
    destruct (IH _ _ _ RR) as (done & j & d & rest & Q1 & Q2 & -> & R1 & R2 & ->).
    exists ((i, c) :: done), j, d, rest, Q1, Q2. split; [reflexivity|]. split; [|auto]. cbn [prun]. rewrite A, R1. reflexivity.
  - injection R as <- <-. exists [], i, c, cs, P, P1. split; [reflexivity|]. split; [reflexivity|]. split; [|reflexivity].
    unfold pact in A |- *. destruct (nth_error (pg_parts P) i) as [p|]; [|discriminate]. destruct (tact _ _ _); [discriminate| |discriminate]. injection A as <- <-. reflexivity.
Qed.
