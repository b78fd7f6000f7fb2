(** Layers and networks in rounded arithmetic stay near the exact values. *)
From Coq Require Import Reals Lra Permutation.
From Verif Require Import Base BaseFacts Sums M_Im2col S_Im2col M_Kernels M_Conv M_Layers M_Optim M_Nn M_Graph M_Model M_Backend S_Grad S_Partial S_Stats S_BN S_Act S_Graph S_Run S_Fit
  P_Kernels P_Conv2 P_Vjp2 P_Vjp3 P_Pool P_Nn P_Load P_Run2 P_Partial P_BN P_BN2 P_BN3 P_Layers P_Layers2 P_Fit P_Eval P_Graph P_Graph2 P_Model P_Model2 P_Run P_Fwd P_Fwd2 Prop_Run M_Round S_Round P_Round P_Round2 P_Round3.
Open Scope nat_scope.

Lemma cell_good v fill h w i y z : good v (cell_ex fill h w i y z).
Proof. unfold cell_ex. destruct (inside h w y z); exact Logic.I. Qed.

Lemma bn_good v n at_ tr eps ga be rm rv i j : (0 < eps)%R -> (tr = true -> 0 < n) -> (tr = false -> (0 < rv.[j] + eps)%R) -> good v (bn_ex n at_ tr eps ga be rm rv i j).
Proof.
  intros He Hn Hv. assert (NN : tr = true -> INR n <> 0%R) by (intros T; specialize (Hn T); apply not_0_INR; lia).
  unfold bn_ex. destruct tr.
  - assert (N0 : INR n <> 0%R) by auto. clear NN. cbn [good ev].
    assert (V : (0 <= rsum n (fun k => ((v O (at_ k j) - rsum n (fun k => v O (at_ k j)) / INR n) * (v O (at_ k j) - rsum n (fun k => v O (at_ k j)) / INR n))%R) / INR n)%R).
    { apply Rmult_le_pos; [|apply Rlt_le, Rinv_0_lt_compat, lt_0_INR; auto]. replace 0%R with (rsum n (fun _ => 0%R)) by apply rsum_0. apply rsum_le. intros k Hk. apply Rle_0_sqr. }
    repeat split; auto; [lra|]. apply Rgt_not_eq, sqrt_lt_R0. lra.
  - cbn [good ev]. specialize (Hv eq_refl). repeat split; auto; [lra|]. apply Rgt_not_eq, sqrt_lt_R0. lra.
Qed.

Lemma fits_good E L inshs osh v p : fits L inshs osh -> regular L -> p < prodN osh -> good v (layer_ex E L inshs osh p).
Proof.
  intros F RG Hp.
  destruct F as [sh|sh|a sh|a sh|n m Hm|n c h w Hm|sh|W b n u rest Hr HW Hb|g W b buf batch cin h w cout ho wo Hs Hg HW Hb Hpos
    |g ind buf n c h w ho wo Hs Hg Hi|q mask sh Hk Hpos|e a g b s rm rv c n m Hn Ht Hg Hb Hs Hrm Hrv Hc|e a g b s rm rv c ni no N C H W Hn Ht Hg Hb Hs Hrm Hrv Hni Hc].
  - cbn. do 4 (split; [tauto|]). intros Z0. do 2 (split; [tauto|]). symmetry. exact Z0.
  - cbn. repeat split; auto. pose proof (exp_pos (v 0 p * -1)). lra.
  - cbn. do 4 (split; [tauto|]). intros Z0. do 2 (split; [tauto|]). rewrite Z0. ring.
  - cbn. do 4 (split; [tauto|]). intros Z0. do 2 (split; [tauto|]). rewrite Z0, exp_0. ring.
  - cbn [layer_ex]. unfold softmax_ex. cbn [good].
    assert (G : True /\ 0 < m /\ (forall k, k < m -> True)) by auto. split; [exact G|]. split; [intros; exact G|]. cbn [ev].
    apply Rgt_not_eq. apply exp_sum_pos. exact Hm.
  - cbn [layer_ex]. unfold gap_ex. cbn [good]. repeat split; auto. cbn [ev]. apply not_0_INR. lia.
  - cbn. auto.
  - cbn [layer_ex]. unfold linear_ex. cbn [good]. auto.
  - cbn [layer_ex]. unfold conv_ex. cbn [good]. split; [|exact Logic.I]. intros k Hk. split; [exact Logic.I|apply cell_good].
  - cbn [layer_ex]. unfold maxpool_ex. cbn [good]. split; [apply geom_rows; exact Hg|]. intros k Hk. apply cell_good.
  - cbn [layer_ex]. unfold dropout_ex. cbn in RG. destruct (p_train mask) eqn:TR; [|exact Logic.I]. cbn [good ev]. split; [destruct (geb _ _); exact Logic.I|]. split; [auto|]. specialize (RG eq_refl). lra.
  - cbn [layer_ex]. cbn [regular] in RG. destruct RG as [He Hv]. apply bn_good; [exact He|auto|]. intros T. apply Hv; [exact T|].
    unfold tot. rewrite (ten_ok_len _ _ Hrv), prodN1. rewrite prodN2 in Hp. apply (divmod_lt p n m Hp).
  - cbn [layer_ex]. cbn [regular] in RG. destruct RG as [He Hv]. apply bn_good; [exact He| |].
    + intros _. destruct N, C, H, W; cbn in *; lia.
    + intros T. apply Hv; [exact T|]. unfold tot. rewrite (ten_ok_len _ _ Hrv), prodN1. apply Nat.mod_upper_bound. intros ->. rewrite Nat.mul_0_r in Hn. cbn in Hn. lia.
Qed.

Lemma within_values del xs xs' inshs : Forall2 ten_ok inshs xs -> Forall2 ten_ok inshs xs' -> Forall2 (within del) xs xs' -> (0 <= del)%R ->
  forall a i, (Rabs (values xs' a i - values xs a i) <= del)%R.
Proof.
  intros T T' W D a. revert inshs T T' a. induction W as [|x x' xs xs' Wx W IH]; intros inshs T T' a i.
  - unfold values. destruct a; cbn; destruct i; rewrite Rminus_0_r, Rabs_R0; exact D.
  - inversion T as [|sh ? ts ? Tx Txs]; subst. inversion T' as [|? ? ? ? Tx' Txs']; subst. destruct a as [|a]; [|exact (IH ts Txs Txs' a i)].
    unfold values. cbn [nth]. pose proof (ten_ok_len _ _ Tx) as L. pose proof (ten_ok_len _ _ Tx') as L'.
    destruct (Nat.lt_ge_cases i (tot x)) as [Hi|Hi]; [apply Wx; exact Hi|]. unfold tot in Hi.
    rewrite !nth_overflow by congruence. rewrite Rminus_0_r, Rabs_R0. exact D.
Qed.

(** One layer. *)
Lemma layer_stable E L inshs osh xs t : fits L inshs osh -> regular L -> Forall2 ten_ok inshs xs -> fair E -> computes E L xs osh t ->
  forall eps, (0 < eps)%R -> exists del, (0 < del)%R /\ forall u eta xs' t', (0 <= u <= del)%R -> (0 <= eta <= del)%R ->
    Forall2 ten_ok inshs xs' -> Forall2 (within del) xs xs' -> rcomputes u eta E L xs' osh t' -> within eps t t'.
Proof.
  intros F RG X FE C eps He. pose proof C as [Tt _].
  destruct (common (prodN osh) (fun p del => forall u eta w r, (0 <= u <= del)%R -> (0 <= eta <= del)%R ->
    (forall a i, Rabs (w a i - values xs a i) <= del)%R -> rev u eta w (layer_ex E L inshs osh p) r -> (Rabs (r - (tdat t).[p]) <= eps)%R)) as (del & D & B).
  - intros p d d' Hp H Dd u eta w r Hu Ht Hw Hr. apply (H u eta w r); [lra|lra| |exact Hr]. intros a i. specialize (Hw a i). lra.
  - intros p Hp. rewrite (fits_ex E L inshs osh xs t p F X FE C Hp). exact (good_stable _ _ (fits_good E L inshs osh (values xs) p F RG Hp) eps He).
  - exists del. split; [exact D|]. intros u eta xs' t' Hu Ht X' W (S' & T' & R').
    split; [destruct Tt; congruence|]. intros p Hp. pose proof (ten_ok_len _ _ Tt) as Lt. unfold tot in Hp. rewrite Lt in Hp.
    apply (B p Hp u eta (values xs')); [exact Hu|exact Ht|exact (within_values _ _ _ _ X X' W ltac:(lra))|].
    assert (MS : map tsh xs' = inshs). { clear - X'. induction X' as [|sh x l l' [S _] _ IH]; cbn; congruence. }
    rewrite MS in R'. apply R'. exact Hp.
Qed.

Section Network.
Variables (es : estore) (ins outs : list nat) (m : model).
Hypothesis C : constructed es ins outs m.
Hypothesis CL : closed (es_ph es) ins outs.
Variables (infos : list linfo) (b : backend) (E : nat -> env) (V : nat -> ten) (tins : list ten).
Hypothesis SI : shaped (es_ph es) ins tins.
Hypothesis FE : forall d, fair (E d).
Hypothesis FT : forall d args, needed (es_ph es) outs d -> call (es_ph es) d args ->
  exists L, produces m infos b d L /\ fits L (map (dims (es_ph es)) args) (dims (es_ph es) d) /\ regular L.
Hypothesis EV : evaluation (es_ph es) ins outs tins E (produces m infos b) V.

(** A property of every small enough unit of rounding and perturbation of the inputs. *)
Definition tight (P : (nat -> ten) -> Prop) : Prop :=
  exists del, (0 < del)%R /\ forall u eta tins' V', (0 <= u <= del)%R -> (0 <= eta <= del)%R ->
    shaped (es_ph es) ins tins' -> Forall2 (within del) tins tins' ->
    rounded_evaluation u eta (es_ph es) ins outs tins' E (produces m infos b) V' -> P V'.

Lemma within_mono e e' t t' : within e t t' -> (e <= e')%R -> within e' t t'.
Proof. intros [S W] L. split; [exact S|]. intros i Hi. specialize (W i Hi). lra. Qed.
Lemma Forall2_within_mono e e' l l' : Forall2 (within e) l l' -> (e <= e')%R -> Forall2 (within e') l l'.
Proof. intros F L. induction F; constructor; [eapply within_mono; eassumption|assumption]. Qed.

Lemma tight_and P Q : tight P -> tight Q -> tight (fun V' => P V' /\ Q V').
Proof.
  intros (d1 & D1 & H1) (d2 & D2 & H2). destruct (pos_min d1 d2 D1 D2) as (d & D & L1 & L2). exists d. split; [exact D|].
  intros u eta tins' V' Hu Ht S W R. split; [eapply H1|eapply H2]; eauto; try lra; eapply Forall2_within_mono; eauto.
Qed.
Lemma tight_all (A : Type) (l : list A) (P : A -> (nat -> ten) -> Prop) : (forall x, In x l -> tight (P x)) -> tight (fun V' => forall x, In x l -> P x V').
Proof.
  induction l as [|x l IH]; intros H.
  - exists 1%R. split; [lra|]. intros u eta tins' V' _ _ _ _ _ x [].
  - destruct (tight_and _ _ (H x (or_introl eq_refl)) (IH (fun y Hy => H y (or_intror Hy)))) as (d & D & B). exists d. split; [exact D|].
    intros u eta tins' V' Hu Ht S W R y [<-|Hy]; destruct (B u eta tins' V' Hu Ht S W R) as [B1 B2]; auto.
Qed.

Lemma network_stable d : needed (es_ph es) outs d -> forall eps, (0 < eps)%R -> tight (fun V' => ten_ok (dims (es_ph es) d) (V' d) /\ within eps (V d) (V' d)).
Proof.
  pose proof (constructed_mfacts _ _ _ _ C) as MF.
  assert (LB : links_back (es_ph es)) by (apply store_links_back, built_ok, C).
  destruct EV as [VI EL].
  induction d as [d IH] using lt_wf_ind. intros N eps He.
  destruct CL as (_ & _ & _ & _ & K). destruct (K d N) as [(args & Ca)|HI].
  - destruct (EL d args N Ca) as (L & PL & CP). destruct (FT d args N Ca) as (L0 & PL0 & F & RG).
    assert (L0 = L) as -> by (eapply (produces_fun _ _ _ _ MF); eassumption).
    assert (AN : forall a, In a args -> needed (es_ph es) outs a) by (intros a Ha; eapply need_arg; eassumption).
    assert (X : Forall2 ten_ok (map (dims (es_ph es)) args) (map V args)).
    { assert (Y : forall a, In a args -> ten_ok (dims (es_ph es) a) (V a)).
      { intros a Ha. destruct (K a (AN a Ha)) as [(args' & Ca')|HI].
        - destruct (EL a args' (AN a Ha) Ca') as (La & _ & [T _]). exact T.
        - apply In_nth_error in HI. destruct HI as (k & Hk). destruct (Forall2_nth_error _ _ _ VI k a Hk) as (t & Ht & ->).
          destruct (Forall2_nth_error _ _ _ SI k a Hk) as (t' & Ht' & T). congruence. }
      clear - Y. induction args; cbn; constructor; [apply Y; left; reflexivity|apply IHargs; intros; apply Y; right; assumption]. }
    destruct (layer_stable (E d) L _ _ _ _ F RG X (FE d) CP eps He) as (del & D & B).
    destruct (tight_all nat args (fun a V' => ten_ok (dims (es_ph es) a) (V' a) /\ within del (V a) (V' a))) as (d1 & D1 & B1).
    { intros a Ha. apply IH; [eapply LB; eassumption|apply AN, Ha|exact D]. }
    destruct (pos_min del d1 D D1) as (d2 & D2 & M1 & M2). exists d2. split; [exact D2|].
    intros u eta tins' V' Hu Ht S W R.
    assert (Y : forall a, In a args -> ten_ok (dims (es_ph es) a) (V' a) /\ within del (V a) (V' a)).
    { apply (B1 u eta tins' V'); [lra|lra|exact S|eapply Forall2_within_mono; eassumption|exact R]. }
    destruct R as [_ RL]. destruct (RL d args N Ca) as (L' & PL' & RC). assert (L' = L) as -> by (eapply (produces_fun _ _ _ _ MF); eassumption).
    split; [destruct RC as (R1 & R2 & _); split; assumption|].
    apply (B u eta (map V' args) (V' d)); [lra|lra| | |exact RC].
    + clear - Y. induction args; cbn; constructor; [apply Y; left; reflexivity|apply IHargs; intros; apply Y; right; assumption].
    + clear - Y. induction args; cbn; constructor; [apply Y; left; reflexivity|apply IHargs; intros; apply Y; right; assumption].
  - exists eps. split; [exact He|]. intros u eta tins' V' Hu Ht S W [RI _].
    apply In_nth_error in HI. destruct HI as (k & Hk). destruct (Forall2_nth_error _ _ _ VI k d Hk) as (t & Et & ->).
    destruct (Forall2_nth_error _ _ _ RI k d Hk) as (t' & Et' & ->). destruct (Forall2_nth_error _ _ _ W k t Et) as (t2 & Et2 & Wt).
    destruct (Forall2_nth_error _ _ _ S k d Hk) as (t3 & Et3 & T3). split; congruence.
Qed.

Lemma outputs_stable eps : (0 < eps)%R -> tight (fun V' => Forall2 (within eps) (map V outs) (map V' outs)).
Proof.
  intros He. destruct (tight_all nat outs (fun d V' => ten_ok (dims (es_ph es) d) (V' d) /\ within eps (V d) (V' d))) as (d & D & B).
  - intros o Ho. apply network_stable; [apply need_out, Ho|exact He].
  - exists d. split; [exact D|]. intros u eta tins' V' Hu Ht S W R. pose proof (B u eta tins' V' Hu Ht S W R) as Y. clear - Y.
    induction outs; cbn; constructor; [apply Y; left; reflexivity|apply IHl; intros; apply Y; right; assumption].
Qed.

(** The prediction does not change. *)
Lemma prediction_stable d n c i k : needed (es_ph es) outs d -> dims (es_ph es) d = [n; c] -> i < n -> only_largest c (V d) i k -> tight (fun V' => only_largest c (V' d) i k).
Proof.
  intros N Dd Hi (Hk & LG).
  assert (G : exists g, (0 < g)%R /\ forall j, j < c -> j <> k -> ((tdat (V d)).[i * c + j] + g <= (tdat (V d)).[i * c + k])%R).
  { destruct (common c (fun j g => j <> k -> ((tdat (V d)).[i * c + j] + g <= (tdat (V d)).[i * c + k])%R)) as (g & G & B).
    - intros j g g' Hj H Hg NE. specialize (H NE). lra.
    - intros j Hj. destruct (Nat.eq_dec j k) as [->|NE]; [exists 1%R; split; [lra|congruence]|]. specialize (LG j Hj NE).
      exists ((tdat (V d)).[i * c + k] - (tdat (V d)).[i * c + j])%R. split; [lra|]. intros _. lra.
    - eauto. }
  destruct G as (g & G & MG). destruct (network_stable d N (g / 3)%R ltac:(lra)) as (del & D & B). exists del. split; [exact D|].
  intros u eta tins' V' Hu Ht S W R. destruct (B u eta tins' V' Hu Ht S W R) as [T [Ws Wn]].
  assert (TT : tot (V d) = n * c).
  { destruct EV as [VI EL]. destruct CL as (_ & _ & _ & _ & K). destruct (K d N) as [(args & Ca)|HI].
    - destruct (EL d args N Ca) as (L & _ & [Tv _]). unfold tot. rewrite (ten_ok_len _ _ Tv), Dd. apply prodN2.
    - apply In_nth_error in HI. destruct HI as (q & Hq). destruct (Forall2_nth_error _ _ _ VI q d Hq) as (t & Et & ->).
      destruct (Forall2_nth_error _ _ _ SI q d Hq) as (t' & Et' & Tt). replace t with t' by congruence. unfold tot. rewrite (ten_ok_len _ _ Tt), Dd. apply prodN2. }
  rewrite TT in Wn. split; [exact Hk|]. intros j Hj NE. specialize (MG j Hj NE).
  assert (I1 : i * c + j < n * c) by nia. assert (I2 : i * c + k < n * c) by nia.
  pose proof (Wn _ I1) as W1. pose proof (Wn _ I2) as W2. unfold Rabs in W1, W2. destruct (Rcase_abs _) in W1; destruct (Rcase_abs _) in W2; lra.
Qed.
End Network.

(** The exact evaluation is one of the rounded ones. *)
Lemma layer_exact E L inshs osh xs t u eta : (0 <= u)%R -> (0 <= eta)%R -> fits L inshs osh -> regular L -> Forall2 ten_ok inshs xs -> fair E ->
  computes E L xs osh t -> rcomputes u eta E L xs osh t.
Proof.
  intros Hu He F RG X FE C. pose proof C as [[T1 T2] _]. split; [exact T1|]. split; [exact T2|]. intros p Hp.
  assert (MS : map tsh xs = inshs). { clear - X. induction X as [|sh x l l' [S _] _ IH]; cbn; congruence. }
  rewrite MS, (fits_ex E L inshs osh xs t p F X FE C Hp). apply exact_rev; [exact Hu|exact He|]. apply fits_good; assumption.
Qed.
