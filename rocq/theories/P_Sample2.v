(** Proofs about the training loop of the sample programs. *)
From Coq Require Import Reals String Lra.
From Verif Require Import Base BaseFacts Sums S_Tensor M_Tensor P_Tensor M_Im2col M_Kernels M_Layers M_Optim M_Loss M_Nn M_Graph M_Model M_Backend M_DataLoader M_Train M_Sample
  S_Grad S_Loss S_DataLoader S_Graph S_Run S_Fit S_Train S_Plain S_Desc S_Eval S_Build S_Sample
  P_DataLoader P_Loss P_Graph P_Graph2 P_Nn P_Model P_Model2 P_MakeLayer P_Load P_Plain P_Train P_Train2 P_Eval P_Eval2 P_Desc P_Sample
  Prop_Graph Prop_Model Prop_Plain Prop_Train Prop_Loss Prop_Desc Prop_Eval.
Open Scope string_scope.
Open Scope nat_scope.

Lemma prodZ_zs sh : prodZ (zs sh) = Z.of_nat (prodN sh).
Proof. induction sh as [|d sh IH]; [reflexivity|]. unfold zs in *. cbn [map]. rewrite prodZ_cons, IH. cbn [prodN fold_right]. unfold prodN. lia. Qed.
Lemma fits_zs sh : proper sh -> S_Tensor.fits (zs sh).
Proof. intros P. apply (int_prod_Ok (zs sh) (Z.of_nat (prodN sh))). apply int_prod_zs, P. Qed.
Lemma nonneg_zs sh : nonneg (zs sh).
Proof. unfold nonneg, zs. apply Forall_map, Forall_forall. intros; lia. Qed.

(** A tensor variable of a sample program: empty, or one for batches of shape [sh]. *)
Definition slot (sh : list nat) (t : tv R) : Prop := v_data t = [] \/ (v_shape t = zs sh /\ length (v_data t) = prodN sh).
Lemma slot_tensor sh t : slot sh t -> tensor_ok t.
Proof. intros [H|(S & L)]; [left; exact H|right]. rewrite S, L, prodZ_zs. reflexivity. Qed.
Lemma slot_accepted n sh t : slot (n :: sh) t -> accepted t (Z.of_nat n) (zs sh).
Proof. intros [H|(S & L)]; [left; exact H|right]. exact S. Qed.

Section Data.
Context {D G : Type}.
Variable next : G -> Z -> Z * G.
Variable ord : list Z -> list Z.
Variable fuel : nat.
Variable ds : dataset R D.
Variables (n c : nat) (rest : list nat) (item : Z -> list R * list R) (label : Z -> nat).
Hypothesis N0 : 0 < n.
Hypothesis C0 : 0 < c /\ (Z.of_nat c <= int_max)%Z.
Hypothesis PI : proper (n :: rest).
Hypothesis LA : labelled ds n c rest item label.
Hypothesis Hnext : forall g ub, (0 <= ub)%Z -> (0 <= fst (next g ub) <= ub)%Z.
Hypothesis Hord : forall l, Permutation (ord l) l.

Lemma n_small : (Z.of_nat n <= 2147483647)%Z.
Proof. destruct (proper_in _ n PI (or_introl eq_refl)) as (_ & S). exact S. Qed.
Lemma data_config : config_ok ds (Z.of_nat n).
Proof.
  destruct LA as (SH & _ & _ & SZ & _). split; [lia|]. rewrite SH. cbn [fst snd]. split; [exact (fits_zs _ PI)|]. split; [|exact SZ].
  apply (fits_zs [n; 1]). split; [repeat constructor; lia|]. unfold small. pose proof n_small. cbn [prodN fold_right]. lia.
Qed.
Lemma item_len (d : D) j : (0 <= j < ds_size ds)%Z -> length (fst (item j)) = prodN rest /\ length (snd (item j)) = 1.
Proof.
  intros J. destruct LA as (SH & (_ & _ & _ & P) & NT & _). rewrite SH in P. cbn [fst snd] in P. rewrite prodZ_zs in P. rewrite Nat2Z.id in P.
  change (Z.to_nat (prodZ [1%Z])) with 1 in P.
  specialize (P d j (repeat 0%R (prodN rest)) [0%R] J (repeat_length _ _) eq_refl). unfold never_throws in NT. rewrite SH in NT. cbn [fst snd] in NT. rewrite prodZ_zs, Nat2Z.id in NT. specialize (NT d j (repeat 0%R (prodN rest)) [0%R] J (repeat_length _ _) eq_refl).
  destruct (ds_pull ds d j (repeat 0%R (prodN rest)) [0%R]) as ((d', (sx, sy)), ok). cbn in NT. subst ok. destruct P as (P1 & P2 & P3). specialize (P3 eq_refl). rewrite <- P3. auto.
Qed.
Lemma flat_len {A} (f : A -> list R) k l : (forall j, In j l -> length (f j) = k) -> length (flat_map f l) = length l * k.
Proof. induction l as [|x l IH]; intros H; cbn; [reflexivity|]. rewrite app_length, H, IH by (auto with datatypes). reflexivity. Qed.
Lemma batch_ten (d : D) idx X y : Forall (fun j => 0 <= j < ds_size ds)%Z idx -> batch_of n rest item idx X y ->
  ten_ok (n :: rest) X /\ labels n c y (fun i => label (nth i idx 0%Z)).
Proof.
  intros F (L & -> & ->). rewrite Forall_forall in F. destruct LA as (_ & _ & _ & _ & LB). split; [|split; [|split; [apply C0|]]].
  - split; [reflexivity|]. unfold twf, tot. cbn [tdat tsh]. rewrite (flat_len _ (prodN rest)); [rewrite L; reflexivity|]. intros j Hj. apply (item_len d), F, Hj.
  - split; [reflexivity|]. unfold twf, tot. cbn [tdat tsh]. rewrite (flat_len _ 1); [rewrite L; cbn; lia|]. intros j Hj. apply (item_len d), F, Hj.
  - intros i Hi. assert (J : (0 <= nth i idx 0 < ds_size ds)%Z) by (apply F, nth_In; lia). split; [apply LB, J|].
    cbn [tdat]. assert (E : flat_map (fun j => snd (item j)) idx = map (fun j => INR (label j)) idx).
    { clear -F LB. induction idx as [|j l IH]; cbn; [reflexivity|]. rewrite IH by auto with datatypes. destruct (LB j) as (-> & _); [auto with datatypes|reflexivity]. }
    rewrite E. rewrite (nth_indep _ 0%R (INR (label 0%Z))) by (rewrite map_length; lia). rewrite (map_nth (fun j => INR (label j))). reflexivity.
Qed.

Lemma pull_batch shuffle (l : loader D G) X y jx jy k : slot (n :: rest) X -> slot [n; 1] y -> l_pos l = Z.of_nat (k * n) -> k <= full ds n ->
  (shuffle = true -> n <= Z.to_nat (ds_size ds) -> forall g, exists u, NoDup u /\ length u = n /\ incl u (draws next fuel (ds_size ds - 1) g)) ->
  exists l' X' y', pull next ord fuel ds (Z.of_nat n) shuffle l X y jx jy = PRet (k <? full ds n) l' X' y' /\ slot (n :: rest) X' /\ slot [n; 1] y' /\
    if k <? full ds n
    then l_pos l' = Z.of_nat (S k * n) /\ exists idx, NoDup idx /\ Forall (fun j => 0 <= j < ds_size ds)%Z idx /\ batch_of n rest item idx (ten_of X') (ten_of y') /\
           (shuffle = false -> idx = upfrom (Z.of_nat (k * n)) (Z.of_nat n))
    else l_pos l' = 0%Z.
Proof.
  intros SX Sy PO LE PR. pose proof LA as (SH & DO & NT & SZ & LB). pose proof data_config as CF.
  assert (SX' := slot_tensor _ _ SX). assert (Sy' := slot_tensor _ _ Sy).
  assert (FB : full_batches ds (Z.of_nat n) = Z.of_nat (full ds n)).
  { unfold full_batches, full. rewrite Z2Nat.id; [reflexivity|]. apply Z.div_pos; [apply DO|lia]. }
  assert (FS : (Z.of_nat (full ds n) * Z.of_nat n <= ds_size ds)%Z) by (rewrite <- FB; eapply full_bound; eassumption).
  pose proof (pull_step next ord ds item (Z.of_nat n) DO CF Hnext Hord fuel shuffle l X y jx jy (Z.of_nat k) SX' Sy' ltac:(rewrite PO; lia) ltac:(rewrite FB; lia)) as H.
  assert (BE : (Z.of_nat k <? full_batches ds (Z.of_nat n))%Z = (k <? full ds n)).
  { rewrite FB. destruct (Nat.ltb_spec k (full ds n)); [apply Z.ltb_lt|apply Z.ltb_ge]; lia. }
  assert (AX := slot_accepted _ _ _ SX). assert (Ay := slot_accepted _ _ _ Sy).
  destruct (pull next ord fuel ds (Z.of_nat n) shuffle l X y jx jy) as [b l' X' y'|l' X' y'| |] eqn:E.
  - destruct H as (_ & _ & HB & PO' & R). rewrite BE in HB. subst b. exists l', X', y'. split; [reflexivity|]. rewrite SH in R. cbn [fst snd] in R.
    destruct (k <? full ds n).
    + destruct R as (idx & L & ND & RG & SQ & _ & HX & HY & Hx & Hy).
      rewrite SH in HX, Hx. cbn [fst snd] in HX, Hx.
      assert (L' : length idx = n) by lia.
      assert (BO : batch_of n rest item idx (ten_of X') (ten_of y')).
      { split; [exact L'|]. unfold ten_of. rewrite HX, HY, Hx, Hy. split; f_equal. cbn [map]. rewrite Nat2Z.id. f_equal. apply zs_nat. cbn [map]. rewrite Nat2Z.id. reflexivity. }
      assert (F : Forall (fun j => 0 <= j < ds_size ds)%Z idx) by (apply Forall_forall; exact RG).
      destruct (batch_ten (l_ds l) idx _ _ F BO) as ((_ & T1) & ((_ & T2) & _)).
      split; [right; split; [exact HX|]|split; [right; split; [exact Hx|]|]].
      * destruct BO as (_ & B1 & _). unfold ten_of in B1, T1. injection B1 as B1 _. unfold twf, tot in T1. cbn [tdat tsh] in T1. rewrite T1, B1. reflexivity.
      * destruct BO as (_ & _ & B1). unfold ten_of in B1, T2. injection B1 as B1 _. unfold twf, tot in T2. cbn [tdat tsh] in T2. rewrite T2, B1. reflexivity.
      * split; [lia|]. exists idx. split; [exact ND|]. split; [exact F|]. split; [exact BO|]. intros Hs. rewrite (SQ Hs). f_equal. lia.
    + destruct R as (RX & Ry). split; [|split; [|exact PO']].
      * subst X'. unfold prepared. destruct (tv_empty X) eqn:TE; [|exact SX]. right. cbn [v_shape v_data]. split; [reflexivity|]. rewrite tab_length.
        change (Z.of_nat n :: zs rest) with (zs (n :: rest)). rewrite prodZ_zs, Nat2Z.id. reflexivity.
      * subst y'. unfold prepared. destruct (tv_empty y) eqn:TE; [|exact Sy]. right. cbn [v_shape v_data]. split; [reflexivity|]. rewrite tab_length.
        change (Z.of_nat n :: [1%Z]) with (zs [n; 1]). rewrite prodZ_zs, Nat2Z.id. reflexivity.
  - exfalso. destruct H as (_ & _ & _ & H). rewrite SH in H. cbn [fst snd] in H. change [1%Z] with (zs [1]) in H. tauto.
  - destruct H.
  - exfalso. destruct H as (-> & H). assert (DS : (0 <= ds_size ds)%Z) by apply DO.
    assert (B : n <= Z.to_nat (ds_size ds)).
    { destruct (Nat.le_gt_cases n (Z.to_nat (ds_size ds))) as [L|L]; [exact L|exfalso]. assert (KN : (Z.of_nat (k * n) <= ds_size ds)%Z) by nia. unfold pull in E. unfold int_max in SZ.
      repeat match type of E with (match ?x with _ => _ end) = _ => destruct x eqn:?; try discriminate E end.
      all: match goal with H : Z.gtb (Z.modulo _ _) _ = false |- _ => rewrite Z.mod_small in H by (unfold size_mod; lia); rewrite Z.gtb_ltb in H; apply Z.ltb_ge in H end.
      all: lia. }
    destruct (PR eq_refl B (l_gen l)) as (u & ND & LU & IN).
    destruct (rand_terminates_distinct next fuel (Z.of_nat n) (ds_size ds - 1) (l_gen l) u) as (u' & g' & K); [unfold size_mod; pose proof n_small; lia|exact ND|lia|exact IN|]. congruence.
Qed.
End Data.

Lemma total_app l x : total (l ++ [x]) = (total l + x)%R.
Proof. unfold total. induction l as [|y l IH]; cbn; [lra|]. rewrite IH. lra. Qed.
Lemma mean_fdiv l : fdiv (Some (total l)) (Z.of_nat (length l)) = mean l.
Proof.
  unfold fdiv, xdiv, mean. rewrite <- INR_IZR_INZ. destruct l as [|x l]; [destruct (Req_EM_T _ _) as [_|E]; [reflexivity|destruct E; reflexivity]|].
  destruct (Req_EM_T _ _) as [E|_]; [exfalso; revert E; apply not_0_INR; discriminate|reflexivity].
Qed.

Section Loop.
Context {D1 D2 G : Type}.
Variable next : G -> Z -> Z * G.
Variable ord : list Z -> list Z.
Variables fuel : nat.
Variable world : nat -> outside.
Variables (es : estore) (i o : nat) (m : model).
Variables (n c : nat) (rest : list nat) (freq : Z).
Variables (ds1 : dataset R D1) (item1 : Z -> list R * list R) (label1 : Z -> nat).
Variables (ds2 : dataset R D2) (item2 : Z -> list R * list R) (label2 : Z -> nat).
Variable d20 : D2.
Hypothesis N0 : 0 < n.
Hypothesis C0 : 0 < c /\ (Z.of_nat c <= int_max)%Z.
Hypothesis PI : proper (n :: rest).
Hypothesis LA1 : labelled ds1 n c rest item1 label1.
Hypothesis LA2 : labelled ds2 n c rest item2 label2.
Hypothesis Hnext : forall g ub, (0 <= ub)%Z -> (0 <= fst (next g ub) <= ub)%Z.
Hypothesis Hord : forall l, Permutation (ord l) l.
Hypothesis Hprod : n <= Z.to_nat (ds_size ds1) -> forall g, exists u, NoDup u /\ length u = n /\ incl u (draws next fuel (ds_size ds1 - 1) g).
Hypothesis Hfreq : freq <> 0%Z.
Hypothesis HF : forall t d, fair (o_fwd (world t) d).
Hypothesis HA : forall t, is_argmax (e_amax (o_acc (world t))).
Hypothesis CM : constructed es [i] [o] m.
Hypothesis CL : closed (es_ph es) [i] [o].
Hypothesis DI : dims (es_ph es) i = n :: rest.
Hypothesis DO : dims (es_ph es) o = [n; c].
Hypothesis DB : forall d, needed (es_ph es) [o] d -> exists sh, dims (es_ph es) d = n :: sh.

Definition loop_ok (s : loop) : Prop := exists ran infos b opt crit P G,
  s = mkLoop (mkTS infos (Some b) opt) crit P G /\ usable ran (es_ph es) [o] m infos b /\ ends_in_softmax m b o /\ opt_fits m infos opt /\ ce_ok crit /\ ten_ok [n; c] P /\ ten_ok [n; c] G.

Lemma iteration_ok s x : loop_ok s -> batch_ok n c (n :: rest) x ->
  exists s' l, train_iteration m (b_fwd x) (b_bwd x) (b_loss x) (b_X x) (b_y x) s = Ret (Some (s', Some l)) /\ (0 <= l)%R /\ loop_ok s'.
Proof.
  intros (ran & infos & b & opt & crit & P & G0 & -> & U & SM & OF & CE & TP & TG) B.
  destruct (C55_training_a_classifier es i o m n c [x] ran infos b opt crit P G0 CM CL DO N0) as (infos' & b' & opt' & crit' & P' & G' & losses & E & L & F & K); try assumption.
  { rewrite DI. constructor; [exact B|constructor]. }
  cbn [train_batches] in E. destruct losses as [|l [|]]; try discriminate L. inversion F as [|? ? L0]; subst.
  destruct (train_iteration m (b_fwd x) (b_bwd x) (b_loss x) (b_X x) (b_y x) _) as [[(s', l')|]|?|] eqn:EI; try discriminate E.
  injection E as E1 E2. exists s', l. split; [rewrite E2; reflexivity|]. split; [exact L0|]. subst s'. exists true, infos', b', opt', crit', P', G'. split; [reflexivity|]. exact K.
Qed.

Definition learned (b : batch) : Prop := (forall d, fair (b_fwd b d)) /\ exists idx, NoDup idx /\ Forall (fun j => 0 <= j < ds_size ds1)%Z idx /\ batch_of n rest item1 idx (b_X b) (b_y b).
Definition slots (s : @vars D1 D2 G) : Prop := slot (n :: rest) (v_X s) /\ slot [n; 1] (v_y s).
Definition shown (losses : list R) (t : nat) : list line := if (Z.of_nat (t * n) mod freq =? 0)%Z then [Loss (mean (firstn t losses))] else [].

Lemma train_loop : forall todo k done losses0 (s : @vars D1 D2 G), todo < k -> done + todo = full ds1 n -> length losses0 = done ->
  loop_ok (v_loop s) -> slots s -> l_pos (v_train s) = Z.of_nat (done * n) ->
  exists bs losses s', train_while next ord fuel world m (Z.of_nat n) freq ds1 k (Some (total losses0)) (Z.of_nat done) s =
      FDone (s', Some (total (losses0 ++ losses)), Z.of_nat (full ds1 n)) /\
    train_batches m bs (v_loop s) = Ret (Some (v_loop s', map Some losses)) /\ length bs = todo /\ length losses = todo /\ Forall (fun l => 0 <= l)%R losses /\ Forall learned bs /\
    loop_ok (v_loop s') /\ slots s' /\ l_pos (v_train s') = 0%Z /\ v_val s' = v_val s /\
    v_out s' = (v_out s ++ flat_map (shown (losses0 ++ losses)) (seq (S done) todo))%list.
Proof.
  induction todo as [|todo IH]; intros [|k] done losses0 s LK DT LL LO (SX & Sy) PO; try lia; cbn [train_while].
  - destruct (pull_batch next ord fuel ds1 n c rest item1 label1 N0 C0 PI LA1 Hnext Hord true (v_train s) (v_X s) (v_y s) (o_jx (world (v_tick s))) (o_jy (world (v_tick s))) done SX Sy PO ltac:(lia) (fun _ => Hprod))
      as (l' & X' & y' & E & SX' & Sy' & R).
    replace (done <? full ds1 n) with false in * by (symmetry; apply Nat.ltb_ge; lia). rewrite E.
    exists [], [], (mkVars (v_loop s) X' y' l' (v_val s) (S (v_tick s)) (v_out s)). cbn [v_loop v_X v_y v_train v_val v_out]. rewrite app_nil_r. replace done with (full ds1 n) by lia.
    cbn [train_batches map length seq flat_map]. rewrite app_nil_r. do 4 (split; [reflexivity|]). do 2 (split; [constructor|]). split; [exact LO|]. split; [split; assumption|]. split; [exact R|]. split; reflexivity.
  - destruct (pull_batch next ord fuel ds1 n c rest item1 label1 N0 C0 PI LA1 Hnext Hord true (v_train s) (v_X s) (v_y s) (o_jx (world (v_tick s))) (o_jy (world (v_tick s))) done SX Sy PO ltac:(lia) (fun _ => Hprod))
      as (l' & X' & y' & E & SX' & Sy' & R).
    replace (done <? full ds1 n) with true in * by (symmetry; apply Nat.ltb_lt; lia). rewrite E.
    destruct R as (PO' & idx & ND & RG & BO & _). set (w := world (v_tick s)) in *.
    set (x := mkBatch (o_fwd w) (o_bwd w) (o_loss w) (ten_of X') (ten_of y')).
    assert (BK : batch_ok n c (n :: rest) x).
    { destruct (batch_ten ord ds1 n c rest item1 label1 N0 C0 LA1 Hord (l_ds (v_train s)) idx _ _ RG BO) as (TX & Ty). split; [intros d; apply HF|]. split; [exact TX|]. eexists. exact Ty. }
    destruct (iteration_ok (v_loop s) x LO BK) as (lp & l & EI & L0 & LO'). change (o_fwd w) with (b_fwd x). change (o_bwd w) with (b_bwd x). change (o_loss w) with (b_loss x).
    change (ten_of X') with (b_X x). change (ten_of y') with (b_y x). rewrite EI. cbn [fadd].
    replace (Z.of_nat done + 1)%Z with (Z.of_nat (S done)) by lia.
    assert (FI : fits_int (Z.of_nat (S done) * Z.of_nat n) = true).
    { assert (FS : (Z.of_nat (full ds1 n) * Z.of_nat n <= ds_size ds1)%Z).
      { unfold full. destruct LA1 as (_ & (H & _) & _). rewrite Z2Nat.id by (apply Z.div_pos; lia). rewrite Z.mul_comm. apply Z.mul_div_le. lia. }
      destruct LA1 as (_ & _ & _ & SZ & _). unfold fits_int. apply andb_true_intro. split; [apply Z.leb_le; unfold int_min; nia|apply Z.leb_le; nia]. }
    rewrite FI. cbn [negb]. replace (freq =? 0)%Z with false by (symmetry; apply Z.eqb_neq; exact Hfreq). rewrite <- total_app.
    set (s1 := mkVars lp X' y' l' (v_val s) (S (v_tick s)) (v_out s)).
    set (s2 := if (Z.rem (Z.of_nat (S done) * Z.of_nat n) freq =? 0)%Z then print (Loss (fdiv (Some (total (losses0 ++ [l]))) (Z.of_nat (S done)))) s1 else s1).
    assert (S2 : v_loop s2 = lp /\ v_X s2 = X' /\ v_y s2 = y' /\ v_train s2 = l' /\ v_val s2 = v_val s /\ v_out s2 = (v_out s ++ shown (losses0 ++ [l]) (S done))%list).
    { unfold s2, shown. replace (Z.of_nat (S done * n)) with (Z.of_nat (S done) * Z.of_nat n)%Z by lia.
      assert (RM : (Z.rem (Z.of_nat (S done) * Z.of_nat n) freq =? 0)%Z = (Z.modulo (Z.of_nat (S done) * Z.of_nat n) freq =? 0)%Z).
      { destruct (Z.eqb_spec (Z.rem (Z.of_nat (S done) * Z.of_nat n) freq) 0) as [H|H]; symmetry; [apply Z.eqb_eq|apply Z.eqb_neq; intros H'; apply H]; apply Z.rem_mod_eq_0; assumption. }
      rewrite RM. destruct (Z.modulo _ freq =? 0)%Z; cbn [print s1 v_loop v_X v_y v_train v_val v_out].
      - replace (S done) with (length (losses0 ++ [l])) by (rewrite app_length; cbn; lia). rewrite mean_fdiv, firstn_all. auto 10.
      - rewrite app_nil_r. auto 10. }
    destruct S2 as (V1 & V2 & V3 & V4 & V5 & V6).
    destruct (IH k (S done) (losses0 ++ [l])%list s2) as (bs & losses & s' & ET & EB & LB & LS & FL & FB & LO2 & SL & PE & VV & OUT); try lia.
    { rewrite app_length. cbn. lia. }
    { rewrite V1. exact LO'. }
    { split; [rewrite V2|rewrite V3]; assumption. }
    { rewrite V4. exact PO'. }
    exists (x :: bs), (l :: losses), s'. rewrite <- app_assoc in ET, OUT. cbn [app] in ET, OUT.
    split; [exact ET|]. split; [cbn [train_batches]; rewrite EI, V1 in *; rewrite EB; reflexivity|]. split; [cbn; lia|]. split; [cbn; lia|].
    split; [constructor; assumption|]. split; [constructor; [split; [intros d; apply HF|exists idx; auto]|exact FB]|]. split; [exact LO2|]. split; [exact SL|]. split; [exact PE|]. split; [congruence|].
    assert (EQ : firstn (S done) (losses0 ++ l :: losses) = firstn (S done) (losses0 ++ [l])).
    { replace (l :: losses) with ([l] ++ losses)%list by reflexivity. rewrite app_assoc, (firstn_app _ (losses0 ++ [l])). replace (S done - length (losses0 ++ [l])) with 0 by (rewrite app_length; cbn [length]; lia).
      apply app_nil_r. }
    rewrite OUT, V6, <- app_assoc. cbn [seq flat_map]. unfold shown at 3. rewrite EQ. reflexivity.
Qed.

(** *** Validation *)
Lemma sample_flat (f : Z -> list R) k idx r j sh : prodN sh = k -> (forall j, In j idx -> length (f j) = k) -> nth_error idx r = Some j ->
  sample (mkT (length idx :: sh) (flat_map f idx)) r = f j.
Proof.
  unfold sample. cbn [tsh tl tdat]. intros -> H. revert r. induction idx as [|a l IH]; intros [|r] E; cbn in E; try discriminate.
  - injection E as ->. cbn [Nat.mul skipn flat_map]. rewrite firstn_app. rewrite <- (H j) at 1 by auto with datatypes. rewrite firstn_all. rewrite (H j) by auto with datatypes. rewrite Nat.sub_diag. cbn. apply app_nil_r.
  - cbn [flat_map]. rewrite skipn_app. rewrite skipn_all2 by (rewrite H by auto with datatypes; cbn; lia). cbn [app]. rewrite H by auto with datatypes. replace (S r * k - k) with (r * k) by (cbn; lia).
    apply IH; [auto with datatypes|exact E].
Qed.

Lemma shaped_one (a : nat) sh X : dims (es_ph es) a = sh -> ten_ok sh X -> shaped (es_ph es) [a] [X].
Proof. intros <- H. constructor; [exact H|constructor]. Qed.

Notation predicts := (predicts m n c rest ds2 item2).

Lemma val_forward ran infos b E X P : usable ran (es_ph es) [o] m infos b -> eval_mode (es_ph es) [o] m infos b -> (forall d, fair (E d)) ->
  ten_ok (n :: rest) X -> ten_ok [n; c] P ->
  exists b' p, model_forward E m infos (Some b) [X] [P] = Ret (infos, Some b', [X], [p]) /\ ten_ok [n; c] p /\
    usable true (es_ph es) [o] m infos b' /\ eval_mode (es_ph es) [o] m infos b' /\ (ends_in_softmax m b o -> ends_in_softmax m b' o) /\
    forall scores, predicts infos (Some b) scores -> predicts infos (Some b') scores.
Proof.
  intros U EM FE TX TP. destruct (constructed_parts _ _ _ _ CM) as (MF & LB & VO & ND & RF). pose proof (shaped_one i _ X DI TX) as SX. pose proof (shaped_one o _ P DO TP) as SP.
  destruct (forward_pure _ _ _ _ MF CL LB VO RF ran E infos b [X] [P] U EM FE SX SP) as (V & b' & _ & VT & EF & U' & EM' & SW).
  destruct (C56_evaluation_leaves_no_trace es [i] [o] m ran infos b n (SGD 0) [TForward E [X] [P]] CM CL U EM DB) as (b2 & ET & _ & K).
  { constructor; [eauto|constructor]. }
  { cbn. auto. }
  cbn [tacts tact ts_info ts_backend ts_opt] in ET. rewrite EF in ET. injection ET as <-.
  exists b', (V o). split; [exact EF|]. split; [rewrite <- DO; apply VT, need_out; left; reflexivity|]. split; [exact U'|]. split; [exact EM'|]. split.
  - intros SM. destruct (softmax_produced es i o m n c CM CL DO ran infos b U SM) as (args & Ca & PS & _).
    assert (NO : needed (es_ph es) [o] o) by (apply need_out; left; reflexivity).
    destruct (usable_fits _ _ _ _ _ _ U' o args NO Ca) as (L' & P' & _). pose proof (SW o _ _ NO PS P') as W. destruct L'; cbn in W; try contradiction.
    destruct P' as (j & op & L0 & li & H1 & H2 & H3 & H4 & H5). exists j, op. split; [exact H1|]. split; [exact H2|]. rewrite H3. f_equal. destruct L0; cbn in H5; inv_ok H5; try discriminate H5. reflexivity.
  - intros scores PR j E' idx X' y' T r J FE' RG BO R TT. destruct (PR j E' idx X' y' T r J FE' RG BO R TT) as (bo & p & E1 & TP1 & SS).
    assert (TX' : ten_ok (n :: rest) X').
    { apply (batch_ten ord ds2 n c rest item2 label2 N0 C0 LA2 Hord) with (idx := idx) (y := y'); assumption. }
    destruct (K E' E' [X'] [T] [T] FE' FE' (shaped_one i _ X' DI TX') (shaped_one o _ T DO TT) (shaped_one o _ T DO TT)) as (c1 & c2 & ys & F1 & F2).
    rewrite F1 in E1. injection E1 as <- ->. exists (Some c2), p. auto.
Qed.

Lemma predicts_some ran infos b (E0 : nat -> env) P : usable ran (es_ph es) [o] m infos b -> eval_mode (es_ph es) [o] m infos b -> (forall d, fair (E0 d)) -> ten_ok [n; c] P ->
  exists scores, predicts infos (Some b) scores /\ forall j, (0 <= j < ds_size ds2)%Z -> length (scores j) = c.
Proof.
  intros U EM FE0 TP. set (X0 := fun j => mkT (n :: rest) (flat_map (fun j => fst (item2 j)) (repeat j n))).
  exists (fun j => match model_forward E0 m infos (Some b) [X0 j] [P] with Ret (_, _, _, [p]) => sample p 0 | _ => [] end).
  assert (IL := item_len ds2 n c rest item2 label2 LA2 d20).
  assert (T0 : forall j, (0 <= j < ds_size ds2)%Z -> ten_ok (n :: rest) (X0 j)).
  { intros j J. split; [reflexivity|]. unfold twf, tot, X0. cbn [tdat tsh]. rewrite (flat_len _ (prodN rest)); [rewrite repeat_length; reflexivity|]. intros k Hk. apply repeat_spec in Hk. subst k. apply IL, J. }
  assert (S0 : forall j, (0 <= j < ds_size ds2)%Z -> sample (X0 j) 0 = fst (item2 j)).
  { intros j J. unfold X0. rewrite <- (repeat_length j n) at 1. apply (sample_flat (fun j => fst (item2 j)) (prodN rest)); [reflexivity| |].
    - intros k Hk. apply repeat_spec in Hk. subst k. apply IL, J.
    - destruct n; [lia|reflexivity]. }
  split.
  - intros j E idx X y T r J FE RG BO R TT. destruct BO as (LI & -> & _). pose proof RG as RG'. rewrite Forall_forall in RG.
    assert (TX : ten_ok (n :: rest) (mkT (n :: rest) (flat_map (fun j => fst (item2 j)) idx))).
    { split; [reflexivity|]. unfold twf, tot. cbn [tdat tsh]. rewrite (flat_len _ (prodN rest)); [rewrite LI; reflexivity|]. intros k Hk. apply IL, RG, Hk. }
    assert (RN : r < n) by (rewrite <- LI; apply nth_error_Some; congruence).
    destruct (C56_samples_do_not_influence_each_other es [i] [o] m ran infos b n CM CL U EM DB E E0 [mkT (n :: rest) (flat_map (fun j => fst (item2 j)) idx)] [X0 j] [T] [P] r 0 FE FE0
      (shaped_one i _ _ DI TX) (shaped_one i _ _ DI (T0 j J)) (shaped_one o _ _ DO TT) (shaped_one o _ _ DO TP) RN N0) as (b1 & ys & b1' & ys' & F1 & F2 & SS).
    { constructor; [|constructor]. rewrite (S0 j J). rewrite <- LI at 1. apply (sample_flat (fun j => fst (item2 j)) (prodN rest)); [reflexivity| |exact R]. intros k Hk. apply IL, RG, Hk. }
    destruct (val_forward ran infos b E _ T U EM FE TX TT) as (b2 & p & F3 & T3 & _). rewrite F1 in F3. injection F3 as -> ->.
    exists (Some b2), p. split; [exact F1|]. split; [exact T3|]. rewrite F2. inversion SS as [|? q ? ? H1 H2]; subst. inversion H2; subst. exact H1.
  - intros j J. destruct (val_forward ran infos b E0 (X0 j) P U EM FE0 (T0 j J) TP) as (b2 & p & F3 & (T3 & T4) & _). rewrite F3. unfold sample. rewrite T3. cbn [tl].
    rewrite firstn_length. cbn [Nat.mul skipn]. unfold twf, tot in T4. rewrite T4, T3. cbn [prodN fold_right]. unfold prodN. cbn [fold_right]. nia.
Qed.

Definition counted (k : nat) (best : nat -> nat) (v : R) : Prop :=
  exists rows, NoDup rows /\ (forall j, In j rows <-> j < k * n /\ best j = label2 (Z.of_nat j)) /\ v = (INR (length rows) / INR n)%R.

Lemma counted_next k best v col w best' : counted k best v -> share n (fun r => col r = label2 (Z.of_nat (k * n + r))) w ->
  (forall j, j < k * n -> best' j = best j) -> (forall r, r < n -> best' (k * n + r) = col r) -> counted (S k) best' (v + w).
Proof.
  intros (rows & ND & IN & ->) (rows' & ND' & IN' & ->) B1 B2. exists (rows ++ map (fun r => k * n + r) rows')%list. split; [|split].
  - apply NoDup_app_intro.
    + exact ND.
    + apply FinFun.Injective_map_NoDup; [intros a b; lia|exact ND'].
    + intros j H1 H2. apply IN in H1. apply in_map_iff in H2. destruct H2 as (r & <- & _). lia.
  - intros j. rewrite in_app_iff, in_map_iff, IN. split.
    + intros [(L & B)|(r & <- & Hr)].
      * rewrite B1 by exact L. split; [cbn; lia|exact B].
      * apply IN' in Hr. destruct Hr as (L & B). rewrite B2 by exact L. split; [cbn; lia|exact B].
    + intros (L & B). destruct (Nat.lt_ge_cases j (k * n)) as [H|H]; [left; rewrite B1 in B by exact H; auto|right]. exists (j - k * n). split; [lia|]. apply IN'.
      rewrite <- B2 by (cbn in L; lia). replace (k * n + (j - k * n)) with j by lia. split; [cbn in L; lia|exact B].
  - rewrite app_length, map_length, plus_INR. unfold Rdiv. lra.
Qed.

Lemma upfrom_nth a k r : r < k -> nth_error (upfrom a (Z.of_nat k)) r = Some (a + Z.of_nat r)%Z.
Proof.
  intros H. unfold upfrom. rewrite nth_error_map, Nat2Z.id. rewrite (nth_error_nth' (seq 0 k) 0) by (rewrite seq_length; exact H). rewrite seq_nth by exact H. reflexivity.
Qed.

Lemma val_loop scores infos opt crit Gr : forall todo k done acc best ran b P (s : @vars D1 D2 G), todo < k -> done + todo = full ds2 n ->
  v_loop s = mkLoop (mkTS infos (Some b) opt) crit P Gr -> usable ran (es_ph es) [o] m infos b -> eval_mode (es_ph es) [o] m infos b -> ends_in_softmax m b o -> ten_ok [n; c] P ->
  predicts infos (Some b) scores -> (forall j, j < done * n -> max_col c (scores (Z.of_nat j)) 0 (best j)) -> counted done best acc -> slots s -> l_pos (v_val s) = Z.of_nat (done * n) ->
  exists s' acc' best' ran' b' P', val_while next ord fuel world m (Z.of_nat n) ds2 k (Some acc) (Z.of_nat done) s = FDone (s', Some acc', Z.of_nat (full ds2 n)) /\
    v_loop s' = mkLoop (mkTS infos (Some b') opt) crit P' Gr /\ usable ran' (es_ph es) [o] m infos b' /\ ends_in_softmax m b' o /\ ten_ok [n; c] P' /\
    predicts infos (Some b') scores /\ (forall j, j < full ds2 n * n -> max_col c (scores (Z.of_nat j)) 0 (best' j)) /\ counted (full ds2 n) best' acc' /\
    slots s' /\ l_pos (v_val s') = 0%Z /\ v_train s' = v_train s /\ v_out s' = v_out s /\ eval_mode (es_ph es) [o] m infos b'.
Proof.
  induction todo as [|todo IH]; intros [|k] done acc best ran b P s LK DT VL U EM SM TP PR MX CO (SX & Sy) PO; try lia; cbn [val_while];
    destruct (pull_batch next ord fuel ds2 n c rest item2 label2 N0 C0 PI LA2 Hnext Hord false (v_val s) (v_X s) (v_y s) (o_jx (world (v_tick s))) (o_jy (world (v_tick s))) done SX Sy PO ltac:(lia) ltac:(discriminate))
      as (l' & X' & y' & E & SX' & Sy' & R).
  - replace (done <? full ds2 n) with false in * by (symmetry; apply Nat.ltb_ge; lia). rewrite E.
    exists (mkVars (v_loop s) X' y' (v_train s) l' (S (v_tick s)) (v_out s)), acc, best, ran, b, P. cbn [v_loop v_X v_y v_train v_val v_out]. replace (full ds2 n) with done by lia.
    split; [reflexivity|]. split; [exact VL|]. split; [exact U|]. split; [exact SM|]. split; [exact TP|]. split; [exact PR|]. split; [exact MX|]. split; [exact CO|]. split; [split; assumption|]. auto.
  - replace (done <? full ds2 n) with true in * by (symmetry; apply Nat.ltb_lt; lia). rewrite E. destruct R as (PO' & idx & ND & RG & BO & SQ). specialize (SQ eq_refl). subst idx.
    rewrite VL. cbn [l_ts ts_info ts_backend ts_opt l_pred l_crit l_grad].
    destruct (batch_ten ord ds2 n c rest item2 label2 N0 C0 LA2 Hord d20 _ _ _ RG BO) as (TX & Ty).
    destruct (val_forward ran infos b (o_fwd (world (v_tick s))) (ten_of X') P U EM (HF _) TX TP) as (b' & p & EF & Tp & U' & EM' & SM' & PR'). rewrite EF.
    destruct (C26_accuracy_is_share_of_correct_rows (o_acc (world (v_tick s))) n c p (ten_of y') (HA _) N0 (proj1 C0) Tp) as (col & v & EA & MC & SH & _).
    { destruct Ty as ((T1 & T2) & _). unfold twf, tot in *. rewrite T2, T1. cbn. lia. }
    rewrite EA. cbn [fadd]. replace (Z.of_nat done + 1)%Z with (Z.of_nat (S done)) by lia.
    set (best' := fun j => if j <? done * n then best j else col (j - done * n)).
    assert (B1 : forall j, j < done * n -> best' j = best j) by (intros j H; unfold best'; apply Nat.ltb_lt in H; rewrite H; reflexivity).
    assert (B2 : forall r, r < n -> best' (done * n + r) = col r).
    { intros r H. unfold best'. replace (done * n + r <? done * n) with false by (symmetry; apply Nat.ltb_ge; lia). f_equal. lia. }
    match goal with |- exists s' acc' best' ran' b' P', val_while _ _ _ _ _ _ _ _ _ _ ?t = _ /\ _ =>
      destruct (IH k (S done) (acc + v)%R best' true b' p t) as (s' & acc' & best'' & ran' & b'' & P' & ET & K); [lia|lia|reflexivity|exact U'|exact EM'|exact (SM' SM)|exact Tp|exact (PR' _ PR)| | |split; assumption|exact PO'|] end.
    + intros j Hj. destruct (Nat.lt_ge_cases j (done * n)) as [H|H]; [rewrite B1 by exact H; apply MX, H|].
      set (r := j - done * n). assert (Hr : r < n) by (unfold r; cbn in Hj; lia). replace j with (done * n + r) by (unfold r; lia). rewrite B2 by exact Hr.
      pose proof (upfrom_nth (Z.of_nat (done * n)) n r Hr) as NE. replace (Z.of_nat (done * n) + Z.of_nat r)%Z with (Z.of_nat (done * n + r)) in NE by lia.
      assert (J : (0 <= Z.of_nat (done * n + r) < ds_size ds2)%Z) by (rewrite Forall_forall in RG; apply RG; eapply nth_error_In, NE).
      destruct (PR _ (o_fwd (world (v_tick s))) _ _ _ P r J (HF _) RG BO NE TP) as (b2 & p2 & EF2 & _ & SS). rewrite EF in EF2. injection EF2 as <- <-.
      assert (GET : forall q, q < c -> (scores (Z.of_nat (done * n + r))).[q] = (tdat p).[r * c + q]).
      { intros q Hq. rewrite <- SS. assert (PC : prodN [c] = c) by (unfold prodN; cbn [fold_right]; lia). rewrite (sample_get n [c] p r q Tp Hr); rewrite PC; [reflexivity|exact Hq]. }
      destruct (MC r Hr) as (M1 & M2). split; [exact M1|]. intros q Hq. cbn [Nat.mul Nat.add]. rewrite !GET by assumption. apply M2, Hq.
    + apply (counted_next done best acc col v best' CO); [|exact B1|exact B2].
      destruct SH as (rows & R1 & R2 & R3). exists rows. split; [exact R1|]. split; [|exact R3]. intros r. rewrite R2.
      destruct Ty as (_ & _ & LBL). split; intros (Hr & H); (split; [exact Hr|]); destruct (LBL r Hr) as (_ & V);
        assert (NR : nth r (upfrom (Z.of_nat (done * n)) (Z.of_nat n)) 0%Z = Z.of_nat (done * n + r)) by (rewrite (nth_error_nth _ _ _ (upfrom_nth _ _ _ Hr)); lia); rewrite NR in V.
      * apply INR_eq. congruence.
      * rewrite H, V. reflexivity.
    + exists s', acc', best'', ran', b'', P'. split; [exact ET|]. exact K.
Qed.

Lemma set_mode_ok mode s : loop_ok (v_loop s) -> loop_ok (v_loop (@set_mode D1 D2 G m mode s)).
Proof.
  intros (ran & infos & b & opt & crit & P & G0 & E & U & SM & OF & CE & TP & TG). destruct (constructed_parts _ _ _ _ CM) as (MF & LB & VO & ND & RF).
  unfold set_mode. cbn [v_loop]. rewrite E. cbn [l_ts l_crit l_pred l_grad ts_info ts_backend ts_opt].
  pose proof (train_moved m ND mode infos (proj2 (proj2 (proj2 U)))) as MV.
  exists ran, (model_train mode m infos), b, opt, crit, P, G0. split; [reflexivity|]. split; [eapply moved_usable; eassumption|]. split; [exact SM|].
  split; [eapply opt_moved; eassumption|auto].
Qed.

Lemma counted_mean best acc : counted (full ds2 n) best acc ->
  match full ds2 n with O => fdiv (Some acc) (Z.of_nat (full ds2 n)) = None
  | _ => exists v, fdiv (Some acc) (Z.of_nat (full ds2 n)) = Some v /\ share (full ds2 n * n) (fun j => best j = label2 (Z.of_nat j)) v end.
Proof.
  intros (rows & ND & IN & ->). unfold fdiv, xdiv. rewrite <- INR_IZR_INZ. destruct (full ds2 n) as [|k] eqn:F.
  - destruct (Req_EM_T _ _) as [_|H]; [reflexivity|destruct H; reflexivity].
  - destruct (Req_EM_T _ _) as [H|H]; [exfalso; revert H; apply not_0_INR; discriminate|]. eexists. split; [reflexivity|]. exists rows. split; [exact ND|]. split; [exact IN|].
    rewrite mult_INR. assert (INR n <> 0)%R by (apply not_0_INR; lia). field. auto.
Qed.

Variable turns : nat.
Hypothesis T1 : full ds1 n < turns.
Hypothesis T2 : full ds2 n < turns.

Definition ready (s : @vars D1 D2 G) : Prop := loop_ok (v_loop s) /\ slots s /\ l_pos (v_train s) = 0%Z /\ l_pos (v_val s) = 0%Z.

Definition evaluates (s : @vars D1 D2 G) : Prop := exists b, ts_backend (l_ts (v_loop s)) = Some b /\ eval_mode (es_ph es) [o] m (ts_info (l_ts (v_loop s))) b.

Lemma epoch_ok e s : ready s -> exists s' losses acc, epoch next ord fuel turns world m (Z.of_nat n) freq ds1 ds2 e s = FDone s' /\ ready s' /\
  epoch_run m n c rest ds1 item1 ds2 item2 label2 (v_loop s) (v_loop s') losses acc /\ v_out s' = (v_out s ++ epoch_lines e n freq losses acc)%list /\ evaluates s'.
Proof.
  intros (LO & SL & P1 & P2). unfold epoch.
  destruct (train_loop (full ds1 n) turns 0 [] (set_mode m true (print (Epoch e) s)) T1 eq_refl eq_refl (set_mode_ok true (print (Epoch e) s) LO) SL) as
    (bs & losses & s1 & ET & EB & LB & LL & FL & FB & LO1 & SL1 & PE & VV & OUT); [exact P1|].
  change (Some (total [])) with (Some 0%R) in ET. change (Z.of_nat 0) with 0%Z in ET. rewrite ET. cbn [fbind app]. unfold validate.
  set (s2 := print (Loss (fdiv (Some (total losses)) (Z.of_nat (full ds1 n)))) s1).
  pose proof LO1 as (ran & infos & b & opt & crit & P & Gr & E1 & U & SM & OF & CE & TP & TG).
  destruct (constructed_parts _ _ _ _ CM) as (MF & LK & VO & ND & RF).
  destruct (C56_train_false_is_evaluation_mode es [i] [o] m ran infos b CM U) as (U2 & EM2).
  destruct (predicts_some ran (model_train false m infos) b (o_fwd (world 0)) P U2 EM2 (HF 0) TP) as (scores & PR & SC).
  destruct (val_loop scores (model_train false m infos) opt crit Gr (full ds2 n) turns 0 0%R (fun _ => 0) ran b P (set_mode m false s2) T2 eq_refl) as
    (s3 & acc & best & ran' & b' & P' & EV & VL & U3 & SM3 & TP3 & PR3 & MX & CO & SL3 & PV & VT & OV & EM3); try assumption.
  - unfold set_mode, s2, print. cbn [v_loop]. rewrite E1. reflexivity.
  - intros j H. lia.
  - exists []. split; [constructor|]. split; [intros j; cbn; lia|]. cbn. unfold Rdiv. lra.
  - cbn [set_mode s2 print v_val]. rewrite VV. exact P2.
  - change (Z.of_nat 0) with 0%Z in EV. rewrite EV. cbn [fbind].
    exists (print (Accuracy (fdiv (Some acc) (Z.of_nat (full ds2 n)))) s3), losses, (fdiv (Some acc) (Z.of_nat (full ds2 n))). split; [reflexivity|].
    pose proof (train_moved m ND false infos (proj2 (proj2 (proj2 U)))) as MV. assert (OF3 : opt_fits m (model_train false m infos) opt) by (eapply opt_moved; eassumption).
    split; [|split; [|split]].
    + split; [|split; [exact SL3|split; [|exact PV]]].
      * cbn [print v_loop]. exists ran', (model_train false m infos), b', opt, crit, P', Gr. auto 10.
      * cbn [print v_train]. rewrite VT. exact PE.
    + cbn [print v_loop]. exists bs, (v_loop s1). split; [exact EB|]. split; [exact LB|]. split; [exact FL|]. split; [exact FB|].
      rewrite VL, E1. cbn [l_ts ts_info ts_opt ts_backend]. split; [reflexivity|]. split; [reflexivity|]. exists scores, best. split; [exact PR3|]. split; [exact SC|].
      pose proof (counted_mean best acc CO) as CM'. destruct (full ds2 n) eqn:F2; [exact CM'|]. split; [exact MX|exact CM'].
    + cbn [print v_out]. rewrite OV. cbn [set_mode s2 print v_out]. rewrite OUT. cbn [set_mode print v_out]. unfold epoch_lines. rewrite <- !app_assoc. cbn [app]. rewrite LL.
      pose proof (mean_fdiv losses) as MN. rewrite LL in MN. rewrite MN. reflexivity.
    + exists b'. cbn [print v_loop]. rewrite VL. split; [reflexivity|exact EM3].
Qed.

Lemma epochs_ok : forall k e s, ready s -> exists s' out, epochs next ord fuel turns world m (Z.of_nat n) freq ds1 ds2 k e s = FDone s' /\ ready s' /\
  training_run m n c rest ds1 item1 ds2 item2 label2 freq k e (v_loop s) (v_loop s') out /\ v_out s' = (v_out s ++ out)%list /\ (k <> 0 -> evaluates s').
Proof.
  induction k as [|k IH]; intros e s RD; cbn [epochs].
  - exists s, []. rewrite app_nil_r. split; [reflexivity|]. split; [exact RD|]. split; [constructor|]. split; [reflexivity|intros H; destruct H; reflexivity].
  - destruct (epoch_ok e s RD) as (s1 & losses & acc & E1 & RD1 & ER & O1 & EV1). rewrite E1. cbn [fbind].
    destruct (IH (S e) s1 RD1) as (s2 & out & E2 & RD2 & TR & O2 & EV2). exists s2, (epoch_lines e n freq losses acc ++ out)%list.
    split; [exact E2|]. split; [exact RD2|]. split; [econstructor; eassumption|]. split; [rewrite O2, O1, app_assoc; reflexivity|]. intros _. destruct k; [|apply EV2; discriminate]. cbn [epochs] in E2. injection E2 as <-. exact EV1.
Qed.
End Loop.

Lemma construct_ph order ins outs es es' m : construct_model order ins outs es = RVal es' m -> es_ph es' = es_ph es.
Proof.
  unfold construct_model. intros E. destruct (build (es_ph es) ins outs) as [g| |]; try discriminate E.
  destruct (init_ops (es_ph es) g (order g) 0 (op_nodes (order g)) (es_info es)) as [[infos ops]| |] eqn:IO; try discriminate E.
  match type of E with (match ?x with _ => _ end) = _ => destruct x; try discriminate E end. injection E as <- _. reflexivity.
Qed.

Section Program.
Context {D1 D2 G : Type}.
Variables (next : G -> Z -> Z * G) (iter_order : list Z -> list Z) (fuel turns : nat) (world : nat -> outside).
Variables (order : graph -> list gnode) (net : Z -> prog (nat * nat)) (make_opt : pmap -> optimizer).
Variables (n c : nat) (rest : list nat) (t : list row) (I : nat -> ienv).
Variables (num_epochs freq : Z) (train_set : dataset R D1) (item1 : Z -> list R * list R) (label1 : Z -> nat).
Variables (test_set : dataset R D2) (item2 : Z -> list R * list R) (label2 : Z -> nat) (junk : nat -> R) (d1 : D1) (d2 : D2) (g : G).
Hypothesis NET : net (Z.of_nat n) es0 = RVal (expression I (n :: rest) t) (0, length t).
Hypothesis CLS : classifier n c rest t.
Hypothesis SRT : sorts order.
Hypothesis OPT : new_optimizer make_opt.
Hypothesis CI : (Z.of_nat c <= int_max)%Z.
Hypothesis LA1 : labelled train_set n c rest item1 label1.
Hypothesis LA2 : labelled test_set n c rest item2 label2.
Hypothesis RNG : in_range next.
Hypothesis PRM : forall l, Permutation (iter_order l) l.
Hypothesis ENO : enough next fuel n (ds_size train_set).
Hypothesis T1 : full train_set n < turns.
Hypothesis T2 : full test_set n < turns.
Hypothesis FRQ : freq <> 0%Z.
Hypothesis HF : forall k d, fair (o_fwd (world k) d).
Hypothesis HA : forall k, is_argmax (e_amax (o_acc (world k))).
Notation es := (expression I (n :: rest) t).

Lemma program_start : exists es' m s b,
  let v0 := mkVars s (mkTv [] []) (mkTv [] []) (mkLd 0 d1 g) (mkLd 0 d2 g) 0 [] in
  construct_model order [0] [length t] es = RVal es' m /\ constructed es [0] [length t] m /\ at_start I n c rest t m (es_info es') make_opt s /\
  ts_backend (l_ts s) = Some b /\ usable false (es_ph es) [length t] m (es_info es') b /\
  prepare (es_ph es') m (es_info es') make_opt junk d1 d2 g = FDone v0 /\ ready es (length t) m n c rest v0 /\ 0 < n /\ 0 < c /\ proper (n :: rest).
Proof.
  assert (PI : proper (n :: rest)) by apply CLS. assert (N0 : 0 < n) by (destruct (proper_in _ n PI (or_introl eq_refl)); assumption).
  destruct (last_row I n c rest t CLS) as (r & Hr & LT & RS & RO).
  assert (PO : proper [n; c]).
  { destruct (cl_row _ _ _ _ CLS _ _ Hr) as (_ & (_ & _ & P & _) & _). rewrite RO in P. exact P. }
  assert (C0 : 0 < c) by (destruct (proper_in _ c PO) as (P & _); [right; left; reflexivity|exact P]).
  destruct (table_constructs I n c rest t CLS order SRT) as (gr & es' & m & BU & TO & CO).
  pose proof (table_plain I n c rest t CLS) as PL.
  assert (VO : Forall (fun d => d < length (es_ph es)) [length t]) by (constructor; [rewrite expression_len; lia|constructor]).
  assert (CM : constructed es [0] [length t] m).
  { split; [exact (table_built I n c rest t CLS)|]. split; [exact VO|]. exists order, gr, es'. auto. }
  destruct (C54_compiled_models_are_usable es _ order [0] [length t] gr es' m junk None PL VO BU TO CO) as (b & CP & U & PRD).
  { intros d s i args N _. left. exact (table_once I n c rest t CLS d N). }
  pose proof (construct_ph _ _ _ _ _ _ CO) as PH.
  destruct (constructed_parts _ _ _ _ CM) as (MF & LK & _ & ND & RF).
  pose proof (table_out I n c rest t CLS) as (r' & HO & Hr' & _).
  set (P0 := mkT [n; c] (tab (prodN [n; c]) junk)).
  assert (TP0 : ten_ok [n; c] P0) by (split; [reflexivity|unfold twf, tot, P0; cbn [tdat tsh]; apply tab_length]).
  set (s := mkLoop (mkTS (es_info es') (Some b) (make_opt (params_view m (es_info es')))) (mkCE [] []) P0 P0).
  assert (PREP : prepare (es_ph es') m (es_info es') make_opt junk d1 d2 g =
    FDone (mkVars s (mkTv [] []) (mkTv [] []) (mkLd 0 d1 g) (mkLd 0 d2 g) 0 [])).
  { unfold prepare. rewrite PH, CP. rewrite (P_Run.mf_out _ _ _ _ MF). cbn [rd nth_error bind]. unfold rd. rewrite HO. cbn [bind ph_shape]. rewrite new_ten_proper by exact PO. reflexivity. }
  assert (START : forall j r, nth_error t j = Some r -> needed (es_ph es) [length t] (S j) -> produces m (es_info es') b (S j) (start (I j) (r_layer r) (r_in r))).
  { intros j q Hq N. pose proof (table_call_at I n rest t j q Hq) as HC.
    apply (PRD (S j) _ j _ (mkMade (I j) (r_layer q) (r_in q) (r_out q)) N HC). rewrite lines_nth, Hq. reflexivity. }
  assert (SM : ends_in_softmax m b (length t)).
  { assert (NO : needed (es_ph es) [length t] (S (length t - 1))) by (replace (S (length t - 1)) with (length t) by lia; apply need_out; left; reflexivity).
    pose proof (START _ _ Hr NO) as P. rewrite RS in P. cbn [start] in P. replace (S (length t - 1)) with (length t) in P by lia.
    destruct P as (j & op & L0 & li & H1 & H2 & H3 & H4 & H5). exists j, op. split; [exact H1|]. split; [exact H2|]. rewrite H3. f_equal. destruct L0; cbn in H5; inv_ok H5; try discriminate H5. reflexivity. }
  assert (OF : opt_fits m (es_info es') (make_opt (params_view m (es_info es')))).
  { destruct (C53_new_optimizers_fit es [0] [length t] m (es_info es') CM) as (O1 & O2 & O3); [apply U|]. destruct OPT; auto. }
  assert (RD : ready es (length t) m n c rest (mkVars s (mkTv [] []) (mkTv [] []) (mkLd 0 d1 g) (mkLd 0 d2 g) 0 [])).
  { split; [|split; [split; left; reflexivity|split; reflexivity]]. cbn [v_loop]. exists false, (es_info es'), b, (make_opt (params_view m (es_info es'))), (mkCE [] []), P0, P0.
    split; [reflexivity|]. split; [exact U|]. split; [exact SM|]. split; [exact OF|]. split; [left; reflexivity|]. auto. }
  exists es', m, s, b. cbv zeta. split; [exact CO|]. split; [exact CM|]. split; [exists b, P0; split; [reflexivity|]; split; [exact TP0|exact START]|].
  split; [reflexivity|]. split; [exact U|]. split; [exact PREP|]. split; [exact RD|]. auto.
Qed.

Lemma train_main_runs : exists es' m infos s s' out ran b,
  train_main next iter_order fuel turns world order net make_opt (Z.of_nat n) num_epochs freq train_set test_set junk d1 d2 g = FDone ((out ++ [Saved])%list, es', m, infos) /\
  construct_model order [0] [length t] es = RVal es' m /\ constructed es [0] [length t] m /\ at_start I n c rest t m (es_info es') make_opt s /\
  training_run m n c rest train_set item1 test_set item2 label2 freq (Z.to_nat num_epochs) 0 s s' out /\
  infos = ts_info (l_ts s') /\ ts_backend (l_ts s') = Some b /\ usable ran (es_ph es) [length t] m infos b.
Proof.
  destruct program_start as (es' & m & s & b0 & CO & CM & ST & _ & _ & PREP & RD & N0 & C0 & PI).
  destruct (epochs_ok next iter_order fuel world es 0 (length t) m n c rest freq train_set item1 label1 test_set item2 label2 d2) with (turns := turns) (k := Z.to_nat num_epochs) (e := 0)
    (s := mkVars s (mkTv [] []) (mkTv [] []) (mkLd 0 d1 g) (mkLd 0 d2 g) 0 ([] : list line)) as (sv & out & EP & RD' & TR & OUT & _); try assumption; auto.
  { intros L gg. destruct LA1 as (_ & (Z0 & _) & _). apply ENO. lia. }
  { apply table_closed with (c := c). exact CLS. }
  { apply table_dims_in. }
  { apply table_dims_out with (c := c). exact CLS. }
  { intros d N. eapply table_batch; [exact CLS|exact N]. }
  destruct RD' as (LO & _). destruct LO as (ran & infos & b' & opt & crit & P & Gr & EL & U' & _).
  exists es', m, infos, s, (v_loop sv), out, ran, b'. split; [|split; [exact CO|split; [exact CM|split; [|split; [exact TR|]]]]].
  - unfold train_main, p_model, pbind. rewrite NET. cbn [fst snd]. rewrite CO, PREP. cbn [fbind]. rewrite EP. cbn [fbind print v_out]. rewrite OUT. cbn [app v_out]. rewrite EL. reflexivity.
  - exact ST.
  - rewrite EL. cbn [l_ts ts_info ts_backend]. auto.
Qed.

Lemma frequency_zero : (0 < num_epochs)%Z -> 0 < full train_set n ->
  train_main next iter_order fuel turns world order net make_opt (Z.of_nat n) num_epochs 0 train_set test_set junk d1 d2 g = FUndefined.
Proof.
  intros NE F1. destruct program_start as (es' & m & s & b0 & CO & CM & ST & _ & _ & PREP & RD & N0 & C0 & PI).
  unfold train_main, p_model, pbind. rewrite NET. cbn [fst snd]. rewrite CO, PREP. cbn [fbind].
  destruct (Z.to_nat num_epochs) as [|k] eqn:EK; [lia|]. cbn [epochs]. unfold epoch. destruct turns as [|tn]; [lia|]. cbn [train_while].
  destruct RD as (LO & (SX & Sy) & P1 & _).
  set (v := set_mode m true (print (Epoch 0) (mkVars s (mkTv [] []) (mkTv [] []) (mkLd 0 d1 g) (mkLd 0 d2 g) 0 []))) in *.
  assert (LOv : loop_ok es (length t) m n c (v_loop v)) by (apply (set_mode_ok es 0 (length t) m n c CM); exact LO).
  destruct (pull_batch next iter_order fuel train_set n c rest item1 label1 N0 (conj C0 CI) PI LA1 RNG PRM true (v_train v) (v_X v) (v_y v) (o_jx (world (v_tick v))) (o_jy (world (v_tick v))) 0 SX Sy)
    as (l' & X' & y' & E & SX' & Sy' & R); [exact P1|lia| |].
  { intros _ L. apply ENO. destruct LA1 as (_ & (Z0 & _) & _). lia. }
  replace (0 <? full train_set n) with true in * by (symmetry; apply Nat.ltb_lt; lia). rewrite E. destruct R as (_ & idx & ND & RG & BO & _).
  set (w := world (v_tick v)) in *. set (x := mkBatch (o_fwd w) (o_bwd w) (o_loss w) (ten_of X') (ten_of y')).
  assert (BK : batch_ok n c (n :: rest) x).
  { destruct (batch_ten iter_order train_set n c rest item1 label1 N0 (conj C0 CI) LA1 PRM d1 idx _ _ RG BO) as (TX & Ty). split; [intros d; apply HF|]. split; [exact TX|]. eexists. exact Ty. }
  destruct (iteration_ok es 0 (length t) m n c rest N0 CM (table_closed I n c rest t CLS) (table_dims_in I n rest t) (table_dims_out I n c rest t CLS) (v_loop v) x LOv BK) as (lp & l & EI & _).
  change (o_fwd w) with (b_fwd x). change (o_bwd w) with (b_bwd x). change (o_loss w) with (b_loss x).
  change (ten_of X') with (b_X x). change (ten_of y') with (b_y x). rewrite EI. destruct (negb _); [reflexivity|]. reflexivity.
Qed.
End Program.

(** *** What is printed *)
Section Printed.
Context {D1 D2 : Type}.
Variables (m : model) (n c : nat) (rest : list nat) (freq : Z).
Variables (ds1 : dataset R D1) (item1 : Z -> list R * list R) (ds2 : dataset R D2) (item2 : Z -> list R * list R) (label2 : Z -> nat).
Notation erun := (epoch_run m n c rest ds1 item1 ds2 item2 label2).
Notation run := (training_run m n c rest ds1 item1 ds2 item2 label2 freq).

Lemma batches_losses bs : forall s s' ls, train_batches m bs s = Ret (Some (s', ls)) -> length ls = length bs.
Proof.
  induction bs as [|x bs IH]; intros s s' ls E; cbn [train_batches] in E; [injection E as _ <-; reflexivity|].
  destruct (train_iteration _ _ _ _ _ _ _) as [[(s1, l)|]|?|]; try discriminate E. destruct (train_batches m bs s1) as [[(s2, l2)|]|?|] eqn:E2; try discriminate E.
  injection E as _ <-. cbn. f_equal. eapply IH, E2.
Qed.
Lemma run_losses s s' losses acc : erun s s' losses acc -> length losses = full ds1 n.
Proof. intros (bs & s1 & E & L & _). apply batches_losses in E. rewrite map_length in E. congruence. Qed.

Lemma total_nonneg l : Forall (fun x => 0 <= x)%R l -> (0 <= total l)%R.
Proof. unfold total. induction 1; cbn; lra. Qed.
Lemma mean_nonneg l : l <> [] -> Forall (fun x => 0 <= x)%R l -> exists v, mean l = Some v /\ (0 <= v)%R.
Proof.
  intros H F. unfold mean. destruct l as [|x l]; [congruence|]. eexists. split; [reflexivity|]. apply Rmult_le_pos; [apply total_nonneg, F|]. left. apply Rinv_0_lt_compat, lt_0_INR. cbn. lia.
Qed.
Lemma share_01 k P v : 0 < k -> share k P v -> (0 <= v <= 1)%R.
Proof.
  intros K (rows & ND & IN & ->). assert (L : length rows <= k).
  { rewrite <- (seq_length k 0). apply NoDup_incl_length; [exact ND|]. intros j H. apply IN in H. apply in_seq. lia. }
  assert (0 < INR k)%R by (apply lt_0_INR; exact K). apply le_INR in L. pose proof (pos_INR (length rows)). split.
  - apply Rmult_le_pos; [assumption|left; apply Rinv_0_lt_compat; assumption].
  - apply (Rmult_le_reg_r (INR k)); [assumption|]. unfold Rdiv. rewrite Rmult_assoc, Rinv_l by lra. lra.
Qed.

Lemma Forall_firstn_le k l : Forall (fun x => 0 <= x)%R l -> Forall (fun x => 0 <= x)%R (firstn k l).
Proof. intros F. revert k. induction F as [|x l H _ IH]; intros [|k]; cbn; constructor; auto. Qed.
Lemma lines_sound i s s' losses acc : 0 < n -> 0 < full ds1 n -> 0 < full ds2 n -> erun s s' losses acc -> Forall sound_line (epoch_lines i n freq losses acc).
Proof.
  intros N0 F1 F2 ER. pose proof (run_losses _ _ _ _ ER) as LL. destruct ER as (bs & s1 & _ & _ & FL & _ & _ & _ & scores & best & _ & _ & AC).
  unfold epoch_lines. constructor; [exact I|]. apply Forall_app. split.
  - apply Forall_forall. intros x Hx. apply in_flat_map in Hx. destruct Hx as (k & Hk & Hx). apply in_seq in Hk. destruct (_ =? 0)%Z; [|destruct Hx]. destruct Hx as [<-|[]].
    apply mean_nonneg; [|apply Forall_firstn_le, FL]. destruct losses as [|y l]; [cbn in LL; lia|]. destruct k; [lia|discriminate].
  - constructor; [apply mean_nonneg; [intros ->; cbn in LL; lia|exact FL]|]. constructor; [|constructor]. destruct (full ds2 n) as [|f]; [lia|].
    destruct AC as (_ & v & -> & SH). exists v. split; [reflexivity|]. eapply share_01; [|exact SH]. nia.
Qed.
Lemma run_sound k i s s' out : 0 < n -> 0 < full ds1 n -> 0 < full ds2 n -> run k i s s' out -> Forall sound_line out.
Proof. intros N0 F1 F2. induction 1; [constructor|]. apply Forall_app. split; [eapply lines_sound; eassumption|assumption]. Qed.

Lemma run_small k i s s' out : full ds1 n = 0 -> full ds2 n = 0 -> run k i s s' out -> out = flat_map (fun e => [Epoch e; Loss None; Accuracy None]) (seq i k).
Proof.
  intros F1 F2. induction 1 as [|k i s s1 s2 losses acc out ER TR IH]; [reflexivity|]. cbn [seq flat_map]. rewrite <- IH. f_equal.
  pose proof (run_losses _ _ _ _ ER) as LL. rewrite F1 in LL. destruct losses; [|discriminate LL]. destruct ER as (bs & s3 & _ & _ & _ & _ & _ & _ & scores & best & _ & _ & AC). rewrite F2 in AC. subst acc. reflexivity.
Qed.
Lemma run_epochs k i s s' out : run k i s s' out -> flat_map (fun l => match l with Epoch e => [e] | _ => [] end) out = seq i k /\
  length (filter (fun l => match l with Accuracy _ => true | _ => false end) out) = k.
Proof.
  induction 1 as [|k i s s1 s2 losses acc out ER TR (IH1 & IH2)]; [auto|].
  assert (K : forall l (f : nat -> bool) g, flat_map (fun x => match x with Epoch e => [e] | _ => [] end) (flat_map (fun t => if f t then [Loss (g t)] else []) l) = [] /\
    filter (fun x => match x with Accuracy _ => true | _ => false end) (flat_map (fun t => if f t then [Loss (g t)] else []) l) = []).
  { intros l f g. induction l as [|a l (A & B)]; [auto|]. cbn. destruct (f a); cbn; auto. }
  unfold epoch_lines. rewrite !flat_map_app, !filter_app, !app_length.
  cbn [flat_map filter app length]. rewrite !flat_map_app, !filter_app, !app_length.
  destruct (K (seq 1 (length losses)) (fun t => (Z.of_nat (t * n) mod freq =? 0)%Z) (fun t => mean (firstn t losses))) as (K1 & K2). rewrite K1, K2. cbn. rewrite IH1, IH2. auto.
Qed.
End Printed.
