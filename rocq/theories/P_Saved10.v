(** Proofs for C59: models of bounded sizes can be saved. *)
From Coq Require Import Reals String Ascii Lia Permutation DecimalString Decimal DecimalFacts.
From Verif Require Import Base BaseFacts Sums M_Tensor M_Layers M_Kernels M_Optim M_Init M_Nn M_Graph M_Model M_Backend M_Train M_Serial M_Saved S_Grad S_Fit S_Nn S_Serial S_Graph S_Run S_Build S_Plain S_Saved S_Saved3
  P_Fit P_Graph P_Graph2 P_Nn P_MakeLayer P_Model P_Model2 P_Run P_Fwd P_Fwd2 P_Load P_Run2 P_Train2 P_Plain P_Build3 P_Build4 P_Eval Prop_Run Prop_Build Prop_Plain Prop_Eval P_Saved P_Saved2 P_Saved6.
Local Open Scope string_scope.
Open Scope nat_scope.
Local Open Scope list_scope.

(** ** Lengths of names *)
Lemma succ_digits d : nb_digits (Little.succ d) <= S (nb_digits d).
Proof. induction d; cbn; lia. Qed.
Lemma little_digits n : forall acc, nb_digits (Nat.to_little_uint n acc) <= n + nb_digits acc.
Proof. induction n as [|n IH]; intros acc; cbn [Nat.to_little_uint]; [lia|]. pose proof (IH (Little.succ acc)). pose proof (succ_digits acc). lia. Qed.
Lemma string_digits d : String.length (NilEmpty.string_of_uint d) = nb_digits d.
Proof. induction d; cbn; congruence. Qed.
Lemma to_string_length n : String.length (to_string n) <= S n.
Proof.
  unfold to_string, Nat.to_uint. assert (H : nb_digits (Decimal.rev (Nat.to_little_uint n zero)) <= S n).
  { rewrite nb_digits_rev. pose proof (little_digits n zero). cbn in H. lia. }
  unfold NilZero.string_of_uint. destruct (Decimal.rev (Nat.to_little_uint n zero)) eqn:E; try (rewrite string_digits; exact H). cbn. lia.
Qed.
Lemma length_app (a b : string) : String.length (a ++ b)%string = String.length a + String.length b.
Proof. induction a as [|c a IH]; cbn; congruence. Qed.
Lemma length_lower s : String.length (lower s) = String.length s.
Proof. induction s; cbn; congruence. Qed.

(** ** Layers *)
Lemma small_int32 n : small n -> int32 (Z.of_nat n).
Proof. unfold small, int32. change (2 ^ 31)%Z with 2147483648%Z. lia. Qed.
Lemma small_le a b : a <= b -> small b -> small a.
Proof. unfold small. lia. Qed.
Lemma prodN_ge sh d : Forall (fun x => 0 < x) sh -> In d sh -> d <= prodN sh.
Proof.
  induction 1 as [|x t P F IH]; intros H; [destruct H|]. cbn [prodN fold_right]. assert (0 < prodN t) by (clear -F; induction F; cbn; [lia|apply Nat.mul_pos_pos; assumption]).
  unfold prodN in *. destruct H as [->|H]; [nia|]. specialize (IH H). nia.
Qed.
Lemma proper_small sh d : proper sh -> In d sh -> small d.
Proof. intros (P & S) H. eapply small_le; [apply (prodN_ge sh d P H)|exact S]. Qed.
Lemma result_args l shs osh : result l shs osh -> length shs <= 2.
Proof. destruct 1; cbn; lia. Qed.

Lemma type_length l nm : String.length (li_type (object l nm)) <= 16.
Proof. destruct l; cbn; lia. Qed.
Lemma attrs_good can bits room l nm : (64 <= room < 2 ^ 31)%Z -> (forall z, (0 <= z <= room)%Z -> can z = true) -> int_layer l ->
  Forall (fun x => word32 (bits x)) (flat_map (fun e => attr_floats (snd e)) (li_attrs (object l nm))) ->
  length (li_attrs (object l nm)) <= 4 /\ NoDup (map fst (li_attrs (object l nm))) /\
  Forall (fun e => good_string can (fst e) /\ good_attr (attr_map bits (snd e))) (li_attrs (object l nm)).
Proof.
  intros RM C I F. change (2 ^ 31)%Z with 2147483648%Z in RM.
  assert (G : forall s, String.length s <= 16 -> good_string can s).
  { intros s H. split; [change (2 ^ 63)%Z with 9223372036854775808%Z; lia|]. apply C. lia. }
  destruct l; cbn in *; repeat match goal with H : _ /\ _ |- _ => destruct H | H : int_window _ |- _ => unfold int_window in H end;
    repeat match goal with H : Forall _ (_ :: _) |- _ => inversion H; clear H; subst end;
    (split; [lia|split; [repeat constructor; cbn; intuition discriminate|]]);
    repeat apply Forall_cons; try apply Forall_nil; (split; [apply G; cbn; lia|]); cbn; try assumption; try split; try (apply small_int32; assumption); try assumption; try exact Logic.I.
Qed.

(** The shapes of the tensors of a new layer. *)
Definition shape_small (room : Z) (sh : list nat) : Prop := (4 * Z.of_nat (length sh) <= room)%Z /\ Forall small sh.
Lemma start_shapes room I l shs osh : (64 <= room)%Z -> meant_for l shs osh -> Forall (fun sh => 4 * Z.of_nat (length sh) <= room)%Z shs ->
  Forall (fun e => shape_small room (tsh (p_data (snd e)))) (start_params I l shs) /\ Forall (fun e => shape_small room (tsh (snd e))) (start_bufs I l shs) /\
  length (start_params I l shs) + length (start_bufs I l shs) <= 4.
Proof.
  intros RM (R & P & _ & W) L.
  assert (ONE : forall d, small d -> shape_small room [d]) by (intros d S; split; [cbn; lia|repeat constructor; exact S]).
  destruct R; unfold start_params, start_bufs; cbn [start];
    repeat match goal with H : Forall _ (_ :: _) |- _ => inversion H; clear H; subst end;
    (split; [|split; [|cbn; lia]]); repeat apply Forall_cons; try apply Forall_nil; cbn [snd p_data S_Plain.fresh all drawn tsh];
    try (apply ONE; match goal with H : proper _ |- _ => eapply (proper_small _ _ H); cbn; solve [auto] end);
    try (split; [assumption|apply Forall_forall; intros x Hx; eapply proper_small; eassumption]).
  - split; [cbn; lia|]. destruct (W _ _ _ eq_refl) as (_ & S). constructor; [eapply small_le; [|exact S]; lia|]. constructor; [eapply small_le; [|exact S]; lia|constructor].
  - apply ONE. destruct (W _ _ _ eq_refl) as (_ & S). eapply small_le; [|exact S]; lia.
  - split; [cbn; lia|]. destruct (W _ _ _ eq_refl) as (S1 & S). 
    match goal with H : places h _ _ _ _ |- _ => destruct H as (K1 & _) end. match goal with H : places w _ _ _ _ |- _ => destruct H as (K2 & _) end.
    assert (C0 : 0 < c). { match goal with H : proper [n; c; h; w] |- _ => destruct H as (FF & _) end. inversion FF as [|? ? _ F2]. inversion F2; assumption. }
    assert (Q : Forall (fun x => 0 < x) [out; c; w_kh wi; w_kw wi]) by (repeat constructor; assumption).
    repeat constructor; (eapply small_le; [eapply (prodN_ge _ _ Q)|exact S1]); cbn; auto.
  - apply ONE. destruct (W _ _ _ eq_refl) as (_ & S). eapply small_le; [|exact S]; lia.
Qed.

(** ** The whole model *)
Lemma marked_length s data : length (marked s data) <= length data.
Proof.
  unfold marked. generalize (seq 0 (length data)). induction data as [|[d s'] t IH]; intros [|i l]; cbn; try lia. rewrite app_length. specialize (IH l).
  destruct s, s'; cbn; lia.
Qed.
Lemma numbers_fst (f : nat -> shape) (data : list (nat * storage)) : forall k,
  map fst (map (fun '(i, (d, _)) => (Z.of_nat i, (f d, Z.of_nat i))) (combine (seq k (length data)) data)) = map Z.of_nat (seq k (length data)).
Proof. induction data as [|[d s] t IH]; intros k; cbn; [reflexivity|]. f_equal. apply IH. Qed.
Section Sizes.
Variables (es es' : estore) (D : list made) (m : model) (order : graph -> list gnode) (ins outs : list nat) (g : graph).
Hypothesis PL : plain es D.
Hypothesis VO : Forall (fun d => d < length (es_ph es)) outs.
Hypothesis BG : build (es_ph es) ins outs = Ok g.
Hypothesis TO : is_topo g (order g).
Hypothesis CM : construct_model order ins outs es = RVal es' m.
Variables (room : Z) (can : Z -> bool) (bits : R -> Z) (value : Z -> R).
Hypothesis SZ : sizes room es D outs.
Hypothesis CAN : forall z, (0 <= z <= room)%Z -> can z = true.

Lemma sz_string s : (Z.of_nat (String.length s) <= room)%Z -> good_string can s.
Proof. intros H. pose proof (sz_room _ _ _ _ SZ). split; [change (2 ^ 63)%Z with 9223372036854775808%Z; change (2 ^ 31)%Z with 2147483648%Z in *; lia|]. apply CAN. lia. Qed.
Lemma sz_list l : (4 * Z.of_nat (length l) <= room)%Z -> Forall int32 l -> good_ints can l.
Proof. intros H F. pose proof (sz_room _ _ _ _ SZ). split; [change (2 ^ 63)%Z with 9223372036854775808%Z; change (2 ^ 31)%Z with 2147483648%Z in *; lia|]. split; [apply CAN; lia|exact F]. Qed.

Lemma sz_built : built es.
Proof. apply (plain_plain_ok _ _ PL). Qed.
Lemma sz_mfacts : mfacts (es_ph es) ins outs m.
Proof. eapply model_mfacts; [apply sz_built|eassumption..]. Qed.
Lemma sz_lt d : needed (es_ph es) outs d -> d < length (es_ph es).
Proof. assert (CO : constructed es ins outs m) by (eapply trip_constructed; eassumption). apply (P_Build4.valid_needed es ins outs m CO). Qed.
Lemma sz_data : length (m_data m) <= length (es_ph es).
Proof.
  pose proof sz_mfacts as MF. rewrite <- (map_length fst). rewrite <- (seq_length (length (es_ph es)) 0). apply NoDup_incl_length; [apply (mf_nodup _ _ _ _ MF)|].
  intros d H. apply (mf_data _ _ _ _ MF) in H. apply in_seq. split; [lia|]. cbn.
  apply sz_lt, H.
Qed.
Lemma sz_ops : length (m_ops m) <= length (es_ph es).
Proof.
  pose proof sz_mfacts as MF. rewrite <- (map_length mo_ph). rewrite <- (seq_length (length (es_ph es)) 0). apply NoDup_incl_length; [apply (mf_ops _ _ _ _ MF)|].
  intros d H. apply in_map_iff in H. destruct H as (op & <- & Ho). destruct (mf_op _ _ _ _ MF op Ho) as (args & k & ids & i & N & _).
  apply in_seq. split; [lia|]. cbn. apply sz_lt, N.
Qed.
Lemma sz_num i : i < length (m_data m) -> int32 (Z.of_nat i).
Proof. intros H. pose proof sz_data. pose proof (sz_room _ _ _ _ SZ). pose proof (sz_count _ _ _ _ SZ). unfold int32. lia. Qed.

(** What is known of the layer of an operation. *)
Lemma sz_layer op : In op (m_ops m) -> exists x li,
  In x D /\ nth_error (es_info es') (mo_info op) = Some li /\ info_at (es_info es') op = li /\ renamed (description (md_draws x) (md_layer x) (md_in x) "") li /\
  meant_for (md_layer x) (md_in x) (md_out x) /\ Forall (fun sh => 4 * Z.of_nat (length sh) <= room)%Z (md_in x) /\
  (Z.of_nat (String.length (li_name li)) + 16 <= room)%Z.
Proof.
  intros Ho. pose proof sz_mfacts as MF. destruct (mf_op _ _ _ _ MF op Ho) as (args & k & ids & i0 & N & (s & i & Hd) & _).
  assert (CO : constructed es ins outs m) by (eapply trip_constructed; eassumption).
  destruct (op_info _ _ _ _ _ CO Ho) as (s2 & a2 & Hd2). rewrite Hd in Hd2. injection Hd2 as <- -> <-.
  destruct (plain_plain_ok _ _ PL) as [_ M Fi _ C]. destruct (C _ _ _ _ Hd) as (x & Hx & Fx & Ex).
  destruct (Forall2_nth _ _ _ _ _ Fi Hx) as (li0 & Hli0 & R0).
  destruct (model_facts es order ins outs g sz_built VO BG TO es' m CM) as (mops & _ & _ & _ & _ & _ & EM & _ & EU & _ & FI & IN & _). subst mops.
  pose proof (FI _ _ Hli0) as Hli. destruct (IN op Ho) as (Hli2 & _). rewrite Hli in Hli2. injection Hli2 as Hli2.
  exists x, (final_info 0 (used_layers es (order g)) (mo_info op) li0). split; [eapply nth_error_In; exact Hx|]. split; [exact Hli|]. split; [symmetry; exact Hli2|].
  rewrite Forall_forall in M. split; [|split; [apply M; eapply nth_error_In; exact Hx|split]].
  - destruct R0 as (A1 & A2 & A3 & A4). unfold final_info. destruct (String.eqb (li_name li0) ""); [|unfold renamed; auto]. destruct (index_of _ _); unfold renamed; cbn; auto.
  - clear -Fx SZ. pose proof (sz_dims _ _ _ _ SZ) as SD. rewrite Forall_forall in SD. induction Fx as [|a sh l l' (p & Hp & E) _ IH]; constructor; [|exact IH].
    specialize (SD p (nth_error_In _ _ Hp)). rewrite E in SD. unfold zs in SD. rewrite map_length in SD. exact SD.
  - pose proof (sz_names _ _ _ _ SZ) as SN. rewrite Forall_forall in SN. pose proof (SN li0 (nth_error_In _ _ Hli0)) as L0. unfold final_info. destruct (String.eqb (li_name li0) ""); [|exact L0].
    destruct (index_of (mo_info op) (used_layers es (order g))) as [j| |] eqn:EJ; try exact L0. cbn [rename li_name]. unfold auto_name. rewrite length_app, length_lower, (proj1 R0). cbn [description li_type].
    pose proof (type_length (md_layer x) ""). pose proof (to_string_length (0 + j)). pose proof (sz_count _ _ _ _ SZ). pose proof sz_ops.
    apply index_of_Ok in EJ. destruct EJ as (EJ & _). assert (j < length (used_layers es (order g))) by (apply nth_error_Some; congruence). rewrite <- EU, map_length in *. lia.
Qed.

Lemma sz_cfg : Forall (fun x => word32 (bits x)) (flat_map (fun o => flat_map (fun e => attr_floats (snd e)) (oi_attrs o)) (c_ops (m_cfg m))) -> good_cfg can (cfg_map bits (m_cfg m)).
Proof.
  intros FL. pose proof sz_mfacts as MF. pose proof (sz_room _ _ _ _ SZ) as RM. pose proof (sz_count _ _ _ _ SZ) as CT. pose proof sz_data as DL. pose proof sz_ops as OL.
  destruct (model_facts es order ins outs g sz_built VO BG TO es' m CM) as (mops & _ & _ & _ & _ & _ & EM & _ & _ & _ & _ & _ & _ & ED & _ & _ & _ & _ & _ & _ & EC). subst mops. rewrite <- ED in EC. rewrite EC in *.
  change (2 ^ 31)%Z with 2147483648%Z in RM.
  assert (MK : forall s, good_ints can (marked s (m_data m))).
  { intros s. apply sz_list.
    - pose proof (marked_length s (m_data m)). lia.
    - apply Forall_forall. intros z H. unfold marked in H. apply in_flat_map in H. destruct H as ((i & (d & s')) & H & HZ). apply in_combine_l, in_seq in H.
      assert (EZ : z = Z.of_nat i) by (destruct s, s'; cbn in HZ; intuition congruence). subst z. apply sz_num. lia. }
  split; [exact (MK SInput)|]. split; [exact (MK SOutput)|]. cbn [cfg_map config_of c_ph c_ops].
  split; [rewrite map_length, combine_length, seq_length, Nat.min_id; change (2 ^ 31)%Z with 2147483648%Z; lia|].
  split; [|split; [|split; [rewrite !map_length; change (2 ^ 31)%Z with 2147483648%Z; lia|]]].
  - rewrite (numbers_fst (P_Model.shape_at (es_ph es))). apply FinFun.Injective_map_NoDup; [intros a b H; lia|apply seq_NoDup].
  - apply Forall_forall. intros e H. apply in_map_iff in H. destruct H as ((i & (d & s)) & <- & H). cbn [fst snd]. split; [|split; [|reflexivity]].
    + apply in_combine_l, in_seq in H. apply sz_num. lia.
    + apply in_combine_r in H. apply (in_map fst) in H. cbn in H. apply (mf_data _ _ _ _ MF) in H.
      assert (DLT : d < length (es_ph es)) by (apply sz_lt, H).
      unfold P_Model.shape_at. destruct (nth_error (es_ph es) d) as [p|] eqn:Ep; [|apply nth_error_None in Ep; lia].
      destruct (po_input _ _ (plain_plain_ok _ _ PL) d p Ep) as (sh & PR & ES). pose proof (sz_dims _ _ _ _ SZ) as SD. rewrite Forall_forall in SD. specialize (SD p (nth_error_In _ _ Ep)).
      apply sz_list; [exact SD|]. rewrite ES. unfold zs. apply Forall_forall. intros z HZ. apply in_map_iff in HZ. destruct HZ as (x & <- & HX). apply small_int32. eapply proper_small; eassumption.
  - apply Forall_forall. intros o H. apply in_map_iff in H. destruct H as (o1 & <- & H). apply in_map_iff in H. destruct H as (op & <- & Ho).
    destruct (sz_layer op Ho) as (x & li & Hx & Hli & EI & (A1 & A2 & _) & MT & _ & NL).
    destruct (mf_op _ _ _ _ MF op Ho) as (args & k & ids & i0 & N & (s & i & Hd) & V & FA & NI & E1 & E2).
    pose proof (sz_visits _ _ _ _ SZ _ N) as SV. rewrite V in SV.
    assert (AL : length args <= 2).
    { assert (CO : constructed es ins outs m) by (eapply trip_constructed; eassumption). destruct (plain_plain_ok _ _ PL) as [_ M _ _ C]. destruct (C _ _ _ _ Hd) as (y & Hy & Fy & _). rewrite Forall_forall in M. destruct (M y (nth_error_In _ _ Hy)) as (R & _). apply result_args in R.
      assert (LE : length args = length (md_in y)) by (clear -Fy; induction Fy; cbn; congruence). lia. }
    assert (LI : length ids = length args) by (clear -FA; induction FA; cbn; congruence).
    assert (Z0 : 0 < length (m_data m)). { rewrite <- (map_length fst). assert (i0 < length (map fst (m_data m))) by (apply nth_error_Some; congruence). lia. }
    unfold good_op. cbn [op_map oi_name oi_type oi_in oi_out oi_attrs]. unfold op_name. rewrite EI. cbn [description li_type li_attrs] in A1, A2.
    destruct (attrs_good can bits room (md_layer x) "") as (AT1 & AT2 & AT3).
    { change (2 ^ 31)%Z with 2147483648%Z. lia. } { exact CAN. } { pose proof (sz_ints _ _ _ _ SZ) as SI. rewrite Forall_forall in SI. apply SI, Hx. }
    { rewrite <- A2. rewrite Forall_forall in FL |- *. intros f Hf. apply FL. apply in_flat_map. exists (mkOI (op_name (es_info es') op) (li_type (info_at (es_info es') op)) (li_attrs (info_at (es_info es') op)) (map Z.of_nat (mo_in op)) (map Z.of_nat (mo_out op))).
      split; [cbn [config_of c_ops]; apply in_map_iff; exists op; auto|]. cbn [oi_attrs]. rewrite EI. exact Hf. }
    split; [apply sz_string; lia|]. split; [rewrite A1; apply sz_string; pose proof (type_length (md_layer x) ""); lia|].
    split; [|split; [|split; [|split]]].
    + apply sz_list; [rewrite map_length, E1, app_length, repeat_length, LI; nia|]. apply Forall_forall. intros z HZ. apply in_map_iff in HZ. destruct HZ as (j & <- & HJ). apply sz_num.
      rewrite E1 in HJ. apply in_app_or in HJ. destruct HJ as [HJ|HJ]; [|apply repeat_spec in HJ; lia]. clear -FA HJ. induction FA as [|a j' l l' E _ IH]; [destruct HJ|]. destruct HJ as [->|HJ]; [|auto].
      rewrite <- (map_length fst). apply nth_error_Some. congruence.
    + apply sz_list; [rewrite map_length, E2; cbn [length]; rewrite repeat_length; lia|]. apply Forall_forall. intros z HZ. apply in_map_iff in HZ. destruct HZ as (j & <- & HJ). apply sz_num.
      rewrite E2 in HJ. destruct HJ as [<-|HJ]; [|apply repeat_spec in HJ; lia]. rewrite <- (map_length fst). apply nth_error_Some. congruence.
    + rewrite map_length, A2. change (2 ^ 31)%Z with 2147483648%Z. lia.
    + rewrite map_map. cbn [fst]. rewrite A2. exact AT2.
    + rewrite A2. clear -AT3. induction AT3; cbn; constructor; auto.
Qed.

Lemma sz_dict : good_dict can (dict_of bits m (es_info es')).
Proof.
  pose proof (sz_room _ _ _ _ SZ) as RM. pose proof (sz_count _ _ _ _ SZ) as CT. pose proof sz_ops as OL. change (2 ^ 31)%Z with 2147483648%Z in RM.
  destruct (state_keys es order ins outs g sz_built VO BG TO es' m CM) as (_ & ND & _).
  destruct (model_facts es order ins outs g sz_built VO BG TO es' m CM) as (mops & _ & _ & _ & _ & _ & EM & _ & _ & _ & _ & _ & _ & _ & _ & _ & _ & _ & _ & ES & _). subst mops.
  assert (LS : length (m_state m) <= 4 * length (m_ops m)).
  { rewrite ES. assert (A : forall op, In op (m_ops m) -> length (op_state (es_info es') op) <= 4).
    { intros op Ho. destruct (sz_layer op Ho) as (x & li & Hx & Hli & EI & (_ & _ & A3 & A4) & MT & SD & _). unfold op_state. rewrite EI, app_length, !map_length, A3, A4. cbn [description li_params li_bufs].
      eapply (start_shapes room); [lia|exact MT|exact SD]. }
    clear -A. induction (m_ops m) as [|op t IH]; cbn [flat_map]; [cbn; lia|]. rewrite app_length. cbn [length]. pose proof (A op (or_introl eq_refl)). assert (length (flat_map (op_state (es_info es')) t) <= 4 * length t) by (apply IH; intros o Ho; apply A; right; exact Ho). lia. }
  assert (LV : length (state_view m (es_info es')) <= length (m_state m)).
  { unfold state_view. clear. generalize (es_info es'). intros infos. induction (m_state m) as [|e t IH]; cbn [flat_map length]; [lia|]. rewrite app_length. destruct (get_state _ _); cbn [length]; lia. }
  unfold good_dict. split; [unfold dict_of; rewrite map_length; change (2 ^ 31)%Z with 2147483648%Z; lia|]. split; [rewrite dict_keys; apply view_NoDup, ND|].
  apply Forall_forall. intros e H. unfold dict_of in H. apply in_map_iff in H. destruct H as ((key & t) & <- & H). unfold good_entry. cbn [fst snd mem_of s_shape].
  unfold state_view in H. apply in_flat_map in H. destruct H as ((key' & r) & H & HG). cbn [fst snd] in HG.
  destruct (get_state (es_info es') r) as [t'|] eqn:GS; [|destruct HG]. destruct HG as [HG|[]]. injection HG as <- <-.
  rewrite ES in H. apply in_flat_map in H. destruct H as (op & Ho & H).
  destruct (sz_layer op Ho) as (x & li & Hx & Hli & EI & (_ & _ & A3 & A4) & MT & SD & NL).
  destruct (start_shapes room (md_draws x) _ _ _ ltac:(lia) MT SD) as (SP & SB & _). rewrite Forall_forall in SP, SB.
  assert (KL : forall k, In k (param_keys ++ buf_keys) -> String.length k <= 12) by (intros k Hk; cbn in Hk; repeat (destruct Hk as [<-|Hk]; [cbn; lia|]); destruct Hk).
  assert (INFO : info_ok li).
  { destruct (model_facts es order ins outs g sz_built VO BG TO es' m CM) as (mops & _ & _ & _ & _ & _ & EM & _ & _ & _ & _ & IN & _). subst mops. destruct (IN op Ho) as (_ & IO). rewrite EI in IO. exact IO. }
  assert (KEY : forall k, String.length k <= 12 -> good_string can (key_of (es_info es') op k)).
  { intros k Hk. apply sz_string. unfold key_of, op_name. rewrite EI, !length_app. cbn [String.length]. lia. }
  assert (FIN : shape_small room (tsh t') -> good_ints can (map Z.of_nat (tsh t'))).
  { intros (L1 & L2). apply sz_list; [rewrite map_length; exact L1|]. apply Forall_forall. intros z HZ. apply in_map_iff in HZ. destruct HZ as (y & <- & HY). rewrite Forall_forall in L2. apply small_int32, L2, HY. }
  unfold op_state in H. rewrite EI in H. apply in_app_or in H. destruct H as [H|H]; apply in_map_iff in H; destruct H as ((k & p) & E & H); injection E as <- <-; cbn [fst] in *.
  - split; [apply KEY, KL, in_or_app; left; apply (io_pk _ INFO), (in_map fst _ _ H)|]. apply FIN. cbn in GS. unfold get_par in GS. cbn in GS. rewrite Hli in GS.
    destruct (find_key (li_params li) k) as [p'|] eqn:FK; [|discriminate GS]. injection GS as <-. apply find_some_in in FK. rewrite A3 in FK. exact (SP _ FK).
  - split; [apply KEY, KL, in_or_app; right; apply (io_bk _ INFO), (in_map fst _ _ H)|]. apply FIN. cbn in GS. rewrite Hli in GS. apply find_some_in in GS. rewrite A4 in GS. exact (SB _ GS).
Qed.

Lemma sz_savable : Forall (exact bits value) (floats_of m (es_info es')) -> savable bits value can m (es_info es').
Proof.
  intros F. split; [exact F|]. split; [|exact sz_dict]. apply sz_cfg. unfold floats_of in F. apply Forall_app in F. destruct F as (F & _). eapply Forall_impl; [|exact F]. intros x (H & _). exact H.
Qed.
End Sizes.
