(** Saving and loading a model: the pieces. *)
From Coq Require Import Reals String Lia Permutation.
From Verif Require Import Base BaseFacts M_Tensor M_Layers M_Optim M_Init M_Nn M_Graph M_Model M_Backend M_Serial M_Saved S_Grad S_Serial S_Nn S_Graph S_Build S_Saved
  P_Optim P_Nn P_MakeLayer P_Model P_Model2 P_Fwd P_Load P_Serial P_Build4.
Local Open Scope string_scope.
Open Scope nat_scope.
Local Open Scope list_scope.

(** ** Maps in another order *)
Lemma find_key_perm {V} (l l' : list (string * V)) k : NoDup (map fst l) -> Permutation l l' -> find_key l k = find_key l' k.
Proof.
  intros ND P. assert (ND' : NoDup (map fst l')) by (eapply Permutation_NoDup; [apply Permutation_map, P|exact ND]).
  destruct (find_key l k) as [v|] eqn:E.
  - symmetry. apply in_find; [exact ND'|]. eapply Permutation_in; [exact P|]. apply in_find; assumption.
  - symmetry. apply P_Nn.find_none. apply P_Nn.find_none in E. intros H. apply E. eapply Permutation_in; [apply Permutation_map, Permutation_sym, P|exact H].
Qed.
Lemma in_find_id {A} (m : list (Z * A)) k v : NoDup (map fst m) -> (In (k, v) m <-> find_id m k = Some v).
Proof.
  induction m as [|[k' v'] m IH]; cbn [map fst In find_id]; intros ND; [split; [intros []|discriminate]|].
  inversion ND as [|? ? Ni ND']; subst. destruct (Z.eqb_spec k' k) as [->|Ne].
  - split; [intros [E|E]; [congruence|]|intros E; left; congruence]. exfalso. apply Ni. change k with (fst (k, v)). apply in_map, E.
  - rewrite <- IH by exact ND'. split; [intros [E|E]; [congruence|exact E]|auto].
Qed.
Lemma find_id_none {A} (m : list (Z * A)) k : find_id m k = None <-> ~ In k (map fst m).
Proof.
  induction m as [|[k' v] t IH]; cbn; [tauto|]. destruct (Z.eqb_spec k' k) as [->|N].
  - split; [discriminate|]. intros H. exfalso. apply H. left; reflexivity.
  - rewrite IH. split; [intros H [E|E]; [congruence|auto]|auto].
Qed.
Lemma find_id_perm {A} (l l' : list (Z * A)) k : NoDup (map fst l) -> Permutation l l' -> find_id l k = find_id l' k.
Proof.
  intros ND P. assert (ND' : NoDup (map fst l')) by (eapply Permutation_NoDup; [apply Permutation_map, P|exact ND]).
  destruct (find_id l k) as [v|] eqn:E.
  - symmetry. apply in_find_id; [exact ND'|]. eapply Permutation_in; [exact P|]. apply in_find_id; assumption.
  - symmetry. apply find_id_none. apply find_id_none in E. intros H. apply E. eapply Permutation_in; [apply Permutation_map, Permutation_sym, P|exact H].
Qed.

(** ** Build does not depend on the order of hash maps *)
Lemma construct_ext k a a' n : (forall key, find_key a key = find_key a' key) -> construct k a n = construct k a' n.
Proof. intros H. destruct k; cbn [construct]; unfold at_int, at_float, at_int2, at_key, get_int, get_float, get_int2; rewrite ?H; reflexivity. Qed.
Lemma make_layer_ext I ty n a a' inp es : (forall key, find_key a key = find_key a' key) -> make_layer I ty n a inp es = make_layer I ty n a' inp es.
Proof. intros H. unfold make_layer. destruct (layer_table ty) as [k|]; [|reflexivity]. rewrite (construct_ext k a a' n H). reflexivity. Qed.

Lemma build_inputs_ext phm phm' ids : (forall k, find_id phm k = find_id phm' k) -> forall m es, build_inputs phm ids m es = build_inputs phm' ids m es.
Proof.
  intros H. induction ids as [|i t IH]; intros m es; [reflexivity|]. cbn [build_inputs]. unfold at_id. rewrite H. destruct (find_id phm' i) as [[s z]|]; [|reflexivity]. apply IH.
Qed.
Definition same_op (o o' : opinfo R) : Prop :=
  oi_name o' = oi_name o /\ oi_type o' = oi_type o /\ oi_in o' = oi_in o /\ oi_out o' = oi_out o /\ forall k, find_key (oi_attrs o) k = find_key (oi_attrs o') k.
Lemma build_ops_ext I ops ops' : Forall2 same_op ops ops' -> forall k m es, build_ops I k ops m es = build_ops I k ops' m es.
Proof.
  induction 1 as [|o o' t t' (E1 & E2 & E3 & E4 & E5) _ IH]; intros k m es; [reflexivity|]. cbn [build_ops]. rewrite E3, E4, E1, E2.
  destruct (map_res (at_id m) (oi_in o)) as [inps| |]; [|reflexivity..]. destruct (oi_out o) as [|x l]; [reflexivity|].
  rewrite (make_layer_ext (I k) _ _ _ _ inps es E5). destruct (make_layer _ _ _ _ _ _); [|reflexivity..]. apply IH.
Qed.
Lemma Build_iterated order I (c c' : config R) es : iterated c c' -> NoDup (map fst (c_ph c)) -> Forall (fun o => NoDup (map fst (oi_attrs o))) (c_ops c) ->
  Build order I c' es = Build order I c es.
Proof.
  intros (E1 & E2 & P & F) ND NA. unfold Build. rewrite E1, E2.
  rewrite (build_inputs_ext (c_ph c') (c_ph c)) by (intros k; symmetry; apply find_id_perm; assumption).
  destruct (build_inputs (c_ph c) (c_in c) [] es) as [es1 m| |]; [|reflexivity..].
  rewrite <- (build_ops_ext I (c_ops c) (c_ops c')); [reflexivity|].
  clear -F NA. induction F as [|o o' t t' (A & B & C & D & Q) _ IH]; [constructor|]. inversion NA; subst. constructor; [|auto].
  do 4 (split; [assumption|]). intros k. apply find_key_perm; assumption.
Qed.

(** ** Replacing floats *)
Lemma iterated_map {F G} (f : F -> G) c c' : iterated c c' -> iterated (cfg_map f c) (cfg_map f c').
Proof.
  intros (E1 & E2 & P & Q). split; [exact E1|]. split; [exact E2|]. split; [exact P|]. cbn [cfg_map c_ops].
  induction Q as [|o o' t t' (A & B & C & D & E) _ IH]; cbn; constructor; [|exact IH]. do 4 (split; [assumption|]). apply Permutation_map, E.
Qed.
Lemma cfg_keys {F G} (f : F -> G) c : map fst (c_ph (cfg_map f c)) = map fst (c_ph c) /\
  map (fun o => map fst (oi_attrs o)) (c_ops (cfg_map f c)) = map (fun o => map fst (oi_attrs o)) (c_ops c).
Proof. split; [reflexivity|]. cbn [cfg_map c_ops]. rewrite map_map. apply map_ext. intros o. cbn. rewrite map_map. reflexivity. Qed.

Section Codec.
Variables (bits : R -> Z) (value : Z -> R).
Lemma attr_back a : Forall (exact bits value) (attr_floats a) -> attr_map value (attr_map bits a) = a.
Proof. destruct a; cbn; intros H; repeat match goal with H : Forall _ (_ :: _) |- _ => inversion H; clear H; subst end; unfold exact in *; intuition congruence. Qed.
Lemma cfg_back c : Forall (exact bits value) (flat_map (fun o => flat_map (fun e => attr_floats (snd e)) (oi_attrs o)) (c_ops c)) ->
  cfg_map value (cfg_map bits c) = c.
Proof.
  intros H. destruct c as [ci co cp ops]. cbn in *. unfold cfg_map. cbn. f_equal. rewrite map_map. induction ops as [|o t IH]; [reflexivity|]. cbn [flat_map] in H.
  apply Forall_app in H. destruct H as [H1 H2]. cbn [map]. rewrite IH by exact H2. f_equal. destruct o as [n ty a i1 o1]. unfold op_map. cbn in *. f_equal.
  rewrite map_map. clear -H1. induction a as [|[k v] l IH]; [reflexivity|]. cbn [flat_map snd] in H1. apply Forall_app in H1. destruct H1 as [H1 H2].
  cbn [map fst snd]. rewrite attr_back by exact H1. f_equal. apply IH, H2.
Qed.

Lemma mem_length (d : list R) : length (flat_map (fun x => write_float (bits x)) d) = 4 * length d.
Proof. induction d as [|x t IH]; [reflexivity|]. cbn [flat_map]. rewrite app_length, IH. unfold write_float. rewrite le_length. cbn [length]. lia. Qed.
Lemma floats_back d : Forall (exact bits value) d -> floats value (length d) (flat_map (fun x => write_float (bits x)) d) = d.
Proof.
  induction 1 as [|x t (W & E) _ IH]; [reflexivity|]. cbn [length flat_map floats]. unfold write_float at 1 3.
  rewrite (firstn_whole _ _ 4), (skipn_whole _ _ 4) by apply le_length. rewrite IH, unle_le. f_equal.
  rewrite Z.mod_small by (unfold word32 in W; change (256 ^ Z.of_nat 4)%Z with (2 ^ 32)%Z; exact W). exact E.
Qed.
Lemma floats_mem t : Forall (exact bits value) (tdat t) -> floats value (Nat.div (length (s_mem (mem_of bits t))) 4) (s_mem (mem_of bits t)) = tdat t.
Proof. intros H. cbn [mem_of s_mem]. rewrite mem_length. rewrite Nat.mul_comm, Nat.div_mul by lia. apply floats_back, H. Qed.
End Codec.

(** ** Good configurations and dictionaries in another order *)
Lemma good_cfg_iterated can (c c' : config Z) : iterated c c' -> good_cfg can c -> good_cfg can c'.
Proof.
  intros (E1 & E2 & P & Q) (G1 & G2 & G3 & G4 & G5 & G6 & G7). unfold good_cfg. rewrite E1, E2.
  split; [exact G1|]. split; [exact G2|]. split; [rewrite <- (Permutation_length P); exact G3|]. split; [eapply Permutation_NoDup; [apply Permutation_map, P|exact G4]|].
  split; [|split].
  - rewrite Forall_forall in G5 |- *. intros e He. apply G5. eapply Permutation_in; [apply Permutation_sym, P|exact He].
  - rewrite <- (P_Fwd.Forall2_len _ _ _ Q). exact G6.
  - clear -Q G7. induction Q as [|o o' t t' (A & B & C & D & E) _ IH]; [constructor|]. inversion G7 as [|? ? (X1 & X2 & X3 & X4 & X5 & X6 & X7) G]; subst. constructor; [|auto].
    unfold good_op. rewrite A, B, C, D. do 4 (split; [assumption|]). split; [rewrite <- (Permutation_length E); exact X5|]. split; [eapply Permutation_NoDup; [apply Permutation_map, E|exact X6]|].
    rewrite Forall_forall in X7 |- *. intros e He. apply X7. eapply Permutation_in; [apply Permutation_sym, E|exact He].
Qed.
Lemma good_dict_perm can (d d' : sdict) : Permutation d d' -> good_dict can d -> good_dict can d'.
Proof.
  intros P (A & B & C). split; [rewrite <- (Permutation_length P); exact A|]. split; [eapply Permutation_NoDup; [apply Permutation_map, P|exact B]|].
  rewrite Forall_forall in C |- *. intros e He. apply C. eapply Permutation_in; [apply Permutation_sym, P|exact He].
Qed.

(** ** Tensors of new layers are consistent *)
Definition sound_tensors (li : linfo) : Prop :=
  (forall k p, In (k, p) (li_params li) -> prm_ok (tsh (p_data p)) p) /\ (forall k t, In (k, t) (li_bufs li) -> twf t).

Lemma int_prod_from_mul s : forall a t, int_prod_from a s = Ok t -> t = (a * fold_right Z.mul 1 s)%Z.
Proof.
  induction s as [|d s IH]; intros a t H; cbn in H; [injection H as <-; cbn; lia|]. destruct (fits_int (a * d)) eqn:F; [|discriminate H]. apply IH in H. cbn. rewrite H. ring.
Qed.
Lemma new_ten_wf s junk t : new_ten s junk = Ok t -> twf t.
Proof.
  unfold new_ten. destruct (have_negative_dim s) eqn:N; cbn [negb dw_assert bind]; [discriminate|]. destruct (int_prod s) as [z| |] eqn:P; cbn [bind]; try discriminate.
  intros H. injection H as <-. unfold twf. cbn [tdat tsh]. rewrite tab_length. unfold int_prod in P. apply int_prod_from_mul in P. rewrite P, Z.mul_1_l. clear P z.
  unfold have_negative_dim in N. induction s as [|d s IH]; [reflexivity|]. cbn in N. apply Bool.orb_false_iff in N. destruct N as [N1 N2]. apply Z.ltb_ge in N1.
  cbn [fold_right map prodN]. fold (prodN (map Z.to_nat s)). rewrite <- IH by exact N2. rewrite Z2Nat.inj_mul; [reflexivity|exact N1|].
  clear -N2. induction s as [|d s IH]; cbn; [lia|]. cbn in N2. apply Bool.orb_false_iff in N2. destruct N2 as [A B]. apply Z.ltb_ge in A. specialize (IH B). nia.
Qed.
Lemma t_constant_wf I s v t : t_constant I s v = Ok t -> twf t.
Proof.
  unfold t_constant. destruct (new_ten s (in_junk I)) as [u| |] eqn:E; cbn [bind]; try discriminate. intros H. injection H as <-. apply new_ten_wf in E.
  unfold twf, tot in *. cbn. rewrite repeat_length. exact E.
Qed.
Lemma t_xavier_wf I w s t : t_xavier I w s = Ok t -> twf t.
Proof.
  unfold t_xavier. destruct (new_ten s (in_junk I)) as [u| |] eqn:E; cbn [bind]; try discriminate. destruct (xavier_features _ _) as [[i o]| |]; cbn [bind]; try discriminate.
  destruct (negb _); try discriminate. destruct (_ =? 0)%Z; try discriminate. intros H. injection H as <-. apply new_ten_wf in E. unfold twf, tot in *. cbn. rewrite tab_length. exact E.
Qed.
Lemma new_prm_ok t : twf t -> prm_ok (tsh (p_data (new_prm t))) (new_prm t).
Proof. intros W. split; [reflexivity|]. split; [exact W|]. split; [reflexivity|]. unfold twf. cbn. apply repeat_length. Qed.

Lemma emplace_in {V} (m : list (string * V)) k v x : In x (emplace m k v) -> In x m \/ x = (k, v).
Proof. unfold emplace. destruct (find_key m k); [auto|]. intros H. apply in_app_or in H. destruct H as [H|[<-|[]]]; auto. Qed.
Lemma add_param_sound k t li : (forall u, t = Ok u -> twf u) -> sound_tensors li -> st_all sound_tensors (add_param k t li).
Proof.
  intros W S. unfold add_param. destruct t as [u| |]; cbn; [|exact S|exact I]. destruct S as [S1 S2]. split; cbn; [|exact S2].
  intros k' p H. apply emplace_in in H. destruct H as [H|H]; [eapply S1; exact H|]. injection H as -> ->. apply new_prm_ok, W. reflexivity.
Qed.
Lemma add_buffer_sound k t li : (forall u, t = Ok u -> twf u) -> sound_tensors li -> st_all sound_tensors (add_buffer k t li).
Proof.
  intros W S. unfold add_buffer. destruct t as [u| |]; cbn; [|exact S|exact I]. destruct S as [S1 S2]. split; cbn; [exact S1|].
  intros k' p H. apply emplace_in in H. destruct H as [H|H]; [eapply S2; exact H|]. injection H as -> ->. apply W. reflexivity.
Qed.
Lemma linit_sound k I ss li : sound_tensors li -> st_all sound_tensors (linit k I ss li).
Proof.
  intros S. unfold linit. apply st_all_lift; [exact S|]. intros s.
  assert (BN : st_all sound_tensors (bn_init I s li)).
  { unfold bn_init. apply st_all_lift; [exact S|]. intros c.
    apply st_all_bind; [apply add_param_sound; [intros u; apply t_constant_wf|exact S]|]. intros l1 S1.
    apply st_all_bind; [apply add_param_sound; [intros u; apply t_constant_wf|exact S1]|]. intros l2 S2.
    apply st_all_bind; [apply add_buffer_sound; [intros u; apply t_constant_wf|exact S2]|]. intros l3 S3.
    apply add_buffer_sound; [intros u; apply t_constant_wf|exact S3]. }
  destruct k; try exact S; try exact BN.
  - apply st_all_lift; [exact S|]. intros u. apply st_all_lift; [exact S|]. intros v.
    apply st_all_bind; [apply add_param_sound; [intros w; apply t_xavier_wf|exact S]|]. intros l1 S1. apply add_param_sound; [intros w; apply t_constant_wf|exact S1].
  - apply st_all_lift; [exact S|]. intros u. apply st_all_lift; [exact S|]. intros [kh kw]. apply st_all_lift; [exact S|]. intros v.
    apply st_all_bind; [apply add_param_sound; [intros w; apply t_xavier_wf|exact S]|]. intros l1 S1. apply add_param_sound; [intros w; apply t_constant_wf|exact S1].
  - apply add_param_sound; [intros w; apply t_constant_wf|exact S].
Qed.
Lemma construct_sound k m n li : construct k m n = Ok li -> sound_tensors li.
Proof. intros C. destruct (construct_ok _ _ _ _ C) as [-> _]. split; intros ? ? []. Qed.
Lemma upd_all {A} (P : A -> Prop) l i a : Forall P l -> P a -> Forall P (upd l i a).
Proof. intros F H. revert i. induction F as [|x t Hx F IH]; intros [|i]; cbn; constructor; auto. Qed.
Lemma apply_sound k I info args es : Forall sound_tensors (es_info es) ->
  match apply_op k I info args es with RVal es' _ => Forall sound_tensors (es_info es') | RExc es' => Forall sound_tensors (es_info es') | RBad => True end.
Proof.
  intros F. unfold apply_op. destruct (map_res _ args) as [ss| |]; try exact Logic.I. rewrite rd_nth. destruct (nth_error (es_info es) info) as [li|] eqn:E; [|exact Logic.I]. 
  assert (SL : sound_tensors li) by (rewrite Forall_forall in F; apply F; eapply nth_error_In; exact E).
  pose proof (linit_sound k I ss li SL) as H. destruct (linit k I ss li) as [li'|li'|]; cbn in H; [| |exact Logic.I].
  - destruct (out_shape k (li_attrs li') ss); cbn; [apply upd_all; assumption..|exact Logic.I].
  - cbn. apply upd_all; assumption.
Qed.
Lemma built_sound es : built es -> Forall sound_tensors (es_info es).
Proof.
  assert (ML : forall I ty n m args es, Forall sound_tensors (es_info es) ->
    match make_layer I ty n m args es with RVal es' _ => Forall sound_tensors (es_info es') | RExc es' => Forall sound_tensors (es_info es') | RBad => True end).
  { intros I ty n m args e F. unfold make_layer. destruct (layer_table ty) as [k|]; [|exact F]. destruct (construct k m n) as [li| |] eqn:C; [|exact F|exact Logic.I].
    cbn [new_op]. unfold apply_vec. destruct (length args <? num_in k); [exact Logic.I|]. apply apply_sound. cbn. apply Forall_app. split; [exact F|]. constructor; [|constructor]. eapply construct_sound, C. }
  assert (CM : forall order ins outs es, Forall sound_tensors (es_info es) ->
    match construct_model order ins outs es with RVal es' _ => Forall sound_tensors (es_info es') | RExc es' => Forall sound_tensors (es_info es') | RBad => True end).
  { intros order ins outs e F. unfold construct_model. destruct (build _ _ _) as [g| |]; [|exact F|exact Logic.I]. cbn zeta.
    destruct (init_ops _ _ _ _ _ _) as [[infos ops]| |] eqn:E; [|exact F|exact Logic.I]. apply init_ops_renamed in E.
    assert (S1 : Forall sound_tensors infos).
    { clear -F E. induction E as [|a b l l' (_ & _ & E1 & E2) _ IH]; [constructor|]. inversion F as [|? ? [S1 S2] F']; subst. constructor; [|auto].
      split; [rewrite E1; exact S1|rewrite E2; exact S2]. }
    match goal with |- match match ?x with _ => _ end with _ => _ end => destruct x end; [exact S1|exact S1|exact Logic.I]. }
  induction 1 as [ |es s B IH|es k m name li B IH C|es k I info args es' p B IH F L T A|es k I info args es' B IH F L T A
                 |es I type name m args es' p B IH F A|es I type name m args es' B IH F A|es order ins outs es' m B IH A|es order ins outs es' B IH A].
  - constructor.
  - exact IH.
  - cbn. apply Forall_app. split; [exact IH|]. constructor; [|constructor]. eapply construct_sound, C.
  - pose proof (apply_sound k I info args es IH) as X. rewrite A in X. exact X.
  - pose proof (apply_sound k I info args es IH) as X. rewrite A in X. exact X.
  - pose proof (ML I type name m args es IH) as X. rewrite A in X. exact X.
  - pose proof (ML I type name m args es IH) as X. rewrite A in X. exact X.
  - pose proof (CM order ins outs es IH) as X. rewrite A in X. exact X.
  - pose proof (CM order ins outs es IH) as X. rewrite A in X. exact X.
Qed.
