(** Proofs behind C47, first part: a layer call that succeeded succeeds again, and the traversal does not
    depend on the identity of the placeholders. *)
From Coq Require Import Reals String Lia.
From Verif Require Import Base BaseFacts M_Tensor M_Layers M_Optim P_Optim M_Init M_Nn M_Graph M_Model S_Nn S_Graph P_Graph P_Graph2 P_Nn P_MakeLayer.
Local Open Scope string_scope.
Local Open Scope list_scope.
Open Scope nat_scope.

(** ** Initialising again *)
Definition attrs_eq (a b : linfo) : Prop := li_attrs a = li_attrs b.
Lemma add_param_attrs k t1 t2 a b : attrs_eq a b -> res_rel (fun x y => tsh x = tsh y) t1 t2 -> st_rel attrs_eq (add_param k t1 a) (add_param k t2 b).
Proof. unfold add_param, attrs_eq. intros E H. destruct t1 as [x| |], t2 as [y| |]; cbn in *; try contradiction; auto. Qed.
Lemma add_buffer_attrs k t1 t2 a b : attrs_eq a b -> res_rel (fun x y => tsh x = tsh y) t1 t2 -> st_rel attrs_eq (add_buffer k t1 a) (add_buffer k t2 b).
Proof. unfold add_buffer, attrs_eq. intros E H. destruct t1 as [x| |], t2 as [y| |]; cbn in *; try contradiction; auto. Qed.

Lemma linit_attrs k I1 I2 ss a b : attrs_eq a b -> st_rel attrs_eq (linit k I1 ss a) (linit k I2 ss b).
Proof.
  intros AL. assert (EA : li_attrs a = li_attrs b) by exact AL.
  unfold linit. apply st_rel_lift; [exact AL|]. intros s.
  assert (BN : st_rel attrs_eq (bn_init I1 s a) (bn_init I2 s b)).
  { unfold bn_init. apply st_rel_lift; [exact AL|]. intros c.
    apply st_rel_bind; [apply add_param_attrs; [exact AL|apply t_constant_rel]|]. intros x1 y1 G1.
    apply st_rel_bind; [apply add_param_attrs; [exact G1|apply t_constant_rel]|]. intros x2 y2 G2.
    apply st_rel_bind; [apply add_buffer_attrs; [exact G2|apply t_constant_rel]|]. intros x3 y3 G3.
    apply add_buffer_attrs; [exact G3|apply t_constant_rel]. }
  destruct k; try exact BN; try exact AL; rewrite <- ?EA.
  - apply st_rel_lift; [exact AL|]. intros u. apply st_rel_lift; [exact AL|]. intros f.
    apply st_rel_bind; [apply add_param_attrs; [exact AL|apply t_xavier_rel]|]. intros x1 y1 G1. apply add_param_attrs; [exact G1|apply t_constant_rel].
  - apply st_rel_lift; [exact AL|]. intros u. apply st_rel_lift; [exact AL|]. intros [kh kw]. apply st_rel_lift; [exact AL|]. intros c.
    apply st_rel_bind; [apply add_param_attrs; [exact AL|apply t_xavier_rel]|]. intros x1 y1 G1. apply add_param_attrs; [exact G1|apply t_constant_rel].
  - apply add_param_attrs; [exact AL|apply t_constant_rel].
Qed.
Lemma linit_again k I1 I2 ss a b a' : li_attrs b = li_attrs a -> linit k I1 ss a = Ret a' -> exists b', linit k I2 ss b = Ret b'.
Proof.
  intros E H. pose proof (linit_attrs k I1 I2 ss a b (eq_sym E)) as X. rewrite H in X. destruct (linit k I2 ss b) as [r|r|]; cbn in X; try contradiction. eauto.
Qed.

Notation shapes ps args := (map_res (fun a => p <- rd ps a ;; Ok (ph_shape p)) args).

Definition ready (es : estore) : Prop :=
  forall c s i args li k ss, nth_error (es_ph es) c = Some (mkPh s (Some (i, args))) -> nth_error (es_info es) i = Some li ->
    layer_table (li_type li) = Some k -> shapes (es_ph es) args = Ok ss ->
    forall I li', li_attrs li' = li_attrs li -> exists r, linit k I ss li' = Ret r.

Definition ext (es es' : estore) (l : list phnode) : Prop :=
  es_ph es' = es_ph es ++ l /\
  forall i li, nth_error (es_info es) i = Some li -> exists li', nth_error (es_info es') i = Some li' /\ li_type li' = li_type li /\ li_attrs li' = li_attrs li.

Lemma ready_ext es es' l : store_ok es -> ready es -> ext es es' l ->
  (forall n s i args li k ss, nth_error l n = Some (mkPh s (Some (i, args))) -> nth_error (es_info es') i = Some li ->
    layer_table (li_type li) = Some k -> shapes (es_ph es') args = Ok ss ->
    forall I li', li_attrs li' = li_attrs li -> exists r, linit k I ss li' = Ret r) -> ready es'.
Proof.
  intros [_ SC] RD [EP EI] NW c s i args li k ss Hc Hi Ht Hs I li' EA.
  rewrite EP in Hc. destruct (Nat.lt_ge_cases c (length (es_ph es))) as [L|L].
  - rewrite nth_error_app1 in Hc by exact L. destruct (SC _ _ _ _ Hc) as (_ & l0 & k0 & ss0 & E1 & E2 & E3 & E4 & E5).
    destruct (EI _ _ E1) as (l1 & F1 & F2 & F3). rewrite Hi in F1. injection F1 as <-. rewrite F2 in Ht.
    rewrite EP, (shapes_app _ _ _ _ E4) in Hs. injection Hs as <-.
    eapply (RD c s i args l0 k ss0); try eassumption. congruence.
  - rewrite nth_error_app2 in Hc by exact L. eapply NW; eassumption.
Qed.

Lemma ext_refl_set es i li li' : nth_error (es_info es) i = Some li -> li_type li' = li_type li -> li_attrs li' = li_attrs li -> ext es (set_info es i li') [].
Proof.
  intros H T A. split; [cbn; rewrite app_nil_r; reflexivity|]. intros j lj Hj. cbn. destruct (Nat.eq_dec j i) as [->|N].
  - exists li'. rewrite Hj in H. injection H as ->. rewrite nth_error_upd_eq by (apply nth_error_Some; congruence). auto.
  - exists lj. rewrite nth_error_upd_neq by congruence. auto.
Qed.

Lemma apply_op_ready k I info args es : store_ok es -> ready es -> Forall (fun a => a < length (es_ph es)) args ->
  (exists li, nth_error (es_info es) info = Some li /\ layer_table (li_type li) = Some k) ->
  match apply_op k I info args es with RVal es' _ => ready es' | RExc es' => ready es' | RBad => True end.
Proof.
  intros SO RD FA (li & Eli & Tli). unfold apply_op.
  destruct (shapes (es_ph es) args) as [ss| |] eqn:Es; [|exact Logic.I|exact Logic.I].
  rewrite rd_nth, Eli. pose proof (linit_grown k I ss li) as G.
  destruct (linit k I ss li) as [li'|li'|] eqn:EL; cbn in G; [| |exact Logic.I]; destruct G as ((_ & GT & GA) & _).
  - assert (X : ext es (set_info es info li') []) by (eapply ext_refl_set; eauto).
    assert (R1 : ready (set_info es info li')) by (eapply ready_ext; [exact SO|exact RD|exact X|intros [|n]; discriminate]).
    destruct (out_shape k (li_attrs li') ss) as [s| |] eqn:Eo; [|exact R1|exact Logic.I].
    eapply (ready_ext es _ [mkPh s (Some (info, args))]); [exact SO|exact RD| |].
    + split; [reflexivity|]. exact (proj2 X).
    + intros [|[|n]] s' i args' lj kj ssj Hn Hj Tj Sj I' l' EA; try discriminate Hn. injection Hn as <- <- <-.
      cbn in Hj, Sj. rewrite nth_error_upd_eq in Hj by (apply nth_error_Some; congruence). injection Hj as <-.
      rewrite (shapes_app _ _ _ _ Es) in Sj. injection Sj as <-. rewrite <- GT in Tj. rewrite Tli in Tj. injection Tj as <-.
      eapply linit_again; [|exact EL]. congruence.
  - eapply ready_ext; [exact SO|exact RD|eapply ext_refl_set; eauto|intros [|n]; discriminate].
Qed.

Lemma new_op_ready li es : store_ok es -> ready es -> ready (fst (new_op li es)).
Proof.
  intros SO RD. eapply (ready_ext es _ []); [exact SO|exact RD| |intros [|n]; discriminate].
  split; [cbn; rewrite app_nil_r; reflexivity|]. intros i l H. exists l. cbn. rewrite nth_error_app1; [auto|apply nth_error_Some; congruence].
Qed.

Lemma make_layer_ready I type name m args es : store_ok es -> ready es -> Forall (fun a => a < length (es_ph es)) args ->
  match make_layer I type name m args es with RVal es' _ => ready es' | RExc es' => ready es' | RBad => True end.
Proof.
  intros SO RD FA. unfold make_layer. destruct (layer_table type) as [k|]; [|exact RD].
  destruct (construct k m name) as [li| |] eqn:C; [|exact RD|exact Logic.I].
  pose proof (new_op_ok li es SO (construct_info_ok _ _ _ _ C)) as S1. pose proof (new_op_ready li es SO RD) as R1. unfold new_op in *. cbn [fst] in *.
  unfold apply_vec. destruct (Nat.ltb_spec (length args) (num_in k)) as [L|L]; [exact Logic.I|].
  apply apply_op_ready; [exact S1|exact R1| |].
  - cbn. apply Forall_forall. intros a Ha. rewrite Forall_forall in FA. apply FA. rewrite <- (firstn_skipn (num_in k) args). apply in_or_app; left; exact Ha.
  - exists li. cbn. rewrite nth_error_app2, Nat.sub_diag by lia. split; [reflexivity|apply (construct_ok _ _ _ _ C)].
Qed.

Lemma construct_model_ready order ins outs es : store_ok es -> ready es ->
  match construct_model order ins outs es with RVal es' _ => ready es' | RExc es' => ready es' | RBad => True end.
Proof.
  intros SO RD. unfold construct_model. destruct (build _ _ _) as [g| |]; [|exact RD|exact Logic.I]. cbn zeta.
  destruct (init_ops _ _ _ _ _ _) as [[infos ops]| |] eqn:E; [|exact RD|exact Logic.I].
  apply init_ops_renamed in E. assert (S1 : ready (mkES (es_ph es) infos)).
  { eapply (ready_ext es _ []); [exact SO|exact RD| |intros [|n]; discriminate].
    split; [cbn; rewrite app_nil_r; reflexivity|]. intros i l H. destruct (Forall2_nth _ _ _ _ _ E H) as (b & Eb & T & A & _). exists b. auto. }
  match goal with |- match match ?x with _ => _ end with _ => _ end => destruct x end; [exact S1|exact S1|exact Logic.I].
Qed.

Lemma built_ready es : built es -> ready es.
Proof.
  induction 1 as [ |es s B IH|es k m name li B IH C|es k I info args es' p B IH F L T A|es k I info args es' B IH F L T A
                 |es I type name m args es' p B IH F A|es I type name m args es' B IH F A|es order ins outs es' m B IH A|es order ins outs es' B IH A];
    try (pose proof (built_ok _ B) as SO).
  - intros [|c]; discriminate.
  - eapply (ready_ext es _ [mkPh s None]); [exact SO|exact IH|split; [reflexivity|cbn; eauto]|intros [|[|n]]; discriminate].
  - apply new_op_ready; assumption.
  - pose proof (apply_op_ready k I info args es SO IH F T) as X. rewrite A in X. exact X.
  - pose proof (apply_op_ready k I info args es SO IH F T) as X. rewrite A in X. exact X.
  - pose proof (make_layer_ready I type name m args es SO IH F) as X. rewrite A in X. exact X.
  - pose proof (make_layer_ready I type name m args es SO IH F) as X. rewrite A in X. exact X.
  - pose proof (construct_model_ready order ins outs es SO IH) as X. rewrite A in X. exact X.
  - pose proof (construct_model_ready order ins outs es SO IH) as X. rewrite A in X. exact X.
Qed.

(** ** make_layer on a recorded description *)
Lemma construct_rename k m n n' ty at' : construct k m n = Ok (mkLI n ty at' [] []) -> construct k m n' = Ok (mkLI n' ty at' [] []).
Proof.
  intros H. destruct k; cbn [construct] in *;
    repeat match type of H with bind ?x _ = Ok _ => destruct x; cbn [bind] in *; try discriminate H end;
    unfold Linear, ReLU, Softmax, BatchNorm1D, ELU, MaxPooling, Convolution, LeakyReLU, Sigmoid, Dropout, GlobalAvgPooling, BatchNorm2D, Add, new_info in *;
    injection H as <- <-; reflexivity.
Qed.
Lemma info_construct li k name : info_ok li -> layer_table (li_type li) = Some k ->
  construct k (li_attrs li) name = Ok (mkLI name (li_type li) (li_attrs li) [] []).
Proof.
  intros [(k' & m & n & C & T) _ _ _ _] H. rewrite H in T. injection T as <-.
  apply construct_rename with (n := n). eapply construct_again; [exact C|]. reflexivity.
Qed.

Lemma make_layer_copy I ty name attrs k li0 li1 args extra es ss s :
  layer_table ty = Some k -> construct k attrs name = Ok li0 -> length args = num_in k ->
  shapes (es_ph es) args = Ok ss -> linit k I ss li0 = Ret li1 -> out_shape k (li_attrs li1) ss = Ok s ->
  make_layer I ty name attrs (args ++ extra) es =
  RVal (mkES (es_ph es ++ [mkPh s (Some (length (es_info es), args))]) (es_info es ++ [li1])) (length (es_ph es)).
Proof.
  intros T C L S LI OS. unfold make_layer. rewrite T, C. unfold new_op, apply_vec. rewrite app_length.
  destruct (Nat.ltb_spec (length args + length extra) (num_in k)); [lia|].
  rewrite <- L, firstn_app, Nat.sub_diag, firstn_all, firstn_O, app_nil_r. unfold apply_op. cbn [es_ph es_info]. rewrite S.
  rewrite rd_nth, nth_error_app2, Nat.sub_diag by lia. cbn [nth_error]. rewrite LI, OS. cbn [set_info es_ph es_info].
  rewrite upd_app. reflexivity.
Qed.

(** ** The traversal of a copy *)
Section Copy.
Variable ps ps' : list phnode.
Variable f : nat -> nat.
Variable U : nat -> Prop.
Hypothesis INJ : forall d e, U d -> U e -> f d = f e -> d = e.
Hypothesis ARGS : forall d, U d -> args_at ps' (f d) = map f (args_at ps d) /\ Forall U (args_at ps d).

Lemma memb_copy d r : U d -> Forall U r -> memb (f d) (map f r) = memb d r.
Proof.
  intros Ud Ur. destruct (memb d r) eqn:E.
  - apply memb_In in E. apply memb_In. apply in_map, E.
  - apply memb_In_false in E. apply memb_In_false. intros H. apply in_map_iff in H. destruct H as (x & E1 & E2). apply E.
    rewrite Forall_forall in Ur. rewrite <- (INJ x d (Ur x E2) Ud E1). exact E2.
Qed.
Lemma fresh_copy r l : Forall U r -> Forall U l -> fresh (map f r) (map f l) = map f (fresh r l).
Proof.
  intros Ur. induction 1 as [|a t Ua _ IH]; [reflexivity|]. unfold fresh in *. cbn. rewrite (memb_copy a r Ua Ur).
  destruct (memb a r); cbn; rewrite IH; reflexivity.
Qed.
Lemma Forall_fresh r l : Forall U l -> Forall U (fresh r l).
Proof. rewrite !Forall_forall. intros H x Hx. apply in_fresh in Hx. apply H, Hx. Qed.
Lemma walk_copy fuel : forall stack r, Forall U stack -> Forall U r ->
  walk fuel ps' (map f stack) (map f r) = option_map (map f) (walk fuel ps stack r).
Proof.
  induction fuel as [|n IH]; intros [|d rest] r US Ur; cbn; try reflexivity.
  inversion US as [|? ? Ud Urest]; subst. destruct (ARGS d Ud) as [EA UA]. rewrite EA. change (f d :: map f r) with (map f (d :: r)).
  rewrite fresh_copy by (auto; constructor; assumption). rewrite <- map_rev, <- map_app.
  rewrite IH; [destruct (walk n ps _ _); reflexivity| |constructor; assumption].
  apply Forall_app. split; [|assumption]. apply Forall_rev, Forall_fresh, UA.
Qed.

Lemma visits_copy outs d : Forall U outs -> U d -> (forall e, needed ps outs e -> U e) -> visits ps' (map f outs) (f d) = visits ps outs d.
Proof.
  intros UO Ud UN. unfold visits. rewrite !unroll_walk.
  destruct (walk_outs ps outs) as (v & Hv). destruct (walk_outs ps' (map f outs)) as (v' & Hv'). rewrite Hv, Hv'. cbn.
  assert (E : v' = map f v).
  { pose proof (walk_copy (length outs + all_links ps) (rev outs) [] (Forall_rev UO) (Forall_nil _)) as W. rewrite map_rev, Hv in W. cbn in W.
    destruct (Nat.le_ge_cases (length outs + all_links ps) (length (map f outs) + all_links ps')) as [L|L].
    - rewrite (walk_mono _ _ _ _ _ _ W L) in Hv'. congruence.
    - rewrite (walk_mono _ _ _ _ _ _ Hv' L) in W. congruence. }
  subst v'. assert (UV : Forall U v).
  { apply Forall_forall. intros x Hx. apply UN. apply needed_rev. eapply walk_sound; eassumption. }
  clear -UV Ud INJ. induction UV as [|a t Ua _ IH]; [reflexivity|]. cbn. destruct (Nat.eq_dec a d) as [->|N].
  - destruct (Nat.eq_dec (f d) (f d)); [|congruence]. rewrite IH. reflexivity.
  - destruct (Nat.eq_dec (f a) (f d)) as [X|X]; [exfalso; apply N, INJ; assumption|exact IH].
Qed.
End Copy.
