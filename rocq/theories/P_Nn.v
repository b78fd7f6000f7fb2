(** Proofs about the layer API: what every program that uses it maintains, and make_layer. *)
From Coq Require Import Reals String Lia.
From Verif Require Import Base BaseFacts M_Layers M_Optim P_Optim M_Nn M_Graph M_Model S_Graph P_Graph P_Graph2.
Local Open Scope string_scope.
Local Open Scope list_scope.
Open Scope nat_scope.

Lemma find_app {V} (m1 m2 : list (string * V)) k :
  find_key (m1 ++ m2) k = match find_key m1 k with Some v => Some v | None => find_key m2 k end.
Proof. induction m1 as [|[k' v] t IH]; cbn; [reflexivity|]. destruct (String.eqb k' k); [reflexivity|exact IH]. Qed.
Lemma find_none {V} (m : list (string * V)) k : find_key m k = None <-> ~ In k (map fst m).
Proof.
  induction m as [|[k' v] t IH]; cbn; [tauto|]. destruct (String.eqb_spec k' k) as [->|N].
  - split; [discriminate|]. intros H. exfalso. apply H. left; reflexivity.
  - rewrite IH. tauto.
Qed.
Lemma find_some_in {V} (m : list (string * V)) k v : find_key m k = Some v -> In (k, v) m.
Proof.
  induction m as [|[k' v'] t IH]; cbn; [discriminate|]. destruct (String.eqb_spec k' k) as [->|N].
  - intros H; injection H as ->. left; reflexivity.
  - intros H. right. auto.
Qed.
Lemma emplace_keys {V} (m : list (string * V)) k v x :
  In x (map fst (emplace m k v)) <-> In x (map fst m) \/ x = k.
Proof.
  unfold emplace. destruct (find_key m k) as [w|] eqn:E.
  - split; [auto|]. intros [H| ->]; [exact H|]. apply find_some_in in E. apply (in_map fst) in E. exact E.
  - rewrite map_app, in_app_iff. cbn. intuition congruence.
Qed.
Lemma emplace_NoDup {V} (m : list (string * V)) k v : NoDup (map fst m) -> NoDup (map fst (emplace m k v)).
Proof.
  intros H. unfold emplace. destruct (find_key m k) as [w|] eqn:E; [exact H|]. rewrite map_app. cbn. apply NoDup_app_intro; [exact H|repeat constructor; intros []|].
  intros x Hx [<-|[]]. apply find_none in E. auto.
Qed.
Lemma emplace_find {V} (m : list (string * V)) k v x :
  find_key (emplace m k v) x = match find_key m x with Some w => Some w | None => if String.eqb k x then Some v else None end.
Proof.
  unfold emplace. destruct (find_key m k) as [w|] eqn:E.
  - destruct (find_key m x) as [y|] eqn:F; [reflexivity|]. destruct (String.eqb_spec k x) as [->|]; [congruence|reflexivity].
  - rewrite find_app. destruct (find_key m x); [reflexivity|]. reflexivity.
Qed.

(** ** What a layer description looks like *)
Definition param_keys := ["weight"; "bias"; "gamma"; "beta"; "mask"].
Definition buf_keys := ["running_mean"; "running_var"].
Record info_ok (li : linfo) : Prop := mkIO {
  io_kind : exists k m n, construct k m n = Ok (mkLI n (li_type li) (li_attrs li) [] []) /\ layer_table (li_type li) = Some k;
  io_pnd : NoDup (map fst (li_params li));
  io_bnd : NoDup (map fst (li_bufs li));
  io_pk : incl (map fst (li_params li)) param_keys;
  io_bk : incl (map fst (li_bufs li)) buf_keys }.

Definition same_head (a b : linfo) : Prop := li_name a = li_name b /\ li_type a = li_type b /\ li_attrs a = li_attrs b.

Lemma construct_ok k m n li : construct k m n = Ok li ->
  li = mkLI n (li_type li) (li_attrs li) [] [] /\ layer_table (li_type li) = Some k.
Proof.
  destruct k; cbn [construct]; intros H;
    repeat match type of H with
    | bind ?x _ = Ok _ => let v := fresh "v" in destruct x as [v| |]; cbn [bind] in H; try discriminate H
    end; injection H as <-; split; reflexivity.
Qed.
Lemma construct_info_ok k m n li : construct k m n = Ok li -> info_ok li.
Proof.
  intros H. destruct (construct_ok _ _ _ _ H) as [E T]. split.
  - exists k, m, n. rewrite <- E. auto.
  - rewrite E. constructor.
  - rewrite E. constructor.
  - rewrite E. intros x [].
  - rewrite E. intros x [].
Qed.

(** The description changes only by gaining parameters and buffers with allowed names. *)
Definition st_all {S} (P : S -> Prop) (x : st S) : Prop := match x with Ret s => P s | Exc s => P s | Bad => True end.
Lemma st_all_bind {S} (P : S -> Prop) x k : st_all P x -> (forall s, P s -> st_all P (k s)) -> st_all P (st_bind x k).
Proof. destruct x; cbn; auto. Qed.
Lemma st_all_lift {S A} (P : S -> Prop) s (x : res A) k : P s -> (forall a, st_all P (k a)) -> st_all P (lift s x k).
Proof. destruct x; cbn; auto. Qed.

Definition grown (a b : linfo) : Prop := same_head a b /\ (info_ok a -> info_ok b).
Lemma grown_refl a : grown a a.
Proof. split; [repeat split|auto]. Qed.
Lemma grown_trans a b c : grown a b -> grown b c -> grown a c.
Proof. intros ((A1 & A2 & A3) & A4) ((B1 & B2 & B3) & B4). split; [repeat split; congruence|auto]. Qed.

Lemma add_param_grown li0 k t li : In k param_keys -> grown li0 li -> st_all (grown li0) (add_param k t li).
Proof.
  intros Hk G. unfold add_param. apply st_all_lift; [exact G|]. intros u. cbn. eapply grown_trans; [exact G|].
  split; [repeat split|]. intros []. split; cbn; try assumption.
  - apply emplace_NoDup, io_pnd0.
  - intros x Hx. apply emplace_keys in Hx. destruct Hx as [Hx| ->]; auto.
Qed.
Lemma add_buffer_grown li0 k t li : In k buf_keys -> grown li0 li -> st_all (grown li0) (add_buffer k t li).
Proof.
  intros Hk G. unfold add_buffer. apply st_all_lift; [exact G|]. intros u. cbn. eapply grown_trans; [exact G|].
  split; [repeat split|]. intros []. split; cbn; try assumption.
  - apply emplace_NoDup, io_bnd0.
  - intros x Hx. apply emplace_keys in Hx. destruct Hx as [Hx| ->]; auto.
Qed.

Ltac inkeys := cbn; tauto.
Lemma linit_grown k I ss li : st_all (grown li) (linit k I ss li).
Proof.
  unfold linit. apply st_all_lift; [apply grown_refl|]. intros s.
  assert (BN : st_all (grown li) (bn_init I s li)).
  { unfold bn_init. apply st_all_lift; [apply grown_refl|]. intros c.
    apply st_all_bind; [apply add_param_grown; [inkeys|apply grown_refl]|]. intros l1 G1.
    apply st_all_bind; [apply add_param_grown; [inkeys|exact G1]|]. intros l2 G2.
    apply st_all_bind; [apply add_buffer_grown; [inkeys|exact G2]|]. intros l3 G3.
    apply add_buffer_grown; [inkeys|exact G3]. }
  destruct k; try exact BN; try (cbn; apply grown_refl).
  - apply st_all_lift; [apply grown_refl|]. intros u. apply st_all_lift; [apply grown_refl|]. intros f.
    apply st_all_bind; [apply add_param_grown; [inkeys|apply grown_refl]|]. intros l1 G1. apply add_param_grown; [inkeys|exact G1].
  - apply st_all_lift; [apply grown_refl|]. intros u. apply st_all_lift; [apply grown_refl|]. intros [kh kw].
    apply st_all_lift; [apply grown_refl|]. intros c.
    apply st_all_bind; [apply add_param_grown; [inkeys|apply grown_refl]|]. intros l1 G1. apply add_param_grown; [inkeys|exact G1].
  - apply add_param_grown; [inkeys|apply grown_refl].
Qed.

(** ** The store *)
Record store_ok (es : estore) : Prop := mkSO {
  so_info : Forall info_ok (es_info es);
  so_call : forall c s i args, nth_error (es_ph es) c = Some (mkPh s (Some (i, args))) ->
    Forall (fun a => a < c) args /\
    exists li k ss, nth_error (es_info es) i = Some li /\ layer_table (li_type li) = Some k /\ length args = num_in k /\
      map_res (fun a => p <- rd (es_ph es) a ;; Ok (ph_shape p)) args = Ok ss /\ out_shape k (li_attrs li) ss = Ok s }.

Lemma Forall_upd {A} (P : A -> Prop) l i x : Forall P l -> P x -> Forall P (upd l i x).
Proof.
  intros H Hx. revert i. induction H as [|a t Ha Ht IH]; intros [|i]; cbn; constructor; auto.
Qed.

Lemma rd_nth {V} (l : list V) i : rd l i = match nth_error l i with Some v => Ok v | None => UB end.
Proof. reflexivity. Qed.

Lemma shapes_app ps x args ss :
  map_res (fun a => p <- rd ps a ;; Ok (ph_shape p)) args = Ok ss ->
  map_res (fun a => p <- rd (ps ++ x) a ;; Ok (ph_shape p)) args = Ok ss.
Proof.
  rewrite !map_res_Ok. induction 1 as [|a s args ss H _ IH]; constructor; [|exact IH].
  rewrite rd_nth in *. destruct (nth_error ps a) as [p|] eqn:E; [|discriminate].
  rewrite nth_error_app1, E; [exact H|]. apply nth_error_Some. congruence.
Qed.

(** Replacing a description by one with the same type and attributes keeps the store well formed. *)
Lemma store_ok_set es i li li' : store_ok es -> nth_error (es_info es) i = Some li ->
  li_type li' = li_type li -> li_attrs li' = li_attrs li -> info_ok li' -> store_ok (set_info es i li').
Proof.
  intros [SI SC] E T A IO. split; cbn.
  - apply Forall_upd; assumption.
  - intros c s j args H. destruct (SC c s j args H) as (F & l & k & ss & E1 & E2 & E3 & E4 & E5).
    split; [exact F|]. destruct (Nat.eq_dec i j) as [<-|N].
    + rewrite E in E1. injection E1 as <-. exists li', k, ss. rewrite nth_error_upd_eq by (apply nth_error_Some; congruence). rewrite T, A. auto.
    + exists l, k, ss. rewrite nth_error_upd_neq by exact N. auto.
Qed.

Lemma apply_op_ok k I info args es : store_ok es -> Forall (fun a => a < length (es_ph es)) args -> length args = num_in k ->
  (exists li, nth_error (es_info es) info = Some li /\ layer_table (li_type li) = Some k) ->
  match apply_op k I info args es with RVal es' _ => store_ok es' | RExc es' => store_ok es' | RBad => True end.
Proof.
  intros SO FA LA (li & Eli & Tli). unfold apply_op.
  destruct (map_res _ args) as [ss| |] eqn:Es; [|exact Logic.I|exact Logic.I].
  rewrite rd_nth, Eli. pose proof (linit_grown k I ss li) as G.
  assert (IL : info_ok li) by (destruct SO as [SI _]; rewrite Forall_forall in SI; apply SI; eapply nth_error_In; exact Eli).
  destruct (linit k I ss li) as [li'|li'|]; cbn in G; [| |exact Logic.I].
  - destruct G as ((_ & GT & GA) & GI). specialize (GI IL).
    assert (S1 : store_ok (set_info es info li')) by (eapply store_ok_set; eauto).
    destruct (out_shape k (li_attrs li') ss) as [s| |] eqn:Eo; [|exact S1|exact Logic.I].
    destruct S1 as [SI SC]. split; cbn [es_ph es_info set_info].
    + exact SI.
    + intros c s' j args' H. cbn [set_info es_ph es_info] in *.
      destruct (Nat.lt_trichotomy c (length (es_ph es))) as [L|[->|L]].
      * rewrite nth_error_app1 in H by exact L. destruct (SC c s' j args' H) as (F & l & k' & ss' & E1 & E2 & E3 & E4 & E5).
        split; [exact F|]. exists l, k', ss'. split; [exact E1|]. split; [exact E2|]. split; [exact E3|]. split; [apply shapes_app, E4|exact E5].
      * rewrite nth_error_app2, Nat.sub_diag in H by lia. injection H as <- <- <-. split; [exact FA|].
        exists li', k, ss. rewrite nth_error_upd_eq by (apply nth_error_Some; congruence). rewrite <- GT.
        split; [reflexivity|]. split; [exact Tli|]. split; [exact LA|]. split; [apply shapes_app, Es|exact Eo].
      * assert (X : nth_error (es_ph es ++ [mkPh s (Some (info, args))]) c <> None) by congruence.
        apply nth_error_Some in X. rewrite app_length in X. cbn in X. lia.
  - destruct G as ((_ & GT & GA) & GI). eapply store_ok_set; eauto.
Qed.

Lemma new_op_ok li es : store_ok es -> info_ok li -> store_ok (fst (new_op li es)).
Proof.
  intros [SI SC] IO. split; cbn.
  - apply Forall_app. split; [exact SI|constructor; [exact IO|constructor]].
  - intros c s i args H. destruct (SC c s i args H) as (F & l & k & ss & E1 & R). split; [exact F|].
    exists l, k, ss. split; [|exact R]. rewrite nth_error_app1; [exact E1|apply nth_error_Some; congruence].
Qed.
Lemma new_input_ok s es : store_ok es -> store_ok (fst (new_input s es)).
Proof.
  intros [SI SC]. split; cbn; [exact SI|].
  intros c s' i args H. destruct (Nat.lt_trichotomy c (length (es_ph es))) as [L|[->|L]].
  - rewrite nth_error_app1 in H by exact L. destruct (SC c s' i args H) as (F & l & k & ss & E1 & E2 & E3 & E4 & E5).
    split; [exact F|]. exists l, k, ss. split; [exact E1|]. split; [exact E2|]. split; [exact E3|]. split; [apply shapes_app, E4|exact E5].
  - rewrite nth_error_app2, Nat.sub_diag in H by lia. discriminate H.
  - assert (X : nth_error (es_ph es ++ [mkPh s None]) c <> None) by congruence.
    apply nth_error_Some in X. rewrite app_length in X. cbn in X. lia.
Qed.

Lemma make_layer_ok I type name m args es : store_ok es -> Forall (fun a => a < length (es_ph es)) args ->
  match make_layer I type name m args es with RVal es' _ => store_ok es' | RExc es' => store_ok es' | RBad => True end.
Proof.
  intros SO FA. unfold make_layer. destruct (layer_table type) as [k|]; [|exact SO].
  destruct (construct k m name) as [li| |] eqn:C; [|exact SO|exact Logic.I].
  pose proof (new_op_ok li es SO (construct_info_ok _ _ _ _ C)) as S1. unfold new_op in *. cbn [fst] in S1.
  unfold apply_vec. destruct (Nat.ltb_spec (length args) (num_in k)) as [L|L]; [exact Logic.I|].
  apply apply_op_ok; [exact S1| | |].
  - cbn. apply Forall_forall. intros a Ha. rewrite Forall_forall in FA. apply FA. rewrite <- (firstn_skipn (num_in k) args). apply in_or_app; left; exact Ha.
  - rewrite firstn_length, Nat.min_l; [reflexivity|exact L].
  - exists li. cbn. rewrite nth_error_app2, Nat.sub_diag by lia. split; [reflexivity|apply (construct_ok _ _ _ _ C)].
Qed.

(** Naming. *)
Definition renamed (a b : linfo) : Prop :=
  li_type b = li_type a /\ li_attrs b = li_attrs a /\ li_params b = li_params a /\ li_bufs b = li_bufs a.
Lemma name_info_ok infos i idx infos' : name_info infos i idx = Ok infos' ->
  Forall2 renamed infos infos' /\ length infos' = length infos.
Proof.
  unfold name_info. rewrite rd_nth. destruct (nth_error infos i) as [li|] eqn:E; cbn [bind]; [|discriminate].
  assert (R : forall l : list linfo, Forall2 renamed l l) by (induction l; constructor; [repeat split|assumption]).
  destruct (String.eqb (li_name li) ""); intros H; injection H as <-.
  - split; [|apply upd_length]. revert i E. induction infos as [|a t IH]; intros [|i] E; cbn in *; try discriminate.
    + injection E as ->. constructor; [repeat split|apply R].
    + constructor; [repeat split|]. eapply IH; exact E.
  - split; [apply R|reflexivity].
Qed.
Lemma Forall2_trans {A} (R : A -> A -> Prop) (T : forall a b c, R a b -> R b c -> R a c) l1 l2 l3 :
  Forall2 R l1 l2 -> Forall2 R l2 l3 -> Forall2 R l1 l3.
Proof.
  intros H. revert l3. induction H as [|a b l1 l2 Hab _ IH]; intros l3 H3; inversion H3; subst; constructor; eauto.
Qed.
Lemma renamed_trans a b c : renamed a b -> renamed b c -> renamed a c.
Proof. unfold renamed. intuition congruence. Qed.
Lemma init_ops_renamed ps g ord : forall ops idx infos infos' mops,
  init_ops ps g ord idx ops infos = Ok (infos', mops) -> Forall2 renamed infos infos'.
Proof.
  induction ops as [|d t IH]; intros idx infos infos' mops H; cbn [init_ops] in H.
  - injection H as <- <-. clear. induction infos; constructor; [repeat split|assumption].
  - apply bind_Ok in H as (info & _ & H). apply bind_Ok in H as (infos1 & H1 & H). apply bind_Ok in H as (ii & _ & H).
    apply bind_Ok in H as (oo & _ & H). apply bind_Ok in H as ([infos2 rest] & H2 & H). injection H as <- <-.
    apply IH in H2. apply name_info_ok in H1. eapply Forall2_trans; [exact renamed_trans|apply H1|exact H2].
Qed.

Lemma Forall2_nth {A B} (R : A -> B -> Prop) l1 l2 i a : Forall2 R l1 l2 -> nth_error l1 i = Some a -> exists b, nth_error l2 i = Some b /\ R a b.
Proof.
  intros H. revert i. induction H as [|x y l1 l2 Hxy _ IH]; intros [|i] E; cbn in *; try discriminate.
  - injection E as <-. eauto.
  - eauto.
Qed.
Lemma store_ok_renamed ps infos infos' : store_ok (mkES ps infos) -> Forall2 renamed infos infos' -> store_ok (mkES ps infos').
Proof.
  intros [SI SC] R. cbn in *. split; cbn.
  - clear SC. induction R as [|a b l1 l2 (T & A & P & B) _ IH]; [constructor|]. inversion SI as [|? ? IA IB]; subst. constructor; [|apply IH, IB].
    destruct IA. split; rewrite ?T, ?A, ?P, ?B; assumption.
  - intros c s i args H. destruct (SC c s i args H) as (F & l & k & ss & E1 & E2 & E3). split; [exact F|].
    destruct (Forall2_nth _ _ _ _ _ R E1) as (b & Eb & T & A & _). exists b, k, ss. rewrite T, A. auto.
Qed.
Lemma construct_model_ok order ins outs es : store_ok es ->
  match construct_model order ins outs es with RVal es' _ => store_ok es' | RExc es' => store_ok es' | RBad => True end.
Proof.
  intros SO. unfold construct_model. destruct (build _ _ _) as [g| |]; [|exact SO|exact Logic.I]. cbn zeta.
  destruct (init_ops _ _ _ _ _ _) as [[infos ops]| |] eqn:E; [|exact SO|exact Logic.I].
  apply init_ops_renamed in E. assert (S1 : store_ok (mkES (es_ph es) infos)) by (eapply store_ok_renamed; [|exact E]; destruct es; exact SO).
  match goal with |- match match ?x with _ => _ end with _ => _ end => destruct x end; [exact S1|exact S1|exact Logic.I].
Qed.

Lemma built_ok es : built es -> store_ok es.
Proof.
  induction 1 as [ |es s B IH|es k m name li B IH C|es k I info args es' p B IH F L T A|es k I info args es' B IH F L T A
                 |es I type name m args es' p B IH F A|es I type name m args es' B IH F A|es order ins outs es' m B IH A|es order ins outs es' B IH A].
  - split; cbn; [constructor|]. intros [|c]; discriminate.
  - apply new_input_ok, IH.
  - apply new_op_ok; [exact IH|eapply construct_info_ok; exact C].
  - pose proof (apply_op_ok k I info args es IH F L T) as X. rewrite A in X. exact X.
  - pose proof (apply_op_ok k I info args es IH F L T) as X. rewrite A in X. exact X.
  - pose proof (make_layer_ok I type name m args es IH F) as X. rewrite A in X. exact X.
  - pose proof (make_layer_ok I type name m args es IH F) as X. rewrite A in X. exact X.
  - pose proof (construct_model_ok order ins outs es IH) as X. rewrite A in X. exact X.
  - pose proof (construct_model_ok order ins outs es IH) as X. rewrite A in X. exact X.
Qed.

Lemma store_links_back es : store_ok es -> links_back (es_ph es).
Proof.
  intros [_ SC] c args a (s & i & E) Ha. destruct (SC _ _ _ _ E) as (F & _). rewrite Forall_forall in F. auto.
Qed.
