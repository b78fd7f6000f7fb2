(** Proofs behind C33 to C36. *)
From Coq Require Import Reals String Ascii ListDec Lia.
From Verif Require Import Base BaseFacts M_Layers M_Optim P_Optim M_Nn M_Graph M_Model S_Graph P_Graph P_Graph2 P_Nn P_Model.
Local Open Scope string_scope.
Local Open Scope list_scope.
Open Scope nat_scope.

(** The number of iterations is the number of placeholders popped. *)
Lemma walk_exact ps fuel : forall stack r v, walk fuel ps stack r = Some v ->
  (forall f, length v <= f -> walk f ps stack r = Some v) /\ (forall f, f < length v -> walk f ps stack r = None).
Proof.
  induction fuel as [|n IH]; intros [|d rest] r v H; cbn [walk] in H.
  - injection H as <-. split; [intros [|f] _; reflexivity|intros f L; cbn in L; lia].
  - discriminate.
  - injection H as <-. split; [intros [|f] _; reflexivity|intros f L; cbn in L; lia].
  - destruct (walk n ps _ _) as [w|] eqn:E; [|discriminate]. injection H as <-. destruct (IH _ _ _ E) as [H1 H2]. split.
    + intros [|f] L; cbn [length] in L; [lia|]. cbn [walk]. rewrite H1 by lia. reflexivity.
    + intros [|f] L; cbn [walk]; [reflexivity|]. cbn [length] in L. rewrite H2 by lia. reflexivity.
Qed.

Lemma traversal ps outs : exists data ops,
  unroll ps outs = Some (data, ops) /\
  (forall d, In d data <-> needed ps outs d) /\
  (forall d, In d ops <-> needed ps outs d /\ exists args, call ps d args) /\
  (forall fuel, length data <= fuel -> unroll_loop fuel ps (rev outs) [] [] [] = Some (data, ops)) /\
  (forall fuel, fuel < length data -> unroll_loop fuel ps (rev outs) [] [] [] = None) /\
  (forall L, NoDup L -> (forall d, needed ps outs d -> In d L) -> length data <= length outs + list_sum (map (num_args ps) L)).
Proof.
  destruct (walk_outs ps outs) as (v & W). exists v, (filter (produced ps) v).
  destruct (unroll_spec ps outs) as (v' & U & V). rewrite unroll_walk, W in U. cbn [option_map] in U. injection U as <- _.
  rewrite unroll_walk, W. split; [reflexivity|]. split; [exact V|]. split.
  { intros d. rewrite filter_In, V, produced_call. reflexivity. }
  destruct (walk_exact _ _ _ _ _ W) as [X1 X2].
  split; [intros f L; rewrite unroll_loop_walk, X1 by exact L; reflexivity|].
  split; [intros f L; rewrite unroll_loop_walk, X2 by exact L; reflexivity|].
  intros L ND H. assert (P0 : pend_ok ps (rev outs) []) by (intros p d q _ []).
  pose proof (walk_length ps L _ ND _ _ _ P0 W) as B.
  rewrite rev_length in B. unfold todo in B. replace (fresh [] L) with L in B.
  - apply B. intros d Hd. apply H, V, Hd.
  - unfold fresh. symmetry. clear. induction L as [|a t IH]; [reflexivity|]. cbn. f_equal. exact IH.
Qed.

Section Model.
Variable es : estore.
Variable order : graph -> list gnode.
Variable ins outs : list nat.
Variable g : graph.
Hypothesis BU : built es.
Hypothesis VO : Forall (fun d => d < length (es_ph es)) outs.
Hypothesis BG : build (es_ph es) ins outs = Ok g.
Hypothesis TO : is_topo g (order g).

Let VO' : forall o, In o outs -> o < length (es_ph es) := proj1 (Forall_forall _ _) VO.

Lemma order_exists : exists ord, is_topo g ord.
Proof. exists (by_age (length (es_ph es)) g). eapply by_age_topo; [apply store_links_back, built_ok, BU|exact VO'|exact BG]. Qed.

Lemma names_decide :
  (NoDup (used_layers es (order g)) /\ NoDup (intended_names es (order g)) -> exists es' m, construct_model order ins outs es = RVal es' m) /\
  (~ (NoDup (used_layers es (order g)) /\ NoDup (intended_names es (order g))) -> exists es', construct_model order ins outs es = RExc es').
Proof.
  destruct (construct_spec es ins outs g (order g) (built_ok _ BU) BG TO order eq_refl VO') as (infos' & mops & _ & _ & _ & _ & _ & H1 & H2).
  split; intros H; [destruct (H1 H) as [_ ->]; eauto|rewrite (H2 H); eauto].
Qed.

Variable es' : estore.
Variable m : model.
Hypothesis CM : construct_model order ins outs es = RVal es' m.

Lemma model_facts : exists mops,
  NoDup (used_layers es (order g)) /\ NoDup (intended_names es (order g)) /\
  es_ph es' = es_ph es /\ m_graph m = g /\ m_ord m = order g /\ m_ops m = mops /\
  Forall2 (ids_ok (es_ph es) g (order g)) (op_nodes (order g)) mops /\ map mo_info mops = used_layers es (order g) /\
  Forall2 renamed (es_info es) (es_info es') /\
  (forall i li, nth_error (es_info es) i = Some li -> nth_error (es_info es') i = Some (final_info 0 (used_layers es (order g)) i li)) /\
  (forall o, In o mops -> nth_error (es_info es') (mo_info o) = Some (info_at (es_info es') o) /\ info_ok (info_at (es_info es') o)) /\
  map (op_name (es_info es')) mops = intended_names es (order g) /\
  m_data m = data_of ins outs (order g) /\ m_in m = ins /\ m_out m = outs /\
  m_layers m = map (layer_at g) mops /\ m_lmap m = map (fun o => (op_name (es_info es') o, layer_at g o)) mops /\
  m_params m = flat_map (op_params (es_info es')) mops /\ m_state m = flat_map (op_state (es_info es')) mops /\
  m_cfg m = config_of (es_ph es) (es_info es') (data_of ins outs (order g)) mops.
Proof.
  destruct (construct_spec es ins outs g (order g) (built_ok _ BU) BG TO order eq_refl VO') as (infos' & mops & F & O & R & NF & IN & H1 & H2).
  destruct (ListDec.NoDup_dec Nat.eq_dec (used_layers es (order g))) as [D1|D1].
  2:{ rewrite H2 in CM by tauto. discriminate. }
  destruct (ListDec.NoDup_dec string_dec (intended_names es (order g))) as [D2|D2].
  2:{ rewrite H2 in CM by tauto. discriminate. }
  destruct (H1 (conj D1 D2)) as [NW E]. rewrite E in CM. injection CM as <- <-. exists mops. cbn.
  repeat (split; [first [assumption|reflexivity]|]). reflexivity.
Qed.

Definition numbered (d i : nat) : Prop := nth_error (map fst (m_data m)) i = Some d.

Lemma data_numbers : map fst (m_data m) = data_nodes (order g).
Proof.
  destruct model_facts as (mops & _ & _ & _ & _ & _ & _ & _ & _ & _ & _ & _ & _ & -> & _). unfold data_of. rewrite map_map. cbn. apply map_id.
Qed.

Lemma recorded_ids op : In op (m_ops m) -> exists args k ids i,
  needed (es_ph es) outs (mo_ph op) /\ call (es_ph es) (mo_ph op) args /\ visits (es_ph es) outs (mo_ph op) = S k /\
  Forall2 numbered args ids /\ numbered (mo_ph op) i /\
  mo_in op = ids ++ repeat 0 (k * length args) /\ mo_out op = i :: repeat 0 k.
Proof.
  intros H. destruct model_facts as (mops & _ & _ & _ & _ & _ & EM & F & _). rewrite EM in H.
  assert (X : In (mo_ph op) (op_nodes (order g)) /\ ids_ok (es_ph es) g (order g) (mo_ph op) op).
  { clear -F H. induction F as [|d o l mops I _ IH]; [destruct H|]. destruct H as [<-|H].
    - assert (E : mo_ph o = d) by apply I. rewrite E. split; [left; reflexivity|exact I].
    - destruct (IH H) as [A B]. split; [right; exact A|exact B]. }
  destruct X as [Hd (_ & _ & E1 & E2)]. apply (in_op_needed es ins outs g (order g) BG TO) in Hd. destruct Hd as (N & args & C).
  destruct (op_ids es ins outs g (order g) BG TO _ _ N C) as (k & ids & i & V & M & D & I1 & I2).
  exists args, k, ids, i. split; [exact N|]. split; [exact C|]. split; [exact V|]. split; [|split; [|split; congruence]].
  - apply map_res_Ok in M. unfold numbered. rewrite data_numbers. clear -M. induction M as [|a j args ids E _ IH]; constructor; [|exact IH].
    apply index_of_Ok in E. apply E.
  - unfold numbered. rewrite data_numbers. apply index_of_Ok in D. apply D.
Qed.

Lemma data_complete : NoDup (map fst (m_data m)) /\ (forall d, In d (map fst (m_data m)) <-> needed (es_ph es) outs d) /\
  NoDup (map mo_ph (m_ops m)) /\ (forall d, In d (map mo_ph (m_ops m)) <-> needed (es_ph es) outs d /\ exists args, call (es_ph es) d args).
Proof.
  rewrite data_numbers. split; [apply data_nodes_NoDup, TO|]. split; [apply (in_data_needed es ins outs g (order g) BG TO)|].
  destruct model_facts as (mops & _ & _ & _ & _ & _ & EM & F & _). rewrite EM.
  assert (X : map mo_ph mops = op_nodes (order g)).
  { clear -F. induction F as [|d o l mops I _ IH]; cbn; [reflexivity|]. destruct I as (-> & _). rewrite IH. reflexivity. }
  rewrite X. split; [apply op_nodes_NoDup, TO|]. apply (in_op_needed es ins outs g (order g) BG TO).
Qed.

(** Names. *)
Lemma find_map_names (l : list mop) n :
  NoDup (map (op_name (es_info es')) l) ->
  find_key (map (fun o => (op_name (es_info es') o, layer_at g o)) l) n =
  match find (fun o => String.eqb (op_name (es_info es') o) n) l with Some o => Some (layer_at g o) | None => None end.
Proof. intros _. induction l as [|o t IH]; cbn; [reflexivity|]. destruct (String.eqb _ _); [reflexivity|exact IH]. Qed.

Lemma layer_names :
  map (fun l => name_in es' (ml_info l)) (m_layers m) = intended_names es (order g) /\
  Forall (fun n => n <> "") (intended_names es (order g)) /\
  (forall j l, nth_error (m_layers m) j = Some l -> get_layer m (name_in es' (ml_info l)) = Ok l) /\
  (forall n, ~ In n (intended_names es (order g)) -> get_layer m n = Throw).
Proof.
  destruct model_facts as (mops & ND1 & ND2 & _ & _ & _ & _ & _ & OB & _ & NF & IN & NW & _ & _ & _ & EL & EM & _).
  assert (NI : forall o, In o mops -> name_in es' (mo_info o) = op_name (es_info es') o).
  { intros o Ho. unfold name_in. rewrite (proj1 (IN o Ho)). reflexivity. }
  split; [|split; [|split]].
  - rewrite EL, map_map. cbn. rewrite <- NW. apply map_ext_in. exact NI.
  - rewrite <- NW. apply Forall_forall. intros n Hn. apply in_map_iff in Hn. destruct Hn as (o & <- & Ho). unfold op_name.
    assert (X : In (mo_info o) (used_layers es (order g))) by (rewrite <- OB; apply in_map, Ho).
    destruct (objects_valid es ins outs g (order g) (built_ok _ BU) BG TO _ X) as (li & El & IO & _).
    assert (Y : info_at (es_info es') o = final_info 0 (used_layers es (order g)) (mo_info o) li) by (unfold info_at; apply nth_error_nth, NF, El).
    rewrite Y. unfold final_info. destruct (String.eqb_spec (li_name li) "") as [Z|Z]; [|exact Z].
    destruct (index_of_In _ _ X) as (j & ->). cbn. apply auto_name_nonempty. destruct (io_kind _ IO) as (k & mm & n & _ & Tk). apply layer_types_plain in Tk. apply Tk.
  - intros j l Hj. rewrite EL in Hj. apply nth_error_In in Hj. apply in_map_iff in Hj. destruct Hj as (o & <- & Ho). cbn [layer_at ml_info].
    rewrite (NI o Ho). unfold get_layer, at_key. rewrite EM. rewrite <- NW in ND2.
    replace (find_key (map (fun o => (op_name (es_info es') o, layer_at g o)) mops) (op_name (es_info es') o)) with (Some (layer_at g o)); [reflexivity|].
    symmetry. apply in_find; [rewrite map_map; exact ND2|]. apply in_map_iff. exists o. auto.
  - intros n Hn. unfold get_layer, at_key. rewrite EM. replace (find_key (map (fun o => (op_name (es_info es') o, layer_at g o)) mops) n) with (@None mlayer); [reflexivity|].
    symmetry. apply find_none. rewrite map_map. cbn. intros X. apply Hn. rewrite <- NW. exact X.
Qed.

(** Keys. *)
Lemma flat_keys_NoDup {V} (f : mop -> list (string * V)) l :
  NoDup (map (op_name (es_info es')) l) ->
  (forall o, In o l -> NoDup (map fst (f o))) ->
  (forall o k, In o l -> In k (map fst (f o)) -> exists x, k = key_of (es_info es') o x /\ In x (param_keys ++ buf_keys)) ->
  NoDup (map fst (flat_map f l)).
Proof.
  induction l as [|o t IH]; intros ND H1 H2; cbn; [constructor|]. rewrite map_app. cbn in ND. inversion ND as [|? ? Nn ND']; subst.
  apply NoDup_app_intro.
  - apply H1. left; reflexivity.
  - apply IH; [exact ND'| |]; intros; [apply H1|eapply H2]; try eassumption; right; assumption.
  - intros k Hk Hk'. destruct (H2 o k (or_introl eq_refl) Hk) as (x & -> & Hx).
    rewrite flat_map_concat_map, concat_map, in_concat in Hk'. destruct Hk' as (l' & Hl & Hk'). rewrite map_map in Hl. apply in_map_iff in Hl. destruct Hl as (o' & <- & Ho').
    destruct (H2 o' _ (or_intror Ho') Hk') as (y & E & Hy). apply key_inj in E; [|apply keys_dot_free, Hx|apply keys_dot_free, Hy]. destruct E as [E _].
    apply Nn. rewrite E. apply in_map, Ho'.
Qed.

Lemma NoDup_map_key o (l : list string) : NoDup l -> (forall x, In x l -> In x (param_keys ++ buf_keys)) -> NoDup (map (key_of (es_info es') o) l).
Proof.
  induction 1 as [|a t Ha ND IH]; intros H; cbn; constructor.
  - intros X. apply in_map_iff in X. destruct X as (y & E & Hy). apply key_inj in E; [|apply keys_dot_free, H; right; exact Hy|apply keys_dot_free, H; left; reflexivity].
    destruct E as [_ ->]. auto.
  - apply IH. intros x Hx. apply H. right; exact Hx.
Qed.

Lemma op_state_NoDup o : info_ok (info_at (es_info es') o) -> NoDup (map fst (op_state (es_info es') o)).
Proof.
  intros IO. unfold op_state. rewrite map_app, !map_map. cbn.
  rewrite <- (map_map fst (key_of (es_info es') o)), <- (map_map fst (key_of (es_info es') o)), <- map_app. apply NoDup_map_key.
  - apply NoDup_app_intro; [apply (io_pnd _ IO)|apply (io_bnd _ IO)|]. intros x H1 H2. eapply keys_disjoint; [apply (io_pk _ IO), H1|apply (io_bk _ IO), H2].
  - intros x Hx. apply in_app_or in Hx. apply in_or_app. destruct Hx as [Hx|Hx]; [left; apply (io_pk _ IO), Hx|right; apply (io_bk _ IO), Hx].
Qed.
Lemma op_params_NoDup o : info_ok (info_at (es_info es') o) -> NoDup (map fst (op_params (es_info es') o)).
Proof.
  intros IO. unfold op_params. rewrite map_map. cbn. rewrite <- (map_map fst (key_of (es_info es') o)). apply NoDup_map_key; [apply (io_pnd _ IO)|].
  intros x Hx. apply in_or_app. left. apply (io_pk _ IO), Hx.
Qed.

Lemma state_keys :
  NoDup (map fst (m_params m)) /\ NoDup (map fst (m_state m)) /\
  (forall op li k p, In op (m_ops m) -> nth_error (es_info es') (mo_info op) = Some li -> In (k, p) (li_params li) ->
     find_key (m_params m) (li_name li ++ "." ++ k) = Some (mo_info op, k) /\
     find_key (m_state m) (li_name li ++ "." ++ k) = Some (SRParam (mo_info op) k)) /\
  (forall op li k t, In op (m_ops m) -> nth_error (es_info es') (mo_info op) = Some li -> In (k, t) (li_bufs li) ->
     find_key (m_state m) (li_name li ++ "." ++ k) = Some (SRBuf (mo_info op) k)) /\
  (forall key i k, find_key (m_params m) key = Some (i, k) -> exists op li p, In op (m_ops m) /\ mo_info op = i /\
     nth_error (es_info es') i = Some li /\ In (k, p) (li_params li) /\ key = (li_name li ++ "." ++ k)%string) /\
  (forall key r, find_key (m_state m) key = Some r -> exists op li k, In op (m_ops m) /\ nth_error (es_info es') (mo_info op) = Some li /\
     key = (li_name li ++ "." ++ k)%string /\
     ((r = SRParam (mo_info op) k /\ exists p, In (k, p) (li_params li)) \/ (r = SRBuf (mo_info op) k /\ exists t, In (k, t) (li_bufs li)))).
Proof.
  destruct model_facts as (mops & ND1 & ND2 & _ & _ & _ & EO & _ & OB & _ & NF & IN & NW & _ & _ & _ & EL & EM & EP & ES & _).
  rewrite <- NW in ND2.
  assert (NP : NoDup (map fst (m_params m))).
  { rewrite EP. apply flat_keys_NoDup; [exact ND2| |].
    - intros o Ho. apply op_params_NoDup, IN, Ho.
    - intros o k Ho Hk. apply op_params_keys in Hk; [|apply IN, Ho]. destruct Hk as (x & E & _ & Hx). eauto. }
  assert (NS : NoDup (map fst (m_state m))).
  { rewrite ES. apply flat_keys_NoDup; [exact ND2| |].
    - intros o Ho. apply op_state_NoDup, IN, Ho.
    - intros o k Ho Hk. apply op_state_keys in Hk; [|apply IN, Ho]. exact Hk. }
  split; [exact NP|]. split; [exact NS|]. rewrite EO. split; [|split; [|split]].
  - intros op li k p Ho Hli Hp. rewrite (proj1 (IN op Ho)) in Hli. injection Hli as <-.
    split; apply in_find; try assumption.
    + rewrite EP. apply in_flat_map. exists op. split; [exact Ho|]. unfold op_params. apply in_map_iff. exists (k, p). auto.
    + rewrite ES. apply in_flat_map. exists op. split; [exact Ho|]. unfold op_state. apply in_or_app; left. apply in_map_iff. exists (k, p). auto.
  - intros op li k t Ho Hli Ht. rewrite (proj1 (IN op Ho)) in Hli. injection Hli as <-. apply in_find; [assumption|].
    rewrite ES. apply in_flat_map. exists op. split; [exact Ho|]. unfold op_state. apply in_or_app; right. apply in_map_iff. exists (k, t). auto.
  - intros key i k H. apply find_some_in in H. rewrite EP in H. apply in_flat_map in H. destruct H as (op & Ho & H).
    unfold op_params in H. apply in_map_iff in H. destruct H as ((k' & p) & E & H). cbn in E. injection E as <- <- <-.
    exists op, (info_at (es_info es') op), p. split; [exact Ho|]. split; [reflexivity|]. split; [apply IN, Ho|]. auto.
  - intros key r H. apply find_some_in in H. rewrite ES in H. apply in_flat_map in H. destruct H as (op & Ho & H).
    unfold op_state in H. apply in_app_or in H. destruct H as [H|H]; apply in_map_iff in H; destruct H as ((k' & p) & E & H); cbn in E; injection E as <- <-;
    exists op, (info_at (es_info es') op), k'; (split; [exact Ho|]); (split; [apply IN, Ho|]); (split; [reflexivity|]); [left|right]; eauto.
Qed.
End Model.

(** Generated names differ from each other. *)
Lemma generated_distinct es ord j j' i i' li li' : store_ok es ->
  nth_error (used_layers es ord) j = Some i -> nth_error (used_layers es ord) j' = Some i' ->
  nth_error (es_info es) i = Some li -> nth_error (es_info es) i' = Some li' -> li_name li = "" -> li_name li' = "" ->
  j <> j' -> intended_name es j i <> intended_name es j' i'.
Proof.
  intros SO Hj Hj' E E' N N' D X. unfold intended_name in X. rewrite E, E', N, N' in X. cbn in X.
  destruct SO as [SI _]. rewrite Forall_forall in SI.
  destruct (io_kind _ (SI _ (nth_error_In _ _ E))) as (k & mm & n & _ & Tk). destruct (io_kind _ (SI _ (nth_error_In _ _ E'))) as (k' & mm' & n' & _ & Tk').
  apply layer_types_plain in Tk, Tk'. apply D. eapply (auto_name_inj (li_type li) (li_type li')); [apply Tk|apply Tk'|exact X].
Qed.
