(** Saving and loading a model: the state dictionary. *)
From Coq Require Import Reals String Lia Permutation.
From Verif Require Import Base BaseFacts M_Tensor M_Layers M_Optim M_Init M_Nn M_Graph M_Model M_Backend M_Serial M_Saved S_Grad S_Serial S_Nn S_Graph S_Run S_Build S_Saved
  P_Optim P_Graph P_Nn P_MakeLayer P_Model P_Model2 P_Run P_Fwd P_Load P_Serial P_Build3 P_Build4 Prop_Graph Prop_Model Prop_Run Prop_Build P_Saved.
Local Open Scope string_scope.
Open Scope nat_scope.
Local Open Scope list_scope.

(** ** Reading the dictionary *)
Lemma view_find_list (l : list (string * sref)) infos k : NoDup (map fst l) ->
  find_key (flat_map (fun e => match get_state infos (snd e) with Some t => [(fst e, t)] | None => [] end) l) k =
  match find_key l k with Some r => get_state infos r | None => None end.
Proof.
  induction l as [|[k' r] t IH]; intros ND; [reflexivity|]. inversion ND as [|? ? Ni ND']; subst. cbn [flat_map fst snd find_key]. destruct (String.eqb_spec k' k) as [->|Ne].
  - destruct (get_state infos r) as [x|]; cbn [app find_key]; [rewrite String.eqb_refl; reflexivity|]. rewrite IH by exact ND'.
    cbn in Ni. apply P_Nn.find_none in Ni. rewrite Ni. reflexivity.
  - destruct (get_state infos r) as [x|]; cbn [app find_key]; [|apply IH, ND']. destruct (String.eqb_spec k' k); [congruence|]. apply IH, ND'.
Qed.
Lemma view_find m infos k : NoDup (map fst (m_state m)) ->
  find_key (state_view m infos) k = match find_key (m_state m) k with Some r => get_state infos r | None => None end.
Proof. apply view_find_list. Qed.
Lemma view_incl m infos k : In k (map fst (state_view m infos)) -> In k (map fst (m_state m)).
Proof.
  unfold state_view. induction (m_state m) as [|[k' r] t IH]; cbn [flat_map map fst snd]; [intros []|]. rewrite map_app. intros H. apply in_app_or in H.
  destruct H as [H|H]; [|right; auto]. destruct (get_state infos r); [|destruct H]. cbn in H. destruct H as [<-|[]]. left; reflexivity.
Qed.
Lemma view_NoDup m infos : NoDup (map fst (m_state m)) -> NoDup (map fst (state_view m infos)).
Proof.
  unfold state_view. induction (m_state m) as [|[k r] t IH]; cbn [flat_map map fst snd]; intros ND; [constructor|]. inversion ND as [|? ? Ni ND']; subst.
  destruct (get_state infos r) as [x|]; cbn [app map fst]; [|auto]. constructor; [|auto]. intros H. apply Ni.
  clear -H. induction t as [|[k' r'] t IH]; cbn in H; [destruct H|]. rewrite map_app in H. apply in_app_or in H. destruct H as [H|H]; [|right; auto].
  destruct (get_state infos r'); [|destruct H]. destruct H as [<-|[]]. left; reflexivity.
Qed.
Lemma dict_find bits m infos k : find_key (dict_of bits m infos) k = option_map (mem_of bits) (find_key (state_view m infos) k).
Proof. unfold dict_of. induction (state_view m infos) as [|[k' t] l IH]; [reflexivity|]. cbn. destruct (String.eqb k' k); [reflexivity|exact IH]. Qed.
Lemma dict_keys bits m infos : map fst (dict_of bits m infos) = map fst (state_view m infos).
Proof. unfold dict_of. rewrite map_map. reflexivity. Qed.

(** A tensor of the model, by name. *)
Definition holds (m : model) (infos : list linfo) (key : string) (t : ten) : Prop :=
  exists op li k, In op (m_ops m) /\ nth_error infos (mo_info op) = Some li /\ key = (li_name li ++ "." ++ k)%string /\
    ((exists p, find_key (li_params li) k = Some p /\ t = p_data p) \/ find_key (li_bufs li) k = Some t).

Lemma kept_refl a : kept a a.
Proof. split; [repeat split|]. auto. Qed.
Lemma kept_trans a b c : kept a b -> kept b c -> kept a c.
Proof. unfold kept, same_description. intuition congruence. Qed.
Lemma alike_keys a b : alike a b -> map fst (li_params b) = map fst (li_params a) /\ map fst (li_bufs b) = map fst (li_bufs a).
Proof.
  intros (_ & _ & _ & P & B). split.
  - clear -P. induction P as [|x y l l' (E & _) _ IH]; cbn; congruence.
  - clear -B. induction B as [|x y l l' (E & _) _ IH]; cbn; congruence.
Qed.
Lemma alike_kept a b : alike a b -> kept a b.
Proof. intros H. split; [destruct H as (A & B & C & _); repeat split; assumption|]. apply alike_keys, H. Qed.

Lemma Forall2_nth' {A B} (Q : A -> B -> Prop) l1 l2 i b : Forall2 Q l1 l2 -> nth_error l2 i = Some b -> exists a, nth_error l1 i = Some a /\ Q a b.
Proof.
  intros H. revert i. induction H as [|x y l1 l2 Hxy _ IH]; intros [|i] E; cbn in *; try discriminate; [injection E as <-; eauto|auto].
Qed.
Lemma key_find {V W} (l : list (string * V)) (l' : list (string * W)) k v : map fst l' = map fst l -> find_key l k = Some v -> exists w, In (k, w) l'.
Proof.
  intros E H. apply find_some_in in H. assert (X : In k (map fst l')) by (rewrite E; change k with (fst (k, v)); apply in_map, H).
  apply in_map_iff in X. destruct X as ((k' & w) & <- & X). exists w. exact X.
Qed.

Section State.
Variables (es es' : estore) (m : model) (order : graph -> list gnode) (ins outs : list nat) (g : graph).
Hypothesis BU : built es.
Hypothesis VO : Forall (fun d => d < length (es_ph es)) outs.
Hypothesis BG : build (es_ph es) ins outs = Ok g.
Hypothesis TO : is_topo g (order g).
Hypothesis CM : construct_model order ins outs es = RVal es' m.

Lemma state_holds infos key t : Forall2 kept (es_info es') infos -> (find_key (state_view m infos) key = Some t <-> holds m infos key t).
Proof.
  intros K. destruct (state_keys es order ins outs g BU VO BG TO es' m CM) as (_ & ND & A & B & _ & C). rewrite view_find by exact ND. split.
  - destruct (find_key (m_state m) key) as [r|] eqn:E; [|discriminate]. destruct (C key r E) as (op & li & k & Ho & Hli & Ek & R). intros H.
    destruct (Forall2_nth _ _ _ _ _ K Hli) as (li2 & Hli2 & (D & _)). exists op, li2, k. split; [exact Ho|]. split; [exact Hli2|].
    split; [rewrite Ek; destruct D as (-> & _); reflexivity|]. destruct R as [(-> & _)|(-> & _)]; cbn in H.
    + unfold get_par in H. cbn in H. rewrite Hli2 in H. destruct (find_key (li_params li2) k) as [p|]; [|discriminate]. injection H as <-. left. exists p. auto.
    + rewrite Hli2 in H. right. exact H.
  - intros (op & li2 & k & Ho & Hli2 & -> & H). destruct (Forall2_nth' _ _ _ _ _ K Hli2) as (li & Hli & (D & KP & KB)).
    assert (EN : li_name li2 = li_name li) by (destruct D as (-> & _); reflexivity). rewrite EN. destruct H as [(p & Hp & ->)|H].
    + destruct (key_find _ (li_params li) _ _ (eq_sym KP) Hp) as (p0 & H0). destruct (A op li k p0 Ho Hli H0) as (_ & ->). cbn. unfold get_par. cbn. rewrite Hli2, Hp. reflexivity.
    + destruct (key_find _ (li_bufs li) _ _ (eq_sym KB) H) as (t0 & H0). rewrite (B op li k t0 Ho Hli H0). cbn. rewrite Hli2. exact H.
Qed.

(** Different entries are different tensors. *)
Lemma refs_NoDup : NoDup (map snd (m_state m)).
Proof.
  destruct (state_keys es order ins outs g BU VO BG TO es' m CM) as (_ & ND & _ & _ & _ & C).
  assert (F : forall k1 k2 r, In (k1, r) (m_state m) -> In (k2, r) (m_state m) -> k1 = k2).
  { intros k1 k2 r H1 H2. apply in_find in H1; [|exact ND]. apply in_find in H2; [|exact ND].
    destruct (C _ _ H1) as (op1 & l1 & x1 & O1 & N1 & -> & R1). destruct (C _ _ H2) as (op2 & l2 & x2 & O2 & N2 & -> & R2).
    destruct R1 as [(-> & _)|(-> & _)], R2 as [(E & _)|(E & _)]; try discriminate E; injection E as E1 E2; rewrite E1, N2 in N1; injection N1 as ->; rewrite E2; reflexivity. }
  clear -ND F. induction (m_state m) as [|[k r] t IH]; [constructor|]. cbn. inversion ND as [|? ? Ni ND']; subst. constructor.
  - intros H. apply in_map_iff in H. destruct H as ((k2 & r2) & E & H). cbn in E. subst r2. rewrite (F k k2 r) in Ni; [|left; reflexivity|right; exact H].
    apply Ni. change k2 with (fst (k2, r)). apply in_map, H.
  - apply IH; [exact ND'|]. intros k1 k2 r0 H1 H2. apply (F k1 k2 r0); right; assumption.
Qed.
End State.

(** ** Writing *)
Lemma sref_eq (a b : sref) : {a = b} + {a <> b}.
Proof. decide equality; try apply string_dec; apply Nat.eq_dec. Qed.
Lemma put_get_same infos r d : get_state (put_state infos r d) r = option_map (fun t => set_dat t d) (get_state infos r).
Proof.
  destruct r as [i k|i k]; cbn [get_state put_state].
  - unfold get_par, on_par. cbn [fst snd]. destruct (nth_error infos i) as [li|] eqn:E; [|rewrite E; reflexivity].
    destruct (find_key (li_params li) k) as [p|] eqn:Ep.
    + rewrite nth_error_upd_eq by (apply nth_error_Some; congruence). cbn. rewrite (find_set_eq _ _ _ _ Ep). reflexivity.
    + rewrite E, Ep. reflexivity.
  - destruct (nth_error infos i) as [li|] eqn:E; [|rewrite E; reflexivity]. destruct (find_key (li_bufs li) k) as [t|] eqn:Ep.
    + rewrite nth_error_upd_eq by (apply nth_error_Some; congruence). cbn. rewrite (find_set_eq _ _ _ _ Ep). reflexivity.
    + rewrite E, Ep. reflexivity.
Qed.
Lemma put_get_other infos r r' d : r <> r' -> get_state (put_state infos r d) r' = get_state infos r'.
Proof.
  intros N. destruct r as [i k|i k]; cbn [put_state].
  - unfold on_par. cbn [fst snd]. destruct (nth_error infos i) as [li|] eqn:E; [|reflexivity]. destruct (find_key (li_params li) k) as [p|] eqn:Ep; [|reflexivity].
    destruct r' as [i' k'|i' k']; cbn; unfold get_par; cbn; (destruct (Nat.eq_dec i i') as [<-|Ni]; [|rewrite nth_error_upd_neq by congruence; reflexivity]);
      rewrite nth_error_upd_eq by (apply nth_error_Some; congruence); rewrite E; cbn; [|reflexivity]. rewrite find_set_neq by congruence. reflexivity.
  - destruct (nth_error infos i) as [li|] eqn:E; [|reflexivity]. destruct (find_key (li_bufs li) k) as [t|] eqn:Ep; [|reflexivity].
    destruct r' as [i' k'|i' k']; cbn; unfold get_par; cbn; (destruct (Nat.eq_dec i i') as [<-|Ni]; [|rewrite nth_error_upd_neq by congruence; reflexivity]);
      rewrite nth_error_upd_eq by (apply nth_error_Some; congruence); rewrite E; cbn; [reflexivity|]. rewrite find_set_neq by congruence. reflexivity.
Qed.

Lemma set_key_alike {V} (Q : string * V -> string * V -> Prop) (l : list (string * V)) k v w : (forall e, Q e e) -> Q (k, v) (k, w) -> find_key l k = Some v ->
  Forall2 Q l (set_key l k w).
Proof.
  intros RF H. induction l as [|[k' v'] t IH]; cbn; [discriminate|]. destruct (String.eqb_spec k' k) as [->|N]; intros E.
  - injection E as ->. constructor; [exact H|]. clear -RF. induction t; constructor; auto.
  - constructor; [apply RF|]. apply IH, E.
Qed.
Lemma alike_all l : Forall2 alike l l.
Proof. induction l; constructor; [apply alike_refl|assumption]. Qed.
Lemma upd_alike l i a b : nth_error l i = Some a -> alike a b -> Forall2 alike l (upd l i b).
Proof.
  intros H AL. revert i H. induction l as [|x t IH]; intros [|i] H; cbn in *; try discriminate.
  - injection H as ->. constructor; [exact AL|apply alike_all].
  - constructor; [apply alike_refl|]. apply IH, H.
Qed.
Lemma put_alike infos r d : Forall2 alike infos (put_state infos r d).
Proof.
  destruct r as [i k|i k]; cbn [put_state].
  - unfold on_par. cbn. destruct (nth_error infos i) as [li|] eqn:E; [|apply alike_all]. destruct (find_key (li_params li) k) as [p|] eqn:Ep; [|apply alike_all].
    apply (upd_alike _ _ _ _ E). do 3 (split; [reflexivity|]). split; cbn.
    + eapply set_key_alike; [|cbn; auto|exact Ep]. intros e. auto.
    + apply Forall2_refl'. auto.
  - destruct (nth_error infos i) as [li|] eqn:E; [|apply alike_all]. destruct (find_key (li_bufs li) k) as [t|] eqn:Ep; [|apply alike_all].
    apply (upd_alike _ _ _ _ E). do 3 (split; [reflexivity|]). split; cbn.
    + apply Forall2_refl'. auto.
    + eapply set_key_alike; [|cbn; auto|exact Ep]. intros e. auto.
Qed.
Lemma write_alike value m d infos : Forall2 alike infos (state_write value m d infos).
Proof.
  unfold state_write. revert infos. induction (m_state m) as [|e t IH]; intros infos; cbn [fold_left]; [apply alike_all|].
  assert (T : forall a b c : list linfo, Forall2 alike a b -> Forall2 alike b c -> Forall2 alike a c) by (intros; eapply Forall2_trans; [exact alike_trans|eassumption..]).
  eapply T; [|apply IH]. destruct (find_key d (fst e)); [apply put_alike|apply alike_all].
Qed.

(** Gradients are not touched. *)
Definition grads_ok (li : linfo) : Prop := forall k p, In (k, p) (li_params li) -> twf (p_grad p).
Lemma set_key_in {V} (l : list (string * V)) k v e : In e (set_key l k v) -> In e l \/ e = (k, v).
Proof.
  induction l as [|[k' v'] t IH]; cbn; [intros []|]. destruct (String.eqb_spec k' k) as [->|N]; intros [<-|H]; auto. destruct (IH H); auto.
Qed.
Lemma put_grads infos r d : Forall grads_ok infos -> Forall grads_ok (put_state infos r d).
Proof.
  intros F. destruct r as [i k|i k]; cbn [put_state].
  - unfold on_par. cbn. destruct (nth_error infos i) as [li|] eqn:E; [|exact F]. destruct (find_key (li_params li) k) as [p|] eqn:Ep; [|exact F].
    assert (G : grads_ok li) by (rewrite Forall_forall in F; apply F; eapply nth_error_In; exact E).
    apply upd_all; [exact F|]. intros k' p' H. cbn in H. apply set_key_in in H. destruct H as [H|H]; [eapply G; exact H|]. injection H as -> ->. cbn. eapply G. apply find_some_in, Ep.
  - destruct (nth_error infos i) as [li|] eqn:E; [|exact F]. destruct (find_key (li_bufs li) k) as [t|] eqn:Ep; [|exact F].
    apply upd_all; [exact F|]. rewrite Forall_forall in F. apply (F li). eapply nth_error_In; exact E.
Qed.
Lemma write_grads value m d infos : Forall grads_ok infos -> Forall grads_ok (state_write value m d infos).
Proof.
  unfold state_write. revert infos. induction (m_state m) as [|e t IH]; intros infos F; cbn [fold_left]; [exact F|]. apply IH. destruct (find_key d (fst e)); [apply put_grads|]; exact F.
Qed.

Lemma write_get value m d infos k r : NoDup (map snd (m_state m)) -> In (k, r) (m_state m) ->
  get_state (state_write value m d infos) r =
  match find_key d k with
  | Some s => option_map (fun t => set_dat t (floats value (Nat.div (length (s_mem s)) 4) (s_mem s))) (get_state infos r)
  | None => get_state infos r
  end.
Proof.
  unfold state_write. intros ND H. revert infos. induction (m_state m) as [|[k' r'] t IH]; intros infos; [destruct H|]. inversion ND as [|? ? Ni ND']; subst. cbn [fold_left fst snd].
  assert (Fr : forall l infos, ~ In r (map snd l) -> get_state (fold_left (fun infos e => match find_key d (fst e) with
             Some s => put_state infos (snd e) (floats value (Nat.div (length (s_mem s)) 4) (s_mem s)) | None => infos end) l infos) r = get_state infos r).
  { clear. induction l as [|[k r0] l IH]; intros infos N; [reflexivity|]. cbn [fold_left fst snd]. rewrite IH by (intros X; apply N; right; exact X).
    destruct (find_key d k); [|reflexivity]. apply put_get_other. intros ->. apply N. left; reflexivity. }
  destruct H as [H|H].
  - injection H as -> ->. rewrite Fr by exact Ni. destruct (find_key d k); [|reflexivity]. apply put_get_same.
  - rewrite IH by assumption. assert (N : r' <> r). { intros ->. apply Ni. change r with (snd (k, r)). apply in_map, H. }
    assert (E : get_state (match find_key d k' with Some s => put_state infos r' (floats value (Nat.div (length (s_mem s)) 4) (s_mem s)) | None => infos end) r = get_state infos r).
    { destruct (find_key d k'); [apply put_get_other, N|reflexivity]. }
    rewrite E. reflexivity.
Qed.
