(** Compiling, histories of calls, train(mode), and repeatedly linked operations at run time. *)
From Coq Require Import Reals String Lia.
From Verif Require Import Base BaseFacts Sums M_Tensor S_Tensor P_Tensor M_Layers M_Optim M_Nn M_Graph M_Model M_Backend S_Grad S_Graph S_Run P_Graph P_Graph2 P_Nn P_Model P_Model2 P_Run P_Fwd P_Load P_Fwd2.
Local Open Scope string_scope.
Open Scope nat_scope.
Local Open Scope list_scope.

(** ** Compile *)
Lemma prod_nat s : nonneg s -> Z.to_nat (prodZ s) = prodN (map Z.to_nat s) /\ (0 <= prodZ s)%Z.
Proof.
  induction s as [|d t IH]; intros N; [split; [reflexivity|cbn; lia]|]. unfold nonneg in *. inversion N as [|? ? Hd Ht]; subst.
  destruct (IH Ht) as [I1 I2]. cbn [prodZ fold_right map prodN]. fold (prodZ t) (prodN (map Z.to_nat t)). split; [rewrite Z2Nat.inj_mul by assumption; congruence|nia].
Qed.
Lemma new_ten_ok s junk t : new_ten s junk = Ok t -> ten_ok (map Z.to_nat s) t.
Proof.
  unfold new_ten. destruct (have_negative_dim s) eqn:N; cbn; [discriminate|]. destruct (int_prod s) as [v| |] eqn:P; cbn; try discriminate.
  intros H. injection H as <-. apply int_prod_Ok in P. destruct P as [-> _]. apply have_negative_dim_spec in N.
  split; [reflexivity|]. unfold twf. cbn. rewrite tab_length. apply prod_nat, N.
Qed.

Lemma at_key_Ok {V} (l : list (string * V)) k v : at_key l k = Ok v -> find_key l k = Some v.
Proof. unfold at_key. destruct (find_key l k); congruence. Qed.
Lemma create_load li L : create_layer li = Ok L -> load li L = Ok L.
Proof.
  unfold create_layer, bn_create, window_geom. cbv zeta. intros H.
  repeat match type of H with
  | (if ?c then _ else _) = _ => destruct c
  end; inv_ok H; try discriminate H;
    repeat match goal with
    | X : bind _ _ = Ok _ |- _ => inv_ok X
    | p : (_ * _)%type |- _ => destruct p
    end; try discriminate H;
    repeat match goal with X : Ok _ = Ok _ |- _ => injection X; clear X; intros; subst end;
    try reflexivity;
    repeat match goal with X : at_key _ _ = Ok _ |- _ => apply at_key_Ok in X end; cbn; unfold par, bufr;
    repeat match goal with X : find_key _ _ = Some _ |- _ => rewrite X; clear X end; reflexivity.
Qed.

Lemma map_res_Forall2 {A B} (f : A -> res B) l r : map_res f l = Ok r -> Forall2 (fun a b => f a = Ok b) l r.
Proof.
  revert r. induction l as [|a t IH]; intros r H; cbn in H; [injection H as <-; constructor|].
  destruct (f a) as [b| |] eqn:E; cbn in H; try discriminate H. destruct (map_res f t) as [u| |] eqn:E2; cbn in H; try discriminate H.
  injection H as <-. constructor; [exact E|apply IH; reflexivity].
Qed.

Lemma compiled_fits ps junk ins outs m infos b : mfacts ps ins outs m -> new_backend ps junk m infos = Ok b ->
  backend_fits ps m b /\ forall d, In d (map mo_ph (m_ops m)) -> exists L li op, In op (m_ops m) /\ mo_ph op = d /\
    nth_error infos (mo_info op) = Some li /\ create_layer li = Ok L /\ produces m infos b d L.
Proof.
  intros MF. unfold new_backend. intros H. inv_ok H. injection H as <-. rename a into ls, a0 into mem, a1 into gr.
  apply map_res_Forall2 in E, E0, E1. split.
  - split; [symmetry; apply (Forall2_len _ _ _ E)|]. split; [symmetry; apply (Forall2_len _ _ _ E0)|]. split; [symmetry; apply (Forall2_len _ _ _ E1)|].
    intros i d s Hi. cbn [b_mem b_grad].
    assert (K : forall t, (p <- rd ps d ;; new_ten (ph_shape p) junk) = Ok t -> ten_ok (dims ps d) t).
    { intros t X. rewrite rd_nth in X. unfold dims. destruct (nth_error ps d) as [p|]; cbn in X; [|discriminate]. eapply new_ten_ok, X. }
    split.
    + intros ->. destruct (Forall2_nth_error _ _ _ E0 i _ Hi) as (t & Ht & X). exists t. split; [exact Ht|]. apply K. exact X.
    + intros N. destruct (Forall2_nth_error _ _ _ E1 i _ Hi) as (t & Ht & X). exists t. split; [exact Ht|]. apply K. unfold alloc_grad in X. cbn in X. destruct s; [exact X|congruence|exact X].
  - intros d Hd. apply in_map_iff in Hd. destruct Hd as (op & <- & Hop). apply In_nth_error in Hop. destruct Hop as (j & Hj).
    destruct (Forall2_nth_error _ _ _ E j op Hj) as (L & HL & X). rewrite rd_nth in X. destruct (nth_error infos (mo_info op)) as [li|] eqn:El; [|discriminate]. cbn in X.
    exists L, li, op. split; [eapply nth_error_In, Hj|]. split; [reflexivity|]. split; [exact El|]. split; [exact X|].
    exists j, op, L, li. split; [exact Hj|]. split; [reflexivity|]. split; [exact HL|]. split; [exact El|]. apply create_load, X.
Qed.

(** ** Histories *)
Lemma forward_backend E m infos b ins outs :
  match model_forward E m infos (Some b) ins outs with
  | Ret (_, b', _, _) | Exc (_, b', _, _) => b' <> None
  | Bad => True
  end.
Proof.
  cbn. unfold backend_forward. destruct (_ : res (list nat * list nat * list ten)) as [[[ii oi] mem]| |]; [|discriminate|exact I].
  destruct (fwd_ops _ _ _ _ _) as [[[i l] mm]|[[i l] mm]|]; [| |exact I];
    destruct (unbind ii oi mm ins), (unbind oi [] mm outs); first [exact I|discriminate].
Qed.
Lemma backward_backend E m infos b ins outs gouts :
  match model_backward E m infos (Some b) ins outs gouts with
  | Ret (_, b', _) | Exc (_, b', _) => b' <> None
  | Bad => True
  end.
Proof.
  cbn. unfold backend_backward. destruct (_ : res (list nat * list ten * list ten)) as [[[oi mem] gr]| |]; [|discriminate|exact I].
  destruct (bwd_ops _ _ _ _ _ _) as [[[i l] mm]|[[i l] mm]|]; [| |exact I];
    destruct (unbind oi [] mm gouts); first [exact I|discriminate].
Qed.

Lemma not_compiled ps m h : forall infos s', existsb is_compile h = false -> acts ps m h (infos, None) = Some s' -> snd s' = None.
Proof.
  induction h as [|a t IH]; intros infos s' N H; cbn in *; [injection H as <-; reflexivity|].
  apply Bool.orb_false_iff in N. destruct N as [Na Nt]. destruct a; cbn in Na, H; try discriminate Na; eapply IH; eassumption.
Qed.
Lemma stays_compiled ps m h : forall infos b s', acts ps m h (infos, Some b) = Some s' -> snd s' <> None.
Proof.
  induction h as [|a t IH]; intros infos b s' H; cbn in *; [injection H as <-; discriminate|].
  destruct a; cbn in H.
  - unfold model_compile in H. destruct (new_backend _ _ _ _) as [b'| |]; [| |discriminate H]; eapply IH; eassumption.
  - pose proof (forward_backend E m infos b ins outs) as K. cbn in K. destruct (backend_forward E m infos b ins outs) as [[[[i b'] x] y]|[[[i b'] x] y]|]; [| |discriminate H];
      (destruct b' as [b'|]; [eapply IH; eassumption|congruence]).
  - pose proof (backward_backend E m infos b ins outs gouts) as K. cbn in K. destruct (backend_backward E m infos b ins outs gouts) as [[[i b'] x]|[[i b'] x]|]; [| |discriminate H];
      (destruct b' as [b'|]; [eapply IH; eassumption|congruence]).
  - eapply IH; eassumption.
  - eapply IH; eassumption.
Qed.

(** ** train(mode) *)
Lemma on_par_get f infos r r' : get_par (on_par f infos r) r' =
  if (fst r =? fst r') && String.eqb (snd r) (snd r') then option_map f (get_par infos r') else get_par infos r'.
Proof.
  destruct r as [i k], r' as [i' k']. unfold on_par, get_par. cbn [fst snd].
  destruct (nth_error infos i) as [li|] eqn:Ei.
  2:{ destruct (Nat.eqb_spec i i') as [<-|N]; cbn; [rewrite Ei|]; destruct (String.eqb k k'); reflexivity. }
  destruct (find_key (li_params li) k) as [p|] eqn:Ep.
  - destruct (Nat.eqb_spec i i') as [<-|N]; cbn [andb].
    + rewrite nth_error_upd_eq by (apply nth_error_Some; congruence). rewrite Ei. cbn. rewrite find_set.
      destruct (String.eqb_spec k k') as [<-|]; [rewrite Ep; reflexivity|reflexivity].
    + rewrite nth_error_upd_neq by exact N. reflexivity.
  - destruct (Nat.eqb_spec i i') as [<-|N]; cbn [andb]; [|reflexivity]. rewrite Ei.
    destruct (String.eqb_spec k k') as [<-|]; [rewrite Ep; reflexivity|reflexivity].
Qed.

Definition only_params_differ (a b : linfo) : Prop :=
  li_name a = li_name b /\ li_type a = li_type b /\ li_attrs a = li_attrs b /\ li_bufs a = li_bufs b /\ map fst (li_params a) = map fst (li_params b).
Lemma on_par_frame f infos r : Forall2 only_params_differ infos (on_par f infos r).
Proof.
  assert (R : forall l, Forall2 only_params_differ l l) by (induction l; constructor; [repeat split|assumption]).
  unfold on_par. destruct (nth_error infos (fst r)) as [li|] eqn:Ei; [|apply R]. destruct (find_key _ _) as [p|]; [|apply R].
  apply Forall2_intro; [rewrite upd_length; reflexivity|]. intros i a b Ha Hb.
  destruct (Nat.eq_dec (fst r) i) as [<-|N].
  - rewrite nth_error_upd_eq in Hb by (apply nth_error_Some; congruence). injection Hb as <-. assert (a = li) as -> by congruence.
    repeat split. cbn. symmetry. apply set_key_keys.
  - rewrite nth_error_upd_neq in Hb by exact N. assert (a = b) as -> by congruence. repeat split.
Qed.
Lemma differ_trans a b c : only_params_differ a b -> only_params_differ b c -> only_params_differ a c.
Proof. intros (A1 & A2 & A3 & A4 & A5) (B1 & B2 & B3 & B4 & B5). repeat split; congruence. Qed.

Lemma train_frame mode m infos : Forall2 only_params_differ infos (model_train mode m infos).
Proof.
  unfold model_train. generalize (m_params m) as l. intros l. revert infos. induction l as [|e t IH]; intros infos; cbn.
  - induction infos; constructor; [repeat split|assumption].
  - eapply Forall2_trans; [exact differ_trans|apply on_par_frame|apply IH].
Qed.

Lemma train_get mode m infos r : get_par (model_train mode m infos) r =
  if existsb (fun e => (fst (snd e) =? fst r) && String.eqb (snd (snd e)) (snd r)) (m_params m)
  then option_map (train_prm mode) (get_par infos r) else get_par infos r.
Proof.
  unfold model_train. generalize (m_params m) as l. intros l. revert infos. induction l as [|e t IH]; intros infos; cbn; [reflexivity|].
  rewrite IH, on_par_get. destruct ((fst (snd e) =? fst r) && String.eqb (snd (snd e)) (snd r)) eqn:X; cbn; [|reflexivity].
  destruct (existsb _ t); destruct (get_par infos r); reflexivity.
Qed.
Lemma train_key mode m infos key r p : find_key (m_params m) key = Some r -> get_par infos r = Some p ->
  get_par (model_train mode m infos) r = Some (mkP (p_data p) (p_grad p) mode).
Proof.
  intros H P. rewrite train_get, P. destruct (existsb _ _) eqn:X; [reflexivity|]. exfalso.
  apply find_some_in in H. assert (Y : existsb (fun e => (fst (snd e) =? fst r) && String.eqb (snd (snd e)) (snd r)) (m_params m) = true); [|congruence].
  apply existsb_exists. exists (key, r). split; [exact H|]. cbn. rewrite Nat.eqb_refl, String.eqb_refl. reflexivity.
Qed.

(** Two stores are the same when all their parts are. *)
Lemma find_ext_keys {V} (l1 : list (string * V)) : forall l2, map fst l1 = map fst l2 -> NoDup (map fst l1) -> (forall k, find_key l1 k = find_key l2 k) -> l1 = l2.
Proof.
  induction l1 as [|[k v] t IH]; intros [|[k' v'] u] K ND F; cbn in *; try discriminate; [reflexivity|].
  injection K as -> K. inversion ND as [|? ? N ND']; subst. pose proof (F k') as F0. rewrite String.eqb_refl in F0. injection F0 as ->.
  f_equal. apply IH; [exact K|exact ND'|]. intros x. specialize (F x). destruct (String.eqb_spec k' x) as [->|]; [|exact F].
  assert (X : find_key t x = None) by (apply find_none; exact N). assert (Y : find_key u x = None) by (apply find_none; rewrite <- K; exact N). congruence.
Qed.
Lemma train_last mode mode' m infos : Forall (fun li => NoDup (map fst (li_params li))) infos ->
  model_train mode' m (model_train mode m infos) = model_train mode' m infos.
Proof.
  intros ND. apply nth_error_ext. intros i.
  pose proof (train_frame mode m infos) as F1. pose proof (train_frame mode' m (model_train mode m infos)) as F2. pose proof (train_frame mode' m infos) as F3.
  destruct (nth_error infos i) as [li|] eqn:Ei.
  - destruct (Forall2_nth_error _ _ _ F1 i li Ei) as (l1 & E1 & A1). destruct (Forall2_nth_error _ _ _ F2 i l1 E1) as (l2 & E2 & A2).
    destruct (Forall2_nth_error _ _ _ F3 i li Ei) as (l3 & E3 & A3). rewrite E2, E3. f_equal.
    destruct A1 as (A11 & A12 & A13 & A14 & A15), A2 as (A21 & A22 & A23 & A24 & A25), A3 as (A31 & A32 & A33 & A34 & A35).
    assert (X : li_params l2 = li_params l3).
    { apply find_ext_keys; [congruence| |].
      - rewrite <- A25, <- A15. rewrite Forall_forall in ND. apply ND. eapply nth_error_In, Ei.
      - intros k. pose proof (train_get mode' m (model_train mode m infos) (i, k)) as G2. pose proof (train_get mode' m infos (i, k)) as G3.
        pose proof (train_get mode m infos (i, k)) as G1. unfold get_par in *. cbn [fst snd] in *. rewrite E1, E2, E3, Ei in *. rewrite G2, G3, G1.
        destruct (existsb _ _); destruct (find_key (li_params li) k); reflexivity. }
    destruct l2, l3. cbn in *. congruence.
  - assert (L : forall l : list linfo, length infos = length l -> nth_error l i = None) by (intros l Hl; apply nth_error_None; rewrite <- Hl; apply nth_error_None; exact Ei).
    rewrite !L; [reflexivity| |]; [apply (Forall2_len _ _ _ F3)|].
    rewrite (Forall2_len _ _ _ F1). apply (Forall2_len _ _ _ F2).
Qed.

(** Optimizers after train(false). *)
Lemma view_in m infos k p : In (k, p) (params_view m infos) -> exists r, In (k, r) (m_params m) /\ get_par infos r = Some p.
Proof.
  unfold params_view. rewrite in_flat_map. intros ([k' r] & H & X). cbn in X. destruct (get_par infos r) as [q|] eqn:E; [|destruct X].
  destruct X as [X|[]]. injection X as -> ->. eauto.
Qed.
Lemma find_In_unique {V} (l : list (string * V)) k v : NoDup (map fst l) -> In (k, v) l -> find_key l k = Some v.
Proof.
  induction l as [|[x w] t IH]; intros ND H; [destruct H|]. cbn in *. inversion ND as [|? ? N ND']; subst. destruct H as [H|H].
  - injection H as -> ->. rewrite String.eqb_refl. reflexivity.
  - destruct (String.eqb_spec x k) as [->|]; [exfalso; apply N; apply in_map_iff; exists (k, v); auto|]. apply IH; assumption.
Qed.
Lemma frozen_view m infos : NoDup (map fst (m_params m)) -> Forall (fun e => p_train (snd e) = false) (params_view m (model_train false m infos)).
Proof.
  intros ND. apply Forall_forall. intros [k p] H. apply view_in in H. destruct H as (r & H & G). cbn.
  rewrite train_get in G. destruct (existsb _ _) eqn:X.
  - destruct (get_par infos r); [|discriminate]. injection G as <-. reflexivity.
  - exfalso. assert (Y : existsb (fun e => (fst (snd e) =? fst r) && String.eqb (snd (snd e)) (snd r)) (m_params m) = true); [|congruence].
    apply existsb_exists. exists (k, r). split; [exact H|]. cbn. rewrite Nat.eqb_refl, String.eqb_refl. reflexivity.
Qed.
Lemma each_frozen {S} (one : string -> prm -> S -> res (prm * S)) ps s :
  (forall k p s, p_train p = false -> one k p s = Ok (p, s)) -> Forall (fun e => p_train (snd e) = false) ps -> each one ps s = Ret (ps, s).
Proof.
  intros H F. induction F as [|[k p] t Hp _ IH]; [reflexivity|]. cbn. rewrite H by exact Hp. rewrite IH. reflexivity.
Qed.
Lemma set_key_same {V} (l : list (string * V)) k v : find_key l k = Some v -> set_key l k v = l.
Proof.
  induction l as [|[x w] t IH]; cbn; [discriminate|]. destruct (String.eqb x k); [intros H; injection H as ->; reflexivity|].
  intros H. rewrite IH by exact H. reflexivity.
Qed.
Lemma write_view m infos : NoDup (map fst (m_params m)) -> params_write m (params_view m infos) infos = infos.
Proof.
  intros ND. unfold params_write.
  assert (K : forall e, In e (m_params m) -> match find_key (params_view m infos) (fst e) with Some p => on_par (fun _ => p) infos (snd e) | None => infos end = infos).
  { intros [k r] H. cbn. destruct (find_key (params_view m infos) k) as [p|] eqn:E; [|reflexivity].
    apply find_some_in, view_in in E. destruct E as (r' & H' & G).
    assert (r' = r) as -> by (apply find_In_unique in H, H'; [congruence|assumption|assumption]).
    unfold on_par, get_par in *. destruct (nth_error infos (fst r)) as [li|] eqn:Ei; [|reflexivity]. rewrite G.
    apply nth_error_ext. intros i. destruct (Nat.eq_dec (fst r) i) as [<-|N].
    - rewrite nth_error_upd_eq by (apply nth_error_Some; congruence). rewrite Ei. f_equal. unfold set_par. rewrite set_key_same by exact G. destruct li; reflexivity.
    - apply nth_error_upd_neq, N. }
  revert K. generalize (m_params m) as l. intros l. induction l as [|e t IH]; intros K; cbn; [reflexivity|].
  rewrite (K e (or_introl eq_refl)). apply IH. intros x Hx. apply K. right. exact Hx.
Qed.

(** ** Operations linked more than once *)
Lemma lforward_arity E L ins outs r : tolerant L = false -> lforward E L ins outs = Ok r -> length ins = 1 /\ length outs = 1.
Proof.
  intros T H. destruct L; cbn in T; try discriminate T; cbn in H; unfold act_forward, validate_same, validate_rank, validate_linear, dw_assert in H;
    destruct (Nat.eqb_spec (length ins) 1); cbn in H; try discriminate H;
    destruct (Nat.eqb_spec (length outs) 1); cbn in H; try discriminate H; auto.
Qed.
Lemma lforward_many E L ins outs : tolerant L = false -> length outs <> 1 -> lforward E L ins outs = Throw.
Proof.
  intros T N. destruct L; cbn in T; try discriminate T; cbn; unfold act_forward, validate_same, validate_rank, validate_linear, dw_assert;
    (destruct (Nat.eqb_spec (length ins) 1); [|reflexivity]); (destruct (Nat.eqb_spec (length outs) 1); [contradiction|reflexivity]).
Qed.
Lemma tolerant_kind L L' : same_kind L L' -> tolerant L = tolerant L'.
Proof. destruct L, L'; cbn; tauto. Qed.
Lemma extract_len mem ids ts : extract mem ids = Ok ts -> length ts = length ids.
Proof. intros H. apply map_res_Forall2 in H. symmetry. apply (Forall2_len _ _ _ H). Qed.

Lemma ran_arity E ops : forall ls infos mem r, fwd_ops E ops ls infos mem = Ret r ->
  forall j op L, nth_error ops j = Some op -> nth_error ls j = Some L -> tolerant L = true \/ length (mo_out op) = 1.
Proof.
  induction ops as [|o t IH]; intros ls infos mem r H [|j] op L Ho HL; cbn in Ho; try discriminate Ho; destruct ls as [|L0 lt]; try discriminate HL; cbn in H, HL.
  - injection Ho as ->. injection HL as ->. destruct (tolerant L) eqn:T; [left; reflexivity|right].
    unfold fwd_step in H. destruct (extract mem (mo_in op)) as [a| |]; cbn in H; try discriminate H.
    destruct (extract mem (mo_out op)) as [b| |] eqn:EO; cbn in H; try discriminate H.
    destruct (rd infos (mo_info op)) as [li| |]; cbn in H; try discriminate H.
    destruct (load li L) as [L1| |] eqn:EL; cbn in H; try discriminate H.
    destruct (lforward _ L1 a b) as [q| |] eqn:F; cbn in H; try discriminate H.
    rewrite <- (extract_len _ _ _ EO). eapply lforward_arity; [|exact F]. rewrite <- (tolerant_kind _ _ (load_kind _ _ _ EL)). exact T.
  - destruct (fwd_step _ _ _ _ _) as [[[i1 L1] m1]| |] eqn:X; cbn in H; try discriminate H. destruct (fwd_ops E t lt i1 m1) as [[[i2 l2] m2]|[[i2 l2] m2]|] eqn:EF; try discriminate H.
    eapply IH; eassumption.
Qed.

Section Repeated.
Variables (ps : list phnode) (ins outs : list nat) (m : model).
Hypothesis MF : mfacts ps ins outs m.

Lemma returned_linked_once E infos b tins touts r : model_forward E m infos (Some b) tins touts = Ret r ->
  links_ok ps outs (produces m infos b).
Proof.
  cbn. unfold backend_forward. destruct (_ : res (list nat * list nat * list ten)) as [[[ii oi] mem]| |]; [|discriminate|discriminate].
  destruct (fwd_ops E (m_ops m) (b_layers b) infos mem) as [x|[[? ?] ?]|] eqn:R; [| |discriminate].
  2:{ destruct (unbind ii oi l1 tins), (unbind oi [] l1 touts); discriminate. }
  intros _ d L (j & op & L0 & li & H1 & <- & H3 & H4 & H5).
  destruct (ran_arity _ _ _ _ _ _ R j op L0 H1 H3) as [T|T].
  - right. rewrite <- (tolerant_kind _ _ (load_kind _ _ _ H5)). exact T.
  - left. destruct (op_spec _ _ _ _ MF op (nth_error_In _ _ H1)) as (args & k & _ & _ & V & _ & O & _). rewrite O in T. cbn in T. rewrite repeat_length in T. lia.
Qed.
End Repeated.

Lemma first_bad {A} (P : A -> bool) l x : In x l -> P x = false -> exists pre y post, l = pre ++ y :: post /\ P y = false /\ forall z, In z pre -> P z = true.
Proof.
  induction l as [|a t IH]; intros H F; [destruct H|]. destruct (P a) eqn:Ea.
  - destruct H as [->|H]; [congruence|]. destruct (IH H F) as (pre & y & post & -> & Hy & Hp). exists (a :: pre), y, post. split; [reflexivity|]. split; [exact Hy|].
    intros z [<-|Hz]; auto.
  - exists [], a, t. split; [reflexivity|]. split; [exact Ea|]. intros z [].
Qed.
Lemma fwd_ops_app E pre : forall post ls lt infos mem infos1 ls1 mem1, fwd_ops E pre ls infos mem = Ret (infos1, ls1, mem1) -> length ls = length pre ->
  fwd_ops E (pre ++ post) (ls ++ lt) infos mem =
  match fwd_ops E post lt infos1 mem1 with Ret (i, l, q) => Ret (i, ls1 ++ l, q) | Exc (i, l, q) => Exc (i, ls1 ++ l, q) | Bad => Bad end.
Proof.
  induction pre as [|op t IH]; intros post ls lt infos mem infos1 ls1 mem1 H L.
  - destruct ls; [|discriminate]. cbn in *. injection H as <- <- <-. destruct (fwd_ops E post lt infos mem) as [[[? ?] ?]|[[? ?] ?]|]; reflexivity.
  - destruct ls as [|L0 lu]; [discriminate|]. cbn [app fwd_ops] in *. destruct (fwd_step _ _ _ _ _) as [[[i1 L1] m1]| |]; cbn [lift] in *; try discriminate H.
    destruct (fwd_ops E t lu i1 m1) as [[[i2 l2] m2]|[[? ?] ?]|] eqn:X; try discriminate H. injection H as <- <- <-.
    rewrite (IH post lu lt i1 m1 i2 l2 m2 X) by (cbn in L; lia). destruct (fwd_ops E post lt i2 m2) as [[[? ?] ?]|[[? ?] ?]|]; reflexivity.
Qed.

Section Throws.
Variables (ps : list phnode) (ins outs : list nat) (m : model).
Hypothesis MF : mfacts ps ins outs m.
Hypothesis CL : closed ps ins outs.

Lemma produces_of infos b : backend_fits ps m b -> (forall d args, needed ps outs d -> call ps d args -> exists L, produces m infos b d L) ->
  forall j op, nth_error (m_ops m) j = Some op -> exists L0 L li, nth_error (b_layers b) j = Some L0 /\ nth_error infos (mo_info op) = Some li /\ load li L0 = Ok L /\ produces m infos b (mo_ph op) L.
Proof.
  intros BF H j op Hj. destruct (op_spec _ _ _ _ MF op (nth_error_In _ _ Hj)) as (args & k & N & C & _).
  destruct (H _ _ N C) as (L & PL). pose proof PL as (j' & op' & L0 & li & H1 & H2 & H3 & H4 & H5).
  destruct (op_at_unique _ _ _ _ MF j' j op' op H1 Hj H2) as [-> ->]. exists L0, L, li. auto.
Qed.

Lemma repeated_throws E V infos b tins touts :
  backend_fits ps m b -> shaped ps ins tins -> shaped ps outs touts -> Forall2 (fun d t => V d = t) ins tins ->
  (forall d args, needed ps outs d -> call ps d args -> exists L, produces m infos b d L /\
     (visits ps outs d = 1 \/ tolerant L = true -> computes (E d) L (map V args) (dims ps d) (V d))) ->
  (exists d L, produces m infos b d L /\ visits ps outs d <> 1 /\ tolerant L = false) ->
  exists s, model_forward E m infos (Some b) tins touts = Exc s.
Proof.
  intros BF SI SO VI EV (d0 & Lx & PLx & NV & NT).
  assert (PO := produces_of infos b BF (fun d args N C => match EV d args N C with ex_intro _ L (conj P _) => ex_intro _ L P end)).
  pose (ok := fun x : mop * layer => (length (mo_out (fst x)) =? 1) || tolerant (snd x)).
  assert (LB : length (m_ops m) = length (b_layers b)) by (symmetry; apply BF).
  destruct PLx as (j0 & op0 & Lx0 & lix & X1 & <- & X3 & X4 & X5).
  destruct (first_bad ok (combine (m_ops m) (b_layers b)) (op0, Lx0)) as (pre & [op L0] & post & EC & Hy & Hpre).
  { apply nth_error_In with (n := j0). clear -X1 X3. revert j0 X1 X3. generalize (m_ops m) as l1, (b_layers b) as l2.
    induction l1 as [|a t IH]; intros l2 [|j] H1 H2; cbn in *; try discriminate; destruct l2; try discriminate; cbn in *; [congruence|apply IH; assumption]. }
  { unfold ok. cbn. destruct (op_spec _ _ _ _ MF op0 (nth_error_In _ _ X1)) as (args & k & _ & _ & V1 & _ & O & _). rewrite O. cbn. rewrite repeat_length.
    rewrite (tolerant_kind _ _ (load_kind _ _ _ X5)), NT. destruct k; [lia|reflexivity]. }
  assert (E1 : m_ops m = map fst pre ++ op :: map fst post).
  { transitivity (map fst (combine (m_ops m) (b_layers b))); [|rewrite EC, map_app; reflexivity].
    clear -LB. revert LB. generalize (b_layers b) as l2. induction (m_ops m) as [|a t IH]; intros [|c u] L; cbn in *; try discriminate; [reflexivity|]. rewrite <- IH by lia. reflexivity. }
  assert (E2 : b_layers b = map snd pre ++ L0 :: map snd post).
  { transitivity (map snd (combine (m_ops m) (b_layers b))); [|rewrite EC, map_app; reflexivity].
    clear -LB. revert LB. generalize (b_layers b) as l2. induction (m_ops m) as [|a t IH]; intros [|c u] L; cbn in *; try discriminate; [reflexivity|]. rewrite <- IH by lia. reflexivity. }
  destruct (bind_all _ _ _ _ MF CL b tins touts BF SI SO) as ([m1 mem] & B1 & B2 & LM & HI & HO & HR). cbn [fst snd] in *.
  pose proof BF as (_ & _ & _ & BD).
  destruct (fwd_run ps ins outs m MF CL E V (map fst pre) [] (op :: map fst post) infos mem (map snd pre)) as (infos1 & ls1 & mem1 & ER & [ML MV] & F3 & LI & FR & _).
  { exact E1. }
  { split; [exact LM|]. intros d N. split.
    - intros [H|[]]. apply In_nth_error in H. destruct H as (k & Hk). destruct (Forall2_nth_error _ _ _ VI k d Hk) as (t & Ht & ->). apply (HI k); assumption.
    - intros H1. destruct (in_dec Nat.eq_dec d outs) as [H2|H2].
      + apply In_nth_error in H2. destruct H2 as (k & Hk). destruct (Forall2_nth_error _ _ _ SO k d Hk) as (t & Ht & Tt). exists t. split; [apply (HO k); assumption|exact Tt].
      + rewrite (HR d N H1 H2). destruct (BD _ _ _ (data_at _ _ _ _ MF d N)) as [Y _]. apply Y, storage_internal; assumption. }
  { apply Forall2_intro; [rewrite !map_length; reflexivity|]. intros j o Lo Ho HLo.
    assert (Hj : nth_error (m_ops m) j = Some o) by (rewrite E1, nth_error_app1; [exact Ho|apply nth_error_Some; congruence]).
    assert (Hl : nth_error (b_layers b) j = Some Lo) by (rewrite E2, nth_error_app1; [exact HLo|apply nth_error_Some; congruence]).
    destruct (PO j o Hj) as (Lo' & L & li & Q1 & Q2 & Q3 & Q4). assert (Lo' = Lo) as -> by congruence.
    destruct (op_spec _ _ _ _ MF o (nth_error_In _ _ Hj)) as (args & k & N & C & V1 & _ & O & _).
    destruct (EV _ _ N C) as (L' & P' & CO). assert (L' = L) as -> by (eapply (produces_fun ps ins outs m MF); eassumption).
    assert (W : visits ps outs (mo_ph o) = 1 \/ tolerant L = true).
    { assert (K : ok (o, Lo) = true).
      { apply Hpre. apply nth_error_In with (n := j). rewrite nth_error_map in Ho, HLo. destruct (nth_error pre j) as [[a c]|]; [|discriminate]. cbn in *. congruence. }
      unfold ok in K. cbn in K. apply Bool.orb_true_iff in K. destruct K as [K|K].
      - left. apply Nat.eqb_eq in K. rewrite O in K. cbn in K. rewrite repeat_length in K. lia.
      - right. rewrite <- (tolerant_kind _ _ (load_kind _ _ _ Q3)). exact K. }
    exists L, li, args. split; [exact Q2|]. split; [exact Q3|]. split; [exact C|]. split; [exact W|]. apply CO, W. }
  assert (Hop : In op (m_ops m)) by (rewrite E1; apply in_or_app; right; left; reflexivity).
  destruct (op_spec _ _ _ _ MF op Hop) as (args & k & N & C & V1 & EI & EO & NA).
  assert (EX : exists i l q, fwd_ops E (op :: map fst post) (L0 :: map snd post) infos1 mem1 = Exc (i, l, q) /\ length q = length mem1).
  { cbn [fwd_ops]. assert (ES : fwd_step (E (mo_ph op)) op L0 infos1 mem1 = Throw).
    { assert (GE : forall ids, (forall i, In i ids -> i < length mem1) -> exists ts, extract mem1 ids = Ok ts).
      { intros ids H. exists (map (fun i => nth i mem1 empty_ten) ids). apply extract_Ok. induction ids as [|i t IH]; cbn; constructor; [apply nth_error_nth'; apply H; left; reflexivity|apply IH; intros x Hx; apply H; right; exact Hx]. }
      assert (RZ : forall n i, In i (repeat 0 n) -> i < length mem1).
      { intros n i Hi. apply repeat_spec in Hi. subst. destruct (id_num _ _ _ _ MF _ N) as (_ & _ & Lo). lia. }
      assert (NL : forall a, needed ps outs a -> num m a < length mem1) by (intros a Na; rewrite ML; apply (id_num _ _ _ _ MF _ Na)).
      unfold fwd_step. destruct (GE (mo_in op)) as (xs & ->).
      { rewrite EI. intros i Hi. apply in_app_or in Hi. destruct Hi as [Hi|Hi]; [apply in_map_iff in Hi; destruct Hi as (a & <- & Ha); apply NL, NA, Ha|eapply RZ, Hi]. }
      destruct (GE (mo_out op)) as (ys & EY).
      { rewrite EO. intros i [<-|Hi]; [apply NL, N|eapply RZ, Hi]. }
      rewrite EY. cbn [bind].
      assert (Hj : nth_error (m_ops m) (length (map fst pre)) = Some op) by (rewrite E1, nth_error_app2, Nat.sub_diag; [reflexivity|lia]).
      destruct (PO _ _ Hj) as (L0' & L & li & Q1 & Q2 & Q3 & Q4).
      assert (L0' = L0) as -> by (rewrite E2, nth_error_app2 in Q1; rewrite !map_length in *; [rewrite Nat.sub_diag in Q1; cbn in Q1; congruence|lia]).
      rewrite rd_nth, FR, Q2.
      2:{ pose proof (mf_infos _ _ _ _ MF) as ND. rewrite E1, map_app in ND. cbn in ND. apply NoDup_remove_2 in ND. intros X. apply ND, in_or_app. left. exact X. }
      cbn [bind]. rewrite Q3. cbn [bind]. unfold ok in Hy. cbn in Hy. apply Bool.orb_false_iff in Hy. destruct Hy as [H1 H2].
      rewrite lforward_many; [reflexivity| |].
      - rewrite <- (tolerant_kind _ _ (load_kind _ _ _ Q3)). exact H2.
      - rewrite (extract_len _ _ _ EY). apply Nat.eqb_neq, H1. }
    rewrite ES. cbn. eexists. eexists. eexists. split; reflexivity. }
  destruct EX as (i & l & q & EX & Lq).
  assert (UB : forall ids later ts, (forall x, In x ids -> x < length q) -> length ids <= length ts -> exists us, unbind ids later q ts = Ok us).
  { induction ids as [|x t IH]; intros later ts H L; cbn; [eauto|]. destruct ts as [|u us]; [cbn in L; lia|].
    destruct (IH later us) as (vs & ->); [intros y Hy'; apply H; right; exact Hy'|cbn in L; lia|].
    destruct (memb x (t ++ later)); cbn; [eauto|]. rewrite rd_nth. destruct (nth_error q x) eqn:Z; [cbn; eauto|].
    apply nth_error_None in Z. specialize (H x (or_introl eq_refl)). lia. }
  destruct (UB (map (num m) ins) (map (num m) outs) tins) as (u1 & U1).
  { intros x Hx. apply in_map_iff in Hx. destruct Hx as (d & <- & Hd). rewrite Lq, ML. apply (id_num _ _ _ _ MF), (mf_needed_in _ _ _ _ MF), Hd. }
  { rewrite map_length, (Forall2_len _ _ _ SI). lia. }
  destruct (UB (map (num m) outs) [] touts) as (u2 & U2).
  { intros x Hx. apply in_map_iff in Hx. destruct Hx as (d & <- & Hd). rewrite Lq, ML. apply (id_num _ _ _ _ MF), out_needed, Hd. }
  { rewrite map_length, (Forall2_len _ _ _ SO). lia. }
  exists (i, Some (mkB (ls1 ++ l) q (b_grad b)), u1, u2). cbn [model_forward]. unfold backend_forward. rewrite (mf_in _ _ _ _ MF), (mf_out _ _ _ _ MF).
  rewrite (ids_num _ _ _ _ MF ins) by apply (mf_needed_in _ _ _ _ MF). rewrite (ids_num _ _ _ _ MF outs) by apply out_needed. cbn [bind].
  rewrite B1. cbn [bind]. rewrite B2. cbn [bind]. rewrite E1, E2.
  rewrite (fwd_ops_app _ _ _ _ _ _ _ _ _ _ ER) by (rewrite !map_length; reflexivity). rewrite EX, U1, U2. reflexivity.
Qed.
End Throws.
