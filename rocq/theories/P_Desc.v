(** Training iterations. *)
From Coq Require Import Reals String Lia Lra.
From Verif Require Import Base BaseFacts Sums Deriv M_Im2col S_Im2col M_Kernels M_Conv M_Layers M_Optim M_Loss M_Nn M_Graph M_Model M_Backend M_Train
  S_Grad S_Partial S_Graph S_Run S_Fit S_Primed S_Optim S_Loss S_Train S_Desc
  P_Kernels P_Partial P_Layers P_Loss P_Graph P_Graph2 P_Nn P_Model P_Model2 P_Run P_Fwd P_Load P_Fwd2 P_Bwd P_Run2 P_Fit P_Safe P_Safe2 P_Train P_Train2 P_Train3 P_Optim P_Idem
  Prop_Graph Prop_Model Prop_Run Prop_Bwd Prop_Bwd2 Prop_Train.
Open Scope nat_scope.

(** ** The optimizer's step on the model *)
Lemma params_injective es ins outs m : constructed es ins outs m ->
  forall k1 k2 r, In (k1, r) (m_params m) -> In (k2, r) (m_params m) -> k1 = k2.
Proof.
  intros (B & VO & order & g & es' & BG & TO & CM) k1 k2 [i k] H1 H2.
  destruct (state_keys es order ins outs g B VO BG TO es' m CM) as (ND & _ & _ & _ & K & _).
  apply (in_find _ _ _ ND) in H1, H2. destruct (K _ _ _ H1) as (op & li & p & _ & _ & A & _ & ->). destruct (K _ _ _ H2) as (op' & li' & p' & _ & _ & A' & _ & ->). congruence.
Qed.

Section Step.
Variable m : model.
Hypothesis ND : NoDup (map fst (m_params m)).
Hypothesis INJ : forall k1 k2 r, In (k1, r) (m_params m) -> In (k2, r) (m_params m) -> k1 = k2.

Lemma write_other_gen pm r : forall l infos, (forall k, ~ In (k, r) l) ->
  get_par (fold_left (fun infos e => match find_key pm (fst e) with Some p => on_par (fun _ => p) infos (snd e) | None => infos end) l infos) r = get_par infos r.
Proof.
  induction l as [|[k r'] t IH]; intros infos N; cbn; [reflexivity|]. rewrite IH by (intros k' H; apply (N k'); right; exact H).
  destruct (find_key pm k) as [q|]; [|reflexivity]. rewrite on_par_get. destruct ((fst r' =? fst r) && String.eqb (snd r') (snd r)) eqn:X; [|reflexivity].
  exfalso. apply Bool.andb_true_iff in X. destruct X as [X1 X2]. apply Nat.eqb_eq in X1. apply String.eqb_eq in X2.
  apply (N k). left. destruct r, r'; cbn in *; congruence.
Qed.

Lemma write_at pm infos key r p q : In (key, r) (m_params m) -> get_par infos r = Some p -> find_key pm key = Some q ->
  get_par (params_write m pm infos) r = Some q.
Proof.
  intros H G F. unfold params_write. revert infos p G ND INJ H. generalize (m_params m) as l. intros l. induction l as [|[k r'] t IH]; intros infos p G ND' INJ' H; [destruct H|].
  cbn. inversion ND' as [|? ? NI ND2]; subst. destruct H as [H|H].
  - injection H as -> ->. rewrite F. rewrite write_other_gen.
    + rewrite on_par_get, Nat.eqb_refl, String.eqb_refl, G. reflexivity.
    + intros k' Hk. apply NI. rewrite <- (INJ' k' key r (or_intror Hk) (or_introl eq_refl)). apply in_map_iff. exists (k', r). auto.
  - assert (INJ2 : forall k1 k2 r0, In (k1, r0) t -> In (k2, r0) t -> k1 = k2) by (intros; eapply INJ'; right; eassumption).
    destruct (find_key pm k) as [q'|]; [|apply (IH infos p); assumption].
    destruct ((fst r' =? fst r) && String.eqb (snd r') (snd r)) eqn:X.
    + apply (IH _ q'); try assumption. rewrite on_par_get, X, G. reflexivity.
    + apply (IH _ p); try assumption. rewrite on_par_get, X. exact G.
Qed.

Lemma view_write pm infos : params_sound m infos -> map fst pm = map fst (m_params m) -> params_view m (params_write m pm infos) = pm.
Proof.
  intros SD K. unfold params_view.
  assert (NP : NoDup (map fst pm)) by (rewrite K; exact ND).
  assert (Z : forall l pm', (forall e, In e l -> In e (m_params m)) -> (forall e, In e pm' -> In e pm) -> map fst pm' = map fst l ->
     flat_map (fun e => match get_par (params_write m pm infos) (snd e) with Some p => [(fst e, p)] | None => [] end) l = pm').
  { induction l as [|[k r] t IH]; intros [|[k' q] pm'] Hl Hp E; try discriminate; [reflexivity|]. cbn in E. injection E as -> E.
    cbn [flat_map fst snd]. destruct (SD k r (Hl _ (or_introl eq_refl))) as (p & G & _).
    rewrite (write_at pm infos k r p q); [|apply Hl; left; reflexivity|exact G|apply in_find; [exact NP|apply Hp; left; reflexivity]].
    cbn. f_equal. apply IH; [intros; apply Hl; right; assumption|intros; apply Hp; right; assumption|exact E]. }
  apply Z; auto.
Qed.
End Step.

Lemma each_keys {S} (one : string -> prm -> S -> res (prm * S)) : forall ps s ps' s', each one ps s = Ret (ps', s') -> map fst ps' = map fst ps.
Proof.
  induction ps as [|[k p] t IH]; intros s ps' s' H; cbn in H; [injection H as <- <-; reflexivity|].
  destruct (one k p s) as [[p' s1]| |]; try discriminate. destruct (each one t s1) as [[t' s2]|[t' s2]|] eqn:E; try discriminate.
  injection H as <- <-. cbn. f_equal. eapply IH, E.
Qed.
Lemma opt_keys o ps ps' o' : opt_step o ps = Ret (ps', o') -> map fst ps' = map fst ps.
Proof.
  destruct o as [lr|lr gamma v|lr b1 b2 eps t s]; cbn; unfold sgd_step, momentum_step, adam_step; intros H;
    match type of H with context [each ?f ?p ?x] => destruct (each f p x) as [[p1 s1]|[p1 s1]|] eqn:E end; try discriminate; injection H as <- <-; eapply each_keys, E.
Qed.

(** ** Moving a parameter by nothing *)
Lemma move_par_0 infos r e p : get_par infos r = Some p -> move_par infos r e 0 = infos.
Proof.
  unfold get_par, move_par, on_par. destruct r as [i k]. cbn [fst snd]. destruct (nth_error infos i) as [li|] eqn:E; [|discriminate]. intros F. rewrite F.
  rewrite bump_0. replace (with_data p (tdat (p_data p))) with p by (destruct p as [[] ? ?]; reflexivity).
  unfold set_par. rewrite P_Run2.set_key_same by exact F. replace (mkLI (li_name li) (li_type li) (li_attrs li) (li_params li) (li_bufs li)) with li by (destruct li; reflexivity).
  rewrite <- (nth_error_nth _ _ li E) at 1. apply upd_same.
Qed.

(** ** The gradient of the loss *)
(** If the tensor [G] holds the gradient of the loss at [O 0] and [D] is the derivative of <G, O>, and all
    elements of [O] have derivatives, then [D] is the derivative of the loss along [O]. *)
Lemma nll_chain n c lab (out : R -> ten) (G : ten) (D : nat -> R) : 0 < n -> ten_ok [n; c] G ->
  (forall i, i < n -> lab i < c) -> (forall i, i < n -> (0 < (tdat (out 0%R)).[i * c + lab i])%R) ->
  (forall i j, i < n -> j < c -> (tdat G).[i * c + j] = if j =? lab i then (-1 / (tdat (out 0%R)).[i * c + j] / INR n)%R else 0%R) ->
  (forall k, k < n * c -> dl (fun s => (tdat (out s)).[k]) 0 (D k)) ->
  dl (fun s => weighted G (out s)) 0 (rsum (n * c) (fun k => (tdat G).[k] * D k)%R) /\
  dl (fun s => mean_nll n c lab (out s)) 0 (rsum (n * c) (fun k => (tdat G).[k] * D k)%R).
Proof.
  intros Hn TG HL HP HG HD.
  assert (LT : forall i j, i < n -> j < c -> i * c + j < n * c) by (intros; nia).
  assert (TT : tot G = n * c) by (destruct TG as [A B]; unfold tot; unfold twf in B; rewrite B, A; cbn; lia).
  assert (HN : INR n <> 0%R) by (apply not_0_INR; lia). split.
  - unfold weighted. rewrite TT. apply (dl_rsum (n * c) (fun s k => ((tdat G).[k] * (tdat (out s)).[k])%R)). intros k Hk. apply dl_scal, HD, Hk.
  - assert (X : dl (fun s => (rsum n (fun i => ln (tdat (out s)).[i * c + lab i])))%R 0 (rsum n (fun i => / (tdat (out 0)).[i * c + lab i] * D (i * c + lab i)%nat)%R)).
    { apply (dl_rsum n (fun s i => ln (tdat (out s)).[i * c + lab i])). intros i Hi. apply (dl_ln (fun s => (tdat (out s)).[i * c + lab i])); [apply HD, LT; auto|apply HP, Hi]. }
    apply (dl_scal (- / INR n)%R) in X. eapply dl_eq; [eapply dl_ext; [|exact X]|].
    + intros s. unfold mean_nll. cbv beta. field. exact HN.
    + rewrite rsum_mult, <- rsum_scal_l. apply rsum_ext. intros i Hi. rewrite (rsum_single c (lab i)).
      * rewrite HG, Nat.eqb_refl by auto. field. split; [specialize (HP i Hi); lra|exact HN].
      * auto.
      * intros j Hj Nj. rewrite HG by auto. destruct (Nat.eqb_spec j (lab i)); [contradiction|ring].
Qed.

Lemma finite_some l : finite (map Some l) = Some l.
Proof. induction l as [|a l IH]; cbn; [reflexivity|]. rewrite IH. reflexivity. Qed.

(** The tensor with a one at position [k]. *)
Definition unit_ten (n c k : nat) : ten := mkT [n; c] (tab (n * c) (fun i => if i =? k then 1%R else 0%R)).
Lemma unit_ok n c k : ten_ok [n; c] (unit_ten n c k).
Proof. split; [reflexivity|]. unfold twf, unit_ten. cbn [tdat tsh]. rewrite tab_length. cbn. lia. Qed.
Lemma unit_weighted n c k t : k < n * c -> weighted (unit_ten n c k) t = (tdat t).[k].
Proof.
  intros Hk. unfold weighted. assert (tot (unit_ten n c k) = n * c) as -> by (unfold tot, unit_ten; cbn; apply tab_length).
  rewrite (rsum_single _ k); [|exact Hk|]; unfold unit_ten; cbn [tdat].
  - rewrite nth_tab by exact Hk. rewrite Nat.eqb_refl. ring.
  - intros i Hi Ni. rewrite nth_tab by exact Hi. destruct (Nat.eqb_spec i k); [contradiction|ring].
Qed.
Lemma objective_one g t : objective [g] [t] = weighted g t.
Proof. unfold objective. cbn. ring. Qed.

Lemma finite_choice (Q : nat -> R -> Prop) N : (forall k, k < N -> exists x, Q k x) -> exists f, forall k, k < N -> Q k (f k).
Proof.
  induction N as [|N IH]; intros H; [exists (fun _ => 0%R); intros; lia|].
  destruct IH as (f & Hf); [intros; apply H; lia|]. destruct (H N) as (x & Hx); [lia|].
  exists (fun k => if k =? N then x else f k). intros k Hk. destruct (Nat.eqb_spec k N) as [->|]; [exact Hx|apply Hf; lia].
Qed.

(** ** One iteration *)
Section Iteration.
Variables (es : estore) (i o : nat) (m : model) (n c : nat) (lab : nat -> nat) (X y : ten).
Hypothesis C : constructed es [i] [o] m.
Hypothesis CL : closed (es_ph es) [i] [o].
Hypothesis DO : dims (es_ph es) o = [n; c].
Hypothesis Hn : 0 < n.
Hypothesis TX : ten_ok (dims (es_ph es) i) X.
Hypothesis LB : labels n c y lab.
Variables (ran : bool) (infos : list linfo) (b : backend) (opt : optimizer) (crit : ce) (P G : ten) (E E2 : nat -> env) (EL : env) (V : nat -> ten).
Hypothesis U : usable ran (es_ph es) [o] m infos b.
Hypothesis OF : opt_fits m infos opt.
Hypothesis FE : forall d, fair (E d).
Hypothesis CE : ce_ok crit.
Hypothesis TP : ten_ok [n; c] P.
Hypothesis TG : ten_ok [n; c] G.
Hypothesis EV : evaluation (es_ph es) [i] [o] [X] E (produces m infos b) V.
Hypothesis POS : forall k, k < n -> (0 < (tdat (V o)).[k * c + lab k])%R.

Lemma shaped_out t : ten_ok [n; c] t -> shaped (es_ph es) [o] [t].
Proof. intros H. constructor; [rewrite DO; exact H|constructor]. Qed.
Lemma shaped_in : shaped (es_ph es) [i] [X].
Proof. constructor; [exact TX|constructor]. Qed.
Lemma usable_links : links_ok (es_ph es) [o] (produces m infos b).
Proof.
  pose proof (constructed_mfacts _ _ _ _ C) as MF. destruct U as (_ & LA & _).
  intros d L PL. pose proof PL as (j & op & L0 & li & H1 & <- & _). destruct (op_spec _ _ _ _ MF op (nth_error_In _ _ H1)) as (args & k & N & Ca & _).
  destruct (LA _ _ N Ca) as (L' & P' & _ & T). rewrite (produces_fun _ _ _ _ MF _ _ _ _ _ PL P'). exact T.
Qed.
Lemma out_value : ten_ok [n; c] (V o).
Proof.
  assert (IO : In o [o]) by (left; reflexivity).
  destruct EV as [_ H]. destruct CL as (_ & _ & _ & KO & _). destruct (KO o IO) as (args & Ca).
  destruct (H o args (need_out _ _ o IO) Ca) as (L & _ & T & _). rewrite <- DO. exact T.
Qed.

(** The iteration returns; [go] is the gradient of the loss it hands to the model. *)
Lemma iteration_runs : exists infos1 b1 crit' go infos2 b2 G' infos' opt',
  model_forward E m infos (Some b) [X] [P] = Ret (infos1, Some b1, [X], [V o]) /\
  ten_ok [n; c] go /\
  (forall k j, k < n -> j < c -> (tdat go).[k * c + j] = if j =? lab k then (-1 / (tdat (V o)).[k * c + j] / INR n)%R else 0%R) /\
  model_backward E2 m infos1 (Some b1) [X] [V o] [go] = Ret (infos2, Some b2, [G']) /\
  params_sound m infos2 /\
  opt_step opt (params_view m infos2) = Ret (params_view m infos', opt') /\
  (forall r, (forall key, ~ In (key, r) (m_params m)) -> get_par infos' r = get_par infos2 r) /\
  train_iteration m E E2 EL X y (mkLoop (mkTS infos (Some b) opt) crit P G) =
    Ret (Some (mkLoop (mkTS infos' (Some b2) opt') crit' (V o) G', Some (mean_nll n c lab (V o)))) /\
  usable true (es_ph es) [o] m infos' b2 /\ opt_fits m infos' opt' /\ ce_ok crit' /\ ten_ok [n; c] G' /\
  Forall2 same_kind (b_layers b) (b_layers b2).
Proof.
  pose proof (constructed_mfacts _ _ _ _ C) as MF. destruct (constructed_params _ _ _ _ C) as (ND & RF). pose proof (params_injective _ _ _ _ C) as INJ.
  assert (LK : links_back (es_ph es)) by (apply store_links_back, built_ok, C).
  assert (VO : Forall (fun d => d < length (es_ph es)) [o]) by apply C.
  pose proof out_value as TV.
  destruct (forward_usable (es_ph es) [i] [o] m MF CL LK VO RF ran E infos b [X] [P] opt U OF FE shaped_in (shaped_out P TP)) as (infos1 & b1 & xs' & os' & EF & (U1 & OF1) & K1).
  destruct (forward_evaluates (es_ph es) [i] [o] m MF CL E V infos b [X] [P] (proj1 U) shaped_in (shaped_out P TP) EV usable_links) as (ix & bx & EF' & _).
  rewrite EF in EF'. injection EF' as <- <- -> ->.
  destruct (ce_forward_spec EL crit n c (V o) y lab Hn CE TV LB POS) as (crit' & F1 & CE' & _).
  destruct (ce_backward_spec n c (V o) y G lab Hn TV LB TG POS) as (g & F2 & Lg & Vg).
  set (go := set_dat G g).
  assert (Tgo : ten_ok [n; c] go). { destruct TG as [A _]. split; [exact A|]. unfold twf, go, set_dat. cbn. rewrite Lg, A. cbn. lia. }
  destruct (backward_usable (es_ph es) [i] [o] m MF CL RF E2 infos1 b1 [X] [V o] [go] opt U1 OF1 shaped_in (shaped_out _ TV) (shaped_out _ Tgo))
    as (infos2 & b2 & gs' & EB & (U2 & OF2) & K2 & SG).
  inversion SG as [|? G' ? ? TG' SN]; subst. inversion SN; subst. rewrite DO in TG'.
  pose proof U2 as (_ & _ & SD2 & _).
  destruct (step_moved m ND RF infos2 opt SD2 OF2) as (infos' & opt' & ES & MV & OF3).
  assert (ST : exists pm, opt_step opt (params_view m infos2) = Ret (pm, opt') /\ infos' = params_write m pm infos2).
  { unfold model_step in ES. destruct (opt_step opt (params_view m infos2)) as [[pm o2]|[pm o2]|]; try discriminate. injection ES as <- <-. eauto. }
  destruct ST as (pm & OS & EI).
  assert (EP : params_view m infos' = pm).
  { rewrite EI. apply view_write; try assumption. rewrite (opt_keys _ _ _ _ OS). apply view_keys, SD2. }
  exists infos1, b1, crit', go, infos2, b2, G', infos', opt'.
  split; [exact EF|]. split; [exact Tgo|]. split; [exact Vg|]. split; [exact EB|]. split; [exact SD2|]. split; [rewrite EP; exact OS|].
  split; [intros r Hr; rewrite EI; apply write_other_gen; exact Hr|]. split; [|split; [|split; [|split; [|split]]]].
  - unfold train_iteration. cbn [l_ts l_crit l_pred l_grad ts_info ts_backend ts_opt]. rewrite EF, F1, F2, finite_some. fold go. rewrite EB, ES. reflexivity.
  - eapply moved_usable; eassumption.
  - eapply opt_moved; eassumption.
  - exact CE'.
  - exact TG'.
  - clear -K1 K2. revert K2. generalize (b_layers b2) as l3. induction K1 as [|L0 L1 l l1 A _ IH]; intros l3 K2; inversion K2; subst; constructor; [eapply same_kind_trans; eassumption|apply IH; assumption].
Qed.

(** The gradients the optimizer sees are the derivatives of the loss. *)
Hypothesis OW : forall d args L, needed (es_ph es) [o] d -> call (es_ph es) d args -> produces m infos b d L -> overwrites L = true -> exclusive (es_ph es) [o] d args.
Hypothesis SM : forall d args L, needed (es_ph es) [o] d -> call (es_ph es) d args -> produces m infos b d L -> smooth (E d) L (map V args) (dims (es_ph es) d).

Lemma values_ok d : needed (es_ph es) [o] d -> ten_ok (dims (es_ph es) d) (V d).
Proof.
  intros N. destruct EV as [H1 H2]. pose proof CL as (_ & _ & _ & _ & K). destruct (K d N) as [(args & Ca)|[<-|[]]].
  - destruct (H2 d args N Ca) as (L & _ & T & _). exact T.
  - inversion H1; subst. exact TX.
Qed.

Lemma iteration_gradients infos1 b1 go infos2 b2 G' :
  model_forward E m infos (Some b) [X] [P] = Ret (infos1, Some b1, [X], [V o]) -> ten_ok [n; c] go ->
  (forall k j, k < n -> j < c -> (tdat go).[k * c + j] = if j =? lab k then (-1 / (tdat (V o)).[k * c + j] / INR n)%R else 0%R) ->
  model_backward E2 m infos1 (Some b1) [X] [V o] [go] = Ret (infos2, Some b2, [G']) ->
  forall op L key p, In op (m_ops m) -> produces m infos b (mo_ph op) L -> In key (param_names L) -> get_par infos (mo_info op, key) = Some p ->
  exists p2, get_par infos2 (mo_info op, key) = Some p2 /\ p_data p2 = p_data p /\ p_train p2 = p_train p /\
  forall e, e < tot (p_data p) -> exists out,
    (forall s T, ten_ok [n; c] T -> exists i' b', model_forward E m (move_par infos (mo_info op, key) e s) (Some b) [X] [T] = Ret (i', Some b', [X], [out s])) /\
    derivable_pt_lim (fun s => mean_nll n c lab (out s)) 0 (tdat (p_grad p2)).[e].
Proof.
  intros EF Tgo Vgo EB op L key p Hop PL Hk HG.
  pose proof (constructed_mfacts _ _ _ _ C) as MF.
  destruct (C38_backward_computes_gradients es [i] [o] m infos b E V [X] [P] C CL (proj1 U) shaped_in (shaped_out P TP) EV usable_links) as (ix & bx & EF' & KK).
  { intros d args L' N Ca PL'. split; [|apply (OW d args L' N Ca PL')]. destruct U as (_ & LA & _). destruct (LA d args N Ca) as (L2 & PL2 & FT & _).
    assert (L2 = L') as -> by (eapply (produces_fun _ _ _ _ MF); eassumption).
    apply fits_gradients; [destruct ran; [apply FT|exact FT]| |apply FE|apply SM; assumption].
    eapply args_shaped; [exact Ca|exact N|exact values_ok]. }
  rewrite EF in EF'. injection EF' as <- <-.
  destruct (KK E2 [go] (shaped_out go Tgo)) as (i2 & bb2 & g2 & EB' & KG). cbn [map] in EB'. rewrite EB in EB'. injection EB' as <- <- <-.
  destruct (KG op L key p Hop PL Hk HG) as (p2 & G2 & D2 & T2 & KE). exists p2. split; [exact G2|]. split; [exact D2|]. split; [exact T2|].
  intros e He. destruct (KE e He) as (Ov & O1 & O2 & O3). clear KE KG.
  set (out := fun s => hd empty_ten (Ov s)).
  assert (OO : forall s, Ov s = [out s]). { intros s. unfold out. specialize (O2 s). inversion O2 as [|? ? ? ? _ Z]; subst. inversion Z; subst. reflexivity. }
  assert (FW : forall s T, ten_ok [n; c] T -> exists i' b', model_forward E m (move_par infos (mo_info op, key) e s) (Some b) [X] [T] = Ret (i', Some b', [X], [out s])).
  { intros s T HT. rewrite <- OO. apply O1, shaped_out, HT. }
  exists out. split; [exact FW|].
  assert (O0 : out 0%R = V o).
  { destruct (FW 0%R P TP) as (i' & b' & F). rewrite (move_par_0 _ _ _ _ HG) in F. rewrite EF in F. injection F as _ _ F. congruence. }
  assert (DD : forall k, k < n * c -> exists D, dl (fun s => (tdat (out s)).[k]) 0 D).
  { intros k Hk'.
    destruct (KK E2 [unit_ten n c k] (shaped_out _ (unit_ok n c k))) as (i3 & b3 & g3 & _ & KG).
    destruct (KG op L key p Hop PL Hk HG) as (p3 & _ & _ & _ & KE). destruct (KE e He) as (Ov' & O1' & O2' & O3').
    exists (tdat (p_grad p3)).[e]. eapply dl_ext; [|exact O3']. intros s.
    destruct (O1' s [P] (shaped_out P TP)) as (i' & b' & F). destruct (FW s P TP) as (i'' & b'' & F'). rewrite F in F'. injection F' as _ _ F'. rewrite F'.
    rewrite objective_one. apply unit_weighted, Hk'. }
  destruct (finite_choice _ _ DD) as (D & HD).
  destruct (nll_chain n c lab out go D Hn Tgo) as [N1 N2]; try assumption; try (rewrite O0; assumption).
  { intros k Hk'. apply LB, Hk'. }
  assert (EE : (tdat (p_grad p2)).[e] = rsum (n * c) (fun k => (tdat go).[k] * D k)%R).
  { eapply dl_unique; [|exact N1]. eapply dl_ext; [|exact O3]. intros s. cbv beta. rewrite OO. apply objective_one. }
  rewrite EE. exact N2.
Qed.
End Iteration.

(** ** Softmax *)
Lemma fits_softmax_inv inshs osh : fits LSoftmax inshs osh -> exists n c, 0 < c /\ inshs = [[n; c]] /\ osh = [n; c].
Proof. intros F. inversion F; subst. eauto. Qed.
Section Softmax.
Variables (es : estore) (i o : nat) (m : model) (n c : nat).
Hypothesis C : constructed es [i] [o] m.
Hypothesis CL : closed (es_ph es) [i] [o].
Hypothesis DO : dims (es_ph es) o = [n; c].

Lemma softmax_produced ran infos b : usable ran (es_ph es) [o] m infos b -> ends_in_softmax m b o ->
  exists args, call (es_ph es) o args /\ produces m infos b o LSoftmax /\ fits LSoftmax (map (dims (es_ph es)) args) [n; c].
Proof.
  intros (_ & LA & _) (j & op & H1 & H2 & H3). pose proof (constructed_mfacts _ _ _ _ C) as MF.
  assert (IO : In o [o]) by (left; reflexivity). pose proof CL as (_ & _ & _ & KO & _). destruct (KO o IO) as (args & Ca).
  destruct (LA o args (need_out _ _ o IO) Ca) as (L & PL & FT & _). exists args. split; [exact Ca|].
  pose proof PL as (j' & op' & L0 & li & A1 & A2 & A3 & A4 & A5).
  destruct (op_at_unique _ _ _ _ MF j' j op' op A1 H1) as [-> ->]; [congruence|]. rewrite H3 in A3. injection A3 as <-. cbn in A5. injection A5 as <-.
  split; [exact PL|]. rewrite <- DO. destruct ran; [apply FT|exact FT].
Qed.

Lemma softmax_positive ran infos b E X V : usable ran (es_ph es) [o] m infos b -> ends_in_softmax m b o ->
  evaluation (es_ph es) [i] [o] [X] E (produces m infos b) V -> ten_ok (dims (es_ph es) i) X ->
  forall r k, r < n -> k < c -> (0 < (tdat (V o)).[r * c + k] <= 1)%R.
Proof.
  intros U SM EV TX r k Hr Hk. destruct (softmax_produced _ _ _ U SM) as (args & Ca & PL & FT).
  pose proof (constructed_mfacts _ _ _ _ C) as MF. assert (IO : In o [o]) by (left; reflexivity).
  pose proof EV as [_ H]. destruct (H o args (need_out _ _ o IO) Ca) as (L & PL' & T & L' & FW).
  rewrite (produces_fun _ _ _ _ MF _ _ _ _ _ PL' PL) in FW. rewrite DO in *.
  destruct (fits_softmax_inv _ _ FT) as (n' & c' & Hm & E1 & E2). injection E2 as <- <-. destruct args as [|a [|]]; try discriminate. cbn [map] in *. injection E1 as E1.
  assert (TA : ten_ok [n; c] (V a)) by (rewrite <- E1; eapply values_ok; [exact CL|exact TX|exact EV|eapply need_arg; [apply need_out, IO|exact Ca|left; reflexivity]]).
  destruct (softmax_spec (E o) n c (V a) (V o) Hm TA T) as (o' & F & _ & VAL). rewrite (FW (V o) T) in F. injection F as _ F. rewrite F, VAL by assumption.
  split; [apply softmax_pos, Hm|apply softmax_le1, Hk].
Qed.

Lemma kind_softmax b b' : Forall2 same_kind (b_layers b) (b_layers b') -> ends_in_softmax m b o -> ends_in_softmax m b' o.
Proof.
  intros K (j & op & H1 & H2 & H3). exists j, op. split; [exact H1|]. split; [exact H2|].
  destruct (Forall2_at _ _ _ K j _ H3) as (L & HL & SK). destruct L; cbn in SK; try contradiction. exact HL.
Qed.
End Softmax.
