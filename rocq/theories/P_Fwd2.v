(** Model::forward in terms of the store: evaluation, and what is left alone. *)
From Coq Require Import Reals String Lia.
From Verif Require Import Base BaseFacts Sums M_Layers M_Optim M_Nn M_Graph M_Model M_Backend S_Grad S_Graph S_Run P_Graph P_Graph2 P_Nn P_Model P_Model2 P_Run P_Fwd P_Load.
Local Open Scope string_scope.
Open Scope nat_scope.

Section Evaluate.
Variables (ps : list phnode) (ins outs : list nat) (m : model).
Hypothesis MF : mfacts ps ins outs m.
Hypothesis CL : closed ps ins outs.

Lemma op_at_unique j j' op op' : nth_error (m_ops m) j = Some op -> nth_error (m_ops m) j' = Some op' -> mo_ph op = mo_ph op' -> j = j' /\ op = op'.
Proof.
  intros H H' E. assert (j = j') as ->.
  { apply (proj1 (NoDup_nth_error _) (mf_ops _ _ _ _ MF)); [rewrite map_length; apply nth_error_Some; congruence|].
    rewrite !nth_error_map, H, H'. cbn. congruence. }
  split; [reflexivity|congruence].
Qed.

Lemma produces_fun infos b d L L' : produces m infos b d L -> produces m infos b d L' -> L = L'.
Proof.
  intros (j & op & L0 & li & H1 & H2 & H3 & H4 & H5) (j' & op' & L0' & li' & H1' & H2' & H3' & H4' & H5').
  destruct (op_at_unique j j' op op' H1 H1') as [<- <-]; congruence.
Qed.

Lemma evaluation_ready E V infos b tins : backend_fits ps m b -> evaluation ps ins outs tins E (produces m infos b) V ->
  links_ok ps outs (produces m infos b) -> Forall2 (op_ready ps outs E V infos) (m_ops m) (b_layers b).
Proof.
  intros (BL & _) [_ EV] LO. apply Forall2_intro; [congruence|]. intros j op L0 Hj HL.
  destruct (op_spec _ _ _ _ MF op (nth_error_In _ _ Hj)) as (args & k & N & C & _).
  destruct (EV (mo_ph op) args N C) as (L & PL & CO). pose proof (LO _ _ PL) as LK.
  destruct PL as (j' & op' & L0' & li & H1 & H2 & H3 & H4 & H5).
  destruct (op_at_unique j' j op' op H1 Hj H2) as [-> ->].
  exists L, li, args. split; [exact H4|]. split; [congruence|]. split; [exact C|]. split; [exact LK|exact CO].
Qed.

Definition params_kept (infos infos' : list linfo) : Prop :=
  forall r p, get_par infos r = Some p -> exists p', get_par infos' r = Some p' /\ p_grad p' = p_grad p /\ p_train p' = p_train p /\ (snd r <> "mask" -> p' = p).
Definition described_same (infos infos' : list linfo) : Prop :=
  Forall2 (fun a b => li_name b = li_name a /\ li_type b = li_type a /\ li_attrs b = li_attrs a /\
                      map fst (li_params b) = map fst (li_params a) /\ map fst (li_bufs b) = map fst (li_bufs a)) infos infos'.

Lemma store_kept li L0 L L' k p : load li L0 = Ok L -> same_kind L L' -> dparams L' = dparams L ->
  map p_grad (lparams L') = map p_grad (lparams L) -> map p_train (lparams L') = map p_train (lparams L) ->
  find_key (li_params li) k = Some p ->
  exists p', find_key (li_params (lstore L' li)) k = Some p' /\ p_grad p' = p_grad p /\ p_train p' = p_train p /\ (k <> "mask" -> p' = p).
Proof.
  intros HL K D PG PT H. destruct (string_dec k "mask") as [->|N].
  - destruct (match L with LDropout _ _ => true | _ => false end) eqn:ED.
    + destruct L; try discriminate ED. destruct L'; cbn in K; try contradiction. cbn in PG, PT. injection PG as PG. injection PT as PT.
      destruct L0; cbn in HL; inv_ok HL; try discriminate HL. use_keys. injection HL as -> <-. cbn. rewrite find_set, H. cbn.
      exists mask0. split; [reflexivity|]. assert (p = a) by congruence. subst a. split; [congruence|]. split; [congruence|congruence].
    + exists p. assert (X : find_key (li_params (lstore L' li)) "mask" = find_key (li_params li) "mask").
      { destruct L, L'; try discriminate ED; cbn in K; try contradiction; cbn; rewrite ?find_set; reflexivity. }
      rewrite X. repeat split; congruence.
  - exists p. rewrite (store_same_params _ _ _ _ _ HL K D N). auto.
Qed.

Lemma done_info E V infos infos' ls ls' : Forall3 (op_done ps E V infos infos') (m_ops m) ls ls' ->
  (forall i, ~ In i (map mo_info (m_ops m)) -> nth_error infos' i = nth_error infos i) ->
  forall i li, nth_error infos i = Some li -> nth_error infos' i = Some li \/
    exists L0 L L' x y, load li L0 = Ok L /\ nth_error infos' i = Some (lstore L' li) /\ same_kind L L' /\ dparams L' = dparams L /\
      map p_grad (lparams L') = map p_grad (lparams L) /\ map p_train (lparams L') = map p_train (lparams L) /\ lforward x L y [V i] = lforward x L y [V i].
Proof.
  intros F3 FR i li Hi. destruct (in_dec Nat.eq_dec i (map mo_info (m_ops m))) as [X|X]; [right|left; rewrite FR; assumption].
  apply in_map_iff in X. destruct X as (op & <- & Hop). apply In_nth_error in Hop. destruct Hop as (j & Hj).
  destruct (Forall3_nth _ _ _ _ F3) as (L1 & L2 & P).
  destruct (nth_error ls j) as [L0|] eqn:E0; [|apply nth_error_None in E0; assert (j < length (m_ops m)) by (apply nth_error_Some; congruence); lia].
  destruct (nth_error ls' j) as [L'|] eqn:E1; [|apply nth_error_None in E1; assert (j < length ls) by (apply nth_error_Some; congruence); lia].
  destruct (P j op L0 L' Hj E0 E1) as (L & li' & args & H1 & H2 & H3 & H4 & H5).
  assert (li' = li) by congruence. subst li'. exists L0, L, L', (E (mo_ph op)), (map V args).
  pose (o := mkT (dims ps (mo_ph op)) (tab (prodN (dims ps (mo_ph op))) (fun _ => 0%R))).
  assert (To : ten_ok (dims ps (mo_ph op)) o) by (split; [reflexivity|unfold twf; cbn; apply tab_length]).
  specialize (H4 o To). destruct (lforward_kind _ _ _ _ _ _ H4) as [K D]. destruct (lforward_flags _ _ _ _ _ _ H4) as [G T].
  repeat (split; [assumption|]). reflexivity.
Qed.

Theorem forward_evaluates E V infos b tins touts :
  backend_fits ps m b -> shaped ps ins tins -> shaped ps outs touts ->
  evaluation ps ins outs tins E (produces m infos b) V -> links_ok ps outs (produces m infos b) ->
  exists infos' b', model_forward E m infos (Some b) tins touts = Ret (infos', Some b', tins, map V outs) /\
    backend_fits ps m b' /\ b_grad b' = b_grad b /\
    (forall d L, produces m infos b d L -> exists args L', call ps d args /\
       (forall o, ten_ok (dims ps d) o -> lforward (E d) L (map V args) [o] = Ok (L', V d)) /\ produces m infos' b' d L') /\
    params_kept infos infos' /\ described_same infos infos' /\
    (forall i, ~ In i (map mo_info (m_ops m)) -> nth_error infos' i = nth_error infos i) /\
    (forall d, needed ps outs d -> nth_error (b_mem b') (num m d) = Some (V d)) /\
    Forall3 (op_done ps E V infos infos') (m_ops m) (b_layers b) (b_layers b').
Proof.
  intros BF SI SO EV LO. pose proof (evaluation_ready _ _ _ _ _ BF EV LO) as R.
  destruct (forward_runs ps ins outs m MF CL E V infos b tins touts BF SI SO (proj1 EV) R) as (infos' & b' & EF & BF' & F3 & LI & FR & BG & MV).
  exists infos', b'. split; [exact EF|]. split; [exact BF'|]. split; [exact BG|]. destruct (Forall3_nth _ _ _ _ F3) as (L1 & L2 & P).
  split; [|split; [|split; [|split; [exact FR|split; [exact MV|exact F3]]]]].
  - intros d L (j & op & L0 & li & H1 & <- & H3 & H4 & H5).
    destruct (nth_error (b_layers b') j) as [L'|] eqn:E1; [|apply nth_error_None in E1; assert (j < length (b_layers b)) by (apply nth_error_Some; congruence); lia].
    destruct (P j op L0 L' H1 H3 E1) as (L2' & li' & args & A1 & A2 & A3 & A4 & A5).
    assert (li' = li) by congruence. subst li'. assert (L2' = L) by congruence. subst L2'.
    exists args, L'. split; [exact A3|]. split; [exact A4|].
    exists j, op, L', (lstore L' li). split; [exact H1|]. split; [reflexivity|]. split; [exact E1|]. split; [exact A5|].
    apply (load_store _ _ _ _ H5).
    pose (o := mkT (dims ps (mo_ph op)) (tab (prodN (dims ps (mo_ph op))) (fun _ => 0%R))).
    assert (To : ten_ok (dims ps (mo_ph op)) o) by (split; [reflexivity|unfold twf; cbn; apply tab_length]).
    apply (lforward_kind _ _ _ _ _ _ (A4 o To)).
  - intros [i k] p Hp. unfold get_par in *. cbn in *. destruct (nth_error infos i) as [li|] eqn:Ei; [|discriminate].
    destruct (done_info _ _ _ _ _ _ F3 FR i li Ei) as [->|(L0 & L & L' & x & y & A1 & -> & A2 & A3 & A4 & A5 & _)].
    + exists p. auto.
    + exact (store_kept _ _ _ _ _ _ A1 A2 A3 A4 A5 Hp).
  - apply Forall2_intro; [congruence|]. intros i li li' Hi Hi'.
    destruct (done_info _ _ _ _ _ _ F3 FR i li Hi) as [X|(L0 & L & L' & x & y & A1 & X & _)]; rewrite X in Hi'; injection Hi' as <-; [auto|].
    destruct (store_frame L' li) as (S1 & S2 & S3). destruct (store_keys L' li) as (S4 & S5). auto.
Qed.
End Evaluate.
