(** Model::forward. *)
From Coq Require Import Reals String Lia.
From Verif Require Import Base BaseFacts Sums M_Layers M_Optim M_Nn M_Graph M_Model M_Backend S_Grad S_Graph S_Run P_Graph P_Graph2 P_Nn P_Model P_Model2 P_Run.
Open Scope nat_scope.

(** ** Layers that ignore extra tensors *)
Lemma lforward_extra E L ins o x y r : tolerant L = true -> lforward E L ins [o] = Ok r ->
  lforward E L (ins ++ x) (o :: y) = Ok r.
Proof.
  destruct L; cbn [tolerant]; try discriminate; intros _ H; destruct ins as [|i1 [|i2 it]]; try exact H; cbn in H;
    try discriminate H; unfold validate_geom, dw_assert in H;
    repeat match type of H with context [if ?c then _ else _] => destruct c; cbn in H; try discriminate H end.
Qed.

Lemma extract_Ok mem ids ts : Forall2 (fun i t => nth_error mem i = Some t) ids ts -> extract mem ids = Ok ts.
Proof.
  intros F. apply map_res_Ok. induction F as [|i t l1 l2 H _ IH]; constructor; [rewrite rd_nth, H; reflexivity|exact IH].
Qed.

(** ** Binding *)
Lemma wr_in {V} (l : list V) i v : i < length l -> wr l i v = Ok (upd l i v).
Proof. intros H. unfold wr. destruct (Nat.ltb_spec i (length l)); [reflexivity|lia]. Qed.

Lemma bind_Ok ids : forall ts mem, length ids <= length ts -> (forall i, In i ids -> i < length mem) -> NoDup ids ->
  exists mem', bind_ids ids ts mem = Ok mem' /\ length mem' = length mem /\
    (forall k i t, nth_error ids k = Some i -> nth_error ts k = Some t -> nth_error mem' i = Some t) /\
    (forall i, ~ In i ids -> nth_error mem' i = nth_error mem i).
Proof.
  induction ids as [|i it IH]; intros ts mem L V ND.
  - exists mem. cbn. split; [reflexivity|]. split; [reflexivity|]. split; [intros [|k] ? ? E; discriminate E|intros j _; reflexivity].
  - destruct ts as [|t tl]; [cbn in L; lia|]. inversion ND as [|? ? NI ND']; subst.
    assert (Hi : i < length mem) by (apply V; left; reflexivity).
    destruct (IH tl (upd mem i t)) as (mem' & E & EL & H1 & H2).
    + cbn in L; lia.
    + intros j Hj. rewrite upd_length. apply V. right. exact Hj.
    + exact ND'.
    + exists mem'. cbn. rewrite wr_in by exact Hi. cbn. split; [exact E|]. split; [rewrite EL; apply upd_length|]. split.
      * intros [|k] j u Ej Eu; cbn in Ej, Eu; [|exact (H1 k j u Ej Eu)]. injection Ej as <-. injection Eu as <-.
        rewrite H2 by exact NI. apply nth_error_upd_eq, Hi.
      * intros j Hj. rewrite H2 by (intros X; apply Hj; right; exact X). apply nth_error_upd_neq. intros ->. apply Hj. left. reflexivity.
Qed.

Lemma memb_false i l : ~ In i l -> memb i l = false.
Proof. intros H. destruct (memb i l) eqn:E; [|reflexivity]. exfalso. apply H. unfold memb in E. apply existsb_exists in E. destruct E as (x & Hx & E). apply Nat.eqb_eq in E. subst. exact Hx. Qed.

Lemma unbind_Ok ids later mem : forall ts, NoDup ids -> (forall i, In i ids -> ~ In i later) -> length ts = length ids ->
  forall us, Forall2 (fun i u => nth_error mem i = Some u) ids us -> unbind ids later mem ts = Ok us.
Proof.
  induction ids as [|i it IH]; intros ts ND D L us F; inversion F as [|? u ? us' Hu F']; subst; destruct ts as [|t tl]; try discriminate L; [reflexivity|].
  inversion ND as [|? ? NI ND']; subst. cbn. rewrite memb_false.
  - rewrite rd_nth, Hu. cbn. rewrite (IH tl ND' (fun j Hj => D j (or_intror Hj)) (f_equal pred L) us' F'). reflexivity.
  - intros X. apply in_app_or in X. destruct X as [X|X]; [exact (NI X)|exact (D i (or_introl eq_refl) X)].
Qed.

Lemma Forall2_nth_error {A B} (P : A -> B -> Prop) l1 l2 : Forall2 P l1 l2 -> forall i a, nth_error l1 i = Some a -> exists b, nth_error l2 i = Some b /\ P a b.
Proof. intros F. induction F as [|x y t u H _ IH]; intros [|i] a E; cbn in *; try discriminate; [injection E as <-; eauto|exact (IH i a E)]. Qed.
Lemma Forall2_len {A B} (P : A -> B -> Prop) l1 l2 : Forall2 P l1 l2 -> length l1 = length l2.
Proof. intros F. induction F; cbn; congruence. Qed.
Lemma Forall2_intro {A B} (P : A -> B -> Prop) l1 : forall l2, length l1 = length l2 -> (forall i a b, nth_error l1 i = Some a -> nth_error l2 i = Some b -> P a b) -> Forall2 P l1 l2.
Proof.
  induction l1 as [|a t IH]; intros [|b u] L H; try discriminate; constructor; [apply (H 0); reflexivity|].
  apply IH; [cbn in L; lia|]. intros i x y Ex Ey. exact (H (S i) x y Ex Ey).
Qed.

Section Forward.
Variables (ps : list phnode) (ins outs : list nat) (m : model).
Hypothesis MF : mfacts ps ins outs m.
Hypothesis CL : closed ps ins outs.
Variable E : nat -> env.
Variable V : nat -> ten.

(** What holds after the operations producing [done]. *)
Definition mem_ok (done : list nat) (mem : list ten) : Prop :=
  length mem = length (m_data m) /\
  forall d, needed ps outs d ->
    (In d ins \/ In d done -> nth_error mem (num m d) = Some (V d)) /\
    (~ In d ins -> exists t, nth_error mem (num m d) = Some t /\ ten_ok (dims ps d) t).

(** An operation ready to be run, and its layer afterwards. *)
Definition op_ready (infos : list linfo) (op : mop) (L0 : layer) : Prop :=
  exists L li args, nth_error infos (mo_info op) = Some li /\ load li L0 = Ok L /\ call ps (mo_ph op) args /\
    (visits ps outs (mo_ph op) = 1 \/ tolerant L = true) /\
    computes (E (mo_ph op)) L (map V args) (dims ps (mo_ph op)) (V (mo_ph op)).
Definition op_done (infos infos' : list linfo) (op : mop) (L0 L' : layer) : Prop :=
  exists L li args, nth_error infos (mo_info op) = Some li /\ load li L0 = Ok L /\ call ps (mo_ph op) args /\
    (forall o, ten_ok (dims ps (mo_ph op)) o -> lforward (E (mo_ph op)) L (map V args) [o] = Ok (L', V (mo_ph op))) /\
    nth_error infos' (mo_info op) = Some (lstore L' li).

Inductive Forall3 {A B C} (P : A -> B -> C -> Prop) : list A -> list B -> list C -> Prop :=
| F3_nil : Forall3 P [] [] []
| F3_cons a b c l1 l2 l3 : P a b c -> Forall3 P l1 l2 l3 -> Forall3 P (a :: l1) (b :: l2) (c :: l3).

Lemma call_fun d a a' : call ps d a -> call ps d a' -> a = a'.
Proof. intros (s & i & H) (s' & i' & H'). congruence. Qed.

Lemma fwd_run : forall post pre rest infos mem ls,
  m_ops m = pre ++ post ++ rest -> mem_ok (map mo_ph pre) mem -> Forall2 (op_ready infos) post ls ->
  exists infos' ls' mem', fwd_ops E post ls infos mem = Ret (infos', ls', mem') /\
    mem_ok (map mo_ph (pre ++ post)) mem' /\ Forall3 (op_done infos infos') post ls ls' /\ length infos' = length infos /\
    (forall i, ~ In i (map mo_info post) -> nth_error infos' i = nth_error infos i) /\
    (forall d, needed ps outs d -> ~ In d (map mo_ph post) -> nth_error mem' (num m d) = nth_error mem (num m d)).
Proof.
  induction post as [|op post IH]; intros pre rest infos mem ls EO MO R.
  - inversion R; subst. exists infos, [], mem. cbn. rewrite app_nil_r. repeat (split; [first [reflexivity|assumption|constructor]|]).
    split; intros; reflexivity.
  - inversion R as [|? L0 ? lt RO RT]; subst. destruct RO as (L & li & args & Hli & HL & HC & HV & (TO & L' & HF)).
    assert (Hop : In op (m_ops m)) by (rewrite EO; apply in_or_app; right; left; reflexivity).
    destruct (op_spec _ _ _ _ MF op Hop) as (args' & k & N & C' & VI & EI & EOut & NA).
    rewrite (call_fun _ _ _ C' HC) in *. clear args' C'.
    destruct MO as [ML MV].
    assert (XI : Forall2 (fun i t => nth_error mem i = Some t) (map (num m) args) (map V args)).
    { clear - NA MV EO HC CL MF. assert (K : forall a, In a args -> nth_error mem (num m a) = Some (V a)).
      { intros a Ha. destruct (MV a (NA a Ha)) as [H _]. apply H.
        destruct CL as (_ & _ & _ & _ & K). destruct (K a (NA a Ha)) as [X|X]; [right|left; exact X].
        eapply (mf_order _ _ _ _ MF); eassumption. }
      clear -K. induction args as [|a t IH]; cbn; constructor; [apply K; left; reflexivity|apply IH; intros x Hx; apply K; right; exact Hx]. }
    assert (NI : ~ In (mo_ph op) ins).
    { intros X. destruct CL as (_ & _ & K & _). apply (K _ X). eauto. }
    destruct (MV (mo_ph op) N) as [_ MO']. destruct (MO' NI) as (o & Ho & To).
    destruct (id_num _ _ _ _ MF _ N) as (_ & _ & Lo).
    assert (L0' : 0 < length mem) by lia.
    destruct (nth_error mem 0) as [z|] eqn:Z; [|apply nth_error_None in Z; lia].
    assert (XZ : forall j, Forall2 (fun i t => nth_error mem i = Some t) (repeat 0 j) (repeat z j)).
    { intros j. induction j; cbn; constructor; assumption. }
    assert (EF : fwd_step (E (mo_ph op)) op L0 infos mem = Ok (upd infos (mo_info op) (lstore L' li), L', upd mem (num m (mo_ph op)) (V (mo_ph op)))).
    { unfold fwd_step. rewrite EI, EOut.
      rewrite (extract_Ok _ _ (map V args ++ repeat z (k * length args))) by (apply Forall2_app; [exact XI|apply XZ]).
      rewrite (extract_Ok _ _ (o :: repeat z k)) by (constructor; [exact Ho|apply XZ]). cbn [bind].
      rewrite rd_nth, Hli. cbn [bind]. rewrite HL. cbn [bind].
      assert (EE : lforward (E (mo_ph op)) L (map V args ++ repeat z (k * length args)) (o :: repeat z k) = Ok (L', V (mo_ph op))).
      { destruct HV as [HV|HV].
        - assert (k = 0) as -> by lia. cbn. rewrite app_nil_r. apply HF, To.
        - apply lforward_extra; [exact HV|apply HF, To]. }
      rewrite EE. cbn. rewrite wr_in by lia. reflexivity. }
    pose proof (mf_infos _ _ _ _ MF) as NDI. rewrite EO, map_app in NDI. cbn in NDI.
    assert (NIp : ~ In (mo_info op) (map mo_info post)).
    { apply NoDup_remove_2 in NDI. intros X. apply NDI, in_or_app. right. rewrite map_app. apply in_or_app. left. exact X. }
    pose proof (mf_ops _ _ _ _ MF) as NDO. rewrite EO, map_app in NDO. cbn in NDO.
    assert (NOp : ~ In (mo_ph op) (map mo_ph post)).
    { apply NoDup_remove_2 in NDO. intros X. apply NDO, in_or_app. right. rewrite map_app. apply in_or_app. left. exact X. }
    assert (Li : mo_info op < length infos) by (apply nth_error_Some; congruence).
    assert (NH : forall d, needed ps outs d -> nth_error (upd mem (num m (mo_ph op)) (V (mo_ph op))) (num m d) =
                           if Nat.eq_dec d (mo_ph op) then Some (V d) else nth_error mem (num m d)).
    { intros d Nd. destruct (Nat.eq_dec d (mo_ph op)) as [->|Nq]; [apply nth_error_upd_eq; lia|].
      apply nth_error_upd_neq. intros X. apply Nq. symmetry. eapply num_inj; eassumption. }
    destruct (IH (pre ++ [op]) rest (upd infos (mo_info op) (lstore L' li)) (upd mem (num m (mo_ph op)) (V (mo_ph op))) lt) as (infos' & ls' & mem' & EE & MO2 & F3 & LI & FR & FM).
    + rewrite <- app_assoc. exact EO.
    + split; [rewrite upd_length; exact ML|]. intros d Nd. rewrite (NH d Nd). destruct (MV d Nd) as [M1 M2]. split.
      * rewrite map_app. cbn. intros X. destruct (Nat.eq_dec d (mo_ph op)) as [->|Nq]; [reflexivity|]. apply M1.
        destruct X as [X|X]; [left; exact X|]. apply in_app_or in X. destruct X as [X|[X|[]]]; [right; exact X|congruence].
      * intros X. destruct (Nat.eq_dec d (mo_ph op)) as [->|Nq]; [exists (V (mo_ph op)); split; [reflexivity|exact TO]|exact (M2 X)].
    + clear -RT NIp. induction RT as [|p q l1 l2 H _ IHR]; constructor.
      * destruct H as (L & li2 & args & H1 & H2). exists L, li2, args. split; [|exact H2].
        rewrite nth_error_upd_neq; [exact H1|]. intros X. apply NIp. left. congruence.
      * apply IHR. intros X. apply NIp. right. exact X.
    + exists infos', (L' :: ls'), mem'. cbn [fwd_ops]. rewrite EF. cbn [lift]. rewrite EE. split; [reflexivity|].
      split; [rewrite <- app_assoc in MO2; exact MO2|]. split; [|split; [|split]].
      * constructor.
        -- exists L, li, args. split; [exact Hli|]. split; [exact HL|]. split; [exact HC|]. split; [exact HF|].
           rewrite FR by exact NIp. apply nth_error_upd_eq, Li.
        -- clear -F3 NIp. induction F3 as [|a b c l1 l2 l3 H _ IHF]; constructor.
           ++ destruct H as (L1 & li1 & args & H1 & H2). exists L1, li1, args. split; [|exact H2].
              rewrite nth_error_upd_neq in H1; [exact H1|]. intros X. apply NIp. left. congruence.
           ++ apply IHF. intros X. apply NIp. right. exact X.
      * rewrite LI. apply upd_length.
      * intros i Hi. rewrite FR by (intros X; apply Hi; right; exact X). apply nth_error_upd_neq. intros <-. apply Hi. left. reflexivity.
      * intros d Nd Hd. rewrite FM; [|exact Nd|intros X; apply Hd; right; exact X]. rewrite (NH d Nd).
        destruct (Nat.eq_dec d (mo_ph op)) as [->|Nq]; [exfalso; apply Hd; left; reflexivity|reflexivity].
Qed.

Lemma Forall3_nth {A B C} (P : A -> B -> C -> Prop) l1 l2 l3 : Forall3 P l1 l2 l3 -> length l1 = length l2 /\ length l2 = length l3 /\
  forall i a b c, nth_error l1 i = Some a -> nth_error l2 i = Some b -> nth_error l3 i = Some c -> P a b c.
Proof.
  intros F. induction F as [|a b c l1 l2 l3 H _ (L1 & L2 & IH)]; [repeat split; intros [|i]; discriminate|].
  cbn. split; [congruence|]. split; [congruence|]. intros [|i] x y z; cbn; [congruence|apply IH].
Qed.

Lemma out_needed d : In d outs -> needed ps outs d.
Proof. apply need_out. Qed.

Lemma ids_num ds : (forall d, In d ds -> needed ps outs d) -> map_res (id_of m) ds = Ok (map (num m) ds).
Proof.
  intros H. apply map_res_Ok. induction ds as [|d t IH]; cbn; constructor; [apply (id_num _ _ _ _ MF), H; left; reflexivity|].
  apply IH. intros x Hx. apply H. right. exact Hx.
Qed.
Lemma NoDup_num ds : NoDup ds -> (forall d, In d ds -> needed ps outs d) -> NoDup (map (num m) ds).
Proof.
  induction 1 as [|d t N _ IH]; intros H; cbn; constructor; [|apply IH; intros x Hx; apply H; right; exact Hx].
  intros X. apply in_map_iff in X. destruct X as (d' & Ed & Hd'). apply N. rewrite <- (num_inj _ _ _ _ MF d' d); [exact Hd'| | |exact Ed]; apply H; [right; exact Hd'|left; reflexivity].
Qed.
Lemma in_out_disjoint d : In d ins -> In d outs -> False.
Proof. intros H1 H2. destruct CL as (_ & _ & K1 & K2 & _). exact (K1 d H1 (K2 d H2)). Qed.

(** Binding inputs and outputs of the right shapes. *)
Lemma bind_all b tins touts : backend_fits ps m b -> shaped ps ins tins -> shaped ps outs touts ->
  exists mem, bind_ids (map (num m) ins) tins (b_mem b) = Ok (fst mem) /\ bind_ids (map (num m) outs) touts (fst mem) = Ok (snd mem) /\
    length (snd mem) = length (m_data m) /\
    (forall k d t, nth_error ins k = Some d -> nth_error tins k = Some t -> nth_error (snd mem) (num m d) = Some t) /\
    (forall k d t, nth_error outs k = Some d -> nth_error touts k = Some t -> nth_error (snd mem) (num m d) = Some t) /\
    (forall d, needed ps outs d -> ~ In d ins -> ~ In d outs -> nth_error (snd mem) (num m d) = nth_error (b_mem b) (num m d)).
Proof.
  intros (_ & BL & _) SI SO. pose proof CL as (NI & NO & _).
  destruct (bind_Ok (map (num m) ins) tins (b_mem b)) as (m1 & E1 & L1 & A1 & B1).
  { rewrite map_length, (Forall2_len _ _ _ SI). lia. }
  { intros i Hi. apply in_map_iff in Hi. destruct Hi as (d & <- & Hd). rewrite BL. apply (id_num _ _ _ _ MF), (mf_needed_in _ _ _ _ MF), Hd. }
  { apply NoDup_num; [exact NI|apply (mf_needed_in _ _ _ _ MF)]. }
  destruct (bind_Ok (map (num m) outs) touts m1) as (m2 & E2 & L2 & A2 & B2).
  { rewrite map_length, (Forall2_len _ _ _ SO). lia. }
  { intros i Hi. apply in_map_iff in Hi. destruct Hi as (d & <- & Hd). rewrite L1, BL. apply (id_num _ _ _ _ MF), out_needed, Hd. }
  { apply NoDup_num; [exact NO|apply out_needed]. }
  exists (m1, m2). cbn. split; [exact E1|]. split; [exact E2|]. split; [congruence|]. split; [|split].
  - intros k d t Ek Et. rewrite B2.
    + apply (A1 k); [rewrite nth_error_map, Ek; reflexivity|exact Et].
    + intros X. apply in_map_iff in X. destruct X as (d' & Ed & Hd'). assert (Hd : In d ins) by (eapply nth_error_In; exact Ek).
      assert (d' = d) as -> by (eapply num_inj; [exact MF|apply out_needed, Hd'|apply (mf_needed_in _ _ _ _ MF), Hd|exact Ed]).
      exact (in_out_disjoint d Hd Hd').
  - intros k d t Ek Et. apply (A2 k); [rewrite nth_error_map, Ek; reflexivity|exact Et].
  - intros d Nd H1 H2. rewrite B2, B1; [reflexivity| |].
    + intros X. apply in_map_iff in X. destruct X as (d' & Ed & Hd'). apply H1. rewrite <- (num_inj _ _ _ _ MF d' d); [exact Hd'|apply (mf_needed_in _ _ _ _ MF), Hd'|exact Nd|exact Ed].
    + intros X. apply in_map_iff in X. destruct X as (d' & Ed & Hd'). apply H2. rewrite <- (num_inj _ _ _ _ MF d' d); [exact Hd'|apply out_needed, Hd'|exact Nd|exact Ed].
Qed.

Lemma data_at d : needed ps outs d -> nth_error (m_data m) (num m d) = Some (d, storage_of ins outs d).
Proof.
  intros N. destruct (id_num _ _ _ _ MF d N) as (_ & H & _). rewrite nth_error_map in H. destruct (nth_error (m_data m) (num m d)) as [[d' s]|] eqn:X; [|discriminate].
  cbn in H. injection H as ->. rewrite (mf_store _ _ _ _ MF d s (nth_error_In _ _ X)). reflexivity.
Qed.
Lemma memb_In d l : memb d l = true <-> In d l.
Proof.
  unfold memb. rewrite existsb_exists. split; [intros (x & Hx & Ex); apply Nat.eqb_eq in Ex; subst; exact Hx|intros H; exists d; split; [exact H|apply Nat.eqb_refl]].
Qed.
Lemma storage_internal d : ~ In d ins -> ~ In d outs -> storage_of ins outs d = SInternal.
Proof. intros H1 H2. unfold storage_of. rewrite !memb_false by assumption. reflexivity. Qed.

Lemma Forall2_map_l {A B C} (f : A -> B) (P : B -> C -> Prop) l1 l2 : Forall2 (fun a c => P (f a) c) l1 l2 -> Forall2 P (map f l1) l2.
Proof. induction 1; cbn; constructor; assumption. Qed.

Lemma forward_runs infos b tins touts :
  backend_fits ps m b -> shaped ps ins tins -> shaped ps outs touts -> Forall2 (fun d t => V d = t) ins tins ->
  Forall2 (op_ready infos) (m_ops m) (b_layers b) ->
  exists infos' b', model_forward E m infos (Some b) tins touts = Ret (infos', Some b', tins, map V outs) /\
    backend_fits ps m b' /\ Forall3 (op_done infos infos') (m_ops m) (b_layers b) (b_layers b') /\ length infos' = length infos /\
    (forall i, ~ In i (map mo_info (m_ops m)) -> nth_error infos' i = nth_error infos i) /\
    b_grad b' = b_grad b /\
    (forall d, needed ps outs d -> nth_error (b_mem b') (num m d) = Some (V d)).
Proof.
  intros BF SI SO VI R. destruct (bind_all b tins touts BF SI SO) as ([m1 mem] & E1 & E2 & LM & HI & HO & HR). cbn [fst snd] in *.
  pose proof BF as (BL1 & BL2 & BL3 & BD).
  destruct (fwd_run (m_ops m) [] [] infos mem (b_layers b) (eq_sym (app_nil_r _))) as (infos' & ls' & mem' & ER & [ML MV] & F3 & LI & FR & _).
  { split; [exact LM|]. intros d N. split.
    - intros [H|[]]. apply In_nth_error in H. destruct H as (k & Hk). destruct (Forall2_nth_error _ _ _ VI k d Hk) as (t & Ht & ->). apply (HI k); assumption.
    - intros H1. destruct (in_dec Nat.eq_dec d outs) as [H2|H2].
      + apply In_nth_error in H2. destruct H2 as (k & Hk). destruct (Forall2_nth_error _ _ _ SO k d Hk) as (t & Ht & Tt). exists t. split; [apply (HO k); assumption|exact Tt].
      + rewrite (HR d N H1 H2). destruct (BD _ _ _ (data_at d N)) as [X _]. apply X, storage_internal; assumption. }
  { exact R. }
  cbn [app] in *. assert (MV' : forall d, needed ps outs d -> nth_error mem' (num m d) = Some (V d)).
  { intros d N. destruct (MV d N) as [X _]. apply X. destruct CL as (_ & _ & _ & _ & K). destruct (K d N) as [Y|Y]; [right|left; exact Y].
    apply (mf_call _ _ _ _ MF); assumption. }
  pose proof CL as (NI & NO & _).
  exists infos', (mkB ls' mem' (b_grad b)). split; [|split; [|split; [|split; [|split; [|split]]]]].
  - cbn [model_forward]. unfold backend_forward. rewrite (mf_in _ _ _ _ MF), (mf_out _ _ _ _ MF).
    rewrite (ids_num ins) by apply (mf_needed_in _ _ _ _ MF). rewrite (ids_num outs) by apply out_needed. cbn [bind].
    rewrite E1. cbn [bind]. rewrite E2. cbn [bind]. rewrite ER.
    rewrite (unbind_Ok (map (num m) ins) (map (num m) outs) mem' tins) with (us := tins).
    + rewrite (unbind_Ok (map (num m) outs) [] mem' touts) with (us := map V outs); [reflexivity| | | |].
      * apply NoDup_num; [exact NO|apply out_needed].
      * intros i _ [].
      * rewrite map_length. symmetry. apply (Forall2_len _ _ _ SO).
      * apply Forall2_map_l. assert (K : forall d, In d outs -> nth_error mem' (num m d) = Some (V d)) by (intros d Hd; apply MV', out_needed, Hd).
        clear -K. induction outs as [|d t IH]; cbn; constructor; [apply K; left; reflexivity|apply IH; intros x Hx; apply K; right; exact Hx].
    + apply NoDup_num; [exact NI|apply (mf_needed_in _ _ _ _ MF)].
    + intros i H1 H2. apply in_map_iff in H1, H2. destruct H1 as (d1 & <- & H1), H2 as (d2 & Ed & H2).
      assert (d2 = d1) as -> by (eapply num_inj; [exact MF|apply out_needed, H2|apply (mf_needed_in _ _ _ _ MF), H1|exact Ed]).
      exact (in_out_disjoint d1 H1 H2).
    + rewrite map_length. symmetry. apply (Forall2_len _ _ _ SI).
    + apply Forall2_map_l. assert (K : forall d, In d ins -> nth_error mem' (num m d) = Some (V d)) by (intros d Hd; apply MV', (mf_needed_in _ _ _ _ MF), Hd).
      clear -K VI. induction VI as [|d t l1 l2 H _ IH]; constructor; [rewrite <- H; apply K; left; reflexivity|apply IH; intros x Hx; apply K; right; exact Hx].
  - destruct (Forall3_nth _ _ _ _ F3) as (X1 & X2 & _). split; [cbn; congruence|]. split; [exact ML|]. split; [exact BL3|]. cbn.
    intros i d s H. destruct (BD i d s H) as [D1 D2]. split; [|exact D2]. intros ->.
    assert (N : needed ps outs d) by (apply (mf_data _ _ _ _ MF), in_map_iff; exists (d, SInternal); split; [reflexivity|eapply nth_error_In, H]).
    assert (num m d = i) as <- by (apply (num_of _ _ _ _ MF); rewrite nth_error_map, H; reflexivity).
    destruct (MV d N) as [_ X]. apply X. intros Y. pose proof (mf_store _ _ _ _ MF d SInternal (nth_error_In _ _ H)) as Z. unfold storage_of in Z.
    apply memb_In in Y. rewrite Y in Z. destruct (memb d outs); discriminate Z.
  - exact F3.
  - exact LI.
  - exact FR.
  - reflexivity.
  - exact MV'.
Qed.
End Forward.
