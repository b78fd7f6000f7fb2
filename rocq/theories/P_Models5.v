(** Proofs for [Prop_Models]: building a further model. *)
From Coq Require Import Reals String List Lia.
From Verif Require Import Base BaseFacts Sums M_Im2col S_Im2col M_Kernels M_Conv M_Layers M_Optim M_Nn M_Graph M_Model M_Backend M_Train M_Models
  S_Grad S_Partial S_Graph S_Run S_Fit S_Primed S_Optim S_Train S_Plain S_Models
  P_Kernels P_Graph P_Graph2 P_Nn P_Model P_Model2 P_Run P_Fwd P_Load P_Fwd2 P_Partial P_Bwd P_Run2 P_Fit P_Safe P_Safe2 P_Train P_Train2 P_Train3 P_Optim P_Plain P_Models P_Models2 P_Models3 P_Models4
  Prop_Run Prop_Train Prop_Plain.
Import ListNotations.
Local Open Scope list_scope.
Open Scope nat_scope.

Lemma agree_ready infos infos' pl p : agree (uses (pt_model p)) infos infos' -> ready infos pl p -> ready infos' pl p.
Proof.
  intros A (CO & CL & b & EB & (BF & LA & SD & OW) & OF). split; [exact CO|]. split; [exact CL|]. exists b. split; [exact EB|].
  pose proof (constructed_own _ _ _ _ CO) as OP.
  assert (GP : forall key r, In (key, r) (m_params (pt_model p)) -> get_par infos r = get_par infos' r).
  { intros key r H. apply (get_par_agree (uses (pt_model p))); [exact A|]. exact (OP (key, r) H). }
  assert (KE : forall v, keeps (pt_model p) infos v -> keeps (pt_model p) infos' v).
  { intros v K key r q Hr G. apply (K key r q Hr). rewrite (GP key r Hr). exact G. }
  split; [split; [exact BF|split; [|split]]|].
  - intros d args Nd Ca. destruct (LA d args Nd Ca) as (L & (j & op & L0 & li & H1 & H2 & H3 & H4 & H5) & G). exists L. split; [|exact G].
    destruct (rd_agree _ _ _ (mo_info op) A (uses_op _ op (nth_error_In _ _ H1))) as [[E1 _]|(a & b' & _ & _ & K & N1 & N2)].
    { unfold rd in E1. rewrite H4 in E1. discriminate. }
    exists j, op, L0, b'. repeat (split; [assumption|]). rewrite <- (load_like a b' L0 K). congruence.
  - intros key r Hr. rewrite <- (GP key r Hr). exact (SD key r Hr).
  - intros op k q Hop G. apply (OW op k q Hop). rewrite (get_par_agree _ _ _ _ A); [exact G|]. exact (uses_op _ op Hop).
  - destruct (pt_opt p) as [|? ? v|? ? ? ? ? [v1 v2]]; cbn in *; [exact Logic.I|apply KE, OF|destruct OF; split; apply KE; assumption].
Qed.

Lemma ready_bound infos pl p k : ready infos pl p -> uses (pt_model p) k -> exists li, nth_error infos k = Some li.
Proof. intros (CO & CL & b & EB & US & OF) (op & Hop & <-). exact (usable_info _ _ _ _ CO _ _ _ _ US Hop). Qed.

Lemma more_ready infos more pl p : ready infos pl p -> ready (infos ++ more) pl p.
Proof.
  intros R. refine (agree_ready infos _ pl p _ R). intros k u. destruct (ready_bound _ _ _ _ R u) as (li & E). unfold numbers.
  rewrite nth_error_app1 by (apply nth_error_Some; congruence). reflexivity.
Qed.
Lemma renamed_ready infos infos' pl p : Forall2 renamed infos infos' -> ready infos pl p -> ready infos' pl p.
Proof.
  intros F R. refine (agree_ready infos _ pl p _ R). intros k u. destruct (ready_bound _ _ _ _ R u) as (li & E).
  destruct (Forall2_at _ _ _ F k li E) as (li' & E' & RN). unfold numbers. rewrite E, E'. destruct RN as (_ & _ & A & B). rewrite A, B. reflexivity.
Qed.

Lemma assembled_plain es D pls pts : assembled es D pls pts -> plain es D.
Proof.
  induction 1 as [|es D pls pts sh A P PR|es D pls pts I l name args shs osh es' p A P F M AP|es D pls pts I i x args es' p A P E F AP|
                  es D pls pts order ins outs g es' m junk b o A P VO BG TO CM RW CL MC OPT].
  - apply plain_start.
  - apply plain_input; assumption.
  - eapply plain_layer; eassumption.
  - eapply plain_again; eassumption.
  - eapply plain_model; eassumption.
Qed.

Lemma assembled_ready es D pls pts : assembled es D pls pts -> Forall2 (ready (es_info es)) pls pts.
Proof.
  induction 1 as [|es D pls pts sh A IH PR|es D pls pts I l name args shs osh es' p A IH F M AP|es D pls pts I i x args es' p A IH E F AP|
                  es D pls pts order ins outs g es' m junk b o A IH VO BG TO CM RW CL MC OPT].
  - constructor.
  - exact IH.
  - rewrite (C54_applying_a_new_layer I l shs osh name args es F M) in AP. injection AP as <- _. cbn [es_info].
    clear -IH. induction IH as [|pl p pls pts R _ IH]; constructor; [exact (more_ready _ _ _ _ R)|exact IH].
  - rewrite (C54_applying_a_layer_again es D I i x args (assembled_plain _ _ _ _ A) E F) in AP. injection AP as <- _. exact IH.
  - pose proof (assembled_plain _ _ _ _ A) as P. pose proof (po_built _ _ (plain_plain_ok _ _ P)) as BU.
    destruct (model_facts es order ins outs g BU VO BG TO es' m CM) as (mops & _ & _ & _ & _ & _ & _ & _ & _ & RN & _).
    apply Forall2_app.
    + clear -IH RN. induction IH as [|pl p pls pts R _ IH]; constructor; [exact (renamed_ready _ _ _ _ RN R)|exact IH].
    + constructor; [|constructor]. assert (CO : constructed es ins outs m) by (split; [exact BU|split; [exact VO|exists order, g, es'; auto]]).
      destruct (C54_compiled_models_are_usable es D order ins outs g es' m junk None P VO BG TO CM RW) as (b' & MC' & US & _).
      assert (b = Some b') by congruence. subst b.
      destruct (C53_new_optimizers_fit es ins outs m (es_info es') CO (proj1 (proj2 (proj2 US)))) as (O1 & O2 & O3).
      split; [exact CO|]. split; [exact CL|]. exists b'. split; [reflexivity|]. split; [exact US|].
      destruct OPT as (lr & gamma & b1 & b2 & eps & t & [E1|[E1|E1]]); subst o; cbn [pt_opt pt_model]; [apply O1|apply O2|apply O3].
Qed.

(** Forward in the middle of a session. *)
Lemma ready_forward P pl p i E xs os : ready (pg_info P) pl p -> nth_error (pg_parts P) i = Some p -> (forall d, fair (E d)) ->
  shaped (es_ph (pl_es pl)) (pl_ins pl) xs -> shaped (es_ph (pl_es pl)) (pl_outs pl) os ->
  exists b V P', pt_backend p = Some b /\ evaluation (es_ph (pl_es pl)) (pl_ins pl) (pl_outs pl) xs E (produces (pt_model p) (pg_info P) b) V /\
    pact i (TForward E xs os) P = Ret (P', map V (pl_outs pl)).
Proof.
  intros (CO & CL & b & EB & US & OF) Hp FE SI SO. pose proof US as (BF & LA & SD & OW). pose proof (constructed_mfacts _ _ _ _ CO) as MF.
  assert (LB : links_back (es_ph (pl_es pl))) by (apply store_links_back, built_ok, CO).
  assert (LF : forall d args, needed (es_ph (pl_es pl)) (pl_outs pl) d -> call (es_ph (pl_es pl)) d args ->
    exists L, produces (pt_model p) (pg_info P) b d L /\ fits L (map (dims (es_ph (pl_es pl))) args) (dims (es_ph (pl_es pl)) d)).
  { intros d args N C. destruct (LA d args N C) as (L & PR & G & _). exists L. split; [exact PR|]. destruct (pl_ran pl); [apply G|exact G]. }
  destruct (evaluation_exists _ _ _ _ MF CL LB E (pg_info P) b xs SI FE LF (needed_len _ _ LB (proj1 (proj2 CO)))) as (V & EV & VT).
  assert (LO : links_ok (es_ph (pl_es pl)) (pl_outs pl) (produces (pt_model p) (pg_info P) b)).
  { intros d L PR. pose proof PR as (j & op & L0 & li & H1 & <- & _). destruct (op_spec _ _ _ _ MF op (nth_error_In _ _ H1)) as (args & k & N & C & _).
    destruct (LA _ _ N C) as (L' & P' & _ & T). rewrite (produces_fun _ _ _ _ MF _ _ _ _ _ PR P'). exact T. }
  destruct (C37_forward_evaluates (pl_es pl) (pl_ins pl) (pl_outs pl) (pt_model p) (pg_info P) b E V xs os CO CL BF SI SO EV LO) as (i' & b' & FW & _).
  exists b, V. eexists. split; [exact EB|]. split; [exact EV|].
  unfold pact. rewrite Hp. unfold tact, handed, seen. cbn [ts_info ts_backend ts_opt]. rewrite EB, FW. reflexivity.
Qed.
