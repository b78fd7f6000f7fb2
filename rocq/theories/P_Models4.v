(** Proofs for [Prop_Models]: sessions of several models that may have layers in common. *)
From Coq Require Import Reals String List Lia.
From Verif Require Import Base BaseFacts Sums M_Im2col S_Im2col M_Kernels M_Conv M_Layers M_Optim M_Nn M_Graph M_Model M_Backend M_Train M_Models
  S_Grad S_Partial S_Graph S_Run S_Fit S_Primed S_Optim S_Train S_Models
  P_Kernels P_Graph P_Graph2 P_Nn P_Model P_Model2 P_Run P_Fwd P_Load P_Fwd2 P_Partial P_Bwd P_Run2 P_Fit P_Safe P_Safe2 P_Train P_Train2 P_Train3 P_Optim P_Models P_Models2 P_Models3
  Prop_Run Prop_Train.
Import ListNotations.
Local Open Scope list_scope.
Open Scope nat_scope.

Lemma constructed_own es ins outs m : constructed es ins outs m -> own_params m.
Proof.
  intros C [key r] H. destruct (constructed_params _ _ _ _ C) as [_ RF]. destruct (RF key r H) as (op & Ho & E). exists op. cbn. auto.
Qed.

Section One.
Variables (es : estore) (ins outs : list nat) (m : model).
Hypothesis CO : constructed es ins outs m.
Let ps := es_ph es.

Lemma uses_info k : uses m k <-> In k (map mo_info (m_ops m)).
Proof. unfold uses. rewrite in_map_iff. split; intros (op & A & B); exists op; auto. Qed.

Lemma did_shifted ran ran' infos infos' b b' :
  usable ran ps outs m infos b -> usable ran' ps outs m infos' b' ->
  (forall k, ~ In k (map mo_info (m_ops m)) -> nth_error infos' k = nth_error infos k) ->
  (forall j op L0, nth_error (m_ops m) j = Some op -> nth_error (b_layers b) j = Some L0 -> exists L1, nth_error (b_layers b') j = Some L1 /\ did infos infos' op L0 L1) ->
  shifted infos infos'.
Proof.
  intros (_ & LA & _) (_ & LA' & _) FR D k. pose proof (constructed_mfacts _ _ _ _ CO) as MF.
  destruct (in_dec Nat.eq_dec k (map mo_info (m_ops m))) as [I|N].
  2:{ rewrite (FR k N). destruct (nth_error infos k) as [a|]; [exists (fun x => x); apply shiftl_refl|exact Logic.I]. }
  apply in_map_iff in I. destruct I as (op & <- & Hop). destruct (op_spec _ _ _ _ MF op Hop) as (args & v & Nd & Ca & _).
  destruct (LA _ _ Nd Ca) as (L & PL & G & _). pose proof PL as (j & op' & L0 & li & H1 & H2 & H3 & H4 & H5).
  assert (op' = op) as ->.
  { apply In_nth_error in Hop. destruct Hop as (j' & Hj'). destruct (op_at_unique _ _ _ _ MF j j' op' op H1 Hj') as [_ E]; [exact H2|exact E]. }
  destruct (D j op L0 H1 H3) as (L1 & E1 & li2 & L2 & A1 & A2 & A3 & A4 & A5).
  assert (li2 = li) by congruence. subst li2. assert (L2 = L) by congruence. subst L2.
  destruct (LA' _ _ Nd Ca) as (L3 & PL3 & G3 & _).
  assert (PL1 : produces m infos' b' (mo_ph op) L1).
  { exists j, op, L1, (lstore L1 li). repeat (split; [first [assumption|reflexivity]|]). exact (load_store _ _ _ _ A2 A4). }
  rewrite (produces_fun _ _ _ _ MF _ _ _ _ _ PL3 PL1) in G3.
  rewrite H4, A3. exists (fun x => x). refine (did_shift li L0 L L1 (map (dims ps) args) (dims ps (mo_ph op)) A2 A4 A5 _ _).
  - destruct ran; [apply G|exact G].
  - destruct ran'; [apply G3|exact G3].
Qed.

Lemma usable_info ran infos b op : usable ran ps outs m infos b -> In op (m_ops m) -> exists li, nth_error infos (mo_info op) = Some li.
Proof.
  intros (_ & LA & _) Hop. pose proof (constructed_mfacts _ _ _ _ CO) as MF. destruct (op_spec _ _ _ _ MF op Hop) as (args & v & Nd & Ca & _).
  destruct (LA _ _ Nd Ca) as (L & (j & op' & L0 & li & H1 & H2 & H3 & H4 & H5) & _).
  apply In_nth_error in Hop. destruct Hop as (j' & Hj'). destruct (op_at_unique _ _ _ _ MF j j' op' op H1 Hj' H2) as [_ <-]. eauto.
Qed.

Lemma moved_shifted flag ran b infos infos' : usable ran ps outs m infos b -> moved flag m infos infos' -> untouched (uses m) infos infos' -> shifted infos infos'.
Proof.
  intros US (M1 & M2 & M3) UT k. destruct (in_dec Nat.eq_dec k (map mo_info (m_ops m))) as [I|N].
  2:{ rewrite (UT k) by (rewrite uses_info; exact N). destruct (nth_error infos k) as [a|]; [exists (fun x => x); apply shiftl_refl|exact Logic.I]. }
  apply in_map_iff in I. destruct I as (op & <- & Hop). destruct (usable_info _ _ _ _ US Hop) as (a & Ea). rewrite Ea.
  destruct (M1 op a Hop Ea) as (b' & Eb & BE). rewrite Eb. exists flag. split; [|split].
  - intros x p F. destruct (M2 op x p Hop) as (p' & G & S); [unfold get_par; cbn; rewrite Ea; exact F|].
    unfold get_par in G. cbn in G. rewrite Eb in G. eauto.
  - intros x p' F. destruct (M3 (mo_info op, x) p') as (p & G); [unfold get_par; cbn; rewrite Eb; exact F|].
    unfold get_par in G. cbn in G. rewrite Ea in G. eauto.
  - intros x t F. exists t. rewrite BE. auto.
Qed.

Hypothesis CL : closed ps ins outs.

Lemma shifted_refl i : shifted i i.
Proof. intros k. destruct (nth_error i k) as [a|]; [exists (fun x => x); apply shiftl_refl|exact Logic.I]. Qed.

Lemma tact_shifts ran infos b o c : usable ran ps outs m infos b -> opt_fits m infos o -> legal ps ins outs ran [c] ->
  exists infos' b' o', tact m c (mkTS infos (Some b) o) = Ret (mkTS infos' (Some b') o') /\
    usable (ever_ran ran [c]) ps outs m infos' b' /\ opt_fits m infos' o' /\ shifted infos infos'.
Proof.
  intros US OF LG. destruct (C53_sessions_return es ins outs m ran infos b o [c] CO CL US OF LG) as (infos' & b' & o' & T & US' & OF').
  cbn [tacts] in T. destruct (tact m c (mkTS infos (Some b) o)) as [s'|s'|] eqn:TA; try discriminate. injection T as ->.
  exists infos', b', o'. split; [reflexivity|]. split; [exact US'|]. split; [exact OF'|].
  pose proof (constructed_mfacts _ _ _ _ CO) as MF. pose proof (mf_infos _ _ _ _ MF) as NDI.
  pose proof (tact_untouched m c (mkTS infos (Some b) o) (constructed_own _ _ _ _ CO)) as UT. rewrite TA in UT. cbn [ts_info] in UT.
  unfold tact in TA. cbn [ts_info ts_backend ts_opt] in TA. destruct c as [E xs os|E xs os gs|mode| |r].
  - destruct (model_forward E m infos (Some b) xs os) as [[[[i1 b1] x1] o1]|[[[i1 b1] x1] o1]|] eqn:MFW; try discriminate. injection TA as -> -> <-.
    cbn [model_forward] in MFW. unfold backend_forward in MFW.
    match type of MFW with match ?x with _ => _ end = _ => destruct x as [[[ii oi] mem]| |]; try discriminate end.
    destruct (fwd_ops E (m_ops m) (b_layers b) infos mem) as [[[i2 l2] m2]|[[i2 l2] m2]|] eqn:FO; try discriminate.
    2:{ destruct (unbind ii oi m2 xs); try discriminate; destruct (unbind oi [] m2 os); discriminate. }
    destruct (unbind ii oi m2 xs); try discriminate; destruct (unbind oi [] m2 os); try discriminate. injection MFW as -> <- _ _.
    destruct (fwd_did _ _ _ _ _ _ _ _ NDI FO) as [FR D]. exact (did_shifted _ _ _ _ _ _ US US' FR D).
  - destruct (model_backward E m infos (Some b) xs os gs) as [[[i1 b1] x1]|[[i1 b1] x1]|] eqn:MFW; try discriminate. injection TA as -> -> <-.
    cbn [model_backward] in MFW. unfold backend_backward in MFW.
    match type of MFW with match ?x with _ => _ end = _ => destruct x as [[[oi mem] gr]| |]; try discriminate end.
    destruct (bwd_ops E mem (m_ops m) (b_layers b) infos gr) as [[[i2 l2] m2]|[[i2 l2] m2]|] eqn:FO; try discriminate.
    2:{ destruct (unbind oi [] m2 gs); discriminate. }
    destruct (unbind oi [] m2 gs); try discriminate. injection MFW as -> <- _.
    destruct (bwd_did _ _ _ _ _ _ _ _ _ NDI FO) as [FR D]. exact (did_shifted _ _ _ _ _ _ US US' FR D).
  - injection TA as <- _ _. destruct US as (U1 & U2 & U3 & U4).
    destruct (constructed_params _ _ _ _ CO) as (ND & RF). refine (moved_shifted _ ran b _ _ (conj U1 (conj U2 (conj U3 U4))) _ UT).
    exact (train_moved m ND mode infos U4).
  - destruct (constructed_params _ _ _ _ CO) as (ND & RF). pose proof US as (U1 & U2 & U3 & U4).
    destruct (step_moved m ND RF infos o U3 OF) as (i1 & o1 & E1 & MV & _). rewrite E1 in TA. injection TA as <- _ _.
    exact (moved_shifted _ _ _ _ _ US MV UT).
  - injection TA as <- _ _. apply shifted_refl.
Qed.
End One.

(** Whole sessions. *)
Lemma legal_cons ps ins outs ran c cs : legal ps ins outs ran (c :: cs) -> legal ps ins outs ran [c] /\ legal ps ins outs (ever_ran ran [c]) cs.
Proof.
  destruct c, ran; cbn; intros H; repeat match goal with X : _ /\ _ |- _ => destruct X end; auto 8; discriminate.
Qed.
Lemma ever_cons ran c cs : ever_ran ran (c :: cs) = ever_ran (ever_ran ran [c]) cs.
Proof. unfold ever_ran. destruct c, ran; cbn; try reflexivity. Qed.

Lemma session_of_several : forall cs plans P, Forall2 (ready (pg_info P)) plans (pg_parts P) -> legal_for plans cs ->
  exists P' log, prun cs P = Ret (P', log) /\
    map pt_model (pg_parts P') = map pt_model (pg_parts P) /\
    length plans = length (pg_parts P') /\
    forall i pl p, nth_error plans i = Some pl -> nth_error (pg_parts P') i = Some p -> ready (pg_info P') (moved_on i cs pl) p.
Proof.
  induction cs as [|[j c] cs IH]; intros plans P RD [LV LG]; cbn [prun].
  - exists P, []. split; [reflexivity|]. split; [reflexivity|]. split; [exact (Forall2_length' _ _ _ RD)|].
    intros i pl p Hi Hp. destruct (Forall2_at _ _ _ RD i pl Hi) as (p' & Hp' & R). assert (p' = p) by congruence. subst p'.
    unfold moved_on, of_model. cbn. destruct pl as [es ins outs ran]. unfold ever_ran. cbn. rewrite Bool.orb_false_r. exact R.
  - inversion LV as [|x y V1 V2]; subst. cbn [fst] in V1.
    destruct (nth_error plans j) as [pl|] eqn:Hj; [|apply nth_error_None in Hj; lia].
    destruct (Forall2_at _ _ _ RD j pl Hj) as (p & Hp & CO & CL & b & EB & US & OF).
    pose proof (LG j pl Hj) as LJ. rewrite of_model_cons, Nat.eqb_refl in LJ. destruct (legal_cons _ _ _ _ _ _ LJ) as [L1 L2].
    destruct (tact_shifts _ _ _ _ CO CL _ _ _ _ c US OF L1) as (i' & b' & o' & T & US' & OF' & SH).
    unfold pact. rewrite Hp. unfold seen. rewrite EB, T.
    set (s' := mkTS i' (Some b') o'). set (pl' := mkPlan (pl_es pl) (pl_ins pl) (pl_outs pl) (ever_ran (pl_ran pl) [c])).
    destruct (IH (upd plans j pl') (left_by P j p s')) as (P2 & log & RR & MM & LE & RDY).
    + apply Forall2_intro.
      * unfold left_by. cbn [pg_parts]. rewrite !upd_length. exact (Forall2_length' _ _ _ RD).
      * intros i a q Ha Hq. rewrite (left_part P j p s' i Hp) in Hq. destruct (Nat.eqb_spec i j) as [->|N].
        -- injection Hq as <-. rewrite nth_error_upd_eq in Ha by (apply nth_error_Some; congruence). injection Ha as <-.
           split; [exact CO|]. split; [exact CL|]. exists b'. split; [reflexivity|]. split; [exact US'|exact OF'].
        -- rewrite nth_error_upd_neq in Ha by auto. destruct (Forall2_at _ _ _ RD i a Ha) as (q' & Hq' & CO2 & CL2 & b2 & EB2 & US2 & OF2).
           assert (q' = q) by congruence. subst q'. split; [exact CO2|]. split; [exact CL2|]. exists b2. split; [exact EB2|].
           cbn [left_by pg_info ts_info s']. split; [exact (shifted_usable _ _ _ _ _ _ _ SH US2)|]. exact (shifted_opt _ _ _ _ SH (proj1 (proj2 (proj2 US2))) OF2).
    + split; [rewrite upd_length; exact V2|]. intros i a Ha. destruct (Nat.eq_dec i j) as [->|N].
      * rewrite nth_error_upd_eq in Ha by (apply nth_error_Some; congruence). injection Ha as <-. exact L2.
      * rewrite nth_error_upd_neq in Ha by auto. pose proof (LG i a Ha) as LI. rewrite of_model_cons in LI.
        destruct (Nat.eqb_spec j i) as [E|_]; [congruence|exact LI].
    + rewrite RR. eexists. eexists. split; [reflexivity|]. split.
      { rewrite MM. unfold left_by. cbn [pg_parts]. apply nth_ext with (d := pt_model p) (d' := pt_model p); [rewrite !map_length, upd_length; reflexivity|].
        intros n _. rewrite !map_nth. destruct (Nat.eq_dec n j) as [->|N].
        - rewrite (nth_error_nth _ _ _ (nth_error_upd_eq _ _ _ (proj1 (nth_error_Some _ _) (ltac:(congruence) : nth_error (pg_parts P) j <> None)))). cbn.
          rewrite (nth_error_nth _ _ _ Hp). reflexivity.
        - f_equal. destruct (nth_error (pg_parts P) n) as [q|] eqn:En.
          + rewrite (nth_error_nth _ _ _ En). apply nth_error_nth. rewrite nth_error_upd_neq by auto. exact En.
          + rewrite !nth_overflow; [reflexivity|apply nth_error_None; exact En|rewrite upd_length; apply nth_error_None; exact En]. }
      split; [rewrite <- LE; symmetry; apply upd_length|].
      intros i a q Ha Hq. destruct (Nat.eq_dec i j) as [->|N].
      * assert (a = pl) by congruence. subst a.
        assert (Ha' : nth_error (upd plans j pl') j = Some pl') by (apply nth_error_upd_eq, nth_error_Some; congruence).
        pose proof (RDY j pl' q Ha' Hq) as R. unfold moved_on in *. rewrite of_model_cons, Nat.eqb_refl, ever_cons. exact R.
      * assert (Ha' : nth_error (upd plans j pl') i = Some a) by (rewrite nth_error_upd_neq by auto; exact Ha).
        pose proof (RDY i a q Ha' Hq) as R. unfold moved_on in *. rewrite of_model_cons. destruct (Nat.eqb_spec j i) as [E|_]; [congruence|exact R].
Qed.
