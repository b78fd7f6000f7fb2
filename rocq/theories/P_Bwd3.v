(** The gradient stored for one parameter. *)
From Coq Require Import Reals String Lia Lra.
From Verif Require Import Base BaseFacts Sums Deriv M_Layers M_Kernels M_Optim M_Nn M_Graph M_Model M_Backend S_Grad S_Partial S_Graph S_Run
  P_Graph P_Graph2 P_Nn P_Model P_Model2 P_Run P_Fwd P_Load P_Fwd2 P_Vjp1 P_Vjp2 P_BN P_Partial P_Bwd P_Bwd2.
Local Open Scope string_scope.
Open Scope nat_scope.
Local Open Scope list_scope.

Lemma names_pkeys L : param_names L = pkeys L.
Proof. destruct L; reflexivity. Qed.

Lemma load_bump li L0 L k key p e s : load li L0 = Ok L -> nth_error (pkeys L) k = Some key -> nth_error (dparams L) k = Some p ->
  load (set_par li key (with_data p (bump (tdat (p_data p)) e s))) L0 = Ok (with_params L (upd (pvals L) k (bump (nth k (pvals L) []) e s))).
Proof.
  intros H HK HP. destruct L0; cbn in H; inv_ok H; injection H as <-; use_keys; cbn [pkeys dparams lparams] in HK, HP;
    destruct k as [|[|k]]; cbn in HK, HP; try discriminate HK; try (destruct k; discriminate HK);
    injection HK as <-; injection HP as <-; cbn; unfold par, bufr; cbn; rewrite ?find_set; cbn;
    repeat match goal with X : find_key _ _ = Some _ |- _ => rewrite X; clear X end; cbn; rewrite ?with_data_id; reflexivity.
Qed.

Lemma with_params_tolerant L ds : tolerant (with_params L ds) = tolerant L.
Proof. destruct L; cbn; try reflexivity; destruct ds as [|x [|y [|z t]]]; reflexivity. Qed.

Lemma psum_single dP j op L : forall ops ls, NoDup (map mo_ph ops) -> nth_error ops j = Some op -> nth_error ls j = Some L ->
  (forall d k i, d <> mo_ph op -> dP d k i = 0%R) -> psum dP ops ls = pcon (dP (mo_ph op)) L.
Proof.
  assert (Z : forall d L, (forall k i, dP d k i = 0%R) -> pcon (dP d) L = 0%R).
  { intros d L' H. unfold pcon. apply rsum_zero. intros k _. apply rsum_zero. intros i _. rewrite H. ring. }
  assert (ZS : forall ops ls, (forall d k i, d <> mo_ph op -> dP d k i = 0%R) -> ~ In (mo_ph op) (map mo_ph ops) -> psum dP ops ls = 0%R).
  { intros ops. induction ops as [|o t IH]; intros [|l u] H N; cbn; try reflexivity. rewrite Z, IH; [lra|exact H|intros X; apply N; right; exact X|].
    intros k i. apply H. intros X. apply N. left. exact X. }
  revert j. intros j ops. revert j. induction ops as [|o t IH]; intros [|j] [|l u] ND HO HL H; try discriminate; cbn in *; inversion ND; subst.
  - injection HO as ->. injection HL as ->. rewrite ZS; [lra|exact H|assumption].
  - rewrite Z, (IH j u); [lra|assumption..|]. intros k i. apply H. intros X.
    apply nth_error_In in HO. apply (in_map mo_ph) in HO. rewrite <- X in HO. tauto.
Qed.

(** The layer of a placeholder, as a function. *)
Definition layer_at (m : model) (infos : list linfo) (b : backend) (d : nat) : option layer :=
  match index_of d (map mo_ph (m_ops m)) with
  | Ok j => match nth_error (m_ops m) j, nth_error (b_layers b) j with
            | Some op, Some L0 => match nth_error infos (mo_info op) with
                                  | Some li => match load li L0 with Ok L => Some L | _ => None end
                                  | None => None
                                  end
            | _, _ => None
            end
  | _ => None
  end.

Section Gradient.
Variables (ps : list phnode) (ins outs : list nat) (m : model).
Hypothesis MF : mfacts ps ins outs m.
Hypothesis CL : closed ps ins outs.
Hypothesis LB : links_back ps.
Variables (E : nat -> env) (V : nat -> ten) (infos : list linfo) (b : backend) (tins : list ten).
Hypothesis SI : shaped ps ins tins.
Hypothesis EV : evaluation ps ins outs tins E (produces m infos b) V.
Hypothesis VJP : forall d args L, needed ps outs d -> call ps d args -> produces m infos b d L ->
  right_gradients (E d) L (map V args) (map (dims ps) args) (dims ps d).
Hypothesis BF : backend_fits ps m b.
Hypothesis LO : links_ok ps outs (produces m infos b).
Hypothesis EX : forall d args L, needed ps outs d -> call ps d args -> produces m infos b d L -> overwrites L = true -> exclusive ps outs d args.

Lemma layer_at_produces d L : produces m infos b d L -> layer_at m infos b d = Some L.
Proof.
  intros (j & op & L0 & li & H1 & <- & H3 & H4 & H5). unfold layer_at.
  rewrite (index_of_NoDup _ j (mo_ph op) (mf_ops _ _ _ _ MF)) by (rewrite nth_error_map, H1; reflexivity).
  rewrite H1, H3, H4, H5. reflexivity.
Qed.
Definition pv (d : nat) : list (list R) := match layer_at m infos b d with Some L => pvals L | None => [] end.

Lemma const_curve d L : produces m infos b d L -> pv d = pvals L /\ pcurve L (fun _ => pv d) 0 (fun _ _ => 0%R).
Proof.
  intros H. unfold pv. rewrite (layer_at_produces d L H). split; [reflexivity|]. apply pcurve_const.
Qed.

Lemma produced d L : produces m infos b d L -> exists args, needed ps outs d /\ call ps d args.
Proof. intros (j & op & _ & _ & H & <- & _). destruct (op_spec _ _ _ _ MF op (nth_error_In _ _ H)) as (args & _ & N & C & _). eauto. Qed.

Theorem model_gradients touts : shaped ps outs touts -> exists infos1 b1,
  model_forward E m infos (Some b) tins touts = Ret (infos1, Some b1, tins, map V outs) /\
  forall E2 gouts, shaped ps outs gouts -> exists infos2 b2 gouts',
    model_backward E2 m infos1 (Some b1) tins (map V outs) gouts = Ret (infos2, Some b2, gouts') /\
    forall op L key p, In op (m_ops m) -> produces m infos b (mo_ph op) L -> In key (param_names L) ->
      get_par infos (mo_info op, key) = Some p ->
      exists p2, get_par infos2 (mo_info op, key) = Some p2 /\ p_data p2 = p_data p /\ p_train p2 = p_train p /\
      forall e, e < tot (p_data p) -> exists Ov,
        (forall s touts, shaped ps outs touts -> exists i' b', model_forward E m (move_par infos (mo_info op, key) e s) (Some b) tins touts = Ret (i', Some b', tins, Ov s)) /\
        (forall s, shaped ps outs (Ov s)) /\
        derivable_pt_lim (fun s => objective gouts (Ov s)) 0 (tdat (p_grad p2)).[e].
Proof.
  intros SO. destruct (forward_evaluates ps ins outs m MF CL E V infos b tins touts BF SI SO EV LO) as (infos1 & b1 & HF & BF1 & _ & PR1 & _ & _ & _ & MV & F3).
  exists infos1, b1. split; [exact HF|]. intros E2 gouts SG.
  destruct (chain_rule ps ins outs m MF CL LB E V infos b tins SI EV VJP (fun d _ => pv d) (fun _ _ _ => 0%R) const_curve BF LO EX infos1 b1 E2 gouts (fun _ => infos) BF1 F3 MV)
    as (infos2 & ls2 & mem2 & gr2 & gouts' & HB & F3' & FR2 & LI2 & _).
  { intros _ d L PR. destruct (const_curve d L PR) as [-> _]. rewrite with_params_id. exact PR. }
  { intros _ d L PR. eauto. }
  { exact SG. }
  exists infos2, (mkB ls2 mem2 gr2), gouts'. split; [exact HB|].
  intros op L key p Hop PR HK HG. rewrite names_pkeys in HK.
  pose proof PR as (j & op' & L0 & li & J1 & J2 & J3 & J4 & J5).
  assert (op' = op) as ->. { apply In_nth_error in Hop. destruct Hop as (j' & Hj'). destruct (op_at_unique _ _ _ _ MF j j' op' op J1 Hj' J2); assumption. }
  clear J2. destruct (Forall3_nth _ _ _ _ F3) as (X1 & X2 & F). destruct (Forall3_nth _ _ _ _ F3') as (Y1 & Y2 & F').
  assert (Lj : j < length (m_ops m)) by (apply nth_error_Some; congruence).
  destruct (nth_error (b_layers b1) j) as [L1|] eqn:EL1; [|apply nth_error_None in EL1; lia].
  destruct (nth_error ls2 j) as [L3|] eqn:EL3; [|apply nth_error_None in EL3; lia].
  destruct (F j op L0 L1 J1 J3 EL1) as (L' & li' & args & A1 & A2 & A3 & A4 & A5).
  assert (li' = li) as -> by congruence. assert (L' = L) as -> by congruence.
  destruct (F' j op L1 L3 J1 EL1 EL3) as (Lf & li1 & C1 & C2 & C3 & C4 & C5 & C6 & _).
  assert (li1 = lstore L1 li) as -> by congruence.
  destruct (fresh_ok (E (mo_ph op)) (dims ps (mo_ph op))) as [f1 f2].
  destruct (lforward_kind _ _ _ _ _ _ (A4 _ (conj f1 f2))) as [K D].
  assert (Lf = L1) as -> by (rewrite (load_store _ _ _ _ J5 K) in C2; congruence).
  assert (KL : pkeys L3 = pkeys L) by (rewrite <- (pkeys_kind _ _ C4), <- (pkeys_kind _ _ K); reflexivity).
  pose proof (load_params _ _ _ (load_store _ _ _ _ C2 C4)) as LP3. rewrite KL in LP3. pose proof (load_params _ _ _ J5) as LP.
  apply In_nth_error in HK. destruct HK as (k & HK).
  assert (HP : nth_error (dparams L) k = Some p).
  { assert (Z : nth_error (map Some (dparams L)) k = Some (find_key (li_params li) key)) by (rewrite <- LP, nth_error_map, HK; reflexivity).
    unfold get_par in HG. cbn in HG. rewrite J4 in HG. rewrite HG, nth_error_map in Z. destruct (nth_error (dparams L) k); [|discriminate]. cbn in Z. congruence. }
  assert (HP3 : exists p2, nth_error (dparams L3) k = Some p2 /\ find_key (li_params (lstore L3 (lstore L1 li))) key = Some p2).
  { assert (Z : nth_error (map Some (dparams L3)) k = Some (find_key (li_params (lstore L3 (lstore L1 li))) key)) by (rewrite <- LP3, nth_error_map, HK; reflexivity).
    rewrite nth_error_map in Z. destruct (nth_error (dparams L3) k) as [p2|]; [|discriminate]. cbn in Z. exists p2. split; [reflexivity|]. congruence. }
  destruct HP3 as (p2 & HP3 & HF3).
  assert (DL : dparams L1 = lparams L1 /\ dparams L3 = lparams L3).
  { clear -HP D K C4. destruct L; destruct L1; cbn in K; try contradiction; destruct L3; cbn in C4; try contradiction; try (split; reflexivity). destruct k; discriminate HP. }
  destruct DL as [DL1 DL3]. rewrite <- DL1, <- DL3, D in C5, C6.
  assert (PD : p_data p2 = p_data p).
  { assert (Z : nth_error (map p_data (dparams L3)) k = nth_error (map p_data (dparams L)) k) by congruence. rewrite !nth_error_map, HP, HP3 in Z. cbn in Z. congruence. }
  assert (PT : p_train p2 = p_train p).
  { assert (Z : nth_error (map p_train (dparams L3)) k = nth_error (map p_train (dparams L)) k) by congruence. rewrite !nth_error_map, HP, HP3 in Z. cbn in Z. congruence. }
  exists p2. split; [unfold get_par; cbn; rewrite C3; exact HF3|]. split; [exact PD|]. split; [exact PT|].
  intros e He.
  set (Q := fun d s => if d =? mo_ph op then upd (pvals L) k (bump (nth k (pvals L) []) e s) else pv d).
  set (dQ := fun d k' i' => if d =? mo_ph op then (ind1 k k' * ind1 e i')%R else 0%R).
  assert (PC : forall d La, produces m infos b d La -> Q d 0%R = pvals La /\ pcurve La (Q d) 0 (dQ d)).
  { intros d La PRa. unfold Q, dQ. destruct (Nat.eqb_spec d (mo_ph op)) as [->|].
    - rewrite (produces_fun _ _ _ _ MF _ _ _ _ _ PRa PR). split; [rewrite bump_0; apply upd_same|]. eapply pcurve_bump, HP.
    - apply const_curve, PRa. }
  assert (MV1 : nth_error (move_par infos (mo_info op, key) e 0) (mo_info op) <> None -> True) by auto.
  assert (IC : forall s d La, produces m infos b d La -> produces m (move_par infos (mo_info op, key) e s) b d (with_params La (Q d s))).
  { intros s d La (ja & opa & L0a & lia & P1 & <- & P3 & P4 & P5). unfold move_par, on_par. cbn [fst snd]. unfold get_par in HG. cbn [fst snd] in HG. rewrite J4 in HG |- *. rewrite HG.
    destruct (Nat.eq_dec (mo_ph opa) (mo_ph op)) as [Eo|No].
    - destruct (op_at_unique _ _ _ _ MF ja j opa op P1 J1 Eo) as [-> ->]. assert (L0a = L0) as -> by congruence. assert (lia = li) as -> by congruence.
      assert (La = L) as -> by congruence. exists j, op, L0. eexists. split; [exact P1|]. split; [reflexivity|]. split; [exact P3|].
      split; [apply nth_error_upd_eq, nth_error_Some; congruence|]. unfold Q. rewrite Nat.eqb_refl. apply load_bump; assumption.
    - exists ja, opa, L0a, lia. split; [exact P1|]. split; [reflexivity|]. split; [exact P3|]. split.
      + rewrite nth_error_upd_neq; [exact P4|]. intros X. apply No. f_equal.
        assert (Lja : ja < length (m_ops m)) by (apply nth_error_Some; congruence).
        assert (Y : j = ja). { apply (proj1 (NoDup_nth_error (map mo_info (m_ops m))) (mf_infos _ _ _ _ MF)); [rewrite map_length; exact Lj|]. rewrite !nth_error_map, J1, P1. cbn. congruence. }
        congruence.
      + unfold Q. destruct (Nat.eqb_spec (mo_ph opa) (mo_ph op)); [congruence|].
        assert (PRa : produces m infos b (mo_ph opa) La) by (exists ja, opa, L0a, lia; auto).
        destruct (const_curve _ _ PRa) as [-> _]. rewrite with_params_id. exact P5. }
  destruct (chain_rule ps ins outs m MF CL LB E V infos b tins SI EV VJP Q dQ PC BF LO EX infos1 b1 E2 gouts (move_par infos (mo_info op, key) e) BF1 F3 MV IC)
    as (infos2' & ls2' & mem2' & gr2' & gouts2 & HB' & _ & _ & _ & Ov & OF & OS & OD).
  { intros s d La PRa. pose proof PRa as (ja & opa & _ & _ & P1 & <- & _). destruct (op_spec _ _ _ _ MF opa (nth_error_In _ _ P1)) as (argsa & _ & Na & Ca & _).
    destruct (proj2 EV _ _ Na Ca) as (Lb & PRb & _). exists Lb. split; [exact PRb|].
    rewrite (produces_fun _ _ _ _ MF _ _ _ _ _ PRa (IC s _ _ PRb)). apply with_params_tolerant. }
  { exact SG. }
  rewrite HB in HB'. injection HB' as <- <- <- <- <-. exists Ov. split; [exact OF|]. split; [exact OS|].
  eapply dl_eq; [exact OD|]. rewrite (psum_single dQ j op L3 (m_ops m) ls2 (mf_ops _ _ _ _ MF) J1 EL3).
  - assert (PV3 : pvals L3 = pvals L) by (unfold pvals; rewrite <- !(map_map p_data tdat); congruence).
    unfold pcon, dQ. rewrite Nat.eqb_refl.
    rewrite (rsum_ind2 _ (fun k0 => length (nth k0 (pvals L3) [])) k e (fun k0 i0 => (nth k0 (map (fun p => tdat (p_grad p)) (dparams L3)) []).[i0])).
    + f_equal. apply nth_error_nth. rewrite nth_error_map, HP3. reflexivity.
    + apply nth_error_Some. congruence.
    + rewrite PV3. unfold pvals. erewrite nth_error_nth; [|rewrite nth_error_map, HP; reflexivity]. exact He.
  - intros d k' i' Nd. unfold dQ. apply Nat.eqb_neq in Nd. rewrite Nd. reflexivity.
Qed.
End Gradient.
