(** Training sessions: forward, backward and whole sessions. *)
From Coq Require Import Reals String Lia Lra.
From Verif Require Import Base BaseFacts Sums M_Im2col S_Im2col M_Kernels M_Conv M_Layers M_Optim M_Nn M_Graph M_Model M_Backend M_Train S_Grad S_Partial S_Graph S_Run S_Fit S_Primed S_Optim S_Train
  P_Kernels P_Graph P_Graph2 P_Nn P_Model P_Model2 P_Run P_Fwd P_Load P_Fwd2 P_Partial P_Bwd P_Run2 P_Fit P_Safe P_Safe2 P_Train P_Train2 P_Optim P_Idem P_Idem2.
Open Scope nat_scope.

Lemma Forall3_intro {A B C} (P : A -> B -> C -> Prop) l1 : forall l2 l3, length l1 = length l2 -> length l1 = length l3 ->
  (forall i a b c, nth_error l1 i = Some a -> nth_error l2 i = Some b -> nth_error l3 i = Some c -> P a b c) -> Forall3 P l1 l2 l3.
Proof.
  induction l1 as [|a l1 IH]; intros [|b l2] [|c l3] E1 E2 H; try discriminate; constructor; [apply (H 0); reflexivity|].
  apply IH; [injection E1; auto|injection E2; auto|]. intros i x y z. apply (H (S i)).
Qed.
Lemma set_two {V} (l : list (string * V)) a b x y pa pb k p : find_key l a = Some pa -> find_key l b = Some pb -> find_key l k = Some p ->
  exists p', find_key (set_key (set_key l a x) b y) k = Some p' /\ (p' = p \/ (p = pa /\ p' = x) \/ (p = pb /\ p' = y)).
Proof.
  intros A B K. rewrite !find_set, A. destruct (String.eqb_spec b k) as [->|Nb].
  - rewrite B. exists y. split; [destruct (String.eqb a k); reflexivity|]. right. right. split; [congruence|reflexivity].
  - destruct (String.eqb_spec a k) as [->|Na]; [|exists p; auto]. exists x. split; [reflexivity|]. right. left. split; [congruence|reflexivity].
Qed.
Lemma store_par li L0 L L' k p : load li L0 = Ok L -> same_kind L L' -> find_key (li_params li) k = Some p ->
  exists p', find_key (li_params (lstore L' li)) k = Some p' /\
    (p' = p \/ exists i, nth_error (lparams L) i = Some p /\ nth_error (lparams L') i = Some p').
Proof.
  intros H K F.
  assert (TWO : forall a b x y pa pb, find_key (li_params li) a = Some pa -> find_key (li_params li) b = Some pb ->
    lparams L = [pa; pb] -> lparams L' = [x; y] -> li_params (lstore L' li) = set_key (set_key (li_params li) a x) b y ->
    exists p', find_key (li_params (lstore L' li)) k = Some p' /\ (p' = p \/ exists i, nth_error (lparams L) i = Some p /\ nth_error (lparams L') i = Some p')).
  { intros a b x y pa pb A B E1 E2 E3. rewrite E1, E2, E3. destruct (set_two _ _ _ x y _ _ k p A B F) as (p' & G & [->|[[-> ->]|[-> ->]]]); eexists; (split; [exact G|]).
    - left. reflexivity.
    - right. exists 0. split; reflexivity.
    - right. exists 1. split; reflexivity. }
  destruct L0; cbn in H; inv_ok H; injection H as <-; destruct L'; cbn in K; try contradiction; try (exists p; split; [exact F|left; reflexivity]); use_keys.
  3:{ cbn [lstore set_par li_params lparams]. rewrite find_set. destruct (String.eqb_spec "mask" k) as [<-|]; [|exists p; auto].
      rewrite F. eexists. split; [reflexivity|]. right. exists 0. split; [cbn; congruence|reflexivity]. }
  all: eapply TWO; cycle 2; [reflexivity|reflexivity|reflexivity|eassumption|eassumption].
Qed.

Lemma fits_lparams L inshs osh p : fits L inshs osh -> In p (lparams L) -> prm_ok (tsh (p_data p)) p.
Proof.
  intros F H. assert (K : forall sh q, prm_ok sh q -> prm_ok (tsh (p_data q)) q) by (intros sh q Q; pose proof Q as [-> _]; exact Q).
  destruct F; cbn in H; repeat (destruct H as [<-|H] || destruct H); eapply K; eassumption.
Qed.

Section Steps.
Variables (ps : list phnode) (ins outs : list nat) (m : model).
Hypothesis MF : mfacts ps ins outs m.
Hypothesis CL : closed ps ins outs.
Hypothesis LB : links_back ps.
Hypothesis VO : Forall (fun d => d < length ps) outs.
Hypothesis ND : NoDup (map fst (m_params m)).
Hypothesis RF : forall key r, In (key, r) (m_params m) -> exists op, In op (m_ops m) /\ fst r = mo_info op.

(** An operation ran: its layer and its description have changed together. *)
Definition ran_op (infos infos' : list linfo) (op : mop) (L0 L1 : layer) : Prop :=
  exists L li, nth_error infos (mo_info op) = Some li /\ load li L0 = Ok L /\ nth_error infos' (mo_info op) = Some (lstore L1 li) /\ same_kind L L1 /\
    Forall2 (fun p p' => prm_ok (tsh (p_data p)) p -> prm_ok (tsh (p_data p')) p' /\ tot (p_data p') = tot (p_data p)) (lparams L) (lparams L1) /\
    exists args, call ps (mo_ph op) args /\ primed L1 (map (dims ps) args) (dims ps (mo_ph op)).

Lemma needed_len d : needed ps outs d -> d < length ps.
Proof.
  induction 1 as [d Hd|d args a N IH C Ha].
  - rewrite Forall_forall in VO. apply VO, Hd.
  - pose proof (LB _ _ _ C Ha). lia.
Qed.

Lemma ran_get infos infos' ls ls' : Forall3 (ran_op infos infos') (m_ops m) ls ls' ->
  forall op k p, In op (m_ops m) -> get_par infos (mo_info op, k) = Some p -> prm_ok (tsh (p_data p)) p ->
  exists p', get_par infos' (mo_info op, k) = Some p' /\ prm_ok (tsh (p_data p')) p' /\ tot (p_data p') = tot (p_data p).
Proof.
  intros F3 op k p Hop G KP. destruct (Forall3_nth _ _ _ _ F3) as (X1 & X2 & F). apply In_nth_error in Hop. destruct Hop as (j & Hj).
  assert (Lj : j < length (m_ops m)) by (apply nth_error_Some; congruence).
  destruct (nth_error ls j) as [L0|] eqn:E0; [|apply nth_error_None in E0; lia]. destruct (nth_error ls' j) as [L1|] eqn:E1; [|apply nth_error_None in E1; lia].
  destruct (F j op L0 L1 Hj E0 E1) as (L & li & A1 & A2 & A3 & A4 & A5 & _). unfold get_par in *. cbn [fst snd] in *. rewrite A1 in G. rewrite A3.
  destruct (store_par _ _ _ _ _ _ A2 A4 G) as (p' & G' & [->|(i & I1 & I2)]).
  - exists p. auto.
  - exists p'. split; [exact G'|]. destruct (Forall2_at _ _ _ A5 i p I1) as (q & I2' & K). assert (q = p') by congruence. subst q. apply K, KP.
Qed.

Lemma ran_kinds infos infos' ls ls' : Forall3 (ran_op infos infos') (m_ops m) ls ls' -> Forall2 same_kind ls ls'.
Proof.
  generalize (m_ops m) as ops. intros ops F3. induction F3 as [|op L0 L1 ops l l' (L & li & _ & A2 & _ & A4 & _) _ IH]; constructor; [|exact IH].
  eapply same_kind_trans; [eapply load_kind; eassumption|exact A4].
Qed.

Lemma ran_usable infos infos' b ls' mem gr v ran : Forall3 (ran_op infos infos') (m_ops m) (b_layers b) ls' ->
  (forall i li', nth_error infos' i = Some li' -> exists li, nth_error infos i = Some li /\ map fst (li_params li') = map fst (li_params li)) ->
  backend_fits ps m (mkB ls' mem gr) -> usable ran ps outs m infos b -> usable true ps outs m infos' (mkB ls' mem gr) /\ (keeps m infos v -> keeps m infos' v).
Proof.
  intros F3 KB BF (_ & LA & SD & OW). pose proof (ran_get _ _ _ _ F3) as RG. split.
  - split; [exact BF|]. split; [|split].
    + intros d args Nd Ca. destruct (LA d args Nd Ca) as (L & (j & op & L0 & li & H1 & <- & H3 & H4 & H5) & G & TO).
      destruct (Forall3_nth _ _ _ _ F3) as (X1 & X2 & F). assert (Lj : j < length (m_ops m)) by (apply nth_error_Some; congruence).
      destruct (nth_error ls' j) as [L1|] eqn:E1; [|apply nth_error_None in E1; lia].
      destruct (F j op L0 L1 H1 H3 E1) as (L' & li' & A1 & A2 & A3 & A4 & A5 & args' & Ca' & PR).
      assert (li' = li) by congruence. subst li'. assert (L' = L) by congruence. subst L'. rewrite (call_fun ps _ _ _ Ca' Ca) in PR.
      exists L1. split; [exists j, op, L1, (lstore L1 li); repeat split; try assumption; exact (load_store _ _ _ _ H5 A4)|]. split; [exact PR|].
      rewrite <- (tolerant_kind _ _ A4). exact TO.
    + intros key r Hr. destruct (SD key r Hr) as (p & G & K). destruct (RF key r Hr) as (op & Hop & Er). destruct r as [i k]. cbn in Er. subst i.
      destruct (RG op k p Hop G K) as (p' & G' & K' & _). eauto.
    + intros op k p' Hop G. unfold get_par in G. cbn in G. destruct (nth_error infos' (mo_info op)) as [li'|] eqn:E; [|discriminate].
      destruct (KB _ _ E) as (li & E' & KE). assert (Hk : In k (map fst (li_params li))) by (rewrite <- KE; apply in_map_iff; exists (k, p'); split; [reflexivity|apply find_some_in, G]).
      apply in_map_iff in Hk. destruct Hk as ([k' q] & Ek & Hq). cbn in Ek. subst k'.
      destruct (find_key (li_params li) k) as [p|] eqn:FK; [|apply find_none in FK; destruct FK; apply in_map_iff; exists (k, q); auto].
      apply (OW op k p Hop). unfold get_par. cbn. rewrite E'. exact FK.
  - intros KV key r p' Hr G. destruct (SD key r Hr) as (p & G0 & K). destruct (RF key r Hr) as (op & Hop & Er). destruct r as [i k]. cbn in Er. subst i.
    destruct (RG op k p Hop G0 K) as (q & G' & _ & T). assert (q = p') by congruence. subst q. destruct (KV key _ p Hr G0) as (t & F & Tt). exists t. split; [exact F|congruence].
Qed.

Lemma args_shaped (V : nat -> ten) args d : call ps d args -> needed ps outs d -> (forall a, needed ps outs a -> ten_ok (dims ps a) (V a)) -> Forall2 ten_ok (map (dims ps) args) (map V args).
Proof.
  intros C N K. assert (Y : forall a, In a args -> ten_ok (dims ps a) (V a)) by (intros a Ha; apply K; eapply need_arg; eassumption).
  clear -Y. induction args as [|a t IH]; [constructor|]. constructor; [apply Y; left; reflexivity|apply IH; intros c Hc; apply Y; right; exact Hc].
Qed.

Lemma forward_usable ran E infos b xs os o : usable ran ps outs m infos b -> opt_fits m infos o -> (forall d, fair (E d)) -> shaped ps ins xs -> shaped ps outs os ->
  exists infos' b' xs' os', model_forward E m infos (Some b) xs os = Ret (infos', Some b', xs', os') /\ (usable true ps outs m infos' b' /\ opt_fits m infos' o) /\ Forall2 same_kind (b_layers b) (b_layers b').
Proof.
  intros U OF FE SI SO. pose proof U as (BF & LA & SD & OW).
  assert (LF : forall d args, needed ps outs d -> call ps d args -> exists L, produces m infos b d L /\ fits L (map (dims ps) args) (dims ps d)).
  { intros d args N C. destruct (LA d args N C) as (L & P & G & _). exists L. split; [exact P|]. destruct ran; [apply G|exact G]. }
  destruct (evaluation_exists ps ins outs m MF CL LB E infos b xs SI FE LF needed_len) as (V & EV & VT).
  assert (LO : links_ok ps outs (produces m infos b)).
  { intros d L P. pose proof P as (j & op & L0 & li & H1 & <- & _). destruct (op_spec _ _ _ _ MF op (nth_error_In _ _ H1)) as (args & k & N & C & _).
    destruct (LA _ _ N C) as (L' & P' & _ & T). rewrite (produces_fun _ _ _ _ MF _ _ _ _ _ P P'). exact T. }
  destruct (forward_evaluates ps ins outs m MF CL E V infos b xs os BF SI SO EV LO) as (infos' & b' & EF & BF' & BG & PR & PK & DS & FR & MV & F3).
  exists infos', b', xs, (map V outs). split; [exact EF|].
  assert (F3' : Forall3 (ran_op infos infos') (m_ops m) (b_layers b) (b_layers b')).
  { assert (K : forall op, In op (m_ops m) -> forall L0 L1, op_done ps E V infos infos' op L0 L1 -> produces m infos b (mo_ph op) (match load (match nth_error infos (mo_info op) with Some li => li | None => mkLI EmptyString EmptyString [] [] [] end) L0 with Ok L => L | _ => L0 end) -> ran_op infos infos' op L0 L1).
    { intros op Hop L0 L1 (L & li & args & A1 & A2 & A3 & A4 & A5) P. rewrite A1, A2 in P.
      destruct (op_spec _ _ _ _ MF op Hop) as (_ & _ & N & _). destruct (LF _ _ N A3) as (L' & P' & FL). rewrite (produces_fun _ _ _ _ MF _ _ _ _ _ P' P) in FL. clear L' P'.
      pose (o1 := mkT (dims ps (mo_ph op)) (tab (prodN (dims ps (mo_ph op))) (fun _ => 0%R))).
      assert (To : ten_ok (dims ps (mo_ph op)) o1) by (split; [reflexivity|unfold twf; cbn; apply tab_length]).
      pose proof (A4 o1 To) as FW. destruct (fits_primes _ _ _ _ _ _ _ _ FL (args_shaped V args _ A3 N VT) To (FE _) FW) as [PM _].
      destruct (lforward_kind _ _ _ _ _ _ FW) as [SK _]. destruct (lforward_flags _ _ _ _ _ _ FW) as [GE _].
      exists L, li. repeat (split; [assumption|]). split; [|exists args; split; assumption].
      apply Forall2_intro; [apply (f_equal (@length _)) in GE; rewrite !map_length in GE; congruence|].
      intros i p p' Hp Hp' KP. assert (KP' : prm_ok (tsh (p_data p')) p') by (apply (fits_lparams _ _ _ _ (proj1 PM)); eapply nth_error_In, Hp').
      split; [exact KP'|]. rewrite <- (prm_tot p KP), <- (prm_tot p' KP'). apply (f_equal (fun l => nth_error l i)) in GE. rewrite !nth_error_map, Hp, Hp' in GE. cbn in GE. congruence. }
    destruct (Forall3_nth _ _ _ _ F3) as (X1 & X2 & F). apply Forall3_intro; [congruence|congruence|].
    intros j op L0 L1 Hj H0 H1. pose proof (F j op L0 L1 Hj H0 H1) as D. apply (K op (nth_error_In _ _ Hj) L0 L1 D).
    destruct D as (L & li & args & A1 & A2 & _). rewrite A1, A2. exists j, op, L0, li. auto. }
  assert (KB : forall i li', nth_error infos' i = Some li' -> exists li, nth_error infos i = Some li /\ map fst (li_params li') = map fst (li_params li)).
  { intros i li' Hi. assert (LI : length infos = length infos') by (eapply Forall2_length'; exact DS).
    destruct (nth_error infos i) as [li|] eqn:E0; [|apply nth_error_None in E0; assert (i < length infos') by (apply nth_error_Some; congruence); lia].
    destruct (Forall2_at _ _ _ DS i li E0) as (li2 & E2 & _ & _ & _ & KE & _). assert (li2 = li') by congruence. subst li2. exists li. auto. }
  destruct b' as [ls' mem' gr']. cbn [b_layers] in F3'. split; [|exact (ran_kinds _ _ _ _ F3')].
  split; [apply (ran_usable infos infos' b ls' mem' gr' [] ran F3' KB BF' U)|].
  destruct o as [|? ? v|? ? ? ? ? [v1 v2]]; cbn in *; [exact I|apply (ran_usable infos infos' b ls' mem' gr' v ran F3' KB BF' U); exact OF|].
  destruct OF. split; [apply (ran_usable infos infos' b ls' mem' gr' v1 ran F3' KB BF' U)|apply (ran_usable infos infos' b ls' mem' gr' v2 ran F3' KB BF' U)]; assumption.
Qed.

Lemma backward_usable E infos b xs os gs o : usable true ps outs m infos b -> opt_fits m infos o -> shaped ps ins xs -> shaped ps outs os -> shaped ps outs gs ->
  exists infos' b' gs', model_backward E m infos (Some b) xs os gs = Ret (infos', Some b', gs') /\ (usable true ps outs m infos' b' /\ opt_fits m infos' o) /\ Forall2 same_kind (b_layers b) (b_layers b') /\
    shaped ps outs gs'.
Proof.
  intros U OF SI SO SG. pose proof U as (BF & LA & SD & OW). pose proof BF as (BL1 & BL2 & BL3 & BD).
  destruct (bind_all ps ins outs m MF CL b xs os BF SI SO) as ([m1 mem] & E1 & E2 & LM & HI & HO & HR). cbn [fst snd] in *.
  set (V := fun d => nth (num m d) mem empty_ten).
  assert (MT : forall d, needed ps outs d -> exists t, nth_error mem (num m d) = Some t /\ ten_ok (dims ps d) t).
  { intros d N. destruct (in_dec Nat.eq_dec d ins) as [Hi|Hi].
    - apply In_nth_error in Hi. destruct Hi as (k & Hk). destruct (Forall2_nth_error _ _ _ SI k d Hk) as (t & Ht & Tt). exists t. split; [exact (HI k d t Hk Ht)|exact Tt].
    - destruct (in_dec Nat.eq_dec d outs) as [Ho|Ho].
      + apply In_nth_error in Ho. destruct Ho as (k & Hk). destruct (Forall2_nth_error _ _ _ SO k d Hk) as (t & Ht & Tt). exists t. split; [exact (HO k d t Hk Ht)|exact Tt].
      + rewrite (HR d N Hi Ho). destruct (BD _ _ _ (data_at ps ins outs m MF d N)) as [X _]. apply X, storage_internal; assumption. }
  assert (MEM : forall d, needed ps outs d -> nth_error mem (num m d) = Some (V d)).
  { intros d N. destruct (MT d N) as (t & Ht & _). unfold V. rewrite (nth_error_nth _ _ empty_ten Ht). exact Ht. }
  assert (VT : forall d, needed ps outs d -> ten_ok (dims ps d) (V d)).
  { intros d N. destruct (MT d N) as (t & Ht & Tt). rewrite (MEM d N) in Ht. injection Ht as ->. exact Tt. }
  assert (AT : forall j op, nth_error (m_ops m) j = Some op -> exists L0 L li args, nth_error (b_layers b) j = Some L0 /\ nth_error infos (mo_info op) = Some li /\ load li L0 = Ok L /\
     needed ps outs (mo_ph op) /\ call ps (mo_ph op) args /\ primed L (map (dims ps) args) (dims ps (mo_ph op)) /\ (visits ps outs (mo_ph op) = 1 \/ tolerant L = true)).
  { intros j op Hj. destruct (op_spec _ _ _ _ MF op (nth_error_In _ _ Hj)) as (args & k & N & C & _). destruct (LA _ _ N C) as (L & (j' & op' & L0 & li & H1 & H2 & H3 & H4 & H5) & PR & TO).
    destruct (op_at_unique _ _ _ _ MF j' j op' op H1 Hj H2) as [-> ->]. exists L0, L, li, args. auto 10. }
  destruct (backward_runs ps ins outs m MF CL E V mem (fun _ _ => 0%R) (fun _ _ _ => 0%R) MEM false infos b xs os gs m1 BF E1 E2 SG) as (infos' & ls' & gr' & gs' & EB & GI & _ & F3 & LI & FR).
  { intros; reflexivity. }
  { apply Forall2_intro; [congruence|]. intros j op L0 Hj H0. destruct (AT j op Hj) as (L0' & L & li & args & H0' & A1 & A2 & N & C & PR & TO).
    assert (L0' = L0) by congruence. subst L0'. exists L, li, args. repeat (split; [assumption|]). split; [discriminate|].
    intros gm go GR. cbn [as_strict] in GR.
    destruct (primed_backward L _ _ (map V args) (V (mo_ph op)) (E (mo_ph op)) gm _ _ go PR (args_shaped V args _ C N VT) (VT _ N) GR) as (L2 & L3 & gm' & c & B1 & B2 & B3 & _).
    exists L2, L3, gm', c. repeat (split; [assumption|]). unfold inner, pcon. rewrite !rsum_zero; [ring| | |].
    - intros k _. apply rsum_zero. intros; ring.
    - intros k _. apply rsum_zero. intros; ring.
    - intros; ring. }
  exists infos', (mkB ls' mem gr'), gs'. split; [exact EB|]. destruct (Forall3_nth _ _ _ _ F3) as (X1 & X2 & F).
  assert (F3' : Forall3 (ran_op infos infos') (m_ops m) (b_layers b) ls').
  { apply Forall3_intro; [congruence|congruence|]. intros j op L0 L3 Hj H0 H3. destruct (F j op L0 L3 Hj H0 H3) as (Lf & li & A1 & A2 & A3 & A4 & A5 & A6 & A7).
    destruct (AT j op Hj) as (L0' & L & li' & args & H0' & A1' & A2' & N & C & PR & TO). assert (L0' = L0) by congruence. subst L0'.
    assert (li' = li) by congruence. subst li'. assert (L = Lf) by congruence. subst L. pose proof (primed_ran _ _ _ _ PR A7) as PR3.
    exists Lf, li. repeat (split; [assumption|]). split; [|exists args; split; assumption].
    apply Forall2_intro; [apply (f_equal (@length _)) in A5; rewrite !map_length in A5; congruence|].
    intros i p p' Hp Hp' KP. split; [apply (fits_lparams _ _ _ _ (proj1 PR3)); eapply nth_error_In, Hp'|].
    apply (f_equal (fun l => nth_error l i)) in A5. rewrite !nth_error_map, Hp, Hp' in A5. cbn in A5. congruence. }
  assert (KB : forall i li', nth_error infos' i = Some li' -> exists li, nth_error infos i = Some li /\ map fst (li_params li') = map fst (li_params li)).
  { intros i li' Hi. destruct (in_dec Nat.eq_dec i (map mo_info (m_ops m))) as [X|X].
    - apply in_map_iff in X. destruct X as (op & <- & Hop). apply In_nth_error in Hop. destruct Hop as (j & Hj).
      destruct (AT j op Hj) as (L0 & L & li & args & H0 & A1 & A2 & _). assert (Lj : j < length (m_ops m)) by (apply nth_error_Some; congruence).
      destruct (nth_error ls' j) as [L3|] eqn:H3; [|apply nth_error_None in H3; lia].
      destruct (F j op L0 L3 Hj H0 H3) as (Lf & li2 & B1 & B2 & B3 & _). assert (li2 = li) by congruence. subst li2. exists li. split; [exact A1|].
      rewrite B3 in Hi. injection Hi as <-. apply store_keys.
    - rewrite FR in Hi by exact X. eauto. }
  destruct GI as (GL & GS & _).
  assert (BF' : backend_fits ps m (mkB ls' mem gr')).
  { split; [cbn; congruence|]. split; [exact LM|]. split; [exact GL|]. cbn. intros i d s H.
    assert (N : needed ps outs d) by (apply (mf_data _ _ _ _ MF), in_map_iff; exists (d, s); split; [reflexivity|eapply nth_error_In, H]).
    assert (num m d = i) as <- by (apply (num_of _ _ _ _ MF); rewrite nth_error_map, H; reflexivity). split; intros _; [apply MT, N|apply GS, N]. }
  split; [|split; [exact (ran_kinds _ _ _ _ F3')|]].
  2:{ destruct (backward_inv m E infos b xs os gs _ (or_introl EB)) as [[_ X]|(ii & oi & M1 & mem' & gr & i2 & ls2 & gr2 & g2 & I1 & I2 & _ & _ & _ & EX & UB & _)]; [congruence|].
      injection EX as <- <- <- <- <-. rewrite (mf_out _ _ _ _ MF), (ids_num ps ins outs m MF outs) in I2 by (intros; apply need_out; assumption). injection I2 as <-.
      assert (K : forall d, In d outs -> exists g, nth_error gr' (num m d) = Some g /\ ten_ok (dims ps d) g) by (intros d Hd; apply GS, need_out, Hd).
      destruct CL as (_ & NO & _). assert (NDn : NoDup (map (num m) outs)) by (apply (NoDup_num ps ins outs m MF); [exact NO|intros; apply need_out; assumption]).
      assert (X : exists us, Forall2 (fun i u => nth_error gr' i = Some u) (map (num m) outs) us /\ shaped ps outs us).
      { clear -K. induction outs as [|d t IH]; cbn; [exists []; split; constructor|]. destruct IH as (us & H1 & H2); [intros x Hx; apply K; right; exact Hx|].
        destruct (K d (or_introl eq_refl)) as (g & Hg & Tg). exists (g :: us). split; constructor; assumption. }
      destruct X as (us & H1 & H2).
      rewrite (unbind_Ok (map (num m) outs) [] gr' gs) with (us := us) in UB; [injection UB as <-; exact H2|exact NDn|intros i _ []|rewrite map_length; symmetry; apply (Forall2_len _ _ _ SG)|exact H1]. }
  split; [apply (ran_usable infos infos' b ls' mem gr' [] true F3' KB BF' U)|].
  destruct o as [|? ? v|? ? ? ? ? [v1 v2]]; cbn in *; [exact I|apply (ran_usable infos infos' b ls' mem gr' v true F3' KB BF' U); exact OF|].
  destruct OF. split; [apply (ran_usable infos infos' b ls' mem gr' v1 true F3' KB BF' U)|apply (ran_usable infos infos' b ls' mem gr' v2 true F3' KB BF' U)]; assumption.
Qed.

Lemma set_lr_fits infos r o : opt_fits m infos o -> opt_fits m infos (set_lr r o).
Proof. destruct o as [|? ? v|? ? ? ? ? [v1 v2]]; exact (fun H => H). Qed.

Theorem session_runs : forall cs ran infos b o, usable ran ps outs m infos b -> opt_fits m infos o -> legal ps ins outs ran cs ->
  exists infos' b' o', tacts m cs (mkTS infos (Some b) o) = Ret (mkTS infos' (Some b') o') /\ usable (ever_ran ran cs) ps outs m infos' b' /\ opt_fits m infos' o'.
Proof.
  induction cs as [|c cs IH]; intros ran infos b o U OF LG; cbn [tacts].
  - exists infos, b, o. split; [reflexivity|]. unfold ever_ran. cbn. rewrite Bool.orb_false_r. auto.
  - destruct c as [E xs os|E xs os gs|mode| |r]; cbn [legal] in LG; cbn [tact ts_info ts_backend ts_opt].
    + destruct LG as (FE & SI & SO & LG). destruct (forward_usable ran E infos b xs os o U OF FE SI SO) as (i1 & b1 & x1 & o1 & -> & (U1 & OF1) & _).
      destruct (IH true i1 b1 o U1 OF1 LG) as (i2 & b2 & o2 & R). exists i2, b2, o2. unfold ever_ran in *. cbn [existsb]. rewrite Bool.orb_true_r. exact R.
    + destruct LG as (-> & SI & SO & SG & LG). destruct (backward_usable E infos b xs os gs o U OF SI SO SG) as (i1 & b1 & g1 & -> & (U1 & OF1) & _).
      exact (IH true i1 b1 o U1 OF1 LG).
    + pose proof (train_moved m ND mode infos (proj2 (proj2 (proj2 U)))) as M.
      apply (IH ran _ b o); [eapply moved_usable; eassumption|eapply opt_moved; eassumption|exact LG].
    + destruct (step_moved m ND RF infos o (proj1 (proj2 (proj2 U))) OF) as (i1 & o1 & -> & M & OF1).
      apply (IH ran i1 b o1); [eapply moved_usable; eassumption|eapply opt_moved; eassumption|exact LG].
    + apply (IH ran infos b (set_lr r o)); [exact U|apply set_lr_fits; exact OF|exact LG].
Qed.
End Steps.
