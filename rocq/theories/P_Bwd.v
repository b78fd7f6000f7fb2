(** Model::backward: the sum rule over the graph. *)
From Coq Require Import Reals String Lia Lra.
From Verif Require Import Base BaseFacts Sums Deriv M_Layers M_Kernels M_Optim M_Nn M_Graph M_Model M_Backend S_Grad S_Partial S_Graph S_Run
  P_Graph P_Graph2 P_Nn P_Model P_Model2 P_Run P_Fwd P_Load P_Fwd2 P_Partial.
Open Scope nat_scope.

(** ** Layers that ignore extra tensors *)
Lemma lupdate_extra E L ins go x y r : tolerant L = true -> lupdate E L ins [go] = Ok r -> lupdate E L (ins ++ x) (go :: y) = Ok r.
Proof. destruct L; cbn [tolerant]; try discriminate; intros _ H; cbn in *; exact H. Qed.

Lemma front_app {V} (l x : list V) v : front l = Ok v -> front (l ++ x) = Ok v.
Proof. destruct l; cbn; [discriminate|auto]. Qed.
Lemma at_app {V} (l x : list V) i v : at_ l i = Ok v -> at_ (l ++ x) i = Ok v.
Proof.
  unfold at_. destruct (nth_error l i) eqn:E; [|discriminate]. intros H. rewrite nth_error_app1; [rewrite E; exact H|].
  apply nth_error_Some. congruence.
Qed.
Lemma on_grad_app gm ids x f r : on_grad gm ids f = Ok r -> on_grad gm (ids ++ x) f = Ok r.
Proof. unfold on_grad. destruct ids; cbn; [discriminate|auto]. Qed.

Lemma lbackward_extra E L ins o gm gi k x y xs ys r : tolerant L = true -> lbackward E L ins [o] gm gi [k] = Ok r ->
  lbackward E L (ins ++ x) (o :: y) gm (gi ++ xs) (k :: ys) = Ok r.
Proof.
  destruct L; cbn [tolerant]; try discriminate; intros _ H; destruct gi as [|g1 [|g2 gt]]; try exact H;
    cbn [lbackward on_grad front at_ rd nth_error bind app] in *; inv_ok H; repeat match goal with p : (_ * _)%type |- _ => destruct p end; inv_ok H; try discriminate H.
Qed.

Lemma lupdate_flags E L ins gouts L' : lupdate E L ins gouts = Ok L' ->
  map p_train (lparams L') = map p_train (lparams L) /\ map p_data (lparams L') = map p_data (lparams L).
Proof.
  intros H. destruct L; cbn in H; inv_ok H; repeat match goal with p : (_ * _)%type |- _ => destruct p end; inv_ok H;
    try (injection H as <-; cbn; auto; fail).
Qed.

(** ** The sum over the data nodes still to be processed *)
Section Sum.
Variables (sz : nat -> nat) (dW : nat -> nat -> R) (data : list nat).
Hypothesis ND : NoDup data.
Definition inner (d : nat) (g : ten) : R := rsum (sz d) (fun i => ((tdat g).[i] * dW d i)%R).
Definition pend (gm : list ten) (done : list nat) : R :=
  rsum (length data) (fun n => if memb (nth n data O) done then 0%R else inner (nth n data O) (nth n gm empty_ten)).

Lemma pend_take gm done d n : nth_error data n = Some d -> ~ In d done ->
  pend gm done = (inner d (nth n gm empty_ten) + pend gm (d :: done))%R.
Proof.
  intros Hn Nd. unfold pend.
  assert (Ln : n < length data) by (apply nth_error_Some; congruence). pose proof (nth_error_nth _ _ 0 Hn) as Dn.
  rewrite (rsum_ext _ _ (fun j => (if (j =? n)%nat then inner d (nth n gm empty_ten) else 0) +
      (if memb (nth j data O) (d :: done) then 0 else inner (nth j data O) (nth j gm empty_ten)))%R).
  - rewrite rsum_plus. f_equal. rewrite (rsum_single _ n); [rewrite Nat.eqb_refl; reflexivity|exact Ln|].
    intros i _ Hi. apply Nat.eqb_neq in Hi. rewrite Hi. reflexivity.
  - intros j Hj. destruct (Nat.eqb_spec j n) as [->|Nj].
    + rewrite Dn, (memb_false _ _ Nd). rewrite (proj2 (memb_In d (d :: done))) by (left; reflexivity). lra.
    + assert (X : nth j data 0 <> d).
      { intros X. apply Nj. apply (proj1 (NoDup_nth data O) ND); [exact Hj|exact Ln|congruence]. }
      destruct (memb (nth j data O) done) eqn:M.
      * apply memb_In in M. rewrite (proj2 (memb_In _ (d :: done))) by (right; exact M). lra.
      * rewrite memb_false; [lra|]. intros [Y|Y]; [congruence|]. apply memb_In in Y. congruence.
Qed.

Lemma pend_accum gm gm' done args ids c : Forall2 (fun a n => nth_error data n = Some a) args ids -> (forall a, In a args -> ~ In a done) ->
  length gm = length data -> (forall n, n < length data -> tot (nth n gm empty_ten) = sz (nth n data O)) -> accum gm ids c gm' ->
  pend gm' done = (pend gm done + rsum (length args) (fun p => rsum (sz (nth p args O)) (fun i => c p i * dW (nth p args O) i)))%R.
Proof.
  intros FA NA LG SZ [_ AC]. pose proof (Forall2_len _ _ _ FA) as LI. unfold pend.
  assert (PN : forall p, p < length args -> nth_error data (nth p ids O) = Some (nth p args O)).
  { intros p Hp. destruct (Forall2_nth_error _ _ _ FA p (nth p args O)) as (n & Hn & X); [apply List.nth_error_nth'; exact Hp|].
    rewrite (nth_error_nth _ _ 0 Hn). exact X. }
  rewrite (rsum_ext _ _ (fun n => (if memb (nth n data O) done then 0 else inner (nth n data O) (nth n gm empty_ten)) +
     rsum (length args) (fun p => if (nth p ids O =? n)%nat then rsum (sz (nth p args O)) (fun i => c p i * dW (nth p args O) i) else 0))%R).
  - rewrite rsum_plus. f_equal. rewrite rsum_swap. apply rsum_ext. intros p Hp.
    rewrite (rsum_single _ (nth p ids O)); [rewrite Nat.eqb_refl; reflexivity|apply nth_error_Some; rewrite (PN p Hp); discriminate|].
    intros i _ Hi. destruct (Nat.eqb_spec (nth p ids O) i); [congruence|reflexivity].
  - intros n Hn. destruct (nth_error gm n) as [g|] eqn:Eg; [|apply nth_error_None in Eg; lia].
    destruct (AC n g Eg) as (g' & Eg' & _ & TG & VG). rewrite (nth_error_nth _ _ empty_ten Eg), (nth_error_nth _ _ empty_ten Eg').
    assert (TS : tot g = sz (nth n data O)) by (rewrite <- (SZ n Hn), (nth_error_nth _ _ empty_ten Eg); reflexivity).
    destruct (memb (nth n data O) done) eqn:M.
    + rewrite rsum_zero; [lra|]. intros p Hp. destruct (Nat.eqb_spec (nth p ids O) n) as [X|]; [|reflexivity]. exfalso.
      apply memb_In in M. apply (NA (nth p args O)); [apply nth_In, Hp|]. pose proof (PN p Hp) as Y. rewrite X in Y.
      rewrite (nth_error_nth _ _ 0 Y) in M. exact M.
    + unfold inner. rewrite (rsum_ext _ _ (fun i => (tdat g).[i] * dW (nth n data O) i +
        rsum (length args) (fun p => (if (nth p ids O =? n)%nat then c p i * dW (nth n data O) i else 0)))%R).
      * rewrite rsum_plus. f_equal. rewrite rsum_swap. apply rsum_ext. intros p Hp. destruct (Nat.eqb_spec (nth p ids O) n) as [X|]; [|apply rsum_0].
        pose proof (PN p Hp) as Y. rewrite X in Y. rewrite (nth_error_nth _ _ 0 Y). reflexivity.
      * intros i Hi. rewrite VG by lia. rewrite Rmult_plus_distr_r. f_equal. rewrite <- rsum_scal_r. rewrite LI. apply rsum_ext. intros p _.
        destruct (nth p ids O =? n); ring.
Qed.
End Sum.

(** The parameters' share of the derivative. *)
Definition pcon (dP : nat -> nat -> R) (L : layer) : R :=
  rsum (length (dparams L)) (fun k => rsum (length (nth k (pvals L) [])) (fun i =>
    ((nth k (map (fun p => tdat (p_grad p)) (dparams L)) []).[i] * dP k i)%R)).
Fixpoint psum (dP : nat -> nat -> nat -> R) (ops : list mop) (ls : list layer) : R :=
  match ops, ls with op :: ot, L :: lt => (pcon (dP (mo_ph op)) L + psum dP ot lt)%R | _, _ => 0%R end.

Section Backward.
Variables (ps : list phnode) (ins outs : list nat) (m : model).
Hypothesis MF : mfacts ps ins outs m.
Hypothesis CL : closed ps ins outs.
Hypothesis LB : links_back ps.
Variables (E2 : nat -> env) (V : nat -> ten) (mem : list ten) (dW : nat -> nat -> R) (dP : nat -> nat -> nat -> R).
Hypothesis MEM : forall d, needed ps outs d -> nth_error mem (num m d) = Some (V d).
Let sz := fun d => prodN (dims ps d).
Let data := map fst (m_data m).
(** Whether layers that overwrite the gradient of their input need it to be zero beforehand. *)
Variable strict : bool.
Definition as_strict (L : layer) : layer := if strict then L else LReLU.

Definition grad_inv (gr : list ten) (post : list mop) : Prop :=
  length gr = length (m_data m) /\
  (forall d, needed ps outs d -> exists g, nth_error gr (num m d) = Some g /\ ten_ok (dims ps d) g) /\
  (forall a, needed ps outs a -> ~ In a outs -> (forall op args, In op post -> call ps (mo_ph op) args -> ~ In a args) ->
     all_zero (nth (num m a) gr empty_ten)).

Definition op_back (infos : list linfo) (op : mop) (L1 : layer) : Prop :=
  exists Lf li args, nth_error infos (mo_info op) = Some li /\ load li L1 = Ok Lf /\ call ps (mo_ph op) args /\
    (visits ps outs (mo_ph op) = 1 \/ tolerant Lf = true) /\
    (overwrites (as_strict Lf) = true -> forall a, In a args -> ~ In a outs /\ forall d' args', needed ps outs d' -> call ps d' args' -> In a args' -> d' = mo_ph op) /\
    forall gm go, grads_ready (as_strict Lf) (map (dims ps) args) (dims ps (mo_ph op)) gm (map (num m) args) (num m (mo_ph op)) go ->
    exists L2 L3 gm' c, lupdate (E2 (mo_ph op)) Lf (map V args) [go] = Ok L2 /\
      lbackward (E2 (mo_ph op)) L2 (map V args) [V (mo_ph op)] gm (map (num m) args) [num m (mo_ph op)] = Ok (L3, gm') /\
      accum gm (map (num m) args) c gm' /\
      inner sz dW (mo_ph op) go =
      (rsum (length args) (fun p => rsum (sz (nth p args O)) (fun i => c p i * dW (nth p args O) i)) + pcon (dP (mo_ph op)) L3)%R.

(** The state of a layer after updateGradients and backward. *)
Definition ran_back (Lf L3 : layer) : Prop :=
  exists E xs gos os gm gi go gm' L2, lupdate E Lf xs gos = Ok L2 /\ lbackward E L2 xs os gm gi go = Ok (L3, gm').

Definition op_bdone (infos infos' : list linfo) (op : mop) (L1 L3 : layer) : Prop :=
  exists Lf li, nth_error infos (mo_info op) = Some li /\ load li L1 = Ok Lf /\ nth_error infos' (mo_info op) = Some (lstore L3 li) /\
    same_kind Lf L3 /\ map p_data (lparams L3) = map p_data (lparams Lf) /\ map p_train (lparams L3) = map p_train (lparams Lf) /\ ran_back Lf L3.

Lemma dims_nth args p : p < length args -> nth p (map (dims ps) args) [] = dims ps (nth p args 0).
Proof. intros H. rewrite (nth_indep _ [] (dims ps 0)) by (rewrite map_length; exact H). apply map_nth. Qed.
Lemma num_nth args p : p < length args -> nth p (map (num m) args) 0 = num m (nth p args 0).
Proof. intros H. rewrite (nth_indep _ 0 (num m 0)) by (rewrite map_length; exact H). apply map_nth. Qed.

Lemma bwd_run : forall post pre infos ls gr,
  m_ops m = pre ++ post -> Forall2 (op_back infos) post ls -> grad_inv gr [] ->
  exists infos' ls' gr', bwd_ops E2 mem post ls infos gr = Ret (infos', ls', gr') /\ grad_inv gr' post /\
    pend sz dW data gr [] = (psum dP post ls' + pend sz dW data gr' (map mo_ph post))%R /\
    Forall3 (op_bdone infos infos') post ls ls' /\ length infos' = length infos /\
    (forall i, ~ In i (map mo_info post) -> nth_error infos' i = nth_error infos i).
Proof.
  induction post as [|op post IH]; intros pre infos ls gr EO R GI.
  - inversion R; subst. exists infos, [], gr. cbn. repeat (split; [first [reflexivity|assumption|constructor|lra]|]). intros; reflexivity.
  - inversion R as [|? L1 ? lt RO RT]; subst.
    destruct (IH (pre ++ [op]) infos lt gr) as (infos' & ls' & gr' & ER & (GL & GS & GZ) & EQ & F3 & LI & FR); [rewrite <- app_assoc; exact EO|exact RT|exact GI|].
    destruct RO as (Lf & li & args & Hli & HL & HC & HV & HO & HB).
    assert (Hop : In op (m_ops m)) by (rewrite EO; apply in_or_app; right; left; reflexivity).
    destruct (op_spec _ _ _ _ MF op Hop) as (args' & k & N & C' & VI & EI & EOut & NA).
    rewrite (call_fun ps _ _ _ C' HC) in *. clear args' C'.
    pose proof (mf_ops _ _ _ _ MF) as NDO. rewrite EO, map_app in NDO. cbn in NDO.
    assert (NOp : ~ In (mo_ph op) (map mo_ph post)).
    { apply NoDup_remove_2 in NDO. intros X. apply NDO, in_or_app. right. exact X. }
    assert (NAp : forall a, In a args -> ~ In a (mo_ph op :: map mo_ph post)).
    { intros a Ha X. assert (Y : In a (map mo_ph pre)).
      { eapply (mf_order _ _ _ _ MF); [exact EO|exact HC|exact Ha|].
        assert (Z : exists o, In o (m_ops m) /\ mo_ph o = a).
        { destruct X as [X|X]; [exists op; auto|]. apply in_map_iff in X. destruct X as (o & <- & Ho). exists o. split; [|reflexivity].
          rewrite EO. apply in_or_app. right. right. exact Ho. }
        destruct Z as (o & Ho & <-). destruct (op_spec _ _ _ _ MF o Ho) as (x & _ & _ & Cx & _). eauto. }
      clear -NDO X Y. induction (map mo_ph pre) as [|z t IHt]; [destruct Y|]. cbn in NDO. inversion NDO as [|? ? N1 N2]; subst.
      destruct Y as [<-|Y]; [|exact (IHt N2 Y)]. apply N1, in_or_app. right. exact X. }
    pose proof (mf_infos _ _ _ _ MF) as NDI. rewrite EO, map_app in NDI. cbn in NDI.
    assert (NIp : ~ In (mo_info op) (map mo_info post)).
    { apply NoDup_remove_2 in NDI. intros X. apply NDI, in_or_app. right. exact X. }
    assert (Hli' : nth_error infos' (mo_info op) = Some li) by (rewrite FR by exact NIp; exact Hli).
    destruct (GS _ N) as (go & Hgo & Tgo).
    assert (GR : grads_ready (as_strict Lf) (map (dims ps) args) (dims ps (mo_ph op)) gr' (map (num m) args) (num m (mo_ph op)) go).
    { split; [exact Hgo|]. split; [apply Tgo|]. split; [apply Tgo|]. split; [rewrite !map_length; reflexivity|]. split.
      - intros X. apply in_map_iff in X. destruct X as (a & Ea & Ha). apply (NAp a Ha). left.
        eapply num_inj; [exact MF|exact N|apply NA, Ha|congruence].
      - intros p Hp. rewrite map_length in Hp. rewrite (num_nth _ _ Hp), (dims_nth _ _ Hp).
        assert (Ha : In (nth p args 0) args) by (apply nth_In, Hp). destruct (GS _ (NA _ Ha)) as (g & Hg & Tg).
        exists g. split; [exact Hg|]. split; [apply Tg|]. split; [apply Tg|]. intros OV. destruct (HO OV _ Ha) as [O1 O2].
        rewrite <- (nth_error_nth _ _ empty_ten Hg). apply GZ; [apply NA, Ha|exact O1|].
        intros o x Ho Cx Hx. assert (Y : mo_ph o = mo_ph op).
        { apply (O2 (mo_ph o) x); [|exact Cx|exact Hx].
          destruct (op_spec _ _ _ _ MF o) as (? & ? & No & _); [rewrite EO; apply in_or_app; right; right; exact Ho|exact No]. }
        apply NOp. rewrite <- Y. apply in_map, Ho. }
    destruct (HB gr' go GR) as (L2 & L3 & gm' & c & EU & EB & AC & ID).
    assert (LM : length mem > 0).
    { pose proof (MEM _ N) as X. assert (num m (mo_ph op) < length mem) by (apply nth_error_Some; congruence). lia. }
    destruct (nth_error mem 0) as [z|] eqn:Z; [|apply nth_error_None in Z; lia].
    assert (LG : 0 < length gr').
    { assert (num m (mo_ph op) < length gr') by (apply nth_error_Some; congruence). lia. }
    destruct (nth_error gr' 0) as [gz|] eqn:ZG; [|apply nth_error_None in ZG; lia].
    assert (XZ : forall (l : list ten) u j, nth_error l 0 = Some u -> Forall2 (fun i t => nth_error l i = Some t) (repeat 0 j) (repeat u j)).
    { intros l u j Hu. induction j; cbn; constructor; assumption. }
    assert (XM : Forall2 (fun i t => nth_error mem i = Some t) (map (num m) args) (map V args)).
    { assert (K : forall a, In a args -> nth_error mem (num m a) = Some (V a)) by (intros a Ha; apply MEM, NA, Ha).
      clear -K. induction args as [|a t IH]; cbn; constructor; [apply K; left; reflexivity|apply IH; intros x Hx; apply K; right; exact Hx]. }
    assert (XG : exists gs, Forall2 (fun i t => nth_error gr' i = Some t) (map (num m) args) gs).
    { assert (K : forall a, In a args -> exists g, nth_error gr' (num m a) = Some g) by (intros a Ha; destruct (GS _ (NA a Ha)) as (g & Hg & _); eauto).
      clear -K. induction args as [|a t IH]; cbn; [exists []; constructor|]. destruct IH as (gs & Hgs); [intros x Hx; apply K; right; exact Hx|].
      destruct (K a (or_introl eq_refl)) as (g & Hg). exists (g :: gs). constructor; assumption. }
    destruct XG as (gs & XG).
    destruct (lupdate_kind _ _ _ _ _ EU) as [K2 D2]. destruct (lbackward_kind _ _ _ _ _ _ _ _ _ EB) as [K3 D3].
    destruct (lupdate_flags _ _ _ _ _ EU) as [T2 DD2].
    assert (ES : bwd_step (E2 (mo_ph op)) mem op L1 infos' gr' = Ret (upd infos' (mo_info op) (lstore L3 li), L3, gm')).
    { unfold bwd_step. rewrite EI, EOut.
      rewrite (extract_Ok gr' _ (gs ++ repeat gz (k * length args))) by (apply Forall2_app; [exact XG|apply XZ, ZG]). cbn [bind].
      rewrite (extract_Ok mem _ (map V args ++ repeat z (k * length args))) by (apply Forall2_app; [exact XM|apply XZ, Z]). cbn [bind].
      rewrite (extract_Ok mem _ (V (mo_ph op) :: repeat z k)) by (constructor; [apply MEM, N|apply XZ, Z]). cbn [bind].
      rewrite (extract_Ok gr' _ (go :: repeat gz k)) by (constructor; [exact Hgo|apply XZ, ZG]). cbn [bind].
      rewrite rd_nth, Hli'. cbn [bind]. rewrite HL. cbn [bind lift].
      assert (EU' : lupdate (E2 (mo_ph op)) Lf (map V args ++ repeat z (k * length args)) (go :: repeat gz k) = Ok L2 /\
                    lbackward (E2 (mo_ph op)) L2 (map V args ++ repeat z (k * length args)) (V (mo_ph op) :: repeat z k) gr'
                      (map (num m) args ++ repeat 0 (k * length args)) (num m (mo_ph op) :: repeat 0 k) = Ok (L3, gm')).
      { destruct HV as [HV|HV].
        - assert (k = 0) as -> by lia. cbn. rewrite !app_nil_r. split; assumption.
        - split; [apply lupdate_extra; assumption|]. apply lbackward_extra; [|exact EB]. clear -HV K2. destruct Lf, L2; cbn in *; congruence || contradiction. }
      destruct EU' as [EU' EB']. rewrite EU'. cbn [lift]. rewrite EB'. reflexivity. }
    exists (upd infos' (mo_info op) (lstore L3 li)), (L3 :: ls'), gm'.
    assert (Li : mo_info op < length infos') by (apply nth_error_Some; congruence).
    destruct AC as [ACL ACV].
    assert (FA : Forall2 (fun a n => nth_error data n = Some a) args (map (num m) args)).
    { assert (K : forall a, In a args -> nth_error data (num m a) = Some a) by (intros a Ha; apply (id_num _ _ _ _ MF), NA, Ha).
      clear -K. induction args as [|a t IH]; cbn; constructor; [apply K; left; reflexivity|apply IH; intros x Hx; apply K; right; exact Hx]. }
    assert (LD : length data = length (m_data m)) by apply map_length.
    split; [|split; [|split; [|split; [|split]]]].
    + cbn [bwd_ops]. rewrite ER, ES. reflexivity.
    + split; [congruence|]. split.
      * intros d Nd. destruct (GS d Nd) as (g & Hg & Sg & Wg). destruct (ACV _ _ Hg) as (g' & Hg' & S' & T' & _). exists g'. split; [exact Hg'|].
        split; [congruence|]. unfold twf, tot in *. congruence.
      * intros a Na Oa Ua. destruct (GS a Na) as (g & Hg & Tg). destruct (ACV _ _ Hg) as (g' & Hg' & S' & T' & V').
        assert (Zg : all_zero g). { rewrite <- (nth_error_nth _ _ empty_ten Hg). apply GZ; [exact Na|exact Oa|]. intros o x Ho. apply Ua. right. exact Ho. }
        rewrite (nth_error_nth _ _ empty_ten Hg'). intros i Hi. rewrite T' in Hi. rewrite V' by exact Hi. rewrite (Zg i Hi), rsum_zero; [lra|].
        intros p Hp. rewrite map_length in Hp. rewrite (num_nth _ _ Hp). destruct (Nat.eqb_spec (num m (nth p args 0)) (num m a)) as [X|]; [|reflexivity].
        exfalso. assert (Ha : In (nth p args 0) args) by (apply nth_In, Hp).
        apply (Ua op args (or_introl eq_refl) HC). rewrite <- (num_inj _ _ _ _ MF _ _ (NA _ Ha) Na X). exact Ha.
    + rewrite EQ. cbn [psum map].
      rewrite (pend_take sz dW data (mf_nodup _ _ _ _ MF) gr' (map mo_ph post) (mo_ph op) (num m (mo_ph op))); [|apply (id_num _ _ _ _ MF), N|exact NOp].
      rewrite (nth_error_nth _ _ empty_ten Hgo), ID.
      rewrite (pend_accum sz dW data gr' gm' (mo_ph op :: map mo_ph post) args (map (num m) args) c FA NAp); [lra|congruence| |split; assumption].
      intros n Hn. destruct (nth_error data n) as [d|] eqn:En; [|apply nth_error_None in En; lia].
      assert (Nd : needed ps outs d) by (apply (mf_data _ _ _ _ MF); eapply nth_error_In, En).
      pose proof (num_of _ _ _ _ MF d n En) as X. destruct (GS d Nd) as (g & Hg & Sg & Wg). rewrite X in Hg.
      rewrite (nth_error_nth _ _ empty_ten Hg), (nth_error_nth _ _ 0 En). unfold tot, sz. rewrite <- Sg. exact Wg.
    + constructor.
      * exists Lf, li. split; [exact Hli|]. split; [exact HL|]. split; [apply nth_error_upd_eq, Li|].
        split; [eapply same_kind_trans; eassumption|]. rewrite D3. split; [exact DD2|]. split; [exact T2|]. unfold ran_back. eauto 12.
      * clear -F3 NIp. induction F3 as [|a b c l1 l2 l3 H _ IHF]; constructor.
        -- destruct H as (La & lia & H1 & H2 & H3 & H4). exists La, lia. split; [exact H1|]. split; [exact H2|]. split; [|exact H4].
           rewrite nth_error_upd_neq; [exact H3|]. intros X. apply NIp. left. congruence.
        -- apply IHF. intros X. apply NIp. right. exact X.
    + rewrite upd_length. exact LI.
    + intros i Hi. rewrite nth_error_upd_neq by (intros <-; apply Hi; left; reflexivity). apply FR. intros X. apply Hi. right. exact X.
Qed.

Lemma zero_grads_nth dt gr : length gr = length dt -> length (zero_grads dt gr) = length dt /\
  forall n d s, nth_error dt n = Some (d, s) -> s <> SOutput -> exists g, nth_error gr n = Some g /\ nth_error (zero_grads dt gr) n = Some (zero_ten g).
Proof.
  unfold zero_grads. intros L. rewrite map_length, combine_length, L, Nat.min_id. split; [reflexivity|].
  revert gr L. induction dt as [|[d0 s0] t IH]; intros [|g u] L [|n] d s H NS; try discriminate; cbn in *.
  - injection H as <- <-. exists g. split; [reflexivity|]. destruct s0; [reflexivity|congruence|reflexivity].
  - apply (IH u (f_equal pred L) n d s H NS).
Qed.
Lemma zero_ten_ok sh g : ten_ok sh g -> ten_ok sh (zero_ten g) /\ all_zero (zero_ten g).
Proof.
  intros [S W]. unfold zero_ten. split; [split; [exact S|]; unfold twf; cbn; rewrite repeat_length; exact W|].
  intros i Hi. cbn. unfold tot in Hi. cbn in Hi. rewrite repeat_length in Hi. apply nth_repeat.
Qed.

Lemma backward_runs infos b tins touts gouts mem0 :
  backend_fits ps m b -> bind_ids (map (num m) ins) tins (b_mem b) = Ok mem0 -> bind_ids (map (num m) outs) touts mem0 = Ok mem ->
  shaped ps outs gouts -> (forall d i, In d ins -> dW d i = 0%R) ->
  Forall2 (op_back infos) (m_ops m) (b_layers b) ->
  exists infos' ls' gr' gouts', model_backward E2 m infos (Some b) tins touts gouts = Ret (infos', Some (mkB ls' mem gr'), gouts') /\
    grad_inv gr' (m_ops m) /\
    rsum (length outs) (fun j => inner sz dW (nth j outs O) (nth j gouts empty_ten)) = psum dP (m_ops m) ls' /\
    Forall3 (op_bdone infos infos') (m_ops m) (b_layers b) ls' /\ length infos' = length infos /\
    (forall i, ~ In i (map mo_info (m_ops m)) -> nth_error infos' i = nth_error infos i).
Proof.
  intros (BL1 & BL2 & BL3 & BD) B1 B2 SG DI R. pose proof CL as (NI & NO & _ & _ & KC).
  destruct (zero_grads_nth (m_data m) (b_grad b) BL3) as [ZL ZN].
  assert (NDn : NoDup (map (num m) outs)) by (apply (NoDup_num ps ins outs m MF); [exact NO|intros; apply need_out; assumption]).
  destruct (bind_Ok (map (num m) outs) gouts (zero_grads (m_data m) (b_grad b))) as (gr & EG & LG & G1 & G2); [| |exact NDn|].
  { rewrite map_length, (Forall2_len _ _ _ SG). lia. }
  { intros i Hi. apply in_map_iff in Hi. destruct Hi as (d & <- & Hd). rewrite ZL. apply (id_num _ _ _ _ MF), need_out, Hd. }
  assert (GO : forall j d g, nth_error outs j = Some d -> nth_error gouts j = Some g -> nth_error gr (num m d) = Some g).
  { intros j d g Hj Hg. apply (G1 j); [rewrite nth_error_map, Hj; reflexivity|exact Hg]. }
  assert (GZ : forall d, needed ps outs d -> ~ In d outs -> exists g, nth_error gr (num m d) = Some g /\ ten_ok (dims ps d) g /\ all_zero g).
  { intros d N Ho. rewrite G2.
    - destruct (BD _ _ _ (data_at ps ins outs m MF d N)) as [_ X].
      assert (SN : storage_of ins outs d <> SOutput) by (unfold storage_of; rewrite (memb_false d outs Ho); destruct (memb d ins); discriminate).
      destruct (X SN) as (g & Hg & Tg). destruct (ZN _ _ _ (data_at ps ins outs m MF d N) SN) as (g' & Hg' & Z). assert (g' = g) as -> by congruence.
      exists (zero_ten g). split; [exact Z|]. apply zero_ten_ok, Tg.
    - intros X. apply in_map_iff in X. destruct X as (d' & Ed & Hd'). apply Ho. rewrite <- (num_inj _ _ _ _ MF d' d); [exact Hd'|apply need_out, Hd'|exact N|exact Ed]. }
  assert (GI : grad_inv gr []).
  { split; [congruence|]. split.
    - intros d N. destruct (in_dec Nat.eq_dec d outs) as [Ho|Ho].
      + apply In_nth_error in Ho. destruct Ho as (j & Hj). destruct (Forall2_nth_error _ _ _ SG j d Hj) as (g & Hg & Tg). exists g. split; [exact (GO j d g Hj Hg)|exact Tg].
      + destruct (GZ d N Ho) as (g & Hg & Tg & _). eauto.
    - intros a N Ho _. destruct (GZ a N Ho) as (g & Hg & _ & Zg). rewrite (nth_error_nth _ _ empty_ten Hg). exact Zg. }
  destruct (bwd_run (m_ops m) [] infos (b_layers b) gr eq_refl R GI) as (infos' & ls' & gr' & ER & GI' & EQ & F3 & LI & FR).
  assert (LD : length data = length (m_data m)) by apply map_length.
  assert (XU : exists us, Forall2 (fun i u => nth_error gr' i = Some u) (map (num m) outs) us).
  { destruct GI' as (_ & GS & _). assert (K : forall d, In d outs -> exists g, nth_error gr' (num m d) = Some g) by (intros d Hd; destruct (GS d (need_out _ _ d Hd)) as (g & Hg & _); eauto).
    clear -K. induction outs as [|d t IH]; cbn; [exists []; constructor|]. destruct IH as (us & Hus); [intros x Hx; apply K; right; exact Hx|].
    destruct (K d (or_introl eq_refl)) as (g & Hg). exists (g :: us). constructor; assumption. }
  destruct XU as (us & XU).
  exists infos', ls', gr', us. split; [|split; [exact GI'|split; [|split; [exact F3|split; [exact LI|exact FR]]]]].
  - cbn [model_backward]. unfold backend_backward. rewrite (mf_in _ _ _ _ MF), (mf_out _ _ _ _ MF).
    rewrite (ids_num ps ins outs m MF ins) by apply (mf_needed_in _ _ _ _ MF). rewrite (ids_num ps ins outs m MF outs) by (intros; apply need_out; assumption). cbn [bind].
    rewrite B1. cbn [bind]. rewrite B2. cbn [bind]. rewrite EG. cbn [bind]. rewrite ER.
    rewrite (unbind_Ok (map (num m) outs) [] gr' gouts) with (us := us); [reflexivity|exact NDn|intros i _ []|rewrite map_length; symmetry; apply (Forall2_len _ _ _ SG)|exact XU].
  - assert (P0 : pend sz dW data gr' (map mo_ph (m_ops m)) = 0%R).
    { unfold pend. apply rsum_zero. intros n Hn. destruct (memb (nth n data O) (map mo_ph (m_ops m))) eqn:M; [reflexivity|].
      assert (Nd : needed ps outs (nth n data O)) by (apply (mf_data _ _ _ _ MF), nth_In, Hn).
      destruct (KC _ Nd) as [X|X].
      - exfalso. pose proof (mf_call _ _ _ _ MF _ Nd X) as Y. apply memb_In in Y. congruence.
      - unfold inner. apply rsum_zero. intros i _. rewrite DI by exact X. ring. }
    rewrite P0, Rplus_0_r in EQ. rewrite <- EQ. unfold pend.
    rewrite (rsum_ext (length data) _ (fun n => rsum (length outs) (fun j => if (num m (nth j outs O) =? n)%nat then inner sz dW (nth j outs O) (nth j gouts empty_ten) else 0%R))).
    + rewrite rsum_swap. apply rsum_ext. intros j Hj. symmetry. rewrite (rsum_single _ (num m (nth j outs O))); [rewrite Nat.eqb_refl; reflexivity| |].
      * rewrite LD. apply (id_num _ _ _ _ MF), need_out, nth_In, Hj.
      * intros i _ Hi. destruct (Nat.eqb_spec (num m (nth j outs O)) i); [congruence|reflexivity].
    + intros n Hn. cbn [memb existsb]. destruct (nth_error data n) as [d|] eqn:En; [|apply nth_error_None in En; lia].
      assert (Nd : needed ps outs d) by (apply (mf_data _ _ _ _ MF); eapply nth_error_In, En).
      pose proof (num_of _ _ _ _ MF d n En) as X. rewrite (nth_error_nth _ _ O En).
      destruct (in_dec Nat.eq_dec d outs) as [Ho|Ho].
      * apply In_nth_error in Ho. destruct Ho as (j & Hj). assert (Lj : j < length outs) by (apply nth_error_Some; congruence).
        rewrite (rsum_single _ j); [|exact Lj|].
        -- rewrite (nth_error_nth _ _ O Hj), X, Nat.eqb_refl. f_equal. destruct (Forall2_nth_error _ _ _ SG j d Hj) as (g & Hg & _).
           rewrite (nth_error_nth _ _ empty_ten Hg). pose proof (GO j d g Hj Hg) as Y. rewrite X in Y. apply nth_error_nth, Y.
        -- intros i Li Ni. destruct (Nat.eqb_spec (num m (nth i outs O)) n) as [Y|]; [|reflexivity]. exfalso. apply Ni.
           apply (proj1 (NoDup_nth outs O) NO); [exact Li|exact Lj|]. rewrite (nth_error_nth _ _ O Hj).
           eapply num_inj; [exact MF|apply need_out, nth_In, Li|exact Nd|congruence].
      * rewrite (rsum_zero (length outs)).
        -- destruct (GZ d Nd Ho) as (g & Hg & [Sg Wg] & Zg). rewrite X in Hg. rewrite (nth_error_nth _ _ empty_ten Hg). unfold inner. apply rsum_zero.
           intros i Hi. rewrite Zg; [ring|]. unfold tot, sz in *. rewrite Wg, Sg. exact Hi.
        -- intros i Li. destruct (Nat.eqb_spec (num m (nth i outs O)) n) as [Y|]; [|reflexivity]. exfalso. apply Ho.
           rewrite <- (num_inj _ _ _ _ MF (nth i outs O) d); [apply nth_In, Li|apply need_out, nth_In, Li|exact Nd|congruence].
Qed.
End Backward.
