(** Training sessions: what happens to the weights. *)
From Coq Require Import Reals String Lia Lra.
From Verif Require Import Base BaseFacts Sums M_Im2col S_Im2col M_Kernels M_Conv M_Layers M_Optim M_Nn M_Graph M_Model M_Backend M_Train S_Grad S_Partial S_Graph S_Run S_Fit S_Primed S_Optim S_Train S_Session
  P_Kernels P_Graph P_Graph2 P_Nn P_Model P_Model2 P_Run P_Fwd P_Load P_Fwd2 P_Bwd P_Run2 P_Fit P_Safe P_Safe2 P_Train P_Train2 P_Train3 P_Optim P_Idem2 P_Desc.
Open Scope nat_scope.

Section Session.
Variables (ps : list phnode) (ins outs : list nat) (m : model).
Hypothesis MF : mfacts ps ins outs m.
Hypothesis CL : closed ps ins outs.
Hypothesis LB : links_back ps.
Hypothesis VO : Forall (fun d => d < length ps) outs.
Hypothesis ND : NoDup (map fst (m_params m)).
Hypothesis RF : forall key r, In (key, r) (m_params m) -> exists op, In op (m_ops m) /\ fst r = mo_info op.
Hypothesis INJ : forall k1 k2 r, In (k1, r) (m_params m) -> In (k2, r) (m_params m) -> k1 = k2.

Lemma forward_kept ran E infos b xs os : usable ran ps outs m infos b -> (forall d, fair (E d)) -> shaped ps ins xs -> shaped ps outs os ->
  exists infos' b' xs' os', model_forward E m infos (Some b) xs os = Ret (infos', Some b', xs', os') /\ params_kept infos infos'.
Proof.
  intros U FE SI SO. pose proof U as (BF & LA & SD & OW).
  assert (LF : forall d args, needed ps outs d -> call ps d args -> exists L, produces m infos b d L /\ fits L (map (dims ps) args) (dims ps d)).
  { intros d args N C. destruct (LA d args N C) as (L & P & G & _). exists L. split; [exact P|]. destruct ran; [apply G|exact G]. }
  destruct (evaluation_exists ps ins outs m MF CL LB E infos b xs SI FE LF (needed_len ps outs LB VO)) as (V & EV & VT).
  assert (LO : links_ok ps outs (produces m infos b)).
  { intros d L P. pose proof P as (j & op & L0 & li & H1 & <- & _). destruct (op_spec _ _ _ _ MF op (nth_error_In _ _ H1)) as (args & k & N & C & _).
    destruct (LA _ _ N C) as (L' & P' & _ & T). rewrite (produces_fun _ _ _ _ MF _ _ _ _ _ P P'). exact T. }
  destruct (forward_evaluates ps ins outs m MF CL E V infos b xs os BF SI SO EV LO) as (infos' & b' & EF & BF' & BG & PR & PK & DS & FR & MV & F3).
  exists infos', b', xs, (map V outs). auto.
Qed.

Lemma same_par infos infos' r p : Forall2 same_li infos infos' -> get_par infos r = Some p ->
  exists p', get_par infos' r = Some p' /\ p_data p' = p_data p /\ p_train p' = p_train p.
Proof.
  intros F G. unfold get_par in *. destruct (nth_error infos (fst r)) as [li|] eqn:E; [|discriminate].
  destruct (Forall2_at _ _ _ F _ _ E) as (li' & E' & _ & _ & _ & _ & FP). rewrite E'.
  revert G. induction FP as [|[k1 p1] [k2 p2] l l' (A & B & D) FP IH]; cbn [find_key]; [discriminate|]. cbn in A, B, D. subst k2.
  destruct (String.eqb k1 (snd r)); [|exact IH]. intros [= ->]. exists p2. auto.
Qed.

Section Instance.
Context {S A : Type}.
Variables (get : S -> string -> option A) (one : R -> nat -> string -> prm -> S -> res (prm * S)) (agood : A -> nat -> Prop)
          (W : R -> nat -> list R -> list R -> A -> list R) (G : R -> nat -> list R -> list R -> A -> A) (mk : R -> nat -> S -> optimizer).
Hypothesis Hfrozen : forall lr t k p s, p_train p = false -> one lr t k p s = Ok (p, s).
Hypothesis Hactive : forall lr t k p s a, prm_ok (tsh (p_data p)) p -> p_train p = true -> get s k = Some a -> agood a (tot (p_data p)) ->
  exists s', one lr t k p s = Ok (set_weight p (W lr t (tdat (p_data p)) (tdat (p_grad p)) a), s') /\
    get s' k = Some (G lr t (tdat (p_data p)) (tdat (p_grad p)) a) /\ forall k', k' <> k -> get s' k' = get s k'.
Hypothesis Hlen : forall lr t w g a, length g = length w -> agood a (length w) ->
  length (W lr t w g a) = length w /\ agood (G lr t w g a) (length w).
Hypothesis Hstep : forall lr t s pm, opt_step (mk lr t s) pm =
  match each (one lr (Datatypes.S t)) pm s with Ret (p, s') => Ret (p, mk lr (Datatypes.S t) s') | Exc (p, s') => Exc (p, mk lr (Datatypes.S t) s') | Bad => Bad end.
Hypothesis Hlr : forall r lr t s, set_lr r (mk lr t s) = mk r t s.
Hypothesis Hfit : forall infos lr t s, opt_fits m infos (mk lr t s) ->
  forall key r p, In (key, r) (m_params m) -> get_par infos r = Some p -> exists a, get s key = Some a /\ agood a (tot (p_data p)).

(** One call. *)
Lemma call_hist c ran infos b lr t s : usable ran ps outs m infos b -> opt_fits m infos (mk lr t s) -> legal ps ins outs ran [c] ->
  exists infos' b' s', tact m c (mkTS infos (Some b) (mk lr t s)) =
      Ret (mkTS infos' (Some b') (mk (match c with TLr r => r | _ => lr end) (match c with TStep => Datatypes.S t | _ => t end) s')) /\
    usable (ever_ran ran [c]) ps outs m infos' b' /\
    opt_fits m infos' (mk (match c with TLr r => r | _ => lr end) (match c with TStep => Datatypes.S t | _ => t end) s') /\
    forall key r p a, In (key, r) (m_params m) -> snd r <> "mask"%string -> get_par infos r = Some p -> get s key = Some a ->
      exists p' a', get_par infos' r = Some p' /\ tsh (p_data p') = tsh (p_data p) /\
        p_train p' = match c with TTrain mode => mode | _ => p_train p end /\ get s' key = Some a' /\
        (tdat (p_data p'), a') = match c with
          | TStep => if p_train p then (W lr (Datatypes.S t) (tdat (p_data p)) (tdat (p_grad p)) a, G lr (Datatypes.S t) (tdat (p_data p)) (tdat (p_grad p)) a)
                     else (tdat (p_data p), a)
          | _ => (tdat (p_data p), a) end.
Proof.
  intros U OF LG. destruct c as [E xs os|E xs os gs|mode| |r0]; cbn [legal] in LG; cbn [tact ts_info ts_backend ts_opt].
  - destruct LG as (FE & SI & SO & _). destruct (forward_usable ps ins outs m MF CL LB VO RF ran E infos b xs os _ U OF FE SI SO) as (i1 & b1 & x1 & o1 & EQ & (U1 & OF1) & _).
    destruct (forward_kept ran E infos b xs os U FE SI SO) as (i2 & b2 & x2 & o2 & EQ2 & PK). rewrite EQ in EQ2. injection EQ2 as <- <- <- <-. rewrite EQ.
    exists i1, b1, s. split; [reflexivity|]. unfold ever_ran. cbn [existsb]. rewrite Bool.orb_true_r. split; [exact U1|]. split; [exact OF1|].
    intros key r p a Hr NM Gp Ga. destruct (PK r p Gp) as (p' & G' & _ & _ & Q). rewrite (Q NM) in G'. exists p, a. auto.
  - destruct LG as (-> & SI & SO & SG & _). destruct (backward_usable ps ins outs m MF CL RF E infos b xs os gs _ U OF SI SO SG) as (i1 & b1 & g1 & EQ & (U1 & OF1) & _).
    pose proof (backward_same m E infos b xs os gs i1 (Some b1) g1 (or_introl EQ)) as SB. rewrite EQ.
    exists i1, b1, s. split; [reflexivity|]. split; [exact U1|]. split; [exact OF1|].
    intros key r p a Hr NM Gp Ga. destruct (same_par _ _ _ _ SB Gp) as (p' & G' & D & T). exists p', a. rewrite D, T. auto.
  - pose proof (train_moved m ND mode infos (proj2 (proj2 (proj2 U)))) as M.
    assert (ER : ever_ran ran [TTrain mode] = ran) by (unfold ever_ran; cbn; apply Bool.orb_false_r). rewrite ER.
    exists (model_train mode m infos), b, s. split; [reflexivity|]. split; [eapply moved_usable; eassumption|]. split; [eapply opt_moved; eassumption|].
    intros key r p a Hr NM Gp Ga. exists (mkP (p_data p) (p_grad p) mode), a. split; [apply (train_key mode m infos key); [apply in_find; assumption|exact Gp]|]. auto.
  - destruct (step_moved m ND RF infos (mk lr t s) (proj1 (proj2 (proj2 U))) OF) as (i1 & o1 & EQ & M & OF1).
    pose proof (view_ok m ND infos (proj1 (proj2 (proj2 U)))) as [VN VOK].
    destruct (each_ok get (one lr (Datatypes.S t)) (fun _ p a => prm_ok (tsh (p_data p)) p /\ agood a (tot (p_data p)))
      (newp W lr (Datatypes.S t)) (newa G lr (Datatypes.S t))) with (ps := params_view m infos) (s := s) as (pm & s' & EE & K & V & _).
    { intros k p s0 a [P1 P2] Ga. unfold newp, newa. destruct (p_train p) eqn:Et; [exact (Hactive _ _ _ _ _ _ P1 Et Ga P2)|].
      exists s0. rewrite (Hfrozen _ _ _ _ _ Et). auto. }
    { exact VN. }
    { intros k p H. destruct (view_in _ _ _ _ H) as (r & Hr & Gr). destruct (Hfit _ _ _ _ OF k r p Hr Gr) as (a & A1 & A2). exists a. split; [exact A1|]. split; [apply (VOK k p H)|exact A2]. }
    unfold model_step in EQ |- *. rewrite Hstep, EE in EQ |- *. injection EQ as <- <-.
    exists (params_write m pm infos), b, s'. split; [reflexivity|].
    assert (ER : ever_ran ran [TStep] = ran) by (unfold ever_ran; cbn; apply Bool.orb_false_r). rewrite ER.
    split; [eapply moved_usable; eassumption|]. split; [eapply opt_moved; eassumption|].
    intros key r p a Hr NM Gp Ga. pose proof (view_has m infos key r p Hr Gp) as Hp. destruct (V key p a Hp Ga) as [V1 V2].
    destruct (Hfit _ _ _ _ OF key r p Hr Gp) as (a0 & A1 & A2). assert (a0 = a) by congruence. subst a0.
    pose proof (VOK key p Hp) as PO. destruct (newp_ok agood W G Hlen lr (Datatypes.S t) key p a PO A2) as (_ & T1 & _).
    exists (newp W lr (Datatypes.S t) key p a), (newa G lr (Datatypes.S t) key p a). split; [|split; [exact T1|split; [|split; [exact V2|]]]].
    + apply (write_at m ND INJ pm infos key r p _ Hr Gp). apply in_find; [rewrite K; exact VN|exact V1].
    + unfold newp. destruct (p_train p) eqn:Et; [exact Et|exact Et].
    + unfold newp, newa. destruct (p_train p) eqn:Et; reflexivity.
  - assert (ER : ever_ran ran [TLr r0] = ran) by (unfold ever_ran; cbn; apply Bool.orb_false_r). rewrite ER, Hlr.
    exists infos, b, s. split; [reflexivity|]. split; [exact U|]. split; [rewrite <- (Hlr r0 lr); apply set_lr_fits; exact OF|].
    intros key r p a Hr NM Gp Ga. exists p, a. auto.
Qed.

Lemma legal_cons c cs ran : legal ps ins outs ran (c :: cs) -> legal ps ins outs ran [c] /\ legal ps ins outs (ever_ran ran [c]) cs.
Proof. unfold ever_ran. destruct c; cbn; rewrite ?Bool.orb_false_r, ?Bool.orb_true_r; intros H; tauto. Qed.

Lemma now_at infos key r p : params_sound m infos -> In (key, r) (m_params m) -> get_par infos r = Some p -> find_key (params_view m infos) key = Some p.
Proof. intros SD Hr Gp. apply in_find; [apply (view_ok m ND infos SD)|eapply view_has; eassumption]. Qed.

Lemma session_hist : forall cs ran infos b lr t s, usable ran ps outs m infos b -> opt_fits m infos (mk lr t s) -> legal ps ins outs ran cs ->
  let H := history m cs (mkTS infos (Some b) (mk lr t s)) in
  exists infos' b' s', tacts m cs (mkTS infos (Some b) (mk lr t s)) = Ret (mkTS infos' (Some b') (mk (final_lr lr H) (t + steps_in H) s')) /\
    usable (ever_ran ran cs) ps outs m infos' b' /\
    forall key r p a, In (key, r) (m_params m) -> snd r <> "mask"%string -> get_par infos r = Some p -> get s key = Some a ->
      Forall (fun '(_, g, _) => length g = tot (p_data p)) (active key lr t H) /\
      exists p' a', get_par infos' r = Some p' /\ tsh (p_data p') = tsh (p_data p) /\ get s' key = Some a' /\
        (tdat (p_data p'), a') = fold_left (el_step W G) (active key lr t H) (tdat (p_data p), a).
Proof.
  induction cs as [|c cs IH]; intros ran infos b lr t s U OF LG H.
  - subst H. cbn. exists infos, b, s. rewrite Nat.add_0_r. split; [reflexivity|]. unfold ever_ran. cbn. rewrite Bool.orb_false_r. split; [exact U|].
    intros key r p a Hr NM Gp Ga. split; [constructor|]. exists p, a. auto.
  - destruct (legal_cons _ _ _ LG) as [L1 L2]. destruct (call_hist c ran infos b lr t s U OF L1) as (i1 & b1 & s1 & EQ & U1 & OF1 & K).
    destruct (IH _ _ _ _ _ _ U1 OF1 L2) as (i2 & b2 & s2 & EQ2 & U2 & K2). clear IH.
    subst H. cbn [history tacts ts_info]. rewrite EQ. set (H2 := history m cs _) in *.
    exists i2, b2, s2. split; [|split].
    + rewrite EQ2. destruct c; cbn; unfold steps_in, final_lr; cbn; rewrite ?Nat.add_succ_r; reflexivity.
    + replace (ever_ran ran (c :: cs)) with (ever_ran (ever_ran ran [c]) cs); [exact U2|]. unfold ever_ran. cbn. rewrite Bool.orb_false_r, Bool.orb_assoc. reflexivity.
    + intros key r p a Hr NM Gp Ga. destruct (K key r p a Hr NM Gp Ga) as (p1 & a1 & G1 & T1 & _ & Ga1 & F1).
      destruct (K2 key r p1 a1 Hr NM G1 Ga1) as (AL & p' & a' & G' & T' & Ga' & F').
      pose proof (proj1 (proj2 (proj2 U))) as SD. destruct (SD key r Hr) as (q & Gq & PO). assert (q = p) by congruence. subst q.
      assert (TT : tot (p_data p1) = tot (p_data p)).
      { destruct (proj1 (proj2 (proj2 U1)) key r Hr) as (q1 & Gq1 & (_ & W1 & _)). assert (q1 = p1) by congruence. subst q1. destruct PO as (_ & W0 & _). unfold tot, twf in *. congruence. }
      rewrite TT in AL. split.
      * destruct c; cbn [app active]; try exact AL. apply Forall_app. split; [|exact AL]. unfold flags_now, grads_now. rewrite (now_at infos key r p SD Hr Gp).
        destruct (p_train p); [|constructor]. constructor; [exact (prm_tot p PO)|constructor].
      * exists p', a'. split; [exact G'|]. split; [congruence|]. split; [exact Ga'|]. rewrite F', F1. destruct c; cbn [app active]; try reflexivity.
        unfold flags_now, grads_now. rewrite (now_at infos key r p SD Hr Gp). destruct (p_train p); reflexivity.
Qed.

(** No weight moves without a step, nor while every parameter is frozen. *)
Lemma session_still : forall cs ran infos b lr t s, usable ran ps outs m infos b -> opt_fits m infos (mk lr t s) -> legal ps ins outs ran cs ->
  Forall no_step cs \/ (Forall no_thaw cs /\ forall key r p, In (key, r) (m_params m) -> snd r <> "mask"%string -> get_par infos r = Some p -> p_train p = false) ->
  exists s', tacts m cs (mkTS infos (Some b) (mk lr t s)) = Ret s' /\
    forall key r p, In (key, r) (m_params m) -> snd r <> "mask"%string -> get_par infos r = Some p -> exists p', get_par (ts_info s') r = Some p' /\ p_data p' = p_data p.
Proof.
  induction cs as [|c cs IH]; intros ran infos b lr t s U OF LG Q.
  - exists (mkTS infos (Some b) (mk lr t s)). split; [reflexivity|]. intros. exists p. auto.
  - destruct (legal_cons _ _ _ LG) as [L1 L2]. destruct (call_hist c ran infos b lr t s U OF L1) as (i1 & b1 & s1 & EQ & U1 & OF1 & K).
    assert (KP : forall key r p, In (key, r) (m_params m) -> snd r <> "mask"%string -> get_par infos r = Some p ->
      exists p1, get_par i1 r = Some p1 /\ p_data p1 = p_data p /\ (p_train p = false -> no_thaw c -> p_train p1 = false)).
    { intros key r p Hr NM Gp. destruct (Hfit _ _ _ _ OF key r p Hr Gp) as (a & A1 & A2). destruct (K key r p a Hr NM Gp A1) as (p1 & a1 & G1 & T1 & TR & _ & F1). exists p1. split; [exact G1|]. split.
      - assert (DD : tdat (p_data p1) = tdat (p_data p)).
        { destruct Q as [Q|[Q1 Q2]]; [inversion Q; subst|inversion Q1; subst; rewrite (Q2 key r p Hr NM Gp) in F1]; destruct c; try contradiction; cbn in F1; congruence. }
        destruct (p_data p1), (p_data p); cbn in *; congruence.
      - intros TF NT. rewrite TR. destruct c; try exact TF. destruct mode; [destruct NT|reflexivity]. }
    destruct (IH _ _ _ _ _ _ U1 OF1 L2) as (s' & EQ2 & K2).
    { destruct Q as [Q|[Q1 Q2]]; [inversion Q; subst; left; assumption|]. inversion Q1; subst. right. split; [assumption|]. intros key r p1 Hr NM G1.
      destruct (proj1 (proj2 (proj2 U)) key r Hr) as (p & Gp & _). destruct (KP key r p Hr NM Gp) as (q & Gq & _ & TQ). assert (q = p1) by congruence. subst q. apply TQ; [eapply Q2; eassumption|assumption]. }
    cbn [tacts]. rewrite EQ. exists s'. split; [exact EQ2|]. intros key r p Hr NM Gp. destruct (KP key r p Hr NM Gp) as (p1 & G1 & D1 & _).
    destruct (K2 key r p1 Hr NM G1) as (p' & G' & D'). exists p'. split; [exact G'|congruence].
Qed.
End Instance.
End Session.

(** ** The three optimizers *)
Definition sgd_W (lr : R) (t : nat) (w g : list R) (a : unit) : list R := tab (length w) (fun i => w.[i] - lr * g.[i])%R.

Lemma sgd_active lr (t : nat) k p (s a : unit) : prm_ok (tsh (p_data p)) p -> p_train p = true ->
  sgd_one lr k p s = Ok (set_weight p (sgd_W lr t (tdat (p_data p)) (tdat (p_grad p)) a), tt).
Proof.
  intros Hp Et. unfold sgd_one. rewrite Et, (proj1 (proj2 (proj2 Hp))), nshape_refl. cbn [dw_assert bind]. pose proof (prm_tot p Hp) as HT. rewrite !emap_Ok by (unfold tot in *; lia).
  cbn [bind]. rewrite HT. rewrite put_full by reflexivity. reflexivity.
Qed.

Lemma sgd_closed n w (act : list (R * list R * nat)) : length w = n ->
  let r := fold_left (el_step sgd_W (fun _ _ _ _ a => a)) act (w, tt) in
  length (fst r) = n /\ forall i, i < n -> ((fst r).[i] = w.[i] - lsum (map (fun '(lr, g, _) => lr * g.[i]) act))%R.
Proof.
  intros Hw. induction act as [|[[lr g] t] act IH] using rev_ind.
  - cbn. split; [exact Hw|]. intros i Hi. unfold lsum. cbn. lra.
  - rewrite fold_left_app. cbn [fold_left el_step]. destruct IH as [L C]. cbn zeta in *. set (r := fold_left _ act _) in *. cbn [fst snd]. unfold sgd_W. rewrite tab_length. split; [exact L|].
    intros i Hi. rewrite nth_tab by lia. rewrite C by exact Hi. rewrite map_app. cbn [map]. rewrite lsum_app. unfold lsum at 3. cbn. lra.
Qed.

Section Three.
Variables (ps : list phnode) (ins outs : list nat) (m : model).
Hypothesis MF : mfacts ps ins outs m.
Hypothesis CL : closed ps ins outs.
Hypothesis LB : links_back ps.
Hypothesis VO : Forall (fun d => d < length ps) outs.
Hypothesis ND : NoDup (map fst (m_params m)).
Hypothesis RF : forall key r, In (key, r) (m_params m) -> exists op, In op (m_ops m) /\ fst r = mo_info op.
Hypothesis INJ : forall k1 k2 r, In (k1, r) (m_params m) -> In (k2, r) (m_params m) -> k1 = k2.
Variables (ran : bool) (infos : list linfo) (b : backend) (cs : list tcall).
Hypothesis U : usable ran ps outs m infos b.
Hypothesis LG : legal ps ins outs ran cs.

Definition sgd_inst := session_hist ps ins outs m MF CL LB VO ND RF INJ (fun (_ : unit) (_ : string) => Some tt) (fun lr _ => sgd_one lr) (fun _ _ => True) sgd_W (fun _ _ _ _ a => a) (fun lr _ _ => SGD lr).

Lemma sgd_session lr :
  let H := history m cs (mkTS infos (Some b) (SGD lr)) in
  exists infos' b', tacts m cs (mkTS infos (Some b) (SGD lr)) = Ret (mkTS infos' (Some b') (SGD (final_lr lr H))) /\
    usable (ever_ran ran cs) ps outs m infos' b' /\
    forall key r p, In (key, r) (m_params m) -> snd r <> "mask"%string -> get_par infos r = Some p ->
      exists p', get_par infos' r = Some p' /\ tsh (p_data p') = tsh (p_data p) /\
        forall i, i < tot (p_data p) -> ((tdat (p_data p')).[i] = (tdat (p_data p)).[i] - lsum (map (fun '(lr, g, _) => lr * g.[i]) (active key lr 0 H)))%R.
Proof.
  intros H. destruct (sgd_inst) with (cs := cs) (ran := ran) (infos := infos) (b := b) (lr := lr) (t := 0) (s := tt) as (i' & b' & s' & E & U' & K); try assumption.
  - intros. unfold sgd_one. rewrite H0. destruct s. reflexivity.
  - intros. exists tt. split; [apply sgd_active; assumption|]. destruct a. auto.
  - intros. unfold sgd_W. rewrite tab_length. auto.
  - intros lr0 t s pm. cbn. unfold sgd_step. destruct (each (sgd_one lr0) pm s) as [[? []]|[? []]|] eqn:EE; destruct s; rewrite EE; reflexivity.
  - reflexivity.
  - intros. exists tt. auto.
  - exact I.
  - exists i', b'. split; [exact E|]. split; [exact U'|]. intros key r p Hr NM Gp. destruct (K key r p tt Hr NM Gp eq_refl) as (_ & p' & a' & G' & T' & _ & F).
    exists p'. split; [exact G'|]. split; [exact T'|]. destruct (sgd_closed (tot (p_data p)) (tdat (p_data p)) (active key lr 0 H) eq_refl) as [_ C].
    fold H in F. rewrite <- F in C. exact C.
Qed.

Lemma momentum_session lr gamma vel : keeps m infos vel ->
  let H := history m cs (mkTS infos (Some b) (Momentum lr gamma vel)) in
  exists infos' b' vel', tacts m cs (mkTS infos (Some b) (Momentum lr gamma vel)) = Ret (mkTS infos' (Some b') (Momentum (final_lr lr H) gamma vel')) /\
    usable (ever_ran ran cs) ps outs m infos' b' /\
    forall key r p a, In (key, r) (m_params m) -> snd r <> "mask"%string -> get_par infos r = Some p -> mom_get vel key = Some a ->
      Forall (fun '(_, g, _) => length g = tot (p_data p)) (active key lr 0 H) /\
      exists p' a', get_par infos' r = Some p' /\ tsh (p_data p') = tsh (p_data p) /\ mom_get vel' key = Some a' /\
        (tdat (p_data p'), a') = fold_left (el_step (mom_W gamma) (mom_G gamma)) (active key lr 0 H) (tdat (p_data p), a).
Proof.
  intros KV H.
  destruct (session_hist ps ins outs m MF CL LB VO ND RF INJ mom_get (fun lr _ => momentum_one lr gamma) (fun a n => length a = n) (mom_W gamma) (mom_G gamma) (fun lr _ v => Momentum lr gamma v))
    with (cs := cs) (ran := ran) (infos := infos) (b := b) (lr := lr) (t := 0) (s := vel) as (i' & b' & s' & E & U' & K); try assumption.
  - intros. unfold momentum_one. rewrite H0. reflexivity.
  - intros. apply mom_active; assumption.
  - intros lr0 t0 w g a Hg Ha. unfold mom_W, mom_G. rewrite !tab_length. auto.
  - intros lr0 t s pm. cbn. unfold momentum_step. destruct (each _ pm s) as [[]|[]|]; reflexivity.
  - reflexivity.
  - intros infos0 lr0 t s OF key r p Hr G. destruct (OF key r p Hr G) as (v & F & T). exists (tdat v). unfold mom_get. rewrite F. split; [reflexivity|exact T].
  - exists i', b', s'. auto.
Qed.

Lemma adam_session lr b1 b2 eps t mm vv : keeps m infos mm -> keeps m infos vv ->
  let H := history m cs (mkTS infos (Some b) (Adam lr b1 b2 eps t (mm, vv))) in
  exists infos' b' s', tacts m cs (mkTS infos (Some b) (Adam lr b1 b2 eps t (mm, vv))) = Ret (mkTS infos' (Some b') (Adam (final_lr lr H) b1 b2 eps (t + steps_in H) s')) /\
    usable (ever_ran ran cs) ps outs m infos' b' /\
    forall key r p a, In (key, r) (m_params m) -> snd r <> "mask"%string -> get_par infos r = Some p -> adam_get (mm, vv) key = Some a ->
      Forall (fun '(_, g, _) => length g = tot (p_data p)) (active key lr t H) /\
      exists p' a', get_par infos' r = Some p' /\ tsh (p_data p') = tsh (p_data p) /\ adam_get s' key = Some a' /\
        (tdat (p_data p'), a') = fold_left (el_step (adam_W b1 b2 eps) (adam_G b1 b2)) (active key lr t H) (tdat (p_data p), a).
Proof.
  intros K1 K2 H.
  destruct (session_hist ps ins outs m MF CL LB VO ND RF INJ adam_get (fun lr t => adam_one lr b1 b2 eps t) (fun a n => length (fst a) = n /\ length (snd a) = n) (adam_W b1 b2 eps) (adam_G b1 b2)
      (fun lr t s => Adam lr b1 b2 eps t s))
    with (cs := cs) (ran := ran) (infos := infos) (b := b) (lr := lr) (t := t) (s := (mm, vv)) as (i' & b' & s' & E & U' & K); try assumption.
  - intros. unfold adam_one. rewrite H0. reflexivity.
  - intros. apply adam_active; assumption.
  - intros lr0 t0 w g a Hg Ha. unfold adam_W, adam_G. cbn [fst snd]. rewrite !tab_length. auto.
  - intros lr0 t0 s pm. cbn. unfold adam_step. destruct (each _ pm s) as [[]|[]|]; reflexivity.
  - reflexivity.
  - intros infos0 lr0 t0 [v1 v2] [O1 O2] key r p Hr G. destruct (O1 key r p Hr G) as (t1 & F1 & T1). destruct (O2 key r p Hr G) as (t2 & F2 & T2).
    exists (tdat t1, tdat t2). unfold adam_get. cbn [fst snd]. rewrite F1, F2. auto.
  - split; assumption.
  - exists i', b', s'. auto.
Qed.

Lemma still_session o : opt_fits m infos o ->
  Forall no_step cs \/ (Forall no_thaw cs /\ forall key r p, In (key, r) (m_params m) -> snd r <> "mask"%string -> get_par infos r = Some p -> p_train p = false) ->
  exists s', tacts m cs (mkTS infos (Some b) o) = Ret s' /\
    forall key r p, In (key, r) (m_params m) -> snd r <> "mask"%string -> get_par infos r = Some p -> exists p', get_par (ts_info s') r = Some p' /\ p_data p' = p_data p.
Proof.
  intros OF Q. destruct o as [lr|lr gamma vel|lr b1 b2 eps t [mm vv]].
  - destruct (session_still ps ins outs m MF CL LB VO ND RF INJ (fun (_ : unit) (_ : string) => Some tt) (fun lr _ => sgd_one lr) (fun _ _ => True) sgd_W (fun _ _ _ _ a => a) (fun lr _ _ => SGD lr))
      with (cs := cs) (ran := ran) (infos := infos) (b := b) (lr := lr) (t := 0) (s := tt) as (s' & E & K); try assumption.
    + intros. unfold sgd_one. rewrite H. destruct s. reflexivity.
    + intros. exists tt. split; [apply sgd_active; assumption|]. destruct a. auto.
    + intros. unfold sgd_W. rewrite tab_length. auto.
    + intros lr0 t s pm. cbn. unfold sgd_step. destruct (each (sgd_one lr0) pm s) as [[? []]|[? []]|] eqn:EE; destruct s; rewrite EE; reflexivity.
    + reflexivity.
    + intros. exists tt. auto.
    + exists s'. auto.
  - destruct (session_still ps ins outs m MF CL LB VO ND RF INJ mom_get (fun lr _ => momentum_one lr gamma) (fun a n => length a = n) (mom_W gamma) (mom_G gamma) (fun lr _ v => Momentum lr gamma v))
      with (cs := cs) (ran := ran) (infos := infos) (b := b) (lr := lr) (t := 0) (s := vel) as (s' & E & K); try assumption.
    + intros. unfold momentum_one. rewrite H. reflexivity.
    + intros. apply mom_active; assumption.
    + intros lr0 t0 w g a Hg Ha. unfold mom_W, mom_G. rewrite !tab_length. auto.
    + intros lr0 t s pm. cbn. unfold momentum_step. destruct (each _ pm s) as [[]|[]|]; reflexivity.
    + reflexivity.
    + intros infos0 lr0 t s OF0 key r p Hr G. destruct (OF0 key r p Hr G) as (v & F & T). exists (tdat v). unfold mom_get. rewrite F. split; [reflexivity|exact T].
    + exists s'. auto.
  - destruct (session_still ps ins outs m MF CL LB VO ND RF INJ adam_get (fun lr t => adam_one lr b1 b2 eps t) (fun a n => length (fst a) = n /\ length (snd a) = n) (adam_W b1 b2 eps) (adam_G b1 b2)
      (fun lr t s => Adam lr b1 b2 eps t s)) with (cs := cs) (ran := ran) (infos := infos) (b := b) (lr := lr) (t := t) (s := (mm, vv)) as (s' & E & K); try assumption.
    + intros. unfold adam_one. rewrite H. reflexivity.
    + intros. apply adam_active; assumption.
    + intros lr0 t0 w g a Hg Ha. unfold adam_W, adam_G. cbn [fst snd]. rewrite !tab_length. auto.
    + intros lr0 t0 s pm. cbn. unfold adam_step. destruct (each _ pm s) as [[]|[]|]; reflexivity.
    + reflexivity.
    + intros infos0 lr0 t0 [v1 v2] [O1 O2] key r p Hr G. destruct (O1 key r p Hr G) as (t1 & F1 & T1). destruct (O2 key r p Hr G) as (t2 & F2 & T2).
      exists (tdat t1, tdat t2). unfold adam_get. cbn [fst snd]. rewrite F1, F2. auto.
    + exists s'. auto.
Qed.
End Three.
