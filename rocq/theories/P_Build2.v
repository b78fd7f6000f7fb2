(** Proofs behind C47, second part: the loops of Model::Build. *)
From Coq Require Import Reals String Lia Permutation.
From Verif Require Import Base BaseFacts M_Tensor M_Layers M_Optim P_Optim M_Init M_Nn M_Graph M_Model S_Nn S_Graph S_Run S_Build P_Graph P_Graph2 P_Nn P_MakeLayer P_Model P_Model2 P_Run P_Build.
Local Open Scope string_scope.
Local Open Scope list_scope.
Open Scope nat_scope.

Lemma find_id_app {A} (m1 m2 : list (Z * A)) k : find_id (m1 ++ m2) k = match find_id m1 k with Some v => Some v | None => find_id m2 k end.
Proof. induction m1 as [|[k' v] t IH]; cbn; [reflexivity|]. destruct (k' =? k)%Z; [reflexivity|exact IH]. Qed.
Lemma emplace_id_find {A} (m : list (Z * A)) k v x :
  find_id (emplace_id m k v) x = match find_id m x with Some w => Some w | None => if (k =? x)%Z then Some v else None end.
Proof.
  unfold emplace_id. destruct (find_id m k) as [w|] eqn:E.
  - destruct (find_id m x) as [u|] eqn:F; [reflexivity|]. destruct (Z.eqb_spec k x) as [->|]; [congruence|reflexivity].
  - rewrite find_id_app. destruct (find_id m x); [reflexivity|]. cbn. reflexivity.
Qed.

Lemma shapes_nth ps args ss : shapes ps args = Ok ss <-> Forall2 (fun a s => exists p, nth_error ps a = Some p /\ ph_shape p = s) args ss.
Proof.
  revert ss. induction args as [|a t IH]; intros ss; cbn [map_res].
  - split; [intros [= <-]; constructor|intros H; inversion H; reflexivity].
  - rewrite rd_nth. split.
    + destruct (nth_error ps a) as [p|] eqn:E; cbn [bind]; [|discriminate]. destruct (shapes ps t) as [l| |] eqn:El; cbn [bind]; try discriminate.
      intros [= <-]. constructor; [eauto|apply IH; reflexivity].
    + intros H. inversion H as [|? s ? l (p & E & <-) F]; subst. rewrite E. cbn [bind]. apply IH in F. rewrite F. reflexivity.
Qed.

Lemma initialised_app ps x args li : initialised ps args li -> initialised (ps ++ x) args li.
Proof.
  intros (k & I & ss & li0 & li1 & T & F & C & L & A). exists k, I, ss, li0, li1. split; [exact T|]. split; [|auto].
  apply shapes_nth, shapes_app, shapes_nth, F.
Qed.

Section Sim.
Variable ps : list phnode.
Variable infos : list linfo.
Variable ins outs : list nat.
Variable N : list nat.
Hypothesis SO : store_ok (mkES ps infos).
Hypothesis RDY : ready (mkES ps infos).
Hypothesis ND : NoDup N.
Variable es0' : estore.

Definition at_num (mp : list (Z * nat)) (d p : nat) : Prop := exists i, nth_error N i = Some d /\ find_id mp (Z.of_nat i) = Some p.

Definition okph (es : estore) (mp : list (Z * nat)) (d : nat) (x : phnode) : Prop :=
  (forall s, nth_error ps d = Some (mkPh s None) -> x = mkPh s None) /\
  (forall s j args, nth_error ps d = Some (mkPh s (Some (j, args))) -> exists j' args' li li',
     x = mkPh s (Some (j', args')) /\ Forall2 (at_num mp) args args' /\ nth_error infos j = Some li /\
     nth_error (es_info es) j' = Some li' /\ same_description li li' /\ initialised (es_ph es) args' li').

Record sim (es : estore) (mp : list (Z * nat)) (done : list nat) : Prop := {
  s_built : built es;
  s_done : forall d, In d done -> exists p, at_num mp d p;
  s_keys : forall z p, find_id mp z = Some p -> exists d i, z = Z.of_nat i /\ nth_error N i = Some d /\ In d done;
  s_inj : forall d e p, at_num mp d p -> at_num mp e p -> d = e;
  s_ph : forall d p, at_num mp d p -> exists x, nth_error (es_ph es) p = Some x /\ okph es mp d x;
  s_pre : exists l1 l2, es_ph es = es_ph es0' ++ l1 /\ es_info es = es_info es0' ++ l2 }.

Lemma index_inj i j d : nth_error N i = Some d -> nth_error N j = Some d -> i = j.
Proof. intros H1 H2. apply (proj1 (NoDup_nth_error N) ND); [apply nth_error_Some; congruence|congruence]. Qed.

Lemma at_num_fun mp d p q : at_num mp d p -> at_num mp d q -> p = q.
Proof. intros (i & A & B) (j & C & D). rewrite (index_inj i j d A C) in B. congruence. Qed.

Lemma sim_add es mp done d i x l es2 : sim es mp done -> ~ In d done -> nth_error N i = Some d ->
  built es2 -> es_ph es2 = es_ph es ++ [x] -> es_info es2 = es_info es ++ l -> okph es2 mp d x ->
  sim es2 (emplace_id mp (Z.of_nat i) (length (es_ph es))) (d :: done).
Proof.
  intros [SB SD SK SI SP (l1 & l2 & P1 & P2)] ND' Hi B2 EP EI OX.
  assert (FR : find_id mp (Z.of_nat i) = None).
  { destruct (find_id mp (Z.of_nat i)) as [p|] eqn:E; [|reflexivity]. destruct (SK _ _ E) as (e & j & Ez & Hj & He). apply Nat2Z.inj in Ez. subst j. congruence. }
  assert (UP : forall e p, at_num mp e p -> at_num (emplace_id mp (Z.of_nat i) (length (es_ph es))) e p).
  { intros e p (j & A & B). exists j. split; [exact A|]. rewrite emplace_id_find, B. reflexivity. }
  assert (DN : forall e p, at_num (emplace_id mp (Z.of_nat i) (length (es_ph es))) e p -> at_num mp e p \/ e = d /\ p = length (es_ph es)).
  { intros e p (j & A & B). rewrite emplace_id_find in B. destruct (find_id mp (Z.of_nat j)) as [w|] eqn:E.
    - left. exists j. split; [exact A|congruence].
    - destruct (Z.eqb_spec (Z.of_nat i) (Z.of_nat j)) as [X|]; [|discriminate]. apply Nat2Z.inj in X. subst j. right. split; congruence. }
  assert (OK : forall e y, okph es2 mp e y -> okph es2 (emplace_id mp (Z.of_nat i) (length (es_ph es))) e y).
  { intros e y [O1 O2]. split; [exact O1|]. intros s j args H. destruct (O2 s j args H) as (j' & args' & li & li' & E1 & E2 & E3).
    exists j', args', li, li'. split; [exact E1|]. split; [|exact E3]. clear -E2 UP. induction E2; constructor; auto. }
  assert (LT : forall e p, at_num mp e p -> p < length (es_ph es)).
  { intros e p H. destruct (SP _ _ H) as (y & Hy & _). apply nth_error_Some. congruence. }
  split.
  - exact B2.
  - intros e [<-|He].
    + exists (length (es_ph es)). exists i. split; [exact Hi|]. rewrite emplace_id_find, FR, Z.eqb_refl. reflexivity.
    + destruct (SD e He) as (p & Hp). exists p. apply UP, Hp.
  - intros z p H. rewrite emplace_id_find in H. destruct (find_id mp z) as [w|] eqn:E.
    + destruct (SK _ _ E) as (e & j & A & B & C). exists e, j. split; [exact A|]. split; [exact B|right; exact C].
    + destruct (Z.eqb_spec (Z.of_nat i) z) as [<-|]; [|discriminate]. exists d, i. split; [reflexivity|]. split; [exact Hi|left; reflexivity].
  - intros e1 e2 p H1 H2. destruct (DN _ _ H1) as [A|[-> ->]], (DN _ _ H2) as [B|[-> EB]].
    + eapply SI; eassumption.
    + apply LT in A. lia.
    + apply LT in B. lia.
    + reflexivity.
  - intros e p H. destruct (DN _ _ H) as [A|[-> ->]].
    + destruct (SP _ _ A) as (y & Hy & O1 & O2). exists y. rewrite EP, nth_error_app1 by (apply nth_error_Some; congruence). split; [exact Hy|].
      apply OK. split; [exact O1|]. intros s j args Hs. destruct (O2 s j args Hs) as (j' & args' & li & li' & E1 & E2 & E3 & E4 & E5 & E6).
      exists j', args', li, li'. split; [exact E1|]. split; [exact E2|]. split; [exact E3|]. split; [rewrite EI, nth_error_app1; [exact E4|apply nth_error_Some; congruence]|].
      split; [exact E5|]. rewrite EP. apply initialised_app, E6.
    + exists x. rewrite EP, nth_error_app2, Nat.sub_diag by lia. split; [reflexivity|]. apply OK, OX.
  - exists (l1 ++ [x]), (l2 ++ l). rewrite EP, EI, P1, P2, <- !app_assoc. auto.
Qed.

(** Inputs. *)
Lemma phm_find (data : list (nat * storage)) i d s :
  nth_error data i = Some (d, s) -> forall b,
  find_id (map (fun '(i, (d, _)) => (Z.of_nat i, (shape_at ps d, Z.of_nat i))) (combine (seq b (length data)) data)) (Z.of_nat (b + i)) =
  Some (shape_at ps d, Z.of_nat (b + i)).
Proof.
  revert i. induction data as [|[d0 s0] t IH]; intros [|i] H b; try discriminate; cbn [length seq combine map find_id] in *.
  - injection H as -> ->. rewrite Nat.add_0_r, Z.eqb_refl. reflexivity.
  - destruct (Z.eqb_spec (Z.of_nat b) (Z.of_nat (b + S i))) as [X|_]; [apply Nat2Z.inj in X; lia|].
    replace (b + S i) with (S b + i) by lia. apply (IH i H).
Qed.

Lemma inputs_sim (data : list (nat * storage)) :
  map fst data = N ->
  forall todo ids done es mp, sim es mp done -> NoDup todo -> (forall d, In d todo -> ~ In d done) ->
  (forall d, In d todo -> exists s, nth_error ps d = Some (mkPh s None)) ->
  Forall2 (fun z d => exists i, z = Z.of_nat i /\ nth_error N i = Some d) ids todo ->
  exists es' mp', build_inputs (map (fun '(i, (d, _)) => (Z.of_nat i, (shape_at ps d, Z.of_nat i))) (combine (seq 0 (length data)) data)) ids mp es = RVal es' mp' /\
    sim es' mp' (rev todo ++ done).
Proof.
  intros EN. induction todo as [|d t IH]; intros ids done es mp S NDt NI LF F2; inversion F2 as [|z ? ids' ? (i & -> & Hi) F2']; subst.
  - exists es, mp. split; [reflexivity|exact S].
  - cbn [build_inputs]. assert (HD : exists s, nth_error data i = Some (d, s)).
    { rewrite <- EN, nth_error_map in Hi. destruct (nth_error data i) as [[d' s']|] eqn:E; cbn in Hi; [|discriminate]. injection Hi as ->. eauto. }
    destruct HD as (st & HD). pose proof (phm_find data i d st HD 0) as PF. cbn [Nat.add] in PF. unfold at_id. rewrite PF.
    cbn [new_input]. inversion NDt as [|? ? NDd NDt']; subst.
    destruct (LF d (or_introl eq_refl)) as (s & Hs).
    destruct (IH ids' (d :: done) (fst (new_input (shape_at ps d) es)) (emplace_id mp (Z.of_nat i) (length (es_ph es)))) as (es' & mp' & E & S').
    + eapply (sim_add es mp done d i (mkPh s None) []); [exact S|apply NI; left; reflexivity|exact Hi|apply built_input, S| |cbn; rewrite app_nil_r; reflexivity|].
      * cbn. unfold shape_at. rewrite Hs. reflexivity.
      * split; intros; congruence.
    + exact NDt'.
    + intros e He [<-|X]; [contradiction|]. apply (NI e); [right; exact He|exact X].
    + intros e He. apply LF. right; exact He.
    + exact F2'.
    + exists es', mp'. split; [exact E|]. cbn. rewrite <- app_assoc. exact S'.
Qed.

(** Layers. *)
Variable opi : mop -> opinfo R.
Hypothesis OPI : forall op li, nth_error infos (mo_info op) = Some li ->
  opi op = mkOI (li_name li) (li_type li) (li_attrs li) (map Z.of_nat (mo_in op)) (map Z.of_nat (mo_out op)).

Lemma at_ids mp done es ids args : sim es mp done -> Forall2 (fun a j => nth_error N j = Some a) args ids -> Forall (fun a => In a done) args ->
  exists args', map_res (at_id mp) (map Z.of_nat ids) = Ok args' /\ Forall2 (at_num mp) args args'.
Proof.
  intros S F. induction F as [|a j args ids Ha _ IH]; intros D; cbn; [exists []; auto|].
  inversion D as [|? ? Da Dt]; subst. destruct (IH Dt) as (args' & E & F'). destruct (s_done _ _ _ S a Da) as (p & i & Hi & Hp).
  rewrite (index_inj i j a Hi Ha) in Hp. exists (p :: args'). unfold at_id at 1. rewrite Hp. cbn. rewrite E. cbn. split; [reflexivity|].
  constructor; [|exact F']. exists j. auto.
Qed.

Lemma map_res_app {A B} (f : A -> res B) l1 l2 r1 r2 : map_res f l1 = Ok r1 -> map_res f l2 = Ok r2 -> map_res f (l1 ++ l2) = Ok (r1 ++ r2).
Proof.
  revert r1. induction l1 as [|a t IH]; intros r1 H1 H2; cbn in *.
  - injection H1 as <-. exact H2.
  - destruct (f a) as [x| |]; cbn [bind] in *; try discriminate. destruct (map_res f t) as [y| |]; cbn [bind] in *; try discriminate.
    injection H1 as <-. rewrite (IH y eq_refl H2). reflexivity.
Qed.

Lemma shapes_copy es mp done args args' ss : sim es mp done -> Forall2 (at_num mp) args args' -> shapes ps args = Ok ss -> shapes (es_ph es) args' = Ok ss.
Proof.
  intros S F H. apply shapes_nth. apply shapes_nth in H. revert ss H. induction F as [|a p args args' Ha _ IH]; intros ss H; inversion H as [|? s ? l (x & Hx & <-) Hl]; subst; constructor; [|apply IH, Hl].
  destruct (s_ph _ _ _ S a p Ha) as (y & Hy & O1 & O2). exists y. split; [exact Hy|]. destruct x as [s [[j ag]|]]; cbn.
  - destruct (O2 _ _ _ Hx) as (j' & args'' & li & li' & -> & _). reflexivity.
  - rewrite (O1 _ Hx). reflexivity.
Qed.

Lemma ops_sim I : forall ops k0 done es mp, sim es mp done ->
  (ops <> [] -> exists z, find_id mp 0%Z = Some z) ->
  NoDup (map mo_ph ops) -> (forall op, In op ops -> ~ In (mo_ph op) done) ->
  (forall op, In op ops -> exists s args k ids i, nth_error ps (mo_ph op) = Some (mkPh s (Some (mo_info op, args))) /\
     Forall2 (fun a j => nth_error N j = Some a) args ids /\ nth_error N i = Some (mo_ph op) /\
     mo_in op = ids ++ repeat 0 (k * length args) /\ mo_out op = i :: repeat 0 k) ->
  (forall pre op post args a, ops = pre ++ op :: post -> call ps (mo_ph op) args -> In a args -> In a done \/ In a (map mo_ph pre)) ->
  exists es' mp', build_ops I k0 (map opi ops) mp es = RVal es' mp' /\ sim es' mp' (rev (map mo_ph ops) ++ done).
Proof.
  induction ops as [|op t IH]; intros k0 done es mp S Z0 NDo NI FO OR.
  - exists es, mp. split; [reflexivity|exact S].
  - cbn [map build_ops]. destruct (FO op (or_introl eq_refl)) as (s & args & k & ids & i & Hd & Fi & Hi & E1 & E2).
    destruct SO as [SI SC]. destruct (SC _ _ _ _ Hd) as (_ & li & kd & ss & Hli & Hk & La & Hss & Hos). cbn in Hli, Hss.
    rewrite (OPI op li Hli). cbn [oi_in oi_out oi_type oi_name oi_attrs].
    assert (DA : Forall (fun a => In a done) args).
    { apply Forall_forall. intros a Ha. destruct (OR [] op t args a eq_refl) as [X|[]]; [exists s, (mo_info op); exact Hd|exact Ha|exact X]. }
    destruct (at_ids mp done es ids args S Fi DA) as (args' & M1 & F').
    destruct (Z0 ltac:(discriminate)) as (z & Z0'). clear Z0. rename Z0' into Z0.
    assert (M2 : map_res (at_id mp) (map Z.of_nat (repeat 0 (k * length args))) = Ok (repeat z (k * length args))).
    { clear -Z0. induction (k * length args) as [|n IH]; cbn; [reflexivity|]. unfold at_id at 1. rewrite Z0. cbn. rewrite IH. reflexivity. }
    rewrite E1, map_app, (map_res_app _ _ _ _ _ M1 M2), E2. cbn [map].
    pose proof (shapes_copy es mp done args args' ss S F' Hss) as SH.
    assert (IO : info_ok li) by (rewrite Forall_forall in SI; apply SI; eapply nth_error_In; exact Hli).
    pose proof (info_construct li kd (li_name li) IO Hk) as CO.
    destruct (RDY _ _ _ _ li kd ss Hd Hli Hk Hss (I k0) (mkLI (li_name li) (li_type li) (li_attrs li) [] []) eq_refl) as (li1 & LI).
    pose proof (linit_grown kd (I k0) ss (mkLI (li_name li) (li_type li) (li_attrs li) [] [])) as G. rewrite LI in G. cbn in G. destruct G as ((G1 & G2 & G3) & _). cbn in G1, G2, G3.
    assert (La' : length args' = num_in kd) by (rewrite <- La; clear -F'; induction F'; cbn; congruence).
    assert (ML : make_layer (I k0) (li_type li) (li_name li) (li_attrs li) (args' ++ repeat z (k * length args)) es =
                 RVal (mkES (es_ph es ++ [mkPh s (Some (length (es_info es), args'))]) (es_info es ++ [li1])) (length (es_ph es))).
    { apply (make_layer_copy _ _ _ _ kd _ li1 args' _ es ss s Hk CO La' SH LI). rewrite <- G3. exact Hos. }
    rewrite ML. inversion NDo as [|? ? NDd NDo']; subst.
    assert (S2 : sim (mkES (es_ph es ++ [mkPh s (Some (length (es_info es), args'))]) (es_info es ++ [li1])) (emplace_id mp (Z.of_nat i) (length (es_ph es))) (mo_ph op :: done)).
    { eapply (sim_add es mp done (mo_ph op) i (mkPh s (Some (length (es_info es), args'))) [li1]); [exact S|apply NI; left; reflexivity|exact Hi| |reflexivity|reflexivity|].
      - eapply built_make; [exact (s_built _ _ _ S)| |exact ML].
        apply Forall_app. split.
        + clear -F' S. induction F' as [|a p l l' Ha _ IHl]; constructor; [|exact IHl]. destruct (s_ph _ _ _ S _ _ Ha) as (x & Hx & _). apply nth_error_Some. congruence.
        + apply Forall_forall. intros x Hx. apply repeat_spec in Hx. subst x. destruct (s_keys _ _ _ S _ _ Z0) as (d0 & j & Ej & Hj & _).
          assert (AN : at_num mp d0 z) by (exists j; split; [exact Hj|rewrite <- Ej; exact Z0]).
          destruct (s_ph _ _ _ S _ _ AN) as (x & Hx & _). apply nth_error_Some. congruence.
      - split; [intros s' H; congruence|]. intros s' j args0 H. rewrite Hd in H. injection H as <- <- <-.
        exists (length (es_info es)), args', li, li1. split; [reflexivity|]. split; [exact F'|]. split; [exact Hli|]. cbn [es_info es_ph].
        split; [rewrite nth_error_app2, Nat.sub_diag by lia; reflexivity|]. split; [repeat split; congruence|].
        exists kd, (I k0), ss, (mkLI (li_name li) (li_type li) (li_attrs li) [] []), li1.
        rewrite <- G1, <- G2, <- G3. split; [exact Hk|]. split; [apply shapes_nth, shapes_app, SH|]. split; [exact CO|]. split; [exact LI|].
        pose proof (linit_alike kd (I k0) (I k0) ss (mkLI (li_name li) (li_type li) (li_attrs li) [] []) (mkLI (li_name li) (li_type li) (li_attrs li) [] []) (alike_refl_new (mkLI (li_name li) (li_type li) (li_attrs li) [] []) eq_refl eq_refl)) as AL.
        rewrite LI in AL. exact AL. }
    destruct (IH (Datatypes.S k0) (mo_ph op :: done) _ _ S2) as (es' & mp' & E & S').
    + intros _. exists z. rewrite emplace_id_find, Z0. reflexivity.
    + exact NDo'.
    + intros o Ho [X|X]; [apply NDd; rewrite X; apply in_map, Ho|]. apply (NI o); [right; exact Ho|exact X].
    + intros o Ho. apply FO. right; exact Ho.
    + intros pre o post ag a Eo Ca Ha. destruct (OR (op :: pre) o post ag a) as [X|[<-|X]]; [cbn; rewrite Eo; reflexivity|exact Ca|exact Ha|left; right; exact X|left; left; reflexivity|right; exact X].
    + exists es', mp'. split; [exact E|]. cbn. rewrite <- app_assoc. exact S'.
Qed.

(** Marked placeholders. *)
Lemma marked_filter (st : nat -> storage) (s : storage) (want : nat -> bool) :
  (forall d, In d N -> want d = match s, st d with SInput, SInput | SOutput, SOutput => true | _, _ => false end) ->
  Forall2 (fun z d => exists i, z = Z.of_nat i /\ nth_error N i = Some d) (marked s (map (fun d => (d, st d)) N)) (filter want N).
Proof.
  intros W. unfold marked. rewrite map_length.
  assert (G : forall l b, (forall i d, nth_error l i = Some d -> nth_error N (b + i) = Some d) ->
    Forall2 (fun z d => exists i, z = Z.of_nat i /\ nth_error N i = Some d)
      (flat_map (fun '(i, (_, s')) => match s, s' with SInput, SInput | SOutput, SOutput => [Z.of_nat i] | _, _ => [] end) (combine (seq b (length l)) (map (fun d => (d, st d)) l)))
      (filter want l)).
  { induction l as [|d t IH]; intros b H; cbn [length seq map combine flat_map filter]; [constructor|].
    assert (Hd : nth_error N b = Some d) by (rewrite <- (Nat.add_0_r b); apply H; reflexivity).
    assert (T : Forall2 (fun z d => exists i, z = Z.of_nat i /\ nth_error N i = Some d)
      (flat_map (fun '(i, (_, s')) => match s, s' with SInput, SInput | SOutput, SOutput => [Z.of_nat i] | _, _ => [] end) (combine (seq (S b) (length t)) (map (fun d => (d, st d)) t)))
      (filter want t)).
    { apply IH. intros i e He. replace (S b + i) with (b + S i) by lia. apply H. exact He. }
    rewrite (W d (nth_error_In _ _ Hd)). destruct s, (st d); cbn [app]; try exact T; constructor; try exact T; exists b; auto. }
  apply (G N 0). auto.
Qed.

Lemma ids_found es mp done ids l : sim es mp done -> Forall2 (fun z d => exists i, z = Z.of_nat i /\ nth_error N i = Some d) ids l ->
  Forall (fun d => In d done) l -> exists l', map_res (at_id mp) ids = Ok l' /\ Forall2 (at_num mp) l l'.
Proof.
  intros S F. induction F as [|z d ids l (i & -> & Hi) _ IH]; intros D; [exists []; cbn; auto|].
  inversion D as [|? ? Dd Dt]; subst. destruct (IH Dt) as (l' & E & F'). destruct (s_done _ _ _ S d Dd) as (p & j & Hj & Hp).
  rewrite (index_inj j i d Hj Hi) in Hp. exists (p :: l'). cbn. unfold at_id at 1. rewrite Hp. cbn. rewrite E. split; [reflexivity|].
  constructor; [exists i; auto|exact F'].
Qed.
End Sim.
