(** Histories of calls on 32-bit ints. *)
From Coq Require Import Reals String Lia.
From Verif Require Import Base BaseFacts Sums M_Tensor M_Im2col S_Im2col M_Kernels M_Conv M_Layers M_Optim M_Nn M_Graph M_Model M_Backend M_Int M_IntModel S_Grad S_Graph S_Run S_Plain S_Int S_IntModel
  P_Graph P_Graph2 P_Nn P_Model P_Model2 P_Run P_Fwd P_Load P_Fwd2 P_Run2 P_Bwd P_Idem P_Idem2 P_Batch P_Layout P_Plain P_BN P_BN2 P_Vjp2 P_Eval P_BN3 P_Conv2 P_Int P_IntModel.
Open Scope nat_scope.

Lemma forr_index {S} (P : nat -> S -> Prop) n body s r : forr n body s = Ok r -> P 0 s ->
  (forall i s s', i < n -> body i s = Ok s' -> P i s -> P (Datatypes.S i) s') -> P n r.
Proof.
  revert r. induction n as [|n IH]; intros r H Ps K; cbn in H; [injection H as <-; exact Ps|].
  destruct (forr n body s) as [a| |] eqn:Ea; cbn [bind] in H; try discriminate. apply (K n a); [lia|exact H|]. apply (IH a); [reflexivity|exact Ps|]. intros i x y Hi. apply K. lia.
Qed.
Lemma wr_inv {V} (l : list V) i v l' : wr l i v = Ok l' -> i < length l /\ l' = upd l i v.
Proof. unfold wr. destruct (Nat.ltb_spec i (length l)); [intros [= <-]; auto|discriminate]. Qed.

(** ** What max pooling records *)
Definition inside (A : Prop) (rows n : nat) (ind : list nat) : Prop := forall q v, nth_error ind q = Some v -> A \/ q < n -> v < rows.
Lemma pool_cols_inside A am i rows cols col s s' : (forall f, 0 < rows -> am rows f < rows) -> pool_cols am i rows cols col s = Ok s' ->
  inside A rows (i * cols) (snd s) -> inside A rows (S i * cols) (snd s') /\ length (snd s') = length (snd s).
Proof.
  intros AM H I. unfold pool_cols in H.
  apply (forr_index (fun j t => inside A rows (i * cols + j) (snd t) /\ length (snd t) = length (snd s))) in H.
  - destruct H as [H1 H2]. split; [|exact H2]. replace (S i * cols) with (i * cols + cols) by lia. exact H1.
  - rewrite Nat.add_0_r. split; [exact I|reflexivity].
  - intros j [dst ind] [dst' ind'] Hj B [I1 L1]. cbn [snd] in *. destruct (Nat.eqb_spec rows 0); [discriminate|]. cbv zeta in B. inv_ok B. injection B as <- <-.
    match goal with X : wr ind _ _ = Ok _ |- _ => apply wr_inv in X; destruct X as [HL ->] end. split; [|rewrite upd_length; exact L1].
    intros q v Hq HA. rewrite nth_error_upd, (proj2 (Nat.ltb_lt _ _) HL) in Hq. destruct (Nat.eqb_spec (i * cols + j) q) as [<-|NE]; cbn [andb] in Hq.
    + injection Hq as <-. apply AM. lia.
    + apply (I1 q v Hq). destruct HA as [HA|HA]; [left; exact HA|right; lia].
Qed.
Lemma maxpool_inside A am g planes h w ho wo input output ind buf o' ind' buf' : (forall f, 0 < KH g * KW g -> am (KH g * KW g) f < KH g * KW g) ->
  maxpool_forward am g planes h w ho wo input output ind buf = Ok (o', ind', buf') -> inside A (KH g * KW g) 0 ind ->
  inside A (KH g * KW g) (planes * (ho * wo)) ind' /\ length ind' = length ind.
Proof.
  intros AM H I. unfold maxpool_forward in H. cbv zeta in H.
  apply (forr_index (fun i t => inside A (KH g * KW g) (i * (ho * wo)) (snd (fst t)) /\ length (snd (fst t)) = length ind)) in H.
  - exact H.
  - split; [exact I|reflexivity].
  - intros i [[o x] bf] [[o2 x2] bf2] Hi B [I1 L1]. cbn [fst snd] in *. inv_ok B.
    match goal with X : pool_cols _ _ _ _ _ _ = Ok ?p |- _ => destruct p as [o3 x3]; destruct (pool_cols_inside A _ _ _ _ _ _ _ AM X I1) as [C1 C2] end.
    cbn [fst snd] in *. injection B as <- <- <-. split; [exact C1|congruence].
Qed.

Lemma forward_positions E L i ir o os L' o' : lforward E L (i :: ir) (o :: os) = Ok (L', o') -> room L [tsh i] (tsh o) -> is_argmax (e_amax E) -> positions L -> positions L'.
Proof.
  intros H R AM P. destruct L; cbn [lforward] in H; try (unfold act_forward in H; inv_ok H; repeat match goal with p : (_ * _)%type |- _ => destruct p end; inv_ok H; injection H as <- <-; exact I; fail).
  destruct R as (n & c & h & w & ho & wo & Ei & Eo & WF & SZ & SC & K). injection Ei as Ei. unfold front in H. cbn [rd nth_error bind] in H.
  destruct (validate_geom g); cbn [bind] in H; try discriminate H. unfold maxpool_fwd in H. cbv zeta in H. unfold dims4 in H. rewrite Ei, Eo in H. cbn [rd nth_error bind] in H.
  set (ind1 := if nshape_eqb (ish ind) [n; c; ho; wo] then ind else mkIT [n; c; ho; wo] (tab (prodN [n; c; ho; wo]) (e_ijunk E))) in *.
  match type of H with context [maxpool_forward ?a ?b ?c ?d ?e ?f ?g ?h ?i ?j ?k] => destruct (maxpool_forward a b c d e f g h i j k) as [[[od id] bd]| |] eqn:F end; cbn [bind] in H; try discriminate H.
  injection H as <- <-. cbn [positions idat] in *.
  assert (AM' : forall f, 0 < KH g * KW g -> e_amax E (KH g * KW g) f < KH g * KW g) by (intros f Hk; apply AM, Hk).
  destruct (maxpool_inside (nshape_eqb (ish ind) [n; c; ho; wo] = true) _ _ _ _ _ _ _ _ _ _ _ _ _ _ AM' F) as [I1 I2].
  { intros q v Hq [HA|HA]; [|lia]. subst ind1. rewrite HA in Hq. rewrite Forall_forall in P. apply P. eapply nth_error_In, Hq. }
  apply Forall_forall. intros v Hv. apply In_nth_error in Hv. destruct Hv as (q & Hq). apply (I1 q v Hq).
  assert (Lq : q < length id) by (apply nth_error_Some; congruence). rewrite I2 in Lq. subst ind1. destruct (nshape_eqb (ish ind) [n; c; ho; wo]); [left; reflexivity|right].
  cbn [idat] in Lq. rewrite tab_length, prodN4 in Lq. rewrite <- !Nat.mul_assoc in *. exact Lq.
Qed.
Lemma forward_room E L ins outs L' o ishs osh : lforward E L ins outs = Ok (L', o) -> room L ishs osh -> room L' ishs osh.
Proof.
  intros H R. destruct L; cbn [lforward] in H; unfold act_forward in H; inv_ok H; repeat match goal with p : (_ * _)%type |- _ => destruct p end; inv_ok H; injection H as <- <-; exact R.
Qed.
Lemma backward_room E L ins outs gm gi go L' gm' ishs osh : lbackward E L ins outs gm gi go = Ok (L', gm') -> room L ishs osh -> positions L -> room L' ishs osh /\ positions L'.
Proof.
  intros H R P. destruct L; cbn [lbackward] in H; unfold act_backward in H; inv_ok H; repeat match goal with p : (_ * _)%type |- _ => destruct p end; inv_ok H; injection H as <- <-; split; assumption.
Qed.
Lemma forward_positions' E L ins1 ir o os L' o' : lforward E L (ins1 ++ ir) (o :: os) = Ok (L', o') -> room L (map tsh ins1) (tsh o) -> is_argmax (e_amax E) -> positions L -> positions L'.
Proof.
  intros H R AM P. destruct (lforward_kind _ _ _ _ _ _ H) as [K _]. destruct L; destruct L'; cbn in K; try contradiction; try exact I.
  destruct ins1 as [|i [|i2 ins1]].
  - destruct R as (n & c & h & w & ho & wo & Ei & _). discriminate Ei.
  - exact (forward_positions _ _ _ _ _ _ _ _ H R AM P).
  - destruct R as (n & c & h & w & ho & wo & Ei & _). discriminate Ei.
Qed.

Section Histories.
Variables (ps : list phnode) (ins outs : list nat) (m : model).
Hypothesis MF : mfacts ps ins outs m.
Hypothesis CL : closed ps ins outs.
Hypothesis PR : forall d, needed ps outs d -> proper (dims ps d).

Definition inv (ops : list mop) (ls : list layer) (infos : list linfo) : Prop :=
  forall j op L0 li L args, nth_error ops j = Some op -> nth_error ls j = Some L0 -> nth_error infos (mo_info op) = Some li -> load li L0 = Ok L ->
    call ps (mo_ph op) args -> room L (map (dims ps) args) (dims ps (mo_ph op)) /\ positions L.
Lemma inv_fits infos b : inv (m_ops m) (b_layers b) infos <-> fits_ints ps m infos b.
Proof.
  split.
  - intros H d L args (j & op & L0 & li & H1 & <- & H2 & H3 & H4) C. exact (H j op L0 li L args H1 H2 H3 H4 C).
  - intros H j op L0 li L args H1 H2 H3 H4 C. apply H; [|exact C]. exists j, op, L0, li. repeat split; assumption.
Qed.

(** One layer in another state. *)
Lemma inv_set op ops L0 ls infos L1 li' : ~ In (mo_info op) (map mo_info ops) -> inv (op :: ops) (L0 :: ls) infos ->
  (forall L args, load li' L1 = Ok L -> call ps (mo_ph op) args -> room L (map (dims ps) args) (dims ps (mo_ph op)) /\ positions L) ->
  inv (op :: ops) (L1 :: ls) (upd infos (mo_info op) li').
Proof.
  intros NI H K [|j] o L li L2 args H1 H2 H3 H4 C; cbn in H1, H2.
  - injection H1 as <-. injection H2 as <-. rewrite nth_error_upd, Nat.eqb_refl in H3. cbn [andb] in H3.
    destruct (Nat.ltb_spec (mo_info op) (length infos)) as [X|X]; [injection H3 as <-; apply K; assumption|].
    apply nth_error_None in X. congruence.
  - rewrite nth_error_upd_neq in H3; [exact (H (S j) o L li L2 args H1 H2 H3 H4 C)|]. intros X. apply NI. rewrite X. apply in_map. eapply nth_error_In, H1.
Qed.
Lemma inv_tail op ops L ls infos : inv (op :: ops) (L :: ls) infos -> inv ops ls infos.
Proof. intros H j o L0 li L1 args H1 H2. exact (H (S j) o L0 li L1 args H1 H2). Qed.
Lemma inv_cons op ops L ls ls' infos infos' : ~ In (mo_info op) (map mo_info ops) -> inv (op :: ops) (L :: ls) infos -> inv ops ls' infos' ->
  nth_error infos' (mo_info op) = nth_error infos (mo_info op) -> inv (op :: ops) (L :: ls') infos'.
Proof.
  intros NI H K X [|j] o L0 li L1 args H1 H2 H3 H4 C.
  - cbn in H1, H2. injection H1 as <-. injection H2 as <-. rewrite X in H3. exact (H 0 op L li L1 args eq_refl eq_refl H3 H4 C).
  - exact (K j o L0 li L1 args H1 H2 H3 H4 C).
Qed.

Lemma step_inv E op ops L0 ls infos mem i1 L1 m1 : In op (m_ops m) -> good ps outs m mem -> is_argmax (e_amax E) -> ~ In (mo_info op) (map mo_info ops) ->
  fwd_step E op L0 infos mem = Ok (i1, L1, m1) -> inv (op :: ops) (L0 :: ls) infos -> inv (op :: ops) (L1 :: ls) i1.
Proof.
  intros I G AM NI H IV. destruct (op_spec _ _ _ _ MF op I) as (args & k & N & C & _ & Ei & Eo & NA). unfold fwd_step in H.
  destruct (extract mem (mo_in op)) as [is| |] eqn:X1; cbn [bind] in H; try discriminate H. destruct (extract mem (mo_out op)) as [os| |] eqn:X2; cbn [bind] in H; try discriminate H.
  destruct (rd infos (mo_info op)) as [li| |] eqn:X3; cbn [bind] in H; try discriminate H. destruct (load li L0) as [L| |] eqn:X4; cbn [bind] in H; try discriminate H.
  destruct (lforward E L is os) as [[L2 o2]| |] eqn:X5; cbn [bind] in H; try discriminate H. inv_ok H. injection H as <- <- <-.
  rewrite Ei in X1. destruct (extract_args _ _ _ _ G _ _ _ NA X1) as (t1 & t2 & -> & ES).
  rewrite Eo in X2. change (num m (mo_ph op) :: repeat 0 k) with (map (num m) [mo_ph op] ++ repeat 0 k) in X2.
  destruct (extract_args _ _ _ _ G _ _ _ (only ps outs _ N) X2) as (o1 & o3 & -> & EO).
  destruct o1 as [|o [|]]; try discriminate EO. cbn [map] in EO. injection EO as EO. cbn [app] in *.
  assert (HL : nth_error infos (mo_info op) = Some li) by (rewrite rd_nth in X3; destruct (nth_error infos (mo_info op)); [congruence|discriminate]).
  destruct (IV 0 op L0 li L args eq_refl eq_refl HL X4 C) as [RL PL].
  apply inv_set with (L0 := L0); [exact NI|exact IV|]. intros L3 args' LD C'. rewrite (call_fun ps _ _ _ C' C). clear C' args'.
  rewrite (load_store _ _ _ _ X4 (proj1 (lforward_kind _ _ _ _ _ _ X5))) in LD. injection LD as <-. split; [exact (forward_room _ _ _ _ _ _ _ _ X5 RL)|].
  eapply forward_positions'; [exact X5| |exact AM|exact PL]. rewrite ES, EO. exact RL.
Qed.

Lemma ops_inv E : (forall d, is_argmax (e_amax (E d))) -> forall ops ls infos mem i1 l1 m1, incl ops (m_ops m) -> NoDup (map mo_info ops) -> good ps outs m mem ->
  inv ops ls infos -> outcome (fwd_ops E ops ls infos mem) (i1, l1, m1) ->
  inv ops l1 i1 /\ good ps outs m m1 /\ (forall j, ~ In j (map mo_info ops) -> nth_error i1 j = nth_error infos j).
Proof.
  intros AM. induction ops as [|op ops IH]; intros ls infos mem i1 l1 m1 I ND G IV H; cbn in H.
  - destruct H as [H|H]; [|discriminate]. injection H as <- <- <-. auto.
  - destruct ls as [|L0 ls]; [destruct H; discriminate|]. inversion ND as [|? ? NI ND']; subst.
    destruct (fwd_step _ _ _ _ _) as [[[i2 L2] m2]| |] eqn:ST; cbn [lift] in H; [|destruct H as [H|H]; try discriminate H; injection H as <- <- <-; auto|destruct H; discriminate].
    pose proof (step_inv _ _ ops _ ls _ _ _ _ _ (I _ (or_introl eq_refl)) G (AM _) NI ST IV) as IV2. destruct (fwd_step_frame _ _ _ _ _ _ _ _ ST) as (SS & _ & FI).
    assert (X : exists l3, outcome (fwd_ops E ops ls i2 m2) (i1, l3, m1) /\ l1 = L2 :: l3).
    { destruct (fwd_ops E ops ls i2 m2) as [[[a b] c]|[[a b] c]|]; destruct H as [H|H]; try discriminate H; injection H as <- <- <-; eexists; (split; [first [left; reflexivity|right; reflexivity]|reflexivity]). }
    destruct X as (l3 & X & ->). destruct (IH ls i2 m2 i1 l3 m1 (fun x Hx => I x (or_intror Hx)) ND' (good_same _ _ _ _ _ G SS) (inv_tail _ _ _ _ _ IV2) X) as (A & B & C).
    split; [|split; [exact B|]].
    + apply inv_cons with (ls := ls) (infos := i2); [exact NI|exact IV2|exact A|]. apply C, NI.
    + intros j Hj. rewrite C, FI; [reflexivity| |]; intros Y; apply Hj; [left; congruence|right; exact Y].
Qed.

Lemma bstep_inv E op ops L0 ls infos mem gr i1 L1 g1 : ~ In (mo_info op) (map mo_info ops) -> (exists args, call ps (mo_ph op) args) ->
  outcome (bwd_step E mem op L0 infos gr) (i1, L1, g1) -> inv (op :: ops) (L0 :: ls) infos -> inv (op :: ops) (L1 :: ls) i1.
Proof.
  intros NI (args & C) H IV. unfold bwd_step, lift, outcome in H.
  destruct (bind (extract gr (mo_in op)) _) as [[[[[is os] gouts] li] L]| |] eqn:E1;
    [|destruct H as [H|H]; try discriminate H; injection H as <- <- <-; exact IV|destruct H; discriminate].
  inv_ok E1. injection E1 as <- <- <- <- <-.
  match goal with X : rd infos _ = Ok ?l |- _ => assert (HL : nth_error infos (mo_info op) = Some l) by (rewrite rd_nth in X; destruct (nth_error infos (mo_info op)); [congruence|discriminate]) end.
  match goal with X : load _ L0 = Ok _ |- _ => pose proof X as LD; destruct (IV 0 op L0 _ _ args eq_refl eq_refl HL X C) as [RL PL] end.
  match type of H with context [lupdate ?e ?l ?i ?g] => destruct (lupdate e l i g) as [L2| |] eqn:U2 end;
    [|destruct H as [H|H]; try discriminate H; injection H as <- <- <-; exact IV|destruct H; discriminate].
  destruct (room_updated _ _ _ _ _ _ _ U2 RL PL) as [R2 P2]. destruct (lupdate_kind _ _ _ _ _ U2) as [K2 _].
  match type of H with context [lbackward ?a ?b ?c ?d ?e ?f ?g] => destruct (lbackward a b c d e f g) as [[L3 g3]| |] eqn:U3 end; [| |destruct H; discriminate].
  - destruct H as [H|H]; [|discriminate H]. injection H as <- <- <-. destruct (backward_room _ _ _ _ _ _ _ _ _ _ _ U3 R2 P2) as [R3 P3].
    apply inv_set with (L0 := L0); [exact NI|exact IV|]. intros L4 args' LD' C'. rewrite (call_fun ps _ _ _ C' C).
    rewrite (load_store _ _ _ _ LD) in LD'; [injection LD' as <-; split; assumption|]. eapply same_kind_trans; [exact K2|apply (lbackward_kind _ _ _ _ _ _ _ _ _ U3)].
  - destruct H as [H|H]; [discriminate H|]. injection H as <- <- <-.
    apply inv_set with (L0 := L0); [exact NI|exact IV|]. intros L4 args' LD' C'. rewrite (call_fun ps _ _ _ C' C).
    rewrite (load_store _ _ _ _ LD) in LD'; [injection LD' as <-; split; assumption|exact K2].
Qed.
Lemma bops_inv E mem : forall ops ls infos gr i1 l1 g1, incl ops (m_ops m) -> NoDup (map mo_info ops) -> inv ops ls infos -> outcome (bwd_ops E mem ops ls infos gr) (i1, l1, g1) ->
  inv ops l1 i1 /\ (forall j, ~ In j (map mo_info ops) -> nth_error i1 j = nth_error infos j).
Proof.
  induction ops as [|op ops IH]; intros ls infos gr i1 l1 g1 I ND IV H; cbn in H.
  - destruct H as [H|H]; [|discriminate]. injection H as <- <- <-. auto.
  - destruct ls as [|L0 ls]; [destruct H; discriminate|]. inversion ND as [|? ? NI ND']; subst.
    destruct (op_spec _ _ _ _ MF op (I _ (or_introl eq_refl))) as (args & k & _ & C & _).
    destruct (bwd_ops E mem ops ls infos gr) as [[[i0 l0] g0]|[[i0 l0] g0]|] eqn:E0; [| |destruct H; discriminate].
    + destruct (IH ls infos gr i0 l0 g0 (fun x Hx => I x (or_intror Hx)) ND' (inv_tail _ _ _ _ _ IV) (or_introl E0)) as [A B].
      pose proof (inv_cons op ops L0 ls l0 infos i0 NI IV A (B _ NI)) as IV0.
      assert (X : exists L2, outcome (bwd_step (E (mo_ph op)) mem op L0 i0 g0) (i1, L2, g1) /\ l1 = L2 :: l0).
      { destruct (bwd_step (E (mo_ph op)) mem op L0 i0 g0) as [[[i2 L2] g2]|[[i2 L2] g2]|]; destruct H as [H|H]; try discriminate H; injection H as <- <- <-; eexists; (split; [first [left; reflexivity|right; reflexivity]|reflexivity]). }
      destruct X as (L2 & X & ->). split; [eapply bstep_inv; [exact NI|exists args; exact C|exact X|exact IV0]|].
      intros j Hj. rewrite (bwd_step_other _ _ _ _ _ _ _ _ _ X), B; [reflexivity| |]; intros Y; apply Hj; [right; exact Y|left; congruence].
    + destruct H as [H|H]; [discriminate|]. injection H as <- <- <-.
      destruct (IH ls infos gr i0 l0 g0 (fun x Hx => I x (or_intror Hx)) ND' (inv_tail _ _ _ _ _ IV) (or_intror E0)) as [A B].
      split; [exact (inv_cons op ops L0 ls l0 infos i0 NI IV A (B _ NI))|]. intros j Hj. apply B. intros Y. apply Hj. right. exact Y.
Qed.

(** ** The state between calls *)
Definition state_ok (s : mstate) : Prop := match snd s with None => True | Some b => fits0 ps m b /\ fits_ints ps m (fst s) b end.

Lemma forward_state E infos b tins touts r : fits0 ps m b -> fits_ints ps m infos b -> shaped ps ins tins -> shaped ps outs touts -> (forall d, is_argmax (e_amax (E d))) ->
  outcome (model_forward E m infos (Some b) tins touts) r -> state_ok (fst (fst r)).
Proof.
  intros BF FI SI SO AM H. cbn [model_forward] in H. unfold backend_forward in H.
  destruct (bind_good _ _ _ _ MF CL b tins touts BF SI SO) as (m1 & mem & E1 & E2 & E3 & E4 & G). rewrite E1, E2 in H. cbn [bind] in H. rewrite E3 in H. cbn [bind] in H. rewrite E4 in H. cbn [bind] in H.
  assert (X : exists i1 l1 mm, outcome (fwd_ops E (m_ops m) (b_layers b) infos mem) (i1, l1, mm) /\ fst (fst r) = (i1, Some (mkB l1 mm (b_grad b)))).
  { destruct (fwd_ops E (m_ops m) (b_layers b) infos mem) as [[[i1 l1] mm]|[[i1 l1] mm]|]; [| |destruct H; discriminate];
      try (match type of H with context [unbind ?a ?b ?c ?d] => destruct (unbind a b c d) end); try (match type of H with context [unbind ?a ?b ?c ?d] => destruct (unbind a b c d) end); destruct H as [H|H]; try discriminate H; injection H; clear H; intros <-; exists i1, l1, mm; (split; [first [left; reflexivity|right; reflexivity]|reflexivity]). }
  destruct X as (i1 & l1 & mm & X & ->). destruct (ops_inv E AM _ _ _ _ _ _ _ (incl_refl _) (mf_infos _ _ _ _ MF) G (proj2 (inv_fits infos b) FI) X) as (A & B & _).
  split; [|exact (proj1 (inv_fits i1 (mkB l1 mm (b_grad b))) A)]. destruct BF as (_ & BG & BD). apply (good_fits0 _ _ _ _ MF); [exact B|exact BG|]. intros i d s Hd NS. apply (BD i d s Hd), NS.
Qed.

Lemma backward_state E infos b tins touts gouts r : fits0 ps m b -> fits_ints ps m infos b -> shaped ps ins tins -> shaped ps outs touts -> shaped ps outs gouts ->
  outcome (model_backward E m infos (Some b) tins touts gouts) r -> state_ok (fst r).
Proof.
  intros BF FI SI SO SG H. cbn [model_backward] in H. unfold backend_backward in H. cbv zeta in H.
  destruct (bind_good _ _ _ _ MF CL b tins touts BF SI SO) as (m1 & mem & E1 & E2 & E3 & E4 & G). rewrite E1, E2 in H. cbn [bind] in H. rewrite E3 in H. cbn [bind] in H. rewrite E4 in H. cbn [bind] in H.
  destruct (grad_good _ _ _ _ MF CL b gouts BF SG) as (gr & EG & GG). rewrite EG in H. cbn [bind] in H.
  assert (X : exists i1 l1 g1, outcome (bwd_ops E mem (m_ops m) (b_layers b) infos gr) (i1, l1, g1) /\ fst r = (i1, Some (mkB l1 mem g1))).
  { destruct (bwd_ops E mem (m_ops m) (b_layers b) infos gr) as [[[i1 l1] g1]|[[i1 l1] g1]|]; [| |destruct H; discriminate];
      try (match type of H with context [unbind ?a ?b ?c ?d] => destruct (unbind a b c d) end); destruct H as [H|H]; try discriminate H; injection H; clear H; intros <-; exists i1, l1, g1; (split; [first [left; reflexivity|right; reflexivity]|reflexivity]). }
  destruct X as (i1 & l1 & g1 & X & ->). destruct (bops_inv E _ _ _ _ _ _ _ _ (incl_refl _) (mf_infos _ _ _ _ MF) (proj2 (inv_fits infos b) FI) X) as (A & _).
  split; [|exact (proj1 (inv_fits i1 (mkB l1 mem g1)) A)].
  pose proof (good_same _ _ _ _ _ GG (dims_shapes _ _ (proj1 (bwd_framed _ _ _ _ _ _ _ _ _ X)))) as [GL GN].
  apply (good_fits0 _ _ _ _ MF); [exact G|exact GL|]. intros i d s Hd NS.
  assert (N : needed ps outs d) by (apply (mf_data _ _ _ _ MF), in_map_iff; exists (d, s); split; [reflexivity|eapply nth_error_In, Hd]).
  assert (num m d = i) as <- by (apply (num_of _ _ _ _ MF); rewrite nth_error_map, Hd; reflexivity). apply GN, N.
Qed.

(** Changes that keep shapes. *)
Lemma find_shapes l l' k p' : Forall2 (fun e e' : string * prm => fst e' = fst e /\ tsh (p_data (snd e')) = tsh (p_data (snd e)) /\ tsh (p_grad (snd e')) = tsh (p_grad (snd e))) l l' ->
  find_key l' k = Some p' -> exists p, find_key l k = Some p /\ tsh (p_data p') = tsh (p_data p) /\ tsh (p_grad p') = tsh (p_grad p).
Proof.
  induction 1 as [|[x p] [x' q] l1 l2 (A & B & C) _ IH]; intros F; [discriminate|]. cbn in A, B, C, F |- *. subst x'. destruct (String.eqb x k); [|apply IH, F].
  injection F as <-. exists p. auto.
Qed.
Lemma keeps_fits infos infos' b : keeps_shapes infos infos' -> fits_ints ps m infos b -> fits_ints ps m infos' b.
Proof.
  intros K H d L args (j & op & L0 & li' & H1 & H2 & H3 & H4 & H5) C.
  assert (X : exists li, nth_error infos (mo_info op) = Some li /\ Forall2 (fun e e' : string * prm => fst e' = fst e /\ tsh (p_data (snd e')) = tsh (p_data (snd e)) /\ tsh (p_grad (snd e')) = tsh (p_grad (snd e))) (li_params li) (li_params li')).
  { clear -K H4. revert H4. generalize (mo_info op) as n. induction K as [|a b l1 l2 R _ IH]; intros [|n] H; try discriminate; cbn in *; [injection H as <-; exists a; auto|apply IH, H]. }
  destruct X as (li & Hl & F).
  destruct L0; cbn in H5; inv_ok H5; injection H5 as <-; try (split; exact I).
  - unfold par in *. destruct (find_key (li_params li') "weight") as [w'|] eqn:Fw; [|discriminate]. destruct (find_key (li_params li') "bias") as [b'|] eqn:Fb; [|discriminate].
    destruct (find_shapes _ _ _ _ F Fw) as (ww & Fw0 & W1 & W2). destruct (find_shapes _ _ _ _ F Fb) as (bb & Fb0 & _).
    destruct (H d (LConv g ww bb buf) args) as [R P]; [|exact C|].
    + exists j, op, (LConv g W b0 buf), li. split; [exact H1|]. split; [exact H2|]. split; [exact H3|]. split; [exact Hl|]. cbn. unfold par. rewrite Fw0, Fb0. reflexivity.
    + split; [|exact I]. destruct R as (n & cin & h & w1 & cout & ho & wo & R1 & R2 & R3 & R4 & R5). injection E as <-. exists n, cin, h, w1, cout, ho, wo. rewrite W1, W2. tauto.
  - apply (H d _ args); [|exact C]. exists j, op, (LMaxPool g ind buf), li. split; [exact H1|]. split; [exact H2|]. split; [exact H3|]. split; [exact Hl|]. reflexivity.
Qed.
Lemma keeps_refl infos : keeps_shapes infos infos.
Proof. induction infos as [|li l IH]; constructor; [|exact IH]. induction (li_params li); constructor; auto. Qed.
Lemma keeps_trans a b c : keeps_shapes a b -> keeps_shapes b c -> keeps_shapes a c.
Proof.
  intros H. revert c. induction H as [|x y l1 l2 R _ IH]; intros c K; inversion K as [|? z ? l3 S K']; subst; constructor; [|apply IH; exact K'].
  clear -R S. revert R S. generalize (li_params x) as p, (li_params y) as q, (li_params z) as r. intros p q r R. revert r. induction R as [|e e' p q (A & B & C) _ IH]; intros r S; inversion S as [|? e2 ? r2 (A' & B' & C') S']; subst; constructor; [|apply IH; exact S'].
  split; [congruence|]. split; congruence.
Qed.
Lemma set_key_shapes (l : list (string * prm)) k p q : find_key l k = Some p -> tsh (p_data q) = tsh (p_data p) -> tsh (p_grad q) = tsh (p_grad p) ->
  Forall2 (fun e e' : string * prm => fst e' = fst e /\ tsh (p_data (snd e')) = tsh (p_data (snd e)) /\ tsh (p_grad (snd e')) = tsh (p_grad (snd e))) l (set_key l k q).
Proof.
  intros F A B. assert (R : forall l : list (string * prm), Forall2 (fun e e' : string * prm => fst e' = fst e /\ tsh (p_data (snd e')) = tsh (p_data (snd e)) /\ tsh (p_grad (snd e')) = tsh (p_grad (snd e))) l l) by (intros x; induction x; constructor; auto).
  induction l as [|[x w] t IH]; [discriminate|]. cbn in *. destruct (String.eqb_spec x k) as [->|]; [injection F as ->; constructor; [auto|apply R]|constructor; [auto|apply IH, F]].
Qed.
Lemma on_par_keeps f infos r : (forall p, tsh (p_data (f p)) = tsh (p_data p) /\ tsh (p_grad (f p)) = tsh (p_grad p)) -> keeps_shapes infos (on_par f infos r).
Proof.
  intros Hf. unfold on_par. destruct (nth_error infos (fst r)) as [li|] eqn:E; [|apply keeps_refl]. destruct (find_key (li_params li) (snd r)) as [p|] eqn:F; [|apply keeps_refl].
  revert E. generalize (fst r) as n. induction infos as [|x l IH]; intros [|n] E; try discriminate E; cbn in *.
  - injection E as ->. constructor; [|apply keeps_refl]. apply set_key_shapes with (p := p); [exact F|apply Hf|apply Hf].
  - constructor; [|apply IH, E]. induction (li_params x); constructor; auto.
Qed.
Lemma train_keeps mode infos : keeps_shapes infos (model_train mode m infos).
Proof.
  unfold model_train. revert infos. induction (m_params m) as [|e l IH]; intros infos; cbn; [apply keeps_refl|]. eapply keeps_trans; [|apply IH]. apply on_par_keeps. intros p. split; reflexivity.
Qed.

(** ** Histories *)
Lemma act_exact a s : suits ps ins outs a -> state_ok s -> act32 ps m a s = act ps m a s /\ forall s' e, act ps m a s = Some (s', e) -> state_ok s'.
Proof.
  intros SU OK. destruct s as [infos [b|]].
  - destruct OK as [BF FI]. destruct a as [junk|E xs ys|E xs ys gs|mode|f]; cbn [suits] in SU; [contradiction|..].
    + destruct SU as (SI & SO & AM). cbn [act32 act]. rewrite (forward_exact _ _ _ _ MF CL PR E infos b xs ys BF SI SO AM) by (intros d L args PD C; apply (FI d L args PD C)). split; [reflexivity|].
      intros s' e H. destruct (model_forward E m infos (Some b) xs ys) as [[[[i1 b1] x1] y1]|[[[i1 b1] x1] y1]|] eqn:F; try discriminate H; injection H as <- _.
      * exact (forward_state _ _ _ _ _ _ BF FI SI SO AM (or_introl F)).
      * exact (forward_state _ _ _ _ _ _ BF FI SI SO AM (or_intror F)).
    + destruct SU as (SI & SO & SG). cbn [act32 act]. rewrite (backward_exact _ _ _ _ MF CL PR E infos b xs ys gs BF SI SO SG FI). split; [reflexivity|].
      intros s' e H. destruct (model_backward E m infos (Some b) xs ys gs) as [[[i1 b1] x1]|[[i1 b1] x1]|] eqn:F; try discriminate H; injection H as <- _.
      * exact (backward_state _ _ _ _ _ _ _ BF FI SI SO SG (or_introl F)).
      * exact (backward_state _ _ _ _ _ _ _ BF FI SI SO SG (or_intror F)).
    + split; [reflexivity|]. intros s' e [= <- _]. split; [exact BF|]. cbn. exact (keeps_fits _ _ _ (train_keeps mode infos) FI).
    + split; [reflexivity|]. intros s' e [= <- _]. split; [exact BF|]. cbn. exact (keeps_fits _ _ _ (SU infos) FI).
  - destruct a as [junk|E xs ys|E xs ys gs|mode|f]; cbn [suits] in SU; [contradiction|..]; (split; [reflexivity|]); intros s' e [= <- _]; exact I.
Qed.
Lemma acts_exact h : forall s, Forall (suits ps ins outs) h -> state_ok s -> acts32 ps m h s = acts ps m h s.
Proof.
  induction h as [|a h IH]; intros s F OK; [reflexivity|]. inversion F as [|? ? S F']; subst. cbn. destruct (act_exact a s S OK) as [-> K].
  destruct (act ps m a s) as [[s' e]|]; [|reflexivity]. exact (IH s' F' (K s' e eq_refl)).
Qed.
Lemma acts_state h : forall s s', Forall (suits ps ins outs) h -> state_ok s -> acts ps m h s = Some s' -> state_ok s'.
Proof.
  induction h as [|a h IH]; intros s s' F OK H; [injection H as <-; exact OK|]. inversion F as [|? ? S F']; subst. cbn in H. destruct (act_exact a s S OK) as [_ K].
  destruct (act ps m a s) as [[s1 e]|] eqn:EA; [|discriminate]. exact (IH s1 s' F' (K s1 e eq_refl) H).
Qed.
End Histories.
