(** Forward passes with tensors of any shape: what keeps its shape, and batches of another size. *)
From Coq Require Import Reals String Lia.
From Verif Require Import Base BaseFacts Sums M_Tensor M_Layers M_Kernels M_Optim M_Nn M_Graph M_Model M_Backend S_Grad S_Graph S_Run
  P_Graph P_Graph2 P_Nn P_Model P_Model2 P_Run P_Fwd P_Load P_Fwd2 P_Run2 P_Idem P_Idem2.
Open Scope nat_scope.

(** ** Shapes *)
Ltac ok_all :=
  repeat match goal with
  | X : bind _ _ = Ok _ |- _ => inv_ok X
  | p : (_ * _)%type |- _ => destruct p
  | X : Ok _ = Ok _ |- _ => injection X; clear X; intros; subst
  | X : Throw = Ok _ |- _ => discriminate X
  | X : UB = Ok _ |- _ => discriminate X
  | X : (let '(_, _) := ?x in _) = Ok _ |- _ => destruct x
  | X : (if ?c then _ else _) = Ok _ |- _ => destruct c eqn:?
  end.
Lemma lforward_shape E L ins outs L' o : lforward E L ins outs = Ok (L', o) -> exists o0 t, outs = o0 :: t /\ tsh o = tsh o0.
Proof.
  intros H. destruct outs as [|o0 t].
  { exfalso. destruct L; cbn in H; unfold act_forward, validate_same, validate_rank, validate_linear in H; inv_ok H; try discriminate H; try (cbn in *; discriminate). }
  exists o0, t. split; [reflexivity|].
  destruct L; cbn in H; unfold act_forward, linear_fwd, conv_fwd, maxpool_fwd, bn1_fwd, bn2_fwd in H; cbv zeta in H; ok_all;
    repeat match goal with
    | X : front (o0 :: t) = Ok _ |- _ => cbn in X; injection X as <-
    | X : at_ (o0 :: t) 0 = Ok _ |- _ => cbn in X; injection X as <-
    end; reflexivity.
Qed.

Definition same_shapes (g g' : list ten) : Prop := Forall2 (fun t t' => tsh t' = tsh t) g g'.
Lemma same_shapes_refl g : same_shapes g g.
Proof. induction g; constructor; auto. Qed.
Lemma same_shapes_trans a b c : same_shapes a b -> same_shapes b c -> same_shapes a c.
Proof. intros H. revert c. induction H as [|x y l l' H _ IH]; intros c K; inversion K; subst; constructor; [congruence|apply IH; assumption]. Qed.
Lemma same_shapes_upd g : forall k t t', nth_error g k = Some t -> tsh t' = tsh t -> same_shapes g (upd g k t').
Proof.
  induction g as [|x g IH]; intros [|k] t t' H E; cbn in *; try discriminate.
  - injection H as ->. constructor; [exact E|apply same_shapes_refl].
  - constructor; [reflexivity|eapply IH; eassumption].
Qed.

(** What a step of the loop leaves alone. *)
Lemma fwd_step_frame E op L infos mem i1 L1 m1 : fwd_step E op L infos mem = Ok (i1, L1, m1) ->
  same_shapes mem m1 /\ (forall q, hd_error (mo_out op) <> Some q -> nth_error m1 q = nth_error mem q) /\
  (forall j, j <> mo_info op -> nth_error i1 j = nth_error infos j).
Proof.
  unfold fwd_step. intros H. inv_ok H. injection H as <- <- <-. rename t into o.
  destruct (lforward_shape _ _ _ _ _ _ E4) as (o0 & t & -> & ES). apply map_res_Forall2 in E1. inversion E1 as [|q0 ? qs ? Q _ EQ]. clear E1. subst.
  rewrite <- EQ in *. cbn in E5. injection E5 as <-. rewrite rd_nth in Q. destruct (nth_error mem q0) as [z|] eqn:EZ; [|discriminate]. injection Q as ->.
  unfold wr in E6. destruct (Nat.ltb_spec q0 (length mem)); [|discriminate]. injection E6 as <-.
  split; [eapply same_shapes_upd; eassumption|]. split.
  - intros q NQ. apply nth_error_upd_neq. cbn in NQ. congruence.
  - intros j NJ. apply nth_error_upd_neq. congruence.
Qed.

Lemma fwd_ops_shapes E ops : forall ls infos mem i1 l1 m1, fwd_ops E ops ls infos mem = Ret (i1, l1, m1) -> same_shapes mem m1.
Proof.
  induction ops as [|op ops IH]; intros ls infos mem i1 l1 m1 H; cbn in H; [injection H as _ _ <-; apply same_shapes_refl|].
  destruct ls as [|L ls]; [discriminate|]. destruct (fwd_step _ _ _ _ _) as [[[i2 L2] m2]| |] eqn:S; cbn in H; try discriminate H.
  destruct (fwd_ops E ops ls i2 m2) as [[[i3 l3] m3]|[[? ?] ?]|] eqn:F; try discriminate H. injection H as <- <- <-.
  eapply same_shapes_trans; [apply (fwd_step_frame _ _ _ _ _ _ _ _ S)|eapply IH, F].
Qed.

(** If the loop returns, so does every step of it, in a state that differs only where earlier operations write. *)
Lemma fwd_ops_step E op post : forall pre ls infos mem r, fwd_ops E (pre ++ op :: post) ls infos mem = Ret r ->
  exists L infos1 mem1 r1, nth_error ls (length pre) = Some L /\ fwd_step (E (mo_ph op)) op L infos1 mem1 = Ok r1 /\ same_shapes mem mem1 /\
    (forall q, (forall op', In op' pre -> hd_error (mo_out op') <> Some q) -> nth_error mem1 q = nth_error mem q) /\
    (forall j, ~ In j (map mo_info pre) -> nth_error infos1 j = nth_error infos j).
Proof.
  induction pre as [|op' pre IH]; intros ls infos mem r H; cbn in H; (destruct ls as [|L ls]; [discriminate|]);
    (destruct (fwd_step _ _ _ _ _) as [[[i2 L2] m2]| |] eqn:S; cbn in H; try discriminate H).
  - exists L, infos, mem, (i2, L2, m2). split; [reflexivity|]. split; [exact S|]. split; [apply same_shapes_refl|]. auto.
  - destruct (fwd_ops E (pre ++ op :: post) ls i2 m2) as [r2|[[? ?] ?]|] eqn:F; try discriminate H.
    destruct (IH _ _ _ _ F) as (L1 & i3 & m3 & r1 & NL & S1 & SS & FM & FI). destruct (fwd_step_frame _ _ _ _ _ _ _ _ S) as (SS2 & FM2 & FI2).
    exists L1, i3, m3, r1. split; [exact NL|]. split; [exact S1|]. split; [eapply same_shapes_trans; eassumption|]. split.
    + intros q Hq. rewrite FM, FM2; [reflexivity|apply Hq; left; reflexivity|]. intros o Ho. apply Hq. right. exact Ho.
    + intros j Hj. rewrite FI, FI2; [reflexivity| |]; intros X; apply Hj; [left; congruence|right; exact X].
Qed.

(** What the caller gets back has the shapes of what the caller gave. *)
Lemma bind_last ids : forall ts M M' i t, bind_ids (i :: ids) (t :: ts) M = Ok M' -> ~ In i ids -> nth_error M' i = Some t.
Proof.
  intros ts M M' i t H NI. cbn in H. unfold wr in H. destruct (Nat.ltb_spec i (length M)); [|discriminate]. cbn [bind] in H.
  destruct (bind_again ids ts _ _ _ eq_refl H) as (? & _ & _ & _ & _ & B). destruct (B i NI) as [-> _]. apply nth_error_upd_eq. assumption.
Qed.
Lemma unbind_shapes ids later : forall ts M M1 M2 G us, bind_ids ids ts M = Ok M1 -> (forall i, ~ In i later -> nth_error M2 i = nth_error M1 i) -> same_shapes M2 G ->
  unbind ids later G ts = Ok us -> map tsh us = map tsh ts.
Proof.
  induction ids as [|i ids IH]; intros [|t ts] M M1 M2 G us HB HL HS HU; try (cbn in HU; congruence).
  cbn in HU. inv_ok HU. injection HU as <-. cbn [map]. f_equal.
  - destruct (memb i (ids ++ later)) eqn:MM; [congruence|].
    assert (NI : ~ In i (ids ++ later)) by (intros X; apply memb_In in X; congruence).
    assert (N1 : ~ In i ids) by (intros X; apply NI, in_or_app; left; exact X). assert (N2 : ~ In i later) by (intros X; apply NI, in_or_app; right; exact X).
    pose proof (bind_last _ _ _ _ _ _ HB N1) as B. rewrite <- (HL i N2) in B. destruct (Forall2_nth_error _ _ _ HS i t B) as (t' & Gt & ST). unfold rd in E. rewrite Gt in E. injection E as <-. exact ST.
  - cbn in HB. unfold wr in HB. destruct (Nat.ltb_spec i (length M)); [|discriminate]. cbn [bind] in HB. eapply IH; eassumption.
Qed.
Lemma forward_shapes E m infos bo xs os infos' bo' xs' os' : model_forward E m infos bo xs os = Ret (infos', bo', xs', os') ->
  map tsh xs' = map tsh xs /\ map tsh os' = map tsh os.
Proof.
  destruct bo as [b|]; [|discriminate]. cbn. unfold backend_forward.
  destruct (map_res (id_of m) (m_in m)) as [ii| |]; cbn [bind]; try discriminate. destruct (map_res (id_of m) (m_out m)) as [oi| |]; cbn [bind]; try discriminate.
  destruct (bind_ids ii xs (b_mem b)) as [M1| |] eqn:B1; cbn [bind]; try discriminate. destruct (bind_ids oi os M1) as [M2| |] eqn:B2; cbn [bind]; try discriminate.
  destruct (fwd_ops E (m_ops m) (b_layers b) infos M2) as [[[i1 l1] G]|[[i1 l1] G]|] eqn:F; try discriminate.
  - destruct (unbind ii oi G xs) as [ux| |] eqn:U1; try discriminate. destruct (unbind oi [] G os) as [uo| |] eqn:U2; try discriminate. intros H. injection H as _ _ <- <-.
    pose proof (fwd_ops_shapes _ _ _ _ _ _ _ _ F) as SS. split.
    + eapply unbind_shapes; [exact B1| |exact SS|exact U1]. intros i Hi. destruct (bind_again oi os _ _ _ eq_refl B2) as (? & _ & _ & _ & _ & B). apply (B i Hi).
    + eapply unbind_shapes; [exact B2| |exact SS|exact U2]. intros i _. reflexivity.
  - destruct (unbind ii oi G xs), (unbind oi [] G os); discriminate.
Qed.

(** ** Batches of another size *)
Lemma linear_refuses E W c x xs o os k rest n u : tsh x = k :: rest -> rest <> [] -> tsh o = [n; u] -> k <> n ->
  (forall r, lforward E (LLinear W c) (x :: xs) (o :: os) <> Ok r) /\ lforward E (LLinear W c) [x] [o] = UB.
Proof.
  intros SX NR SO NK.
  assert (LF : linear_fwd W c x o = UB).
  { unfold linear_fwd, dim0, dims2. rewrite SX, SO, !rd_nth. destruct (nth_error (tsh (p_data W)) 0); cbn [bind]; [|reflexivity]. destruct (nth_error (tsh (p_data W)) 1); cbn [bind]; [|reflexivity].
    destruct (nth_error (tsh (p_data c)) 0); cbn [bind nth_error second_shape]; [|reflexivity]. unfold linear_forward, emap.
    repeat match goal with |- context [if ?q then _ else UB] => destruct q; cbn [bind]; try reflexivity end. unfold same.
    destruct (Nat.eqb_spec k n); [contradiction|]. destruct (_ =? _); reflexivity. }
  split.
  - intros r. cbn [lforward front rd nth_error bind]. destruct (validate_linear (x :: xs) (o :: os)); cbn [bind]; try discriminate. unfold front. cbn [rd nth_error bind]. rewrite LF. discriminate.
  - cbn [lforward]. unfold validate_linear, front, rd. cbn [length Nat.eqb dw_assert bind nth_error]. rewrite SX, SO. destruct rest; [contradiction|]. cbn [length Nat.eqb negb dw_assert bind]. rewrite LF. reflexivity.
Qed.

Section Other.
Variables (ps : list phnode) (ins outs : list nat) (m : model).
Hypothesis MF : mfacts ps ins outs m.
Hypothesis CL : closed ps ins outs.

Lemma bind_any b tins touts : backend_fits ps m b -> length tins = length ins -> shaped ps outs touts ->
  exists mem, (ii <- map_res (id_of m) (m_in m) ;; oi <- map_res (id_of m) (m_out m) ;; mem1 <- bind_ids ii tins (b_mem b) ;; mem2 <- bind_ids oi touts mem1 ;; Ok (ii, oi, mem2)) =
      Ok (map (num m) ins, map (num m) outs, mem) /\ length mem = length (m_data m) /\
    (forall k d t, nth_error ins k = Some d -> nth_error tins k = Some t -> nth_error mem (num m d) = Some t) /\
    (forall d, needed ps outs d -> ~ In d ins -> exists t, nth_error mem (num m d) = Some t /\ ten_ok (dims ps d) t).
Proof.
  intros BF LI SO. pose proof BF as (_ & BL & _ & BD). pose proof CL as (NI & NO & _).
  destruct (bind_Ok (map (num m) ins) tins (b_mem b)) as (m1 & E1 & L1 & A1 & B1).
  { rewrite map_length. lia. }
  { intros i Hi. apply in_map_iff in Hi. destruct Hi as (d & <- & Hd). rewrite BL. apply (id_num _ _ _ _ MF), (mf_needed_in _ _ _ _ MF), Hd. }
  { eapply NoDup_num; [exact MF|exact NI|apply (mf_needed_in _ _ _ _ MF)]. }
  destruct (bind_Ok (map (num m) outs) touts m1) as (m2 & E2 & L2 & A2 & B2).
  { rewrite map_length, (Forall2_len _ _ _ SO). lia. }
  { intros i Hi. apply in_map_iff in Hi. destruct Hi as (d & <- & Hd). rewrite L1, BL. apply (id_num _ _ _ _ MF), need_out, Hd. }
  { eapply NoDup_num; [exact MF|exact NO|intros d; apply need_out]. }
  exists m2. rewrite (mf_in _ _ _ _ MF), (mf_out _ _ _ _ MF), (ids_num _ _ _ _ MF ins) by apply (mf_needed_in _ _ _ _ MF). cbn [bind].
  rewrite (ids_num _ _ _ _ MF outs) by (intros d; apply need_out). cbn [bind]. rewrite E1. cbn [bind]. rewrite E2. cbn [bind]. split; [reflexivity|]. split; [congruence|]. split.
  - intros k d t Ek Et. rewrite B2.
    + apply (A1 k); [rewrite nth_error_map, Ek; reflexivity|exact Et].
    + intros X. apply in_map_iff in X. destruct X as (d' & Ed & Hd'). assert (Hd : In d ins) by (eapply nth_error_In; exact Ek).
      assert (d' = d) as -> by (eapply num_inj; [exact MF|apply need_out, Hd'|apply (mf_needed_in _ _ _ _ MF), Hd|exact Ed]).
      eapply in_out_disjoint; eassumption.
  - intros d Nd H1. destruct (in_dec Nat.eq_dec d outs) as [H2|H2].
    + apply In_nth_error in H2. destruct H2 as (k & Hk). destruct (Forall2_nth_error _ _ _ SO k d Hk) as (t & Ht & Tt). exists t. split; [|exact Tt].
      apply (A2 k); [rewrite nth_error_map, Hk; reflexivity|exact Ht].
    + rewrite B2, B1.
      * destruct (BD _ _ _ (data_at _ _ _ _ MF d Nd)) as [X _]. apply X, storage_internal; assumption.
      * intros X. apply in_map_iff in X. destruct X as (d' & Ed & Hd'). apply H1. rewrite <- (num_inj _ _ _ _ MF d' d); [exact Hd'|apply (mf_needed_in _ _ _ _ MF), Hd'|exact Nd|exact Ed].
      * intros X. apply in_map_iff in X. destruct X as (d' & Ed & Hd'). apply H2. rewrite <- (num_inj _ _ _ _ MF d' d); [exact Hd'|apply need_out, Hd'|exact Nd|exact Ed].
Qed.

Variables (infos : list linfo) (b : backend) (E : nat -> env) (tins touts : list ten) (d i p : nat) (W c : prm) (x : ten) (k : nat) (rest : list nat) (n u : nat).
Hypothesis BF : backend_fits ps m b.
Hypothesis LI : length tins = length ins.
Hypothesis SO : shaped ps outs touts.
Hypothesis PD : produces m infos b d (LLinear W c).
Hypothesis CA : call ps d [i].
Hypothesis HI : nth_error ins p = Some i.
Hypothesis HX : nth_error tins p = Some x.
Hypothesis SX : tsh x = k :: rest.
Hypothesis NR : rest <> [].
Hypothesis DD : dims ps d = [n; u].
Hypothesis NK : k <> n.

Lemma other_batch_never_returns : forall r, model_forward E m infos (Some b) tins touts <> Ret r.
Proof.
  intros r. cbn. unfold backend_forward. destruct (bind_any b tins touts BF LI SO) as (mem & -> & LM & MI & MO).
  destruct PD as (j & op & L0 & li & HJ & Ep & HL & Hli & LD).
  destruct (nth_error_split _ _ HJ) as (pre & post & EO & LP).
  destruct (op_spec _ _ _ _ MF op (nth_error_In _ _ HJ)) as (args & kk & N & C & VI & EI & EOut & NA). rewrite Ep in *. rewrite (call_fun _ _ _ _ C CA) in *.
  assert (ND : ~ In d ins) by (intros X; destruct CL as (_ & _ & K & _); apply (K _ X); eauto).
  destruct (MO d N ND) as (o & Ho & To).
  destruct (fwd_ops E (m_ops m) (b_layers b) infos mem) as [r0|[[i1 l1] G]|] eqn:F; [exfalso| |discriminate].
  2:{ destruct (unbind (map (num m) ins) (map (num m) outs) G tins), (unbind (map (num m) outs) [] G touts); discriminate. }
  rewrite EO in F. destruct (fwd_ops_step _ _ _ _ _ _ _ _ F) as (L1 & i1 & m1 & r1 & HL1 & ST & SS & FM & FI).
  rewrite LP, HL in HL1. injection HL1 as <-.
  assert (IN : In i ins) by (eapply nth_error_In; exact HI).
  assert (XI : nth_error m1 (num m i) = Some x).
  { rewrite FM; [exact (MI p i x HI HX)|]. intros op' Ho' X. destruct (op_spec _ _ _ _ MF op') as (a' & k' & N' & C' & _ & _ & EO' & _); [rewrite EO; apply in_or_app; left; exact Ho'|].
    rewrite EO' in X. cbn in X. injection X as X. destruct CL as (_ & _ & K & _). apply (K i IN). exists a'.
    replace i with (mo_ph op'); [exact C'|]. eapply num_inj; [exact MF|exact N'|apply (mf_needed_in _ _ _ _ MF), IN|exact X]. }
  assert (XO : exists o1, nth_error m1 (num m d) = Some o1 /\ tsh o1 = [n; u]).
  { destruct (Forall2_nth_error _ _ _ SS _ _ Ho) as (o1 & H1 & H2). exists o1. split; [exact H1|]. rewrite H2, <- DD. apply To. }
  destruct XO as (o1 & XO & SO1).
  assert (XL : nth_error i1 (mo_info op) = Some li).
  { rewrite FI; [exact Hli|]. pose proof (mf_infos _ _ _ _ MF) as NDI. rewrite EO, map_app in NDI. cbn in NDI. apply NoDup_remove_2 in NDI. intros X. apply NDI, in_or_app. left. exact X. }
  unfold fwd_step in ST. rewrite EI, EOut in ST. cbn [map app] in ST.
  destruct (extract m1 (num m i :: repeat 0 (kk * 1))) as [ea| |] eqn:EA; cbn [bind length] in ST; try (rewrite EA in ST; discriminate ST). cbn [length] in ST. rewrite EA in ST. cbn [bind] in ST.
  destruct (extract m1 (num m d :: repeat 0 kk)) as [eb| |] eqn:EB; cbn [bind] in ST; try discriminate ST.
  apply map_res_Forall2 in EA, EB. inversion EA as [|? x0 ? xs Q1 _]; subst. inversion EB as [|? y0 ? ys Q2 _]; subst.
  rewrite rd_nth, XI in Q1. injection Q1 as <-. rewrite rd_nth, XO in Q2. injection Q2 as <-.
  rewrite rd_nth, XL in ST. cbn [bind] in ST. rewrite LD in ST. cbn [bind] in ST.
  destruct (linear_refuses (E (mo_ph op)) W c x xs o1 ys k rest n u SX NR SO1 NK) as (LR & _). destruct (lforward _ _ _ _) as [q| |] eqn:Q; try discriminate ST. exact (LR q eq_refl).
Qed.

(** If no other operation can come first, the behaviour is undefined. *)
Lemma other_batch_undefined : visits ps outs d = 1 ->
  (forall d' args, needed ps outs d' -> call ps d' args -> d' = d \/ exists a z, In a args /\ call ps a z) ->
  model_forward E m infos (Some b) tins touts = Bad.
Proof.
  intros V1 ON. cbn. unfold backend_forward. destruct (bind_any b tins touts BF LI SO) as (mem & -> & LM & MI & MO).
  destruct PD as (j & op & L0 & li & HJ & Ep & HL & Hli & LD).
  destruct (m_ops m) as [|op1 ops] eqn:EO; [destruct j; discriminate HJ|].
  assert (P1 : mo_ph op1 = d).
  { destruct (op_spec _ _ _ _ MF op1) as (a1 & k1 & N1 & C1 & _); [rewrite EO; left; reflexivity|]. destruct (ON _ _ N1 C1) as [X|(a & z & Ia & Ca)]; [exact X|].
    exfalso. apply (mf_order _ _ _ _ MF [] op1 ops a1 a EO C1 Ia). eauto. }
  assert (J0 : nth_error (m_ops m) 0 = Some op1) by (rewrite EO; reflexivity). rewrite <- EO in HJ.
  destruct (op_at_unique _ _ _ _ MF j 0 op op1 HJ J0 ltac:(congruence)) as [-> ->].
  destruct (op_spec _ _ _ _ MF op1 (nth_error_In _ _ HJ)) as (args & kk & N & C & VI & EI & EOut & NA). rewrite Ep in *. rewrite (call_fun _ _ _ _ C CA) in *.
  assert (kk = 0) as -> by lia. cbn in EI, EOut.
  assert (ND : ~ In d ins) by (intros X; destruct CL as (_ & _ & K & _); apply (K _ X); eauto).
  destruct (MO d N ND) as (o & Ho & To). pose proof (MI p i x HI HX) as XI.
  destruct (b_layers b) as [|L1 lt]; [discriminate HL|]. cbn in HL. injection HL as ->. cbn [fwd_ops].
  assert (ST : fwd_step (E (mo_ph op1)) op1 L0 infos mem = UB).
  { unfold fwd_step. rewrite EI, EOut. unfold extract. cbn [map_res]. rewrite !rd_nth, XI, Ho. cbn [bind]. rewrite Hli. cbn [bind]. rewrite LD. cbn [bind].
    destruct (linear_refuses (E (mo_ph op1)) W c x [] o [] k rest n u SX NR) as (_ & ->); [rewrite <- DD; apply To|exact NK|reflexivity]. }
  rewrite ST. reflexivity.
Qed.
End Other.
