(** Whole models on 32-bit ints. *)
From Coq Require Import Reals String Lia.
From Verif Require Import Base BaseFacts Sums M_Tensor M_Im2col S_Im2col M_Kernels M_Conv M_Layers M_Nn M_Graph M_Model M_Backend M_Int M_IntModel S_Grad S_Graph S_Run S_Plain S_Int
  P_Graph P_Graph2 P_Nn P_Model P_Model2 P_Run P_Fwd P_Load P_Fwd2 P_Run2 P_Bwd P_Idem P_Idem2 P_Batch P_Layout P_Plain P_BN P_BN2 P_Vjp2 P_Eval P_BN3 P_Conv2 P_Int.
Open Scope nat_scope.

(** ** Layers *)
Lemma room_forward E L ins1 rest o os : room L (map tsh ins1) (tsh o) -> Forall made (ins1 ++ rest) -> made o -> is_argmax (e_amax E) ->
  lforward32 E L (ins1 ++ rest) (o :: os) = lforward E L (ins1 ++ rest) (o :: os).
Proof.
  intros R FI Mo AM. destruct L; try (apply lforward_small; try assumption; intros; discriminate).
  - destruct R as (n & cin & h & w & cout & ho & wo & Ei & Eo & HW & HG & PW & WF & SZ & SC).
    destruct ins1 as [|i [|]]; try discriminate Ei. cbn [map] in Ei. injection Ei as Ei. inversion FI as [|? ? Mi FI']; subst.
    assert (Po : proper [n; cout; ho; wo]) by (unfold made in Mo; rewrite Eo in Mo; exact Mo). destruct (proper4 _ _ _ _ Po) as (Rn & Rc & Rh & Rw & Rs).
    destruct (proper_cons _ _ Po) as [_ [_ T3]]. rewrite prodN3 in T3.
    cbn [lforward32 lforward app]. unfold front. cbn [rd nth_error]. apply bind_ext. intros _. cbn [bind].
    rewrite (conv_fwd_small E g W b buf i o n cin h w n cout ho wo cout [cin; KH g; KW g]); try assumption. reflexivity.
  - destruct R as (n & c & h & w & ho & wo & Ei & Eo & WF & SZ & SC & K).
    destruct ins1 as [|i [|]]; try discriminate Ei. cbn [map] in Ei. injection Ei as Ei. inversion FI as [|? ? Mi FI']; subst.
    cbn [lforward32 lforward app]. unfold front. cbn [rd nth_error]. apply bind_ext. intros _. cbn [bind].
    rewrite (maxpool_fwd_small E g ind buf i o n c h w n c ho wo); try assumption; [reflexivity|]. intros k f Hk. apply AM, Hk.
Qed.

Lemma room_update E L ishs go gos ins : room L ishs (tsh go) -> Forall made ins -> made go -> lupdate32 E L ins (go :: gos) = lupdate E L ins (go :: gos).
Proof.
  intros R FI Mg. destruct L; try (apply lupdate_small; try assumption; intros; discriminate).
  destruct R as (n & cin & h & w & cout & ho & wo & Ei & Eo & HW & HG & PW & WF & SZ & SC).
  apply (conv_upd_small E g W b buf ins (go :: gos) go n cout ho wo cout cin (KH g) (KW g)); try assumption; [reflexivity|]. unfold made. rewrite HG. exact PW.
Qed.

Lemma room_backward E L ins outs gm kis ki0 ko kos ishs osh go :
  room L ishs osh -> positions L -> Forall2 (fun k sh => exists t, rd gm k = Ok t /\ tsh t = sh) kis ishs ->
  rd gm ko = Ok go -> tsh go = osh -> Forall made ins -> Forall made gm ->
  lbackward32 E L ins outs gm (kis ++ ki0) (ko :: kos) = lbackward E L ins outs gm (kis ++ ki0) (ko :: kos).
Proof.
  intros R PS FK Ro Ho FI FG. destruct L; try (apply lbackward_small; try assumption; intros; discriminate).
  - destruct R as (n & cin & h & w & cout & ho & wo & Ei & Eo & HW & HG & Pw & WF & SZ & SC). rewrite Eo in Ho. clear Eo. rename Ho into Eo. subst ishs.
    inversion FK as [|ki ? ? ? (gi & Ri & Hi) FK']; subst. inversion FK'; subst.
    assert (Pi : proper [n; cin; h; w]) by (rewrite <- Hi; exact (rd_made _ _ _ FG Ri)). assert (Po : proper [n; cout; ho; wo]) by (rewrite <- Eo; exact (rd_made _ _ _ FG Ro)).
    destruct (proper4 _ _ _ _ Pi) as (Qn & Qc & Qh & Qw & Qs). destruct (proper4 _ _ _ _ Po) as (Rn & Rc & Rh & Rw & Rs).
    destruct (proper_cons _ _ Pi) as [_ [_ S3]]. destruct (proper_cons _ _ Po) as [_ [_ T3]]. rewrite prodN3 in S3, T3.
    cbn [lbackward32 lbackward app]. apply bind_ext. intros _. change (front (ko :: kos)) with (Ok ko). cbn [bind]. rewrite Ro. cbn [bind]. unfold dims4 at 1 3. rewrite Eo. cbn [rd nth_error bind].
    unfold on_grad. change (front (ki :: ki0)) with (Ok ki). cbn [bind]. rewrite Ri. cbn [bind]. unfold dims4. rewrite Hi. cbn [rd nth_error bind]. cbv zeta.
    destruct (proper4 _ _ _ _ Pw) as (_ & _ & Qk1 & Qk2 & _).
    assert (P1 : 0 < cin * KH g * KW g) by (repeat apply Nat.mul_pos_pos; assumption). assert (P2 : 0 < ho * wo) by (apply Nat.mul_pos_pos; assumption).
    destruct (mid _ _ _ P1 Qn P2) as (_ & _ & Q3 & _ & _).
    rewrite conv_bwd_small; try assumption; [reflexivity|]. exact (small_le _ _ SC Q3).
  - destruct R as (n & c & h & w & ho & wo & Ei & Eo & WF & SZ & SC & K). rewrite Eo in Ho. clear Eo. rename Ho into Eo. subst ishs.
    inversion FK as [|ki ? ? ? (gi & Ri & Hi) FK']; subst. inversion FK'; subst.
    assert (Pi : proper [n; c; h; w]) by (rewrite <- Hi; exact (rd_made _ _ _ FG Ri)). assert (Po : proper [n; c; ho; wo]) by (rewrite <- Eo; exact (rd_made _ _ _ FG Ro)).
    cbn [lbackward32 lbackward app]. change (front (ko :: kos)) with (Ok ko). change (front (ki :: ki0)) with (Ok ki). cbn [bind]. rewrite Ro. cbn [bind]. apply bind_ext. intros _. rewrite Ri. cbn [bind]. unfold dims4. rewrite Hi, Eo. cbn [rd nth_error bind].
    destruct (proper4 _ _ _ _ Pi) as (Qn & Qc & Qh & Qw & Qs). destruct (proper4 _ _ _ _ Po) as (Rn & Rc & Rh & Rw & Rs).
    rewrite maxpool_bwd_small by assumption. reflexivity.
Qed.

Lemma room_updated E L ins gouts L1 ishs osh : lupdate E L ins gouts = Ok L1 -> room L ishs osh -> positions L -> room L1 ishs osh /\ positions L1.
Proof.
  intros U R P. destruct L; cbn [lupdate] in U; try (injection U as <-; split; assumption); inv_ok U; injection U as <-; split; try exact I; try assumption.
Qed.

(** ** Memory *)
Section Models.
Variables (ps : list phnode) (ins outs : list nat) (m : model).
Hypothesis MF : mfacts ps ins outs m.
Hypothesis CL : closed ps ins outs.
Hypothesis PR : forall d, needed ps outs d -> proper (dims ps d).

Definition good (mem : list ten) : Prop :=
  length mem = length (m_data m) /\ forall d, needed ps outs d -> exists t, nth_error mem (num m d) = Some t /\ tsh t = dims ps d.

Lemma good_made mem : good mem -> Forall made mem.
Proof.
  intros [L G]. apply Forall_forall. intros t Ht. apply In_nth_error in Ht. destruct Ht as (i & Hi).
  assert (H : i < length (m_data m)) by (rewrite <- L; apply nth_error_Some; congruence).
  destruct (nth_error (m_data m) i) as [[d s]|] eqn:Ed; [|apply nth_error_None in Ed; lia].
  assert (N : needed ps outs d) by (apply (mf_data _ _ _ _ MF), in_map_iff; exists (d, s); split; [reflexivity|eapply nth_error_In, Ed]).
  assert (num m d = i) as X by (apply (num_of _ _ _ _ MF); rewrite nth_error_map, Ed; reflexivity).
  destruct (G d N) as (t' & Et & Es). rewrite X in Et. assert (t' = t) as -> by congruence. unfold made. rewrite Es. apply PR, N.
Qed.
Lemma good_same mem mem' : good mem -> same_shapes mem mem' -> good mem'.
Proof.
  intros [L G] SS. split; [rewrite <- L; symmetry; apply (Forall2_len _ _ _ SS)|]. intros d N. destruct (G d N) as (t & Et & Es).
  destruct (Forall2_nth_error _ _ _ SS _ _ Et) as (t' & Et' & Es'). exists t'. split; [exact Et'|congruence].
Qed.
Lemma dims_shapes g g' : same_dims g g' -> same_shapes g g'.
Proof. induction 1 as [|a b l l' [H _] _ IH]; constructor; assumption. Qed.

Lemma extract_made mem : Forall made mem -> forall ids ts, extract mem ids = Ok ts -> Forall made ts.
Proof.
  intros FM ids ts H. apply map_res_Forall2 in H. induction H as [|i t l1 l2 H _ IH]; constructor; [|exact IH]. exact (rd_made _ _ _ FM H).
Qed.
Lemma extract_args mem : good mem -> forall args rest ts, (forall a, In a args -> needed ps outs a) -> extract mem (map (num m) args ++ rest) = Ok ts ->
  exists ts1 ts2, ts = ts1 ++ ts2 /\ map tsh ts1 = map (dims ps) args.
Proof.
  intros [_ G]. induction args as [|a args IH]; intros rest ts N H; [exists [], ts; split; reflexivity|].
  cbn in H. destruct (rd mem (num m a)) as [t| |] eqn:Rt; cbn [bind] in H; try discriminate H. change (map_res (rd mem)) with (extract mem) in H.
  destruct (extract mem (map (num m) args ++ rest)) as [l| |] eqn:Rl; cbn [bind] in H; try discriminate H. injection H as <-.
  destruct (IH rest l) as (t1 & t2 & -> & ES); [intros x Hx; apply N; right; exact Hx|assumption|].
  exists (t :: t1), t2. split; [reflexivity|]. cbn. rewrite ES. f_equal. destruct (G a (N a (or_introl eq_refl))) as (t' & Et & Es).
  rewrite rd_nth, Et in Rt. congruence.
Qed.

Lemma only d : needed ps outs d -> forall a, In a [d] -> needed ps outs a.
Proof. intros N a [<-|[]]. exact N. Qed.

(** A backend as far as shapes go. *)
Definition fits0 (b : backend) : Prop :=
  length (b_mem b) = length (m_data m) /\ length (b_grad b) = length (m_data m) /\
  forall i d s, nth_error (m_data m) i = Some (d, s) ->
    (s = SInternal -> exists t, nth_error (b_mem b) i = Some t /\ tsh t = dims ps d) /\
    (s <> SOutput -> exists t, nth_error (b_grad b) i = Some t /\ tsh t = dims ps d).
Lemma fits_fits0 b : backend_fits ps m b -> fits0 b.
Proof.
  intros (_ & A & B & C). split; [exact A|]. split; [exact B|]. intros i d s H. destruct (C i d s H) as [C1 C2]. split; intros X.
  - destruct (C1 X) as (t & Et & T1 & _). exists t. split; assumption.
  - destruct (C2 X) as (t & Et & T1 & _). exists t. split; assumption.
Qed.
Lemma bind_good b tins touts : fits0 b -> shaped ps ins tins -> shaped ps outs touts ->
  exists mem1 mem, map_res (id_of m) (m_in m) = Ok (map (num m) ins) /\ map_res (id_of m) (m_out m) = Ok (map (num m) outs) /\
    bind_ids (map (num m) ins) tins (b_mem b) = Ok mem1 /\ bind_ids (map (num m) outs) touts mem1 = Ok mem /\ good mem.
Proof.
  intros (BL & _ & BD) SI SO. pose proof CL as (NI & NO & _).
  destruct (bind_Ok (map (num m) ins) tins (b_mem b)) as (m1 & E1 & L1 & A1 & B1).
  { rewrite map_length, (Forall2_len _ _ _ SI). lia. }
  { intros i Hi. apply in_map_iff in Hi. destruct Hi as (d & <- & Hd). rewrite BL. apply (id_num _ _ _ _ MF), (mf_needed_in _ _ _ _ MF), Hd. }
  { eapply NoDup_num; [exact MF|exact NI|apply (mf_needed_in _ _ _ _ MF)]. }
  destruct (bind_Ok (map (num m) outs) touts m1) as (m2 & E2 & L2 & A2 & B2).
  { rewrite map_length, (Forall2_len _ _ _ SO). lia. }
  { intros i Hi. apply in_map_iff in Hi. destruct Hi as (d & <- & Hd). rewrite L1, BL. apply (id_num _ _ _ _ MF), need_out, Hd. }
  { eapply NoDup_num; [exact MF|exact NO|intros d; apply need_out]. }
  exists m1, m2. rewrite (mf_in _ _ _ _ MF), (mf_out _ _ _ _ MF). split; [apply (ids_num _ _ _ _ MF), (mf_needed_in _ _ _ _ MF)|].
  split; [apply (ids_num _ _ _ _ MF); intros d; apply need_out|]. split; [exact E1|]. split; [exact E2|]. split; [congruence|]. intros d N.
  destruct (in_dec Nat.eq_dec d outs) as [H2|H2].
  - apply In_nth_error in H2. destruct H2 as (k & Hk). destruct (Forall2_nth_error _ _ _ SO k d Hk) as (t & Ht & T1 & _). exists t. split; [|exact T1].
    apply (A2 k); [rewrite nth_error_map, Hk; reflexivity|exact Ht].
  - rewrite B2. 2:{ intros X. apply in_map_iff in X. destruct X as (d' & Ed & Hd'). apply H2. rewrite <- (num_inj _ _ _ _ MF d' d); [exact Hd'|apply need_out, Hd'|exact N|exact Ed]. }
    destruct (in_dec Nat.eq_dec d ins) as [H1|H1].
    + apply In_nth_error in H1. destruct H1 as (k & Hk). destruct (Forall2_nth_error _ _ _ SI k d Hk) as (t & Ht & T1 & _). exists t. split; [|exact T1].
      apply (A1 k); [rewrite nth_error_map, Hk; reflexivity|exact Ht].
    + rewrite B1. 2:{ intros X. apply in_map_iff in X. destruct X as (d' & Ed & Hd'). apply H1. rewrite <- (num_inj _ _ _ _ MF d' d); [exact Hd'|apply (mf_needed_in _ _ _ _ MF), Hd'|exact N|exact Ed]. }
      destruct (BD _ _ _ (data_at _ _ _ _ MF d N)) as [X _]. apply X, storage_internal; assumption.
Qed.
Lemma grad_good b gouts : fits0 b -> shaped ps outs gouts ->
  exists gr, bind_ids (map (num m) outs) gouts (zero_grads (m_data m) (b_grad b)) = Ok gr /\ good gr.
Proof.
  intros (_ & BL3 & BD) SG. destruct (zero_grads_nth (m_data m) (b_grad b) BL3) as [ZL ZN]. pose proof CL as (NI & NO & _).
  destruct (bind_Ok (map (num m) outs) gouts (zero_grads (m_data m) (b_grad b))) as (gr & EG & LG & G1 & G2).
  { rewrite map_length, (Forall2_len _ _ _ SG). lia. }
  { intros i Hi. apply in_map_iff in Hi. destruct Hi as (d & <- & Hd). rewrite ZL. apply (id_num _ _ _ _ MF), need_out, Hd. }
  { eapply NoDup_num; [exact MF|exact NO|intros d; apply need_out]. }
  exists gr. split; [exact EG|]. split; [congruence|]. intros d N. destruct (in_dec Nat.eq_dec d outs) as [H|H].
  - apply In_nth_error in H. destruct H as (k & Hk). destruct (Forall2_nth_error _ _ _ SG k d Hk) as (t & Ht & T1 & T2). exists t. split; [|exact T1].
    apply (G1 k); [rewrite nth_error_map, Hk; reflexivity|exact Ht].
  - pose proof (data_at _ _ _ _ MF d N) as DA. assert (NS : storage_of ins outs d <> SOutput).
    { unfold storage_of. rewrite (memb_false d outs H). destruct (memb d ins); discriminate. }
    destruct (ZN _ _ _ DA NS) as (g0 & Hg & Hz). destruct (BD _ _ _ DA) as [_ BG]. destruct (BG NS) as (g1 & Hg1 & T1).
    exists (zero_ten g0). split; [rewrite G2; [exact Hz|]|].
    + intros X. apply in_map_iff in X. destruct X as (d' & Ed & Hd'). apply H. rewrite <- (num_inj _ _ _ _ MF d' d); [exact Hd'|apply need_out, Hd'|exact N|exact Ed].
    + assert (g1 = g0) as -> by congruence. cbn. exact T1.
Qed.
Lemma good_fits0 ls mem gr : good mem -> length gr = length (m_data m) ->
  (forall i d s, nth_error (m_data m) i = Some (d, s) -> s <> SOutput -> exists t, nth_error gr i = Some t /\ tsh t = dims ps d) -> fits0 (mkB ls mem gr).
Proof.
  intros [L G] LG BG. split; [exact L|]. split; [exact LG|]. intros i d s H. split; intros X; [|apply (BG i d s H X)].
  assert (N : needed ps outs d) by (apply (mf_data _ _ _ _ MF), in_map_iff; exists (d, s); split; [reflexivity|eapply nth_error_In, H]).
  assert (num m d = i) as <- by (apply (num_of _ _ _ _ MF); rewrite nth_error_map, H; reflexivity). apply G, N.
Qed.

(** ** Forward *)
Definition roomy (infos : list linfo) (op : mop) (L0 : layer) : Prop :=
  forall li L args, nth_error infos (mo_info op) = Some li -> load li L0 = Ok L -> call ps (mo_ph op) args -> room L (map (dims ps) args) (dims ps (mo_ph op)).

Lemma step_forward E op L0 infos mem : In op (m_ops m) -> good mem -> roomy infos op L0 -> is_argmax (e_amax E) ->
  fwd_step32 E op L0 infos mem = fwd_step E op L0 infos mem.
Proof.
  intros I G RM AM. destruct (op_spec _ _ _ _ MF op I) as (args & k & N & C & _ & Ei & Eo & NA). unfold fwd_step32, fwd_step.
  destruct (extract mem (mo_in op)) as [is| |] eqn:X1; cbn [bind]; [|reflexivity..]. destruct (extract mem (mo_out op)) as [os| |] eqn:X2; cbn [bind]; [|reflexivity..].
  destruct (rd infos (mo_info op)) as [li| |] eqn:X3; cbn [bind]; [|reflexivity..]. destruct (load li L0) as [L| |] eqn:X4; cbn [bind]; [|reflexivity..].
  pose proof (good_made _ G) as FM. pose proof (extract_made _ FM _ _ X1) as Mi. pose proof (extract_made _ FM _ _ X2) as Mo.
  rewrite Ei in X1. destruct (extract_args _ G _ _ _ NA X1) as (t1 & t2 & -> & ES).
  rewrite Eo in X2. change (num m (mo_ph op) :: repeat 0 k) with (map (num m) [mo_ph op] ++ repeat 0 k) in X2.
  destruct (extract_args _ G _ _ _ (only _ N) X2) as (o1 & o2 & -> & EO).
  destruct o1 as [|o [|]]; try discriminate EO. cbn [map] in EO. injection EO as EO. cbn [app] in *. inversion Mo as [|? ? Mo1 _]; subst.
  rewrite (room_forward E L t1 t2 o o2); [reflexivity| |exact Mi|exact Mo1|exact AM].
  rewrite ES, EO. eapply RM; [|exact X4|exact C]. rewrite rd_nth in X3. destruct (nth_error infos (mo_info op)); [congruence|discriminate].
Qed.

Lemma ops_forward E : (forall d, is_argmax (e_amax (E d))) -> forall ops ls infos mem, incl ops (m_ops m) -> NoDup (map mo_info ops) -> good mem ->
  (forall j op L0, nth_error ops j = Some op -> nth_error ls j = Some L0 -> roomy infos op L0) ->
  fwd_ops32 E ops ls infos mem = fwd_ops E ops ls infos mem.
Proof.
  intros AM. induction ops as [|op ops IH]; intros ls infos mem I ND G RM; [reflexivity|]. destruct ls as [|L0 ls]; [reflexivity|]. cbn [fwd_ops32 fwd_ops].
  rewrite step_forward; [|apply I; left; reflexivity|exact G|exact (RM 0 op L0 eq_refl eq_refl)|apply AM].
  destruct (fwd_step _ _ _ _ _) as [[[i1 L1] m1]| |] eqn:ST; cbn [lift]; [|reflexivity..]. destruct (fwd_step_frame _ _ _ _ _ _ _ _ ST) as (SS & _ & FI).
  inversion ND as [|? ? NI ND']; subst. rewrite IH; [reflexivity|intros x Hx; apply I; right; exact Hx|exact ND'|exact (good_same _ _ G SS)|].
  intros j o L Ho HL li L2 args Hl. rewrite FI in Hl; [exact (RM (S j) o L Ho HL li L2 args Hl)|]. intros X. apply NI. rewrite <- X. apply in_map. eapply nth_error_In, Ho.
Qed.

Lemma model_roomy infos b : (forall d L args, produces m infos b d L -> call ps d args -> room L (map (dims ps) args) (dims ps d)) ->
  forall j op L0, nth_error (m_ops m) j = Some op -> nth_error (b_layers b) j = Some L0 -> roomy infos op L0.
Proof.
  intros H j op L0 Ho HL li L args Hl LD C. apply H; [|exact C]. exists j, op, L0, li. repeat split; assumption.
Qed.

Lemma forward_exact E infos b tins touts : fits0 b -> shaped ps ins tins -> shaped ps outs touts -> (forall d, is_argmax (e_amax (E d))) ->
  (forall d L args, produces m infos b d L -> call ps d args -> room L (map (dims ps) args) (dims ps d)) ->
  model_forward32 E m infos (Some b) tins touts = model_forward E m infos (Some b) tins touts.
Proof.
  intros BF SI SO AM RM. cbn [model_forward32 model_forward]. unfold backend_forward.
  destruct (bind_good b tins touts BF SI SO) as (m1 & mem & E1 & E2 & E3 & E4 & G). rewrite E1, E2. cbn [bind]. rewrite E3. cbn [bind]. rewrite E4. cbn [bind].
  rewrite (ops_forward E AM (m_ops m) (b_layers b) infos mem (incl_refl _) (mf_infos _ _ _ _ MF) G); [reflexivity|exact (model_roomy infos b RM)].
Qed.

(** ** Backward *)
Lemma step_backward E op L0 infos mem gr : In op (m_ops m) -> good mem -> good gr -> roomy infos op L0 ->
  (forall li L, nth_error infos (mo_info op) = Some li -> load li L0 = Ok L -> positions L) ->
  bwd_step32 E mem op L0 infos gr = bwd_step E mem op L0 infos gr.
Proof.
  intros I G GG RM PS. destruct (op_spec _ _ _ _ MF op I) as (args & k & N & C & _ & Ei & Eo & NA). unfold bwd_step32, bwd_step.
  destruct (extract gr (mo_in op)) as [gis| |] eqn:X0; cbn [bind lift]; [|reflexivity..].
  destruct (extract mem (mo_in op)) as [is| |] eqn:X1; cbn [bind lift]; [|reflexivity..]. destruct (extract mem (mo_out op)) as [os| |] eqn:X2; cbn [bind lift]; [|reflexivity..].
  destruct (extract gr (mo_out op)) as [gos| |] eqn:X5; cbn [bind lift]; [|reflexivity..].
  destruct (rd infos (mo_info op)) as [li| |] eqn:X3; cbn [bind lift]; [|reflexivity..]. destruct (load li L0) as [L| |] eqn:X4; cbn [bind lift]; [|reflexivity..].
  assert (HL : nth_error infos (mo_info op) = Some li) by (rewrite rd_nth in X3; destruct (nth_error infos (mo_info op)); [congruence|discriminate]).
  pose proof (RM li L args HL X4 C) as RL. pose proof (PS li L HL X4) as PL.
  pose proof (good_made _ G) as FM. pose proof (good_made _ GG) as FG. pose proof (extract_made _ FM _ _ X1) as Mi. pose proof (extract_made _ FG _ _ X5) as Mg.
  rewrite Eo in X5. change (num m (mo_ph op) :: repeat 0 k) with (map (num m) [mo_ph op] ++ repeat 0 k) in X5.
  destruct (extract_args _ GG _ _ _ (only _ N) X5) as (o1 & o2 & -> & EO).
  destruct o1 as [|go [|]]; try discriminate EO. cbn [map] in EO. injection EO as EO. cbn [app] in *. inversion Mg as [|? ? Mg1 _]; subst.
  rewrite <- EO in RL. rewrite (room_update E L _ go o2 is RL Mi Mg1). destruct (lupdate E L is (go :: o2)) as [L1| |] eqn:U; cbn [lift]; [|reflexivity..].
  destruct (room_updated _ _ _ _ _ _ _ U RL PL) as [RL1 PL1]. destruct GG as [LG GG].
  destruct (GG _ N) as (go' & Rg & Sg). rewrite Ei, Eo.
  rewrite (room_backward E L1 is os gr (map (num m) args) (repeat 0 (k * length args)) (num m (mo_ph op)) (repeat 0 k) (map (dims ps) args) (tsh go) go'); [reflexivity|exact RL1|exact PL1| | | |exact Mi|exact FG].
  - clear -GG NA. induction args as [|a args IH]; cbn; constructor.
    + destruct (GG a (NA a (or_introl eq_refl))) as (t & Et & Es). exists t. rewrite rd_nth, Et. split; [reflexivity|exact Es].
    + apply IH. intros x Hx. apply NA. right. exact Hx.
  - rewrite rd_nth, Rg. reflexivity.
  - congruence.
Qed.

Lemma bwd_step_other E mem op L infos gr i2 L2 g2 : outcome (bwd_step E mem op L infos gr) (i2, L2, g2) -> forall j, j <> mo_info op -> nth_error i2 j = nth_error infos j.
Proof.
  unfold bwd_step, lift, outcome. intros H j NJ.
  destruct (bind (extract gr (mo_in op)) _) as [[[[[is os] gouts] li] L0]| |] eqn:E1;
    [|destruct H as [H|H]; try discriminate H; injection H as <- <- <-; reflexivity|destruct H; discriminate].
  match type of H with context [lupdate ?e ?l ?i ?g] => destruct (lupdate e l i g) as [L1| |] eqn:U2 end;
    [|destruct H as [H|H]; try discriminate H; injection H as <- <- <-; reflexivity|destruct H; discriminate].
  match type of H with context [lbackward ?a ?b ?c ?d ?e ?f ?g] => destruct (lbackward a b c d e f g) as [[L3 g3]| |] eqn:U3 end;
    [|destruct H as [H|H]; try discriminate H; injection H as <- <- <-; apply nth_error_upd_neq; congruence|destruct H; discriminate].
  destruct H as [H|H]; [|discriminate H]. injection H as <- <- <-. apply nth_error_upd_neq. congruence.
Qed.
Lemma bwd_ops_other E mem : forall ops ls infos gr i1 l1 g1, bwd_ops E mem ops ls infos gr = Ret (i1, l1, g1) ->
  forall j, ~ In j (map mo_info ops) -> nth_error i1 j = nth_error infos j.
Proof.
  induction ops as [|op ops IH]; intros ls infos gr i1 l1 g1 H j NJ; cbn in H; [injection H as <- _ _; reflexivity|].
  destruct ls as [|L ls]; [discriminate|]. destruct (bwd_ops E mem ops ls infos gr) as [[[i0 l0] g0]|[[? ?] ?]|] eqn:E0; try discriminate H.
  destruct (bwd_step (E (mo_ph op)) mem op L i0 g0) as [[[i2 L2] g2]|[[? ?] ?]|] eqn:E1; try discriminate H. injection H as <- <- <-.
  rewrite (bwd_step_other _ _ _ _ _ _ _ _ _ (or_introl E1)); [|intros ->; apply NJ; left; reflexivity]. eapply IH; [exact E0|]. intros X. apply NJ. right. exact X.
Qed.

Lemma ops_backward E mem : good mem -> forall ops ls infos gr, incl ops (m_ops m) -> NoDup (map mo_info ops) -> good gr ->
  (forall j op L0, nth_error ops j = Some op -> nth_error ls j = Some L0 -> roomy infos op L0 /\ (forall li L, nth_error infos (mo_info op) = Some li -> load li L0 = Ok L -> positions L)) ->
  bwd_ops32 E mem ops ls infos gr = bwd_ops E mem ops ls infos gr.
Proof.
  intros G. induction ops as [|op ops IH]; intros ls infos gr I ND GG RM; [reflexivity|]. destruct ls as [|L0 ls]; [reflexivity|]. cbn [bwd_ops32 bwd_ops].
  inversion ND as [|? ? NI ND']; subst.
  rewrite IH; [|intros x Hx; apply I; right; exact Hx|exact ND'|exact GG|intros j o L Ho HL; exact (RM (S j) o L Ho HL)].
  destruct (bwd_ops E mem ops ls infos gr) as [[[i1 l1] g1]|[[? ?] ?]|] eqn:EB; [|reflexivity..].
  destruct (RM 0 op L0 eq_refl eq_refl) as [R1 R2]. pose proof (bwd_ops_other _ _ _ _ _ _ _ _ _ EB (mo_info op) NI) as FI.
  rewrite step_backward; [reflexivity|apply I; left; reflexivity|exact G| | |].
  - apply (good_same gr); [exact GG|]. apply dims_shapes, (proj1 (bwd_framed _ _ _ _ _ _ _ _ _ (or_introl EB))).
  - intros li L args Hl. rewrite FI in Hl. exact (R1 li L args Hl).
  - intros li L Hl. rewrite FI in Hl. exact (R2 li L Hl).
Qed.

Lemma backward_exact E infos b tins touts gouts : fits0 b -> shaped ps ins tins -> shaped ps outs touts -> shaped ps outs gouts ->
  (forall d L args, produces m infos b d L -> call ps d args -> room L (map (dims ps) args) (dims ps d) /\ positions L) ->
  model_backward32 E m infos (Some b) tins touts gouts = model_backward E m infos (Some b) tins touts gouts.
Proof.
  intros BF SI SO SG RM. cbn [model_backward32 model_backward]. unfold backend_backward. cbv zeta.
  destruct (bind_good b tins touts BF SI SO) as (m1 & mem & E1 & E2 & E3 & E4 & G). rewrite E1, E2. cbn [bind]. rewrite E3. cbn [bind]. rewrite E4. cbn [bind].
  destruct (grad_good b gouts BF SG) as (gr & EG & GG). rewrite EG. cbn [bind].
  rewrite (ops_backward E mem G (m_ops m) (b_layers b) infos gr (incl_refl _) (mf_infos _ _ _ _ MF) GG); [reflexivity|].
  intros j op L0 Ho HL. split.
  - apply (model_roomy infos b) with (j := j); try assumption. intros d L args PD C. apply (RM d L args PD C).
  - intros li L Hl LD. destruct (op_spec _ _ _ _ MF op (nth_error_In _ _ Ho)) as (args & k & N & C & _). apply (RM (mo_ph op) L args); [|exact C]. exists j, op, L0, li. repeat split; assumption.
Qed.

End Models.
