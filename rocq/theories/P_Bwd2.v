(** Model::backward computes derivatives. *)
From Coq Require Import Reals String Lia Lra.
From Verif Require Import Base BaseFacts Sums Deriv M_Layers M_Kernels M_Optim M_Nn M_Graph M_Model M_Backend S_Grad S_Partial S_Graph S_Run
  P_Graph P_Graph2 P_Nn P_Model P_Model2 P_Run P_Fwd P_Load P_Fwd2 P_Vjp1 P_Vjp2 P_BN P_Partial P_Bwd.
Open Scope nat_scope.

Section Chain.
Variables (ps : list phnode) (ins outs : list nat) (m : model).
Hypothesis MF : mfacts ps ins outs m.
Hypothesis CL : closed ps ins outs.
Hypothesis LB : links_back ps.
Variables (E : nat -> env) (V : nat -> ten) (infos : list linfo) (b : backend) (tins : list ten).
Hypothesis SI : shaped ps ins tins.
Hypothesis EV : evaluation ps ins outs tins E (produces m infos b) V.
Hypothesis VJP : forall d args L, needed ps outs d -> call ps d args -> produces m infos b d L ->
  right_gradients (E d) L (map V args) (map (dims ps) args) (dims ps d).

Section Curves.
Variables (P : nat -> R -> list (list R)) (dP : nat -> nat -> nat -> R).
Hypothesis PC : forall d L, produces m infos b d L -> P d 0%R = pvals L /\ pcurve L (P d) 0 (dP d).

Definition fwd_along (W : nat -> R -> ten) (d : nat) (args : list nat) (L : layer) : Prop :=
  forall s, exists L', forall o, ten_ok (dims ps d) o -> lforward (E d) (with_params L (P d s)) (map (fun a => W a s) args) [o] = Ok (L', W d s).
Definition bwd_at (dW : nat -> nat -> R) (d : nat) (args : list nat) (L : layer) : Prop :=
  forall L1, (forall o, ten_ok (dims ps d) o -> lforward (E d) L (map V args) [o] = Ok (L1, V d)) ->
  forall E2 gm gins kout go, grads_ready L (map (dims ps) args) (dims ps d) gm gins kout go ->
  exists L2 L3 gm' c, lupdate E2 L1 (map V args) [go] = Ok L2 /\ lbackward E2 L2 (map V args) [V d] gm gins [kout] = Ok (L3, gm') /\
    accum gm gins c gm' /\ map p_data (dparams L3) = map p_data (dparams L) /\
    rsum (prodN (dims ps d)) (fun i => ((tdat go).[i] * dW d i)%R) =
    (rsum (length args) (fun p => rsum (prodN (dims ps (nth p args O))) (fun i => c p i * dW (nth p args O) i)) + pcon (dP d) L3)%R.

Definition curves_below (n : nat) (W : nat -> R -> ten) (dW : nat -> nat -> R) : Prop :=
  (forall d s, d < n -> In d ins -> W d s = V d) /\ (forall d i, d < n -> In d ins -> dW d i = 0%R) /\
  (forall d, d < n -> needed ps outs d -> tcurve (dims ps d) (W d) 0 (dW d) /\ W d 0%R = V d) /\
  (forall d args L, d < n -> needed ps outs d -> call ps d args -> produces m infos b d L -> fwd_along W d args L /\ bwd_at dW d args L).

Lemma in_ok d : In d ins -> ten_ok (dims ps d) (V d).
Proof.
  intros H. apply In_nth_error in H. destruct H as (k & Hk). destruct (Forall2_nth_error _ _ _ SI k d Hk) as (t & Ht & Tt).
  destruct (Forall2_nth_error _ _ _ (proj1 EV) k d Hk) as (t' & Ht' & ->). assert (t' = t) as -> by congruence. exact Tt.
Qed.
Lemma tcurve_const sh t : ten_ok sh t -> tcurve sh (fun _ => t) 0 (fun _ => 0%R).
Proof. intros [S W]. split; [intros _; split; assumption|]. intros i _. apply dl_const. Qed.

Lemma curves n : exists W dW, curves_below n W dW.
Proof.
  induction n as [|n (W & dW & C1 & C2 & C3 & C4)].
  { exists (fun _ _ => empty_ten), (fun _ _ => 0%R). repeat split; intros; lia. }
  assert (KEEP : forall Wn dn, 
     ((In n ins -> (forall s, Wn s = V n) /\ forall i, dn i = 0%R) /\
      (needed ps outs n -> tcurve (dims ps n) Wn 0 dn /\ Wn 0%R = V n) /\
      (forall args L, needed ps outs n -> call ps n args -> produces m infos b n L ->
         fwd_along (fun x => if x =? n then Wn else W x) n args L /\ bwd_at (fun x => if x =? n then dn else dW x) n args L)) ->
     exists W dW, curves_below (S n) W dW).
  { intros Wn dn (K1 & K2 & K3). exists (fun x => if x =? n then Wn else W x), (fun x => if x =? n then dn else dW x).
    split; [|split; [|split]].
    - intros d s Hd Hi. destruct (Nat.eqb_spec d n) as [->|]; [apply K1, Hi|apply C1; [lia|exact Hi]].
    - intros d i Hd Hi. destruct (Nat.eqb_spec d n) as [->|]; [apply K1, Hi|apply C2; [lia|exact Hi]].
    - intros d Hd N. destruct (Nat.eqb_spec d n) as [->|]; [apply K2, N|apply C3; [lia|exact N]].
    - intros d args L Hd N C PR. destruct (Nat.eq_dec d n) as [->|Nd]; [apply K3; assumption|].
      assert (d < n) as Hd' by lia. destruct (C4 d args L Hd' N C PR) as [F B].
      assert (NA : forall a, In a args -> (a =? n) = false) by (intros a Ha; apply Nat.eqb_neq; pose proof (LB d args a C Ha); lia).
      assert (Ed : (d =? n) = false) by (apply Nat.eqb_neq; exact Nd). split.
      + intros s. destruct (F s) as (L' & FL). exists L'. intros o To. rewrite Ed. rewrite <- (FL o To). f_equal. apply map_ext_in.
        intros a Ha. rewrite (NA a Ha). reflexivity.
      + intros L1 H1 E2 gm gins kout go GR. destruct (B L1 H1 E2 gm gins kout go GR) as (L2 & L3 & gm' & c & B1 & B2 & B3 & B4 & B5).
        exists L2, L3, gm', c. repeat (split; [assumption|]). rewrite Ed, B5. f_equal. apply rsum_ext. intros p Hp. apply rsum_ext. intros i _.
        rewrite (NA (nth p args O)); [reflexivity|]. apply nth_In, Hp. }
  destruct (in_dec Nat.eq_dec n ins) as [Hi|Hi].
  { apply (KEEP (fun _ => V n) (fun _ => 0%R)). split; [intros _; split; reflexivity|]. split; [intros _; split; [apply tcurve_const, in_ok, Hi|reflexivity]|].
    intros args L _ C _. exfalso. destruct CL as (_ & _ & K & _). apply (K n Hi). eauto. }
  destruct (in_dec Nat.eq_dec n (map fst (m_data m))) as [Hn|Hn].
  2:{ assert (NN : ~ needed ps outs n) by (intros X; apply Hn, (mf_data _ _ _ _ MF), X).
      apply (KEEP (fun _ => V n) (fun _ => 0%R)). split; [tauto|]. split; [tauto|]. intros; tauto. }
  assert (N : needed ps outs n) by (apply (mf_data _ _ _ _ MF), Hn).
  assert (CA : exists args, call ps n args) by (destruct CL as (_ & _ & _ & _ & K); destruct (K n N) as [X|X]; [exact X|tauto]).
  destruct CA as (args & C). destruct (proj2 EV n args N C) as (L & PR & TO & L1 & FO).
  destruct (PC n L PR) as [P0 PCV].
  assert (AL : forall a, In a args -> a < n) by (intros a Ha; exact (LB n args a C Ha)).
  assert (AN : forall a, In a args -> needed ps outs a) by (intros a Ha; eapply need_arg; eassumption).
  assert (I0 : map (fun a => W a 0%R) args = map V args) by (apply map_ext_in; intros a Ha; apply (C3 a (AL a Ha) (AN a Ha))).
  assert (IC : icurve (map (dims ps) args) (fun s => map (fun a => W a s) args) 0 (fun p => dW (nth p args O))).
  { split; [intros s; rewrite !map_length; reflexivity|]. intros p Hp. rewrite map_length in Hp. rewrite (dims_nth ps _ _ Hp).
    assert (Ha : In (nth p args 0) args) by (apply nth_In, Hp). destruct (C3 _ (AL _ Ha) (AN _ Ha)) as [[T1 T2] _].
    assert (X : forall s, nth p (map (fun a => W a s) args) empty_ten = W (nth p args 0) s).
    { intros s. rewrite (nth_indep _ empty_ten (W 0 s)) by (rewrite map_length; exact Hp). apply (map_nth (fun a => W a s)). }
    split; [intros s; rewrite X; apply T1|]. intros i Hii. apply (dl_ext (fun s => (tdat (W (nth p args 0) s)).[i])); [intros s; rewrite X; reflexivity|]. apply T2, Hii. }
  destruct (VJP n args L N C PR (P n) (fun s => map (fun a => W a s) args) P0 I0 _ _ PCV IC) as (Ov & L' & dO & HF & TC & HB).
  assert (Z : Ov 0%R = V n /\ L' 0%R = L1).
  { specialize (HF 0%R (V n) (proj1 TO) (proj2 TO)). rewrite P0, with_params_id, I0, (FO _ TO) in HF. injection HF as -> ->. auto. }
  destruct Z as [ZO ZL].
  apply (KEEP Ov dO). split; [tauto|]. split; [intros _; split; assumption|].
  intros args' L'' _ C' PR'. rewrite (call_fun ps _ _ _ C' C). rewrite (produces_fun _ _ _ _ MF _ _ _ _ _ PR' PR). clear args' L'' C' PR'.
  assert (NA : forall a, In a args -> (a =? n) = false) by (intros a Ha; apply Nat.eqb_neq; pose proof (AL a Ha); lia). split.
  - intros s. exists (L' s). intros o [So Wo]. rewrite Nat.eqb_refl. rewrite <- (HF s o So Wo). f_equal. apply map_ext_in. intros a Ha. rewrite (NA a Ha). reflexivity.
  - intros L1' H1 E2 gm gins kout go GR. assert (L1' = L1) as -> by (specialize (H1 _ TO); rewrite (FO _ TO) in H1; congruence).
    destruct (HB E2 gm gins kout go GR) as (L2 & L3 & gm' & c & B1 & B2 & B3 & B4 & B5). rewrite ZL, I0 in B1. rewrite I0, ZO in B2.
    rewrite P0, with_params_id in B4. exists L2, L3, gm', c. repeat (split; [assumption|]). rewrite Nat.eqb_refl, B5. f_equal.
    + rewrite map_length. apply rsum_ext. intros p Hp. rewrite (dims_nth ps _ _ Hp). apply rsum_ext. intros i _. rewrite (NA (nth p args O)); [reflexivity|apply nth_In, Hp].
    + unfold pcon. assert (X : pvals L3 = pvals L) by (unfold pvals; rewrite <- !(map_map p_data tdat), B4; reflexivity).
      rewrite X, P0. f_equal. rewrite <- (map_length p_data (dparams L3)), B4, map_length. reflexivity.
Qed.


Lemma all_curves : exists W dW,
  (forall d s, In d ins -> needed ps outs d -> W d s = V d) /\ (forall d i, In d ins -> needed ps outs d -> dW d i = 0%R) /\
  (forall d, needed ps outs d -> tcurve (dims ps d) (W d) 0 (dW d) /\ W d 0%R = V d) /\
  (forall d args L, needed ps outs d -> call ps d args -> produces m infos b d L -> fwd_along W d args L /\ bwd_at dW d args L).
Proof.
  destruct (curves (S (list_max (map fst (m_data m))))) as (W & dW & C1 & C2 & C3 & C4). exists W, dW.
  assert (X : forall d, needed ps outs d -> d < S (list_max (map fst (m_data m)))).
  { intros d N. apply (mf_data _ _ _ _ MF) in N. pose proof (proj1 (list_max_le (map fst (m_data m)) _) (le_n _)) as F.
    rewrite Forall_forall in F. specialize (F d N). lia. }
  split; [intros; apply C1; auto|]. split; [intros; apply C2; auto|]. split; [intros; apply C3; auto|]. intros; apply C4; auto.
Qed.

(** One curve of the parameters: the outputs along it and the derivative of the objective. *)
Hypothesis BF : backend_fits ps m b.
Hypothesis LO : links_ok ps outs (produces m infos b).
Hypothesis EX : forall d args L, needed ps outs d -> call ps d args -> produces m infos b d L -> overwrites L = true -> exclusive ps outs d args.

Lemma forward_along infosC W dW :
  (forall s d L, produces m infos b d L -> produces m (infosC s) b d (with_params L (P d s))) ->
  (forall s d L, produces m (infosC s) b d L -> exists L', produces m infos b d L' /\ tolerant L = tolerant L') ->
  (forall d s, In d ins -> needed ps outs d -> W d s = V d) -> (forall d, needed ps outs d -> tcurve (dims ps d) (W d) 0 (dW d) /\ W d 0%R = V d) ->
  (forall d args L, needed ps outs d -> call ps d args -> produces m infos b d L -> fwd_along W d args L) ->
  forall s touts, shaped ps outs touts -> exists i' b', model_forward E m (infosC s) (Some b) tins touts = Ret (i', Some b', tins, map (fun d => W d s) outs).
Proof.
  intros IC IT W1 W2 W3 s touts SO.
  destruct (forward_evaluates ps ins outs m MF CL E (fun d => W d s) (infosC s) b tins touts BF SI SO) as (i' & b' & H & _).
  - split.
    + pose proof (proj1 EV) as VI. pose proof (mf_needed_in _ _ _ _ MF) as NI.
      assert (K : forall d, In d ins -> W d s = V d) by (intros d Hd; apply W1; [exact Hd|apply NI, Hd]).
      clear -VI K. induction VI as [|d t l1 l2 H _ IH]; constructor; [rewrite K by (left; reflexivity); exact H|apply IH; intros x Hx; apply K; right; exact Hx].
    + intros d args N C. destruct (proj2 EV d args N C) as (L & PR & _). exists (with_params L (P d s)). split; [apply IC, PR|].
      split; [apply (W2 d N)|]. exact (W3 d args L N C PR s).
  - intros d L PR. destruct (IT s d L PR) as (L' & PR' & T). rewrite T. exact (LO d L' PR').
  - exists i', b'. exact H.
Qed.

Lemma objective_derivative W dW gouts : (forall d, needed ps outs d -> tcurve (dims ps d) (W d) 0 (dW d) /\ W d 0%R = V d) -> shaped ps outs gouts ->
  derivable_pt_lim (fun s => objective gouts (map (fun d => W d s) outs)) 0
    (rsum (length outs) (fun j => inner (fun d => prodN (dims ps d)) dW (nth j outs O) (nth j gouts empty_ten))).
Proof.
  intros W2 SG. unfold objective. rewrite <- (Forall2_len _ _ _ SG).
  apply (dl_rsum (length outs) (fun s j => weighted (nth j gouts empty_ten) (nth j (map (fun d => W d s) outs) empty_ten))). intros j Hj.
  assert (Hd : nth_error outs j = Some (nth j outs 0)) by (apply List.nth_error_nth'; exact Hj).
  destruct (Forall2_nth_error _ _ _ SG j _ Hd) as (g & Hg & Sg & Wg). rewrite (nth_error_nth _ _ empty_ten Hg).
  apply (dl_ext (fun s => weighted g (W (nth j outs 0) s))).
  { intros s. f_equal. symmetry. apply nth_error_nth. rewrite nth_error_map, Hd. reflexivity. }
  apply dl_weighted; [unfold tot; rewrite <- Sg; exact Wg|]. apply W2, need_out, nth_In, Hj.
Qed.

Lemma kind_tolerant L L' : same_kind L L' -> tolerant L = tolerant L'.
Proof. destruct L, L'; cbn; tauto. Qed.
Lemma kind_overwrites L L' : same_kind L L' -> overwrites L = overwrites L'.
Proof. destruct L, L'; cbn; tauto. Qed.

(** After a forward pass every operation is ready for the backward pass. *)
Lemma back_ready dW infos1 b1 E2 :
  (forall d args L, needed ps outs d -> call ps d args -> produces m infos b d L -> bwd_at dW d args L) ->
  backend_fits ps m b1 -> Forall3 (op_done ps E V infos infos1) (m_ops m) (b_layers b) (b_layers b1) ->
  Forall2 (op_back ps outs m E2 V dW dP true infos1) (m_ops m) (b_layers b1).
Proof.
  intros B (BL1 & _) F3. destruct (Forall3_nth _ _ _ _ F3) as (X1 & X2 & F). apply Forall2_intro; [congruence|].
  intros j op L1 Hj HL1. destruct (nth_error (b_layers b) j) as [L0|] eqn:E0; [|apply nth_error_None in E0; assert (j < length (m_ops m)) by (apply nth_error_Some; congruence); lia].
  destruct (F j op L0 L1 Hj E0 HL1) as (L & li & args & A1 & A2 & A3 & A4 & A5).
  destruct (op_spec _ _ _ _ MF op (nth_error_In _ _ Hj)) as (_ & _ & N & _).
  assert (PR : produces m infos b (mo_ph op) L) by (exists j, op, L0, li; auto).
  destruct (fresh_ok (E (mo_ph op)) (dims ps (mo_ph op))) as [f1 f2].
  destruct (lforward_kind _ _ _ _ _ _ (A4 _ (conj f1 f2))) as [K _].
  exists L1, (lstore L1 li), args. split; [exact A5|]. split; [exact (load_store _ _ _ _ A2 K)|]. split; [exact A3|].
  split; [rewrite <- (kind_tolerant _ _ K); exact (LO _ _ PR)|]. split; [cbn [as_strict]; rewrite <- (kind_overwrites _ _ K); exact (EX _ _ _ N A3 PR)|].
  intros gm go GR. cbn [as_strict] in GR. assert (GR' : grads_ready L (map (dims ps) args) (dims ps (mo_ph op)) gm (map (num m) args) (num m (mo_ph op)) go).
  { destruct GR as (G1 & G2 & G3 & G4 & G5 & G6). repeat (split; [assumption|]). rewrite (kind_overwrites _ _ K). exact G6. }
  destruct (B _ _ _ N A3 PR L1 A4 (E2 (mo_ph op)) gm (map (num m) args) (num m (mo_ph op)) go GR') as (L2 & L3 & gm' & c & B1 & B2 & B3 & _ & B5).
  exists L2, L3, gm', c. auto.
Qed.

(** Backward after forward: every choice of curves gives the same gradients, and the derivative along it. *)
Lemma chain_rule infos1 b1 E2 gouts infosC :
  backend_fits ps m b1 -> Forall3 (op_done ps E V infos infos1) (m_ops m) (b_layers b) (b_layers b1) ->
  (forall d, needed ps outs d -> nth_error (b_mem b1) (num m d) = Some (V d)) ->
  (forall s d L, produces m infos b d L -> produces m (infosC s) b d (with_params L (P d s))) ->
  (forall s d L, produces m (infosC s) b d L -> exists L', produces m infos b d L' /\ tolerant L = tolerant L') ->
  shaped ps outs gouts ->
  exists infos2 ls2 mem2 gr2 gouts', model_backward E2 m infos1 (Some b1) tins (map V outs) gouts = Ret (infos2, Some (mkB ls2 mem2 gr2), gouts') /\
    Forall3 (op_bdone infos1 infos2) (m_ops m) (b_layers b1) ls2 /\
    (forall i, ~ In i (map mo_info (m_ops m)) -> nth_error infos2 i = nth_error infos1 i) /\ length infos2 = length infos1 /\
    exists Ov, (forall s touts, shaped ps outs touts -> exists i' b', model_forward E m (infosC s) (Some b) tins touts = Ret (i', Some b', tins, Ov s)) /\
      (forall s, shaped ps outs (Ov s)) /\ derivable_pt_lim (fun s => objective gouts (Ov s)) 0 (psum dP (m_ops m) ls2).
Proof.
  intros BF1 F3 MV IC IT SG. destruct all_curves as (W & dW & W1 & W2 & W3 & W4).
  assert (SO : shaped ps outs (map V outs)).
  { assert (K : forall d, In d outs -> ten_ok (dims ps d) (V d)).
    { intros d Hd. pose proof (need_out ps outs d Hd) as N. destruct CL as (_ & _ & _ & K & _). destruct (K d Hd) as (args & C).
      destruct (proj2 EV d args N C) as (L & _ & T & _). exact T. }
    unfold shaped. clear -K. induction outs as [|d t IH]; cbn; constructor; [apply K; left; reflexivity|apply IH; intros x Hx; apply K; right; exact Hx]. }
  destruct (bind_all ps ins outs m MF CL b1 tins (map V outs) BF1 SI SO) as ([m1 mem] & E1 & E3 & LM & HI & HO & HR). cbn [fst snd] in *.
  assert (MEM : forall d, needed ps outs d -> nth_error mem (num m d) = Some (V d)).
  { intros d N. destruct (in_dec Nat.eq_dec d ins) as [Hi|Hi].
    - apply In_nth_error in Hi. destruct Hi as (k & Hk). destruct (Forall2_nth_error _ _ _ (proj1 EV) k d Hk) as (t & Ht & ->). exact (HI k d t Hk Ht).
    - destruct (in_dec Nat.eq_dec d outs) as [Ho|Ho]; [|rewrite HR by assumption; apply MV, N].
      apply In_nth_error in Ho. destruct Ho as (k & Hk). apply (HO k d (V d) Hk). rewrite nth_error_map, Hk. reflexivity. }
  destruct (backward_runs ps ins outs m MF CL E2 V mem dW dP MEM true infos1 b1 tins (map V outs) gouts m1 BF1 E1 E3 SG)
    as (infos2 & ls2 & gr2 & gouts' & HB & _ & EQ & F3' & LI & FR).
  { intros d i Hd. apply W2; [exact Hd|apply (mf_needed_in _ _ _ _ MF), Hd]. }
  { apply back_ready; [|exact BF1|exact F3]. intros d args L N C PR. apply (W4 d args L N C PR). }
  exists infos2, ls2, mem, gr2, gouts'. split; [exact HB|]. split; [exact F3'|]. split; [exact FR|]. split; [exact LI|].
  exists (fun s => map (fun d => W d s) outs). split; [|split].
  - apply (forward_along infosC W dW IC IT W1 W3). intros d args L N C PR. apply (W4 d args L N C PR).
  - intros s. assert (K : forall d, In d outs -> ten_ok (dims ps d) (W d s)) by (intros d Hd; apply (proj1 (proj1 (W3 d (need_out ps outs d Hd))))).
    unfold shaped. clear -K. induction outs as [|d t IH]; cbn; constructor; [apply K; left; reflexivity|apply IH; intros x Hx; apply K; right; exact Hx].
  - rewrite <- EQ. apply objective_derivative; assumption.
Qed.
End Curves.
End Chain.
