(** Networks keep within their bounds. *)
From Coq Require Import Reals Lra Lia ZArith Permutation List Bool FunctionalExtensionality.
From Verif Require Import Base BaseFacts Sums S_Float M_Im2col S_Im2col M_Kernels M_Conv M_Layers M_Optim M_Nn M_Graph M_Model M_Backend S_Grad S_Fit S_Graph S_Run M_Round S_Round P_Kernels P_Float P_Round P_Round2 P_Round5 M_Ieee S_Ieee P_Ieee P_Ieee2 P_Ieee3 P_Ieee4 P_Ieee5 P_Vjp2 P_Pool P_BN2 P_Run2 P_Graph P_Graph2 P_Model P_Model2 P_Run P_Fwd P_Fwd2 P_Nn P_Load P_Eval Prop_Run P_Round4.
Notation grown := S_Ieee.grown.
Import ListNotations.
Open Scope R_scope.

Lemma fev_ext lib v v' e : (forall a i, v a i = v' a i) -> forall r, fev lib v e r -> fev lib v' e r.
Proof.
  intros E. induction e; cbn [fev]; intros res F.
  - rewrite <- E. exact F.
  - exact F.
  - exact F.
  - destruct F as (x & y & A & B & C). exists x, y. auto.
  - destruct F as (x & y & A & B & C). exists x, y. auto.
  - destruct F as (x & y & A & B & C). exists x, y. auto.
  - destruct F as (x & y & A & B & C). exists x, y. auto.
  - destruct F as (x & A & B). exists x. auto.
  - destruct F as (x & A & B). exists x. auto.
  - destruct F as (x & y & A & B & C). exists x, y. split; [auto|]. split; [auto|]. destruct (flt_ltb x y); auto.
  - destruct F as (xs & A & B). exists xs. auto.
  - destruct F as (xs & A & B). exists xs. auto.
Qed.

Section Norm.
Variable lib : flt -> flt -> Prop.
Hypothesis EO : exp_ok lib.
Variable lk : Prop.
Variables u eta : R.
Hypothesis Hu : eps32 <= u.
Hypothesis Heta : tiny32 <= eta.
Variable v : nat -> nat -> R.
Notation fv := (fun a i => Fin (v a i)).

Lemma fbn_bounded n m at_ tr eps ga be rm rv row col total out p B0 B : fbn lib fv n m at_ tr eps ga be rm rv row col total out -> (p < total)%nat ->
  (row p < n)%nat -> (col p < m)%nat -> (forall i, Rabs (v 0%nat i) <= B0) -> B <= top ->
  norm_bounded tr n eps ga.[col p] be.[col p] rm.[col p] rv.[col p] B0 B ->
  exists x, out p = Fin x /\ Rabs x <= B /\ (lk -> rev u eta v (bn_ex n at_ tr eps ga be rm rv (row p) (col p)) x).
Proof.
  intros (cs & LC & ST1 & ST2) Hp Rn Cm V BT (s & Fs & Fss & S0 & GS & NB). cbv zeta in NB. destruct NB as (CT & CG & GB & REST).
  assert (B00 : 0 <= B0) by (pose proof (V 0%nat); pose proof (Rabs_pos (v 0%nat 0%nat)); lra).
  set (i := row p) in *. set (j := col p) in *. set (M := if tr then mean_grown n B0 else Rabs rm.[j]) in *. set (C := grown (B0 + M)) in *.
  assert (TC : forall k, (k < n)%nat -> exists c, fnth cs (k * m + j) = Fin c /\ Rabs c <= C /\ (lk -> rev u eta v (bn_cent_ex n at_ tr rm k j) c)).
  { intros k Hk. apply (tame_cent lib lk u eta Hu Heta v n at_ tr rm k j B0); [exact V|exact B00| |exact CT|exact (ST1 k j Hk Cm)].
    destruct tr; [|exact Logic.I]. destruct REST as (R1 & R2 & _ & R3 & _). auto. }
  assert (C0 : 0 <= C) by (destruct (TC i Rn) as (c & _ & B1 & _); pose proof (Rabs_pos c); lra).
  set (w := fun a q => if (a =? 1)%nat then match fnth cs q with Fin c => c | _ => 0 end else v a q).
  assert (W1 : forall k, (k < n)%nat -> fnth cs (k * m + j) = Fin (w 1%nat (k * m + j)%nat) /\ Rabs (w 1%nat (k * m + j)%nat) <= C /\ (lk -> rev u eta v (bn_cent_ex n at_ tr rm k j) (w 1%nat (k * m + j)%nat))).
  { intros k Hk. destruct (TC k Hk) as (c & E & B1 & K). unfold w. cbn [Nat.eqb]. rewrite E. auto. }
  (* only these values are read *)
  assert (F : fev lib (fun a q => Fin (w a q)) (bn_out_ex n m tr eps ga be rv i j) (out p)).
  { pose proof (ST2 p Hp) as F. fold i j in F. unfold bn_out_ex in *. cbn [fev] in F. cbn [Nat.eqb] in F.
    destruct F as (x & y & (a & b & -> & (g & d & -> & (z & (va & ep & VA & -> & A1) & A2) & A3) & A4) & -> & A5).
    exists x, (Fin be.[j]). split; [|split; [reflexivity|exact A5]]. exists (fnth cs (i * m + j)), b.
    split; [exact (proj1 (W1 i Rn))|]. split; [|exact A4]. exists (Fin ga.[j]), d. split; [reflexivity|]. split; [|exact A3]. exists z. split; [|exact A2].
    exists va, (Fin eps). split; [|split; [reflexivity|exact A1]]. destruct tr; [|exact VA]. cbn [fev Nat.eqb] in VA. destruct VA as (sm & nn & (xs & XS & SU) & NN & DV).
    exists sm, nn. split; [|split; [exact NN|exact DV]]. exists xs. split; [|exact SU]. intros k Hk. destruct (XS k Hk) as (a1 & b1 & -> & -> & PR).
    exists (fnth cs (k * m + j)), (fnth cs (k * m + j)). destruct (W1 k Hk) as (E & _). split; [exact E|]. split; [exact E|exact PR]. }
  assert (TS : tame lib lk u eta w (bn_out_ex n m tr eps ga be rv i j) (fun x => Rabs x <= B)).
  { apply (tame_scaled lib lk u eta Hu Heta w n m tr eps ga be rv i j C s B); [intros k Hk; exact (proj1 (proj2 (W1 k Hk)))|exact Rn|exact C0|exact BT|exact Fs|exact Fss|exact S0|exact GS|exact CG|exact GB|].
    destruct tr; [|exact REST]. destruct REST as (R1 & R2 & R3 & _ & R4 & R5 & R6). tauto. }
  destruct (TS _ F) as (x & -> & XB & K). exists x. split; [reflexivity|]. split; [exact XB|]. intros k. specialize (K k).
  (* the centred values are values of their expressions *)
  unfold bn_out_ex in K. cbn [rev] in K. destruct K as (x1 & y1 & (a & b & Ea & (g & d & Eg & (z & (va & ep & VA & Ee & A1) & A2) & A3) & A4) & Eb & A5).
  unfold bn_ex. exists x1, y1. split; [|split; [exact Eb|exact A5]]. exists a, b. split; [subst a; exact (proj2 (proj2 (W1 i Rn)) k)|]. split; [|exact A4].
  exists g, d. split; [exact Eg|]. split; [|exact A3]. exists z. split; [|exact A2]. exists va, ep. split; [|split; [exact Ee|exact A1]].
  destruct tr; [|exact VA]. cbn [rev] in VA. destruct VA as (sm & nn & (xs & XS & SU) & NN & DV). exists sm, nn. split; [|split; [exact NN|exact DV]].
  exists xs. split; [|exact SU]. intros l Hl. destruct (XS l Hl) as (a1 & b1 & -> & -> & PR). exists (w 1%nat (l * m + j)%nat), (w 1%nat (l * m + j)%nat).
  pose proof (proj2 (proj2 (W1 l Hl)) k) as RV. split; [exact RV|]. split; [exact RV|exact PR].
Qed.
End Norm.

Lemma fvalues_lift xs : fvalues (map lift xs) = fun a i => Fin (values xs a i).
Proof.
  apply functional_extensionality. intros a. apply functional_extensionality. intros i. unfold fvalues, values.
  change (mkFT [] []) with (lift empty_ten). rewrite map_nth. unfold fnth, lift. cbn [fdat]. apply (map_nth Fin).
Qed.
Lemma map_fsh_lift xs : map fsh (map lift xs) = map tsh xs.
Proof. rewrite map_map. reflexivity. Qed.
Lemma shapes_of inshs xs : Forall2 ten_ok inshs xs -> map tsh xs = inshs.
Proof. induction 1 as [|sh x ? ? (E & _) _ IH]; cbn; [reflexivity|]. rewrite E, IH. reflexivity. Qed.
Lemma values_up Bs xs : Forall2 up_to Bs xs -> Forall (fun b => 0 <= b <= top) Bs -> forall a i, Rabs (values xs a i) <= Bs.[a].
Proof.
  intros U. induction U as [|B x Bs xs Ux U IH]; intros P a i.
  - unfold values. destruct a; cbn; destruct i; rewrite Rabs_R0; lra.
  - inversion P as [|? ? P1 P2]; subst. destruct a as [|a]; [|exact (IH P2 a i)]. unfold values. cbn [nth].
    destruct (Nat.lt_ge_cases i (tot x)) as [Hi|Hi]; [exact (Ux i Hi)|]. unfold tot in Hi. rewrite nth_overflow by exact Hi. rewrite Rabs_R0. lra.
Qed.

Section Network.
Variable lib : flt -> flt -> Prop.
Hypothesis EO : exp_ok lib.
Variable lk : Prop.
Variables u eta : R.
Hypothesis Hu : eps32 <= u.
Hypothesis Heta : tiny32 <= eta.
Hypothesis LK : lk -> exp_near u eta lib /\ u <= 1 /\ eta <= 1.

Lemma layer_elements E L inshs osh Bs B v t : fits L inshs osh -> (forall a i, Rabs (v a i) <= Bs.[a]) -> Bs.[0] <= top -> B <= top ->
  bounded_by L inshs osh Bs B -> (lk -> exponential L = true -> Bs.[0] <= 32) ->
  (match L, inshs, osh with
  | LSoftmax, _, [n; m] => fsoftmax lib (fun a i => Fin (v a i)) n m (fnth (fdat t))
  | LBN1 eps _ gamma beta _ rm rv _, [[n; m]], _ =>
      fbn lib (fun a i => Fin (v a i)) n m (fun i j => i * m + j)%nat (p_train gamma) eps (tdat (p_data gamma)) (tdat (p_data beta)) (tdat rm) (tdat rv)
          (fun p => p / m)%nat (fun p => p mod m)%nat (prodN osh) (fnth (fdat t))
  | LBN2 eps _ gamma beta _ rm rv _ _ _, [[N; C; H; W]], _ =>
      fbn lib (fun a i => Fin (v a i)) (N * H * W) C (nchw_at C (H * W)) (p_train gamma) eps (tdat (p_data gamma)) (tdat (p_data beta)) (tdat rm) (tdat rv)
          (fun p => p / (H * W) / C * (H * W) + p mod (H * W))%nat (fun p => (p / (H * W)) mod C)%nat (prodN osh) (fnth (fdat t))
  | _, _, _ => forall p, (p < prodN osh)%nat -> fev lib (fun a i => Fin (v a i)) (layer_ex E L inshs osh p) (fnth (fdat t) p)
  end) ->
  forall p, (p < prodN osh)%nat -> exists x, fnth (fdat t) p = Fin x /\ Rabs x <= B /\ (lk -> rev u eta v (layer_ex E L inshs osh p) x).
Proof.
  intros F V BT TB BB KE C p Hp. assert (V0 : forall i, Rabs (v 0%nat i) <= Bs.[0]) by (intros; apply V).
  destruct F as [sh|sh|a sh|a sh|n m Hm|n c h w Hm|sh|W b n un rest Hr HW Hb|g W b buf batch cin h w cout ho wo Hs Hg HW Hb Hpos
    |g ind buf n c h w ho wo Hs Hg Hi|q mask sh Hk Hpos|e a g b s rm rv c n m Hn Ht Hg Hb Hs Hrm Hrv Hc|e a g b s rm rv c ni no N Cc H W Hn Ht Hg Hb Hs Hrm Hrv Hni Hc];
    cbn [bounded_by exponential] in BB, KE.
  - apply (tame_relu lib lk u eta v p B); [eapply Rle_trans; [apply V0|exact BB]|exact (C p Hp)].
  - destruct (tame_sigmoid lib EO lk u eta Hu Heta LK v p Bs.[0] (V0 p) BT (fun k => KE k eq_refl) _ (C p Hp)) as (x & E1 & X & K).
    exists x. split; [exact E1|]. split; [rewrite Rabs_right; lra|exact K].
  - destruct BB as (B1 & B2). apply (tame_leaky lib lk u eta Hu Heta v a p Bs.[0] B (V0 p) B1 B2 TB _ (C p Hp)).
  - destruct BB as (B1 & B2). apply (tame_elu lib EO lk u eta Hu Heta LK v a p Bs.[0] B (V0 p) B1 B2 TB (fun k => KE k eq_refl) _ (C p Hp)).
  - destruct BB as (LM & B1). rewrite prodN2 in Hp. destruct (softmax_unit lib EO v n m _ p C Hp) as (x & E1 & _ & X). exists x. split; [exact E1|].
    split; [rewrite Rabs_right; lra|]. intros k. destruct (fsoftmax_rev lib EO lk u eta Hu Heta LK v n m _ p Bs.[0] C Hp LM V0 (KE k eq_refl) k) as (y & E2 & RV).
    rewrite E1 in E2. injection E2 as ->. exact RV.
  - destruct BB as (HL & B1 & B2). cbn [layer_ex] in *. unfold gap_ex in *.
    assert (T : tame lib lk u eta v (EDiv (ESum (h * w) (fun j => EVar 0 (p * (h * w) + j))) (EInt (h * w))) (fun x => Rabs x <= mean_grown (h * w) Bs.[0] /\ (False -> 0 <= x))).
    { apply tame_mean; [exact Hu|exact Heta|exact Hm|apply HL|pose proof (V0 0%nat); pose proof (Rabs_pos (v 0%nat 0%nat)); lra| |exact B1]. intros k Hk. apply tame_var. split; [apply V0|intros []]. }
    destruct (T _ (C p Hp)) as (x & E1 & (X & _) & K). exists x. split; [exact E1|]. split; [lra|exact K].
  - apply (tame_plus lib lk u eta Hu Heta v p Bs.[0] Bs.[1] B (V0 p) (V 1%nat p) BB TB _ (C p Hp)).
  - rewrite prodN2 in Hp. assert (U0 : (0 < un)%nat) by (destruct un; [rewrite Nat.mul_0_r in Hp; lia|lia]).
    apply (tame_linear lib lk u eta Hu Heta v (prodN rest) un _ _ p Bs.[0] B V0 TB); [|apply C; rewrite prodN2; exact Hp].
    apply (BB (p mod un)%nat). apply Nat.mod_upper_bound. lia.
  - rewrite prodN4 in Hp. assert (U0 : (0 < cout)%nat) by (destruct cout; [rewrite Nat.mul_0_r in Hp; cbn in Hp; lia|lia]).
    apply (tame_conv lib lk u eta Hu Heta v g cin h w cout ho wo _ _ p Bs.[0] B V0 TB); [|apply C; rewrite prodN4; exact Hp].
    apply (BB ((p / (ho * wo)) mod cout)%nat). apply Nat.mod_upper_bound. lia.
  - destruct BB as (B1 & B2). apply (tame_maxpool lib lk u eta v g h w ho wo p Bs.[0] B); [apply geom_rows; exact Hg|exact V0|exact B1|exact B2|exact (C p Hp)].
  - cbn [layer_ex] in *. destruct (p_train mask) eqn:TR.
    + destruct BB as (c & B1 & B2 & B3 & B4). apply (tame_dropout lib lk u eta Hu Heta v _ q p Bs.[0] B c (V0 p) B1 B2 B3 B4 TB _ (C p Hp)).
    + exists (v 0%nat p). split; [exact (C p Hp)|]. split; [eapply Rle_trans; [apply V0|exact BB]|intros _; reflexivity].
  - cbn [layer_ex]. pose proof Hp as Hp'. rewrite prodN2 in Hp'. assert (M0 : (0 < m)%nat) by (destruct m; [rewrite Nat.mul_0_r in Hp'; lia|lia]).
    apply (fbn_bounded lib lk u eta Hu Heta v n m _ _ _ _ _ _ _ (fun p => p / m)%nat (fun p => p mod m)%nat (prodN [n; m]) (fnth (fdat t)) p Bs.[0] B C Hp).
    + apply Nat.div_lt_upper_bound; [lia|]. rewrite Nat.mul_comm. exact Hp'.
    + apply Nat.mod_upper_bound. lia.
    + exact V0.
    + exact TB.
    + apply BB, Nat.mod_upper_bound. lia.
  - cbn [layer_ex]. pose proof Hp as Hp'. rewrite prodN4 in Hp'. rewrite <- (Nat.mul_assoc (N * Cc)) in Hp'.
    assert (C0 : (Cc <> 0)%nat) by (intros ->; rewrite Nat.mul_0_r in Hp'; cbn in Hp'; lia). assert (HW0 : (H * W <> 0)%nat) by (intros Z0; rewrite Z0, Nat.mul_0_r in Hp'; lia).
    apply (fbn_bounded lib lk u eta Hu Heta v (N * H * W) Cc _ _ _ _ _ _ _ (fun p => p / (H * W) / Cc * (H * W) + p mod (H * W))%nat (fun p => (p / (H * W)) mod Cc)%nat (prodN [N; Cc; H; W]) (fnth (fdat t)) p Bs.[0] B C Hp).
    + assert (A1 : (p / (H * W) / Cc < N)%nat) by (apply Nat.div_lt_upper_bound; [exact C0|]; apply Nat.div_lt_upper_bound; [exact HW0|]; rewrite (Nat.mul_comm Cc), Nat.mul_comm; exact Hp').
      pose proof (Nat.mod_upper_bound p (H * W) HW0) as A2. rewrite <- Nat.mul_assoc. nia.
    + apply Nat.mod_upper_bound. lia.
    + exact V0.
    + exact TB.
    + apply BB, Nat.mod_upper_bound. lia.
Qed.

Lemma layer_float E L inshs osh Bs B xs t : fits L inshs osh -> Forall2 ten_ok inshs xs -> Forall2 up_to Bs xs -> Forall (fun b => 0 <= b <= top) Bs -> B <= top ->
  bounded_by L inshs osh Bs B -> (lk -> exponential L = true -> Bs.[0] <= 32) -> fcomputes lib E L (map lift xs) osh t ->
  exists t', t = lift t' /\ ten_ok osh t' /\ up_to B t' /\ (lk -> rcomputes u eta E L xs osh t').
Proof.
  intros F X U P TB BB KE (S & LN & C). pose proof (shapes_of _ _ X) as SX. pose proof (values_up _ _ U P) as V.
  rewrite fvalues_lift, map_fsh_lift, SX in C.
  assert (BT : Bs.[0] <= top) by (destruct P as [|b ? (_ & Pb) _]; cbn; [pose proof one_top; lra|exact Pb]).
  pose proof (layer_elements E L inshs osh Bs B (values xs) t F V BT TB BB KE C) as EL.
  set (f := fun p => match fnth (fdat t) p with Fin x => x | _ => 0 end).
  exists (mkT osh (tab (prodN osh) f)).
  assert (FE : forall p, (p < prodN osh)%nat -> (tab (prodN osh) f).[p] = f p) by (intros p Hp; apply nth_tab; exact Hp).
  assert (TL : length (tab (prodN osh) f) = prodN osh) by apply tab_length.
  split; [|split; [split; [reflexivity|exact TL]|split]].
  - destruct t as [sh d]. cbn [fsh fdat] in *. subst sh. unfold lift. cbn [tsh tdat]. f_equal.
    apply (nth_ext _ _ (Fin 0) (Fin 0)); [rewrite map_length, TL; exact LN|]. intros p Hp. rewrite LN in Hp. rewrite (map_nth Fin), FE by exact Hp.
    destruct (EL p Hp) as (x & E1 & _). unfold f. cbn [fdat]. unfold fnth in *. rewrite E1. reflexivity.
  - intros p Hp. unfold tot in Hp. cbn [tdat] in *. rewrite TL in Hp. rewrite FE by exact Hp. destruct (EL p Hp) as (x & E1 & XB & _). unfold f. rewrite E1. exact XB.
  - intros k. split; [reflexivity|]. split; [exact TL|]. intros p Hp. cbn [tdat]. rewrite FE by exact Hp. rewrite SX. destruct (EL p Hp) as (x & E1 & _ & K). unfold f. rewrite E1. exact (K k).
Qed.
End Network.

Definition real_of (t : ften) : ten := mkT (fsh t) (map (fun x => match x with Fin r => r | _ => 0 end) (fdat t)).
Lemma real_of_lift t : real_of (lift t) = t.
Proof. destruct t as [sh d]. unfold real_of, lift. cbn. f_equal. rewrite map_map. apply map_id. Qed.

Section Model.
Variables (es : estore) (ins outs : list nat) (m : model).
Hypothesis C : constructed es ins outs m.
Hypothesis CL : closed (es_ph es) ins outs.
Variables (infos : list linfo) (b : backend) (E : nat -> env) (tins : list ten) (Bd : nat -> R) (lib : flt -> flt -> Prop) (V : nat -> ften).
Hypothesis SI : shaped (es_ph es) ins tins.
Hypothesis EO : exp_ok lib.
Hypothesis UI : Forall2 (fun d t => up_to (Bd d) t) ins tins.
Hypothesis BT : forall d, needed (es_ph es) outs d -> 0 <= Bd d <= top.
Hypothesis FT : forall d args, needed (es_ph es) outs d -> call (es_ph es) d args ->
  exists L, produces m infos b d L /\ fits L (map (dims (es_ph es)) args) (dims (es_ph es) d) /\
    bounded_by L (map (dims (es_ph es)) args) (dims (es_ph es) d) (map Bd args) (Bd d).
Hypothesis EV : float_evaluation lib (es_ph es) ins outs tins E (produces m infos b) V.

Let W d := real_of (V d).

Lemma args_lift args : (forall a, In a args -> V a = lift (W a)) -> map V args = map lift (map W args).
Proof. intros H. rewrite map_map. apply map_ext_in. exact H. Qed.
Lemma args_ok args : (forall a, In a args -> ten_ok (dims (es_ph es) a) (W a)) -> Forall2 ten_ok (map (dims (es_ph es)) args) (map W args).
Proof. induction args as [|a args IH]; intros H; cbn; constructor; [apply H; left; reflexivity|apply IH; intros; apply H; right; assumption]. Qed.
Lemma args_up args : (forall a, In a args -> up_to (Bd a) (W a)) -> Forall2 up_to (map Bd args) (map W args).
Proof. induction args as [|a args IH]; intros H; cbn; constructor; [apply H; left; reflexivity|apply IH; intros; apply H; right; assumption]. Qed.

Lemma network_finite d : needed (es_ph es) outs d -> V d = lift (W d) /\ ten_ok (dims (es_ph es) d) (W d) /\ up_to (Bd d) (W d).
Proof.
  pose proof (constructed_mfacts _ _ _ _ C) as MF.
  assert (LB : links_back (es_ph es)) by (apply store_links_back, built_ok, C).
  destruct EV as [VI EL].
  induction d as [d IH] using lt_wf_ind. intros N.
  destruct CL as (_ & _ & _ & _ & K). destruct (K d N) as [(args & Ca)|HI].
  - destruct (EL d args N Ca) as (L & PL & CP). destruct (FT d args N Ca) as (L0 & PL0 & F & BB).
    assert (L0 = L) as -> by (eapply (produces_fun _ _ _ _ MF); eassumption).
    assert (AN : forall a, In a args -> needed (es_ph es) outs a) by (intros a Ha; eapply need_arg; eassumption).
    assert (Y : forall a, In a args -> V a = lift (W a) /\ ten_ok (dims (es_ph es) a) (W a) /\ up_to (Bd a) (W a)).
    { intros a Ha. apply IH; [eapply LB; eassumption|apply AN, Ha]. }
    rewrite (args_lift args (fun a Ha => proj1 (Y a Ha))) in CP.
    destruct (layer_float lib EO False eps32 tiny32 (Rle_refl _) (Rle_refl _) (fun f => match f with end) (E d) L _ _ (map Bd args) (Bd d) (map W args) (V d) F) as (t & Et & T & U & _).
    + apply args_ok. intros a Ha. apply Y, Ha.
    + apply args_up. intros a Ha. apply Y, Ha.
    + apply Forall_forall. intros x Hx. apply in_map_iff in Hx as (a & <- & Ha). apply BT, AN, Ha.
    + apply BT, N.
    + exact BB.
    + intros [].
    + exact CP.
    + unfold W. rewrite Et, real_of_lift. auto.
  - apply In_nth_error in HI. destruct HI as (k & Hk). destruct (Forall2_nth_error _ _ _ VI k d Hk) as (t & Ht & E1).
    destruct (Forall2_nth_error _ _ _ SI k d Hk) as (t' & Ht' & T). destruct (Forall2_nth_error _ _ _ UI k d Hk) as (t2 & Ht2 & U).
    assert (t' = t) as -> by congruence. assert (t2 = t) as -> by congruence. unfold W. rewrite E1, real_of_lift. auto.
Qed.

Lemma network_rounded u eta : eps32 <= u <= 1 -> tiny32 <= eta <= 1 -> exp_near u eta lib ->
  (forall d args L a0 rest, needed (es_ph es) outs d -> call (es_ph es) d args -> produces m infos b d L -> exponential L = true -> args = a0 :: rest -> Bd a0 <= 32) ->
  rounded_evaluation u eta (es_ph es) ins outs tins E (produces m infos b) W.
Proof.
  intros Hu He NE KE. pose proof (constructed_mfacts _ _ _ _ C) as MF. destruct EV as [VI EL]. split.
  - clear - VI. unfold W. induction VI as [|d t ds ts E0 _ IH]; constructor; [rewrite E0; apply real_of_lift|exact IH].
  - intros d args N Ca. destruct (EL d args N Ca) as (L & PL & CP). destruct (FT d args N Ca) as (L0 & PL0 & F & BB).
    assert (L0 = L) as -> by (eapply (produces_fun _ _ _ _ MF); eassumption). exists L. split; [exact PL|].
    assert (AN : forall a, In a args -> needed (es_ph es) outs a) by (intros a Ha; eapply need_arg; eassumption).
    pose proof (fun a Ha => network_finite a (AN a Ha)) as Y.
    rewrite (args_lift args (fun a Ha => proj1 (Y a Ha))) in CP.
    destruct (layer_float lib EO True u eta (proj1 Hu) (proj1 He) (fun _ => conj NE (conj (proj2 Hu) (proj2 He))) (E d) L _ _ (map Bd args) (Bd d) (map W args) (V d) F) as (t & Et & T & U & RC).
    + apply args_ok. intros a Ha. apply Y, Ha.
    + apply args_up. intros a Ha. apply Y, Ha.
    + apply Forall_forall. intros x Hx. apply in_map_iff in Hx as (a & <- & Ha). apply BT, AN, Ha.
    + apply BT, N.
    + exact BB.
    + intros _ EX. destruct args as [|a0 rest]; cbn; [lra|]. exact (KE d _ L a0 rest N Ca PL EX eq_refl).
    + exact CP.
    + unfold W at 2. rewrite Et, real_of_lift. exact (RC Logic.I).
Qed.
End Model.
