(** Training sessions: every call keeps the model usable. *)
From Coq Require Import Reals String Lia Lra.
From Verif Require Import Base BaseFacts Sums M_Im2col S_Im2col M_Kernels M_Conv M_Layers M_Optim M_Nn M_Graph M_Model M_Backend M_Train S_Grad S_Partial S_Graph S_Run S_Fit S_Primed S_Optim S_Train
  P_Kernels P_Graph P_Graph2 P_Nn P_Model P_Model2 P_Run P_Fwd P_Load P_Fwd2 P_Bwd P_Run2 P_Fit P_Safe P_Safe2 P_Train P_Optim.
Open Scope nat_scope.

(** ** Parameters replaced by similar ones *)
Definition sim (flag : bool -> bool) (p p' : prm) : Prop :=
  (forall sh, prm_ok sh p -> prm_ok sh p') /\ p_train p' = flag (p_train p) /\ tsh (p_data p') = tsh (p_data p) /\ tot (p_data p') = tot (p_data p).

Lemma sim_refl p : sim (fun b => b) p p.
Proof. unfold sim. auto. Qed.

Lemma load_sim flag li li' L0 L : load li L0 = Ok L -> li_bufs li' = li_bufs li ->
  (forall k p, find_key (li_params li) k = Some p -> exists p', find_key (li_params li') k = Some p' /\ sim flag p p') ->
  exists L', load li' L0 = Ok L' /\ tolerant L' = tolerant L /\
    (forall inshs osh, fits L inshs osh -> fits L' inshs osh) /\ (forall inshs osh, caches L inshs osh -> caches L' inshs osh).
Proof.
  intros H B P.
  assert (PK : forall k p, par li k = Ok p -> exists p', par li' k = Ok p' /\ sim flag p p').
  { intros k p Hk. apply par_Ok in Hk. destruct (P k p Hk) as (p' & F & S). exists p'. unfold par. rewrite F. auto. }
  assert (BK : forall k, bufr li' k = bufr li k) by (intros k; unfold bufr; rewrite B; reflexivity).
  destruct L0; cbn [load] in *; try (injection H as <-; eexists; split; [reflexivity|]; auto; fail);
    inv_ok H; injection H as <-; rewrite ?BK;
    repeat match goal with X : par li _ = Ok _ |- _ => let p' := fresh "p'" in let E := fresh "E" in let S := fresh "S" in
      destruct (PK _ _ X) as (p' & E & S); rewrite E; clear X; cbn [bind] end;
    repeat match goal with X : bufr li _ = Ok _ |- _ => rewrite X; cbn [bind]; clear X end;
    (eexists; split; [reflexivity|]; split; [reflexivity|]; split; [|intros inshs osh C; exact C]);
    intros inshs osh F; inversion F; subst;
    repeat match goal with X : sim flag _ _ |- _ => let A := fresh in let B := fresh in let C := fresh in destruct X as (A & B & C) end;
    constructor; try assumption; try (match goal with X : forall sh, prm_ok sh ?p -> _, Y : prm_ok _ ?p |- _ => apply X; exact Y end); try congruence.
Qed.

(** What the layers of the model see is similar. *)
Definition moved (flag : bool -> bool) (m : model) (infos infos' : list linfo) : Prop :=
  (forall op li, In op (m_ops m) -> nth_error infos (mo_info op) = Some li -> exists li', nth_error infos' (mo_info op) = Some li' /\ li_bufs li' = li_bufs li) /\
  (forall op k p, In op (m_ops m) -> get_par infos (mo_info op, k) = Some p -> exists p', get_par infos' (mo_info op, k) = Some p' /\ sim flag p p') /\
  (forall r p', get_par infos' r = Some p' -> exists p, get_par infos r = Some p).

Section Model.
Variables (ps : list phnode) (ins outs : list nat) (m : model).
Hypothesis MF : mfacts ps ins outs m.
Hypothesis CL : closed ps ins outs.
Hypothesis LB : links_back ps.
Hypothesis ND : NoDup (map fst (m_params m)).
Hypothesis RF : forall key r, In (key, r) (m_params m) -> exists op, In op (m_ops m) /\ fst r = mo_info op.

Lemma moved_usable flag ran infos infos' b : moved flag m infos infos' -> usable ran ps outs m infos b -> usable ran ps outs m infos' b.
Proof.
  intros (M1 & M2 & M3) (BF & LA & SD & OW). split; [exact BF|]. split; [|split].
  - intros d args Nd Ca. destruct (LA d args Nd Ca) as (L & (j & op & L0 & li & H1 & H2 & H3 & H4 & H5) & G & TO).
    destruct (M1 op li (nth_error_In _ _ H1) H4) as (li' & H4' & B).
    destruct (load_sim flag li li' L0 L H5 B) as (L' & H5' & T & FI & CA).
    { intros k p Hk. destruct (M2 op k p (nth_error_In _ _ H1)) as (p' & G' & S); [unfold get_par; cbn; rewrite H4; exact Hk|].
      unfold get_par in G'. cbn in G'. rewrite H4' in G'. eauto. }
    exists L'. split; [exists j, op, L0, li'; auto|]. split; [|rewrite T; exact TO].
    destruct ran; [destruct G; split; auto|auto].
  - intros key r Hr. destruct (SD key r Hr) as (p & G & K). destruct (RF key r Hr) as (op & Hop & Er). destruct r as [i k]. cbn in Er. subst i.
    destruct (M2 op k p Hop G) as (p' & G' & S1 & S2 & S3 & _). exists p'. split; [exact G'|]. rewrite S3. apply S1, K.
  - intros op k p' Hop G. destruct (M3 _ _ G) as (p & G'). exact (OW op k p Hop G').
Qed.

Lemma keeps_moved flag infos infos' v : moved flag m infos infos' -> keeps m infos v -> keeps m infos' v.
Proof.
  intros (M1 & M2 & M3) K key r p' Hr G. destruct (M3 _ _ G) as (p & G'). destruct (K key r p Hr G') as (t & F & T). exists t. split; [exact F|].
  destruct (RF key r Hr) as (op & Hop & Er). destruct r as [i k]. cbn in Er. subst i. destruct (M2 op k p Hop G') as (q & G2 & _ & _ & _ & S4).
  assert (q = p') by congruence. subst q. congruence.
Qed.
Lemma opt_moved flag infos infos' o : moved flag m infos infos' -> opt_fits m infos o -> opt_fits m infos' o.
Proof. intros M. destruct o as [|? ? v|? ? ? ? ? [v1 v2]]; cbn; [auto|apply (keeps_moved _ _ _ _ M)|intros [A B]; split; apply (keeps_moved _ _ _ _ M); assumption]. Qed.

(** *** train *)
Lemma frame_at infos infos' i li : Forall2 only_params_differ infos infos' -> nth_error infos i = Some li ->
  exists li', nth_error infos' i = Some li' /\ li_bufs li' = li_bufs li.
Proof. intros F H. destruct (Forall2_at _ _ _ F i li H) as (li' & H' & D). exists li'. split; [exact H'|]. destruct D as (A1 & A2 & A3 & A4 & A5). congruence. Qed.

Lemma train_moved mode infos : owns m infos -> moved (fun _ => mode) m infos (model_train mode m infos).
Proof.
  intros OW. split; [|split].
  - intros op li _ H. eapply frame_at; [apply train_frame|exact H].
  - intros op k p Hop G. destruct (OW op k p Hop G) as (key & HK). exists (train_prm mode p). split.
    + rewrite (train_key mode m infos key (mo_info op, k) p); [reflexivity| |exact G]. apply in_find; assumption.
    + unfold sim, train_prm, prm_ok. cbn. auto.
  - intros r p' G. rewrite train_get in G. destruct (existsb _ _); [|eauto]. destruct (get_par infos r); [eauto|discriminate].
Qed.

(** *** optimizer step *)
Lemma on_par_frame' f infos r : Forall2 only_params_differ infos (on_par f infos r).
Proof. apply on_par_frame. Qed.

Lemma write_frame pm : forall infos, Forall2 only_params_differ infos (params_write m pm infos).
Proof.
  unfold params_write. generalize (m_params m) as l. induction l as [|e t IH]; intros infos; cbn.
  - induction infos; constructor; [repeat split|assumption].
  - destruct (find_key pm (fst e)) as [p|]; [|apply IH]. eapply Forall2_trans; [exact differ_trans|apply on_par_frame|apply IH].
Qed.

Lemma write_get (Q : prm -> prm -> Prop) pm infos : (forall p, Q p p) ->
  (forall key r p p', In (key, r) (m_params m) -> get_par infos r = Some p -> find_key pm key = Some p' -> Q p p') ->
  forall r p, get_par infos r = Some p -> exists p', get_par (params_write m pm infos) r = Some p' /\ Q p p'.
Proof.
  intros Qr H r p G. unfold params_write.
  assert (K : forall l cur p1, (forall e, In e l -> In e (m_params m)) -> get_par cur r = Some p1 -> Q p p1 ->
    exists p', get_par (fold_left (fun infos e => match find_key pm (fst e) with Some p => on_par (fun _ => p) infos (snd e) | None => infos end) l cur) r = Some p' /\ Q p p').
  { induction l as [|[key r'] t IH]; intros cur p1 Hl Gc Qc; cbn; [eauto|].
    destruct (find_key pm key) as [q|] eqn:F; [|apply (IH cur p1); auto; intros e He; apply Hl; right; exact He].
    destruct ((fst r' =? fst r) && String.eqb (snd r') (snd r)) eqn:X.
    - apply (IH _ q); [intros e He; apply Hl; right; exact He|rewrite on_par_get, X, Gc; reflexivity|].
      apply Bool.andb_true_iff in X. destruct X as [X1 X2]. apply Nat.eqb_eq in X1. apply String.eqb_eq in X2.
      assert (r' = r) as -> by (destruct r, r'; cbn in *; congruence). apply (H key r p q); [apply Hl; left; reflexivity|exact G|exact F].
    - apply (IH _ p1); [intros e He; apply Hl; right; exact He|rewrite on_par_get, X; exact Gc|exact Qc]. }
  apply (K (m_params m) infos p); [auto|exact G|apply Qr].
Qed.

Lemma write_get_back pm infos : forall r p', get_par (params_write m pm infos) r = Some p' -> exists p, get_par infos r = Some p.
Proof.
  intros r. unfold params_write. revert infos. generalize (m_params m) as l. induction l as [|[key r'] t IH]; intros infos p' G; cbn in G; [eauto|].
  destruct (IH _ _ G) as (p & G2). destruct (find_key pm key); [|eauto]. rewrite on_par_get in G2. destruct (_ && _); [|eauto].
  destruct (get_par infos r); [eauto|discriminate].
Qed.

Lemma view_keys infos : params_sound m infos -> map fst (params_view m infos) = map fst (m_params m).
Proof.
  intros SD. unfold params_view. assert (K : forall e, In e (m_params m) -> exists p, get_par infos (snd e) = Some p) by (intros [key r] H; destruct (SD key r H) as (p & G & _); eauto).
  revert K. generalize (m_params m) as l. clear. intros l K. induction l as [|e t IH]; [reflexivity|]. cbn. destruct (K e (or_introl eq_refl)) as (p & ->). cbn. f_equal. apply IH. intros x Hx. apply K. right. exact Hx.
Qed.
Lemma view_has infos key r p : In (key, r) (m_params m) -> get_par infos r = Some p -> In (key, p) (params_view m infos).
Proof. intros H G. unfold params_view. apply in_flat_map. exists (key, r). split; [exact H|]. cbn. rewrite G. left. reflexivity. Qed.
Lemma view_ok infos : params_sound m infos -> pmap_ok (params_view m infos).
Proof.
  intros SD. split; [rewrite view_keys by exact SD; exact ND|]. intros k p H. destruct (view_in _ _ _ _ H) as (r & Hr & G).
  destruct (SD k r Hr) as (p' & G' & K). congruence.
Qed.

Lemma write_moved infos pm : params_sound m infos ->
  (forall k p p', In (k, p) (params_view m infos) -> In (k, p') pm -> sim (fun b => b) p p') -> NoDup (map fst pm) ->
  moved (fun b => b) m infos (params_write m pm infos).
Proof.
  intros SD S NP. split; [|split].
  - intros op li _ H. eapply frame_at; [apply write_frame|exact H].
  - intros op k p Hop G. apply (write_get (sim (fun b => b))); [apply sim_refl| |exact G].
    intros key r q q' Hr Gr F. apply (S key q q'); [eapply view_has; eassumption|]. apply in_find; assumption.
  - intros r p' G. eapply write_get_back, G.
Qed.

Lemma set_weight_sim p d : length d = tot (p_data p) -> sim (fun b => b) p (set_weight p d).
Proof.
  intros L. unfold sim, set_weight, set_dat, prm_ok, twf, tot in *. cbn. split; [|auto].
  intros sh (A & B & C & D). repeat split; try assumption. rewrite L. exact B.
Qed.

Lemma each_sim {S A} (get : S -> string -> option A) one F G (agood : A -> nat -> Prop) infos s :
  params_sound m infos ->
  (forall k p s a, prm_ok (tsh (p_data p)) p -> agood a (tot (p_data p)) -> get s k = Some a ->
     exists s', one k p s = Ok (F k p a, s') /\ get s' k = Some (G k p a) /\ forall k', k' <> k -> get s' k' = get s k') ->
  (forall k p a, prm_ok (tsh (p_data p)) p -> agood a (tot (p_data p)) -> sim (fun b => b) p (F k p a) /\ agood (G k p a) (tot (p_data p))) ->
  (forall key r p, In (key, r) (m_params m) -> get_par infos r = Some p -> exists a, get s key = Some a /\ agood a (tot (p_data p))) ->
  exists pm s', each one (params_view m infos) s = Ret (pm, s') /\ moved (fun b => b) m infos (params_write m pm infos) /\
    (forall key r p, In (key, r) (m_params m) -> get_par infos r = Some p -> exists a, get s' key = Some a /\ agood a (tot (p_data p))).
Proof.
  intros SD Hone HS HK. destruct (view_ok infos SD) as [VN VO].
  destruct (each_ok get one (fun _ p a => prm_ok (tsh (p_data p)) p /\ agood a (tot (p_data p))) F G) with (ps := params_view m infos) (s := s) as (pm & s' & E & K & V & _).
  - intros k p s0 a [P1 P2] Ga. exact (Hone k p s0 a P1 P2 Ga).
  - exact VN.
  - intros k p H. destruct (view_in _ _ _ _ H) as (r & Hr & Gr). destruct (HK k r p Hr Gr) as (a & A1 & A2). exists a. split; [exact A1|]. split; [apply (VO k p H)|exact A2].
  - exists pm, s'. split; [exact E|]. split.
    + apply write_moved; [exact SD| |rewrite K; exact VN]. intros k p p' Hp Hp'. destruct (view_in _ _ _ _ Hp) as (r & Hr & Gr). destruct (HK k r p Hr Gr) as (a & A1 & A2).
      destruct (V k p a Hp A1) as [V1 _]. assert (p' = F k p a) as ->. { apply (in_unique pm k); [rewrite K; exact VN|exact Hp'|exact V1]. }
      apply HS; [apply (VO k p Hp)|exact A2].
    + intros key r p Hr Gr. destruct (HK key r p Hr Gr) as (a & A1 & A2). pose proof (view_has infos key r p Hr Gr) as Hp.
      destruct (V key p a Hp A1) as [_ V2]. exists (G key p a). split; [exact V2|]. apply HS; [apply (VO key p Hp)|exact A2].
Qed.

Definition mom_new' (gamma lr : R) (k : string) (p : prm) (a : list R) : prm :=
  if p_train p then set_weight p (mom_W gamma lr 0 (tdat (p_data p)) (tdat (p_grad p)) a) else p.
Definition mom_vel' (gamma lr : R) (k : string) (p : prm) (a : list R) : list R :=
  if p_train p then mom_G gamma lr 0 (tdat (p_data p)) (tdat (p_grad p)) a else a.

Lemma step_moved infos o : params_sound m infos -> opt_fits m infos o ->
  exists infos' o', model_step o m infos = Ret (infos', o') /\ moved (fun b => b) m infos infos' /\ opt_fits m infos o'.
Proof.
  intros SD OF. unfold model_step, opt_step. destruct o as [lr|lr gamma vel|lr b1 b2 eps t [mm vv]]; cbn [opt_fits] in OF.
  - destruct (each_sim (fun (_ : unit) (_ : string) => Some tt) (sgd_one lr) (sgd_new lr) (fun _ _ a => a) (fun _ _ => True) infos tt SD) as (pm & s' & E & M & _).
    + intros k p s a Hp _ _. exists tt. split; [|split; [destruct a; reflexivity|reflexivity]]. unfold sgd_one, sgd_new. destruct (p_train p); [|reflexivity].
      rewrite (proj1 (proj2 (proj2 Hp))), nshape_refl. cbn [dw_assert bind]. pose proof (prm_tot p Hp) as HT. rewrite !emap_Ok by (unfold tot in *; lia).
      cbn [bind]. rewrite HT. rewrite put_full by reflexivity. reflexivity.
    + intros k p a _ _. split; [|exact I]. unfold sgd_new. destruct (p_train p) eqn:Et; [|apply sim_refl]. apply set_weight_sim, tab_length.
    + intros. exists tt. auto.
    + unfold sgd_step. rewrite E. destruct s'. eexists _, _. split; [reflexivity|]. split; [exact M|exact I].
  - destruct (each_sim mom_get (momentum_one lr gamma) (mom_new' gamma lr) (mom_vel' gamma lr) (fun a n => length a = n) infos vel SD) as (pm & s' & E & M & K).
    + intros k p s a Hp Ha Ga. unfold mom_new', mom_vel'. destruct (p_train p) eqn:Et.
      * apply (mom_active gamma lr 0 k p s a Hp Et Ga Ha).
      * exists s. unfold momentum_one. rewrite Et. auto.
    + intros k p a Hp Ha. unfold mom_new', mom_vel'. destruct (p_train p) eqn:Et; [|split; [apply sim_refl|exact Ha]].
      unfold mom_W, mom_G. split; [apply set_weight_sim|]; rewrite tab_length; reflexivity.
    + intros key r p Hr G. destruct (OF key r p Hr G) as (t & F & T). exists (tdat t). unfold mom_get. rewrite F. split; [reflexivity|exact T].
    + unfold momentum_step. rewrite E. eexists _, _. split; [reflexivity|]. split; [exact M|]. intros key r p Hr G. destruct (K key r p Hr G) as (a & Ga & La).
      unfold mom_get in Ga. destruct (find_key s' key) as [t|]; [|discriminate]. injection Ga as <-. exists t. auto.
  - destruct OF as [O1 O2].
    destruct (each_sim adam_get (adam_one lr b1 b2 eps (S t))
       (fun k p a => if p_train p then set_weight p (adam_W b1 b2 eps lr (S t) (tdat (p_data p)) (tdat (p_grad p)) a) else p)
       (fun k p a => if p_train p then adam_G b1 b2 lr (S t) (tdat (p_data p)) (tdat (p_grad p)) a else a)
       (fun a n => length (fst a) = n /\ length (snd a) = n) infos (mm, vv) SD) as (pm & s' & E & M & K).
    + intros k p s a Hp Ha Ga. destruct (p_train p) eqn:Et.
      * apply (adam_active b1 b2 eps lr (S t) k p s a Hp Et Ga Ha).
      * exists s. unfold adam_one. rewrite Et. auto.
    + intros k p a Hp Ha. destruct (p_train p) eqn:Et; [|split; [apply sim_refl|exact Ha]].
      unfold adam_W, adam_G. split; [apply set_weight_sim|cbn [fst snd]; split]; rewrite tab_length; reflexivity.
    + intros key r p Hr G. destruct (O1 key r p Hr G) as (t1 & F1 & T1). destruct (O2 key r p Hr G) as (t2 & F2 & T2).
      exists (tdat t1, tdat t2). unfold adam_get. cbn [fst snd]. rewrite F1, F2. auto.
    + unfold adam_step. rewrite E. destruct s' as [m' v']. eexists _, _. split; [reflexivity|]. split; [exact M|].
      cbn [opt_fits]. split; intros key r p Hr G; destruct (K key r p Hr G) as (a & Ga & La1 & La2); unfold adam_get in Ga; cbn [fst snd] in Ga;
        (destruct (find_key m' key) as [t1|]; [|discriminate]); (destruct (find_key v' key) as [t2|]; [|discriminate]); injection Ga as <-; eauto.
Qed.
End Model.
