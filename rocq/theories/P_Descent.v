(** Training as descent: training flags and the rules of the optimizers. *)
From Coq Require Import Reals String Lia Lra Permutation.
From Verif Require Import Base BaseFacts Sums M_Tensor M_Layers M_Kernels M_Optim M_Init M_Loss M_Nn M_Graph M_Model M_Backend M_Train S_Grad S_Loss S_Optim S_Fit S_Graph S_Run S_Train S_Plain S_Desc S_Sample S_Descent
  P_Kernels P_Layers P_Fit P_Optim P_Nn P_Load P_Run2 P_Idem2 P_Train2 P_Train3 P_Desc Prop_Model Prop_Run Prop_Train.
Local Open Scope string_scope.
Open Scope nat_scope.
Local Open Scope list_scope.

(** ** Training flags *)
Definition flags (infos infos' : list linfo) : Prop := forall r, option_map p_train (get_par infos' r) = option_map p_train (get_par infos r).
Lemma flags_refl a : flags a a.
Proof. intros r. reflexivity. Qed.
Lemma flags_trans a b c : flags a b -> flags b c -> flags a c.
Proof. intros H K r. rewrite K. apply H. Qed.

Lemma store_flags li L0 L L' k : load li L0 = Ok L -> same_kind L L' -> map p_train (lparams L') = map p_train (lparams L) ->
  option_map p_train (find_key (li_params (lstore L' li)) k) = option_map p_train (find_key (li_params li) k).
Proof.
  intros H K T. destruct L0; cbn in H; inv_ok H; injection H as <-; destruct L'; cbn in K; try contradiction; cbn in T; use_keys; cbn [lstore]; unfold set_par, set_buf; cbn [li_params]; try reflexivity;
    repeat match goal with X : [_] = [_] |- _ => injection X as X | X : [_; _] = [_; _] |- _ => injection X; clear X; intros end;
    repeat (rewrite ?P_Load.find_set; match goal with |- context [String.eqb ?a k] => destruct (String.eqb_spec a k) as [<-|] end); rewrite ?P_Load.find_set; try reflexivity;
    repeat match goal with X : find_key _ _ = Some _ |- _ => rewrite X end; cbn;
    repeat match goal with X : find_key _ _ = Some _ |- _ => rewrite X end; cbn; congruence.
Qed.
Lemma upd_flags infos i li L0 L L' : nth_error infos i = Some li -> load li L0 = Ok L -> same_kind L L' -> map p_train (lparams L') = map p_train (lparams L) ->
  flags infos (upd infos i (lstore L' li)).
Proof.
  intros Hi HL K T [j k]. unfold get_par. cbn [fst snd]. destruct (Nat.eq_dec i j) as [<-|N].
  - rewrite nth_error_upd_eq by (apply nth_error_Some; congruence). rewrite Hi. eapply store_flags; eassumption.
  - rewrite nth_error_upd_neq by congruence. reflexivity.
Qed.

Lemma fwd_step_flags E op L infos mem i2 L2 m2 : fwd_step E op L infos mem = Ok (i2, L2, m2) -> flags infos i2.
Proof.
  unfold fwd_step. intros H. inv_ok H. repeat match goal with p : (_ * _)%type |- _ => destruct p end. cbn [bind] in H. inv_ok H. injection H as <- <- <-.
  match goal with X : rd infos _ = Ok _ |- _ => rewrite rd_nth in X; destruct (nth_error infos (mo_info op)) as [li|] eqn:Hli; [|discriminate X]; injection X as -> end.
  match goal with X : lforward _ _ _ _ = Ok _ |- _ => destruct (lforward_kind _ _ _ _ _ _ X) as [K _]; destruct (lforward_flags _ _ _ _ _ _ X) as [_ T] end.
  eapply upd_flags; eassumption.
Qed.
Lemma fwd_ops_flags E ops : forall ls infos mem i2 l2 m2, fwd_ops E ops ls infos mem = Ret (i2, l2, m2) -> flags infos i2.
Proof.
  induction ops as [|op t IH]; intros ls infos mem i2 l2 m2 H; cbn in H; [injection H as <- <- <-; apply flags_refl|].
  destruct ls as [|L ls]; [discriminate|]. destruct (fwd_step (E (mo_ph op)) op L infos mem) as [[[i1 L1] m1]| |] eqn:S; cbn [lift] in H; try discriminate.
  destruct (fwd_ops E t ls i1 m1) as [[[i3 l3] m3]|[[? ?] ?]|] eqn:F; try discriminate. injection H as <- <- <-.
  eapply flags_trans; [eapply fwd_step_flags, S|eapply IH, F].
Qed.
Lemma forward_flags E m infos bo xs os i2 b2 x2 o2 : model_forward E m infos bo xs os = Ret (i2, b2, x2, o2) -> flags infos i2.
Proof.
  unfold model_forward. destruct bo as [b|]; [|discriminate]. unfold backend_forward.
  match goal with |- match ?x with _ => _ end = _ -> _ => destruct x as [[[ii oi] mem]| |] end; try discriminate.
  destruct (fwd_ops E (m_ops m) (b_layers b) infos mem) as [[[i3 l3] m3]|[[? ?] ?]|] eqn:F; try discriminate.
  - destruct (unbind ii oi m3 xs), (unbind oi [] m3 os); try discriminate. intros H. injection H as <- <- <- <-. eapply fwd_ops_flags, F.
  - destruct (unbind ii oi l1 xs), (unbind oi [] l1 os); discriminate.
Qed.
Lemma same_find l l' k : Forall2 same_prm l l' -> option_map p_train (find_key l' k) = option_map p_train (find_key l k).
Proof.
  induction 1 as [|[x p] [x' p'] l l' (A & B & C) _ IH]; [reflexivity|]. cbn in *. subst x'. destruct (String.eqb x k); [cbn; congruence|exact IH].
Qed.
Lemma same_flags infos infos' : Forall2 same_li infos infos' -> flags infos infos'.
Proof.
  intros F [i k]. unfold get_par. cbn [fst snd]. revert i. induction F as [|a b l l' (_ & _ & _ & _ & H) _ IH]; intros [|i]; cbn [nth_error]; try reflexivity; [apply same_find, H|apply IH].
Qed.
Lemma backward_flags E m infos bo xs os gs i2 b2 g2 : model_backward E m infos bo xs os gs = Ret (i2, b2, g2) -> flags infos i2.
Proof.
  unfold model_backward. destruct bo as [b|]; [|discriminate]. unfold backend_backward. cbn zeta.
  match goal with |- match ?x with _ => _ end = _ -> _ => destruct x as [[[oi mem] gr]| |] end; try discriminate.
  destruct (bwd_ops E mem (m_ops m) (b_layers b) infos gr) as [[[i3 l3] m3]|[[? ?] ?]|] eqn:F; try discriminate.
  - destruct (unbind oi [] m3 gs); try discriminate. intros H. injection H as <- <- <-. apply same_flags. eapply bwd_infos. left. exact F.
  - destruct (unbind oi [] l1 gs); discriminate.
Qed.

Lemma each_flags {S} (one : string -> prm -> S -> res (prm * S)) : (forall k p s p' s', one k p s = Ok (p', s') -> p_train p' = p_train p) ->
  forall ps s ps' s', each one ps s = Ret (ps', s') -> forall k, option_map p_train (find_key ps' k) = option_map p_train (find_key ps k).
Proof.
  intros H1. induction ps as [|[k p] t IH]; intros s ps' s' H x; cbn in H; [injection H as <- <-; reflexivity|].
  destruct (one k p s) as [[p' s1]| |] eqn:E1; try discriminate. destruct (each one t s1) as [[t' s2]|[t' s2]|] eqn:E; try discriminate.
  injection H as <- <-. cbn. destruct (String.eqb k x); [cbn; f_equal; eapply H1, E1|eapply IH, E].
Qed.
Lemma opt_flags o ps ps' o' : opt_step o ps = Ret (ps', o') -> forall k, option_map p_train (find_key ps' k) = option_map p_train (find_key ps k).
Proof.
  destruct o as [lr|lr gamma v|lr b1 b2 eps t s]; cbn; unfold sgd_step, momentum_step, adam_step; intros H;
    match type of H with context [each ?f ?p ?x] => destruct (each f p x) as [[p1 s1]|[p1 s1]|] eqn:E end; try discriminate; injection H as <- <-; eapply each_flags; try exact E; clear;
    intros k p s' p' s'' H; unfold sgd_one, momentum_one, adam_one in H; destruct (p_train p) eqn:T; inv_ok H; injection H as <- _; try exact T; try reflexivity; cbn; exact T.
Qed.

Definition trains (m : model) (infos : list linfo) : Prop := forall key r, In (key, r) (m_params m) -> option_map p_train (get_par infos r) = Some true.
Lemma trains_flags m a b : flags a b -> trains m a -> trains m b.
Proof. intros F T key r H. rewrite F. eapply T, H. Qed.
Lemma train_trains m infos : params_sound m infos -> trains m (model_train true m infos).
Proof.
  intros SD key r H. destruct (SD key r H) as (p & G & _). rewrite train_get, G. destruct (existsb _ _) eqn:X; [reflexivity|].
  exfalso. assert (Y : existsb (fun e => (fst (snd e) =? fst r) && String.eqb (snd (snd e)) (snd r)) (m_params m) = true); [|congruence].
  apply existsb_exists. exists (key, r). split; [exact H|]. cbn. rewrite Nat.eqb_refl, String.eqb_refl. reflexivity.
Qed.

Lemma step_trains es ins outs m infos o infos' o' : constructed es ins outs m -> params_sound m infos -> model_step o m infos = Ret (infos', o') -> trains m infos -> trains m infos'.
Proof.
  intros C SD H T key r Hr. destruct (constructed_params _ _ _ _ C) as (ND & RF). pose proof (params_injective _ _ _ _ C) as INJ.
  unfold model_step in H. destruct (opt_step o (params_view m infos)) as [[pm o2]|[pm o2]|] eqn:OS; try discriminate. injection H as <- <-.
  pose proof (opt_keys _ _ _ _ OS) as KE. rewrite (view_keys m infos SD) in KE. destruct (SD key r Hr) as (p & G & _).
  pose proof (opt_flags _ _ _ _ OS key) as FL. rewrite (P_Run2.find_In_unique (params_view m infos) key p) in FL; [|rewrite view_keys by exact SD; exact ND|eapply view_has; eassumption].
  destruct (find_key pm key) as [q|] eqn:F; [|discriminate FL]. rewrite (write_at m ND INJ pm infos key r p q Hr G F). cbn in FL |- *.
  pose proof (T key r Hr) as T0. rewrite G in T0. cbn in T0. congruence.
Qed.

(** ** The rules of the optimizers *)
Definition stocked (pm : pmap) (o : optimizer) : Prop :=
  match o with
  | SGD _ => True
  | Momentum _ _ v => forall k p, In (k, p) pm -> exists t, find_key v k = Some t /\ tot t = tot (p_data p)
  | Adam _ _ _ _ _ (v1, v2) => forall k p, In (k, p) pm -> exists t1 t2, find_key v1 k = Some t1 /\ find_key v2 k = Some t2 /\ tot t1 = tot (p_data p) /\ tot t2 = tot (p_data p)
  end.

Lemma step_moves o pm pm' o' : pmap_ok pm -> stocked pm o -> opt_step o pm = Ret (pm', o') ->
  forall k p, In (k, p) pm -> p_train p = true -> exists p', In (k, p') pm' /\ tsh (p_data p') = tsh (p_data p) /\
  forall e, e < tot (p_data p) -> moves o o' k e (tdat (p_grad p)).[e] (tdat (p_data p)).[e] (tdat (p_data p')).[e].
Proof.
  intros [Hnd Hok] ST OS k p Hin Et. destruct o as [lr|lr gamma vel|lr b1 b2 eps t s]; cbn [opt_step stocked] in *.
  - destruct (sgd_step lr pm) as [[r []]|[r []]|] eqn:E; try discriminate. injection OS as <- <-.
    destruct (each_ok (fun (_ : unit) (_ : string) => Some tt) (sgd_one lr) (fun _ p _ => prm_ok (tsh (p_data p)) p) (sgd_new lr) (fun _ _ a => a)) with (ps := pm) (s := tt) as (r' & [] & E' & _ & V & _).
    + intros k0 p0 s a Hp _. exists tt. split; [|split; [destruct a; reflexivity|reflexivity]]. unfold sgd_one, sgd_new. destruct (p_train p0); [|reflexivity].
      rewrite (proj1 (proj2 (proj2 Hp))), nshape_refl. cbn [dw_assert bind]. pose proof (prm_tot p0 Hp) as HT. rewrite !emap_Ok by (unfold tot in *; lia).
      cbn [bind]. rewrite HT. rewrite put_full by reflexivity. reflexivity.
    + exact Hnd.
    + intros k0 p0 H0. exists tt. split; [reflexivity|apply (Hok k0 p0 H0)].
    + unfold sgd_step in E. rewrite E in E'. injection E' as <-. destruct (V k p tt Hin eq_refl) as [V1 _]. exists (sgd_new lr k p tt). split; [exact V1|]. unfold sgd_new. rewrite Et.
      split; [reflexivity|]. intros e He. cbn [set_weight set_dat p_data tdat]. rewrite nth_tab by exact He. apply by_sgd.
  - destruct (momentum_step lr gamma pm vel) as [[r v']|[r v']|] eqn:E; try discriminate. injection OS as <- <-.
    destruct (each_ok mom_get (momentum_one lr gamma) (fun _ p a => prm_ok (tsh (p_data p)) p /\ length a = tot (p_data p)) (newp (mom_W gamma) lr 0) (newa (mom_G gamma) lr 0)) with (ps := pm) (s := vel) as (r' & v2 & E' & _ & V & _).
    + intros k0 p0 s a [Hp Ha] Ga. unfold newp, newa. destruct (p_train p0) eqn:Et0; [apply mom_active; assumption|]. exists s. unfold momentum_one. rewrite Et0. auto.
    + exact Hnd.
    + intros k0 p0 H0. destruct (ST k0 p0 H0) as (v & Fv & Lv). exists (tdat v). unfold mom_get. rewrite Fv. split; [reflexivity|]. split; [apply (Hok k0 p0 H0)|exact Lv].
    + unfold momentum_step in E. rewrite E in E'. injection E' as <- <-. destruct (ST k p Hin) as (v & Fv & Lv).
      destruct (V k p (tdat v) Hin) as [V1 V2]; [unfold mom_get; rewrite Fv; reflexivity|]. eexists. split; [exact V1|]. unfold newp, newa in *. rewrite Et in *.
      split; [reflexivity|]. intros e He. unfold mom_get in V2. destruct (find_key v' k) as [w|] eqn:Fw; [|discriminate]. cbn in V2. injection V2 as V2. cbn [set_weight set_dat p_data tdat].
      unfold mom_W. rewrite nth_tab by exact He.
      assert (EW : (tdat w).[e] = (gamma * (tdat v).[e] + lr * (tdat (p_grad p)).[e])%R) by (rewrite V2; unfold mom_G; rewrite nth_tab by exact He; reflexivity).
      rewrite <- EW. eapply by_momentum; eassumption.
  - destruct s as [s1 s2]. unfold adam_step in OS. cbn [fst snd] in OS. destruct (each (adam_one lr b1 b2 eps (S t)) pm (s1, s2)) as [[r s']|[r s']|] eqn:E; try discriminate. injection OS as <- <-.
    destruct (each_ok adam_get (adam_one lr b1 b2 eps (S t)) (fun _ p a => prm_ok (tsh (p_data p)) p /\ length (fst a) = tot (p_data p) /\ length (snd a) = tot (p_data p))
      (newp (adam_W b1 b2 eps) lr (S t)) (newa (adam_G b1 b2) lr (S t))) with (ps := pm) (s := (s1, s2)) as (r' & v2 & E' & _ & V & _).
    + intros k0 p0 s a [Hp Ha] Ga. unfold newp, newa. destruct (p_train p0) eqn:Et0; [apply adam_active; assumption|]. exists s. unfold adam_one. rewrite Et0. auto.
    + exact Hnd.
    + intros k0 p0 H0. destruct (ST k0 p0 H0) as (m & v & Fm & Fv & Lm & Lv). exists (tdat m, tdat v). unfold adam_get. cbn [fst snd]. rewrite Fm, Fv. split; [reflexivity|]. split; [apply (Hok k0 p0 H0)|split; assumption].
    + rewrite E in E'. injection E' as <- <-. destruct (ST k p Hin) as (m & v & Fm & Fv & Lm & Lv).
      destruct (V k p (tdat m, tdat v) Hin) as [V1 V2]; [unfold adam_get; cbn [fst snd]; rewrite Fm, Fv; reflexivity|]. eexists. split; [exact V1|]. unfold newp, newa in *. rewrite Et in *.
      split; [reflexivity|]. intros e He. destruct s' as [w1 w2]. unfold adam_get in V2. cbn [fst snd] in V2.
      destruct (find_key w1 k) as [m'|] eqn:Fm'; [|discriminate]. destruct (find_key w2 k) as [v'|] eqn:Fv'; [|discriminate]. injection V2 as Vm Vv. cbn [set_weight set_dat p_data tdat].
      unfold adam_W. rewrite nth_tab by exact He. cbn [fst snd].
      assert (EM : (tdat m').[e] = adam_m b1 (tdat (p_grad p)) (tdat m) e) by (rewrite Vm, nth_tab by exact He; reflexivity).
      assert (EV : (tdat v').[e] = adam_v b2 (tdat (p_grad p)) (tdat v) e) by (rewrite Vv, nth_tab by exact He; reflexivity).
      rewrite <- EM, <- EV. eapply by_adam; eassumption.
Qed.
