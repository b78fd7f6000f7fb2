(** Saved and loaded models: what using a model leaves alone. *)
From Coq Require Import Reals String Lia.
From Verif Require Import Base BaseFacts Sums M_Tensor M_Layers M_Optim M_Init M_Nn M_Graph M_Model M_Backend M_Train M_Saved S_Grad S_Fit S_Nn S_Graph S_Run S_Build S_Train S_Plain S_Eval S_Saved
  P_Fit P_Optim P_Nn P_Load P_Plain P_Saved P_Saved2 P_Saved3.
Local Open Scope string_scope.
Open Scope nat_scope.
Local Open Scope list_scope.

Lemma kept_all l : Forall2 kept l l.
Proof. induction l; constructor; [apply kept_refl|assumption]. Qed.
Lemma kept_trans_all a b c : Forall2 kept a b -> Forall2 kept b c -> Forall2 kept a c.
Proof. intros H1 H2. eapply Forall2_trans; [exact kept_trans|eassumption..]. Qed.
Lemma kinds_all l : Forall2 same_kind l l.
Proof. induction l; constructor; [apply same_kind_refl|assumption]. Qed.
Lemma kinds_trans_all a b c : Forall2 same_kind a b -> Forall2 same_kind b c -> Forall2 same_kind a c.
Proof. intros H1 H2. eapply Forall2_trans; [exact same_kind_trans|eassumption..]. Qed.
Lemma upd_kept l i a b : nth_error l i = Some a -> kept a b -> Forall2 kept l (upd l i b).
Proof.
  intros H AL. revert i H. induction l as [|x t IH]; intros [|i] H; cbn in *; try discriminate.
  - injection H as ->. constructor; [exact AL|apply kept_all].
  - constructor; [apply kept_refl|]. apply IH, H.
Qed.
Lemma store_kept L li : kept li (lstore L li).
Proof.
  destruct (store_frame L li) as (A & B & C). destruct (store_keys L li) as (D & E). split; [|split; assumption]. unfold same_description. intuition congruence.
Qed.
Lemma on_par_kept f infos r : Forall2 kept infos (on_par f infos r).
Proof.
  unfold on_par. destruct (nth_error infos (fst r)) as [li|] eqn:E; [|apply kept_all]. destruct (find_key (li_params li) (snd r)) as [p|]; [|apply kept_all].
  apply (upd_kept _ _ _ _ E). split; [repeat split|]. split; cbn; [apply set_key_keys|reflexivity].
Qed.
Lemma train_kept mode m infos : Forall2 kept infos (model_train mode m infos).
Proof.
  unfold model_train. revert infos. induction (m_params m) as [|e t IH]; intros infos; cbn [fold_left]; [apply kept_all|]. eapply kept_trans_all; [|apply IH]. apply on_par_kept.
Qed.
Lemma write_kept m ps infos : Forall2 kept infos (params_write m ps infos).
Proof.
  unfold params_write. revert infos. induction (m_params m) as [|e t IH]; intros infos; cbn [fold_left]; [apply kept_all|].
  eapply kept_trans_all; [|apply IH]. destruct (find_key ps (fst e)); [apply on_par_kept|apply kept_all].
Qed.

Lemma fwd_step_kept E op L infos mem i2 L2 m2 : fwd_step E op L infos mem = Ok (i2, L2, m2) -> Forall2 kept infos i2 /\ same_kind L L2.
Proof.
  unfold fwd_step. intros H. inv_ok H. repeat match goal with p : (_ * _)%type |- _ => destruct p end. cbn [bind] in H. inv_ok H. injection H as <- <- <-.
  match goal with X : rd infos _ = Ok _ |- _ => rewrite rd_nth in X; destruct (nth_error infos (mo_info op)) as [li|] eqn:Hli; [|discriminate X]; injection X as -> end.
  split; [apply (upd_kept _ _ _ _ Hli), store_kept|]. eapply same_kind_trans; [eapply load_kind; eassumption|]. eapply lforward_kind; eassumption.
Qed.
Lemma fwd_ops_kept E ops : forall ls infos mem i2 l2 m2, fwd_ops E ops ls infos mem = Ret (i2, l2, m2) -> Forall2 kept infos i2 /\ Forall2 same_kind ls l2.
Proof.
  induction ops as [|op t IH]; intros ls infos mem i2 l2 m2 H; cbn in H; [injection H as <- <- <-; split; [apply kept_all|apply kinds_all]|].
  destruct ls as [|L ls]; [discriminate|]. destruct (fwd_step (E (mo_ph op)) op L infos mem) as [[[i1 L1] m1]| |] eqn:S; cbn [lift] in H; try discriminate.
  destruct (fwd_ops E t ls i1 m1) as [[[i3 l3] m3]|[[? ?] ?]|] eqn:F; try discriminate. injection H as <- <- <-. destruct (fwd_step_kept _ _ _ _ _ _ _ _ S) as (A & B). destruct (IH _ _ _ _ _ _ F) as (C & D).
  split; [eapply kept_trans_all; eassumption|constructor; assumption].
Qed.
Lemma bwd_step_kept E mem op L infos gr i2 L2 m2 : bwd_step E mem op L infos gr = Ret (i2, L2, m2) -> Forall2 kept infos i2 /\ same_kind L L2.
Proof.
  unfold bwd_step. match goal with |- lift _ ?x _ = _ -> _ => destruct x as [[[[[i o] go] li] L0]| |] eqn:X end; cbn [lift]; try discriminate.
  inv_ok X. injection X as -> -> -> -> ->. destruct (lupdate E L0 i go) as [L1| |] eqn:U; cbn [lift]; try discriminate.
  destruct (lbackward E L1 i o gr (mo_in op) (mo_out op)) as [[L3 g3]| |] eqn:B; cbn [lift]; try discriminate. intros H. injection H as <- <- <-.
  match goal with X : rd infos _ = Ok _ |- _ => rewrite rd_nth in X; destruct (nth_error infos (mo_info op)) as [li'|] eqn:Hli; [|discriminate X]; injection X as -> end.
  split; [apply (upd_kept _ _ _ _ Hli), store_kept|]. eapply same_kind_trans; [eapply load_kind; eassumption|]. eapply same_kind_trans; [eapply lupdate_kind, U|eapply lbackward_kind, B].
Qed.
Lemma bwd_ops_kept E mem ops : forall ls infos gr i2 l2 g2, bwd_ops E mem ops ls infos gr = Ret (i2, l2, g2) -> Forall2 kept infos i2 /\ Forall2 same_kind ls l2.
Proof.
  induction ops as [|op t IH]; intros ls infos gr i2 l2 g2 H; cbn in H; [injection H as <- <- <-; split; [apply kept_all|apply kinds_all]|].
  destruct ls as [|L ls]; [discriminate|]. destruct (bwd_ops E mem t ls infos gr) as [[[i3 l3] g3]|[[? ?] ?]|] eqn:F; try discriminate.
  destruct (bwd_step (E (mo_ph op)) mem op L i3 g3) as [[[i1 L1] m1]|[[? ?] ?]|] eqn:S; try discriminate.
  injection H as <- <- <-. destruct (bwd_step_kept _ _ _ _ _ _ _ _ _ S) as (A & B). destruct (IH _ _ _ _ _ _ F) as (C & D).
  split; [eapply kept_trans_all; eassumption|constructor; assumption].
Qed.

Definition rig (infos : list linfo) (bo : option backend) (infos' : list linfo) (bo' : option backend) : Prop :=
  Forall2 kept infos infos' /\ match bo with Some b => exists b', bo' = Some b' /\ Forall2 same_kind (b_layers b) (b_layers b') | None => bo' = None end.
Lemma rig_refl infos bo : rig infos bo infos bo.
Proof. split; [apply kept_all|]. destruct bo; [|reflexivity]. eexists. split; [reflexivity|apply kinds_all]. Qed.
Lemma rig_trans a x b y c z : rig a x b y -> rig b y c z -> rig a x c z.
Proof.
  intros [A1 A2] [B1 B2]. split; [eapply kept_trans_all; eassumption|]. destruct x as [x|]; [|subst y; exact B2]. destruct A2 as (y' & -> & K). destruct B2 as (z' & -> & K').
  exists z'. split; [reflexivity|]. eapply kinds_trans_all; eassumption.
Qed.
Lemma forward_rig E m infos bo xs os i2 b2 x2 o2 : model_forward E m infos bo xs os = Ret (i2, b2, x2, o2) -> rig infos bo i2 b2.
Proof.
  unfold model_forward. destruct bo as [b|]; [|discriminate]. unfold backend_forward.
  match goal with |- match ?x with _ => _ end = _ -> _ => destruct x as [[[ii oi] mem]| |] end; try discriminate.
  destruct (fwd_ops E (m_ops m) (b_layers b) infos mem) as [[[i3 l3] m3]|[[? ?] ?]|] eqn:F; try discriminate.
  - destruct (unbind ii oi m3 xs), (unbind oi [] m3 os); try discriminate. intros H. injection H as <- <- <- <-. destruct (fwd_ops_kept _ _ _ _ _ _ _ _ F) as (A & B).
    split; [exact A|]. eexists. split; [reflexivity|]. exact B.
  - destruct (unbind ii oi l1 xs), (unbind oi [] l1 os); discriminate.
Qed.
Lemma backward_rig E m infos bo xs os gs i2 b2 g2 : model_backward E m infos bo xs os gs = Ret (i2, b2, g2) -> rig infos bo i2 b2.
Proof.
  unfold model_backward. destruct bo as [b|]; [|discriminate]. unfold backend_backward. cbn zeta.
  match goal with |- match ?x with _ => _ end = _ -> _ => destruct x as [[[oi mem] gr]| |] end; try discriminate.
  destruct (bwd_ops E mem (m_ops m) (b_layers b) infos gr) as [[[i3 l3] m3]|[[? ?] ?]|] eqn:F; try discriminate.
  - destruct (unbind oi [] m3 gs); try discriminate. intros H. injection H as <- <- <-. destruct (bwd_ops_kept _ _ _ _ _ _ _ _ _ F) as (A & B).
    split; [exact A|]. eexists. split; [reflexivity|]. exact B.
  - destruct (unbind oi [] l1 gs); discriminate.
Qed.
Lemma step_rig o m infos bo i2 o2 : model_step o m infos = Ret (i2, o2) -> rig infos bo i2 bo.
Proof.
  unfold model_step. destruct (opt_step o (params_view m infos)) as [[p o']|[? ?]|]; try discriminate. intros H. injection H as <- <-.
  split; [apply write_kept|]. apply (rig_refl infos bo).
Qed.
Lemma train_rig mode m infos bo : rig infos bo (model_train mode m infos) bo.
Proof. split; [apply train_kept|]. apply (rig_refl infos bo). Qed.
Lemma tacts_rig m cs : forall s s', tacts m cs s = Ret s' -> rig (ts_info s) (ts_backend s) (ts_info s') (ts_backend s').
Proof.
  induction cs as [|c t IH]; intros s s' H; cbn in H; [injection H as <-; apply rig_refl|].
  destruct (tact m c s) as [s1|s1|] eqn:T; try discriminate. eapply rig_trans; [|exact (IH _ _ H)]. clear H IH. destruct c; cbn in T.
  - destruct (model_forward E m (ts_info s) (ts_backend s) ins outs) as [[[[? ?] ?] ?]|[[[? ?] ?] ?]|] eqn:F; try discriminate. injection T as <-. cbn. eapply forward_rig, F.
  - destruct (model_backward E m (ts_info s) (ts_backend s) ins outs gouts) as [[[? ?] ?]|[[? ?] ?]|] eqn:F; try discriminate. injection T as <-. cbn. eapply backward_rig, F.
  - injection T as <-. apply train_rig.
  - destruct (model_step (ts_opt s) m (ts_info s)) as [[? ?]|[? ?]|] eqn:F; try discriminate. injection T as <-. cbn. eapply step_rig, F.
  - injection T as <-. apply rig_refl.
Qed.

(** Switching the mode changes no tensor. *)
Lemma on_par_state f infos r q : (forall p, p_data (f p) = p_data p) -> get_state (on_par f infos r) q = get_state infos q.
Proof.
  intros HF. unfold on_par. destruct (nth_error infos (fst r)) as [li|] eqn:E; [|reflexivity]. destruct (find_key (li_params li) (snd r)) as [p|] eqn:Ep; [|reflexivity].
  assert (Lt : fst r < length infos) by (apply nth_error_Some; congruence).
  destruct q as [i k|i k]; cbn; unfold get_par; cbn; (destruct (Nat.eq_dec (fst r) i) as [Ei|Ni]; [|rewrite nth_error_upd_neq by congruence; reflexivity]);
    rewrite Ei in *; rewrite nth_error_upd_eq by exact Lt; rewrite E; cbn; [|reflexivity].
  destruct (string_dec (snd r) k) as [<-|Nk]; [rewrite (find_set_eq _ _ _ _ Ep), Ep, HF; reflexivity|rewrite find_set_neq by congruence; reflexivity].
Qed.
Lemma train_state mode m infos q : get_state (model_train mode m infos) q = get_state infos q.
Proof.
  unfold model_train. revert infos. induction (m_params m) as [|e t IH]; intros infos; cbn [fold_left]; [reflexivity|]. rewrite IH. apply on_par_state. reflexivity.
Qed.
Lemma train_view mode m m' infos : state_view m' (model_train mode m infos) = state_view m' infos.
Proof. unfold state_view. apply flat_map_ext. intros e. rewrite train_state. reflexivity. Qed.
