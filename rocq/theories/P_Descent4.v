(** The networks of the samples can be differentiated; an iteration away from kinks. *)
From Coq Require Import Reals String Lia Lra Permutation.
From Verif Require P_Serial.
From Verif Require Import Base BaseFacts Sums M_Tensor M_Layers M_Kernels M_Im2col M_Optim M_Init M_Loss M_Nn M_Graph M_Model M_Backend M_DataLoader M_Train M_Sample
  S_Grad S_Partial S_Loss S_DataLoader S_Optim S_Fit S_Graph S_Run S_Train S_Plain S_Desc S_Eval S_Build S_Sample S_Saved S_Descent
  P_Kernels P_Partial P_Layers P_Fit P_Optim P_Nn P_Load P_Graph P_Model P_Model2 P_Run P_Fwd P_Fwd2 P_Run2 P_Train2 P_Train3 P_Plain P_Desc P_Eval P_Saved2 P_Sample P_Sample2 P_Descent P_Descent2 P_Descent3
  Prop_Layers Prop_Graph Prop_Model Prop_Run Prop_Bwd Prop_Train Prop_Plain Prop_Desc Prop_Eval.
Local Open Scope string_scope.
Open Scope nat_scope.
Local Open Scope list_scope.

Definition key_of (r : row) : bool * list nat := (match r_layer r with ABatchNorm2D _ _ => true | _ => false end, r_args r).
Definition alone (l : list (bool * list nat)) : bool :=
  forallb (fun j => match nth_error l j with
    | Some (true, args) => forallb (fun a => forallb (fun j' => orb (j' =? j) (negb (match nth_error l j' with Some (_, args') => existsb (Nat.eqb a) args' | None => false end))) (seq 0 (length l))) args
    | _ => true end) (seq 0 (length l)).
Lemma alone_ok t : alone (map key_of t) = true -> forall j r eps alpha a, nth_error t j = Some r -> r_layer r = ABatchNorm2D eps alpha -> In a (r_args r) ->
    forall j' r', nth_error t j' = Some r' -> In a (r_args r') -> j' = j.
Proof.
  intros H j r eps alpha a Hj L Ha j' r' Hj' Ha'. unfold alone in H. rewrite forallb_forall in H. specialize (H j).
  assert (B : forall i x, nth_error t i = Some x -> In i (seq 0 (length (map key_of t)))) by (intros i x Hi; apply in_seq; rewrite map_length; split; [lia|]; apply nth_error_Some; congruence).
  specialize (H (B _ _ Hj)). rewrite (map_nth_error key_of _ _ Hj) in H. unfold key_of at 1 in H. rewrite L in H. rewrite forallb_forall in H. specialize (H a Ha). rewrite forallb_forall in H.
  specialize (H j' (B _ _ Hj')). rewrite (map_nth_error key_of _ _ Hj') in H. unfold key_of in H. apply Bool.orb_true_iff in H. destruct H as [H|H]; [apply Nat.eqb_eq, H|].
  apply Bool.negb_true_iff in H. rewrite <- Bool.not_true_iff_false in H. exfalso. apply H. apply existsb_exists. exists a. split; [exact Ha'|apply Nat.eqb_refl].
Qed.

Lemma mnist_differentiable n : differentiable (mnist_table n).
Proof. split; [|apply alone_ok; reflexivity]. intros r H. cbn in H. repeat (destruct H as [<-|H]; [cbn; try exact Logic.I; lra|]). destruct H. Qed.
Lemma iris_differentiable n : differentiable (iris_table n).
Proof. split; [|apply alone_ok; reflexivity]. intros r H. cbn in H. repeat (destruct H as [<-|H]; [cbn; try exact Logic.I; lra|]). destruct H. Qed.
Lemma cifar10_differentiable n : differentiable (cifar10_table n).
Proof. split; [|apply alone_ok; reflexivity]. intros r H. cbn in H. repeat (destruct H as [<-|H]; [cbn; try exact Logic.I; lra|]). destruct H. Qed.
Lemma cifar100_differentiable n : differentiable (cifar100_table n).
Proof.
  split; [|apply alone_ok; vm_compute; reflexivity]. intros r H. unfold cifar100_table, plain_block, down_block, head_rows in H. cbn [app In] in H.
  repeat (destruct H as [<-|H]; [cbn [r_layer]; unfold norm2, conv3, conv5, pool2; try exact Logic.I; lra|]). destruct H.
Qed.

(** ** The first iteration *)
Lemma train_same m infos : trains m infos -> model_train true m infos = infos.
Proof.
  unfold model_train, trains. generalize (m_params m) as l. induction l as [|[k r] l IH]; intros H; [reflexivity|]. cbn [fold_left snd].
  assert (E : on_par (train_prm true) infos r = infos).
  { specialize (H k r (or_introl eq_refl)). unfold get_par in H. unfold on_par. destruct r as [i x]. cbn [fst snd] in *. destruct (nth_error infos i) as [li|] eqn:E; [|reflexivity].
    destruct (find_key (li_params li) x) as [p|] eqn:F; [|reflexivity]. cbn in H. injection H as H. replace (train_prm true p) with p by (destruct p; cbn in *; subst; reflexivity).
    unfold set_par. rewrite P_Run2.set_key_same by exact F. replace (mkLI (li_name li) (li_type li) (li_attrs li) (li_params li) (li_bufs li)) with li by (destruct li; reflexivity).
    rewrite <- (nth_error_nth _ _ li E) at 1. apply upd_same. }
  rewrite E. apply IH. intros key r' Hr. apply (H key r'). right. exact Hr.
Qed.

Lemma start_fresh I l shs k p : In (k, p) (start_params I l shs) -> p_train p = true.
Proof.
  unfold start_params, start. intros H. repeat match type of H with In _ (match ?x with _ => _ end) => match x with match ?y with _ => _ end => destruct y | _ => destruct x eqn:? end end; try discriminate; cbn in H;
    repeat (destruct H as [H|H]; [injection H as _ <-|]); try destruct H;
    repeat match goal with E : _ = _ :> layer |- _ => injection E; intros; subst; clear E end; reflexivity.
Qed.

Section Start.
Variables (I : nat -> ienv) (n c : nat) (rest : list nat) (t : list row) (order : graph -> list gnode) (es' : estore) (m : model) (make_opt : pmap -> optimizer) (s : loop).
Hypothesis CLS : classifier n c rest t.
Notation es := (expression I (n :: rest) t).
Hypothesis SRT : sorts order.
Hypothesis CM : construct_model order [0] [length t] es = RVal es' m.
Hypothesis CO : constructed es [0] [length t] m.
Hypothesis ST : at_start I n c rest t m (es_info es') make_opt s.

Lemma start_trains : trains m (es_info es').
Proof.
  pose proof CO as (B & VO & ord & gr & esx & BG & TOx & _). pose proof (SRT gr (ex_intro _ _ TOx)) as TO.
  destruct (state_keys es order [0] [length t] gr B VO BG TO es' m CM) as (ND & _ & _ & _ & K & _).
  assert (P' : plain es' (lines (fun j r => mkMade (I j) (r_layer r) (r_in r) (r_out r)) t)) by (eapply plain_model; [exact (table_plain I n c rest t CLS)|exact CM]).
  destruct (plain_plain_ok _ _ P') as [_ _ Fi _ _].
  intros key [i k] Hr. apply (in_find _ _ _ ND) in Hr. destruct (K key i k Hr) as (op & li & p & Hop & Ei & Hli & Hp & _).
  assert (PP : forall k p, In (k, p) (li_params li) -> p_train p = true).
  { destruct (Forall2_nth' _ _ _ i li Fi Hli) as (x & _ & (_ & _ & E & _)). cbn [li_params description] in E. rewrite E. intros k0 p0. apply start_fresh. }
  unfold get_par. cbn [fst snd]. rewrite Hli. destruct (find_key (li_params li) k) as [q|] eqn:F; [|exfalso; apply (proj1 (P_Serial.find_key_in _ _) (in_map fst _ _ Hp)); exact F].
  cbn. f_equal. apply (PP k). apply find_some_in. exact F.
Qed.

Lemma start_layer d args L b : needed (es_ph es) [length t] d -> call (es_ph es) d args -> ts_backend (l_ts (in_training m s)) = Some b -> produces m (ts_info (l_ts (in_training m s))) b d L ->
  exists i r, d = S i /\ nth_error t i = Some r /\ args = r_args r /\ L = start (I i) (r_layer r) (r_in r).
Proof.
  intros N (sh & i & Hd) Eb P. destruct ST as (b' & P0 & Es & _ & PR). rewrite Es in Eb, P. cbn [in_training l_ts ts_info ts_backend] in Eb, P. injection Eb as <-. rewrite (train_same _ _ start_trains) in P.
  destruct (table_call I n rest t _ _ _ _ Hd) as (-> & r & Hr & -> & ->). exists i, r. split; [reflexivity|]. split; [exact Hr|]. split; [reflexivity|].
  exact (produces_fun _ _ _ _ (constructed_mfacts _ _ _ _ CO) _ _ _ _ _ P (PR i r Hr N)).
Qed.
End Start.

Lemma fresh_prm sh u : ten_ok sh u -> prm_ok sh (S_Plain.fresh u).
Proof. intros [A B]. unfold prm_ok, S_Plain.fresh, twf, tot in *. cbn [p_data p_grad tsh tdat]. rewrite repeat_length, A in *. auto. Qed.

(** Weights and samples without negative numbers give the rectifier of the iris network positive numbers. *)
Definition upper : ienv := mkIE (fun _ => 0%R) (fun _ _ hi _ => hi).
Lemma iris_away order es' m make_opt s n x V : 0 < n -> classifier n 3 [4] (iris_table n) -> sorts order ->
  construct_model order [0] [5] (expression (fun _ => upper) [n; 4] (iris_table n)) = RVal es' m -> constructed (expression (fun _ => upper) [n; 4] (iris_table n)) [0] [5] m ->
  at_start (fun _ => upper) n 3 [4] (iris_table n) m (es_info es') make_opt s ->
  ten_ok [n; 4] (b_X x) -> (forall k, k < n * 4 -> (0 < (tdat (b_X x)).[k])%R) ->
  values_in (fun _ => upper) n [4] (iris_table n) m (in_training m s) x V -> away_from_kinks (iris_table n) V.
Proof.
  intros N0 CLS SRT CM CO ST TX PX (b & Eb & [H1 H2]) r Hr.
  assert (N1 : forall d, d <= 5 -> needed (es_ph (expression (fun _ => upper) [n; 4] (iris_table n))) [5] d).
  { assert (N5 : needed (es_ph (expression (fun _ => upper) [n; 4] (iris_table n))) [5] 5) by (apply need_out; left; reflexivity).
    assert (N4 := need_arg _ _ 5 [4] 4 N5 (ex_intro _ _ (ex_intro _ _ eq_refl)) (or_introl eq_refl)).
    assert (N3 := need_arg _ _ 4 [3] 3 N4 (ex_intro _ _ (ex_intro _ _ eq_refl)) (or_introl eq_refl)).
    assert (N2 := need_arg _ _ 3 [2] 2 N3 (ex_intro _ _ (ex_intro _ _ eq_refl)) (or_introl eq_refl)).
    assert (N1 := need_arg _ _ 2 [1] 1 N2 (ex_intro _ _ (ex_intro _ _ eq_refl)) (or_introl eq_refl)).
    assert (N00 := need_arg _ _ 1 [0] 0 N1 (ex_intro _ _ (ex_intro _ _ eq_refl)) (or_introl eq_refl)).
    intros d Hd. do 6 (destruct d as [|d]; [assumption|]). lia. }
  assert (Z : no_zero (V 1)).
  { destruct (H2 1 [0] (N1 1 ltac:(lia)) (ex_intro _ _ (ex_intro _ _ eq_refl))) as (L & PL & T1 & L' & F).
    destruct (start_layer (fun _ => upper) n 3 [4] (iris_table n) order es' m make_opt s CLS SRT CM CO ST 1 [0] L b (N1 1 ltac:(lia)) (ex_intro _ _ (ex_intro _ _ eq_refl)) Eb PL) as (i & q & Ei & Hq & _ & ->).
    injection Ei as <-. injection Hq as <-. cbn [r_layer r_in start] in F. change (prodN [4]) with 4 in F.
    assert (EX : V 0 = b_X x) by (inversion H1; assumption). cbn [map] in F. rewrite EX in F.
    assert (ED : dims (es_ph (expression (fun _ => upper) [n; 4] (iris_table n))) 1 = [n; 100]) by (cbn; rewrite Nat2Z.id; reflexivity). rewrite ED in *. clear ED.
    set (W := S_Plain.fresh (drawn upper 100 4 [100; 4])) in *. set (bi := S_Plain.fresh (all 0%R [100])) in *.
    assert (PW : prm_ok [100; prodN [4]] W) by (apply fresh_prm; split; [reflexivity|unfold twf, tot, drawn; cbn [tdat tsh]; apply tab_length]).
    assert (PB : prm_ok [100] bi) by (apply fresh_prm; split; [reflexivity|unfold twf, tot, all; cbn [tdat tsh]; apply repeat_length]).
    destruct (C16_linear_forward (b_fwd x 1) W bi n 100 [4] (b_X x) (V 1) ltac:(discriminate) PW PB TX T1) as (o' & F' & TO' & VAL). rewrite (F (V 1) T1) in F'. injection F' as _ <-.
    intros k Hk. destruct T1 as [TS TW]. unfold twf in TW. rewrite TS in TW. cbn [prodN fold_right] in TW.
    assert (Hk' : k < n * 100) by (unfold tot in *; cbn in TW; lia).
    rewrite (Nat.div_mod k 100) by lia. rewrite (Nat.mul_comm 100). rewrite VAL by (try apply Nat.mod_upper_bound; try apply Nat.div_lt_upper_bound; lia).
    assert (BZ : (tdat (p_data bi)).[k mod 100] = 0%R) by (apply nth_repeat). rewrite BZ, Rplus_0_l.
    assert (LO : k / 100 < n) by (apply Nat.div_lt_upper_bound; lia). assert (L2 : k mod 100 < 100) by (apply Nat.mod_upper_bound; lia).
    change (prodN [4]) with 4. apply Rgt_not_eq. unfold Rgt. cbn [rsum].
    assert (HI : (0 < sqrt 6 / INR (100 + 4))%R) by (apply Rdiv_lt_0_compat; [apply sqrt_lt_R0; lra|apply lt_0_INR; lia]).
    assert (PR : forall q, q < 4 -> (0 < (tdat (b_X x)).[k / 100 * 4 + q] * (tdat (p_data W)).[k mod 100 * 4 + q])%R).
    { intros q Hq. apply Rmult_lt_0_compat; [apply PX; lia|]. unfold W, S_Plain.fresh, drawn. cbn [p_data tdat]. rewrite nth_tab by (cbn [prodN fold_right]; lia). exact HI. }
    pose proof (PR 0 ltac:(lia)). pose proof (PR 1 ltac:(lia)). pose proof (PR 2 ltac:(lia)). pose proof (PR 3 ltac:(lia)). lra. }
  unfold iris_table, perceptron_table in Hr. cbn [In] in Hr.
  destruct Hr as [<-|[<-|[<-|[<-|[<-|[]]]]]]; cbn [r_layer r_args]; first [exact Logic.I|constructor; [exact Z|constructor]].
Qed.
