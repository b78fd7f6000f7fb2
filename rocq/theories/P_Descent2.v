(** Training as descent: one iteration of a classifier written as a table. *)
From Coq Require Import Reals String Lia Lra Permutation.
From Verif Require Import Base BaseFacts Sums M_Tensor M_Layers M_Kernels M_Im2col M_Optim M_Init M_Loss M_Nn M_Graph M_Model M_Backend M_Train S_Grad S_Partial S_Loss S_Optim S_Fit S_Graph S_Run S_Train S_Plain S_Desc S_Build S_Sample S_Saved S_Descent
  P_Kernels P_Layers P_Fit P_Optim P_Nn P_Load P_Graph P_Model P_Run P_Fwd P_Fwd2 P_Run2 P_Train2 P_Train3 P_Plain P_Desc P_Eval P_Saved P_Saved2 P_Saved5 P_Saved6 P_Sample P_Descent
  Prop_Graph Prop_Model Prop_Run Prop_Bwd Prop_Train Prop_Plain Prop_Desc Prop_Eval.
Local Open Scope string_scope.
Open Scope nat_scope.
Local Open Scope list_scope.

Lemma NoDup_key {V} (l : list (string * V)) k a b : NoDup (map fst l) -> In (k, a) l -> In (k, b) l -> a = b.
Proof. intros ND H1 H2. apply (P_Run2.find_In_unique _ _ _ ND) in H1, H2. congruence. Qed.

Section Table.
Variables (I : nat -> ienv) (n c : nat) (rest : list nat) (t : list row).
Hypothesis CLS : classifier n c rest t.
Hypothesis DF : differentiable t.
Notation es := (expression I (n :: rest) t).
Notation o := (length t).
Notation D := (lines (fun j r => mkMade (I j) (r_layer r) (r_in r) (r_out r)) t).
Variables (order : graph -> list gnode) (g : graph) (es' : estore) (m : model) (junk : nat -> R) (b0 : backend).
Hypothesis BG : build (es_ph es) [0] [o] = Ok g.
Hypothesis TO : is_topo g (order g).
Hypothesis CM : construct_model order [0] [o] es = RVal es' m.
Hypothesis CB : model_compile (es_ph es) junk m (es_info es') None = Ret (Some b0).

Lemma tb_out : Forall (fun d => d < length (es_ph es)) [o].
Proof. constructor; [rewrite expression_len; lia|constructor]. Qed.
Lemma tb_constructed : constructed es [0] [o] m.
Proof. split; [exact (table_built I n c rest t CLS)|]. split; [exact tb_out|]. exists order, g, es'. auto. Qed.
Lemma tb_well : reached_well es D [o].
Proof. intros d s i args N _. left. exact (table_once I n c rest t CLS d N). Qed.

Variables (ran : bool) (infos : list linfo) (b : backend).
Hypothesis US : usable ran (es_ph es) [o] m infos b.
Hypothesis RI : rig (es_info es') (Some b0) infos (Some b).

(** The layer that makes a placeholder is of the kind its line says. *)
Lemma tb_layer d args L : needed (es_ph es) [o] d -> call (es_ph es) d args -> produces m infos b d L ->
  exists i r li L0, d = S i /\ nth_error t i = Some r /\ args = r_args r /\ nth_error infos i = Some li /\ load li L0 = Ok L /\ map (dims (es_ph es)) args = r_in r /\ dims (es_ph es) d = r_out r /\
    same_kind (start (I i) (r_layer r) (r_in r)) L /\ map fst (li_params li) = map fst (start_params (I i) (r_layer r) (r_in r)).
Proof.
  intros N (s & i & Hd) P. destruct (table_call I n rest t _ _ _ _ Hd) as (-> & r & Hr & -> & ->).
  destruct (trip_layer es es' D m order [0] [o] g (table_plain I n c rest t CLS) tb_out BG TO CM tb_well junk None b0 CB ran infos b US RI _ _ _ _ N Hd)
    as (x & li & L0 & L1 & Hx & Hli & P1 & LD & E1 & E2 & _ & _ & (_ & KP & _) & SK & _).
  rewrite lines_nth, Hr in Hx. injection Hx as <-. cbn [md_in md_out md_layer md_draws] in *.
  pose proof (produces_fun _ _ _ _ (constructed_mfacts _ _ _ _ tb_constructed) _ _ _ _ _ P P1) as ->. exists i, r, li, L0. auto 10.
Qed.

Hypothesis TR : trains m infos.
Variables (E : nat -> env) (X : ten) (V : nat -> ten).
Hypothesis TX : ten_ok (n :: rest) X.
Hypothesis EV : evaluation (es_ph es) [0] [o] [X] E (produces m infos b) V.
Hypothesis AW : away_from_kinks t V.

Lemma tb_values d : needed (es_ph es) [o] d -> ten_ok (dims (es_ph es) d) (V d).
Proof.
  intros N. destruct EV as [H1 H2]. pose proof (table_closed I n c rest t CLS) as (_ & _ & _ & _ & K). destruct (K d N) as [(args & Ca)|[<-|[]]].
  - destruct (H2 d args N Ca) as (L & _ & T & _). exact T.
  - inversion H1; subst. rewrite table_dims_in. exact TX.
Qed.

Lemma tb_smooth d args L : needed (es_ph es) [o] d -> call (es_ph es) d args -> produces m infos b d L ->
  smooth (E d) L (map V args) (dims (es_ph es) d) /\ (overwrites L = true -> exclusive (es_ph es) [o] d args).
Proof.
  intros N C P. destruct (tb_layer d args L N C P) as (i & r & li & L0 & -> & Hr & -> & Hli & LD & E1 & E2 & SK & KP).
  pose proof (nth_error_In _ _ Hr) as Ir. pose proof (df_layer _ DF r Ir) as DL. pose proof (AW r Ir) as AR.
  pose proof tb_constructed as CO. pose proof (constructed_mfacts _ _ _ _ CO) as MF.
  assert (GA : forall p, find_key (li_params li) "gamma" = Some p -> p_train p = true).
  { intros p F. pose proof P as (j & op & L1 & li' & H1 & H2 & H3 & H4 & H5). destruct (op_info _ _ _ _ _ CO (nth_error_In _ _ H1)) as (s & args & Hd). rewrite H2 in Hd.
    destruct (table_call I n rest t _ _ _ _ Hd) as (Ei & _). injection Ei as Ei.
    destruct US as (_ & _ & _ & OW). assert (G : get_par infos (mo_info op, "gamma") = Some p) by (unfold get_par; cbn [fst snd]; rewrite <- Ei, Hli; exact F).
    destruct (OW op "gamma" p (nth_error_In _ _ H1) G) as (key & Hk). pose proof (TR key _ Hk) as T. rewrite G in T. cbn in T. congruence. }
  destruct (cl_row _ _ _ _ CLS i r Hr) as (FA & (ME & _) & _). split.
  - revert SK DL AR E1 E2. destruct ME; cbn [start]; intros SK DL AR E1 E2; try contradiction DL; destruct L; cbn in SK; try contradiction SK; cbn [smooth]; try exact Logic.I;
      try (rewrite Forall_map; exact AR);
      try (rewrite (proj1 SK) in DL; split; [exact DL|]; apply GA; destruct L0; cbn in LD; inv_ok LD; try discriminate LD; use_keys; injection LD; intros; subst; assumption).
    subst. intros x n1 c1 h1 w1 ho1 wo1 EX TXs EO. rewrite E2 in EO. injection EO as <- <- <- <-.
    destruct (r_args r) as [|a [|]] eqn:EA; try discriminate EX. cbn [map] in EX, E1. injection EX as <-. apply (f_equal (hd [])) in E1. cbn [hd] in E1.
    assert (Na : needed (es_ph es) [o] a) by (eapply need_arg; [exact N|exact C|left; reflexivity]).
    pose proof (tb_values a Na) as [TA _]. rewrite E1, TXs in TA. injection TA as -> ->. eapply AR; reflexivity.
  - intros OV. revert SK. destruct L; try discriminate OV. intros SK.
    assert (RL : exists eps alpha, r_layer r = ABatchNorm2D eps alpha) by (destruct ME; cbn in SK; try contradiction SK; eauto).
    destruct RL as (e1 & a1 & RL). intros a Ha. assert (La : a <= i) by (clear -FA Ha; induction FA as [|? ? ? ? [Q _] _ IH]; [destruct Ha|destruct Ha as [<-|Ha]; auto]). pose proof (nth_error_Some t i) as [HN _]. specialize (HN ltac:(congruence)). split.
    + intros [<-|[]]. lia.
    + intros d' args' N' (s' & i' & H') Ha'. destruct (table_call I n rest t _ _ _ _ H') as (-> & r' & Hr' & -> & ->). f_equal. refine (df_alone _ DF i r e1 a1 a Hr RL Ha i' r' Hr' Ha').
Qed.

Lemma tb_param name r p : In (name, r) (m_params m) -> get_par infos r = Some p ->
  exists op L, In op (m_ops m) /\ produces m infos b (mo_ph op) L /\ fst r = mo_info op /\ In (snd r) (param_names L).
Proof.
  intros Hr HG. pose proof tb_constructed as CO. pose proof (constructed_mfacts _ _ _ _ CO) as MF.
  destruct (proj2 (constructed_params _ _ _ _ CO) _ _ Hr) as (op & Hop & Ei). destruct (op_spec _ _ _ _ MF op Hop) as (args & k & N & Ca & _).
  destruct (op_info _ _ _ _ _ CO Hop) as (s & args' & Hd). destruct (table_call I n rest t _ _ _ _ Hd) as (Ed & _).
  destruct US as (_ & LA & _). destruct (LA _ _ N Ca) as (L & P & _). exists op, L. split; [exact Hop|]. split; [exact P|]. split; [exact Ei|].
  destruct (tb_layer _ _ _ N Ca P) as (i & r0 & li & L0 & Ed' & Hr0 & _ & Hli & _ & _ & _ & SK & KP).
  assert (i = mo_info op) as -> by lia. unfold get_par in HG. rewrite Ei, Hli in HG. apply P_Nn.find_some_in, (in_map fst) in HG. cbn [fst] in HG. rewrite KP in HG.
  pose proof (df_layer _ DF r0 (nth_error_In _ _ Hr0)) as DL. unfold start_params in HG.
  destruct (cl_row _ _ _ _ CLS _ r0 Hr0) as (_ & (ME & _) & _). revert SK HG DL. destruct ME; cbn [start]; intros SK HG DL; try contradiction DL; destruct L; cbn in SK; try contradiction SK; exact HG.
Qed.
End Table.
