(** Proofs about the networks of the sample programs. *)
From Coq Require Import Reals String.
From Verif Require Import Base BaseFacts Sums M_Tensor M_Im2col M_Kernels M_Layers M_Optim M_Loss M_Nn M_Graph M_Model M_Backend M_DataLoader M_Train M_Sample
  S_Grad S_Loss S_DataLoader S_Graph S_Run S_Fit S_Train S_Plain S_Desc S_Eval S_Build S_Sample
  P_Graph P_Graph2 P_Nn P_Model P_Model2 P_MakeLayer P_Plain Prop_Graph Prop_Model Prop_Plain.
Open Scope string_scope.
Open Scope nat_scope.

Lemma combine_app {A B} (l1 l2 : list A) (r1 r2 : list B) : length l1 = length r1 -> combine (l1 ++ l2) (r1 ++ r2) = (combine l1 r1 ++ combine l2 r2)%list.
Proof. revert r1. induction l1 as [|x l1 IH]; intros [|y r1] H; cbn in H |- *; try discriminate; [reflexivity|]. f_equal. apply IH. congruence. Qed.
Lemma lines_app {A B} (f : nat -> A -> B) l x : lines f (l ++ [x]) = (lines f l ++ [f (length l) x])%list.
Proof.
  unfold lines. rewrite app_length, seq_app. cbn [length seq]. rewrite combine_app by (rewrite seq_length; reflexivity). rewrite map_app. reflexivity.
Qed.
Lemma lines_length {A B} (f : nat -> A -> B) l : length (lines f l) = length l.
Proof. unfold lines. rewrite map_length, combine_length, seq_length. lia. Qed.
Lemma lines_nth {A B} (f : nat -> A -> B) l j : nth_error (lines f l) j = match nth_error l j with Some x => Some (f j x) | None => None end.
Proof.
  revert j. induction l as [|x l IH] using rev_ind; intros j; [destruct j; reflexivity|]. rewrite lines_app.
  destruct (Nat.lt_trichotomy j (length l)) as [H|[->|H]].
  - rewrite !nth_error_app1 by (rewrite ?lines_length; lia). apply IH.
  - rewrite !nth_error_app2, lines_length, Nat.sub_diag by (rewrite ?lines_length; lia). reflexivity.
  - rewrite !(proj2 (nth_error_None _ _)) by (rewrite app_length, ?lines_length; cbn; lia). reflexivity.
Qed.

Section Table.
Variable I : nat -> ienv.

Lemma expression_app input t r :
  expression I input (t ++ [r]) =
  mkES (es_ph (expression I input t) ++ [mkPh (zs (r_out r)) (Some (length (es_info (expression I input t)), r_args r))])
       (es_info (expression I input t) ++ [description (I (length (es_info (expression I input t)))) (r_layer r) (r_in r) (r_name r)]).
Proof. unfold expression. rewrite !lines_app. cbn [es_ph es_info]. rewrite lines_length. reflexivity. Qed.
Lemma expression_len input t : length (es_ph (expression I input t)) = S (length t).
Proof. cbn. rewrite lines_length. reflexivity. Qed.
Lemma expression_infos input t : length (es_info (expression I input t)) = length t.
Proof. cbn. apply lines_length. Qed.

Lemma shape_at input t a sh : nth_error (input :: map r_out t) a = Some sh -> has_shape (es_ph (expression I input t)) a sh.
Proof.
  unfold has_shape, expression. cbn [es_ph]. destruct a as [|a]; cbn [nth_error].
  - intros H. injection H as <-. eexists. split; reflexivity.
  - rewrite lines_nth. intros H. rewrite nth_error_map in H. destruct (nth_error t a); [|discriminate]. injection H as <-. eexists. split; reflexivity.
Qed.

(** Applying a layer extends the table. *)
Lemma run_layer input t r :
  Forall2 (fun a sh => nth_error (input :: map r_out t) a = Some sh) (r_args r) (r_in r) -> meant_for (r_layer r) (r_in r) (r_out r) ->
  p_layer I (class (r_layer r)) (object (r_layer r) (r_name r)) (r_args r) (expression I input t) = RVal (expression I input (t ++ [r])) (S (length t)).
Proof.
  intros F M. unfold p_layer, new_op.
  change (mkES (es_ph (expression I input t)) (es_info (expression I input t) ++ [object (r_layer r) (r_name r)]))
    with (fst (new_op (object (r_layer r) (r_name r)) (expression I input t))).
  rewrite (C54_applying_a_new_layer (I (length (es_info (expression I input t)))) (r_layer r) (r_in r) (r_out r) (r_name r) (r_args r) (expression I input t)).
  - rewrite expression_app, expression_len. reflexivity.
  - eapply Forall2_weaken; [|exact F]. intros a sh. apply shape_at.
  - exact M.
Qed.
Lemma bind_layer {A} input t l name args shs osh k li (f : nat -> prog A) :
  k = class l -> li = object l name ->
  Forall2 (fun a sh => nth_error (input :: map r_out t) a = Some sh) args shs -> meant_for l shs osh ->
  pbind (p_layer I k li args) f (expression I input t) = f (S (length t)) (expression I input (t ++ [mkRow l name args shs osh])).
Proof.
  intros -> -> F M. unfold pbind. pose proof (run_layer input t (mkRow l name args shs osh) F M) as H. cbn [r_layer r_name r_args] in H. rewrite H. reflexivity.
Qed.

Lemma table_plain n c rest t : classifier n c rest t ->
  plain (expression I (n :: rest) t) (lines (fun j r => mkMade (I j) (r_layer r) (r_in r) (r_out r)) t).
Proof.
  intros C. pose proof (cl_row _ _ _ _ C) as R. pose proof (cl_input _ _ _ _ C) as PI. clear C.
  induction t as [|r t IH] using rev_ind.
  - exact (plain_input _ _ (n :: rest) plain_start PI).
  - rewrite lines_app, expression_app. rewrite <- (expression_infos (n :: rest) t).
    apply plain_next.
    + apply IH. intros j r' Hj. destruct (R j r') as (F & M & O); [rewrite nth_error_app1; [exact Hj|apply nth_error_Some; congruence]|].
      split; [|auto]. eapply Forall2_weaken; [|exact F]. intros a sh (La & Ha). split; [exact La|].
      assert (j < length t) by (apply nth_error_Some; congruence).
      rewrite map_app in Ha. change ((n :: rest) :: map r_out t ++ map r_out [r])%list with (((n :: rest) :: map r_out t) ++ map r_out [r])%list in Ha.
      rewrite nth_error_app1 in Ha; [exact Ha|]. cbn. rewrite map_length. lia.
    + destruct (R (length t) r) as (F & M & O); [rewrite nth_error_app2, Nat.sub_diag by lia; reflexivity|].
      eapply Forall2_weaken; [|exact F]. intros a sh (La & Ha). apply shape_at.
      rewrite map_app in Ha. change ((n :: rest) :: map r_out t ++ map r_out [r])%list with (((n :: rest) :: map r_out t) ++ map r_out [r])%list in Ha.
      rewrite nth_error_app1 in Ha; [exact Ha|]. cbn. rewrite map_length. lia.
    + destruct (R (length t) r) as (F & M & O); [rewrite nth_error_app2, Nat.sub_diag by lia; reflexivity|]. exact M.
Qed.

Section Use.
Variables (n c : nat) (rest : list nat) (t : list row).
Hypothesis C : classifier n c rest t.
Let es := expression I (n :: rest) t.
Let o := length t.

Lemma table_call d s i args : nth_error (es_ph es) d = Some (mkPh s (Some (i, args))) ->
  d = S i /\ exists r, nth_error t i = Some r /\ s = zs (r_out r) /\ args = r_args r.
Proof.
  unfold es, expression. cbn [es_ph]. destruct d as [|d]; cbn [nth_error]; [discriminate|]. rewrite lines_nth.
  destruct (nth_error t d) as [r|] eqn:E; [|discriminate]. intros H. injection H as <- <- <-. split; [reflexivity|]. exists r. auto.
Qed.
Lemma table_call_at i r : nth_error t i = Some r -> nth_error (es_ph es) (S i) = Some (mkPh (zs (r_out r)) (Some (i, r_args r))).
Proof. intros H. unfold es, expression. cbn [es_ph nth_error]. rewrite lines_nth, H. reflexivity. Qed.
Lemma row_args r : In r t -> r_args r <> [].
Proof.
  intros H. apply In_nth_error in H. destruct H as (j & Hj). destruct (cl_row _ _ _ _ C j r Hj) as (F & (R & _) & _). intros E. rewrite E in F. inversion F as [E2|]; subst.
  match goal with H : _ = r_in r |- _ => rewrite <- H in R | H : r_in r = _ |- _ => rewrite H in R end. inversion R.
Qed.
Lemma last_row : exists r, nth_error t (length t - 1) = Some r /\ 0 < length t /\ r_layer r = ASoftmax /\ r_out r = [n; c].
Proof.
  destruct (cl_last _ _ _ _ C) as (b & r & -> & L & O). exists r. rewrite app_length. cbn [length]. split; [|split; [lia|auto]].
  rewrite nth_error_app2 by lia. replace (length b + 1 - 1 - length b) with 0 by lia. reflexivity.
Qed.
Lemma table_out : exists r, nth_error (es_ph es) o = Some (mkPh (zs [n; c]) (Some (length t - 1, r_args r))) /\ nth_error t (length t - 1) = Some r /\ r_layer r = ASoftmax.
Proof.
  destruct last_row as (r & H & L & A & O). exists r. pose proof (table_call_at _ _ H) as K. unfold o. replace (length t) with (S (length t - 1)) at 1 by lia. rewrite K, O. auto.
Qed.
Lemma table_built : built es.
Proof. eapply plain_plain_ok, table_plain, C. Qed.
Lemma zs_nat sh : map Z.to_nat (zs sh) = sh.
Proof. unfold zs. rewrite map_map. rewrite <- (map_id sh) at 2. apply map_ext. intros; apply Nat2Z.id. Qed.
Lemma table_dims_out : dims (es_ph es) o = [n; c].
Proof. destruct table_out as (r & H & _). unfold dims. rewrite H. cbn [ph_shape]. apply zs_nat. Qed.
Lemma table_dims_in : dims (es_ph es) 0 = n :: rest.
Proof. unfold dims, es, expression. cbn [es_ph nth_error ph_shape]. apply zs_nat. Qed.
Lemma table_batch d : needed (es_ph es) [o] d -> exists sh, dims (es_ph es) d = n :: sh.
Proof.
  intros N. assert (L : d <= o) by (apply (needed_le (es_ph es)); [apply store_links_back, built_ok, table_built|exact N]).
  destruct d as [|d]; [exists rest; apply table_dims_in|].
  destruct (nth_error t d) as [r|] eqn:E.
  - destruct (cl_row _ _ _ _ C d r E) as (_ & _ & sh & O). exists sh. unfold dims. rewrite (table_call_at _ _ E). cbn [ph_shape]. rewrite zs_nat. exact O.
  - apply nth_error_None in E. unfold o in L. lia.
Qed.
Lemma table_input_needed : needed (es_ph es) [o] 0.
Proof.
  assert (K : forall d, d <= o -> needed (es_ph es) [o] d -> needed (es_ph es) [o] 0).
  { intros d. induction d as [d IH] using (well_founded_induction lt_wf). intros L N. destruct d as [|d]; [exact N|].
    destruct (nth_error t d) as [r|] eqn:E; [|apply nth_error_None in E; unfold o in L; lia].
    destruct (r_args r) as [|a al] eqn:A; [destruct (row_args r (nth_error_In _ _ E) A)|].
    destruct (cl_row _ _ _ _ C d r E) as (F & _). rewrite A in F. inversion F as [|? ? ? ? (La & _)]; subst.
    apply (IH a); [lia|lia|]. apply (need_arg _ _ (S d) (a :: al)); [exact N| |left; reflexivity]. eexists. eexists. rewrite (table_call_at _ _ E), A. reflexivity. }
  apply (K o (le_n _)). apply need_out. left. reflexivity.
Qed.
Lemma table_closed : closed (es_ph es) [0] [o].
Proof.
  split; [repeat constructor; intros []|]. split; [repeat constructor; intros []|]. split; [|split].
  - intros d [<-|[]] (args & s & i & H). discriminate H.
  - intros d [<-|[]]. destruct table_out as (r & H & _). eexists. eexists. eexists. exact H.
  - intros d N. destruct d as [|d]; [right; left; reflexivity|left].
    assert (L : S d <= o) by (apply (needed_le (es_ph es)); [apply store_links_back, built_ok, table_built|exact N]).
    destruct (nth_error t d) as [r|] eqn:E; [|apply nth_error_None in E; unfold o in L; lia]. eexists. eexists. eexists. apply table_call_at, E.
Qed.
Lemma table_once d : needed (es_ph es) [o] d -> visits (es_ph es) [o] d = 1.
Proof.
  apply C34_linked_once.
  - intros i j a b L A B. destruct i as [|i], j as [|[|j]]; cbn in *; try lia; discriminate.
  - intros d' args N (s & i & H). destruct (table_call _ _ _ _ H) as (-> & r & Hr & -> & ->). apply (cl_order _ _ _ _ C). eapply nth_error_In, Hr.
Qed.

Lemma table_constructs order : sorts order ->
  exists g es' m, build (es_ph es) [0] [o] = Ok g /\ is_topo g (order g) /\ construct_model order [0] [o] es = RVal es' m.
Proof.
  intros SO. pose proof table_built as B. assert (VO : Forall (fun d => d < length (es_ph es)) [o]) by (constructor; [unfold es; rewrite expression_len; unfold o; lia|constructor]).
  destruct (proj1 (C33_defined_exactly_when_linked (es_ph es) [0] [o])) as (g & Hg).
  { intros d [<-|[<-|[]]].
    - split; [exact table_input_needed|]. right. pose proof table_input_needed as N. inversion N as [x H|x args y N' Ca H]; subst.
      + destruct H as [H|[]]. destruct last_row as (r & _ & L & _). unfold o in H. lia.
      + eauto.
    - split; [apply need_out; left; reflexivity|]. left. destruct table_out as (r & H & _). eexists. eexists. eexists. exact H. }
  assert (TO : is_topo g (order g)) by (apply SO; eapply C33_graph_is_acyclic; eassumption).
  exists g. destruct (proj1 (C35_constructed_exactly_when_names_are_distinct es order [0] [o] g B VO Hg TO)) as (es' & m & CM); [|exists es', m; auto].
  assert (OPS : NoDup (op_nodes (order g)) /\ forall d, In d (op_nodes (order g)) -> exists i r, d = S i /\ nth_error t i = Some r).
  { split.
    - destruct TO as (ND & _). unfold op_nodes. clear -ND. induction (order g) as [|x l IH]; cbn; [constructor|]. inversion ND; subst.
      destruct x as [d|d]; [auto|]. cbn. constructor; [|auto]. intros H. apply H1. apply in_flat_map in H. destruct H as ([e|e] & He & E); cbn in E; [contradiction|destruct E as [E|[]]; subst; exact He].
    - intros d H. unfold op_nodes in H. apply in_flat_map in H. destruct H as ([e|e] & He & E); cbn in E; [contradiction|destruct E as [E|[]]; subst e].
      apply TO in He. apply (proj1 (proj2 (proj2 (C33_nodes_and_links _ _ _ _ Hg)))) in He. destruct He as (_ & args & s & i & H).
      destruct (table_call _ _ _ _ H) as (-> & r & Hr & _). eauto. }
  destruct OPS as (ND & OPS).
  assert (UL : used_layers es (order g) = map pred (op_nodes (order g))).
  { unfold used_layers. apply map_ext_in. intros d Hd. destruct (OPS d Hd) as (i & r & -> & Hr). rewrite (table_call_at _ _ Hr). reflexivity. }
  assert (NU : NoDup (used_layers es (order g))).
  { rewrite UL. clear UL. induction (op_nodes (order g)) as [|d l IH]; cbn; [constructor|]. inversion ND; subst. constructor.
    - intros H. apply in_map_iff in H. destruct H as (e & E & He). destruct (OPS d (or_introl eq_refl)) as (i & r & -> & _). destruct (OPS e (or_intror He)) as (i' & r' & -> & _). cbn in E. subst. contradiction.
    - apply IH; [assumption|]. intros; apply OPS; right; assumption. }
  assert (UI : forall i, In i (used_layers es (order g)) -> exists r, nth_error t i = Some r).
  { rewrite UL. intros i H. apply in_map_iff in H. destruct H as (d & <- & Hd). destruct (OPS d Hd) as (i & r & -> & Hr). eauto. }
  assert (NI : forall i r, nth_error t i = Some r -> exists li, nth_error (es_info es) i = Some li /\ li_name li = r_name r).
  { intros i r Hr. unfold es, expression. cbn [es_info]. rewrite lines_nth, Hr. eexists. split; reflexivity. }
  split; [exact NU|].
  apply NoDup_nth_error. intros j j' L E. unfold intended_names in L. rewrite map_length, combine_length, seq_length, Nat.min_id in L.
  destruct (Nat.eq_dec j j') as [->|NE]; [reflexivity|exfalso].
  assert (IN : forall k i, nth_error (used_layers es (order g)) k = Some i -> nth_error (intended_names es (order g)) k = Some (intended_name es k i)).
  { intros k i Hk. unfold intended_names. change (nth_error (lines (fun j i => intended_name es j i) (used_layers es (order g))) k = Some (intended_name es k i)). rewrite lines_nth, Hk. reflexivity. }
  destruct (nth_error (used_layers es (order g)) j) as [i|] eqn:Hj; [|apply nth_error_None in Hj; lia].
  destruct (nth_error (used_layers es (order g)) j') as [i'|] eqn:Hj'.
  2:{ rewrite (IN j i Hj) in E. symmetry in E. assert (X : j' < length (intended_names es (order g))) by (apply nth_error_Some; congruence).
      unfold intended_names in X. rewrite map_length, combine_length, seq_length, Nat.min_id in X. apply nth_error_None in Hj'. lia. }
  rewrite (IN _ _ Hj), (IN _ _ Hj') in E. injection E as E.
  destruct (UI i (nth_error_In _ _ Hj)) as (r & Hr). destruct (UI i' (nth_error_In _ _ Hj')) as (r' & Hr').
  destruct (NI _ _ Hr) as (li & Hli & NL). destruct (NI _ _ Hr') as (li' & Hli' & NL').
  destruct (cl_names _ _ _ _ C) as [A|(A & A2)].
  - rewrite Forall_forall in A. pose proof (A r (nth_error_In _ _ Hr)). pose proof (A r' (nth_error_In _ _ Hr')).
    eapply (C35_generated_names_never_collide es (order g) j j' i i' li li'); try eassumption; congruence.
  - rewrite Forall_forall in A2. pose proof (A2 r (nth_error_In _ _ Hr)) as N1. pose proof (A2 r' (nth_error_In _ _ Hr')) as N2.
    unfold intended_name in E. rewrite Hli, Hli', NL, NL' in E. apply String.eqb_neq in N1. apply String.eqb_neq in N2. rewrite N1, N2 in E.
    assert (i = i').
    { apply (proj1 (NoDup_nth_error _) A); [rewrite map_length; apply nth_error_Some; congruence|]. rewrite !nth_error_map, Hr, Hr'. cbn. congruence. }
    subst i'. apply NE. eapply (proj1 (NoDup_nth_error _) NU); [apply nth_error_Some; congruence|congruence].
Qed.
End Use.
End Table.
