(** Facts about a constructed model that its execution relies on. *)
From Coq Require Import Reals String Lia.
From Verif Require Import Base BaseFacts Sums M_Layers M_Optim M_Nn M_Graph M_Model M_Backend S_Grad S_Graph S_Run P_Graph P_Graph2 P_Nn P_Model P_Model2.
Open Scope nat_scope.

Record mfacts (ps : list phnode) (ins outs : list nat) (m : model) : Prop := {
  mf_in : m_in m = ins; mf_out : m_out m = outs;
  mf_needed_in : forall d, In d ins -> needed ps outs d;
  mf_nodup : NoDup (map fst (m_data m));
  mf_data : forall d, In d (map fst (m_data m)) <-> needed ps outs d;
  mf_store : forall d s, In (d, s) (m_data m) -> s = storage_of ins outs d;
  mf_ops : NoDup (map mo_ph (m_ops m));
  mf_infos : NoDup (map mo_info (m_ops m));
  mf_op : forall op, In op (m_ops m) -> exists args k ids i,
    needed ps outs (mo_ph op) /\ call ps (mo_ph op) args /\ visits ps outs (mo_ph op) = S k /\
    Forall2 (fun a j => nth_error (map fst (m_data m)) j = Some a) args ids /\ nth_error (map fst (m_data m)) i = Some (mo_ph op) /\
    mo_in op = ids ++ repeat 0 (k * length args) /\ mo_out op = i :: repeat 0 k;
  mf_call : forall d, needed ps outs d -> (exists args, call ps d args) -> In d (map mo_ph (m_ops m));
  mf_order : forall pre op post args a, m_ops m = pre ++ op :: post -> call ps (mo_ph op) args -> In a args ->
    (exists x, call ps a x) -> In a (map mo_ph pre) }.

Lemma before_unique {A} (a b : A) l1 l2 l : before a b l -> NoDup l -> l = l1 ++ b :: l2 -> In a l1.
Proof.
  intros (x & y & z & ->) ND E. revert x ND E. induction l1 as [|c t IH]; intros x ND E.
  - exfalso. destruct x as [|d x]; cbn in *.
    + injection E as -> _. inversion ND as [|? ? N _]. apply N. apply in_or_app. right. left. reflexivity.
    + injection E as -> _. inversion ND as [|? ? N _]. apply N. apply in_or_app. right. right. apply in_or_app. right. left. reflexivity.
  - destruct x as [|d x]; cbn in *.
    + injection E as -> _. left. reflexivity.
    + injection E as -> E. right. inversion ND as [|? ? _ ND']. exact (IH x ND' E).
Qed.

Lemma before_op_nodes a d ord : before (GO a) (GO d) ord -> before a d (op_nodes ord).
Proof.
  intros (x & y & z & ->). exists (op_nodes x), (op_nodes y), (op_nodes z). unfold op_nodes. rewrite !flat_map_app. cbn. rewrite !flat_map_app. reflexivity.
Qed.
Lemma before_trans {A} (a b c : A) l : NoDup l -> before a b l -> before b c l -> before a c l.
Proof.
  intros ND AB BC. destruct BC as (x & y & z & E). pose proof (before_unique _ _ _ _ _ AB ND E) as H.
  apply in_split in H. destruct H as (u & v & ->). exists u, (v ++ b :: y), z. rewrite E, <- !app_assoc. cbn. rewrite ?app_comm_cons, ?app_assoc. reflexivity.
Qed.

Lemma model_mfacts es order ins outs g es' m :
  built es -> Forall (fun d => d < length (es_ph es)) outs -> build (es_ph es) ins outs = Ok g -> is_topo g (order g) ->
  construct_model order ins outs es = RVal es' m -> mfacts (es_ph es) ins outs m.
Proof.
  intros BU VO BG TO CM.
  destruct (model_facts es order ins outs g BU VO BG TO es' m CM) as (mops & ND1 & _ & EP & EG & EO & EM & F & OB & _ & _ & _ & _ & ED & EI & EU & _).
  destruct (data_complete es order ins outs g BU VO BG TO es' m CM) as (D1 & D2 & D3 & D4).
  destruct (build_ok _ _ _ _ BG) as (v & _ & _ & _ & IO & _ & _).
  constructor; try assumption.
  - intros d Hd. apply (IO d). apply in_or_app. left. exact Hd.
  - intros d s H. rewrite ED in H. unfold data_of in H. apply in_map_iff in H. destruct H as (d' & E & _). injection E as -> <-. reflexivity.
  - rewrite EM, OB. exact ND1.
  - intros op H. exact (recorded_ids es order ins outs g BU VO BG TO es' m CM op H).
  - intros d N C. apply D4. split; assumption.
  - intros pre op post args a E C Ha (x & Cx).
    assert (X : map mo_ph mops = op_nodes (order g)).
    { clear -F. induction F as [|d o l mops I _ IH]; cbn; [reflexivity|]. destruct I as (-> & _). rewrite IH. reflexivity. }
    destruct TO as (TN & _ & TE). pose proof (build_edges _ _ _ _ BG) as BE.
    assert (N : needed (es_ph es) outs (mo_ph op)).
    { apply D4. rewrite E. apply in_map, in_or_app. right. left. reflexivity. }
    apply In_nth_error in Ha. destruct Ha as (i & Hi).
    assert (B1 : before (GD a) (GO (mo_ph op)) (order g)).
    { apply (TE (mkEdge (GD a) (GO (mo_ph op)) i)). apply BE. left. exists (mo_ph op), args, i, a. repeat split; assumption. }
    assert (B2 : before (GO a) (GD a) (order g)).
    { apply (TE (mkEdge (GO a) (GD a) 0)). apply BE. right. exists a, x. split; [|split; [exact Cx|reflexivity]].
      eapply need_arg; [exact N|exact C|]. eapply nth_error_In, Hi. }
    pose proof (before_op_nodes _ _ _ (before_trans _ _ _ _ TN B2 B1)) as B3. rewrite <- X in B3.
    assert (E' : map mo_ph mops = map mo_ph pre ++ mo_ph op :: map mo_ph post) by (rewrite <- EM, E, map_app; reflexivity).
    eapply before_unique; [exact B3| |exact E']. rewrite <- EM. exact D3.
Qed.

(** The position of a placeholder among the data nodes. *)
Definition num (m : model) (d : nat) : nat := match id_of m d with Ok i => i | _ => 0 end.

Section Numbers.
Variables (ps : list phnode) (ins outs : list nat) (m : model).
Hypothesis MF : mfacts ps ins outs m.

Lemma id_num d : needed ps outs d -> id_of m d = Ok (num m d) /\ nth_error (map fst (m_data m)) (num m d) = Some d /\ num m d < length (m_data m).
Proof.
  intros N. apply (mf_data _ _ _ _ MF) in N. unfold num, id_of. apply index_of_In in N. destruct N as (i & E). rewrite E.
  pose proof (index_of_Ok _ _ _ E) as H. split; [reflexivity|].
  assert (nth_error (map fst (m_data m)) i = Some d) as X by apply H. split; [exact X|].
  rewrite <- (map_length fst). apply nth_error_Some. congruence.
Qed.
Lemma num_of d i : nth_error (map fst (m_data m)) i = Some d -> num m d = i.
Proof. intros H. unfold num, id_of. rewrite (index_of_NoDup _ _ _ (mf_nodup _ _ _ _ MF) H). reflexivity. Qed.
Lemma num_inj d d' : needed ps outs d -> needed ps outs d' -> num m d = num m d' -> d = d'.
Proof. intros N N' E. apply id_num in N, N'. destruct N as (_ & A & _), N' as (_ & B & _). congruence. Qed.

Lemma op_spec op : In op (m_ops m) -> exists args k, needed ps outs (mo_ph op) /\ call ps (mo_ph op) args /\ visits ps outs (mo_ph op) = S k /\
  mo_in op = map (num m) args ++ repeat 0 (k * length args) /\ mo_out op = num m (mo_ph op) :: repeat 0 k /\
  (forall a, In a args -> needed ps outs a).
Proof.
  intros H. destruct (mf_op _ _ _ _ MF op H) as (args & k & ids & i & N & C & V & F & D & E1 & E2).
  exists args, k. split; [exact N|]. split; [exact C|]. split; [exact V|].
  assert (X : map (num m) args = ids).
  { clear -F MF. induction F as [|a j l1 l2 E _ IH]; [reflexivity|]. cbn. rewrite IH, (num_of _ _ E). reflexivity. }
  rewrite X, (num_of _ _ D). split; [exact E1|]. split; [exact E2|]. intros a Ha. eapply need_arg; eassumption.
Qed.
End Numbers.
