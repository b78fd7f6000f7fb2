(** Proofs about the traversal and linking of expressions. *)
From Coq Require Import String Permutation Lia.
From Verif Require Import Base BaseFacts M_Nn M_Graph M_Model S_Graph.
Open Scope nat_scope.

Definition args_at (ps : list phnode) (d : nat) : list nat :=
  match args_of ps d with Some a => a | None => [] end.

Lemma args_of_call ps d a : args_of ps d = Some a <-> call ps d a.
Proof.
  unfold args_of, call. destruct (nth_error ps d) as [[s [[i x]|]]|]; cbn; split.
  - intros H; injection H as <-; eauto.
  - intros (s' & i' & H); injection H as <- <- <-; reflexivity.
  - discriminate.
  - intros (s' & i' & H); discriminate.
  - discriminate.
  - intros (s' & i' & H); discriminate.
Qed.
Lemma in_args ps d a : In a (args_at ps d) <-> exists args, call ps d args /\ In a args.
Proof.
  unfold args_at. destruct (args_of ps d) as [l|] eqn:E; split.
  - intros H. exists l. split; [apply args_of_call, E|exact H].
  - intros (l' & C & H). apply args_of_call in C. rewrite E in C. injection C as <-. exact H.
  - intros [].
  - intros (l' & C & H). apply args_of_call in C. congruence.
Qed.
Lemma memb_In x l : memb x l = true <-> In x l.
Proof.
  unfold memb. rewrite existsb_exists. split.
  - intros (y & H & E). apply Nat.eqb_eq in E. subst; exact H.
  - intros H. exists x. split; [exact H|apply Nat.eqb_refl].
Qed.
Lemma memb_In_false x l : memb x l = false <-> ~ In x l.
Proof. rewrite <- memb_In. destruct (memb x l); split; congruence. Qed.

Definition fresh (reached : list nat) (l : list nat) := filter (fun a => negb (memb a reached)) l.
Lemma in_fresh r l a : In a (fresh r l) <-> In a l /\ ~ In a r.
Proof. unfold fresh. rewrite filter_In, Bool.negb_true_iff, memb_In_false. reflexivity. Qed.

Lemma push_args_eq r args st : push_args r args st = rev (fresh r args) ++ st.
Proof.
  unfold push_args, fresh. revert st. induction args as [|a t IH]; intros st; cbn; [reflexivity|].
  rewrite IH. destruct (memb a r); cbn; [reflexivity|]. rewrite <- app_assoc. reflexivity.
Qed.

(** The sequence of placeholders popped. *)
Fixpoint walk (fuel : nat) (ps : list phnode) (stack reached : list nat) : option (list nat) :=
  match stack with
  | [] => Some []
  | d :: rest =>
      match fuel with
      | O => None
      | S f => option_map (cons d) (walk f ps (rev (fresh (d :: reached) (args_at ps d)) ++ rest) (d :: reached))
      end
  end.

Definition produced (ps : list phnode) (d : nat) : bool := match args_of ps d with Some _ => true | None => false end.

Lemma unroll_loop_walk ps fuel : forall stack r D O,
  unroll_loop fuel ps stack r D O = option_map (fun v => (D ++ v, O ++ filter (produced ps) v)) (walk fuel ps stack r).
Proof.
  induction fuel as [|f IH]; intros [|d rest] r D O; cbn [unroll_loop walk option_map filter]; try rewrite !app_nil_r; try reflexivity.
  unfold args_at. destruct (args_of ps d) as [args|] eqn:E.
  - rewrite push_args_eq, IH. destruct (walk f ps _ _) as [v|]; cbn [option_map]; [|reflexivity].
    cbn [filter]. replace (produced ps d) with true by (unfold produced; rewrite E; reflexivity). rewrite <- !app_assoc. reflexivity.
  - cbn [fresh filter rev app]. rewrite IH. destruct (walk f ps _ _) as [v|]; cbn [option_map]; [|reflexivity].
    cbn [filter]. replace (produced ps d) with false by (unfold produced; rewrite E; reflexivity). rewrite <- !app_assoc. reflexivity.
Qed.

Lemma unroll_walk ps outs :
  unroll ps outs = option_map (fun v => (v, filter (produced ps) v)) (walk (length outs + all_links ps) ps (rev outs) []).
Proof. unfold unroll. rewrite unroll_loop_walk. reflexivity. Qed.

Lemma walk_mono ps fuel : forall stack r v fuel', walk fuel ps stack r = Some v -> fuel <= fuel' -> walk fuel' ps stack r = Some v.
Proof.
  induction fuel as [|f IH]; intros [|d rest] r v [|f'] H L; cbn [walk] in *; try exact H; try discriminate; try lia.
  destruct (walk f ps _ _) as [w|] eqn:E; [|discriminate]. erewrite IH; [exact H|exact E|lia].
Qed.

Lemma walk_app ps fuel : forall p q r v, walk fuel ps (p ++ q) r = Some v ->
  exists v1 v2, v = v1 ++ v2 /\ walk fuel ps p r = Some v1 /\ walk fuel ps q (rev v1 ++ r) = Some v2.
Proof.
  induction fuel as [|f IH]; intros [|d p] q r v H.
  - exists [], v. auto.
  - discriminate.
  - exists [], v. auto.
  - cbn [app walk] in H. rewrite app_assoc in H.
    destruct (walk f ps _ _) as [w|] eqn:E; [|discriminate]. injection H as <-.
    apply IH in E. destruct E as (v1 & v2 & -> & H1 & H2).
    exists (d :: v1), v2. split; [reflexivity|]. split.
    + cbn [walk]. rewrite H1. reflexivity.
    + cbn [rev]. rewrite <- app_assoc. cbn [app]. eapply walk_mono; [exact H2|lia].
Qed.

(** ** Termination *)
Definition pend_ok (ps : list phnode) (stack reached : list nat) : Prop :=
  forall p d q, stack = p ++ d :: q -> In d reached -> forall a, In a (args_at ps d) -> In a reached \/ In a p.

Lemma fresh_nil r l : (forall a, In a l -> In a r) -> fresh r l = [].
Proof.
  intros H. destruct (fresh r l) as [|a t] eqn:E; [reflexivity|].
  assert (X : In a (fresh r l)) by (rewrite E; left; reflexivity). apply in_fresh in X. destruct X as [X1 X2]. exfalso; auto.
Qed.

Lemma pend_ok_step ps d rest r : pend_ok ps (d :: rest) r ->
  pend_ok ps (rev (fresh (d :: r) (args_at ps d)) ++ rest) (d :: r).
Proof.
  intros H p x q E Hx a Ha.
  set (F := rev (fresh (d :: r) (args_at ps d))) in *.
  assert (HF : forall y, In y F <-> In y (args_at ps d) /\ ~ In y (d :: r)).
  { intros y. unfold F. rewrite <- in_rev. apply in_fresh. }
  destruct (Nat.le_gt_cases (length F) (length p)) as [L|L].
  - (* in rest *)
    assert (exists p', p = F ++ p' /\ rest = p' ++ x :: q) as (p' & -> & ->).
    { exists (skipn (length F) p). assert (E1 : firstn (length F) p = F).
      { apply (f_equal (firstn (length F))) in E. rewrite firstn_app, Nat.sub_diag, firstn_all, firstn_O, app_nil_r in E.
        rewrite firstn_app in E. replace (length F - length p) with 0 in E by lia. rewrite firstn_O, app_nil_r in E. auto. }
      split; [rewrite <- E1 at 1; symmetry; apply firstn_skipn|].
      apply (f_equal (skipn (length F))) in E. rewrite skipn_app, Nat.sub_diag, skipn_all, skipn_O in E. cbn in E.
      rewrite skipn_app in E. replace (length F - length p) with 0 in E by lia. rewrite skipn_O in E. auto. }
    destruct (in_dec Nat.eq_dec a (d :: r)) as [Y|Y]; [left; exact Y|right].
    apply in_or_app. destruct Hx as [<-|Hx].
    + left. apply HF. auto.
    + destruct (H (d :: p') x q eq_refl Hx a Ha) as [Z|[Z|Z]].
      * exfalso. apply Y. right; exact Z.
      * exfalso. apply Y. left; exact Z.
      * right; exact Z.
  - (* in F *)
    exfalso. assert (X : nth_error (F ++ rest) (length p) = Some x).
    { rewrite E, nth_error_app2, Nat.sub_diag by lia. reflexivity. }
    rewrite nth_error_app1 in X by lia. apply nth_error_In, HF in X. tauto.
Qed.

Definition todo (ps : list phnode) (U : list nat) (r : list nat) : nat := list_sum (map (num_args ps) (fresh r U)).

Lemma num_args_at ps d : num_args ps d = length (args_at ps d).
Proof. unfold num_args, args_at. destruct (args_of ps d); reflexivity. Qed.

Lemma list_sum_cons a l : list_sum (a :: l) = a + list_sum l. Proof. reflexivity. Qed.

Lemma todo_notin ps U d r : ~ In d U -> todo ps U (d :: r) = todo ps U r.
Proof.
  unfold todo, fresh. induction U as [|u U IH]; intros H; [reflexivity|].
  cbn [filter]. assert (E : memb u (d :: r) = memb u r).
  { unfold memb. cbn [existsb]. destruct (Nat.eqb_spec u d) as [->|]; [exfalso; apply H; left; reflexivity|reflexivity]. }
  rewrite E. assert (H' : ~ In d U) by (intros X; apply H; right; exact X). specialize (IH H').
  destruct (memb u r); cbn [negb]; [exact IH|]. cbn [map]. rewrite !list_sum_cons. lia.
Qed.
Lemma todo_step ps U d r : NoDup U -> In d U -> ~ In d r ->
  todo ps U (d :: r) + num_args ps d = todo ps U r.
Proof.
  induction U as [|u U IH]; intros ND H Hr; [destruct H|].
  inversion ND; subst. destruct (Nat.eq_dec u d) as [->|N].
  - unfold todo, fresh. cbn [filter]. replace (memb d (d :: r)) with true by (symmetry; apply memb_In; left; reflexivity).
    replace (memb d r) with false by (symmetry; apply memb_In_false; exact Hr). cbn [negb map]. rewrite list_sum_cons.
    fold (fresh (d :: r) U). fold (todo ps U (d :: r)). fold (fresh r U). fold (todo ps U r). rewrite todo_notin by assumption. lia.
  - destruct H as [H|H]; [congruence|]. specialize (IH H3 H Hr).
    unfold todo, fresh in *. cbn [filter]. assert (E : memb u (d :: r) = memb u r).
    { unfold memb. cbn [existsb]. destruct (Nat.eqb_spec u d) as [->|]; [congruence|reflexivity]. }
    rewrite E. destruct (memb u r); cbn [negb]; [exact IH|]. cbn [map]. rewrite !list_sum_cons. lia.
Qed.
Lemma todo_in_r ps U d r : In d r -> todo ps U (d :: r) = todo ps U r.
Proof.
  intros H. unfold todo. f_equal. f_equal. unfold fresh. apply filter_ext. intros a. f_equal.
  unfold memb. cbn [existsb]. destruct (Nat.eqb_spec a d) as [->|]; [|reflexivity]. cbn. symmetry. apply (memb_In d r). exact H.
Qed.
Lemma fresh_length r l : length (fresh r l) <= length l.
Proof. unfold fresh. induction l as [|a t IH]; cbn; [lia|]. destruct (negb _); cbn; lia. Qed.

(** [U] contains everything that has arguments and may still be popped. *)
Lemma walk_some ps U fuel : NoDup U -> forall stack r,
  pend_ok ps stack r -> (forall d, In d U \/ args_at ps d = []) ->
  length stack + todo ps U r <= fuel -> exists v, walk fuel ps stack r = Some v.
Proof.
  intros ND. induction fuel as [|f IH]; intros [|d rest] r P HU L.
  - exists []; reflexivity.
  - cbn in L; lia.
  - exists []; reflexivity.
  - cbn [length] in L. cbn [walk].
    destruct (IH (rev (fresh (d :: r) (args_at ps d)) ++ rest) (d :: r)) as (v & ->); [apply pend_ok_step, P|exact HU| |exists (d :: v); reflexivity].
    rewrite app_length, rev_length.
    destruct (in_dec Nat.eq_dec d r) as [Y|Y].
    + rewrite fresh_nil, todo_in_r by (try exact Y; intros a Ha; destruct (P [] d rest eq_refl Y a Ha) as [Z|[]]; right; exact Z).
      cbn; lia.
    + pose proof (fresh_length (d :: r) (args_at ps d)) as B.
      destruct (HU d) as [Z|Z].
      * pose proof (todo_step ps U d r ND Z Y) as T. rewrite num_args_at in T. lia.
      * rewrite Z in *. cbn in B |- *. destruct (in_dec Nat.eq_dec d U) as [W|W].
        -- pose proof (todo_step ps U d r ND W Y) as T. lia.
        -- rewrite todo_notin by exact W. lia.
Qed.

Lemma walk_length ps U fuel : NoDup U -> forall stack r v,
  pend_ok ps stack r -> walk fuel ps stack r = Some v -> (forall d, In d v -> In d U) -> length v <= length stack + todo ps U r.
Proof.
  intros ND. induction fuel as [|f IH]; intros [|d rest] r v P H HU.
  - injection H as <-; cbn; lia.
  - discriminate.
  - injection H as <-; cbn; lia.
  - cbn [walk] in H. destruct (walk f ps _ _) as [w|] eqn:E; [|discriminate]. injection H as <-.
    apply IH in E; [|apply pend_ok_step, P|intros x Hx; apply HU; right; exact Hx].
    rewrite app_length, rev_length in E. cbn [length].
    destruct (in_dec Nat.eq_dec d r) as [Y|Y].
    + rewrite fresh_nil, todo_in_r in E by (try exact Y; intros a Ha; destruct (P [] d rest eq_refl Y a Ha) as [Z|[]]; right; exact Z).
      cbn in E; lia.
    + pose proof (fresh_length (d :: r) (args_at ps d)) as B.
      pose proof (todo_step ps U d r ND (HU d (or_introl eq_refl)) Y) as T. rewrite num_args_at in T. lia.
Qed.

Lemma args_at_out ps d : length ps <= d -> args_at ps d = [].
Proof. intros H. unfold args_at, args_of. apply nth_error_None in H. rewrite H. reflexivity. Qed.

Lemma walk_outs ps outs : exists v, walk (length outs + all_links ps) ps (rev outs) [] = Some v.
Proof.
  apply (walk_some ps (seq 0 (length ps))).
  - apply seq_NoDup.
  - intros p d q _ [].
  - intros d. destruct (Nat.lt_ge_cases d (length ps)); [left; apply in_seq; lia|right; apply args_at_out; lia].
  - rewrite rev_length. unfold todo, all_links. replace (fresh [] (seq 0 (length ps))) with (seq 0 (length ps)); [lia|].
    unfold fresh. symmetry. clear. generalize (seq 0 (length ps)) as l. induction l as [|a t IH]; [reflexivity|]. cbn. f_equal. exact IH.
Qed.

(** ** What is visited *)
Lemma needed_trans ps l1 l2 d : (forall o, In o l1 -> needed ps l2 o) -> needed ps l1 d -> needed ps l2 d.
Proof.
  intros H N. induction N as [o Ho|c args a _ IH C Ha]; [auto|eapply need_arg; eassumption].
Qed.
Lemma needed_incl ps l1 l2 d : incl l1 l2 -> needed ps l1 d -> needed ps l2 d.
Proof. intros H. apply needed_trans. intros o Ho. apply need_out, H, Ho. Qed.

Lemma walk_sound ps fuel : forall stack r v, walk fuel ps stack r = Some v -> forall d, In d v -> needed ps stack d.
Proof.
  induction fuel as [|f IH]; intros [|d rest] r v H x Hx.
  - injection H as <-; destruct Hx.
  - discriminate.
  - injection H as <-; destruct Hx.
  - cbn [walk] in H. destruct (walk f ps _ _) as [w|] eqn:E; [|discriminate]. injection H as <-.
    destruct Hx as [<-|Hx]; [apply need_out; left; reflexivity|].
    apply (IH _ _ _ E) in Hx. revert Hx. apply needed_trans. intros o Ho. apply in_app_or in Ho. destruct Ho as [Ho|Ho].
    + apply in_rev, in_fresh in Ho. destruct Ho as [Ho _]. apply in_args in Ho. destruct Ho as (args & C & Ho).
      eapply need_arg; [apply need_out; left; reflexivity|exact C|exact Ho].
    + apply need_out; right; exact Ho.
Qed.

Lemma walk_stack ps fuel : forall stack r v, walk fuel ps stack r = Some v -> incl stack v.
Proof.
  induction fuel as [|f IH]; intros [|d rest] r v H x Hx.
  - destruct Hx.
  - discriminate.
  - destruct Hx.
  - cbn [walk] in H. destruct (walk f ps _ _) as [w|] eqn:E; [|discriminate]. injection H as <-.
    destruct Hx as [<-|Hx]; [left; reflexivity|right]. apply (IH _ _ _ E). apply in_or_app; right; exact Hx.
Qed.

Lemma walk_closed ps fuel : forall stack r v, walk fuel ps stack r = Some v ->
  forall d, In d v -> forall a, In a (args_at ps d) -> In a v \/ In a r.
Proof.
  induction fuel as [|f IH]; intros [|d rest] r v H x Hx a Ha.
  - injection H as <-; destruct Hx.
  - discriminate.
  - injection H as <-; destruct Hx.
  - cbn [walk] in H. destruct (walk f ps _ _) as [w|] eqn:E; [|discriminate]. injection H as <-.
    destruct Hx as [<-|Hx].
    + destruct (in_dec Nat.eq_dec a (d :: r)) as [[->|Y]|Y]; [left; left; reflexivity|right; exact Y|].
      left; right. apply (walk_stack _ _ _ _ _ E). apply in_or_app; left. apply in_rev. rewrite rev_involutive. apply in_fresh. auto.
    + destruct (IH _ _ _ E x Hx a Ha) as [Z|[->|Z]]; [left; right; exact Z|left; left; reflexivity|right; exact Z].
Qed.

Lemma walk_complete ps fuel stack r v : walk fuel ps stack r = Some v ->
  forall d, needed ps stack d -> (forall m, needed ps stack m -> needed ps [m] d -> ~ In m r) -> In d v.
Proof.
  intros H d N. induction N as [o Ho|c args a N IH C Ha]; intros P.
  - apply (walk_stack _ _ _ _ _ H), Ho.
  - assert (Hc : In c v).
    { apply IH. intros m Hm Nm. apply P; [exact Hm|]. eapply need_arg; eassumption. }
    destruct (walk_closed _ _ _ _ _ H c Hc a) as [Z|Z]; [apply in_args; eauto|exact Z|].
    exfalso. apply (P a); [eapply need_arg; eassumption|apply need_out; left; reflexivity|exact Z].
Qed.

Lemma needed_rev ps l d : needed ps (rev l) d <-> needed ps l d.
Proof. split; apply needed_incl; intros x Hx; [apply in_rev; exact Hx|apply in_rev; rewrite rev_involutive; exact Hx]. Qed.

Lemma unroll_spec ps outs : exists v,
  unroll ps outs = Some (v, filter (produced ps) v) /\ (forall d, In d v <-> needed ps outs d).
Proof.
  destruct (walk_outs ps outs) as (v & H). exists v. rewrite unroll_walk, H. split; [reflexivity|].
  intros d. rewrite <- needed_rev. split.
  - apply (walk_sound _ _ _ _ _ H).
  - intros N. apply (walk_complete _ _ _ _ _ H d N). intros m _ _ [].
Qed.

(** ** Number of visits *)
Definition later_free (ps : list phnode) (l : list nat) : Prop := ForallOrdPairs (fun x d => ~ needed ps [x] d) l.

Lemma needed_single ps l d : needed ps l d -> exists x, In x l /\ needed ps [x] d.
Proof.
  intros N. induction N as [o Ho|c args a _ (x & Hx & N) C Ha].
  - exists o. split; [exact Ho|apply need_out; left; reflexivity].
  - exists x. split; [exact Hx|eapply need_arg; eassumption].
Qed.

Lemma FOP_app {A} (R : A -> A -> Prop) l1 l2 :
  ForallOrdPairs R (l1 ++ l2) <-> ForallOrdPairs R l1 /\ ForallOrdPairs R l2 /\ (forall x y, In x l1 -> In y l2 -> R x y).
Proof.
  induction l1 as [|a t IH]; cbn.
  - split; [intros H; split; [constructor|split; [exact H|intros x y []]]|intros (_ & H & _); exact H].
  - split.
    + intros H. inversion H; subst. apply IH in H3. destruct H3 as (H3 & H4 & H5). rewrite Forall_app in H2. destruct H2 as [H2 H2'].
      split; [constructor; assumption|]. split; [exact H4|]. intros x y [<-|Hx] Hy; [|auto]. rewrite Forall_forall in H2'. auto.
    + intros (H1 & H2 & H3). inversion H1; subst. constructor.
      * apply Forall_app. split; [assumption|]. apply Forall_forall. intros y Hy. apply H3; [left; reflexivity|exact Hy].
      * apply IH. split; [assumption|]. split; [exact H2|]. intros x y Hx Hy. apply H3; [right; exact Hx|exact Hy].
Qed.
Lemma FOP_filter {A} (R : A -> A -> Prop) f l : ForallOrdPairs R l -> ForallOrdPairs R (filter f l).
Proof.
  induction 1 as [|a t F H IH]; cbn; [constructor|]. destruct (f a); [|exact IH]. constructor; [|exact IH].
  apply Forall_forall. intros x Hx. apply filter_In in Hx. rewrite Forall_forall in F. apply F, Hx.
Qed.
Lemma FOP_rev {A} (R : A -> A -> Prop) l : ForallOrdPairs (fun x y => R y x) l -> ForallOrdPairs R (rev l).
Proof.
  induction 1 as [|a t F H IH]; cbn; [constructor|]. apply FOP_app. split; [exact IH|]. split; [repeat constructor|].
  intros x y Hx [<-|[]]. apply in_rev in Hx. rewrite Forall_forall in F. auto.
Qed.
Lemma FOP_nth {A} (R : A -> A -> Prop) l :
  (forall i j a b, i < j -> nth_error l i = Some a -> nth_error l j = Some b -> R a b) -> ForallOrdPairs R l.
Proof.
  induction l as [|a t IH]; intros H; [constructor|]. constructor.
  - apply Forall_forall. intros x Hx. apply In_nth_error in Hx. destruct Hx as (j & Hj). apply (H 0 (S j) a x); [lia|reflexivity|exact Hj].
  - apply IH. intros i j x y L Hi Hj. apply (H (S i) (S j) x y); [lia|exact Hi|exact Hj].
Qed.

Lemma filter_rev {A} (f : A -> bool) l : filter f (rev l) = rev (filter f l).
Proof.
  induction l as [|a t IH]; [reflexivity|]. cbn [rev]. rewrite filter_app, IH. cbn [filter].
  destruct (f a); cbn [rev]; [reflexivity|apply app_nil_r].
Qed.

Lemma in_order_rev ps l : in_order ps l -> later_free ps (rev l).
Proof.
  intros H. apply FOP_rev, FOP_nth. intros i j a b L Hi Hj. exact (H i j a b L Hi Hj).
Qed.

Lemma walk_once ps fuel : forall stack r v,
  (forall c args, needed ps stack c -> call ps c args -> in_order ps args) ->
  later_free ps stack -> (forall d, In d stack -> ~ In d r) ->
  walk fuel ps stack r = Some v -> NoDup v /\ (forall d, In d v -> ~ In d r).
Proof.
  induction fuel as [|f IH]; intros [|d rest] r v HO LF FR H.
  - injection H as <-; split; [constructor|intros d []].
  - discriminate.
  - injection H as <-; split; [constructor|intros d []].
  - cbn [walk] in H. destruct (walk f ps _ _) as [w|] eqn:E; [|discriminate]. injection H as <-.
    inversion LF as [|? ? F1 F2]; subst. rewrite Forall_forall in F1.
    apply IH in E.
    + destruct E as [ND NR]. split.
      * constructor; [|exact ND]. intros X. apply NR in X. apply X. left; reflexivity.
      * intros x [<-|Hx]; [apply FR; left; reflexivity|]. intros X. apply (NR x Hx). right; exact X.
    + intros c args N. apply HO. revert N. apply needed_trans. intros o Ho. apply in_app_or in Ho. destruct Ho as [Ho|Ho].
      * apply in_rev, in_fresh in Ho. destruct Ho as [Ho _]. apply in_args in Ho. destruct Ho as (args' & C & Ho).
        eapply need_arg; [apply need_out; left; reflexivity|exact C|exact Ho].
      * apply need_out; right; exact Ho.
    + apply FOP_app. split; [|split; [exact F2|]].
      * unfold fresh. rewrite <- filter_rev. apply FOP_filter. unfold args_at.
        destruct (args_of ps d) as [args|] eqn:A; [|constructor]. apply in_order_rev, (HO d); [apply need_out; left; reflexivity|].
        apply args_of_call, A.
      * intros x y Hx Hy N. apply (F1 y Hy). apply in_rev, in_fresh in Hx. destruct Hx as [Hx _].
        apply in_args in Hx. destruct Hx as (args' & C & Hx). revert N. apply needed_trans. intros o [<-|[]].
        eapply need_arg; [apply need_out; left; reflexivity|exact C|exact Hx].
    + intros x Hx. apply in_app_or in Hx. destruct Hx as [Hx|Hx].
      * apply in_rev, in_fresh in Hx. apply Hx.
      * intros [->|X]; [|apply (FR x); [right; exact Hx|exact X]]. apply (F1 x Hx). apply need_out; left; reflexivity.
Qed.

Lemma unroll_once ps outs : in_order ps outs -> (forall c args, needed ps outs c -> call ps c args -> in_order ps args) ->
  forall d, needed ps outs d -> visits ps outs d = 1.
Proof.
  intros H1 H2 d N. unfold visits. rewrite unroll_walk. destruct (walk_outs ps outs) as (v & W). rewrite W. cbn [option_map].
  assert (ND : NoDup v).
  { eapply walk_once; [| | |exact W].
    - intros c args Nc. apply H2. apply needed_rev, Nc.
    - apply in_order_rev, H1.
    - intros x _ []. }
  apply NoDup_count_occ'; [exact ND|]. apply (walk_complete _ _ _ _ _ W); [apply needed_rev, N|intros m _ _ []].
Qed.

Lemma visits_needed ps outs d : needed ps outs d <-> 1 <= visits ps outs d.
Proof.
  destruct (unroll_spec ps outs) as (v & E & H). unfold visits. rewrite E, <- H, count_occ_In with (eq_dec := Nat.eq_dec). lia.
Qed.

(** Repeated visits. *)
Lemma walk_twice ps fuel p a q r v : walk fuel ps (p ++ a :: q) r = Some v -> needed ps p a ->
  (forall m, needed ps p m -> needed ps [m] a -> ~ In m r) -> 2 <= count_occ Nat.eq_dec v a.
Proof.
  intros H N P. apply walk_app in H. destruct H as (v1 & v2 & -> & H1 & H2).
  rewrite count_occ_app. pose proof (walk_complete _ _ _ _ _ H1 a N P) as I1.
  pose proof (walk_stack _ _ _ _ _ H2 a (or_introl eq_refl)) as I2.
  apply (count_occ_In Nat.eq_dec) in I1, I2. lia.
Qed.

Lemma walk_first ps fuel c : forall stack r v, walk fuel ps stack r = Some v -> ~ In c r ->
  In c v -> exists f v1 rest, fuel = f + S (length v1) /\ ~ In c v1 /\
    (exists v2, v = v1 ++ c :: v2 /\
     walk f ps (rev (fresh (c :: rev v1 ++ r) (args_at ps c)) ++ rest) (c :: rev v1 ++ r) = Some v2) /\
    (forall d, In d v1 -> needed_avoiding ps c stack d).
Proof.
  induction fuel as [|f IH]; intros [|d rest] r v H Hr Hv.
  - injection H as <-; destruct Hv.
  - discriminate.
  - injection H as <-; destruct Hv.
  - cbn [walk] in H. destruct (walk f ps _ _) as [w|] eqn:E; [|discriminate]. injection H as <-.
    destruct (Nat.eq_dec d c) as [->|N].
    + exists f, [], rest. cbn [length]. split; [lia|]. split; [intros []|]. split; [|intros d []].
      exists w. split; [reflexivity|exact E].
    + destruct Hv as [X|Hv]; [congruence|].
      destruct (IH _ _ _ E) as (f' & v1 & rest' & L & N1 & (v2 & -> & W) & A).
      { intros [X|X]; [congruence|auto]. }
      { exact Hv. }
      exists f', (d :: v1), rest'. cbn [length]. split; [lia|]. split; [intros [X|X]; [congruence|auto]|]. split.
      * exists v2. split; [reflexivity|]. cbn [rev]. rewrite <- !app_assoc. cbn [app]. exact W.
      * assert (Ad : needed_avoiding ps c (d :: rest) d) by (apply avoid_out; [exact N|left; reflexivity]).
        intros x [<-|Hx]; [exact Ad|]. specialize (A x Hx). clear -A Ad.
        induction A as [o No Ho|c' args a _ IH C Ha Na].
        -- apply in_app_or in Ho. destruct Ho as [Ho|Ho].
           ++ apply in_rev, in_fresh in Ho. destruct Ho as [Ho _]. apply in_args in Ho. destruct Ho as (args' & C & Ho).
              eapply avoid_arg; eassumption.
           ++ apply avoid_out; [exact No|right; exact Ho].
        -- eapply avoid_arg; eassumption.
Qed.

(** Links go backwards in time. *)
Definition links_back (ps : list phnode) : Prop := forall c args a, call ps c args -> In a args -> a < c.

Lemma needed_le ps c d : links_back ps -> needed ps [c] d -> d <= c.
Proof.
  intros LB N. induction N as [o [<-|[]]|c' args a _ IH C Ha]; [lia|]. pose proof (LB _ _ _ C Ha). lia.
Qed.

Lemma fresh_app r l1 l2 : fresh r (l1 ++ l2) = fresh r l1 ++ fresh r l2.
Proof. apply filter_app. Qed.

Lemma needed_split ps a m : needed ps [m] a -> a = m \/ exists args x, call ps m args /\ In x args /\ needed ps [x] a.
Proof.
  intros N. induction N as [o [<-|[]]|c args b N IH C Hb]; [left; reflexivity|]. right.
  destruct IH as [->|(args' & x & C' & Hx & N')].
  - exists args, b. split; [exact C|]. split; [exact Hb|apply need_out; left; reflexivity].
  - exists args', x. split; [exact C'|]. split; [exact Hx|]. eapply need_arg; eassumption.
Qed.

Lemma avoiding_ext ps c outs m a : links_back ps -> m < c -> needed_avoiding ps c outs m -> needed ps [m] a -> needed_avoiding ps c outs a.
Proof.
  intros LB L A N. assert (X : needed_avoiding ps c outs a /\ a < c); [|apply X].
  induction N as [o [<-|[]]|c' args b _ (IH1 & IH2) C Hb]; [auto|].
  pose proof (LB _ _ _ C Hb). split; [|lia]. eapply avoid_arg; try eassumption. lia.
Qed.

Lemma unroll_repeated ps outs c pre a post :
  links_back ps -> needed ps outs c -> call ps c (pre ++ a :: post) -> needed ps post a ->
  ~ needed_avoiding ps c outs a -> 2 <= visits ps outs a.
Proof.
  intros LB Nc C Na NA. unfold visits. rewrite unroll_walk. destruct (walk_outs ps outs) as (v & W). rewrite W. cbn [option_map].
  assert (Hc : In c v) by (apply (walk_complete _ _ _ _ _ W); [apply needed_rev, Nc|intros m _ _ []]).
  destruct (walk_first _ _ _ _ _ _ W (fun x => x) Hc) as (f & v1 & rest & _ & _ & (v2 & -> & W2) & A).
  assert (A' : forall d, In d v1 -> needed_avoiding ps c outs d).
  { intros d Hd. specialize (A d Hd). clear -A. induction A as [o No Ho|c' args a _ IH C Ha Na].
    - apply avoid_out; [exact No|apply in_rev, Ho].
    - eapply avoid_arg; eassumption. }
  rewrite app_nil_r in W2.
  assert (EA : args_at ps c = pre ++ a :: post) by (apply args_of_call in C; unfold args_at; rewrite C; reflexivity).
  set (r := c :: rev v1) in *.
  assert (NR : forall m, needed ps post m -> needed ps [m] a -> ~ In m r).
  { intros m Hm Nm X. destruct (needed_single _ _ _ Hm) as (x & Hx & Nx).
    pose proof (needed_le _ _ _ LB Nx) as Lx. assert (x < c) by (eapply LB; [exact C|apply in_or_app; right; right; exact Hx]).
    destruct X as [<-|X]; [lia|]. apply in_rev in X. apply NA. eapply avoiding_ext; [exact LB| |apply A', X|exact Nm]. lia. }
  assert (Fa : ~ In a r).
  { apply NR; [exact Na|apply need_out; left; reflexivity]. }
  rewrite EA, fresh_app, rev_app_distr in W2.
  assert (EF : fresh r (a :: post) = a :: fresh r post).
  { unfold fresh. cbn [filter]. replace (memb a r) with false by (symmetry; apply memb_In_false; exact Fa). reflexivity. }
  rewrite EF in W2. cbn [rev] in W2. rewrite <- !app_assoc in W2. cbn [app] in W2.
  apply walk_twice in W2.
  - rewrite count_occ_app. cbn [count_occ]. destruct (Nat.eq_dec c a); lia.
  - (* a needed from the unreached later arguments *)
    apply needed_rev. destruct (needed_single _ _ _ Na) as (x & Hx & Nx).
    apply needed_trans with (l1 := [x]); [|exact Nx]. intros o [<-|[]]. apply need_out. apply in_fresh. split; [exact Hx|].
    apply NR; [apply need_out, Hx|exact Nx].
  - intros m Hm. apply NR. revert Hm. apply needed_incl. intros x Hx. apply in_rev in Hx. apply in_fresh in Hx. apply Hx.
Qed.

Lemma unroll_repeated_out ps pre a post :
  needed ps post a -> 2 <= visits ps (pre ++ a :: post) a.
Proof.
  intros Na. unfold visits. rewrite unroll_walk. destruct (walk_outs ps (pre ++ a :: post)) as (v & W). rewrite W. cbn [option_map].
  rewrite rev_app_distr in W. cbn [rev] in W. rewrite <- app_assoc in W. cbn [app] in W.
  apply walk_twice in W; [exact W|apply needed_rev, Na|intros m _ _ []].
Qed.

(** Trees. *)
Lemma needed_last ps l d : needed ps l d -> In d l \/ exists c args, needed ps l c /\ call ps c args /\ In d args.
Proof. intros N. destruct N as [o Ho|c args a N C Ha]; [left; exact Ho|right; eauto]. Qed.

Lemma tree_ok ps outs : links_back ps -> tree ps outs ->
  in_order ps outs /\ (forall c args, needed ps outs c -> call ps c args -> in_order ps args).
Proof.
  intros LB T. split.
  - intros i j a b L Hi Hj N. assert (Ho : needed ps outs b) by (apply need_out; eapply nth_error_In; exact Hj).
    apply needed_last in N. destruct N as [[<-|[]]|(c & args & Nc & C & Ha)].
    + specialize (T b (None, i) (None, j) Hi Hj). injection T as ->. lia.
    + apply In_nth_error in Ha. destruct Ha as (k & Hk).
      assert (X : use ps outs a (Some c, k)).
      { split; [|eauto]. revert Nc. apply needed_trans. intros o [<-|[]]. exact Ho. }
      specialize (T a (None, i) (Some c, k) Hi X). discriminate.
  - intros c args Nc C i j a b L Hi Hj N.
    assert (U1 : use ps outs a (Some c, i)) by (split; eauto).
    apply needed_last in N. destruct N as [[<-|[]]|(c' & args' & Nc' & C' & Ha)].
    + assert (U2 : use ps outs b (Some c, j)) by (split; eauto). specialize (T _ _ _ U1 U2). injection T as ->. lia.
    + apply In_nth_error in Ha. destruct Ha as (k & Hk).
      assert (U2 : use ps outs a (Some c', k)).
      { split; [|eauto]. revert Nc'. apply needed_trans. intros o [<-|[]]. eapply need_arg; [exact Nc|exact C|eapply nth_error_In; exact Hj]. }
      specialize (T _ _ _ U1 U2). injection T as <- ->.
      pose proof (needed_le _ _ _ LB Nc'). apply nth_error_In in Hj. pose proof (LB _ _ _ C Hj). lia.
Qed.
