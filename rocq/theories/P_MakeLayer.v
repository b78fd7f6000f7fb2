(** Proofs behind C48: make_layer. *)
From Coq Require Import Reals String Lia.
From Verif Require Import Base BaseFacts M_Tensor M_Layers M_Optim P_Optim M_Init M_Nn M_Graph M_Model S_Nn S_Graph P_Graph P_Graph2 P_Nn.
Local Open Scope string_scope.
Local Open Scope list_scope.
Open Scope nat_scope.

Definition st_rel {S} (R : S -> S -> Prop) (x y : st S) : Prop :=
  match x, y with Ret a, Ret b => R a b | Exc a, Exc b => R a b | Bad, Bad => True | _, _ => False end.
Definition res_rel {A} (R : A -> A -> Prop) (x y : res A) : Prop :=
  match x, y with Ok a, Ok b => R a b | Throw, Throw => True | UB, UB => True | _, _ => False end.

Lemma st_rel_bind {S} (R : S -> S -> Prop) x y k1 k2 : st_rel R x y -> (forall a b, R a b -> st_rel R (k1 a) (k2 b)) -> st_rel R (st_bind x k1) (st_bind y k2).
Proof. destruct x, y; cbn; auto; contradiction. Qed.
Lemma st_rel_lift {S A} (R : S -> S -> Prop) s t (x : res A) k1 k2 : R s t -> (forall a, st_rel R (k1 a) (k2 a)) -> st_rel R (lift s x k1) (lift t x k2).
Proof. destruct x; cbn; auto. Qed.

Lemma emplace_rel {V} (Q : V -> V -> Prop) m1 m2 k v1 v2 :
  Forall2 (fun x y : string * V => fst x = fst y /\ Q (snd x) (snd y)) m1 m2 -> Q v1 v2 ->
  Forall2 (fun x y => fst x = fst y /\ Q (snd x) (snd y)) (emplace m1 k v1) (emplace m2 k v2).
Proof.
  intros F HQ. unfold emplace.
  assert (X : match find_key m1 k, find_key m2 k with Some _, Some _ => True | None, None => True | _, _ => False end).
  { induction F as [|[a x] [b y] m1 m2 [E _] _ IH]; cbn; [exact I|]. cbn in E. subst b. destruct (String.eqb a k); [exact I|exact IH]. }
  destruct (find_key m1 k), (find_key m2 k); try contradiction; [exact F|].
  apply Forall2_app; [exact F|]. constructor; [|constructor]. split; [reflexivity|exact HQ].
Qed.

Lemma add_param_alike k t1 t2 a b : alike a b -> res_rel (fun x y => tsh x = tsh y) t1 t2 -> st_rel alike (add_param k t1 a) (add_param k t2 b).
Proof.
  intros (E1 & E2 & E3 & FP & FB) H. unfold add_param. destruct t1 as [x| |], t2 as [y| |]; cbn in *; try contradiction; try exact I.
  - split; [exact E1|]. split; [exact E2|]. split; [exact E3|]. split; [|exact FB].
    apply (emplace_rel (fun p q => tsh (p_data p) = tsh (p_data q) /\ tsh (p_grad p) = tsh (p_grad q) /\ p_train p = p_train q)); [exact FP|].
    cbn. auto.
  - repeat split; assumption.
Qed.
Lemma add_buffer_alike k t1 t2 a b : alike a b -> res_rel (fun x y => tsh x = tsh y) t1 t2 -> st_rel alike (add_buffer k t1 a) (add_buffer k t2 b).
Proof.
  intros (E1 & E2 & E3 & FP & FB) H. unfold add_buffer. destruct t1 as [x| |], t2 as [y| |]; cbn in *; try contradiction; try exact I.
  - split; [exact E1|]. split; [exact E2|]. split; [exact E3|]. split; [exact FP|].
    apply (emplace_rel (fun p q => tsh p = tsh q)); [exact FB|exact H].
  - repeat split; assumption.
Qed.

Lemma new_ten_rel s j1 j2 : res_rel (fun x y => tsh x = tsh y /\ tot x = tot y) (new_ten s j1) (new_ten s j2).
Proof.
  unfold new_ten. destruct (dw_assert _); cbn; try exact I. destruct (int_prod s); cbn; try exact I. split; [reflexivity|]. unfold tot. cbn. rewrite !tab_length. reflexivity.
Qed.
Lemma t_constant_rel I1 I2 s v : res_rel (fun x y => tsh x = tsh y) (t_constant I1 s v) (t_constant I2 s v).
Proof.
  unfold t_constant. pose proof (new_ten_rel s (in_junk I1) (in_junk I2)) as H.
  destruct (new_ten s (in_junk I1)), (new_ten s (in_junk I2)); cbn in *; try contradiction; try exact I. apply H.
Qed.
Lemma t_xavier_rel I1 I2 w s : res_rel (fun x y => tsh x = tsh y) (t_xavier I1 w s) (t_xavier I2 w s).
Proof.
  unfold t_xavier. pose proof (new_ten_rel s (in_junk I1) (in_junk I2)) as H.
  destruct (new_ten s (in_junk I1)), (new_ten s (in_junk I2)); cbn in H |- *; try contradiction; try exact I.
  destruct H as [H1 H2]. rewrite H2. destruct (xavier_features s _) as [[i o]| |]; cbn; try exact I.
  destruct (negb _); [exact I|]. destruct (_ =? 0)%Z; [exact I|]. exact H1.
Qed.

Lemma linit_alike k I1 I2 ss a b : alike a b -> st_rel alike (linit k I1 ss a) (linit k I2 ss b).
Proof.
  intros AL. assert (EA : li_attrs a = li_attrs b) by apply AL.
  unfold linit. apply st_rel_lift; [exact AL|]. intros s.
  assert (BN : st_rel alike (bn_init I1 s a) (bn_init I2 s b)).
  { unfold bn_init. apply st_rel_lift; [exact AL|]. intros c.
    apply st_rel_bind; [apply add_param_alike; [exact AL|apply t_constant_rel]|]. intros x1 y1 G1.
    apply st_rel_bind; [apply add_param_alike; [exact G1|apply t_constant_rel]|]. intros x2 y2 G2.
    apply st_rel_bind; [apply add_buffer_alike; [exact G2|apply t_constant_rel]|]. intros x3 y3 G3.
    apply add_buffer_alike; [exact G3|apply t_constant_rel]. }
  destruct k; try exact BN; try exact AL; rewrite <- ?EA.
  - apply st_rel_lift; [exact AL|]. intros u. apply st_rel_lift; [exact AL|]. intros f.
    apply st_rel_bind; [apply add_param_alike; [exact AL|apply t_xavier_rel]|]. intros x1 y1 G1. apply add_param_alike; [exact G1|apply t_constant_rel].
  - apply st_rel_lift; [exact AL|]. intros u. apply st_rel_lift; [exact AL|]. intros [kh kw]. apply st_rel_lift; [exact AL|]. intros c.
    apply st_rel_bind; [apply add_param_alike; [exact AL|apply t_xavier_rel]|]. intros x1 y1 G1. apply add_param_alike; [exact G1|apply t_constant_rel].
  - apply add_param_alike; [exact AL|apply t_constant_rel].
Qed.

Lemma alike_refl_new a : li_params a = [] -> li_bufs a = [] -> alike a a.
Proof. intros P B. unfold alike. rewrite P, B. repeat split; constructor. Qed.

(** The recorded attributes, in any order, determine the same description. *)
Lemma construct_again k m name li attrs :
  construct k m name = Ok li -> (forall key, find_key attrs key = find_key (li_attrs li) key) -> construct k attrs name = Ok li.
Proof.
  intros C H. destruct k; cbn [construct] in C |- *;
    repeat match type of C with
    | bind ?x _ = Ok _ => let v := fresh "v" in destruct x as [v| |]; cbn [bind] in C; try discriminate C
    end; injection C as <-; cbn [li_attrs] in H; unfold at_int, at_float, at_int2, at_key, get_int, get_float, get_int2; rewrite ?H; cbn;
    repeat match goal with v : (Z * Z)%type |- _ => destruct v end; reflexivity.
Qed.

Lemma make_layer_again k m name li attrs I1 I2 args es :
  construct k m name = Ok li -> (forall key, find_key attrs key = find_key (li_attrs li) key) -> length args = num_in k ->
  match apply_op k I1 (length (es_info es)) args (fst (new_op li es)), make_layer I2 (li_type li) name attrs args es with
  | RVal e1 p1, RVal e2 p2 =>
      p1 = p2 /\ es_ph e1 = es_ph e2 /\
      exists l1 l2, es_info e1 = es_info es ++ [l1] /\ es_info e2 = es_info es ++ [l2] /\ alike l1 l2
  | RExc _, RExc _ => True
  | RBad, RBad => True
  | _, _ => False
  end.
Proof.
  intros C H L. destruct (construct_ok _ _ _ _ C) as [EL TL]. unfold make_layer. rewrite TL, (construct_again _ _ _ _ _ C H).
  unfold new_op. cbn [fst]. unfold apply_vec. rewrite L, Nat.ltb_irrefl. rewrite <- L, firstn_all.
  unfold apply_op. cbn [es_ph es_info]. destruct (map_res _ args) as [ss| |]; [|exact I|exact I].
  rewrite rd_nth, nth_error_app2, Nat.sub_diag by lia. cbn [nth_error].
  assert (AL : alike li li) by (apply alike_refl_new; rewrite EL; reflexivity).
  pose proof (linit_alike k I1 I2 ss li li AL) as LI.
  destruct (linit k I1 ss li) as [a|a|], (linit k I2 ss li) as [b|b|]; cbn in LI; try contradiction; try exact I.
  assert (EA : li_attrs a = li_attrs b) by apply LI. rewrite EA. destruct (out_shape k (li_attrs b) ss) as [s| |]; try exact I.
  cbn [set_info es_ph es_info]. split; [reflexivity|]. split; [reflexivity|]. exists a, b.
  assert (U : forall x, upd (es_info es ++ [li]) (length (es_info es)) x = es_info es ++ [x]) by (intros x; apply upd_app).
  rewrite !U. auto.
Qed.

Lemma unsupported I type name m inputs es : ~ In type supported -> make_layer I type name m inputs es = RExc es.
Proof.
  intros H. unfold make_layer. replace (layer_table type) with (@None kind); [reflexivity|]. unfold layer_table, supported in *.
  repeat match goal with |- context [String.eqb type ?s] => destruct (String.eqb_spec type s) as [->|_]; [exfalso; apply H; cbn; tauto|] end.
  reflexivity.
Qed.
