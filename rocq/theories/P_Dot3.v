(** Proofs for C62: printed tensors and shapes; missing placeholders. *)
From Coq Require Import String Ascii Lia.
From Verif Require Import Base BaseFacts S_Tensor M_Tensor S_Heap P_Tensor M_Optim M_Nn M_Graph M_Model M_Dot S_Graph S_Dot P_Dot P_Dot2.
Local Open Scope string_scope.
Local Open Scope list_scope.
Open Scope nat_scope.

(** ** Texts determine the lists they print *)
Lemma clean_cons c s : clean (String c s) -> c <> ","%char /\ c <> " "%char /\ clean s.
Proof.
  unfold clean. cbn [all_chars]. rewrite !Bool.andb_true_iff, !Bool.negb_true_iff. intros [[A B] C].
  split; [|split; [|exact C]]; intros ->; vm_compute in A, B; discriminate.
Qed.
Lemma split_comma a : forall b r r', clean a -> clean b -> (a ++ String "," r = b ++ String "," r')%string -> a = b /\ r = r'.
Proof.
  induction a as [|c a IH]; intros [|d b] r r' Ha Hb H; cbn in H.
  - injection H as ->. auto.
  - injection H as E _. apply clean_cons in Hb. destruct Hb as (N & _). congruence.
  - injection H as E _. apply clean_cons in Ha. destruct Ha as (N & _). congruence.
  - injection H as -> H. apply clean_cons in Ha. apply clean_cons in Hb. destruct (IH b r r') as [-> ->]; tauto || auto.
Qed.
Lemma no_comma a : forall b r, clean a -> a <> (b ++ String "," r)%string.
Proof.
  induction a as [|c a IH]; intros [|d b] r Ha H; cbn in H; try discriminate.
  - injection H as E _. apply clean_cons in Ha. tauto.
  - injection H as -> H. apply clean_cons in Ha. exact (IH b r (proj2 (proj2 Ha)) H).
Qed.
Lemma concat_cons a b l : String.concat ", " (a :: b :: l) = (a ++ String "," (String " " (String.concat ", " (b :: l))))%string.
Proof. reflexivity. Qed.
Lemma concat_inj l1 : forall l2, l1 <> [] -> l2 <> [] -> Forall clean l1 -> Forall clean l2 ->
  String.concat ", " l1 = String.concat ", " l2 -> l1 = l2.
Proof.
  induction l1 as [|a l1 IH]; intros l2 N1 N2 H1 H2 E; [congruence|]. destruct l2 as [|b l2]; [congruence|].
  inversion H1; inversion H2; subst. destruct l1 as [|a' l1], l2 as [|b' l2].
  - cbn in E. congruence.
  - rewrite concat_cons in E. cbn [String.concat] in E. exfalso. eapply no_comma; [|exact E]. assumption.
  - rewrite concat_cons in E. cbn [String.concat] in E. exfalso. symmetry in E. eapply no_comma; [|exact E]. assumption.
  - rewrite !concat_cons in E. apply split_comma in E; [|assumption..]. destruct E as [-> E]. injection E as E.
    f_equal. apply IH; [discriminate|discriminate|assumption..].
Qed.
Lemma app_last_inj a : forall b (c d : ascii), (a ++ String c "" = b ++ String d "")%string -> a = b /\ c = d.
Proof.
  induction a as [|x a IH]; intros [|y b] c d H; cbn in H.
  - injection H as ->. auto.
  - injection H as -> H. destruct b; discriminate.
  - injection H as -> H. destruct a; discriminate.
  - injection H as -> H. destruct (IH _ _ _ H) as [-> ->]. auto.
Qed.
Lemma concat_not_blank l : l <> [] -> Forall clean l -> String.concat ", " l <> " ".
Proof.
  intros N H E. destruct l as [|a l]; [congruence|]. inversion H; subst. destruct l as [|b l].
  - cbn in E. subst a. apply clean_cons in H2. tauto.
  - rewrite concat_cons in E. destruct a as [|x a]; [discriminate|]. injection E as -> E. apply clean_cons in H2. tauto.
Qed.
Lemma numbers_text_inj l1 l2 : Forall clean l1 -> Forall clean l2 -> numbers_text l1 = numbers_text l2 -> l1 = l2.
Proof.
  unfold numbers_text. intros H1 H2 E. destruct l1 as [|a l1], l2 as [|b l2]; [reflexivity|..].
  - change "[ ]" with ("[" ++ " " ++ "]")%string in E. injection E as E. change (String " " "]") with (" " ++ "]")%string in E. apply app_last_inj in E.
    exfalso. eapply (concat_not_blank (b :: l2)); [discriminate|exact H2|]. symmetry. apply E.
  - change "[ ]" with ("[" ++ " " ++ "]")%string in E. injection E as E. change (String " " "]") with (" " ++ "]")%string in E. apply app_last_inj in E.
    exfalso. eapply (concat_not_blank (a :: l1)); [discriminate|exact H1|]. apply E.
  - apply concat_inj; [discriminate|discriminate|assumption..|]. cbn [append] in E. injection E as E. apply app_last_inj in E. apply E.
Qed.
Lemma int_clean z : clean (int_string z).
Proof.
  eapply all_chars_impl; [|apply int_string_chars]. intros c H. destruct (is c ",") eqn:E.
  { apply is_spec in E. injection E as <-. vm_compute in H. discriminate. }
  destruct (is c " ") eqn:E2; [|reflexivity]. apply is_spec in E2. injection E2 as <-. vm_compute in H. discriminate.
Qed.
Lemma shape_text_inj s t : shape_text s = shape_text t -> s = t.
Proof.
  assert (C : forall s, Forall clean (map int_string s)) by (intros u; apply Forall_map, Forall_forall; intros x _; apply int_clean).
  assert (Y : map int_string s = map int_string t -> s = t).
  { revert t. induction s as [|a s IH]; intros [|b t] E; try discriminate; [reflexivity|]. injection E as E1 E2. f_equal; [apply int_string_inj, E1|apply IH, E2]. }
  unfold shape_text. intros E. apply Y. destruct s as [|a s], t as [|b t]; [reflexivity|..].
  - change "{ }" with ("{" ++ " " ++ "}")%string in E. injection E as E. change (String " " "}") with (" " ++ "}")%string in E. apply app_last_inj in E.
    exfalso. eapply (concat_not_blank (map int_string (b :: t))); [discriminate|apply C|]. symmetry. apply E.
  - change "{ }" with ("{" ++ " " ++ "}")%string in E. injection E as E. change (String " " "}") with (" " ++ "}")%string in E. apply app_last_inj in E.
    exfalso. eapply (concat_not_blank (map int_string (a :: s))); [discriminate|apply C|]. apply E.
  - apply concat_inj; [discriminate|discriminate|apply C..|]. cbn [append] in E. injection E as E. apply app_last_inj in E. apply E.
Qed.

(** ** Tensors *)
Section Tensor.
Context {V : Type}.
Variable fmt : V -> string.
Lemma read_at_ok (h : heap V) b o c index v : live h b c -> nth_error c (o + index) = Some v -> read_at h (Some (b, o)) index = Ok v.
Proof.
  intros L E. unfold read_at. assert (o + index < length c) by (apply nth_error_Some; congruence).
  rewrite (load_in_bounds h b (o + index) c 1 L) by lia. cbn [bind].
  rewrite (skipn_nth_error _ _ _ E). reflexivity.
Qed.
Lemma tensor_loop_ok (h : heap V) b o c : live h b c -> forall k index, o + index + k <= length c ->
  tensor_loop fmt h (Some (b, o)) k index = Ok (cats (map (fun y => y ++ ", ")%string (map fmt (firstn k (skipn (o + index) c))))).
Proof.
  intros L. induction k as [|k IH]; intros index H; [reflexivity|]. cbn [tensor_loop].
  destruct (nth_error c (o + index)) as [v|] eqn:E; [|apply nth_error_None in E; lia].
  rewrite (read_at_ok _ _ _ _ _ _ L E). cbn [bind]. rewrite IH by lia. cbn [bind]. rewrite (skipn_nth_error _ _ _ E).
  replace (S (o + index)) with (o + S index) by lia. cbn [firstn map cats]. rewrite sapp_assoc. reflexivity.
Qed.
Lemma printed (h : heap V) x : reachable h -> accessible h x -> exists vs, contents h x = Ok vs /\ print_tensor fmt h x = Ok (numbers_text (map fmt vs)).
Proof.
  intros R A. pose proof (reachable_wf h R) as W. destruct A as (k & d & D & A').
  pose proof (accessible_in_bounds h x k d W (ex_intro _ k (ex_intro _ d (conj D A'))) D) as B.
  unfold contents, print_tensor. rewrite (proj2 (var_desc_Ok h x k d) D). cbn [bind].
  pose proof (dw_range h d (wf_descs h W k d (proj2 D))) as RG.
  destruct (Z.eqb_spec (d_total d) 0) as [E|N]; [rewrite E; exists []; auto|].
  destruct B as [B|(b & o & c & E & L & IB)]; [congruence|]. rewrite E.
  set (n := Z.to_nat (d_total d)) in *. assert (0 < n) by (unfold n; lia).
  exists (firstn n (skipn o c)). split; [apply load_in_bounds; auto|].
  rewrite (tensor_loop_ok _ _ _ _ L) by lia. cbn [bind].
  destruct (nth_error c (o + (n - 1))) as [v|] eqn:Ev; [|apply nth_error_None in Ev; lia].
  rewrite (read_at_ok _ _ _ _ _ _ L Ev). cbn [bind]. rewrite Nat.add_0_r. f_equal.
  assert (X : firstn n (skipn o c) = firstn (n - 1) (skipn o c) ++ [v]).
  { replace n with (n - 1 + 1) at 1 by lia. clear -Ev. revert o Ev. induction (n - 1) as [|k IH]; intros o Ev.
    - rewrite Nat.add_0_r in Ev. rewrite (skipn_nth_error _ _ _ Ev). reflexivity.
    - destruct (nth_error c o) as [u|] eqn:Eu.
      + rewrite (skipn_nth_error _ _ _ Eu). cbn [Nat.add firstn app]. f_equal. apply IH. rewrite <- Ev. f_equal. lia.
      + exfalso. apply nth_error_None in Eu. assert (o + S k < length c) by (apply nth_error_Some; congruence). lia. }
  rewrite X, map_app. cbn [map]. unfold numbers_text. destruct (map fmt (firstn (n - 1) (skipn o c)) ++ [fmt v]) eqn:Y; [destruct (map fmt _); discriminate|].
  rewrite <- Y, concat_last, sapp_assoc. reflexivity.
Qed.
End Tensor.

(** ** Missing placeholders *)
Section Missing.
Context {F : Type}.
Variable c : config F.
Lemma out_all_throw {A} (f : A -> res string) l : (forall a, In a l -> f a <> UB) -> (exists a, In a l /\ f a = Throw) -> out_all f l = Throw.
Proof.
  intros N (a & H & E). induction l as [|b l IH]; [destruct H|]. cbn [out_all]. destruct (f b) eqn:Eb; cbn [bind].
  - destruct H as [->|H]; [congruence|]. rewrite IH; [reflexivity|intros; apply N; right; assumption|exact H].
  - reflexivity.
  - exfalso. exact (N b (or_introl eq_refl) Eb).
Qed.
Lemma out_all_no_ub {A} (f : A -> res string) l : (forall a, In a l -> f a <> UB) -> out_all f l <> UB.
Proof.
  induction l as [|b l IH]; intros N; [discriminate|]. cbn [out_all]. destruct (f b) eqn:Eb; cbn [bind]; [|discriminate|exfalso; exact (N b (or_introl eq_refl) Eb)].
  destruct (out_all f l) eqn:E; cbn [bind]; try discriminate. exfalso. apply IH; [intros; apply N; right; assumption|reflexivity].
Qed.
Lemma at_id_missing {A} (m : list (Z * A)) k : ~ In k (map fst m) -> at_id m k = Throw.
Proof.
  unfold at_id. induction m as [|[k' v] m IH]; intros N; [reflexivity|]. cbn [find_id]. destruct (Z.eqb_spec k' k) as [->|_]; [exfalso; apply N; left; reflexivity|].
  apply IH. intros H. apply N. right. exact H.
Qed.
Lemma at_id_no_ub {A} (m : list (Z * A)) k : at_id m k <> UB.
Proof. unfold at_id. destruct (find_id m k); discriminate. Qed.
Lemma dot_in_no_ub o it : dot_in c o it <> UB.
Proof. destruct it as [p k]. unfold dot_in. pose proof (at_id_no_ub (c_ph c) k). destruct (at_id (c_ph c) k); cbn [bind]; congruence. Qed.
Lemma dot_out_no_ub o it : dot_out c o it <> UB.
Proof. destruct it as [p k]. unfold dot_out. pose proof (at_id_no_ub (c_ph c) k). destruct (at_id (c_ph c) k); cbn [bind]; congruence. Qed.
Lemma in_indexed {A} (l : list A) k : In k l -> exists p, In (p, k) (indexed l).
Proof.
  unfold indexed. generalize 0. induction l as [|a l IH]; intros n H; [destruct H|]. cbn [length seq combine].
  destruct H as [->|H]; [exists n; left; reflexivity|]. destruct (IH (S n) H) as (p & Hp). exists p. right. exact Hp.
Qed.
Lemma dot_edges_no_ub o : dot_edges c o <> UB.
Proof.
  unfold dot_edges. pose proof (out_all_no_ub (dot_in c o) (indexed (oi_in o)) (fun a _ => dot_in_no_ub o a)).
  pose proof (out_all_no_ub (dot_out c o) (indexed (oi_out o)) (fun a _ => dot_out_no_ub o a)).
  destruct (out_all (dot_in c o) _); cbn [bind]; try congruence. destruct (out_all (dot_out c o) _); cbn [bind]; congruence.
Qed.
Lemma missing_throws o k : In o (c_ops c) -> In k (oi_in o ++ oi_out o) -> ~ In k (map fst (c_ph c)) -> save_dot c = Throw.
Proof.
  intros Ho Hk N. unfold save_dot.
  assert (E1 : exists a, out_all dot_ph (c_ph c) = Ok a).
  { clear. induction (c_ph c) as [|e l (a & E)]; [eexists; reflexivity|]. cbn [out_all]. unfold dot_ph at 1. rewrite print_shape_ok. cbn [bind]. rewrite E. eexists. reflexivity. }
  destruct E1 as (a & ->). cbn [bind].
  assert (E2 : exists a, out_all dot_op (c_ops c) = Ok a).
  { clear. induction (c_ops c) as [|e l (a & E)]; [eexists; reflexivity|]. cbn [out_all]. unfold dot_op at 1. cbn [bind]. rewrite E. eexists. reflexivity. }
  destruct E2 as (b & ->). cbn [bind]. rewrite out_all_throw; [reflexivity|intros; apply dot_edges_no_ub|]. exists o. split; [exact Ho|].
  unfold dot_edges. apply in_app_or in Hk. destruct Hk as [Hk|Hk]; destruct (in_indexed _ _ Hk) as (p & Hp).
  - rewrite out_all_throw; [reflexivity|intros; apply dot_in_no_ub|]. exists (p, k). split; [exact Hp|]. unfold dot_in. rewrite (at_id_missing _ _ N). reflexivity.
  - pose proof (out_all_no_ub (dot_in c o) (indexed (oi_in o)) (fun a _ => dot_in_no_ub o a)).
    destruct (out_all (dot_in c o) _); cbn [bind]; [|reflexivity|congruence].
    rewrite out_all_throw; [reflexivity|intros; apply dot_out_no_ub|]. exists (p, k). split; [exact Hp|]. unfold dot_out. rewrite (at_id_missing _ _ N). reflexivity.
Qed.
End Missing.
