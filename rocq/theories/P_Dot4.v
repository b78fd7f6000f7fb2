(** Proofs for C62: the drawing of a model. *)
From Coq Require Import Reals String Ascii Lia Permutation.
From Verif Require Import Base BaseFacts M_Tensor M_Optim M_Nn M_Graph M_Model M_Dot S_Graph S_Saved S_Dot P_Graph P_Graph2 P_Nn P_Model P_Model2 P_Dot P_Dot2 P_Dot3.
Local Open Scope string_scope.
Local Open Scope list_scope.
Open Scope nat_scope.

Lemma digits_all n : all_chars digit (to_string n) = true.
Proof.
  unfold to_string. destruct (Nat.to_uint n); try reflexivity; unfold DecimalString.NilZero.string_of_uint; apply uint_all.
Qed.
Lemma generated_drawable t k j : layer_table t = Some k -> drawable (lower t ++ to_string j)%string.
Proof.
  intros H. assert (D : all_chars (fun c => letter c || digit c) (to_string j) = true).
  { eapply all_chars_impl; [|apply digits_all]. intros c ->. apply Bool.orb_true_r. }
  unfold layer_table in H.
  repeat match type of H with (if String.eqb ?a ?b then _ else _) = _ => destruct (String.eqb_spec a b) as [->|_];
    [clear H; split; [|intros id E; discriminate E]|] end; [..|discriminate H].
  all: match goal with |- identifier (?x ++ ?y)%string = true =>
    let v := eval vm_compute in x in change x with v end.
  all: cbn [append identifier]; apply andb_true_intro; split; [|reflexivity]; apply andb_true_intro; split; [reflexivity|].
  all: cbn [all_chars]; rewrite D; reflexivity.
Qed.
Lemma type_quotable t k : layer_table t = Some k -> quotable t = true.
Proof.
  unfold layer_table. intros H.
  repeat match type of H with (if String.eqb ?a ?b then _ else _) = _ => destruct (String.eqb_spec a b) as [->|_]; [reflexivity|] end. discriminate H.
Qed.

(** ** The drawing of any configuration *)
Definition edges_at (n : string) (i o : list Z) : list (string * string * list (string * string)) :=
  map (fun '(port, k) => in_edge k n port) (indexed i) ++ map (fun '(port, k) => out_edge n k port) (indexed o).
Lemma nodes_app a b : nodes_of (a ++ b) = nodes_of a ++ nodes_of b.
Proof. apply flat_map_app. Qed.
Lemma edges_app a b : edges_of (a ++ b) = edges_of a ++ edges_of b.
Proof. apply flat_map_app. Qed.
Section Described.
Context {F : Type}.
Variable c : config F.
Hypothesis SAME : Forall (fun e => snd (snd e) = fst e) (c_ph c).
Lemma recorded_same k : recorded_as c k = k.
Proof.
  unfold recorded_as. revert SAME. generalize (c_ph c). induction l as [|[k' [s id]] l IH]; intros H; [reflexivity|]. inversion H; subst. cbn [find_id].
  destruct (Z.eqb_spec k' k) as [->|_]; [assumption|apply IH; assumption].
Qed.
Lemma nodes_described : nodes_of (describe c) = map (fun '(_, (s, id)) => ph_node id s) (c_ph c) ++ map (fun o => op_node (oi_name o) (oi_type o)) (c_ops c).
Proof.
  unfold describe. change (SSet "rankdir" "LR" :: ?l) with ([SSet "rankdir" "LR"] ++ l). rewrite !nodes_app. cbn [nodes_of flat_map app].
  f_equal; [|rewrite <- (app_nil_r (map (fun o => op_node _ _) _)); f_equal].
  - induction (c_ph c) as [|[k [s id]] l IH]; [reflexivity|]. cbn [map nodes_of flat_map ph_node app]. f_equal. apply IH. inversion SAME; assumption.
  - induction (c_ops c) as [|o l IH]; [reflexivity|]. cbn [map nodes_of flat_map op_node app]. f_equal. apply IH.
  - induction (c_ops c) as [|o l IH]; [reflexivity|]. cbn [flat_map]. rewrite !nodes_app, IH.
    assert (X : forall (l : list (nat * Z)) f, (forall a, nodes_of [f a] = []) -> nodes_of (map f l) = []).
    { intros l0 f Hf. induction l0 as [|a l0 IH0]; [reflexivity|]. change (map f (a :: l0)) with ([f a] ++ map f l0). rewrite nodes_app, Hf, IH0. reflexivity. }
    rewrite !X; [reflexivity|intros [? ?]; reflexivity..].
Qed.
Lemma edges_described : edges_of (describe c) = flat_map (fun o => edges_at (oi_name o) (oi_in o) (oi_out o)) (c_ops c).
Proof.
  unfold describe. change (SSet "rankdir" "LR" :: ?l) with ([SSet "rankdir" "LR"] ++ l). rewrite !edges_app. cbn [edges_of flat_map app].
  replace (edges_of (map _ (c_ph c))) with (@nil (string * string * list (string * string))).
  2:{ clear. induction (c_ph c) as [|[k [s id]] l IH]; [reflexivity|]. cbn [map edges_of flat_map ph_node app]. exact IH. }
  replace (edges_of (map _ (c_ops c))) with (@nil (string * string * list (string * string))).
  2:{ clear. induction (c_ops c) as [|o l IH]; [reflexivity|]. cbn [map edges_of flat_map op_node app]. exact IH. }
  cbn [app]. pose proof recorded_same as RS. clear SAME. induction (c_ops c) as [|o l IH]; [reflexivity|]. cbn [flat_map]. rewrite !edges_app, IH. f_equal. unfold edges_at. f_equal.
  - clear -RS. induction (indexed (oi_in o)) as [|[p k] l IH]; [reflexivity|]. cbn [map edges_of flat_map in_edge app]. rewrite RS. f_equal. apply IH.
  - clear -RS. induction (indexed (oi_out o)) as [|[p k] l IH]; [reflexivity|]. cbn [map edges_of flat_map out_edge app]. rewrite RS. f_equal. apply IH.
Qed.
End Described.

Lemma indexed_nth {A} (l : list A) p k : In (p, k) (indexed l) <-> nth_error l p = Some k.
Proof.
  unfold indexed.
  assert (X : forall n, In (n + p, k) (combine (seq n (length l)) l) <-> nth_error l p = Some k).
  { revert p. induction l as [|a l IH]; intros p n; cbn [length seq combine]; [destruct p; split; [intros []|discriminate|intros []|discriminate]|].
    destruct p as [|p]; cbn [nth_error].
    - rewrite Nat.add_0_r. split; [intros [E|H]; [congruence|]|intros E; left; congruence].
      apply in_combine_l in H. apply in_seq in H. lia.
    - rewrite <- (IH p (S n)). replace (n + S p) with (S n + p) by lia. split; [intros [E|H]; [injection E; lia|exact H]|intros H; right; exact H]. }
  apply (X 0).
Qed.
Lemma indexed_NoDup {A} (l : list A) : NoDup (map fst (indexed l)).
Proof.
  unfold indexed. replace (map fst (combine (seq 0 (length l)) l)) with (seq 0 (length l)); [apply seq_NoDup|].
  generalize 0. induction l as [|a l IH]; intros n; [reflexivity|]. cbn. f_equal. apply IH.
Qed.
Lemma NoDup_map_of {A B C} (f : A -> B) (g : A -> C) l : NoDup (map g l) -> (forall a b, f a = f b -> g a = g b) -> NoDup (map f l).
Proof.
  intros H I. induction l as [|a l IH]; [constructor|]. cbn in *. inversion H as [|? ? N D]; subst. constructor; [|apply IH, D].
  intros X. apply N. apply in_map_iff in X. destruct X as (b & E & Hb). apply in_map_iff. exists b. split; [apply I, E|exact Hb].
Qed.
Lemma NoDup_both {A} (l1 l2 : list A) : NoDup l1 -> NoDup l2 -> (forall x, In x l1 -> In x l2 -> False) -> NoDup (l1 ++ l2).
Proof.
  induction 1 as [|a l1 N D IH]; intros H2 X; [exact H2|]. cbn. constructor.
  - intros Y. apply in_app_or in Y. destruct Y as [Y|Y]; [exact (N Y)|]. eapply X; [left; reflexivity|exact Y].
  - apply IH; [exact H2|]. intros x Hx. apply X. right. exact Hx.
Qed.

Lemma edges_at_NoDup n i o : drawable n -> NoDup (edges_at n i o).
Proof.
  intros D. apply NoDup_both.
  - apply (NoDup_map_of _ fst); [apply indexed_NoDup|]. intros [p a] [q b] E. cbn. injection E as _ E. apply int_string_inj in E. lia.
  - apply (NoDup_map_of _ fst); [apply indexed_NoDup|]. intros [p a] [q b] E. cbn. injection E as _ E. apply int_string_inj in E. lia.
  - intros x H1 H2. apply in_map_iff in H1. destruct H1 as ([p a] & <- & _). apply in_map_iff in H2. destruct H2 as ([q b] & E & _).
    unfold in_edge, out_edge in E. injection E as E _ _. exact (proj2 D _ E).
Qed.
Lemma edges_NoDup (l : list (string * (list Z * list Z))) : NoDup (map fst l) -> Forall (fun e => drawable (fst e)) l ->
  NoDup (flat_map (fun e => edges_at (fst e) (fst (snd e)) (snd (snd e))) l).
Proof.
  induction l as [|[n [i o]] l IH]; intros N D; [constructor|]. cbn [flat_map fst snd]. inversion N; inversion D; subst. cbn in *.
  apply NoDup_both; [apply edges_at_NoDup; assumption|apply IH; assumption|].
  intros x X1 X2. apply in_flat_map in X2. destruct X2 as ([n' [i' o']] & Hl & X2). cbn [fst snd] in X2.
  assert (D' : drawable n') by (match goal with H : Forall _ l |- _ => exact (proj1 (Forall_forall _ _) H _ Hl) end).
  assert (NE : n' <> n). { intros ->. match goal with H : ~ In n _ |- _ => apply H end. apply in_map_iff. exists (n, (i', o')). auto. }
  assert (DN : drawable n) by assumption.
  apply in_app_or in X1. apply in_app_or in X2.
  destruct X1 as [X1|X1], X2 as [X2|X2]; apply in_map_iff in X1, X2; destruct X1 as ([p a] & <- & _), X2 as ([q b] & E & _); unfold in_edge, out_edge in E; injection E as E1 E2 E3.
  - congruence.
  - apply (proj2 D' a E1).
  - apply (proj2 DN b). congruence.
  - congruence.
Qed.

(** ** Models *)
Fixpoint place_of (l : list nat) (d : nat) : nat := match l with [] => 0 | a :: t => if Nat.eqb a d then 0 else S (place_of t d) end.
Lemma place_nth l d : In d l -> nth_error l (place_of l d) = Some d.
Proof.
  induction l as [|a t IH]; intros H; [destruct H|]. cbn. destruct (Nat.eqb_spec a d) as [->|N]; [reflexivity|]. destruct H as [H|H]; [congruence|]. apply IH, H.
Qed.
Lemma place_unique l d i : NoDup l -> nth_error l i = Some d -> place_of l d = i.
Proof.
  intros N E. assert (H : In d l) by (eapply nth_error_In, E). apply place_nth in H.
  eapply (proj1 (NoDup_nth_error l) N); [apply nth_error_Some; congruence|congruence].
Qed.

Section Model.
Variable es : estore.
Variable order : graph -> list gnode.
Variable ins outs : list nat.
Variable g : graph.
Hypothesis BU : built es.
Hypothesis VO : Forall (fun d => d < length (es_ph es)) outs.
Hypothesis BG : build (es_ph es) ins outs = Ok g.
Hypothesis TO : is_topo g (order g).
Variable es' : estore.
Variable m : model.
Hypothesis CM : construct_model order ins outs es = RVal es' m.
Hypothesis NAMES : forall p s i args, needed (es_ph es) outs p -> nth_error (es_ph es) p = Some (mkPh s (Some (i, args))) ->
  name_in es i = "" \/ drawable (name_in es i).
Variable c : config R.
Hypothesis IT : iterated (m_cfg m) c.

Let N := map fst (m_data m).
Let ops := m_ops m.
Let ND : NoDup N := proj1 (data_complete es order ins outs g BU VO BG TO es' m CM).
Let NN : forall d, In d N <-> needed (es_ph es) outs d := proj1 (proj2 (data_complete es order ins outs g BU VO BG TO es' m CM)).
Let OO : forall d, In d (map mo_ph ops) <-> needed (es_ph es) outs d /\ exists args, call (es_ph es) d args :=
  proj2 (proj2 (proj2 (data_complete es order ins outs g BU VO BG TO es' m CM))).
Definition name_at (o : mop) : string := op_name (es_info es') o.
Definition type_at (o : mop) : string := li_type (info_at (es_info es') o).

(** An operation: its call and its layer. *)
Lemma op_at o : In o ops -> exists s args k, needed (es_ph es) outs (mo_ph o) /\ nth_error (es_ph es) (mo_ph o) = Some (mkPh s (Some (mo_info o, args))) /\
  nth_error (es_info es') (mo_info o) = Some (info_at (es_info es') o) /\ visits (es_ph es) outs (mo_ph o) = S k /\
  mo_in o = map (place_of N) args ++ repeat 0 (k * length args) /\ mo_out o = place_of N (mo_ph o) :: repeat 0 k.
Proof.
  intros H. destruct (recorded_ids es order ins outs g BU VO BG TO es' m CM o H) as (args & k & ids & i & ne & (s & j & E) & V & F2 & NB & I1 & I2).
  destruct (model_facts es order ins outs g BU VO BG TO es' m CM) as (mops & _ & _ & _ & _ & _ & EM & F & _ & _ & _ & IO & _).
  fold ops in EM. subst mops.
  assert (X : info_of (es_ph es) (mo_ph o) = Ok (mo_info o)).
  { clear -F H. fold ops in H. induction F as [|d o' l l' I _ IH]; [destruct H|]. destruct H as [<-|H]; [destruct I as (-> & I & _); exact I|apply IH, H]. }
  unfold info_of, rd in X. rewrite E in X. cbn in X. injection X as X. subst j.
  exists s, args, k. split; [exact ne|]. split; [exact E|]. split; [apply IO, H|]. split; [exact V|]. split.
  - rewrite I1. f_equal. clear -F2 ND. induction F2 as [|a q l l' Hq _ IH]; [reflexivity|]. cbn [map]. f_equal; [|exact IH]. symmetry. apply place_unique; [exact ND|exact Hq].
  - rewrite I2. f_equal. symmetry. apply place_unique; [exact ND|exact NB].
Qed.
Lemma ops_cfg : map (fun o => (oi_name o, (oi_type o, (oi_in o, oi_out o)))) (c_ops c) =
  map (fun o => (name_at o, (type_at o, (map Z.of_nat (mo_in o), map Z.of_nat (mo_out o))))) ops.
Proof.
  destruct (model_facts es order ins outs g BU VO BG TO es' m CM) as (mops & _ & _ & _ & _ & _ & EM & _ & _ & _ & _ & _ & _ & _ & _ & _ & _ & _ & _ & _ & EC).
  fold ops in EM. subst mops. destruct IT as (_ & _ & _ & F). rewrite EC in F. cbn [config_of c_ops] in F.
  clear -F. revert F. generalize (c_ops c). induction ops as [|o l IH]; intros l' F; inversion F as [|? o' ? l2 (E1 & E2 & E3 & E4 & _) F']; subst; [reflexivity|].
  cbn [map]. rewrite E1, E2, E3, E4. cbn [oi_name oi_type oi_in oi_out]. f_equal. apply IH, F'.
Qed.
Lemma ph_cfg e : In e (c_ph c) <-> exists p n, needed (es_ph es) outs p /\ nth_error (es_ph es) p = Some n /\
  e = (Z.of_nat (place_of N p), (ph_shape n, Z.of_nat (place_of N p))).
Proof.
  destruct (model_facts es order ins outs g BU VO BG TO es' m CM) as (mops & _ & _ & _ & _ & _ & EM & _ & _ & _ & _ & _ & _ & ED & _ & _ & _ & _ & _ & _ & EC).
  rewrite <- ED in EC. destruct IT as (_ & _ & PE & _). rewrite EC in PE. cbn [config_of c_ph] in PE.
  transitivity (In e (map (fun '(i, (d, _)) => (Z.of_nat i, (shape_at (es_ph es) d, Z.of_nat i))) (combine (seq 0 (length (m_data m))) (m_data m)))).
  { split; apply Permutation_in; [apply Permutation_sym|]; exact PE. }
  assert (VA : forall p, needed (es_ph es) outs p -> exists n, nth_error (es_ph es) p = Some n).
  { intros p Hp. destruct (nth_error (es_ph es) p) as [n|] eqn:E; [eauto|]. apply nth_error_None in E.
    assert (p < length (es_ph es)); [|lia]. eapply needed_lt; [|apply store_links_back, built_ok, BU|exact Hp]. exact (proj1 (Forall_forall _ _) VO). }
  rewrite in_map_iff. split.
  - intros ([i [d s]] & <- & H). change (In (i, (d, s)) (indexed (m_data m))) in H. apply indexed_nth in H.
    assert (H' : nth_error N i = Some d) by (unfold N; rewrite nth_error_map, H; reflexivity).
    assert (Hp : needed (es_ph es) outs d) by (apply NN; eapply nth_error_In, H'). destruct (VA d Hp) as (n & E).
    exists d, n. split; [exact Hp|]. split; [exact E|]. rewrite (place_unique N d i ND H'). unfold shape_at. rewrite E. reflexivity.
  - intros (p & n & Hp & E & ->). apply NN, place_nth in Hp. unfold N in Hp at 1. rewrite nth_error_map in Hp.
    destruct (nth_error (m_data m) (place_of N p)) as [[d s]|] eqn:E2; [|discriminate]. cbn in Hp. injection Hp as ->.
    exists (place_of N p, (p, s)). split; [unfold shape_at; rewrite E; reflexivity|].
    change (In (place_of N p, (p, s)) (indexed (m_data m))). apply indexed_nth. exact E2.
Qed.
Lemma names_distinct : NoDup (map name_at ops).
Proof.
  destruct (model_facts es order ins outs g BU VO BG TO es' m CM) as (mops & _ & NI & _ & _ & _ & EM & _ & _ & _ & _ & _ & EN & _).
  fold ops in EM. subst mops. rewrite <- EN in NI. exact NI.
Qed.
Lemma names_drawable o : In o ops -> drawable (name_at o) /\ quotable (type_at o) = true.
Proof.
  intros H. destruct (model_facts es order ins outs g BU VO BG TO es' m CM) as (mops & _ & _ & _ & _ & _ & EM & F & EI & RN & FI & IO & EN & _).
  fold ops in EM. subst mops. destruct (op_at o H) as (s & args & kk & ne & Ep & Ei & _).
  destruct (IO o H) as [_ OK]. destruct (io_kind _ OK) as (k & am & nm & CO & TK).
  split; [|eapply type_quotable, TK].
  destruct (nth_error (es_info es) (mo_info o)) as [li|] eqn:E.
  2:{ apply nth_error_None in E. assert (X : mo_info o < length (es_info es')) by (apply nth_error_Some; congruence).
      assert (L : length (es_info es) = length (es_info es')) by (clear -RN; induction RN; cbn; congruence). lia. }
  pose proof (FI _ _ E) as E2. rewrite Ei in E2. injection E2 as E2.
  destruct (NAMES _ _ _ _ ne Ep) as [Z|D].
  - unfold name_in in Z. rewrite E in Z. unfold name_at, op_name. rewrite E2. unfold final_info. rewrite Z, String.eqb_refl.
    assert (IU : In (mo_info o) (used_layers es (order g))) by (rewrite <- EI; apply in_map, H).
    apply index_of_In in IU. destruct IU as (j & ->). cbn [rename li_name Nat.add]. eapply generated_drawable.
    assert (T : li_type (final_info 0 (used_layers es (order g)) (mo_info o) li) = li_type li).
    { unfold final_info. destruct (String.eqb (li_name li) ""); [|reflexivity]. destruct (index_of (mo_info o) _); reflexivity. }
    rewrite E2, T in TK. exact TK.
  - unfold name_in in D. rewrite E in D. unfold name_at, op_name. rewrite E2. unfold final_info. destruct (String.eqb_spec (li_name li) "") as [Z|_]; [|exact D].
    rewrite Z in D. destruct D as [D _]. discriminate D.
Qed.

Lemma cfg_ops o' : In o' (c_ops c) -> exists o, In o ops /\ oi_name o' = name_at o /\ oi_type o' = type_at o /\
  oi_in o' = map Z.of_nat (mo_in o) /\ oi_out o' = map Z.of_nat (mo_out o).
Proof.
  intros H. apply (in_map (fun o => (oi_name o, (oi_type o, (oi_in o, oi_out o))))) in H. rewrite ops_cfg in H. apply in_map_iff in H.
  destruct H as (o & E & Ho). injection E as E1 E2 E3 E4. exists o. auto.
Qed.
Lemma cfg_same : Forall (fun e => snd (snd e) = fst e) (c_ph c).
Proof. apply Forall_forall. intros e He. apply ph_cfg in He. destruct He as (p & n & _ & _ & ->). reflexivity. Qed.
Lemma valid_ph p : needed (es_ph es) outs p -> exists n, nth_error (es_ph es) p = Some n.
Proof.
  intros Hp. destruct (nth_error (es_ph es) p) as [n|] eqn:E; [eauto|]. apply nth_error_None in E.
  assert (p < length (es_ph es)); [|lia]. eapply needed_lt; [|apply store_links_back, built_ok, BU|exact Hp]. exact (proj1 (Forall_forall _ _) VO).
Qed.
Lemma described : exists text, save_dot c = Ok text /\ read_dot text = Some ("Deepworks_model", describe c).
Proof.
  apply saved_as_described.
  - apply Forall_forall. intros e He. apply ph_cfg in He. destruct He as (p & n & _ & _ & ->). cbn. lia.
  - apply Forall_forall. intros o' Ho. destruct (cfg_ops o' Ho) as (o & Hi & -> & -> & _). destruct (names_drawable o Hi) as [[D _] Q]. auto.
  - intros o' k Ho Hk. destruct (cfg_ops o' Ho) as (o & Hi & _ & _ & E1 & E2). rewrite E1, E2 in Hk. destruct (op_at o Hi) as (s & args & kk & ne & Ep & _ & _ & M1 & M2).
    rewrite M1, M2 in Hk.
    assert (X : exists p, needed (es_ph es) outs p /\ k = Z.of_nat (place_of N p)).
    { assert (ZE : exists p, needed (es_ph es) outs p /\ 0 = place_of N p).
      { assert (L : In (mo_ph o) N) by (apply NN, ne). destruct (nth_error N 0) as [p0|] eqn:E0.
        - exists p0. split; [apply NN; eapply nth_error_In, E0|]. symmetry. apply place_unique; [exact ND|exact E0].
        - apply nth_error_None in E0. apply In_nth_error in L. destruct L as (q & L). assert (q < length N) by (apply nth_error_Some; congruence). lia. }
      apply in_app_or in Hk. rewrite map_app in Hk. destruct Hk as [Hk|Hk].
      - apply in_app_or in Hk. destruct Hk as [Hk|Hk].
        + rewrite map_map in Hk. apply in_map_iff in Hk. destruct Hk as (a & <- & Ha). exists a. split; [|reflexivity]. eapply need_arg; [exact ne|eexists _, _; exact Ep|exact Ha].
        + apply in_map_iff in Hk. destruct Hk as (a & <- & Ha). apply repeat_spec in Ha. subst a. destruct ZE as (p & Hp & ->). eauto.
      - destruct Hk as [<-|Hk]; [exists (mo_ph o); auto|]. apply in_map_iff in Hk. destruct Hk as (a & <- & Ha). apply repeat_spec in Ha. subst a. destruct ZE as (p & Hp & ->). eauto. }
    destruct X as (p & Hp & ->). destruct (valid_ph p Hp) as (n & E).
    apply in_map_iff. exists (Z.of_nat (place_of N p), (ph_shape n, Z.of_nat (place_of N p))). split; [reflexivity|]. apply ph_cfg. eauto.
Qed.
Lemma edges_cfg : edges_of (describe c) = flat_map (fun o => edges_at (name_at o) (map Z.of_nat (mo_in o)) (map Z.of_nat (mo_out o))) ops.
Proof.
  rewrite (edges_described c cfg_same). rewrite !flat_map_concat_map. f_equal.
  transitivity (map (fun e => edges_at (fst e) (fst (snd (snd e))) (snd (snd (snd e)))) (map (fun o => (oi_name o, (oi_type o, (oi_in o, oi_out o)))) (c_ops c))); [rewrite map_map; reflexivity|].
  rewrite ops_cfg, map_map. reflexivity.
Qed.
(** Every call is an operation. *)
Lemma call_op p s i args li : needed (es_ph es) outs p -> nth_error (es_ph es) p = Some (mkPh s (Some (i, args))) -> nth_error (es_info es') i = Some li ->
  exists o k, In o ops /\ mo_ph o = p /\ name_at o = li_name li /\ type_at o = li_type li /\ visits (es_ph es) outs p = S k /\
    mo_in o = map (place_of N) args ++ repeat 0 (k * length args) /\ mo_out o = place_of N p :: repeat 0 k.
Proof.
  intros Hp Ep Ei. assert (X : In p (map mo_ph ops)) by (apply OO; split; [exact Hp|exists args, s, i; exact Ep]).
  apply in_map_iff in X. destruct X as (o & <- & Ho). destruct (op_at o Ho) as (s2 & args2 & k & _ & Ep2 & Ei2 & V & M1 & M2). rewrite Ep in Ep2. injection Ep2 as -> -> ->.
  rewrite Ei in Ei2. injection Ei2 as ->. exists o, k. unfold name_at, type_at, op_name. split; [exact Ho|]. split; [reflexivity|]. split; [reflexivity|]. split; [reflexivity|]. auto.
Qed.

(** A call visited again has arrows for ports it does not have. *)
Lemma drawn_extra p s i args li k : needed (es_ph es) outs p -> nth_error (es_ph es) p = Some (mkPh s (Some (i, args))) -> nth_error (es_info es') i = Some li ->
  visits (es_ph es) outs p = S k -> forall port, length args <= port < S k * length args -> In (in_edge 0 (li_name li) port) (edges_of (describe c)).
Proof.
  intros Hp Ep Ei V port HP. destruct (call_op p s i args li Hp Ep Ei) as (o & k2 & Ho & _ & EN & _ & V2 & M1 & M2). rewrite V in V2. injection V2 as <-.
  rewrite edges_cfg. apply in_flat_map. exists o. split; [exact Ho|]. rewrite EN. apply in_or_app. left. apply in_map_iff. exists (port, 0%Z). split; [reflexivity|].
  apply indexed_nth. rewrite M1, nth_error_map, nth_error_app2; rewrite map_length; [|lia].
  rewrite (nth_error_nth' _ 0) by (rewrite repeat_length; cbn in HP; lia). rewrite nth_repeat. reflexivity.
Qed.

Hypothesis ONCE : forall d, needed (es_ph es) outs d -> visits (es_ph es) outs d = 1.

Theorem drawn : exists text, save_dot c = Ok text /\ exists l, read_dot text = Some ("Deepworks_model", l) /\
  draws (es_ph es) (es_info es') outs (place_of N) l.
Proof.
  destruct described as (text & S & RD). exists text. split; [exact S|]. exists (describe c). split; [exact RD|]. clear text S RD.
  assert (ON : map (fun o => op_node (oi_name o) (oi_type o)) (c_ops c) = map (fun o => op_node (name_at o) (type_at o)) ops).
  { transitivity (map (fun e => op_node (fst e) (fst (snd e))) (map (fun o => (oi_name o, (oi_type o, (oi_in o, oi_out o)))) (c_ops c))); [rewrite map_map; reflexivity|].
    rewrite ops_cfg, map_map. reflexivity. }
  pose proof edges_cfg as EO. pose proof (nodes_described c cfg_same) as NO. rewrite ON in NO.
  constructor.
  + intros p q Hp Hq E. apply NN, place_nth in Hp. apply NN, place_nth in Hq. rewrite E in Hp. congruence.
  + intros x. rewrite NO, in_app_iff. split.
    * intros [H|H]; apply in_map_iff in H.
      -- left. destruct H as ([k [s id]] & <- & He). apply ph_cfg in He. destruct He as (p & n & Hp & E & E2). injection E2 as -> -> ->. eauto 6.
      -- right. destruct H as (o & <- & Ho). destruct (op_at o Ho) as (s & args & k & ne & Ep & Ei & _). exists (mo_ph o), s, (mo_info o), args, (info_at (es_info es') o). auto.
    * intros [(p & n & Hp & E & ->)|(p & s & i & args & li & Hp & Ep & Ei & ->)].
      -- left. apply in_map_iff. exists (Z.of_nat (place_of N p), (ph_shape n, Z.of_nat (place_of N p))). split; [reflexivity|]. apply ph_cfg. eauto.
      -- right. destruct (call_op _ _ _ _ _ Hp Ep Ei) as (o & k & Ho & _ & <- & <- & _). apply in_map_iff. eauto.
  + rewrite NO, map_app, !map_map. apply NoDup_both.
    * destruct (model_facts es order ins outs g BU VO BG TO es' m CM) as (mops & _ & _ & _ & _ & _ & EM & _ & _ & _ & _ & _ & _ & _ & _ & _ & _ & _ & _ & _ & EC).
      destruct IT as (_ & _ & PE & _). rewrite EC in PE. cbn [config_of c_ph] in PE.
      apply (NoDup_map_of _ (fun e => snd (snd e))).
      -- apply (Permutation_NoDup (Permutation_map (fun e => snd (snd e)) PE)). rewrite map_map. apply (NoDup_map_of _ fst); [apply indexed_NoDup|].
         intros [i [d s]] [j [d2 s2]] E. cbn in *. lia.
      -- intros [k [s id]] [k2 [s2 id2]] E. cbn in *. apply ph_name_inj. exact E.
    * pose proof names_distinct as NDi. erewrite map_ext; [exact NDi|]. reflexivity.
    * intros x H1 H2. apply in_map_iff in H1. destruct H1 as ([k [s id]] & <- & _). apply in_map_iff in H2. destruct H2 as (o & E & Ho). cbn in E.
      exact (proj2 (proj1 (names_drawable o Ho)) _ E).
  + intros x. rewrite EO, in_flat_map. split.
    * intros (o & Ho & H). destruct (op_at o Ho) as (s & args & k & ne & Ep & Ei & V & M1 & M2). rewrite (ONCE _ ne) in V. injection V as <-. cbn [Nat.mul repeat] in M1, M2. rewrite app_nil_r in M1.
      exists (mo_ph o), s, (mo_info o), args, (info_at (es_info es') o).
      split; [exact ne|]. split; [exact Ep|]. split; [exact Ei|]. apply in_app_or in H. rewrite M1, M2 in H. destruct H as [H|H]; apply in_map_iff in H; destruct H as ([port k] & <- & H); apply indexed_nth in H.
      -- right. rewrite map_map, nth_error_map in H. destruct (nth_error args port) as [a|] eqn:Ea; [|discriminate]. cbn in H. injection H as <-. exists port, a. auto.
      -- left. cbn [map] in H. destruct port as [|port]; [|destruct port; discriminate H]. injection H as <-. reflexivity.
    * intros (p & s & i & args & li & Hp & Ep & Ei & H). destruct (call_op _ _ _ _ _ Hp Ep Ei) as (o & k & Ho & _ & EN & _ & V & M1 & M2).
      rewrite (ONCE _ Hp) in V. injection V as <-. cbn [Nat.mul repeat] in M1, M2. rewrite app_nil_r in M1.
      rewrite <- EN in H. exists o. split; [exact Ho|]. apply in_or_app. rewrite M1, M2. destruct H as [->|(port & a & Ha & ->)].
      -- right. apply in_map_iff. exists (0, Z.of_nat (place_of N p)). split; [reflexivity|left; reflexivity].
      -- left. apply in_map_iff. exists (port, Z.of_nat (place_of N a)). split; [reflexivity|]. apply indexed_nth. rewrite map_map, nth_error_map, Ha. reflexivity.
  + rewrite EO.
    pose proof (edges_NoDup (map (fun o => (name_at o, (map Z.of_nat (mo_in o), map Z.of_nat (mo_out o)))) ops)) as X.
    rewrite map_map in X. rewrite flat_map_concat_map, map_map, <- flat_map_concat_map in X. cbn [fst snd] in X. apply X; [apply names_distinct|].
    apply Forall_map, Forall_forall. intros o Ho. apply (names_drawable o Ho).
Qed.
End Model.
