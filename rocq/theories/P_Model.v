(** Proofs about model construction: numbering, names, collections, configuration. *)
From Coq Require Import Reals String Ascii DecimalString ListDec Lia Decimal DecimalNat DecimalFacts.
From Verif Require Import Base BaseFacts M_Layers M_Optim P_Optim M_Nn M_Graph M_Model S_Graph P_Graph P_Graph2 P_Nn.
Local Open Scope string_scope.
Local Open Scope list_scope.
Open Scope nat_scope.

(** ** Strings *)
Lemma string_app_assoc a b c : ((a ++ b) ++ c = a ++ (b ++ c))%string.
Proof. induction a as [|x a IH]; cbn; [reflexivity|]. rewrite IH. reflexivity. Qed.
Lemma string_app_inv_l a b c : (a ++ b = a ++ c)%string -> b = c.
Proof. induction a as [|x a IH]; cbn; [auto|]. intros H. injection H as H. auto. Qed.

Fixpoint chars (s : string) : list ascii := match s with EmptyString => [] | String c t => c :: chars t end.
Lemma chars_app a b : chars (a ++ b)%string = chars a ++ chars b.
Proof. induction a as [|x a IH]; cbn; [reflexivity|]. rewrite IH. reflexivity. Qed.
Lemma chars_inj a b : chars a = chars b -> a = b.
Proof. revert b. induction a as [|x a IH]; intros [|y b] H; cbn in *; try discriminate; [reflexivity|]. injection H as -> H. rewrite (IH b H). reflexivity. Qed.

(** Splitting at the last element with a property. *)
Lemma last_split {A} (f : A -> bool) (l1 l2 r1 r2 : list A) x y :
  f x = true -> f y = true -> forallb (fun c => negb (f c)) r1 = true -> forallb (fun c => negb (f c)) r2 = true ->
  l1 ++ x :: r1 = l2 ++ y :: r2 -> l1 = l2 /\ x = y /\ r1 = r2.
Proof.
  intros Fx Fy F1 F2. revert l2. induction l1 as [|a l1 IH]; intros [|b l2] E; cbn in E.
  - injection E as -> ->. auto.
  - injection E as -> E. exfalso. rewrite E in F1. rewrite forallb_app in F1. apply andb_prop in F1. destruct F1 as [_ F1]. cbn in F1. rewrite Fy in F1. discriminate.
  - injection E as -> E. exfalso. rewrite <- E in F2. rewrite forallb_app in F2. apply andb_prop in F2. destruct F2 as [_ F2]. cbn in F2. rewrite Fx in F2. discriminate.
  - injection E as -> E. apply IH in E. destruct E as (-> & -> & ->). auto.
Qed.

Definition is_dot (c : ascii) : bool := Ascii.eqb c ".".
Lemma key_inj n1 n2 p1 p2 : forallb (fun c => negb (is_dot c)) (chars p1) = true -> forallb (fun c => negb (is_dot c)) (chars p2) = true ->
  (n1 ++ "." ++ p1 = n2 ++ "." ++ p2)%string -> n1 = n2 /\ p1 = p2.
Proof.
  intros H1 H2 E. apply (f_equal chars) in E. rewrite !chars_app in E. cbn [chars app] in E.
  apply (last_split is_dot) in E; [|reflexivity|reflexivity|exact H1|exact H2]. destruct E as (E1 & _ & E2).
  split; apply chars_inj; assumption.
Qed.
Lemma keys_dot_free k : In k (param_keys ++ buf_keys) -> forallb (fun c => negb (is_dot c)) (chars k) = true.
Proof. cbn. intros H. repeat (destruct H as [<-|H]; [reflexivity|]). destruct H. Qed.
Lemma keys_disjoint k : In k param_keys -> In k buf_keys -> False.
Proof. cbn. intros H1 H2. repeat (destruct H1 as [<-|H1]; [repeat (destruct H2 as [H2|H2]; [discriminate|]); exact H2|]). exact H1. Qed.

(** Decimal numbers. *)
Definition is_digit (c : ascii) : bool := let n := nat_of_ascii c in (48 <=? n) && (n <=? 57).
Lemma uint_digits d : forallb is_digit (chars (NilEmpty.string_of_uint d)) = true.
Proof. induction d; cbn; try assumption; reflexivity. Qed.
Lemma to_string_digits n : forallb is_digit (chars (to_string n)) = true.
Proof.
  unfold to_string, NilZero.string_of_uint. pose proof (uint_digits (Nat.to_uint n)) as H.
  destruct (Nat.to_uint n) eqn:E; [reflexivity|..]; exact H.
Qed.
Lemma to_uint_nonnil n : Nat.to_uint n <> Decimal.Nil.
Proof. rewrite <- (DecimalNat.Unsigned.of_to n) at 1. rewrite DecimalNat.Unsigned.to_of. apply unorm_nonnil. Qed.
Lemma to_string_inj n m : to_string n = to_string m -> n = m.
Proof.
  intros H. apply (f_equal NilZero.uint_of_string) in H. unfold to_string in H.
  rewrite !NilZero.usu in H by apply to_uint_nonnil.
  injection H as H. apply DecimalNat.Unsigned.to_uint_inj, H.
Qed.

Definition ends_plain (t : string) : Prop := exists a c, chars t = a ++ [c] /\ is_digit (lower_ascii c) = false.
Lemma chars_lower t : chars (lower t) = map lower_ascii (chars t).
Proof. induction t as [|c t IH]; cbn; [reflexivity|]. rewrite IH. reflexivity. Qed.
Lemma forallb_neg (f : ascii -> bool) l : forallb f l = true -> forallb (fun c => negb (negb (f c))) l = true.
Proof. intros H. rewrite <- H. clear. induction l as [|a t IH]; cbn; [reflexivity|]. rewrite IH, Bool.negb_involutive. reflexivity. Qed.
Lemma auto_name_inj t1 t2 i j : ends_plain t1 -> ends_plain t2 -> auto_name t1 i = auto_name t2 j -> lower t1 = lower t2 /\ i = j.
Proof.
  intros (a & c & E1 & D1) (b & d & E2 & D2) H. unfold auto_name in H. pose proof H as H0.
  apply (f_equal chars) in H. rewrite !chars_app, !chars_lower, E1, E2, !map_app in H. cbn [map] in H. rewrite <- !app_assoc in H. cbn [app] in H.
  apply (last_split (fun c => negb (is_digit c))) in H.
  - destruct H as (Ha & Hc & Hd). apply chars_inj, to_string_inj in Hd. split; [|exact Hd].
    apply chars_inj. rewrite !chars_lower, E1, E2, !map_app. cbn. rewrite Ha, Hc. reflexivity.
  - rewrite D1; reflexivity.
  - rewrite D2; reflexivity.
  - apply forallb_neg, to_string_digits.
  - apply forallb_neg, to_string_digits.
Qed.
Lemma layer_types_plain t k : layer_table t = Some k -> ends_plain t /\ t <> "".
Proof.
  intros H. unfold layer_table in H.
  repeat match type of H with
  | (if String.eqb t ?s then _ else _) = _ => destruct (String.eqb_spec t s) as [->|_];
      [split; [eexists; eexists; split;
        [match goal with |- chars ?s = _ => let x := eval cbv in (chars s) in
           let rec go l := match l with [?c] => constr:(@nil ascii) | ?a :: ?r => let q := go r in constr:(a :: q) end in
           let p := go x in instantiate (2 := p); reflexivity end|reflexivity]|discriminate]|]
  end. discriminate.
Qed.
Lemma auto_name_nonempty t i : t <> "" -> auto_name t i <> "".
Proof. destruct t; [congruence|]. intros _ H. discriminate H. Qed.

(** ** Numbering and naming *)
Section Init.
Variable ps : list phnode.
Variable g : graph.
Variable ord : list gnode.

Definition ids_ok (d : nat) (op : mop) : Prop :=
  mo_ph op = d /\ info_of ps d = Ok (mo_info op) /\
  edge_ids ord (in_edges g d) = Ok (mo_in op) /\ edge_ids ord (out_edges g d) = Ok (mo_out op).

Definition final_info (idx : nat) (used : list nat) (i : nat) (li : linfo) : linfo :=
  if String.eqb (li_name li) "" then
    match index_of i used with Ok j => rename li (auto_name (li_type li) (idx + j)) | _ => li end
  else li.

Lemma name_info_nth infos i0 idx infos1 : name_info infos i0 idx = Ok infos1 ->
  forall i li, nth_error infos i = Some li ->
  nth_error infos1 i = Some (if i0 =? i then (if String.eqb (li_name li) "" then rename li (auto_name (li_type li) idx) else li) else li).
Proof.
  unfold name_info. rewrite rd_nth. destruct (nth_error infos i0) as [l0|] eqn:E0; cbn [bind]; [|discriminate].
  intros H i li E. destruct (Nat.eqb_spec i0 i) as [->|N].
  - rewrite E in E0. injection E0 as <-. destruct (String.eqb (li_name li) ""); injection H as <-; [|exact E].
    apply nth_error_upd_eq. apply nth_error_Some; congruence.
  - destruct (String.eqb (li_name l0) ""); injection H as <-; [|exact E]. rewrite nth_error_upd_neq by exact N. exact E.
Qed.

Lemma init_ops_spec : forall ops idx infos,
  (forall i li, nth_error infos i = Some li -> li_type li <> "") ->
  (forall d, In d ops -> (exists i, info_of ps d = Ok i /\ i < length infos) /\
      (exists x, edge_ids ord (in_edges g d) = Ok x) /\ (exists x, edge_ids ord (out_edges g d) = Ok x)) ->
  exists infos' mops, init_ops ps g ord idx ops infos = Ok (infos', mops) /\ Forall2 ids_ok ops mops /\ length infos' = length infos /\
    forall i li, nth_error infos i = Some li -> nth_error infos' i = Some (final_info idx (map mo_info mops) i li).
Proof.
  induction ops as [|d t IH]; intros idx infos HT HO; cbn [init_ops].
  - exists infos, []. split; [reflexivity|]. split; [constructor|]. split; [reflexivity|]. intros i li E. unfold final_info. cbn.
    destruct (String.eqb (li_name li) ""); exact E.
  - destruct (HO d (or_introl eq_refl)) as ((i0 & Ei & Li) & (xi & Exi) & (xo & Exo)). rewrite Ei. cbn [bind].
    assert (exists infos1, name_info infos i0 idx = Ok infos1) as (infos1 & E1).
    { unfold name_info. rewrite rd_nth. apply nth_error_Some in Li. destruct (nth_error infos i0); [|congruence]. cbn. eauto. }
    rewrite E1. cbn [bind]. rewrite Exi, Exo. cbn [bind].
    pose proof (name_info_nth _ _ _ _ E1) as N1. destruct (name_info_ok _ _ _ _ E1) as [R1 L1].
    assert (HT1 : forall i li, nth_error infos1 i = Some li -> li_type li <> "").
    { intros i li E. assert (X : i < length infos) by (rewrite <- L1; apply nth_error_Some; congruence).
      destruct (nth_error infos i) as [l|] eqn:E0; [|apply nth_error_None in E0; lia].
      rewrite (N1 i l E0) in E. injection E as <-. specialize (HT i l E0). destruct (i0 =? i); [destruct (String.eqb (li_name l) "")|]; exact HT. }
    destruct (IH (S idx) infos1 HT1) as (infos2 & mops & E2 & F2 & L2 & N2).
    { intros d' Hd. rewrite L1. apply HO. right; exact Hd. }
    rewrite E2. cbn [bind]. exists infos2, (mkOp d i0 xi xo :: mops). split; [reflexivity|]. split; [constructor; [repeat split; assumption|exact F2]|].
    split; [lia|]. intros i li E. rewrite (N2 i _ (N1 i li E)). f_equal. unfold final_info. cbn [map mo_info index_of].
    destruct (Nat.eqb_spec i0 i) as [->|N].
    + destruct (String.eqb_spec (li_name li) "") as [Y|Y].
      * cbn [rename li_name]. destruct (String.eqb_spec (auto_name (li_type li) idx) "") as [Z|Z].
        -- exfalso. apply (auto_name_nonempty (li_type li) idx); [eapply HT; exact E|exact Z].
        -- rewrite Nat.add_0_r. reflexivity.
      * apply String.eqb_neq in Y. rewrite Y. reflexivity.
    + destruct (String.eqb (li_name li) ""); [|reflexivity]. destruct (index_of i (map mo_info mops)); cbn [bind]; try reflexivity.
      rewrite Nat.add_succ_r. reflexivity.
Qed.
End Init.

Lemma check_names_spec names : forall seen, NoDup seen ->
  (check_names seen names = Ok tt <-> NoDup (rev seen ++ names)) /\ (check_names seen names = Ok tt \/ check_names seen names = Throw).
Proof.
  induction names as [|n t IH]; intros seen ND; cbn [check_names].
  - rewrite app_nil_r. split; [|auto]. split; [intros _; apply NoDup_rev, ND|reflexivity].
  - destruct (existsb (String.eqb n) seen) eqn:E.
    + split; [|auto]. split; [discriminate|]. intros X. exfalso. apply existsb_exists in E. destruct E as (y & Hy & Ey). apply String.eqb_eq in Ey. subst y.
      apply NoDup_remove_2 in X. apply X. apply in_or_app; left. apply in_rev. rewrite rev_involutive. exact Hy.
    + assert (ND' : NoDup (n :: seen)).
      { constructor; [|exact ND]. intros H. assert (X : existsb (String.eqb n) seen = true) by (apply existsb_exists; exists n; split; [exact H|apply String.eqb_refl]). congruence. }
      destruct (IH (n :: seen) ND') as [H1 H2]. split; [|exact H2]. rewrite H1. cbn [rev]. rewrite <- app_assoc. reflexivity.
Qed.

Lemma nth_error_ext {A} (l1 l2 : list A) : (forall j, nth_error l1 j = nth_error l2 j) -> l1 = l2.
Proof.
  revert l2. induction l1 as [|a t IH]; intros [|b t2] H; [reflexivity|specialize (H 0); discriminate H|specialize (H 0); discriminate H|].
  pose proof (H 0) as H0. cbn in H0. injection H0 as ->. f_equal. apply IH. intros j. exact (H (S j)).
Qed.

(** ** Collecting layers, parameters and state *)
Lemma emplace_fresh {V} (m : list (string * V)) k v : ~ In k (map fst m) -> emplace m k v = m ++ [(k, v)].
Proof. intros H. apply find_none in H. unfold emplace. rewrite H. reflexivity. Qed.

Lemma NoDup_app_l {A} (l1 l2 : list A) : NoDup (l1 ++ l2) -> NoDup l1.
Proof.
  induction l1 as [|a t IH]; cbn; intros H; [constructor|]. inversion H; subst. constructor; [|auto].
  intros X. apply H2. apply in_or_app; left; exact X.
Qed.

Section Collect.
Variable infos : list linfo.
Variable g : graph.
Definition info_at (op : mop) : linfo := nth (mo_info op) infos (mkLI "" "" [] [] []).
Definition op_name (op : mop) : string := li_name (info_at op).
Definition layer_at (op : mop) : mlayer := mkML (mo_info op) (map fst (in_edges g (mo_ph op))) (map fst (out_edges g (mo_ph op))).
Definition key_of (op : mop) (k : string) : string := (op_name op ++ "." ++ k)%string.
Definition op_params (op : mop) : list (string * (nat * string)) :=
  map (fun e => (key_of op (fst e), (mo_info op, fst e))) (li_params (info_at op)).
Definition op_state (op : mop) : list (string * sref) :=
  map (fun e => (key_of op (fst e), SRParam (mo_info op) (fst e))) (li_params (info_at op)) ++
  map (fun e => (key_of op (fst e), SRBuf (mo_info op) (fst e))) (li_bufs (info_at op)).

Lemma fold_params (op : mop) (i : nat) l : forall ps ss,
  NoDup (map fst l) -> (forall k, In k (map fst l) -> In k (param_keys ++ buf_keys)) ->
  (forall k, In k (map fst l) -> ~ In (key_of op k) (map fst ps)) ->
  (forall k, In k (map fst l) -> ~ In (key_of op k) (map fst ss)) ->
  fold_left (fun '(ps, ss) (e : string * prm) =>
        let key := (op_name op ++ "." ++ fst e)%string in
        (emplace ps key (i, fst e), emplace ss key (SRParam i (fst e)))) l (ps, ss) =
  (ps ++ map (fun e => (key_of op (fst e), (i, fst e))) l, ss ++ map (fun e => (key_of op (fst e), SRParam i (fst e))) l).
Proof.
  induction l as [|[k p] t IH]; intros ps ss ND HK HP HS; cbn [fold_left map fst].
  - rewrite !app_nil_r. reflexivity.
  - fold (key_of op k). cbn zeta. rewrite !emplace_fresh by (first [apply HP|apply HS]; left; reflexivity).
    cbn [map fst] in ND. apply NoDup_cons_iff in ND. destruct ND as [Nk ND].
    assert (X : forall k', In k' (map fst t) -> key_of op k' <> key_of op k).
    { intros k' Hk' E. apply key_inj in E; [|apply keys_dot_free, HK; right; exact Hk'|apply keys_dot_free, HK; left; reflexivity].
      destruct E as [_ ->]. auto. }
    rewrite IH.
    + rewrite <- !app_assoc. reflexivity.
    + exact ND.
    + intros k' Hk'. apply HK. right; exact Hk'.
    + intros k' Hk'. rewrite map_app, in_app_iff. cbn. intros [Y|[Y|[]]]; [apply (HP k'); [right; exact Hk'|exact Y]|]. apply (X k' Hk'). congruence.
    + intros k' Hk'. rewrite map_app, in_app_iff. cbn. intros [Y|[Y|[]]]; [apply (HS k'); [right; exact Hk'|exact Y]|]. apply (X k' Hk'). congruence.
Qed.
Lemma fold_bufs (op : mop) (i : nat) l : forall ss,
  NoDup (map fst l) -> (forall k, In k (map fst l) -> In k (param_keys ++ buf_keys)) ->
  (forall k, In k (map fst l) -> ~ In (key_of op k) (map fst ss)) ->
  fold_left (fun ss (e : string * ten) => emplace ss (op_name op ++ "." ++ fst e)%string (SRBuf i (fst e))) l ss =
  ss ++ map (fun e => (key_of op (fst e), SRBuf i (fst e))) l.
Proof.
  induction l as [|[k p] t IH]; intros ss ND HK HS; cbn [fold_left map fst].
  - rewrite app_nil_r. reflexivity.
  - fold (key_of op k). rewrite !emplace_fresh by (apply HS; left; reflexivity).
    cbn [map fst] in ND. apply NoDup_cons_iff in ND. destruct ND as [Nk ND].
    assert (X : forall k', In k' (map fst t) -> key_of op k' <> key_of op k).
    { intros k' Hk' E. apply key_inj in E; [|apply keys_dot_free, HK; right; exact Hk'|apply keys_dot_free, HK; left; reflexivity].
      destruct E as [_ ->]. auto. }
    rewrite IH.
    + rewrite <- !app_assoc. reflexivity.
    + exact ND.
    + intros k' Hk'. apply HK. right; exact Hk'.
    + intros k' Hk'. rewrite map_app, in_app_iff. cbn. intros [Y|[Y|[]]]; [apply (HS k'); [right; exact Hk'|exact Y]|]. apply (X k' Hk'). congruence.
Qed.

Lemma op_params_keys op k : info_ok (info_at op) -> In k (map fst (op_params op)) ->
  exists x, k = key_of op x /\ In x (map fst (li_params (info_at op))) /\ In x (param_keys ++ buf_keys).
Proof.
  intros IO H. unfold op_params in H. rewrite map_map in H. cbn in H. apply in_map_iff in H. destruct H as ((x & p) & <- & H). cbn [fst].
  exists x. split; [reflexivity|]. assert (X : In x (map fst (li_params (info_at op)))) by (apply (in_map fst) in H; exact H). split; [exact X|].
  apply in_or_app; left. apply (io_pk _ IO), X.
Qed.
Lemma op_state_keys op k : info_ok (info_at op) -> In k (map fst (op_state op)) ->
  exists x, k = key_of op x /\ In x (param_keys ++ buf_keys).
Proof.
  intros IO H. unfold op_state in H. rewrite map_app, !map_map in H. cbn in H. apply in_app_or in H. destruct H as [H|H];
  apply in_map_iff in H; destruct H as ((x & p) & <- & H); cbn [fst]; exists x; (split; [reflexivity|]); apply (in_map fst) in H; cbn in H; apply in_or_app.
  - left. apply (io_pk _ IO), H.
  - right. apply (io_bk _ IO), H.
Qed.

Lemma flat_map_snoc {A B} (f : A -> list B) l x : flat_map f (l ++ [x]) = flat_map f l ++ f x.
Proof. rewrite flat_map_app. cbn. rewrite app_nil_r. reflexivity. Qed.

Lemma collect_one done op :
  (forall o, In o (done ++ [op]) -> nth_error infos (mo_info o) = Some (info_at o) /\ info_ok (info_at o)) ->
  NoDup (map op_name (done ++ [op])) ->
  collect_layer infos g op (map layer_at done, map (fun o => (op_name o, layer_at o)) done, flat_map op_params done, flat_map op_state done) =
  Ok (map layer_at (done ++ [op]), map (fun o => (op_name o, layer_at o)) (done ++ [op]), flat_map op_params (done ++ [op]), flat_map op_state (done ++ [op])).
Proof.
  intros HI ND. destruct (HI op) as [E IO]; [apply in_or_app; right; left; reflexivity|].
  assert (Nn : ~ In (op_name op) (map op_name done)).
  { rewrite map_app in ND. cbn in ND. apply NoDup_remove_2 in ND. rewrite app_nil_r in ND. exact ND. }
  unfold collect_layer. rewrite rd_nth, E. cbn [bind]. fold (layer_at op). fold (op_name op).
  rewrite emplace_fresh by (rewrite map_map; cbn; exact Nn).
  unfold at_key. rewrite find_app.
  replace (find_key (map (fun o => (op_name o, layer_at o)) done) (op_name op)) with (@None mlayer) by (symmetry; apply find_none; rewrite map_map; cbn; exact Nn).
  cbn [find_key]. rewrite String.eqb_refl. cbn [bind].
  change (ml_info (layer_at op)) with (mo_info op). rewrite rd_nth, E. cbn [bind].
  assert (FP : forall k, In k (map fst (li_params (info_at op))) -> In k (param_keys ++ buf_keys)) by (intros k Hk; apply in_or_app; left; apply (io_pk _ IO), Hk).
  assert (FB : forall k, In k (map fst (li_bufs (info_at op))) -> In k (param_keys ++ buf_keys)) by (intros k Hk; apply in_or_app; right; apply (io_bk _ IO), Hk).
  assert (OTHER : forall o x y, In o done -> In x (param_keys ++ buf_keys) -> In y (param_keys ++ buf_keys) -> key_of op x <> key_of o y).
  { intros o x y Ho Hx Hy X. apply key_inj in X; [|apply keys_dot_free, Hx|apply keys_dot_free, Hy]. destruct X as [X _].
    apply Nn. rewrite X. apply in_map, Ho. }
  rewrite fold_params.
  - rewrite fold_bufs.
    + rewrite !map_app, !flat_map_snoc. cbn [map]. unfold op_params at 2, op_state at 2. rewrite <- app_assoc. reflexivity.
    + apply (io_bnd _ IO).
    + exact FB.
    + intros k Hk. rewrite map_app, in_app_iff. intros [X|X].
      * rewrite flat_map_concat_map, concat_map, in_concat in X. destruct X as (l & Hl & X). rewrite map_map in Hl. apply in_map_iff in Hl. destruct Hl as (o & <- & Ho).
        apply op_state_keys in X; [|apply HI, in_or_app; left; exact Ho]. destruct X as (y & X & Hy). exact (OTHER o k y Ho (FB k Hk) Hy X).
      * rewrite map_map in X. cbn in X. apply in_map_iff in X. destruct X as ((y & p) & X & Hy). cbn [fst] in X.
        apply (in_map fst) in Hy. cbn in Hy. symmetry in X. apply key_inj in X; [|apply keys_dot_free, FB, Hk|apply keys_dot_free, FP, Hy]. destruct X as [_ <-].
        apply (keys_disjoint k); [apply (io_pk _ IO), Hy|apply (io_bk _ IO), Hk].
  - apply (io_pnd _ IO).
  - exact FP.
  - intros k Hk X. rewrite flat_map_concat_map, concat_map, in_concat in X. destruct X as (l & Hl & X). rewrite map_map in Hl. apply in_map_iff in Hl. destruct Hl as (o & <- & Ho).
    apply op_params_keys in X; [|apply HI, in_or_app; left; exact Ho]. destruct X as (y & X & _ & Hy). exact (OTHER o k y Ho (FP k Hk) Hy X).
  - intros k Hk X. rewrite flat_map_concat_map, concat_map, in_concat in X. destruct X as (l & Hl & X). rewrite map_map in Hl. apply in_map_iff in Hl. destruct Hl as (o & <- & Ho).
    apply op_state_keys in X; [|apply HI, in_or_app; left; exact Ho]. destruct X as (y & X & Hy). exact (OTHER o k y Ho (FP k Hk) Hy X).
Qed.

Lemma collect_all ops : 
  (forall o, In o ops -> nth_error infos (mo_info o) = Some (info_at o) /\ info_ok (info_at o)) ->
  NoDup (map op_name ops) ->
  fold_res (collect_layer infos g) ops ([], [], [], []) =
  Ok (map layer_at ops, map (fun o => (op_name o, layer_at o)) ops, flat_map op_params ops, flat_map op_state ops).
Proof.
  intros HI ND.
  assert (G : forall todo done, done ++ todo = ops ->
    fold_res (collect_layer infos g) todo (map layer_at done, map (fun o => (op_name o, layer_at o)) done, flat_map op_params done, flat_map op_state done) =
    Ok (map layer_at ops, map (fun o => (op_name o, layer_at o)) ops, flat_map op_params ops, flat_map op_state ops)).
  { induction todo as [|op t IH]; intros done E; cbn [fold_res].
    - rewrite app_nil_r in E. subst; reflexivity.
    - assert (E' : (done ++ [op]) ++ t = ops) by (rewrite <- app_assoc; exact E).
      rewrite collect_one.
      + cbn [bind]. apply IH, E'.
      + intros o Ho. apply HI. rewrite <- E'. apply in_or_app; left; exact Ho.
      + rewrite <- E', map_app in ND. apply NoDup_app_l in ND. exact ND. }
  apply (G ops []). reflexivity.
Qed.
End Collect.

(** ** The configuration *)
Section Cfg.
Variable ps : list phnode.
Variable infos : list linfo.
Definition shape_at (d : nat) : shape := match nth_error ps d with Some p => ph_shape p | None => [] end.
Definition marked (s : storage) (data : list (nat * storage)) : list Z :=
  flat_map (fun '(i, (_, s')) => match s, s' with SInput, SInput | SOutput, SOutput => [Z.of_nat i] | _, _ => [] end)
           (combine (seq 0 (length data)) data).
Definition config_of (data : list (nat * storage)) (ops : list mop) : config R :=
  mkCfg (marked SInput data) (marked SOutput data)
        (map (fun '(i, (d, _)) => (Z.of_nat i, (shape_at d, Z.of_nat i))) (combine (seq 0 (length data)) data))
        (map (fun op => mkOI (op_name infos op) (li_type (info_at infos op)) (li_attrs (info_at infos op))
                             (map Z.of_nat (mo_in op)) (map Z.of_nat (mo_out op))) ops).

Lemma map_res_map {A B} (f : A -> res B) (h : A -> B) l : (forall a, In a l -> f a = Ok (h a)) -> map_res f l = Ok (map h l).
Proof.
  induction l as [|a t IH]; intros H; cbn; [reflexivity|]. rewrite (H a (or_introl eq_refl)), IH; [reflexivity|].
  intros b Hb. apply H. right; exact Hb.
Qed.

Lemma create_config_ok data ops :
  (forall d s, In (d, s) data -> d < length ps) ->
  (forall o, In o ops -> nth_error infos (mo_info o) = Some (info_at infos o)) ->
  create_config ps infos data ops = Ok (config_of data ops).
Proof.
  intros HD HO. unfold create_config. cbn zeta.
  rewrite (map_res_map _ (fun '(i, (d, _)) => (Z.of_nat i, (shape_at d, Z.of_nat i)))).
  - cbn [bind]. rewrite (map_res_map _ (fun op => mkOI (op_name infos op) (li_type (info_at infos op)) (li_attrs (info_at infos op))
                             (map Z.of_nat (mo_in op)) (map Z.of_nat (mo_out op)))).
    + reflexivity.
    + intros o Ho. rewrite rd_nth, (HO o Ho). reflexivity.
  - intros (i & d & s) H. apply in_combine_r in H. apply HD in H. unfold shape_at. rewrite rd_nth. apply nth_error_Some in H.
    destruct (nth_error ps d); [reflexivity|congruence].
Qed.
End Cfg.

(** ** The constructor as a whole *)
Section Construct.
Variable es : estore.
Variable ins outs : list nat.
Variable g : graph.
Variable ord : list gnode.
Hypothesis SO : store_ok es.
Hypothesis B : build (es_ph es) ins outs = Ok g.
Hypothesis T : is_topo g ord.

Lemma in_op_needed d : In d (op_nodes ord) <-> needed (es_ph es) outs d /\ exists args, call (es_ph es) d args.
Proof. rewrite in_op_nodes. destruct T as (_ & T2 & _). rewrite T2. destruct (build_ok _ _ _ _ B) as (v & _ & _ & _ & _ & _ & NO). apply NO. Qed.
Lemma in_data_needed d : In d (data_nodes ord) <-> needed (es_ph es) outs d.
Proof. rewrite in_data_nodes. destruct T as (_ & T2 & _). rewrite T2. destruct (build_ok _ _ _ _ B) as (v & _ & _ & _ & _ & ND & _). apply ND. Qed.
Lemma data_id_ok d : needed (es_ph es) outs d -> exists i, data_id ord d = Ok i /\ nth_error (data_nodes ord) i = Some d.
Proof.
  intros N. destruct (index_of_In d (data_nodes ord)) as (i & E); [apply in_data_needed, N|].
  exists i. split; [exact E|]. apply index_of_Ok in E. apply E.
Qed.
Lemma arg_ids d args : needed (es_ph es) outs d -> call (es_ph es) d args -> exists ids, map_res (data_id ord) args = Ok ids.
Proof.
  intros N C.
  assert (A : forall a, In a args -> needed (es_ph es) outs a) by (intros a Ha; eapply need_arg; eassumption). clear C.
  induction args as [|a t IH]; [exists []; reflexivity|].
  destruct (data_id_ok a) as (i & E & _); [apply A; left; reflexivity|]. destruct IH as (ids & E2); [intros x Hx; apply A; right; exact Hx|].
  exists (i :: ids). cbn. rewrite E, E2. reflexivity.
Qed.
Lemma op_links d args : needed (es_ph es) outs d -> call (es_ph es) d args ->
  exists k, visits (es_ph es) outs d = S k /\
    in_edges g d = concat (repeat (combine args (seq 0 (length args))) (S k)) /\ out_edges g d = repeat (d, 0) (S k).
Proof.
  intros N C. destruct (build_ok _ _ _ _ B) as (v & U & V & -> & _).
  assert (Vd : visits (es_ph es) outs d = count_occ Nat.eq_dec v d) by (unfold visits; rewrite U; reflexivity).
  pose proof (proj1 (visits_needed _ _ _) N) as L. destruct (visits (es_ph es) outs d) as [|k] eqn:E; [lia|]. exists k. split; [reflexivity|].
  rewrite (in_edges_build _ _ _ _ C), (out_edges_build _ _ _ _ C), <- Vd. auto.
Qed.
Lemma op_ids d args : needed (es_ph es) outs d -> call (es_ph es) d args ->
  exists k ids i, visits (es_ph es) outs d = S k /\ map_res (data_id ord) args = Ok ids /\ data_id ord d = Ok i /\
    edge_ids ord (in_edges g d) = Ok (ids ++ repeat 0 (k * length args)) /\ edge_ids ord (out_edges g d) = Ok (i :: repeat 0 k).
Proof.
  intros N C. destruct (op_links d args N C) as (k & Vk & Ei & Eo). destruct (arg_ids d args N C) as (ids & Eids).
  destruct (data_id_ok d N) as (i & Ed & _). exists k, ids, i. rewrite Ei, Eo.
  split; [exact Vk|]. split; [exact Eids|]. split; [exact Ed|]. split; [apply edge_ids_repeat, Eids|apply edge_ids_out, Ed].
Qed.

Lemma init_ok : exists infos' mops,
  init_ops (es_ph es) g ord 0 (op_nodes ord) (es_info es) = Ok (infos', mops) /\
  Forall2 (ids_ok (es_ph es) g ord) (op_nodes ord) mops /\ length infos' = length (es_info es) /\
  forall i li, nth_error (es_info es) i = Some li -> nth_error infos' i = Some (final_info 0 (map mo_info mops) i li).
Proof.
  apply init_ops_spec.
  - intros i li E. destruct SO as [SI _]. rewrite Forall_forall in SI. apply nth_error_In, SI in E. destruct (io_kind _ E) as (k & m & n & _ & Tk).
    apply layer_types_plain in Tk. apply Tk.
  - intros d Hd. apply in_op_needed in Hd. destruct Hd as (N & args & C). destruct (op_ids d args N C) as (k & ids & i & _ & _ & _ & E1 & E2).
    split; [|eauto]. destruct C as (s & j & E). exists j. split; [unfold info_of; rewrite rd_nth, E; reflexivity|].
    destruct SO as [_ SC]. destruct (SC _ _ _ _ E) as (_ & li & _ & _ & El & _). apply nth_error_Some. congruence.
Qed.

(** The layer objects of the model, in order, and the names they should get. *)
Notation objects := (used_layers es ord).
Notation wanted := (intended_name es).
Notation wanted_names := (intended_names es ord).

Lemma objects_mops mops : Forall2 (ids_ok (es_ph es) g ord) (op_nodes ord) mops -> map mo_info mops = objects.
Proof.
  unfold used_layers. induction 1 as [|d op l mops (E1 & E2 & _) _ IH]; cbn [map]; [reflexivity|]. rewrite IH. f_equal.
  unfold info_of in E2. rewrite rd_nth in E2. destruct (nth_error (es_ph es) d) as [[s [[i args]|]]|]; cbn in E2; try discriminate.
  injection E2 as <-. reflexivity.
Qed.

Lemma nth_wanted j : nth_error wanted_names j = option_map (wanted j) (nth_error objects j).
Proof.
  unfold intended_names. rewrite nth_error_map.
  assert (G : forall (l : list nat) s j, nth_error (combine (seq s (length l)) l) j = option_map (fun i => (s + j, i)) (nth_error l j)).
  { clear. induction l as [|a t IH]; intros s [|j]; cbn; try reflexivity; [rewrite Nat.add_0_r; reflexivity|]. rewrite IH. rewrite Nat.add_succ_r. reflexivity. }
  rewrite G. destruct (nth_error objects j); reflexivity.
Qed.

Lemma objects_valid i : In i objects -> exists li, nth_error (es_info es) i = Some li /\ info_ok li /\ exists d s args, nth_error (es_ph es) d = Some (mkPh s (Some (i, args))).
Proof.
  intros H. unfold used_layers in H. apply in_map_iff in H. destruct H as (d & <- & H). apply in_op_needed in H. destruct H as (_ & args & s & i & E).
  rewrite E. destruct SO as [SI SC]. destruct (SC _ _ _ _ E) as (_ & li & k & ss & El & _).
  exists li. split; [exact El|]. split; [rewrite Forall_forall in SI; apply SI; eapply nth_error_In; exact El|]. eauto.
Qed.

Lemma names_after infos' mops : init_ops (es_ph es) g ord 0 (op_nodes ord) (es_info es) = Ok (infos', mops) ->
  map mo_info mops = objects ->
  (forall i li, nth_error (es_info es) i = Some li -> nth_error infos' i = Some (final_info 0 (map mo_info mops) i li)) ->
  (forall o, In o mops -> nth_error infos' (mo_info o) = Some (info_at infos' o) /\ info_ok (info_at infos' o)) /\
  (NoDup objects -> map (op_name infos') mops = wanted_names) /\
  (~ NoDup objects -> ~ NoDup (map (op_name infos') mops)).
Proof.
  intros EI EO NF. split; [|split].
  - intros o Ho. assert (X : In (mo_info o) objects) by (rewrite <- EO; apply in_map, Ho). apply objects_valid in X. destruct X as (li & El & IO & _).
    specialize (NF _ _ El). assert (Y : info_at infos' o = final_info 0 (map mo_info mops) (mo_info o) li) by (unfold info_at; apply nth_error_nth; exact NF).
    rewrite Y. split; [exact NF|]. unfold final_info. destruct (String.eqb _ _); [|exact IO]. destruct (index_of _ _); try exact IO.
    destruct IO. split; assumption.
  - intros ND. apply nth_error_ext. intros j. rewrite nth_wanted, nth_error_map.
    destruct (nth_error mops j) as [o|] eqn:E; cbn [option_map].
    + assert (X : nth_error objects j = Some (mo_info o)) by (rewrite <- EO, nth_error_map, E; reflexivity).
      rewrite X. cbn [option_map]. f_equal. unfold intended_name, op_name, info_at.
      destruct (objects_valid (mo_info o)) as (li & El & _); [eapply nth_error_In; exact X|]. rewrite El.
      rewrite (nth_error_nth _ _ _ (NF _ _ El)). unfold final_info. rewrite EO, (index_of_NoDup _ _ _ ND X).
      destruct (String.eqb (li_name li) ""); reflexivity.
    + replace (nth_error objects j) with (@None nat); [reflexivity|]. rewrite <- EO, nth_error_map, E. reflexivity.
  - intros ND N. apply ND. rewrite <- EO. clear -N. unfold op_name, info_at in N.
    rewrite <- (map_map mo_info (fun i => li_name (nth i infos' (mkLI "" "" [] [] [])))) in N. eapply NoDup_map_inv. exact N.
Qed.

Definition data_of : list (nat * storage) := map (fun d => (d, storage_of ins outs d)) (data_nodes ord).

Lemma construct_spec (order : graph -> list gnode) : order g = ord -> (forall o, In o outs -> o < length (es_ph es)) ->
  exists infos' mops,
    Forall2 (ids_ok (es_ph es) g ord) (op_nodes ord) mops /\ map mo_info mops = objects /\
    Forall2 renamed (es_info es) infos' /\
    (forall i li, nth_error (es_info es) i = Some li -> nth_error infos' i = Some (final_info 0 objects i li)) /\
    (forall o, In o mops -> nth_error infos' (mo_info o) = Some (info_at infos' o) /\ info_ok (info_at infos' o)) /\
    (NoDup objects /\ NoDup wanted_names ->
       map (op_name infos') mops = wanted_names /\
       construct_model order ins outs es =
       RVal (mkES (es_ph es) infos')
            (mkM g ord mops data_of ins outs (map (layer_at g) mops) (map (fun o => (op_name infos' o, layer_at g o)) mops)
                 (flat_map (op_params infos') mops) (flat_map (op_state infos') mops) (config_of (es_ph es) infos' data_of mops))) /\
    (~ (NoDup objects /\ NoDup wanted_names) -> construct_model order ins outs es = RExc (mkES (es_ph es) infos')).
Proof.
  intros EO V. destruct init_ok as (infos' & mops & EI & F & L & NF). exists infos', mops.
  pose proof (objects_mops _ F) as OB. destruct (names_after _ _ EI OB NF) as (IN & NW & NN).
  split; [exact F|]. split; [exact OB|]. split; [eapply init_ops_renamed; exact EI|]. split; [rewrite <- OB; exact NF|]. split; [exact IN|].
  assert (NM : map_res (fun op => li <- rd infos' (mo_info op) ;; Ok (li_name li)) mops = Ok (map (op_name infos') mops)).
  { apply map_res_map. intros o Ho. rewrite rd_nth, (proj1 (IN o Ho)). reflexivity. }
  destruct (check_names_spec (map (op_name infos') mops) [] (NoDup_nil _)) as [CN CT]. cbn [rev app] in CN.
  split.
  - intros [ND1 ND2]. specialize (NW ND1). split; [exact NW|].
    unfold construct_model. rewrite B, EO, EI. cbn zeta. rewrite NM. cbn [bind].
    rewrite (proj2 CN) by (rewrite NW; exact ND2). cbn [bind].
    rewrite collect_all by (try exact IN; rewrite NW; exact ND2). cbn [bind]. fold data_of.
    rewrite create_config_ok; [reflexivity| |intros o Ho; apply IN, Ho].
    intros d s Hd. unfold data_of in Hd. apply in_map_iff in Hd. destruct Hd as (d' & E & Hd). injection E as -> _.
    apply in_data_needed in Hd. eapply needed_lt; [exact V|apply store_links_back, SO|exact Hd].
  - intros NB. unfold construct_model. rewrite B, EO, EI. cbn zeta. rewrite NM. cbn [bind].
    destruct CT as [CT|CT]; [|rewrite CT; reflexivity]. exfalso. apply CN in CT. apply NB.
    assert (X : NoDup objects).
    { destruct (ListDec.NoDup_dec Nat.eq_dec objects) as [Y|Y]; [exact Y|]. exfalso. exact (NN Y CT). }
    split; [exact X|]. rewrite <- (NW X). exact CT.
Qed.
End Construct.
