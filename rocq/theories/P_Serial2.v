(** Proofs about M_Serial: configurations. *)
From Coq Require Import String Ascii NArith.
From Verif Require Import Base BaseFacts M_Optim M_Nn M_Model M_Serial S_Serial P_Serial.
Open Scope Z_scope.
Local Open Scope list_scope.

Lemma map_res_total {A B} (f : A -> res B) (w : A -> B) l : Forall (fun x => f x = Ok (w x)) l -> map_res f l = Ok (map w l).
Proof. induction 1 as [|x l H _ IH]; [reflexivity|]. cbn [map_res map]. rewrite H. cbn [bind]. rewrite IH. reflexivity. Qed.

Definition attr_bytes (a : attr Z) : bytes :=
  match write_attribute a with Ok b => b | _ => [] end.

Lemma write_attribute_ok a : good_attr a -> write_attribute a = Ok (attr_bytes a).
Proof. unfold attr_bytes. destruct a; cbn; try reflexivity. intros []. Qed.

Section Reading.
Variable can : Z -> bool.
Variable junk : bytes -> bytes.

Lemma array_ok b s : length b = 8%nat -> read_array junk (write_size 2 ++ b ++ s) = Ok (b, s).
Proof.
  intros L. unfold read_array. rewrite read_size_ok by lia.
  change ((2 * 4) mod 2 ^ 64) with 8. change (Z.to_nat 8) with 8%nat.
  rewrite firstn_whole, skipn_whole by assumption. rewrite L. cbn [Nat.ltb Nat.leb].
  rewrite firstn_whole by assumption. reflexivity.
Qed.

Lemma read_attribute_ok a s : good_attr a -> read_attribute junk (attr_bytes a ++ s) = Ok (a, s).
Proof.
  destruct a as [z|w|x y|x y|]; cbn [good_attr]; intros G; unfold attr_bytes; cbn [write_attribute]; unfold read_attribute.
  - rewrite <- !app_assoc, (read_int_ok 0), (read_int_ok 1) by (unfold int32; lia). cbn [Z.eqb]. rewrite read_int_ok by assumption. reflexivity.
  - rewrite <- !app_assoc, (read_int_ok 0), (read_int_ok 2) by (unfold int32; lia). cbn [Z.eqb]. change (2 =? 1) with false. cbn iota. rewrite read_float_ok by assumption. reflexivity.
  - destruct G as [G1 G2]. rewrite <- !app_assoc, !(read_int_ok 1) by (unfold int32; lia). cbn [Z.eqb]. change (1 =? 1) with true. cbn iota.
    rewrite (app_assoc (write_int x)), array_ok by (rewrite app_length; unfold write_int; rewrite !le_length; reflexivity). cbn [bind].
    rewrite firstn_whole, skipn_whole by apply le_length. unfold write_int. rewrite !unle_le.
    change (256 ^ Z.of_nat 4) with (2 ^ 32). rewrite !signed_mod by assumption. reflexivity.
  - destruct G as [G1 G2]. rewrite <- !app_assoc, (read_int_ok 1), (read_int_ok 2) by (unfold int32; lia). cbn [Z.eqb]. change (1 =? 1) with true. change (2 =? 1) with false. cbn iota.
    rewrite (app_assoc (write_float x)), array_ok by (rewrite app_length; unfold write_float; rewrite !le_length; reflexivity). cbn [bind].
    rewrite firstn_whole, skipn_whole by apply le_length. unfold write_float, word32 in *. rewrite !unle_le.
    change (256 ^ Z.of_nat 4) with (2 ^ 32). rewrite !Z.mod_small by assumption. reflexivity.
  - contradiction.
Qed.

Lemma count_ok {A X} (body : A -> bytes -> res (A * bytes)) (w : X -> bytes) (step : A -> X -> A) xs : forall i a s,
  i + Z.of_nat (length xs) < 2 ^ 31 ->
  Forall (fun x => forall a s, body a (w x ++ s) = Ok (step a x, s)) xs ->
  count (length xs) i body a (concat (map w xs) ++ s) = Ok (fold_left step xs a, s).
Proof.
  induction xs as [|x xs IH]; intros i a s I F; [reflexivity|]. inversion F as [|? ? F1 F2]; subst.
  cbn [length map concat count fold_left]. cbn [length] in I. rewrite <- app_assoc, F1. cbn [bind].
  replace (i =? 2 ^ 31 - 1) with false by lia. apply IH; [lia|assumption].
Qed.

Lemma emplace_all {V} (l : list (string * V)) : forall acc, NoDup (map fst (acc ++ l)) ->
  fold_left (fun m e => emplace m (fst e) (snd e)) l acc = acc ++ l.
Proof.
  induction l as [|[k v] l IH]; intros acc N; cbn [fold_left fst snd]; [symmetry; apply app_nil_r|].
  unfold emplace at 2. rewrite find_key_not.
  - rewrite IH; rewrite <- app_assoc; [reflexivity|exact N].
  - rewrite map_app in N. cbn [map fst] in N. apply NoDup_remove_2 in N. rewrite in_app_iff in N. tauto.
Qed.

Lemma find_id_not {A} (m : list (Z * A)) k : ~ In k (map fst m) -> find_id m k = None.
Proof.
  induction m as [|[a x] t IH]; cbn [map In find_id fst]; [reflexivity|]. intros N.
  destruct (a =? k) eqn:E; [apply Z.eqb_eq in E; tauto|apply IH; tauto].
Qed.

Lemma emplace_id_all {V} (l : list (Z * V)) : forall acc, NoDup (map fst (acc ++ l)) ->
  fold_left (fun m e => emplace_id m (fst e) (snd e)) l acc = acc ++ l.
Proof.
  induction l as [|[k v] l IH]; intros acc N; cbn [fold_left fst snd]; [symmetry; apply app_nil_r|].
  unfold emplace_id at 2. rewrite find_id_not.
  - rewrite IH; rewrite <- app_assoc; [reflexivity|exact N].
  - rewrite map_app in N. cbn [map fst] in N. apply NoDup_remove_2 in N. rewrite in_app_iff in N. tauto.
Qed.

Lemma snoc_all {A} (l : list A) : forall acc, fold_left (fun m e => m ++ [e]) l acc = acc ++ l.
Proof. induction l; intros acc; cbn [fold_left]; [symmetry; apply app_nil_r|]. rewrite IHl, <- app_assoc. reflexivity. Qed.

(** ** Attributes *)
Definition entry_bytes (e : string * attr Z) : bytes := write_string (fst e) ++ attr_bytes (snd e).
Definition attrs_bytes (l : list (string * attr Z)) : bytes := write_size (Z.of_nat (length l)) ++ concat (map entry_bytes l).

Definition good_attrs (l : list (string * attr Z)) : Prop :=
  Z.of_nat (length l) < 2 ^ 31 /\ NoDup (map fst l) /\ Forall (fun e => good_string can (fst e) /\ good_attr (snd e)) l.

Lemma write_attributes_ok l : Forall (fun e => good_attr (snd e)) l -> write_attributes l = Ok (attrs_bytes l).
Proof.
  intros G. unfold write_attributes, concat_res. rewrite (map_res_total _ entry_bytes); [reflexivity|].
  rewrite Forall_forall in G |- *. intros [k a] E. rewrite write_attribute_ok by (apply (G _ E)). reflexivity.
Qed.

Lemma read_attributes_ok l s : good_attrs l -> read_attributes can junk (attrs_bytes l ++ s) = Ok (l, s).
Proof.
  intros (L & N & G). unfold read_attributes, attrs_bytes. rewrite <- app_assoc, read_size_ok by lia. rewrite Nat2Z.id.
  rewrite (count_ok _ entry_bytes (fun m e => emplace m (fst e) (snd e))).
  - rewrite emplace_all by exact N. reflexivity.
  - lia.
  - rewrite Forall_forall in G |- *. intros [k a] E m s1. destruct (G _ E) as [G1 G2]. unfold entry_bytes. cbn [fst snd] in *.
    rewrite <- app_assoc, read_string_ok by assumption. cbn [bind]. rewrite read_attribute_ok by assumption. reflexivity.
Qed.

(** ** Operations *)
Definition op_bytes (o : opinfo Z) : bytes :=
  write_string (oi_name o) ++ write_string (oi_type o) ++ write_ints (oi_in o) ++ write_ints (oi_out o) ++ attrs_bytes (oi_attrs o).

Lemma write_op_ok o : good_op can o -> write_op o = Ok (op_bytes o).
Proof.
  intros (_ & _ & _ & _ & _ & _ & G). unfold write_op. rewrite write_attributes_ok; [reflexivity|].
  rewrite Forall_forall in G |- *. intros e E. apply (G _ E).
Qed.

Lemma read_op_ok o s : good_op can o -> read_op can junk (op_bytes o ++ s) = Ok (o, s).
Proof.
  intros (G1 & G2 & G3 & G4 & G5). unfold read_op, op_bytes. rewrite <- !app_assoc.
  rewrite !read_string_ok by assumption. cbn [bind]. rewrite read_string_ok by assumption. cbn [bind].
  rewrite read_ints_ok by assumption. cbn [bind]. rewrite read_ints_ok by assumption. cbn [bind].
  rewrite read_attributes_ok by exact G5. cbn [bind]. destruct o; reflexivity.
Qed.

(** ** Configurations *)
Definition ph_bytes (e : Z * (shape * Z)) : bytes := write_int (fst e) ++ write_ints (fst (snd e)).
Definition cfg_bytes (c : config Z) : bytes :=
  write_int 1 ++ write_ints (c_in c) ++ write_ints (c_out c)
  ++ write_size (Z.of_nat (length (c_ph c))) ++ concat (map ph_bytes (c_ph c))
  ++ write_size (Z.of_nat (length (c_ops c))) ++ concat (map op_bytes (c_ops c)).

Lemma save_cfg_ok c : good_cfg can c -> save_cfg c = Ok (cfg_bytes c).
Proof.
  intros (_ & _ & _ & _ & _ & _ & G). unfold save_cfg, concat_res.
  rewrite (map_res_total _ op_bytes) by (rewrite Forall_forall in G |- *; intros o E; apply write_op_ok, G, E).
  cbn [bind]. unfold cfg_bytes. rewrite flat_map_concat_map.
  rewrite (map_ext (fun '(id, (sh, _)) => write_int id ++ write_ints sh) ph_bytes); [reflexivity|]. intros [id [sh x]]. reflexivity.
Qed.

Lemma load_cfg_ok c s : good_cfg can c -> load_cfg can junk (cfg_bytes c ++ s) = Ok (c, s).
Proof.
  intros (G1 & G2 & G3 & G4 & G5 & G6 & G7). unfold load_cfg, cfg_bytes. rewrite <- !app_assoc.
  rewrite read_int_ok by (unfold int32; lia). cbn [Z.eqb]. change (1 =? 1) with true. cbn iota.
  rewrite read_ints_ok by assumption. cbn [bind]. rewrite read_ints_ok by assumption. cbn [bind].
  rewrite read_size_ok by lia. rewrite Nat2Z.id.
  rewrite (count_ok _ ph_bytes (fun m e => emplace_id m (fst e) (snd e))); [| lia |].
  - rewrite emplace_id_all by exact G4. cbn [bind app].
    rewrite read_size_ok by lia. rewrite Nat2Z.id.
    rewrite (count_ok _ op_bytes (fun m e => m ++ [e])); [| lia |].
    + rewrite snoc_all. cbn [bind app]. destruct c; reflexivity.
    + rewrite Forall_forall in G7 |- *. intros o E l s1. rewrite read_op_ok by (apply G7, E). reflexivity.
  - rewrite Forall_forall in G5 |- *. intros [id [sh x]] E m s1. destruct (G5 _ E) as (A & B & C). cbn [fst snd] in *. subst x.
    unfold ph_bytes. cbn [fst snd]. rewrite <- app_assoc, read_int_ok by assumption. rewrite read_ints_ok by assumption. reflexivity.
Qed.
End Reading.
