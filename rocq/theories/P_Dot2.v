(** Proofs for C62: the file as a list of words, and the statements read from it. *)
From Coq Require Import String Ascii Lia.
From Verif Require Import Base BaseFacts M_Tensor M_Optim M_Nn M_Graph M_Model M_Dot S_Graph S_Dot P_Dot.
Local Open Scope string_scope.
Local Open Scope list_scope.
Open Scope nat_scope.

Definition ph_tokens (id : Z) (s : shape) : list token :=
  [Word (ph_name id); LBrack; Word "label"; Equals; Quoted (ph_name id ++ endl ++ shape_text s)%string; RBrack].
Definition op_tokens (n t : string) : list token :=
  [Word n; LBrack; Word "shape"; Equals; Word "box"; Comma; Word "label"; Equals; Quoted (n ++ " (" ++ t ++ ")")%string; RBrack].
Definition in_tokens (id : Z) (n : string) (port : nat) : list token :=
  [Word (ph_name id); Arrow; Quoted n; LBrack; Word "label"; Equals; Quoted ("in_port: " ++ int_string (Z.of_nat port))%string; RBrack].
Definition out_tokens (n : string) (id : Z) (port : nat) : list token :=
  [Word n; Arrow; Word (ph_name id); LBrack; Word "label"; Equals; Quoted ("out_port: " ++ int_string (Z.of_nat port))%string; RBrack; Semi].

Lemma scan_quote_open r : scan Between (quote ++ r)%string = scan (InQuoted "") r.
Proof.
  change (scan Between (quote ++ r)%string) with (match scan (InQuoted "") r with Some (l, q) => Some ([] ++ l, q) | None => None end).
  destruct (scan (InQuoted "") r) as [[? ?]|]; reflexivity.
Qed.
Lemma scan_quote_close s r : scan (InQuoted s) (quote ++ r)%string = match scan Between r with Some (l, q) => Some (Quoted s :: l, q) | None => None end.
Proof. reflexivity. Qed.
Lemma scan_quoted_then s r s0 : quotable s = true -> scan (InQuoted s0) (s ++ r)%string = scan (InQuoted (s0 ++ s)%string) r.
Proof. intros H. rewrite (scan_then _ _ _ _ _ (scan_quoted s s0 H)). destruct (scan (InQuoted (s0 ++ s)%string) r) as [[? ?]|]; reflexivity. Qed.
Lemma scan_word_then w r : identifier w = true -> scan Between (w ++ r)%string = scan (InWord w) r.
Proof. intros H. rewrite (scan_then _ _ _ _ _ (scan_word w H)). destruct (scan (InWord w) r) as [[? ?]|]; reflexivity. Qed.
Lemma scan_ph_then id r : (0 <= id)%Z -> scan Between (ph_name id ++ r)%string = scan (InWord (ph_name id)) r.
Proof. intros H. rewrite (scan_then _ _ _ _ _ (scan_ph id H)). destruct (scan (InWord (ph_name id)) r) as [[? ?]|]; reflexivity. Qed.

Lemma scan_ph_piece id s : (0 <= id)%Z ->
  scan Between (ph_name id ++ " " ++ "[label=" ++ quote ++ ph_name id ++ endl ++ shape_text s ++ quote ++ " ]" ++ endl)%string = Some (ph_tokens id s, Between).
Proof.
  intros H. rewrite (scan_ph_then _ _ H). rewrite (scan_then " " _ [Word (ph_name id)] Between) by reflexivity.
  rewrite (scan_then "[label=" _ [LBrack; Word "label"; Equals] Between) by (vm_compute; reflexivity).
  rewrite scan_quote_open, scan_quoted_then by apply ph_name_quotable. rewrite (scan_quoted_then endl) by reflexivity.
  rewrite scan_quoted_then by apply shape_quotable. rewrite scan_quote_close.
  change (scan Between (" ]" ++ endl)%string) with (Some ([RBrack], Between)). rewrite !sapp_assoc. reflexivity.
Qed.
Lemma scan_op_piece n t : identifier n = true -> quotable t = true ->
  scan Between (n ++ " [shape=box, label=" ++ quote ++ n ++ " (" ++ t ++ ")" ++ quote ++ " ]" ++ endl)%string = Some (op_tokens n t, Between).
Proof.
  intros H H2. rewrite (scan_word_then _ _ H).
  rewrite (scan_then " [shape=box, label=" _ [Word n; LBrack; Word "shape"; Equals; Word "box"; Comma; Word "label"; Equals] Between) by (vm_compute; reflexivity).
  rewrite scan_quote_open, scan_quoted_then by apply identifier_quotable, H. rewrite (scan_quoted_then " (") by reflexivity.
  rewrite scan_quoted_then by exact H2. rewrite (scan_quoted_then ")") by reflexivity. rewrite scan_quote_close.
  change (scan Between (" ]" ++ endl)%string) with (Some ([RBrack], Between)). rewrite !sapp_assoc. reflexivity.
Qed.
Lemma scan_in_piece id n port : (0 <= id)%Z -> quotable n = true ->
  scan Between (ph_name id ++ " -> " ++ quote ++ n ++ quote ++ " [ label = " ++ quote ++ "in_port: " ++ int_string (Z.of_nat port) ++ quote ++ " ]" ++ endl)%string =
  Some (in_tokens id n port, Between).
Proof.
  intros H H2. rewrite (scan_ph_then _ _ H). rewrite (scan_then " -> " _ [Word (ph_name id); Arrow] Between) by (vm_compute; reflexivity).
  rewrite scan_quote_open, scan_quoted_then by exact H2. rewrite scan_quote_close.
  rewrite (scan_then " [ label = " _ [LBrack; Word "label"; Equals] Between) by (vm_compute; reflexivity).
  rewrite scan_quote_open, (scan_quoted_then "in_port: ") by reflexivity. rewrite scan_quoted_then by apply int_quotable. rewrite scan_quote_close.
  change (scan Between (" ]" ++ endl)%string) with (Some ([RBrack], Between)). reflexivity.
Qed.
Lemma scan_out_piece id n port : (0 <= id)%Z -> identifier n = true ->
  scan Between (n ++ " -> " ++ ph_name id ++ " [ label = " ++ quote ++ "out_port: " ++ int_string (Z.of_nat port) ++ quote ++ " ];" ++ endl)%string =
  Some (out_tokens n id port, Between).
Proof.
  intros H H2. rewrite (scan_word_then _ _ H2). rewrite (scan_then " -> " _ [Word n; Arrow] Between) by (vm_compute; reflexivity).
  rewrite (scan_ph_then _ _ H).
  rewrite (scan_then " [ label = " _ [Word (ph_name id); LBrack; Word "label"; Equals] Between) by (vm_compute; reflexivity).
  rewrite scan_quote_open, (scan_quoted_then "out_port: ") by reflexivity. rewrite scan_quoted_then by apply int_quotable. rewrite scan_quote_close.
  change (scan Between (" ];" ++ endl)%string) with (Some ([RBrack; Semi], Between)). reflexivity.
Qed.

(** ** Statements *)
Definition reads (ts : list token) (l : list stmt) : Prop := forall n, length ts <= n -> stmts n ts = Some l.
Lemma reads_end : reads [RBrace] [].
Proof. intros [|n] H; cbn in H; [lia|reflexivity]. Qed.
Lemma reads_semi r l : reads r l -> reads (Semi :: r) l.
Proof. intros H [|n] L; cbn in L; [lia|]. cbn [stmts]. apply H. lia. Qed.
Lemma reads_set a b r l : keyword a = false -> reads r l -> reads (Word a :: Equals :: Quoted b :: r) (SSet a b :: l).
Proof. intros K H [|n] L; cbn in L; [lia|]. cbn [stmts name_of]. rewrite K, H by lia. reflexivity. Qed.
Lemma ph_name_keyword id : keyword (ph_name id) = false.
Proof. reflexivity. Qed.
Lemma identifier_keyword s : identifier s = true -> keyword s = false.
Proof. destruct s; [discriminate|]. cbn [identifier]. intros H. apply andb_prop in H. destruct H as [_ H]. destruct (keyword (String a s)); [discriminate|reflexivity]. Qed.
Lemma reads_ph id s r l : reads r l -> reads (ph_tokens id s ++ r) ((let '(n, a) := ph_node id s in SNode n a) :: l).
Proof. intros H [|n] L; cbn in L; [lia|]. cbn [ph_tokens app stmts name_of attrs_opt attrs_from]. change (keyword "label") with false. change (keyword "shape") with false. change (keyword "box") with false. rewrite ph_name_keyword, H by lia. reflexivity. Qed.
Lemma reads_op n t r l : identifier n = true -> reads r l -> reads (op_tokens n t ++ r) ((let '(n, a) := op_node n t in SNode n a) :: l).
Proof. intros K H [|k] L; cbn in L; [lia|]. cbn [op_tokens app stmts name_of attrs_opt attrs_from]. change (keyword "label") with false. change (keyword "shape") with false. change (keyword "box") with false. rewrite (identifier_keyword _ K), H by lia. reflexivity. Qed.
Lemma reads_in id n port r l : reads r l -> reads (in_tokens id n port ++ r) ((let '(x, y, a) := in_edge id n port in SEdge x y a) :: l).
Proof. intros H [|k] L; cbn in L; [lia|]. cbn [in_tokens app stmts name_of attrs_opt attrs_from]. change (keyword "label") with false. change (keyword "shape") with false. change (keyword "box") with false. rewrite ph_name_keyword, H by lia. reflexivity. Qed.
Lemma reads_out id n port r l : identifier n = true -> reads r l -> reads (out_tokens n id port ++ r) ((let '(x, y, a) := out_edge n id port in SEdge x y a) :: l).
Proof.
  intros K H [|k] L; cbn in L; [lia|]. cbn [out_tokens app stmts name_of attrs_opt attrs_from]. change (keyword "label") with false. change (keyword "shape") with false. change (keyword "box") with false. rewrite ph_name_keyword, (identifier_keyword _ K).
  rewrite (reads_semi _ _ H) by (cbn; lia). reflexivity.
Qed.

(** Pieces one after the other: what they are as text, as words, and as statements. *)
Definition piece {A} (f : A -> res string) (g : A -> list stmt) (a : A) : Prop :=
  exists text ts, f a = Ok text /\ scan Between text = Some (ts, Between) /\ forall r l, reads r l -> reads (ts ++ r) (g a ++ l).
Lemma pieces {A} (f : A -> res string) (g : A -> list stmt) l : Forall (piece f g) l -> piece (out_all f) (flat_map g) l.
Proof.
  induction 1 as [|a l (x & ts & E & S & R) _ (y & us & E2 & S2 & R2)].
  - exists "", []. split; [reflexivity|]. split; [reflexivity|]. cbn. auto.
  - exists (x ++ y)%string, (ts ++ us). split; [cbn [out_all]; rewrite E; cbn [bind]; rewrite E2; reflexivity|]. split.
    + rewrite (scan_then _ _ _ _ _ S), S2. reflexivity.
    + intros r l' H. cbn [flat_map]. rewrite <- !app_assoc. apply R, R2, H.
Qed.
Lemma flat_map_single {A B} (f : A -> B) l : flat_map (fun a => [f a]) l = map f l.
Proof. induction l as [|a l IH]; cbn [flat_map map app]; [reflexivity|]. rewrite IH. reflexivity. Qed.

Lemma saved_pieces {F} (c : config F) g1 g2 g3 : Forall (piece dot_ph g1) (c_ph c) -> Forall (piece dot_op g2) (c_ops c) -> Forall (piece (dot_edges c) g3) (c_ops c) ->
  exists text, save_dot c = Ok text /\
    read_dot text = Some ("Deepworks_model", SSet "rankdir" "LR" :: flat_map g1 (c_ph c) ++ flat_map g2 (c_ops c) ++ flat_map g3 (c_ops c)).
Proof.
  intros P1 P2 P3. destruct (pieces _ _ _ P1) as (x & ts & E & S & R). destruct (pieces _ _ _ P2) as (y & us & E2 & S2 & R2). destruct (pieces _ _ _ P3) as (z & vs & E3 & S3 & R3).
  eexists. split; [unfold save_dot; rewrite E; cbn [bind]; rewrite E2; cbn [bind]; rewrite E3; reflexivity|].
  unfold read_dot.
  assert (T : tokens Between ("digraph Deepworks_model {" ++ endl ++ "rankdir=" ++ quote ++ "LR" ++ quote ++ endl ++ x ++ y ++ z ++ "}")%string =
    Some ([Word "digraph"; Word "Deepworks_model"; LBrace; Word "rankdir"; Equals; Quoted "LR"] ++ ts ++ us ++ vs ++ [RBrace])).
  { apply scan_tokens. rewrite (scan_then "digraph Deepworks_model {" _ [Word "digraph"; Word "Deepworks_model"; LBrace] Between) by (vm_compute; reflexivity).
    rewrite (scan_then endl _ [] Between) by (vm_compute; reflexivity). rewrite (scan_then "rankdir=" _ [Word "rankdir"; Equals] Between) by (vm_compute; reflexivity).
    rewrite scan_quote_open, (scan_quoted_then "LR"), scan_quote_close by reflexivity. rewrite (scan_then endl _ [] Between) by (vm_compute; reflexivity).
    rewrite (scan_then _ _ _ _ _ S), (scan_then _ _ _ _ _ S2), (scan_then _ _ _ _ _ S3). reflexivity. }
  rewrite T. cbn [app]. change (lower "digraph" =? "digraph")%string with true. change (name_of (Word "Deepworks_model")) with (Some "Deepworks_model"). cbn [andb].
  assert (RD : reads (Word "rankdir" :: Equals :: Quoted "LR" :: ts ++ us ++ vs ++ [RBrace])
    (SSet "rankdir" "LR" :: flat_map g1 (c_ph c) ++ flat_map g2 (c_ops c) ++ flat_map g3 (c_ops c))).
  { apply reads_set; [reflexivity|]. apply R, R2. rewrite <- (app_nil_r (flat_map g3 _)). apply R3, reads_end. }
  rewrite RD by (cbn; lia). reflexivity.
Qed.

Section Config.
Context {F : Type}.
Variable c : config F.
Hypothesis IDS : Forall (fun e => (0 <= snd (snd e))%Z) (c_ph c).
Hypothesis OPS : Forall (fun o => identifier (oi_name o) = true /\ quotable (oi_type o) = true) (c_ops c).
Hypothesis REF : refers c.

Lemma found k : In k (map fst (c_ph c)) -> exists ph, at_id (c_ph c) k = Ok ph /\ snd ph = recorded_as c k /\ (0 <= snd ph)%Z.
Proof.
  unfold at_id, recorded_as. intros H. clear REF. revert IDS H. generalize (c_ph c). induction l as [|[k' [s id]] l IH]; [intros _ []|].
  intros HI H. inversion HI; subst. cbn [find_id]. destruct (Z.eqb_spec k' k) as [->|N].
  - exists (s, id). cbn in *. auto.
  - apply IH; [assumption|]. destruct H as [H|H]; [exfalso; apply N, H|exact H].
Qed.
Lemma indexed_in {A} (l : list A) j k : In (j, k) (indexed l) -> In k l.
Proof. apply in_combine_r. Qed.

Lemma piece_ph e : In e (c_ph c) -> piece dot_ph (fun '(_, (s, id)) => [let '(n, a) := ph_node id s in SNode n a]) e.
Proof.
  intros H. destruct e as [k [s id]]. pose proof (proj1 (Forall_forall _ _) IDS _ H) as P. cbn in P.
  exists (ph_name id ++ " " ++ "[label=" ++ quote ++ ph_name id ++ endl ++ shape_text s ++ quote ++ " ]" ++ endl)%string, (ph_tokens id s).
  split; [unfold dot_ph; cbn [fst snd]; rewrite print_shape_ok; reflexivity|]. split; [apply scan_ph_piece, P|].
  intros r l R. cbn [app]. apply reads_ph, R.
Qed.
Lemma piece_op o : In o (c_ops c) -> piece dot_op (fun o => [let '(n, a) := op_node (oi_name o) (oi_type o) in SNode n a]) o.
Proof.
  intros H. destruct (proj1 (Forall_forall _ _) OPS _ H) as [P1 P2]. eexists _, (op_tokens (oi_name o) (oi_type o)).
  split; [reflexivity|]. split; [apply scan_op_piece; assumption|]. intros r l R. cbn [app]. apply reads_op; assumption.
Qed.
Lemma piece_in o : In o (c_ops c) -> forall it, In it (indexed (oi_in o)) ->
  piece (dot_in c o) (fun '(port, k) => [let '(x, y, a) := in_edge (recorded_as c k) (oi_name o) port in SEdge x y a]) it.
Proof.
  intros H [port k] Hi. destruct (proj1 (Forall_forall _ _) OPS _ H) as [P1 P2].
  destruct (found k) as (ph & E & E2 & P). { apply (REF o); [exact H|]. apply in_or_app. left. eapply indexed_in, Hi. }
  eexists _, (in_tokens (snd ph) (oi_name o) port). split; [unfold dot_in; rewrite E; reflexivity|].
  split; [apply (scan_in_piece (snd ph)); [exact P|apply identifier_quotable, P1]|]. intros r l R. cbn [app]. rewrite <- E2. apply reads_in, R.
Qed.
Lemma piece_out o : In o (c_ops c) -> forall it, In it (indexed (oi_out o)) ->
  piece (dot_out c o) (fun '(port, k) => [let '(x, y, a) := out_edge (oi_name o) (recorded_as c k) port in SEdge x y a]) it.
Proof.
  intros H [port k] Hi. destruct (proj1 (Forall_forall _ _) OPS _ H) as [P1 P2].
  destruct (found k) as (ph & E & E2 & P). { apply (REF o); [exact H|]. apply in_or_app. right. eapply indexed_in, Hi. }
  eexists _, (out_tokens (oi_name o) (snd ph) port). split; [unfold dot_out; rewrite E; reflexivity|].
  split; [apply (scan_out_piece (snd ph)); [exact P|exact P1]|]. intros r l R. cbn [app]. rewrite <- E2. apply reads_out; assumption.
Qed.
Lemma piece_edges o : In o (c_ops c) -> piece (dot_edges c) (fun o =>
   flat_map (fun '(port, k) => [let '(x, y, a) := in_edge (recorded_as c k) (oi_name o) port in SEdge x y a]) (indexed (oi_in o)) ++
   flat_map (fun '(port, k) => [let '(x, y, a) := out_edge (oi_name o) (recorded_as c k) port in SEdge x y a]) (indexed (oi_out o))) o.
Proof.
  intros H. destruct (pieces _ _ _ (proj2 (Forall_forall _ _) (piece_in o H))) as (x & ts & E & S & R).
  destruct (pieces _ _ _ (proj2 (Forall_forall _ _) (piece_out o H))) as (y & us & E2 & S2 & R2).
  exists (x ++ y)%string, (ts ++ us). split; [unfold dot_edges; rewrite E; cbn [bind]; rewrite E2; reflexivity|]. split.
  - rewrite (scan_then _ _ _ _ _ S), S2. reflexivity.
  - intros r l Hr. rewrite <- !app_assoc. apply R, R2, Hr.
Qed.

Theorem saved_as_described : exists text, save_dot c = Ok text /\ read_dot text = Some ("Deepworks_model", describe c).
Proof.
  destruct (saved_pieces c _ _ _ (proj2 (Forall_forall _ _) piece_ph) (proj2 (Forall_forall _ _) piece_op) (proj2 (Forall_forall _ _) piece_edges)) as (text & S & RD).
  exists text. split; [exact S|]. rewrite RD. unfold describe. f_equal. f_equal. f_equal. apply (f_equal2 (@app stmt)); [|apply (f_equal2 (@app stmt))].
  - clear. induction (c_ph c) as [|[k [s id]] l IH]; [reflexivity|]. cbn [flat_map map app]. rewrite IH. reflexivity.
  - apply flat_map_single.
  - apply flat_map_ext. intros o. f_equal; rewrite <- flat_map_single; apply flat_map_ext; intros [port k]; reflexivity.
Qed.
End Config.
