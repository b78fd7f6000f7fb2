(** Proofs for C62: a layer whose name is two words. *)
From Coq Require Import String Ascii Lia.
From Verif Require Import Base BaseFacts M_Tensor M_Optim M_Nn M_Graph M_Model M_Dot S_Graph S_Dot P_Dot P_Dot2.
Local Open Scope string_scope.
Local Open Scope list_scope.
Open Scope nat_scope.

Section TwoWords.
Context {F : Type}.
Variables a b t : string.
Hypothesis Ia : identifier a = true.
Hypothesis Ib : identifier b = true.
Hypothesis Qt : quotable t = true.
Let n := (a ++ " " ++ b)%string.
Lemma two_quotable : quotable n = true.
Proof. unfold n. rewrite !quotable_app, (identifier_quotable _ Ia), (identifier_quotable _ Ib). reflexivity. Qed.
Lemma scan_two r : scan Between (n ++ r)%string = match scan (InWord b) r with Some (l, q) => Some (Word a :: l, q) | None => None end.
Proof.
  unfold n. rewrite !sapp_assoc, (scan_word_then _ _ Ia). rewrite (scan_then " " _ [Word a] Between) by reflexivity.
  rewrite (scan_word_then _ _ Ib). reflexivity.
Qed.
Lemma reads_word r l : reads (Word b :: r) l -> keyword a = false -> reads (Word a :: Word b :: r) (SNode a [] :: l).
Proof. intros H K [|k] L; cbn in L; [lia|]. cbn [stmts name_of attrs_opt]. rewrite K, H by (cbn; lia). reflexivity. Qed.

Lemma two_words (ins outs : list Z) (s0 s1 : shape) attrs :
  exists text l, save_dot (@mkCfg F ins outs [(0, (s0, 0)); (1, (s1, 1))]%Z [mkOI n t attrs [0%Z] [1%Z]]) = Ok text /\
    read_dot text = Some ("Deepworks_model", l) /\
    nodes_of l = [ph_node 0 s0; ph_node 1 s1; (a, []); (b, snd (op_node n t)); (a, [])] /\
    edges_of l = [in_edge 0 n 0; out_edge b 1 0].
Proof.
  set (c := mkCfg _ _ _ _).
  destruct (saved_pieces c (fun '(_, (s, id)) => [let '(n, a) := ph_node id s in SNode n a])
              (fun o => [SNode a []; SNode b (snd (op_node n t))])
              (fun o => [let '(x, y, l) := in_edge 0 n 0 in SEdge x y l; SNode a []; let '(x, y, l) := out_edge b 1 0 in SEdge x y l])) as (text & S & RD).
  - apply Forall_forall, piece_ph. repeat constructor; cbn; lia.
  - constructor; [|constructor]. eexists _, (Word a :: Word b :: tl (op_tokens n t)). split; [reflexivity|]. split.
    + cbn [oi_name oi_type]. rewrite scan_two. 
      rewrite (scan_then " [shape=box, label=" _ [Word b; LBrack; Word "shape"; Equals; Word "box"; Comma; Word "label"; Equals] Between) by (vm_compute; reflexivity).
      rewrite scan_quote_open, scan_quoted_then by apply two_quotable. rewrite (scan_quoted_then " (") by reflexivity.
      rewrite scan_quoted_then by exact Qt. rewrite (scan_quoted_then ")") by reflexivity. rewrite scan_quote_close.
      change (scan Between (" ]" ++ endl)%string) with (Some ([RBrack], Between)). rewrite !sapp_assoc. reflexivity.
    + intros r l R. cbn [app]. apply reads_word; [|apply identifier_keyword, Ia].
      intros [|k] L; cbn in L; [lia|]. cbn [op_tokens tl app stmts name_of attrs_opt attrs_from].
      change (keyword "label") with false. change (keyword "shape") with false. change (keyword "box") with false.
      rewrite (identifier_keyword _ Ib), R by lia. reflexivity.
  - constructor; [|constructor]. eexists _, (in_tokens 0 n 0 ++ Word a :: out_tokens b 1 0). split; [reflexivity|]. split.
    + cbn [oi_name]. rewrite !sapp_nil. erewrite scan_then; [|apply (scan_in_piece 0 n 0); [lia|apply two_quotable]].
      rewrite scan_two. rewrite (scan_then " -> " _ [Word b; Arrow] Between) by (vm_compute; reflexivity).
      rewrite (scan_ph_then 1) by lia.
      rewrite (scan_then " [ label = " _ [Word (ph_name 1); LBrack; Word "label"; Equals] Between) by (vm_compute; reflexivity).
      rewrite scan_quote_open, (scan_quoted_then "out_port: ") by reflexivity. rewrite scan_quoted_then by apply int_quotable. rewrite scan_quote_close.
      change (scan Between (" ];" ++ endl)%string) with (Some ([RBrack; Semi], Between)). reflexivity.
    + intros r l R. rewrite <- app_assoc. cbn [app]. apply (reads_in 0 n 0). change (Word a :: out_tokens b 1 0 ++ r) with (Word a :: Word b :: tl (out_tokens b 1 0) ++ r).
      apply reads_word; [|apply identifier_keyword, Ia]. apply (reads_out 1 b 0 r l Ib R).
  - exists text. eexists. split; [exact S|]. split; [exact RD|]. split; reflexivity.
Qed.
End TwoWords.
