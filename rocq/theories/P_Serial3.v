(** Proofs about M_Serial: damaged and cut configurations. *)
From Coq Require Import String Ascii NArith.
From Verif Require Import Base BaseFacts M_Optim M_Nn M_Model M_Serial S_Serial P_Serial P_Serial2.
Open Scope Z_scope.
Local Open Scope list_scope.

(** An exception, or everything has been read. *)
Definition quiet {A} (r : res (A * bytes)) : Prop := r = Throw \/ exists x, r = Ok (x, []).

Lemma bind_cut {A B} (f : bytes -> res (A * bytes)) (g : A -> bytes -> res (B * bytes)) w1 w2 x c :
  (forall s, f (w1 ++ s) = Ok (x, s)) -> (forall c, (c <= length w1)%nat -> quiet (f (firstn c w1))) ->
  (forall c, (c <= length w2)%nat -> quiet (g x (firstn c w2))) -> (forall y, quiet (g y [])) -> (c <= length (w1 ++ w2))%nat ->
  quiet ('(y, s1) <- f (firstn c (w1 ++ w2)) ;; g y s1).
Proof.
  intros F C1 C2 N L. rewrite app_length in L. destruct (le_lt_dec c (length w1)) as [E|E].
  - rewrite firstn_in by exact E. destruct (C1 c E) as [->|[y ->]]; [left; reflexivity|]. apply N.
  - rewrite firstn_past by lia. rewrite F. cbn [bind]. apply C2. lia.
Qed.

Lemma int_cut {B} (g : Z -> bytes -> res (B * bytes)) w2 z c :
  int32 z -> (forall c, (c <= length w2)%nat -> quiet (g z (firstn c w2))) -> (forall y, quiet (g y [])) ->
  (c <= length (write_int z ++ w2))%nat -> quiet (let '(y, s1) := read_int (firstn c (write_int z ++ w2)) in g y s1).
Proof.
  intros Z C2 N L. rewrite app_length in L. assert (W : length (write_int z) = 4%nat) by apply le_length. destruct (le_lt_dec c 4) as [E|E].
  - rewrite firstn_in by lia. unfold read_int, read_into. rewrite (skipn_past (firstn c (write_int z))) by (rewrite firstn_length; change (Z.to_nat 4) with 4%nat; lia). apply N.
  - rewrite firstn_past by lia. rewrite read_int_ok by assumption. apply C2. lia.
Qed.

Lemma size_cut {B} (g : Z -> bytes -> res (B * bytes)) w2 z c :
  0 <= z < 2 ^ 64 -> (forall c, (c <= length w2)%nat -> quiet (g z (firstn c w2))) -> (forall y, 0 <= y <= z -> quiet (g y [])) ->
  (c <= length (write_size z ++ w2))%nat -> quiet (let '(y, s1) := read_size (firstn c (write_size z ++ w2)) in g y s1).
Proof.
  intros Z C2 N L. rewrite app_length in L. assert (W : length (write_size z) = 8%nat) by apply le_length. destruct (le_lt_dec c 8) as [E|E].
  - rewrite firstn_in by lia. unfold read_size, read_into. rewrite (skipn_past (firstn c (write_size z))) by (rewrite firstn_length; change (Z.to_nat 8) with 8%nat; lia).
    apply N. rewrite firstn_firstn. unfold zeros. change (Z.to_nat 8) with 8%nat. rewrite Nat.min_r by exact E.
    assert (Q : skipn (length (firstn c (write_size z))) (repeat zero 8) = repeat zero (8 - c)).
    { rewrite firstn_length, W, Nat.min_l by exact E. clear. do 9 (destruct c as [|c]; [reflexivity|]). reflexivity. }
    rewrite Q, unle_zeros. split; [apply unle_nonneg|]. apply (unle_cut (fun _ => true)). exact (proj1 Z).
  - rewrite firstn_past by lia. rewrite read_size_ok by assumption. apply C2. lia.
Qed.

Section Reading.
Variable can : Z -> bool.
Variable junk : bytes -> bytes.

Lemma read_int_nil : read_int [] = (0, []).
Proof. reflexivity. Qed.
Lemma array_nil : quiet (read_array junk []).
Proof. right. unfold read_array. cbn. eexists. reflexivity. Qed.

Lemma array_cut b c : length b = 8%nat -> (c <= length (write_size 2 ++ b))%nat -> quiet (read_array junk (firstn c (write_size 2 ++ b))).
Proof.
  intros B L. unfold read_array. apply (size_cut (fun n s1 => let m := (n * 4) mod 2 ^ 64 in let got := firstn (Z.to_nat m) s1 in
    if (8 <? length got)%nat then UB else Ok (firstn 8 (got ++ skipn (length got) (junk _)), skipn (Z.to_nat m) s1))); [lia| | |exact L].
  - intros c1 L1. cbv zeta. change ((2 * 4) mod 2 ^ 64) with 8. change (Z.to_nat 8) with 8%nat.
    replace (8 <? _)%nat with false by (symmetry; apply Nat.ltb_ge; rewrite firstn_length; lia). right. eexists. rewrite (skipn_past _ 8) by (rewrite firstn_length; lia). reflexivity.
  - intros y _. cbv zeta. rewrite firstn_nil, skipn_nil. right. eexists. reflexivity.
Qed.

(** After the size of the array is wrong, more than two values are stored. *)
Lemma array_overrun n s : 2 < n < 2 ^ 62 -> (8 < length s)%nat -> read_array junk (write_size n ++ s) = UB.
Proof.
  intros N L. unfold read_array. rewrite read_size_ok by lia. cbv zeta. rewrite Z.mod_small by lia.
  replace (8 <? _)%nat with true; [reflexivity|]. symmetry. apply Nat.ltb_lt. rewrite firstn_length. lia.
Qed.

Lemma attr_tail_nil sh ty : quiet (if sh =? 0 then
    if ty =? 1 then let '(z, s3) := read_int [] in Ok (AInt z, s3)
    else if ty =? 2 then let '(w, s3) := read_float [] in Ok (AFloat w, s3)
    else Throw
  else if sh =? 1 then
    if ty =? 1 then '(b, s3) <- read_array junk [] ;; Ok (AInt2 (signed (unle (firstn 4 b))) (signed (unle (skipn 4 b))), s3)
    else if ty =? 2 then '(b, s3) <- read_array junk [] ;; Ok (AFloat2 (unle (firstn 4 b)) (unle (skipn 4 b)), s3)
    else Throw
  else Throw).
Proof.
  destruct array_nil as [A|[b A]]; rewrite A; destruct (sh =? 0), (sh =? 1), (ty =? 1), (ty =? 2); cbn [bind]; first [left; reflexivity | right; eexists; reflexivity].
Qed.

Lemma attribute_nil : quiet (read_attribute junk []).
Proof. left. reflexivity. Qed.

Lemma attribute_cut a c : good_attr a -> (c <= length (attr_bytes a))%nat -> quiet (read_attribute junk (firstn c (attr_bytes a))).
Proof.
  intros G. unfold read_attribute.
  assert (K : forall sh ty w2, int32 sh -> int32 ty ->
    (forall c, (c <= length w2)%nat -> quiet (if sh =? 0 then
      if ty =? 1 then let '(z, s3) := read_int (firstn c w2) in Ok (AInt z, s3)
      else if ty =? 2 then let '(w, s3) := read_float (firstn c w2) in Ok (AFloat w, s3)
      else Throw
    else if sh =? 1 then
      if ty =? 1 then '(b, s3) <- read_array junk (firstn c w2) ;; Ok (AInt2 (signed (unle (firstn 4 b))) (signed (unle (skipn 4 b))), s3)
      else if ty =? 2 then '(b, s3) <- read_array junk (firstn c w2) ;; Ok (AFloat2 (unle (firstn 4 b)) (unle (skipn 4 b)), s3)
      else Throw
    else Throw)) ->
    forall c, (c <= length (write_int sh ++ write_int ty ++ w2))%nat -> quiet (read_attribute junk (firstn c (write_int sh ++ write_int ty ++ w2)))).
  { intros sh ty w2 I1 I2 H c0 L0. unfold read_attribute. apply int_cut; [exact I1| | |exact L0].
    - intros c1 L1. apply int_cut; [exact I2| | |exact L1]; [exact H|]. intros y. apply attr_tail_nil.
    - intros y. rewrite read_int_nil. apply attr_tail_nil. }
  destruct a as [z|w|x y|x y|]; [| | | |contradiction]; unfold attr_bytes; cbn [write_attribute good_attr] in *; intros L; apply K; try exact L; try (unfold int32; lia).
  - intros c1 L1. cbn [Z.eqb]. change (1 =? 1) with true. cbn iota. unfold write_int in L1. rewrite le_length in L1. right. unfold read_int, read_into.
    eexists. rewrite (skipn_past _ (Z.to_nat 4)) by (rewrite firstn_length; change (Z.to_nat 4) with 4%nat; lia). reflexivity.
  - intros c1 L1. cbn [Z.eqb]. change (2 =? 1) with false. change (2 =? 2) with true. cbn iota. unfold write_float in L1. rewrite le_length in L1. right. unfold read_float, read_into.
    eexists. rewrite (skipn_past _ (Z.to_nat 4)) by (rewrite firstn_length; change (Z.to_nat 4) with 4%nat; lia). reflexivity.
  - intros c1 L1. change (1 =? 0) with false. change (1 =? 1) with true. cbn iota. destruct (array_cut (write_int x ++ write_int y) c1) as [A|[b A]].
    + rewrite app_length. unfold write_int. rewrite !le_length. reflexivity.
    + exact L1.
    + rewrite A. left. reflexivity.
    + rewrite A. right. eexists. reflexivity.
  - intros c1 L1. change (1 =? 0) with false. change (1 =? 1) with true. change (2 =? 1) with false. change (2 =? 2) with true. cbn iota.
    destruct (array_cut (write_float x ++ write_float y) c1) as [A|[b A]].
    + rewrite app_length. unfold write_float. rewrite !le_length. reflexivity.
    + exact L1.
    + rewrite A. left. reflexivity.
    + rewrite A. right. eexists. reflexivity.
Qed.

Lemma count_nil {A} (body : A -> bytes -> res (A * bytes)) n : (forall a, quiet (body a [])) ->
  forall i a, i + Z.of_nat n < 2 ^ 31 -> quiet (count n i body a []).
Proof.
  intros B. induction n as [|n IH]; intros i a I; cbn [count]; [right; eexists; reflexivity|].
  destruct (B a) as [->|[y ->]]; cbn [bind]; [left; reflexivity|]. replace (i =? 2 ^ 31 - 1) with false by lia. apply IH. lia.
Qed.

Lemma count_cut {A X} (body : A -> bytes -> res (A * bytes)) (w : X -> bytes) (step : A -> X -> A) xs :
  (forall a, quiet (body a [])) -> Forall (fun x => forall a s, body a (w x ++ s) = Ok (step a x, s)) xs ->
  Forall (fun x => forall a c, (c <= length (w x))%nat -> quiet (body a (firstn c (w x)))) xs ->
  forall i a c, i + Z.of_nat (length xs) < 2 ^ 31 -> (c <= length (concat (map w xs)))%nat ->
  quiet (count (length xs) i body a (firstn c (concat (map w xs)))).
Proof.
  intros B. induction xs as [|x xs IH]; intros F C i a c I L; [rewrite firstn_nil; right; eexists; reflexivity|].
  inversion F as [|? ? F1 F2]; subst. inversion C as [|? ? C1 C2]; subst. cbn [length map concat count] in *. rewrite app_length in L.
  destruct (le_lt_dec c (length (w x))) as [E|E].
  - rewrite firstn_in by exact E. destruct (C1 a c E) as [->|[y ->]]; cbn [bind]; [left; reflexivity|].
    replace (i =? 2 ^ 31 - 1) with false by lia. apply count_nil; [exact B|lia].
  - rewrite firstn_past by lia. rewrite F1. cbn [bind]. replace (i =? 2 ^ 31 - 1) with false by lia. apply IH; try assumption; lia.
Qed.

(** For lists of operations: the complete ones are there. *)
Lemma snoc_cut {X} (body : list X -> bytes -> res (list X * bytes)) (w : X -> bytes) xs :
  (forall a, body a [] = Throw \/ exists y, body a [] = Ok (a ++ [y], [])) -> Forall (fun x => forall a s, body a (w x ++ s) = Ok (a ++ [x], s)) xs ->
  Forall (fun x => forall a c, (c <= length (w x))%nat -> body a (firstn c (w x)) = Throw \/ exists y, body a (firstn c (w x)) = Ok (a ++ [y], [])) xs ->
  forall i a c, i + Z.of_nat (length xs) < 2 ^ 31 ->
  let r := count (length xs) i body a (firstn c (concat (map w xs))) in
  r = Throw \/ exists k l, r = Ok (a ++ firstn k xs ++ l, []) /\ length (firstn k xs ++ l) = length xs /\
    forall j, (j < length xs)%nat -> (length (concat (map w (firstn (S j) xs))) <= c)%nat -> (j < k)%nat.
Proof.
  assert (N : forall (body : list X -> bytes -> res (list X * bytes)) n, (forall a, body a [] = Throw \/ exists y, body a [] = Ok (a ++ [y], [])) ->
    forall i a, i + Z.of_nat n < 2 ^ 31 -> count n i body a [] = Throw \/ exists l, count n i body a [] = Ok (a ++ l, []) /\ length l = n).
  { intros bd n B. induction n as [|n IH]; intros i a I; cbn [count]; [right; exists []; rewrite app_nil_r; auto|].
    destruct (B a) as [->|[y ->]]; cbn [bind]; [left; reflexivity|]. replace (i =? 2 ^ 31 - 1) with false by lia.
    destruct (IH (i + 1) (a ++ [y])) as [->|(l & -> & Ll)]; [lia|left; reflexivity|]. right. exists (y :: l). rewrite <- app_assoc. cbn. auto. }
  intros B. cbv zeta. induction xs as [|x xs IH]; intros F C i a c I.
  { rewrite firstn_nil. right. exists 0%nat, []. cbn. rewrite app_nil_r. repeat split. intros; lia. }
  inversion F as [|? ? F1 F2]; subst. inversion C as [|? ? C1 C2]; subst. cbn [length map concat count] in *.
  destruct (le_lt_dec (length (w x)) c) as [E|E].
  - rewrite firstn_past by lia. rewrite F1. cbn [bind]. replace (i =? 2 ^ 31 - 1) with false by lia.
    destruct (IH F2 C2 (i + 1) (a ++ [x]) (c - length (w x))%nat) as [->|(k & l & -> & Ll & K)]; [lia|left; reflexivity|].
    right. exists (S k), l. rewrite <- app_assoc. cbn [firstn app length]. split; [reflexivity|]. split; [lia|]. intros [|j] J1 J2; [lia|].
    cbn [firstn map concat] in J2. rewrite app_length in J2. specialize (K j). cbn [firstn map concat] in K. cut (j < k)%nat; [lia|]. apply K; [lia|]. lia.
  - rewrite firstn_in by lia. destruct (C1 a c) as [->|[y ->]]; cbn [bind]; [lia|left; reflexivity|]. replace (i =? 2 ^ 31 - 1) with false by lia.
    destruct (N body (length xs) B (i + 1) (a ++ [y])) as [->|(l & -> & Ll)]; [lia|left; reflexivity|].
    right. exists 0%nat, (y :: l). rewrite <- app_assoc. cbn [firstn app length]. split; [reflexivity|]. split; [lia|]. intros j J1 J2.
    cbn [firstn map concat] in J2. rewrite app_length in J2. lia.
Qed.

Lemma string_nil : quiet (read_string can []).
Proof. exact (read_string_nil can). Qed.
Lemma ints_nil : quiet (read_ints can []).
Proof. exact (read_ints_nil can). Qed.

Lemma attributes_nil : quiet (read_attributes can junk []).
Proof. right. unfold read_attributes. cbn. eexists. reflexivity. Qed.

Lemma attributes_cut l c : good_attrs can l -> (c <= length (attrs_bytes l))%nat -> quiet (read_attributes can junk (firstn c (attrs_bytes l))).
Proof.
  intros (L & N & G) C. unfold read_attributes, attrs_bytes in *.
  assert (BN : forall m, quiet ('(k, s1) <- read_string can [] ;; '(a, s2) <- read_attribute junk s1 ;; Ok (emplace m k a, s2))).
  { intros m. destruct string_nil as [->|[k ->]]; cbn [bind]; [left; reflexivity|]. destruct attribute_nil as [->|[a ->]]; cbn [bind]; [left; reflexivity|]. right. eexists. reflexivity. }
  apply (size_cut (fun n s1 => count (Z.to_nat n) 0 (fun m s => '(k, s1) <- read_string can s ;; '(a, s2) <- read_attribute junk s1 ;; Ok (emplace m k a, s2)) [] s1)); [lia| | |exact C].
  - intros c1 L1. rewrite Nat2Z.id. apply (count_cut _ entry_bytes (fun m e => emplace m (fst e) (snd e))); [exact BN| | |lia|exact L1].
    + rewrite Forall_forall in G |- *. intros [k a] E m s1. destruct (G _ E) as [G1 G2]. unfold entry_bytes. cbn [fst snd] in *.
      rewrite <- app_assoc, read_string_ok by assumption. cbn [bind]. rewrite read_attribute_ok by assumption. reflexivity.
    + rewrite Forall_forall in G |- *. intros [k a] E m c2 L2. destruct (G _ E) as [G1 G2]. unfold entry_bytes in *. cbn [fst snd] in *.
      apply (bind_cut (read_string can) (fun k s1 => '(a0, s2) <- read_attribute junk s1 ;; Ok (emplace m k a0, s2)) _ _ k); [intros; apply read_string_ok; assumption| | | |exact L2].
      * intros c3 L3. apply cut_string; [exact L3|apply G1].
      * intros c3 L3. destruct (attribute_cut a c3 G2 L3) as [->|[a0 ->]]; [left; reflexivity|]. right. eexists. reflexivity.
      * intros y. destruct attribute_nil as [->|[a0 ->]]; [left; reflexivity|]. right. eexists. reflexivity.
  - intros y Y. apply count_nil; [exact BN|]. rewrite Z2Nat.id; lia.
Qed.

Lemma op_nil : quiet (read_op can junk []).
Proof.
  unfold read_op. destruct string_nil as [->|[y1 ->]]; cbn [bind]; [left; reflexivity|]. destruct string_nil as [->|[y2 ->]]; cbn [bind]; [left; reflexivity|].
  destruct ints_nil as [->|[y3 ->]]; cbn [bind]; [left; reflexivity|]. destruct ints_nil as [->|[y4 ->]]; cbn [bind]; [left; reflexivity|].
  destruct attributes_nil as [->|[y5 ->]]; cbn [bind]; [left; reflexivity|]. right. eexists. reflexivity.
Qed.

Ltac nils := repeat (match goal with
  | |- context [read_string can []] => let y := fresh in destruct string_nil as [->|[y ->]]
  | |- context [read_ints can []] => let y := fresh in destruct ints_nil as [->|[y ->]]
  | |- context [read_attributes can junk []] => let y := fresh in destruct attributes_nil as [->|[y ->]]
  end; cbn [bind]; [left; reflexivity|]); right; eexists; reflexivity.

Lemma op_cut o c : good_op can o -> (c <= length (op_bytes o))%nat -> quiet (read_op can junk (firstn c (op_bytes o))).
Proof.
  intros (G1 & G2 & G3 & G4 & G5) C. unfold read_op, op_bytes in *.
  apply (bind_cut (read_string can)) with (x := oi_name o); [intros; apply read_string_ok; assumption|intros; apply cut_string; [assumption|apply G1]| |intros y; nils|exact C].
  clear c C. intros c C. apply (bind_cut (read_string can)) with (x := oi_type o); [intros; apply read_string_ok; assumption|intros; apply cut_string; [assumption|apply G2]| |intros y; nils|exact C].
  clear c C. intros c C. apply (bind_cut (read_ints can)) with (x := oi_in o); [intros; apply read_ints_ok; assumption|intros; apply cut_ints; [assumption|apply G3]| |intros y; nils|exact C].
  clear c C. intros c C. apply (bind_cut (read_ints can)) with (x := oi_out o); [intros; apply read_ints_ok; assumption|intros; apply cut_ints; [assumption|apply G4]| |intros y; nils|exact C].
  clear c C. intros c C. destruct (attributes_cut (oi_attrs o) c G5 C) as [->|[y ->]]; [left; reflexivity|]. right. eexists. reflexivity.
Qed.

Definition op_body (l : list (opinfo Z)) (s : bytes) : res (list (opinfo Z) * bytes) := '(op, s1) <- read_op can junk s ;; Ok (l ++ [op], s1).
Definition ph_body (m : list (Z * (shape * Z))) (s : bytes) : res (list (Z * (shape * Z)) * bytes) :=
  let '(id, s1) := read_int s in '(sh, s2) <- read_ints can s1 ;; Ok (emplace_id m id (sh, id), s2).
Definition ops_part (i o : list Z) (phs : list (Z * (shape * Z))) (s : bytes) : res (config Z * bytes) :=
  let '(no, s6) := read_size s in '(ops, s7) <- count (Z.to_nat no) 0 op_body [] s6 ;; Ok (mkCfg i o phs ops, s7).

Lemma op_body_nil a : op_body a [] = Throw \/ exists y, op_body a [] = Ok (a ++ [y], []).
Proof. unfold op_body. destruct op_nil as [->|[y ->]]; [left; reflexivity|]. right. eexists. reflexivity. Qed.
Lemma op_body_cut o a c : good_op can o -> (c <= length (op_bytes o))%nat ->
  op_body a (firstn c (op_bytes o)) = Throw \/ exists y, op_body a (firstn c (op_bytes o)) = Ok (a ++ [y], []).
Proof. intros G C. unfold op_body. destruct (op_cut o c G C) as [->|[y ->]]; [left; reflexivity|]. right. eexists. reflexivity. Qed.
Lemma ph_body_nil m : quiet (ph_body m []).
Proof. unfold ph_body. rewrite read_int_nil. nils. Qed.

Lemma ops_part_nil i o phs : quiet (ops_part i o phs []).
Proof. right. unfold ops_part. cbn. eexists. reflexivity. Qed.

Lemma ops_part_cut i o phs ops c : Z.of_nat (length ops) < 2 ^ 31 -> Forall (good_op can) ops -> (8 <= c)%nat ->
  let r := ops_part i o phs (firstn c (write_size (Z.of_nat (length ops)) ++ concat (map op_bytes ops))) in
  r = Throw \/ exists k l, r = Ok (mkCfg i o phs (firstn k ops ++ l), []) /\ length (firstn k ops ++ l) = length ops /\
    forall j, (j < length ops)%nat -> (8 + length (concat (map op_bytes (firstn (S j) ops))) <= c)%nat -> (j < k)%nat.
Proof.
  intros L G C. cbv zeta. unfold ops_part. assert (W : length (write_size (Z.of_nat (length ops))) = 8%nat) by apply le_length.
  rewrite firstn_past by lia. rewrite read_size_ok by lia. rewrite Nat2Z.id, W.
  destruct (snoc_cut op_body op_bytes ops op_body_nil) with (i := 0) (a := @nil (opinfo Z)) (c := (c - 8)%nat) as [->|(k & l & -> & Ll & K)].
  - rewrite Forall_forall in G |- *. intros x E l s1. unfold op_body. rewrite read_op_ok by (apply G, E). reflexivity.
  - rewrite Forall_forall in G |- *. intros x E l c1. apply op_body_cut, G, E.
  - lia.
  - left. reflexivity.
  - right. exists k, l. cbn [bind app]. split; [reflexivity|]. split; [exact Ll|]. intros j J1 J2. apply K; [exact J1|lia].
Qed.

Lemma load_cfg_eq s : load_cfg can junk s =
  (let '(kind, s1) := read_int s in if kind =? 1 then
    '(i, s2) <- read_ints can s1 ;; '(o, s3) <- read_ints can s2 ;; let '(np, s4) := read_size s3 in
    '(phs, s5) <- count (Z.to_nat np) 0 ph_body [] s4 ;; ops_part i o phs s5 else Throw).
Proof. reflexivity. Qed.

Definition head_bytes (c : config Z) : bytes :=
  write_int 1 ++ write_ints (c_in c) ++ write_ints (c_out c) ++ write_size (Z.of_nat (length (c_ph c))) ++ concat (map ph_bytes (c_ph c)).

Lemma ph_body_ok id sh m s : int32 id -> good_ints can sh -> ph_body m (ph_bytes (id, (sh, id)) ++ s) = Ok (emplace_id m id (sh, id), s).
Proof. intros A B. unfold ph_body, ph_bytes. cbn [fst snd]. rewrite <- app_assoc, read_int_ok by assumption. rewrite read_ints_ok by assumption. reflexivity. Qed.

Lemma load_head c s : good_cfg can c -> load_cfg can junk (head_bytes c ++ s) = ops_part (c_in c) (c_out c) (c_ph c) s.
Proof.
  intros (G1 & G2 & G3 & G4 & G5 & G6 & G7). rewrite load_cfg_eq. unfold head_bytes. rewrite <- !app_assoc.
  rewrite read_int_ok by (unfold int32; lia). change (1 =? 1) with true. cbn iota.
  rewrite read_ints_ok by assumption. cbn [bind]. rewrite read_ints_ok by assumption. cbn [bind].
  rewrite read_size_ok by lia. rewrite Nat2Z.id. rewrite (count_ok can junk _ ph_bytes (fun m e => emplace_id m (fst e) (snd e))); [| lia |].
  - rewrite (emplace_id_all can) by exact G4. reflexivity.
  - rewrite Forall_forall in G5 |- *. intros [id [sh x]] E m s1. destruct (G5 _ E) as (A & B & C). cbn [fst snd] in *. subst x. apply ph_body_ok; assumption.
Qed.

Lemma load_head_cut c k : good_cfg can c -> (k <= length (head_bytes c))%nat -> quiet (load_cfg can junk (firstn k (head_bytes c))).
Proof.
  intros (G1 & G2 & G3 & G4 & G5 & G6 & G7) C. rewrite load_cfg_eq. unfold head_bytes in *.
  assert (T : forall i o np, 0 <= np < 2 ^ 31 -> quiet ('(phs, s5) <- count (Z.to_nat np) 0 ph_body [] [] ;; ops_part i o phs s5)).
  { intros i o np NP. destruct (count_nil ph_body (Z.to_nat np) ph_body_nil 0 []) as [->|[p ->]]; [rewrite Z2Nat.id; lia|left; reflexivity|]. apply ops_part_nil. }
  apply (int_cut (fun kind s1 => if kind =? 1 then
    '(i, s2) <- read_ints can s1 ;; '(o, s3) <- read_ints can s2 ;; let '(np, s4) := read_size s3 in
    '(phs, s5) <- count (Z.to_nat np) 0 ph_body [] s4 ;; ops_part i o phs s5 else Throw)); [unfold int32; lia| | |exact C].
  2:{ intros y. destruct (y =? 1); [|left; reflexivity]. destruct ints_nil as [->|[i ->]]; cbn [bind]; [left; reflexivity|].
      destruct ints_nil as [->|[o ->]]; cbn [bind]; [left; reflexivity|]. apply (T i o 0). lia. }
  clear k C. intros k C. change (1 =? 1) with true. cbn iota.
  apply (bind_cut (read_ints can)) with (x := c_in c); [intros; apply read_ints_ok; assumption|intros; apply cut_ints; [assumption|apply G1]| | |exact C].
  2:{ intros y. destruct ints_nil as [->|[o ->]]; cbn [bind]; [left; reflexivity|]. apply (T y o 0). lia. }
  clear k C. intros k C.
  apply (bind_cut (read_ints can)) with (x := c_out c); [intros; apply read_ints_ok; assumption|intros; apply cut_ints; [assumption|apply G2]| | |exact C].
  2:{ intros y. apply (T (c_in c) y 0). lia. }
  clear k C. intros k C.
  apply (size_cut (fun np s4 => '(phs, s5) <- count (Z.to_nat np) 0 ph_body [] s4 ;; ops_part (c_in c) (c_out c) phs s5)); [lia| | |exact C].
  2:{ intros y Y. apply T. lia. }
  clear k C. intros k C. rewrite Nat2Z.id.
  destruct (count_cut ph_body ph_bytes (fun m e => emplace_id m (fst e) (snd e)) (c_ph c) ph_body_nil) with (i := 0) (a := @nil (Z * (shape * Z))) (c := k) as [->|[p ->]]; try lia.
  - rewrite Forall_forall in G5 |- *. intros [id [sh x]] E m s1. destruct (G5 _ E) as (A & B & D). cbn [fst snd] in *. subst x. apply ph_body_ok; assumption.
  - rewrite Forall_forall in G5 |- *. intros [id [sh x]] E m c2 L2. destruct (G5 _ E) as (A & B & D). cbn [fst snd] in *. subst x. unfold ph_body, ph_bytes in *. cbn [fst snd] in *.
    apply (int_cut (fun id s1 => '(sh, s2) <- read_ints can s1 ;; Ok (emplace_id m id (sh, id), s2))); [exact A| | |exact L2].
    + intros c3 L3. destruct (cut_ints can sh c3 L3) as [->|[y ->]]; [apply B|left; reflexivity|]. right. eexists. reflexivity.
    + intros y. destruct ints_nil as [->|[z ->]]; [left; reflexivity|]. right. eexists. reflexivity.
  - left. reflexivity.
  - apply ops_part_nil.
Qed.

Lemma cfg_head c : cfg_bytes c = head_bytes c ++ write_size (Z.of_nat (length (c_ops c))) ++ concat (map op_bytes (c_ops c)).
Proof. unfold cfg_bytes, head_bytes. rewrite <- !app_assoc. reflexivity. Qed.

Lemma load_cfg_cut c k : good_cfg can c ->
  let r := load_cfg can junk (firstn k (cfg_bytes c)) in
  r = Throw \/ exists c', r = Ok (c', []) /\
    ((length (head_bytes c) + 8 <= k)%nat -> c_in c' = c_in c /\ c_out c' = c_out c /\ c_ph c' = c_ph c /\ length (c_ops c') = length (c_ops c) /\
       forall j, (j < length (c_ops c))%nat -> (length (head_bytes c) + 8 + length (concat (map op_bytes (firstn (S j) (c_ops c)))) <= k)%nat ->
         nth_error (c_ops c') j = nth_error (c_ops c) j).
Proof.
  intros G. cbv zeta. rewrite cfg_head. assert (G0 := G). destruct G0 as (G1 & G2 & G3 & G4 & G5 & G6 & G7).
  destruct (le_lt_dec (length (head_bytes c) + 8) k) as [E|E].
  - rewrite firstn_past by lia. rewrite load_head by exact G.
    destruct (ops_part_cut (c_in c) (c_out c) (c_ph c) (c_ops c) (k - length (head_bytes c)) G6 G7) as [->|(n & l & -> & Ll & K)]; [lia|left; reflexivity|].
    right. eexists. split; [reflexivity|]. intros _. cbn [c_in c_out c_ph c_ops]. repeat (split; [reflexivity|]). split; [exact Ll|].
    intros j J1 J2. assert (J : (j < n)%nat) by (apply K; [exact J1|lia]).
    rewrite nth_error_app1 by (rewrite firstn_length; lia).
    rewrite <- (firstn_skipn n (c_ops c)) at 2. rewrite nth_error_app1 by (rewrite firstn_length; lia). reflexivity.
  - assert (Q : quiet (load_cfg can junk (firstn k (head_bytes c ++ write_size (Z.of_nat (length (c_ops c))) ++ concat (map op_bytes (c_ops c)))))).
    { destruct (le_lt_dec k (length (head_bytes c))) as [E1|E1].
      - rewrite firstn_in by exact E1. apply load_head_cut; assumption.
      - rewrite firstn_past by lia. rewrite load_head by exact G. assert (W : length (write_size (Z.of_nat (length (c_ops c)))) = 8%nat) by apply le_length.
        rewrite firstn_in by lia. rewrite <- (app_nil_r (write_size _)). unfold ops_part.
        apply (size_cut (fun no s6 => '(ops, s7) <- count (Z.to_nat no) 0 op_body [] s6 ;; Ok (mkCfg (c_in c) (c_out c) (c_ph c) ops, s7))); [lia| | |rewrite app_nil_r; lia].
        + intros c1 _. rewrite firstn_nil. destruct (count_nil op_body (Z.to_nat (Z.of_nat (length (c_ops c))))) with (i := 0) (a := @nil (opinfo Z)) as [->|[p ->]].
          * intros a. unfold op_body. destruct op_nil as [->|[y ->]]; [left; reflexivity|]. right. eexists. reflexivity.
          * lia.
          * left. reflexivity.
          * right. eexists. reflexivity.
        + intros y Y. destruct (count_nil op_body (Z.to_nat y)) with (i := 0) (a := @nil (opinfo Z)) as [->|[p ->]].
          * intros a. unfold op_body. destruct op_nil as [->|[z ->]]; [left; reflexivity|]. right. eexists. reflexivity.
          * lia.
          * left. reflexivity.
          * right. eexists. reflexivity. }
    destruct Q as [->|[c' ->]]; [left; reflexivity|]. right. exists c'. split; [reflexivity|]. intros H. lia.
Qed.

(** ** A wrong array size *)
Lemma attribute_overrun sh2 n s : (sh2 = 1 \/ sh2 = 2) -> 2 < n < 2 ^ 62 -> (8 < length s)%nat ->
  read_attribute junk (write_int 1 ++ write_int sh2 ++ write_size n ++ s) = UB.
Proof.
  intros T N L. unfold read_attribute. rewrite !read_int_ok by (unfold int32; lia). change (1 =? 0) with false. change (1 =? 1) with true. cbn iota.
  destruct T as [->| ->].
  - change (1 =? 1) with true. cbn iota. rewrite array_overrun by assumption. reflexivity.
  - change (2 =? 1) with false. change (2 =? 2) with true. cbn iota. rewrite array_overrun by assumption. reflexivity.
Qed.

Lemma count_bad {A X} (body : A -> bytes -> res (A * bytes)) (w : X -> bytes) (step : A -> X -> A) xs n t :
  Forall (fun x => forall a s, body a (w x ++ s) = Ok (step a x, s)) xs -> (forall a, body a t = UB) ->
  forall i a, i + Z.of_nat (length xs) < 2 ^ 31 -> count (length xs + S n) i body a (concat (map w xs) ++ t) = UB.
Proof.
  intros F B. induction F as [|x xs F1 F2 IH]; intros i a I; cbn [length Nat.add map concat count app].
  - rewrite B. reflexivity.
  - cbn [length] in I. rewrite <- app_assoc, F1. cbn [bind]. replace (i =? 2 ^ 31 - 1) with false by lia. apply IH. lia.
Qed.

Definition pair_attr (a : attr Z) : Prop := match a with AInt2 _ _ | AFloat2 _ _ => True | _ => False end.

Lemma load_overrun c before o after eb k a ea :
  good_cfg can c -> c_ops c = before ++ o :: after -> oi_attrs o = eb ++ (k, a) :: ea -> pair_attr a ->
  exists pre post, cfg_bytes c = pre ++ write_size 2 ++ post /\
    forall n s, 2 < n < 2 ^ 62 -> (8 < length s)%nat -> load_cfg can junk (pre ++ write_size n ++ s) = UB.
Proof.
  intros G Eo Ea P. assert (G0 := G). destruct G0 as (_ & _ & _ & _ & _ & G6 & G7). rewrite Eo in G6, G7. apply Forall_app in G7. destruct G7 as [G7 G8].
  inversion G8 as [|? ? Go G9]; subst. destruct Go as (O1 & O2 & O3 & O4 & O5 & O6 & O7). rewrite Ea in O5, O7. apply Forall_app in O7. destruct O7 as [O7 O8].
  inversion O8 as [|? ? Oa _]; subst. cbn [fst snd] in Oa. destruct Oa as [Ok_ Oa].
  set (ty := match a with AInt2 _ _ => 1 | _ => 2 end).
  assert (AB : exists ab, attr_bytes a = write_int 1 ++ write_int ty ++ write_size 2 ++ ab).
  { destruct a; try contradiction; unfold attr_bytes, ty; cbn [write_attribute]; eexists; reflexivity. }
  destruct AB as [ab AB].
  set (opre := write_string (oi_name o) ++ write_string (oi_type o) ++ write_ints (oi_in o) ++ write_ints (oi_out o) ++
    write_size (Z.of_nat (length (oi_attrs o))) ++ concat (map entry_bytes eb) ++ write_string k ++ write_int 1 ++ write_int ty).
  exists (head_bytes c ++ write_size (Z.of_nat (length (c_ops c))) ++ concat (map op_bytes before) ++ opre), (ab ++ concat (map entry_bytes ea) ++ concat (map op_bytes after)).
  split.
  { rewrite cfg_head, Eo, map_app, concat_app. cbn [map concat]. unfold op_bytes at 2. unfold attrs_bytes, opre. rewrite Ea, map_app, concat_app. cbn [map concat].
    unfold entry_bytes at 2. cbn [fst snd]. rewrite AB, <- !app_assoc. reflexivity. }
  intros n s N L. rewrite <- !app_assoc, load_head by exact G. unfold ops_part. rewrite Eo. rewrite app_length in *. cbn [length] in *. rewrite read_size_ok by lia. rewrite Nat2Z.id.
  rewrite (count_bad op_body op_bytes (fun l o => l ++ [o]) before); [reflexivity| | |lia].
  - rewrite Forall_forall in G7 |- *. intros x E l s1. unfold op_body. rewrite read_op_ok by (apply G7, E). reflexivity.
  - intros l. unfold op_body, read_op, opre. rewrite <- !app_assoc. rewrite !read_string_ok by assumption. cbn [bind]. rewrite read_string_ok by assumption. cbn [bind].
    rewrite read_ints_ok by assumption. cbn [bind]. rewrite read_ints_ok by assumption. cbn [bind]. unfold read_attributes.
    rewrite Ea, app_length. cbn [length]. rewrite read_size_ok by lia. rewrite Nat2Z.id.
    rewrite (count_bad _ entry_bytes (fun m e => emplace m (fst e) (snd e)) eb); [reflexivity| | |lia].
    + rewrite Forall_forall in O7 |- *. intros [k1 a1] E m s1. destruct (O7 _ E) as [Q1 Q2]. unfold entry_bytes. cbn [fst snd] in *.
      rewrite <- app_assoc, read_string_ok by assumption. cbn [bind]. rewrite read_attribute_ok by assumption. reflexivity.
    + intros m. rewrite read_string_ok by assumption. cbn [bind]. rewrite attribute_overrun; [reflexivity| |exact N|exact L]. unfold ty. destruct a; tauto.
Qed.
End Reading.
