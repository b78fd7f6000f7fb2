(** Properties C42-C46: files written by save_state, save_cfg and save.

    [can n]: whether [n] bytes can be allocated; [junk]: what uninitialised variables hold.  Both are
    arbitrary.  A dictionary or configuration is given with its maps in the order they iterate, so the
    theorems hold for every order on either side. *)
From Coq Require Import String Ascii NArith.
From Verif Require Import Base BaseFacts M_Optim M_Nn M_Model M_Serial S_Serial P_Serial P_Serial2.
Local Open Scope string_scope.
Open Scope Z_scope.
Local Open Scope list_scope.

(** * C42 *)
(** Loading a saved dictionary into one with entries of the same names and shapes restores every saved
    entry, keeps all others, and takes exactly the bytes that were written. *)
Theorem C42_state_round_trip :
  forall (can : Z -> bool) (saved d : sdict) (rest : bytes),
  good_dict can saved -> Forall (matches d) saved ->
  exists d', load_state can d (save_state saved ++ rest) = Ret (d', rest) /\ stored saved d d'.
Proof.
  intros can saved d rest G M. exists (overwrite d saved). split; [apply load_saved; assumption|].
  apply overwrite_stored; [apply G|]. rewrite Forall_forall in M |- *. intros e E. apply matches_in, M, E.
Qed.
Print Assumptions C42_state_round_trip.

(** In particular, a dictionary with the same names and shapes, iterated in any order, becomes equal to
    the saved one. *)
Theorem C42_dictionaries_become_equal :
  forall (can : Z -> bool) (saved d : sdict) (rest : bytes),
  good_dict can saved -> Forall (matches d) saved -> Permutation (map fst saved) (map fst d) ->
  exists d', load_state can d (save_state saved ++ rest) = Ret (d', rest) /\ Permutation d' saved.
Proof.
  intros can saved d rest G M P. destruct (C42_state_round_trip can saved d rest G M) as (d' & L & K & F). exists d'. split; [exact L|].
  destruct G as (_ & N & _).
  assert (N' : NoDup (map fst d')) by (rewrite K; eapply Permutation_NoDup; eassumption).
  assert (IN : forall (V : Type) (m : list (string * V)) k v, NoDup (map fst m) -> (In (k, v) m <-> find_key m k = Some v)).
  { clear. induction m as [|[a x] t IH]; intros k v N; cbn [In find_key]; [split; [intros []|discriminate]|].
    inversion N as [|? ? N1 N2]; subst. cbn [fst] in *. destruct (String.eqb a k) eqn:E.
    - apply String.eqb_eq in E. subst a. split.
      + intros [H|H]; [injection H as ->; reflexivity|]. exfalso. apply N1. change k with (fst (k, v)). apply in_map. exact H.
      + intros H. injection H as ->. left. reflexivity.
    - apply String.eqb_neq in E. rewrite <- IH by assumption. split; [intros [H|H]; [congruence|exact H]|auto]. }
  apply NoDup_Permutation; [eapply NoDup_map_inv; exact N'|eapply NoDup_map_inv; exact N|].
  intros [k v]. rewrite !IN by assumption. rewrite F.
  destruct (find_key saved k) as [t|] eqn:E; [reflexivity|].
  split; [|discriminate]. intros H. exfalso.
  assert (Q : find_key d k <> None) by congruence. apply find_key_in in Q.
  apply (Permutation_in k (Permutation_sym P)) in Q. apply find_key_in in Q. contradiction.
Qed.
Print Assumptions C42_dictionaries_become_equal.

Definition ex_bytes (l : list Z) : bytes := flat_map (le 4) l.
Definition ex_saved : sdict :=
  [("fc.weight", mkS [2; 3] (ex_bytes [1065353216; 0; 7; 3212836864; 2139095040; 1])); ("fc.bias", mkS [2] (ex_bytes [5; 6]))].
Definition ex_dict : sdict :=
  [("fc.bias", mkS [2] (ex_bytes [0; 0])); ("other", mkS [1] (ex_bytes [9])); ("fc.weight", mkS [2; 3] (ex_bytes [0; 0; 0; 0; 0; 0]))].
Definition ex_can (n : Z) : bool := n <? 1000.

Lemma ex_saved_good : good_dict ex_can ex_saved.
Proof.
  split; [vm_compute; reflexivity|]. split.
  - apply NoDup_cons; [|apply NoDup_cons; [|apply NoDup_nil]]; cbn; intuition discriminate.
  - repeat constructor; try (vm_compute; reflexivity); unfold int32; lia.
Qed.
Lemma ex_matches : Forall (matches ex_dict) ex_saved.
Proof. repeat constructor; eexists; (split; [reflexivity|split; reflexivity]). Qed.

Example C42_nonvacuous :
  load_state ex_can ex_dict (save_state ex_saved ++ [zero]) =
  Ret ([("fc.bias", mkS [2] (ex_bytes [5; 6])); ("other", mkS [1] (ex_bytes [9]));
        ("fc.weight", mkS [2; 3] (ex_bytes [1065353216; 0; 7; 3212836864; 2139095040; 1]))], [zero]) /\
  good_dict ex_can ex_saved /\ Forall (matches ex_dict) ex_saved.
Proof. split; [vm_compute; reflexivity|]. split; [exact ex_saved_good|exact ex_matches]. Qed.

(** * C43 *)
(** Every configuration whose attributes are of the supported types can be saved, and loading the bytes
    gives it back and takes exactly the bytes that were written. *)
Theorem C43_configuration_round_trip :
  forall (can : Z -> bool) (junk : bytes -> bytes) (c : config Z) (rest : bytes),
  good_cfg can c ->
  exists b, save_cfg c = Ok b /\ load_cfg can junk (b ++ rest) = Ok (c, rest).
Proof. intros can junk c rest G. exists (cfg_bytes c). split; [eapply save_cfg_ok; eassumption|apply load_cfg_ok; assumption]. Qed.
Print Assumptions C43_configuration_round_trip.

(** An attribute of another type cannot be saved. *)
Theorem C43_unsupported_attributes_throw :
  forall (c : config Z) (o : opinfo Z) (k : string),
  In o (c_ops c) -> In (k, AOther) (oi_attrs o) -> save_cfg c = Throw.
Proof.
  assert (W : forall {A} (f : A -> res bytes) l x, (forall y, f y <> UB) -> In x l -> f x = Throw -> concat_res f l = Throw).
  { intros A f l x U. unfold concat_res. induction l as [|y l IH]; cbn [In map_res]; [intros []|]. intros [->|I] H.
    - rewrite H. reflexivity.
    - specialize (IH I H). destruct (f y) eqn:E; cbn [bind]; [|reflexivity|exfalso; eapply U; exact E].
      destruct (map_res f l); cbn [bind] in *; [discriminate|reflexivity|discriminate]. }
  assert (U0 : forall {A} (f : A -> res bytes) l, (forall y, f y <> UB) -> concat_res f l <> UB).
  { intros A f l U. unfold concat_res. induction l as [|y l IH]; cbn [map_res]; [discriminate|]. destruct (f y) eqn:E; cbn [bind]; [|discriminate|exfalso; eapply U; exact E].
    destruct (map_res f l); cbn [bind] in *; congruence. }
  assert (U1 : forall e : string * attr Z, (let '(k, a) := e in v <- write_attribute a ;; Ok (write_string k ++ v)) <> UB).
  { intros [k []]; discriminate. }
  assert (U2 : forall o : opinfo Z, write_op o <> UB).
  { intros o. unfold write_op, write_attributes. pose proof (U0 _ _ (oi_attrs o) U1). destruct (concat_res _ _); cbn [bind]; congruence. }
  intros c o k Io Ik. unfold save_cfg. rewrite (W _ write_op (c_ops c) o U2 Io); [reflexivity|].
  unfold write_op, write_attributes. pose proof (W _ _ (oi_attrs o) (k, AOther) U1 Ik eq_refl) as Q.
  match goal with |- bind (bind ?x _) _ = _ => replace x with (@Throw bytes) by (symmetry; exact Q) end. reflexivity.
Qed.
Print Assumptions C43_unsupported_attributes_throw.

(** Save followed by load: the configuration and the state come back from one file. *)
Theorem C43_save_load :
  forall (can : Z -> bool) (junk : bytes -> bytes) (c : config Z) (saved : sdict) (state_of : config Z -> sdict),
  good_cfg can c -> good_dict can saved -> Forall (matches (state_of c)) saved ->
  exists b d', save c saved = Ok b /\ load can junk state_of (Some b) = Ok (c, Ret d') /\ stored saved (state_of c) d'.
Proof.
  intros can junk c saved state_of G D M. destruct (C42_state_round_trip can saved (state_of c) [] D M) as (d' & L & S).
  rewrite app_nil_r in L. exists (cfg_bytes c ++ save_state saved), d'. split; [|split; [|exact S]].
  - unfold save. rewrite (save_cfg_ok can) by assumption. reflexivity.
  - unfold load. rewrite load_cfg_ok by assumption. cbn [bind]. rewrite L. reflexivity.
Qed.
Print Assumptions C43_save_load.

Definition ex_cfg : config Z :=
  mkCfg [0] [2] [(2, ([1; 4], 2)); (0, ([1; 8], 0)); (1, ([1; 4], 1))]
        [mkOI "fc" "Linear" [("units", AInt 4)] [0] [1];
         mkOI "pool" "MaxPooling" [("stride", AInt2 1 (-1)); ("eps", AFloat 1065353216); ("range", AFloat2 0 4294967295)] [1] [2]].
Lemma ex_cfg_good : good_cfg ex_can ex_cfg.
Proof.
  unfold good_cfg, good_op, good_ints, good_string, good_attr, int32, word32.
  assert (N3 : NoDup [2; 0; 1]) by (repeat constructor; cbn; intuition discriminate).
  assert (NA : NoDup ["stride"; "eps"; "range"]) by (repeat constructor; cbn; intuition discriminate).
  repeat match goal with
  | |- _ /\ _ => split
  | |- Forall _ _ => constructor
  | |- NoDup _ => first [exact N3 | exact NA | repeat constructor; cbn; tauto]
  | |- _ => vm_compute; first [reflexivity | discriminate]
  end; vm_compute; try reflexivity; try discriminate; intuition discriminate.
Qed.
Example C43_nonvacuous :
  (b <- save ex_cfg ex_saved ;; load ex_can (fun _ => []) (fun _ => ex_dict) (Some b)) =
  Ok (ex_cfg, Ret [("fc.bias", mkS [2] (ex_bytes [5; 6])); ("other", mkS [1] (ex_bytes [9]));
                   ("fc.weight", mkS [2; 3] (ex_bytes [1065353216; 0; 7; 3212836864; 2139095040; 1]))]) /\
  good_cfg ex_can ex_cfg.
Proof. split; [vm_compute; reflexivity|exact ex_cfg_good]. Qed.

(** * C44 *)
(** load_state rejects every file written by save_cfg or save, and leaves the dictionary alone. *)
Theorem C44_state_from_configuration_throws :
  forall (can : Z -> bool) (c : config Z) (d : sdict) (b rest : bytes),
  save_cfg c = Ok b -> load_state_file can d (Some (b ++ rest)) = Exc d.
Proof.
  intros can c d b rest H. unfold save_cfg in H. destruct (concat_res _ _) as [ops| |]; try discriminate. cbn [bind] in H.
  match type of H with Ok ?x = Ok ?y => assert (E : x = y) by congruence; clear H; subst y end.
  unfold load_state_file, load_state. rewrite <- app_assoc, read_int_ok by (unfold int32; lia). reflexivity.
Qed.
Print Assumptions C44_state_from_configuration_throws.

Theorem C44_state_from_model_throws :
  forall (can : Z -> bool) (c : config Z) (saved d : sdict) (b : bytes),
  save c saved = Ok b -> load_state_file can d (Some b) = Exc d.
Proof.
  intros can c saved d b H. unfold save in H. destruct (save_cfg c) as [b1| |] eqn:E; try discriminate. cbn [bind] in H. injection H as <-.
  eapply C44_state_from_configuration_throws. exact E.
Qed.
Print Assumptions C44_state_from_model_throws.

(** load_cfg rejects every file written by save_state, a missing file and an empty file. *)
Theorem C44_configuration_from_state_throws :
  forall (can : Z -> bool) (junk : bytes -> bytes) (saved : sdict) (rest : bytes),
  load_cfg_file can junk (Some (save_state saved ++ rest)) = Throw.
Proof.
  intros can junk saved rest. unfold load_cfg_file, load_cfg, save_state. rewrite <- app_assoc, read_int_ok by (unfold int32; lia). reflexivity.
Qed.
Print Assumptions C44_configuration_from_state_throws.

Theorem C44_missing_or_empty_configuration_throws :
  forall (can : Z -> bool) (junk : bytes -> bytes),
  load_cfg_file can junk None = Throw /\ load_cfg_file can junk (Some []) = Throw.
Proof. intros. split; reflexivity. Qed.
Print Assumptions C44_missing_or_empty_configuration_throws.

(** A missing state file is reported too. *)
Theorem C44_missing_state_throws :
  forall (can : Z -> bool) (d : sdict), load_state_file can d None = Exc d.
Proof. reflexivity. Qed.
Print Assumptions C44_missing_state_throws.

Example C44_nonvacuous :
  (exists b, save_cfg ex_cfg = Ok b) /\
  match save ex_cfg ex_saved with
  | Ok b => load_state_file ex_can ex_dict (Some b) = Exc ex_dict /\ load_cfg_file ex_can (fun _ => []) (Some b) = Ok ex_cfg
  | _ => False
  end.
Proof. split; [eexists; vm_compute; reflexivity|]. vm_compute. split; reflexivity. Qed.

(** * C45 *)
(** Loading any prefix of a saved file throws or returns; either way the first [n] entries are restored
    (at least those that lie before the cut), the next one has got some of its first bytes, and
    everything else is as it was. *)
Theorem C45_truncated_file :
  forall (can : Z -> bool) (saved d : sdict) (cut : nat),
  good_dict can saved -> Forall (matches d) saved ->
  match load_state can d (firstn cut (save_state saved)) with
  | Bad => False
  | Ret (d', _) | Exc (d', _) =>
      exists n j,
        stored_and_part (firstn n saved) (nth_error saved n) j d d' /\
        forall i, (i < length saved)%nat -> (length (save_state (firstn (S i) saved)) <= cut)%nat -> (i < n)%nat
  end.
Proof.
  intros can saved d cut G M. pose proof (load_state_cut can d saved cut G M) as H.
  destruct (load_state can d _) as [[d' s]|[d' s]|]; [| |exact H];
    destruct H as (n & j & C & B); exists n, j; (split; [apply cut_to_spec; [apply G|assumption..]|exact B]).
Qed.
Print Assumptions C45_truncated_file.

(** The bytes of the element at position [i]. *)
Definition element (t : sten) (i : nat) : bytes := firstn 4 (skipn (4 * i) (s_mem t)).

Lemma skipn_twice {A} (l : list A) : forall x y, skipn x (skipn y l) = skipn (x + y) l.
Proof.
  intros x y. revert l. induction y; intros l; [rewrite Nat.add_0_r; reflexivity|].
  replace (x + S y)%nat with (S (x + y)) by lia. destruct l; [rewrite !skipn_nil; reflexivity|]. cbn [skipn]. apply IHy.
Qed.

Lemma element_mix (a b : bytes) j i : length a = length b ->
  (4 * i + 4 <= j)%nat \/ (j <= 4 * i)%nat ->
  firstn 4 (skipn (4 * i) (firstn j a ++ skipn j b)) = firstn 4 (skipn (4 * i) a) \/
  firstn 4 (skipn (4 * i) (firstn j a ++ skipn j b)) = firstn 4 (skipn (4 * i) b).
Proof.
  intros L [H|H].
  - left. destruct (le_lt_dec j (length a)) as [E|E].
    + rewrite skipn_app, firstn_length, (Nat.min_l j) by lia. replace (4 * i - j)%nat with O by lia. cbn [skipn].
      rewrite firstn_in by (rewrite skipn_length, firstn_length; lia).
      rewrite skipn_firstn_comm, firstn_firstn. f_equal. lia.
    + rewrite (firstn_all2 (n:=j) a), (skipn_all2 (n:=j) b) by lia. rewrite app_nil_r. reflexivity.
  - right. destruct (le_lt_dec j (length a)) as [E|E].
    + rewrite skipn_app, firstn_length, (Nat.min_l j) by lia. rewrite skipn_all2 by (rewrite firstn_length; lia). cbn [app].
      rewrite skipn_twice. f_equal. f_equal. lia.
    + rewrite (firstn_all2 (n:=j) a), (skipn_all2 (n:=j) b) by lia. rewrite app_nil_r, !skipn_all2 by lia. reflexivity.
Qed.

(** In terms of elements: but for at most one, each of them has its saved or its old value. *)
Theorem C45_elements_are_saved_or_old :
  forall (can : Z -> bool) (saved d d' : sdict) (cut : nat) (s : bytes),
  good_dict can saved -> Forall (matches d) saved ->
  load_state can d (firstn cut (save_state saved)) = Ret (d', s) \/ load_state can d (firstn cut (save_state saved)) = Exc (d', s) ->
  exists (torn : string * nat), forall k i t' old, (k, i) <> torn -> find_key d' k = Some t' -> find_key d k = Some old ->
    element t' i = element old i \/ exists t, In (k, t) saved /\ element t' i = element t i.
Proof.
  intros can saved d d' cut s G M H. pose proof (C45_truncated_file can saved d cut G M) as T.
  assert (T' : exists n j, stored_and_part (firstn n saved) (nth_error saved n) j d d').
  { destruct H as [H|H]; rewrite H in T; destruct T as (n & j & T & _); exists n, j; exact T. }
  clear T H. destruct T' as (n & j & K & F).
  exists (match nth_error saved n with Some e => fst e | None => "" end, (j / 4)%nat).
  intros k i t' old B F' Fo. rewrite F, Fo in F'.
  assert (IN : forall (m : sdict) k v, find_key m k = Some v -> In (k, v) m).
  { clear. induction m as [|[a x] t IH]; intros k v; cbn [find_key]; [discriminate|]. destruct (String.eqb a k) eqn:E.
    - apply String.eqb_eq in E. subst a. intros H. injection H as ->. left. reflexivity.
    - intros H. right. apply IH, H. }
  destruct (find_key (firstn n saved) k) as [t|] eqn:E.
  - injection F' as <-. right. exists t. split; [|reflexivity]. apply IN in E.
    rewrite <- (firstn_skipn n saved). apply in_or_app. left. exact E.
  - destruct (nth_error saved n) as [[name t]|] eqn:Q; [|injection F' as <-; left; reflexivity].
    destruct (String.eqb name k) eqn:EK; [|injection F' as <-; left; reflexivity].
    apply String.eqb_eq in EK. subst name. injection F' as <-. cbn [fst] in B.
    assert (I : In (k, t) saved) by (eapply nth_error_In; exact Q).
    rewrite Forall_forall in M. destruct (M _ I) as (t0 & F0 & S0 & L0). cbn [fst snd] in *. rewrite Fo in F0. injection F0 as <-.
    unfold element. cbn [s_mem].
    destruct (element_mix (s_mem t) (s_mem old) j i) as [R|R]; [lia| |right; exists t; split; assumption|left; exact R].
    assert (i <> (j / 4)%nat) by congruence.
    pose proof (Nat.div_mod j 4 ltac:(lia)). pose proof (Nat.mod_upper_bound j 4 ltac:(lia)). lia.
Qed.
Print Assumptions C45_elements_are_saved_or_old.

(** A file cut inside the data of its last entry is accepted without an error, and so is an empty
    file. *)
Theorem C45_cut_in_the_last_tensor_is_accepted :
  forall (can : Z -> bool) (l : sdict) (e : string * sten) (d : sdict) (cut : nat),
  good_dict can (l ++ [e]) -> Forall (matches d) (l ++ [e]) ->
  (length (save_state (l ++ [e])) - length (s_mem (snd e)) <= cut)%nat ->
  exists d' s, load_state can d (firstn cut (save_state (l ++ [e]))) = Ret (d', s).
Proof.
  intros can l e d cut (L & N & G) M C.
  apply Forall_app in G as [G1 G2]. apply Forall_app in M as [M1 M2]. inversion G2 as [|? ? G3 _]; subst. inversion M2 as [|? ? M3 _]; subst.
  set (hd := write_int 0 ++ write_size (Z.of_nat (length (l ++ [e])))).
  set (hdr := write_string (fst e) ++ write_ints (s_shape (snd e))).
  assert (E : save_state (l ++ [e]) = (hd ++ flat_map save_entry l ++ hdr) ++ s_mem (snd e)).
  { unfold save_state, hd, hdr. rewrite flat_map_app. cbn [flat_map]. rewrite app_nil_r. unfold save_entry at 2. rewrite <- !app_assoc. reflexivity. }
  rewrite E in C |- *. rewrite (app_length (hd ++ _)) in C.
  rewrite firstn_past by lia. set (j := (cut - length (hd ++ flat_map save_entry l ++ hdr))%nat).
  unfold load_state, hd. rewrite <- !app_assoc, read_int_ok by (unfold int32; lia). cbn [Z.eqb]. rewrite read_size_ok by lia. rewrite Nat2Z.id.
  rewrite app_length in L |- *. cbn [length] in L |- *.
  rewrite load_many by (assumption || lia).
  assert (M4 : matches (overwrite d l) e).
  { clear - M1 M3. revert d M1 M3. induction l as [|x l IH]; intros d M1 M3; [exact M3|]. inversion M1 as [|? ? A B]; subst.
    apply (IH (set_key d (fst x) (snd x))); [|apply matches_set; assumption].
    rewrite Forall_forall in B |- *. intros y Y. apply matches_set; auto. }
  replace (firstn j (s_mem (snd e))) with (firstn (min j (length (s_mem (snd e)))) (s_mem (snd e))).
  - unfold hdr. rewrite load_cut_data by (assumption || lia). cbn [load_entries]. eexists _, _. reflexivity.
  - destruct (le_lt_dec j (length (s_mem (snd e)))) as [J|J]; [rewrite Nat.min_l by lia; reflexivity|].
    rewrite Nat.min_r, firstn_all, firstn_all2 by lia. reflexivity.
Qed.
Print Assumptions C45_cut_in_the_last_tensor_is_accepted.

Theorem C45_empty_file_is_accepted :
  forall (can : Z -> bool) (d : sdict), load_state_file can d (Some []) = Ret d.
Proof. reflexivity. Qed.
Print Assumptions C45_empty_file_is_accepted.

(** The same holds for configurations: the first byte of a saved configuration alone is a file that
    loads, as a configuration without inputs, outputs and layers. *)
Theorem C45_first_byte_of_a_configuration_is_accepted :
  forall (can : Z -> bool) (junk : bytes -> bytes) (c : config Z) (b : bytes),
  can 0 = true -> save_cfg c = Ok b -> load_cfg_file can junk (Some (firstn 1 b)) = Ok (mkCfg [] [] [] []).
Proof.
  intros can junk c b C H. unfold save_cfg in H. destruct (concat_res _ _) as [ops| |]; try discriminate. cbn [bind] in H.
  match type of H with Ok ?x = Ok ?y => assert (E : x = y) by congruence; clear H; subst y end.
  assert (R : read_ints can [] = Ok ([], [])).
  { unfold read_ints. change (read_size []) with (0, @nil ascii). cbv beta iota. change (4 * 0) with 0. rewrite C. reflexivity. }
  match goal with |- load_cfg_file _ _ (Some ?x) = _ => change x with ["001"%char] end.
  unfold load_cfg_file, load_cfg. change (read_int ["001"%char]) with (1, @nil ascii). cbv beta iota.
  change (1 =? 1) with true. cbv iota. rewrite R. cbn [bind]. rewrite R. reflexivity.
Qed.
Print Assumptions C45_first_byte_of_a_configuration_is_accepted.

Example C45_nonvacuous :
  (* cut inside the third byte of the last element *)
  load_state ex_can ex_dict (firstn (length (save_state ex_saved) - 2) (save_state ex_saved)) =
  Ret ([("fc.bias", mkS [2] (ex_bytes [5; 6])); ("other", mkS [1] (ex_bytes [9]));
        ("fc.weight", mkS [2; 3] (ex_bytes [1065353216; 0; 7; 3212836864; 2139095040; 1]))], []) /\
  (* cut inside the name of the second entry *)
  (exists s, load_state ex_can ex_dict (firstn 80 (save_state ex_saved)) =
  Exc ([("fc.bias", mkS [2] (ex_bytes [0; 0])); ("other", mkS [1] (ex_bytes [9]));
        ("fc.weight", mkS [2; 3] (ex_bytes [1065353216; 0; 7; 3212836864; 2139095040; 1]))], s)).
Proof. split; [vm_compute; reflexivity|]. eexists. vm_compute. reflexivity. Qed.

(** * C46 *)
(** An entry that is unknown or has another shape makes load_state throw; the entries before it have been
    stored and nothing else has changed. *)
Theorem C46_entries_before_the_error_are_stored :
  forall (can : Z -> bool) (before after : sdict) (bad : string * sten) (d : sdict) (rest : bytes),
  good_dict can (before ++ bad :: after) -> Forall (matches d) before ->
  (find_key d (fst bad) = None \/ exists t, find_key d (fst bad) = Some t /\ s_shape t <> s_shape (snd bad)) ->
  exists d' s, load_state can d (save_state (before ++ bad :: after) ++ rest) = Exc (d', s) /\ stored before d d'.
Proof.
  intros can before after bad d rest (L & N & G) M B.
  rewrite load_state_header by assumption. apply Forall_app in G as [G1 G2]. inversion G2 as [|? ? G3 _]; subst.
  rewrite flat_map_app, <- app_assoc. rewrite app_length in L |- *. cbn [length flat_map] in L |- *.
  rewrite load_many by (assumption || lia).
  assert (N1 : NoDup (map fst before)).
  { rewrite map_app in N. revert N. generalize (map fst before) (map fst (bad :: after)). intros a b H.
    induction a; [constructor|]. inversion H; subst. constructor; [rewrite in_app_iff in *; tauto|auto]. }
  assert (NB : find_key before (fst bad) = None).
  { apply find_key_not. rewrite map_app in N. cbn [map] in N. apply NoDup_remove_2 in N. rewrite in_app_iff in N. tauto. }
  destruct (overwrite_stored before d N1) as [K F].
  { rewrite Forall_forall in M |- *. intros e E. apply matches_in, M, E. }
  destruct (load_bad can (length after) (0 + Z.of_nat (length before)) (overwrite d before) bad (flat_map save_entry after ++ rest)) as [s E].
  - assumption.
  - rewrite F, NB. destruct B as [->|(t & -> & H)]; [exact I|exact H].
  - rewrite <- app_assoc, E. exists (overwrite d before), s. split; [reflexivity|split; assumption].
Qed.
Print Assumptions C46_entries_before_the_error_are_stored.

(** Whatever the file, names, shapes and sizes stay as they are. *)
Theorem C46_layout_is_kept :
  forall (can : Z -> bool) (d d' : sdict) (s s' : bytes),
  load_state can d s = Ret (d', s') \/ load_state can d s = Exc (d', s') -> same_layout d d'.
Proof. intros can d d' s s' H. pose proof (load_state_layout can d s) as L. destruct H as [H|H]; rewrite H in L; exact L. Qed.
Print Assumptions C46_layout_is_kept.

Example C46_nonvacuous :
  exists s, load_state ex_can ex_dict (save_state (ex_saved ++ [("extra", mkS [1] (ex_bytes [3]))])) =
  Exc ([("fc.bias", mkS [2] (ex_bytes [5; 6])); ("other", mkS [1] (ex_bytes [9]));
        ("fc.weight", mkS [2; 3] (ex_bytes [1065353216; 0; 7; 3212836864; 2139095040; 1]))], s).
Proof. eexists. vm_compute. reflexivity. Qed.
