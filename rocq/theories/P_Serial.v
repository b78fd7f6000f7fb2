(** Proofs about M_Serial: numbers, strings and state dictionaries. *)
From Coq Require Import String Ascii NArith.
From Verif Require Import Base BaseFacts M_Optim M_Nn M_Model M_Serial S_Serial.
Open Scope Z_scope.
Local Open Scope list_scope.

(** * Numbers *)
Lemma le_length k : forall z, length (le k z) = k.
Proof. induction k; intros z; cbn [le length]; [reflexivity|rewrite IHk; reflexivity]. Qed.

Lemma byte_val z : Z.of_N (N_of_ascii (ascii_of_N (Z.to_N (z mod 256)))) = z mod 256.
Proof.
  assert (0 <= z mod 256 < 256) by (apply Z.mod_pos_bound; lia).
  rewrite N_ascii_embedding by lia. apply Z2N.id; lia.
Qed.

Lemma unle_le k : forall z, unle (le k z) = z mod 256 ^ Z.of_nat k.
Proof.
  induction k; intros z.
  - cbn [le unle]. change (256 ^ Z.of_nat 0) with 1. rewrite Z.mod_1_r. reflexivity.
  - cbn [le unle]. rewrite byte_val, IHk.
    rewrite Nat2Z.inj_succ, Z.pow_succ_r by lia.
    assert (0 < 256 ^ Z.of_nat k) by (apply Z.pow_pos_nonneg; lia).
    rewrite Z.rem_mul_r by lia. ring.
Qed.

Lemma unle_nonneg b : 0 <= unle b.
Proof. induction b as [|c t IH]; cbn [unle]; lia. Qed.

Lemma unle_zeros b n : unle (b ++ repeat zero n) = unle b.
Proof.
  induction b as [|c t IH]; cbn [app unle].
  - induction n; cbn [repeat unle]; [reflexivity|]. rewrite IHn. reflexivity.
  - rewrite IH. reflexivity.
Qed.

Lemma firstn_le c : forall k z, firstn c (le k z) = le (min c k) z.
Proof. induction c; intros [|k] z; cbn [firstn le Nat.min]; [reflexivity..|]. rewrite IHc. reflexivity. Qed.

Lemma signed_mod z : int32 z -> signed (z mod 2 ^ 32) = z.
Proof.
  unfold int32, signed. intros H. destruct (Z_lt_le_dec z 0) as [N|N].
  - replace (z mod 2 ^ 32) with (z + 2 ^ 32).
    + destruct (z + 2 ^ 32 <? 2 ^ 31) eqn:E; lia.
    + apply (Z.mod_unique z (2 ^ 32) (-1)); lia.
  - rewrite Z.mod_small by lia. destruct (z <? 2 ^ 31) eqn:E; lia.
Qed.

(** * Streams *)
Lemma firstn_whole {A} (a b : list A) n : length a = n -> firstn n (a ++ b) = a.
Proof. intros <-. rewrite firstn_app, Nat.sub_diag, firstn_all. cbn. apply app_nil_r. Qed.
Lemma skipn_whole {A} (a b : list A) n : length a = n -> skipn n (a ++ b) = b.
Proof. intros <-. rewrite skipn_app, Nat.sub_diag, skipn_all. reflexivity. Qed.
Lemma firstn_in {A} (a b : list A) n : (n <= length a)%nat -> firstn n (a ++ b) = firstn n a.
Proof. intros H. rewrite firstn_app. replace (n - length a)%nat with O by lia. cbn. apply app_nil_r. Qed.
Lemma firstn_past {A} (a b : list A) n : (length a <= n)%nat -> firstn n (a ++ b) = a ++ firstn (n - length a) b.
Proof. intros H. rewrite firstn_app, firstn_all2 by lia. reflexivity. Qed.
Lemma skipn_past {A} (a : list A) n : (length a <= n)%nat -> skipn n a = [].
Proof. intros H. apply skipn_all2. lia. Qed.

Lemma read_into_whole n old b s : length b = Z.to_nat n -> length old = Z.to_nat n -> read_into n old (b ++ s) = (b, s).
Proof.
  intros B L. unfold read_into. rewrite firstn_whole, skipn_whole by assumption.
  rewrite (skipn_past old) by lia. rewrite app_nil_r. reflexivity.
Qed.

Lemma zeros_length n : length (zeros n) = Z.to_nat n.
Proof. apply repeat_length. Qed.

Lemma read_int_ok z s : int32 z -> read_int (write_int z ++ s) = (z, s).
Proof.
  intros H. unfold read_int, write_int. rewrite read_into_whole by (rewrite ?le_length, ?zeros_length; reflexivity).
  rewrite unle_le. change (256 ^ Z.of_nat 4) with (2 ^ 32). rewrite signed_mod by assumption. reflexivity.
Qed.

Lemma read_size_ok z s : 0 <= z < 2 ^ 64 -> read_size (write_size z ++ s) = (z, s).
Proof.
  intros H. unfold read_size, write_size. rewrite read_into_whole by (rewrite ?le_length, ?zeros_length; reflexivity).
  rewrite unle_le. change (256 ^ Z.of_nat 8) with (2 ^ 64). rewrite Z.mod_small by lia. reflexivity.
Qed.

Lemma read_float_ok w s : word32 w -> read_float (write_float w ++ s) = (w, s).
Proof.
  intros H. unfold read_float, write_float, word32 in *. rewrite read_into_whole by (rewrite ?le_length, ?zeros_length; reflexivity).
  rewrite unle_le. change (256 ^ Z.of_nat 4) with (2 ^ 32). rewrite Z.mod_small by lia. reflexivity.
Qed.

Lemma string_bytes s : length (list_ascii_of_string s) = String.length s.
Proof. induction s; cbn; [reflexivity|rewrite IHs; reflexivity]. Qed.

Lemma read_string_ok can x s : good_string can x -> read_string can (write_string x ++ s) = Ok (x, s).
Proof.
  intros [L C]. unfold read_string, write_string. rewrite <- app_assoc, read_size_ok by lia.
  rewrite C. replace (_ <? 2 ^ 63) with true by lia. cbn [andb].
  rewrite read_into_whole.
  - rewrite string_of_list_ascii_of_string. reflexivity.
  - rewrite string_bytes. lia.
  - apply zeros_length.
Qed.

Lemma ints_bytes l : length (flat_map write_int l) = (4 * length l)%nat.
Proof. induction l; cbn [flat_map length]; [reflexivity|]. rewrite app_length, IHl. unfold write_int. rewrite le_length. lia. Qed.

Lemma ints_ok l : Forall int32 l -> ints (length l) (flat_map write_int l) = l.
Proof.
  induction 1 as [|z l Z L IH]; [reflexivity|]. cbn [length flat_map ints].
  rewrite firstn_whole, skipn_whole by apply le_length.
  unfold write_int at 1. rewrite unle_le. change (256 ^ Z.of_nat 4) with (2 ^ 32). rewrite signed_mod, IH by assumption. reflexivity.
Qed.

Lemma read_ints_ok can l s : good_ints can l -> read_ints can (write_ints l ++ s) = Ok (l, s).
Proof.
  intros (L & C & I). unfold read_ints, write_ints. rewrite <- app_assoc, read_size_ok by lia.
  rewrite C. replace (_ <? 2 ^ 63) with true by lia. cbn [andb].
  rewrite read_into_whole.
  - rewrite Nat2Z.id, ints_ok by assumption. reflexivity.
  - rewrite ints_bytes. lia.
  - apply zeros_length.
Qed.

(** * Dictionaries *)
Lemma find_set {V} (m : list (string * V)) k v k' :
  find_key (set_key m k v) k' = if String.eqb k k' then match find_key m k with Some _ => Some v | None => None end else find_key m k'.
Proof.
  induction m as [|[a x] t IH]; cbn [set_key find_key]; [destruct (String.eqb k k'); reflexivity|].
  destruct (String.eqb a k) eqn:E; cbn [find_key].
  - apply String.eqb_eq in E. subst a. destruct (String.eqb k k'); reflexivity.
  - rewrite IH. destruct (String.eqb k k') eqn:E2.
    + apply String.eqb_eq in E2. subst k'. rewrite E. reflexivity.
    + destruct (String.eqb a k'); reflexivity.
Qed.

Lemma keys_set {V} (m : list (string * V)) k v : map fst (set_key m k v) = map fst m.
Proof. induction m as [|[a x] t IH]; cbn [set_key map]; [reflexivity|]. destruct (String.eqb a k); cbn [map]; [|rewrite IH]; reflexivity. Qed.

Lemma set_key_id {V} (m : list (string * V)) k v : find_key m k = Some v -> set_key m k v = m.
Proof.
  induction m as [|[a x] t IH]; cbn [set_key find_key]; [reflexivity|].
  destruct (String.eqb a k); intros H; [injection H as ->; reflexivity|rewrite IH by assumption; reflexivity].
Qed.

Lemma sten_eta t : mkS (s_shape t) (s_mem t) = t.
Proof. destruct t; reflexivity. Qed.

Definition overwrite (d es : sdict) : sdict := fold_left (fun d e => set_key d (fst e) (snd e)) es d.

Lemma overwrite_keys es : forall d, map fst (overwrite d es) = map fst d.
Proof. induction es as [|e es IH]; intros d; [reflexivity|]. cbn [overwrite fold_left]. fold (overwrite (set_key d (fst e) (snd e)) es). rewrite IH. apply keys_set. Qed.

Lemma find_key_in {V} (m : list (string * V)) k : In k (map fst m) <-> find_key m k <> None.
Proof.
  induction m as [|[a x] t IH]; cbn [map In find_key fst]; [split; [intros []|intros H; apply H; reflexivity]|].
  destruct (String.eqb a k) eqn:E.
  - apply String.eqb_eq in E. split; [intros _; discriminate|auto].
  - apply String.eqb_neq in E. rewrite <- IH. split; [intros [?|?]; [contradiction|assumption]|auto].
Qed.

Lemma find_key_not {V} (m : list (string * V)) k : ~ In k (map fst m) -> find_key m k = None.
Proof. intros N. destruct (find_key m k) eqn:E; [|reflexivity]. exfalso. apply N, find_key_in. rewrite E. discriminate. Qed.

Lemma overwrite_stored es : forall d, NoDup (map fst es) -> Forall (fun e => In (fst e) (map fst d)) es -> stored es d (overwrite d es).
Proof.
  induction es as [|[k v] es IH]; intros d N F; [split; [reflexivity|intros; reflexivity]|].
  inversion N as [|? ? N1 N2]; subst. inversion F as [|? ? F1 F2]; subst. cbn [fst] in *.
  destruct (IH (set_key d k v)) as [K H]; [assumption|rewrite keys_set; assumption|].
  split; [apply overwrite_keys|].
  intros k'. change (overwrite d ((k, v) :: es)) with (overwrite (set_key d k v) es). rewrite H. cbn [find_key].
  rewrite find_set. destruct (String.eqb k k') eqn:E.
  - apply String.eqb_eq in E. subst k'. rewrite find_key_not by assumption.
    apply find_key_in in F1. destruct (find_key d k); [reflexivity|contradiction].
  - reflexivity.
Qed.

Lemma matches_in d e : matches d e -> In (fst e) (map fst d).
Proof. intros (t & H & _). apply find_key_in. rewrite H. discriminate. Qed.

Lemma matches_set d e e' : matches d e -> matches d e' -> matches (set_key d (fst e) (snd e)) e'.
Proof.
  intros (t & F & S & L) (t' & F' & S' & L'). unfold matches. rewrite find_set.
  destruct (String.eqb (fst e) (fst e')) eqn:E.
  - apply String.eqb_eq in E. rewrite F. exists (snd e). rewrite E in F. rewrite F in F'. injection F' as <-.
    repeat split; congruence.
  - exists t'. auto.
Qed.

(** * Loading *)
Section Loading.
Variable can : Z -> bool.
Notation load_entries := (load_entries can).

Lemma load_one n i d e s : i < 2 ^ 31 - 1 -> good_entry can e -> matches d e ->
  load_entries (S n) i d (save_entry e ++ s) = load_entries n (i + 1) (set_key d (fst e) (snd e)) s.
Proof.
  intros I [G1 G2] (t & F & S & L). cbn [M_Serial.load_entries]. unfold save_entry.
  rewrite <- !app_assoc, read_string_ok by assumption. rewrite F, read_ints_ok by assumption.
  destruct (list_eq_dec _ _ _) as [_|N]; [|contradiction].
  rewrite read_into_whole by lia.
  replace (i =? 2 ^ 31 - 1) with false by lia. rewrite S, sten_eta. reflexivity.
Qed.

Lemma load_many es : forall n i d s, i + Z.of_nat (length es) < 2 ^ 31 -> Forall (good_entry can) es -> Forall (matches d) es ->
  load_entries (length es + n) i d (flat_map save_entry es ++ s) = load_entries n (i + Z.of_nat (length es)) (overwrite d es) s.
Proof.
  induction es as [|e es IH]; intros n i d s I G M.
  - cbn [length flat_map app Nat.add overwrite fold_left]. rewrite Z.add_0_r. reflexivity.
  - inversion G as [|? ? G1 G2]; subst. inversion M as [|? ? M1 M2]; subst.
    cbn [length flat_map]. rewrite <- app_assoc. cbn [Nat.add]. cbn [length] in I. rewrite load_one by (assumption || lia).
    rewrite IH; [|lia|assumption|].
    + replace (i + 1 + Z.of_nat (length es)) with (i + Z.of_nat (S (length es))) by lia. reflexivity.
    + rewrite Forall_forall in M2 |- *. intros e' E'. apply matches_set; auto.
Qed.

Lemma load_state_header d es s : Z.of_nat (length es) < 2 ^ 31 ->
  load_state can d (save_state es ++ s) = load_entries (length es) 0 d (flat_map save_entry es ++ s).
Proof.
  intros L. unfold load_state, save_state. rewrite <- !app_assoc, read_int_ok by (unfold int32; lia).
  cbn [Z.eqb]. rewrite read_size_ok by lia. rewrite Nat2Z.id. reflexivity.
Qed.

Lemma load_saved d es s : good_dict can es -> Forall (matches d) es -> load_state can d (save_state es ++ s) = Ret (overwrite d es, s).
Proof.
  intros (L & N & G) M. rewrite load_state_header by assumption.
  replace (length es) with (length es + 0)%nat by lia. rewrite load_many by (assumption || lia). reflexivity.
Qed.

(** ** A bad entry *)
Lemma load_bad n i d e s : good_entry can e ->
  match find_key d (fst e) with None => True | Some t => s_shape t <> s_shape (snd e) end ->
  exists s', load_entries (S n) i d (save_entry e ++ s) = Exc (d, s').
Proof.
  intros [G1 G2] B. cbn [M_Serial.load_entries]. unfold save_entry. rewrite <- !app_assoc, read_string_ok by assumption.
  destruct (find_key d (fst e)) as [t|]; [|eexists; reflexivity].
  rewrite read_ints_ok by assumption. destruct (list_eq_dec _ _ _); [contradiction|]. eexists. reflexivity.
Qed.

(** ** Any file: the layout stays *)
Lemma same_layout_refl d : same_layout d d.
Proof. induction d; constructor; auto. Qed.
Lemma same_layout_trans d1 d2 d3 : same_layout d1 d2 -> same_layout d2 d3 -> same_layout d1 d3.
Proof.
  intros H. revert d3. induction H as [|a b l l' (A1 & A2 & A3) H IH]; intros d3 K; inversion K as [|? c ? l3 (B1 & B2 & B3)]; subst; constructor; [repeat split; congruence|].
  apply IH. assumption.
Qed.
Lemma same_layout_set d k t v : find_key d k = Some t -> s_shape v = s_shape t -> length (s_mem v) = length (s_mem t) -> same_layout d (set_key d k v).
Proof.
  induction d as [|[a x] d IH]; cbn [find_key set_key]; intros F S L; [discriminate|].
  destruct (String.eqb a k).
  - injection F as ->. constructor; [cbn; auto|apply same_layout_refl].
  - constructor; [cbn; auto|apply IH; assumption].
Qed.

Lemma read_into_length old s : length (fst (read_into (Z.of_nat (length old)) old s)) = length old.
Proof. unfold read_into. cbn [fst]. rewrite app_length, skipn_length, Nat2Z.id. pose proof (firstn_le_length (length old) s). lia. Qed.

Lemma load_entries_layout n : forall i d s,
  match load_entries n i d s with Ret (d', _) | Exc (d', _) => same_layout d d' | Bad => True end.
Proof.
  induction n; intros i d s; cbn [M_Serial.load_entries]; [apply same_layout_refl|].
  destruct (read_string can s) as [[name s1]| |]; [|apply same_layout_refl|exact I].
  destruct (find_key d name) as [t|] eqn:F; [|apply same_layout_refl].
  destruct (read_ints can s1) as [[sh s2]| |]; [|apply same_layout_refl|exact I].
  destruct (list_eq_dec _ _ _); [|apply same_layout_refl].
  pose proof (read_into_length (s_mem t) s2) as RL.
  destruct (read_into _ _ _) as [mem s3]. cbn [fst] in RL. destruct (_ =? _); [exact I|].
  specialize (IHn (i + 1) (set_key d name (mkS (s_shape t) mem)) s3).
  assert (same_layout d (set_key d name (mkS (s_shape t) mem))) by (eapply same_layout_set; [exact F|reflexivity|exact RL]).
  destruct (load_entries n _ _ _) as [[d' ?]|[d' ?]|]; [eapply same_layout_trans; eassumption..|exact I].
Qed.

Lemma load_state_layout d s :
  match load_state can d s with Ret (d', _) | Exc (d', _) => same_layout d d' | Bad => True end.
Proof.
  unfold load_state. destruct (read_int s) as [kind s1]. destruct (kind =? 0); [|apply same_layout_refl].
  destruct (read_size s1) as [n s2]. apply load_entries_layout.
Qed.

(** ** An exhausted stream *)
Lemma read_into_nil n old : read_into n old [] = (old, []).
Proof. unfold read_into. rewrite firstn_nil, skipn_nil. reflexivity. Qed.

Lemma read_ints_nil : read_ints can [] = Throw \/ exists x, read_ints can [] = Ok (x, []).
Proof.
  unfold read_ints. destruct (read_size []) as [n s1] eqn:E. unfold read_size in E. rewrite read_into_nil in E. injection E as <- <-.
  destruct (_ && _); [|left; reflexivity]. rewrite read_into_nil. right. eexists. reflexivity.
Qed.

Lemma read_string_nil : read_string can [] = Throw \/ exists x, read_string can [] = Ok (x, []).
Proof.
  unfold read_string. destruct (read_size []) as [n s1] eqn:E. unfold read_size in E. rewrite read_into_nil in E. injection E as <- <-.
  destruct (_ && _); [|left; reflexivity]. rewrite read_into_nil. right. eexists. reflexivity.
Qed.

Definition nothing (d : sdict) (r : st (sdict * bytes)) : Prop := r = Ret (d, []) \/ exists s, r = Exc (d, s).

Lemma load_entries_nil n : forall i d, i + Z.of_nat n < 2 ^ 31 -> nothing d (load_entries n i d []).
Proof.
  induction n; intros i d I; cbn [M_Serial.load_entries]; [left; reflexivity|].
  destruct read_string_nil as [->|[name ->]]; [right; eexists; reflexivity|].
  destruct (find_key d name) as [t|] eqn:F; [|right; eexists; reflexivity].
  destruct read_ints_nil as [->|[sh ->]]; [right; eexists; reflexivity|].
  destruct (list_eq_dec _ _ _); [|right; eexists; reflexivity].
  rewrite read_into_nil, sten_eta, set_key_id by assumption. replace (i =? 2 ^ 31 - 1) with false by lia. apply IHn. lia.
Qed.

Lemma load_after_name n i d s : i + Z.of_nat (S n) < 2 ^ 31 ->
  (read_string can s = Throw \/ exists x, read_string can s = Ok (x, [])) -> nothing d (load_entries (S n) i d s).
Proof.
  intros I H. cbn [M_Serial.load_entries].
  destruct H as [->|[name ->]]; [right; eexists; reflexivity|].
  destruct (find_key d name) as [t|] eqn:F; [|right; eexists; reflexivity].
  destruct read_ints_nil as [->|[sh ->]]; [right; eexists; reflexivity|].
  destruct (list_eq_dec _ _ _); [|right; eexists; reflexivity].
  rewrite read_into_nil, sten_eta, set_key_id by assumption. replace (i =? 2 ^ 31 - 1) with false by lia. apply load_entries_nil. lia.
Qed.

Lemma cut_size s : (length s <= 8)%nat -> snd (read_size s) = [].
Proof. intros H. unfold read_size, read_into. cbn [snd]. apply skipn_past. change (Z.to_nat 8) with 8%nat. lia. Qed.

Lemma cut_string x c : (c <= length (write_string x))%nat -> Z.of_nat (String.length x) < 2 ^ 63 ->
  read_string can (firstn c (write_string x)) = Throw \/ exists y, read_string can (firstn c (write_string x)) = Ok (y, []).
Proof.
  intros C L. unfold read_string. unfold write_string in *.
  destruct (le_lt_dec c 8) as [E|E].
  - rewrite firstn_in by (unfold write_size; rewrite le_length; lia).
    pose proof (cut_size (firstn c (write_size (Z.of_nat (String.length x))))) as Q. rewrite firstn_length in Q. specialize (Q ltac:(lia)).
    destruct (read_size _) as [n s1]. cbn [snd] in Q. subst s1.
    destruct (_ && _); [|left; reflexivity]. rewrite read_into_nil. right. eexists. reflexivity.
  - rewrite app_length in C. unfold write_size in C at 1. rewrite le_length, string_bytes in C.
    rewrite firstn_past by (unfold write_size; rewrite le_length; lia).
    rewrite read_size_ok by lia. destruct (_ && _); [|left; reflexivity]. right. eexists. unfold read_into. f_equal. f_equal.
    apply skipn_past. rewrite firstn_length, string_bytes. lia.
Qed.

Lemma cut_ints l c : (c <= length (write_ints l))%nat -> 4 * Z.of_nat (length l) < 2 ^ 63 ->
  read_ints can (firstn c (write_ints l)) = Throw \/ exists y, read_ints can (firstn c (write_ints l)) = Ok (y, []).
Proof.
  intros C L. unfold read_ints. unfold write_ints in *.
  destruct (le_lt_dec c 8) as [E|E].
  - rewrite firstn_in by (unfold write_size; rewrite le_length; lia).
    pose proof (cut_size (firstn c (write_size (Z.of_nat (length l))))) as Q. rewrite firstn_length in Q. specialize (Q ltac:(lia)).
    destruct (read_size _) as [n s1]. cbn [snd] in Q. subst s1.
    destruct (_ && _); [|left; reflexivity]. rewrite read_into_nil. right. eexists. reflexivity.
  - rewrite app_length in C. unfold write_size in C at 1. rewrite le_length, ints_bytes in C.
    rewrite firstn_past by (unfold write_size; rewrite le_length; lia).
    rewrite read_size_ok by lia. destruct (_ && _); [|left; reflexivity]. right. eexists. unfold read_into. f_equal. f_equal.
    apply skipn_past. rewrite firstn_length, ints_bytes. lia.
Qed.

(** ** A truncated entry *)
Definition part (d : sdict) (e : string * sten) (j : nat) : sdict :=
  match find_key d (fst e) with
  | Some old => set_key d (fst e) (mkS (s_shape old) (firstn j (s_mem (snd e)) ++ skipn j (s_mem old)))
  | None => d
  end.

Lemma part_0 d e : part d e 0 = d.
Proof. unfold part. destruct (find_key d (fst e)) as [t|] eqn:F; [|reflexivity]. cbn [firstn skipn app]. rewrite sten_eta. apply set_key_id. assumption. Qed.

Lemma load_cut_header n i d e c : i + Z.of_nat (S n) < 2 ^ 31 -> good_entry can e ->
  (c <= length (write_string (fst e) ++ write_ints (s_shape (snd e))))%nat ->
  nothing d (load_entries (S n) i d (firstn c (write_string (fst e) ++ write_ints (s_shape (snd e))))).
Proof.
  intros I [[G1 G1'] G2] C. destruct (le_lt_dec c (length (write_string (fst e)))) as [E|E].
  - rewrite firstn_in by assumption. apply load_after_name; [assumption|]. apply cut_string; assumption.
  - rewrite firstn_past by lia. cbn [M_Serial.load_entries]. rewrite read_string_ok by (split; assumption).
    destruct (find_key d (fst e)) as [t|] eqn:F; [|right; eexists; reflexivity].
    rewrite app_length in C.
    destruct (cut_ints (s_shape (snd e)) (c - length (write_string (fst e)))) as [->|[sh ->]]; [lia|apply G2|right; eexists; reflexivity|].
    destruct (list_eq_dec _ _ _); [|right; eexists; reflexivity].
    rewrite read_into_nil, sten_eta, set_key_id by assumption. replace (i =? 2 ^ 31 - 1) with false by lia. apply load_entries_nil. lia.
Qed.

Lemma load_cut_data n i d e j : i + Z.of_nat (S n) < 2 ^ 31 -> good_entry can e -> matches d e -> (j <= length (s_mem (snd e)))%nat ->
  load_entries (S n) i d ((write_string (fst e) ++ write_ints (s_shape (snd e))) ++ firstn j (s_mem (snd e))) =
  load_entries n (i + 1) (part d e j) [].
Proof.
  intros I [G1 G2] (t & F & S & L) J. cbn [M_Serial.load_entries].
  rewrite <- !app_assoc, read_string_ok by assumption. rewrite F, read_ints_ok by assumption.
  destruct (list_eq_dec _ _ _) as [_|N]; [|contradiction].
  unfold read_into. rewrite Nat2Z.id, firstn_firstn, firstn_length, (Nat.min_r (length (s_mem t))), (Nat.min_l j) by lia.
  rewrite (skipn_past (firstn j _)) by (rewrite firstn_length; lia).
  replace (i =? 2 ^ 31 - 1) with false by lia. unfold part. rewrite F. reflexivity.
Qed.

Definition cut_to (es d d' : sdict) (n j : nat) : Prop :=
  d' = match nth_error es n with Some e => part (overwrite d (firstn n es)) e j | None => overwrite d (firstn n es) end.

Lemma load_cut es : forall i d c, i + Z.of_nat (length es) < 2 ^ 31 -> Forall (good_entry can) es -> Forall (matches d) es ->
  match load_entries (length es) i d (firstn c (flat_map save_entry es)) with
  | Bad => False
  | Ret (d', _) | Exc (d', _) =>
      exists n j, cut_to es d d' n j /\
        forall i', (i' < length es)%nat -> (length (flat_map save_entry (firstn (S i') es)) <= c)%nat -> (i' < n)%nat
  end.
Proof.
  induction es as [|e es IH]; intros i d c I G M.
  - cbn [length M_Serial.load_entries]. exists O, O. split; [reflexivity|]. cbn. lia.
  - inversion G as [|? ? G1 G2]; subst. inversion M as [|? ? M1 M2]; subst.
    cbn [flat_map]. destruct (le_lt_dec (length (save_entry e)) c) as [E|E].
    + (* the whole entry is there *)
      rewrite firstn_past by assumption. cbn [length] in I |- *. rewrite load_one by (assumption || lia).
      specialize (IH (i + 1) (set_key d (fst e) (snd e)) (c - length (save_entry e))%nat ltac:(lia) G2).
      assert (M3 : Forall (matches (set_key d (fst e) (snd e))) es) by (rewrite Forall_forall in M2 |- *; intros; apply matches_set; auto).
      specialize (IH M3).
      destruct (load_entries (length es) _ _ _) as [[d' s']|[d' s']|]; [| |assumption].
      all: destruct IH as (n & j & C & B); exists (S n), j; split; [exact C|].
      all: intros [|i'] L F; [lia|]; apply -> Nat.succ_lt_mono; apply B; [lia|].
      all: cbn [firstn flat_map] in F; rewrite app_length in F; cbn [firstn flat_map]; lia.
    + rewrite firstn_in by lia.
      assert (Fin : forall i' : nat, (i' < length (e :: es))%nat ->
         (length (flat_map save_entry (firstn (S i') (e :: es))) <= c)%nat -> (i' < 0)%nat).
      { intros i' _ F. cbn [firstn flat_map] in F. rewrite app_length in F. lia. }
      unfold save_entry in E |- *. rewrite app_assoc in E |- *.
      cbn [length]. destruct (le_lt_dec c (length (write_string (fst e) ++ write_ints (s_shape (snd e))))) as [E2|E2].
      * rewrite firstn_in by assumption.
        destruct (load_cut_header (length es) i d e c) as [->|[s ->]]; [assumption..| |];
          (exists O, O; split; [|exact Fin]; unfold cut_to; cbn [nth_error firstn overwrite fold_left]; rewrite part_0; reflexivity).
      * rewrite firstn_past by lia. rewrite app_length in E.
        rewrite load_cut_data by (assumption || lia). cbn [length] in I.
        destruct (load_entries_nil (length es) (i + 1) (part d e (c - length (write_string (fst e) ++ write_ints (s_shape (snd e)))))) as [->|[s ->]]; [lia| |];
          (exists O, (c - length (write_string (fst e) ++ write_ints (s_shape (snd e))))%nat; split; [reflexivity|exact Fin]).
Qed.

Lemma unle_cut c k z : 0 <= z -> unle (firstn c (le k z)) <= z.
Proof.
  intros Z. rewrite firstn_le, unle_le. apply Z.mod_le; [assumption|]. apply Z.pow_pos_nonneg; lia.
Qed.

Lemma read_int_cut c s : (c < 4)%nat -> read_int (firstn c (write_int 0 ++ s)) = (0, []).
Proof.
  intros C. destruct c as [|[|[|[|c]]]]; [reflexivity..|lia].
Qed.

Lemma load_state_cut d es c : good_dict can es -> Forall (matches d) es ->
  match load_state can d (firstn c (save_state es)) with
  | Bad => False
  | Ret (d', _) | Exc (d', _) =>
      exists n j, cut_to es d d' n j /\
        forall i', (i' < length es)%nat -> (length (save_state (firstn (S i') es)) <= c)%nat -> (i' < n)%nat
  end.
Proof.
  intros (L & N & G) M.
  assert (Z0 : cut_to es d d 0 0).
  { unfold cut_to. destruct es as [|e es]; cbn [nth_error firstn overwrite fold_left]; [reflexivity|rewrite part_0; reflexivity]. }
  assert (Hd : forall l, length (save_state l) = (12 + length (flat_map save_entry l))%nat).
  { intros l. unfold save_state, write_int, write_size. rewrite !app_length, !le_length. reflexivity. }
  destruct (le_lt_dec 12 c) as [C|C].
  - unfold save_state at 1. rewrite app_assoc, firstn_past by (rewrite app_length; unfold write_int, write_size; rewrite !le_length; lia).
    unfold load_state. rewrite <- app_assoc, read_int_ok by (unfold int32; lia). cbn [Z.eqb]. rewrite read_size_ok by lia. rewrite Nat2Z.id.
    replace (length (write_int 0 ++ write_size (Z.of_nat (length es)))) with 12%nat by (rewrite app_length; unfold write_int, write_size; rewrite !le_length; reflexivity).
    pose proof (load_cut es 0 d (c - 12)%nat L G M) as H.
    destruct (load_entries (length es) 0 d _) as [[d' s']|[d' s']|]; [| |assumption];
      destruct H as (n & j & Cu & B); exists n, j; (split; [exact Cu|]; intros i' I' F; apply B; [assumption|rewrite Hd in F; lia]).
  - assert (Fin : forall i' : nat, (i' < length es)%nat -> (length (save_state (firstn (S i') es)) <= c)%nat -> (i' < 0)%nat).
    { intros i' _ F. rewrite Hd in F. lia. }
    assert (Q : nothing d (load_state can d (firstn c (save_state es)))).
    { unfold load_state, save_state. destruct (le_lt_dec 4 c) as [C4|C4].
      - rewrite firstn_past by (unfold write_int; rewrite le_length; lia). rewrite read_int_ok by (unfold int32; lia). cbn [Z.eqb].
        unfold write_int. rewrite le_length. rewrite firstn_in by (unfold write_size; rewrite le_length; lia).
        unfold read_size, read_into.
        rewrite (skipn_past (firstn (c - 4) _)) by (rewrite firstn_length; unfold write_size; rewrite le_length; change (Z.to_nat 8) with 8%nat; lia).
        apply load_entries_nil.
        rewrite firstn_firstn. change (Z.to_nat 8) with 8%nat. rewrite (Nat.min_r 8) by lia.
        replace (skipn _ (zeros 8)) with (repeat zero (8 - (c - 4))%nat).
        + rewrite unle_zeros. pose proof (unle_cut (c - 4) 8 (Z.of_nat (length es)) ltac:(lia)).
          pose proof (unle_nonneg (firstn (c - 4) (write_size (Z.of_nat (length es))))). unfold write_size in *. lia.
        + rewrite firstn_length. unfold write_size. rewrite le_length. unfold zeros. change (Z.to_nat 8) with 8%nat.
          assert (H : (c - 4 < 8)%nat) by lia. revert H. generalize (c - 4)%nat. intros m H.
          do 8 (destruct m as [|m]; [reflexivity|]). lia.
      - rewrite read_int_cut by assumption. cbn [Z.eqb]. apply load_entries_nil. vm_compute. reflexivity. }
    destruct Q as [->|[s ->]]; (exists O, O; split; assumption).
Qed.

Lemma cut_to_spec es d d' n j : NoDup (map fst es) -> Forall (matches d) es -> cut_to es d d' n j ->
  stored_and_part (firstn n es) (nth_error es n) j d d'.
Proof.
  intros N M C. unfold cut_to in C.
  assert (N1 : NoDup (map fst (firstn n es))).
  { rewrite <- (firstn_skipn n es), map_app in N. revert N. generalize (map fst (firstn n es)) (map fst (skipn n es)). intros a b H.
    induction a; [constructor|]. inversion H; subst. constructor; [rewrite in_app_iff in *; tauto|auto]. }
  assert (M1 : Forall (fun e => In (fst e) (map fst d)) (firstn n es)).
  { rewrite Forall_forall in M |- *. intros e E. apply matches_in, M. eapply (fun H => In_nth_error _ _ H) in E. destruct E as [i E].
    rewrite <- (firstn_skipn n es). apply in_or_app. left. eapply nth_error_In. exact E. }
  destruct (overwrite_stored (firstn n es) d N1 M1) as [K F].
  destruct (nth_error es n) as [[name t]|] eqn:E; subst d'.
  - assert (NF : find_key (firstn n es) name = None).
    { apply find_key_not. intros H. destruct (nth_error_split _ _ E) as (l1 & l2 & E1 & E2). subst es n.
      rewrite firstn_app, Nat.sub_diag, firstn_all in H. cbn [firstn] in H. rewrite app_nil_r in H.
      rewrite map_app in N. cbn [map fst] in N. apply NoDup_remove_2 in N. apply N. apply in_or_app. left. exact H. }
    unfold part. cbn [fst snd]. rewrite F, NF.
    split.
    { destruct (find_key d name); [rewrite keys_set|]; exact K. }
    intros k. destruct (find_key d name) as [old|] eqn:FD.
    + rewrite find_set, F, NF, FD. destruct (String.eqb name k) eqn:EK.
      * apply String.eqb_eq in EK. subst k. rewrite NF, FD. reflexivity.
      * rewrite F. destruct (find_key (firstn n es) k); [reflexivity|]. destruct (find_key d k); reflexivity.
    + rewrite F. destruct (find_key (firstn n es) k) eqn:Q; [reflexivity|]. destruct (find_key d k) eqn:Q2; [|reflexivity].
      destruct (String.eqb name k) eqn:EK; [|reflexivity]. apply String.eqb_eq in EK. subst k. congruence.
  - split; [exact K|]. intros k. rewrite F. destruct (find_key (firstn n es) k); reflexivity.
Qed.
End Loading.
