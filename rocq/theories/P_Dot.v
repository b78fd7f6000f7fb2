(** Proofs for C62: the text [save_dot] writes, word by word. *)
From Coq Require Import String Ascii DecimalString DecimalFacts DecimalPos DecimalZ Lia.
From Verif Require Import Base BaseFacts M_Tensor M_Optim M_Nn M_Graph M_Model M_Dot S_Graph S_Dot.
Local Open Scope string_scope.
Local Open Scope list_scope.
Open Scope nat_scope.

Lemma sapp_assoc (a b c : string) : ((a ++ b) ++ c = a ++ (b ++ c))%string.
Proof. induction a; cbn; [reflexivity|]. f_equal. assumption. Qed.
Lemma sapp_nil (a : string) : (a ++ "" = a)%string.
Proof. induction a; cbn; [reflexivity|]. f_equal. assumption. Qed.

Lemma all_chars_app f a b : all_chars f (a ++ b)%string = all_chars f a && all_chars f b.
Proof. induction a; cbn; [reflexivity|]. rewrite IHa, Bool.andb_assoc. reflexivity. Qed.
Lemma all_chars_impl (f g : ascii -> bool) s : (forall c, f c = true -> g c = true) -> all_chars f s = true -> all_chars g s = true.
Proof. intros H. induction s; cbn; [auto|]. rewrite !Bool.andb_true_iff. intros [A B]. split; auto. Qed.

(** ** Numbers *)
Lemma uint_all d : all_chars digit (NilEmpty.string_of_uint d) = true.
Proof. induction d; cbn [NilEmpty.string_of_uint all_chars]; try rewrite IHd; reflexivity. Qed.
Definition minus_or_digit (c : ascii) : bool := digit c || is c "-".
Lemma int_string_chars z : all_chars minus_or_digit (int_string z) = true.
Proof.
  assert (X : forall d, all_chars minus_or_digit (NilZero.string_of_uint d) = true).
  { intros d. destruct d; try reflexivity; unfold NilZero.string_of_uint; (eapply all_chars_impl; [|apply uint_all]); unfold minus_or_digit; intros c ->; reflexivity. }
  unfold int_string, NilZero.string_of_int. destruct (Z.to_int z); [apply X|]. cbn [all_chars]. rewrite X. reflexivity.
Qed.
Lemma int_string_inj a b : int_string a = int_string b -> a = b.
Proof.
  assert (X : forall z, Z.to_int z <> Decimal.Pos Decimal.Nil /\ Z.to_int z <> Decimal.Neg Decimal.Nil).
  { intros [|p|p]; cbn; split; try discriminate; intros E; injection E as E; exact (DecimalPos.Unsigned.to_uint_nonnil p E). }
  unfold int_string. intros H. apply (f_equal NilZero.int_of_string) in H.
  rewrite !NilZero.isi in H by apply X. injection H as H. exact (DecimalZ.to_int_inj _ _ H).
Qed.
Lemma ph_name_inj a b : ph_name a = ph_name b -> a = b.
Proof. unfold ph_name. cbn. intros E. injection E as E. exact (int_string_inj _ _ E). Qed.

(** ** Printing *)
Fixpoint cats (l : list string) : string := match l with [] => "" | a :: t => (a ++ cats t)%string end.
Lemma cats_app a b : cats (a ++ b) = (cats a ++ cats b)%string.
Proof. induction a; cbn; [reflexivity|]. rewrite IHa, sapp_assoc. reflexivity. Qed.
Lemma concat_last l x : String.concat ", " (l ++ [x]) = (cats (map (fun y => y ++ ", ")%string l) ++ x)%string.
Proof.
  induction l as [|a l IH]; [reflexivity|]. cbn [app map cats].
  rewrite !sapp_assoc, <- IH. destruct (l ++ [x]) eqn:E; [destruct l; discriminate|]. reflexivity.
Qed.
Lemma skipn_nth_error {A} (l : list A) : forall i d, nth_error l i = Some d -> skipn i l = d :: skipn (S i) l.
Proof. induction l as [|a l IH]; intros [|i] d H; try discriminate; [injection H as ->; reflexivity|]. cbn [skipn]. apply IH, H. Qed.
Lemma shape_loop_ok k : forall i s, i + k <= length s ->
  shape_loop k i s = Ok (cats (map (fun y => y ++ ", ")%string (map int_string (firstn k (skipn i s))))).
Proof.
  induction k as [|k IH]; intros i s H; [reflexivity|]. cbn [shape_loop].
  destruct (nth_error s i) as [d|] eqn:E; [|apply nth_error_None in E; lia]. unfold rd. rewrite E. cbn [bind].
  rewrite IH by lia. cbn [bind]. rewrite (skipn_nth_error _ _ _ E). cbn [firstn map cats]. rewrite sapp_assoc. reflexivity.
Qed.
Lemma split_last {A} (s : list A) : s <> [] -> exists a b, s = a ++ [b] /\ length a = length s - 1.
Proof.
  intros H. destruct (exists_last H) as (a & b & ->). exists a, b. rewrite app_length. cbn. split; [reflexivity|lia].
Qed.
Lemma print_shape_ok s : print_shape s = Ok (shape_text s).
Proof.
  unfold print_shape. destruct s as [|z s]; [reflexivity|]. cbn [length Nat.eqb].
  destruct (split_last (z :: s)) as (a & b & E & L); [discriminate|]. cbn [length] in L.
  rewrite shape_loop_ok by (cbn; lia). cbn [skipn bind]. replace (rd (z :: s) (S (length s) - 1)) with (Ok b).
  2:{ unfold rd. rewrite E, <- L, nth_error_app2, Nat.sub_diag by lia. reflexivity. }
  cbn [bind]. f_equal. unfold shape_text. rewrite E. rewrite map_app. cbn [map]. rewrite concat_last.
  destruct (a ++ [b]) eqn:E2; [destruct a; discriminate|]. rewrite <- E2, <- L, firstn_app, firstn_all, Nat.sub_diag. cbn [firstn].
  rewrite app_nil_r, sapp_assoc. reflexivity.
Qed.

Lemma concat_chars f l : Forall (fun s => all_chars f s = true) l -> f ","%char = true -> f " "%char = true -> all_chars f (String.concat ", " l) = true.
Proof.
  intros H H1 H2. induction H as [|a l Ha Hl IH]; [reflexivity|]. destruct l as [|b l]; [exact Ha|].
  change (all_chars f (a ++ ", " ++ String.concat ", " (b :: l))%string = true). rewrite !all_chars_app, Ha, IH. cbn [all_chars]. rewrite H1, H2. reflexivity.
Qed.
Definition quotable_char (c : ascii) : bool := negb (is c """") && negb (is c "\").
Lemma is_spec c s : is c s = true <-> s = String c "".
Proof. unfold is. rewrite String.eqb_eq. split; auto. Qed.
Lemma minus_or_digit_quotable c : minus_or_digit c = true -> quotable_char c = true.
Proof.
  unfold minus_or_digit, quotable_char. destruct (is c """") eqn:E.
  { apply is_spec in E. injection E as <-. intros H. vm_compute in H. discriminate. }
  destruct (is c "\") eqn:E2; [|reflexivity]. apply is_spec in E2. injection E2 as <-. intros H. vm_compute in H. discriminate.
Qed.
Lemma letter_or_digit_quotable c : letter c || digit c = true -> quotable_char c = true.
Proof.
  unfold quotable_char. destruct (is c """") eqn:E.
  { apply is_spec in E. injection E as <-. intros H. vm_compute in H. discriminate. }
  destruct (is c "\") eqn:E2; [|reflexivity]. apply is_spec in E2. injection E2 as <-. intros H. vm_compute in H. discriminate.
Qed.
Lemma int_quotable z : quotable (int_string z) = true.
Proof. eapply all_chars_impl; [exact minus_or_digit_quotable|apply int_string_chars]. Qed.
Lemma quotable_app a b : quotable (a ++ b)%string = quotable a && quotable b.
Proof. apply all_chars_app. Qed.
Lemma shape_quotable s : quotable (shape_text s) = true.
Proof.
  destruct s as [|z s]; [reflexivity|]. unfold shape_text. rewrite !quotable_app. change (quotable "{" && (quotable (String.concat ", " (map int_string (z :: s))) && true) = true).
  unfold quotable at 2. rewrite concat_chars; [reflexivity| |reflexivity..]. apply Forall_map, Forall_forall. intros x _. apply int_quotable.
Qed.
Lemma ph_name_quotable id : quotable (ph_name id) = true.
Proof. unfold ph_name. rewrite quotable_app, int_quotable. reflexivity. Qed.

(** ** Words *)
Fixpoint scan (p : place) (s : string) : option (list token * place) :=
  match s with
  | EmptyString => Some ([], p)
  | String c t =>
      match step p c with
      | Some (ts, p) => match scan p t with Some (r, q) => Some (ts ++ r, q) | None => None end
      | None => None
      end
  end.
Lemma scan_app a : forall p b, scan p (a ++ b)%string =
  match scan p a with Some (ts, q) => match scan q b with Some (r, q) => Some (ts ++ r, q) | None => None end | None => None end.
Proof.
  induction a as [|c a IH]; intros p b; cbn [append scan]; [destruct (scan p b) as [[? ?]|]; reflexivity|].
  destruct (step p c) as [[ts p']|]; [|reflexivity]. rewrite IH. destruct (scan p' a) as [[r q]|]; [|reflexivity].
  destruct (scan q b) as [[r2 q2]|]; [|reflexivity]. rewrite app_assoc. reflexivity.
Qed.
Lemma scan_then a p ts q b : scan p a = Some (ts, q) -> scan p (a ++ b)%string = match scan q b with Some (r, q) => Some (ts ++ r, q) | None => None end.
Proof. intros H. rewrite scan_app, H. reflexivity. Qed.
Lemma scan_tokens s : forall p ts, scan p s = Some (ts, Between) -> tokens p s = Some ts.
Proof.
  induction s as [|c s IH]; intros p ts; cbn [scan tokens]; [intros E; injection E as <- ->; reflexivity|].
  destruct (step p c) as [[t1 p1]|]; [|discriminate]. destruct (scan p1 s) as [[t2 q]|] eqn:E; [|discriminate].
  intros X. injection X as <- X. subst q. rewrite (IH _ _ E). reflexivity.
Qed.
Lemma scan_quoted s : forall s0, quotable s = true -> scan (InQuoted s0) s = Some ([], InQuoted (s0 ++ s)%string).
Proof.
  induction s as [|c s IH]; intros s0 H; cbn [scan]; [rewrite sapp_nil; reflexivity|]. unfold quotable in H. cbn [all_chars] in H.
  apply andb_prop in H. destruct H as [H1 H2]. apply andb_prop in H1. destruct H1 as [Ha Hb].
  cbn [step]. destruct (is c """"); [discriminate|]. destruct (is c "\"); [discriminate|].
  rewrite (IH _ H2). unfold snoc. rewrite sapp_assoc. reflexivity.
Qed.
Lemma scan_inword s : forall w, all_chars (fun c => letter c || digit c) s = true -> scan (InWord w) s = Some ([], InWord (w ++ s)%string).
Proof.
  induction s as [|c s IH]; intros w H; cbn [scan]; [rewrite sapp_nil; reflexivity|]. cbn [all_chars] in H.
  apply andb_prop in H. destruct H as [H1 H2]. cbn [step]. rewrite H1, (IH _ H2). unfold snoc. rewrite sapp_assoc. reflexivity.
Qed.
Lemma letter_not_blank c : letter c = true -> blank c = false.
Proof.
  unfold letter, blank. intros H. apply Bool.not_true_is_false. intros B.
  rewrite !Bool.orb_true_iff, !Bool.andb_true_iff, !Nat.leb_le, !Nat.eqb_eq in *. lia.
Qed.
Lemma scan_word s : identifier s = true -> scan Between s = Some ([], InWord s).
Proof.
  destruct s as [|c s]; [discriminate|]. cbn [identifier]. intros H. apply andb_prop in H. destruct H as [H _]. apply andb_prop in H. destruct H as [H1 H2].
  cbn [all_chars] in H2. apply andb_prop in H2. cbn [scan step]. unfold start. rewrite (letter_not_blank _ H1), H1. rewrite scan_inword by apply H2. reflexivity.
Qed.
Lemma identifier_quotable s : identifier s = true -> quotable s = true.
Proof.
  destruct s as [|c s]; [discriminate|]. cbn [identifier]. intros H. apply andb_prop in H. destruct H as [H _]. apply andb_prop in H. destruct H as [_ H].
  eapply all_chars_impl; [exact letter_or_digit_quotable|exact H].
Qed.
Lemma digits_nat z : (0 <= z)%Z -> all_chars digit (int_string z) = true.
Proof.
  assert (X : forall d, all_chars digit (NilZero.string_of_uint d) = true).
  { intros d. destruct d; try reflexivity; unfold NilZero.string_of_uint; apply uint_all. }
  intros H. unfold int_string, NilZero.string_of_int. destruct z; try apply X. lia.
Qed.
Lemma scan_ph id : (0 <= id)%Z -> scan Between (ph_name id) = Some ([], InWord (ph_name id)).
Proof.
  intros H. unfold ph_name. rewrite (scan_then "Placeholder_" Between [] (InWord "Placeholder_")) by (vm_compute; reflexivity).
  rewrite scan_inword; [reflexivity|]. eapply all_chars_impl; [|apply digits_nat, H]. intros c ->. apply Bool.orb_true_r.
Qed.
