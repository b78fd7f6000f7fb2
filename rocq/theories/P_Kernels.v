(** Facts about maps, slices and the arithmetic kernels. *)
From Coq Require Import Reals Lra.
From Verif Require Import Base BaseFacts Sums M_Im2col M_Kernels M_Conv.
Open Scope nat_scope.

Lemma emap_Ok n d : n <= length d -> emap n d = Ok tt.
Proof. intros H. unfold emap. destruct (Nat.leb_spec n (length d)); [reflexivity|lia]. Qed.

Lemma same_refl n : same n n = Ok tt.
Proof. unfold same. rewrite Nat.eqb_refl. reflexivity. Qed.

Lemma same_Ok a b : a = b -> same a b = Ok tt.
Proof. intros ->. apply same_refl. Qed.

Lemma put_length n f d : n <= length d -> length (put n f d) = length d.
Proof. intros H. unfold put. rewrite app_length, tab_length, skipn_length. lia. Qed.

Lemma nth_put n f d i : i < n -> (put n f d).[i] = f i.
Proof.
  intros H. unfold put. rewrite app_nth1 by (rewrite tab_length; exact H). apply nth_tab. exact H.
Qed.

Lemma nth_put_ge n f d i : n <= i -> n <= length d -> (put n f d).[i] = d.[i].
Proof.
  intros H Hl. unfold put. rewrite app_nth2 by (rewrite tab_length; exact H). rewrite tab_length.
  rewrite <- (firstn_skipn n d) at 2. rewrite app_nth2 by (rewrite firstn_length; lia).
  rewrite firstn_length, Nat.min_l by lia. reflexivity.
Qed.

Lemma put_full n f d : length d = n -> put n f d = tab n f.
Proof. intros H. unfold put. rewrite skipn_all2 by lia. apply app_nil_r. Qed.

Lemma put_ext n f g d : (forall i, i < n -> f i = g i) -> put n f d = put n g d.
Proof. intros H. unfold put. rewrite (tab_ext n f g H). reflexivity. Qed.

Lemma divmod_lt p r c : p < r * c -> p / c < r /\ p mod c < c /\ p = p / c * c + p mod c.
Proof.
  intros H. assert (c <> 0) by (intros ->; rewrite Nat.mul_0_r in H; lia).
  repeat split.
  - apply Nat.div_lt_upper_bound; lia.
  - apply Nat.mod_upper_bound; assumption.
  - rewrite Nat.mul_comm. apply Nat.div_mod. assumption.
Qed.

Lemma put2_length r c f d : r * c <= length d -> length (put2 r c f d) = length d.
Proof. apply put_length. Qed.

Lemma el_put2 r c f d i j : i < r -> j < c -> el (put2 r c f d) c i j = f i j.
Proof.
  intros Hi Hj. unfold el, put2. rewrite nth_put by (apply mult_lt; assumption).
  destruct (divmod_nat i c j Hj) as [-> ->]. reflexivity.
Qed.

Lemma put2_ext r c f g d : (forall i j, i < r -> j < c -> f i j = g i j) -> put2 r c f d = put2 r c g d.
Proof.
  intros H. unfold put2. apply put_ext. intros p Hp. destruct (divmod_lt p r c Hp) as (H1 & H2 & _).
  apply H; assumption.
Qed.

Lemma put2_full r c f d : length d = r * c ->
  put2 r c f d = tab (r * c) (fun p => f (p / c) (p mod c)).
Proof. intros H. unfold put2. apply put_full. exact H. Qed.

(** Slices *)
Lemma slice_Ok {V} off n (l : list V) : off + n <= length l ->
  slice off n l = Ok (firstn n (skipn off l)).
Proof. intros H. unfold slice. destruct (Nat.leb_spec (off + n) (length l)); [reflexivity|lia]. Qed.

Lemma slice_length {V} off n (l : list V) : off + n <= length l -> length (firstn n (skipn off l)) = n.
Proof. intros H. rewrite firstn_length, skipn_length. lia. Qed.

Lemma nth_firstn {V} n (l : list V) i d : i < n -> nth i (firstn n l) d = nth i l d.
Proof.
  revert l i. induction n as [|n IH]; intros l i H; [lia|].
  destruct l as [|x l]; [reflexivity|]. destruct i as [|i]; [reflexivity|]. cbn. apply IH. lia.
Qed.

Lemma nth_skipn {V} off (l : list V) i d : nth i (skipn off l) d = nth (off + i) l d.
Proof.
  revert l. induction off as [|o IH]; intros l; [reflexivity|].
  destruct l as [|x l]; [destruct i; reflexivity|]. apply IH.
Qed.

Lemma nth_slice {V} off n (l : list V) i d : i < n -> nth i (firstn n (skipn off l)) d = nth (off + i) l d.
Proof. intros H. rewrite nth_firstn by exact H. apply nth_skipn. Qed.

Lemma splice_length {V} off (s l : list V) : off + length s <= length l -> length (splice off s l) = length l.
Proof.
  intros H. unfold splice. rewrite !app_length, firstn_length, skipn_length. lia.
Qed.

Lemma nth_splice_in {V} off (s l : list V) i d : off + length s <= length l -> i < length s ->
  nth (off + i) (splice off s l) d = nth i s d.
Proof.
  intros H Hi. unfold splice. rewrite app_nth2 by (rewrite firstn_length; lia).
  rewrite firstn_length, Nat.min_l by lia.
  rewrite app_nth1 by lia. f_equal. lia.
Qed.

Lemma nth_splice_out {V} off (s l : list V) i d : off + length s <= length l ->
  i < off \/ off + length s <= i -> nth i (splice off s l) d = nth i l d.
Proof.
  intros H [Hi|Hi]; unfold splice.
  - rewrite app_nth1 by (rewrite firstn_length; lia). apply nth_firstn. exact Hi.
  - rewrite app_nth2 by (rewrite firstn_length; lia). rewrite firstn_length, Nat.min_l by lia.
    rewrite app_nth2 by lia. rewrite nth_skipn. f_equal. lia.
Qed.

Lemma batch_fit b batch sz len : b < batch -> batch * sz <= len -> b * sz + sz <= len.
Proof. nia. Qed.

(** Different blocks do not overlap. *)
Lemma block_disjoint b b' sz i : b <> b' -> i < sz -> b' * sz + i < b * sz \/ b * sz + sz <= b' * sz + i.
Proof. intros H Hi. destruct (Nat.lt_ge_cases b b'); [right|left]; nia. Qed.

(** ** Maximum *)
Lemma rmax_ge n f i : i < n -> (f i <= rmax n f)%R.
Proof.
  induction n as [|n IH]; intros H; [lia|]. cbn.
  destruct (Nat.eq_dec i n) as [->|Hne]; [apply Rmax_r|].
  eapply Rle_trans; [apply IH; lia|apply Rmax_l].
Qed.

Lemma rmax_attained n f : 0 < n -> exists i, i < n /\ rmax n f = f i.
Proof.
  induction n as [|n IH]; intros H; [lia|]. cbn.
  destruct n as [|n].
  - exists 0. split; [lia|]. cbn. apply Rmax_left. lra.
  - destruct IH as (i & Hi & E); [lia|].
    destruct (Rle_dec (rmax (S n) f) (f (S n))) as [L|L].
    + exists (S n). split; [lia|]. apply Rmax_right. exact L.
    + exists i. split; [lia|]. rewrite Rmax_left; [exact E|lra].
Qed.

Lemma rmax_ext n f g : (forall i, i < n -> f i = g i) -> 0 < n -> rmax n f = rmax n g.
Proof.
  induction n as [|n IH]; intros H Hn; [lia|]. cbn. rewrite (H n) by lia.
  destruct n as [|n]; [cbn; rewrite (H 0) by lia; reflexivity|].
  rewrite IH by (try lia; intros; apply H; lia). reflexivity.
Qed.
