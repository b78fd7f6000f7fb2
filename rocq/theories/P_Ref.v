(** What the loops of the reference kernels compute. *)
From Coq Require Import Reals Lra.
From Verif Require Import Base BaseFacts Sums M_Im2col S_Im2col M_Kernels M_Conv M_Layers M_Ref.
From Verif Require Import P_Kernels.
Open Scope R_scope.

Lemma forr_states {S} n (body : nat -> S -> res S) (St : nat -> S) :
  (forall i, (i < n)%nat -> body i (St i) = Ok (St (Datatypes.S i))) -> forr n body (St O) = Ok (St n).
Proof.
  induction n as [|n IH]; intros H; [reflexivity|].
  cbn [forr]. rewrite IH by (intros; apply H; lia). cbn [bind]. apply H. lia.
Qed.

Lemma forr_run {S} n (body : nat -> S -> res S) (St : nat -> S) s s' : s = St O -> St n = s' ->
  (forall i, (i < n)%nat -> body i (St i) = Ok (St (Datatypes.S i))) -> forr n body s = Ok s'.
Proof. intros -> <-. apply forr_states. Qed.

Lemma list_tab (l : list R) n : length l = n -> l = tab n (fun i => l.[i]).
Proof. intros <-. symmetry. apply tab_nth. Qed.

Lemma rd_tab {V} n (f : nat -> V) i : (i < n)%nat -> rd (tab n f) i = Ok (f i).
Proof. intros H. rewrite (rd_Ok _ _ (f O)) by (rewrite tab_length; exact H). rewrite nth_tab by exact H. reflexivity. Qed.

Lemma rd_R (l : list R) i : (i < length l)%nat -> rd l i = Ok l.[i].
Proof. apply rd_Ok. Qed.

Lemma wr_tab {V} n (f g : nat -> V) q v : (q < n)%nat -> g q = v -> (forall p, (p < n)%nat -> p <> q -> g p = f p) ->
  wr (tab n f) q v = Ok (tab n g).
Proof.
  intros Hq Hv Hg. rewrite wr_Ok by (rewrite tab_length; exact Hq). f_equal.
  apply (list_ext _ _ v); [rewrite upd_length, !tab_length; reflexivity|].
  intros i Hi. rewrite upd_length, tab_length in Hi. rewrite nth_upd, tab_length.
  rewrite (nth_tab n g) by exact Hi.
  destruct (Nat.eqb_spec q i) as [<-|Hne]; cbn [andb].
  - destruct (Nat.ltb_spec q n); [|lia]. symmetry. exact Hv.
  - rewrite nth_tab by exact Hi. symmetry. apply Hg; [exact Hi|congruence].
Qed.

Lemma modify_tab n (f g : nat -> R) q h : (q < n)%nat -> g q = h (f q) -> (forall p, (p < n)%nat -> p <> q -> g p = f p) ->
  modify (tab n f) q h = Ok (tab n g).
Proof.
  intros Hq Hv Hg. unfold modify. rewrite rd_tab by exact Hq. cbn [bind]. apply wr_tab; [exact Hq|exact Hv|exact Hg].
Qed.

(** ** Element-wise loops *)

Definition fillst {V} (j : nat) (F G : nat -> V) (t : nat) : V := if (t <? j)%nat then F t else G t.

Lemma fill_0 {V} n (F G : nat -> V) : tab n (fillst 0 F G) = tab n G.
Proof. apply tab_ext. intros i _. reflexivity. Qed.
Lemma fill_n {V} n (F G : nat -> V) : tab n (fillst n F G) = tab n F.
Proof. apply tab_ext. intros i Hi. unfold fillst. destruct (Nat.ltb_spec i n); [reflexivity|lia]. Qed.
Lemma fill_at {V} j (F G : nat -> V) : fillst j F G j = G j.
Proof. unfold fillst. destruct (Nat.ltb_spec j j); [lia|reflexivity]. Qed.
Lemma fill_done {V} j (F G : nat -> V) : fillst (S j) F G j = F j.
Proof. unfold fillst. destruct (Nat.ltb_spec j (S j)); [reflexivity|lia]. Qed.
Lemma fill_other {V} j (F G : nat -> V) p : p <> j -> fillst (S j) F G p = fillst j F G p.
Proof. intros H. unfold fillst. destruct (Nat.ltb_spec p (S j)), (Nat.ltb_spec p j); try reflexivity; lia. Qed.

Lemma fill_wr {V} n j (F G : nat -> V) v : (j < n)%nat -> F j = v ->
  wr (tab n (fillst j F G)) j v = Ok (tab n (fillst (S j) F G)).
Proof.
  intros Hj Hv. apply wr_tab; [exact Hj|rewrite fill_done; exact Hv|].
  intros p _ Hp. apply fill_other. exact Hp.
Qed.
Lemma fill_modify n j (F G : nat -> R) h : (j < n)%nat -> F j = h (G j) ->
  modify (tab n (fillst j F G)) j h = Ok (tab n (fillst (S j) F G)).
Proof.
  intros Hj Hv. unfold modify. rewrite rd_tab by exact Hj. cbn [bind]. apply fill_wr; [exact Hj|].
  rewrite fill_at. exact Hv.
Qed.

Lemma transform1_ok op inp out n : length inp = n -> length out = n ->
  transform1 op inp out n = Ok (tab n (fun i => op inp.[i])).
Proof.
  intros Hi Ho. unfold transform1.
  apply (forr_run n _ (fun j => tab n (fillst j (fun i => op inp.[i]) (fun i => out.[i])))).
  - rewrite fill_0. apply list_tab. exact Ho.
  - apply fill_n.
  - intros i Hlt. rewrite rd_R by lia. cbn [bind]. apply fill_wr; [exact Hlt|reflexivity].
Qed.

Lemma transform2_ok op in1 in2 out n : length in1 = n -> length in2 = n -> length out = n ->
  transform2 op in1 in2 out n = Ok (tab n (fun i => op in1.[i] in2.[i])).
Proof.
  intros H1 H2 Ho. unfold transform2.
  apply (forr_run n _ (fun j => tab n (fillst j (fun i => op in1.[i] in2.[i]) (fun i => out.[i])))).
  - rewrite fill_0. apply list_tab. exact Ho.
  - apply fill_n.
  - intros i Hlt. rewrite !rd_R by lia. cbn [bind]. apply fill_wr; [exact Hlt|reflexivity].
Qed.

(** ** Matrices, row by row *)

Definition grid {V} (n m : nat) (f : nat -> nat -> V) : list V := tab (n * m) (fun p => f (p / m)%nat (p mod m)%nat).

Lemma grid_length {V} n m (f : nat -> nat -> V) : length (grid n m f) = (n * m)%nat.
Proof. apply tab_length. Qed.
Lemma grid_nth n m f i j : (i < n)%nat -> (j < m)%nat -> (grid n m f).[i * m + j] = f i j.
Proof.
  intros Hi Hj. unfold grid. rewrite nth_tab by (apply mult_lt; assumption).
  destruct (divmod_nat i m j Hj) as [-> ->]. reflexivity.
Qed.
Lemma grid_ext {V} n m (f g : nat -> nat -> V) : (forall i j, (i < n)%nat -> (j < m)%nat -> f i j = g i j) -> grid n m f = grid n m g.
Proof. intros H. apply tab_ext. intros p Hp. apply divmod_lt in Hp. apply H; tauto. Qed.
Lemma grid_rd {V} n m (f : nat -> nat -> V) i j : (i < n)%nat -> (j < m)%nat -> rd (grid n m f) (i * m + j) = Ok (f i j).
Proof.
  intros Hi Hj. unfold grid. rewrite rd_tab by (apply mult_lt; assumption).
  destruct (divmod_nat i m j Hj) as [-> ->]. reflexivity.
Qed.
Lemma list_grid (l : list R) n m : length l = (n * m)%nat -> l = grid n m (fun i j => l.[i * m + j]).
Proof.
  intros H. rewrite (list_tab l _ H) at 1. apply tab_ext. intros p Hp. apply divmod_lt in Hp.
  destruct Hp as (_ & _ & Hp). rewrite <- Hp. reflexivity.
Qed.

Lemma loop2_ok {S} n m (body : nat -> nat -> S -> res S) (St : nat -> S) s s' : s = St O -> St (n * m)%nat = s' ->
  (forall i j, (i < n)%nat -> (j < m)%nat -> body i j (St (i * m + j)%nat) = Ok (St (Datatypes.S (i * m + j)))) ->
  forr n (fun i => forr m (fun j => body i j)) s = Ok s'.
Proof.
  intros Hs Hs' H. transitivity (forr (n * m) (fun p => body (p / m)%nat (p mod m)%nat) s).
  - rewrite forr_mult. apply forr_ext. intros i s0 Hi. apply forr_ext. intros j s1 Hj.
    destruct (divmod_nat i m j Hj) as [-> ->]. reflexivity.
  - apply (forr_run _ _ St _ _ Hs Hs'). intros p Hp. destruct (divmod_lt _ _ _ Hp) as (Hi & Hj & E).
    specialize (H _ _ Hi Hj). rewrite <- E in H. exact H.
Qed.

(** A double loop that writes element (i, j) of its result. *)
Lemma loop2_write n m (body : nat -> nat -> list R -> res (list R)) (f : nat -> nat -> R) d : length d = (n * m)%nat ->
  (forall i j d, (i < n)%nat -> (j < m)%nat -> length d = (n * m)%nat -> 
     (forall k l, (k < n)%nat -> (l < m)%nat -> (k * m + l < i * m + j)%nat -> d.[k * m + l] = f k l) ->
     body i j d = wr d (i * m + j) (f i j)) ->
  forr n (fun i => forr m (fun j => body i j)) d = Ok (grid n m f).
Proof.
  intros Hd H.
  apply (loop2_ok n m body (fun q => tab (n * m) (fillst q (fun p => f (p / m)%nat (p mod m)%nat) (fun p => d.[p])))).
  - rewrite fill_0. apply list_tab. exact Hd.
  - apply fill_n.
  - intros i j Hi Hj. rewrite H; try assumption.
    + apply fill_wr; [apply mult_lt; assumption|]. destruct (divmod_nat i m j Hj) as [-> ->]. reflexivity.
    + apply tab_length.
    + intros k l Hk Hl Hlt. rewrite nth_tab by (apply mult_lt; assumption). unfold fillst.
      destruct (Nat.ltb_spec (k * m + l) (i * m + j)); [|lia].
      destruct (divmod_nat k m l Hl) as [-> ->]. reflexivity.
Qed.

(** A double loop that modifies element (i, j) of its argument. *)
Lemma loop2_modify n m (h : nat -> nat -> R -> R) (body : nat -> nat -> list R -> res (list R)) d : length d = (n * m)%nat ->
  (forall i j d, (i < n)%nat -> (j < m)%nat -> body i j d = modify d (i * m + j) (h i j)) ->
  forr n (fun i => forr m (fun j => body i j)) d = Ok (grid n m (fun i j => h i j d.[i * m + j])).
Proof.
  intros Hd H.
  apply (loop2_ok n m body (fun q => tab (n * m) (fillst q (fun p => h (p / m) (p mod m) d.[p / m * m + p mod m])%nat (fun p => d.[p])))).
  - rewrite fill_0. apply list_tab. exact Hd.
  - apply fill_n.
  - intros i j Hi Hj. rewrite H by assumption.
    apply fill_modify; [apply mult_lt; assumption|]. destruct (divmod_nat i m j Hj) as [-> ->]. reflexivity.
Qed.

(** Accumulation into one cell. *)
Lemma cell_sum n c (f : nat -> R) (body : nat -> list R -> res (list R)) d : (c < length d)%nat ->
  (forall k d, (k < n)%nat -> body k d = modify d c (fun x => x + f k)) ->
  forr n body d = Ok (upd d c (d.[c] + rsum n f)).
Proof.
  intros Hc H. apply (forr_run n body (fun k => upd d c (d.[c] + rsum k f))).
  - cbn [rsum]. rewrite Rplus_0_r, upd_nth. reflexivity.
  - reflexivity.
  - intros k Hk. rewrite H by exact Hk. unfold modify.
    rewrite rd_R by (rewrite upd_length; exact Hc). cbn [bind].
    rewrite wr_Ok by (rewrite upd_length; exact Hc). rewrite nth_upd_eq by exact Hc. f_equal.
    apply (list_ext _ _ 0); [rewrite !upd_length; reflexivity|].
    intros i Hi. rewrite !nth_upd, ?upd_length. destruct ((c =? i) && (c <? length d))%nat%bool; [|reflexivity].
    cbn [rsum]. ring.
Qed.

Lemma upd_upd {V} (d : list V) c x y : upd (upd d c x) c y = upd d c y.
Proof. revert c; induction d as [|a d IH]; intros [|c]; cbn; [reflexivity..|]. f_equal. apply IH. Qed.

(** Accumulation into a scalar. *)
Lemma scalar_sum n (f : nat -> R) (body : nat -> R -> res R) a :
  (forall k x, (k < n)%nat -> body k x = Ok (x + f k)) -> forr n body a = Ok (a + rsum n f).
Proof.
  intros H. apply (forr_run n body (fun k => a + rsum k f)); [cbn; ring|reflexivity|].
  intros k Hk. rewrite H by exact Hk. f_equal. cbn [rsum]. ring.
Qed.

(** Accumulation into element i of a vector, row by row. *)
Lemma row_fold n m (h : nat -> nat -> R -> R) (F : nat -> nat -> R) (body : nat -> nat -> list R -> res (list R)) (z : R) :
  (forall i j d, (i < n)%nat -> (j < m)%nat -> body i j d = modify d i (h i j)) ->
  (forall i, (i < n)%nat -> F i O = z) -> (forall i j, (i < n)%nat -> (j < m)%nat -> F i (S j) = h i j (F i j)) ->
  forr n (fun i => forr m (fun j => body i j)) (tab n (fun _ => z)) = Ok (tab n (fun i => F i m)).
Proof.
  intros H H0 HS.
  apply (forr_run n _ (fun i => tab n (fillst i (fun t => F t m) (fun _ => z)))); [rewrite fill_0; reflexivity|apply fill_n|].
  intros i Hi.
  apply (forr_run m _ (fun j => tab n (fun t => if (t =? i)%nat then F i j else fillst i (fun t => F t m) (fun _ => z) t))).
  - apply tab_ext. intros t Ht. destruct (Nat.eqb_spec t i) as [->|]; [|reflexivity].
    rewrite fill_at, H0 by exact Hi. reflexivity.
  - apply tab_ext. intros t Ht. destruct (Nat.eqb_spec t i) as [->|Hne]; [rewrite fill_done; reflexivity|].
    symmetry. apply fill_other. exact Hne.
  - intros j Hj. rewrite H by assumption. apply modify_tab; [exact Hi| |].
    + rewrite Nat.eqb_refl. apply HS; assumption.
    + intros p _ Hp. destruct (Nat.eqb_spec p i); [congruence|reflexivity].
Qed.

Lemma row_sum n m (f : nat -> nat -> R) (body : nat -> nat -> list R -> res (list R)) :
  (forall i j d, (i < n)%nat -> (j < m)%nat -> body i j d = modify d i (fun x => x + f i j)) ->
  forr n (fun i => forr m (fun j => body i j)) (vec0 n) = Ok (tab n (fun i => rsum m (f i))).
Proof. intros H. apply (row_fold n m (fun i j x => x + f i j) (fun i j => rsum j (f i))); [exact H|reflexivity|reflexivity]. Qed.

(** ** Linear *)

Lemma ref_matmul_ok in1 in2 out m n l : length in1 = (m * n)%nat -> length in2 = (n * l)%nat -> length out = (m * l)%nat ->
  ref_matmul in1 in2 out m n l = Ok (grid m l (fun i j => rsum n (fun k => in1.[i * n + k] * in2.[k * l + j]))).
Proof.
  intros H1 H2 Ho. unfold ref_matmul. apply loop2_write; [exact Ho|].
  intros i j d Hi Hj Hd _.
  assert (Hq : (i * l + j < m * l)%nat) by (apply mult_lt; assumption).
  rewrite !wr_Ok by lia. cbn [bind].
  rewrite (cell_sum n (i * l + j) (fun k => in1.[i * n + k] * in2.[k * l + j])).
  - rewrite upd_upd, nth_upd_eq, Rplus_0_l by lia. reflexivity.
  - rewrite upd_length. lia.
  - intros k e Hk.
    assert (i * n + k < m * n)%nat by (apply mult_lt; assumption).
    assert (k * l + j < n * l)%nat by (apply mult_lt; assumption).
    rewrite !rd_R by lia. reflexivity.
Qed.

(** Column-by-column writing into a row-major matrix: all columns before [j] and the first [i] elements of
    column [j] have been written. *)
Definition colst {V} (m j i : nat) (F G : nat -> V) (p : nat) : V :=
  if ((p mod m <? j) || ((p mod m =? j) && (p / m <? i)))%nat%bool then F p else G p.

Lemma col_0 {V} N m (F G : nat -> V) : tab N (colst m 0 0 F G) = tab N G.
Proof.
  apply tab_ext. intros p _. unfold colst.
  destruct (Nat.ltb_spec (p mod m) 0), (Nat.eqb_spec (p mod m) 0), (Nat.ltb_spec (p / m) 0); cbn; try reflexivity; lia.
Qed.
Lemma col_all {V} n m (F G : nat -> V) : tab (n * m) (colst m m 0 F G) = tab (n * m) F.
Proof.
  apply tab_ext. intros p Hp. apply divmod_lt in Hp. unfold colst.
  destruct (Nat.ltb_spec (p mod m) m); cbn; [reflexivity|lia].
Qed.
Lemma col_next {V} n m j (F G : nat -> V) : tab (n * m) (colst m j n F G) = tab (n * m) (colst m (S j) 0 F G).
Proof.
  apply tab_ext. intros p Hp. apply divmod_lt in Hp. unfold colst. destruct Hp as (Hp & _ & _).
  revert Hp. generalize (F p) (G p) (p mod m)%nat (p / m)%nat. intros a b u v Hv.
  destruct (Nat.ltb_spec u j), (Nat.eqb_spec u j), (Nat.ltb_spec v n), (Nat.ltb_spec u (S j)),
    (Nat.eqb_spec u (S j)), (Nat.ltb_spec v 0); cbn; try reflexivity; lia.
Qed.
Lemma col_idx m i j : (j < m)%nat -> ((j + m * i) mod m = j /\ (j + m * i) / m = i)%nat.
Proof.
  intros H. replace (j + m * i)%nat with (i * m + j)%nat by lia. destruct (divmod_nat i m j H) as [-> ->]. auto.
Qed.
Lemma col_lt n m i j : (i < n)%nat -> (j < m)%nat -> (j + m * i < n * m)%nat.
Proof. nia. Qed.
Lemma col_at {V} m i j (F G : nat -> V) : (j < m)%nat -> colst m j i F G (j + m * i)%nat = G (j + m * i)%nat.
Proof.
  intros H. unfold colst. destruct (col_idx m i j H) as [-> ->].
  destruct (Nat.ltb_spec j j), (Nat.eqb_spec j j), (Nat.ltb_spec i i); cbn; try reflexivity; lia.
Qed.
Lemma col_done {V} m i k j (F G : nat -> V) : (j < m)%nat -> (k < i)%nat -> colst m j i F G (j + m * k)%nat = F (j + m * k)%nat.
Proof.
  intros H Hk. unfold colst. destruct (col_idx m k j H) as [-> ->].
  destruct (Nat.ltb_spec j j), (Nat.eqb_spec j j), (Nat.ltb_spec k i); cbn; try reflexivity; lia.
Qed.
Lemma col_wr {V} n m i j (F G : nat -> V) v : (i < n)%nat -> (j < m)%nat -> F (j + m * i)%nat = v ->
  wr (tab (n * m) (colst m j i F G)) (j + m * i) v = Ok (tab (n * m) (colst m j (S i) F G)).
Proof.
  intros Hi Hj Hv. apply wr_tab.
  - apply col_lt; assumption.
  - rewrite col_done by lia. exact Hv.
  - intros p Hp Hne. apply divmod_lt in Hp. unfold colst.
    destruct (Nat.ltb_spec (p mod m) j), (Nat.eqb_spec (p mod m) j), (Nat.ltb_spec (p / m) i), (Nat.ltb_spec (p / m) (S i));
      cbn; try reflexivity; try lia.
    exfalso. apply Hne. assert (E : (p / m = i)%nat) by lia. destruct Hp as (_ & _ & Hp). rewrite E in Hp. lia.
Qed.

(** Writing one column. *)
Lemma col_loop n m j (F G : nat -> R) (body : nat -> list R -> res (list R)) : (j < m)%nat ->
  (forall i d, (i < n)%nat -> body i d = wr d (j + m * i) (F (j + m * i)%nat)) ->
  forr n body (tab (n * m) (colst m j 0 F G)) = Ok (tab (n * m) (colst m (S j) 0 F G)).
Proof.
  intros Hj H. apply (forr_run n body (fun i => tab (n * m) (colst m j i F G))); [reflexivity|apply col_next|].
  intros i Hi. rewrite H by exact Hi. apply col_wr; [exact Hi|exact Hj|reflexivity].
Qed.

Lemma ref_transpose_ok inp rows cols : length inp = (rows * cols)%nat ->
  ref_transpose inp rows cols = Ok (grid cols rows (fun j i => inp.[i * cols + j])).
Proof.
  intros Hi. unfold ref_transpose.
  set (F := fun p => inp.[(p mod rows) * cols + p / rows]).
  apply (forr_run rows _ (fun i => tab (cols * rows) (colst rows i 0 F (fun _ => 0)))).
  - rewrite col_0. unfold vec0. rewrite Nat.mul_comm. reflexivity.
  - apply col_all.
  - intros i Hr. apply col_loop; [exact Hr|].
    intros j d Hj. assert (i * cols + j < rows * cols)%nat by (apply mult_lt; assumption).
    rewrite rd_R by lia. cbn [bind]. unfold F. destruct (col_idx rows j i Hr) as [-> ->].
    replace (i + rows * j)%nat with (j * rows + i)%nat by lia. reflexivity.
Qed.

Lemma ref_linear_forward_ok X W r n u k : length X = (n * k)%nat -> length W = (u * k)%nat -> length r = (n * u)%nat ->
  ref_linear_forward X W r n k u = Ok (grid n u (fun i j => rsum k (fun q => X.[i * k + q] * W.[j * k + q]))).
Proof.
  intros HX HW Hr. unfold ref_linear_forward. rewrite ref_transpose_ok by exact HW. cbn [bind].
  rewrite ref_matmul_ok by (rewrite ?grid_length; (assumption || lia)). f_equal. apply grid_ext. intros i j Hi Hj.
  apply rsum_ext. intros q Hq. rewrite grid_nth by assumption. reflexivity.
Qed.

Lemma ref_add_bias_ok b r n u : length b = u -> length r = (n * u)%nat ->
  ref_add_bias b r n u = Ok (grid n u (fun i j => r.[i * u + j] + b.[j])).
Proof.
  intros Hb Hr. unfold ref_add_bias. apply (loop2_modify n u (fun i j x => x + b.[j])); [exact Hr|].
  intros i j d Hi Hj. rewrite rd_R by lia. reflexivity.
Qed.

Lemma ref_linear_backward_ok X W g dW gi n k u : length X = (n * k)%nat -> length W = (u * k)%nat -> length g = (n * u)%nat ->
  length dW = (u * k)%nat -> length gi = (n * k)%nat ->
  ref_linear_backward X W g dW gi n k u =
  Ok (grid u k (fun j q => rsum n (fun i => g.[i * u + j] * X.[i * k + q])),
      grid n k (fun i q => rsum u (fun j => g.[i * u + j] * W.[j * k + q]))).
Proof.
  intros HX HW Hg HdW Hgi. unfold ref_linear_backward. rewrite ref_transpose_ok by exact Hg. cbn [bind].
  rewrite ref_matmul_ok by (rewrite ?grid_length; (assumption || lia)). cbn [bind].
  rewrite ref_matmul_ok by assumption. cbn [bind]. f_equal. f_equal. apply grid_ext. intros i j Hi Hj.
  apply rsum_ext. intros q Hq. rewrite grid_nth by assumption. reflexivity.
Qed.

Lemma ref_linear_bias_backward_ok g db n u : length g = (n * u)%nat -> length db = u ->
  ref_linear_bias_backward g db n u = Ok (tab u (fun j => rsum n (fun i => g.[i * u + j]))).
Proof.
  intros Hg Hdb. unfold ref_linear_bias_backward.
  apply (forr_run u _ (fun j => tab u (fillst j (fun j => rsum n (fun i => g.[i * u + j])) (fun i => db.[i])))).
  - rewrite fill_0. apply list_tab. exact Hdb.
  - apply fill_n.
  - intros j Hj. rewrite (scalar_sum n (fun i => g.[i * u + j])).
    + cbn [bind]. rewrite Rplus_0_l. apply fill_wr; [exact Hj|reflexivity].
    + intros i x Hi. assert (i * u + j < n * u)%nat by (apply mult_lt; assumption). rewrite rd_R by lia. reflexivity.
Qed.

(** ** Softmax *)

(** [max] of the start value and the first [j] elements. *)
Fixpoint runmax (z : R) (f : nat -> R) (j : nat) : R :=
  match j with O => z | S k => Rmax (runmax z f k) (f k) end.

Lemma ref_softmax_forward_ok X r n m : length X = (n * m)%nat -> length r = (n * m)%nat ->
  let mx i := runmax float_min (fun j => X.[i * m + j]) m in
  ref_softmax_forward X r n m =
  Ok (grid n m (fun i j => exp (X.[i * m + j] - mx i) / rsum m (fun k => exp (X.[i * m + k] - mx i)))).
Proof.
  intros HX Hr mx. unfold ref_softmax_forward.
  assert (HL : forall i j, (i < n)%nat -> (j < m)%nat -> rd X (i * m + j) = Ok X.[i * m + j]).
  { intros i j Hi Hj. apply rd_R. rewrite HX. apply mult_lt; assumption. }
  rewrite (row_fold n m (fun i j a => Rmax a X.[i * m + j]) (fun i j => runmax float_min (fun k => X.[i * m + k]) j)).
  2: { intros i j d Hi Hj. rewrite HL by assumption. reflexivity. }
  2: reflexivity.
  2: reflexivity.
  cbn [bind].
  rewrite (loop2_write n m _ (fun i j => exp (X.[i * m + j] - mx i))).
  2: apply tab_length.
  2: { intros i j d Hi Hj _ _. rewrite HL, rd_tab by assumption. reflexivity. }
  cbn [bind].
  rewrite (row_sum n m (fun i j => exp (X.[i * m + j] - mx i))).
  2: { intros i j d Hi Hj. rewrite grid_rd by assumption. reflexivity. }
  cbn [bind].
  apply loop2_write; [exact Hr|].
  intros i j d Hi Hj _ _. rewrite grid_rd, rd_tab by assumption. reflexivity.
Qed.

Lemma ref_softmax_backward_ok g o gi n m : length g = (n * m)%nat -> length o = (n * m)%nat -> length gi = (n * m)%nat ->
  ref_softmax_backward g o gi n m =
  Ok (grid n m (fun i j => o.[i * m + j] * (g.[i * m + j] - rsum m (fun k => g.[i * m + k] * o.[i * m + k])))).
Proof.
  intros Hg Ho Hgi. unfold ref_softmax_backward.
  assert (HL : forall l i j, length l = (n * m)%nat -> (i < n)%nat -> (j < m)%nat -> rd l (i * m + j) = Ok l.[i * m + j]).
  { intros l i j Hl Hi Hj. apply rd_R. rewrite Hl. apply mult_lt; assumption. }
  rewrite (row_sum n m (fun i j => g.[i * m + j] * o.[i * m + j])).
  2: { intros i j d Hi Hj. rewrite !HL by assumption. reflexivity. }
  cbn [bind]. apply loop2_write; [exact Hgi|].
  intros i j d Hi Hj _ _. rewrite !HL, rd_tab by assumption. reflexivity.
Qed.

(** ** Batch normalisation *)

(** Accumulation into cell [j] of a vector whose earlier cells are finished. *)
Definition accst (n j i : nat) (f : nat -> nat -> R) (t : nat) : R :=
  if (t <? j)%nat then rsum n (f t) else if (t =? j)%nat then rsum i (f t) else 0.

Lemma acc_0 n m f : tab m (accst n 0 0 f) = vec0 m.
Proof. apply tab_ext. intros t _. unfold accst. destruct (t <? 0)%nat eqn:E; [apply Nat.ltb_lt in E; lia|]. destruct (t =? 0)%nat; reflexivity. Qed.
Lemma acc_next n m j f : tab m (accst n j n f) = tab m (accst n (S j) 0 f).
Proof.
  apply tab_ext. intros t _. unfold accst.
  destruct (Nat.ltb_spec t j), (Nat.ltb_spec t (S j)), (Nat.eqb_spec t j), (Nat.eqb_spec t (S j)); try reflexivity; lia.
Qed.
Lemma acc_at n j i f : accst n j i f j = rsum i (f j).
Proof. unfold accst. destruct (Nat.ltb_spec j j), (Nat.eqb_spec j j); try reflexivity; lia. Qed.
Lemma acc_done n j f : accst n (S j) 0 f j = rsum n (f j).
Proof. unfold accst. destruct (Nat.ltb_spec j (S j)); try reflexivity; lia. Qed.
Lemma acc_modify n m j i f h : (j < m)%nat -> h (rsum i (f j)) = rsum i (f j) + f j i ->
  modify (tab m (accst n j i f)) j h = Ok (tab m (accst n j (S i) f)).
Proof.
  intros Hj Hh. apply modify_tab; [exact Hj| |].
  - rewrite !acc_at, Hh. reflexivity.
  - intros p _ Hp. unfold accst. destruct (Nat.ltb_spec p j), (Nat.eqb_spec p j); try reflexivity; lia.
Qed.
Lemma acc_loop n m j f (body : nat -> list R -> res (list R)) : (j < m)%nat ->
  (forall i d, (i < n)%nat -> body i d = modify d j (fun a => a + f j i)) ->
  forr n body (tab m (accst n j 0 f)) = Ok (tab m (accst n (S j) 0 f)).
Proof.
  intros Hj H. apply (forr_run n body (fun i => tab m (accst n j i f))); [reflexivity|apply acc_next|].
  intros i Hi. rewrite H by exact Hi. apply acc_modify; [exact Hj|reflexivity].
Qed.

Section BN.
Variables (n m : nat) (x c0 s0 rm rv : list R) (eps alpha : R).
Hypothesis Hx : length x = (n * m)%nat.
Hypothesis Hc : length c0 = (n * m)%nat.
Hypothesis Hs : length s0 = m.
Hypothesis Hrm : length rm = m.
Hypothesis Hrv : length rv = m.

Definition rmean_of (j : nat) : R := rsum n (fun i => x.[j + m * i] / INR n).
Definition rcent_of (i j : nat) : R := x.[j + m * i] - rmean_of j.
Definition rvar_of (j : nat) : R := rsum n (fun i => rcent_of i j * rcent_of i j / INR n).

Lemma rd_col (l : list R) i j : length l = (n * m)%nat -> (i < n)%nat -> (j < m)%nat -> rd l (j + m * i) = Ok l.[j + m * i].
Proof. intros Hl Hi Hj. apply rd_R. rewrite Hl. apply col_lt; assumption. Qed.

Lemma ref_bn_train_ok :
  ref_bn_train n m x c0 s0 rm rv eps alpha =
  Ok (grid n m rcent_of, tab m (fun j => sqrt (rvar_of j + eps)),
      tab m (fun j => rm.[j] * alpha + rmean_of j * (1 - alpha)),
      tab m (fun j => rv.[j] * alpha + rvar_of j * (1 - alpha))).
Proof.
  unfold ref_bn_train.
  set (fm := fun j i => x.[j + m * i] / INR n).
  set (fv := fun j i => rcent_of i j * rcent_of i j / INR n).
  set (FC := fun p => rcent_of (p / m) (p mod m)).
  set (C := fun j => tab (n * m) (colst m j 0 FC (fun p => c0.[p]))).
  set (Sd := fun j => tab m (fillst j (fun j => sqrt (rvar_of j + eps)) (fun j => s0.[j]))).
  set (Rm := fun j => tab m (fillst j (fun j => rm.[j] * alpha + rmean_of j * (1 - alpha)) (fun j => rm.[j]))).
  set (Rv := fun j => tab m (fillst j (fun j => rv.[j] * alpha + rvar_of j * (1 - alpha)) (fun j => rv.[j]))).
  rewrite (forr_run m _ (fun j => (tab m (accst n j 0 fm), tab m (accst n j 0 fv), C j, Sd j, Rm j, Rv j))
             _ (tab m (accst n m 0 fm), tab m (accst n m 0 fv), C m, Sd m, Rm m, Rv m)).
  - cbn [bind]. unfold C, Sd, Rm, Rv. rewrite col_all, !fill_n. reflexivity.
  - rewrite !acc_0. unfold C, Sd, Rm, Rv. rewrite col_0, !fill_0.
    rewrite <- (list_tab c0 _ Hc), <- (list_tab s0 _ Hs), <- (list_tab rm _ Hrm), <- (list_tab rv _ Hrv). reflexivity.
  - reflexivity.
  - intros j Hj. cbn beta iota.
    rewrite (acc_loop n m j fm) by (try exact Hj; intros i d Hi; rewrite rd_col by assumption; reflexivity).
    cbn [bind].
    rewrite (forr_run n _ (fun i => (tab (n * m) (colst m j i FC (fun p => c0.[p])), tab m (accst n j i fv)))
               _ (C (S j), tab m (accst n (S j) 0 fv))).
    + cbn [bind]. rewrite !rd_tab by exact Hj. cbn [bind]. rewrite !acc_done.
      unfold Sd at 1. rewrite (fill_wr m j (fun j => sqrt (rvar_of j + eps))) by (try exact Hj; reflexivity). cbn [bind].
      unfold Rm at 1. rewrite (fill_modify m j (fun j => rm.[j] * alpha + rmean_of j * (1 - alpha))) by (try exact Hj; reflexivity). cbn [bind].
      unfold Rv at 1. rewrite (fill_modify m j (fun j => rv.[j] * alpha + rvar_of j * (1 - alpha))) by (try exact Hj; reflexivity). cbn [bind].
      reflexivity.
    + reflexivity.
    + unfold C. rewrite col_next, acc_next. reflexivity.
    + intros i Hi. cbn beta iota. rewrite rd_col by assumption. cbn [bind]. rewrite rd_tab by exact Hj. cbn [bind].
      rewrite acc_done.
      rewrite (col_wr n m i j FC) by (try assumption; unfold FC; destruct (col_idx m i j Hj) as [-> ->]; reflexivity).
      cbn [bind]. rewrite rd_tab by (apply col_lt; assumption). cbn [bind]. rewrite col_done by lia.
      rewrite acc_modify; [reflexivity|exact Hj|].
      unfold FC. destruct (col_idx m i j Hj) as [-> ->]. reflexivity.
Qed.

Lemma ref_bn_eval_ok :
  ref_bn_eval n m x c0 s0 rm rv eps =
  Ok (grid n m (fun i j => x.[j + m * i] - rm.[j]), tab m (fun j => sqrt (rv.[j] + eps)), rm, rv).
Proof.
  unfold ref_bn_eval.
  set (FC := fun p => x.[p mod m + m * (p / m)] - rm.[p mod m]).
  set (C := fun j => tab (n * m) (colst m j 0 FC (fun p => c0.[p]))).
  set (Sd := fun j => tab m (fillst j (fun j => sqrt (rv.[j] + eps)) (fun j => s0.[j]))).
  rewrite (forr_run m _ (fun j => (C j, Sd j)) _ (C m, Sd m)).
  - cbn [bind]. unfold C, Sd. rewrite col_all, !fill_n. reflexivity.
  - unfold C, Sd. rewrite col_0, !fill_0. rewrite <- (list_tab c0 _ Hc), <- (list_tab s0 _ Hs). reflexivity.
  - reflexivity.
  - intros j Hj. cbn beta iota. unfold C at 1. rewrite (col_loop n m j FC).
    + cbn [bind]. rewrite rd_R by lia. cbn [bind]. unfold Sd at 1.
      rewrite (fill_wr m j (fun j => sqrt (rv.[j] + eps))) by (try exact Hj; reflexivity). reflexivity.
    + exact Hj.
    + intros i d Hi. rewrite rd_col by assumption. rewrite rd_R by lia. cbn [bind]. unfold FC.
      destruct (col_idx m i j Hj) as [-> ->]. reflexivity.
Qed.
End BN.

(** Accumulation over rows into all cells of a vector. *)
Lemma rows_step m (f : nat -> nat -> R) i j : (j < m)%nat ->
  modify (tab m (fun t => rsum (if t <? j then S i else i)%nat (f t))) j (fun a => a + f j i) =
  Ok (tab m (fun t => rsum (if t <? S j then S i else i)%nat (f t))).
Proof.
  intros Hj. apply modify_tab; [exact Hj| |].
  - destruct (Nat.ltb_spec j (S j)), (Nat.ltb_spec j j); try lia. reflexivity.
  - intros p _ Hp. destruct (Nat.ltb_spec p (S j)), (Nat.ltb_spec p j); try lia; reflexivity.
Qed.

Section BNB.
Variables (n m : nat) (c sd g gi ga gg0 bg0 : list R).
Hypothesis Hc : length c = (n * m)%nat.
Hypothesis Hs : length sd = m.
Hypothesis Hg : length g = (n * m)%nat.
Hypothesis Hgi : length gi = (n * m)%nat.
Hypothesis Hga : length ga = m.
Hypothesis Hgg : length gg0 = m.
Hypothesis Hbg : length bg0 = m.

Definition r_gxn (i j : nat) : R := g.[j + m * i] * ga.[j].
Definition r_gvar (j : nat) : R := rsum n (fun i => - (r_gxn i j * c.[j + m * i] / (sd.[j] * sd.[j]))) / (2 * sd.[j]).
Definition r_gxc (i j : nat) : R := r_gxn i j / sd.[j] + c.[j + m * i] * r_gvar j * 2 / INR n.

Lemma map_zero (l : list R) k : length l = k -> map (fun _ => 0) l = tab k (fun _ => 0).
Proof. intros <-. unfold tab. induction l as [|a l IH]; cbn [map length seq]; [reflexivity|]. rewrite IH, <- seq_shift, map_map. reflexivity. Qed.

Lemma ref_bn_backward_ok :
  ref_bn_backward n m c sd g gi ga gg0 bg0 =
  Ok (grid n m (fun i j => r_gxc i j - rsum n (fun k => r_gxc k j) / INR n),
      tab m (fun j => rsum n (fun i => c.[j + m * i] / sd.[j] * g.[j + m * i])),
      tab m (fun j => rsum n (fun i => g.[j + m * i]))).
Proof.
  unfold ref_bn_backward.
  set (fb := fun j i => g.[j + m * i]).
  set (fg := fun j i => c.[j + m * i] / sd.[j] * g.[j + m * i]).
  assert (HL : forall l i j, length l = (n * m)%nat -> (i < n)%nat -> (j < m)%nat -> rd l (j + m * i) = Ok l.[j + m * i]).
  { intros l i j Hl Hi Hj. apply rd_R. rewrite Hl. apply col_lt; assumption. }
  rewrite (forr_run n _ (fun i => (tab m (fun t => rsum i (fb t)), tab m (fun t => rsum i (fg t))))
             _ (tab m (fun t => rsum n (fb t)), tab m (fun t => rsum n (fg t)))).
  2: { rewrite !(map_zero _ m) by assumption. reflexivity. }
  2: reflexivity.
  2: { intros i Hi.
       apply (forr_run m _ (fun j => (tab m (fun t => rsum (if t <? j then S i else i)%nat (fb t)),
                                      tab m (fun t => rsum (if t <? j then S i else i)%nat (fg t))))).
       - f_equal; apply tab_ext; intros t _; destruct (Nat.ltb_spec t 0); try lia; reflexivity.
       - f_equal; apply tab_ext; intros t Ht; destruct (Nat.ltb_spec t m); try lia; reflexivity.
       - intros j Hj. cbn beta iota. rewrite HL by assumption. cbn [bind].
         rewrite (rows_step m fb) by exact Hj. cbn [bind]. rewrite HL by assumption. rewrite (rd_R sd) by lia. cbn [bind].
         rewrite (rows_step m fg) by exact Hj. reflexivity. }
  cbn [bind].
  set (FX := fun p => r_gxn (p / m) (p mod m)).
  set (fs := fun j i => - (r_gxn i j * c.[j + m * i] / (sd.[j] * sd.[j]))).
  set (X := fun j => tab (n * m) (colst m j 0 FX (fun _ => 0))).
  set (V := fun j => tab m (fillst j r_gvar (fun _ => 0))).
  rewrite (forr_run m _ (fun j => (X j, tab m (accst n j 0 fs), V j)) _ (X m, tab m (accst n m 0 fs), V m)).
  2: { rewrite acc_0. unfold X, V. rewrite col_0, fill_0. reflexivity. }
  2: reflexivity.
  2: { intros j Hj. cbn beta iota.
       rewrite (forr_run n _ (fun i => (tab (n * m) (colst m j i FX (fun _ => 0)), tab m (accst n j i fs)))
                  _ (X (S j), tab m (accst n (S j) 0 fs))).
       - cbn [bind]. rewrite rd_tab by exact Hj. rewrite rd_R by lia. cbn [bind]. rewrite acc_done.
         unfold V at 1. rewrite (fill_wr m j r_gvar) by (try exact Hj; reflexivity). reflexivity.
       - reflexivity.
       - unfold X. rewrite col_next, acc_next. reflexivity.
       - intros i Hi. cbn beta iota. rewrite HL by assumption. rewrite (rd_R ga) by lia. cbn [bind].
         rewrite (col_wr n m i j FX) by (try assumption; unfold FX; destruct (col_idx m i j Hj) as [-> ->]; reflexivity).
         cbn [bind]. rewrite rd_tab by (apply col_lt; assumption). rewrite HL by assumption. rewrite (rd_R sd) by lia. cbn [bind].
         rewrite col_done by lia. rewrite acc_modify; [reflexivity|exact Hj|].
         unfold FX. destruct (col_idx m i j Hj) as [-> ->]. reflexivity. }
  cbn [bind].
  set (FC := fun p => r_gxc (p / m) (p mod m)).
  set (fm := fun j i => r_gxc i j).
  set (FG := fun p => r_gxc (p / m) (p mod m) - rsum n (fun k => r_gxc k (p mod m)) / INR n).
  set (Y := fun j => tab (n * m) (colst m j 0 FC (fun _ => 0))).
  set (G := fun j => tab (n * m) (colst m j 0 FG (fun p => gi.[p]))).
  rewrite (forr_run m _ (fun j => (Y j, tab m (accst n j 0 fm), G j)) _ (Y m, tab m (accst n m 0 fm), G m)).
  2: { rewrite acc_0. unfold Y, G. rewrite !col_0. rewrite <- (list_tab gi _ Hgi). reflexivity. }
  2: reflexivity.
  2: { intros j Hj. cbn beta iota.
       rewrite (forr_run n _ (fun i => (tab (n * m) (colst m j i FC (fun _ => 0)), tab m (accst n j i fm)))
                  _ (Y (S j), tab m (accst n (S j) 0 fm))).
       - cbn [bind]. unfold G at 1. rewrite (col_loop n m j FG).
         + reflexivity.
         + exact Hj.
         + intros i d Hi. unfold Y. rewrite rd_tab by (apply col_lt; assumption). rewrite rd_tab by exact Hj. cbn [bind].
           rewrite acc_done.
           replace (colst m (S j) 0 FC (fun _ => 0) (j + m * i)%nat) with (FC (j + m * i)%nat).
           * unfold FC, FG. destruct (col_idx m i j Hj) as [-> ->]. reflexivity.
           * unfold colst. destruct (col_idx m i j Hj) as [-> ->].
             destruct (Nat.ltb_spec j (S j)); [reflexivity|lia].
       - reflexivity.
       - unfold Y. rewrite col_next, acc_next. reflexivity.
       - intros i Hi. cbn beta iota. unfold X at 1, V at 1. rewrite rd_tab by (apply col_lt; assumption).
         rewrite (rd_R sd) by lia. rewrite HL by assumption. rewrite rd_tab by exact Hj. cbn [bind].
         assert (E1 : colst m m 0 FX (fun _ => 0) (j + m * i)%nat = r_gxn i j).
         { unfold colst, FX. destruct (col_idx m i j Hj) as [-> ->]. destruct (Nat.ltb_spec j m); [reflexivity|lia]. }
         assert (E2 : fillst m r_gvar (fun _ => 0) j = r_gvar j).
         { unfold fillst. destruct (Nat.ltb_spec j m); [reflexivity|lia]. }
         rewrite E1, E2.
         rewrite (col_wr n m i j FC) by (try assumption; unfold FC; destruct (col_idx m i j Hj) as [-> ->]; reflexivity).
         cbn [bind]. rewrite rd_tab by (apply col_lt; assumption). cbn [bind]. rewrite col_done by lia.
         rewrite acc_modify; [reflexivity|exact Hj|].
         unfold FC. destruct (col_idx m i j Hj) as [-> ->]. reflexivity. }
  cbn [bind]. unfold G. rewrite col_all. reflexivity.
Qed.
End BNB.
