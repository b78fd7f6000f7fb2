(** Proofs about the convolution kernels. *)
From Coq Require Import Reals Lra.
From Verif Require Import Base BaseFacts Sums M_Im2col S_Im2col P_Im2col M_Kernels M_Conv P_Kernels.
Open Scope nat_scope.

Section Conv.
Variable g : geom.
Variable d : cdims.
Notation cin := (cd_cin d).
Notation h := (cd_h d).
Notation w := (cd_w d).
Notation cout := (cd_cout d).
Notation ho := (cd_ho d).
Notation wo := (cd_wo d).
Notation rows := (cd_rows g d).
Notation cols := (cd_cols d).
Notation NC := (NC g cin ho wo).
Notation flat_src := (flat_src g h w ho wo).
Notation in_off := (cin * h * w).
Notation out_off := (cout * ho * wo).
Hypothesis Hsz : sizes_ok g h w ho wo.

Lemma NC_rows_cols : NC = rows * cols.
Proof. unfold NC, cd_rows, cd_cols. ring. Qed.

Lemma out_off_cols : out_off = cout * cols.
Proof. unfold cd_cols. ring. Qed.

(** Column cell [p] of an image given by its pixels. *)
Definition colv (fill : R) (x : nat -> R) (p : nat) : R :=
  match flat_src p with Some i => x i | None => fill end.

Definition conv_val (x : nat -> R) (W : nat -> R) (bias : nat -> R) (b o j : nat) : R :=
  (rsum rows (fun k => W (o * rows + k)%nat * colv 0 (fun i => x (b * in_off + i)%nat) (k * cols + j)) + bias o)%R.

Lemma conv_step_spec batch b input weights bias buf output :
  b < batch ->
  length input = batch * in_off -> length weights = cout * rows -> length bias = cout ->
  batch * (rows * cols) <= length buf -> length output = batch * out_off ->
  exists buf' output', conv_step g d input weights bias b (buf, output) = Ok (buf', output') /\
    length buf' = length buf /\ length output' = length output /\
    (forall p, p < rows * cols -> buf'.[b * (rows * cols) + p] = colv 0 (fun i => input.[b * in_off + i]) p) /\
    (forall i, i < b * (rows * cols) \/ b * (rows * cols) + rows * cols <= i -> buf'.[i] = buf.[i]) /\
    (forall o j, o < cout -> j < cols ->
       output'.[b * out_off + (o * cols + j)] =
       conv_val (fun i => input.[i]) (fun i => weights.[i]) (fun i => bias.[i]) b o j) /\
    (forall i, i < b * out_off \/ b * out_off + out_off <= i -> output'.[i] = output.[i]).
Proof.
  intros Hb Hi HW Hbi Hbuf Hout. unfold conv_step.
  assert (Fin : b * in_off + in_off <= length input) by (apply batch_fit with batch; lia).
  assert (Fbuf : b * (rows * cols) + rows * cols <= length buf) by (apply batch_fit with batch; lia).
  assert (Fout : b * out_off + cout * cols <= length output)
    by (rewrite <- out_off_cols; apply batch_fit with batch; lia).
  rewrite (slice_Ok _ _ input) by exact Fin. cbn [bind].
  rewrite (slice_Ok _ _ buf) by exact Fbuf. cbn [bind].
  set (src := firstn in_off (skipn (b * in_off) input)).
  set (plane := firstn (rows * cols) (skipn (b * (rows * cols)) buf)).
  assert (Lsrc : length src = in_off) by (apply slice_length; exact Fin).
  assert (Lpl : length plane = rows * cols) by (apply slice_length; exact Fbuf).
  rewrite (im2col_flat g cin h w ho wo Hsz); [|exact Lsrc|rewrite NC_rows_cols; lia]. cbn [bind].
  rewrite NC_rows_cols, skipn_all2, app_nil_r by lia.
  set (X := tab (rows * cols) _).
  assert (LX : length X = rows * cols) by apply tab_length.
  assert (VX : forall p, p < rows * cols -> X.[p] = colv 0 (fun i => input.[b * in_off + i]) p).
  { intros p Hp. unfold X. rewrite nth_tab by exact Hp. unfold colv.
    destruct (flat_src p) as [i|] eqn:E; [|reflexivity].
    unfold src. apply nth_slice. eapply flat_src_lt; [|exact E]. rewrite NC_rows_cols. exact Hp. }
  rewrite emap_Ok by lia. cbn [bind]. rewrite emap_Ok by lia. cbn [bind].
  rewrite (slice_Ok _ _ output) by exact Fout. cbn [bind].
  set (result := firstn (cout * cols) (skipn (b * out_off) output)).
  assert (Lres : length result = cout * cols) by (apply slice_length; exact Fout).
  eexists. eexists. split; [reflexivity|].
  set (r1 := put2 cout cols _ result).
  set (r2 := put2 cout cols _ r1).
  assert (L1 : length r1 = cout * cols) by (unfold r1; rewrite put2_length; lia).
  assert (L2 : length r2 = cout * cols) by (unfold r2; rewrite put2_length; lia).
  split; [apply splice_length; lia|]. split; [apply splice_length; lia|].
  split; [|split; [|split]].
  - intros p Hp. rewrite nth_splice_in by lia. apply VX. exact Hp.
  - intros i Hi'. apply nth_splice_out; lia.
  - intros o j Ho Hj. pose proof (mult_lt o cout j cols Ho Hj).
    rewrite nth_splice_in by lia. fold (el r2 cols o j). unfold r2. rewrite el_put2 by assumption.
    unfold r1. rewrite el_put2 by assumption. unfold conv_val. f_equal. apply rsum_ext. intros k Hk.
    unfold el at 1 2. rewrite VX by (apply mult_lt; assumption). reflexivity.
  - intros i Hi'. apply nth_splice_out; [lia|]. rewrite L2, <- out_off_cols. exact Hi'.
Qed.

Lemma conv_forward_flat batch input weights bias buf output :
  length input = batch * in_off -> length weights = cout * rows -> length bias = cout ->
  batch * (rows * cols) <= length buf -> length output = batch * out_off ->
  exists buf' output', conv_forward g d batch input weights bias buf output = Ok (buf', output') /\
    length buf' = length buf /\ length output' = length output /\
    (forall b p, b < batch -> p < rows * cols ->
       buf'.[b * (rows * cols) + p] = colv 0 (fun i => input.[b * in_off + i]) p) /\
    (forall b o j, b < batch -> o < cout -> j < cols ->
       output'.[b * out_off + (o * cols + j)] =
       conv_val (fun i => input.[i]) (fun i => weights.[i]) (fun i => bias.[i]) b o j).
Proof.
  intros Hi HW Hbi Hbuf Hout. unfold conv_forward.
  destruct (forr_inv (fun m (s : list R * list R) =>
      length (fst s) = length buf /\ length (snd s) = length output /\
      (forall b p, b < m -> p < rows * cols ->
         (fst s).[b * (rows * cols) + p] = colv 0 (fun i => input.[b * in_off + i]) p) /\
      (forall b o j, b < m -> o < cout -> j < cols ->
         (snd s).[b * out_off + (o * cols + j)] =
         conv_val (fun i => input.[i]) (fun i => weights.[i]) (fun i => bias.[i]) b o j))
     batch (conv_step g d input weights bias) (buf, output)) as ([buf' output'] & E & H).
  - cbn. repeat split; intros; lia.
  - intros b [bf ot] Hb (L1 & L2 & H1 & H2). cbn [fst snd] in *.
    destruct (conv_step_spec batch b input weights bias bf ot) as
      (bf' & ot' & E & L1' & L2' & S1 & S2 & S3 & S4); try lia.
    exists (bf', ot'). split; [exact E|]. cbn [fst snd]. repeat split; try lia.
    + intros b' p Hb' Hp. destruct (Nat.eq_dec b' b) as [->|Hne]; [apply S1; exact Hp|].
      rewrite S2 by (apply block_disjoint; [congruence|exact Hp]). apply H1; [lia|exact Hp].
    + intros b' o j Hb' Ho Hj. destruct (Nat.eq_dec b' b) as [->|Hne]; [apply S3; assumption|].
      rewrite S4; [apply H2; [lia|assumption|assumption]|].
      apply block_disjoint; [congruence|]. rewrite out_off_cols. apply mult_lt; assumption.
  - exists buf', output'. cbn in H. split; [exact E|]. tauto.
Qed.

(** Gradient with respect to the columns of image [b]. *)
Definition gcol (W go : nat -> R) (b p : nat) : R :=
  rsum cout (fun o => W (o * rows + p / cols)%nat * go (b * out_off + (o * cols + p mod cols))%nat)%R.

Definition conv_igrad (W go : nat -> R) (b i : nat) : R :=
  rsum (rows * cols) (fun p => match flat_src p with
                               | Some j => if Nat.eqb j i then gcol W go b p else 0
                               | None => 0 end)%R.

Lemma conv_input_grad_step_spec batch b grad_output weights junk grad_input :
  b < batch -> length grad_output = batch * out_off -> length weights = cout * rows ->
  length junk = rows * cols -> length grad_input = batch * in_off ->
  exists gi', conv_input_grad_step g d grad_output weights junk b grad_input = Ok gi' /\
    length gi' = length grad_input /\
    (forall i, i < in_off -> gi'.[b * in_off + i] =
       (grad_input.[b * in_off + i] + conv_igrad (fun i => weights.[i]) (fun i => grad_output.[i]) b i)%R) /\
    (forall i, i < b * in_off \/ b * in_off + in_off <= i -> gi'.[i] = grad_input.[i]).
Proof.
  intros Hb Hgo HW Hj Hgi. unfold conv_input_grad_step.
  assert (Fgo : b * out_off + cout * cols <= length grad_output)
    by (rewrite <- out_off_cols; apply batch_fit with batch; lia).
  assert (Fgi : b * in_off + in_off <= length grad_input) by (apply batch_fit with batch; lia).
  rewrite emap_Ok by lia. cbn [bind]. rewrite emap_Ok by lia. cbn [bind].
  rewrite (slice_Ok _ _ grad_output) by exact Fgo. cbn [bind].
  set (go := firstn (cout * cols) (skipn (b * out_off) grad_output)).
  rewrite (slice_Ok _ _ grad_input) by exact Fgi. cbn [bind].
  set (gi := firstn in_off (skipn (b * in_off) grad_input)).
  assert (Lgi : length gi = in_off) by (apply slice_length; exact Fgi).
  set (gc := put2 rows cols _ junk).
  assert (Lgc : length gc = rows * cols) by (unfold gc; rewrite put2_length; lia).
  assert (Vgc : forall p, p < rows * cols -> gc.[p] = gcol (fun i => weights.[i]) (fun i => grad_output.[i]) b p).
  { intros p Hp. destruct (divmod_lt p rows cols Hp) as (H1 & H2 & H3). rewrite H3 at 1.
    fold (el gc cols (p / cols) (p mod cols)). unfold gc. rewrite el_put2 by assumption.
    unfold gcol. apply rsum_ext. intros o Ho. unfold el at 1 2. f_equal.
    unfold go. apply nth_slice. apply mult_lt; assumption. }
  destruct (col2im_flat g cin h w ho wo Hsz gc gi) as (gi' & E & L' & V'); [exact Lgi|rewrite NC_rows_cols; lia|].
  rewrite E. cbn [bind]. eexists. split; [reflexivity|].
  split; [apply splice_length; lia|]. split.
  - intros i Hi. rewrite nth_splice_in by lia. rewrite V' by exact Hi. unfold gi. rewrite nth_slice by exact Hi.
    f_equal. unfold conv_igrad. rewrite NC_rows_cols. apply rsum_ext. intros p Hp.
    destruct (flat_src p) as [j|]; [|reflexivity]. destruct (j =? i); [|reflexivity]. apply Vgc. exact Hp.
  - intros i Hi. apply nth_splice_out; [lia|]. rewrite L', Lgi. exact Hi.
Qed.

Lemma conv_input_grad_flat batch junk grad_output weights grad_input :
  length grad_output = batch * out_off -> length weights = cout * rows ->
  (forall b, b < batch -> length (junk b) = rows * cols) -> length grad_input = batch * in_off ->
  exists gi', conv_input_grad g d batch junk grad_output weights grad_input = Ok gi' /\
    length gi' = length grad_input /\
    (forall b i, b < batch -> i < in_off -> gi'.[b * in_off + i] =
       (grad_input.[b * in_off + i] + conv_igrad (fun i => weights.[i]) (fun i => grad_output.[i]) b i)%R).
Proof.
  intros Hgo HW Hj Hgi. unfold conv_input_grad.
  destruct (forr_inv (fun m s => length s = length grad_input /\
      (forall b i, b < m -> i < in_off -> s.[b * in_off + i] =
         (grad_input.[b * in_off + i] + conv_igrad (fun i => weights.[i]) (fun i => grad_output.[i]) b i)%R) /\
      (forall i, m * in_off <= i -> s.[i] = grad_input.[i]))
     batch (fun b => conv_input_grad_step g d grad_output weights (junk b) b) grad_input) as (gi' & E & H).
  - repeat split; intros; lia.
  - intros b s Hb (L & H1 & H2).
    destruct (conv_input_grad_step_spec batch b grad_output weights (junk b) s) as (gi' & E & L' & V1 & V2);
      try lia; [apply Hj; exact Hb|].
    exists gi'. split; [exact E|]. split; [lia|]. split.
    + intros b' i Hb' Hi. destruct (Nat.eq_dec b' b) as [->|Hne].
      * rewrite V1 by exact Hi. rewrite H2 by lia. reflexivity.
      * rewrite V2 by (apply block_disjoint; [congruence|exact Hi]). apply H1; [lia|exact Hi].
    + intros i Hi. rewrite V2 by lia. apply H2. lia.
  - exists gi'. split; [exact E|]. tauto.
Qed.

Lemma conv_weights_grad_flat batch grad_output buf grad_weights :
  length grad_output = batch * (cout * cols) -> batch * (rows * cols) <= length buf ->
  length grad_weights = cout * rows ->
  exists dW, conv_weights_grad batch cout rows cols grad_output buf grad_weights = Ok dW /\
    length dW = cout * rows /\
    forall o k, o < cout -> k < rows -> dW.[o * rows + k] =
      rsum batch (fun b => rsum cols (fun j =>
        grad_output.[b * (cout * cols) + (o * cols + j)] * buf.[b * (rows * cols) + (k * cols + j)]))%R.
Proof.
  intros Hgo Hbuf HW. unfold conv_weights_grad. rewrite emap_Ok by lia. cbn [bind].
  apply (forr_inv (fun m dW => length dW = cout * rows /\
    forall o k, o < cout -> k < rows -> dW.[o * rows + k] =
      rsum m (fun b => rsum cols (fun j =>
        grad_output.[b * (cout * cols) + (o * cols + j)] * buf.[b * (rows * cols) + (k * cols + j)]))%R)).
  - split; [unfold zeros; rewrite tab_length; exact HW|]. intros o k Ho Hk. cbn [rsum].
    unfold zeros. rewrite nth_tab; [reflexivity|]. rewrite HW. apply mult_lt; assumption.
  - intros b dW Hb (L & H).
    assert (F1 : b * (cout * cols) + cout * cols <= length grad_output) by (apply batch_fit with batch; lia).
    assert (F2 : b * (rows * cols) + rows * cols <= length buf) by (apply batch_fit with batch; lia).
    rewrite slice_Ok by exact F1. cbn [bind]. rewrite slice_Ok by exact F2. cbn [bind].
    eexists. split; [reflexivity|]. split; [rewrite put2_length; lia|].
    intros o k Ho Hk. match goal with |- ?a.[_] = _ => fold (el a rows o k) end.
    rewrite el_put2 by assumption. cbn [rsum]. unfold el at 1. rewrite H by assumption. f_equal.
    apply rsum_ext. intros j Hj. unfold el. rewrite !nth_slice by (apply mult_lt; assumption). reflexivity.
Qed.

Lemma conv_bias_grad_flat batch grad_output grad_bias :
  length grad_output = batch * (cout * cols) -> length grad_bias = cout ->
  exists db, conv_bias_grad batch cout cols grad_output grad_bias = Ok db /\
    length db = cout /\
    forall o, o < cout -> db.[o] =
      rsum batch (fun b => rsum cols (fun j => grad_output.[b * (cout * cols) + (o * cols + j)]))%R.
Proof.
  intros Hgo HW. unfold conv_bias_grad. rewrite emap_Ok by lia. cbn [bind].
  apply (forr_inv (fun m db => length db = cout /\
    forall o, o < cout -> db.[o] =
      rsum m (fun b => rsum cols (fun j => grad_output.[b * (cout * cols) + (o * cols + j)]))%R)).
  - split; [unfold zeros; rewrite tab_length; exact HW|]. intros o Ho. cbn [rsum].
    unfold zeros. rewrite nth_tab; [reflexivity|]. lia.
  - intros b db Hb (L & H).
    assert (F1 : b * (cout * cols) + cout * cols <= length grad_output) by (apply batch_fit with batch; lia).
    rewrite slice_Ok by exact F1. cbn [bind].
    eexists. split; [reflexivity|]. split; [rewrite put_length; lia|].
    intros o Ho. rewrite nth_put by exact Ho. cbn [rsum]. rewrite H by exact Ho. f_equal.
    apply rsum_ext. intros j Hj. unfold el. rewrite nth_slice by (apply mult_lt; assumption). reflexivity.
Qed.

(** The flat column value as a padded pixel. *)
Lemma colv_cell fill (x : nat -> R) c a b r q :
  a < KH g -> b < KW g -> r < ho -> q < wo ->
  colv fill x (((c * KH g + a) * KW g + b) * cols + (r * wo + q)) =
  if inside h w (win_row g a r) (win_col g b q)
  then x (pixel h w c (win_row g a r) (win_col g b q)) else fill.
Proof.
  intros Ha Hb Hr Hq. unfold colv.
  replace (((c * KH g + a) * KW g + b) * cols + (r * wo + q)) with (lin5 (KH g) (KW g) ho wo c a b r q)
    by (unfold lin5, cd_cols; ring).
  rewrite flat_src_cell by assumption. destruct (inside _ _ _ _); reflexivity.
Qed.

Lemma rows_sum (f : nat -> R) :
  rsum rows f = rsum cin (fun c => rsum (KH g) (fun a => rsum (KW g) (fun b => f ((c * KH g + a) * KW g + b)))).
Proof. unfold cd_rows. rewrite !rsum_mult. reflexivity. Qed.

End Conv.
