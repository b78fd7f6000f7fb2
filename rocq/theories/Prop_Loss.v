(** Properties C25 and C26: cross-entropy loss and accuracy. *)
From Coq Require Import Reals Lra.
From Verif Require Import Base BaseFacts Sums M_Im2col M_Kernels M_Conv M_Layers M_Loss S_Grad S_Partial S_Loss P_Loss.
Open Scope R_scope.

(** ** C25 Cross-entropy *)
Theorem C25_loss_is_mean_negative_log_likelihood :
  forall (E : env) (st : ce) (n m : nat) (pred target : ten) (c : nat -> nat),
  (0 < n)%nat -> ce_ok st -> ten_ok [n; m] pred -> labels n m target c ->
  (forall i, (i < n)%nat -> 0 < (tdat pred).[i * m + c i]) ->
  exists st', ce_forward E st pred target = Ok (st', Some (- rsum n (fun i => ln (tdat pred).[i * m + c i]) / INR n)) /\ ce_ok st' /\
    ((forall i, (i < n)%nat -> (tdat pred).[i * m + c i] <= 1) -> 0 <= - rsum n (fun i => ln (tdat pred).[i * m + c i]) / INR n).
Proof. exact ce_forward_spec. Qed.
Print Assumptions C25_loss_is_mean_negative_log_likelihood.

(** Backward writes all elements, each the partial derivative of the value forward returns. *)
Theorem C25_gradient_is_partial_derivative :
  forall (E : env) (st : ce) (n m : nat) (pred target go : ten) (c : nat -> nat),
  (0 < n)%nat -> ce_ok st -> ten_ok [n; m] pred -> labels n m target c -> ten_ok [n; m] go ->
  (forall i, (i < n)%nat -> 0 < (tdat pred).[i * m + c i]) ->
  exists g, ce_backward pred target go = Ok (map Some g) /\ length g = (n * m)%nat /\
    forall k, (k < n * m)%nat -> exists loss : R -> R,
      (exists e, 0 < e /\ forall s, Rabs s < e ->
         exists st', ce_forward E st (set_dat pred (bump (tdat pred) k s)) target = Ok (st', Some (loss s))) /\
      derivable_pt_lim loss 0 g.[k].
Proof. exact ce_gradient. Qed.
Print Assumptions C25_gradient_is_partial_derivative.

(** Softmax followed by the loss: the gradient of the logits is (p - onehot) / n, and is the derivative
    of the loss with respect to the logits. *)
Theorem C25_softmax_cross_entropy_gradient :
  forall (E E2 : env) (st : ce) (n m : nat) (x o go target : ten) (c : nat -> nat),
  (0 < n)%nat -> ce_ok st -> ten_ok [n; m] x -> ten_ok [n; m] o -> ten_ok [n; m] go -> labels n m target c ->
  exists p g, lforward E LSoftmax [x] [o] = Ok (LSoftmax, p) /\ ce_backward p target go = Ok (map Some g) /\
    forall gm kg ko gi, ten_ok [n; m] gi -> nth_error gm kg = Some gi -> nth_error gm ko = Some (mkT [n; m] g) ->
    exists gi', lbackward E2 LSoftmax [x] [p] gm [kg] [ko] = Ok (LSoftmax, upd gm kg gi') /\
      forall i j, (i < n)%nat -> (j < m)%nat ->
        (tdat gi').[i * m + j] = (tdat gi).[i * m + j] + ((tdat p).[i * m + j] - (if (j =? c i)%nat then 1 else 0)) / INR n /\
        exists loss : R -> R,
          (forall s, exists p' st', lforward E LSoftmax [set_dat x (bump (tdat x) (i * m + j) s)] [o] = Ok (LSoftmax, p') /\
                                    ce_forward E st p' target = Ok (st', Some (loss s))) /\
          derivable_pt_lim loss 0 ((tdat gi').[i * m + j] - (tdat gi).[i * m + j]).
Proof. exact ce_softmax. Qed.
Print Assumptions C25_softmax_cross_entropy_gradient.

(** Finding: a label (truncated to an integer) that leads outside the buffer is not detected. *)
Theorem C25_label_outside_buffer_is_undefined :
  forall (E : env) (st : ce) (n m : nat) (pred target go : ten) (i : nat),
  ten_ok [n; m] pred -> ten_ok [n; 1%nat] target -> ten_ok [n; m] go -> ce_ok st -> (i < n)%nat ->
  ~ (0 <= truncR (tdat target).[i] + Z.of_nat m * Z.of_nat i < Z.of_nat (n * m))%Z ->
  ce_forward E st pred target = UB /\ ce_backward pred target go = UB.
Proof. exact ce_bad_label. Qed.
Print Assumptions C25_label_outside_buffer_is_undefined.

(** The loss and its gradient throw exactly when the predictions are not a matrix, the target is not one
    column with a label for each row, or the gradient tensor has not the shape of the predictions. *)
Theorem C25_throws_exactly_on_shape_mismatch :
  forall (E : env) (st : ce) (pred target go : ten),
  (ce_forward E st pred target = Throw <-> ~ exists n m, tsh pred = [n; m] /\ tsh target = [n; 1%nat]) /\
  (ce_backward pred target go = Throw <-> ~ ((exists n m, tsh pred = [n; m] /\ tsh target = [n; 1%nat]) /\ tsh go = tsh pred)).
Proof. exact (fun E st pred target go => conj (ce_forward_throws E st pred target) (ce_backward_throws pred target go)). Qed.
Print Assumptions C25_throws_exactly_on_shape_mismatch.

(** Finding: a label outside its row that stays inside the buffer silently uses another sample's prediction. *)
Theorem C25_label_outside_row_reads_another_row :
  forall (E : env) (st : ce) (n m : nat) (pred target : ten) (z : nat -> Z),
  ten_ok [n; m] pred -> ten_ok [n; 1%nat] target -> ce_ok st -> (0 < n)%nat ->
  (forall i, (i < n)%nat -> truncR (tdat target).[i] = z i /\ fits_int (z i) = true) ->
  (forall i, (i < n)%nat -> (0 <= z i + Z.of_nat m * Z.of_nat i < Z.of_nat (n * m))%Z) ->
  (forall i, (i < n)%nat -> 0 < (tdat pred).[Z.to_nat (z i + Z.of_nat m * Z.of_nat i)]) ->
  exists st', ce_forward E st pred target =
    Ok (st', Some (- rsum n (fun i => ln (tdat pred).[Z.to_nat (z i + Z.of_nat m * Z.of_nat i)]) / INR n)).
Proof.
  intros E st n m pred target z Hp Ht Hst Hn Hz Hin Hpos.
  destruct (ce_forward_gen n m pred target Hp Ht z Hz Hin E st Hn Hst Hpos) as (st' & F & _). exists st'. exact F.
Qed.
Print Assumptions C25_label_outside_row_reads_another_row.

Definition ex_pred : ten := mkT [2; 2]%nat [1 / 4; 3 / 4; 1 / 2; 1 / 2].
Example C25_nonvacuous :
  ce_ok ce_new /\ ten_ok [2; 2]%nat ex_pred /\ labels 2 2 (mkT [2; 1]%nat [1; 0]) (fun i => 1 - i)%nat /\
  (forall i, (i < 2)%nat -> 0 < (tdat ex_pred).[i * 2 + (1 - i)] <= 1) /\
  (* label 2 of two classes in the first row is the first element of the second row *)
  truncR 2 = 2%Z /\ (0 <= 2 + Z.of_nat 2 * Z.of_nat 0 < Z.of_nat (2 * 2))%Z /\
  ~ (0 <= 2 + Z.of_nat 2 * Z.of_nat 1 < Z.of_nat (2 * 2))%Z.
Proof.
  split; [left; reflexivity|]. split; [split; reflexivity|]. split; [|split; [|split; [|split]]].
  - split; [split; reflexivity|]. split; [unfold int_max; lia|]. intros [|[|i]] Hi; [| |lia]; cbn; (split; [lia|lra]).
  - intros [|[|i]] Hi; [| |lia]; cbn; lra.
  - apply (truncR_nat 2 2). cbn. lra.
  - lia.
  - lia.
Qed.

(** ** C26 Accuracy *)
Theorem C26_accuracy_is_share_of_correct_rows :
  forall (E : env) (n m : nat) (p y : ten), is_argmax (e_amax E) -> (0 < n)%nat -> (0 < m)%nat -> ten_ok [n; m] p -> tot y = n ->
  exists col v, accuracy E p y = Ok (Some v) /\ (forall i, (i < n)%nat -> max_col m (tdat p) i (col i)) /\
    share n (fun i => (tdat y).[i] = INR (col i)) v /\ 0 <= v <= 1.
Proof. exact accuracy_spec. Qed.
Print Assumptions C26_accuracy_is_share_of_correct_rows.

Theorem C26_one_hot_accuracy_is_share_of_correct_rows :
  forall (E : env) (n m : nat) (p y : ten), is_argmax (e_amax E) -> (0 < n)%nat -> (0 < m)%nat -> ten_ok [n; m] p -> ten_ok [n; m] y ->
  exists col lab v, accuracy_onehot E p y = Ok (Some v) /\
    (forall i, (i < n)%nat -> max_col m (tdat p) i (col i) /\ max_col m (tdat y) i (lab i)) /\
    share n (fun i => col i = lab i) v /\ 0 <= v <= 1.
Proof. exact onehot_spec. Qed.
Print Assumptions C26_one_hot_accuracy_is_share_of_correct_rows.

(** [sigma] lists the rows in another order. *)
Theorem C26_accuracy_ignores_sample_order :
  forall (E : env) (n m : nat) (p y p' y' : ten) (sigma : list nat), am_ext (e_amax E) -> (0 < n)%nat -> (0 < m)%nat ->
  ten_ok [n; m] p -> ten_ok [n; m] p' -> tot y = n -> tot y' = n -> Permutation sigma (seq 0 n) ->
  (forall i k, (i < n)%nat -> (k < m)%nat -> (tdat p').[i * m + k] = (tdat p).[nth i sigma O * m + k]) ->
  (forall i, (i < n)%nat -> (tdat y').[i] = (tdat y).[nth i sigma O]) ->
  accuracy E p' y' = accuracy E p y.
Proof. exact accuracy_permutation. Qed.
Print Assumptions C26_accuracy_ignores_sample_order.

Theorem C26_one_hot_accuracy_ignores_sample_order :
  forall (E : env) (n m : nat) (p y p' y' : ten) (sigma : list nat), am_ext (e_amax E) -> (0 < n)%nat -> (0 < m)%nat ->
  ten_ok [n; m] p -> ten_ok [n; m] p' -> ten_ok [n; m] y -> ten_ok [n; m] y' -> Permutation sigma (seq 0 n) ->
  (forall i k, (i < n)%nat -> (k < m)%nat -> (tdat p').[i * m + k] = (tdat p).[nth i sigma O * m + k]) ->
  (forall i k, (i < n)%nat -> (k < m)%nat -> (tdat y').[i * m + k] = (tdat y).[nth i sigma O * m + k]) ->
  accuracy_onehot E p' y' = accuracy_onehot E p y.
Proof. exact onehot_permutation. Qed.
Print Assumptions C26_one_hot_accuracy_ignores_sample_order.

Theorem C26_metrics_agree_on_one_hot_labels :
  forall (E : env) (n m : nat) (p y yh : ten) (c : nat -> nat),
  is_argmax (e_amax E) -> (0 < n)%nat -> (0 < m)%nat -> ten_ok [n; m] p -> tot y = n -> ten_ok [n; m] yh ->
  (forall i, (i < n)%nat -> (c i < m)%nat /\ (tdat y).[i] = INR (c i)) ->
  (forall i k, (i < n)%nat -> (k < m)%nat -> (tdat yh).[i * m + k] = if (k =? c i)%nat then 1 else 0) ->
  accuracy_onehot E p yh = accuracy E p y.
Proof. exact accuracy_agree. Qed.
Print Assumptions C26_metrics_agree_on_one_hot_labels.

Theorem C26_throws_exactly_on_shape_mismatch :
  forall (E : env) (p y : ten), twf p ->
  (accuracy E p y = Throw <-> length (tsh p) <> 2%nat \/ tot y <> nth 0 (tsh p) O) /\
  (twf y -> (accuracy_onehot E p y = Throw <-> length (tsh p) <> 2%nat \/ tsh y <> tsh p)).
Proof. exact (fun E p y H => conj (accuracy_throws E p y H) (onehot_throws E p y H)). Qed.
Print Assumptions C26_throws_exactly_on_shape_mismatch.

(** A choice of maxima as required exists: the first maximal index. *)
Fixpoint first_max (n : nat) (f : nat -> R) : nat :=
  match n with
  | O | 1%nat => O
  | S n => let k := first_max n f in if Rlt_dec (f k) (f n) then n else k
  end.
Lemma first_max_ok : is_argmax first_max /\ am_ext first_max.
Proof.
  assert (P : forall n f, (0 < n)%nat -> (first_max n f < n)%nat /\ forall k, (k < n)%nat -> f k <= f (first_max n f)).
  { induction n as [|[|n] IH]; intros f H; [lia|cbn; split; [lia|intros k Hk; assert (k = O) as -> by lia; lra]|].
    destruct (IH f ltac:(lia)) as [H1 H2]. change (first_max (S (S n)) f) with (if Rlt_dec (f (first_max (S n) f)) (f (S n)) then S n else first_max (S n) f).
    destruct (Rlt_dec (f (first_max (S n) f)) (f (S n))) as [Hl|Hl]; (split; [lia|]); intros k Hk;
      (destruct (Nat.eq_dec k (S n)) as [->|]; [lra|]); specialize (H2 k ltac:(lia)); lra. }
  split; [exact P|]. intros n. induction n as [|[|n] IH]; intros f f' H; [reflexivity|reflexivity|].
  specialize (IH f f' ltac:(intros; apply H; lia)).
  change (first_max (S (S n)) f) with (if Rlt_dec (f (first_max (S n) f)) (f (S n)) then S n else first_max (S n) f).
  change (first_max (S (S n)) f') with (if Rlt_dec (f' (first_max (S n) f')) (f' (S n)) then S n else first_max (S n) f').
  rewrite <- IH. pose proof (proj1 (P (S n) f ltac:(lia))). rewrite !H by lia. reflexivity.
Qed.
Example C26_nonvacuous :
  let E := mkEnv (fun _ => 0) (fun _ => O) (fun _ => 0) first_max in
  is_argmax (e_amax E) /\ am_ext (e_amax E) /\ ten_ok [2; 2]%nat ex_pred /\ tot (mkT [2]%nat [1; 0]) = 2%nat /\
  Permutation [1; 0]%nat (seq 0 2) /\
  (forall i, (i < 2)%nat -> (1 - i < 2)%nat /\ (tdat (mkT [2]%nat [1; 0])).[i] = INR (1 - i)) /\
  (forall i k, (i < 2)%nat -> (k < 2)%nat -> (tdat (mkT [2; 2]%nat [0; 1; 1; 0])).[i * 2 + k] = if (k =? 1 - i)%nat then 1 else 0).
Proof.
  split; [apply first_max_ok|]. split; [apply first_max_ok|]. split; [split; reflexivity|]. split; [reflexivity|]. split; [cbn; apply perm_swap|]. split.
  - intros [|[|i]] Hi; [| |lia]; cbn; (split; [lia|lra]).
  - intros [|[|i]] [|[|k]] Hi Hk; try lia; reflexivity.
Qed.
