(** Properties C30, C31 and C32: the data loader, over arbitrary histories of [pull].

    The dataset is arbitrary code ([dataset_ok]: it writes sample [item j] or throws).  The caller chooses the
    tensors of every call knowing everything that happened before.  [pulls ... n] makes [n] calls; its result
    lists what each call reported.  Sizes are [size()] = [ds_size ds] and [bs] = batch_size. *)
From Verif Require Import Base BaseFacts S_Tensor M_Tensor P_Tensor M_DataLoader S_DataLoader P_DataLoader.

(** ** C30 Sequential epochs *)
Theorem C30_sequential_epochs :
  forall (V D G : Type) (next : G -> Z -> Z * G) (ord : list Z -> list Z) (fuel : nat)
         (ds : dataset V D) (item : Z -> list V * list V) (bs : Z) (l : loader D G) (caller : list (report V) -> request V) (n : nat),
  dataset_ok ds item -> never_throws ds -> config_ok ds bs -> l_pos l = 0%Z ->
  (forall rs, tensor_ok (q_X (caller rs)) /\ tensor_ok (q_y (caller rs)) /\
              accepted (q_X (caller rs)) bs (fst (ds_shape ds)) /\ accepted (q_y (caller rs)) bs (snd (ds_shape ds))) ->
  let full := Z.to_nat (ds_size ds / bs) in       (* full batches in an epoch; then one call returns false *)
  exists rs l', pulls next ord fuel ds bs false l caller n = Some (rs, l') /\ length rs = n /\
    forall j, j < n -> let c := j mod (full + 1) in
      exists X y, nth_error rs j = Some (Some (c <? full), X, y) /\
        (c < full -> holds_batch ds bs item (upfrom (Z.of_nat c * bs) bs) X y).
Proof. exact @sequential_epochs. Qed.
Print Assumptions C30_sequential_epochs.

(** Finding: with batch_size 0 every call returns true without delivering anything: the epoch never ends. *)
Theorem C30_zero_batch_size_never_ends :
  forall (V D G : Type) (next : G -> Z -> Z * G) (ord : list Z -> list Z) (fuel : nat) (ds : dataset V D) (l : loader D G) (jx jy : nat -> V),
  nonneg (fst (ds_shape ds)) -> nonneg (snd (ds_shape ds)) -> (0 <= l_pos l <= ds_size ds)%Z -> (l_pos l <= int_max)%Z ->
  pull next ord fuel ds 0 false l (mkTv [] []) (mkTv [] []) jx jy =
    PRet true l (mkTv (0%Z :: fst (ds_shape ds)) []) (mkTv (0%Z :: snd (ds_shape ds)) []).
Proof. exact @zero_batch. Qed.
Print Assumptions C30_zero_batch_size_never_ends.

(** ** C31 Shuffled batches *)
(** [next] answers any number of the requested range, [ord] is any iteration order of the hash set. *)
Theorem C31_shuffled_batches :
  forall (V D G : Type) (next : G -> Z -> Z * G) (ord : list Z -> list Z) (fuel : nat)
         (ds : dataset V D) (item : Z -> list V * list V) (bs : Z) (l : loader D G) (caller : list (report V) -> request V) (n : nat)
         (rs : list (report V)) (l' : loader D G),
  (forall g ub, (0 <= ub)%Z -> (0 <= fst (next g ub) <= ub)%Z) -> (forall u, Permutation (ord u) u) ->
  dataset_ok ds item -> never_throws ds -> config_ok ds bs -> l_pos l = 0%Z ->
  (forall rs, tensor_ok (q_X (caller rs)) /\ tensor_ok (q_y (caller rs)) /\
              accepted (q_X (caller rs)) bs (fst (ds_shape ds)) /\ accepted (q_y (caller rs)) bs (snd (ds_shape ds))) ->
  pulls next ord fuel ds bs true l caller n = Some (rs, l') ->
  let full := Z.to_nat (ds_size ds / bs) in
  length rs = n /\
  forall j, j < n -> let c := j mod (full + 1) in
    exists X y, nth_error rs j = Some (Some (c <? full), X, y) /\
      (c < full -> exists idx, Z.of_nat (length idx) = bs /\ NoDup idx /\ (forall i, In i idx -> (0 <= i < ds_size ds)%Z) /\
                               holds_batch ds bs item idx X y).
Proof. exact @shuffled_batches. Qed.
Print Assumptions C31_shuffled_batches.

(** Every call returns if from every generator state [fuel] draws contain enough distinct numbers. *)
Theorem C31_returns_when_generator_is_productive :
  forall (V D G : Type) (next : G -> Z -> Z * G) (ord : list Z -> list Z) (fuel : nat)
         (ds : dataset V D) (item : Z -> list V * list V) (bs : Z) (l : loader D G) (caller : list (report V) -> request V) (n : nat),
  (forall g ub, (0 <= ub)%Z -> (0 <= fst (next g ub) <= ub)%Z) -> (forall u, Permutation (ord u) u) ->
  dataset_ok ds item -> config_ok ds bs -> l_pos l = 0%Z ->
  (forall rs, tensor_ok (q_X (caller rs)) /\ tensor_ok (q_y (caller rs))) ->
  (forall g, exists u, NoDup u /\ Z.of_nat (length u) = bs /\ incl u (draws next fuel (ds_size ds - 1) g)) ->
  exists rs l', pulls next ord fuel ds bs true l caller n = Some (rs, l') /\ length rs = n.
Proof. exact @productive. Qed.
Print Assumptions C31_returns_when_generator_is_productive.

(** Finding: whatever the dataset (with at least one item beyond the first batch), there is a lawful
    generator for which every batch of every epoch consists of the items 0, ..., bs-1: items repeat within
    an epoch and the others are never delivered. *)
Theorem C31_batches_may_repeat_and_items_may_be_missed :
  forall (V D : Type) (ds : dataset V D) (item : Z -> list V * list V) (bs : Z) (d : D) (g : Z) (caller : list (report V) -> request V),
  dataset_ok ds item -> never_throws ds -> config_ok ds bs -> (bs < ds_size ds)%Z ->
  (forall rs, tensor_ok (q_X (caller rs)) /\ tensor_ok (q_y (caller rs)) /\
              accepted (q_X (caller rs)) bs (fst (ds_shape ds)) /\ accepted (q_y (caller rs)) bs (snd (ds_shape ds))) ->
  exists next : Z -> Z -> Z * Z, (forall g ub, (0 <= ub)%Z -> (0 <= fst (next g ub) <= ub)%Z) /\
  forall n, exists rs l', pulls next (fun u => u) (Z.to_nat bs) ds bs true (mkLd 0 d g) caller n = Some (rs, l') /\ length rs = n /\
    forall j X y, nth_error rs j = Some (Some true, X, y) ->
      exists idx, Permutation idx (upfrom 0 bs) /\ holds_batch ds bs item idx X y.
Proof. exact @may_repeat. Qed.
Print Assumptions C31_batches_may_repeat_and_items_may_be_missed.

(** ** C32 Failures *)
(** For every loader, dataset, mode and tensors: an exception leaves the position unchanged. *)
Theorem C32_exception_keeps_position :
  forall (V D G : Type) (next : G -> Z -> Z * G) (ord : list Z -> list Z) (fuel : nat)
         (ds : dataset V D) (bs : Z) (shuffle : bool) (l l' : loader D G) (X y X' y' : tv V) (jx jy : nat -> V),
  pull next ord fuel ds bs shuffle l X y jx jy = PExc l' X' y' -> l_pos l' = l_pos l.
Proof. exact @exc_pos. Qed.
Print Assumptions C32_exception_keeps_position.

(** Whole histories in which any call may fail: call number [j] either throws, and then the caller's tensors
    were wrong or the dataset failed, or behaves as call number [k] of a history without failures, where [k]
    is the number of calls before it that returned.  Empty tensors have been given the shape of a batch in
    either case. *)
Theorem C32_failed_calls_are_repeated :
  forall (V D G : Type) (next : G -> Z -> Z * G) (ord : list Z -> list Z) (fuel : nat)
         (ds : dataset V D) (item : Z -> list V * list V) (bs : Z) (l : loader D G) (caller : list (report V) -> request V) (n : nat),
  dataset_ok ds item -> config_ok ds bs -> l_pos l = 0%Z ->
  (forall rs, tensor_ok (q_X (caller rs)) /\ tensor_ok (q_y (caller rs))) ->
  let full := Z.to_nat (ds_size ds / bs) in
  exists rs l', pulls next ord fuel ds bs false l caller n = Some (rs, l') /\ length rs = n /\
    forall j, j < n -> exists o X y, nth_error rs j = Some (o, X, y) /\
      let before := firstn j rs in
      let c := returned before mod (full + 1) in
      let X0 := q_X (caller before) in let y0 := q_y (caller before) in
      (v_data X0 = [] -> v_shape X = bs :: fst (ds_shape ds)) /\ (v_data y0 = [] -> v_shape y = bs :: snd (ds_shape ds)) /\
      match o with
      | None => ~ accepted X0 bs (fst (ds_shape ds)) \/ ~ accepted y0 bs (snd (ds_shape ds)) \/ ~ never_throws ds
      | Some b => accepted X0 bs (fst (ds_shape ds)) /\ accepted y0 bs (snd (ds_shape ds)) /\ b = (c <? full) /\
                  (b = true -> holds_batch ds bs item (upfrom (Z.of_nat c * bs) bs) X y)
      end.
Proof. exact @failures. Qed.
Print Assumptions C32_failed_calls_are_repeated.

(** A negative batch size is rejected by the first call with empty tensors. *)
Theorem C32_negative_batch_size_throws :
  forall (V D G : Type) (next : G -> Z -> Z * G) (ord : list Z -> list Z) (fuel : nat)
         (ds : dataset V D) (bs : Z) (shuffle : bool) (l : loader D G) (y : tv V) (jx jy : nat -> V),
  (bs < 0)%Z -> pull next ord fuel ds bs shuffle l (mkTv [] []) y jx jy = PExc l (mkTv [] []) y.
Proof. exact @negative_batch. Qed.
Print Assumptions C32_negative_batch_size_throws.

(** ** Examples: five samples of two values with one label, batches of two; the dataset that fails once
    every third call shows that failures are possible. *)
Definition ex_item (j : Z) : list Z * list Z := ([j; 10 * j]%Z, [- j]%Z).
Definition ex_ds : dataset Z nat :=
  mkDs 5 ([2]%Z, [1]%Z) (fun d j sx sy => (S d, ex_item j, true)).
Definition ex_flaky : dataset Z nat :=
  mkDs 5 ([2]%Z, [1]%Z) (fun d j sx sy => if d mod 3 =? 2 then (S d, (0%Z :: tl sx, sy), false) else (S d, ex_item j, true)).
Definition ex_caller (rs : list (report Z)) : request Z := mkReq (mkTv [] []) (mkTv [] []) (fun _ => 0%Z) (fun _ => 0%Z).

Lemma fits_small s : (forall n, (-1000 <= prodZ (firstn n s) <= 1000)%Z) -> fits s.
Proof. intros H n. specialize (H n). unfold int_min, int_max. lia. Qed.

Example C30_C31_C32_nonvacuous :
  dataset_ok ex_ds ex_item /\ never_throws ex_ds /\ config_ok ex_ds 2 /\
  dataset_ok ex_flaky ex_item /\ config_ok ex_flaky 2 /\
  (forall rs, tensor_ok (q_X (ex_caller rs)) /\ tensor_ok (q_y (ex_caller rs)) /\
              accepted (q_X (ex_caller rs)) 2 [2%Z] /\ accepted (q_y (ex_caller rs)) 2 [1%Z]) /\
  (exists l', pulls (fun (g : unit) _ => (0%Z, g)) (fun u => u) 0 ex_ds 2 false (mkLd 0 0 tt) ex_caller 4 =
     Some ([(Some true, mkTv [2; 2]%Z [0; 0; 1; 10]%Z, mkTv [2; 1]%Z [0; -1]%Z);
            (Some true, mkTv [2; 2]%Z [2; 20; 3; 30]%Z, mkTv [2; 1]%Z [-2; -3]%Z);
            (Some false, mkTv [2; 2]%Z [0; 0; 0; 0]%Z, mkTv [2; 1]%Z [0; 0]%Z);
            (Some true, mkTv [2; 2]%Z [0; 0; 1; 10]%Z, mkTv [2; 1]%Z [0; -1]%Z)], l')) /\
  (exists l', pulls (fun (g : unit) _ => (0%Z, g)) (fun u => u) 0 ex_flaky 2 false (mkLd 0 0 tt) ex_caller 3 =
     Some ([(Some true, mkTv [2; 2]%Z [0; 0; 1; 10]%Z, mkTv [2; 1]%Z [0; -1]%Z);
            (None, mkTv [2; 2]%Z [0; 0; 0; 0]%Z, mkTv [2; 1]%Z [0; 0]%Z);
            (Some true, mkTv [2; 2]%Z [2; 20; 3; 30]%Z, mkTv [2; 1]%Z [-2; -3]%Z)], l')).
Proof.
  assert (F : forall a b, (-30 <= a <= 30)%Z -> (-30 <= b <= 30)%Z -> fits [a; b]).
  { intros a b Ha Hb. apply fits_small. intros [|[|n]]; [cbn; lia|cbn; lia|]. rewrite firstn_all2 by (cbn; lia). cbn. nia. }
  assert (N : forall a, (0 <= a)%Z -> nonneg [a]) by (intros; repeat constructor; assumption).
  assert (C : forall ds, ds_size ds = 5%Z -> ds_shape (V := Z) (D := nat) ds = ([2%Z], [1%Z]) -> config_ok ds 2).
  { intros ds E1 E2. unfold config_ok. rewrite E1, E2. cbn [fst snd]. split; [lia|]. split; [apply F; lia|]. split; [apply F; lia|]. unfold int_max. lia. }
  split; [|split; [|split; [|split; [|split; [|split; [|split]]]]]].
  - split; [cbn; lia|]. split; [apply N; cbn; lia|]. split; [apply N; cbn; lia|]. intros d j sx sy _ _ _. cbn. auto.
  - intros d j sx sy. reflexivity.
  - apply C; reflexivity.
  - split; [cbn; lia|]. split; [apply N; cbn; lia|]. split; [apply N; cbn; lia|]. intros d j sx sy _ Lx Ly.
    unfold ex_flaky in *. cbn [ds_shape ds_pull fst snd] in *. destruct (d mod 3 =? 2); cbn -[Z.mul]; [|auto].
    change (Z.to_nat (prodZ [2%Z])) with 2 in *. split; [|split; [exact Ly|discriminate]]. destruct sx as [|a [|b [|c r]]]; cbn in Lx; try discriminate. reflexivity.
  - apply C; reflexivity.
  - intros rs. cbn. unfold tensor_ok, accepted. cbn. auto.
  - eexists. vm_compute. reflexivity.
  - eexists. vm_compute. reflexivity.
Qed.
