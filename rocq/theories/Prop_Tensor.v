(** Properties C01-C05: tensors. *)
From Verif Require Import Base S_Tensor M_Tensor S_Heap P_Tensor.

(** ** C01 Row-major layout *)
Theorem C01_fresh_tensor_row_major :
  forall (V : Type) (h : heap V) (s : shape) (junk : nat -> V),
  reachable h -> nonneg s -> fits s ->
  (* Tensor(shape) and x.allocate(shape) both succeed and give such a tensor *)
  (exists h', run_call h (CNewShape s true junk) = Ret h' /\ fresh_tensor h' (length (h_vars h)) s junk) /\
  (forall x, x < length (h_vars h) ->
     exists h', run_call h (CAllocate x s true junk) = Ret h' /\ fresh_tensor h' x s junk) /\
  (* whose strides are the row-major ones *)
  (Forall (fun d => 0 < d)%Z s -> row_major s (calculateStrides s)) /\
  (* and whose offsets are a bijection between valid multi-indices and 0..total-1 *)
  (forall idx, valid_index idx s -> (0 <= offset idx (calculateStrides s) < prodZ s)%Z) /\
  (forall idx1 idx2, valid_index idx1 s -> valid_index idx2 s ->
     offset idx1 (calculateStrides s) = offset idx2 (calculateStrides s) -> idx1 = idx2) /\
  (forall o, (0 <= o < prodZ s)%Z -> exists idx, valid_index idx s /\ offset idx (calculateStrides s) = o).
Proof.
  intros V h s junk Hr Hn Hf. split; [exact (new_shape_fresh h s junk Hn Hf)|].
  split; [intros x Hx; exact (allocate_fresh h x s junk (reachable_wf h Hr) Hx Hn Hf)|].
  split; [intros Hp; exact (calculateStrides_positive s Hp Hf)|].
  exact (bijection_lemma s Hn Hf).
Qed.
Print Assumptions C01_fresh_tensor_row_major.

Example C01_nonvacuous : reachable (@heap0 Z) /\ nonneg [2;3;4]%Z /\ fits [2;3;4]%Z /\
  calculateStrides [2;3;4]%Z = [12;4;1]%Z /\ valid_index [1;2;3]%Z [2;3;4]%Z /\
  offset [1;2;3]%Z [12;4;1]%Z = 23%Z.
Proof.
  split; [exists []; split; [intros [|? ?] ? ? ? E; discriminate E|reflexivity]|].
  split; [repeat constructor; lia|].
  split; [apply (int_prod_Ok [2;3;4]%Z 24%Z); reflexivity|].
  split; [reflexivity|]. split; [repeat constructor; lia|reflexivity].
Qed.

(** ** C02 Negative shapes are rejected atomically *)
Theorem C02_negative_shape_rejected_atomically :
  forall (V : Type) (h : heap V) (s : shape),
  reachable h -> (nonneg s -> fits s) ->
  (forall junk,
     ((exists h', new_shape h s true junk = Exc h') <-> ~ nonneg s) /\
     (forall h', new_shape h s true junk = Exc h' -> unchanged h h')) /\
  (forall p,
     ((exists h', new_view h s p = Exc h') <-> ~ nonneg s) /\
     (forall h', new_view h s p = Exc h' -> unchanged h h')) /\
  (forall x junk, x < length (h_vars h) ->
     ((exists h', allocate h x s true junk = Exc h') <-> ~ nonneg s) /\
     (forall h', allocate h x s true junk = Exc h' -> unchanged h h')).
Proof.
  intros V h s Hr Hf. split; [|split].
  - intros junk. exact (new_shape_throws h s junk Hf).
  - intros p. exact (new_view_throws h s p Hf).
  - intros x junk Hx. exact (allocate_throws h x s junk (reachable_wf h Hr) Hx Hf).
Qed.
Print Assumptions C02_negative_shape_rejected_atomically.

(** A heap with one 2x3 tensor, used by the examples. *)
Definition ex_heap : heap Z :=
  match run heap0 [CNewShape [2;3]%Z true Z.of_nat] with Some h => h | None => heap0 end.

Lemma ex_heap_reachable : reachable ex_heap.
Proof.
  exists [CNewShape [2;3]%Z true Z.of_nat]. split; [|reflexivity].
  intros [|c1 cs1] c cs2 h' E Hr; injection E; intros.
  - subst. cbn. split; [reflexivity|]. intros _. apply (int_prod_Ok [2;3]%Z 6%Z). reflexivity.
  - destruct cs1; discriminate.
Qed.

Example C02_nonvacuous : reachable ex_heap /\ ~ nonneg [2;-3]%Z /\
  allocate ex_heap 0 [2;-3]%Z true Z.of_nat = Exc ex_heap.
Proof.
  split; [exact ex_heap_reachable|]. split; [|reflexivity].
  intros H. inversion H as [|? ? _ H']; subst. inversion H' as [|? ? H'' _]; subst. lia.
Qed.

(** Finding: when the memory allocation itself fails, the tensor has already taken the new shape and
    total but keeps the old, too small, storage. *)
Theorem C02_allocation_failure_is_not_atomic :
  exists (h' : heap Z) k d b c,
    allocate ex_heap 0 [2;300]%Z false Z.of_nat = Exc h' /\
    denotes h' 0 k d /\ d_total d = 600%Z /\ d_data d = Some (b, 0) /\ live h' b c /\ length c = 6 /\
    fill h' 0 0%Z = Bad.
Proof.
  do 5 eexists. split; [vm_compute; reflexivity|]. split; [split; reflexivity|].
  repeat split.
Qed.
Print Assumptions C02_allocation_failure_is_not_atomic.

(** ** C03 reshape *)
Theorem C03_reshape_keeps_data :
  forall (V : Type) (h : heap V) x s k d,
  reachable h -> denotes h x k d -> fits s ->
  (prodZ s = d_total d ->
     exists h', reshape h x s = Ret h' /\
       h_vars h' = h_vars h /\ h_blocks h' = h_blocks h /\
       (forall j, j <> k -> nth_error (h_descs h') j = nth_error (h_descs h) j) /\
       denotes h' x k (mkDesc (calculateStrides s) s (d_memory d) (d_data d) (d_total d)) /\
       contents h' x = contents h x) /\
  (prodZ s <> d_total d -> reshape h x s = Exc h).
Proof. intros V h x s k d Hr. exact (reshape_spec h x s k d (reachable_wf h Hr)). Qed.
Print Assumptions C03_reshape_keeps_data.

Example C03_nonvacuous : exists k d, reachable ex_heap /\ denotes ex_heap 0 k d /\
  fits [3;2]%Z /\ prodZ [3;2]%Z = d_total d /\ contents ex_heap 0 = Ok [0;1;2;3;4;5]%Z.
Proof.
  do 2 eexists. split; [exact ex_heap_reachable|]. split; [split; reflexivity|].
  split; [apply (int_prod_Ok [3;2]%Z 6%Z); reflexivity|]. split; reflexivity.
Qed.

(** Finding: a shape with two negative dimensions, which allocate rejects, is accepted by reshape. *)
Theorem C03_reshape_accepts_negative_dims :
  exists h' k d, reshape ex_heap 0 [-2;-3]%Z = Ret h' /\ denotes h' 0 k d /\
    d_shape d = [-2;-3]%Z /\ allocate h' 0 [-2;-3]%Z true Z.of_nat = Exc h'.
Proof. do 3 eexists. split; [vm_compute; reflexivity|]. split; [split; reflexivity|]. split; reflexivity. Qed.
Print Assumptions C03_reshape_accepts_negative_dims.

(** ** C04 copyTo *)
Theorem C04_copyTo_copies_all_and_only :
  forall (V : Type) (h : heap V) x y kx ky dx dy,
  reachable h -> accessible h x -> accessible h y -> denotes h x kx dx -> denotes h y ky dy ->
  (d_shape dx = d_shape dy -> d_total dy <> 0%Z -> d_total dx = d_total dy ->
     exists h' vs, copyTo h x y = Ret h' /\ contents h x = Ok vs /\ contents h' y = Ok vs /\
       length vs = Z.to_nat (d_total dy) /\
       h_vars h' = h_vars h /\ h_descs h' = h_descs h /\
       (forall b i, ~ covers h y b i -> cell h' b i = cell h b i)) /\
  (* the only other accepted case: a default-constructed source and a scalar destination *)
  (d_shape dx = d_shape dy -> d_total dy <> 0%Z -> d_total dx <> d_total dy ->
     d_shape dx = [] /\ d_total dx = 0%Z /\ d_total dy = 1%Z /\ copyTo h x y = Ret h) /\
  (d_shape dx <> d_shape dy \/ d_total dy = 0%Z -> copyTo h x y = Exc h).
Proof. intros V h x y kx ky dx dy Hr. exact (copyTo_spec h x y kx ky dx dy (reachable_wf h Hr)). Qed.
Print Assumptions C04_copyTo_copies_all_and_only.

(** Later changes made through one tensor do not show through another one with its own storage. *)
Theorem C04_copies_stay_independent :
  forall (V : Type) (h : heap V) c h' y k d,
  reachable h -> denotes h y k d -> d_memory d <> None ->
  (forall x, target c = Some x ->
     exists j dj, denotes h x j dj /\ j <> k /\ (d_memory dj <> None \/ d_data dj = None)) ->
  run_call h c = Ret h' \/ run_call h c = Exc h' -> same_view h h' k.
Proof.
  intros V h c h' y k d Hr [_ Hd]. exact (run_call_frame h c h' k d (reachable_wf h Hr) Hd).
Qed.
Print Assumptions C04_copies_stay_independent.

Definition ex_heap2 : heap Z :=
  match run ex_heap [CNewShape [2;3]%Z true (fun _ => 7%Z)] with Some h => h | None => heap0 end.

Lemma ex_heap2_reachable : reachable ex_heap2.
Proof.
  exists [CNewShape [2;3]%Z true Z.of_nat; CNewShape [2;3]%Z true (fun _ => 7%Z)]. split; [|reflexivity].
  assert (F : fits [2;3]%Z) by (apply (int_prod_Ok [2;3]%Z 6%Z); reflexivity).
  intros [|c1 [|c2 cs1]] c cs2 h' E Hr; injection E; intros; subst.
  - cbn. auto.
  - cbn. auto.
  - destruct cs1; discriminate.
Qed.

Example C04_nonvacuous : exists kx ky dx dy h',
  reachable ex_heap2 /\ accessible ex_heap2 0 /\ accessible ex_heap2 1 /\
  denotes ex_heap2 0 kx dx /\ denotes ex_heap2 1 ky dy /\ kx <> ky /\
  d_shape dx = d_shape dy /\ d_total dy <> 0%Z /\ d_total dx = d_total dy /\
  d_memory dx <> None /\ d_memory dy <> None /\
  copyTo ex_heap2 0 1 = Ret h' /\ contents ex_heap2 1 = Ok [7;7;7;7;7;7]%Z /\
  contents h' 1 = Ok [0;1;2;3;4;5]%Z.
Proof.
  do 5 eexists. split; [exact ex_heap2_reachable|].
  split; [do 2 eexists; split; [split; reflexivity|left; discriminate]|].
  split; [do 2 eexists; split; [split; reflexivity|left; discriminate]|].
  split; [split; reflexivity|]. split; [split; reflexivity|].
  split; [discriminate|]. split; [reflexivity|]. split; [discriminate|]. split; [reflexivity|].
  split; [discriminate|]. split; [discriminate|]. split; [vm_compute; reflexivity|]. split; reflexivity.
Qed.

(** ** C05 Aliasing, separation and memory safety over all histories *)
Theorem C05_histories_are_safe :
  forall (V : Type) (cs : list (call V)),
  (forall cs1 c cs2 h, cs = cs1 ++ c :: cs2 -> run heap0 cs1 = Some h -> legal h c) ->
  exists h, run heap0 cs = Some h /\
    forall x k d, denotes h x k d ->
      (d_total d = prodZ (d_shape d) \/ d_shape d = [] /\ d_total d = 0%Z) /\
      (forall b, d_memory d = Some b ->
         d_data d = Some (b, 0) /\ exists c, live h b c /\ length c = Z.to_nat (d_total d)).
Proof.
  intros V cs Hl. destruct (history_safe cs Hl) as (h & E & W). exists h. split; [exact E|].
  intros x k d [_ Hd]. destruct (wf_descs h W k d Hd) as [_ B _ D]. split; [tauto|exact D].
Qed.
Print Assumptions C05_histories_are_safe.

Theorem C05_copies_alias :
  forall (V : Type) (h h1 h2 : heap V) x cs,
  run_call h (CCopy x) = Ret h1 ->
  run h1 cs = Some h2 ->
  Forall (fun c => ~ reassigns c x /\ ~ reassigns c (length (h_vars h))) cs ->
  forall k d, denotes h2 x k d <-> denotes h2 (length (h_vars h)) k d.
Proof. intros V h h1 h2 x cs. exact (copy_aliases h x h1 cs h2). Qed.
Print Assumptions C05_copies_alias.

Theorem C05_separate_tensors_never_overlap :
  forall (V : Type) (h : heap V) x y kx ky dx dy b i,
  reachable h -> denotes h x kx dx -> denotes h y ky dy -> kx <> ky ->
  d_memory dx <> None -> d_memory dy <> None -> covers h x b i -> ~ covers h y b i.
Proof.
  intros V h x y kx ky dx dy b i Hr. exact (separate_storage h x y kx ky dx dy b i (reachable_wf h Hr)).
Qed.
Print Assumptions C05_separate_tensors_never_overlap.

(** A history with a copy, a reallocation through the copy, a throwing call and a view. *)
Definition ex_history : list (call Z) :=
  [CNewShape [2;3]%Z true Z.of_nat; CCopy 0; CAllocate 1 [4]%Z true (fun _ => 9%Z);
   CAllocate 0 [-1]%Z true Z.of_nat; CView [2]%Z 0 1; CFill 2 5%Z; CReshape 0 [2;2]%Z].

Example C05_nonvacuous :
  (forall cs1 c cs2 h, ex_history = cs1 ++ c :: cs2 -> run heap0 cs1 = Some h -> legal h c) /\
  exists h, run heap0 ex_history = Some h /\ contents h 0 = Ok [9;5;5;9]%Z /\
    contents h 1 = contents h 0 /\ covers h 0 1 3.
Proof.
  assert (F : forall s t, int_prod s = Ok t -> fits s) by (intros s t E; apply (int_prod_Ok s t) in E; tauto).
  split.
  - intros cs1 c cs2 h E Hr.
    destruct cs1 as [|c1 [|c2 [|c3 [|c4 [|c5 [|c6 [|c7 [|c8 cs1]]]]]]]];
      injection E; clear E; intros; subst; cbn in Hr; try discriminate;
      try (injection Hr as <-); cbn [legal h_vars length].
    + split; [reflexivity|]. intros _. eapply F. reflexivity.
    + cbn. lia.
    + split; [cbn; lia|]. split; [reflexivity|]. intros _. eapply F. reflexivity.
    + split; [cbn; lia|]. split; [reflexivity|]. intros N. inversion N. lia.
    + split; [cbn; lia|]. intros _. eapply F. reflexivity.
    + do 2 eexists. split; [split; reflexivity|]. right. right.
      do 3 eexists. split; [reflexivity|]. split; [reflexivity|]. cbn. lia.
    + split; [cbn; lia|]. eapply F. reflexivity.
  - eexists. split; [vm_compute; reflexivity|]. split; [reflexivity|]. split; [reflexivity|].
    do 3 eexists. split; [split; reflexivity|]. split; [reflexivity|]. vm_compute. lia.
Qed.
