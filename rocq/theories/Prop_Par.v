(** Property C10: the OpenMP loops do not depend on the schedule. *)
From Coq Require Import Reals Lra.
From Verif Require Import Base BaseFacts Sums M_Im2col S_Im2col M_Kernels M_Conv M_Par P_Par.
Open Scope nat_scope.

(** The iterations of the forward loop, each doing one element access at a time in any interleaving, end
    with the memory the sequential loop produces: same output, same im2col buffer, inputs untouched. *)
Theorem C10_parallel_convolution_equals_sequential :
  forall (g : geom) (d : cdims) (batch : nat) (input weights bias buf output : list R) (sched : list nat),
  sizes_ok g (cd_h d) (cd_w d) (cd_ho d) (cd_wo d) ->
  length input = batch * (cd_cin d * cd_h d * cd_w d) -> length weights = cd_cout d * cd_rows g d ->
  length bias = cd_cout d -> length buf = batch * (cd_rows g d * cd_cols d) ->
  length output = batch * (cd_cout d * cd_cols d) ->
  (forall t, In t sched -> t < batch) ->
  finished batch (exec sched (mem_of [input; weights; bias; buf; output], conv_prog real_arith g d)) ->
  exists buf' output',
    conv_forward g d batch input weights bias buf output = Ok (buf', output') /\
    forall a, fst (exec sched (mem_of [input; weights; bias; buf; output], conv_prog real_arith g d)) a =
              mem_of [input; weights; bias; buf'; output'] a.
Proof. intros g d batch input weights bias buf output sched H. exact (conv_any_schedule g d H batch input weights bias buf output sched). Qed.
Print Assumptions C10_parallel_convolution_equals_sequential.

(** The same for the input-gradient loop; [junk] is the uninitialised content of the private buffers. *)
Theorem C10_parallel_input_gradient_equals_sequential :
  forall (g : geom) (d : cdims) (batch : nat) (go weights gi : list R) (junk : list (list R)) (sched : list nat),
  sizes_ok g (cd_h d) (cd_w d) (cd_ho d) (cd_wo d) ->
  length go = batch * (cd_cout d * cd_cols d) -> length weights = cd_cout d * cd_rows g d ->
  length gi = batch * (cd_cin d * cd_h d * cd_w d) ->
  length junk = batch -> (forall t, t < batch -> length (nth t junk []) = cd_rows g d * cd_cols d) ->
  (forall t, In t sched -> t < batch) ->
  finished batch (exec sched (mem_of (go :: weights :: gi :: junk), conv_grad_prog real_arith g d)) ->
  exists gi', conv_input_grad g d batch (fun b => nth b junk []) go weights gi = Ok gi' /\ length gi' = length gi /\
    (forall i, fst (exec sched (mem_of (go :: weights :: gi :: junk), conv_grad_prog real_arith g d)) (2, i) = nth i gi' 0%R) /\
    (forall A i, A < 2 -> fst (exec sched (mem_of (go :: weights :: gi :: junk), conv_grad_prog real_arith g d)) (A, i) =
                          mem_of (go :: weights :: gi :: junk) (A, i)).
Proof. intros g d batch go weights gi junk sched H. exact (conv_grad_any_schedule g d H batch go weights gi junk sched). Qed.
Print Assumptions C10_parallel_input_gradient_equals_sequential.

(** No cell written by one iteration is read or written by another one. *)
Theorem C10_no_data_race :
  forall (V : Type) (A : arith V) (g : geom) (d : cdims) (t u : nat) (a : addr), t <> u ->
  (may_write a (conv_prog A g d t) -> ~ may_access a (conv_prog A g d u)) /\
  (may_write a (conv_grad_prog A g d t) -> ~ may_access a (conv_grad_prog A g d u)).
Proof. intros V A. exact (conv_no_race A). Qed.
Print Assumptions C10_no_data_race.

(** Bit for bit: whatever the element type and however its operations round, any interleaving leaves in every
    cell of every array exactly what running the iterations one after the other leaves there. *)
Theorem C10_bit_for_bit :
  forall (V : Type) (A : arith V) (g : geom) (d : cdims) (batch : nat) (m0 : mem V) (sched : list nat),
  (forall t, In t sched -> t < batch) ->
  (finished batch (exec sched (m0, conv_prog A g d)) ->
   forall a, fst (exec sched (m0, conv_prog A g d)) a = run (forp batch (conv_prog A g d)) m0 a) /\
  (finished batch (exec sched (m0, conv_grad_prog A g d)) ->
   forall a, fst (exec sched (m0, conv_grad_prog A g d)) a = run (forp batch (conv_grad_prog A g d)) m0 a) /\
  (forall a0 a1, a0 <> 0 -> a1 <> 0 -> finished batch (exec sched (m0, add_prog A a0 a1)) ->
   forall a, fst (exec sched (m0, add_prog A a0 a1)) a = run (forp batch (add_prog A a0 a1)) m0 a).
Proof.
  intros V A g d batch m0 sched Hs. split; [|split].
  - exact (conv_in_order A g d batch m0 sched Hs).
  - exact (conv_grad_in_order A g d batch m0 sched Hs).
  - intros a0 a1 H0 H1. exact (add_in_order A batch a0 a1 m0 sched H0 H1 Hs).
Qed.
Print Assumptions C10_bit_for_bit.

(** Every choice of initial memory and number of iterations has complete schedules. *)
Theorem C10_schedules_complete : forall (V : Type) (n : nat) (m0 : mem V) (ps : nat -> prog V),
  exists sched, (forall t, In t sched -> t < n) /\ finished n (exec sched (m0, ps)).
Proof. intros V. exact complete_schedule. Qed.
Print Assumptions C10_schedules_complete.

(** Two images of 1x1, one 1x1 kernel: accesses alternate between the two iterations. *)
Definition ex_gp : geom := mkGeom 1 1 0 0 1 1 1 1.
Definition ex_dp : cdims := mkCd 1 1 1 1 1 1.
Example C10_nonvacuous :
  sizes_ok ex_gp 1 1 1 1 /\
  finished 2 (exec [0;1;1;0;0;1;0;1;0;1;0;1;0;1;0;1;0;1] (mem_of [[2;3]; [5]; [7]; [0;0]; [0;0]]%R, conv_prog real_arith ex_gp ex_dp)) /\
  may_write (4, 1) (conv_prog real_arith ex_gp ex_dp 1).
Proof.
  split; [repeat split; cbn; lia|]. split.
  - intros [|[|t]] Ht; [reflexivity|reflexivity|lia].
  - cbn. exists 0%R. right. exists 0%R, 0%R. left. reflexivity.
Qed.

(** The same with an arithmetic that is not associative: sums are cut off at 20 after every addition. *)
Definition ex_arith : arith nat :=
  mkArith 0 (fun x y => Nat.min 20 (x + y)) (fun x y => fold_left (fun s p => Nat.min 20 (s + fst p * snd p)) (combine x y) 0).
Definition ex_mem : mem nat := fun a => nth (snd a) (nth (fst a) [[2;3]; [5]; [7]; [0;0]; [0;0]] []) 0.
Example C10_bit_for_bit_nonvacuous :
  let sched := [0;1;1;0;0;1;0;1;0;1;0;1;0;1;0;1;0;1] in
  finished 2 (exec sched (ex_mem, conv_prog ex_arith ex_gp ex_dp)) /\
  fst (exec sched (ex_mem, conv_prog ex_arith ex_gp ex_dp)) (4, 0) = 17 /\
  fst (exec sched (ex_mem, conv_prog ex_arith ex_gp ex_dp)) (4, 1) = 20.
Proof. split; [intros [|[|t]] Ht; [reflexivity|reflexivity|lia]|]. split; reflexivity. Qed.
