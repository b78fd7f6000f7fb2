(** Property C59, the sample programs: mode "test" loads what mode "train" saved and measures it. *)
From Coq Require Import Reals String Lia Permutation.
From Verif Require Import Base BaseFacts Sums M_Tensor M_Layers M_Kernels M_Optim M_Init M_Nn M_Graph M_Model M_Backend M_DataLoader M_Train M_Serial M_Saved M_Sample S_Grad S_Loss S_DataLoader S_Fit S_Nn S_Serial S_Graph S_Run S_Build S_Train S_Plain S_Eval S_Sample S_Saved S_Saved2
  P_DataLoader P_Build4 P_Sample2 P_Saved8 P_Saved9 Prop_Eval Prop_Loss Prop_Run Prop_Model Prop_Saved Prop_Sample.
Local Open Scope string_scope.
Open Scope nat_scope.
Local Open Scope list_scope.

(** The training program, then the test program on the file it saved, with the same batch size and test set
    (anything else may differ: the machine, the order of hash maps, the random numbers, the state of the readers):
    it loads the file and prints one line, the accuracy of the trained model on the test set.  If for no sample two
    classes share the highest score, that is the last accuracy the training program printed. *)
Theorem C59_test_mode_measures_the_trained_model :
  forall (D1 D2 G : Type) (next : G -> Z -> Z * G) (iter_order : list Z -> list Z) (fuel turns : nat) (world : nat -> outside)
         (order : graph -> list gnode) (net : Z -> prog (nat * nat)) (make_opt : pmap -> optimizer)
         (n c : nat) (rest : list nat) (t : list row) (I : nat -> ienv) (num_epochs freq : Z)
         (train_set : dataset R D1) (item1 : Z -> list R * list R) (label1 : Z -> nat)
         (test_set : dataset R D2) (item2 : Z -> list R * list R) (label2 : Z -> nat) (junk : nat -> R) (d1 : D1) (d2 : D2) (g : G),
  net (Z.of_nat n) es0 = RVal (expression I (n :: rest) t) (0, length t) -> classifier n c rest t -> sorts order -> new_optimizer make_opt ->
  (Z.of_nat c <= int_max)%Z -> labelled train_set n c rest item1 label1 -> labelled test_set n c rest item2 label2 ->
  in_range next -> (forall l, Permutation (iter_order l) l) -> enough next fuel n (ds_size train_set) ->
  full train_set n < turns -> full test_set n < turns -> freq <> 0%Z ->
  (forall k d, fair (o_fwd (world k) d)) -> (forall k, is_argmax (e_amax (o_acc (world k)))) -> (0 < num_epochs)%Z ->
  exists es' m infos s s' out,
    train_main next iter_order fuel turns world order net make_opt (Z.of_nat n) num_epochs freq train_set test_set junk d1 d2 g =
      FDone ((out ++ [Saved])%list, es', m, infos) /\
    training_run m n c rest train_set item1 test_set item2 label2 freq (Z.to_nat num_epochs) 0 s s' out /\ infos = ts_info (l_ts s') /\
    forall (bits : R -> Z) (value : Z -> R) (can : Z -> bool) (junk_bytes : bytes -> bytes) (iter_cfg : config Z -> config Z) (iter_dict : sdict -> sdict)
           (order2 : graph -> list gnode) (I2 : nat -> ienv) (make_opt2 : pmap -> optimizer) (junk2 : nat -> R) (d2' : D2) (g2 : G) (world2 : nat -> outside) (turns2 : nat),
    savable bits value can m infos -> (forall c, iterated c (iter_cfg c)) -> (forall d, Permutation d (iter_dict d)) -> sorts order2 ->
    (forall k d, fair (o_fwd (world2 k) d)) -> (forall k, is_argmax (e_amax (o_acc (world2 k)))) -> full test_set n < turns2 ->
    exists file acc scores,
      save_model bits iter_cfg iter_dict m infos = Ok file /\
      test_main bits value next iter_order fuel turns2 world2 can junk_bytes order2 I2 make_opt2 (Some file) (Z.of_nat n) test_set junk2 d2' g2 = FDone [Accuracy acc] /\
      predicts m n c rest test_set item2 infos (ts_backend (l_ts s')) scores /\ measured test_set n c label2 scores acc /\
      (decided (full test_set n * n) c scores -> exists before, out = (before ++ [Accuracy acc])%list).
Proof.
  intros. edestruct (@test_main_runs D1 D2 G next iter_order fuel turns world order net make_opt n c rest t I num_epochs freq train_set item1 label1 test_set item2 label2 junk d1 d2 g)
    as (es' & m & infos & s & s' & out & E1 & E2 & E3 & _ & _ & _ & _ & K); try eassumption.
  exists es', m, infos, s, s', out. auto.
Qed.
Print Assumptions C59_test_mode_measures_the_trained_model.

(** Training changes neither the names nor the shapes: what the training program saves can be saved if the new
    network can and its numbers are floats. *)
Theorem C59_training_keeps_models_savable :
  forall (D1 D2 G : Type) (next : G -> Z -> Z * G) (iter_order : list Z -> list Z) (fuel turns : nat) (world : nat -> outside)
         (order : graph -> list gnode) (net : Z -> prog (nat * nat)) (make_opt : pmap -> optimizer)
         (n c : nat) (rest : list nat) (t : list row) (I : nat -> ienv) (num_epochs freq : Z)
         (train_set : dataset R D1) (item1 : Z -> list R * list R) (label1 : Z -> nat)
         (test_set : dataset R D2) (item2 : Z -> list R * list R) (label2 : Z -> nat) (junk : nat -> R) (d1 : D1) (d2 : D2) (g : G)
         (out : list line) (es' : estore) (m : model) (infos : list linfo),
  net (Z.of_nat n) es0 = RVal (expression I (n :: rest) t) (0, length t) -> classifier n c rest t -> sorts order -> new_optimizer make_opt ->
  (Z.of_nat c <= int_max)%Z -> labelled train_set n c rest item1 label1 -> labelled test_set n c rest item2 label2 ->
  in_range next -> (forall l, Permutation (iter_order l) l) -> enough next fuel n (ds_size train_set) ->
  full train_set n < turns -> full test_set n < turns -> freq <> 0%Z ->
  (forall k d, fair (o_fwd (world k) d)) -> (forall k, is_argmax (e_amax (o_acc (world k)))) -> (0 < num_epochs)%Z ->
  train_main next iter_order fuel turns world order net make_opt (Z.of_nat n) num_epochs freq train_set test_set junk d1 d2 g = FDone (out, es', m, infos) ->
  construct_model order [0] [length t] (expression I (n :: rest) t) = RVal es' m /\
  map (fun e => (fst e, tsh (snd e))) (state_view m infos) = map (fun e => (fst e, tsh (snd e))) (state_view m (es_info es')) /\
  Forall (fun e => length (tdat (snd e)) = prodN (tsh (snd e))) (state_view m infos) /\
  forall bits value can, savable bits value can m (es_info es') -> Forall (exact bits value) (floats_of m infos) -> savable bits value can m infos.
Proof.
  intros. edestruct (@test_main_runs D1 D2 G next iter_order fuel turns world order net make_opt n c rest t I num_epochs freq train_set item1 label1 test_set item2 label2 junk d1 d2 g)
    as (es1 & m1 & infos1 & s & s' & out1 & E1 & _ & _ & E4 & E5 & E6 & E7 & _); try eassumption.
  match goal with H : train_main _ _ _ _ _ _ _ _ _ _ _ _ _ _ _ _ _ = FDone (out, _, _, _) |- _ => rewrite E1 in H; injection H as <- <- <- <- end.
  auto.
Qed.
Print Assumptions C59_training_keeps_models_savable.

(** ** Example: the iris sample of C57, trained on five flowers, tested on four. *)
Definition ex59_I : nat -> ienv := fun _ => mkIE (fun _ => 0%R) (fun _ _ _ _ => 0%R).
Definition ex59_made : estore * model :=
  match construct_model kahn [0] [length (sp_table iris 2)] (expression ex59_I [2; 4] (sp_table iris 2)) with
  | RVal es m => (es, m)
  | _ => (es0, ex_m)
  end.
Lemma ex59_net : good_cfg (fun _ => true) (cfg_map (fun _ => 0%Z) (m_cfg (snd ex59_made))).
Proof.
  let c := eval vm_compute in (cfg_map (fun _ => 0%Z) (m_cfg (snd ex59_made))) in change (cfg_map (fun _ => 0%Z) (m_cfg (snd ex59_made))) with c.
  good_goal.
Qed.
Lemma ex59_state bits : good_dict (fun _ => true) (dict_of bits (snd ex59_made) (es_info (fst ex59_made))).
Proof.
  let l := constr:(map (fun e => (fst e, map Z.of_nat (tsh (snd e)))) (state_view (snd ex59_made) (es_info (fst ex59_made)))) in
  let c := eval vm_compute in l in assert (E : c = l) by (vm_compute; reflexivity).
  unfold dict_of. revert E. generalize (state_view (snd ex59_made) (es_info (fst ex59_made))). intros l E.
  assert (N : NoDup (map fst (map (fun e => (fst e, map Z.of_nat (tsh (snd e)))) l))) by (rewrite <- E; good_goal).
  assert (F : Forall (fun e => good_string (fun _ => true) (fst e) /\ good_ints (fun _ => true) (snd e)) (map (fun e => (fst e, map Z.of_nat (tsh (snd e)))) l)) by (rewrite <- E; good_goal).
  split; [rewrite map_length, <- (map_length (fun e => (fst e, map Z.of_nat (tsh (snd e)))) l), <- E; reflexivity|]. rewrite map_map in *. cbn in N |- *. split; [exact N|].
  clear -F. induction l as [|e t IH]; cbn; [constructor|]. cbn in F. inversion F; subst. constructor; auto.
Qed.
Lemma ex59_length : (Z.of_nat (Nat.add (fold_right (fun e n => (prodN (snd e) + n)%nat) 0%nat (map (fun e => (fst e, tsh (snd e))) (state_view (snd ex59_made) (es_info (fst ex59_made))))) (length (flat_map (fun o => flat_map (fun e => attr_floats (snd e)) (oi_attrs o)) (c_ops (m_cfg (snd ex59_made)))))) <= 2 ^ 32)%Z.
Proof. vm_compute. discriminate. Qed.
Example C59_test_mode_nonvacuous : forall junk : nat -> R,
  exists es' m infos out bits value,
    train_main (cyc 2) (fun l => l) 2 3 ex_world kahn (sp_net iris ex59_I) (sp_opt iris) 2 7 3 (ex_flowers 5) (ex_flowers 4) junk tt tt 0%Z = FDone ((out ++ [Saved])%list, es', m, infos) /\
    savable bits value (fun _ => true) m infos /\ length (state_view m infos) = 8 /\
    exists file acc, save_model bits (fun c => c) (fun d => d) m infos = Ok file /\
      test_main bits value (cyc 2) (fun l => l) 2 3 ex_world (fun _ => true) (fun b => b) kahn ex59_I (sp_opt iris) (Some file) 2 (ex_flowers 4) junk tt 0%Z = FDone [Accuracy (Some acc)] /\ (0 <= acc <= 1)%R.
Proof.
  intros junk. destruct C57_nonvacuous as (IP & _ & RM & SRT & OPT & L5 & L4 & IR & PRM & EN & F5 & F4 & _ & HF & HA & _).
  destruct (C57_samples_build_their_networks iris IP ex59_I 2 ltac:(lia) RM) as (NET & CLS).
  assert (CI : (Z.of_nat 3 <= int_max)%Z) by (unfold int_max; cbn; lia).
  assert (T5 : full (ex_flowers 5) 2 < 3) by (rewrite F5; lia). assert (T4 : full (ex_flowers 4) 2 < 3) by (rewrite F4; lia).
  destruct (C59_test_mode_measures_the_trained_model unit unit Z (cyc 2) (fun l => l) 2 3 ex_world kahn (sp_net iris ex59_I) (sp_opt iris) 2 3 [4] (sp_table iris 2) ex59_I 7 3
    (ex_flowers 5) ex_flower (fun j => Z.to_nat (j mod 3)) (ex_flowers 4) ex_flower (fun j => Z.to_nat (j mod 3)) junk tt tt 0%Z NET CLS SRT OPT CI L5 L4 IR PRM EN T5 T4 ltac:(lia) HF HA ltac:(lia)) as (es' & m & infos & s & s' & out & E1 & TR & EI & K).
  destruct (C59_training_keeps_models_savable unit unit Z (cyc 2) (fun l => l) 2 3 ex_world kahn (sp_net iris ex59_I) (sp_opt iris) 2 3 [4] (sp_table iris 2) ex59_I 7 3
    (ex_flowers 5) ex_flower (fun j => Z.to_nat (j mod 3)) (ex_flowers 4) ex_flower (fun j => Z.to_nat (j mod 3)) junk tt tt 0%Z _ _ _ _ NET CLS SRT OPT CI L5 L4 IR PRM EN T5 T4 ltac:(lia) HF HA ltac:(lia) E1) as (CO & VS & VL & SAV).
  assert (EM : ex59_made = (es', m)) by (unfold ex59_made; rewrite CO; reflexivity).
  assert (EM1 : es' = fst ex59_made) by (rewrite EM; reflexivity). assert (EM2 : m = snd ex59_made) by (rewrite EM; reflexivity). clear EM. subst es' m.
  destruct (codec_exists (floats_of (snd ex59_made) infos)) as (bits & value & EX).
  { unfold floats_of. rewrite app_length.
    assert (L1 : length (flat_map (fun e => tdat (snd e)) (state_view (snd ex59_made) infos)) = fold_right (fun e n => prodN (snd e) + n) 0 (map (fun e => (fst e, tsh (snd e))) (state_view (snd ex59_made) infos))).
    { clear -VL. induction VL as [|e t H _ IH]; [reflexivity|]. cbn [flat_map map fold_right fst snd]. rewrite app_length, IH, H. reflexivity. }
    rewrite L1, VS. pose proof ex59_length as EL. rewrite Nat.add_comm. exact EL. }
  assert (SV : savable bits value (fun _ => true) (snd ex59_made) infos).
  { split; [exact EX|]. split; [|eapply good_dict_shapes; [symmetry; exact VS|apply ex59_state]].
    eapply (good_cfg_bits (fun _ => 0%Z)); [exact ex59_net|]. unfold floats_of in EX. apply Forall_app in EX. destruct EX as (EX & _). eapply Forall_impl; [|exact EX]. intros x (Hx & _). exact Hx. }
  exists (fst ex59_made), (snd ex59_made), infos, out, bits, value. split; [exact E1|]. split; [exact SV|].
  split; [apply (f_equal (@length _)) in VS; rewrite !map_length in VS; rewrite VS; vm_compute; reflexivity|].
  assert (IC : forall c : config Z, iterated c ((fun c => c) c)).
  { intros c. split; [reflexivity|]. split; [reflexivity|]. split; [apply Permutation_refl|]. induction (c_ops c); constructor; auto. }
  assert (ID : forall d : sdict, Permutation d ((fun d => d) d)) by (intros d; apply Permutation_refl).
  destruct (K bits value (fun _ => true) (fun b => b) (fun c => c) (fun d => d) kahn ex59_I (sp_opt iris) junk tt 0%Z ex_world 3 SV IC ID SRT HF HA T4) as (file & acc & scores & SA & TM & PR & ME & _).
  unfold measured in ME. rewrite F4 in ME. destruct ME as (best & v & _ & -> & SH).
  exists file, v. split; [exact SA|]. split; [exact TM|]. exact (share_01 0%Z ex_flower ex_flower (fun _ => 0) (2 * 2) _ v (Nat.lt_0_succ 3) SH).
Qed.
