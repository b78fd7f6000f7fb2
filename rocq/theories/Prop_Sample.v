(** C57: the sample programs. *)
From Coq Require Import Reals String.
From Verif Require Import Base BaseFacts Sums S_Tensor M_Tensor M_Im2col M_Kernels M_Layers M_Optim M_Loss M_Nn M_Graph M_Model M_Backend M_DataLoader M_Train M_Sample
  S_Grad S_Loss S_DataLoader S_Graph S_Run S_Fit S_Train S_Plain S_Desc S_Eval S_Build S_Sample P_DataLoader P_Build4 P_Sample P_Nets P_Sample2 Prop_Loss.
Open Scope string_scope.
Open Scope nat_scope.

(** Each sample builds the network its table shows, and that is a classifier, whatever the batch size. *)
Theorem C57_samples_build_their_networks :
  forall p, In p [mnist; iris; cifar10; cifar100] ->
  forall (I : nat -> ienv) (n : nat), 0 < n -> (sp_room p * Z.of_nat n <= int_max)%Z ->
  sp_net p I (Z.of_nat n) es0 = RVal (expression I (n :: sp_rest p) (sp_table p n)) (0, length (sp_table p n)) /\
  classifier n (sp_classes p) (sp_rest p) (sp_table p n).
Proof.
  intros p [<-|[<-|[<-|[<-|[]]]]] I n N0 RM; unfold int_max in RM; cbn [sp_room mnist iris cifar10 cifar100] in RM; cbn [sp_net sp_rest sp_table sp_classes mnist iris cifar10 cifar100].
  - split; [exact (mnist_run I n N0 RM)|exact (mnist_table_ok n N0 RM)].
  - split; [exact (iris_run I n N0 RM)|exact (iris_table_ok n N0 RM)].
  - split; [exact (cifar10_run I n N0 RM)|exact (cifar10_table_ok n N0 RM)].
  - split; [exact (cifar100_run I n N0 RM)|exact (cifar100_table_ok n N0 RM)].
Qed.
Print Assumptions C57_samples_build_their_networks.

(** The training program, with any network that is a classifier, any of the optimizers, any datasets that fit
    the network: it runs to its end, and what it prints and saves is what a training run produces. *)
Theorem C57_training_program :
  forall (D1 D2 G : Type) (next : G -> Z -> Z * G) (iter_order : list Z -> list Z) (fuel turns : nat) (world : nat -> outside)
         (order : graph -> list gnode) (net : Z -> prog (nat * nat)) (make_opt : pmap -> optimizer)
         (n c : nat) (rest : list nat) (t : list row) (I : nat -> ienv) (num_epochs freq : Z)
         (train_set : dataset R D1) (item1 : Z -> list R * list R) (label1 : Z -> nat)
         (test_set : dataset R D2) (item2 : Z -> list R * list R) (label2 : Z -> nat) (junk : nat -> R) (d1 : D1) (d2 : D2) (g : G),
  net (Z.of_nat n) es0 = RVal (expression I (n :: rest) t) (0, length t) -> classifier n c rest t -> sorts order -> new_optimizer make_opt ->
  (Z.of_nat c <= int_max)%Z -> labelled train_set n c rest item1 label1 -> labelled test_set n c rest item2 label2 ->
  in_range next -> (forall l, Permutation (iter_order l) l) -> enough next fuel n (ds_size train_set) ->
  full train_set n < turns -> full test_set n < turns -> freq <> 0%Z ->
  (forall k d, fair (o_fwd (world k) d)) -> (forall k, is_argmax (e_amax (o_acc (world k)))) ->
  exists es' m infos s s' out ran b,
    train_main next iter_order fuel turns world order net make_opt (Z.of_nat n) num_epochs freq train_set test_set junk d1 d2 g =
      FDone ((out ++ [Saved])%list, es', m, infos) /\
    construct_model order [0] [length t] (expression I (n :: rest) t) = RVal es' m /\ constructed (expression I (n :: rest) t) [0] [length t] m /\
    at_start I n c rest t m (es_info es') make_opt s /\
    training_run m n c rest train_set item1 test_set item2 label2 freq (Z.to_nat num_epochs) 0 s s' out /\
    infos = ts_info (l_ts s') /\ ts_backend (l_ts s') = Some b /\ usable ran (es_ph (expression I (n :: rest) t)) [length t] m infos b.
Proof. exact @train_main_runs. Qed.
Print Assumptions C57_training_program.

(** The four samples. *)
Theorem C57_samples_train :
  forall p, In p [mnist; iris; cifar10; cifar100] ->
  forall (D1 D2 G : Type) (next : G -> Z -> Z * G) (iter_order : list Z -> list Z) (fuel turns : nat) (world : nat -> outside)
         (order : graph -> list gnode) (I : nat -> ienv) (n : nat) (num_epochs freq : Z)
         (train_set : dataset R D1) (item1 : Z -> list R * list R) (label1 : Z -> nat)
         (test_set : dataset R D2) (item2 : Z -> list R * list R) (label2 : Z -> nat) (junk : nat -> R) (d1 : D1) (d2 : D2) (g : G),
  let c := sp_classes p in let rest := sp_rest p in let t := sp_table p n in
  0 < n -> (sp_room p * Z.of_nat n <= int_max)%Z -> sorts order ->
  labelled train_set n c rest item1 label1 -> labelled test_set n c rest item2 label2 ->
  in_range next -> (forall l, Permutation (iter_order l) l) -> enough next fuel n (ds_size train_set) ->
  full train_set n < turns -> full test_set n < turns -> freq <> 0%Z ->
  (forall k d, fair (o_fwd (world k) d)) -> (forall k, is_argmax (e_amax (o_acc (world k)))) ->
  exists es' m infos s s' out,
    train_main next iter_order fuel turns world order (sp_net p I) (sp_opt p) (Z.of_nat n) num_epochs freq train_set test_set junk d1 d2 g =
      FDone ((out ++ [Saved])%list, es', m, infos) /\
    constructed (expression I (n :: rest) t) [0] [length t] m /\ at_start I n c rest t m (es_info es') (sp_opt p) s /\
    training_run m n c rest train_set item1 test_set item2 label2 freq (Z.to_nat num_epochs) 0 s s' out /\ infos = ts_info (l_ts s').
Proof.
  intros p IP D1 D2 G next iter_order fuel turns world order I n num_epochs freq train_set item1 label1 test_set item2 label2 junk d1 d2 g c rest t N0 RM SRT LA1 LA2 RNG PRM ENO T1 T2 FRQ HF HA.
  destruct (C57_samples_build_their_networks p IP I n N0 RM) as (NET & CLS).
  assert (OPT : new_optimizer (sp_opt p)) by (destruct IP as [<-|[<-|[<-|[<-|[]]]]]; cbn [sp_opt mnist iris cifar10 cifar100]; first [apply new_sgdm|apply new_ad]).
  assert (CI : (Z.of_nat c <= int_max)%Z) by (unfold c, int_max; destruct IP as [<-|[<-|[<-|[<-|[]]]]]; cbn; lia).
  destruct (C57_training_program D1 D2 G next iter_order fuel turns world order (sp_net p I) (sp_opt p) n c rest t I num_epochs freq train_set item1 label1 test_set item2 label2 junk d1 d2 g
    NET CLS SRT OPT CI LA1 LA2 RNG PRM ENO T1 T2 FRQ HF HA) as (es' & m & infos & s & s' & out & ran & b & E & _ & CM & ST & TR & EI & _).
  exists es', m, infos, s, s', out. auto.
Qed.
Print Assumptions C57_samples_train.

(** Their optimizers: momentum with learning rate 0.01 and factor 0.9, for the CIFAR-10 sample Adam with learning
    rate 0.001, beta 0.9 and 0.999, epsilon 0.001 and no steps done yet; all moments start from the parameters. *)
Theorem C57_sample_optimizers :
  forall p, In p [mnist; iris; cifar10; cifar100] -> forall ps : pmap,
  sp_opt p ps = if Nat.eqb (sp_classes p) 10 && Nat.eqb (length (sp_rest p)) 3 then Adam (1 / 1000) (9 / 10) (999 / 1000) (1 / 1000) 0 (adam_new ps)
                else Momentum (1 / 100) (9 / 10) (momentum_new ps).
Proof. intros p [<-|[<-|[<-|[<-|[]]]]] ps; reflexivity. Qed.
Print Assumptions C57_sample_optimizers.

(** What a training run prints: the epochs are numbered 0, 1, ..., each reports one accuracy; with a full batch
    in each dataset all numbers printed are numbers, losses not negative and accuracies between 0 and 1. *)
Theorem C57_what_is_printed :
  forall (D1 D2 : Type) (m : model) (n c : nat) (rest : list nat) (freq : Z) (train_set : dataset R D1) (item1 : Z -> list R * list R)
         (test_set : dataset R D2) (item2 : Z -> list R * list R) (label2 : Z -> nat) (k : nat) (s s' : loop) (out : list line),
  training_run m n c rest train_set item1 test_set item2 label2 freq k 0 s s' out ->
  flat_map (fun l => match l with Epoch e => [e] | _ => [] end) out = seq 0 k /\
  length (filter (fun l => match l with Accuracy _ => true | _ => false end) out) = k /\
  (0 < n -> 0 < full train_set n -> 0 < full test_set n -> Forall sound_line out).
Proof.
  intros D1 D2 m n c rest freq train_set item1 test_set item2 label2 k s s' out TR. destruct (run_epochs _ _ _ _ _ _ _ _ _ _ _ _ _ _ _ TR) as (E1 & E2).
  split; [exact E1|]. split; [exact E2|]. intros N0 F1 F2. exact (run_sound _ _ _ _ _ _ _ _ _ _ _ _ _ _ _ N0 F1 F2 TR).
Qed.
Print Assumptions C57_what_is_printed.

(** Datasets smaller than a batch: nothing is learned, the averages are of nothing (0 / 0, printed as "nan"). *)
Theorem C57_datasets_smaller_than_a_batch :
  forall (D1 D2 : Type) (m : model) (n c : nat) (rest : list nat) (freq : Z) (train_set : dataset R D1) (item1 : Z -> list R * list R)
         (test_set : dataset R D2) (item2 : Z -> list R * list R) (label2 : Z -> nat) (k : nat) (s s' : loop) (out : list line),
  (0 <= ds_size train_set < Z.of_nat n)%Z -> (0 <= ds_size test_set < Z.of_nat n)%Z ->
  training_run m n c rest train_set item1 test_set item2 label2 freq k 0 s s' out ->
  out = flat_map (fun e => [Epoch e; Loss None; Accuracy None]) (seq 0 k).
Proof.
  intros D1 D2 m n c rest freq train_set item1 test_set item2 label2 k s s' out L1 L2 TR. eapply run_small; [| |exact TR]; unfold full; rewrite Z.div_small by assumption; reflexivity.
Qed.
Print Assumptions C57_datasets_smaller_than_a_batch.

(** A frequency of 0 divides by zero in the first iteration. *)
Theorem C57_frequency_zero :
  forall (D1 D2 G : Type) (next : G -> Z -> Z * G) (iter_order : list Z -> list Z) (fuel turns : nat) (world : nat -> outside)
         (order : graph -> list gnode) (net : Z -> prog (nat * nat)) (make_opt : pmap -> optimizer)
         (n c : nat) (rest : list nat) (t : list row) (I : nat -> ienv) (num_epochs : Z)
         (train_set : dataset R D1) (item1 : Z -> list R * list R) (label1 : Z -> nat) (test_set : dataset R D2) (junk : nat -> R) (d1 : D1) (d2 : D2) (g : G),
  net (Z.of_nat n) es0 = RVal (expression I (n :: rest) t) (0, length t) -> classifier n c rest t -> sorts order -> new_optimizer make_opt ->
  (Z.of_nat c <= int_max)%Z -> labelled train_set n c rest item1 label1 ->
  in_range next -> (forall l, Permutation (iter_order l) l) -> enough next fuel n (ds_size train_set) ->
  full train_set n < turns -> full test_set n < turns -> (forall k d, fair (o_fwd (world k) d)) -> (forall k, is_argmax (e_amax (o_acc (world k)))) ->
  (0 < num_epochs)%Z -> 0 < full train_set n ->
  train_main next iter_order fuel turns world order net make_opt (Z.of_nat n) num_epochs 0 train_set test_set junk d1 d2 g = FUndefined.
Proof. exact @frequency_zero. Qed.
Print Assumptions C57_frequency_zero.

(** ** Example: the iris sample on five flowers for training and four for testing, two at a time. *)
Definition ex_flower (j : Z) : list R * list R := ([IZR j; 1; 2; 3]%R, [INR (Z.to_nat (j mod 3))]).
Definition ex_flowers (k : Z) : dataset R unit := mkDs k ([4]%Z, [1]%Z) (fun d j _ _ => (d, ex_flower j, true)).
Definition ex_world (k : nat) : outside :=
  let E := mkEnv (fun _ => 0%R) (fun _ => 0) (fun _ => 0%R) first_max in
  mkOut (fun _ => 0%R) (fun _ => 0%R) (fun _ => E) (fun _ => E) E E.

Lemma ex_labelled k : (0 <= k <= 1000)%Z -> labelled (ex_flowers k) 2 3 [4] ex_flower (fun j => Z.to_nat (j mod 3)).
Proof.
  intros K. split; [reflexivity|]. split; [|split; [|split]].
  - split; [cbn; lia|]. split; [repeat constructor; lia|]. split; [repeat constructor; lia|]. intros d j sx sy _ _ _. cbn. auto.
  - intros d j sx sy _ _ _. reflexivity.
  - cbn. unfold int_max. lia.
  - intros j _. split; [reflexivity|]. pose proof (Z.mod_pos_bound j 3 ltac:(lia)). lia.
Qed.

Example C57_nonvacuous :
  In iris [mnist; iris; cifar10; cifar100] /\ 0 < 2 /\ (sp_room iris * Z.of_nat 2 <= int_max)%Z /\ sorts kahn /\ new_optimizer (sp_opt iris) /\
  labelled (ex_flowers 5) 2 (sp_classes iris) (sp_rest iris) ex_flower (fun j => Z.to_nat (j mod 3)) /\
  labelled (ex_flowers 4) 2 (sp_classes iris) (sp_rest iris) ex_flower (fun j => Z.to_nat (j mod 3)) /\
  in_range (cyc 2) /\ (forall l : list Z, Permutation ((fun l => l) l) l) /\ enough (cyc 2) 2 2 (ds_size (ex_flowers 5)) /\
  full (ex_flowers 5) 2 = 2 /\ full (ex_flowers 4) 2 = 2 /\ 3%Z <> 0%Z /\
  (forall k d, fair (o_fwd (ex_world k) d)) /\ (forall k, is_argmax (e_amax (o_acc (ex_world k)))) /\
  (forall I junk, exists es' m infos s s' out,
    train_main (cyc 2) (fun l => l) 2 3 ex_world kahn (sp_net iris I) (sp_opt iris) 2 7 3 (ex_flowers 5) (ex_flowers 4) junk tt tt 0%Z = FDone ((out ++ [Saved])%list, es', m, infos) /\
    training_run m 2 3 [4] (ex_flowers 5) ex_flower (ex_flowers 4) ex_flower (fun j => Z.to_nat (j mod 3)) 3 7 0 s s' out /\ Forall sound_line out) /\
  (forall I junk, exists es' m infos,
    train_main (cyc 2) (fun l => l) 2 1 ex_world kahn (sp_net iris I) (sp_opt iris) 2 2 3 (ex_flowers 1) (ex_flowers 1) junk tt tt 0%Z =
      FDone ([Epoch 0; Loss None; Accuracy None; Epoch 1; Loss None; Accuracy None; Saved], es', m, infos)) /\
  (forall I junk, train_main (cyc 2) (fun l => l) 2 3 ex_world kahn (sp_net iris I) (sp_opt iris) 2 7 0 (ex_flowers 5) (ex_flowers 4) junk tt tt 0%Z = FUndefined).
Proof.
  assert (IP : In iris [mnist; iris; cifar10; cifar100]) by (right; left; reflexivity).
  assert (RM : (sp_room iris * Z.of_nat 2 <= int_max)%Z) by (unfold int_max; cbn; lia).
  assert (L5 := ex_labelled 5 ltac:(lia)). assert (L4 := ex_labelled 4 ltac:(lia)). assert (L1 := ex_labelled 1 ltac:(lia)).
  assert (IR : in_range (cyc 2)). { intros g ub H. unfold cyc. cbn [fst]. pose proof (Z.mod_pos_bound g 2 ltac:(lia)). lia. }
  assert (EN : forall k, enough (cyc 2) 2 2 k).
  { intros k L g. exists (draws (cyc 2) 2 (k - 1) g). split; [|split; [reflexivity|apply incl_refl]]. rewrite cyc_draws by lia. cbn [seq map].
    constructor; [|constructor; [intros []|constructor]]. intros [H|[]].
    match type of H with (?x = ?y)%Z => match x with (?u mod _)%Z => pose proof (Z.div_mod u 2 ltac:(lia)) end; match y with (?v mod _)%Z => pose proof (Z.div_mod v 2 ltac:(lia)) end end. cbn in *. lia. }
  assert (HF : forall k d, fair (o_fwd (ex_world k) d)) by (intros; exact first_max_ok).
  assert (HA : forall k, is_argmax (e_amax (o_acc (ex_world k)))) by (intros; apply first_max_ok).
  assert (F5 : full (ex_flowers 5) 2 = 2) by reflexivity. assert (F4 : full (ex_flowers 4) 2 = 2) by reflexivity. assert (F1 : full (ex_flowers 1) 2 = 0) by reflexivity.
  split; [exact IP|]. split; [lia|]. split; [exact RM|]. split; [exact kahn_sorts|]. split; [apply new_sgdm|]. split; [exact L5|]. split; [exact L4|]. split; [exact IR|].
  split; [intros; apply Permutation_refl|]. split; [apply EN|]. split; [exact F5|]. split; [exact F4|]. split; [discriminate|]. split; [exact HF|]. split; [exact HA|]. split; [|split].
  - intros I junk.
    destruct (C57_samples_train iris IP unit unit Z (cyc 2) (fun l => l) 2 3 ex_world kahn I 2 7 3 (ex_flowers 5) ex_flower (fun j => Z.to_nat (j mod 3)) (ex_flowers 4) ex_flower
      (fun j => Z.to_nat (j mod 3)) junk tt tt 0%Z) as (es' & m & infos & s & s' & out & E & _ & _ & TR & _); try assumption; try (rewrite ?F5, ?F4; lia); [exact kahn_sorts|intros; apply Permutation_refl|apply EN|].
    exists es', m, infos, s, s', out. split; [exact E|]. split; [exact TR|]. apply (C57_what_is_printed _ _ _ _ _ _ _ _ _ _ _ _ _ _ _ _ TR); rewrite ?F5, ?F4; lia.
  - intros I junk.
    destruct (C57_samples_train iris IP unit unit Z (cyc 2) (fun l => l) 2 1 ex_world kahn I 2 2 3 (ex_flowers 1) ex_flower (fun j => Z.to_nat (j mod 3)) (ex_flowers 1) ex_flower
      (fun j => Z.to_nat (j mod 3)) junk tt tt 0%Z) as (es' & m & infos & s & s' & out & E & _ & _ & TR & _); try assumption; try (rewrite ?F1; lia); [exact kahn_sorts|intros; apply Permutation_refl|apply EN|].
    exists es', m, infos. apply C57_datasets_smaller_than_a_batch in TR; [|cbn; lia|cbn; lia]. rewrite TR in E. exact E.
  - intros I junk. destruct (C57_samples_build_their_networks iris IP I 2 ltac:(lia) RM) as (NET & CLS).
    apply (C57_frequency_zero unit unit Z (cyc 2) (fun l => l) 2 3 ex_world kahn (sp_net iris I) (sp_opt iris) 2 3 [4] (iris_table 2) I 7 (ex_flowers 5) ex_flower (fun j => Z.to_nat (j mod 3)));
      first [assumption|exact kahn_sorts|apply new_sgdm|intros; apply Permutation_refl|apply EN|rewrite F5; lia|rewrite F4; lia|lia].
Qed.
