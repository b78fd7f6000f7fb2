(** C61: training descends along the gradient of the loss. *)
From Coq Require Import Reals String Lia Lra Permutation.
From Verif Require Import Base BaseFacts Sums M_Tensor M_Layers M_Kernels M_Im2col M_Optim M_Init M_Loss M_Nn M_Graph M_Model M_Backend M_DataLoader M_Train M_Sample
  S_Grad S_Partial S_Loss S_DataLoader S_Optim S_Fit S_Graph S_Run S_Train S_Plain S_Desc S_Eval S_Build S_Sample S_Descent
  P_Kernels P_DataLoader P_Build4 P_Nets P_Sample P_Sample2 P_Descent P_Descent2 P_Descent3 P_Descent4 Prop_DataLoader Prop_Loss Prop_Eval Prop_Sample.
Local Open Scope string_scope.
Open Scope nat_scope.
Local Open Scope list_scope.

(** ** C61 *)
(** The training program with any differentiable classifier, any optimizer and any data: in every iteration of
    every epoch, every element of every parameter moves by the rule of the optimizer, and what the optimizer takes
    for the derivative is the derivative of the loss on the batch of that iteration, as forward computes it, at
    the parameters of that moment.  Iterations in which a rectifier gets a zero or a max pooling sees a tie still
    run and report the loss; nothing is claimed about their direction. *)
Theorem C61_training_descends_along_the_gradient :
  forall (D1 D2 G : Type) (next : G -> Z -> Z * G) (iter_order : list Z -> list Z) (fuel turns : nat) (world : nat -> outside)
         (order : graph -> list gnode) (net : Z -> prog (nat * nat)) (make_opt : pmap -> optimizer)
         (n c : nat) (rest : list nat) (t : list row) (I : nat -> ienv) (num_epochs freq : Z)
         (train_set : dataset R D1) (item1 : Z -> list R * list R) (label1 : Z -> nat)
         (test_set : dataset R D2) (item2 : Z -> list R * list R) (label2 : Z -> nat) (junk : nat -> R) (d1 : D1) (d2 : D2) (g : G),
  net (Z.of_nat n) es0 = RVal (expression I (n :: rest) t) (0, length t) -> classifier n c rest t -> differentiable t -> sorts order -> new_optimizer make_opt ->
  (Z.of_nat c <= int_max)%Z -> labelled train_set n c rest item1 label1 -> labelled test_set n c rest item2 label2 ->
  in_range next -> (forall l, Permutation (iter_order l) l) -> enough next fuel n (ds_size train_set) ->
  full train_set n < turns -> full test_set n < turns -> freq <> 0%Z ->
  (forall k d, fair (o_fwd (world k) d)) -> (forall k, is_argmax (e_amax (o_acc (world k)))) ->
  exists es' m infos s s' out,
    train_main next iter_order fuel turns world order net make_opt (Z.of_nat n) num_epochs freq train_set test_set junk d1 d2 g =
      FDone ((out ++ [Saved])%list, es', m, infos) /\
    construct_model order [0] [length t] (expression I (n :: rest) t) = RVal es' m /\ constructed (expression I (n :: rest) t) [0] [length t] m /\
    at_start I n c rest t m (es_info es') make_opt s /\
    descent_run I n c rest t m train_set item1 (Z.to_nat num_epochs) s s' /\ infos = ts_info (l_ts s').
Proof. exact @program_descends. Qed.
Print Assumptions C61_training_descends_along_the_gradient.

(** The four samples. *)
Theorem C61_samples_descend :
  forall p, In p [mnist; iris; cifar10; cifar100] ->
  forall (D1 D2 G : Type) (next : G -> Z -> Z * G) (iter_order : list Z -> list Z) (fuel turns : nat) (world : nat -> outside)
         (order : graph -> list gnode) (I : nat -> ienv) (n : nat) (num_epochs freq : Z)
         (train_set : dataset R D1) (item1 : Z -> list R * list R) (label1 : Z -> nat)
         (test_set : dataset R D2) (item2 : Z -> list R * list R) (label2 : Z -> nat) (junk : nat -> R) (d1 : D1) (d2 : D2) (g : G),
  let c := sp_classes p in let rest := sp_rest p in let t := sp_table p n in
  0 < n -> (sp_room p * Z.of_nat n <= int_max)%Z -> sorts order ->
  labelled train_set n c rest item1 label1 -> labelled test_set n c rest item2 label2 ->
  in_range next -> (forall l, Permutation (iter_order l) l) -> enough next fuel n (ds_size train_set) ->
  full train_set n < turns -> full test_set n < turns -> freq <> 0%Z ->
  (forall k d, fair (o_fwd (world k) d)) -> (forall k, is_argmax (e_amax (o_acc (world k)))) ->
  exists es' m infos s s' out,
    train_main next iter_order fuel turns world order (sp_net p I) (sp_opt p) (Z.of_nat n) num_epochs freq train_set test_set junk d1 d2 g =
      FDone ((out ++ [Saved])%list, es', m, infos) /\
    construct_model order [0] [length t] (expression I (n :: rest) t) = RVal es' m /\ constructed (expression I (n :: rest) t) [0] [length t] m /\
    at_start I n c rest t m (es_info es') (sp_opt p) s /\
    descent_run I n c rest t m train_set item1 (Z.to_nat num_epochs) s s' /\ infos = ts_info (l_ts s').
Proof.
  intros p IP D1 D2 G next iter_order fuel turns world order I n num_epochs freq train_set item1 label1 test_set item2 label2 junk d1 d2 g c rest t N0 RM SRT LA1 LA2 RNG PRM ENO T1 T2 FRQ HF HA.
  destruct (C57_samples_build_their_networks p IP I n N0 RM) as (NET & CLS).
  assert (OPT : new_optimizer (sp_opt p)) by (destruct IP as [<-|[<-|[<-|[<-|[]]]]]; cbn [sp_opt mnist iris cifar10 cifar100]; first [apply new_sgdm|apply new_ad]).
  assert (CI : (Z.of_nat c <= int_max)%Z) by (unfold c, int_max; destruct IP as [<-|[<-|[<-|[<-|[]]]]]; cbn; lia).
  assert (DF : differentiable t).
  { unfold t. destruct IP as [<-|[<-|[<-|[<-|[]]]]]; [apply mnist_differentiable|apply iris_differentiable|apply cifar10_differentiable|apply cifar100_differentiable]. }
  exact (C61_training_descends_along_the_gradient D1 D2 G next iter_order fuel turns world order (sp_net p I) (sp_opt p) n c rest t I num_epochs freq train_set item1 label1 test_set item2 label2 junk d1 d2 g
    NET CLS DF SRT OPT CI LA1 LA2 RNG PRM ENO T1 T2 FRQ HF HA).
Qed.
Print Assumptions C61_samples_descend.

(** ** Example: the iris sample with positive weights.  Its run begins with an iteration away from kinks, whatever
    positive samples the first batch holds. *)
Definition ex_bloom (j : Z) : list R * list R := ([IZR (j + 1); 1; 2; 3]%R, [INR (Z.to_nat (j mod 3))]).
Definition ex_blooms (k : Z) : dataset R unit := mkDs k ([4]%Z, [1]%Z) (fun d j _ _ => (d, ex_bloom j, true)).
Lemma ex_blooms_labelled k : (0 <= k <= 1000)%Z -> labelled (ex_blooms k) 2 3 [4] ex_bloom (fun j => Z.to_nat (j mod 3)).
Proof.
  intros K. split; [reflexivity|]. split; [|split; [|split]].
  - split; [cbn; lia|]. split; [repeat constructor; lia|]. split; [repeat constructor; lia|]. intros d j sx sy _ _ _. cbn. auto.
  - intros d j sx sy _ _ _. reflexivity.
  - cbn. unfold int_max. lia.
  - intros j _. split; [reflexivity|]. pose proof (Z.mod_pos_bound j 3 ltac:(lia)). lia.
Qed.

Example C61_nonvacuous : forall junk, exists es' m infos s s' out,
  train_main (cyc 2) (fun l => l) 2 3 ex_world kahn (sp_net iris (fun _ => upper)) (sp_opt iris) 2 7 3 (ex_blooms 5) (ex_blooms 4) junk tt tt 0%Z = FDone ((out ++ [Saved])%list, es', m, infos) /\
  descent_run (fun _ => upper) 2 3 [4] (iris_table 2) m (ex_blooms 5) ex_bloom 7 s s' /\ full (ex_blooms 5) 2 = 2 /\
  length (m_params m) = 6 /\
  forall x idx V, Forall (fun j => 0 <= j < 5)%Z idx -> batch_of 2 [4] ex_bloom idx (b_X x) (b_y x) ->
    values_in (fun _ => upper) 2 [4] (iris_table 2) m (in_training m s) x V -> away_from_kinks (iris_table 2) V.
Proof.
  intros junk.
  assert (IP : In iris [mnist; iris; cifar10; cifar100]) by (right; left; reflexivity).
  assert (RM : (sp_room iris * Z.of_nat 2 <= int_max)%Z) by (unfold int_max; cbn; lia).
  assert (L5 := ex_blooms_labelled 5 ltac:(lia)). assert (L4 := ex_blooms_labelled 4 ltac:(lia)).
  assert (IR : in_range (cyc 2)). { intros g ub H. unfold cyc. cbn [fst]. pose proof (Z.mod_pos_bound g 2 ltac:(lia)). lia. }
  assert (EN : enough (cyc 2) 2 2 (ds_size (ex_blooms 5))).
  { intros L g. exists (draws (cyc 2) 2 (5 - 1) g). split; [|split; [reflexivity|apply incl_refl]]. rewrite cyc_draws by lia. cbn [seq map].
    constructor; [|constructor; [intros []|constructor]]. intros [H|[]].
    match type of H with (?x = ?y)%Z => match x with (?u mod _)%Z => pose proof (Z.div_mod u 2 ltac:(lia)) end; match y with (?v mod _)%Z => pose proof (Z.div_mod v 2 ltac:(lia)) end end. cbn in *. lia. }
  assert (HF : forall k d, fair (o_fwd (ex_world k) d)) by (intros; exact first_max_ok).
  assert (HA : forall k, is_argmax (e_amax (o_acc (ex_world k)))) by (intros; apply first_max_ok).
  assert (F5 : full (ex_blooms 5) 2 < 3) by (cbn; lia). assert (F4 : full (ex_blooms 4) 2 < 3) by (cbn; lia).
  destruct (C57_samples_build_their_networks iris IP (fun _ => upper) 2 ltac:(lia) RM) as (NET & CLS).
  destruct (C61_samples_descend iris IP unit unit Z (cyc 2) (fun l => l) 2 3 ex_world kahn (fun _ => upper) 2 7 3 (ex_blooms 5) ex_bloom (fun j => Z.to_nat (j mod 3)) (ex_blooms 4) ex_bloom
      (fun j => Z.to_nat (j mod 3)) junk tt tt 0%Z ltac:(lia) RM kahn_sorts L5 L4 IR (fun l => Permutation_refl l) EN F5 F4 ltac:(discriminate) HF HA) as (es' & m & infos & s & s' & out & E & CM & CO & ST & DR & _).
  exists es', m, infos, s, s', out. split; [exact E|]. split; [exact DR|]. split; [reflexivity|]. split.
  { assert (M : match construct_model kahn [0] [5] (expression (fun _ => upper) [2; 4] (iris_table 2)) with RVal _ m => length (m_params m) | _ => 0 end = 6) by (vm_compute; reflexivity).
    change (length (sp_table iris 2)) with 5 in CM. cbn [sp_rest sp_table iris] in CM. rewrite CM in M. exact M. }
  intros x idx V RG (LI & EX & _) HV. refine (iris_away kahn es' m _ s 2 x V ltac:(lia) CLS kahn_sorts CM CO ST _ _ HV).
  - destruct idx as [|j1 [|j2 [|]]]; try discriminate LI. rewrite EX. split; reflexivity.
  - destruct idx as [|j1 [|j2 [|]]]; try discriminate LI. rewrite EX. inversion RG as [|? ? R1 RG']; subst. inversion RG' as [|? ? R2 _]; subst.
    assert (P1 : (0 < IZR (j1 + 1))%R) by (apply IZR_lt; lia). assert (P2 : (0 < IZR (j2 + 1))%R) by (apply IZR_lt; lia).
    intros k Hk. do 8 (destruct k as [|k]; [cbn; first [lra|assumption]|]). lia.
Qed.
