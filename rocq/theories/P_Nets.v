(** Proofs: the networks the sample programs build. *)
From Coq Require Import Reals String.
From Verif Require Import Base BaseFacts Sums S_Tensor M_Tensor M_Im2col M_Kernels M_Layers M_Optim M_Loss M_Nn M_Graph M_Model M_Backend M_DataLoader M_Train M_Sample
  S_Grad S_Loss S_DataLoader S_Graph S_Run S_Fit S_Train S_Plain S_Desc S_Eval S_Build S_Sample
  P_Graph P_Graph2 P_Nn P_Plain P_Sample Prop_Graph Prop_Plain.
Open Scope string_scope.
Open Scope nat_scope.

Lemma prodZ_zs sh : prodZ (zs sh) = Z.of_nat (prodN sh).
Proof. induction sh as [|d sh IH]; [reflexivity|]. change (prodZ (zs (d :: sh))) with (Z.of_nat d * prodZ (zs sh))%Z. rewrite IH. change (prodN (d :: sh)) with (d * prodN sh). lia. Qed.
Lemma small_prodZ sh : (prodZ (zs sh) <= 2147483647)%Z -> small (prodN sh).
Proof. unfold small. rewrite prodZ_zs. auto. Qed.

Ltac zlits := repeat match goal with |- context [Z.of_nat ?k] => let v := eval vm_compute in (Z.of_nat k) in match v with Zpos _ => idtac | Z0 => idtac end; change (Z.of_nat k) with v end.
Ltac size := apply small_prodZ; cbn [zs map]; unfold prodZ; cbn [fold_right]; zlits; lia.
Ltac prop := split; [repeat (constructor; [lia|]); constructor|size].
Ltac place := cbn [w_kh w_kw w_ph w_pw w_sh w_sw]; split; [lia|]; split; [lia|]; split; [lia|]; intros; lia.
Ltac shape_rule := first
  [ apply res_relu | apply res_softmax | apply res_bn1 | apply res_bn2 | apply res_gap | apply res_add
  | apply res_linear; [discriminate|lia] | apply res_conv; [lia|place|place] | apply res_maxpool; [place|place] ].
Ltac weights := let w := fresh in let i := fresh in let o := fresh in let E := fresh in
  intros w i o E; first [discriminate E|injection E as <- <- <-; split; [size|unfold small; zlits; lia]].
Ltac meant := split; [shape_rule|]; split; [repeat (constructor; [prop|]); constructor|]; split; [prop|weights].

Section Nets.
Variable I : nat -> ienv.

Lemma at_new (input : list nat) t rows k sh : nth_error (map r_out rows) k = Some sh -> nth_error (input :: map r_out (t ++ rows)) (S (length t) + k) = Some sh.
Proof. intros H. cbn [Nat.add nth_error]. rewrite map_app, nth_error_app2 by (rewrite map_length; lia). rewrite map_length. replace (length t + k - length t) with k by lia. exact H. Qed.
Lemma at_old (input : list nat) t rows a sh : nth_error (input :: map r_out t) a = Some sh -> nth_error (input :: map r_out (t ++ rows)) a = Some sh.
Proof.
  intros H. destruct a as [|a]; [exact H|]. cbn [nth_error] in *. rewrite map_app, nth_error_app1; [exact H|]. apply nth_error_Some. congruence.
Qed.

Ltac lookup := constructor; [reflexivity|constructor].
Ltac step l name args shs osh := rewrite (bind_layer I _ _ l name args shs osh); [cbn [length app]|reflexivity|reflexivity|lookup|meant].


Lemma bind_input {A} s sh (f : nat -> prog A) : s = zs sh -> pbind (p_input s) f es0 = f 0 (expression I sh []).
Proof. intros ->. reflexivity. Qed.
Ltac start_net sh := rewrite (bind_input _ sh) by reflexivity.

Lemma mnist_run n : 0 < n -> (784 * Z.of_nat n <= 2147483647)%Z -> mnist_net I (Z.of_nat n) es0 = RVal (expression I [n; 784] (mnist_table n)) (0, 5).
Proof.
  intros H0 H1. unfold mnist_net, perceptron. start_net [n; 784].
  step (ALinear 100) "linear0" [0] [[n; 784]] [n; 100].
  step AReLU "relu1" [1] [[n; 100]] [n; 100].
  step (ABatchNorm1D (1 / 1000)%R (5 / 100)%R) "batchnorm1d" [2] [[n; 100]] [n; 100].
  step (ALinear 10) "linear2" [3] [[n; 100]] [n; 10].
  step ASoftmax "softmax3" [4] [[n; 10]] [n; 10].
  reflexivity.
Qed.
Lemma iris_run n : 0 < n -> (100 * Z.of_nat n <= 2147483647)%Z -> iris_net I (Z.of_nat n) es0 = RVal (expression I [n; 4] (iris_table n)) (0, 5).
Proof.
  intros H0 H1. unfold iris_net, perceptron. start_net [n; 4].
  step (ALinear 100) "linear0" [0] [[n; 4]] [n; 100].
  step AReLU "relu1" [1] [[n; 100]] [n; 100].
  step (ABatchNorm1D (1 / 1000)%R (5 / 100)%R) "batchnorm1d" [2] [[n; 100]] [n; 100].
  step (ALinear 3) "linear2" [3] [[n; 100]] [n; 3].
  step ASoftmax "softmax3" [4] [[n; 3]] [n; 3].
  reflexivity.
Qed.
Lemma cifar10_run n : 0 < n -> (65536 * Z.of_nat n <= 2147483647)%Z -> cifar10_net I (Z.of_nat n) es0 = RVal (expression I [n; 3; 32; 32] (cifar10_table n)) (0, 14).
Proof.
  intros H0 H1. unfold cifar10_net. start_net [n; 3; 32; 32].
  step conv5 "conv1" [0] [[n; 3; 32; 32]] [n; 64; 32; 32].
  step pool2 "pool2" [1] [[n; 64; 32; 32]] [n; 64; 16; 16].
  step AReLU "relu3" [2] [[n; 64; 16; 16]] [n; 64; 16; 16].
  step conv5 "conv4" [3] [[n; 64; 16; 16]] [n; 64; 16; 16].
  step pool2 "pool5" [4] [[n; 64; 16; 16]] [n; 64; 8; 8].
  step AReLU "relu6" [5] [[n; 64; 8; 8]] [n; 64; 8; 8].
  step (ALinear 384) "linear7" [6] [[n; 64; 8; 8]] [n; 384].
  step AReLU "relu8" [7] [[n; 384]] [n; 384].
  step (ABatchNorm1D (1 / 1000)%R (5 / 100)%R) "batchnorm1d9" [8] [[n; 384]] [n; 384].
  step (ALinear 192) "linear10" [9] [[n; 384]] [n; 192].
  step AReLU "relu11" [10] [[n; 192]] [n; 192].
  step (ABatchNorm1D (1 / 1000)%R (5 / 100)%R) "batchnorm1d12" [11] [[n; 192]] [n; 192].
  step (ALinear 10) "linear13" [12] [[n; 192]] [n; 10].
  step ASoftmax "softmax14" [13] [[n; 10]] [n; 10].
  reflexivity.
Qed.

(** *** The residual network *)
Section Block.
Variables (input : list nat) (t : list row) (n x c h c' h' s : nat).
Hypothesis X : nth_error (input :: map r_out t) x = Some [n; c; h; h].
Hypothesis M1 : meant_for (conv3 c' s) [[n; c; h; h]] [n; c'; h'; h'].
Hypothesis M2 : meant_for (conv3 c' 1) [[n; c'; h'; h']] [n; c'; h'; h'].
Let a := S (length t).

Lemma block_proper : proper [n; c'; h'; h'].
Proof. apply M2. Qed.
Lemma same_shape l : result l [[n; c'; h'; h']] [n; c'; h'; h'] -> (forall w i o, weight_of l [[n; c'; h'; h']] = Some (w, i, o) -> False) -> meant_for l [[n; c'; h'; h']] [n; c'; h'; h'].
Proof. intros R W. split; [exact R|]. pose proof block_proper. split; [constructor; [assumption|constructor]|]. split; [assumption|]. intros w i o E. destruct (W _ _ _ E). Qed.
Lemma adding : meant_for AAdd [[n; c'; h'; h']; [n; c'; h'; h']] [n; c'; h'; h'].
Proof. split; [apply res_add|]. pose proof block_proper. split; [constructor; [assumption|constructor; [assumption|constructor]]|]. split; [assumption|]. discriminate. Qed.

Lemma head_run {A} (f : nat -> prog A) :
  (do o <- p_layer I KConv (conv3x3 (Z.of_nat c') (Z.of_nat s)) [x] ;;
   do o <- p_layer I KBN2 bn2d [o] ;;
   do o <- p_layer I KReLU (ReLU "") [o] ;;
   do o <- p_layer I KConv (conv3x3 (Z.of_nat c') 1) [o] ;;
   do o <- p_layer I KBN2 bn2d [o] ;; f o) (expression I input t) =
  f (a + 4) (expression I input (t ++ head_rows n x a c h c' h' s)).
Proof.
  assert (L : forall rows k, S (length (t ++ rows)) = a + k -> length rows = k) by (intros rows k; rewrite app_length; unfold a; lia).
  rewrite (bind_layer I input t (conv3 c' s) "" [x] [[n; c; h; h]] [n; c'; h'; h']); [|reflexivity|reflexivity|constructor; [exact X|constructor]|exact M1].
  rewrite (bind_layer I input _ norm2 "" [S (length t)] [[n; c'; h'; h']] [n; c'; h'; h']); [|reflexivity|reflexivity| |apply same_shape; [apply res_bn2|discriminate]].
  2:{ constructor; [|constructor]. replace (S (length t)) with (S (length t) + 0) by lia. apply at_new. reflexivity. }
  rewrite <- app_assoc. cbn [app]. rewrite app_length. cbn [length].
  rewrite (bind_layer I input _ AReLU "" [S (length t + 1)] [[n; c'; h'; h']] [n; c'; h'; h']); [|reflexivity|reflexivity| |apply same_shape; [apply res_relu|discriminate]].
  2:{ constructor; [|constructor]. change (S (length t + 1)) with (S (length t) + 1). apply at_new. reflexivity. }
  rewrite <- app_assoc. cbn [app]. rewrite app_length. cbn [length].
  rewrite (bind_layer I input _ (conv3 c' 1) "" [S (length t + 2)] [[n; c'; h'; h']] [n; c'; h'; h']); [|reflexivity|reflexivity| |exact M2].
  2:{ constructor; [|constructor]. change (S (length t + 2)) with (S (length t) + 2). apply at_new. reflexivity. }
  rewrite <- app_assoc. cbn [app]. rewrite app_length. cbn [length].
  rewrite (bind_layer I input _ norm2 "" [S (length t + 3)] [[n; c'; h'; h']] [n; c'; h'; h']); [|reflexivity|reflexivity| |apply same_shape; [apply res_bn2|discriminate]].
  2:{ constructor; [|constructor]. change (S (length t + 3)) with (S (length t) + 3). apply at_new. reflexivity. }
  rewrite <- app_assoc. cbn [app]. rewrite app_length. cbn [length].
  replace (S (length t + 4)) with (a + 4) by (unfold a; lia). unfold head_rows. replace (S (length t + 1)) with (a + 1) by (unfold a; lia).
  replace (S (length t + 2)) with (a + 2) by (unfold a; lia). replace (S (length t + 3)) with (a + 3) by (unfold a; lia). reflexivity.
Qed.
End Block.

Lemma plain_block_run input t n x c h : nth_error (input :: map r_out t) x = Some [n; c; h; h] ->
  meant_for (conv3 c 1) [[n; c; h; h]] [n; c; h; h] ->
  create_basic_block I x (Z.of_nat c) 1 false (expression I input t) =
    RVal (expression I input (t ++ plain_block n x (S (length t)) c h)) (S (length t) + 6).
Proof.
  intros X M. unfold create_basic_block. change 1%Z with (Z.of_nat 1) at 1. rewrite (head_run input t n x c h c h 1 X M M).
  unfold pbind at 1, pret.
  rewrite (bind_layer I input _ AAdd "" [S (length t) + 4; x] [[n; c; h; h]; [n; c; h; h]] [n; c; h; h]); [|reflexivity|reflexivity| |apply (adding n c h M)].
  2:{ constructor; [apply at_new; reflexivity|constructor; [apply at_old, X|constructor]]. }
  rewrite <- app_assoc. cbn [app]. rewrite app_length. cbn [length].
  pose proof (run_layer I input (t ++ head_rows n x (S (length t)) c h c h 1 ++ [mkRow AAdd "" [S (length t) + 4; x] [[n; c; h; h]; [n; c; h; h]] [n; c; h; h]])
                (mkRow AReLU "" [S (length t) + 5] [[n; c; h; h]] [n; c; h; h])) as R. cbn [r_layer r_name r_args r_in r_out] in R.
  change (class AReLU) with KReLU in R. change (object AReLU "") with (ReLU "") in R.
  replace (S (length t + length (head_rows n x (S (length t)) c h c h 1))) with (S (length t) + 5) by (cbn; lia). rewrite R.
  - rewrite <- !app_assoc. f_equal. rewrite !app_length. cbn. lia.
  - constructor; [|constructor]. apply at_new. reflexivity.
  - apply same_shape; [exact M|apply res_relu|discriminate].
Qed.

Lemma down_block_run input t n x c h c' h' : nth_error (input :: map r_out t) x = Some [n; c; h; h] ->
  meant_for (conv3 c' 2) [[n; c; h; h]] [n; c'; h'; h'] -> meant_for (conv3 c' 1) [[n; c'; h'; h']] [n; c'; h'; h'] ->
  create_basic_block I x (Z.of_nat c') 2 true (expression I input t) =
    RVal (expression I input (t ++ down_block n x (S (length t)) c h c' h')) (S (length t) + 8).
Proof.
  intros X M1 M2. unfold create_basic_block. change 2%Z with (Z.of_nat 2) at 1. rewrite (head_run input t n x c h c' h' 2 X M1 M2).
  set (t1 := (t ++ head_rows n x (S (length t)) c h c' h' 2)%list). assert (L1 : length t1 = length t + 5) by (unfold t1; rewrite app_length; reflexivity).
  unfold pbind at 1.
  rewrite (bind_layer I input t1 (conv3 c' 2) "" [x] [[n; c; h; h]] [n; c'; h'; h']); [|reflexivity|reflexivity|constructor; [apply at_old, X|constructor]|exact M1].
  set (t2 := (t1 ++ _)%list). assert (L2 : length t2 = length t + 6) by (unfold t2; rewrite app_length, L1; cbn; lia). rewrite L1.
  pose proof (run_layer I input t2 (mkRow norm2 "" [S (length t) + 5] [[n; c'; h'; h']] [n; c'; h'; h'])) as R. cbn [r_layer r_name r_args r_in r_out] in R.
  replace (S (length t + 5)) with (S (length t) + 5) by lia. change KBN2 with (class norm2) at 1. change bn2d with (object norm2 "") at 1. rewrite R; clear R.
  2:{ constructor; [|constructor]. unfold t2, t1. rewrite <- app_assoc. apply at_new. reflexivity. }
  2:{ apply same_shape; [exact M2|apply res_bn2|discriminate]. }
  set (t3 := (t2 ++ _)%list). assert (L3 : length t3 = length t + 7) by (unfold t3; rewrite app_length, L2; cbn; lia). rewrite L2.
  rewrite (bind_layer I input t3 AAdd "" [S (length t) + 4; S (length t + 6)] [[n; c'; h'; h']; [n; c'; h'; h']] [n; c'; h'; h']); [|reflexivity|reflexivity| |apply (adding n c' h' M2)].
  2:{ unfold t3, t2, t1. rewrite <- !app_assoc. constructor; [apply at_new; reflexivity|constructor; [|constructor]]. change (S (length t + 6)) with (S (length t) + 6). apply at_new; reflexivity. }
  set (t4 := (t3 ++ _)%list). assert (L4 : length t4 = length t + 8) by (unfold t4; rewrite app_length, L3; cbn; lia). rewrite L3.
  pose proof (run_layer I input t4 (mkRow AReLU "" [S (length t) + 7] [[n; c'; h'; h']] [n; c'; h'; h'])) as R. cbn [r_layer r_name r_args r_in r_out] in R.
  replace (S (length t + 7)) with (S (length t) + 7) by lia. change KReLU with (class AReLU) at 1. change (ReLU "") with (object AReLU "") at 1. rewrite R; clear R.
  2:{ constructor; [|constructor]. unfold t4, t3, t2, t1. rewrite <- !app_assoc. apply at_new. reflexivity. }
  2:{ apply same_shape; [exact M2|apply res_relu|discriminate]. }
  rewrite L4. f_equal; try lia. unfold t4, t3, t2, t1, down_block. rewrite <- !app_assoc. replace (S (length t + 6)) with (S (length t) + 6) by lia. reflexivity.
Qed.

Lemma dim_run input t x n c h w : nth_error (input :: map r_out t) x = Some [n; c; h; w] -> p_dim x 1 (expression I input t) = RVal (expression I input t) (Z.of_nat c).
Proof. intros X. destruct (shape_at I input t x _ X) as (p & Hp & Ep). unfold p_dim. rewrite rd_nth, Hp. cbn [bind]. rewrite Ep. reflexivity. Qed.

Lemma two_plain input t n x c h : nth_error (input :: map r_out t) x = Some [n; c; h; h] -> meant_for (conv3 c 1) [[n; c; h; h]] [n; c; h; h] ->
  two_blocks I x (Z.of_nat c) 1 (expression I input t) =
    RVal (expression I input (t ++ plain_block n x (S (length t)) c h ++ plain_block n (S (length t) + 6) (S (length t) + 7) c h)) (S (length t) + 13).
Proof.
  intros X M. unfold two_blocks. unfold pbind at 1. rewrite (dim_run _ _ _ _ _ _ _ X). rewrite !Z.eqb_refl. cbn [negb orb Z.eqb Pos.eqb]. unfold pbind.
  rewrite (plain_block_run _ _ _ _ _ _ X M). rewrite (plain_block_run _ _ n _ c h); [|apply at_new; reflexivity|exact M].
  rewrite <- app_assoc. rewrite app_length. cbn [length plain_block head_rows app]. f_equal; try lia; reflexivity.
Qed.
Lemma two_down input t n x c h c' h' : nth_error (input :: map r_out t) x = Some [n; c; h; h] -> c <> c' ->
  meant_for (conv3 c' 2) [[n; c; h; h]] [n; c'; h'; h'] -> meant_for (conv3 c' 1) [[n; c'; h'; h']] [n; c'; h'; h'] ->
  two_blocks I x (Z.of_nat c') 2 (expression I input t) =
    RVal (expression I input (t ++ down_block n x (S (length t)) c h c' h' ++ plain_block n (S (length t) + 8) (S (length t) + 9) c' h')) (S (length t) + 15).
Proof.
  intros X D M1 M2. unfold two_blocks. unfold pbind at 1. rewrite (dim_run _ _ _ _ _ _ _ X). cbn [negb orb Z.eqb Pos.eqb]. unfold pbind.
  rewrite (down_block_run _ _ _ _ _ _ _ _ X M1 M2). rewrite (plain_block_run _ _ n _ c' h'); [|apply at_new; reflexivity|exact M2].
  rewrite <- app_assoc. rewrite app_length. cbn [length down_block head_rows app]. f_equal; try lia; reflexivity.
Qed.

Lemma cifar100_run n : 0 < n -> (16384 * Z.of_nat n <= 2147483647)%Z -> cifar100_net I (Z.of_nat n) es0 = RVal (expression I [n; 3; 32; 32] (cifar100_table n)) (0, 52).
Proof.
  intros H0 H1. unfold cifar100_net. start_net [n; 3; 32; 32].
  step (conv3 16 1) "" [0] [[n; 3; 32; 32]] [n; 16; 32; 32].
  step norm2 "" [1] [[n; 16; 32; 32]] [n; 16; 32; 32].
  step AReLU "" [2] [[n; 16; 32; 32]] [n; 16; 32; 32].
  unfold pbind at 1.
  match goal with |- context [two_blocks I ?x 16 1 (expression I ?inp ?t)] =>
    change (two_blocks I x 16 1 (expression I inp t)) with (two_blocks I 3 (Z.of_nat 16) 1 (expression I inp t)); rewrite (two_plain inp t n 3 16 32); [|reflexivity|meant] end.
  cbn [length app plain_block head_rows Nat.add]. unfold pbind at 1.
  match goal with |- context [two_blocks I ?x 32 2 (expression I ?inp ?t)] =>
    change (two_blocks I x 32 2 (expression I inp t)) with (two_blocks I 17 (Z.of_nat 32) 2 (expression I inp t)); rewrite (two_down inp t n 17 16 32 32 16); [|reflexivity|lia|meant|meant] end.
  cbn [length app plain_block down_block head_rows Nat.add]. unfold pbind at 1.
  match goal with |- context [two_blocks I ?x 64 2 (expression I ?inp ?t)] =>
    change (two_blocks I x 64 2 (expression I inp t)) with (two_blocks I 33 (Z.of_nat 64) 2 (expression I inp t)); rewrite (two_down inp t n 33 32 16 64 8); [|reflexivity|lia|meant|meant] end.
  cbn [length app plain_block down_block head_rows Nat.add].
  step AGlobalAvgPooling "" [49] [[n; 64; 8; 8]] [n; 64; 1; 1].
  step (ALinear 100) "" [50] [[n; 64; 1; 1]] [n; 100].
  step ASoftmax "" [51] [[n; 100]] [n; 100].
  reflexivity.
Qed.

(** *** The tables are classifiers *)
Lemma rows_of n rest t : Forall (fun '(j, r) => Forall2 (fun a sh => a <= j /\ nth_error ((n :: rest) :: map r_out t) a = Some sh) (r_args r) (r_in r) /\
    meant_for (r_layer r) (r_in r) (r_out r) /\ exists sh, r_out r = n :: sh) (combine (seq 0 (length t)) t) ->
  forall j r, nth_error t j = Some r ->
    Forall2 (fun a sh => a <= j /\ nth_error ((n :: rest) :: map r_out t) a = Some sh) (r_args r) (r_in r) /\
    meant_for (r_layer r) (r_in r) (r_out r) /\ exists sh, r_out r = n :: sh.
Proof.
  intros F j r H. rewrite Forall_forall in F. apply (F (j, r)). pose proof (lines_nth pair t j) as L. rewrite H in L.
  apply nth_error_In in L. unfold lines in L. rewrite map_ext with (g := fun x => x) in L by (intros []; reflexivity). rewrite map_id in L. exact L.
Qed.
Lemma order_of n rest t : (forall r, In r t -> match r_args r with [] | [_] => True | _ => in_order (es_ph (expression I (n :: rest) t)) (r_args r) end) ->
  forall r, In r t -> in_order (es_ph (expression I (n :: rest) t)) (r_args r).
Proof.
  intros H r Hr. specialize (H r Hr). destruct (r_args r) as [|a [|b l]]; [| |exact H]; intros i j x y L A B.
  - destruct i; discriminate.
  - destruct i as [|i], j as [|[|j]]; cbn in *; try lia; discriminate.
Qed.
End Nets.

Ltac table_row := split; [repeat (constructor; [split; [cbn; lia|reflexivity]|]); constructor|split; [cbn [r_layer r_in r_out]; meant|eexists; reflexivity]].
Ltac table_rows := apply rows_of; cbn [length seq combine]; repeat (apply Forall_cons; [table_row|]); apply Forall_nil.

Lemma mnist_table_ok n : 0 < n -> (784 * Z.of_nat n <= 2147483647)%Z -> classifier n 10 [784] (mnist_table n).
Proof.
  intros H0 H1. unfold mnist_table, perceptron_table. split.
  - prop.
  - table_rows.
  - eexists [_; _; _; _], _. split; [reflexivity|]. split; reflexivity.
  - right. split; [|repeat (apply Forall_cons; [discriminate|]); apply Forall_nil]. cbn [map r_name]. repeat (apply NoDup_cons; [cbn [In]; intuition discriminate|]). apply NoDup_nil.
  - intros r I. apply order_of. intros r' H. cbn [In] in H. decompose [or] H; subst; try exact Logic.I. contradiction.
Qed.
Lemma iris_table_ok n : 0 < n -> (100 * Z.of_nat n <= 2147483647)%Z -> classifier n 3 [4] (iris_table n).
Proof.
  intros H0 H1. unfold iris_table, perceptron_table. split.
  - prop.
  - table_rows.
  - eexists [_; _; _; _], _. split; [reflexivity|]. split; reflexivity.
  - right. split; [|repeat (apply Forall_cons; [discriminate|]); apply Forall_nil]. cbn [map r_name]. repeat (apply NoDup_cons; [cbn [In]; intuition discriminate|]). apply NoDup_nil.
  - intros r I. apply order_of. intros r' H. cbn [In] in H. decompose [or] H; subst; try exact Logic.I. contradiction.
Qed.
Lemma cifar10_table_ok n : 0 < n -> (65536 * Z.of_nat n <= 2147483647)%Z -> classifier n 10 [3; 32; 32] (cifar10_table n).
Proof.
  intros H0 H1. unfold cifar10_table. split.
  - prop.
  - table_rows.
  - eexists [_; _; _; _; _; _; _; _; _; _; _; _; _], _. split; [reflexivity|]. split; reflexivity.
  - right. split; [|repeat (apply Forall_cons; [discriminate|]); apply Forall_nil]. cbn [map r_name]. repeat (apply NoDup_cons; [cbn [In]; intuition discriminate|]). apply NoDup_nil.
  - intros r I. apply order_of. intros r' H. cbn [In] in H. decompose [or] H; subst; try exact Logic.I. contradiction.
Qed.

Lemma rows_back I n rest t : (forall j r, nth_error t j = Some r ->
    Forall2 (fun a sh => a <= j /\ nth_error ((n :: rest) :: map r_out t) a = Some sh) (r_args r) (r_in r) /\
    meant_for (r_layer r) (r_in r) (r_out r) /\ exists sh, r_out r = n :: sh) -> links_back (es_ph (expression I (n :: rest) t)).
Proof.
  intros H c args a (s & i & E) Ha. unfold expression in E. cbn [es_ph] in E. destruct c as [|c]; [discriminate E|]. cbn [nth_error] in E. rewrite lines_nth in E.
  destruct (nth_error t c) as [r|] eqn:R; [|discriminate E]. injection E as _ _ <-. destruct (H c r R) as (F & _).
  apply In_nth_error in Ha. destruct Ha as (k & Hk). clear -F Hk. revert k Hk. induction F as [|x y l1 l2 (L & _) _ IH]; intros [|k] Hk; cbn in Hk; try discriminate; [injection Hk as ->; lia|eauto].
Qed.
Lemma in_order_2 ps a b : ~ needed ps [b] a -> in_order ps [a; b].
Proof. intros N i j x y L A B. destruct i as [|[|[|]]], j as [|[|[|]]]; cbn in *; try lia; try discriminate. injection A as <-. injection B as <-. exact N. Qed.
Lemma needed_inv ps b a : needed ps [b] a -> a = b \/ exists args x, call ps b args /\ In x args /\ needed ps [x] a.
Proof.
  intros N. induction N as [o [<-|[]]|c args x _ IH Ca Hx]; [left; reflexivity|right]. destruct IH as [->|(args' & y & C1 & H1 & N1)].
  - exists args, x. split; [exact Ca|]. split; [exact Hx|]. apply need_out. left; reflexivity.
  - exists args', y. split; [exact C1|]. split; [exact H1|]. eapply need_arg; eassumption.
Qed.
(** A placeholder made by a chain of two layers from [x] does not need what lies between. *)
Lemma needed_chain ps b x s1 i1 s2 i2 a : links_back ps -> nth_error ps (S b) = Some (mkPh s2 (Some (i2, [b]))) -> nth_error ps b = Some (mkPh s1 (Some (i1, [x]))) ->
  needed ps [S b] a -> a < b -> a <= x.
Proof.
  intros LB H2 H1 N L. destruct (needed_inv _ _ _ N) as [->|(args & y & (s & i & E) & Hy & N1)]; [lia|]. rewrite H2 in E. injection E as _ _ <-. destruct Hy as [<-|[]].
  destruct (needed_inv _ _ _ N1) as [->|(args & y & (s' & i' & E) & Hy & N2)]; [lia|]. rewrite H1 in E. injection E as _ _ <-. destruct Hy as [<-|[]]. eapply needed_le; eassumption.
Qed.

Lemma cifar100_table_ok n : 0 < n -> (16384 * Z.of_nat n <= 2147483647)%Z -> classifier n 100 [3; 32; 32] (cifar100_table n).
Proof.
  intros H0 H1.
  assert (R : forall j r, nth_error (cifar100_table n) j = Some r ->
    Forall2 (fun a sh => a <= j /\ nth_error ((n :: [3; 32; 32]) :: map r_out (cifar100_table n)) a = Some sh) (r_args r) (r_in r) /\
    meant_for (r_layer r) (r_in r) (r_out r) /\ exists sh, r_out r = n :: sh).
  { apply rows_of. unfold cifar100_table, plain_block, down_block, head_rows. cbn [length app seq combine Nat.add]. repeat (apply Forall_cons; [table_row|]). apply Forall_nil. }
  split.
  - prop.
  - exact R.
  - exists (removelast (cifar100_table n)). eexists. split; [reflexivity|]. split; reflexivity.
  - left. unfold cifar100_table, plain_block, down_block, head_rows. cbn [app]. repeat (apply Forall_cons; [reflexivity|]). apply Forall_nil.
  - intros r I. apply order_of. intros r' H. pose proof (rows_back I n _ _ R) as LB. unfold cifar100_table at 1, plain_block, down_block, head_rows in H. cbn [app In Nat.add] in H.
    repeat (destruct H as [<-|H]; [first [exact Logic.I|
      cbn [r_args]; apply in_order_2; intros N;
      first [assert (X := needed_le _ _ _ LB N); lia
            |match type of N with needed ?ps [S ?b] ?a => assert (X : a <= b - 6) by (eapply (needed_chain ps b _ _ _ _ _ a LB); [reflexivity|reflexivity|exact N|lia]) end; cbn in X; lia]]|]). destruct H.
Qed.
