(** The layers agree with the reference kernels. *)
From Coq Require Import Reals Lra.
From Verif Require Import Base BaseFacts Sums Deriv M_Im2col S_Im2col M_Kernels M_Conv M_Layers M_Ref.
From Verif Require Import P_Layout P_Kernels S_Grad S_Partial P_Partial P_Vjp1 P_Vjp2 P_Vjp3 P_BN P_BN2 P_BN3 S_BN P_Layers S_Ref P_Ref.
Open Scope R_scope.

Lemma combine_tab (a b : list R) : length a = length b -> combine a b = tab (length b) (fun i => (a.[i], b.[i])).
Proof.
  intros H. apply (list_ext _ _ (0, 0)); [rewrite combine_length, tab_length; lia|].
  intros i Hi. rewrite combine_length in Hi. rewrite combine_nth by exact H. rewrite nth_tab by lia. reflexivity.
Qed.

Lemma vplus_tab (a : list R) n f : length a = n -> vplus a (tab n f) = tab n (fun i => a.[i] + f i).
Proof.
  intros H. unfold vplus. rewrite combine_tab by (rewrite tab_length; exact H). rewrite tab_length.
  unfold tab at 1. rewrite map_map. apply tab_ext. intros i Hi. rewrite nth_tab by exact Hi. reflexivity.
Qed.

Lemma vplus_grid (a : list R) n m f : length a = (n * m)%nat -> vplus a (grid n m f) = grid n m (fun i j => a.[i * m + j] + f i j).
Proof.
  intros H. unfold grid. rewrite vplus_tab by exact H. apply tab_ext. intros p Hp.
  destruct (divmod_lt _ _ _ Hp) as (_ & _ & E). rewrite <- E. reflexivity.
Qed.

Lemma put2_grid n m f d : length d = (n * m)%nat -> put2 n m f d = grid n m f.
Proof. intros H. apply put2_full. exact H. Qed.

(** ** Linear *)
Lemma linear_agrees E W b n u rest x o r0 : rest <> [] ->
  prm_ok [u; prodN rest] W -> prm_ok [u] b -> ten_ok (n :: rest) x -> ten_ok [n; u] o -> length r0 = (n * u)%nat ->
  exists r1 r, ref_linear_forward (tdat x) (tdat (p_data W)) r0 n (prodN rest) u = Ok r1 /\
    ref_add_bias (tdat (p_data b)) r1 n u = Ok r /\
    lforward E (LLinear W b) [x] [o] = Ok (LLinear W b, mkT [n; u] r).
Proof.
  intros Hrest HW Hb Hx Ho Hr0.
  destruct (prm_ok_len _ _ HW) as [LW _]. destruct (prm_ok_len _ _ Hb) as [Lb _].
  pose proof (ten_ok_len _ _ Hx) as Lx. pose proof (ten_ok_len _ _ Ho) as Lo.
  rewrite prodN1 in *. rewrite prodN2 in *. change (prodN (n :: rest)) with (n * prodN rest)%nat in Lx.
  destruct HW as (W1 & _), Hb as (B1 & _), Hx as [Sx _], Ho as [So _].
  do 2 eexists. split; [apply ref_linear_forward_ok; assumption|]. split; [apply ref_add_bias_ok; [exact Lb|apply grid_length]|].
  cbn [lforward]. unfold validate_linear. mred. rewrite Sx, So. mred.
  replace (length (n :: rest) =? 1)%nat with false by (destruct rest; [congruence|reflexivity]). mred.
  unfold linear_fwd. mred. rewrite W1. mred. rewrite B1. mred. rewrite Sx. mred. rewrite So. mred.
  unfold linear_forward. rewrite !emap_Ok by lia. rewrite !same_refl. cbn [bind].
  rewrite put2_grid by exact Lo.
  unfold linear_add_bias. rewrite !emap_Ok by (rewrite ?grid_length; lia). rewrite !same_refl. cbn [bind].
  rewrite put2_grid by apply grid_length. unfold set_dat. rewrite So. reflexivity.
Qed.

Lemma linear_backward_agrees E E2 W b n u rest x o go dW0 gi0 db0 : rest <> [] ->
  prm_ok [u; prodN rest] W -> prm_ok [u] b -> ten_ok (n :: rest) x -> ten_ok [n; u] go ->
  length dW0 = (u * prodN rest)%nat -> length gi0 = (n * prodN rest)%nat -> length db0 = u ->
  exists dW r db,
    ref_linear_backward (tdat x) (tdat (p_data W)) (tdat go) dW0 gi0 n (prodN rest) u = Ok (dW, r) /\
    ref_linear_bias_backward (tdat go) db0 n u = Ok db /\
    adds_to_gradient E (LLinear W b) (LLinear W b) [x] [o] go (n :: rest) r /\
    lupdate E2 (LLinear W b) [x] [go] = Ok (LLinear (set_grad W dW) (set_grad b db)).
Proof.
  intros Hrest HW Hb Hx Hgo HdW Hgi Hdb.
  destruct (prm_ok_len _ _ HW) as [LW LgW]. destruct (prm_ok_len _ _ Hb) as [Lb Lgb].
  pose proof (ten_ok_len _ _ Hx) as Lx. pose proof (ten_ok_len _ _ Hgo) as Lgo.
  rewrite prodN1 in *. rewrite prodN2 in *. change (prodN (n :: rest)) with (n * prodN rest)%nat in Lx.
  destruct HW as (W1 & _ & W3 & _), Hb as (B1 & _ & B3 & _), Hx as [Sx _], Hgo as [Sgo _].
  do 3 eexists. split; [apply ref_linear_backward_ok; assumption|]. split; [apply ref_linear_bias_backward_ok; assumption|]. split.
  - intros gm kg ko gi Hgi2 Gk Go. pose proof (ten_ok_len _ _ Hgi2) as Lgi.
    change (prodN (n :: rest)) with (n * prodN rest)%nat in Lgi. destruct Hgi2 as [Sgi _].
    cbn [lbackward]. mred. rewrite W1. mred. rewrite (nth_error_rd _ _ _ Go). mred. rewrite Sgo. mred. rewrite Sx. mred.
    erewrite on_grad_Ok; [|exact Gk|].
    2: { mred. rewrite Sgi. mred. unfold linear_input_grad. rewrite !emap_Ok by lia. rewrite !same_refl. cbn [bind].
         rewrite put2_grid by exact Lgi. reflexivity. }
    cbn [bind]. unfold set_dat. rewrite Sgi. do 4 f_equal. rewrite vplus_grid by exact Lgi. reflexivity.
  - cbn [lupdate]. mred. rewrite W3. mred. rewrite B3. mred. rewrite Sgo. mred. rewrite Sx. mred.
    unfold linear_weight_grad. rewrite !emap_Ok by lia. rewrite !same_refl. cbn [bind]. rewrite put2_grid by exact LgW.
    unfold linear_bias_grad. rewrite !emap_Ok by lia. rewrite !same_refl. cbn [bind]. rewrite put_full by exact Lgb. reflexivity.
Qed.

(** ** Activations *)
Lemma act_agrees E L op x o : (forall ins outs, lforward E L ins outs = act_forward op L ins outs) ->
  twf x -> ten_ok (tsh x) o -> lforward E L [x] [o] = Ok (L, mkT (tsh x) (tab (tot x) (fun i => op (tdat x).[i]))).
Proof.
  intros H Wx [So Wo]. rewrite H. unfold act_forward. rewrite validate_same_Ok by congruence. mred.
  unfold twf in *. unfold elementwise, tot. rewrite !emap_Ok by lia. rewrite same_Ok by congruence. cbn [bind].
  rewrite put_full by reflexivity. unfold set_dat. rewrite So, Wo, So, Wx. reflexivity.
Qed.

Lemma act_back_agrees E L op a x o go :
  (forall gm gins gouts, lbackward E L [x] [o] gm gins gouts =
     (k <- front gouts ;; go <- rd gm k ;; gm' <- act_backward op a go gm gins ;; Ok (L, gm'))) ->
  twf x -> length (tdat a) = tot x -> ten_ok (tsh x) go ->
  adds_to_gradient E L L [x] [o] go (tsh x) (tab (tot x) (fun i => op (tdat a).[i] (tdat go).[i])).
Proof.
  intros H Wx La Hgo gm kg ko gi Hgi Gk Go. rewrite H. mred. rewrite (nth_error_rd _ _ _ Go). mred.
  pose proof (ten_ok_len _ _ Hgo) as Lgo. pose proof (ten_ok_len _ _ Hgi) as Lgi. destruct Hgi as [Sgi _]. unfold twf in Wx. unfold tot in *.
  unfold act_backward. erewrite on_grad_Ok; [|exact Gk|].
  2: { unfold elementwise_grad, tot. rewrite !emap_Ok by lia. rewrite !same_Ok by congruence. cbn [bind].
       rewrite put_full by reflexivity. reflexivity. }
  cbn [bind]. unfold set_dat. rewrite Sgi. do 4 f_equal. rewrite vplus_tab by congruence. rewrite Lgi, Wx. reflexivity.
Qed.

Lemma relu_agrees E x o go f0 g0 : twf x -> ten_ok (tsh x) o -> ten_ok (tsh x) go -> length f0 = tot x -> length g0 = tot x ->
  exists y r, ref_relu_forward (tdat x) f0 (tot x) = Ok y /\ lforward E LReLU [x] [o] = Ok (LReLU, mkT (tsh x) y) /\
    ref_relu_backward y (tdat go) g0 (tot x) = Ok r /\ adds_to_gradient E LReLU LReLU [x] [mkT (tsh x) y] go (tsh x) r.
Proof.
  intros Wx Ho Hgo Hf Hg. pose proof (ten_ok_len _ _ Hgo) as Lgo. unfold twf in Wx.
  exists (tab (tot x) (fun i => relu (tdat x).[i])), (tab (tot x) (fun i => relu_grad (tdat x).[i] (tdat go).[i])).
  split; [apply transform1_ok; [reflexivity|exact Hf]|].
  split; [apply act_agrees; [reflexivity|assumption..]|]. split.
  - unfold ref_relu_backward. rewrite (transform2_ok _ _ _ _ (tot x)) by (try apply tab_length; try exact Hg; unfold tot; congruence).
    f_equal. apply tab_ext. intros i Hi. rewrite nth_tab by exact Hi. unfold relu, relu_grad, ltb.
    destruct (Rlt_dec 0 (tdat x).[i]); [destruct (Rlt_dec 0 (tdat x).[i]); [reflexivity|contradiction]|].
    destruct (Rlt_dec 0 0); [lra|reflexivity].
  - apply act_back_agrees; [reflexivity|assumption|reflexivity|assumption].
Qed.

Lemma leaky_agrees E alpha x o go f0 g0 : twf x -> ten_ok (tsh x) o -> ten_ok (tsh x) go -> length f0 = tot x -> length g0 = tot x ->
  exists y r, ref_leaky_forward (tdat x) f0 alpha = Ok y /\ lforward E (LLeaky alpha) [x] [o] = Ok (LLeaky alpha, mkT (tsh x) y) /\
    ref_leaky_backward (tdat x) (tdat go) g0 alpha = Ok r /\
    adds_to_gradient E (LLeaky alpha) (LLeaky alpha) [x] [mkT (tsh x) y] go (tsh x) r.
Proof.
  intros Wx Ho Hgo Hf Hg. pose proof (ten_ok_len _ _ Hgo) as Lgo. unfold twf in Wx.
  exists (tab (tot x) (fun i => leaky alpha (tdat x).[i])), (tab (tot x) (fun i => leaky_grad alpha (tdat x).[i] (tdat go).[i])).
  split; [|split; [apply act_agrees; [reflexivity|assumption..]|split]].
  - unfold ref_leaky_forward. rewrite (transform1_ok _ _ _ (tot x)) by (try exact Hf; reflexivity). f_equal. apply tab_ext.
    intros i _. unfold leaky. destruct (ltb (tdat x).[i] 0); [ring|reflexivity].
  - unfold ref_leaky_backward. rewrite (transform2_ok _ _ _ _ (tot x)) by (try exact Hg; unfold tot; congruence). f_equal. apply tab_ext.
    intros i _. unfold leaky_grad. destruct (ltb (tdat x).[i] 0); ring.
  - apply act_back_agrees; [reflexivity|assumption|reflexivity|assumption].
Qed.

Lemma elu_agrees E alpha x o go f0 g0 : twf x -> ten_ok (tsh x) o -> ten_ok (tsh x) go -> length f0 = tot x -> length g0 = tot x ->
  exists y r, ref_elu_forward (tdat x) f0 alpha = Ok y /\ lforward E (LELU alpha) [x] [o] = Ok (LELU alpha, mkT (tsh x) y) /\
    ref_elu_backward (tdat x) (tdat go) g0 alpha = Ok r /\
    adds_to_gradient E (LELU alpha) (LELU alpha) [x] [mkT (tsh x) y] go (tsh x) r.
Proof.
  intros Wx Ho Hgo Hf Hg. pose proof (ten_ok_len _ _ Hgo) as Lgo. unfold twf in Wx.
  exists (tab (tot x) (fun i => elu alpha (tdat x).[i])), (tab (tot x) (fun i => elu_grad alpha (tdat x).[i] (tdat go).[i])).
  split; [|split; [apply act_agrees; [reflexivity|assumption..]|split]].
  - unfold ref_elu_forward. rewrite (transform1_ok _ _ _ (tot x)) by (try exact Hf; reflexivity). f_equal. apply tab_ext.
    intros i _. unfold elu. destruct (ltb (tdat x).[i] 0); [ring|reflexivity].
  - unfold ref_elu_backward. rewrite (transform2_ok _ _ _ _ (tot x)) by (try exact Hg; unfold tot; congruence). f_equal. apply tab_ext.
    intros i _. unfold elu_grad. destruct (ltb (tdat x).[i] 0); ring.
  - apply act_back_agrees; [reflexivity|assumption|reflexivity|assumption].
Qed.

Lemma sigmoid_eq v : 1 / (1 + exp (- v)) = sigmoid v.
Proof. unfold sigmoid. replace (v * -1) with (- v) by ring. rewrite (Rplus_comm 1). unfold Rdiv. apply Rmult_1_l. Qed.

Lemma sigmoid_agrees E x o go f0 g0 : twf x -> ten_ok (tsh x) o -> ten_ok (tsh x) go -> length f0 = tot x -> length g0 = tot x ->
  exists y r, ref_sigmoid_forward (tdat x) f0 = Ok y /\ lforward E LSigmoid [x] [o] = Ok (LSigmoid, mkT (tsh x) y) /\
    ref_sigmoid_backward (tdat x) (tdat go) g0 = Ok r /\ adds_to_gradient E LSigmoid LSigmoid [x] [mkT (tsh x) y] go (tsh x) r.
Proof.
  intros Wx Ho Hgo Hf Hg. pose proof (ten_ok_len _ _ Hgo) as Lgo. unfold twf in Wx.
  set (y := tab (tot x) (fun i => sigmoid (tdat x).[i])).
  exists y, (tab (tot x) (fun i => sigmoid_grad y.[i] (tdat go).[i])).
  split; [|split; [apply act_agrees; [reflexivity|assumption..]|split]].
  - unfold ref_sigmoid_forward. rewrite (transform1_ok _ _ _ (tot x)) by (try exact Hf; reflexivity). f_equal. apply tab_ext.
    intros i _. apply sigmoid_eq.
  - unfold ref_sigmoid_backward. rewrite (transform2_ok _ _ _ _ (tot x)) by (try exact Hg; unfold tot; congruence). f_equal. apply tab_ext.
    intros i Hi. unfold y. rewrite nth_tab by exact Hi. cbv zeta. rewrite sigmoid_eq. unfold sigmoid_grad. ring.
  - apply (act_back_agrees E LSigmoid sigmoid_grad (mkT (tsh x) y)); [reflexivity|assumption|apply tab_length|assumption].
Qed.

(** ** Softmax *)
Lemma softmax_shifted m (f : nat -> R) a b j : (0 < m)%nat ->
  exp (f j - a) / rsum m (fun k => exp (f k - a)) = exp (f j - b) / rsum m (fun k => exp (f k - b)).
Proof.
  intros Hm.
  assert (Hp : forall c, 0 < rsum m (fun k => exp (f k - c))).
  { intros c. apply rsum_pos; [exact Hm|]. intros. apply exp_pos. }
  assert (Es : forall k, exp (f k - a) = exp (b - a) * exp (f k - b)).
  { intros k. rewrite <- exp_plus. f_equal. ring. }
  rewrite Es. rewrite (rsum_ext m _ (fun k => exp (b - a) * exp (f k - b))) by (intros; apply Es).
  rewrite rsum_scal_l. pose proof (exp_pos (b - a)). pose proof (Hp b). field. lra.
Qed.

Lemma softmax_agrees E n m x o f0 : (0 < m)%nat -> ten_ok [n; m] x -> ten_ok [n; m] o -> length f0 = (n * m)%nat ->
  exists y, ref_softmax_forward (tdat x) f0 n m = Ok y /\ lforward E LSoftmax [x] [o] = Ok (LSoftmax, mkT [n; m] y).
Proof.
  intros Hm Hx Ho Hf. pose proof (ten_ok_len _ _ Hx) as Lx. pose proof (ten_ok_len _ _ Ho) as Lo. rewrite prodN2 in *.
  destruct Hx as [Sx _], Ho as [So _]. eexists. split; [apply ref_softmax_forward_ok; assumption|].
  cbn [lforward]. rewrite validate_rank_Ok by (rewrite ?Sx, ?So; reflexivity). mred. rewrite Sx. mred. rewrite So. mred.
  unfold softmax_forward, softmax_forward_with. rewrite !emap_Ok by lia. rewrite !same_refl. cbn [bind].
  destruct (Nat.eqb_spec m 0); [lia|]. rewrite andb_false_r. cbn [bind]. unfold set_dat. rewrite So. do 3 f_equal.
  rewrite put2_grid by exact Lo. apply grid_ext. intros i j Hi Hj. unfold el.
  apply (softmax_shifted m (fun k => (tdat x).[i * m + k])). exact Hm.
Qed.

Lemma softmax_backward_agrees E n m x o go g0 : ten_ok [n; m] o -> ten_ok [n; m] go -> length g0 = (n * m)%nat ->
  exists r, ref_softmax_backward (tdat go) (tdat o) g0 n m = Ok r /\ adds_to_gradient E LSoftmax LSoftmax [x] [o] go [n; m] r.
Proof.
  intros Ho Hgo Hg. pose proof (ten_ok_len _ _ Ho) as Lo. pose proof (ten_ok_len _ _ Hgo) as Lgo. rewrite prodN2 in *.
  destruct Ho as [So _], Hgo as [Sgo _]. eexists. split; [apply ref_softmax_backward_ok; assumption|].
  intros gm kg ko gi Hgi Gk Go. pose proof (ten_ok_len _ _ Hgi) as Lgi. rewrite prodN2 in Lgi. destruct Hgi as [Sgi _].
  cbn [lbackward]. mred. rewrite (nth_error_rd _ _ _ Go). mred. rewrite So. mred. rewrite Sgo. mred.
  erewrite on_grad_Ok; [|exact Gk|].
  2: { mred. rewrite Sgi. mred. unfold softmax_input_grad. rewrite !emap_Ok by lia. rewrite !same_refl. cbn [bind].
       rewrite put2_grid by exact Lgi. reflexivity. }
  cbn [bind]. unfold set_dat. rewrite Sgi. do 4 f_equal. rewrite vplus_grid by exact Lgi. reflexivity.
Qed.

(** ** Dropout *)
Lemma dropout_agrees E p mask x o f0 : p < 1 -> twf x -> prm_ok (tsh x) mask -> ten_ok (tsh x) o -> tot o <> O -> length f0 = tot x ->
  exists y mask', ref_dropout_forward (tdat x) (tdat (p_data mask')) f0 p (p_train mask) = Ok y /\
    lforward E (LDropout p mask) [x] [o] = Ok (LDropout p mask', mkT (tsh x) y) /\
    (if p_train mask then tdat (p_data mask') = tab (tot x) (e_rnd E) else mask' = mask).
Proof.
  intros Hp Wx Hm Ho Ht Hf. destruct (prm_ok_len _ _ Hm) as [Lm _]. pose proof (ten_ok_len _ _ Ho) as Lo.
  destruct Hm as (M1 & _), Ho as [So _]. unfold twf in Wx. unfold tot in *. destruct (p_train mask) eqn:Et.
  - do 2 eexists. split; [|split].
    + cbn [p_data]. unfold ref_dropout_forward. apply transform2_ok; [|reflexivity|exact Hf].
      instantiate (1 := mkP (mkT (tsh x) (tab (length (tdat x)) (e_rnd E))) (p_grad mask) true). cbn [p_data tdat]. apply tab_length.
    + cbn [lforward]. rewrite validate_same_Ok by congruence. mred. rewrite Et.
      unfold dropout_forward. rewrite !same_Ok by congruence. cbn [bind]. rewrite put_full by reflexivity.
      unfold set_dat. rewrite M1, So, Lm, Lo, Wx. do 3 f_equal. apply tab_ext. intros i Hi. cbn [p_data tdat].
      destruct (geb (tab (prodN (tsh x)) (e_rnd E)).[i] p); [reflexivity|]. unfold Rdiv. ring.
    + reflexivity.
  - exists (tdat x), mask. split; [|split; [|reflexivity]].
    + unfold ref_dropout_forward. rewrite (transform1_ok _ _ _ (length (tdat x))) by (try exact Hf; reflexivity).
      rewrite tab_nth. reflexivity.
    + cbn [lforward]. rewrite validate_same_Ok by congruence. mred. rewrite Et, So.
      replace (nshape_eqb (tsh x) (tsh x)) with true by (symmetry; apply nshape_eqb_spec; reflexivity). mred.
      unfold tot. destruct (Nat.eqb_spec (length (tdat o)) 0); [contradiction|]. cbn [negb dw_assert bind].
      unfold set_dat. rewrite So. reflexivity.
Qed.

Lemma dropout_backward_agrees E p mask x o go g0 : ten_ok (tsh x) (p_data mask) -> ten_ok (tsh x) go -> length g0 = tot go ->
  exists r, ref_dropout_backward (tdat (p_data mask)) (tdat go) g0 p = Ok r /\
    adds_to_gradient E (LDropout p mask) (LDropout p mask) [x] [o] go (tsh x) r.
Proof.
  intros Hm Hgo Hg. pose proof (ten_ok_len _ _ Hm) as Lm. pose proof (ten_ok_len _ _ Hgo) as Lgo. unfold tot in Hg.
  eexists. split; [apply transform2_ok; [congruence|reflexivity|exact Hg]|].
  intros gm kg ko gi Hgi Gk Go. pose proof (ten_ok_len _ _ Hgi) as Lgi. destruct Hgi as [Sgi _].
  cbn [lbackward]. mred. rewrite (nth_error_rd _ _ _ Go). mred. erewrite on_grad_Ok; [|exact Gk|].
  2: { unfold dropout_input_grad. rewrite !same_Ok by congruence. cbn [bind]. rewrite put_full by reflexivity. reflexivity. }
  cbn [bind]. unfold set_dat. rewrite Sgi. do 4 f_equal. rewrite vplus_tab by congruence. rewrite Lgi, Lgo. reflexivity.
Qed.

(** ** Global average pooling *)
Lemma ref_gap_forward_ok b c s x o : length x = (b * c * s)%nat -> length o = (b * c)%nat ->
  ref_gap_forward b c s x o = Ok (tab (b * c) (fun i => rsum s (fun q => x.[i * s + q]) / INR s)).
Proof.
  intros Hx Ho. unfold ref_gap_forward.
  apply (forr_run (b * c) _ (fun j => tab (b * c) (fillst j (fun i => rsum s (fun q => x.[i * s + q]) / INR s) (fun i => o.[i])))).
  - rewrite fill_0. apply list_tab. exact Ho.
  - apply fill_n.
  - intros i Hi. rewrite (scalar_sum s (fun q => x.[i * s + q])).
    + cbn [bind]. rewrite Rplus_0_l. apply fill_wr; [exact Hi|reflexivity].
    + intros q a Hq. assert (i * s + q < b * c * s)%nat by (apply mult_lt; assumption). rewrite rd_R by lia. reflexivity.
Qed.

Lemma ref_gap_backward_ok b c s g gi : length g = (b * c)%nat -> length gi = (b * c * s)%nat ->
  ref_gap_backward b c s g gi = Ok (grid (b * c) s (fun i _ => g.[i] / INR s)).
Proof.
  intros Hg Hgi. unfold ref_gap_backward.
  transitivity (forr (b * c) (fun i => forr s (fun q d => wr d (i * s + q)%nat (g.[i] / INR s))) gi).
  - apply forr_ext. intros i d Hi. rewrite rd_R by lia. reflexivity.
  - apply loop2_write; [exact Hgi|]. reflexivity.
Qed.

Lemma gap_agrees E n c h w x o f0 : (0 < h * w)%nat -> ten_ok [n; c; h; w] x -> ten_ok [n; c; 1%nat; 1%nat] o -> length f0 = (n * c)%nat ->
  exists y, ref_gap_forward n c (h * w) (tdat x) f0 = Ok y /\ lforward E LGap [x] [o] = Ok (LGap, mkT [n; c; 1%nat; 1%nat] y).
Proof.
  intros Hp Hx Ho Hf. pose proof (ten_ok_len _ _ Hx) as Lx. pose proof (ten_ok_len _ _ Ho) as Lo.
  assert (E1 : prodN [n; c; 1%nat; 1%nat] = (n * c)%nat) by (unfold prodN; cbn [fold_right]; lia).
  assert (E2 : prodN [n; c; h; w] = (n * c * (h * w))%nat) by (unfold prodN; cbn [fold_right]; lia).
  rewrite E1 in Lo. rewrite E2 in Lx. destruct Hx as [Sx _], Ho as [So _].
  eexists. split; [apply ref_gap_forward_ok; assumption|].
  cbn [lforward]. mred. rewrite Sx. mred. unfold gap_forward. rewrite emap_Ok by lia. rewrite Lo, same_refl. cbn [bind].
  destruct (Nat.eqb_spec (h * w) 0); [lia|]. rewrite andb_false_r. cbn [bind]. rewrite put_full by exact Lo.
  unfold set_dat. rewrite So. reflexivity.
Qed.

Lemma gap_backward_agrees E n c h w x o go g0 : ten_ok [n; c; 1%nat; 1%nat] go -> length g0 = (n * c * (h * w))%nat ->
  exists r, ref_gap_backward n c (h * w) (tdat go) g0 = Ok r /\ adds_to_gradient E LGap LGap [x] [o] go [n; c; h; w] r.
Proof.
  intros Hgo Hg. pose proof (ten_ok_len _ _ Hgo) as Lgo.
  assert (E1 : prodN [n; c; 1%nat; 1%nat] = (n * c)%nat) by (unfold prodN; cbn [fold_right]; lia).
  assert (E2 : prodN [n; c; h; w] = (n * c * (h * w))%nat) by (unfold prodN; cbn [fold_right]; lia).
  rewrite E1 in Lgo. eexists. split; [apply ref_gap_backward_ok; assumption|].
  intros gm kg ko gi Hgi Gk Go. pose proof (ten_ok_len _ _ Hgi) as Lgi. rewrite E2 in Lgi. destruct Hgi as [Sgi _].
  cbn [lbackward]. mred. rewrite (nth_error_rd _ _ _ Go). mred.
  erewrite on_grad_Ok; [|exact Gk|].
  2: { mred. rewrite Sgi. mred. apply gap_input_grad_Ok; assumption. }
  cbn [bind]. unfold set_dat. rewrite Sgi. do 4 f_equal. unfold grid. rewrite vplus_tab by exact Lgi. reflexivity.
Qed.

(** ** Add *)
Lemma add_agrees E x y o : twf x -> twf y -> tsh y = tsh x -> ten_ok (tsh x) o ->
  exists r, ref_add_forward x y o = Ok r /\ lforward E LAdd [x; y] [o] = Ok (LAdd, mkT (tsh x) r).
Proof.
  intros Wx Wy Sy [So Wo]. unfold twf in *. eexists. split.
  - unfold ref_add_forward. rewrite Sy, So.
    replace (nshape_eqb (tsh x) (tsh x)) with true by (symmetry; apply nshape_eqb_spec; reflexivity). cbn [andb dw_assert bind].
    apply transform2_ok; [reflexivity|unfold tot; congruence|unfold tot; congruence].
  - cbn [lforward at_ nth_error bind]. unfold add_forward, tot in *. rewrite !same_Ok by congruence. cbn [bind]. rewrite put_full by reflexivity.
    unfold set_dat. rewrite So. unfold tot. rewrite Wo, So, <- Wx. reflexivity.
Qed.
