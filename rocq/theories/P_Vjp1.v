(** Gradients of the activation layers, Linear, Softmax, global average pooling and Add. *)
From Coq Require Import Reals Lra.
From Verif Require Import Base BaseFacts Sums Deriv M_Im2col S_Im2col M_Kernels M_Conv M_Layers P_Kernels S_Grad.
Open Scope R_scope.

Lemma nshape_eqb_spec a b : nshape_eqb a b = true <-> a = b.
Proof. apply list_eqb_spec. apply Nat.eqb_eq. Qed.

Lemma nshape_eqb_refl a : nshape_eqb a a = true.
Proof. apply nshape_eqb_spec. reflexivity. Qed.

Lemma nth_error_rd {V} (l : list V) k v : nth_error l k = Some v -> rd l k = Ok v.
Proof. unfold rd. intros ->. reflexivity. Qed.

Lemma len1 {V} (l : list V) : length l = 1%nat -> exists x, l = [x].
Proof. destruct l as [|x [|y l]]; cbn; intros H; try discriminate. eauto. Qed.

Lemma len2 {V} (l : list V) : length l = 2%nat -> exists x y, l = [x; y].
Proof. destruct l as [|x [|y [|z l]]]; cbn; intros H; try discriminate. eauto. Qed.

(** Ports of a one-input layer. *)
Lemma icurve1 sh I t dI : icurve [sh] I t dI ->
  exists X, (forall s, I s = [X s]) /\ tcurve sh X t (dI O).
Proof.
  intros [Hl Hc]. exists (fun s => nth 0 (I s) empty_ten). split.
  - intros s. specialize (Hl s). destruct (len1 (I s) Hl) as [x E]. rewrite E. reflexivity.
  - apply (Hc O). cbn. lia.
Qed.

Lemma icurve2 sh1 sh2 I t dI : icurve [sh1; sh2] I t dI ->
  exists X Y, (forall s, I s = [X s; Y s]) /\ tcurve sh1 X t (dI O) /\ tcurve sh2 Y t (dI 1%nat).
Proof.
  intros [Hl Hc]. exists (fun s => nth 0 (I s) empty_ten), (fun s => nth 1 (I s) empty_ten). split; [|split].
  - intros s. specialize (Hl s). destruct (len2 (I s) Hl) as (x & y & E). rewrite E. reflexivity.
  - apply (Hc O). cbn. lia.
  - apply (Hc 1%nat). cbn. lia.
Qed.

Lemma ready1 L sh osh gm gins kout go : grads_ready L [sh] osh gm gins kout go ->
  exists k gi, gins = [k] /\ nth_error gm k = Some gi /\ tsh gi = sh /\ twf gi /\ k <> kout /\
    nth_error gm kout = Some go /\ tsh go = osh /\ twf go /\ (overwrites L = true -> all_zero gi).
Proof.
  intros (H1 & H2 & H3 & H4 & H5 & H6). destruct (len1 gins H4) as [k ->].
  destruct (H6 O) as (gi & G1 & G2 & G3 & G4); [cbn; lia|]. cbn in G1, G2.
  exists k, gi. repeat split; auto. intros ->. apply H5. left. reflexivity.
Qed.

Lemma accum_one gm k gi d c :
  nth_error gm k = Some gi -> length d = tot gi ->
  (forall i, (i < tot gi)%nat -> d.[i] = (tdat gi).[i] + c i) ->
  accum gm [k] (fun _ => c) (upd gm k (set_dat gi d)).
Proof.
  intros Hk Hd Hc. split; [apply upd_length|]. intros k' g Hg.
  destruct (Nat.eq_dec k k') as [<-|Hne].
  - assert (g = gi) by congruence. subst g.
    exists (set_dat gi d). split; [apply nth_error_upd_eq; apply nth_error_Some; congruence|].
    split; [reflexivity|]. split; [exact Hd|]. intros i Hi. cbn [set_dat tdat]. rewrite Hc by exact Hi.
    cbn [length rsum nth]. rewrite Nat.eqb_refl. ring.
  - exists g. split; [rewrite nth_error_upd_neq by exact Hne; exact Hg|].
    split; [reflexivity|]. split; [reflexivity|]. intros i Hi. cbn [length rsum nth].
    destruct (Nat.eqb_spec k k'); [contradiction|]. ring.
Qed.

Lemma on_grad_Ok gm k gi f d : nth_error gm k = Some gi -> f gi = Ok d ->
  on_grad gm [k] f = Ok (upd gm k (set_dat gi d)).
Proof.
  intros Hk Hf. unfold on_grad, front. cbn [rd nth_error bind].
  rewrite (nth_error_rd _ _ _ Hk). cbn [bind]. rewrite Hf. reflexivity.
Qed.

(** * Activation layers *)

Lemma validate_same_Ok x o : tsh x = tsh o -> validate_same [x] [o] = Ok tt.
Proof.
  intros H. unfold validate_same, dw_assert, front, rd. cbn [length Nat.eqb bind nth_error].
  rewrite H, nshape_eqb_refl. reflexivity.
Qed.

Lemma elementwise_Ok op n X r : length X = n -> length r = n ->
  elementwise op n X n r = Ok (tab n (fun i => op X.[i])).
Proof.
  intros HX Hr. unfold elementwise. rewrite !emap_Ok by lia. cbn [bind]. rewrite same_refl. cbn [bind].
  rewrite put_full by exact Hr. reflexivity.
Qed.

Lemma elementwise_grad_Ok op n a g gi : length a = n -> length g = n -> length gi = n ->
  elementwise_grad op n a n g n gi = Ok (tab n (fun i => gi.[i] + op a.[i] g.[i])).
Proof.
  intros Ha Hg Hi. unfold elementwise_grad. rewrite !emap_Ok by lia. cbn [bind]. rewrite !same_refl. cbn [bind].
  rewrite put_full by exact Hi. reflexivity.
Qed.

Lemma act_forward_Ok op L x o : tsh x = tsh o -> twf x -> twf o ->
  act_forward op L [x] [o] = Ok (L, mkT (tsh x) (tab (prodN (tsh x)) (fun i => op (tdat x).[i]))).
Proof.
  intros Hs Hx Ho. unfold act_forward. rewrite validate_same_Ok by exact Hs. cbn [bind].
  unfold front, rd. cbn [nth_error bind]. unfold tot, twf in *. rewrite Hx, Ho, <- Hs.
  rewrite elementwise_Ok by congruence. cbn [bind]. unfold set_dat. rewrite Hs. reflexivity.
Qed.

(** [from_output] tells whether the gradient kernel looks at the output or at the input. *)
Lemma act_vjp E L sh t P I (op : R -> R) (gop : R -> R -> R) (from_output : bool) :
  (forall ds, with_params L ds = L) -> dparams L = [] -> overwrites L = false ->
  (forall E ins outs, lforward E L ins outs = act_forward op L ins outs) ->
  (forall E ins gouts, lupdate E L ins gouts = Ok L) ->
  (forall E x o gm gins gouts, lbackward E L [x] [o] gm gins gouts =
     (k <- front gouts ;; go <- rd gm k ;;
      gm' <- act_backward gop (if from_output then o else x) go gm gins ;; Ok (L, gm'))) ->
  (forall x i, I t = [x] -> (i < prodN sh)%nat ->
     exists dop, derivable_pt_lim op (tdat x).[i] dop /\
       forall g, gop (if from_output then op (tdat x).[i] else (tdat x).[i]) g = g * dop) ->
  layer_vjp E L [sh] sh t P I.
Proof.
  intros Hw Hp Hov Hf Hu Hb Hd dP dI HP HI.
  destruct (icurve1 _ _ _ _ HI) as (X & EX & [HX HdX]).
  assert (Hdop : exists dop : nat -> R, forall i, (i < prodN sh)%nat ->
     derivable_pt_lim op (tdat (X t)).[i] (dop i) /\
     forall g, gop (if from_output then op (tdat (X t)).[i] else (tdat (X t)).[i]) g = g * dop i).
  { assert (Hd' : forall n, (n <= prodN sh)%nat -> exists dop : nat -> R, forall i, (i < n)%nat ->
       derivable_pt_lim op (tdat (X t)).[i] (dop i) /\
       forall g, gop (if from_output then op (tdat (X t)).[i] else (tdat (X t)).[i]) g = g * dop i).
    { induction n as [|n IH]; intros Hn.
      - exists (fun _ => 0). intros; lia.
      - destruct IH as [dop Hdop]; [lia|]. destruct (Hd (X t) n (EX t)) as (v & V1 & V2); [lia|].
        exists (fun i => if (i =? n)%nat then v else dop i). intros i Hi.
        destruct (Nat.eqb_spec i n) as [->|Hne]; [auto|]. apply Hdop. lia. }
    apply (Hd' (prodN sh)). lia. }
  destruct Hdop as [dop Hdop].
  exists (fun s => mkT sh (tab (prodN sh) (fun i => op (tdat (X s)).[i]))), (fun _ => L),
         (fun i => dop i * dI O i).
  split; [|split; [split|]].
  - intros s o Ho Wo. rewrite Hw, Hf, EX. destruct (HX s) as [Hs Ws].
    rewrite act_forward_Ok by congruence. rewrite Hs. reflexivity.
  - intros s. cbn. split; [reflexivity|]. unfold twf. cbn. apply tab_length.
  - intros i Hi. apply dl_ext with (f := fun s => op (tdat (X s)).[i]).
    { intros s. cbn [tdat]. rewrite nth_tab by exact Hi. reflexivity. }
    destruct (Hdop i Hi) as [D _]. apply (dl_comp (fun s => (tdat (X s)).[i]) op); [apply HdX; exact Hi|exact D].
  - intros E2 gm gins kout go HR.
    destruct (ready1 _ _ _ _ _ _ _ HR) as (k & gi & -> & Gk & Gs & Gw & Gne & Go1 & Go2 & Go3 & _).
    destruct (HX t) as [Hs Ws].
    exists L, L, (upd gm k (set_dat gi (tab (prodN sh) (fun i => (tdat gi).[i] + (tdat go).[i] * dop i)))),
           (fun _ i => (tdat go).[i] * dop i).
    split; [apply Hu|]. split; [|split; [|split]].
    + rewrite EX, Hb. unfold front, rd at 1. cbn [nth_error bind].
      rewrite (nth_error_rd _ _ _ Go1). cbn [bind]. unfold act_backward.
      erewrite on_grad_Ok; [cbn [bind]; reflexivity|exact Gk|].
      unfold tot. unfold twf in *. rewrite Go3, Go2, Gw, Gs.
      set (a := if from_output then _ else _).
      assert (La : length (tdat a) = prodN sh).
      { unfold a. destruct from_output; [cbn; apply tab_length|congruence]. }
      rewrite La. rewrite elementwise_grad_Ok by congruence. f_equal. apply tab_ext. intros i Hi. f_equal.
      destruct (Hdop i Hi) as [_ V]. rewrite <- V. f_equal.
      unfold a. destruct from_output; [|reflexivity]. cbn [tdat]. rewrite nth_tab by exact Hi. reflexivity.
    + apply (accum_one gm k gi _ (fun i => (tdat go).[i] * dop i) Gk).
      * rewrite tab_length. unfold tot. unfold twf in Gw. congruence.
      * intros i Hi. rewrite nth_tab; [reflexivity|]. unfold tot, twf in *. congruence.
    + rewrite Hw. reflexivity.
    + rewrite Hp. cbn [length rsum nth]. rewrite Rplus_0_r, Rplus_0_l. apply rsum_ext. intros i Hi. ring.
Qed.

Lemma ltb_true x y : x < y -> ltb x y = true.
Proof. intros H. unfold ltb. destruct (Rlt_dec x y); [reflexivity|contradiction]. Qed.
Lemma ltb_false x y : y <= x -> ltb x y = false.
Proof. intros H. unfold ltb. destruct (Rlt_dec x y); [lra|reflexivity]. Qed.

(** Functions that agree with [f] on one side of 0. *)
Lemma dl_right f h x l : 0 < x -> (forall y, 0 < y -> f y = h y) -> dl f x l -> dl h x l.
Proof.
  intros Hx H. apply dl_local. exists x. split; [exact Hx|]. intros s Hs. apply H.
  apply Rabs_def2 in Hs. lra.
Qed.
Lemma dl_left f h x l : x < 0 -> (forall y, y < 0 -> f y = h y) -> dl f x l -> dl h x l.
Proof.
  intros Hx H. apply dl_local. exists (- x). split; [lra|]. intros s Hs. apply H.
  apply Rabs_def2 in Hs. lra.
Qed.

Lemma relu_derive x : x <> 0 -> exists l, dl relu x l /\ forall g, relu_grad x g = g * l.
Proof.
  intros Hx. destruct (Rlt_dec 0 x) as [L|L].
  - exists 1. split.
    + apply (dl_right (fun y => y)); [exact L| |apply dl_id]. intros y Hy. unfold relu. rewrite ltb_true by exact Hy. reflexivity.
    + intros g. unfold relu_grad. rewrite ltb_true by exact L. ring.
  - assert (x < 0) by lra. exists 0. split.
    + apply (dl_left (fun y => 0)); [assumption| |apply dl_const]. intros y Hy. unfold relu. rewrite ltb_false by lra. reflexivity.
    + intros g. unfold relu_grad. rewrite ltb_false by lra. ring.
Qed.

Lemma leaky_derive a x : x <> 0 -> exists l, dl (leaky a) x l /\ forall g, leaky_grad a x g = g * l.
Proof.
  intros Hx. destruct (Rlt_dec 0 x) as [L|L].
  - exists 1. split.
    + apply (dl_right (fun y => y)); [exact L| |apply dl_id]. intros y Hy. unfold leaky. rewrite ltb_false by lra. reflexivity.
    + intros g. unfold leaky_grad. rewrite ltb_false by lra. ring.
  - assert (x < 0) by lra. exists a. split.
    + apply (dl_left (fun y => y * a)); [assumption| |].
      * intros y Hy. unfold leaky. rewrite ltb_true by exact Hy. reflexivity.
      * eapply dl_eq; [apply (dl_mult (fun y => y) (fun _ => a)); [apply dl_id|apply dl_const]|]. ring.
    + intros g. unfold leaky_grad. rewrite ltb_true by assumption. ring.
Qed.

Lemma elu_derive a x : x <> 0 -> exists l, dl (elu a) x l /\ forall g, elu_grad a x g = g * l.
Proof.
  intros Hx. destruct (Rlt_dec 0 x) as [L|L].
  - exists 1. split.
    + apply (dl_right (fun y => y)); [exact L| |apply dl_id]. intros y Hy. unfold elu. rewrite ltb_false by lra. reflexivity.
    + intros g. unfold elu_grad. rewrite ltb_false by lra. ring.
  - assert (x < 0) by lra. exists (exp x * a). split.
    + apply (dl_left (fun y => (exp y - 1) * a)); [assumption| |].
      * intros y Hy. unfold elu. rewrite ltb_true by exact Hy. reflexivity.
      * eapply dl_eq.
        -- apply (dl_mult (fun y => exp y - 1) (fun _ => a)); [|apply dl_const].
           apply (dl_minus exp (fun _ => 1)); [apply derivable_pt_lim_exp|apply dl_const].
        -- ring.
    + intros g. unfold elu_grad. rewrite ltb_true by assumption. ring.
Qed.

Lemma sigmoid_derive x : exists l, dl sigmoid x l /\ forall g, sigmoid_grad (sigmoid x) g = g * l.
Proof.
  pose proof (exp_pos (x * -1)) as Hp.
  exists (sigmoid x * (sigmoid x * -1 + 1)). split.
  - eapply dl_eq.
    + unfold sigmoid. apply (dl_inv (fun y => exp (y * -1) + 1)); [|lra].
      apply dl_plus; [|apply dl_const]. apply (dl_exp (fun y => y * -1)).
      apply (dl_mult (fun y => y) (fun _ => -1)); [apply dl_id|apply dl_const].
    + unfold sigmoid, Rsqr. field. lra.
  - intros g. unfold sigmoid_grad. ring.
Qed.


Lemma relu_vjp E sh t P I : (forall x, I t = [x] -> tot x = prodN sh -> no_zero x) -> layer_vjp E LReLU [sh] sh t P I.
Proof.
  intros Hz dP dI HP HI. destruct (icurve1 _ _ _ _ HI) as (X & EX & [HX _]).
  assert (T : tot (X t) = prodN sh) by (destruct (HX t) as [A B]; unfold tot, twf in *; congruence).
  apply (act_vjp E LReLU sh t P I relu relu_grad false); auto; try (intros; reflexivity).
  intros x i Ex Hi. rewrite EX in Ex. injection Ex as <-.
  apply relu_derive. apply (Hz (X t) (EX t) T). lia.
Qed.

Lemma leaky_vjp E a sh t P I : (forall x, I t = [x] -> tot x = prodN sh -> no_zero x) -> layer_vjp E (LLeaky a) [sh] sh t P I.
Proof.
  intros Hz dP dI HP HI. destruct (icurve1 _ _ _ _ HI) as (X & EX & [HX _]).
  assert (T : tot (X t) = prodN sh) by (destruct (HX t) as [A B]; unfold tot, twf in *; congruence).
  apply (act_vjp E (LLeaky a) sh t P I (leaky a) (leaky_grad a) false); auto; try (intros; reflexivity).
  intros x i Ex Hi. rewrite EX in Ex. injection Ex as <-.
  apply leaky_derive. apply (Hz (X t) (EX t) T). lia.
Qed.

Lemma elu_vjp E a sh t P I : (forall x, I t = [x] -> tot x = prodN sh -> no_zero x) -> layer_vjp E (LELU a) [sh] sh t P I.
Proof.
  intros Hz dP dI HP HI. destruct (icurve1 _ _ _ _ HI) as (X & EX & [HX _]).
  assert (T : tot (X t) = prodN sh) by (destruct (HX t) as [A B]; unfold tot, twf in *; congruence).
  apply (act_vjp E (LELU a) sh t P I (elu a) (elu_grad a) false); auto; try (intros; reflexivity).
  intros x i Ex Hi. rewrite EX in Ex. injection Ex as <-.
  apply elu_derive. apply (Hz (X t) (EX t) T). lia.
Qed.

Lemma sigmoid_vjp E sh t P I : layer_vjp E LSigmoid [sh] sh t P I.
Proof.
  apply (act_vjp E LSigmoid sh t P I sigmoid sigmoid_grad true); auto; try (intros; reflexivity).
  intros x i Ex Hi. apply sigmoid_derive.
Qed.
