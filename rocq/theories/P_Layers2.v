(** Dropout's backward compared with the derivative; activation gradients as partial derivatives. *)
From Coq Require Import Reals Lra.
From Verif Require Import Base BaseFacts Sums Deriv M_Im2col S_Im2col M_Kernels M_Conv M_Layers P_Kernels S_Act S_Grad S_Partial P_Partial P_Vjp1 P_Vjp2 P_Vjp3 P_BN P_Layers P_BN3.
Open Scope R_scope.

Lemma dropout_gradient E E2 p mask x o : p < 1 -> p_train mask = true -> twf x -> prm_ok (tsh x) mask -> ten_ok (tsh x) o ->
  exists L1 o', lforward E (LDropout p mask) [x] [o] = Ok (L1, o') /\
    forall gm kg ko gi go, ten_ok (tsh x) gi -> ten_ok (tsh x) go -> nth_error gm kg = Some gi -> nth_error gm ko = Some go ->
    exists L2 L3 gi', lupdate E2 L1 [x] [go] = Ok L2 /\ lbackward E2 L2 [x] [o'] gm [kg] [ko] = Ok (L3, upd gm kg gi') /\
      forall i, (i < tot x)%nat -> exists r,
        partial_of E (fun _ => LDropout p mask) (bump_input [x] 0 i) (tsh x) go r /\
        (tdat gi').[i] = (tdat gi).[i] + (1 - p) * r.
Proof.
  intros Hp Ht Wx Pm Ho.
  destruct (dropout_train_spec E p mask x o Ht Wx Pm Ho) as (mask' & o' & F & To & Tm & _ & _ & Vm & _).
  do 2 eexists. split; [exact F|]. intros gm kg ko gi go Hgi Hgo Gk Gout.
  destruct (dropout_back_spec E2 p mask' x o' gm kg ko gi go Tm Hgi Hgo Gk Gout) as (gi' & B & _ & V).
  do 3 eexists. split; [reflexivity|]. split; [exact B|]. intros i Hi.
  assert (Ltot : tot x = prodN (tsh x)) by exact Wx.
  set (a := fun i => if Rlt_dec (e_rnd E i) p then 0 else / (1 - p)).
  exists ((tdat go).[i] * a i). split.
  - apply affine_partial with (b := fun _ => 0); [split; [reflexivity|exact Wx]|exact Hgo|lia|].
    intros x' o1 [Sx' Wx'] Ho1. rewrite <- Sx' in Pm, Ho1.
    destruct (dropout_train_spec E p mask x' o1 Ht Wx' Pm Ho1) as (m2 & o2 & F2 & To2 & _ & _ & _ & _ & Vz & Vk).
    do 2 eexists. split; [exact F2|]. rewrite <- Sx'. split; [exact To2|]. intros q Hq. unfold a. 
    assert (Hq' : (q < tot x')%nat) by (unfold tot; unfold twf in Wx'; lia).
    destruct (Rlt_dec (e_rnd E q) p) as [Hlt|Hge].
    + rewrite (Vz q Hq' Hlt). ring.
    + rewrite (Vk q Hq') by lra. unfold Rdiv. ring.
  - rewrite V by lia. rewrite Vm by exact Hi. unfold a. destruct (Rlt_dec (e_rnd E i) p); field; lra.
Qed.


Lemma the_input (x : ten) sh : no_zero x -> forall y, [x] = [y] -> tot y = prodN sh -> no_zero y.
Proof. intros H y [= <-] _. exact H. Qed.
Lemma relu_gradients E x : twf x -> no_zero x -> correct_gradients E LReLU [x] (tsh x).
Proof. intros Wx Hz. apply vjp_partials; [intros y [<-|[]]; exact Wx|]. intros P I _ EI. cbn [map]. apply relu_vjp. rewrite EI. apply the_input. exact Hz. Qed.
Lemma leaky_gradients E a x : twf x -> no_zero x -> correct_gradients E (LLeaky a) [x] (tsh x).
Proof. intros Wx Hz. apply vjp_partials; [intros y [<-|[]]; exact Wx|]. intros P I _ EI. cbn [map]. apply leaky_vjp. rewrite EI. apply the_input. exact Hz. Qed.
Lemma elu_gradients E a x : twf x -> no_zero x -> correct_gradients E (LELU a) [x] (tsh x).
Proof. intros Wx Hz. apply vjp_partials; [intros y [<-|[]]; exact Wx|]. intros P I _ EI. cbn [map]. apply elu_vjp. rewrite EI. apply the_input. exact Hz. Qed.
Lemma sigmoid_gradients E x : twf x -> correct_gradients E LSigmoid [x] (tsh x).
Proof. intros Wx. apply vjp_partials; [intros y [<-|[]]; exact Wx|]. intros P I _ EI. cbn [map]. apply sigmoid_vjp. Qed.

(** ** Activations against the documented functions *)
Lemma relu_doc x : relu x = relu_fn x.
Proof. apply relu_Rmax. Qed.
Lemma leaky_doc a x : leaky a x = leaky_fn a x.
Proof. unfold leaky, leaky_fn, ltb. destruct (Rlt_dec x 0); ring. Qed.
Lemma elu_doc a x : elu a x = elu_fn a x.
Proof. unfold elu, elu_fn, ltb. destruct (Rlt_dec x 0); ring. Qed.
Lemma sigmoid_doc x : sigmoid x = sigmoid_fn x.
Proof. unfold sigmoid, sigmoid_fn. replace (x * -1) with (- x) by ring. rewrite Rplus_comm. unfold Rdiv. ring. Qed.

Lemma activation_of E E2 L op gop from_output f x o :
  (forall ins outs, lforward E L ins outs = act_forward op L ins outs) ->
  (forall x o gm gins gouts, lbackward E2 L [x] [o] gm gins gouts =
     (k <- front gouts ;; go <- rd gm k ;;
      gm' <- act_backward gop (if from_output : bool then o else x) go gm gins ;; Ok (L, gm'))) ->
  (forall v l g, derivable_pt_lim op v l -> gop (if from_output then op v else v) g = g * l) ->
  (forall v, op v = f v) -> (forall ins gouts, lupdate E2 L ins gouts = Ok L) ->
  twf x -> ten_ok (tsh x) o -> activation E E2 L f x o.
Proof.
  intros Hf Hb Hg Hdoc Hu Wx Ho. destruct (act_spec E L op x o Hf Wx Ho) as (o' & F & To & V).
  exists o'. split; [exact F|]. split; [exact To|]. split; [intros i Hi; rewrite V by exact Hi; apply Hdoc|].
  intros gm kg ko gi go Hgi Hgo Gk Gout.
  destruct (act_back E2 L op gop from_output x o' gm kg ko gi go Hb Hg Wx To V Hgi Hgo Gk Gout) as (gi' & B & Tg & Vg).
  exists gi'. split; [apply Hu|]. split; [exact B|]. split; [exact Tg|]. intros i l Hi Hd. apply Vg; [exact Hi|].
  apply (dl_ext f op _ _ (fun v => eq_sym (Hdoc v)) Hd).
Qed.

Lemma relu_activation E E2 x o : twf x -> ten_ok (tsh x) o -> activation E E2 LReLU relu_fn x o.
Proof. apply (activation_of E E2 LReLU relu relu_grad false); try reflexivity; [exact relu_any|exact relu_doc]. Qed.
Lemma leaky_activation E E2 a x o : twf x -> ten_ok (tsh x) o -> activation E E2 (LLeaky a) (leaky_fn a) x o.
Proof. apply (activation_of E E2 (LLeaky a) (leaky a) (leaky_grad a) false); try reflexivity; [exact (leaky_any a)|exact (leaky_doc a)]. Qed.
Lemma elu_activation E E2 a x o : twf x -> ten_ok (tsh x) o -> activation E E2 (LELU a) (elu_fn a) x o.
Proof. apply (activation_of E E2 (LELU a) (elu a) (elu_grad a) false); try reflexivity; [exact (elu_any a)|exact (elu_doc a)]. Qed.
Lemma sigmoid_activation E E2 x o : twf x -> ten_ok (tsh x) o -> activation E E2 LSigmoid sigmoid_fn x o.
Proof. apply (activation_of E E2 LSigmoid sigmoid sigmoid_grad true); try reflexivity; [exact sigmoid_any|exact sigmoid_doc]. Qed.

Lemma dropout_average p v : 0 < p < 1 ->
  exists pr : Riemann_integrable (fun u => (if Rlt_dec u p then 0 else v / (1 - p))) 0 1, RiemannInt pr = v.
Proof.
  intros Hp. pose proof (dropped_step p v Hp) as pr.
  assert (E : forall u, dropped u p v / (1 - p) = if Rlt_dec u p then 0 else v / (1 - p)).
  { intros u. unfold dropped, geb. destruct (Rle_dec p u), (Rlt_dec u p); try lra. }
  assert (pr2 : Riemann_integrable (fun u => if Rlt_dec u p then 0 else v / (1 - p)) 0 1).
  { intros eps. destruct (pr eps) as (phi & psi & H1 & H2). exists phi, psi. split; [|exact H2].
    intros t Ht. rewrite <- E. apply H1. exact Ht. }
  exists pr2. rewrite <- (dropped_mean p v pr Hp). apply RiemannInt_P18; [lra|]. intros u Hu. symmetry. apply E.
Qed.
