(** Property C69 for whole models: forward, backward and histories of calls on 32-bit ints. *)
From Coq Require Import Reals Lra Lia String.
From Verif Require Import Base BaseFacts Sums M_Tensor M_Im2col S_Im2col M_Kernels M_Conv M_Layers M_Optim M_Nn M_Graph M_Model M_Backend M_Int M_IntModel S_Grad S_Graph S_Run S_Plain S_Int S_IntModel
  P_Graph P_Graph2 P_Nn P_Model P_Model2 P_Run P_Fwd P_Load P_Fwd2 P_Run2 P_Bwd P_Bwd2 P_Int P_IntModel P_IntModel2 Prop_Graph Prop_Run.
Open Scope nat_scope.

(** If every tensor of the model is within the library's limits and every layer has room, then a forward and a backward pass
    return, throw and leave behind exactly what they do with unbounded integers. *)
Theorem C69_models_are_exact :
  forall (es : estore) (ins outs : list nat) (m : model) (E : nat -> env) (infos : list linfo) (b : backend) (tins touts : list ten),
  constructed es ins outs m -> closed (es_ph es) ins outs -> (forall d, needed (es_ph es) outs d -> proper (dims (es_ph es) d)) ->
  backend_fits (es_ph es) m b -> fits_ints (es_ph es) m infos b ->
  shaped (es_ph es) ins tins -> shaped (es_ph es) outs touts ->
  ((forall d, is_argmax (e_amax (E d))) ->
     model_forward32 E m infos (Some b) tins touts = model_forward E m infos (Some b) tins touts) /\
  (forall gouts, shaped (es_ph es) outs gouts ->
     model_backward32 E m infos (Some b) tins touts gouts = model_backward E m infos (Some b) tins touts gouts).
Proof.
  intros es ins outs m E infos b tins touts CO CL PR BF FI SI SO. destruct CO as (BU & VO & order & g & es' & BG & TO & CM).
  pose proof (model_mfacts es order ins outs g es' m BU VO BG TO CM) as MF. pose proof (fits_fits0 (es_ph es) m b BF) as F0. split.
  - intros AM. apply (forward_exact _ _ _ _ MF CL PR); try assumption. intros d L args PD C. apply (FI d L args PD C).
  - intros gouts SG. apply (backward_exact _ _ _ _ MF CL PR); assumption.
Qed.
Print Assumptions C69_models_are_exact.

(** So do all histories of forward and backward passes, changes of mode and changes of the parameters (optimizer steps):
    the room is still there after any of them. *)
Theorem C69_histories_are_exact :
  forall (es : estore) (ins outs : list nat) (m : model) (infos : list linfo) (b : backend) (h : list action),
  constructed es ins outs m -> closed (es_ph es) ins outs -> (forall d, needed (es_ph es) outs d -> proper (dims (es_ph es) d)) ->
  backend_fits (es_ph es) m b -> fits_ints (es_ph es) m infos b -> Forall (suits (es_ph es) ins outs) h ->
  acts32 (es_ph es) m h (infos, Some b) = acts (es_ph es) m h (infos, Some b) /\
  forall infos' b', acts (es_ph es) m h (infos, Some b) = Some (infos', Some b') -> fits_ints (es_ph es) m infos' b' /\
    forall E tins touts, shaped (es_ph es) ins tins -> shaped (es_ph es) outs touts -> (forall d, is_argmax (e_amax (E d))) ->
      model_forward32 E m infos' (Some b') tins touts = model_forward E m infos' (Some b') tins touts.
Proof.
  intros es ins outs m infos b h CO CL PR BF FI FH. destruct CO as (BU & VO & order & g & es' & BG & TO & CM).
  pose proof (model_mfacts es order ins outs g es' m BU VO BG TO CM) as MF. pose proof (fits_fits0 (es_ph es) m b BF) as F0.
  split; [apply (acts_exact _ _ _ _ MF CL PR); [exact FH|split; assumption]|]. intros infos' b' H.
  pose proof (acts_state _ _ _ _ MF CL PR h (infos, Some b) _ FH (conj F0 FI) H) as [F1 I1]. split; [exact I1|]. intros E tins touts SI SO AM.
  apply (forward_exact _ _ _ _ MF CL PR); try assumption. intros d L args PD C. apply (I1 d L args PD C).
Qed.
Print Assumptions C69_histories_are_exact.

(** A compiled model has room if the layers made from the descriptions have: nothing is recorded yet. *)
Theorem C69_compiled_models_have_room :
  forall (es : estore) (ins outs : list nat) (m : model) (infos : list linfo) (bo : option backend) (junk : nat -> R) (b : backend),
  constructed es ins outs m -> model_compile (es_ph es) junk m infos bo = Ret (Some b) ->
  (forall d args s i li L, needed (es_ph es) outs d -> nth_error (es_ph es) d = Some (mkPh s (Some (i, args))) -> nth_error infos i = Some li ->
     create_layer li = Ok L -> room L (map (dims (es_ph es)) args) (dims (es_ph es) d)) ->
  backend_fits (es_ph es) m b /\ fits_ints (es_ph es) m infos b.
Proof.
  intros es ins outs m infos bo junk b CO H RM. destruct (C37_compile_prepares _ _ _ _ _ _ _ _ CO H) as (b' & Eb & BF & P). injection Eb as <-. split; [exact BF|].
  pose proof (constructed_mfacts _ _ _ _ CO) as MF. intros d L args PD C.
  assert (N : needed (es_ph es) outs d).
  { destruct PD as (j & op & L0 & li & H1 & <- & _). destruct (op_spec _ _ _ _ MF op (nth_error_In _ _ H1)) as (a & k & N & _). exact N. }
  destruct (P d args N C) as (L2 & li & i & s & Hd & Hl & CR & PD2). rewrite (produces_fun _ _ _ _ MF _ _ _ _ _ PD PD2).
  split; [exact (RM d args s i li L2 N Hd Hl CR)|].
  unfold create_layer in CR. cbv zeta in CR. repeat match type of CR with (if ?c then _ else _) = _ => destruct c end; inv_ok CR; try discriminate CR; injection CR as <-; try exact I. constructor.
Qed.
Print Assumptions C69_compiled_models_have_room.

(** ** An example: a convolution and a max pooling *)
Definition ex_conv_es : estore :=
  let e1 := fst (new_input [2; 1; 5; 5]%Z es0) in
  let e2 := fst (new_op (Convolution 3 (2, 2) (0, 0) (1, 1) "c")%Z e1) in
  let e3 := fst (new_op (MaxPooling (2, 2) (0, 0) (2, 2) "p")%Z e2) in
  match apply_op KConv ex_ie 0 [0] e3 with
  | RVal e4 _ => match apply_op KMaxPool ex_ie 1 [1] e4 with RVal e5 _ => e5 | _ => es0 end
  | _ => es0 end.
Definition ex_conv_m : model := match construct_model (by_age 3) [0] [2] ex_conv_es with RVal _ m => m | _ => ex_m end.
Definition ex_conv_infos : list linfo := match construct_model (by_age 3) [0] [2] ex_conv_es with RVal es _ => es_info es | _ => [] end.
Definition ex_conv_b : backend := match new_backend (es_ph ex_conv_es) (fun _ => 0%R) ex_conv_m ex_conv_infos with Ok b => b | _ => mkB [] [] [] end.

Lemma ex_conv_built : built ex_conv_es.
Proof.
  pose (e1 := fst (new_input [2; 1; 5; 5]%Z es0)).
  pose (e2 := fst (new_op (Convolution 3 (2, 2) (0, 0) (1, 1) "c")%Z e1)). pose (e3 := fst (new_op (MaxPooling (2, 2) (0, 0) (2, 2) "p")%Z e2)).
  assert (B3 : built e3).
  { apply (built_layer _ KMaxPool (li_attrs (MaxPooling (2, 2) (0, 0) (2, 2) "p")%Z) "p"); [|reflexivity].
    apply (built_layer _ KConv (li_attrs (Convolution 3 (2, 2) (0, 0) (1, 1) "c")%Z) "c"); [|reflexivity]. apply built_input, built_start. }
  eapply (built_apply _ KMaxPool ex_ie 1 [1] ex_conv_es 2).
  - eapply (built_apply _ KConv ex_ie 0 [0] _ 1); [exact B3|repeat constructor|reflexivity|exists (Convolution 3 (2, 2) (0, 0) (1, 1) "c")%Z; split; reflexivity|vm_compute; reflexivity].
  - repeat constructor.
  - reflexivity.
  - exists (MaxPooling (2, 2) (0, 0) (2, 2) "p")%Z. split; reflexivity.
  - vm_compute. reflexivity.
Qed.
Lemma ex_conv_constructed : constructed ex_conv_es [0] [2] ex_conv_m.
Proof.
  split; [exact ex_conv_built|]. split; [repeat constructor|]. exists (by_age 3).
  eexists. eexists. split; [vm_compute; reflexivity|]. split; [|vm_compute; reflexivity].
  eapply (by_age_topo (es_ph ex_conv_es) [0] [2]); [apply store_links_back, built_ok, ex_conv_built| |vm_compute; reflexivity].
  intros o [<-|[]]. vm_compute. lia.
Qed.
Lemma ex_conv_needed d : needed (es_ph ex_conv_es) [2] d -> d <= 2.
Proof. intros N. apply (needed_le (es_ph ex_conv_es)); [apply store_links_back, built_ok, ex_conv_built|exact N]. Qed.
Lemma ex_conv_closed : closed (es_ph ex_conv_es) [0] [2].
Proof.
  split; [repeat constructor; intros []|]. split; [repeat constructor; intros []|]. split; [|split].
  - intros d [<-|[]] (args & s & i & H). vm_compute in H. discriminate H.
  - intros d [<-|[]]. exists [1], [2; 3; 2; 2]%Z, 1. vm_compute. reflexivity.
  - intros d N. apply ex_conv_needed in N. destruct d as [|[|[|d]]]; [right; left; reflexivity|left..|lia].
    + exists [0], [2; 3; 4; 4]%Z, 0. vm_compute. reflexivity.
    + exists [1], [2; 3; 2; 2]%Z, 1. vm_compute. reflexivity.
Qed.
Lemma ex_conv_compiled : model_compile (es_ph ex_conv_es) (fun _ => 0%R) ex_conv_m ex_conv_infos None = Ret (Some ex_conv_b).
Proof. vm_compute. reflexivity. Qed.
Lemma ex_conv_proper d : needed (es_ph ex_conv_es) [2] d -> proper (dims (es_ph ex_conv_es) d).
Proof.
  intros N. apply ex_conv_needed in N. destruct d as [|[|[|d]]]; [| | |lia]; vm_compute; (split; [repeat constructor|]); unfold Z.le; vm_compute; discriminate.
Qed.
Lemma ex_conv_room d args s i li L : nth_error (es_ph ex_conv_es) d = Some (mkPh s (Some (i, args))) -> nth_error ex_conv_infos i = Some li -> create_layer li = Ok L ->
  room L (map (dims (es_ph ex_conv_es)) args) (dims (es_ph ex_conv_es) d).
Proof.
  intros Hd Hl CL. destruct d as [|[|[|d]]].
  - vm_compute in Hd. discriminate Hd.
  - assert (s = [2; 3; 4; 4]%Z /\ i = 0 /\ args = [0]) as (-> & -> & ->) by (vm_compute in Hd; injection Hd; auto).
    vm_compute in Hl. injection Hl as <-. cbn in CL. injection CL as <-. exists 2, 1, 5, 5, 3, 4, 4.
    split; [reflexivity|]. split; [reflexivity|]. split; [reflexivity|]. split; [reflexivity|]. split; [|split; [|split]].
    + split; [vm_compute; repeat constructor|vm_compute; discriminate].
    + unfold windows_fit, walks. cbn. lia.
    + split; reflexivity.
    + vm_compute. discriminate.
  - assert (s = [2; 3; 2; 2]%Z /\ i = 1 /\ args = [1]) as (-> & -> & ->) by (vm_compute in Hd; injection Hd; auto).
    vm_compute in Hl. injection Hl as <-. cbn in CL. injection CL as <-. exists 2, 3, 4, 4, 2, 2.
    split; [reflexivity|]. split; [reflexivity|]. split; [|split; [|split]].
    + unfold windows_fit, walks. cbn. lia.
    + split; reflexivity.
    + vm_compute. discriminate.
    + vm_compute. discriminate.
  - vm_compute in Hd. destruct d; discriminate Hd.
Qed.

Lemma prepared es ins outs m infos bo junk b d args s i : constructed es ins outs m -> model_compile (es_ph es) junk m infos bo = Ret (Some b) ->
  needed (es_ph es) outs d -> nth_error (es_ph es) d = Some (mkPh s (Some (i, args))) -> exists L li, nth_error infos i = Some li /\ create_layer li = Ok L /\ produces m infos b d L.
Proof.
  intros CO H N Hd. destruct (C37_compile_prepares _ _ _ _ _ _ _ _ CO H) as (b' & Eb & _ & P). injection Eb as <-.
  destruct (P d args N) as (L & li & i' & s' & Hd' & Hl & CR & PD); [exists s, i; exact Hd|]. exists L, li. assert (i' = i) as -> by congruence. auto.
Qed.
Lemma ex_conv_first b : model_compile (es_ph ex_conv_es) (fun _ => 0%R) ex_conv_m ex_conv_infos None = Ret (Some b) ->
  exists L, produces ex_conv_m ex_conv_infos b 1 L /\ exists g W c buf, L = LConv g W c buf.
Proof.
  intros H. destruct (prepared _ _ _ _ _ _ _ _ 1 [0] [2; 3; 4; 4]%Z 0 ex_conv_constructed H) as (L & li & Hl & CR & PD).
  - eapply (need_arg _ _ 2 [1]); [apply need_out; left; reflexivity|exists [2; 3; 2; 2]%Z, 1; vm_compute; reflexivity|left; reflexivity].
  - vm_compute. reflexivity.
  - exists L. split; [exact PD|]. clear PD H. vm_compute in Hl. injection Hl as <-. cbn in CR. injection CR as <-. do 4 eexists. reflexivity.
Qed.

(** Forward, backward, a change that keeps shapes, evaluation mode, and forward again. *)
Example C69_models_nonvacuous : forall (E : nat -> env) (x o g : ten), ten_ok [2; 1; 5; 5] x -> ten_ok [2; 3; 2; 2] o -> ten_ok [2; 3; 2; 2] g ->
  (forall d, is_argmax (e_amax (E d))) ->
  constructed ex_conv_es [0] [2] ex_conv_m /\ closed (es_ph ex_conv_es) [0] [2] /\
  (forall d, needed (es_ph ex_conv_es) [2] d -> proper (dims (es_ph ex_conv_es) d)) /\
  model_compile (es_ph ex_conv_es) (fun _ => 0%R) ex_conv_m ex_conv_infos None = Ret (Some ex_conv_b) /\
  backend_fits (es_ph ex_conv_es) ex_conv_m ex_conv_b /\ fits_ints (es_ph ex_conv_es) ex_conv_m ex_conv_infos ex_conv_b /\
  Forall (suits (es_ph ex_conv_es) [0] [2]) [Forward E [x] [o]; Backward E [x] [o] [g]; Change (fun infos => infos); Train false; Forward E [x] [o]] /\
  (exists L, produces ex_conv_m ex_conv_infos ex_conv_b 1 L /\ exists g W b buf, L = LConv g W b buf).
Proof.
  intros E x o g X O G AM. pose proof ex_conv_compiled as EC.
  destruct (C69_compiled_models_have_room _ _ _ _ _ _ _ _ ex_conv_constructed EC) as (BF & FI).
  { intros d args s i li L _. apply ex_conv_room. }
  split; [exact ex_conv_constructed|]. split; [exact ex_conv_closed|]. split; [exact ex_conv_proper|]. split; [exact EC|]. split; [exact BF|]. split; [exact FI|]. split.
  - assert (D0 : dims (es_ph ex_conv_es) 0 = [2; 1; 5; 5]) by (vm_compute; reflexivity). assert (D2 : dims (es_ph ex_conv_es) 2 = [2; 3; 2; 2]) by (vm_compute; reflexivity).
    assert (SX : shaped (es_ph ex_conv_es) [0] [x]) by (constructor; [rewrite D0; exact X|constructor]).
    assert (SO : shaped (es_ph ex_conv_es) [2] [o]) by (constructor; [rewrite D2; exact O|constructor]).
    assert (SG : shaped (es_ph ex_conv_es) [2] [g]) by (constructor; [rewrite D2; exact G|constructor]).
    repeat apply Forall_cons; [split; [exact SX|split; [exact SO|exact AM]]|split; [exact SX|split; [exact SO|exact SG]]|exact keeps_refl|exact I|split; [exact SX|split; [exact SO|exact AM]]|constructor].
  - exact (ex_conv_first _ EC).
Qed.
