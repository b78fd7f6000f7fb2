(** Property C59: what can be saved, in terms of the program that builds the model. *)
From Coq Require Import Reals String Lia Permutation.
From Verif Require Import Base BaseFacts Sums M_Tensor M_Layers M_Kernels M_Optim M_Init M_Nn M_Graph M_Model M_Backend M_DataLoader M_Train M_Serial M_Saved M_Sample S_Grad S_Loss S_DataLoader S_Fit S_Nn S_Serial S_Graph S_Run S_Build S_Train S_Plain S_Eval S_Sample S_Saved S_Saved2 S_Saved3
  P_Graph P_Sample P_Saved6 P_Saved8 P_Saved9 P_Saved10 P_Saved11 P_Build4 Prop_Plain Prop_Model Prop_Saved Prop_Saved2 Prop_Sample.
Local Open Scope string_scope.
Open Scope nat_scope.
Local Open Scope list_scope.

(** A model of layers used as meant, with names, shapes and links that fit into [room] bytes, can be saved whenever
    [room] bytes can be allocated: new, and after any session in which its numbers stayed floats. *)
Theorem C59_what_can_be_saved :
  forall (es : estore) (D : list made) (order : graph -> list gnode) (ins outs : list nat) (g : graph) (es' : estore) (m : model)
         (room : Z) (bits : R -> Z) (value : Z -> R) (can : Z -> bool),
  plain es D -> Forall (fun d => d < length (es_ph es)) outs -> build (es_ph es) ins outs = Ok g -> is_topo g (order g) ->
  construct_model order ins outs es = RVal es' m ->
  sizes room es D outs -> (forall z, (0 <= z <= room)%Z -> can z = true) ->
  (Forall (exact bits value) (floats_of m (es_info es')) -> savable bits value can m (es_info es')) /\
  (closed (es_ph es) ins outs -> reached_well es D outs ->
   forall (junk : nat -> R) (b0 : backend) (o o' : optimizer) (cs : list tcall) (infos : list linfo) (b : backend),
   model_compile (es_ph es) junk m (es_info es') None = Ret (Some b0) ->
   opt_fits m (es_info es') o -> legal (es_ph es) ins outs false cs ->
   tacts m cs (mkTS (es_info es') (Some b0) o) = Ret (mkTS infos (Some b) o') ->
   Forall (exact bits value) (floats_of m infos) -> savable bits value can m infos).
Proof.
  intros es D order ins outs g es' m room bits value can PL VO BG TO CM SZ CAN.
  split; [exact (sz_savable es es' D m order ins outs g PL VO BG TO CM room can bits value SZ CAN)|].
  intros CL RW junk b0 o o' cs infos b CB OF LG TA F.
  destruct (C59_use_keeps_models_savable es D order ins outs g es' m junk b0 o o' cs infos b bits value can PL VO BG TO CM CL RW CB OF LG TA) as (VS & _ & _).
  split; [exact F|]. split.
  - eapply sz_cfg; try eassumption. unfold floats_of in F. apply Forall_app in F. destruct F as (F & _). eapply Forall_impl; [|exact F]. intros x (H & _). exact H.
  - eapply good_dict_shapes; [symmetry; exact VS|]. eapply sz_dict; try eassumption.
Qed.
Print Assumptions C59_what_can_be_saved.

(** The networks of the four samples, for every batch size, need no allocation above 1024 bytes to be loaded. *)
Theorem C59_sample_networks_fit_1024_bytes :
  forall p, In p [mnist; iris; cifar10; cifar100] -> forall (I : nat -> ienv) (n : nat), 0 < n -> (sp_room p * Z.of_nat n <= int_max)%Z ->
  let t := sp_table p n in let es := expression I (n :: sp_rest p) t in
  exists D, plain es D /\ sizes 1024 es D [length t].
Proof.
  intros p IP I n N0 RM t es. destruct (C57_samples_build_their_networks p IP I n N0 RM) as (_ & CLS).
  eexists. split; [exact (table_plain I n _ _ _ CLS)|exact (sample_sizes p IP I n N0 RM)].
Qed.
Print Assumptions C59_sample_networks_fit_1024_bytes.

(** The iris network, new, on a machine on which no more than 1024 bytes can be allocated at once. *)
Example C59_sizes_nonvacuous :
  exists bits value es' m, let can z := (z <=? 1024)%Z in
    construct_model kahn [0] [length (sp_table iris 2)] (expression ex59_I [2; 4] (sp_table iris 2)) = RVal es' m /\
    length (floats_of m (es_info es')) = 1205 /\ savable bits value can m (es_info es').
Proof.
  assert (IP : In iris [mnist; iris; cifar10; cifar100]) by (right; left; reflexivity).
  assert (RM : (sp_room iris * Z.of_nat 2 <= int_max)%Z) by (unfold int_max; cbn; lia).
  destruct (C57_samples_build_their_networks iris IP ex59_I 2 ltac:(lia) RM) as (_ & CLS).
  destruct (table_constructs ex59_I 2 _ _ _ CLS kahn kahn_sorts) as (g & es' & m & BG & TO & CM).
  change (sp_rest iris) with [4] in CM. assert (EM : ex59_made = (es', m)) by (unfold ex59_made; rewrite CM; reflexivity).
  assert (FL : length (floats_of (snd ex59_made) (es_info (fst ex59_made))) = 1205) by (vm_compute; reflexivity). rewrite EM in FL. cbn [fst snd] in FL.
  destruct (codec_exists (floats_of m (es_info es'))) as (bits & value & EX); [rewrite FL; cbn; lia|].
  exists bits, value, es', m. intros can. split; [exact CM|]. split; [exact FL|].
  refine (proj1 (C59_what_can_be_saved _ _ kahn [0] _ g es' m 1024 bits value can (table_plain ex59_I 2 _ _ _ CLS) _ BG TO CM (sample_sizes iris IP ex59_I 2 ltac:(lia) RM) _) EX).
  - constructor; [rewrite expression_len; lia|constructor].
  - intros z Hz. unfold can. apply Z.leb_le. lia.
Qed.
