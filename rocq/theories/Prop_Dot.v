(** Property C62: drawings of models ([save_dot]) and printed shapes and tensors. *)
From Coq Require Import Reals String Ascii Lia Permutation.
From Verif Require Import Base BaseFacts S_Tensor M_Tensor S_Heap P_Tensor M_Layers M_Optim M_Nn M_Graph M_Model M_Dot S_Graph S_Run S_Saved S_Dot
  P_Graph P_Graph2 P_Nn P_Model P_Model2 P_Dot P_Dot2 P_Dot3 P_Dot4 P_Dot5 Prop_Graph Prop_Run Prop_Tensor.
Local Open Scope string_scope.
Local Open Scope list_scope.
Open Scope nat_scope.

(** The file of any model, in whatever order the hash maps are iterated, is a drawing of the expression the model
    was made of, provided that every call was linked once (C34) and that the names the user gave are words that
    mean nothing else in the DOT language. *)
Theorem C62_models_are_drawn :
  forall (es : estore) (order : graph -> list gnode) (ins outs : list nat) (g : graph),
  built es -> Forall (fun d => d < length (es_ph es)) outs -> build (es_ph es) ins outs = Ok g -> is_topo g (order g) ->
  forall es' m, construct_model order ins outs es = RVal es' m ->
  (forall p s i args, needed (es_ph es) outs p -> nth_error (es_ph es) p = Some (mkPh s (Some (i, args))) ->
     name_in es i = "" \/ drawable (name_in es i)) ->
  (forall d, needed (es_ph es) outs d -> visits (es_ph es) outs d = 1) ->
  forall c, iterated (m_cfg m) c ->
  exists text l num, save_dot c = Ok text /\ read_dot text = Some ("Deepworks_model", l) /\ draws (es_ph es) (es_info es') outs num l.
Proof.
  intros es order ins outs g BU VO BG TO es' m CM NAMES ONCE c IT.
  destruct (drawn es order ins outs g BU VO BG TO es' m CM NAMES c IT ONCE) as (text & S & l & RD & D). eauto 6.
Qed.
Print Assumptions C62_models_are_drawn.

(** The names the library gives are such words. *)
Theorem C62_generated_names_can_be_drawn :
  forall (type : string) (k : kind) (j : nat), layer_table type = Some k -> drawable (auto_name type j).
Proof. intros type k j H. exact (generated_drawable type k j H). Qed.
Print Assumptions C62_generated_names_can_be_drawn.

(** A call that was linked again is drawn with arrows for arguments it does not have, from placeholder 0. *)
Theorem C62_relinked_calls_get_extra_arrows :
  forall (es : estore) (order : graph -> list gnode) (ins outs : list nat) (g : graph),
  built es -> Forall (fun d => d < length (es_ph es)) outs -> build (es_ph es) ins outs = Ok g -> is_topo g (order g) ->
  forall es' m, construct_model order ins outs es = RVal es' m ->
  (forall p s i args, needed (es_ph es) outs p -> nth_error (es_ph es) p = Some (mkPh s (Some (i, args))) ->
     name_in es i = "" \/ drawable (name_in es i)) ->
  forall c, iterated (m_cfg m) c ->
  exists text l, save_dot c = Ok text /\ read_dot text = Some ("Deepworks_model", l) /\
  forall p s i args li k, needed (es_ph es) outs p -> nth_error (es_ph es) p = Some (mkPh s (Some (i, args))) ->
    nth_error (es_info es') i = Some li -> visits (es_ph es) outs p = S k ->
    forall port, length args <= port < S k * length args -> In (in_edge 0 (li_name li) port) (edges_of l).
Proof.
  intros es order ins outs g BU VO BG TO es' m CM NAMES c IT.
  destruct (described es order ins outs g BU VO BG TO es' m CM NAMES c IT) as (text & S & RD). exists text, (describe c). split; [exact S|]. split; [exact RD|].
  intros p s i args li k. exact (drawn_extra es order ins outs g BU VO BG TO es' m CM NAMES c IT p s i args li k).
Qed.
Print Assumptions C62_relinked_calls_get_extra_arrows.

(** Any configuration, also one read from a file: the statements of the drawing, or an exception. *)
Theorem C62_configurations_are_drawn :
  forall (F : Type) (c : config F),
  (Forall (fun e => 0 <= snd (snd e))%Z (c_ph c) ->
   Forall (fun o => identifier (oi_name o) = true /\ quotable (oi_type o) = true) (c_ops c) -> refers c ->
   exists text, save_dot c = Ok text /\ read_dot text = Some ("Deepworks_model", describe c)) /\
  (~ refers c -> save_dot c = Throw).
Proof.
  intros F c. split; [exact (saved_as_described c)|]. intros N.
  assert (X : exists o k, In o (c_ops c) /\ In k (oi_in o ++ oi_out o) /\ ~ In k (map fst (c_ph c))).
  { assert (D : forall l, (forall k, In k l -> In k (map fst (c_ph c))) \/ exists k, In k l /\ ~ In k (map fst (c_ph c))).
    { induction l as [|k l [H|(k' & H1 & H2)]]; [left; intros ? []| |right; exists k'; split; [right; exact H1|exact H2]].
      destruct (in_dec Z.eq_dec k (map fst (c_ph c))) as [Hk|Hk]; [left; intros q [<-|Hq]; auto|right; exists k; split; [left; reflexivity|exact Hk]]. }
    unfold refers in N. clear -N D. induction (c_ops c) as [|o l IH]; [exfalso; apply N; intros ? ? []|].
    destruct (D (oi_in o ++ oi_out o)) as [Ho|(k & H1 & H2)]; [|exists o, k; split; [left; reflexivity|auto]].
    destruct IH as (o' & k & H & H'); [|exists o', k; split; [right; exact H|exact H']].
    intros H. apply N. intros o' k [<-|Ho'] Hk; [apply Ho, Hk|exact (H o' k Ho' Hk)]. }
  destruct X as (o & k & Ho & Hk & NK). exact (missing_throws c o k Ho Hk NK).
Qed.
Print Assumptions C62_configurations_are_drawn.

(** A layer named with two words: the drawing has a box for the second word and a node for the first, the
    arrow into the layer ends at a third node, and the arrow out of it starts at the second word. *)
Theorem C62_names_of_two_words_are_torn :
  forall (F : Type) (a b type : string) (ins outs : list Z) (s0 s1 : shape) attrs,
  identifier a = true -> identifier b = true -> quotable type = true ->
  exists text l, save_dot (@mkCfg F ins outs [(0, (s0, 0)); (1, (s1, 1))]%Z [mkOI (a ++ " " ++ b) type attrs [0%Z] [1%Z]]) = Ok text /\
    read_dot text = Some ("Deepworks_model", l) /\
    nodes_of l = [ph_node 0 s0; ph_node 1 s1; (a, []); (b, [("shape", "box"); ("label", (a ++ " " ++ b) ++ " (" ++ type ++ ")")]); (a, [])]%string /\
    edges_of l = [in_edge 0 (a ++ " " ++ b) 0; out_edge b 1 0].
Proof. intros F a b type ins outs s0 s1 attrs Ia Ib Qt. exact (two_words a b type Ia Ib Qt ins outs s0 s1 attrs). Qed.
Print Assumptions C62_names_of_two_words_are_torn.

(** What is printed of a shape is the list of its dimensions, and tells them. *)
Theorem C62_printed_shapes :
  (forall s : shape, print_shape s = Ok (shape_text s)) /\ (forall s t : shape, print_shape s = print_shape t -> s = t).
Proof. split; [exact print_shape_ok|]. intros s t H. rewrite !print_shape_ok in H. injection H as H. exact (shape_text_inj s t H). Qed.
Print Assumptions C62_printed_shapes.

(** Of a tensor whose memory is there, all elements in memory order; the text tells how many there are and how
    each is printed. *)
Theorem C62_printed_tensors :
  forall (V : Type) (fmt : V -> string) (h : heap V) (x : nat), reachable h -> accessible h x ->
  exists vs, contents h x = Ok vs /\ print_tensor fmt h x = Ok (numbers_text (map fmt vs)) /\
  ((forall v, clean (fmt v)) -> forall h2 y ws, reachable h2 -> accessible h2 y -> contents h2 y = Ok ws ->
     print_tensor fmt h2 y = print_tensor fmt h x -> map fmt ws = map fmt vs).
Proof.
  intros V fmt h x R A. destruct (printed fmt h x R A) as (vs & C & P). exists vs. split; [exact C|]. split; [exact P|].
  intros CL h2 y ws R2 A2 C2 E. destruct (printed fmt h2 y R2 A2) as (ws2 & C2' & P2). rewrite C2 in C2'. injection C2' as <-.
  rewrite P, P2 in E. injection E as E. apply numbers_text_inj; [apply Forall_map, Forall_forall; intros; apply CL..|exact E].
Qed.
Print Assumptions C62_printed_tensors.

(** ** Examples *)
(** [Add(Sigmoid(ReLU x), ReLU x)]: the file, and what is read from it. *)
Definition ex62_text : string := "digraph Deepworks_model {
rankdir=""LR""
Placeholder_0 [label=""Placeholder_0
{2, 3}"" ]
Placeholder_1 [label=""Placeholder_1
{2, 3}"" ]
Placeholder_2 [label=""Placeholder_2
{2, 3}"" ]
Placeholder_3 [label=""Placeholder_3
{2, 3}"" ]
relu0 [shape=box, label=""relu0 (ReLU)"" ]
sigmoid1 [shape=box, label=""sigmoid1 (Sigmoid)"" ]
add2 [shape=box, label=""add2 (Add)"" ]
Placeholder_0 -> ""relu0"" [ label = ""in_port: 0"" ]
relu0 -> Placeholder_1 [ label = ""out_port: 0"" ];
Placeholder_1 -> ""sigmoid1"" [ label = ""in_port: 0"" ]
sigmoid1 -> Placeholder_2 [ label = ""out_port: 0"" ];
Placeholder_2 -> ""add2"" [ label = ""in_port: 0"" ]
Placeholder_1 -> ""add2"" [ label = ""in_port: 1"" ]
add2 -> Placeholder_3 [ label = ""out_port: 0"" ];
}".
Lemma iterated_refl {F} (c : config F) : iterated c c.
Proof.
  split; [reflexivity|]. split; [reflexivity|]. split; [apply Permutation_refl|]. induction (c_ops c) as [|o l IH]; constructor; [|exact IH].
  repeat (split; [reflexivity|]). apply Permutation_refl.
Qed.
Example C62_nonvacuous : save_dot (m_cfg ex_m) = Ok ex62_text /\
  (exists l num, read_dot ex62_text = Some ("Deepworks_model", l) /\ draws (es_ph (ex_es [2; 1])) ex_infos [3] num l /\
     map fst (nodes_of l) = ["Placeholder_0"; "Placeholder_1"; "Placeholder_2"; "Placeholder_3"; "relu0"; "sigmoid1"; "add2"] /\
     map fst (edges_of l) = [("Placeholder_0", "relu0"); ("relu0", "Placeholder_1"); ("Placeholder_1", "sigmoid1"); ("sigmoid1", "Placeholder_2");
       ("Placeholder_2", "add2"); ("Placeholder_1", "add2"); ("add2", "Placeholder_3")]).
Proof.
  assert (S : save_dot (m_cfg ex_m) = Ok ex62_text) by (vm_compute; reflexivity). split; [exact S|].
  pose proof ex_constructed as (BU & VO & _).
  assert (exists g es', build (es_ph (ex_es [2; 1])) [0] [3] = Ok g /\ construct_model (by_age 4) [0] [3] (ex_es [2; 1]) = RVal es' ex_m /\ es_info es' = ex_infos)
    as (g & es' & BG & CM & EI) by (eexists; eexists; split; [vm_compute; reflexivity|split; vm_compute; reflexivity]).
  assert (TO : is_topo g (by_age 4 g)).
  { eapply (by_age_topo (es_ph (ex_es [2; 1])) [0] [3]); [apply store_links_back, built_ok, BU| |exact BG]. intros o [<-|[]]. vm_compute. lia. }
  assert (LE : forall d, needed (es_ph (ex_es [2; 1])) [3] d -> d <= 3) by (intros d; apply needed_le; apply store_links_back, built_ok, BU).
  destruct (C62_models_are_drawn _ _ _ _ _ BU VO BG TO _ _ CM) with (c := m_cfg ex_m) as (text & l & num & S' & R & D).
  - intros p s i args N E. left. specialize (LE p N). destruct p as [|[|[|[|p]]]]; [discriminate E| | | |lia]; vm_compute in E; injection E as _ <- _; reflexivity.
  - intros d N. specialize (LE d N). destruct d as [|[|[|[|d]]]]; [vm_compute; reflexivity..|lia].
  - apply iterated_refl.
  - rewrite S in S'. injection S' as <-. rewrite EI in D. exists l, num. split; [exact R|]. split; [exact D|].
    assert (X : exists l', read_dot ex62_text = Some ("Deepworks_model", l') /\
     map fst (nodes_of l') = ["Placeholder_0"; "Placeholder_1"; "Placeholder_2"; "Placeholder_3"; "relu0"; "sigmoid1"; "add2"] /\
     map fst (edges_of l') = [("Placeholder_0", "relu0"); ("relu0", "Placeholder_1"); ("Placeholder_1", "sigmoid1"); ("sigmoid1", "Placeholder_2");
       ("Placeholder_2", "add2"); ("Placeholder_1", "add2"); ("add2", "Placeholder_3")]) by (eexists; split; [vm_compute; reflexivity|split; vm_compute; reflexivity]).
    destruct X as (l' & R' & E1 & E2). rewrite R in R'. injection R' as <-. auto.
Qed.

(** The arguments the other way round, [Add(ReLU x, Sigmoid(ReLU x))]: ReLU gets a second arrow. *)
Example C62_extra_arrow : exists m text l,
  (exists es', construct_model (by_age 4) [0] [3] (ex_es [1; 2]) = RVal es' m) /\ visits (es_ph (ex_es [1; 2])) [3] 1 = 2 /\
  save_dot (m_cfg m) = Ok text /\ read_dot text = Some ("Deepworks_model", l) /\
  In (in_edge 0 "relu0" 0) (edges_of l) /\ In (in_edge 0 "relu0" 1) (edges_of l).
Proof.
  eexists. eexists. eexists. split; [eexists; vm_compute; reflexivity|]. split; [vm_compute; reflexivity|]. split; [vm_compute; reflexivity|].
  split; [vm_compute; reflexivity|]. split; vm_compute; tauto.
Qed.

Example C62_printed : (exists k, layer_table "BatchNorm2D" = Some k) /\ auto_name "BatchNorm2D" 12 = "batchnorm2d12" /\
  shape_text [2; -1; 30]%Z = "{2, -1, 30}" /\ shape_text [] = "{ }" /\
  reachable ex_heap /\ accessible ex_heap 0 /\ print_tensor int_string ex_heap 0 = Ok "[0, 1, 2, 3, 4, 5]" /\ (forall v, clean (int_string v)) /\
  identifier "conv" = true /\ identifier "first" = true /\ identifier "node" = false /\ identifier "fc-1" = false /\ identifier "1x" = false.
Proof.
  split; [eexists; vm_compute; reflexivity|]. split; [vm_compute; reflexivity|]. split; [vm_compute; reflexivity|]. split; [reflexivity|].
  split; [apply ex_heap_reachable|]. split; [eexists; eexists; split; [split; vm_compute; reflexivity|left; discriminate]|]. split; [vm_compute; reflexivity|].
  split; [apply int_clean|]. repeat split.
Qed.
