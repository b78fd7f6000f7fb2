(** Properties C48 (make_layer) and the construction part of C51 (Add). *)
From Coq Require Import Reals String Lia.
From Verif Require Import Base BaseFacts M_Layers M_Optim M_Nn M_Graph M_Model S_Nn S_Graph P_Nn P_MakeLayer Prop_Graph.
Local Open Scope string_scope.
Open Scope nat_scope.

(** ** C48 *)
(** A layer object [li] made by any of the constructors ([construct k m name] fetches the constructor's
    arguments from [m], so it covers every constructor call) and applied to [args], against make_layer
    with the attributes recorded in [li], in any order. *)
Theorem C48_make_layer_reconstructs :
  forall (k : kind) (m : amap) (name : string) (li : linfo) (attrs : amap) (I1 I2 : ienv) (args : list nat) (es : estore),
  construct k m name = Ok li -> (forall key, find_key attrs key = find_key (li_attrs li) key) -> length args = num_in k ->
  match apply_op k I1 (length (es_info es)) args (fst (new_op li es)), make_layer I2 (li_type li) name attrs args es with
  | RVal e1 p1, RVal e2 p2 =>
      p1 = p2 /\ es_ph e1 = es_ph e2 /\
      exists l1 l2, es_info e1 = (es_info es ++ [l1])%list /\ es_info e2 = (es_info es ++ [l2])%list /\ alike l1 l2
  | RExc _, RExc _ => True
  | RBad, RBad => True
  | _, _ => False
  end.
Proof. exact make_layer_again. Qed.
Print Assumptions C48_make_layer_reconstructs.

Theorem C48_other_types_are_rejected :
  forall (I : ienv) (type name : string) (m : amap) (inputs : list nat) (es : estore),
  ~ In type supported -> make_layer I type name m inputs es = RExc es.
Proof. exact unsupported. Qed.
Print Assumptions C48_other_types_are_rejected.

Theorem C48_every_type_is_supported :
  forall type, In type supported -> exists k m li, layer_table type = Some k /\ construct k m "n" = Ok li /\ li_type li = type /\ li_name li = "n".
Proof.
  intros type H.
  pose (m := [("units", AInt 2%Z); ("eps", AFloat 1%R); ("alpha", AFloat 1%R); ("p", AFloat 1%R);
              ("out_channels", AInt 2%Z); ("kernel", AInt2 1%Z 1%Z); ("padding", AInt2 1%Z 1%Z); ("stride", AInt2 1%Z 1%Z)]).
  cbn in H. repeat (destruct H as [<-|H]; [eexists; exists m; eexists; split; [reflexivity|split; [reflexivity|split; reflexivity]]|]). destruct H.
Qed.
Print Assumptions C48_every_type_is_supported.

(** Extra inputs are ignored; missing ones are read past the end of the vector. *)
Theorem C48_missing_inputs_are_undefined :
  forall (I : ienv) (type name : string) (k : kind) (m : amap) (li : linfo) (inputs : list nat) (es : estore),
  layer_table type = Some k -> construct k m name = Ok li -> length inputs < num_in k -> make_layer I type name m inputs es = RBad.
Proof.
  intros I type name k m li inputs es T C L. unfold make_layer. rewrite T, C. cbn. unfold apply_vec.
  apply Nat.ltb_lt in L. rewrite L. reflexivity.
Qed.
Print Assumptions C48_missing_inputs_are_undefined.

Theorem C48_missing_attributes_are_rejected :
  forall (I : ienv) (type name : string) (k : kind) (m : amap) (inputs : list nat) (es : estore),
  layer_table type = Some k -> construct k m name = Throw -> make_layer I type name m inputs es = RExc es.
Proof. intros I type name k m inputs es T C. unfold make_layer. rewrite T, C. reflexivity. Qed.
Print Assumptions C48_missing_attributes_are_rejected.

(** ** C51 at construction *)
Theorem C51_add_construction :
  forall (I : ienv) (es : estore) (info : nat) (li : linfo) (a b : nat) (pa pb : phnode),
  nth_error (es_info es) info = Some li -> nth_error (es_ph es) a = Some pa -> nth_error (es_ph es) b = Some pb ->
  (ph_shape pa = ph_shape pb ->
     apply_op KAdd I info [a; b] es =
       RVal (mkES (es_ph es ++ [mkPh (ph_shape pa) (Some (info, [a; b]))])%list (upd (es_info es) info li)) (length (es_ph es))) /\
  (ph_shape pa <> ph_shape pb -> exists es', apply_op KAdd I info [a; b] es = RExc es' /\ es_ph es' = es_ph es).
Proof.
  intros I es info li a b pa pb Hi Ha Hb. unfold apply_op. cbn [map_res]. rewrite !rd_nth, Ha, Hb, Hi. cbn.
  unfold out_shape. cbn.
  split; intros E.
  - rewrite <- E, shape_eqb_refl. reflexivity.
  - destruct (shape_eqb (ph_shape pa) (ph_shape pb)) eqn:X; [apply shape_eqb_spec in X; congruence|]. cbn. eauto.
Qed.
Print Assumptions C51_add_construction.

Example C48_C51_nonvacuous :
  (exists li, construct KMaxPool [("stride", AInt2 2%Z 2%Z); ("kernel", AInt2 2%Z 2%Z); ("padding", AInt2 0%Z 0%Z)] "p" = Ok li /\
     exists e, make_layer ex_ie (li_type li) "p" (li_attrs li) [0] (mkES [mkPh [1; 2; 4; 4]%Z None] []) = RVal e 1 /\
     nth_error (es_ph e) 1 = Some (mkPh [1; 2; 2; 2]%Z (Some (0, [0])))) /\
  ~ In "linear" supported /\
  (exists e, apply_op KAdd ex_ie 0 [0; 1] (mkES [mkPh [2; 3]%Z None; mkPh [2; 4]%Z None] [Add ""]) = RExc e).
Proof.
  split; [eexists; split; [reflexivity|]; eexists; split; vm_compute; reflexivity|]. split.
  - cbn. intros H. repeat (destruct H as [H|H]; [discriminate|]). exact H.
  - eexists. vm_compute. reflexivity.
Qed.
