(** Saved and loaded models: the sizes of the sample networks. *)
From Coq Require Import Reals String Lia.
From Verif Require Import Base BaseFacts M_Tensor M_Layers M_Kernels M_Optim M_Init M_Nn M_Graph M_Model M_Backend M_Serial M_Saved M_Sample S_Graph S_Run S_Plain S_Sample S_Saved S_Saved3 P_Sample Prop_Sample.
Local Open Scope string_scope.
Open Scope nat_scope.
Local Open Scope list_scope.

(** The samples: a table of layers is within its sizes if its lines are. *)
Lemma table_sizes room I n c rest t : classifier n c rest t -> (room < 2 ^ 31)%Z -> (4 * Z.of_nat (S (length t)) + 64 <= room)%Z -> (4 * Z.of_nat (S (length rest)) <= room)%Z ->
  Forall (fun r => int_layer (r_layer r) /\ 4 * Z.of_nat (length (r_out r)) <= room /\ Z.of_nat (String.length (r_name r)) + 16 <= room)%Z t ->
  sizes room (expression I (n :: rest) t) (lines (fun j r => mkMade (I j) (r_layer r) (r_in r) (r_out r)) t) [length t].
Proof.
  intros C RM CT DI F. assert (FL : forall B (f : nat -> row -> B) (P : B -> Prop), (forall j r, In r t -> P (f j r)) -> Forall P (lines f t)).
  { intros B f P H. apply Forall_forall. intros b Hb. unfold lines in Hb. apply in_map_iff in Hb. destruct Hb as ((j & r) & <- & Hb). apply H. eapply in_combine_r, Hb. }
  rewrite Forall_forall in F. split.
  - exact RM.
  - unfold expression, lines. cbn [es_ph length]. rewrite map_length, combine_length, seq_length, Nat.min_id. exact CT.
  - apply Forall_cons; [unfold zs; cbn [ph_shape]; rewrite map_length; exact DI|]. apply FL. intros j r Hr. cbn [ph_shape]. unfold zs. rewrite map_length. apply F, Hr.
  - apply FL. intros j r Hr. apply F, Hr.
  - apply FL. intros j r Hr. cbn [description li_name]. apply F, Hr.
  - intros d N. rewrite (table_once I n c rest t C d N). lia.
Qed.
Definition smallb (x : nat) : bool := (Z.of_nat x <=? int_max)%Z.
Definition windowb (w : window) : bool := smallb (w_kh w) && smallb (w_kw w) && smallb (w_ph w) && smallb (w_pw w) && smallb (w_sh w) && smallb (w_sw w).
Definition rowb (r : row) : bool :=
  (match r_layer r with ALinear u => smallb u | AMaxPooling w => windowb w | AConvolution o w => smallb o && windowb w | _ => true end) &&
  (4 * Z.of_nat (length (r_out r)) <=? 1024)%Z && (Z.of_nat (String.length (r_name r)) + 16 <=? 1024)%Z.
Lemma smallb_ok x : smallb x = true -> small x.
Proof. intros H. apply Z.leb_le in H. exact H. Qed.
Lemma windowb_ok w : windowb w = true -> int_window w.
Proof. unfold windowb. rewrite !andb_true_iff. intros (((((A & B) & C) & D) & E) & F). repeat split; apply smallb_ok; assumption. Qed.
Lemma rowb_ok t : forallb rowb t = true ->
  Forall (fun r => int_layer (r_layer r) /\ 4 * Z.of_nat (length (r_out r)) <= 1024 /\ Z.of_nat (String.length (r_name r)) + 16 <= 1024)%Z t.
Proof.
  intros H. rewrite forallb_forall in H. apply Forall_forall. intros r Hr. specialize (H r Hr). unfold rowb in H. rewrite !andb_true_iff in H. destruct H as ((H & A) & B).
  split; [|split; [apply Z.leb_le, A|apply Z.leb_le, B]]. destruct (r_layer r); cbn [int_layer]; auto using smallb_ok, windowb_ok.
  apply andb_true_iff in H. destruct H. auto using smallb_ok, windowb_ok.
Qed.
Lemma sample_sizes p : In p [mnist; iris; cifar10; cifar100] -> forall I n, 0 < n -> (sp_room p * Z.of_nat n <= int_max)%Z ->
  sizes 1024 (expression I (n :: sp_rest p) (sp_table p n)) (lines (fun j r => mkMade (I j) (r_layer r) (r_in r) (r_out r)) (sp_table p n)) [length (sp_table p n)].
Proof.
  intros HP I n N0 RM. apply (table_sizes _ I n (sp_classes p)).
  - apply C57_samples_build_their_networks; assumption.
  - reflexivity.
  - destruct HP as [<-|[<-|[<-|[<-|[]]]]]; vm_compute; discriminate.
  - destruct HP as [<-|[<-|[<-|[<-|[]]]]]; vm_compute; discriminate.
  - apply rowb_ok. destruct HP as [<-|[<-|[<-|[<-|[]]]]]; vm_compute; reflexivity.
Qed.
