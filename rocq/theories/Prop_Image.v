(** Property C49: reading images. *)
From Coq Require Import String Ascii.
From Verif Require Import Base BaseFacts S_Tensor M_Tensor S_Heap P_Tensor Prop_Tensor M_Image S_Image P_Image.
Local Open Scope string_scope.
Open Scope nat_scope.
Local Open Scope list_scope.

(** The decoder is chosen by the text after the last dot. *)
Theorem C49_decoder_is_chosen_by_extension :
  forall (V : Type) (of_byte : Z -> V) (png jpeg : string -> decoded) (path : string) (mem_ok : bool) (junk : nat -> V) (x : nat) (h : heap V),
  (has_extension path "png" ->
     read_image of_byte png jpeg path mem_ok junk x h = read_png of_byte (png path) mem_ok junk x h) /\
  (has_extension path "jpg" \/ has_extension path "jpeg" ->
     read_image of_byte png jpeg path mem_ok junk x h = read_jpeg of_byte (jpeg path) mem_ok junk x h) /\
  (~ has_extension path "png" -> ~ has_extension path "jpg" -> ~ has_extension path "jpeg" ->
     read_image of_byte png jpeg path mem_ok junk x h = Exc h).
Proof.
  intros V of_byte png jpeg path mem_ok junk x h. unfold read_image. split; [|split].
  - intros H. apply is_png_iff in H. rewrite H. reflexivity.
  - intros H. destruct (is_png path) eqn:P.
    + apply is_png_iff, extension_iff in P. destruct H as [H|H]; apply extension_iff in H; congruence.
    + apply is_jpeg_iff in H. rewrite H. reflexivity.
  - intros H1 H2 H3. rewrite <- is_png_iff in H1. destruct (is_png path); [congruence|].
    destruct (is_jpeg path) eqn:J; [apply is_jpeg_iff in J; tauto|]. reflexivity.
Qed.
Print Assumptions C49_decoder_is_chosen_by_extension.

(** Every path has exactly one extension in this sense. *)
Theorem C49_one_extension :
  forall (path : string), exists e, has_extension path e /\ forall e', has_extension path e' -> e' = e.
Proof.
  intros path. destruct (has_some_extension path) as [e H]. exists e. split; [exact H|].
  intros e' H'. apply extension_iff in H, H'. congruence.
Qed.
Print Assumptions C49_one_extension.

(** An empty tensor takes the shape of the image and holds exactly its samples. *)
Theorem C49_empty_tensor_gets_the_image :
  forall (V : Type) (of_byte : Z -> V) (h : heap V) (x k : nat) (d : desc) (i : image) (junk : nat -> V),
  reachable h -> denotes h x k d -> d_total d = 0%Z -> decoded_well i ->
  exists h' l d',
    read_png of_byte (Image i) true junk x h = Ret h' /\ read_jpeg of_byte (Image i) true junk x h = Ret h' /\
    denotes h' x k d' /\ d_shape d' = [i_h i; i_w i; i_c i] /\ contents h' x = Ok l /\ holds_image of_byte i l.
Proof.
  intros V of_byte h x k d i junk R Dx T G.
  destruct (read_into_empty of_byte i junk x k d h (reachable_wf h R) Dx T G) as (h' & l & d' & E & Q).
  exists h', l, d'. split; [exact E|]. split; [exact E|exact Q].
Qed.
Print Assumptions C49_empty_tensor_gets_the_image.

(** A tensor with as many elements keeps its shape and holds exactly the image's samples; no other
    memory changes. *)
Theorem C49_matching_tensor_gets_the_image :
  forall (V : Type) (of_byte : Z -> V) (h : heap V) (x k : nat) (d : desc) (i : image) (mem_ok : bool) (junk : nat -> V),
  reachable h -> denotes h x k d -> accessible h x -> (d_total d = i_h i * i_w i * i_c i)%Z -> decoded_well i ->
  exists h' l,
    read_png of_byte (Image i) mem_ok junk x h = Ret h' /\ read_jpeg of_byte (Image i) mem_ok junk x h = Ret h' /\
    denotes h' x k d /\ contents h' x = Ok l /\ holds_image of_byte i l /\
    (forall b j, ~ covers h x b j -> cell h' b j = cell h b j).
Proof.
  intros V of_byte h x k d i mem_ok junk R Dx A T G.
  destruct (read_into_full of_byte i mem_ok junk x k d h (reachable_wf h R) Dx A T G) as (h' & l & E & Q).
  exists h', l. split; [exact E|]. split; [exact E|exact Q].
Qed.
Print Assumptions C49_matching_tensor_gets_the_image.

(** Any other tensor is refused and nothing changes. *)
Theorem C49_other_tensors_are_refused :
  forall (V : Type) (of_byte : Z -> V) (h : heap V) (x k : nat) (d : desc) (i : image) (mem_ok : bool) (junk : nat -> V),
  reachable h -> denotes h x k d -> d_total d <> 0%Z -> (d_total d <> i_h i * i_w i * i_c i)%Z -> decoded_well i ->
  read_png of_byte (Image i) mem_ok junk x h = Exc h /\ read_jpeg of_byte (Image i) mem_ok junk x h = Exc h.
Proof.
  intros V of_byte h x k d i mem_ok junk R Dx T0 T G.
  pose proof (read_into_other of_byte i mem_ok junk x k d h (reachable_wf h R) Dx T0 T G) as E. split; exact E.
Qed.
Print Assumptions C49_other_tensors_are_refused.

(** Findings: a PNG with fewer than 8 bits per sample, whose rows have fewer bytes than samples, is read
    past the end of the row buffers; a file that cannot be opened is passed to fclose as a null
    pointer. *)
Theorem C49_packed_rows_are_overread :
  forall (V : Type) (of_byte : Z -> V) (h : heap V) (x k : nat) (d : desc) (i : image) (junk : nat -> V) (r : list Z) (rows : list (list Z)),
  reachable h -> denotes h x k d -> d_total d = 0%Z -> nonneg [i_h i; i_w i; i_c i] -> fits [i_h i; i_w i; i_c i] ->
  i_rows i = r :: rows -> (Z.of_nat (length r) < i_w i * i_c i)%Z ->
  read_png of_byte (Image i) true junk x h = Bad.
Proof.
  intros V of_byte h x k d i junk r rows R Dx T Hn Fi E S.
  exact (read_short_rows of_byte i true junk x k d h r rows (reachable_wf h R) Dx T Hn Fi eq_refl E S).
Qed.
Print Assumptions C49_packed_rows_are_overread.

Theorem C49_missing_file_is_undefined :
  forall (V : Type) (of_byte : Z -> V) (png jpeg : string -> decoded) (path : string) (mem_ok : bool) (junk : nat -> V) (x : nat) (h : heap V),
  has_extension path "png" \/ has_extension path "jpg" \/ has_extension path "jpeg" ->
  png path = Missing -> jpeg path = Missing ->
  read_image of_byte png jpeg path mem_ok junk x h = Bad.
Proof.
  intros V of_byte png jpeg path mem_ok junk x h H P J.
  destruct (C49_decoder_is_chosen_by_extension V of_byte png jpeg path mem_ok junk x h) as (A & B & _).
  destruct H as [H|H]; [rewrite (A H), P|rewrite (B H), J]; reflexivity.
Qed.
Print Assumptions C49_missing_file_is_undefined.

(** A 2x2 image with three channels (and padded rows), read into a new tensor and into one with shape
    {12}. *)
Definition ex_image : image := mkI 2 2 3 [[1; 2; 3; 4; 5; 6; 99]%Z; [7; 8; 9; 10; 11; 12; 99]%Z].
Lemma ex_image_well : decoded_well ex_image.
Proof.
  repeat split; try (cbn; lia).
  - apply (int_prod_Ok [2; 2; 3]%Z 12%Z). reflexivity.
  - apply (int_prod_Ok [2; 2; 3]%Z 12%Z). reflexivity.
  - cbn. repeat constructor; cbn; lia.
Qed.
Lemma ex_paths : has_extension "dir.x/cat.png" "png" /\ has_extension "jpeg" "jpeg" /\ ~ has_extension "cat.PNG" "png".
Proof. split; [|split]; [apply extension_iff; reflexivity..|]. rewrite <- extension_iff. discriminate. Qed.

Example C49_nonvacuous :
  (exists h', read_image_new (fun z => z) (fun _ => Image ex_image) (fun _ => Missing) "dir.x/cat.png" true (fun _ => 0%Z) ex_heap = Ret h' /\
     contents h' 1 = Ok [1; 2; 3; 4; 5; 6; 7; 8; 9; 10; 11; 12]%Z) /\
  decoded_well ex_image /\ reachable ex_heap /\
  (exists k d, denotes ex_heap 0 k d /\ d_total d <> 0%Z /\ (d_total d <> i_h ex_image * i_w ex_image * i_c ex_image)%Z).
Proof.
  split; [eexists; split; vm_compute; reflexivity|]. split; [exact ex_image_well|]. split; [exact ex_heap_reachable|].
  eexists _, _. split; [split; reflexivity|]. split; discriminate.
Qed.
