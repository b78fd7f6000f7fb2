(** Properties C45 and C60, continued: cut and damaged configurations; names of MNIST folders; missing folders. *)
From Coq Require Import Reals String Ascii Lia.
From Verif Require Import Base BaseFacts M_Optim M_Nn M_Model M_Serial S_Serial P_Serial P_Serial2 P_Serial3 Prop_Serial M_Data S_Data S_Main P_Main.
Local Open Scope string_scope.
Open Scope Z_scope.
Local Open Scope list_scope.

(** * C45 *)
(** Loading any prefix of a saved configuration throws or returns, and takes all bytes; it is never undefined.  Once
    inputs, outputs and placeholders have been written completely, they are restored, the number of layers is the
    saved one, and the layers written completely are restored. *)
Theorem C45_truncated_configuration :
  forall (can : Z -> bool) (junk : bytes -> bytes) (c : config Z) (b : bytes) (cut : nat),
  good_cfg can c -> save_cfg c = Ok b ->
  match load_cfg can junk (firstn cut b) with
  | UB => False
  | Throw => True
  | Ok (c', rest) => rest = [] /\
      forall b0, save_cfg (mkCfg (c_in c) (c_out c) (c_ph c) []) = Ok b0 -> (length b0 <= cut)%nat ->
        c_in c' = c_in c /\ c_out c' = c_out c /\ c_ph c' = c_ph c /\ length (c_ops c') = length (c_ops c) /\
        forall j bj, (j < length (c_ops c))%nat -> save_cfg (mkCfg (c_in c) (c_out c) (c_ph c) (firstn (S j) (c_ops c))) = Ok bj -> (length bj <= cut)%nat ->
          nth_error (c_ops c') j = nth_error (c_ops c) j
  end.
Proof.
  intros can junk c b cut G S0. rewrite (P_Serial2.save_cfg_ok can c G) in S0. injection S0 as <-.
  assert (SUB : forall n, good_cfg can (mkCfg (c_in c) (c_out c) (c_ph c) (firstn n (c_ops c)))).
  { intros n. destruct G as (G1 & G2 & G3 & G4 & G5 & G6 & G7). unfold good_cfg. cbn [c_in c_out c_ph c_ops]. do 5 (split; [assumption|]). split.
    - rewrite firstn_length. lia.
    - rewrite Forall_forall in G7 |- *. intros o IN. apply G7. rewrite <- (firstn_skipn n (c_ops c)). apply in_or_app. left. exact IN. }
  assert (LEN : forall n b0, save_cfg (mkCfg (c_in c) (c_out c) (c_ph c) (firstn n (c_ops c))) = Ok b0 ->
    length b0 = (length (head_bytes c) + 8 + length (concat (map op_bytes (firstn n (c_ops c)))))%nat).
  { intros n b0 H. rewrite (P_Serial2.save_cfg_ok can _ (SUB n)) in H. injection H as <-. rewrite cfg_head. cbn [c_ops]. rewrite !app_length.
    unfold write_size at 1. rewrite le_length. unfold head_bytes. cbn [c_in c_out c_ph]. lia. }
  destruct (load_cfg_cut can junk c cut G) as [->|(c' & -> & H)]; [exact Logic.I|]. split; [reflexivity|]. intros b0 S0 L0.
  pose proof (LEN 0%nat b0 S0) as E0. cbn [firstn map concat length] in E0. destruct H as (H1 & H2 & H3 & H4 & H5); [lia|].
  do 4 (split; [assumption|]). intros j bj J SJ LJ. apply H5; [exact J|]. rewrite <- (LEN (S j) bj SJ). exact LJ.
Qed.
Print Assumptions C45_truncated_configuration.

(** An attribute that is an array of two has its size in the file.  If that size has been damaged (any larger number
    below 2^62) and more than the two values follow it, whatever they are, loading is undefined: the values are
    written behind the array. *)
Theorem C45_finding_array_sizes_are_not_checked :
  forall (can : Z -> bool) (junk : bytes -> bytes) (c : config Z) (o : opinfo Z) (name : string) (a : attr Z) (b : bytes),
  good_cfg can c -> In o (c_ops c) -> In (name, a) (oi_attrs o) -> (exists x y, a = AInt2 x y \/ a = AFloat2 x y) -> save_cfg c = Ok b ->
  exists before after, b = before ++ write_size 2 ++ after /\
    forall n damaged, 2 < n < 2 ^ 62 -> (8 < length damaged)%nat -> load_cfg can junk (before ++ write_size n ++ damaged) = UB.
Proof.
  intros can junk c o name a b G IO IA P S0. rewrite (P_Serial2.save_cfg_ok can c G) in S0. injection S0 as <-.
  apply in_split in IO. destruct IO as (ob & oa & EO). apply in_split in IA. destruct IA as (eb & ea & EA).
  apply (load_overrun can junk c ob o oa eb name a ea G EO EA). destruct P as (x & y & [-> | ->]); exact Logic.I.
Qed.
Print Assumptions C45_finding_array_sizes_are_not_checked.

(** A configuration with a max pooling: every cut, and a size of three. *)
Definition ex_pool_cfg : config Z :=
  mkCfg [0] [1] [(0, ([1; 1; 4; 4], 0)); (1, ([1; 1; 2; 2], 1))]
        [mkOI "pool" "MaxPooling" [("kernel", AInt2 2 2); ("padding", AInt2 0 0); ("stride", AInt2 2 2)] [0] [1]].
Example C45_cuts_nonvacuous :
  good_cfg ex_can ex_pool_cfg /\
  exists b, save_cfg ex_pool_cfg = Ok b /\
    (exists c', load_cfg ex_can (fun _ => []) (firstn 140 b) = Ok (c', []) /\ c_ph c' = c_ph ex_pool_cfg /\ c_ops c' <> c_ops ex_pool_cfg) /\
    load_cfg ex_can (fun _ => []) (firstn (length b - 60) b) = Throw /\ (exists e, In ("kernel", AInt2 2 2) (oi_attrs e) /\ In e (c_ops ex_pool_cfg)).
Proof.
  split.
  { unfold good_cfg, good_ints, good_op, good_string, good_attr, int32. cbn.
    repeat match goal with |- _ /\ _ => split | |- Forall _ _ => constructor | |- NoDup _ => constructor | |- ~ _ => cbn; intuition congruence end; cbn; try lia; try reflexivity;
    repeat split; cbn; try lia; try reflexivity; repeat constructor; cbn; try lia; try discriminate. }
  eexists. split; [vm_compute; reflexivity|]. split.
  - eexists. split; [vm_compute; reflexivity|]. split; [reflexivity|]. discriminate.
  - split; [vm_compute; reflexivity|]. eexists. split; [|left; reflexivity]. left. reflexivity.
Qed.

(** * C60 *)
(** MNIST: the label of a picture is the number its folder is named with. *)
Lemma stoi_denotes s v : denotes s v -> stoi s = if fits_int v then Ok v else Throw.
Proof.
  intros (blank & sign & ds & rest & -> & FB & N & FD & R & SG).
  assert (B : forall s, stoi (string_of_list_ascii blank ++ s) = stoi s).
  { intros s. induction FB as [|a t H _ IH]; [reflexivity|]. cbn. apply space_white in H. rewrite H. exact IH. }
  rewrite B. pose proof (number_written ds rest N FD R) as NW. destruct SG as [([<-|[<-|[]]] & ->)|(-> & ->)].
  - destruct ds as [|d ds]; [destruct N; reflexivity|]. inversion FD as [|x y H F']; subst. rewrite written_cons in * by exact H. cbn [append] in *.
    destruct (fig_other d H) as (O1 & O2 & O3). cbn [stoi]. rewrite O1, O2, O3, NW. reflexivity.
  - cbn [append stoi]. change (is_space "+") with false. cbn. rewrite NW. reflexivity.
  - cbn [append stoi]. change (is_space "-") with false. cbn. rewrite NW. reflexivity.
Qed.

Theorem C60_mnist_labels_are_numbers :
  forall (ls : listing) (root : string) (dirs : list folder) (label : string -> Z),
  holds_folders ls root dirs -> Forall (fun d => denotes (d_name d) (label (d_name d)) /\ an_int (label (d_name d))) dirs ->
  mnist_open ls root = Ok (map (fun '(path, name) => (path, label name)) (pictures dirs)).
Proof.
  intros ls root dirs label [R L] F. unfold mnist_open, open_root. rewrite R.
  assert (K : forall acc, open_dirs ls (fun name s => l <- stoi name ;; Ok (l, s)) (map (fun d => (d_path d, d_name d)) dirs) tt acc =
    Ok (acc ++ map (fun '(path, name) => (path, label name)) (pictures dirs), tt)).
  { clear R. induction dirs as [|d dirs IH]; intros acc; cbn [map open_dirs pictures flat_map]; [rewrite app_nil_r; reflexivity|].
    inversion F as [|? ? [D A] F2]; subst. inversion L as [|? ? L1 L2]; subst. rewrite (stoi_denotes _ _ D). apply fits_int_an in A. rewrite A. cbn [bind]. rewrite L1.
    rewrite (IH L2 F2), map_app, map_map, <- app_assoc. reflexivity. }
  rewrite K. reflexivity.
Qed.
Print Assumptions C60_mnist_labels_are_numbers.

(** A folder that is named with a number that is no int is refused. *)
Theorem C60_mnist_large_numbers_throw :
  forall (ls : listing) (root path name : string) (rest : list (string * string)) (v : Z),
  ls root = Some ((path, name) :: rest) -> denotes name v -> ~ an_int v -> mnist_open ls root = Throw.
Proof.
  intros ls root path name rest v R D A. unfold mnist_open, open_root. rewrite R. cbn [open_dirs]. rewrite (stoi_denotes _ _ D).
  destruct (fits_int v) eqn:E; [apply fits_int_an in E; contradiction|]. reflexivity.
Qed.
Print Assumptions C60_mnist_large_numbers_throw.

(** A directory that cannot be listed, the one given or one in it, makes the constructors throw. *)
Theorem C60_missing_folder_throws :
  forall (ls : listing) (root : string),
  (ls root = None -> mnist_open ls root = Throw /\ (forall m, cifar10_open ls root m = Throw) /\ (forall s, cifar100_open ls root s = Throw)) /\
  (forall path name rest, ls root = Some ((path, name) :: rest) -> ls path = None ->
     mnist_open ls root = Throw /\ (forall m, cifar10_open ls root m = Throw) /\ (forall s, fits_int (fst s + 1) = true -> cifar100_open ls root s = Throw)).
Proof.
  intros ls root. split.
  - intros N. unfold mnist_open, cifar10_open, cifar100_open, open_root. rewrite N. auto.
  - intros path name rest R P. unfold mnist_open, cifar10_open, cifar100_open, open_root. rewrite R. cbn [open_dirs]. rewrite P. split; [|split].
    + destruct (stoi name) as [v| |] eqn:E; cbn [bind]; [reflexivity|reflexivity|]. exfalso. clear R P. induction name as [|a t IH]; [discriminate E|].
      cbn [stoi] in E. destruct (is_space a); [exact (IH E)|]. destruct (if Ascii.eqb a "-" then _ else _) as [v|]; [destruct (fits_int v)|]; discriminate E.
    + intros m. destruct (label_at m name) as [l m1]. reflexivity.
    + intros s FI. unfold cifar100_label. destruct (lookup (snd s) name) as [v|]; [|rewrite FI]; cbn [bind]; destruct (_ =? -1); reflexivity.
Qed.
Print Assumptions C60_missing_folder_throws.

Example C60_names_nonvacuous :
  denotes "12" 12 /\ an_int 12 /\
  mnist_open (fun p => if String.eqb p "r" then Some [("r/12", "12")] else if String.eqb p "r/12" then Some [("r/12/a.png", "a.png")] else None) "r" = Ok [("r/12/a.png", 12)].
Proof.
  split; [|split; [unfold an_int; lia|vm_compute; reflexivity]].
  exists [], "", [1%nat; 2%nat], "". split; [reflexivity|]. split; [constructor|]. split; [discriminate|]. split; [repeat constructor; lia|]. split; [exact Logic.I|].
  left. split; [left; reflexivity|reflexivity].
Qed.
