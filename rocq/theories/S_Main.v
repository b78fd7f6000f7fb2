(** Vocabulary for statements about the sample programs started from the command line. *)
From Coq Require Import Reals String Ascii Permutation.
From Verif Require Import Base M_Layers M_Optim M_Init M_Nn M_Graph M_Model M_Backend M_DataLoader M_Train M_Serial M_Saved M_Sample M_Image M_Data M_Main
  S_Grad S_Loss S_DataLoader S_Fit S_Graph S_Build S_Plain S_Run S_Eval S_Sample S_Data S_Saved S_Saved2.
Local Open Scope string_scope.
Open Scope nat_scope.
Local Open Scope list_scope.

(** ** Numbers in arguments *)
Definition white (a : ascii) : Prop := a = " "%char \/ 9 <= nat_of_ascii a <= 13.
Definition figures : string := "0123456789".
(** The figures [ds] written one after the other, and their value. *)
Definition written (ds : list nat) : string := String.concat "" (map (fun d => substring d 1 figures) ds).
Definition value_of (ds : list nat) : Z := fold_left (fun v d => (10 * v + Z.of_nat d)%Z) ds 0%Z.
(** [s] is a number in decimal notation: white space, perhaps a sign, at least one figure; what follows the last
    figure does not count. *)
Definition denotes (s : string) (v : Z) : Prop :=
  exists blank sign ds rest,
    s = (string_of_list_ascii blank ++ sign ++ written ds ++ rest)%string /\
    Forall white blank /\ ds <> [] /\ Forall (fun d => d < 10) ds /\
    match rest with "" => True | String a _ => ~ In a (list_ascii_of_string figures) end /\
    ((In sign [""; "+"] /\ v = value_of ds) \/ (sign = "-" /\ v = (- value_of ds)%Z)).
Definition an_int (v : Z) : Prop := (- 2 ^ 31 <= v < 2 ^ 31)%Z.
(** The int a program takes an argument for: the number it is, or 0 if it does not begin like a number. *)
Definition reads (s : string) (v : Z) : Prop := (denotes s v /\ an_int v) \/ (no_number s /\ v = 0%Z).

(** ** Programs, machines and data *)
(** The four programs with the networks they are to build. *)
Definition apps : list (app * sample_program) := [(iris_app, iris); (mnist_app, mnist); (cifar10_app, cifar10); (cifar100_app, cifar100)].

(** A machine whose parts do what they should: the generator delivers indices in range, hash tables are
    traversed completely, sorting is topological, the functions used from outside are what their names say, and 1024
    bytes can be allocated. *)
Record sound_machine (M : machine) : Prop := {
  sm_range : in_range (mc_next M);
  sm_hash : forall l, Permutation (mc_hash M l) l;
  sm_fair : forall k d, fair (o_fwd (mc_world M k) d);
  sm_amax : forall k, is_argmax (e_amax (o_acc (mc_world M k)));
  sm_order : sorts (mc_order M);
  sm_cfg : forall c, iterated c (mc_cfg M c);
  sm_dict : forall d, Permutation d (mc_dict M d);
  sm_can : forall z, (0 <= z <= 1024)%Z -> mc_can M z = true }.
(** Floats have the same bit patterns on both machines. *)
Definition same_floats (M M' : machine) : Prop := mc_bits M = mc_bits M' /\ mc_value M = mc_value M'.

(** The data of the program in directory [root]: opening it delivers a test set and then a training set with samples and
    classes the network is meant for. *)
Definition test_data (a : app) (p : sample_program) (M : machine) (dk : disk) (root : string) (n : nat)
    (test_set : dataset R unit) (item2 : Z -> list R * list R) (label2 : Z -> nat) : Prop :=
  (exists s, ap_open a M dk (root ++ ap_test a) (ap_init a) = Ok (test_set, s)) /\
  labelled test_set n (sp_classes p) (sp_rest p) item2 label2.
Definition both_data (a : app) (p : sample_program) (M : machine) (dk : disk) (root : string) (n : nat)
    (train_set : dataset R unit) (item1 : Z -> list R * list R) (label1 : Z -> nat)
    (test_set : dataset R unit) (item2 : Z -> list R * list R) (label2 : Z -> nat) : Prop :=
  (exists s s', ap_open a M dk (root ++ ap_test a) (ap_init a) = Ok (test_set, s) /\
                ap_open a M dk (root ++ ap_train a) s = Ok (train_set, s')) /\
  labelled train_set n (sp_classes p) (sp_rest p) item1 label1 /\ labelled test_set n (sp_classes p) (sp_rest p) item2 label2.

(** The bounds of the model on loops do not stop this run. *)
Definition long_enough (M : machine) (n : nat) (train_set test_set : dataset R unit) : Prop :=
  enough (mc_next M) (mc_fuel M) n (ds_size train_set) /\ full train_set n < mc_turns M /\ full test_set n < mc_turns M.

(** A batch of [n] has a size the program can work with. *)
Definition good_batch (p : sample_program) (n : nat) : Prop := 0 < n /\ (sp_room p * Z.of_nat n <= int_max)%Z.

(** The same files, except for the one at [path]. *)
Definition only_wrote (path : string) (b : bytes) (dk dk' : disk) : Prop :=
  dk_file dk' path = Some b /\ forall other, other <> path -> dk_file dk' other = dk_file dk other.
