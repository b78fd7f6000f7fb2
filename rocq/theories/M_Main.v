(** Model of the sample programs from the command line: [main] of samples/iris/main.cpp, samples/mnist/main.cpp,
    samples/cifar10/main.cpp and samples/cifar100/main.cpp.

    The four differ in the network, the optimizer, the names of the data and the dataset ([app]).  Everything
    a program gets from outside is in [machine]; files and directories are in [disk]. *)
From Coq Require Import Reals String Ascii.
From Verif Require Import Base M_Layers M_Optim M_Init M_Nn M_Graph M_Model M_Backend M_DataLoader M_Train M_Serial M_Saved M_Sample M_Image M_Data.
Local Open Scope string_scope.
Open Scope nat_scope.
Local Open Scope list_scope.

(** ** The outside *)
(** Files by path (their bytes) and directories by path (what they list); which paths can be opened for writing.
    Simplified: a path is compared as text, so two ways to write the path of one file are two files. *)
Record disk := mkDisk { dk_file : string -> option bytes; dk_list : listing; dk_writable : string -> bool }.

(** The generator of indices and its state; the order of hash sets; bounds on the loops ([FEndless] beyond them);
    what kernels get from outside in every iteration; topological sorting; random numbers of layers; memory that
    is not initialised; floats as bit patterns; which sizes can be allocated; what a failing read leaves; the
    order of hash maps; [std::atof]; the image libraries; what directories list after a file has been written. *)
Record machine := mkMachine {
  mc_gen : Type; mc_next : mc_gen -> Z -> Z * mc_gen; mc_seed : mc_gen; mc_hash : list Z -> list Z; mc_fuel : nat; mc_turns : nat;
  mc_world : nat -> outside; mc_order : graph -> list gnode; mc_draws : nat -> ienv; mc_junk : nat -> R;
  mc_bits : R -> Z; mc_value : Z -> R; mc_can : Z -> bool; mc_bytes : bytes -> bytes;
  mc_cfg : config Z -> config Z; mc_dict : sdict -> sdict;
  mc_atof : string -> R; mc_png : bytes -> decoded; mc_jpeg : bytes -> decoded;
  mc_listed : string -> listing -> listing }.

(** A file that is opened for writing and filled (serialization.cpp:299-303).  Whether it could be opened is not
    checked there; nothing is written then. *)
Definition write_file (M : machine) (dk : disk) (path : string) (b : bytes) : disk :=
  if dk_writable dk path then
    mkDisk (fun p => if String.eqb p path then Some b else dk_file dk p) (mc_listed M path (dk_list dk)) (dk_writable dk)
  else dk.

(** Decoding the file at a path. *)
Definition decode (f : bytes -> decoded) (dk : disk) (path : string) : decoded :=
  match dk_file dk path with Some b => f b | None => Missing end.

(** ** The four programs *)
(** Network, optimizer; what follows [root] in the paths of the data; the static variables of the dataset and its
    constructor. *)
Record app := mkApp {
  ap_net : (nat -> ienv) -> Z -> prog (nat * nat); ap_opt : pmap -> optimizer; ap_train : string; ap_test : string;
  ap_static : Type; ap_init : ap_static;
  ap_open : machine -> disk -> string -> ap_static -> res (dataset R unit * ap_static) }.

(** samples/iris/main.cpp:9-21, 27-28, 50, 54, 76 *)
Definition iris_app : app :=
  mkApp iris_net sample_momentum "train/iris.csv" "test/iris.csv" labels m_iris2label
    (fun M dk path s => '(i, s) <- iris_open (mc_atof M) (option_map string_of_list_ascii (dk_file dk path)) s ;; Ok (iris_dataset i, s)).
(** samples/mnist/main.cpp:9-21, 27-28, 50, 54, 76 *)
Definition mnist_app : app :=
  mkApp mnist_net sample_momentum "train" "test" unit tt
    (fun M dk path s => i <- mnist_open (dk_list dk) path ;; Ok (mnist_dataset (decode (mc_png M) dk) (decode (mc_jpeg M) dk) i, s)).
(** samples/cifar10/main.cpp:9-43, 49-50, 72, 76, 98 *)
Definition cifar10_app : app :=
  mkApp cifar10_net sample_adam "train" "test" labels label2digit
    (fun M dk path s => '(i, s) <- cifar10_open (dk_list dk) path s ;; Ok (cifar_dataset (decode (mc_png M) dk) (decode (mc_jpeg M) dk) i, s)).
(** samples/cifar100/main.cpp:9-57, 63-64, 86, 90, 112 *)
Definition cifar100_app : app :=
  mkApp cifar100_net sample_momentum "train" "test" counted_labels dir2label0
    (fun M dk path s => '(i, s) <- cifar100_open (dk_list dk) path s ;; Ok (cifar_dataset (decode (mc_png M) dk) (decode (mc_jpeg M) dk) i, s)).

(** ** Arguments *)
(** [std::atoi]: white space, a sign, digits; 0 without digits; undefined outside the range of int. *)
Fixpoint atoi (s : string) : res Z :=
  match s with
  | EmptyString => Ok 0%Z
  | String a t =>
      if is_space a then atoi t else
      match (if Ascii.eqb a "-" then option_map Z.opp (number t) else if Ascii.eqb a "+" then number t else number s) with
      | Some v => if fits_int v then Ok v else UB
      | None => Ok 0%Z
      end
  end.
(** [argv[i]] as a string; [argc] is not checked.  [argv[argc]] is a null pointer, from which neither a string nor
    a number can be made; behind it the array ends. *)
Definition arg (argv : list string) (i : nat) : fate string :=
  match nth_error argv i with Some s => FDone s | None => FUndefined end.
Definition of_res {A} (r : res A) : fate A := match r with Ok a => FDone a | Throw => FThrow | UB => FUndefined end.
Definition arg_int (argv : list string) (i : nat) : fate Z := fbind (arg argv i) (fun s => of_res (atoi s)).

(** ** main *)
Section Main.
Variables (a : app) (M : machine).

(** samples/iris/main.cpp:47-48 with the network built: the model is built and compiled before the data is looked at. *)
Definition build_first (batch_size : Z) : fate unit :=
  match p_model (mc_order M) (ap_net a (mc_draws M) batch_size) es0 with
  | RVal es m =>
      match model_compile (es_ph es) (mc_junk M) m (es_info es) None with Ret _ => FDone tt | Exc _ => FThrow | Bad => FUndefined end
  | RExc _ => FThrow
  | RBad => FUndefined
  end.
(** The same lines with the model loaded. *)
Definition load_first (f : option bytes) : fate unit :=
  match load_model (mc_bits M) (mc_value M) (mc_can M) (mc_bytes M) (mc_order M) (mc_draws M) f es0 with
  | RVal es (m, infos) =>
      match model_compile (es_ph es) (mc_junk M) m infos None with Ret _ => FDone tt | Exc _ => FThrow | Bad => FUndefined end
  | RExc _ => FThrow
  | RBad => FUndefined
  end.

(** samples/iris/main.cpp:47-124 in mode "train": what is printed and the files afterwards.  The model is built in
    [build_first] and again, with the same result, in [train_main]. *)
Definition train_mode (root : string) (batch_size num_epochs freq : Z) (path : string) (dk : disk) : fate (list line * disk) :=
  fbind (build_first batch_size) (fun _ =>
  fbind (of_res (ap_open a M dk (root ++ ap_test a) (ap_init a))) (fun '(test_set, s) =>
  fbind (of_res (ap_open a M dk (root ++ ap_train a) s)) (fun '(train_set, _) =>
  fbind (train_main (mc_next M) (mc_hash M) (mc_fuel M) (mc_turns M) (mc_world M) (mc_order M) (ap_net a (mc_draws M)) (ap_opt a)
           batch_size num_epochs freq train_set test_set (mc_junk M) tt tt (mc_seed M)) (fun '(out, _, m, infos) =>
  fbind (of_res (save_model (mc_bits M) (mc_cfg M) (mc_dict M) m infos)) (fun file =>
  FDone (out, write_file M dk path file)))))).
(** samples/iris/main.cpp:47-73 in mode "test" *)
Definition test_mode (root : string) (batch_size : Z) (path : string) (dk : disk) : fate (list line * disk) :=
  fbind (load_first (dk_file dk path)) (fun _ =>
  fbind (of_res (ap_open a M dk (root ++ ap_test a) (ap_init a))) (fun '(test_set, _) =>
  fbind (test_main (mc_bits M) (mc_value M) (mc_next M) (mc_hash M) (mc_fuel M) (mc_turns M) (mc_world M) (mc_can M) (mc_bytes M)
           (mc_order M) (mc_draws M) (ap_opt a) (dk_file dk path) batch_size test_set (mc_junk M) tt (mc_seed M)) (fun out =>
  FDone (out, dk)))).

(** samples/iris/main.cpp:23-44, and then the above *)
Definition main (argv : list string) (dk : disk) : fate (list line * disk) :=
  fbind (arg argv 1) (fun mode =>
  fbind (arg argv 2) (fun root =>
  fbind (arg_int argv 3) (fun batch_size =>
  if String.eqb mode "train" then
    fbind (arg_int argv 4) (fun num_epochs =>
    fbind (arg_int argv 5) (fun freq =>
    fbind (arg argv 6) (fun path => train_mode root batch_size num_epochs freq path dk)))
  else if String.eqb mode "test" then
    fbind (arg argv 4) (fun path => test_mode root batch_size path dk)
  else FThrow))).
End Main.
