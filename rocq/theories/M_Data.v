(** Model of the datasets of the sample programs: samples/iris/utility.cpp, samples/mnist/utility.cpp,
    samples/cifar10/utility.cpp, samples/cifar100/utility.cpp.

    Files and directories are outside: the text of a file, what a directory contains (in the order in which the
    file system lists it) and what the image libraries decode are arguments.  Static and global variables of the
    samples (maps from names to labels, a counter) are passed in and out.  Undefined behaviour is the outcome
    [UB] ([Bad]). *)
From Coq Require Import Reals String Ascii.
From Verif Require Import Base S_Tensor M_Tensor M_Image M_DataLoader.
Local Open Scope string_scope.
Open Scope nat_scope.
Local Open Scope list_scope.

(** ** Strings *)
(** [s.find(c, pos)] *)
Fixpoint find_char (c : ascii) (s : string) (pos : nat) : option nat :=
  match s with
  | EmptyString => None
  | String a t =>
      match pos with
      | S p => option_map S (find_char c t p)
      | O => if Ascii.eqb a c then Some 0 else option_map S (find_char c t 0)
      end
  end.
(** [s.substr(pos, len)]; throws when [pos] is behind the end *)
Definition substr (s : string) (pos len : nat) : res string :=
  if pos <=? String.length s then Ok (substring pos len s) else Throw.

(** samples/iris/utility.cpp:7-20.  [fuel] bounds the turns; there are at most as many as characters plus one. *)
Fixpoint split_loop (fuel : nat) (line : string) (start_pos : nat) (result : list string) : res (list string) :=
  match fuel with
  | O => UB
  | S fuel =>
      match find_char "," line start_pos with
      | Some find_pos =>
          f <- substr line start_pos (find_pos - start_pos) ;;
          split_loop fuel line (S find_pos) (result ++ [f])
      | None =>
          f <- substr line start_pos (String.length line) ;;
          Ok (result ++ [f])
      end
  end.
Definition SplitLineByComma (line : string) : res (list string) := split_loop (S (String.length line)) line 0 [].

(** [std::getline]: the next line and what follows it; [None] when nothing is left (the stream fails). *)
Fixpoint cut_line (s : string) : string * string :=
  match s with
  | EmptyString => (EmptyString, EmptyString)
  | String a t => if Ascii.eqb a "010" then (EmptyString, t) else let '(l, r) := cut_line t in (String a l, r)
  end.
Definition getline (s : string) : option (string * string) :=
  match s with EmptyString => None | _ => Some (cut_line s) end.

(** [std::unordered_map<std::string, int>] *)
Definition labels := list (string * Z).
Fixpoint lookup (m : labels) (name : string) : option Z :=
  match m with [] => None | (k, v) :: t => if String.eqb k name then Some v else lookup t name end.
(** [m[name]]: a name that is not there is inserted with value 0 *)
Definition label_at (m : labels) (name : string) : Z * labels :=
  match lookup m name with Some v => (v, m) | None => (0%Z, m ++ [(name, 0%Z)]) end.

(** ** Iris *)
(** samples/iris/utility.cpp:24-28, static *)
Definition m_iris2label : labels := [("setosa", 0%Z); ("versicolor", 1%Z); ("virginica", 2%Z)].
(** samples/iris/utility.hpp:10-16 *)
Record iris_info := mkIris { sepal_length : R; sepal_width : R; petal_length : R; petal_width : R; iris_label : Z }.

Section Iris.
(** [std::atof], rounded to float *)
Variable atof : string -> R.

(** samples/iris/utility.cpp:40-49, the body of the loop; [features[i]] is not checked. *)
Definition iris_row (line : string) (m : labels) : res (iris_info * labels) :=
  features <- SplitLineByComma line ;;
  f0 <- rd features 0 ;;
  f1 <- rd features 1 ;;
  f2 <- rd features 2 ;;
  f3 <- rd features 3 ;;
  f4 <- rd features 4 ;;
  let '(label, m) := label_at m f4 in
  Ok (mkIris (atof f0) (atof f1) (atof f2) (atof f3) label, m).
(** samples/iris/utility.cpp:39-50; [fuel] as above *)
Fixpoint iris_rows (fuel : nat) (text : string) (m : labels) (m_info : list iris_info) : res (list iris_info * labels) :=
  match fuel with
  | O => UB
  | S fuel =>
      match getline text with
      | None => Ok (m_info, m)
      | Some (line, text) =>
          '(i, m) <- iris_row line m ;;
          iris_rows fuel text m (m_info ++ [i])
      end
  end.
(** samples/iris/utility.cpp:30-51, the constructor.  [None]: the file cannot be opened, every read fails. *)
Definition iris_open (f : option string) (m : labels) : res (list iris_info * labels) :=
  let text := match f with Some t => t | None => "" end in
  let text := match getline text with Some (_, t) => t | None => "" end in
  iris_rows (S (String.length text)) text m [].

(** samples/iris/utility.cpp:61-68 *)
Definition iris_pull (m_info : list iris_info) (idx : Z) (X y : list R) : res (list R * list R) :=
  i <- rdz m_info idx ;;
  X <- wr X 0 (sepal_length i) ;;
  X <- wr X 1 (sepal_width i) ;;
  X <- wr X 2 (petal_length i) ;;
  X <- wr X 3 (petal_width i) ;;
  y <- wr y 0 (IZR (iris_label i)) ;;
  Ok (X, y).
(** samples/iris/utility.cpp:53-59 and the above.  The interface of M_DataLoader has no undefined behaviour: it
    appears here as an exception. *)
Definition iris_dataset (m_info : list iris_info) : dataset R unit :=
  mkDs (Z.of_nat (length m_info)) ([4%Z], [1%Z])
    (fun d idx X y => match iris_pull m_info idx X y with Ok (X, y) => (d, (X, y), true) | _ => (d, (X, y), false) end).
End Iris.

(** ** Directories of images *)
(** mnist/utility.hpp:9-12 and the same in the CIFAR samples: path and label *)
Definition data_info := (string * Z)%type.
(** The entries of a directory: path and file name.  [None]: it cannot be listed. *)
Definition listing := string -> option (list (string * string)).

(** [std::stoi]: white space, a sign, digits; throws without digits and outside the range of int. *)
Definition is_space (a : ascii) : bool := let n := nat_of_ascii a in (n =? 32) || ((9 <=? n) && (n <=? 13)).
Definition digit (a : ascii) : option Z :=
  let n := nat_of_ascii a in if (48 <=? n) && (n <=? 57) then Some (Z.of_nat (n - 48)) else None.
Fixpoint digits (s : string) (v : Z) : Z :=
  match s with
  | EmptyString => v
  | String a t => match digit a with Some d => digits t (10 * v + d)%Z | None => v end
  end.
Definition number (s : string) : option Z :=
  match s with
  | EmptyString => None
  | String a _ => match digit a with Some _ => Some (digits s 0) | None => None end
  end.
Fixpoint stoi (s : string) : res Z :=
  match s with
  | EmptyString => Throw
  | String a t =>
      if is_space a then stoi t else
      match (if Ascii.eqb a "-" then option_map Z.opp (number t) else if Ascii.eqb a "+" then number t else number s) with
      | Some v => if fits_int v then Ok v else Throw
      | None => Throw
      end
  end.

Section Open.
Context {S : Type}.
Variable ls : listing.
(** The label of a directory with this name; [S] is what the sample keeps in static variables. *)
Variable label : string -> S -> res (Z * S).

(** The loop over the directories, common to the three constructors. *)
Fixpoint open_dirs (dirs : list (string * string)) (s : S) (m_info : list data_info) : res (list data_info * S) :=
  match dirs with
  | [] => Ok (m_info, s)
  | (path, filename) :: t =>
      '(label, s) <- label filename s ;;
      match ls path with
      | None => Throw
      | Some files => open_dirs t s (m_info ++ map (fun f => (fst f, label)) files)
      end
  end.
Definition open_root (root : string) (s : S) : res (list data_info * S) :=
  match ls root with None => Throw | Some dirs => open_dirs dirs s [] end.
End Open.

(** samples/mnist/utility.cpp:14-21 *)
Definition mnist_open (ls : listing) (root : string) : res (list data_info) :=
  '(i, _) <- open_root ls (fun name s => l <- stoi name ;; Ok (l, s)) root tt ;; Ok i.

(** samples/cifar10/utility.cpp:9-20, global *)
Definition label2digit : labels :=
  [("airplane", 0%Z); ("automobile", 1%Z); ("bird", 2%Z); ("cat", 3%Z); ("deer", 4%Z); ("dog", 5%Z); ("frog", 6%Z); ("horse", 7%Z);
   ("ship", 8%Z); ("truck", 9%Z)].
(** samples/cifar10/utility.cpp:27-34 *)
Definition cifar10_open (ls : listing) (root : string) (m : labels) : res (list data_info * labels) :=
  open_root ls (fun name m => Ok (label_at m name)) root m.

(** samples/cifar100/utility.cpp:9-10, static: the counter and the map *)
Definition counted_labels := (Z * labels)%type.
Definition dir2label0 : counted_labels := (0%Z, []).
(** samples/cifar100/utility.cpp:19-31; the counter is an int *)
Definition cifar100_label (name : string) (s : counted_labels) : res (Z * counted_labels) :=
  '(label, s) <-
    match lookup (snd s) name with
    | Some v => Ok (v, s)
    | None => if fits_int (fst s + 1) then Ok (fst s, ((fst s + 1)%Z, snd s ++ [(name, fst s)])) else UB
    end ;;
  if (label =? -1)%Z then Throw else Ok (label, s).
(** samples/cifar100/utility.cpp:17-37 *)
Definition cifar100_open (ls : listing) (root : string) (s : counted_labels) : res (list data_info * counted_labels) :=
  open_root ls cifar100_label root s.

(** ** Images *)
(** samples/mnist/utility.cpp:9-12 and the same in the CIFAR samples *)
Definition normalize (l : list R) (scale : R) : list R := map (fun e => (e / scale)%R) l.

(** samples/cifar10/utility.cpp:63-82, the loop; [source] is the copy [m_image], [total] the number of elements. *)
Fixpoint hwc_loop (fuel total channel_stride : nat) (source target : list R) (source_index target_index : nat) : res (list R) :=
  match fuel with
  | O => UB
  | S fuel =>
      if source_index <? total then
        r <- rd source source_index ;; target <- wr target target_index r ;;
        g <- rd source (source_index + 1) ;; target <- wr target (target_index + channel_stride) g ;;
        b <- rd source (source_index + 2) ;; target <- wr target (target_index + 2 * channel_stride) b ;;
        hwc_loop fuel total channel_stride source target (source_index + 3) (target_index + 1)
      else Ok target
  end.
(** samples/cifar10/utility.cpp:52-82 (cifar100/utility.cpp:55-85 is the same).  [m_image] is reallocated when
    the shape differs, and then holds a copy of the image. *)
Definition HWC2CHW (image : list R) : res (list R) :=
  hwc_loop (S (length image)) (length image) (32 * 32) image image 0 0.

Section Images.
(** What libpng and libjpeg make of a file. *)
Variables (png jpeg : string -> decoded).

(** A tensor of shape [s] on memory that belongs to the loader (dataloader.cpp:70-71), in the heap of M_Tensor. *)
Definition slice_heap (s : shape) (l : list R) : heap R :=
  mkHeap [0] [mkDesc (calculateStrides s) s None (Some (0, 0)) (prodZ s)] [Some l].
(** [dw::io::ReadImage(path, X)] for such a tensor *)
Definition read_slice (path : string) (s : shape) (l : list R) : st (list R) :=
  match read_image IZR png jpeg path true (fun _ => 0%R) 0 (slice_heap s l) with
  | Ret h => match contents h 0 with Ok l => Ret l | _ => Bad end
  | Exc h => match contents h 0 with Ok l => Exc l | _ => Bad end
  | Bad => Bad
  end.

(** samples/mnist/utility.cpp:31-36, samples/cifar10/utility.cpp:44-50, samples/cifar100/utility.cpp:47-53; [chw]:
    with [HWC2CHW].  [m_info[idx]] is not checked. *)
Definition image_pull (chw : bool) (s : shape) (m_info : list data_info) (idx : Z) (X y : list R) : st (list R * list R) :=
  match rdz m_info idx with
  | Ok (path, label) =>
      match read_slice path s X with
      | Ret X =>
          match (if chw then HWC2CHW X else Ok X) with
          | Ok X => match wr y 0 (IZR label) with Ok y => Ret (normalize X 255, y) | _ => Bad end
          | _ => Bad
          end
      | Exc X => Exc (X, y)
      | Bad => Bad
      end
  | _ => Bad
  end.
Definition image_dataset (chw : bool) (s : shape) (m_info : list data_info) : dataset R unit :=
  mkDs (Z.of_nat (length m_info)) (s, [1%Z])
    (fun d idx X y => match image_pull chw s m_info idx X y with
                      | Ret (X, y) => (d, (X, y), true)
                      | Exc (X, y) => (d, (X, y), false)
                      | Bad => (d, (X, y), false)
                      end).
(** samples/mnist/utility.cpp:23-36 *)
Definition mnist_dataset := image_dataset false [(28 * 28)%Z].
(** samples/cifar10/utility.cpp:36-50, samples/cifar100/utility.cpp:39-53 *)
Definition cifar_dataset := image_dataset true [3%Z; 32%Z; 32%Z].
End Images.
