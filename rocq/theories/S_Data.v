(** Vocabulary for statements about the datasets of the samples: files of comma separated values, directories of
    pictures, and which class a name stands for. *)
From Coq Require Import Reals String Ascii.
From Verif Require Import Base S_Tensor M_Tensor M_Image S_Image M_DataLoader S_DataLoader M_Layers M_Optim M_Loss M_Nn M_Graph M_Model M_Backend M_Train M_Sample
  S_Grad S_Loss S_Graph S_Run S_Fit S_Train S_Plain S_Desc S_Eval S_Build S_Sample M_Data.
Local Open Scope string_scope.
Open Scope nat_scope.
Local Open Scope list_scope.

(** ** Text *)
Definition without (c : ascii) (s : string) : Prop := ~ In c (list_ascii_of_string s).
Definition newline : string := String "010" "".
(** A field: a text without commas and line ends. *)
Definition field (s : string) : Prop := without "," s /\ without "010" s.
(** A row of the iris table: four numbers, the name, and perhaps more. *)
Definition good_row (r : list string) : Prop := 5 <= length r /\ Forall field r.
(** The text of a table: one line for the header, one for every row; after the last line there may be a line
    end or not. *)
Definition csv (header : string) (rows : list (list string)) (final : bool) : string :=
  (String.concat newline (header :: map (String.concat ",") rows) ++ (if final then newline else ""))%string.

(** ** Classes *)
Definition species : list string := ["setosa"; "versicolor"; "virginica"].
Definition cifar10_classes : list string :=
  ["airplane"; "automobile"; "bird"; "cat"; "deer"; "dog"; "frog"; "horse"; "ship"; "truck"].
Definition digit_names : list string := ["0"; "1"; "2"; "3"; "4"; "5"; "6"; "7"; "8"; "9"].

(** No number is read from such a name. *)
Definition no_number (name : string) : Prop :=
  match name with "" => True | String a _ => ~ In a (list_ascii_of_string "0123456789+- ") /\ ~ 9 <= nat_of_ascii a <= 13 end.

(** The class of a name: its place in the list; 0 for a name that is not in the list. *)
Definition class_of (names : list string) (name : string) (k : nat) : Prop :=
  nth_error names k = Some name \/ (~ In name names /\ k = 0).
(** A map of the samples that gives every name its class. *)
Definition classifies (names : list string) (m : labels) : Prop :=
  forall name, exists k, fst (label_at m name) = Z.of_nat k /\ class_of names name k.

(** ** The sample in row [j] of a table: the first four fields; the class. *)
Definition row_item (atof : string -> R) (rows : list (list string)) (class : Z -> nat) (j : Z) : list R * list R :=
  (map atof (firstn 4 (nth (Z.to_nat j) rows [])), [INR (class j)]).

(** ** Directories *)
Record folder := mkFolder { d_path : string; d_name : string; d_files : list (string * string) }.
(** [root] contains these folders, and they contain these files. *)
Definition holds_folders (ls : listing) (root : string) (dirs : list folder) : Prop :=
  ls root = Some (map (fun d => (d_path d, d_name d)) dirs) /\ Forall (fun d => ls (d_path d) = Some (d_files d)) dirs.
(** Every file with the name of its folder. *)
Definition pictures (dirs : list folder) : list (string * string) :=
  flat_map (fun d => map (fun f => (fst f, d_name d)) (d_files d)) dirs.

(** The decoder for the extension of the file delivers [i]. *)
Definition decodes (png jpeg : string -> decoded) (path : string) (i : image) : Prop :=
  (has_extension path "png" /\ png path = Image i) \/
  ((has_extension path "jpg" \/ has_extension path "jpeg") /\ jpeg path = Image i).

(** Grey values row by row, divided by 255. *)
Definition grey (i : image) (l : list R) : Prop := exists v, holds_image IZR i v /\ l = map (fun e => (e / 255)%R) v.
(** Three planes of [h] x [w], one for every channel, divided by 255. *)
Definition planes (h w : nat) (i : image) (l : list R) : Prop :=
  length l = 3 * (h * w) /\
  forall y x c, y < h -> x < w -> c < 3 ->
    exists v, S_Image.sample i y x c = Some v /\ nth_error l (c * (h * w) + (y * w + x)) = Some (IZR v / 255)%R.

(** Sample [j] is file [j]: its data is the picture ([shows]), its label the class of the folder. *)
Definition delivers (png jpeg : string -> decoded) (shows : image -> list R -> Prop) (class : string -> nat -> Prop)
    (dirs : list folder) (item : Z -> list R * list R) (label : Z -> nat) : Prop :=
  forall j path name, nth_error (pictures dirs) j = Some (path, name) ->
    class name (label (Z.of_nat j)) /\ exists i, decodes png jpeg path i /\ shows i (fst (item (Z.of_nat j))).

(** All files are pictures that can be decoded, of a size that meets [P]. *)
Definition all_decode (png jpeg : string -> decoded) (P : image -> Prop) (dirs : list folder) : Prop :=
  forall path name, In (path, name) (pictures dirs) -> exists i, decodes png jpeg path i /\ decoded_well i /\ P i.
Definition colour (i : image) : Prop := i_h i = 32%Z /\ i_w i = 32%Z /\ i_c i = 3%Z.

(** ** A sample program with these two datasets: it trains and prints as S_Sample says, whatever the other
    arguments and the outside. *)
Definition trains_on (p : sample_program) (n : nat) (train_set : dataset R unit) (item1 : Z -> list R * list R)
    (test_set : dataset R unit) (item2 : Z -> list R * list R) (label2 : Z -> nat) : Prop :=
  forall (G : Type) (next : G -> Z -> Z * G) (iter_order : list Z -> list Z) (fuel turns : nat) (world : nat -> outside)
         (order : graph -> list gnode) (I : nat -> ienv) (num_epochs freq : Z) (junk : nat -> R) (g : G),
  let c := sp_classes p in let rest := sp_rest p in let t := sp_table p n in
  0 < n -> (sp_room p * Z.of_nat n <= int_max)%Z -> sorts order ->
  in_range next -> (forall l, Permutation (iter_order l) l) -> enough next fuel n (ds_size train_set) ->
  full train_set n < turns -> full test_set n < turns -> freq <> 0%Z ->
  (forall k d, fair (o_fwd (world k) d)) -> (forall k, is_argmax (e_amax (o_acc (world k)))) ->
  exists es' m infos s s' out,
    train_main next iter_order fuel turns world order (sp_net p I) (sp_opt p) (Z.of_nat n) num_epochs freq train_set test_set junk tt tt g =
      FDone ((out ++ [Saved])%list, es', m, infos) /\
    constructed (expression I (n :: rest) t) [0] [length t] m /\ at_start I n c rest t m (es_info es') (sp_opt p) s /\
    training_run m n c rest train_set item1 test_set item2 label2 freq (Z.to_nat num_epochs) 0 s s' out /\ infos = ts_info (l_ts s').
