(** Specification for C62: how a file in the DOT language is read (the part of the language in question, after
    the grammar and the lexical rules at graphviz.org/doc/info/lang.html), and what the drawing of a model is. *)
From Coq Require Import String Ascii.
From Verif Require Import Base M_Nn M_Graph M_Model M_Dot S_Graph.
Local Open Scope string_scope.
Open Scope nat_scope.

(** ** Words *)
Inductive token := Word (w : string) | Quoted (s : string) | LBrace | RBrace | LBrack | RBrack | Equals | Comma | Semi | Arrow.

Definition code (c : ascii) : nat := nat_of_ascii c.
Definition digit (c : ascii) : bool := (48 <=? code c) && (code c <=? 57).
(** Letters, underscores and the characters above 127. *)
Definition letter (c : ascii) : bool :=
  (65 <=? code c) && (code c <=? 90) || (97 <=? code c) && (code c <=? 122) || (code c =? 95) || (128 <=? code c).
Definition blank (c : ascii) : bool := (code c =? 32) || (code c =? 9) || (code c =? 10) || (code c =? 13).

(** Where the reader is: between words, in a word, in a quoted string, after a minus sign. *)
Inductive place := Between | InWord (w : string) | InQuoted (s : string) | InArrow.
Definition snoc (s : string) (c : ascii) : string := s ++ String c "".

Definition is (c : ascii) (s : string) : bool := String.eqb (String c "") s.
(** A character between words: the token it is, if any, and where the reader is then.  Everything else
    (numerals, comments, HTML, ports) is not read. *)
Definition start (c : ascii) : option (list token * place) :=
  if blank c then Some ([], Between) else
  if letter c then Some ([], InWord (String c "")) else
  if is c """" then Some ([], InQuoted "") else
  if is c "-" then Some ([], InArrow) else
  if is c "{" then Some ([LBrace], Between) else
  if is c "}" then Some ([RBrace], Between) else
  if is c "[" then Some ([LBrack], Between) else
  if is c "]" then Some ([RBrack], Between) else
  if is c "=" then Some ([Equals], Between) else
  if is c "," then Some ([Comma], Between) else
  if is c ";" then Some ([Semi], Between) else None.
Definition step (p : place) (c : ascii) : option (list token * place) :=
  match p with
  | Between => start c
  | InWord w => if letter c || digit c then Some ([], InWord (snoc w c)) else
                match start c with Some (ts, p) => Some ((Word w :: ts)%list, p) | None => None end
  | InQuoted s => if is c """" then Some ([Quoted s], Between) else
                  if is c "\" then None else Some ([], InQuoted (snoc s c))
  | InArrow => if is c ">" then Some ([Arrow], Between) else None
  end.
Fixpoint tokens (p : place) (s : string) : option (list token) :=
  match s with
  | EmptyString => match p with Between => Some [] | InWord w => Some [Word w] | _ => None end
  | String c t =>
      match step p c with
      | Some (ts, p) => match tokens p t with Some r => Some (ts ++ r)%list | None => None end
      | None => None
      end
  end.

(** ** Statements *)
Inductive stmt :=
| SSet (name value : string)                                            (* name = value *)
| SNode (name : string) (attrs : list (string * string))
| SEdge (src dst : string) (attrs : list (string * string)).

(** Reserved whatever the case of the letters. *)
Definition keyword (w : string) : bool :=
  existsb (String.eqb (lower w)) ["node"; "edge"; "graph"; "digraph"; "subgraph"; "strict"].
(** A name: a word that is not reserved, or a quoted string. *)
Definition name_of (t : token) : option string :=
  match t with Word w => if keyword w then None else Some w | Quoted s => Some s | _ => None end.

(** After an opening bracket: the attributes, and what follows the closing bracket. *)
Fixpoint attrs_from (ts : list token) : option (list (string * string) * list token) :=
  match ts with
  | RBrack :: r => Some ([], r)
  | a :: Equals :: b :: r =>
      match name_of a, name_of b, match r with Comma :: r' => attrs_from r' | Semi :: r' => attrs_from r' | _ => attrs_from r end with
      | Some a, Some b, Some (l, r) => Some ((a, b) :: l, r)
      | _, _, _ => None
      end
  | _ => None
  end.
Definition attrs_opt (ts : list token) : option (list (string * string) * list token) :=
  match ts with LBrack :: r => attrs_from r | _ => Some ([], ts) end.

Definition cons_opt {A} (a : A) (l : option (list A)) : option (list A) := match l with Some l => Some (a :: l) | None => None end.
(** The statements up to the closing brace, which ends the file.  A semicolon after a statement may be left out.
    [n]: at most so many tokens. *)
Fixpoint stmts (n : nat) (ts : list token) : option (list stmt) :=
  match n with
  | O => None
  | S n =>
      match ts with
      | [RBrace] => Some []
      | Semi :: r => stmts n r
      | a :: Arrow :: b :: r =>
          match name_of a, name_of b, attrs_opt r with
          | Some a, Some b, Some (l, r) => cons_opt (SEdge a b l) (stmts n r)
          | _, _, _ => None
          end
      | a :: Equals :: b :: r =>
          match name_of a, name_of b with
          | Some a, Some b => cons_opt (SSet a b) (stmts n r)
          | _, _ => None
          end
      | a :: r =>
          match name_of a, attrs_opt r with
          | Some a, Some (l, r) => cons_opt (SNode a l) (stmts n r)
          | _, _ => None
          end
      | [] => None
      end
  end.

(** A file with a directed graph: its name and its statements. *)
Definition read_dot (text : string) : option (string * list stmt) :=
  match tokens Between text with
  | Some (Word d :: g :: LBrace :: r) =>
      if String.eqb (lower d) "digraph" then
        match name_of g, stmts (length r) r with Some g, Some l => Some (g, l) | _, _ => None end
      else None
  | _ => None
  end.

(** ** Drawings *)
Definition nodes_of (l : list stmt) : list (string * list (string * string)) :=
  flat_map (fun s => match s with SNode n a => [(n, a)] | _ => [] end) l.
Definition edges_of (l : list stmt) : list (string * string * list (string * string)) :=
  flat_map (fun s => match s with SEdge a b l => [(a, b, l)] | _ => [] end) l.

(** A shape and a list of numbers as they are printed. *)
Definition shape_text (s : shape) : string :=
  match s with [] => "{ }" | _ => "{" ++ String.concat ", " (map int_string s) ++ "}" end.
Definition numbers_text (l : list string) : string :=
  match l with [] => "[ ]" | _ => "[" ++ String.concat ", " l ++ "]" end.

Definition ph_name (id : Z) : string := "Placeholder_" ++ int_string id.
Definition ph_node (id : Z) (s : shape) : string * list (string * string) :=
  (ph_name id, [("label", ph_name id ++ endl ++ shape_text s)]).
Definition op_node (name type : string) : string * list (string * string) :=
  (name, [("shape", "box"); ("label", name ++ " (" ++ type ++ ")")]).
Definition in_edge (id : Z) (name : string) (port : nat) : string * string * list (string * string) :=
  (ph_name id, name, [("label", "in_port: " ++ int_string (Z.of_nat port))]).
Definition out_edge (name : string) (id : Z) (port : nat) : string * string * list (string * string) :=
  (name, ph_name id, [("label", "out_port: " ++ int_string (Z.of_nat port))]).

(** A word of letters, underscores and digits that does not start with a digit and is not reserved. *)
Fixpoint all_chars (f : ascii -> bool) (s : string) : bool :=
  match s with EmptyString => true | String c t => f c && all_chars f t end.
Definition identifier (s : string) : bool :=
  match s with
  | EmptyString => false
  | String c _ => letter c && all_chars (fun c => letter c || digit c) s && negb (keyword s)
  end.
(** A text that can stand between quotes. *)
Definition quotable (s : string) : bool := all_chars (fun c => negb (is c """") && negb (is c "\")) s.
(** A printed number: no comma, no blank. *)
Definition clean (s : string) : Prop := all_chars (fun c => negb (is c ",") && negb (is c " ")) s = true.
(** A name a layer can have in a drawing: no placeholder is called so. *)
Definition drawable (s : string) : Prop := identifier s = true /\ forall id, s <> ph_name id.

(** The statements for a configuration: the placeholders in the order of the hash map, the operations, the
    connections of each operation. *)
Definition recorded_as {F} (c : config F) (k : Z) : Z := match find_id (c_ph c) k with Some (_, id) => id | None => k end.
Definition describe {F} (c : config F) : list stmt :=
  (SSet "rankdir" "LR" ::
   map (fun '(_, (s, id)) => let '(n, a) := ph_node id s in SNode n a) (c_ph c) ++
   map (fun o => let '(n, a) := op_node (oi_name o) (oi_type o) in SNode n a) (c_ops c) ++
   flat_map (fun o =>
     map (fun '(port, k) => let '(x, y, a) := in_edge (recorded_as c k) (oi_name o) port in SEdge x y a) (indexed (oi_in o)) ++
     map (fun '(port, k) => let '(x, y, a) := out_edge (oi_name o) (recorded_as c k) port in SEdge x y a) (indexed (oi_out o))) (c_ops c))%list.
(** All placeholders the operations refer to are there. *)
Definition refers {F} (c : config F) : Prop :=
  forall o k, In o (c_ops c) -> In k (oi_in o ++ oi_out o)%list -> In k (map fst (c_ph c)).

(** [l] draws the part of an expression from which [outs] are computed: a node for every placeholder, with its
    shape; a box for every layer call, with the name and type of the layer; an arrow for every argument of every
    call; an arrow from every call to its result; nothing twice, and nothing else.  [num] numbers the
    placeholders. *)
Record draws (ps : list phnode) (infos : list linfo) (outs : list nat) (num : nat -> nat) (l : list stmt) : Prop := {
  dr_num : forall p q, needed ps outs p -> needed ps outs q -> num p = num q -> p = q;
  dr_nodes : forall x, In x (nodes_of l) <->
    (exists p n, needed ps outs p /\ nth_error ps p = Some n /\ x = ph_node (Z.of_nat (num p)) (ph_shape n)) \/
    (exists p s i args li, needed ps outs p /\ nth_error ps p = Some (mkPh s (Some (i, args))) /\ nth_error infos i = Some li /\
       x = op_node (li_name li) (li_type li));
  dr_once : NoDup (map fst (nodes_of l));
  dr_edges : forall x, In x (edges_of l) <->
    exists p s i args li, needed ps outs p /\ nth_error ps p = Some (mkPh s (Some (i, args))) /\ nth_error infos i = Some li /\
      (x = out_edge (li_name li) (Z.of_nat (num p)) 0 \/
       exists port a, nth_error args port = Some a /\ x = in_edge (Z.of_nat (num a)) (li_name li) port);
  dr_edges_once : NoDup (edges_of l) }.
