(** Specification for C59: sizes at which a model can certainly be saved. *)
From Coq Require Import Reals String.
From Verif Require Import Base M_Layers M_Optim M_Nn M_Graph M_Model S_Graph S_Run S_Plain.
Open Scope nat_scope.

(** Numbers the program gives to a layer: each is an int. *)
Definition int_window (w : window) : Prop :=
  small (w_kh w) /\ small (w_kw w) /\ small (w_ph w) /\ small (w_pw w) /\ small (w_sh w) /\ small (w_sw w).
Definition int_layer (l : lspec) : Prop :=
  match l with
  | ALinear u => small u
  | AMaxPooling w => int_window w
  | AConvolution o w => small o /\ int_window w
  | _ => True
  end.

(** An expression whose names, shapes and lists of links have at most [room] bytes: four for every placeholder
    and 64 more; names 16 less; shapes; and the links of one layer (repeated as often as the outputs reach it). *)
Record sizes (room : Z) (es : estore) (D : list made) (outs : list nat) : Prop := {
  sz_room : (room < 2 ^ 31)%Z;
  sz_count : (4 * Z.of_nat (length (es_ph es)) + 64 <= room)%Z;
  sz_dims : Forall (fun p => 4 * Z.of_nat (length (ph_shape p)) <= room)%Z (es_ph es);
  sz_ints : Forall (fun x => int_layer (md_layer x)) D;
  sz_names : Forall (fun li => Z.of_nat (String.length (li_name li)) + 16 <= room)%Z (es_info es);
  sz_visits : forall d, needed (es_ph es) outs d -> (8 * Z.of_nat (visits (es_ph es) outs d) <= room)%Z }.
