(** Vocabulary for statements about the data loader: well-behaved datasets, callers and histories. *)
From Verif Require Import Base S_Tensor M_Tensor M_DataLoader.

Section Spec.
Context {V D G : Type}.
Variable next : G -> Z -> Z * G.
Variable ord : list Z -> list Z.

(** [item j] is sample [j]: its data and its label.  A call of the dataset either writes exactly that or
    throws, leaving anything in the slices; it may do so depending on its own state. *)
Definition dataset_ok (ds : dataset V D) (item : Z -> list V * list V) : Prop :=
  let nx := Z.to_nat (prodZ (fst (ds_shape ds))) in
  let ny := Z.to_nat (prodZ (snd (ds_shape ds))) in
  (0 <= ds_size ds)%Z /\ nonneg (fst (ds_shape ds)) /\ nonneg (snd (ds_shape ds)) /\
  forall d j sx sy, (0 <= j < ds_size ds)%Z -> length sx = nx -> length sy = ny ->
    let '(_, (sx', sy'), ok) := ds_pull ds d j sx sy in
    length sx' = nx /\ length sy' = ny /\ (ok = true -> (sx', sy') = item j).

(** Asked for one of its samples, with slices of its shapes, the dataset delivers. *)
Definition never_throws (ds : dataset V D) : Prop :=
  forall d j sx sy, (0 <= j < ds_size ds)%Z -> length sx = Z.to_nat (prodZ (fst (ds_shape ds))) -> length sy = Z.to_nat (prodZ (snd (ds_shape ds))) ->
    snd (ds_pull ds d j sx sy) = true.

(** The batch size is positive and nothing exceeds the range of [int]. *)
Definition config_ok (ds : dataset V D) (bs : Z) : Prop :=
  (1 <= bs)%Z /\ fits (bs :: fst (ds_shape ds)) /\ fits (bs :: snd (ds_shape ds)) /\ (ds_size ds + bs <= int_max)%Z.

(** A tensor of the caller: empty, or with as many elements as its shape says. *)
Definition tensor_ok (t : tv V) : Prop := v_data t = [] \/ Z.of_nat (length (v_data t)) = prodZ (v_shape t).
(** A tensor [pull] accepts. *)
Definition accepted (t : tv V) (bs : Z) (s : shape) : Prop := v_data t = [] \/ v_shape t = bs :: s.

(** The caller chooses the tensors of each call knowing the outcome of all earlier calls; an outcome is the
    value returned, or [None] for an exception, and the tensors afterwards. *)
Definition report := (option bool * tv V * tv V)%type.
Record request := mkReq { q_X : tv V; q_y : tv V; q_jx : nat -> V; q_jy : nat -> V }.

(** [n] calls of [pull]; [None] if there was undefined behaviour or a call that does not return within [fuel]. *)
Fixpoint pulls (fuel : nat) (ds : dataset V D) (bs : Z) (shuffle : bool) (l : loader D G) (caller : list report -> request) (n : nat)
    : option (list report * loader D G) :=
  match n with
  | O => Some ([], l)
  | S n =>
      match pulls fuel ds bs shuffle l caller n with
      | None => None
      | Some (rs, l) =>
          let q := caller rs in
          match pull next ord fuel ds bs shuffle l (q_X q) (q_y q) (q_jx q) (q_jy q) with
          | PRet b l' X y => Some (rs ++ [(Some b, X, y)], l')
          | PExc l' X y => Some (rs ++ [(None, X, y)], l')
          | PBad | PRun => None
          end
      end
  end.

(** A batch holding the samples [idx], one after the other. *)
Definition holds_batch (ds : dataset V D) (bs : Z) (item : Z -> list V * list V) (idx : list Z) (X y : tv V) : Prop :=
  v_shape X = bs :: fst (ds_shape ds) /\ v_data X = flat_map (fun j => fst (item j)) idx /\
  v_shape y = bs :: snd (ds_shape ds) /\ v_data y = flat_map (fun j => snd (item j)) idx.

(** The numbers [a, a+1, ..., a+n-1]. *)
Definition upfrom (a n : Z) : list Z := map (fun i => (a + Z.of_nat i)%Z) (seq 0 (Z.to_nat n)).

(** How many of the reported calls returned. *)
Definition returned (rs : list report) : nat := length (filter (fun r => match fst (fst r) with Some _ => true | None => false end) rs).

(** The first [m] numbers drawn from generator state [g]. *)
Fixpoint draws (m : nat) (ub : Z) (g : G) : list Z :=
  match m with O => [] | S m => let '(v, g') := next g ub in v :: draws m ub g' end.

End Spec.
Arguments report : clear implicits.
Arguments request : clear implicits.
