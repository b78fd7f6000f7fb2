(** Model of src/dataloader.cpp and include/deepworks/dataloader.hpp.

    The dataset is arbitrary code: [ds_pull] is called with the current contents of the two slices and
    answers with their new contents, its own new state and whether it threw (possibly after having written
    something).  [size()] and [shape()] always answer the same.  The random generator is arbitrary code that
    answers a draw from the closed range it is asked for.  The iteration order of the hash set is given by
    [ord].  [junk] is the indeterminate content of newly allocated memory.

    A tensor passed by the caller is its shape and its elements; [X] and [y] do not share storage, and the
    dataset does not reallocate or reshape the slices it is given.  The loop that collects distinct random
    numbers need not end: [fuel] bounds its iterations, running out of fuel is the outcome [PRun]. *)
From Verif Require Import Base S_Tensor M_Tensor.

Section Loader.
Context {V D G : Type}.

Record tv := mkTv { v_shape : shape; v_data : list V }.
Record dataset := mkDs {
  ds_size  : Z;                      (* size_t *)
  ds_shape : shape * shape;
  ds_pull  : D -> Z -> list V -> list V -> D * (list V * list V) * bool   (* true: returned, false: threw *)
}.
(** [dist(gen)] for [std::uniform_int_distribution<>(0, ub)]. *)
Variable next : G -> Z -> Z * G.
(** The order in which [std::unordered_set] is iterated, given the order of insertion. *)
Variable ord : list Z -> list Z.

(** The members of DataLoader that change, with the states of the dataset and of the generator. *)
Record loader := mkLd { l_pos : Z; l_ds : D; l_gen : G }.

(** dataloader.cpp:9-14 *)
Definition makeShape (batch_size : Z) (s : shape) : shape := batch_size :: s.

(** dataloader.cpp:21-23; [unique.size() != num] compares as [size_t]. *)
Fixpoint rand_loop (fuel : nat) (uniq : list Z) (num ub : Z) (g : G) : option (list Z * G) :=
  if (Z.of_nat (length uniq) =? num mod size_mod)%Z then Some (uniq, g) else
  match fuel with
  | O => None
  | S f => let '(v, g') := next g ub in
           rand_loop f (if in_dec Z.eq_dec v uniq then uniq else uniq ++ [v]) num ub g'
  end.

(** dataloader.cpp:28-32 *)
Definition seqIndices (num start : Z) : list Z := map (fun i => (start + Z.of_nat i)%Z) (seq 0 (Z.to_nat num)).

(** tensor.cpp:89-95 on the caller's tensor when memory suffices: [init], then a new block. *)
Definition tv_allocate (s : shape) (junk : nat -> V) : res tv :=
  _ <- dw_assert (negb (have_negative_dim s)) ;;
  t <- int_prod s ;;
  Ok (mkTv s (tab (Z.to_nat t) junk)).

(** tensor.cpp:113-115 *)
Definition tv_empty (t : tv) : bool := length (v_data t) =? 0.

(** The elements behind [Tensor(shape, X.data() + off)] (tensor.cpp:61-77). *)
Definition tv_slice (s : shape) (d : list V) (off : Z) : res (list V) :=
  _ <- dw_assert (negb (have_negative_dim s)) ;;
  t <- int_prod s ;;
  if ((0 <=? off) && (off + t <=? Z.of_nat (length d)))%Z
  then Ok (firstn (Z.to_nat t) (skipn (Z.to_nat off) d)) else UB.

Inductive pres :=
| PRet (b : bool) (l : loader) (X y : tv)
| PExc (l : loader) (X y : tv)
| PBad
| PRun.

(** dataloader.cpp:69-73, the loop over [is], the remaining values of [i], paired with [indices[i]]. *)
Fixpoint fill_batch (ds : dataset) (xs ys : Z) (idx : list (nat * Z)) (l : loader) (X y : tv) (k : loader -> tv -> tv -> pres) : pres :=
  match idx with
  | [] => k l X y
  | (i, j) :: t =>
      match tv_slice (fst (ds_shape ds)) (v_data X) (Z.of_nat i * xs) with
      | Throw => PExc l X y | UB => PBad
      | Ok sx =>
          match tv_slice (snd (ds_shape ds)) (v_data y) (Z.of_nat i * ys) with
          | Throw => PExc l X y | UB => PBad
          | Ok sy =>
              let '(d', (sx', sy'), ok) := ds_pull ds (l_ds l) j sx sy in
              let l' := mkLd (l_pos l) d' (l_gen l) in
              let X' := mkTv (v_shape X) (splice (v_data X) (Z.to_nat (Z.of_nat i * xs)) sx') in
              let y' := mkTv (v_shape y) (splice (v_data y) (Z.to_nat (Z.of_nat i * ys)) sy') in
              if ok then fill_batch ds xs ys t l' X' y' k else PExc l' X' y'
          end
      end
  end.

(** dataloader.cpp:42-81, [pull] and [reset].  [m_pos + m_batch_size] is an [int], compared as [size_t]. *)
Definition pull (fuel : nat) (ds : dataset) (bs : Z) (shuffle : bool) (l : loader) (X y : tv) (jx jy : nat -> V) : pres :=
  let X_shape := makeShape bs (fst (ds_shape ds)) in
  let y_shape := makeShape bs (snd (ds_shape ds)) in
  match (if tv_empty X then tv_allocate X_shape jx else Ok X) with
  | Throw => PExc l X y | UB => PBad
  | Ok X =>
  match (if tv_empty y then tv_allocate y_shape jy else Ok y) with
  | Throw => PExc l X y | UB => PBad
  | Ok y =>
  if negb (shape_eqb (v_shape X) X_shape) then PExc l X y else
  if negb (shape_eqb (v_shape y) y_shape) then PExc l X y else
  if negb (fits_int (l_pos l + bs)) then PBad else
  if ((l_pos l + bs) mod size_mod >? ds_size ds)%Z then PRet false (mkLd 0 (l_ds l) (l_gen l)) X y else
  match calculateStrides (v_shape X), calculateStrides (v_shape y) with
  | xs :: _, ys :: _ =>
    let go (indices : list Z) (l : loader) :=
      if (length indices <? Z.to_nat bs) then PBad else
      fill_batch ds xs ys (combine (seq 0 (Z.to_nat bs)) indices) l X y
        (fun l X y => PRet true (mkLd (l_pos l + bs) (l_ds l) (l_gen l)) X y) in
    if shuffle then
      (* dataloader.cpp:16-26; the bound is converted to [int]; an empty range is not allowed *)
      if ((ds_size ds - 1 <? 0) || (int_max <? ds_size ds - 1))%Z then PBad else
      match rand_loop fuel [] bs (ds_size ds - 1) (l_gen l) with
      | None => PRun
      | Some (uniq, g') => go (ord uniq) (mkLd (l_pos l) (l_ds l) g')
      end
    else go (seqIndices bs (l_pos l)) l
  | _, _ => PBad
  end end end.

End Loader.
Arguments tv : clear implicits.
Arguments dataset : clear implicits.
Arguments loader : clear implicits.
Arguments pres : clear implicits.
