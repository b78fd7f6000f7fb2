(** Model of src/optimizer.cpp.

    A [ParamMap] is the list of its entries in the iteration order of the hash map; keys are distinct.
    Every parameter owns its data and gradient tensors.  An optimizer refers to the map of the model, so
    the map is an argument of [step] and part of its result.  Arithmetic is over the reals. *)
From Coq Require Import Reals Lra String.
From Verif Require Import Base Sums M_Im2col M_Kernels M_Conv M_Layers.
Open Scope R_scope.

Definition pmap := list (string * prm).
Definition tmap := list (string * ten).

(** [std::unordered_map::at], throwing when the key is missing, and assignment to an existing entry. *)
Fixpoint find_key {V} (m : list (string * V)) (k : string) : option V :=
  match m with
  | [] => None
  | (k', v) :: t => if String.eqb k' k then Some v else find_key t k
  end.
Definition at_key {V} (m : list (string * V)) (k : string) : res V :=
  match find_key m k with Some v => Ok v | None => Throw end.
Fixpoint set_key {V} (m : list (string * V)) (k : string) (v : V) : list (string * V) :=
  match m with
  | [] => []
  | (k', v') :: t => if String.eqb k' k then (k', v) :: t else (k', v') :: set_key t k v
  end.

(** src/runtime/tensor.cpp, Tensor::zeros *)
Definition zeros_like (s : list nat) : ten := mkT s (tab (prodN s) (fun _ => 0)).

Definition set_weight (p : prm) (d : list R) : prm := mkP (set_dat (p_data p) d) (p_grad p) (p_train p).

(** The range-based [for] over the map: [one key param state] gives the new entry and the new optimizer
    state; an exception leaves the entries processed so far changed. *)
Fixpoint each {S} (one : string -> prm -> S -> res (prm * S)) (ps : pmap) (s : S) : st (pmap * S) :=
  match ps with
  | [] => Ret ([], s)
  | (k, p) :: t =>
      match one k p s with
      | Ok (p', s') =>
          match each one t s' with
          | Ret (t', s'') => Ret ((k, p') :: t', s'')
          | Exc (t', s'') => Exc ((k, p') :: t', s'')
          | Bad => Bad
          end
      | Throw => Exc ((k, p) :: t, s)
      | UB => Bad
      end
  end.

(** optimizer.cpp:13, 15-31 *)
Definition sgd_one (lr : R) (k : string) (p : prm) (s : unit) : res (prm * unit) :=
  if p_train p then
    _ <- dw_assert (nshape_eqb (tsh (p_grad p)) (tsh (p_data p))) ;;
    let size := tot (p_grad p) in
    _ <- emap size (tdat (p_data p)) ;; _ <- emap size (tdat (p_grad p)) ;;
    Ok (set_weight p (put size (fun i => (tdat (p_data p)).[i] - lr * (tdat (p_grad p)).[i]) (tdat (p_data p))), tt)
  else Ok (p, tt).
Definition sgd_step (lr : R) (ps : pmap) : st (pmap * unit) := each (sgd_one lr) ps tt.

(** optimizer.cpp:41-45 *)
Definition momentum_new (ps : pmap) : tmap := map (fun '(k, p) => (k, zeros_like (tsh (p_data p)))) ps.

(** optimizer.cpp:47-66 *)
Definition momentum_one (lr gamma : R) (k : string) (p : prm) (vel : tmap) : res (prm * tmap) :=
  if p_train p then
    _ <- dw_assert (nshape_eqb (tsh (p_grad p)) (tsh (p_data p))) ;;
    let size := tot (p_grad p) in
    v <- at_key vel k ;;
    _ <- emap size (tdat v) ;; _ <- emap size (tdat (p_data p)) ;; _ <- emap size (tdat (p_grad p)) ;;
    let v' := put size (fun i => gamma * (tdat v).[i] + lr * (tdat (p_grad p)).[i]) (tdat v) in
    Ok (set_weight p (put size (fun i => (tdat (p_data p)).[i] - v'.[i]) (tdat (p_data p))),
        set_key vel k (set_dat v v'))
  else Ok (p, vel).
Definition momentum_step (lr gamma : R) (ps : pmap) (vel : tmap) : st (pmap * tmap) :=
  each (momentum_one lr gamma) ps vel.

(** optimizer.cpp:76-84 *)
Definition adam_new (ps : pmap) : tmap * tmap := (momentum_new ps, momentum_new ps).

(** optimizer.cpp:86-115; [t] is m_num_iterations after its increment (line 87).  [mean_hat] and
    [variance_hat] are lazy Eigen expressions over the updated moments (lines 109-112). *)
Definition adam_one (lr b1 b2 eps : R) (t : nat) (k : string) (p : prm) (s : tmap * tmap) : res (prm * (tmap * tmap)) :=
  if p_train p then
    _ <- dw_assert (nshape_eqb (tsh (p_grad p)) (tsh (p_data p))) ;;
    let size := tot (p_grad p) in
    mm <- at_key (fst s) k ;; vv <- at_key (snd s) k ;;
    _ <- emap size (tdat mm) ;; _ <- emap size (tdat vv) ;;
    _ <- emap size (tdat (p_data p)) ;; _ <- emap size (tdat (p_grad p)) ;;
    let g := tdat (p_grad p) in
    let m' := put size (fun i => b1 * (tdat mm).[i] + (1 - b1) * g.[i]) (tdat mm) in
    let v' := put size (fun i => b2 * (tdat vv).[i] + (1 - b2) * (g.[i] * g.[i])) (tdat vv) in
    let mean_hat := fun i => m'.[i] / (1 - b1 ^ t) in
    let variance_hat := fun i => v'.[i] / (1 - b2 ^ t) in
    Ok (set_weight p (put size (fun i => (tdat (p_data p)).[i] - lr * mean_hat i / (sqrt (variance_hat i) + eps)) (tdat (p_data p))),
        (set_key (fst s) k (set_dat mm m'), set_key (snd s) k (set_dat vv v')))
  else Ok (p, s).
(** Returns the new counter as well. *)
Definition adam_step (lr b1 b2 eps : R) (num_iterations : nat) (ps : pmap) (s : tmap * tmap) : nat * st (pmap * (tmap * tmap)) :=
  let t := S num_iterations in (t, each (adam_one lr b1 b2 eps t) ps s).
