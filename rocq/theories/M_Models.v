(** Model of a program that uses several models: they may have layers in common (the descriptions of
    model.cpp:66-82 are shared by handle), and each has its own backend (model.cpp:236-238) and its own
    optimizer (optimizer.hpp:9-63). *)
From Coq Require Import Reals String.
From Verif Require Import Base Sums M_Layers M_Optim M_Nn M_Graph M_Model M_Backend M_Train.
Open Scope nat_scope.

(** What a call of [tact] hands back besides its effects: the output tensors of forward (model.cpp:254-258),
    the output gradients of backward (model.cpp:260-265); nothing for the others. *)
Definition handed (m : model) (c : tcall) (s : tstate) : list ten :=
  match c with
  | TForward E ins outs =>
      match model_forward E m (ts_info s) (ts_backend s) ins outs with Ret (_, _, _, o) => o | _ => [] end
  | TBackward E ins outs gouts =>
      match model_backward E m (ts_info s) (ts_backend s) ins outs gouts with Ret (_, _, g) => g | _ => [] end
  | _ => []
  end.

(** A run of one model with all it hands back; it ends at the first exception. *)
Fixpoint trun (m : model) (cs : list tcall) (s : tstate) : st (tstate * list (list ten)) :=
  match cs with
  | [] => Ret (s, [])
  | c :: t =>
      match tact m c s with
      | Ret s' =>
          match trun m t s' with
          | Ret (s2, l) => Ret (s2, handed m c s :: l)
          | Exc (s2, l) => Exc (s2, handed m c s :: l)
          | Bad => Bad
          end
      | Exc s' => Exc (s', [])
      | Bad => Bad
      end
  end.

(** One of the models of a program, its backend (model.hpp, [m_backend]) and the optimizer made for it. *)
Record part := mkPart { pt_model : model; pt_backend : option backend; pt_opt : optimizer }.
(** The descriptions all layers of the program refer to, and the models. *)
Record program := mkProg { pg_info : list linfo; pg_parts : list part }.
Definition seen (P : program) (p : part) : tstate := mkTS (pg_info P) (pt_backend p) (pt_opt p).
Definition left_by (P : program) (i : nat) (p : part) (s : tstate) : program :=
  mkProg (ts_info s) (upd (pg_parts P) i (mkPart (pt_model p) (ts_backend s) (ts_opt s))).

(** A call on model number [i] of the program. *)
Definition pact (i : nat) (c : tcall) (P : program) : st (program * list ten) :=
  match nth_error (pg_parts P) i with
  | None => Bad
  | Some p =>
      match tact (pt_model p) c (seen P p) with
      | Ret s => Ret (left_by P i p s, handed (pt_model p) c (seen P p))
      | Exc s => Exc (left_by P i p s, [])
      | Bad => Bad
      end
  end.

(** Calls on the models in any order, with what each hands back; a run ends at the first exception. *)
Fixpoint prun (cs : list (nat * tcall)) (P : program) : st (program * list (nat * list ten)) :=
  match cs with
  | [] => Ret (P, [])
  | (i, c) :: t =>
      match pact i c P with
      | Ret (P1, h) =>
          match prun t P1 with
          | Ret (P2, l) => Ret (P2, (i, h) :: l)
          | Exc (P2, l) => Exc (P2, (i, h) :: l)
          | Bad => Bad
          end
      | Exc (P1, _) => Exc (P1, [])
      | Bad => Bad
      end
  end.
