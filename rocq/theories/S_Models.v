(** Vocabulary for statements about several models in one program. *)
From Coq Require Import Reals String.
From Verif Require Import Base Sums M_Layers M_Optim M_Nn M_Graph M_Model M_Backend M_Train M_Models S_Grad S_Partial S_Graph S_Run S_Fit S_Primed S_Train S_Plain.
Open Scope nat_scope.

(** The model has a layer with description number [k]. *)
Definition uses (m : model) (k : nat) : Prop := exists op, In op (m_ops m) /\ mo_info op = k.
Definition no_common_layer (m1 m2 : model) : Prop := forall k, uses m1 k -> uses m2 k -> False.

(** Two collections of descriptions hold the same parameters and buffers at number [k]. *)
Definition numbers (infos : list linfo) (k : nat) : option (list (string * prm) * list (string * ten)) :=
  match nth_error infos k with Some li => Some (li_params li, li_bufs li) | None => None end.

(** The calls on model [i], and what they hand back. *)
Definition of_model {A} (i : nat) (l : list (nat * A)) : list A := map snd (filter (fun e => fst e =? i) l).

(** What the program has to be told about a model: the expression it was built from, whether it ran already. *)
Record plan := mkPlan { pl_es : estore; pl_ins : list nat; pl_outs : list nat; pl_ran : bool }.
(** The model of the plan is compiled, fit for use with the given descriptions, and so is its optimizer. *)
Definition ready (infos : list linfo) (pl : plan) (p : part) : Prop :=
  constructed (pl_es pl) (pl_ins pl) (pl_outs pl) (pt_model p) /\ closed (es_ph (pl_es pl)) (pl_ins pl) (pl_outs pl) /\
  exists b, pt_backend p = Some b /\ usable (pl_ran pl) (es_ph (pl_es pl)) (pl_outs pl) (pt_model p) infos b /\ opt_fits (pt_model p) infos (pt_opt p).
(** Each model is used by the rules of [S_Train.legal], in whatever order the calls on different models come. *)
Definition legal_for (plans : list plan) (cs : list (nat * tcall)) : Prop :=
  Forall (fun e => fst e < length plans) cs /\
  forall i pl, nth_error plans i = Some pl -> legal (es_ph (pl_es pl)) (pl_ins pl) (pl_outs pl) (pl_ran pl) (of_model i cs).
(** The plan after the calls [cs] on model [i]. *)
Definition moved_on (i : nat) (cs : list (nat * tcall)) (pl : plan) : plan :=
  mkPlan (pl_es pl) (pl_ins pl) (pl_outs pl) (ever_ran (pl_ran pl) (of_model i cs)).

(** Programs that write expressions as in [S_Plain.plain] and, in between, build models of them, compile
    each and make an optimizer for it.  Models may be over the same placeholders or parts of them. *)
Inductive assembled : estore -> list made -> list plan -> list part -> Prop :=
| as_start : assembled es0 [] [] []
| as_input es D pls pts sh : assembled es D pls pts -> proper sh -> assembled (fst (new_input (zs sh) es)) D pls pts
| as_layer es D pls pts I l name args shs osh es' p :
    assembled es D pls pts -> Forall2 (has_shape (es_ph es)) args shs -> meant_for l shs osh ->
    apply_op (class l) I (length (es_info es)) args (fst (new_op (object l name) es)) = RVal es' p ->
    assembled es' (D ++ [mkMade I l shs osh]) pls pts
| as_again es D pls pts I i x args es' p :
    assembled es D pls pts -> nth_error D i = Some x -> Forall2 (has_shape (es_ph es)) args (md_in x) ->
    apply_op (class (md_layer x)) I i args es = RVal es' p -> assembled es' D pls pts
| as_model es D pls pts order ins outs g es' m junk b o :
    assembled es D pls pts -> Forall (fun d => d < length (es_ph es)) outs -> build (es_ph es) ins outs = Ok g -> is_topo g (order g) ->
    construct_model order ins outs es = RVal es' m -> reached_well es D outs -> closed (es_ph es) ins outs ->
    model_compile (es_ph es) junk m (es_info es') None = Ret b ->
    (exists lr gamma b1 b2 eps t,
       o = SGD lr \/ o = new_momentum lr gamma (params_view m (es_info es')) \/ o = new_adam lr b1 b2 eps t (params_view m (es_info es'))) ->
    assembled es' D (pls ++ [mkPlan es ins outs false]) (pts ++ [mkPart m b o]).
