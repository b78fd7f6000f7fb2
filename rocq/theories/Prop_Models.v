(** Property C66: several models in one program. *)
From Coq Require Import Reals String Lia Lra List.
From Verif Require Import Base BaseFacts Sums M_Layers M_Kernels M_Optim M_Nn M_Graph M_Model M_Backend M_Train M_Models S_Grad S_Partial S_Graph S_Run S_Fit S_Primed S_Optim S_Train S_Plain S_Models
  P_Graph P_Graph2 P_Nn P_Model P_Model2 P_Run P_Plain P_Models P_Models2 P_Models3 P_Models4 P_Models5 Prop_Graph Prop_Run Prop_Bwd Prop_Plain.
Import ListNotations.
Local Open Scope string_scope.
Local Open Scope list_scope.
Open Scope nat_scope.

(** ** Models without common layers *)
(** Calls on several models come in any order.  If no two of the models have a layer in common, each model
    gives what it would give if its calls were the only ones of the program: the same tensors, and at the
    end the same backend, optimizer, parameters and buffers. *)
Theorem C66_separate_models_do_not_notice_each_other :
  forall (P : program) (cs : list (nat * tcall)) (P' : program) (log : list (nat * list ten)),
  (forall p, In p (pg_parts P) -> exists es ins outs, constructed es ins outs (pt_model p)) ->
  (forall i j p q, i <> j -> nth_error (pg_parts P) i = Some p -> nth_error (pg_parts P) j = Some q -> no_common_layer (pt_model p) (pt_model q)) ->
  prun cs P = Ret (P', log) ->
  forall i p, nth_error (pg_parts P) i = Some p ->
  exists s,
    trun (pt_model p) (of_model i cs) (seen P p) = Ret (s, of_model i log) /\
    nth_error (pg_parts P') i = Some (mkPart (pt_model p) (ts_backend s) (ts_opt s)) /\
    forall k, uses (pt_model p) k -> numbers (pg_info P') k = numbers (ts_info s) k.
Proof.
  intros P cs P' log CO SEP R i p Hp.
  destruct (prun_apart cs P P' log) with (i := i) (p := p) as (s & A & B & C); [|exact R|exact Hp|].
  - split; [|exact SEP]. intros j q Hq. destruct (CO q (nth_error_In _ _ Hq)) as (es & ins & outs & K). exact (constructed_own _ _ _ _ K).
  - exists s. split; [exact A|]. split; [exact B|]. intros k u. symmetry. exact (C k u).
Qed.
Print Assumptions C66_separate_models_do_not_notice_each_other.

(** The interleaved run returns exactly when each model's own run does. *)
Theorem C66_separate_models_return_together :
  forall (P : program) (cs : list (nat * tcall)),
  (forall p, In p (pg_parts P) -> exists es ins outs, constructed es ins outs (pt_model p)) ->
  (forall i j p q, i <> j -> nth_error (pg_parts P) i = Some p -> nth_error (pg_parts P) j = Some q -> no_common_layer (pt_model p) (pt_model q)) ->
  Forall (fun e => fst e < length (pg_parts P)) cs ->
  (exists P' log, prun cs P = Ret (P', log)) <->
  (forall i p, nth_error (pg_parts P) i = Some p -> exists s l, trun (pt_model p) (of_model i cs) (seen P p) = Ret (s, l)).
Proof.
  intros P cs CO SEP V.
  assert (SP : separate P).
  { split; [|exact SEP]. intros j q Hq. destruct (CO q (nth_error_In _ _ Hq)) as (es & ins & outs & K). exact (constructed_own _ _ _ _ K). }
  split.
  - intros (P' & log & R) i p Hp. destruct (prun_apart cs P P' log SP R i p Hp) as (s & A & _). eauto.
  - exact (prun_returns cs P SP V).
Qed.
Print Assumptions C66_separate_models_return_together.

(** When a call on model [j] throws, the other models are where their own calls have brought them. *)
Theorem C66_an_exception_stays_with_its_model :
  forall (P : program) (cs : list (nat * tcall)) (P' : program) (log : list (nat * list ten)),
  (forall p, In p (pg_parts P) -> exists es ins outs, constructed es ins outs (pt_model p)) ->
  (forall i j p q, i <> j -> nth_error (pg_parts P) i = Some p -> nth_error (pg_parts P) j = Some q -> no_common_layer (pt_model p) (pt_model q)) ->
  prun cs P = Exc (P', log) ->
  exists j c, nth_error cs (length log) = Some (j, c) /\
  forall i p, nth_error (pg_parts P) i = Some p -> i <> j ->
  exists s,
    trun (pt_model p) (of_model i (firstn (length log) cs)) (seen P p) = Ret (s, of_model i log) /\
    nth_error (pg_parts P') i = Some (mkPart (pt_model p) (ts_backend s) (ts_opt s)) /\
    forall k, uses (pt_model p) k -> numbers (pg_info P') k = numbers (ts_info s) k.
Proof.
  intros P cs P' log CO SEP R.
  assert (SP : separate P).
  { split; [|exact SEP]. intros j q Hq. destruct (CO q (nth_error_In _ _ Hq)) as (es & ins & outs & K). exact (constructed_own _ _ _ _ K). }
  destruct (prun_exc cs P P' log R) as (done & j & c & rest & P1 & P2 & -> & R1 & R2 & ->).
  assert (LN : length log = length done).
  { clear -R1. revert P P1 log R1. induction done as [|[i d] done IH]; intros P P1 log R1; cbn [prun] in R1; [injection R1 as _ <-; reflexivity|].
    destruct (pact i d P) as [[Q h]|[Q h]|]; [|discriminate|discriminate]. destruct (prun done Q) as [[Q2 l]|[Q2 l]|] eqn:E; [|discriminate|discriminate].
    injection R1 as _ <-. cbn [length]. f_equal. exact (IH _ _ _ E). }
  exists j, c. rewrite LN. split; [rewrite nth_error_app2, Nat.sub_diag by lia; reflexivity|].
  intros i p Hp N. rewrite firstn_app, Nat.sub_diag, firstn_all, app_nil_r.
  destruct (prun_apart done P P1 log SP R1 i p Hp) as (s & A & B & C). exists s. split; [exact A|].
  unfold pact in R2. destruct (nth_error (pg_parts P1) j) as [q|] eqn:Hq; [|discriminate].
  destruct (tact (pt_model q) c (seen P1 q)) as [s1|s1|] eqn:T; [discriminate| |discriminate]. injection R2 as <-.
  split; [rewrite (left_part P1 j q s1 i Hq); destruct (Nat.eqb_spec i j); [contradiction|exact B]|].
  intros k u. rewrite (C k u).
  assert (MJ : exists q0, nth_error (pg_parts P) j = Some q0 /\ pt_model q0 = pt_model q).
  { clear -R1 Hq. revert P P1 log R1 Hq. induction done as [|[x d] done IH]; intros P P1 log R1 Hq; cbn [prun] in R1; [injection R1 as -> _; eauto|].
    unfold pact in R1. destruct (nth_error (pg_parts P) x) as [px|] eqn:Hx; [|discriminate].
    destruct (tact (pt_model px) d (seen P px)) as [sx|sx|]; [|discriminate|discriminate].
    destruct (prun done (left_by P x px sx)) as [[Q2 l]|[Q2 l]|] eqn:E; [|discriminate|discriminate]. injection R1 as -> _.
    destruct (IH _ _ _ E Hq) as (q0 & H0 & E0). destruct (left_models _ _ _ _ _ _ Hx H0) as (q1 & H1 & E1). exists q1. split; [exact H1|congruence]. }
  destruct MJ as (q0 & H0 & E0).
  assert (UT := tact_untouched (pt_model q) c (seen P1 q)). rewrite T in UT. cbn [seen ts_info] in UT.
  unfold numbers, left_by. cbn [pg_info]. rewrite UT; [reflexivity|rewrite <- E0; exact (proj1 SP j q0 H0)|].
  intros u2. rewrite <- E0 in u2. exact (SEP i j p q0 N Hp H0 k u u2).
Qed.
Print Assumptions C66_an_exception_stays_with_its_model.

(** ** Models with common layers *)
(** Programs written as in C54 that build, compile and train several models, of the same placeholders or
    not, with the same layers or not: every call returns, in any order of the calls, provided each model by
    itself is used by the rules (tensors of the right shapes, no backward before its first forward). *)
Theorem C66_several_models_can_be_trained_in_any_order :
  forall (es : estore) (D : list made) (plans : list plan) (parts : list part) (cs : list (nat * tcall)),
  assembled es D plans parts -> legal_for plans cs ->
  exists P' log, prun cs (mkProg (es_info es) parts) = Ret (P', log) /\
    map pt_model (pg_parts P') = map pt_model parts /\
    forall i pl p, nth_error plans i = Some pl -> nth_error (pg_parts P') i = Some p -> ready (pg_info P') (moved_on i cs pl) p.
Proof.
  intros es D plans parts cs A LG.
  destruct (session_of_several cs plans (mkProg (es_info es) parts) (assembled_ready _ _ _ _ A) LG) as (P' & log & R & M & _ & K). eauto 6.
Qed.
Print Assumptions C66_several_models_can_be_trained_in_any_order.

(** The same from any point on: models that are ready stay ready. *)
Theorem C66_ready_models_stay_ready :
  forall (P : program) (plans : list plan) (cs : list (nat * tcall)),
  Forall2 (ready (pg_info P)) plans (pg_parts P) -> legal_for plans cs ->
  exists P' log, prun cs P = Ret (P', log) /\
    forall i pl p, nth_error plans i = Some pl -> nth_error (pg_parts P') i = Some p -> ready (pg_info P') (moved_on i cs pl) p.
Proof.
  intros P plans cs RD LG. destruct (session_of_several cs plans P RD LG) as (P' & log & R & _ & _ & K). eauto.
Qed.
Print Assumptions C66_ready_models_stay_ready.

(** After such a session a forward call hands back the values of the model's expression, computed with the
    parameters and buffers as all the models have left them. *)
Theorem C66_forward_uses_the_shared_parameters :
  forall (P : program) (plans : list plan) (cs : list (nat * tcall)) (i : nat) (pl : plan) (E : nat -> env) (xs os : list ten),
  Forall2 (ready (pg_info P)) plans (pg_parts P) -> legal_for plans cs -> nth_error plans i = Some pl -> (forall d, fair (E d)) ->
  shaped (es_ph (pl_es pl)) (pl_ins pl) xs -> shaped (es_ph (pl_es pl)) (pl_outs pl) os ->
  exists P1 log p b V P2,
    prun cs P = Ret (P1, log) /\ nth_error (pg_parts P1) i = Some p /\ pt_backend p = Some b /\
    evaluation (es_ph (pl_es pl)) (pl_ins pl) (pl_outs pl) xs E (produces (pt_model p) (pg_info P1) b) V /\
    pact i (TForward E xs os) P1 = Ret (P2, map V (pl_outs pl)).
Proof.
  intros P plans cs i pl E xs os RD LG Hi FE SI SO. destruct (session_of_several cs plans P RD LG) as (P1 & log & R & _ & LE & K).
  destruct (nth_error (pg_parts P1) i) as [p|] eqn:Hp.
  2:{ apply nth_error_None in Hp. assert (i < length plans) by (apply nth_error_Some; congruence). lia. }
  destruct (ready_forward P1 (moved_on i cs pl) p i E xs os (K i pl p Hi Hp) Hp FE SI SO) as (b & V & P2 & EB & EV & PA).
  exists P1, log, p, b, V, P2. auto 8.
Qed.
Print Assumptions C66_forward_uses_the_shared_parameters.

(** Building a further model leaves the earlier ones as they are. *)
Theorem C66_building_leaves_other_models_alone :
  forall (es : estore) (order : graph -> list gnode) (ins outs : list nat) (g : graph) (es' : estore) (m' : model),
  built es -> Forall (fun d => d < length (es_ph es)) outs -> build (es_ph es) ins outs = Ok g -> is_topo g (order g) ->
  construct_model order ins outs es = RVal es' m' ->
  forall m, (exists es ins outs, constructed es ins outs m) -> forall cs b o,
  match trun m cs (mkTS (es_info es) b o), trun m cs (mkTS (es_info es') b o) with
  | Ret (s, l), Ret (s', l') | Exc (s, l), Exc (s', l') =>
      l' = l /\ ts_backend s' = ts_backend s /\ ts_opt s' = ts_opt s /\ forall k, uses m k -> numbers (ts_info s') k = numbers (ts_info s) k
  | Bad, Bad => True
  | _, _ => False
  end.
Proof.
  intros es order ins outs g es' m' B VO BG TO CM m (es1 & ins1 & outs1 & CO) cs b o.
  destruct (model_facts es order ins outs g B VO BG TO es' m' CM) as (mops & _ & _ & _ & _ & _ & _ & _ & _ & RN & _).
  assert (AG : agree (uses m) (es_info es) (es_info es')).
  { intros k _. unfold numbers. revert k. induction RN as [|x y l l' (_ & _ & P & Q) _ IH]; intros [|k]; cbn; [reflexivity|reflexivity|rewrite P, Q; reflexivity|apply IH]. }
  pose proof (trun_near m (constructed_own _ _ _ _ CO) cs (es_info es) (es_info es') b o AG) as T.
  destruct (trun m cs (mkTS (es_info es) b o)) as [[s l]|[s l]|], (trun m cs (mkTS (es_info es') b o)) as [[s' l']|[s' l']|]; cbn [same_st] in T; try contradiction; try exact Logic.I;
    destruct T as [(A & _ & _ & E1 & E2) E3]; cbn [fst snd] in *; (split; [congruence|]); (split; [congruence|]); (split; [congruence|]); intros k u; symmetry; exact (A k u).
Qed.
Print Assumptions C66_building_leaves_other_models_alone.

(** ** Findings *)
(** The names generated for the layers of a model stay with the layers.  Two ReLU objects [a] and [b]
    without names: a model of [b] alone is built first, then one of [b] after [a].  In the second [a] is
    to be called relu0, but this is the name [b] got in the first, and the constructor throws.  In the other
    order both models can be built. *)
Definition ex66_relus (sh : list nat) : estore :=
  mkES [mkPh (zs sh) None; mkPh (zs sh) None; mkPh (zs sh) (Some (0, [1])); mkPh (zs sh) (Some (1, [0])); mkPh (zs sh) (Some (0, [3]))]
       [ReLU ""; ReLU ""].
Theorem C66_finding_order_of_building_matters :
  forall (sh : list nat), proper sh ->
  built (ex66_relus sh) /\
  (exists es1 m1 es2, construct_model (by_age 5) [1] [2] (ex66_relus sh) = RVal es1 m1 /\
                      construct_model (by_age 5) [0] [4] es1 = RExc es2) /\
  (exists es1 m1 es2 m2, construct_model (by_age 5) [0] [4] (ex66_relus sh) = RVal es1 m1 /\
                         construct_model (by_age 5) [1] [2] es1 = RVal es2 m2).
Proof.
  intros sh PR. split.
  - pose (e0 := fst (new_op (ReLU "") (fst (new_op (ReLU "") (fst (new_input (zs sh) (fst (new_input (zs sh) es0)))))))).
    assert (B0 : built e0).
    { apply (built_layer _ KReLU [] ""); [|reflexivity]. apply (built_layer _ KReLU [] ""); [|reflexivity]. apply built_input, built_input, built_start. }
    eapply (built_apply _ KReLU ex_ie 0 [3] (ex66_relus sh) 4).
    + eapply (built_apply _ KReLU ex_ie 1 [0] _ 3).
      * eapply (built_apply _ KReLU ex_ie 0 [1] _ 2); [exact B0|repeat constructor|reflexivity|eexists; split; reflexivity|reflexivity].
      * cbn. repeat constructor.
      * reflexivity.
      * eexists; split; reflexivity.
      * reflexivity.
    + cbn. repeat constructor.
    + reflexivity.
    + eexists; split; reflexivity.
    + reflexivity.
  - split.
    + eexists. eexists. eexists. split; vm_compute; reflexivity.
    + eexists. eexists. eexists. eexists. split; vm_compute; reflexivity.
Qed.
Print Assumptions C66_finding_order_of_building_matters.

(** Two models with one Dropout layer: [Dropout (Linear x)], one feature, any weight and bias.  The first
    model keeps its element, then the second drops its own.  The backward pass of the first now sees the
    mask of the second: the gradient of the weight stays 0.  Without the call on the second model it is [g * x]. *)
Definition ex66_mask (w b mk : R) (p : R) : list linfo :=
  [mkLI "linear0" "Linear" [("units", AInt 1%Z)]
     [("weight", mkP (mkT [1; 1] [w]) (mkT [1; 1] [0%R]) true); ("bias", mkP (mkT [1] [b]) (mkT [1] [0%R]) true)] [];
   mkLI "dropout1" "Dropout" [("p", AFloat p)] [("mask", mkP (mkT [1; 1] [mk]) (mkT [1; 1] [0%R]) true)] []].
Definition ex66_drop : list phnode := [mkPh [1; 1]%Z None; mkPh [1; 1]%Z (Some (0, [0])); mkPh [1; 1]%Z (Some (1, [1]))].
Theorem C66_finding_shared_dropout :
  forall (w b mk p x x' y y' g : R) (junk : nat -> R) (E1 E2 E3 : nat -> env),
  (p <= e_rnd (E1 2%nat) 0%nat)%R -> (e_rnd (E2 2%nat) 0%nat < p)%R ->
  exists m B P' log,
    construct_model (by_age 3) [0] [2] (mkES ex66_drop (ex66_mask w b mk p)) = RVal (mkES ex66_drop (ex66_mask w b mk p)) m /\
    model_compile ex66_drop junk m (ex66_mask w b mk p) None = Ret B /\
    prun [(0, TForward E1 [mkT [1; 1] [x]] [mkT [1; 1] [y]]); (1, TForward E2 [mkT [1; 1] [x']] [mkT [1; 1] [y']]);
          (0, TBackward E3 [mkT [1; 1] [x]] [mkT [1; 1] [((x * w + b) / (1 - p))%R]] [mkT [1; 1] [g]])]
         (mkProg (ex66_mask w b mk p) [mkPart m B (SGD 1%R); mkPart m B (SGD 1%R)]) = Ret (P', log) /\
    log = [(0, [mkT [1; 1] [((x * w + b) / (1 - p))%R]]); (1, [mkT [1; 1] [0%R]]); (0, [mkT [1; 1] [g]])] /\
    (exists q, get_par (pg_info P') (0, "weight") = Some q /\ p_grad q = mkT [1; 1] [0%R]) /\
    exists s l, trun m [TForward E1 [mkT [1; 1] [x]] [mkT [1; 1] [y]]; TBackward E3 [mkT [1; 1] [x]] [mkT [1; 1] [((x * w + b) / (1 - p))%R]] [mkT [1; 1] [g]]]
                     (mkTS (ex66_mask w b mk p) B (SGD 1%R)) = Ret (s, l) /\
      exists q, get_par (ts_info s) (0, "weight") = Some q /\ p_grad q = mkT [1; 1] [(g * x)%R].
Proof.
  intros w b mk p x x' y y' g junk E1 E2 E3 H1 H2.
  do 4 eexists. split; [vm_compute; reflexivity|]. split; [vm_compute; reflexivity|]. split; [vm_compute; reflexivity|].
  split.
  { destruct (E1 2) as [j1 k1 r1 a1]. destruct (E2 2) as [j2 k2 r2 a2]. cbn [e_rnd] in *. 
    destruct (Rle_dec p (r1 0)) as [Q1|Q1]; [|contradiction]. destruct (Rle_dec p (r2 0)) as [Q2|Q2]; [lra|].
    change R0 with 0%R; change R1 with 1%R; unfold Rdiv, Rminus; rewrite ?Rplus_0_l, ?Rmult_0_l; reflexivity. }
  split.
  { eexists. split; [vm_compute; reflexivity|]. destruct (E2 2) as [j2 k2 r2 a2]. cbn [e_rnd p_grad] in *.
    destruct (Rle_dec p (r2 0)) as [Q2|Q2]; [lra|]. change R0 with 0%R. rewrite ?Rplus_0_l, ?Rmult_0_l. reflexivity. }
  eexists. eexists. split; [vm_compute; reflexivity|]. eexists. split; [vm_compute; reflexivity|]. destruct (E1 2) as [j2 k2 r2 a2]. cbn [e_rnd p_grad] in *.
    destruct (Rle_dec p (r2 0)) as [Q2|Q2]; [|lra]. change R0 with 0%R. rewrite ?Rplus_0_l, ?Rmult_0_l. reflexivity.
Qed.
Print Assumptions C66_finding_shared_dropout.

(** ** Example: three models over one input; the first two have a Linear layer in common, the third is by itself *)
Definition ex66_made : list made :=
  [mkMade ex_ie (ALinear 4) [[2; 3]] [2; 4]; mkMade ex_ie ASigmoid [[2; 4]] [2; 4]; mkMade ex_ie (ALinear 2) [[2; 3]] [2; 2]].
Definition ex66_es : estore :=
  mkES [mkPh (zs [2; 3]) None; mkPh (zs [2; 4]) (Some (0, [0])); mkPh (zs [2; 4]) (Some (1, [1])); mkPh (zs [2; 2]) (Some (2, [0]))]
       (map (fun x => description (md_draws x) (md_layer x) (md_in x) "") ex66_made).
Definition ex66_step (outs : list nat) (es : estore) : estore * part :=
  match construct_model (by_age 4) [0] outs es with
  | RVal e m => (e, mkPart m (match model_compile (es_ph es) (fun _ => 0%R) m (es_info e) None with Ret b => b | _ => None end) (SGD 1%R))
  | _ => (es0, mkPart ex_m None (SGD 1%R))
  end.
Definition ex66_1 := ex66_step [2] ex66_es.
Definition ex66_2 := ex66_step [1] (fst ex66_1).
Definition ex66_3 := ex66_step [3] (fst ex66_2).
Definition ex66_plans := [mkPlan ex66_es [0] [2] false; mkPlan (fst ex66_1) [0] [1] false; mkPlan (fst ex66_2) [0] [3] false].
Definition ex66_parts := [snd ex66_1; snd ex66_2; snd ex66_3].

Lemma ex66_before : assembled ex66_es ex66_made [] [].
Proof.
  assert (W : forall l shs osh, result l shs osh -> Forall proper shs -> proper osh -> (forall w i o, weight_of l shs = Some (w, i, o) -> small (prodN w) /\ small (i + o)) -> meant_for l shs osh) by (intros; split; auto).
  assert (N : forall es D I l name args shs osh, assembled es D [] [] -> Forall2 (has_shape (es_ph es)) args shs -> meant_for l shs osh ->
    assembled (mkES (es_ph es ++ [mkPh (zs osh) (Some (length (es_info es), args))]) (es_info es ++ [description I l shs name])) (D ++ [mkMade I l shs osh]) [] []).
  { intros es D I l name args shs osh A F M. eapply as_layer; [exact A|exact F|exact M|]. apply (apply_new I l shs osh name args es F M). }
  pose proof (as_input _ _ _ _ [2; 3] as_start ltac:(small_goal)) as P.
  eapply (N _ _ ex_ie (ALinear 4) "" [0] [[2; 3]] [2; 4]) in P; [|constructor; [eexists; split; reflexivity|constructor]|].
  2:{ apply W; [constructor; [discriminate|lia]|repeat constructor; small_goal|small_goal|intros w i o E; injection E as <- <- <-; split; unfold small; cbn; lia]. }
  eapply (N _ _ ex_ie ASigmoid "" [1] [[2; 4]] [2; 4]) in P; [|constructor; [eexists; split; reflexivity|constructor]|].
  2:{ apply W; [constructor|repeat constructor; small_goal|small_goal|discriminate]. }
  eapply (N _ _ ex_ie (ALinear 2) "" [0] [[2; 3]] [2; 2]) in P; [|constructor; [eexists; split; reflexivity|constructor]|].
  2:{ apply W; [constructor; [discriminate|lia]|repeat constructor; small_goal|small_goal|intros w i o E; injection E as <- <- <-; split; unfold small; cbn; lia]. }
  exact P.
Qed.

Definition ex66_under (k : nat) : list nat := match k with 1 => [1; 0] | 2 => [2; 1; 0] | _ => [3; 0] end.
Lemma ex66_needs k d : In k [1; 2; 3] -> needed (es_ph ex66_es) [k] d -> In d (ex66_under k).
Proof.
  intros Ik N. induction N as [o Io|c args a N IH C Ia].
  - destruct Io as [<-|[]]. destruct Ik as [<-|[<-|[<-|[]]]]; cbn; auto.
  - destruct C as (s & i & C). destruct Ik as [<-|[<-|[<-|[]]]]; cbn in IH |- *.
    all: repeat match goal with H : _ \/ _ |- _ => destruct H as [H|H] | H : False |- _ => destruct H end; subst c; cbn in C; try discriminate; injection C as <- <- <-.
    all: destruct Ia as [<-|[]]; auto.
Qed.

Lemma ex66_next es D pls pts k : assembled es D pls pts -> es_ph es = es_ph ex66_es -> In k [1; 2; 3] ->
  match construct_model (by_age 4) [0] [k] es with
  | RVal e m => match model_compile (es_ph es) (fun _ => 0%R) m (es_info e) None with Ret _ => True | _ => False end
  | _ => False
  end ->
  assembled (fst (ex66_step [k] es)) D (pls ++ [mkPlan es [0] [k] false]) (pts ++ [snd (ex66_step [k] es)]).
Proof.
  intros A EP Ik CM. pose proof (po_built _ _ (plain_plain_ok _ _ (assembled_plain _ _ _ _ A))) as B.
  assert (LB : links_back (es_ph es)) by (apply store_links_back, built_ok, B).
  assert (OK : Forall (fun d => d < length (es_ph es)) [k]) by (rewrite EP; constructor; [|constructor]; destruct Ik as [<-|[<-|[<-|[]]]]; cbn; lia).
  unfold ex66_step. destruct (construct_model (by_age 4) [0] [k] es) as [e m|e|] eqn:C; try contradiction.
  destruct (model_compile (es_ph es) (fun _ => 0%R) m (es_info e) None) as [bo|bo|] eqn:MO; try contradiction. cbn [fst snd].
  destruct (build (es_ph es) [0] [k]) as [g| |] eqn:G.
  2:{ unfold construct_model in C. rewrite G in C. discriminate. }
  2:{ unfold construct_model in C. rewrite G in C. discriminate. }
  refine (as_model es D pls pts (by_age 4) [0] [k] g e m (fun _ => 0%R) bo (SGD 1%R) A OK G _ C _ _ MO _).
  - replace 4 with (length (es_ph es)) by (rewrite EP; reflexivity). apply (by_age_topo (es_ph es) [0] [k]); [exact LB| |exact G].
    intros o Io. exact (proj1 (Forall_forall _ _) OK o Io).
  - intros d s i args N _. left. rewrite EP in N |- *. apply ex66_needs in N; [|exact Ik]. clear -Ik N.
    destruct Ik as [<-|[<-|[<-|[]]]]; cbn in N;
    repeat match goal with H : _ \/ _ |- _ => destruct H as [H|H] | H : False |- _ => destruct H end; subst d; vm_compute; reflexivity.
  - rewrite EP. split; [repeat constructor; intros []|]. split; [repeat constructor; intros []|]. split; [|split].
    + intros d [<-|[]] (args & s & i & H). discriminate H.
    + intros d [<-|[]]. destruct Ik as [<-|[<-|[<-|[]]]]; eexists; eexists; eexists; reflexivity.
    + intros d N. apply ex66_needs in N; [|exact Ik]. destruct Ik as [<-|[<-|[<-|[]]]]; cbn in N.
      all: repeat match goal with H : _ \/ _ |- _ => destruct H as [H|H] | H : False |- _ => destruct H end; subst d.
      all: first [right; left; reflexivity | left; eexists; eexists; eexists; reflexivity].
  - exists 1%R, 0%R, 0%R, 0%R, 0%R, 0. left. reflexivity.
Qed.

Lemma ex66_ph : es_ph (fst ex66_1) = es_ph ex66_es /\ es_ph (fst ex66_2) = es_ph ex66_es.
Proof. split; vm_compute; reflexivity. Qed.
Lemma ex66_assembled : assembled (fst ex66_3) ex66_made ex66_plans ex66_parts.
Proof.
  pose proof (ex66_next _ _ _ _ 2 ex66_before eq_refl ltac:(cbn; auto) ltac:(vm_compute; exact Logic.I)) as P1. fold ex66_1 in P1.
  pose proof (ex66_next _ _ _ _ 1 P1 (proj1 ex66_ph) ltac:(cbn; auto) ltac:(vm_compute; exact Logic.I)) as P2. fold ex66_2 in P2.
  exact (ex66_next _ _ _ _ 3 P2 (proj2 ex66_ph) ltac:(cbn; auto) ltac:(vm_compute; exact Logic.I)).
Qed.

Example C66_nonvacuous : forall (E : nat -> env) (X Y Z : ten),
  (forall d, fair (E d)) -> ten_ok [2; 3] X -> ten_ok [2; 4] Y -> ten_ok [2; 2] Z ->
  assembled (fst ex66_3) ex66_made ex66_plans ex66_parts /\
  legal_for ex66_plans
    [(0, TTrain true); (0, TForward E [X] [Y]); (1, TForward E [X] [Y]); (0, TBackward E [X] [Y] [Y]); (2, TForward E [X] [Z]);
     (0, TStep); (1, TBackward E [X] [Y] [Y]); (2, TBackward E [X] [Z] [Z]); (1, TStep); (2, TStep); (0, TForward E [X] [Y])] /\
  uses (pt_model (snd ex66_1)) 0 /\ uses (pt_model (snd ex66_2)) 0 /\
  no_common_layer (pt_model (snd ex66_1)) (pt_model (snd ex66_3)) /\ no_common_layer (pt_model (snd ex66_2)) (pt_model (snd ex66_3)).
Proof.
  intros E X Y Z FE HX HY HZ. split; [exact ex66_assembled|].
  assert (U1 : map mo_info (m_ops (pt_model (snd ex66_1))) = [0; 1]) by (vm_compute; reflexivity).
  assert (U2 : map mo_info (m_ops (pt_model (snd ex66_2))) = [0]) by (vm_compute; reflexivity).
  assert (U3 : map mo_info (m_ops (pt_model (snd ex66_3))) = [2]) by (vm_compute; reflexivity).
  assert (UI : forall m k, uses m k <-> In k (map mo_info (m_ops m))).
  { intros m k. rewrite in_map_iff. split; intros (op & A & B); exists op; auto. }
  split; [|split; [|split; [|split]]].
  2:{ apply UI. rewrite U1. left. reflexivity. }
  2:{ apply UI. rewrite U2. left. reflexivity. }
  2:{ intros k A B. apply UI in A, B. rewrite U1 in A. rewrite U3 in B. destruct B as [<-|[]]. destruct A as [A|[A|[]]]; discriminate. }
  2:{ intros k A B. apply UI in A, B. rewrite U2 in A. rewrite U3 in B. destruct B as [<-|[]]. destruct A as [A|[]]; discriminate. }
  split; [cbn; repeat constructor|].
  destruct ex66_ph as (P1 & P2).
  assert (S0 : shaped (es_ph ex66_es) [0] [X]) by (repeat constructor; apply HX).
  assert (S2 : shaped (es_ph ex66_es) [2] [Y]) by (repeat constructor; apply HY).
  assert (S1 : shaped (es_ph ex66_es) [1] [Y]) by (repeat constructor; apply HY).
  assert (S3 : shaped (es_ph ex66_es) [3] [Z]) by (repeat constructor; apply HZ).
  intros i pl Hp. unfold ex66_plans in Hp. revert S0 S1 S2 S3 P1 P2 Hp. generalize (fst ex66_1) as e1, (fst ex66_2) as e2. generalize ex66_es as e0.
  intros e0 e1 e2 S0 S1 S2 S3 P1 P2 Hp.
  destruct i as [|[|[|i]]]; [| | |destruct i; discriminate]; injection Hp as <-; cbn [pl_es pl_ins pl_outs pl_ran]; rewrite ?P1, ?P2;
    unfold of_model; cbn [filter map fst snd Nat.eqb legal]; auto 20.
Qed.
