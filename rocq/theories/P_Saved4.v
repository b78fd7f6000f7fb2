(** Saved and loaded models: the layers. *)
From Coq Require Import Reals String Lia.
From Verif Require Import Base BaseFacts Sums M_Tensor M_Layers M_Optim M_Init M_Nn M_Graph M_Model M_Backend M_Train M_Saved S_Grad S_Fit S_Nn S_Graph S_Run S_Build S_Train S_Plain S_Eval S_Saved
  P_Fit P_Optim P_Nn P_Load P_Plain P_Saved P_Saved2 P_Saved3.
Local Open Scope string_scope.
Open Scope nat_scope.
Local Open Scope list_scope.

(** A layer whose description is like that of a new one can be created. *)
Lemma create_like I l shs osh nm li : meant_for l shs osh -> alike (description I l shs nm) li -> sound_tensors li ->
  exists L, create_layer li = Ok L /\ fits L shs osh /\ same_kind (start I l shs) L.
Proof.
  intros (R & P & PO & WS) (_ & T & A & FP & FB) (S1 & S2). destruct li as [n ty at' ps bs]. cbn [li_name li_type li_attrs li_params li_bufs description] in *. subst ty at'.
  pose proof (start_fits I l shs osh (conj R (conj P (conj PO WS)))) as F0.
  assert (Q : forall k p sh, In (k, p) ps -> sh = tsh (p_data p) -> prm_ok sh p) by (intros k p sh H ->; eapply S1; exact H).
  assert (Q2 : forall k t sh, In (k, t) bs -> sh = tsh t -> ten_ok sh t) by (intros k t sh H ->; split; [reflexivity|eapply S2; exact H]).
  destruct R; cbn [start] in F0; try solve [eexists; split; [reflexivity|]; split; [exact F0|exact Logic.I || reflexivity]].
  - unfold start_params in FP. cbn in FP. inversion FP as [|? [k1 w] ? t1 (K1 & D1 & _) FP1]; subst. inversion FP1 as [|? [k2 b] ? t2 (K2 & D2 & _) FP2]; subst. inversion FP2; subst.
    cbn [fst snd] in K1, K2. subst k1 k2. exists (LLinear w b). split; [reflexivity|]. split; [|exact Logic.I]. constructor; [assumption| |]; (eapply Q; [cbn; eauto|assumption]).
  - unfold start_params in FP. cbn in FP. inversion FP as [|? [k1 w] ? t1 (K1 & D1 & _) FP1]; subst. inversion FP1; subst.
    cbn [fst snd] in K1. subst k1. exists (LDropout p w). split; [reflexivity|]. split; [|reflexivity]. inversion F0; subst. constructor; [|assumption]. eapply Q; [cbn; eauto|assumption].
  - unfold start_params in FP. unfold start_bufs in FB. cbn in FP, FB. inversion FP as [|? [k1 w] ? t1 (K1 & D1 & _ & Y1) FP1]; subst. inversion FP1 as [|? [k2 b] ? t2 (K2 & D2 & _ & Y2) FP2]; subst. inversion FP2; subst.
    inversion FB as [|? [k3 rm] ? t3 (K3 & D3) FB1]; subst. inversion FB1 as [|? [k4 rv] ? t4 (K4 & D4) FB2]; subst. inversion FB2; subst.
    cbn [fst snd] in K1, K2, K3, K4, D1, D2, D3, D4, Y1, Y2. subst k1 k2 k3 k4. cbn in D1, D2, D3, D4, Y1, Y2.
    eexists. split; [cbn; rewrite <- D1; reflexivity|]. split; [|split; reflexivity].
    inversion F0; subst. constructor; try assumption; try congruence; try (eapply Q; [cbn; eauto|assumption]); try (eapply Q2; [cbn; eauto|assumption]). split; [reflexivity|]. unfold twf. cbn. rewrite repeat_length. lia.
  - unfold start_params in FP. unfold start_bufs in FB. cbn in FP, FB. inversion FP as [|? [k1 w'] ? t1 (K1 & D1 & _ & Y1) FP1]; subst. inversion FP1 as [|? [k2 b] ? t2 (K2 & D2 & _ & Y2) FP2]; subst. inversion FP2; subst.
    inversion FB as [|? [k3 rm] ? t3 (K3 & D3) FB1]; subst. inversion FB1 as [|? [k4 rv] ? t4 (K4 & D4) FB2]; subst. inversion FB2; subst.
    cbn [fst snd] in K1, K2, K3, K4, D1, D2, D3, D4, Y1, Y2. subst k1 k2 k3 k4. cbn in D1, D2, D3, D4, Y1, Y2.
    eexists. split; [cbn; rewrite <- D1; reflexivity|]. split; [|split; reflexivity].
    inversion F0; subst. constructor; try assumption; try congruence; try (eapply Q; [cbn; eauto|assumption]); try (eapply Q2; [cbn; eauto|assumption]). split; [reflexivity|]. unfold twf. cbn. rewrite repeat_length. lia.
  - unfold start_params in FP. cbn in FP. inversion FP as [|? [k1 w'] ? t1 (K1 & D1 & _) FP1]; subst. inversion FP1 as [|? [k2 b] ? t2 (K2 & D2 & _) FP2]; subst. inversion FP2; subst.
    cbn [fst snd] in K1, K2. subst k1 k2. exists (LConv (window_of wi) w' b empty_ten). split; [reflexivity|]. split; [|reflexivity].
    inversion F0 as [ | | | | | | | | ? ? ? ? ? ? ? ? ? ? ? Z1 Z2 Z3 Z4 Z5| | | |]; subst. apply fit_conv; try assumption; (eapply Q; [cbn; eauto|]); [rewrite <- (proj1 Z3)|]; assumption.
Qed.

(** The parameters and buffers of a layer in use have the shapes they had at first. *)
Lemma shapes_kept I l shs osh nm li L0 L : meant_for l shs osh -> kept (description I l shs nm) li -> load li L0 = Ok L -> same_kind (start I l shs) L -> fits L shs osh ->
  same_tensors li (description I l shs nm) /\ sound_tensors li.
Proof.
  intros M (SD & KP & KB) LD SK FI. pose proof (start_fits I l shs osh M) as F0. unfold description in KP, KB. cbn [li_params li_bufs] in KP, KB.
  assert (SD' : same_description li (description I l shs nm)) by (unfold same_description in *; intuition congruence).
  assert (G : map (fun e => (fst e, tsh (p_data (snd e)))) (li_params li) = map (fun e => (fst e, tsh (p_data (snd e)))) (start_params I l shs) /\
              map (fun e => (fst e, tsh (snd e))) (li_bufs li) = map (fun e => (fst e, tsh (snd e))) (start_bufs I l shs) /\ sound_tensors li).
  2:{ destruct G as (G1 & G2 & G3). split; [|exact G3]. split; [exact SD'|]. split; assumption. }
  clear SD SD' M. unfold start_params, start_bufs, sound_tensors in *. destruct li as [n ty at' ps bs]. cbn [li_params li_bufs] in *.
  assert (PS : forall sh q, prm_ok sh q -> prm_ok (tsh (p_data q)) q) by (intros sh q X; pose proof X as (-> & _); exact X).
  Ltac list_of E := repeat match type of E with map fst ?l = _ :: _ => let a := fresh "k" in let b := fresh "v" in destruct l as [|[a b] l]; cbn in E; [discriminate E|injection E as -> E] end;
     match type of E with map fst ?l = [] => destruct l; [clear E|discriminate E] end.
  destruct F0; destruct L; cbn in SK; try contradiction; cbn [map fst] in KP, KB; list_of KP; list_of KB;
    destruct L0; cbn in LD; try discriminate LD; (injection LD; intros; subst) || clear LD; inversion FI; subst;
    try solve [split; [reflexivity|]; split; [reflexivity|]; split; intros ? ? []];
    repeat match goal with H : prm_ok ?sh ?p |- _ => lazymatch goal with X : tsh (p_data p) = sh |- _ => fail | _ => pose proof (proj1 H : tsh (p_data p) = sh) end
                         | H : ten_ok ?sh ?p |- _ => lazymatch goal with X : tsh p = sh |- _ => fail | _ => pose proof (proj1 H : tsh p = sh) end end.
  all: cbn [map fst snd]; split; [congruence|]; split; [congruence|]; split; intros ? ? HI; cbn in HI; repeat destruct HI as [HI|HI]; try contradiction; injection HI as <- <-.
  all: try (eapply PS; eassumption). all: match goal with H : ten_ok _ ?t |- twf ?t => exact (proj2 H) end.
Qed.

(** Weights are found by name. *)
Lemma weights_by_name L L' li li' L0 L0' : same_kind L L' -> load li L0 = Ok L -> load li' L0' = Ok L' ->
  (forall k p p', find_key (li_params li) k = Some p -> find_key (li_params li') k = Some p' -> p_data p' = p_data p) ->
  (forall k t t', find_key (li_bufs li) k = Some t -> find_key (li_bufs li') k = Some t' -> t' = t) -> same_weights L L'.
Proof.
  intros SK E E' HP HB.
  assert (PA : forall li k p, par li k = Ok p -> find_key (li_params li) k = Some p) by (intros x k p; unfold par; destruct (find_key (li_params x) k); [intros H; injection H as ->; reflexivity|discriminate]).
  assert (BA : forall li k p, bufr li k = Ok p -> find_key (li_bufs li) k = Some p) by (intros x k p; unfold bufr; destruct (find_key (li_bufs x) k); [intros H; injection H as ->; reflexivity|discriminate]).
  assert (HP' : forall k p p', par li k = Ok p -> par li' k = Ok p' -> p_data p' = p_data p) by (intros; eapply HP; eauto).
  assert (HB' : forall k p p', bufr li k = Ok p -> bufr li' k = Ok p' -> p' = p) by (intros; eapply HB; eauto).
  clear HP HB PA BA.
  destruct L0; cbn in E; inv_ok E; injection E as <-; destruct L0'; cbn in E'; inv_ok E'; injection E' as <-; cbn in SK; try contradiction; cbn; try exact Logic.I; try congruence;
    repeat split; try (destruct SK; congruence); try congruence; eauto.
Qed.
