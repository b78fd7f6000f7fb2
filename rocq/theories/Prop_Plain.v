(** Property C54: building a model from scratch gives exactly the layers and shapes asked for, and a
    compiled model ready for any training session. *)
From Coq Require Import Reals String Lia Lra.
From Verif Require Import Base BaseFacts Sums M_Tensor M_Im2col M_Kernels M_Layers M_Optim M_Init M_Nn M_Graph M_Model M_Backend M_Train
  S_Grad S_Partial S_Graph S_Run S_Fit S_Primed S_Optim S_Train S_Plain
  P_Graph P_Graph2 P_Nn P_Loss P_Model P_Model2 P_Run P_Fwd P_Fwd2 P_Run2 P_Fit P_Optim P_Plain
  Prop_Graph Prop_Model Prop_Run Prop_Train.
Local Open Scope string_scope.
Open Scope nat_scope.
Local Open Scope list_scope.

(** ** C54 *)
(** A new layer object applied to arguments it is meant for: the call returns a new placeholder of the
    right shape that remembers the call, and the object has exactly the parameters and buffers of its
    class; nothing else changes. *)
Theorem C54_applying_a_new_layer :
  forall (I : ienv) (l : lspec) (shs : list (list nat)) (osh : list nat) (name : string) (args : list nat) (es : estore),
  Forall2 (has_shape (es_ph es)) args shs -> meant_for l shs osh ->
  apply_op (class l) I (length (es_info es)) args (fst (new_op (object l name) es)) =
    RVal (mkES (es_ph es ++ [mkPh (zs osh) (Some (length (es_info es), args))]) (es_info es ++ [description I l shs name])) (length (es_ph es)).
Proof. exact apply_new. Qed.
Print Assumptions C54_applying_a_new_layer.

(** The layer compiled from that description is the one asked for, and fits the shapes. *)
Theorem C54_created_layer_is_the_one_asked_for :
  forall (I : ienv) (l : lspec) (shs : list (list nat)) (osh : list nat) (name : string), meant_for l shs osh ->
  create_layer (description I l shs name) = Ok (start I l shs) /\ fits (start I l shs) shs osh.
Proof.
  intros I l shs osh name M. split; [|apply start_fits, M]. apply (create_start I l shs osh _ M), description_renamed.
Qed.
Print Assumptions C54_created_layer_is_the_one_asked_for.

(** Applying the same object again to arguments of the same shapes gives a placeholder of the same shape
    and leaves the object as it is. *)
Theorem C54_applying_a_layer_again :
  forall (es : estore) (D : list made) (J : ienv) (i : nat) (x : made) (args : list nat),
  plain es D -> nth_error D i = Some x -> Forall2 (has_shape (es_ph es)) args (md_in x) ->
  apply_op (class (md_layer x)) J i args es =
    RVal (mkES (es_ph es ++ [mkPh (zs (md_out x)) (Some (i, args))]) (es_info es)) (length (es_ph es)).
Proof.
  intros es D J i x args P Hx F. destruct (plain_plain_ok _ _ P) as [B M Fi _ _]. destruct (Forall2_nth _ _ _ _ _ Fi Hx) as (li & Hli & R).
  eapply apply_again; [exact F| |exact Hli|exact R]. rewrite Forall_forall in M. apply M. eapply nth_error_In, Hx.
Qed.
Print Assumptions C54_applying_a_layer_again.

(** Arguments of the wrong rank.  Most classes throw; but Linear, Convolution and the two BatchNorms look
    at dimensions before checking the rank. *)
Inductive rejected : lspec -> list (list nat) -> Prop :=
| rej_linear u n : 0 < u -> small (u + 1) -> rejected (ALinear u) [[n]]
| rej_pool w sh : length sh <> 4 -> rejected (AMaxPooling w) [sh]
| rej_gap sh : length sh <> 4 -> rejected AGlobalAvgPooling [sh]
| rej_bn2 e a n c rest : length rest <> 2 -> rejected (ABatchNorm2D e a) [n :: c :: rest]
| rej_conv o w n c rest : length rest <> 2 -> 0 < o -> 0 < w_kh w -> 0 < w_kw w -> small (o * c * w_kh w * w_kw w) -> small (c * w_kh w * w_kw w + o) ->
    rejected (AConvolution o w) [n :: c :: rest]
| rej_add s1 s2 : s1 <> s2 -> rejected AAdd [s1; s2].
Inductive too_flat : lspec -> list nat -> Prop :=
| flat_linear u : too_flat (ALinear u) []
| flat_conv o w sh : length sh < 2 -> too_flat (AConvolution o w) sh
| flat_bn1 e a sh : length sh < 2 -> too_flat (ABatchNorm1D e a) sh
| flat_bn2 e a sh : length sh < 2 -> too_flat (ABatchNorm2D e a) sh.

Lemma zs_inj s1 s2 : zs s1 = zs s2 -> s1 = s2.
Proof. intros H. apply (f_equal (map Z.to_nat)) in H. rewrite !zs_nat in H. exact H. Qed.
Lemma zs_length s : length (zs s) = length s.
Proof. apply map_length. Qed.

Theorem C54_wrong_ranks_throw :
  forall (I : ienv) (l : lspec) (shs : list (list nat)) (name : string) (args : list nat) (es : estore),
  Forall2 (has_shape (es_ph es)) args shs -> Forall proper shs -> rejected l shs ->
  exists es', apply_op (class l) I (length (es_info es)) args (fst (new_op (object l name) es)) = RExc es' /\ es_ph es' = es_ph es.
Proof.
  intros I l shs name args es F P R. unfold apply_op. cbn [fst new_op es_ph es_info].
  rewrite (shapes_of _ _ _ F), rd_nth, nth_error_app2, Nat.sub_diag by lia. cbn [nth_error]. clear F.
  assert (K : forall li, linit (class l) I (map zs shs) (object l name) = Ret li -> out_shape (class l) (li_attrs li) (map zs shs) = Throw ->
    exists es', match linit (class l) I (map zs shs) (object l name) with
      | Ret li' => match out_shape (class l) (li_attrs li') (map zs shs) with
                   | Ok s => RVal (mkES (es_ph (set_info {| es_ph := es_ph es; es_info := es_info es ++ [object l name] |} (length (es_info es)) li') ++ [mkPh s (Some (length (es_info es), args))])
                                        (es_info (set_info {| es_ph := es_ph es; es_info := es_info es ++ [object l name] |} (length (es_info es)) li')))
                                  (length (es_ph (set_info {| es_ph := es_ph es; es_info := es_info es ++ [object l name] |} (length (es_info es)) li')))
                   | Throw => RExc (set_info {| es_ph := es_ph es; es_info := es_info es ++ [object l name] |} (length (es_info es)) li')
                   | UB => RBad
                   end
      | Exc li' => RExc (set_info {| es_ph := es_ph es; es_info := es_info es ++ [object l name] |} (length (es_info es)) li')
      | Bad => RBad
      end = RExc es' /\ es_ph es' = es_ph es).
  { intros li -> ->. eexists. split; reflexivity. }
  assert (N4 : forall sh, length sh <> 4 -> (length (zs sh) =? 4) = false) by (intros sh H; rewrite zs_length; apply Nat.eqb_neq, H).
  destruct R; (eapply K; [|]).
  - cbn -[t_xavier t_zeros]. change [Z.of_nat u; 1%Z] with (zs [u; 1]). change [Z.of_nat u] with (zs [u]). unfold small in *.
    rewrite (xavier_proper I u 1); [|split; [repeat constructor; lia|cbn; unfold small; lia]|apply features_2|assumption|lia].
    unfold t_zeros. rewrite t_constant_proper by (apply proper_one; unfold small; lia). reflexivity.
  - reflexivity.
  - reflexivity.
  - cbn. rewrite N4 by assumption. reflexivity.
  - reflexivity.
  - cbn. rewrite N4 by assumption. reflexivity.
  - inversion P as [|? ? P1 _]; subst. destruct (proper_in _ c P1) as [Pm Sm]; [right; left; reflexivity|]. cbn. unfold bn_init. cbn. change [Z.of_nat c] with (zs [c]). unfold t_zeros.
    rewrite !t_constant_proper by (apply proper_one; assumption). reflexivity.
  - cbn. change (map Z.of_nat rest) with (zs rest). rewrite zs_length. destruct rest as [|? [|? [|? ?]]]; try reflexivity. cbn in H. lia.
  - inversion P as [|? ? P1 _]; subst. destruct (proper_in _ c P1) as [Pc _]; [right; left; reflexivity|].
    cbn -[t_xavier t_zeros]. change [Z.of_nat o; Z.of_nat c; Z.of_nat (w_kh w); Z.of_nat (w_kw w)] with (zs [o; c; w_kh w; w_kw w]). change [Z.of_nat o] with (zs [o]).
    assert (So : small o) by (unfold small in *; nia).
    rewrite (xavier_proper I (c * w_kh w * w_kw w) o); [|split; [repeat (constructor; [assumption|]); constructor|]|apply features_4; assumption|assumption|lia].
    + unfold t_zeros. rewrite t_constant_proper by (apply proper_one; assumption). reflexivity.
    + cbn. replace (o * (c * (w_kh w * (w_kw w * 1)))) with (o * c * w_kh w * w_kw w) by ring. assumption.
  - cbn. change (map Z.of_nat rest) with (zs rest). rewrite zs_length. destruct rest as [|? [|? [|? ?]]]; try reflexivity. cbn in H. lia.
  - reflexivity.
  - cbn. destruct (shape_eqb (zs s1) (zs s2)) eqn:X; [apply shape_eqb_spec, zs_inj in X; congruence|]. reflexivity.
Qed.
Print Assumptions C54_wrong_ranks_throw.

Theorem C54_flat_arguments_are_read_out_of_bounds :
  forall (I : ienv) (l : lspec) (sh : list nat) (name : string) (a : nat) (es : estore),
  has_shape (es_ph es) a sh -> too_flat l sh ->
  apply_op (class l) I (length (es_info es)) [a] (fst (new_op (object l name) es)) = RBad.
Proof.
  intros I l sh name a es F R. unfold apply_op. cbn [fst new_op es_ph es_info].
  assert (F' : Forall2 (has_shape (es_ph es)) [a] [sh]) by (constructor; [exact F|constructor]).
  rewrite (shapes_of _ _ _ F'), rd_nth, nth_error_app2, Nat.sub_diag by lia. cbn [nth_error].
  destruct R; try (destruct sh as [|? [|? ?]]; [reflexivity|reflexivity|cbn in *; lia]). reflexivity.
Qed.
Print Assumptions C54_flat_arguments_are_read_out_of_bounds.

(** *** Whole programs *)
Lemma op_info es ins outs m op : constructed es ins outs m -> In op (m_ops m) ->
  exists s args, nth_error (es_ph es) (mo_ph op) = Some (mkPh s (Some (mo_info op, args))).
Proof.
  intros C Hop. pose proof (constructed_mfacts _ _ _ _ C) as MF. destruct (mf_op _ _ _ _ MF op Hop) as (args & k & ids & i0 & N & (s & i & Hd) & _).
  exists s, args. destruct C as (B & VO & order & g & es' & BG & TO & CM).
  destruct (model_facts es order ins outs g B VO BG TO es' m CM) as (mops & ND1 & _ & EP & EG & EO & EM & F & OB & _).
  rewrite EM in Hop. apply In_nth_error in Hop. destruct Hop as (j & Hj).
  assert (X : exists dd, ids_ok (es_ph es) g (order g) dd op).
  { clear -F Hj. revert j Hj. induction F as [|x y l1 l2 Hxy _ IH]; intros [|j] Hj; cbn in Hj; try discriminate; [injection Hj as ->; eauto|eauto]. }
  destruct X as (dd & X). unfold ids_ok in X. destruct X as (<- & Y & _). unfold info_of in Y. rewrite rd_nth, Hd in Y. cbn in Y. injection Y as <-. exact Hd.
Qed.

Lemma start_params_ok I l shs osh k p : meant_for l shs osh -> In (k, p) (start_params I l shs) -> prm_ok (tsh (p_data p)) p.
Proof.
  intros M H. unfold start_params in H. pose proof (start_fits I l shs osh M) as F.
  assert (Q : forall sh q, prm_ok sh q -> prm_ok (tsh (p_data q)) q) by (intros sh q X; pose proof X as (E & _); rewrite E; exact X).
  destruct F; cbn in H; repeat destruct H as [H|H]; try contradiction; injection H as <- <-; eapply Q; eassumption.
Qed.

Lemma compile_plain es D order ins outs g es' m junk bo :
  plain es D -> Forall (fun d => d < length (es_ph es)) outs -> build (es_ph es) ins outs = Ok g -> is_topo g (order g) ->
  construct_model order ins outs es = RVal es' m -> reached_well es D outs ->
  exists b, model_compile (es_ph es) junk m (es_info es') bo = Ret (Some b) /\
    usable false (es_ph es) outs m (es_info es') b /\
    forall d s i args x, needed (es_ph es) outs d -> nth_error (es_ph es) d = Some (mkPh s (Some (i, args))) -> nth_error D i = Some x ->
      produces m (es_info es') b d (start (md_draws x) (md_layer x) (md_in x)).
Proof.
  intros P VO BG TO CM RW. destruct (plain_plain_ok _ _ P) as [B M _ Pi C].
  assert (CO : constructed es ins outs m) by (split; [exact B|split; [exact VO|exists order, g, es'; auto]]).
  pose proof (constructed_mfacts _ _ _ _ CO) as MF. rewrite Forall_forall in M.
  assert (P' : plain es' D) by (eapply plain_model; eassumption). destruct (plain_plain_ok _ _ P') as [_ _ Fi _ _].
  assert (LB : links_back (es_ph es)) by (apply store_links_back, built_ok, B).
  assert (LT : forall d, needed (es_ph es) outs d -> d < length (es_ph es)) by (intros d N; eapply needed_lt; [|exact LB|exact N]; intros o Ho; rewrite Forall_forall in VO; auto).
  (* every operation *)
  assert (OPS : forall op, In op (m_ops m) -> exists s args x li, nth_error (es_ph es) (mo_ph op) = Some (mkPh s (Some (mo_info op, args))) /\
     nth_error D (mo_info op) = Some x /\ nth_error (es_info es') (mo_info op) = Some li /\ renamed (description (md_draws x) (md_layer x) (md_in x) "") li /\
     meant_for (md_layer x) (md_in x) (md_out x) /\ map (dims (es_ph es)) args = md_in x /\ dims (es_ph es) (mo_ph op) = md_out x /\
     create_layer li = Ok (start (md_draws x) (md_layer x) (md_in x))).
  { intros op Hop. destruct (op_info _ _ _ _ _ CO Hop) as (s & args & Hd). destruct (C _ _ _ _ Hd) as (x & Hx & Fx & Ex).
    destruct (Forall2_nth _ _ _ _ _ Fi Hx) as (li & Hli & R). pose proof (M x (nth_error_In _ _ Hx)) as Mx. exists s, args, x, li.
    split; [exact Hd|]. split; [exact Hx|]. split; [exact Hli|]. split; [exact R|]. split; [exact Mx|]. split; [|split].
    - clear -Fx. induction Fx as [|a sh l1 l2 (p & Hp & E) _ IH]; [reflexivity|]. cbn. rewrite IH. f_equal. unfold dims. rewrite Hp, E. apply zs_nat.
    - unfold dims. rewrite Hd. cbn. rewrite Ex. apply zs_nat.
    - eapply create_start; eassumption. }
  (* compile *)
  assert (NB : exists b, new_backend (es_ph es) junk m (es_info es') = Ok b).
  { unfold new_backend.
    assert (A1 : exists ls, map_res (fun op => li <- rd (es_info es') (mo_info op) ;; create_layer li) (m_ops m) = Ok ls).
    { assert (Z : forall l, incl l (m_ops m) -> exists ls, map_res (fun op => li <- rd (es_info es') (mo_info op) ;; create_layer li) l = Ok ls).
      { induction l as [|op t IH]; intros IN; [eexists; reflexivity|]. destruct IH as (ls & E); [intros z Hz; apply IN; right; exact Hz|].
        destruct (OPS op (IN op (or_introl eq_refl))) as (s & args & x & li & _ & _ & Hli & _ & _ & _ & _ & CR). cbn [map_res]. rewrite rd_nth, Hli. cbn [bind]. rewrite CR, E. eexists. reflexivity. }
      apply Z. intros z Hz. exact Hz. }
    assert (A2 : forall d, In d (map fst (m_data m)) -> exists t, (p <- rd (es_ph es) d ;; new_ten (ph_shape p) junk) = Ok t).
    { intros d Hd. apply (mf_data _ _ _ _ MF) in Hd. apply LT in Hd. rewrite rd_nth. destruct (nth_error (es_ph es) d) as [p|] eqn:Ep; [|apply nth_error_None in Ep; lia].
      cbn [bind]. destruct (Pi d p Ep) as (sh & PR & ->). rewrite new_ten_proper by exact PR. eauto. }
    assert (A3 : forall f : nat * storage -> res ten, (forall e, In e (m_data m) -> exists t, f e = Ok t) -> exists r, map_res f (m_data m) = Ok r).
    { intros f. generalize (m_data m) as l. clear. intros l H. induction l as [|e t IH]; [eexists; reflexivity|]. cbn [map_res].
      destruct (H e (or_introl eq_refl)) as (v & ->). destruct IH as (r & ->); [intros z Hz; apply H; right; exact Hz|]. eexists. reflexivity. }
    destruct A1 as (ls & ->). cbn [bind].
    destruct (A3 (alloc_mem (es_ph es) junk)) as (mem & ->).
    { intros [d s] He. unfold alloc_mem. cbn [fst snd]. destruct s; eauto. apply A2. apply in_map_iff. exists (d, SInternal). auto. }
    cbn [bind]. destruct (A3 (alloc_grad (es_ph es) junk)) as (gr & ->).
    { intros [d s] He. unfold alloc_grad. cbn [fst snd]. assert (In d (map fst (m_data m))) by (apply in_map_iff; exists (d, s); auto). destruct s; eauto. }
    eexists. reflexivity. }
  destruct NB as (b & NB). exists b. unfold model_compile. rewrite NB. split; [reflexivity|].
  destruct (compiled_fits _ _ _ _ _ _ _ MF NB) as [BF PR].
  assert (PRO : forall d s i args x, needed (es_ph es) outs d -> nth_error (es_ph es) d = Some (mkPh s (Some (i, args))) -> nth_error D i = Some x ->
      produces m (es_info es') b d (start (md_draws x) (md_layer x) (md_in x)) /\
      map (dims (es_ph es)) args = md_in x /\ dims (es_ph es) d = md_out x /\ meant_for (md_layer x) (md_in x) (md_out x)).
  { intros d s i args x N Hd Hx. destruct (PR d (mf_call _ _ _ _ MF d N (ex_intro _ args (ex_intro _ s (ex_intro _ i Hd))))) as (L & li & op & Hop & <- & Hli & CR & PL).
    destruct (OPS op Hop) as (s' & args' & x' & li' & Hd' & Hx' & Hli' & _ & Mx & E1 & E2 & CR'). rewrite Hd in Hd'. injection Hd' as <- -> <-.
    assert (x' = x) by congruence. subst x'. assert (li' = li) by congruence. subst li'. assert (L = start (md_draws x) (md_layer x) (md_in x)) by congruence. subst L. auto. }
  split; [|intros d s i args x N Hd Hx; apply (PRO d s i args x N Hd Hx)].
  destruct (state_keys es order ins outs g B VO BG TO es' m CM) as (ND & _ & K1 & _ & K2 & _).
  split; [exact BF|]. split; [|split].
  - intros d args N (s & i & Hd). destruct (C _ _ _ _ Hd) as (x & Hx & _). destruct (PRO _ _ _ _ _ N Hd Hx) as (PL & E1 & E2 & Mx).
    exists (start (md_draws x) (md_layer x) (md_in x)). split; [exact PL|]. rewrite E1, E2. split; [apply start_fits, Mx|].
    destruct (RW d s i args N Hd) as [V|(x' & Hx' & PT)]; [left; exact V|right]. assert (x' = x) by congruence. subst x'.
    destruct (md_layer x); try discriminate PT; destruct Mx as (R & _); inversion R; reflexivity.
  - intros key [i k] H. apply (in_find _ _ _ ND) in H. destruct (K2 key i k H) as (op & li & p & Hop & E & Hli & Hp & _). subst i.
    destruct (OPS op Hop) as (s' & args' & x' & li' & _ & _ & Hli' & (_ & _ & EP & _) & Mx & _). assert (li' = li) by congruence. subst li'. cbn in EP.
    unfold get_par. cbn [fst snd]. rewrite Hli.
    destruct (find_key (li_params li) k) as [q|] eqn:Q; [|exfalso; apply find_none in Q; apply Q, in_map_iff; exists (k, p); auto].
    exists q. split; [reflexivity|]. apply find_some_in in Q. rewrite EP in Q. eapply start_params_ok; eassumption.
  - intros op k p Hop G. unfold get_par in G. cbn [fst snd] in G. destruct (nth_error (es_info es') (mo_info op)) as [li|] eqn:Hli; [|discriminate G].
    apply find_some_in in G. destruct (K1 op li k p Hop Hli G) as [X _]. eexists. apply (in_find _ _ _ ND). exact X.
Qed.

(** Any model constructed by such a program compiles, its layers are those asked for, and it can be used. *)
Theorem C54_compiled_models_are_usable :
  forall (es : estore) (D : list made) (order : graph -> list gnode) (ins outs : list nat) (g : graph) (es' : estore) (m : model) (junk : nat -> R) (bo : option backend),
  plain es D -> Forall (fun d => d < length (es_ph es)) outs -> build (es_ph es) ins outs = Ok g -> is_topo g (order g) ->
  construct_model order ins outs es = RVal es' m -> reached_well es D outs ->
  exists b, model_compile (es_ph es) junk m (es_info es') bo = Ret (Some b) /\
    usable false (es_ph es) outs m (es_info es') b /\
    forall d s i args x, needed (es_ph es) outs d -> nth_error (es_ph es) d = Some (mkPh s (Some (i, args))) -> nth_error D i = Some x ->
      produces m (es_info es') b d (start (md_draws x) (md_layer x) (md_in x)).
Proof. exact compile_plain. Qed.
Print Assumptions C54_compiled_models_are_usable.

(** From the first input to the last training step: after compiling, an optimizer created from the
    model's parameters and any session whatever: nothing throws, nothing misbehaves. *)
Theorem C54_from_scratch_to_training :
  forall (es : estore) (D : list made) (order : graph -> list gnode) (ins outs : list nat) (g : graph) (es' : estore) (m : model) (junk : nat -> R) (o : optimizer) (cs : list tcall),
  plain es D -> Forall (fun d => d < length (es_ph es)) outs -> build (es_ph es) ins outs = Ok g -> is_topo g (order g) ->
  construct_model order ins outs es = RVal es' m -> reached_well es D outs -> closed (es_ph es) ins outs ->
  (exists lr gamma b1 b2 eps t, o = SGD lr \/ o = new_momentum lr gamma (params_view m (es_info es')) \/ o = new_adam lr b1 b2 eps t (params_view m (es_info es'))) ->
  legal (es_ph es) ins outs false cs ->
  exists b infos' b' o',
    model_compile (es_ph es) junk m (es_info es') None = Ret (Some b) /\
    tacts m cs (mkTS (es_info es') (Some b) o) = Ret (mkTS infos' (Some b') o').
Proof.
  intros es D order ins outs g es' m junk o cs P VO BG TO CM RW CL OPT LG.
  destruct (compile_plain es D order ins outs g es' m junk None P VO BG TO CM RW) as (b & EC & U & _).
  assert (CO : constructed es ins outs m) by (split; [apply (plain_plain_ok _ _ P)|split; [exact VO|exists order, g, es'; auto]]).
  destruct (C53_new_optimizers_fit es ins outs m (es_info es') CO) as (O1 & O2 & O3); [apply U|].
  assert (OF : opt_fits m (es_info es') o) by (destruct OPT as (lr & gamma & b1 & b2 & eps & t & [->|[->| ->]]); auto).
  destruct (C53_sessions_return es ins outs m false (es_info es') b o cs CO CL U OF LG) as (i' & b' & o' & E & _).
  exists b, i', b', o'. auto.
Qed.
Print Assumptions C54_from_scratch_to_training.

(** ** Example: Convolution, BatchNorm2D, ReLU, MaxPooling, Linear and Softmax on pictures of 4 x 4 *)
Lemma plain_next es D I l name args shs osh : plain es D -> Forall2 (has_shape (es_ph es)) args shs -> meant_for l shs osh ->
  plain (mkES (es_ph es ++ [mkPh (zs osh) (Some (length (es_info es), args))]) (es_info es ++ [description I l shs name])) (D ++ [mkMade I l shs osh]).
Proof. intros P F M. eapply plain_layer; [exact P|exact F|exact M|]. apply (apply_new I l shs osh name args es F M). Qed.

Definition ex5_layers : list made :=
  [mkMade ex_ie (AConvolution 2 (mkWin 3 3 1 1 1 1)) [[2; 1; 4; 4]] [2; 2; 4; 4];
   mkMade ex_ie (ABatchNorm2D (1 / 1000)%R (1 / 10)%R) [[2; 2; 4; 4]] [2; 2; 4; 4];
   mkMade ex_ie AReLU [[2; 2; 4; 4]] [2; 2; 4; 4];
   mkMade ex_ie (AMaxPooling (mkWin 2 2 0 0 2 2)) [[2; 2; 4; 4]] [2; 2; 2; 2];
   mkMade ex_ie (ALinear 3) [[2; 2; 2; 2]] [2; 3];
   mkMade ex_ie ASoftmax [[2; 3]] [2; 3]].
Definition ex5_es : estore :=
  fold_left (fun es x => mkES (es_ph es ++ [mkPh (zs (md_out x)) (Some (length (es_info es), [length (es_info es)]))])
                              (es_info es ++ [description (md_draws x) (md_layer x) (md_in x) ""]))
            ex5_layers (fst (new_input (zs [2; 1; 4; 4]) es0)).
Definition ex5_made : estore * model := match construct_model (by_age 7) [0] [6] ex5_es with RVal e m => (e, m) | _ => (es0, ex_m) end.

Ltac small_goal := repeat split; repeat constructor; unfold small; cbn; lia.
Lemma ex5_plain : plain ex5_es ex5_layers.
Proof.
  pose proof (plain_input _ _ [2; 1; 4; 4] plain_start ltac:(small_goal)) as P.
  assert (PL : forall inp k p s n, 0 < k -> 0 < s -> 0 < n -> (forall t, t < n <-> t * s + k <= inp + 2 * p) -> places inp k p s n) by (intros; repeat split; try assumption; apply H2).
  assert (W : forall l shs osh, result l shs osh -> Forall proper shs -> proper osh -> (forall w i o, weight_of l shs = Some (w, i, o) -> small (prodN w) /\ small (i + o)) -> meant_for l shs osh) by (intros; split; auto).
  Ltac next P l shs osh args := eapply (plain_next _ _ ex_ie l "" args shs osh) in P;
    [|constructor; [eexists; split; reflexivity|constructor]|].
  next P (AConvolution 2 (mkWin 3 3 1 1 1 1)) [[2; 1; 4; 4]] [2; 2; 4; 4] [0].
  2:{ apply W; [|repeat constructor; small_goal|small_goal|intros w i o E; injection E as <- <- <-; split; unfold small; cbn; lia].
      constructor; [lia| |]; apply PL; cbn; lia. }
  next P (ABatchNorm2D (1 / 1000)%R (1 / 10)%R) [[2; 2; 4; 4]] [2; 2; 4; 4] [1].
  2:{ apply W; [constructor|repeat constructor; small_goal|small_goal|discriminate]. }
  next P AReLU [[2; 2; 4; 4]] [2; 2; 4; 4] [2].
  2:{ apply W; [constructor|repeat constructor; small_goal|small_goal|discriminate]. }
  next P (AMaxPooling (mkWin 2 2 0 0 2 2)) [[2; 2; 4; 4]] [2; 2; 2; 2] [3].
  2:{ apply W; [|repeat constructor; small_goal|small_goal|discriminate]. constructor; apply PL; cbn; lia. }
  next P (ALinear 3) [[2; 2; 2; 2]] [2; 3] [4].
  2:{ apply W; [constructor; [discriminate|lia]|repeat constructor; small_goal|small_goal|intros w i o E; injection E as <- <- <-; split; unfold small; cbn; lia]. }
  next P ASoftmax [[2; 3]] [2; 3] [5].
  2:{ apply W; [constructor|repeat constructor; small_goal|small_goal|discriminate]. }
  exact P.
Qed.

Example C54_nonvacuous :
  plain ex5_es ex5_layers /\ Forall (fun d => d < length (es_ph ex5_es)) [6] /\
  (exists g, build (es_ph ex5_es) [0] [6] = Ok g /\ is_topo g (by_age 7 g)) /\
  construct_model (by_age 7) [0] [6] ex5_es = RVal (fst ex5_made) (snd ex5_made) /\
  reached_well ex5_es ex5_layers [6] /\ closed (es_ph ex5_es) [0] [6] /\
  map fst (m_params (snd ex5_made)) = ["convolution0.weight"; "convolution0.bias"; "batchnorm2d1.gamma"; "batchnorm2d1.beta"; "linear4.weight"; "linear4.bias"].
Proof.
  assert (B : built ex5_es) by (apply (plain_plain_ok _ _ ex5_plain)).
  assert (LT : forall d, needed (es_ph ex5_es) [6] d -> d <= 6) by (intros d N; apply (needed_le (es_ph ex5_es)); [apply store_links_back, built_ok, B|exact N]).
  split; [exact ex5_plain|]. split; [repeat constructor|]. split.
  { eexists. split; [vm_compute; reflexivity|]. eapply (by_age_topo (es_ph ex5_es) [0] [6]); [apply store_links_back, built_ok, B| |vm_compute; reflexivity].
    intros o [<-|[]]. vm_compute. lia. }
  split; [vm_compute; reflexivity|]. split.
  { intros d s i args N _. left. specialize (LT d N). do 7 (destruct d as [|d]; [vm_compute; reflexivity|]). lia. }
  split; [|vm_compute; reflexivity].
  split; [repeat constructor; intros []|]. split; [repeat constructor; intros []|]. split; [|split].
  - intros d [<-|[]] (args & s & i & H). discriminate H.
  - intros d [<-|[]]. eexists. eexists. eexists. reflexivity.
  - intros d N. specialize (LT d N). destruct d as [|d]; [right; left; reflexivity|left]. do 6 (destruct d as [|d]; [eexists; eexists; eexists; reflexivity|]). lia.
Qed.
