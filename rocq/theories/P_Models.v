(** Proofs for [Prop_Models]: a call on a model reads and writes only the layers of that model. *)
From Coq Require Import Reals String List Lia.
From Verif Require Import Base BaseFacts Sums M_Layers M_Optim M_Nn M_Graph M_Model M_Backend M_Train M_Models S_Models.
Import ListNotations.
Local Open Scope list_scope.
Open Scope nat_scope.

Definition like (a b : linfo) : Prop := li_params a = li_params b /\ li_bufs a = li_bufs b.
Definition agree (U : nat -> Prop) (i1 i2 : list linfo) : Prop := forall k, U k -> numbers i1 k = numbers i2 k.
Definition untouched (U : nat -> Prop) (i j : list linfo) : Prop := forall k, ~ U k -> nth_error j k = nth_error i k.

Lemma load_like a b L : like a b -> load a L = load b L.
Proof. intros [P B]. destruct L; cbn [load]; unfold par, bufr; rewrite ?P, ?B; reflexivity. Qed.
Lemma lstore_like a b L : like a b -> like (lstore L a) (lstore L b).
Proof. intros [P B]. destruct L; unfold lstore, set_par, set_buf, like; cbn [li_params li_bufs]; rewrite ?P, ?B; auto. Qed.

Lemma rd_agree U i1 i2 k : agree U i1 i2 -> U k ->
  (rd i1 k = UB /\ rd i2 k = UB) \/ (exists a b, rd i1 k = Ok a /\ rd i2 k = Ok b /\ like a b /\ nth_error i1 k = Some a /\ nth_error i2 k = Some b).
Proof.
  intros A u. specialize (A k u). unfold numbers in A. unfold rd.
  destruct (nth_error i1 k) as [a|], (nth_error i2 k) as [b|]; try discriminate; [right|left; auto].
  exists a, b. inversion A. repeat split; assumption.
Qed.

Lemma agree_upd U i1 i2 k a b a' b' : agree U i1 i2 -> nth_error i1 k = Some a -> nth_error i2 k = Some b -> like a' b' ->
  agree U (upd i1 k a') (upd i2 k b').
Proof.
  intros A E1 E2 [P B] j u. unfold numbers. destruct (Nat.eq_dec j k) as [->|N].
  - rewrite !nth_error_upd_eq by (apply nth_error_Some; congruence). rewrite P, B. reflexivity.
  - rewrite !nth_error_upd_neq by auto. exact (A j u).
Qed.
Lemma untouched_upd (U : nat -> Prop) i k a : U k -> untouched U i (upd i k a).
Proof. intros u j N. apply nth_error_upd_neq. intros ->. contradiction. Qed.
Lemma untouched_trans U i j k : untouched U i j -> untouched U j k -> untouched U i k.
Proof. intros A B x N. rewrite (B x N). apply A. exact N. Qed.
Lemma untouched_refl U i : untouched U i i. Proof. intros x _. reflexivity. Qed.

(** Two runs from agreeing descriptions. *)
Definition near (U : nat -> Prop) {A} (i1 i2 : list linfo) (p : A -> list linfo) (x y : A) (q : A -> A -> Prop) : Prop :=
  agree U (p x) (p y) /\ untouched U i1 (p x) /\ untouched U i2 (p y) /\ q x y.
Definition same_st {A} (R : A -> A -> Prop) (x y : st A) : Prop :=
  match x, y with Ret a, Ret b => R a b | Exc a, Exc b => R a b | Bad, Bad => True | _, _ => False end.
Definition same_res {A} (R : A -> A -> Prop) (x y : res A) : Prop :=
  match x, y with Ok a, Ok b => R a b | Throw, Throw => True | UB, UB => True | _, _ => False end.

Definition near3 {B C} U i1 i2 (x y : list linfo * B * C) : Prop :=
  match x, y with (j1, b1, c1), (j2, b2, c2) => agree U j1 j2 /\ untouched U i1 j1 /\ untouched U i2 j2 /\ b1 = b2 /\ c1 = c2 end.

Ltac res_step H :=
  match goal with |- context [bind ?x _] => destruct x; cbn [bind]; [|exact H|exact H] end.

Lemma fwd_step_near U E op L i1 i2 mem : agree U i1 i2 -> U (mo_info op) ->
  same_res (near3 U i1 i2) (fwd_step E op L i1 mem) (fwd_step E op L i2 mem).
Proof.
  intros A u. unfold fwd_step.
  destruct (extract mem (mo_in op)) as [ins| |]; cbn [bind]; try exact Logic.I.
  destruct (extract mem (mo_out op)) as [outs| |]; cbn [bind]; try exact Logic.I.
  destruct (rd_agree U i1 i2 (mo_info op) A u) as [[E1 E2]|(a & b & E1 & E2 & K & N1 & N2)]; rewrite E1, E2; cbn [bind]; [exact Logic.I|].
  rewrite (load_like a b L K). destruct (load b L) as [L0| |]; cbn [bind]; try exact Logic.I.
  destruct (lforward E L0 ins outs) as [[L1 o]| |]; cbn [bind]; try exact Logic.I.
  destruct (front (mo_out op)) as [k| |]; cbn [bind]; try exact Logic.I.
  destruct (wr mem k o) as [mem1| |]; cbn [bind]; try exact Logic.I.
  cbn [same_res near3]. split; [|split; [|split; [|split; reflexivity]]].
  - exact (agree_upd U i1 i2 _ a b _ _ A N1 N2 (lstore_like a b L1 K)).
  - apply untouched_upd, u.
  - apply untouched_upd, u.
Qed.

Lemma near3_trans {B C} U i1 i2 j1 j2 (x y : list linfo * B * C) : untouched U i1 j1 -> untouched U i2 j2 -> near3 U j1 j2 x y -> near3 U i1 i2 x y.
Proof.
  intros A B' N. destruct x as [[? ?] ?], y as [[? ?] ?]. cbn [near3] in *. destruct N as (X & Y & Z & W).
  split; [exact X|]. split; [exact (untouched_trans _ _ _ _ A Y)|]. split; [exact (untouched_trans _ _ _ _ B' Z)|exact W].
Qed.

Lemma fwd_ops_near U E : forall ops ls i1 i2 mem, agree U i1 i2 -> (forall op, In op ops -> U (mo_info op)) ->
  same_st (near3 U i1 i2) (fwd_ops E ops ls i1 mem) (fwd_ops E ops ls i2 mem).
Proof.
  induction ops as [|op ops IH]; intros ls i1 i2 mem A u; cbn [fwd_ops].
  { cbn. auto using untouched_refl. }
  destruct ls as [|L lt]; [exact Logic.I|].
  pose proof (fwd_step_near U (E (mo_ph op)) op L i1 i2 mem A (u op (or_introl eq_refl))) as S0.
  destruct (fwd_step (E (mo_ph op)) op L i1 mem) as [[[j1 L1] m1]| |], (fwd_step (E (mo_ph op)) op L i2 mem) as [[[j2 L2] m2]| |];
    cbn [same_res] in S0; try contradiction; cbn [lift].
  - destruct S0 as (A1 & U1 & U2 & <- & <-).
    specialize (IH lt j1 j2 m1 A1 (fun o I => u o (or_intror I))).
    destruct (fwd_ops E ops lt j1 m1) as [[[x1 y1] z1]|[[x1 y1] z1]|], (fwd_ops E ops lt j2 m1) as [[[x2 y2] z2]|[[x2 y2] z2]|];
      cbn [same_st] in IH |- *; try contradiction; auto;
      destruct IH as (A2 & V1 & V2 & <- & <-); cbn [near3];
      (split; [exact A2|]); (split; [exact (untouched_trans _ _ _ _ U1 V1)|]); (split; [exact (untouched_trans _ _ _ _ U2 V2)|]); auto.
  - cbn [same_st near3]. auto using untouched_refl.
  - exact Logic.I.
Qed.

Definition near4 {B C D} U i1 i2 (x y : list linfo * B * C * D) : Prop :=
  match x, y with (j1, b1, c1, d1), (j2, b2, c2, d2) => agree U j1 j2 /\ untouched U i1 j1 /\ untouched U i2 j2 /\ b1 = b2 /\ c1 = c2 /\ d1 = d2 end.

Lemma forward_near U E m i1 i2 bo ins outs : agree U i1 i2 -> (forall op, In op (m_ops m) -> U (mo_info op)) ->
  same_st (near4 U i1 i2) (model_forward E m i1 bo ins outs) (model_forward E m i2 bo ins outs).
Proof.
  intros A u. unfold model_forward. destruct bo as [b|]; [|cbn; auto 8 using untouched_refl]. unfold backend_forward.
  match goal with |- same_st _ (match ?x with _ => _ end) _ => destruct x as [[[ii oi] mem]| |] end; try exact Logic.I; [|cbn; auto 8 using untouched_refl].
  pose proof (fwd_ops_near U E (m_ops m) (b_layers b) i1 i2 mem A u) as F.
  destruct (fwd_ops E (m_ops m) (b_layers b) i1 mem) as [[[x1 y1] z1]|[[x1 y1] z1]|], (fwd_ops E (m_ops m) (b_layers b) i2 mem) as [[[x2 y2] z2]|[[x2 y2] z2]|];
    cbn [same_st] in F; try contradiction; [| |exact Logic.I]; destruct F as (A2 & V1 & V2 & <- & <-);
    destruct (unbind ii oi z1 ins), (unbind oi [] z1 outs); cbn; auto 8.
Qed.

Lemma bwd_step_near U E mem op L i1 i2 grad : agree U i1 i2 -> U (mo_info op) ->
  same_st (near3 U i1 i2) (bwd_step E mem op L i1 grad) (bwd_step E mem op L i2 grad).
Proof.
  intros A u. unfold bwd_step.
  assert (R0 : near3 U i1 i2 (i1, L, grad) (i2, L, grad)) by (cbn; auto 8 using untouched_refl).
  destruct (extract grad (mo_in op)) as [gi| |]; cbn [bind lift]; try (exact R0 || exact Logic.I).
  destruct (extract mem (mo_in op)) as [ins| |]; cbn [bind lift]; try (exact R0 || exact Logic.I).
  destruct (extract mem (mo_out op)) as [outs| |]; cbn [bind lift]; try (exact R0 || exact Logic.I).
  destruct (extract grad (mo_out op)) as [gouts| |]; cbn [bind lift]; try (exact R0 || exact Logic.I).
  destruct (rd_agree U i1 i2 (mo_info op) A u) as [[E1 E2]|(a & b & E1 & E2 & K & N1 & N2)]; rewrite E1, E2; cbn [bind lift]; [exact Logic.I|].
  rewrite (load_like a b L K). destruct (load b L) as [L0| |]; cbn [bind lift]; try (exact R0 || exact Logic.I).
  destruct (lupdate E L0 ins gouts) as [L1| |]; cbn [lift]; try (exact R0 || exact Logic.I).
  destruct (lbackward E L1 ins outs grad (mo_in op) (mo_out op)) as [[L2 g1]| |]; cbn [lift same_st near3]; try exact Logic.I.
  - split; [exact (agree_upd U i1 i2 _ a b _ _ A N1 N2 (lstore_like a b L2 K))|].
    split; [apply untouched_upd, u|]. split; [apply untouched_upd, u|]. auto.
  - split; [exact (agree_upd U i1 i2 _ a b _ _ A N1 N2 (lstore_like a b L1 K))|].
    split; [apply untouched_upd, u|]. split; [apply untouched_upd, u|]. auto.
Qed.

Lemma bwd_ops_near U E mem : forall ops ls i1 i2 grad, agree U i1 i2 -> (forall op, In op ops -> U (mo_info op)) ->
  same_st (near3 U i1 i2) (bwd_ops E mem ops ls i1 grad) (bwd_ops E mem ops ls i2 grad).
Proof.
  induction ops as [|op ops IH]; intros ls i1 i2 grad A u; cbn [bwd_ops].
  { cbn. auto using untouched_refl. }
  destruct ls as [|L lt]; [exact Logic.I|].
  specialize (IH lt i1 i2 grad A (fun o I => u o (or_intror I))).
  destruct (bwd_ops E mem ops lt i1 grad) as [[[x1 y1] z1]|[[x1 y1] z1]|], (bwd_ops E mem ops lt i2 grad) as [[[x2 y2] z2]|[[x2 y2] z2]|];
    cbn [same_st] in IH; try contradiction; [| |exact Logic.I]; destruct IH as (A2 & V1 & V2 & <- & <-).
  - pose proof (bwd_step_near U (E (mo_ph op)) mem op L x1 x2 z1 A2 (u op (or_introl eq_refl))) as S0.
    destruct (bwd_step (E (mo_ph op)) mem op L x1 z1) as [[[j1 L1] g1]|[[j1 L1] g1]|], (bwd_step (E (mo_ph op)) mem op L x2 z1) as [[[j2 L2] g2]|[[j2 L2] g2]|];
      cbn [same_st] in S0 |- *; try contradiction; auto; destruct S0 as (A3 & W1 & W2 & <- & <-); cbn [near3];
      (split; [exact A3|]); (split; [exact (untouched_trans _ _ _ _ V1 W1)|]); (split; [exact (untouched_trans _ _ _ _ V2 W2)|]); auto.
  - cbn. auto 8.
Qed.

Lemma backward_near U E m i1 i2 bo ins outs gouts : agree U i1 i2 -> (forall op, In op (m_ops m) -> U (mo_info op)) ->
  same_st (near3 U i1 i2) (model_backward E m i1 bo ins outs gouts) (model_backward E m i2 bo ins outs gouts).
Proof.
  intros A u. unfold model_backward. destruct bo as [b|]; [|cbn; auto 8 using untouched_refl]. unfold backend_backward.
  match goal with |- same_st _ (match ?x with _ => _ end) _ => destruct x as [[[oi mem] gr]| |] end; try exact Logic.I; [|cbn; auto 8 using untouched_refl].
  pose proof (bwd_ops_near U E mem (m_ops m) (b_layers b) i1 i2 gr A u) as F.
  destruct (bwd_ops E mem (m_ops m) (b_layers b) i1 gr) as [[[x1 y1] z1]|[[x1 y1] z1]|], (bwd_ops E mem (m_ops m) (b_layers b) i2 gr) as [[[x2 y2] z2]|[[x2 y2] z2]|];
    cbn [same_st] in F; try contradiction; [| |exact Logic.I]; destruct F as (A2 & V1 & V2 & <- & <-);
    destruct (unbind oi [] z1 gouts); cbn; auto 8.
Qed.

(** train and the optimizers *)
Lemma get_par_agree U i1 i2 r : agree U i1 i2 -> U (fst r) -> get_par i1 r = get_par i2 r.
Proof.
  intros A u. specialize (A _ u). unfold numbers in A. unfold get_par.
  destruct (nth_error i1 (fst r)) as [a|], (nth_error i2 (fst r)) as [b|]; try discriminate; [|reflexivity]. inversion A as [[P B]]. rewrite P. reflexivity.
Qed.
Lemma on_par_near U f i1 i2 r : agree U i1 i2 -> U (fst r) ->
  agree U (on_par f i1 r) (on_par f i2 r) /\ untouched U i1 (on_par f i1 r) /\ untouched U i2 (on_par f i2 r).
Proof.
  intros A u. pose proof (A _ u) as A'. unfold numbers in A'. unfold on_par.
  destruct (nth_error i1 (fst r)) as [a|] eqn:E1, (nth_error i2 (fst r)) as [b|] eqn:E2; try discriminate; [|auto using untouched_refl].
  inversion A' as [[P B]]. rewrite P. destruct (find_key (li_params b) (snd r)) as [p|]; [|auto using untouched_refl].
  split; [|split; apply untouched_upd, u].
  refine (agree_upd U i1 i2 (fst r) a b _ _ A E1 E2 _). unfold like, set_par. cbn [li_params li_bufs]. rewrite P. auto.
Qed.
Lemma on_pars_near U (f : string * (nat * string) -> option (prm -> prm)) : forall l i1 i2, agree U i1 i2 -> (forall e, In e l -> U (fst (snd e))) ->
  let g := fold_left (fun i e => match f e with Some h => on_par h i (snd e) | None => i end) in
  agree U (g l i1) (g l i2) /\ untouched U i1 (g l i1) /\ untouched U i2 (g l i2).
Proof.
  induction l as [|e l IH]; intros i1 i2 A u; cbn [fold_left]; [auto using untouched_refl|].
  assert (X : agree U (match f e with Some h => on_par h i1 (snd e) | None => i1 end) (match f e with Some h => on_par h i2 (snd e) | None => i2 end) /\
    untouched U i1 (match f e with Some h => on_par h i1 (snd e) | None => i1 end) /\ untouched U i2 (match f e with Some h => on_par h i2 (snd e) | None => i2 end)).
  { destruct (f e) as [h|]; [|auto using untouched_refl]. apply on_par_near; [exact A|]. apply u. left. reflexivity. }
  destruct X as (X & Y & Z). destruct (IH _ _ X (fun o I => u o (or_intror I))) as (X2 & Y2 & Z2).
  split; [exact X2|]. split; eauto using untouched_trans.
Qed.
Lemma train_near U mode m i1 i2 : agree U i1 i2 -> (forall e, In e (m_params m) -> U (fst (snd e))) ->
  agree U (model_train mode m i1) (model_train mode m i2) /\ untouched U i1 (model_train mode m i1) /\ untouched U i2 (model_train mode m i2).
Proof. exact (on_pars_near U (fun _ => Some (train_prm mode)) (m_params m) i1 i2). Qed.
Lemma write_near U pm m i1 i2 : agree U i1 i2 -> (forall e, In e (m_params m) -> U (fst (snd e))) ->
  agree U (params_write m pm i1) (params_write m pm i2) /\ untouched U i1 (params_write m pm i1) /\ untouched U i2 (params_write m pm i2).
Proof.
  intros A u. pose proof (on_pars_near U (fun e => match find_key pm (fst e) with Some p => Some (fun _ => p) | None => None end) (m_params m) i1 i2 A u) as X.
  cbn zeta in X. unfold params_write.
  assert (Q : forall l i, fold_left (fun infos e => match find_key pm (fst e) with Some p => on_par (fun _ => p) infos (snd e) | None => infos end) l i =
    fold_left (fun i e => match match find_key pm (fst e) with Some p => Some (fun _ => p) | None => None end with Some h => on_par h i (snd e) | None => i end) l i).
  { induction l as [|e l IH]; intros i; cbn [fold_left]; [reflexivity|]. rewrite IH. destruct (find_key pm (fst e)); reflexivity. }
  rewrite !Q. exact X.
Qed.
Lemma view_agree U m i1 i2 : agree U i1 i2 -> (forall e, In e (m_params m) -> U (fst (snd e))) -> params_view m i1 = params_view m i2.
Proof.
  intros A. unfold params_view. induction (m_params m) as [|e l IH]; intros u; cbn [flat_map]; [reflexivity|].
  rewrite (get_par_agree U i1 i2 (snd e) A (u e (or_introl eq_refl))), IH; [reflexivity|]. intros o I. apply u. right. exact I.
Qed.

(** One call. *)
Definition neart U i1 i2 (x y : tstate) : Prop :=
  agree U (ts_info x) (ts_info y) /\ untouched U i1 (ts_info x) /\ untouched U i2 (ts_info y) /\ ts_backend x = ts_backend y /\ ts_opt x = ts_opt y.
(** The parameters of the model belong to its layers. *)
Definition own_params (m : model) : Prop := forall e, In e (m_params m) -> uses m (fst (snd e)).

Lemma uses_op m op : In op (m_ops m) -> uses m (mo_info op). Proof. intros I. exists op. auto. Qed.

Lemma tact_near m c i1 i2 b o : own_params m -> agree (uses m) i1 i2 ->
  same_st (neart (uses m) i1 i2) (tact m c (mkTS i1 b o)) (tact m c (mkTS i2 b o)) /\
  handed m c (mkTS i1 b o) = handed m c (mkTS i2 b o).
Proof.
  intros OP A. unfold tact, handed. cbn [ts_info ts_backend ts_opt]. destruct c as [E ins outs|E ins outs gouts|mode| |r].
  - pose proof (forward_near (uses m) E m i1 i2 b ins outs A (uses_op m)) as F.
    destruct (model_forward E m i1 b ins outs) as [[[[? ?] ?] ?]|[[[? ?] ?] ?]|], (model_forward E m i2 b ins outs) as [[[[? ?] ?] ?]|[[[? ?] ?] ?]|];
      cbn [same_st] in F; try contradiction; [| |split; [exact Logic.I|reflexivity]]; destruct F as (X & Y & Z & <- & <- & <-);
      (split; [|reflexivity]); unfold neart; cbn; auto 8.
  - pose proof (backward_near (uses m) E m i1 i2 b ins outs gouts A (uses_op m)) as F.
    destruct (model_backward E m i1 b ins outs gouts) as [[[? ?] ?]|[[? ?] ?]|], (model_backward E m i2 b ins outs gouts) as [[[? ?] ?]|[[? ?] ?]|];
      cbn [same_st] in F; try contradiction; [| |split; [exact Logic.I|reflexivity]]; destruct F as (X & Y & Z & <- & <-);
      (split; [|reflexivity]); unfold neart; cbn; auto 8.
  - split; [|reflexivity]. destruct (train_near (uses m) mode m i1 i2 A OP) as (X & Y & Z). unfold neart. cbn. auto 8.
  - split; [|reflexivity]. unfold model_step. rewrite (view_agree (uses m) m i1 i2 A OP).
    destruct (opt_step o (params_view m i2)) as [[pm o']|[pm o']|]; [| |exact Logic.I];
      destruct (write_near (uses m) pm m i1 i2 A OP) as (X & Y & Z); unfold neart; cbn; auto 8.
  - split; [|reflexivity]. unfold neart. cbn. auto 8 using untouched_refl.
Qed.
