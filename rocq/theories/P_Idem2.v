(** Model::backward run twice; what it may change. *)
From Coq Require Import Reals String Lia Lra.
From Verif Require Import Base BaseFacts Sums M_Layers M_Optim M_Nn M_Graph M_Model M_Backend S_Grad S_Graph S_Run
  P_Graph P_Graph2 P_Model P_Run P_Fwd P_Load P_Bwd P_Idem.
Open Scope nat_scope.

(** ** Binding again *)
Lemma bind_again ids : forall ts M M2 M', length M2 = length M -> bind_ids ids ts M = Ok M' ->
  exists M2', bind_ids ids ts M2 = Ok M2' /\ length M' = length M /\ length M2' = length M2 /\
    (forall q, In q ids -> nth_error M2' q = nth_error M' q) /\ (forall q, ~ In q ids -> nth_error M' q = nth_error M q /\ nth_error M2' q = nth_error M2 q).
Proof.
  induction ids as [|i it IH]; intros ts M M2 M' L H; cbn in *.
  - injection H as <-. exists M2. repeat split; auto. intros q [].
  - destruct ts as [|t tl]; [discriminate|]. unfold wr in *. destruct (Nat.ltb_spec i (length M)); [|discriminate]. cbn [bind] in H.
    destruct (Nat.ltb_spec i (length M2)); [|lia]. cbn [bind].
    destruct (IH tl (upd M i t) (upd M2 i t) M') as (M2' & E & L1 & L2 & A & B); [rewrite !upd_length; exact L|exact H|].
    rewrite upd_length in L1, L2. exists M2'. split; [exact E|]. split; [exact L1|]. split; [exact L2|]. split.
    + intros q Hq. destruct (in_dec Nat.eq_dec q it) as [I|I]; [apply A, I|]. destruct (B q I) as [B1 B2]. destruct Hq as [<-|Hq]; [|contradiction].
      rewrite B1, B2, !nth_error_upd_eq by assumption. reflexivity.
    + intros q Hq. destruct (B q) as [B1 B2]; [tauto|]. rewrite B1, B2, !nth_error_upd_neq by (intros ->; apply Hq; left; reflexivity). auto.
Qed.

Lemma bind2_again ii oi ti to M M1 M2 : bind_ids ii ti M = Ok M1 -> bind_ids oi to M1 = Ok M2 ->
  exists M1', bind_ids ii ti M2 = Ok M1' /\ bind_ids oi to M1' = Ok M2.
Proof.
  intros H1 H2. assert (L1 : length M1 = length M) by (destruct (bind_again ii ti M M M1 eq_refl H1) as (? & _ & L & _); exact L).
  assert (L2 : length M2 = length M1) by (destruct (bind_again oi to M1 M1 M2 eq_refl H2) as (? & _ & L & _); exact L).
  destruct (bind_again ii ti M M2 M1) as (M1' & E1 & _ & L1' & A1 & B1); [congruence|exact H1|]. exists M1'. split; [exact E1|].
  destruct (bind_again oi to M1 M1' M2) as (M2' & E2 & _ & L2' & A2 & B2); [congruence|exact H2|]. rewrite E2. f_equal. apply nth_error_eq. intros q.
  destruct (in_dec Nat.eq_dec q oi) as [I|I]; [apply A2, I|]. destruct (B2 q I) as [X Y]. rewrite Y.
  destruct (in_dec Nat.eq_dec q ii) as [J|J]; [rewrite (A1 q J); congruence|]. destruct (B1 q J) as [Z W]. congruence.
Qed.

(** ** The gradient memory *)
Lemma same_dims_nth g g' p t : same_dims g g' -> nth_error g p = Some t -> exists t', nth_error g' p = Some t' /\ tsh t' = tsh t /\ tot t' = tot t.
Proof. intros H E. destruct (Forall2_nth_error _ _ _ H p t E) as (t' & A & B). eauto. Qed.
Lemma same_dims_len g g' : same_dims g g' -> length g' = length g.
Proof. intros H. symmetry. exact (Forall2_len _ _ _ H). Qed.

Lemma zero_ten_dims t t' : tsh t' = tsh t -> tot t' = tot t -> zero_ten t' = zero_ten t.
Proof. intros A B. unfold zero_ten, set_dat. rewrite A, B. reflexivity. Qed.
Lemma zero_ten_twice t : zero_ten (zero_ten t) = zero_ten t.
Proof. apply zero_ten_dims; [reflexivity|]. unfold tot. cbn. rewrite repeat_length. reflexivity. Qed.

Lemma zero_grads_at dt gr n : nth_error (zero_grads dt gr) n =
  match nth_error dt n, nth_error gr n with
  | Some (_, SOutput), Some t => Some t | Some _, Some t => Some (zero_ten t) | _, _ => None end.
Proof.
  unfold zero_grads. revert gr n. induction dt as [|[d s] t IH]; intros [|g gr] [|n]; cbn; try reflexivity; try apply IH; try (destruct s; reflexivity).
  destruct (nth_error t n) as [[? []]|]; reflexivity.
Qed.
Lemma zero_grads_len dt gr : length (zero_grads dt gr) = Nat.min (length dt) (length gr).
Proof. unfold zero_grads. rewrite map_length, combine_length. reflexivity. Qed.

(** The first run's gradients before the loop are the second's. *)
Lemma zero_bind_again dt oi gouts gr gr1 gr2 : bind_ids oi gouts (zero_grads dt gr) = Ok gr1 -> same_dims gr1 gr2 ->
  (forall n d, nth_error dt n = Some (d, SOutput) -> In n oi) -> bind_ids oi gouts (zero_grads dt gr2) = Ok gr1.
Proof.
  intros H SD OI. assert (L1 : length gr1 = length (zero_grads dt gr)) by (destruct (bind_again oi gouts _ _ _ eq_refl H) as (? & _ & L & _); exact L).
  assert (L2 : length (zero_grads dt gr2) = length (zero_grads dt gr)).
  { rewrite !zero_grads_len in *. apply same_dims_len in SD. lia. }
  destruct (bind_again oi gouts _ _ _ L2 H) as (X & E & _ & LX & A & B). rewrite E. f_equal. apply nth_error_eq. intros q.
  destruct (in_dec Nat.eq_dec q oi) as [I|I]; [apply A, I|]. destruct (B q I) as [B1 B2]. rewrite B2, zero_grads_at.
  destruct (nth_error dt q) as [[d s]|] eqn:Ed.
  - destruct (nth_error gr1 q) as [t|] eqn:Et.
    + destruct (same_dims_nth _ _ _ _ SD Et) as (t' & Et' & S1 & S2). rewrite Et'. symmetry in B1. rewrite zero_grads_at, Ed in B1.
      destruct s; try (exfalso; apply I; eapply OI; exact Ed); destruct (nth_error gr q); try discriminate; injection B1 as <-;
        rewrite (zero_ten_dims _ _ S1 S2), zero_ten_twice; reflexivity.
    + assert (nth_error gr2 q = None) as ->; [|destruct s; reflexivity].
      apply nth_error_None. apply nth_error_None in Et. rewrite (same_dims_len _ _ SD). exact Et.
  - symmetry. rewrite B1, zero_grads_at, Ed. reflexivity.
Qed.

(** ** The loop *)
Lemma touched_kind L L' ids : same_kind L L' -> touched L' ids = touched L ids.
Proof. destruct L, L'; cbn; try tauto; reflexivity. Qed.

Definition outcome {A} (r : st A) (x : A) : Prop := r = Ret x \/ r = Exc x.

Lemma bwd_step_framed E mem op L infos gr i2 L2 g2 : outcome (bwd_step E mem op L infos gr) (i2, L2, g2) -> framed gr g2 (touched L (mo_in op)).
Proof.
  assert (R : framed gr gr (touched L (mo_in op))) by (split; [apply same_dims_refl|reflexivity]).
  unfold bwd_step, lift, outcome. intros H.
  destruct (bind (extract gr (mo_in op)) _) as [[[[[ins outs] gouts] li] L0]| |] eqn:E1;
    [|destruct H as [H|H]; try discriminate H; injection H as <- <- <-; exact R|destruct H; discriminate].
  inv_ok E1. injection E1 as <- <- <- <- <-.
  match type of H with context [lupdate ?e ?l ?i ?g] => destruct (lupdate e l i g) as [L1| |] eqn:U2 end;
    [|destruct H as [H|H]; try discriminate H; injection H as <- <- <-; exact R|destruct H; discriminate].
  match type of H with context [lbackward ?a ?b ?c ?d ?e ?f ?g] => destruct (lbackward a b c d e f g) as [[L3 g3]| |] eqn:U3 end;
    [|destruct H as [H|H]; try discriminate H; injection H as <- <- <-; exact R|destruct H; discriminate].
  destruct H as [H|H]; [|discriminate H]. injection H as <- <- <-. apply lbackward_framed in U3.
  rewrite (touched_kind L L1) in U3; [exact U3|]. eapply same_kind_trans; [eapply load_kind; eassumption|apply (lupdate_kind _ _ _ _ _ U2)].
Qed.

Lemma bwd_framed E mem : forall ops ls infos gr i1 l1 g1, outcome (bwd_ops E mem ops ls infos gr) (i1, l1, g1) ->
  same_dims gr g1 /\ forall p, (forall j op L, nth_error ops j = Some op -> nth_error ls j = Some L -> ~ In p (touched L (mo_in op))) -> nth_error g1 p = nth_error gr p.
Proof.
  induction ops as [|op ot IH]; intros ls infos gr i1 l1 g1 H; cbn in H.
  - destruct H as [H|H]; [|discriminate]. injection H as -> -> ->. split; [apply same_dims_refl|reflexivity].
  - destruct ls as [|L lt]; [destruct H; discriminate|]. destruct (bwd_ops E mem ot lt infos gr) as [[[i0 l0] g0]|[[i0 l0] g0]|] eqn:E0; [| |destruct H; discriminate].
    + destruct (IH lt infos gr i0 l0 g0 (or_introl E0)) as [A B].
      assert (X : exists L2 l2, outcome (bwd_step (E (mo_ph op)) mem op L i0 g0) (i1, L2, g1) /\ l1 = L2 :: l2).
      { destruct (bwd_step (E (mo_ph op)) mem op L i0 g0) as [[[i2 L2] g2]|[[i2 L2] g2]|]; destruct H as [H|H]; try discriminate H; injection H as <- <- <-; eexists; eexists; split; try reflexivity; [left|right]; reflexivity. }
      destruct X as (L2 & l2 & X & ->). destruct (bwd_step_framed _ _ _ _ _ _ _ _ _ X) as [C D].
      split; [eapply same_dims_trans; eassumption|]. intros p Hp. rewrite D, B; [reflexivity| |].
      * intros j o L' Ho HL. exact (Hp (S j) o L' Ho HL).
      * exact (Hp 0 op L eq_refl eq_refl).
    + destruct H as [H|H]; [discriminate|]. injection H as <- <- <-. destruct (IH lt infos gr i0 l0 g0 (or_intror E0)) as [A B]. split; [exact A|].
      intros p Hp. apply B. intros j o L' Ho HL. exact (Hp (S j) o L' Ho HL).
Qed.

(** ** The descriptions *)
Definition same_prm (e e' : string * prm) : Prop := fst e' = fst e /\ p_data (snd e') = p_data (snd e) /\ p_train (snd e') = p_train (snd e).
Definition same_li (li li' : linfo) : Prop :=
  li_name li' = li_name li /\ li_type li' = li_type li /\ li_attrs li' = li_attrs li /\ li_bufs li' = li_bufs li /\ Forall2 same_prm (li_params li) (li_params li').
Lemma same_li_refl li : same_li li li.
Proof. repeat split. induction (li_params li); constructor; [repeat split|assumption]. Qed.
Lemma same_prms_trans l1 : forall l2 l3, Forall2 same_prm l1 l2 -> Forall2 same_prm l2 l3 -> Forall2 same_prm l1 l3.
Proof.
  induction l1 as [|a l1 IH]; intros l2 l3 H K; inversion H as [|? b ? ? H1 H2]; subst; inversion K as [|? c ? ? K1 K2]; subst; constructor; [|eapply IH; eassumption].
  destruct H1 as (A & B & C), K1 as (A' & B' & C'). repeat split; congruence.
Qed.
Lemma same_li_trans a b c : same_li a b -> same_li b c -> same_li a c.
Proof. intros (A1 & A2 & A3 & A4 & A5) (B1 & B2 & B3 & B4 & B5). repeat split; try congruence. eapply same_prms_trans; eassumption. Qed.
Lemma set_key_found {V} (l : list (string * V)) k v : find_key l k = Some v -> set_key l k v = l.
Proof. induction l as [|[x w] t IH]; cbn; [reflexivity|]. destruct (String.eqb_spec x k) as [->|]; [intros [= ->]; reflexivity|]. intros H. rewrite (IH H). reflexivity. Qed.
Lemma set_key_prm l k p q : find_key l k = Some p -> p_data q = p_data p -> p_train q = p_train p -> Forall2 same_prm l (set_key l k q).
Proof.
  intros F D T. induction l as [|[x w] t IH]; [constructor|]. cbn in *. destruct (String.eqb_spec x k) as [->|].
  - injection F as ->. constructor; [repeat split; assumption|]. clear. induction t; constructor; [repeat split|assumption].
  - constructor; [repeat split|apply IH, F].
Qed.

Definition rbufs (L : layer) : list ten :=
  match L with LBN1 _ _ _ _ _ rm rv _ => [rm; rv] | LBN2 _ _ _ _ _ rm rv _ _ _ => [rm; rv] | _ => [] end.
Lemma lupdate_bufs E L ins gouts L' : lupdate E L ins gouts = Ok L' -> rbufs L' = rbufs L.
Proof. intros H. destruct L; cbn in H; inv_all H; injection H as <-; reflexivity. Qed.
Lemma lbackward_bufs E L ins outs gm gi go L' gm' : lbackward E L ins outs gm gi go = Ok (L', gm') -> rbufs L' = rbufs L.
Proof. intros H. destruct L; cbn in H; inv_all H; injection H as <- _; reflexivity. Qed.

Lemma store_same li L0 L L' : load li L0 = Ok L -> same_kind L L' -> rbufs L' = rbufs L ->
  map p_data (lparams L') = map p_data (lparams L) -> map p_train (lparams L') = map p_train (lparams L) -> same_li li (lstore L' li).
Proof.
  intros H K B D T. destruct L0; cbn in H; inv_ok H; injection H as <-; destruct L'; cbn in K; try contradiction; cbn in B, D, T; try apply same_li_refl; use_keys;
    cbn [lstore]; unfold set_par, set_buf; repeat split; cbn;
    repeat match goal with X : [_] = [_] |- _ => injection X as X | X : [_; _] = [_; _] |- _ => injection X; clear X; intros end; subst.
  all: try (rewrite !set_key_found; [reflexivity|assumption|rewrite ?set_key_found; assumption]; fail).
  all: try (eapply set_key_prm; eassumption).
  all: eapply same_prms_trans; [|eapply set_key_prm; [rewrite find_set; cbn; eassumption|eassumption|eassumption]]; eapply set_key_prm; eassumption.
Qed.

Lemma bwd_step_infos E mem op L infos gr i2 L2 g2 : outcome (bwd_step E mem op L infos gr) (i2, L2, g2) -> Forall2 same_li infos i2.
Proof.
  assert (R : forall l, Forall2 same_li l l) by (induction l; constructor; [apply same_li_refl|assumption]).
  assert (U : forall l k a b, nth_error l k = Some a -> same_li a b -> Forall2 same_li l (upd l k b)).
  { induction l as [|x l IH]; intros [|k] a b HE HS; try discriminate; cbn in *; [injection HE as ->; constructor; [exact HS|apply R]|constructor; [apply same_li_refl|eapply IH; eassumption]]. }
  unfold bwd_step, lift, outcome. intros H.
  destruct (bind (extract gr (mo_in op)) _) as [[[[[ins outs] gouts] li] L0]| |] eqn:E1;
    [|destruct H as [H|H]; try discriminate H; injection H as <- <- <-; apply R|destruct H; discriminate].
  inv_ok E1. injection E1 as <- <- <- <- <-.
  match goal with X : rd infos _ = Ok _ |- _ => rename X into HR end. unfold rd in HR. destruct (nth_error infos (mo_info op)) as [li|] eqn:HI; [|discriminate]. injection HR as <-.
  match type of H with context [lupdate ?e ?l ?i ?g] => destruct (lupdate e l i g) as [L1| |] eqn:U2 end;
    [|destruct H as [H|H]; try discriminate H; injection H as <- <- <-; apply R|destruct H; discriminate].
  destruct (lupdate_flags _ _ _ _ _ U2) as [F1 F2]. pose proof (lupdate_bufs _ _ _ _ _ U2) as F3. destruct (lupdate_kind _ _ _ _ _ U2) as [F4 _].
  match type of H with context [lbackward ?a ?b ?c ?d ?e ?f ?g] => destruct (lbackward a b c d e f g) as [[L3 g3]| |] eqn:U3 end; [| |destruct H; discriminate].
  - destruct H as [H|H]; [|discriminate H]. injection H as <- <- <-. destruct (lbackward_kind _ _ _ _ _ _ _ _ _ U3) as [G1 G2]. pose proof (lbackward_bufs _ _ _ _ _ _ _ _ _ U3) as G3.
    eapply U; [exact HI|]. eapply store_same; [eassumption|eapply same_kind_trans; eassumption|congruence|congruence|congruence].
  - destruct H as [H|H]; try discriminate H. injection H as <- <- <-. eapply U; [exact HI|]. eapply store_same; eassumption.
Qed.

Lemma same_lis_trans l1 : forall l2 l3, Forall2 same_li l1 l2 -> Forall2 same_li l2 l3 -> Forall2 same_li l1 l3.
Proof.
  induction l1 as [|a l1 IH]; intros l2 l3 H K; inversion H as [|? b ? ? H1 H2]; subst; inversion K as [|? c ? ? K1 K2]; subst; constructor; [eapply same_li_trans; eassumption|eapply IH; eassumption].
Qed.
Lemma bwd_infos E mem : forall ops ls infos gr i1 l1 g1, outcome (bwd_ops E mem ops ls infos gr) (i1, l1, g1) -> Forall2 same_li infos i1.
Proof.
  assert (R : forall l, Forall2 same_li l l) by (induction l; constructor; [apply same_li_refl|assumption]).
  induction ops as [|op ot IH]; intros ls infos gr i1 l1 g1 H; cbn in H.
  - destruct H as [H|H]; [|discriminate]. injection H as -> -> ->. apply R.
  - destruct ls as [|L lt]; [destruct H; discriminate|]. destruct (bwd_ops E mem ot lt infos gr) as [[[i0 l0] g0]|[[i0 l0] g0]|] eqn:E0; [| |destruct H; discriminate].
    + eapply same_lis_trans; [apply (IH lt infos gr i0 l0 g0 (or_introl E0))|].
      destruct (bwd_step (E (mo_ph op)) mem op L i0 g0) as [[[i2 L2] g2]|[[i2 L2] g2]|] eqn:E1; destruct H as [H|H]; try discriminate H; injection H as <- <- <-.
      * eapply bwd_step_infos. left. exact E1.
      * eapply bwd_step_infos. right. exact E1.
    + destruct H as [H|H]; [discriminate|]. injection H as <- <- <-. apply (IH lt infos gr i0 l0 g0 (or_intror E0)).
Qed.

(** ** The caller's gradients *)
Lemma unbind_bind ids : forall ts M M' G us, bind_ids ids ts M = Ok M' -> unbind ids [] G ts = Ok us ->
  forall j i t, nth_error ids j = Some i -> nth_error ts j = Some t -> nth_error G i = nth_error M' i -> nth_error us j = Some t.
Proof.
  induction ids as [|i it IH]; intros ts M M' G us HB HU j k t Hj Ht HG; [destruct j; discriminate|].
  destruct ts as [|u tl]; [discriminate|]. cbn in HB, HU. unfold wr in HB. destruct (Nat.ltb_spec i (length M)); [|discriminate]. cbn [bind] in HB.
  rewrite app_nil_r in HU. inv_ok HU. injection HU as <-.
  destruct j as [|j]; cbn in *.
  - injection Hj as ->. injection Ht as ->. destruct (memb k it) eqn:MM; [congruence|].
    destruct (bind_again it tl _ _ _ eq_refl HB) as (? & _ & _ & _ & _ & B). destruct (B k) as [B1 _].
    { intros I. apply memb_In in I. congruence. }
    rewrite nth_error_upd_eq in B1 by assumption. unfold rd in *. destruct (nth_error G k); congruence.
  - eapply IH; eassumption.
Qed.

Section Model.
Variables (ps : list phnode) (ins outs : list nat) (m : model).
Hypothesis MF : mfacts ps ins outs m.

Lemma backward_inv E infos b tins touts gouts x : outcome (model_backward E m infos (Some b) tins touts gouts) x ->
  (x = (infos, Some (mkB (b_layers b) (b_mem b) (zero_grads (m_data m) (b_grad b))), gouts) /\ model_backward E m infos (Some b) tins touts gouts = Exc x) \/
  exists ii oi M1 mem gr infos' ls gr' g', map_res (id_of m) (m_in m) = Ok ii /\ map_res (id_of m) (m_out m) = Ok oi /\
    bind_ids ii tins (b_mem b) = Ok M1 /\ bind_ids oi touts M1 = Ok mem /\ bind_ids oi gouts (zero_grads (m_data m) (b_grad b)) = Ok gr /\
    x = (infos', Some (mkB ls mem gr'), g') /\ unbind oi [] gr' gouts = Ok g' /\ 
    (bwd_ops E mem (m_ops m) (b_layers b) infos gr = Ret (infos', ls, gr') /\ model_backward E m infos (Some b) tins touts gouts = Ret x \/
     bwd_ops E mem (m_ops m) (b_layers b) infos gr = Exc (infos', ls, gr') /\ model_backward E m infos (Some b) tins touts gouts = Exc x).
Proof.
  intros H. cbn [model_backward] in *. unfold backend_backward in *.
  match type of H with context [match ?y with Ok _ => _ | Throw => _ | UB => _ end] => set (Y := y) in * end.
  destruct Y as [[[oi mem] gr]| |] eqn:EY; subst Y.
  - right. inv_ok EY. injection EY as <- <- <-.
    destruct (bwd_ops E _ (m_ops m) (b_layers b) infos _) as [[[i' ls] gr']|[[i' ls] gr']|] eqn:EB; [| |destruct H; discriminate];
      match type of H with context [unbind ?a ?b ?c ?d] => destruct (unbind a b c d) as [g'| |] eqn:EU end; destruct H as [H|H]; try discriminate H; injection H as <-;
      do 9 eexists; repeat (split; [first [reflexivity|eassumption]|]); [left|right]; split; first [eassumption|reflexivity].
  - left. destruct H as [H|H]; [discriminate|]. injection H as <-. split; reflexivity.
  - destruct H; discriminate.
Qed.

Lemma ids_in l : forall ids, map_res (id_of m) l = Ok ids -> forall d n, In d l -> nth_error (map fst (m_data m)) n = Some d -> In n ids.
Proof.
  induction l as [|x l IH]; intros ids H d n I Hn; [destruct I|]. cbn in H. inv_ok H. injection H as <-. destruct I as [->|I].
  - left. unfold id_of in *. rewrite (index_of_NoDup _ _ _ (mf_nodup _ _ _ _ MF) Hn) in *. congruence.
  - right. eapply IH; [reflexivity|exact I|exact Hn].
Qed.

Theorem backward_twice E E' infos b tins touts gouts infos1 b1 g1 :
  model_backward E m infos (Some b) tins touts gouts = Ret (infos1, b1, g1) ->
  model_backward E' m infos1 b1 tins touts gouts = Ret (infos1, b1, g1).
Proof.
  intros H. destruct (backward_inv E infos b tins touts gouts _ (or_introl H)) as [[_ X]|(ii & oi & M1 & mem & gr & infos' & ls & gr' & g' & I1 & I2 & B1 & B2 & B3 & X & U & R)].
  { rewrite X in H. discriminate. }
  destruct R as [[R _]|[_ R]]; [|rewrite R in H; discriminate]. injection X as -> -> ->.
  cbn [model_backward]. unfold backend_backward. cbn [b_mem b_grad b_layers]. rewrite I1, I2. cbn [bind].
  destruct (bind2_again _ _ _ _ _ _ _ B1 B2) as (M1' & C1 & C2). rewrite C1. cbn [bind]. rewrite C2. cbn [bind].
  destruct (bwd_framed _ _ _ _ _ _ _ _ _ (or_introl R)) as [SD _].
  rewrite (zero_bind_again _ _ _ _ _ _ B3 SD).
  2:{ intros n d Hn. apply (ids_in (m_out m) oi I2 d n); [|rewrite nth_error_map, Hn; reflexivity].
      pose proof (mf_store _ _ _ _ MF _ _ (nth_error_In _ _ Hn)) as S. unfold storage_of in S. rewrite (mf_out _ _ _ _ MF).
      destruct (memb d outs) eqn:MM; [apply memb_In, MM|destruct (memb d ins); discriminate]. }
  cbn [bind]. rewrite (bwd_twice _ E' _ _ _ _ _ _ _ _ (mf_infos _ _ _ _ MF) R infos') by reflexivity. rewrite U. reflexivity.
Qed.

Theorem backward_same E infos b tins touts gouts infos1 b1 g1 :
  outcome (model_backward E m infos (Some b) tins touts gouts) (infos1, b1, g1) -> Forall2 same_li infos infos1.
Proof.
  intros H. destruct (backward_inv E infos b tins touts gouts _ H) as [[X _]|(ii & oi & M1 & mem & gr & infos' & ls & gr' & g' & I1 & I2 & B1 & B2 & B3 & X & U & R)]; injection X as -> -> ->.
  - clear. induction infos; constructor; [apply same_li_refl|assumption].
  - destruct R as [[R _]|[R _]]; [eapply bwd_infos; left; exact R|eapply bwd_infos; right; exact R].
Qed.

(** Inputs and outputs are bound, not written. *)
Theorem backward_memory E infos b tins touts gouts infos1 b1 g1 : NoDup ins -> NoDup outs -> (forall d, In d ins -> ~ In d outs) ->
  model_backward E m infos (Some b) tins touts gouts = Ret (infos1, Some b1, g1) ->
  (forall j d t, nth_error ins j = Some d -> nth_error tins j = Some t -> nth_error (b_mem b1) (num m d) = Some t) /\
  (forall j d t, nth_error outs j = Some d -> nth_error touts j = Some t -> nth_error (b_mem b1) (num m d) = Some t).
Proof.
  intros ND1 ND2 DJ H. destruct (backward_inv E infos b tins touts gouts _ (or_introl H)) as [[_ X]|(ii & oi & M1 & mem & gr & infos' & ls & gr' & g' & I1 & I2 & B1 & B2 & B3 & X & U & R)].
  { rewrite X in H. discriminate. }
  injection X as -> -> ->. cbn [b_mem]. rewrite (mf_in _ _ _ _ MF) in I1. rewrite (mf_out _ _ _ _ MF) in I2.
  rewrite (ids_num ps ins outs m MF ins) in I1 by apply (mf_needed_in _ _ _ _ MF). rewrite (ids_num ps ins outs m MF outs) in I2 by (intros; apply need_out; assumption).
  injection I1 as <-. injection I2 as <-.
  assert (K : forall ds, NoDup ds -> (forall d, In d ds -> needed ps outs d) -> forall ts M M', bind_ids (map (num m) ds) ts M = Ok M' ->
     forall j d t, nth_error ds j = Some d -> nth_error ts j = Some t -> nth_error M' (num m d) = Some t).
  { clear -MF. induction ds as [|x ds IH]; intros ND N ts M M' HB j d t Hd Ht; [destruct j; discriminate|]. inversion ND as [|? ? NI ND']; subst.
    destruct ts as [|u ts]; [discriminate|]. cbn in HB. unfold wr in HB. destruct (Nat.ltb_spec (num m x) (length M)); [|discriminate]. cbn [bind] in HB.
    destruct j as [|j]; cbn in *; [|eapply IH; try eassumption; intros; apply N; right; assumption]. injection Hd as ->. injection Ht as ->.
    destruct (bind_again _ _ _ _ _ eq_refl HB) as (? & _ & _ & _ & _ & B). destruct (B (num m d)) as [B1 _].
    - intros I. apply in_map_iff in I. destruct I as (d' & En & Hd'). apply NI. rewrite <- (num_inj _ _ _ _ MF d' d); [exact Hd'|apply N; right; exact Hd'|apply N; left; reflexivity|exact En].
    - rewrite B1. apply nth_error_upd_eq. assumption. }
  split; [|apply (K outs ND2 (fun d => need_out _ _ d) _ _ _ B2)].
  intros j d t Hd Ht. pose proof (K ins ND1 (mf_needed_in _ _ _ _ MF) _ _ _ B1 j d t Hd Ht) as X.
  destruct (bind_again _ _ _ _ _ eq_refl B2) as (? & _ & _ & _ & _ & B). destruct (B (num m d)) as [BB _]; [|congruence].
  intros I. apply in_map_iff in I. destruct I as (d' & En & Hd'). apply nth_error_In in Hd. apply (DJ d Hd).
  rewrite <- (num_inj _ _ _ _ MF d' d); [exact Hd'|apply need_out, Hd'|apply (mf_needed_in _ _ _ _ MF), Hd|exact En].
Qed.

Theorem backward_keeps_unconsumed E infos b tins touts gouts infos1 b1 g1 :
  outcome (model_backward E m infos (Some b) tins touts gouts) (infos1, b1, g1) ->
  (forall j op args, nth_error (m_ops m) j = Some op -> nth_error (b_layers b) j = Some LAdd -> call ps (mo_ph op) args -> 2 <= length args) ->
  forall j o g, nth_error outs j = Some o -> nth_error gouts j = Some g ->
  (forall d args, needed ps outs d -> call ps d args -> ~ In o args) -> nth_error g1 j = Some g.
Proof.
  intros H AD j o g Ho Hg NC. destruct (backward_inv E infos b tins touts gouts _ H) as [[X _]|(ii & oi & M1 & mem & gr & infos' & ls & gr' & g' & I1 & I2 & B1 & B2 & B3 & X & U & R)]; injection X as -> -> ->; [exact Hg|].
  rewrite (mf_out _ _ _ _ MF) in I2. rewrite (ids_num ps ins outs m MF outs) in I2 by (intros; apply need_out; assumption). injection I2 as <-.
  assert (No : needed ps outs o) by (apply need_out; eapply nth_error_In; exact Ho).
  apply (unbind_bind _ _ _ _ _ _ B3 U j (num m o)); [rewrite nth_error_map, Ho; reflexivity|exact Hg|].
  assert (FR : outcome (bwd_ops E mem (m_ops m) (b_layers b) infos gr) (infos', ls, gr')) by (destruct R as [[R _]|[R _]]; [left|right]; exact R).
  destruct (bwd_framed _ _ _ _ _ _ _ _ _ FR) as [_ F]. apply F. intros k op L Hop HL I.
  destruct (op_spec _ _ _ _ MF op (nth_error_In _ _ Hop)) as (args & v & N & C & _ & E1 & _ & NA).
  assert (Z : forall x, In x (map (num m) args) -> x <> num m o).
  { intros x Hx ->. apply in_map_iff in Hx. destruct Hx as (a & En & Ha). apply (NC _ _ N C). rewrite <- (num_inj _ _ _ _ MF a o (NA a Ha) No En). exact Ha. }
  assert (Y : In (num m o) (map (num m) args)); [|exact (Z _ Y eq_refl)].
  rewrite E1 in I. unfold touched in I. destruct args as [|a [|a2 at_]]; cbn [map length app] in *.
  - rewrite Nat.mul_0_r in I. destruct L; cbn in I; destruct I.
  - destruct L; cbn in I; destruct I as [I|I]; try (left; exact I); try contradiction. specialize (AD _ _ _ Hop HL C). cbn in AD. lia.
  - destruct L; cbn in I; repeat destruct I as [I|I]; try contradiction; cbn; auto.
Qed.
End Model.
