(** Proofs behind C47, fourth part: the rebuilt model computes the same. *)
From Coq Require Import Reals String Lia Permutation.
From Verif Require Import Base BaseFacts M_Tensor M_Layers M_Optim P_Optim M_Init M_Nn M_Graph M_Model M_Backend S_Grad S_Partial S_Nn S_Graph S_Run S_Build
  P_Graph P_Graph2 P_Nn P_MakeLayer P_Model P_Model2 P_Run P_Fwd P_Fwd2 P_Build P_Build2 P_Build3 Prop_Graph Prop_Model Prop_Run.
Local Open Scope string_scope.
Local Open Scope list_scope.
Open Scope nat_scope.

(** ** Layers that differ in gradients only *)
Definition pagree (p q : prm) : Prop := p_data p = p_data q /\ p_train p = p_train q.
Definition agree (L L2 : layer) : Prop :=
  match L, L2 with
  | LLinear W b, LLinear W2 b2 => pagree W W2 /\ pagree b b2
  | LConv g W b buf, LConv g2 W2 b2 buf2 => g = g2 /\ pagree W W2 /\ pagree b b2 /\ buf = buf2
  | LDropout p m, LDropout p2 m2 => p = p2 /\ pagree m m2
  | LBN1 e a g b s rm rv c, LBN1 e2 a2 g2 b2 s2 rm2 rv2 c2 => e = e2 /\ a = a2 /\ pagree g g2 /\ pagree b b2 /\ s = s2 /\ rm = rm2 /\ rv = rv2 /\ c = c2
  | LBN2 e a g b s rm rv c ni no, LBN2 e2 a2 g2 b2 s2 rm2 rv2 c2 ni2 no2 =>
      e = e2 /\ a = a2 /\ pagree g g2 /\ pagree b b2 /\ s = s2 /\ rm = rm2 /\ rv = rv2 /\ c = c2 /\ ni = ni2 /\ no = no2
  | LLinear _ _, _ | LConv _ _ _ _, _ | LDropout _ _, _ | LBN1 _ _ _ _ _ _ _ _, _ | LBN2 _ _ _ _ _ _ _ _ _ _, _ => False
  | _, _ => L = L2
  end.
Definition pregrad (p q : prm) : prm := mkP (p_data p) (p_grad q) (p_train p).
Definition regrad (L L2 : layer) : layer :=
  match L, L2 with
  | LLinear W b, LLinear W2 b2 => LLinear (pregrad W W2) (pregrad b b2)
  | LConv g W b buf, LConv _ W2 b2 _ => LConv g (pregrad W W2) (pregrad b b2) buf
  | LDropout p m, LDropout _ m2 => LDropout p (pregrad m m2)
  | LBN1 e a g b s rm rv c, LBN1 _ _ g2 b2 _ _ _ _ => LBN1 e a (pregrad g g2) (pregrad b b2) s rm rv c
  | LBN2 e a g b s rm rv c ni no, LBN2 _ _ g2 b2 _ _ _ _ _ _ => LBN2 e a (pregrad g g2) (pregrad b b2) s rm rv c ni no
  | _, _ => L
  end.

Ltac split_agree := repeat match goal with
  | H : _ /\ _ |- _ => destruct H
  | H : pagree ?p ?q |- _ => let A := fresh in let B := fresh in destruct H as [A B]; destruct p, q; cbn [p_data p_train] in A, B; subst
  end; subst.

Lemma pagree_pregrad p q : pagree p q -> q = pregrad p q.
Proof. destruct p, q. unfold pagree, pregrad. cbn. intros [-> ->]. reflexivity. Qed.

Ltac go H := repeat match type of H with
  | bind ?x _ = Ok _ => destruct x as [?| |]; cbn [bind] in *; [|discriminate H..]
  | (let '(_, _) := ?x in _) = Ok _ => destruct x
  end.
Lemma lforward_agree E L L2 xs os L' t : agree L L2 -> lforward E L xs os = Ok (L', t) -> lforward E L2 xs os = Ok (regrad L' L2, t).
Proof.
  intros A H. destruct L, L2; cbn [agree] in A; try contradiction; try discriminate A; try (injection A; intros; subst).
  all: try (cbn [lforward] in *; unfold act_forward in *; go H; injection H as <- <-; reflexivity).
  - destruct A as [A B]. destruct W as [wd wg wt], W0 as [wd2 wg2 wt2], b as [bd bg bt], b0 as [bd2 bg2 bt2].
    destruct A as [A1 A2], B as [B1 B2]. cbn [p_data p_train] in A1, A2, B1, B2. subst wd2 wt2 bd2 bt2. cbn [lforward] in *.
    change (linear_fwd (mkP wd wg2 wt) (mkP bd bg2 bt)) with (linear_fwd (mkP wd wg wt) (mkP bd bg bt)).
    go H. injection H as <- <-. reflexivity.
  - destruct A as (-> & A & B & ->). destruct W as [wd wg wt], W0 as [wd2 wg2 wt2], b as [bd bg bt], b0 as [bd2 bg2 bt2].
    destruct A as [A1 A2], B as [B1 B2]. cbn [p_data p_train] in A1, A2, B1, B2. subst wd2 wt2 bd2 bt2. cbn [lforward] in *.
    change (conv_fwd E g0 (mkP wd wg2 wt) (mkP bd bg2 bt)) with (conv_fwd E g0 (mkP wd wg wt) (mkP bd bg bt)).
    go H. injection H as <- <-. reflexivity.
  - destruct A as (-> & A). destruct mask as [wd wg wt], mask0 as [wd2 wg2 wt2].
    destruct A as [A1 A2]. cbn [p_data p_train] in A1, A2. subst wd2 wt2. cbn [lforward p_data p_train p_grad] in *.
    destruct wt; go H; injection H as <- <-; reflexivity.
  - destruct A as (-> & -> & A & B & -> & -> & -> & ->). destruct gamma as [wd wg wt], gamma0 as [wd2 wg2 wt2], beta as [bd bg bt], beta0 as [bd2 bg2 bt2].
    destruct A as [A1 A2], B as [B1 B2]. cbn [p_data p_train] in A1, A2, B1, B2. subst wd2 wt2 bd2 bt2. cbn [lforward] in *.
    change (bn1_fwd E eps0 alpha0 (mkP wd wg2 wt) (mkP bd bg2 bt)) with (bn1_fwd E eps0 alpha0 (mkP wd wg wt) (mkP bd bg bt)).
    go H. injection H as <- <-. reflexivity.
  - destruct A as (-> & -> & A & B & -> & -> & -> & -> & -> & ->). destruct gamma as [wd wg wt], gamma0 as [wd2 wg2 wt2], beta as [bd bg bt], beta0 as [bd2 bg2 bt2].
    destruct A as [A1 A2], B as [B1 B2]. cbn [p_data p_train] in A1, A2, B1, B2. subst wd2 wt2 bd2 bt2. cbn [lforward] in *.
    change (bn2_fwd E eps0 alpha0 (mkP wd wg2 wt) (mkP bd bg2 bt)) with (bn2_fwd E eps0 alpha0 (mkP wd wg wt) (mkP bd bg bt)).
    go H. injection H as <- <-. reflexivity.
Qed.

Lemma computes_agree E L L2 xs sh t : agree L L2 -> computes E L xs sh t -> computes E L2 xs sh t.
Proof. intros A [H [L' H']]. split; [exact H|]. exists (regrad L' L2). intros o Ho. apply (lforward_agree _ _ _ _ _ _ _ A), H', Ho. Qed.

Lemma tolerant_agree L L2 : agree L L2 -> tolerant L2 = tolerant L.
Proof. destruct L, L2; cbn; intros A; try contradiction; try discriminate A; reflexivity. Qed.

Lemma same_key a b k p q : same_values a b -> at_key (li_params a) k = Ok p -> at_key (li_params b) k = Ok q -> pagree p q.
Proof.
  intros [H _] A B. specialize (H k). unfold at_key in A, B.
  destruct (find_key (li_params a) k); [|discriminate A]. destruct (find_key (li_params b) k); [|discriminate B].
  injection A as ->. injection B as ->. cbn in H. unfold pagree. split; congruence.
Qed.
Lemma same_buf a b k p q : same_values a b -> at_key (li_bufs a) k = Ok p -> at_key (li_bufs b) k = Ok q -> p = q.
Proof. intros [_ H] A B. specialize (H k). unfold at_key in A, B. rewrite H in A. destruct (find_key (li_bufs b) k); congruence. Qed.

Ltac goe H := repeat match type of H with
  | bind ?x _ = Ok _ => let e := fresh "e" in destruct x as [?| |] eqn:e; cbn [bind] in H; [|discriminate H..]
  | (let '(_, _) := ?x in _) = Ok _ => destruct x
  end.
Lemma created_agree a b L L2 : same_description a b -> same_values a b -> create_layer a = Ok L -> create_layer b = Ok L2 -> agree L L2.
Proof.
  intros (_ & ET & EA) SV. unfold create_layer, bn_create. rewrite <- ET, <- EA.
  repeat match goal with |- context [if ?c then _ else _] => destruct c end; intros A B; goe A; goe B;
    try discriminate A; try (injection A as <-; injection B as <-); try reflexivity.
  all: repeat match goal with
    | H : bind _ _ = Ok _ |- _ => goe H
    | H : Ok (_, _) = Ok (_, _) |- _ => injection H; clear H; intros; subst end.
  all: cbn [agree]; repeat match goal with
    | H1 : ?x = Ok ?u, H2 : ?x = Ok ?v |- _ => assert (u = v) by congruence; clear H2; subst
    | SV : same_values ?x ?y, H1 : at_key (li_params ?x) ?k = Ok ?u, H2 : at_key (li_params ?y) ?k = Ok ?v |- _ => pose proof (same_key _ _ _ _ _ SV H1 H2); clear H1 H2
    | SV : same_values ?x ?y, H1 : at_key (li_bufs ?x) ?k = Ok ?u, H2 : at_key (li_bufs ?y) ?k = Ok ?v |- _ => pose proof (same_buf _ _ _ _ _ SV H1 H2); clear H1 H2; subst
    end; auto 12.
  all: repeat match goal with H : Ok _ = Ok _ |- _ => injection H; clear H; intros; subst end; try reflexivity.
  all: pose proof H0 as [D1 D2]; rewrite D1, e3 in e10; injection e10 as <-; auto 12.
Qed.

(** Every needed call is made by a layer of the model. *)
Lemma layer_of_call es ins outs m d s i args : constructed es ins outs m -> needed (es_ph es) outs d ->
  nth_error (es_ph es) d = Some (mkPh s (Some (i, args))) -> exists l, In l (m_layers m) /\ ml_info l = i.
Proof.
  intros C N Hd. pose proof (constructed_mfacts _ _ _ _ C) as MF.
  assert (Ca : call (es_ph es) d args) by (exists s, i; exact Hd).
  pose proof (mf_call _ _ _ _ MF d N (ex_intro _ args Ca)) as Hm. destruct C as (B & VO & order & g & es' & BG & TO & CM).
  destruct (model_facts es order ins outs g B VO BG TO es' m CM) as (mops & _ & _ & _ & _ & _ & EM & F & _ & _ & _ & _ & _ & _ & _ & _ & LY & _).
  rewrite EM in Hm. apply in_map_iff in Hm. destruct Hm as (op & <- & Hop). exists (layer_at g op).
  split; [rewrite LY; apply in_map, Hop|]. apply In_nth_error in Hop. destruct Hop as (j & Hj).
  assert (X : exists dd, ids_ok (es_ph es) g (order g) dd op).
  { clear -F Hj. revert j Hj. induction F as [|x y l1 l2 Hxy _ IH]; intros [|j] Hj; cbn in Hj; try discriminate; [injection Hj as ->; eauto|eauto]. }
  destruct X as (dd & X). unfold ids_ok in X. destruct X as (<- & Y & _). unfold info_of in Y. rewrite rd_nth, Hd in Y. cbn in Y. injection Y as Y. symmetry. exact Y.
Qed.

Lemma described l l' i a : Forall2 same_description l l' -> nth_error l i = Some a -> exists b, nth_error l' i = Some b /\ same_description a b.
Proof.
  intros F. revert i. induction F as [|x y t t' H _ IH]; intros [|i] E; cbn in *; try discriminate; [injection E as <-; eauto|auto].
Qed.
Lemma desc_trans a b c : same_description a b -> same_description b c -> same_description a c.
Proof. intros (A1 & A2 & A3) (B1 & B2 & B3). repeat split; congruence. Qed.
Lemma desc_sym a b : same_description a b -> same_description b a.
Proof. intros (A1 & A2 & A3). repeat split; congruence. Qed.

Section Same.
Variables (es : estore) (infosE : list linfo) (ins outs ins2 outs2 : list nat) (m : model).
Variables (es3 : estore) (m2 : model) (f : nat -> nat).
Let ps := es_ph es.
Let ps' := es_ph es3.
Hypothesis C : constructed es ins outs m.
Hypothesis CL : closed ps ins outs.
Hypothesis CP : copied ps infosE outs f ps' (es_info es3).
Hypothesis EI : forall d, In d ins2 <-> In d ins.
Hypothesis EO : forall d, In d outs2 <-> In d outs.
Hypothesis C2 : constructed es3 (map f ins2) (map f outs2) m2.
Variables (infos infos2 : list linfo).
Hypothesis D1 : Forall2 same_description infosE infos.
Hypothesis D2 : Forall2 same_description (es_info es3) infos2.
Hypothesis ST : same_state m infos m2 infos2.
Variables (b b2 : backend) (bo bo2 : option backend) (junk junk2 : nat -> R).
Hypothesis K : model_compile ps junk m infos bo = Ret (Some b).
Hypothesis K2 : model_compile ps' junk2 m2 infos2 bo2 = Ret (Some b2).

Lemma valid_needed d : needed ps outs d -> d < length ps.
Proof.
  destruct C as (BU & VO & _). intros H. eapply needed_lt; [|apply store_links_back, built_ok, BU|exact H]. intros o Ho. rewrite Forall_forall in VO. auto.
Qed.

Lemma both d args : needed ps outs d -> call ps d args ->
  exists L L2, produces m infos b d L /\ produces m2 infos2 b2 (f d) L2 /\ agree L L2.
Proof.
  intros N Ca.
  destruct (C37_compile_prepares _ _ _ _ _ _ _ _ C K) as (b' & Eb & _ & P). injection Eb as <-.
  destruct (C37_compile_prepares _ _ _ _ _ _ _ _ C2 K2) as (b2' & Eb2 & _ & P2). injection Eb2 as <-.
  destruct (P d args N Ca) as (L & li & i & s & Hd & Hi & CR & PR). clear P.
  destruct (cp_call _ _ _ _ _ _ CP d s i args N Hd) as (i' & le & le' & Hd' & He & He' & SD & _).
  assert (N' : needed ps' (map f outs2) (f d)) by (apply (proj2 (needed_copy ps ps' _ _ outs outs2 f CP EO valid_needed (f d))); eauto).
  assert (Ca' : call ps' (f d) (map f args)) by (exists s, i'; exact Hd').
  destruct (P2 (f d) (map f args) N' Ca') as (L2 & li2 & i2 & s2 & Hd2 & Hi2 & CR2 & PR2).
  fold ps' in Hd2. rewrite Hd' in Hd2. injection Hd2 as <- <-.
  exists L, L2. split; [exact PR|]. split; [exact PR2|].
  destruct (described _ _ _ _ D1 He) as (x & Hx & Dx). rewrite Hi in Hx. injection Hx as <-.
  destruct (described _ _ _ _ D2 He') as (y & Hy & Dy). rewrite Hi2 in Hy. injection Hy as <-.
  assert (DD : same_description li li2) by exact (desc_trans _ _ _ (desc_sym _ _ Dx) (desc_trans _ _ _ SD Dy)).
  destruct (layer_of_call _ _ _ _ _ _ _ _ C N Hd) as (l & Hl & El). destruct (layer_of_call _ _ _ _ _ _ _ _ C2 N' Hd') as (l2 & Hl2 & El2).
  apply (created_agree li li2 L L2 DD); [|exact CR|exact CR2].
  apply (ST l l2); [exact Hl|exact Hl2|rewrite El; exact Hi|rewrite El2; exact Hi2|apply DD].
Qed.

Variable E E2 : nat -> env.
Hypothesis EE : forall d, needed ps outs d -> E2 (f d) = E d.
Variable X : nat -> ten.
Variable V : nat -> ten.
Hypothesis EV : evaluation ps ins outs (map X ins) E (produces m infos b) V.

(** The value of a copy. *)
Definition back (d' : nat) : ten := match find (fun d => Nat.eqb (f d) d') (map fst (m_data m)) with Some d => V d | None => empty_ten end.

Lemma back_f d : needed ps outs d -> back (f d) = V d.
Proof.
  intros N. destruct C as (BU & VO & order & g & es' & BG & TO & CM).
  destruct (data_complete es order ins outs g BU VO BG TO es' m CM) as (_ & DC & _). unfold back.
  destruct (find (fun d0 => Nat.eqb (f d0) (f d)) (map fst (m_data m))) as [x|] eqn:F.
  - apply find_some in F. destruct F as [F1 F2]. apply Nat.eqb_eq in F2. rewrite (cp_inj _ _ _ _ _ _ CP x d (proj1 (DC x) F1) N F2). reflexivity.
  - exfalso. pose proof (List.find_none _ _ F d (proj2 (DC d) N)) as H. cbn in H. rewrite Nat.eqb_refl in H. discriminate H.
Qed.

Lemma input_value d : In d ins -> V d = X d.
Proof.
  destruct EV as [H _]. intros Hd. clear -H Hd. induction ins as [|x t IH]; [destruct Hd|]. cbn in H. inversion H; subst. destruct Hd as [->|Hd]; auto.
Qed.

Lemma evaluation_copy : evaluation ps' (map f ins2) (map f outs2) (map X ins2) E2 (produces m2 infos2 b2) back.
Proof.
  split.
  - assert (H : forall d, In d ins2 -> back (f d) = X d). { intros d Hd. rewrite back_f, input_value; [reflexivity|apply EI, Hd|apply (mf_needed_in _ _ _ _ (constructed_mfacts _ _ _ _ C)), EI, Hd]. }
    clear -H. induction ins2 as [|x t IH]; cbn; constructor; [apply H; left; reflexivity|]. apply IH. intros d Hd. apply H. right; exact Hd.
  - intros d' args' N' Ca'. apply (needed_copy ps ps' _ _ outs outs2 f CP EO valid_needed) in N'. destruct N' as (d & N & ->).
    destruct (call_copy_inv ps ps' _ _ outs f CP valid_needed d args' N Ca') as (args & Ca & ->).
    destruct (both d args N Ca) as (L & L2 & P & P2 & A). exists L2. split; [exact P2|].
    destruct EV as [_ H]. destruct (H d args N Ca) as (L0 & P0 & CO).
    rewrite (produces_fun _ _ _ _ (constructed_mfacts _ _ _ _ C) _ _ _ _ _ P0 P) in CO.
    rewrite EE by exact N. unfold ps' at 1. fold ps'. rewrite (dims_copy ps ps' _ _ outs f CP valid_needed d N), (back_f d N).
    apply (computes_agree _ _ _ _ _ _ A). rewrite map_map.
    rewrite (map_ext_in (fun x => back (f x)) V); [exact CO|]. intros x Hx. apply back_f. eapply need_arg; eassumption.
Qed.

Lemma links_copy : links_ok ps outs2 (produces m infos b) -> links_ok ps' (map f outs2) (produces m2 infos2 b2).
Proof.
  intros LO d' L' P'.
  assert (exists d args, needed ps outs d /\ call ps d args /\ d' = f d) as (d & args & N & Ca & ->).
  { destruct P' as (j & op & L0 & li & Hj & <- & _). pose proof (constructed_mfacts _ _ _ _ C2) as MF2.
    destruct (mf_op _ _ _ _ MF2 op (nth_error_In _ _ Hj)) as (args' & k & ids & i & N' & Ca' & _).
    apply (needed_copy ps ps' _ _ outs outs2 f CP EO valid_needed) in N'. destruct N' as (d & N & E0). rewrite E0 in Ca' |- *.
    destruct (call_copy_inv ps ps' _ _ outs f CP valid_needed d args' N Ca') as (args & Ca & _). exists d, args. auto. }
  destruct (both d args N Ca) as (L & L2 & P & P2 & A). rewrite (produces_fun _ _ _ _ (constructed_mfacts _ _ _ _ C2) _ _ _ _ _ P' P2).
  rewrite (visits_copied ps ps' _ _ outs outs2 f CP EO valid_needed d N), (tolerant_agree _ _ A). apply (LO d L P).
Qed.
End Same.

(** ** The numbers respect the expression *)
Lemma before_data_nodes a d ord : before (GD a) (GD d) ord -> before a d (data_nodes ord).
Proof.
  intros (x & y & z & ->). exists (data_nodes x), (data_nodes y), (data_nodes z). unfold data_nodes. rewrite flat_map_app. cbn. rewrite flat_map_app. reflexivity.
Qed.
Lemma before_filter {A} (p : A -> bool) a b l : p a = true -> p b = true -> before a b l -> before a b (filter p l).
Proof.
  intros Ha Hb (x & y & z & ->). exists (filter p x), (filter p y), (filter p z).
  rewrite filter_app. cbn [filter]. rewrite Ha, filter_app. cbn [filter]. rewrite Hb. reflexivity.
Qed.

Lemma numbered_before es ins outs m a b : constructed es ins outs m -> needed (es_ph es) outs b -> needed (es_ph es) [b] a ->
  a = b \/ before a b (map fst (m_data m)).
Proof.
  intros C Nb Na. pose proof (mf_nodup _ _ _ _ (constructed_mfacts _ _ _ _ C)) as ND. destruct C as (B & VO & order & g & es' & BG & TO & CM).
  rewrite (data_numbers es order ins outs g B VO BG TO es' m CM) in *.
  assert (NO : forall c, needed (es_ph es) [b] c -> needed (es_ph es) outs c).
  { induction 1 as [o [<-|[]]|c args x _ IH Hc Hx]; [exact Nb|eapply need_arg; eassumption]. }
  induction Na as [o [<-|[]]|c args x Nc IH Hc Hx]; [left; reflexivity|]. right.
  apply In_nth_error in Hx. destruct Hx as (i & Hi). pose proof TO as (TN & _ & TE).
  assert (B1 : before (GD x) (GD c) (order g)).
  { eapply before_trans; [exact TN|apply (TE (mkEdge (GD x) (GO c) i))|apply (TE (mkEdge (GO c) (GD c) 0))]; apply (build_edges _ _ _ _ BG).
    - left. exists c, args, i, x. auto.
    - right. exists c, args. auto. }
  apply before_data_nodes in B1. destruct IH as [->|IH]; [exact B1|]. eapply before_trans; eassumption.
Qed.

Lemma by_number_repeats es ins outs m a b : constructed es ins outs m -> In a outs -> In b outs -> a <> b -> needed (es_ph es) [b] a ->
  2 <= visits (es_ph es) (by_number m outs) a.
Proof.
  intros C Ha Hb AB N. destruct (numbered_before es ins outs m a b C (need_out _ _ _ Hb) N) as [E|BF]; [contradiction|].
  apply (before_filter (fun d => existsb (Nat.eqb d) outs)) in BF; [|apply memb_In, Ha|apply memb_In, Hb].
  destruct BF as (x & y & z & E). unfold by_number. rewrite E. apply unroll_repeated_out.
  eapply needed_incl; [|exact N]. intros o [<-|[]]. apply in_or_app. right. left. reflexivity.
Qed.

(** ** A sorting procedure exists: repeatedly take a node without unlisted predecessors *)
Definition gnode_dec (a b : gnode) : {a = b} + {a <> b}.
Proof. decide equality; apply Nat.eq_dec. Defined.
Definition mem_node (n : gnode) (l : list gnode) : bool := if in_dec gnode_dec n l then true else false.
Definition free (es : list edge) (rest : list gnode) (n : gnode) : bool :=
  forallb (fun e => if gnode_dec (ed_dst e) n then negb (mem_node (ed_src e) rest) else true) es.
Fixpoint kahn_loop (fuel : nat) (es : list edge) (rest : list gnode) : list gnode :=
  match fuel with
  | 0 => []
  | S k => match find (free es rest) rest with Some n => n :: kahn_loop k es (remove gnode_dec n rest) | None => [] end
  end.
Definition kahn (g : graph) : list gnode := let l := nodup gnode_dec (gr_nodes g) in kahn_loop (length l) (gr_edges g) l.

Lemma free_exists es ord rest : NoDup ord -> (forall e, In e es -> before (ed_src e) (ed_dst e) ord) ->
  (forall n, In n rest -> In n ord) -> rest <> [] -> exists n, In n rest /\ free es rest n = true.
Proof.
  intros ND BE SU NE.
  assert (exists l1 n l2, ord = l1 ++ n :: l2 /\ In n rest /\ forall x, In x l1 -> ~ In x rest) as (l1 & n & l2 & E & Hn & H1).
  { clear ND BE. destruct rest as [|r t]; [congruence|]. assert (Hr : In r ord) by (apply SU; left; reflexivity). remember (r :: t) as rest eqn:ER.
    assert (Hx : exists x, In x ord /\ In x rest) by (exists r; split; [exact Hr|rewrite ER; left; reflexivity]). clear -Hx.
    induction ord as [|o l IH]; destruct Hx as (x & X1 & X2); [destruct X1|]. destruct (in_dec gnode_dec o rest) as [I|I].
    - exists [], o, l. split; [reflexivity|]. split; [exact I|]. intros y [].
    - destruct IH as (l1 & n & l2 & -> & Hn & Hl); [exists x; split; [destruct X1 as [->|X1]; [contradiction|exact X1]|exact X2]|].
      exists (o :: l1), n, l2. split; [reflexivity|]. split; [exact Hn|]. intros y [<-|Hy]; auto. }
  exists n. split; [exact Hn|]. unfold free. apply forallb_forall. intros e He. destruct (gnode_dec (ed_dst e) n) as [D|]; [|reflexivity].
  unfold mem_node. destruct (in_dec gnode_dec (ed_src e) rest) as [I|]; [exfalso|reflexivity].
  specialize (BE e He). rewrite D in BE. exact (H1 _ (before_unique _ _ _ _ _ BE ND E) I).
Qed.

Lemma kahn_loop_ok es ord : NoDup ord -> (forall e, In e es -> before (ed_src e) (ed_dst e) ord) ->
  forall fuel rest, NoDup rest -> (forall n, In n rest -> In n ord) -> length rest <= fuel ->
  NoDup (kahn_loop fuel es rest) /\ (forall n, In n (kahn_loop fuel es rest) <-> In n rest) /\
  (forall e, In e es -> In (ed_src e) rest -> In (ed_dst e) rest -> before (ed_src e) (ed_dst e) (kahn_loop fuel es rest)).
Proof.
  intros ND BE. induction fuel as [|k IH]; intros rest NR SU LE; cbn [kahn_loop].
  - destruct rest; [|cbn in LE; lia]. split; [constructor|]. split; [tauto|]. intros e _ [].
  - destruct (find (free es rest) rest) as [n|] eqn:F.
    + apply find_some in F. destruct F as [Hn FR].
      assert (LT : length (remove gnode_dec n rest) <= k) by (pose proof (remove_length_lt gnode_dec rest n Hn); lia).
      assert (NR' : NoDup (remove gnode_dec n rest)) by (clear -NR; induction NR as [|x l N _ IHl]; cbn; [constructor|destruct (gnode_dec n x); [exact IHl|constructor; [intros X; apply in_remove in X; tauto|exact IHl]]]).
      destruct (IH (remove gnode_dec n rest) NR' (fun x Hx => SU x (proj1 (in_remove _ _ _ _ Hx))) LT) as (A1 & A2 & A3).
      split; [constructor; [rewrite A2; apply remove_In|exact A1]|]. split.
      { intros x. cbn [In]. rewrite A2. split; [intros [<-|H]; [exact Hn|exact (proj1 (in_remove _ _ _ _ H))]|].
        intros H. destruct (gnode_dec n x); [left; assumption|right; apply in_in_remove; congruence]. }
      intros e He S1 D1. unfold free in FR. rewrite forallb_forall in FR. specialize (FR e He).
      assert (ed_dst e <> n). { intros D. destruct (gnode_dec (ed_dst e) n); [|contradiction]. unfold mem_node in FR. destruct (in_dec gnode_dec (ed_src e) rest); [discriminate FR|contradiction]. }
      assert (DR : In (ed_dst e) (remove gnode_dec n rest)) by (apply in_in_remove; assumption).
      destruct (gnode_dec (ed_src e) n) as [->|NS].
      * apply A2 in DR. apply in_split in DR. destruct DR as (x & y & ->). exists [], x, y. reflexivity.
      * destruct (A3 e He (in_in_remove _ _ NS S1) DR) as (x & y & z & ->). exists (n :: x), y, z. reflexivity.
    + destruct rest as [|r t]; [split; [constructor|split; [tauto|intros e _ []]]|exfalso].
      destruct (free_exists es ord (r :: t) ND BE SU) as (n & Hn & FR); [discriminate|]. rewrite (List.find_none _ _ F n Hn) in FR. discriminate FR.
Qed.

Lemma kahn_sorts : sorts kahn.
Proof.
  intros g (ord & ND & IN & BE). unfold kahn.
  destruct (kahn_loop_ok (gr_edges g) ord ND BE (length (nodup gnode_dec (gr_nodes g))) (nodup gnode_dec (gr_nodes g)) (NoDup_nodup _ _)) as (A1 & A2 & A3).
  - intros n. rewrite nodup_In. apply IN.
  - reflexivity.
  - split; [exact A1|]. split; [intros n; rewrite A2, nodup_In; reflexivity|]. intros e He. apply A3; [exact He| |]; rewrite nodup_In; apply IN.
    + destruct (BE e He) as (x & y & z & ->). apply in_or_app. right. left. reflexivity.
    + destruct (BE e He) as (x & y & z & ->). apply in_or_app. right. right. apply in_or_app. right. left. reflexivity.
Qed.

(** ** [alike] is an equivalence *)
Lemma Forall2_refl' {A} (P : A -> A -> Prop) l : (forall x, P x x) -> Forall2 P l l.
Proof. intros H. induction l; constructor; auto. Qed.
Lemma Forall2_sym' {A} (P : A -> A -> Prop) l l' : (forall x y, P x y -> P y x) -> Forall2 P l l' -> Forall2 P l' l.
Proof. intros H F. induction F; constructor; auto. Qed.
Lemma Forall2_trans' {A} (P : A -> A -> Prop) l1 l2 l3 : (forall x y z, P x y -> P y z -> P x z) -> Forall2 P l1 l2 -> Forall2 P l2 l3 -> Forall2 P l1 l3.
Proof. intros H F. revert l3. induction F; intros l3 G; inversion G; subst; constructor; eauto. Qed.
Lemma alike_refl a : alike a a.
Proof. repeat split; apply Forall2_refl'; auto. Qed.
Lemma alike_sym a b : alike a b -> alike b a.
Proof.
  intros (A & B & C & D & E). repeat split; try (symmetry; assumption); (eapply Forall2_sym'; [|eassumption]); cbn; intros x y.
  - intros (P & Q & R & S). auto.
  - intros (P & Q). auto.
Qed.
Lemma alike_trans a b c : alike a b -> alike b c -> alike a c.
Proof.
  intros (A & B & C & D & E) (A' & B' & C' & D' & E'). repeat split; try congruence; (eapply Forall2_trans'; [|eassumption..]); cbn; intros x y z.
  - intros (P & Q & R & S) (P' & Q' & R' & S'). repeat split; congruence.
  - intros (P & Q) (P' & Q'). split; congruence.
Qed.
