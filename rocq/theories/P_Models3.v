(** Proofs for [Prop_Models]: what one model does to a layer, another that has the same layer can live with. *)
From Coq Require Import Reals String List Lia.
From Verif Require Import Base BaseFacts Sums M_Im2col S_Im2col M_Kernels M_Conv M_Layers M_Optim M_Nn M_Graph M_Model M_Backend M_Train M_Models
  S_Grad S_Partial S_Graph S_Run S_Fit S_Primed S_Optim S_Train S_Models
  P_Kernels P_Graph P_Graph2 P_Nn P_Model P_Model2 P_Run P_Fwd P_Load P_Fwd2 P_Partial P_Bwd P_Run2 P_Fit P_Safe P_Safe2 P_Train P_Train2 P_Train3 P_Optim P_Models.
Import ListNotations.
Local Open Scope list_scope.
Open Scope nat_scope.

(** ** Descriptions replaced by similar ones *)
Definition shiftl (flag : bool -> bool) (a b : linfo) : Prop :=
  (forall k p, find_key (li_params a) k = Some p -> exists p', find_key (li_params b) k = Some p' /\ (prm_ok (tsh (p_data p)) p -> sim flag p p')) /\
  (forall k p', find_key (li_params b) k = Some p' -> exists p, find_key (li_params a) k = Some p) /\
  (forall k t, find_key (li_bufs a) k = Some t -> exists t', find_key (li_bufs b) k = Some t' /\ (forall sh, ten_ok sh t -> ten_ok sh t')).
Definition shifted (i i' : list linfo) : Prop :=
  forall k, match nth_error i k, nth_error i' k with Some a, Some b => exists flag, shiftl flag a b | None, None => True | _, _ => False end.

Lemma shiftl_refl a : shiftl (fun x => x) a a.
Proof. split; [|split]; intros k p F; exists p; auto. split; [exact F|]. intros _. apply sim_refl. Qed.

Lemma prm_self sh p : prm_ok sh p -> prm_ok (tsh (p_data p)) p.
Proof. intros H. pose proof H as [-> _]. exact H. Qed.

Lemma load_shift flag li li' L0 L : load li L0 = Ok L -> shiftl flag li li' ->
  exists L', load li' L0 = Ok L' /\ tolerant L' = tolerant L /\
    (forall inshs osh, fits L inshs osh -> fits L' inshs osh) /\ (forall inshs osh, caches L inshs osh -> caches L' inshs osh).
Proof.
  intros H (P & _ & B).
  assert (PK : forall k p, par li k = Ok p -> exists p', par li' k = Ok p' /\ (prm_ok (tsh (p_data p)) p -> sim flag p p')).
  { intros k p Hk. apply par_Ok in Hk. destruct (P k p Hk) as (p' & F & S). exists p'. unfold par. rewrite F. auto. }
  assert (BK : forall k t, bufr li k = Ok t -> exists t', bufr li' k = Ok t' /\ (forall sh, ten_ok sh t -> ten_ok sh t')).
  { intros k t Hk. unfold bufr in Hk. destruct (find_key (li_bufs li) k) as [x|] eqn:F; [|discriminate]. injection Hk as ->.
    destruct (B k t F) as (t' & F' & Q). exists t'. unfold bufr. rewrite F'. auto. }
  destruct L0; cbn [load] in *; try (injection H as <-; eexists; split; [reflexivity|]; auto; fail);
    inv_ok H; injection H as <-;
    repeat match goal with X : par li _ = Ok _ |- _ => let p' := fresh "p'" in let E := fresh "E" in let S := fresh "S" in
      destruct (PK _ _ X) as (p' & E & S); rewrite E; clear X; cbn [bind] end;
    repeat match goal with X : bufr li _ = Ok _ |- _ => let t' := fresh "t'" in let E := fresh "E" in let S := fresh "T" in
      destruct (BK _ _ X) as (t' & E & S); rewrite E; clear X; cbn [bind] end;
    (eexists; split; [reflexivity|]; split; [reflexivity|]; split; [|intros inshs osh C; exact C]);
    intros inshs osh F; inversion F; subst;
    repeat match goal with S : prm_ok (tsh (p_data ?p)) ?p -> sim _ ?p _, K : prm_ok _ ?p |- _ =>
      let A := fresh in let B := fresh in let C := fresh in destruct (S (prm_self _ _ K)) as (A & B & C); clear S; apply A in K end;
    constructor; auto; congruence.
Qed.

Lemma get_shift infos infos' r p : shifted infos infos' -> get_par infos r = Some p ->
  exists flag p', get_par infos' r = Some p' /\ (prm_ok (tsh (p_data p)) p -> sim flag p p').
Proof.
  intros S G. unfold get_par in *. specialize (S (fst r)). destruct (nth_error infos (fst r)) as [a|]; [|discriminate].
  destruct (nth_error infos' (fst r)) as [b|]; [|contradiction]. destruct S as (flag & P & _). destruct (P _ _ G) as (p' & F & Q). eauto.
Qed.
Lemma get_back infos infos' r p' : shifted infos infos' -> get_par infos' r = Some p' -> exists p, get_par infos r = Some p.
Proof.
  intros S G. unfold get_par in *. specialize (S (fst r)). destruct (nth_error infos' (fst r)) as [b|]; [|discriminate].
  destruct (nth_error infos (fst r)) as [a|]; [|contradiction]. destruct S as (flag & _ & Q & _). exact (Q _ _ G).
Qed.

Lemma shifted_usable ran ps outs m infos infos' b : shifted infos infos' -> usable ran ps outs m infos b -> usable ran ps outs m infos' b.
Proof.
  intros SH (BF & LA & SD & OW). split; [exact BF|]. split; [|split].
  - intros d args Nd Ca. destruct (LA d args Nd Ca) as (L & (j & op & L0 & li & H1 & H2 & H3 & H4 & H5) & G & TO).
    pose proof (SH (mo_info op)) as K. rewrite H4 in K. destruct (nth_error infos' (mo_info op)) as [li'|] eqn:H4'; [|contradiction].
    destruct K as (flag & K). destruct (load_shift flag li li' L0 L H5 K) as (L' & H5' & T & FI & CA).
    exists L'. split; [exists j, op, L0, li'; auto|]. split; [|rewrite T; exact TO].
    destruct ran; [destruct G; split; auto|auto].
  - intros key r Hr. destruct (SD key r Hr) as (p & G & K). destruct (get_shift _ _ _ _ SH G) as (flag & p' & G' & S). destruct (S K) as (S1 & S2 & S3 & S4).
    exists p'. split; [exact G'|]. rewrite S3. apply S1, K.
  - intros op k p' Hop G. destruct (get_back _ _ _ _ SH G) as (p & G'). exact (OW op k p Hop G').
Qed.
Lemma shifted_keeps m infos infos' v : shifted infos infos' -> params_sound m infos -> keeps m infos v -> keeps m infos' v.
Proof.
  intros SH SD K key r p' Hr G. destruct (SD key r Hr) as (p & G0 & KP). destruct (K key r p Hr G0) as (t & F & T). exists t. split; [exact F|].
  destruct (get_shift _ _ _ _ SH G0) as (flag & q & G' & S). destruct (S KP) as (_ & _ & _ & S4). assert (q = p') by congruence. subst q. congruence.
Qed.
Lemma shifted_opt m infos infos' o : shifted infos infos' -> params_sound m infos -> opt_fits m infos o -> opt_fits m infos' o.
Proof.
  intros SH SD. destruct o as [|? ? v|? ? ? ? ? [v1 v2]]; cbn; [auto|apply (shifted_keeps _ _ _ _ SH SD)|].
  intros [A B]. split; apply (shifted_keeps _ _ _ _ SH SD); assumption.
Qed.

(** ** What the calls do to the descriptions *)
Definition did (infos infos' : list linfo) (op : mop) (L0 L1 : layer) : Prop :=
  exists li L, nth_error infos (mo_info op) = Some li /\ load li L0 = Ok L /\ nth_error infos' (mo_info op) = Some (lstore L1 li) /\
    same_kind L L1 /\ map p_train (lparams L1) = map p_train (lparams L).

Lemma fwd_did E : forall ops ls infos mem infos' ls' mem', NoDup (map mo_info ops) -> fwd_ops E ops ls infos mem = Ret (infos', ls', mem') ->
  (forall k, ~ In k (map mo_info ops) -> nth_error infos' k = nth_error infos k) /\
  forall j op L0, nth_error ops j = Some op -> nth_error ls j = Some L0 -> exists L1, nth_error ls' j = Some L1 /\ did infos infos' op L0 L1.
Proof.
  induction ops as [|op ops IH]; intros ls infos mem infos' ls' mem' ND H; cbn [fwd_ops] in H.
  { injection H as <- <- <-. split; [auto|]. intros [|j] op L0 X; discriminate X. }
  destruct ls as [|L lt]; [discriminate|]. cbn [map] in ND. inversion ND as [|x y N1 N2]; subst.
  destruct (fwd_step (E (mo_ph op)) op L infos mem) as [[[i1 L1] m1]| |] eqn:S1; cbn [lift] in H; try discriminate.
  destruct (fwd_ops E ops lt i1 m1) as [[[i2 l2] m2]|[[? ?] ?]|] eqn:F; try discriminate. injection H as <- <- <-.
  destruct (IH _ _ _ _ _ _ N2 F) as [FR D]. clear IH.
  unfold fwd_step in S1. destruct (extract mem (mo_in op)) as [a1| |]; cbn [bind] in S1; try discriminate.
  destruct (extract mem (mo_out op)) as [a2| |]; cbn [bind] in S1; try discriminate.
  destruct (rd infos (mo_info op)) as [li| |] eqn:R; cbn [bind] in S1; try discriminate.
  destruct (load li L) as [K0| |] eqn:LD; cbn [bind] in S1; try discriminate.
  destruct (lforward (E (mo_ph op)) K0 a1 a2) as [[K1 o]| |] eqn:LF; cbn [bind] in S1; try discriminate.
  destruct (front (mo_out op)) as [fo| |]; cbn [bind] in S1; try discriminate.
  destruct (wr mem fo o) as [mm| |]; cbn [bind] in S1; try discriminate. injection S1 as <- -> <-.
  assert (NE : nth_error infos (mo_info op) = Some li) by (unfold rd in R; destruct (nth_error infos (mo_info op)); [congruence|discriminate]).
  split.
  - intros k NK. cbn [map In] in NK. rewrite FR by tauto. apply nth_error_upd_neq. tauto.
  - intros [|j] op' L0 X Y; cbn [nth_error] in X, Y |- *.
    + injection X as <-. injection Y as <-. exists L1. split; [reflexivity|]. exists li, K0. split; [exact NE|]. split; [exact LD|].
      split; [rewrite FR by exact N1; apply nth_error_upd_eq, nth_error_Some; congruence|].
      split; [apply (lforward_kind _ _ _ _ _ _ LF)|apply (lforward_flags _ _ _ _ _ _ LF)].
    + destruct (D j op' L0 X Y) as (L2 & E2 & li2 & K2 & A1 & A2 & A3 & A4). exists L2. split; [exact E2|]. exists li2, K2.
      split; [|exact (conj A2 (conj A3 A4))]. rewrite nth_error_upd_neq in A1; [exact A1|]. intros EQ. apply N1. rewrite EQ. apply in_map, (nth_error_In _ _ X).
Qed.

Lemma bwd_did E mem : forall ops ls infos gr infos' ls' gr', NoDup (map mo_info ops) -> bwd_ops E mem ops ls infos gr = Ret (infos', ls', gr') ->
  (forall k, ~ In k (map mo_info ops) -> nth_error infos' k = nth_error infos k) /\
  forall j op L0, nth_error ops j = Some op -> nth_error ls j = Some L0 -> exists L1, nth_error ls' j = Some L1 /\ did infos infos' op L0 L1.
Proof.
  induction ops as [|op ops IH]; intros ls infos gr infos' ls' gr' ND H; cbn [bwd_ops] in H.
  { injection H as <- <- <-. split; [auto|]. intros [|j] op L0 X; discriminate X. }
  destruct ls as [|L lt]; [discriminate|]. cbn [map] in ND. inversion ND as [|x y N1 N2]; subst.
  destruct (bwd_ops E mem ops lt infos gr) as [[[i1 l1] g1]|[[? ?] ?]|] eqn:F; try discriminate.
  destruct (bwd_step (E (mo_ph op)) mem op L i1 g1) as [[[i2 L2] g2]|[[? ?] ?]|] eqn:S1; try discriminate. injection H as <- <- <-.
  destruct (IH _ _ _ _ _ _ N2 F) as [FR D]. clear IH. unfold bwd_step in S1.
  match type of S1 with lift _ ?x _ = _ => destruct x as [[[[[xi xo] xg] li] K0]| |] eqn:R end; cbn [lift] in S1; try discriminate.
  destruct (lupdate (E (mo_ph op)) K0 xi xg) as [K1| |] eqn:LU; cbn [lift] in S1; try discriminate.
  destruct (lbackward (E (mo_ph op)) K1 xi xo g1 (mo_in op) (mo_out op)) as [[K2 gg]| |] eqn:LB; cbn [lift] in S1; try discriminate.
  injection S1 as <- -> <-.
  assert (NE : nth_error i1 (mo_info op) = Some li /\ load li L = Ok K0).
  { inv_ok R. injection R as <- <- <- <- <-. split; [|assumption].
    match goal with X : rd i1 (mo_info op) = Ok _ |- _ => unfold rd in X; destruct (nth_error i1 (mo_info op)); [congruence|discriminate] end. }
  destruct NE as [NE LD]. split.
  - intros k NK. cbn [map In] in NK. rewrite nth_error_upd_neq by tauto. apply FR. tauto.
  - intros [|j] op' L0 X Y; cbn [nth_error] in X, Y |- *.
    + injection X as <-. injection Y as <-. exists L2. split; [reflexivity|]. exists li, K0.
      split; [rewrite <- (FR _ N1); exact NE|]. split; [exact LD|]. split; [apply nth_error_upd_eq, nth_error_Some; congruence|].
      destruct (lbackward_kind _ _ _ _ _ _ _ _ _ LB) as [SK PE]. split; [exact (same_kind_trans _ _ _ (proj1 (lupdate_kind _ _ _ _ _ LU)) SK)|].
      rewrite PE. apply (lupdate_flags _ _ _ _ _ LU).
    + destruct (D j op' L0 X Y) as (L3 & E3 & li2 & K3 & A1 & A2 & A3 & A4). exists L3. split; [exact E3|]. exists li2, K3.
      split; [exact A1|]. split; [exact A2|]. split; [|exact A4]. rewrite nth_error_upd_neq; [exact A3|].
      intros EQ. apply N1. rewrite EQ. apply in_map, (nth_error_In _ _ X).
Qed.

(** Two states of a layer that fit the same shapes have parameters of the same shapes. *)
Lemma sim_shape sh p q : p_train q = p_train p -> prm_ok sh p -> prm_ok sh q -> sim (fun b => b) p q.
Proof.
  intros T (A1 & A2 & A3 & A4) (B1 & B2 & B3 & B4). split; [|split; [exact T|split; [congruence|]]].
  - intros sh' (C1 & _). replace sh' with sh by congruence. exact (conj B1 (conj B2 (conj B3 B4))).
  - unfold tot, twf in *. congruence.
Qed.
Lemma ten_shape sh t t' : ten_ok sh t -> ten_ok sh t' -> forall sh', ten_ok sh' t -> ten_ok sh' t'.
Proof. intros (A & _) B sh' (C & _). replace sh' with sh by congruence. exact B. Qed.

Lemma bufr_Ok li k t : bufr li k = Ok t -> find_key (li_bufs li) k = Some t.
Proof. unfold bufr. destruct (find_key (li_bufs li) k); [congruence|discriminate]. Qed.

Lemma did_shift li L0 L L1 inshs osh : load li L0 = Ok L -> same_kind L L1 -> map p_train (lparams L1) = map p_train (lparams L) ->
  fits L inshs osh -> fits L1 inshs osh -> shiftl (fun b => b) li (lstore L1 li).
Proof.
  intros LD SK TR F1 F2. 
  assert (PP : forall i p q, nth_error (lparams L) i = Some p -> nth_error (lparams L1) i = Some q -> sim (fun b => b) p q).
  { intros i p q Hp Hq. assert (T : p_train q = p_train p).
    { apply (f_equal (fun l => nth_error l i)) in TR. rewrite !nth_error_map, Hp, Hq in TR. cbn in TR. congruence. }
    destruct F1; inversion F2; subst; cbn in SK; try contradiction; try (destruct i; discriminate Hp); subst;
      destruct i as [|[|i]]; cbn in Hp, Hq; try discriminate; try (destruct i; discriminate); injection Hp as <-; injection Hq as <-;
      eapply sim_shape; eassumption. }
  split; [|split].
  - intros k p F. destruct (store_par li L0 L L1 k p LD SK F) as (p' & G & [EQ|(i & A & B)]); exists p'; (split; [exact G|]).
    + intros _. rewrite EQ. apply sim_refl.
    + intros _. exact (PP i p p' A B).
  - intros k p' F. assert (NK : find_key (li_params li) k <> None).
    { intros Z. destruct L0; cbn in LD; inv_ok LD; injection LD as <-; destruct L1; cbn in SK; try contradiction; cbn [lstore set_par set_buf li_params] in F;
        rewrite ?find_set in F; try congruence; use_keys;
        repeat match type of F with context [String.eqb ?a ?b] => destruct (String.eqb_spec a b); subst end; try congruence;
        repeat match type of F with context [match ?x with _ => _ end] => destruct x eqn:? end; congruence. }
    destruct (find_key (li_params li) k) as [p|]; [eauto|congruence].
  - intros k t F. destruct L0; cbn in LD; inv_ok LD; injection LD as <-; destruct L1; cbn in SK; try contradiction; cbn [lstore set_par set_buf li_bufs];
      try (exists t; auto; fail);
      repeat match goal with X : bufr li _ = Ok _ |- _ => apply bufr_Ok in X end; inversion F1; subst; inversion F2; subst.
    all: rewrite !find_set.
    all: destruct (String.eqb_spec "running_var" k) as [<-|N1]; [|destruct (String.eqb_spec "running_mean" k) as [<-|N2]].
    all: try (exists t; auto; fail).
    all: try (change (String.eqb "running_mean" "running_var") with false; cbn iota).
    all: rewrite F; eexists; (split; [reflexivity|]).
    all: match type of F with ?a = Some ?t => match goal with X : a = Some ?r |- _ => assert (t = r) by congruence; subst t end end.
    all: eapply ten_shape; eassumption.
Qed.
