(** backward run twice; what backward may change. *)
From Coq Require Import Reals String Lia Lra.
From Verif Require Import Base BaseFacts Sums M_Im2col S_Im2col M_Kernels M_Conv M_Layers M_Optim M_Nn M_Graph M_Model M_Backend S_Grad S_Graph S_Run
  P_Kernels P_Layout P_Graph P_Model P_Run P_Fwd P_Load P_Bwd.
Open Scope nat_scope.

(** ** Loops *)
Lemma forr_pres {S} (P : S -> Prop) n body s r : forr n body s = Ok r -> P s -> (forall i s s', body i s = Ok s' -> P s -> P s') -> P r.
Proof.
  revert r. induction n as [|n IH]; intros r H Ps K; cbn in H; [injection H as <-; exact Ps|].
  destruct (forr n body s) as [a| |] eqn:Ea; cbn [bind] in H; try discriminate. eapply K; [exact H|]. apply (IH a); [reflexivity|exact Ps|exact K].
Qed.

Lemma put_put n f d : put n f (put n f d) = put n f d.
Proof.
  unfold put. f_equal. rewrite skipn_app, tab_length, Nat.sub_diag. rewrite (skipn_all2 (n := n) (tab n f)) by (rewrite tab_length; lia). reflexivity.
Qed.
Lemma put_length' n f d : length (put n f d) = n + (length d - n).
Proof. unfold put. rewrite app_length, tab_length, skipn_length. reflexivity. Qed.
Lemma emap_inv n d u : emap n d = Ok u -> n <= length d.
Proof. unfold emap. destruct (Nat.leb_spec n (length d)); [auto|discriminate]. Qed.
Lemma emap_put n f d : emap n (put n f d) = Ok tt.
Proof. apply emap_Ok. rewrite put_length'. lia. Qed.
Lemma emap_len n d d' : length d = length d' -> emap n d = emap n d'.
Proof. intros H. unfold emap. rewrite H. reflexivity. Qed.
Lemma zeros_len d d' : length d = length d' -> zeros d = zeros d'.
Proof. intros H. unfold zeros. rewrite H. reflexivity. Qed.

(** A sequence of writes, run again on its own result. *)
Lemma writes_again {V} n (idx : nat -> nat) (src : list V) : forall d d2 d', length d2 = length d ->
  forr n (fun p d => v <- rd src p ;; wr d (idx p) v) d = Ok d' ->
  exists d2', forr n (fun p d => v <- rd src p ;; wr d (idx p) v) d2 = Ok d2' /\ length d' = length d /\ length d2' = length d2 /\
    forall q, nth_error d' q = nth_error d2' q \/ nth_error d' q = nth_error d q /\ nth_error d2' q = nth_error d2 q.
Proof.
  induction n as [|n IH]; intros d d2 d' L H; cbn in *.
  - injection H as <-. exists d2. repeat split; auto.
  - destruct (forr n _ d) as [a| |] eqn:Ea in H; cbn [bind] in H; try discriminate.
    destruct (IH d d2 a L Ea) as (a2 & E2 & La & La2 & Q). rewrite E2. cbn [bind].
    unfold rd in *. destruct (nth_error src n) as [v|]; cbn [bind] in *; [|discriminate].
    unfold wr in *. destruct (Nat.ltb_spec (idx n) (length a)); [|discriminate]. injection H as <-.
    destruct (Nat.ltb_spec (idx n) (length a2)); [|lia]. eexists. split; [reflexivity|]. rewrite !upd_length. split; [exact La|]. split; [exact La2|].
    intros q. destruct (Nat.eq_dec q (idx n)) as [->|N].
    + left. rewrite !nth_error_upd_eq by assumption. reflexivity.
    + rewrite !nth_error_upd_neq by congruence. apply Q.
Qed.

Lemma nth_error_eq {V} (l l' : list V) : (forall q, nth_error l q = nth_error l' q) -> l = l'.
Proof.
  revert l'. induction l as [|x t IH]; intros [|y u] H; [reflexivity|specialize (H 0); discriminate|specialize (H 0); discriminate|].
  pose proof (H 0) as H0. cbn in H0. injection H0 as ->. f_equal. apply IH. intros q. exact (H (S q)).
Qed.

Lemma writes_twice {V} n idx (src : list V) d d' : forr n (fun p d => v <- rd src p ;; wr d (idx p) v) d = Ok d' ->
  forr n (fun p d => v <- rd src p ;; wr d (idx p) v) d' = Ok d' /\ length d' = length d.
Proof.
  intros H. assert (L : length d' = length d).
  { destruct (writes_again n idx src d d d' eq_refl H) as (_ & _ & L & _). exact L. }
  split; [|exact L]. destruct (writes_again n idx src d d' d' L H) as (d2 & E & _ & L2 & Q). rewrite E. f_equal. apply nth_error_eq. intros q.
  destruct (Q q) as [A|[A B]]; congruence.
Qed.

Lemma nchw_twice N C H W (src d d' : list R) : nchw2nhwc N C H W src d = Ok d' -> nchw2nhwc N C H W src d' = Ok d' /\ length d' = length d.
Proof.
  unfold nchw2nhwc. rewrite !(scatter4 N C H W (fun n c h w => (((n * H + h) * W + w) * C + c)%nat)). apply writes_twice.
Qed.
Lemma nhwc_length N C H W (src d d' : list R) : nhwc2nchw N C H W src d = Ok d' -> length d' = length d.
Proof.
  unfold nhwc2nchw. rewrite !(scatter4 N H W C (fun n h w c => (((n * C + c) * H + h) * W + w)%nat)). apply writes_twice.
Qed.

Lemma wr_len {V} (l : list V) i v l' : wr l i v = Ok l' -> length l' = length l.
Proof. unfold wr. destruct (i <? length l); [|discriminate]. intros [= <-]. apply upd_length. Qed.
Lemma col2im_length (add : R -> R -> R) g ch h w src d d' : col2im add g ch h w src d = Ok d' -> length d' = length d.
Proof.
  unfold col2im. intros H. inv_ok H. injection H as <-. 
  match goal with E : forr _ _ _ = Ok _ |- _ => apply (forr_pres (fun s => length (fst s) = length d)) in E; [exact E|reflexivity|] end.
  clear. intros c [d1 p1] s' H H1. cbn [fst] in H1. 
  apply (forr_pres (fun s => length (fst s) = length d)) in H; [exact H|exact H1|]. clear -d.
  intros kh [d1 p1] s' H H1. apply (forr_pres (fun s => length (fst s) = length d)) in H; [exact H|exact H1|]. clear -d.
  intros kw [d1 p1] s' H H1. inv_ok H. injection H as <-. cbn [fst].
  match goal with E : forr _ _ _ = Ok _ |- _ => apply (forr_pres (fun s => length (fst (fst s)) = length d)) in E; [exact E|exact H1|] end. clear -d.
  intros r [[d1 p1] ir] s' H H1. inv_ok H. injection H as <-. cbn [fst] in *.
  match goal with E : (if _ then _ else _) = Ok _ |- _ => destruct (negb _) in E; inv_ok E; injection E as <- <-; [exact H1|] end.
  match goal with E : forr _ _ _ = Ok _ |- _ => apply (forr_pres (fun s => length (fst (fst s)) = length d)) in E; [exact E|exact H1|] end. clear -d.
  intros cc [[d1 p1] ic] s' H H1. inv_ok H. injection H as <-. cbn [fst] in *.
  match goal with E : (if _ then _ else _) = Ok _ |- _ => destruct (_ && _)%bool in E; inv_ok E end.
  - unfold wrz in *. match goal with E : (if _ then _ else _) = Ok _ |- _ => destruct (_ <? _)%Z in E; [discriminate|]; apply wr_len in E; congruence end.
  - congruence.
Qed.

(** ** Kernels *)
Lemma linear_weight_twice nI mI x nd md dx nW mW d d' : linear_weight_grad nI mI x nd md dx nW mW d = Ok d' ->
  linear_weight_grad nI mI x nd md dx nW mW d' = Ok d'.
Proof.
  unfold linear_weight_grad. intros H. inv_ok H. injection H as <-. unfold put2. rewrite emap_put. cbn [bind]. rewrite put_put. reflexivity.
Qed.
Lemma linear_bias_twice nd md dx nb d d' : linear_bias_grad nd md dx nb d = Ok d' -> linear_bias_grad nd md dx nb d' = Ok d'.
Proof. unfold linear_bias_grad. intros H. inv_ok H. injection H as <-. rewrite emap_put. cbn [bind]. cbn [bind]. rewrite put_put. reflexivity. Qed.
Lemma conv_weights_twice batch co rows cols go buf d d' : conv_weights_grad batch co rows cols go buf d = Ok d' ->
  conv_weights_grad batch co rows cols go buf d' = Ok d'.
Proof.
  intros H. assert (L : length d' = length d).
  { unfold conv_weights_grad in H. inv_ok H. apply emap_inv in E.
    apply (forr_pres (fun s => length s = length d)) in H; [exact H|unfold zeros; apply tab_length|].
    intros i s s' HS Ls. inv_ok HS. injection HS as <-. rewrite put2_length; lia. }
  rewrite <- H. unfold conv_weights_grad. rewrite (emap_len _ d' d L), (zeros_len d' d L). reflexivity.
Qed.
Lemma conv_bias_twice batch co cols go d d' : conv_bias_grad batch co cols go d = Ok d' -> conv_bias_grad batch co cols go d' = Ok d'.
Proof.
  intros H. assert (L : length d' = length d).
  { unfold conv_bias_grad in H. inv_ok H. apply emap_inv in E.
    apply (forr_pres (fun s => length s = length d)) in H; [exact H|unfold zeros; apply tab_length|].
    intros i s s' HS Ls. inv_ok HS. injection HS as <-. rewrite put_length; lia. }
  rewrite <- H. unfold conv_bias_grad. rewrite (emap_len _ d' d L), (zeros_len d' d L). reflexivity.
Qed.
Lemma bn_param_twice n m c s go d1 d2 d1' d2' : bn_param_grad n m c s go d1 d2 = Ok (d1', d2') -> bn_param_grad n m c s go d1' d2' = Ok (d1', d2').
Proof.
  unfold bn_param_grad. intros H. inv_ok H. injection H as <- <-. rewrite !emap_put. cbn [bind]. rewrite !put_put. reflexivity.
Qed.
Lemma conv_input_junk g d batch j1 j2 go W gi :
  conv_input_grad g d batch (fun _ => tab (cd_rows g d * cd_cols d) j1) go W gi = conv_input_grad g d batch (fun _ => tab (cd_rows g d * cd_cols d) j2) go W gi.
Proof.
  unfold conv_input_grad. apply forr_ext. intros i s _. unfold conv_input_grad_step. cbv zeta.
  destruct (emap (cd_cout d * cd_rows g d) W); cbn [bind]; [|reflexivity..]. rewrite !emap_Ok by (rewrite tab_length; lia). cbn [bind].
  destruct (slice _ _ go); cbn [bind]; [|reflexivity..].
  assert (X : forall f j, put2 (cd_rows g d) (cd_cols d) f (tab (cd_rows g d * cd_cols d) j) = tab (cd_rows g d * cd_cols d) (fun p => f (p / cd_cols d) (p mod cd_cols d))).
  { intros f j. unfold put2, put. rewrite skipn_all2 by (rewrite tab_length; lia). apply app_nil_r. }
  rewrite !X. reflexivity.
Qed.
Lemma pool_twice g planes h w ho wo go ind buf gi gd bd : maxpool_input_grad g planes h w ho wo go ind buf gi = Ok (gd, bd) ->
  maxpool_input_grad g planes h w ho wo go ind bd gi = Ok (gd, bd) /\ length bd = length buf.
Proof.
  intros H. assert (L : length bd = length buf).
  { unfold maxpool_input_grad in H. apply (forr_pres (fun s => length (snd s) = length buf)) in H; [exact H|reflexivity|].
    intros i [a b] s' HS Ls. inv_ok HS. injection HS as <-. cbn [snd] in *.
    match goal with X : forr _ _ _ = Ok _ |- _ => apply (forr_pres (fun s => length s = length buf)) in X; [exact X|unfold zeros; rewrite tab_length; exact Ls|] end.
    intros j s s' HS Ls'. inv_ok HS. apply wr_len in HS. congruence. }
  split; [|exact L]. unfold maxpool_input_grad in *. destruct planes as [|n]; [injection H as <- <-; reflexivity|].
  rewrite <- H. change (S n) with (1 + n). rewrite !forr_add. cbn [forr bind]. rewrite (zeros_len bd buf L). reflexivity.
Qed.

(** ** One layer *)
Ltac inv_all H := inv_ok H; repeat match goal with p : (_ * _)%type |- _ => destruct p end; inv_ok H.

Lemma lbackward_env E E' L ins outs gm gi go : lbackward E L ins outs gm gi go = lbackward E' L ins outs gm gi go.
Proof.
  destruct L; lazymatch goal with |- lbackward _ (LConv _ _ _ _) _ _ _ _ _ = _ => idtac | _ => reflexivity end. cbn [lbackward]. destruct (dw_assert _); cbn [bind]; [|reflexivity..]. destruct (front go); cbn [bind]; [|reflexivity..].
  destruct (rd gm _); cbn [bind]; [|reflexivity..]. destruct (dims4 _) as [[[[]]]| |]; cbn [bind]; [|reflexivity..].
  match goal with |- bind ?x _ = bind ?y _ => assert (x = y) as ->; [|reflexivity] end.
  unfold on_grad. destruct (front gi); cbn [bind]; [|reflexivity..]. destruct (rd gm _); cbn [bind]; [|reflexivity..].
  destruct (dims4 _) as [[[[]]]| |]; cbn [bind]; [|reflexivity..].
  match goal with |- bind ?x _ = bind ?y _ => assert (x = y) as ->; [|reflexivity] end. apply conv_input_junk.
Qed.

Lemma lbackward_same E L ins outs gm gi go L2 gm1 : lbackward E L ins outs gm gi go = Ok (L2, gm1) ->
  match L with LMaxPool _ _ _ | LBN2 _ _ _ _ _ _ _ _ _ _ => True | _ => L2 = L end.
Proof. intros H. destruct L; try exact I; cbn in H; inv_all H; injection H as <- _; reflexivity. Qed.

Lemma layer_twice E E' L ins outs gm gi go gouts L1 L2 gm1 : map_res (rd gm) go = Ok gouts ->
  lupdate E L ins gouts = Ok L1 -> lbackward E L1 ins outs gm gi go = Ok (L2, gm1) ->
  lupdate E' L2 ins gouts = Ok L2 /\ lbackward E' L2 ins outs gm gi go = Ok (L2, gm1).
Proof.
  intros HG H1 H2. rewrite (lbackward_env E' E).
  assert (FG : forall k t, front go = Ok k -> rd gm k = Ok t -> front gouts = Ok t).
  { intros k t Hk Ht. destruct go as [|k0 gr]; [discriminate|]. cbn in Hk. injection Hk as ->. cbn in HG. rewrite Ht in HG. cbn [bind] in HG. inv_ok HG. injection HG as <-. reflexivity. }
  pose proof (lbackward_same _ _ _ _ _ _ _ _ _ H2) as SL.
  destruct L; cbn [lupdate] in H1; try (injection H1 as <-; cbn beta iota in SL; subst L2; split; [reflexivity|exact H2]).
  - inv_all H1. injection H1 as <-. cbn beta iota in SL. subst L2. split; [|exact H2]. cbn [lupdate p_grad set_grad set_dat tsh tdat].
    match goal with X : linear_weight_grad _ _ _ _ _ _ _ _ _ = Ok _ |- _ => apply linear_weight_twice in X end.
    match goal with X : linear_bias_grad _ _ _ _ _ = Ok _ |- _ => apply linear_bias_twice in X end.
    unfold dims2, dim0 in *. cbn [tsh set_dat].
    repeat match goal with X : ?a = Ok _ |- context [?a] => rewrite X; cbn [bind] end. reflexivity.
  - inv_all H1. injection H1 as <-. cbn beta iota in SL. subst L2. split; [|exact H2]. cbn [lupdate p_grad set_grad set_dat tsh tdat].
    match goal with X : conv_weights_grad _ _ _ _ _ _ _ = Ok _ |- _ => apply conv_weights_twice in X end.
    match goal with X : conv_bias_grad _ _ _ _ _ = Ok _ |- _ => apply conv_bias_twice in X end.
    unfold dims4 in *. cbn [tsh set_dat].
    repeat match goal with X : ?a = Ok _ |- context [?a] => rewrite X; cbn [bind] end. reflexivity.
  - injection H1 as <-. cbn in H2 |- *. inv_all H2. injection H2 as <- <-. split; [reflexivity|].
    match goal with X : maxpool_input_grad _ _ _ _ _ _ _ _ _ _ = Ok _ |- _ => apply pool_twice in X; destruct X as [X _] end.
    cbn [lbackward].
    repeat match goal with X : ?a = Ok _ |- context [?a] => rewrite X; cbn [bind] end. cbn [set_dat tdat].
    repeat match goal with X : ?a = Ok _ |- context [?a] => rewrite X; cbn [bind] end. reflexivity.
  - inv_all H1. injection H1 as <-. cbn beta iota in SL. subst L2. split; [|exact H2]. cbn [lupdate p_grad set_grad set_dat tsh tdat].
    match goal with X : bn_param_grad _ _ _ _ _ _ _ = Ok _ |- _ => apply bn_param_twice in X end.
    unfold dims2, dim0 in *. cbn [tsh set_dat].
    repeat match goal with X : ?a = Ok _ |- context [?a] => rewrite X; cbn [bind] end. reflexivity.
  - inv_all H1. injection H1 as <-. cbn [lbackward set_dat tdat tsh tot set_grad p_data] in H2. inv_all H2. injection H2 as <- <-.
    match goal with X : front go = Ok _, Y : rd gm _ = Ok _ |- _ => pose proof (FG _ _ eq_refl Y) as FX end.
    injection FX as <-.
    cbn [lupdate lbackward p_grad set_grad set_dat tsh tdat tot p_data] in *.
    repeat match goal with X : ?a = Ok (_, _), Y : ?a = Ok (_, _) |- _ => rewrite X in Y; injection Y; intros; subst; clear Y end.
    match goal with X : nchw2nhwc _ _ _ _ _ (tdat nout) = Ok _ |- _ => apply nchw_twice in X; destruct X as [X1 _] end.
    match goal with X : nchw2nhwc _ _ _ _ _ _ = Ok _ |- _ => rewrite X1 in X; injection X as <- end.
    assert (LZ : length a5 = length (tdat nin)).
    { match goal with X : bn_input_grad _ _ _ _ _ _ _ = Ok _ |- _ => clear -X; unfold bn_input_grad in X; inv_ok X; injection X as <- end.
      match goal with X : emap _ (zeros _) = Ok _ |- _ => apply emap_inv in X; unfold zeros in *; rewrite put2_length by exact X end. apply tab_length. }
    match goal with X : bn_param_grad _ _ _ _ _ _ _ = Ok _ |- _ => apply bn_param_twice in X end.
    unfold tot at 3. cbn [set_dat tdat]. rewrite (zeros_len _ _ LZ), LZ. fold (tot nin).
    repeat match goal with X : ?a = Ok _ |- context [?a] => rewrite X; cbn [bind] end.
    match goal with X : (_ =? 0) = false |- _ => rewrite X end.
    repeat match goal with X : ?a = Ok _ |- context [?a] => rewrite X; cbn [bind] end. split; reflexivity.
Qed.

(** ** What backward touches *)
Definition same_dims (g g' : list ten) : Prop := Forall2 (fun t t' => tsh t' = tsh t /\ tot t' = tot t) g g'.
Lemma same_dims_refl g : same_dims g g.
Proof. induction g; constructor; auto. Qed.
Lemma same_dims_trans g1 g2 g3 : same_dims g1 g2 -> same_dims g2 g3 -> same_dims g1 g3.
Proof.
  intros H. revert g3. induction H as [|a b l l' [H1 H2] _ IH]; intros g3 K; inversion K as [|? c ? l2 [K1 K2] K3]; subst; [constructor|]. constructor; [split; congruence|apply IH; exact K3].
Qed.
Lemma same_dims_upd g k t d : nth_error g k = Some t -> length d = tot t -> same_dims g (upd g k (set_dat t d)).
Proof.
  intros H L. revert k H. induction g as [|a g IH]; intros [|k] H; try discriminate; cbn in *.
  - injection H as ->. constructor; [split; [reflexivity|exact L]|apply same_dims_refl].
  - constructor; [split; reflexivity|]. apply IH, H.
Qed.

(** The gradients a layer adds to. *)
Definition touched (L : layer) (ids : list nat) : list nat := firstn (match L with LAdd => 2 | _ => 1 end) ids.

Definition framed (g g' : list ten) (ids : list nat) : Prop := same_dims g g' /\ forall p, ~ In p ids -> nth_error g' p = nth_error g p.
Lemma upd_framed g k t d ids : rd g k = Ok t -> length d = tot t -> In k ids -> framed g (upd g k (set_dat t d)) ids.
Proof.
  intros H L I. unfold rd in H. destruct (nth_error g k) eqn:E; [|discriminate]. injection H as ->. split; [apply same_dims_upd; assumption|].
  intros p Hp. apply nth_error_upd_neq. intros ->. contradiction.
Qed.
Lemma on_grad_framed g ids f g' : on_grad g ids f = Ok g' -> (forall t d, f t = Ok d -> length d = tot t) -> framed g g' (firstn 1 ids).
Proof.
  unfold on_grad. intros H F. inv_ok H. injection H as <-. apply upd_framed; [assumption|apply F; assumption|].
  destruct ids; [discriminate|]. injection E as ->. left. reflexivity.
Qed.
Lemma framed_trans g1 g2 g3 ids : framed g1 g2 ids -> framed g2 g3 ids -> framed g1 g3 ids.
Proof. intros [A B] [C D]. split; [eapply same_dims_trans; eassumption|]. intros p Hp. rewrite D, B by exact Hp. reflexivity. Qed.

Lemma put_len n f d u : emap n d = Ok u -> length (put n f d) = length d.
Proof. intros H. apply put_length, (emap_inv _ _ _ H). Qed.

Lemma same_eq a b u : same a b = Ok u -> a = b.
Proof. unfold same. destruct (Nat.eqb_spec a b); [auto|discriminate]. Qed.

Lemma splice_len {V} off n (l s r : list V) : slice off n l = Ok r -> length s = length r -> length (splice off s l) = length l.
Proof.
  unfold slice. destruct (Nat.leb_spec (off + n) (length l)); [|discriminate]. intros [= <-] L. apply P_Kernels.splice_length. rewrite L, firstn_length, skipn_length. lia.
Qed.

Lemma grad_incr_framed g k i v g' ids : grad_incr g k i v = Ok g' -> In k ids -> framed g g' ids.
Proof.
  unfold grad_incr. intros H I. inv_ok H. injection H as <-. apply upd_framed; [assumption| |exact I].
  match goal with X : wr _ _ _ = Ok _ |- _ => apply wr_len in X; exact X end.
Qed.

Lemma lbackward_framed E L ins outs gm gi go L2 gm' : lbackward E L ins outs gm gi go = Ok (L2, gm') -> framed gm gm' (touched L gi).
Proof.
  intros H. destruct L; cbn [lbackward touched] in *; unfold act_backward in H; inv_all H; injection H as _ <-;
    try match goal with X : on_grad _ _ _ = Ok _ |- _ => apply (on_grad_framed _ _ _ _ X); clear; intros t d H; inv_all H end.
  all: try (unfold elementwise_grad, softmax_input_grad, linear_input_grad, bn_input_grad in H; inv_ok H; injection H as <-; eapply put_len; eassumption).
  all: try (eapply nhwc_length; eassumption).
  - unfold gap_input_grad in H. apply (forr_pres (fun s => length s = tot t)) in H; [exact H|reflexivity|]. clear. intros i s s' H Ls.
    apply (forr_pres (fun s => length s = tot t)) in H; [exact H|exact Ls|]. clear. intros j s s' H Ls. inv_ok H. apply wr_len in H. congruence.
  - match goal with X : forr _ _ _ = Ok _ |- _ => apply (forr_pres (fun s => framed gm s (touched LAdd gi))) in X; [exact X|split; [apply same_dims_refl|reflexivity]|] end.
    intros i s s' H Hs. inv_ok H.
    assert (I : In a1 (touched LAdd gi) /\ In a2 (touched LAdd gi)).
    { unfold touched. destruct gi as [|x [|y t]]; try discriminate. injection E2 as ->. injection E3 as ->. cbn. auto. }
    eapply framed_trans; [exact Hs|]. eapply framed_trans; eapply grad_incr_framed; try eassumption; apply I.
  - unfold conv_input_grad in H. apply (forr_pres (fun s => length s = tot t)) in H; [exact H|reflexivity|]. clear. intros i s s' H Ls.
    unfold conv_input_grad_step in H. inv_ok H. injection H as <-.
    rewrite <- Ls. eapply splice_len; [eassumption|]. eapply col2im_length; eassumption.
  - apply upd_framed; [assumption| |destruct gi; [discriminate|]; injection E3 as ->; left; reflexivity].
    match goal with X : maxpool_input_grad _ _ _ _ _ _ _ _ _ _ = Ok _ |- _ => rename X into HM end.
    unfold maxpool_input_grad in HM. apply (forr_pres (fun s => length (fst s) = tot a3)) in HM; [exact HM|reflexivity|]. clear. intros i [s b] s' H Ls.
    cbn [fst] in Ls. inv_ok H. injection H as <-. cbn [fst]. rewrite <- Ls. eapply splice_len; [eassumption|]. eapply col2im_length; eassumption.
  - unfold dropout_input_grad in H. inv_ok H. injection H as <-. unfold tot. rewrite put_length'. lia.
Qed.

(** ** The loop *)
Lemma set_key_same {V} (l : list (string * V)) k v : set_key (set_key l k v) k v = set_key l k v.
Proof.
  induction l as [|[x w] t IH]; [reflexivity|]. cbn. destruct (String.eqb x k) eqn:N; cbn; rewrite N; [reflexivity|]. rewrite IH. reflexivity.
Qed.
Lemma set_key_swap {V} (l : list (string * V)) k v k' v' : k <> k' -> set_key (set_key l k v) k' v' = set_key (set_key l k' v') k v.
Proof.
  intros N. induction l as [|[x w] t IH]; [reflexivity|]. cbn. destruct (String.eqb x k) eqn:A, (String.eqb x k') eqn:B; cbn; rewrite ?A, ?B; try reflexivity.
  - apply String.eqb_eq in A, B. congruence.
  - rewrite IH. reflexivity.
Qed.
Lemma set_key_pair {V} (l : list (string * V)) k v k' v' : k <> k' ->
  set_key (set_key (set_key (set_key l k v) k' v') k v) k' v' = set_key (set_key l k v) k' v'.
Proof. intros N. rewrite (set_key_swap (set_key l k v) k' v' k v) by congruence. rewrite !set_key_same. reflexivity. Qed.
Lemma lstore_again L li : lstore L (lstore L li) = lstore L li.
Proof.
  destruct L; cbn; try reflexivity; unfold set_par, set_buf; cbn; rewrite ?set_key_same, ?set_key_pair by discriminate; reflexivity.
Qed.
Lemma upd_self {V} (l : list V) k x : nth_error l k = Some x -> upd l k x = l.
Proof. revert k. induction l as [|a t IH]; intros [|k] H; try discriminate; cbn in *; [injection H as ->; reflexivity|]. rewrite (IH k H). reflexivity. Qed.

Lemma bwd_step_inv E mem op L infos gr i2 L2 g2 : bwd_step E mem op L infos gr = Ret (i2, L2, g2) ->
  exists ins outs gouts li L0 L1, extract mem (mo_in op) = Ok ins /\ extract mem (mo_out op) = Ok outs /\ extract gr (mo_out op) = Ok gouts /\
    (exists gi, extract gr (mo_in op) = Ok gi) /\
    nth_error infos (mo_info op) = Some li /\ load li L = Ok L0 /\ lupdate E L0 ins gouts = Ok L1 /\
    lbackward E L1 ins outs gr (mo_in op) (mo_out op) = Ok (L2, g2) /\ i2 = upd infos (mo_info op) (lstore L2 li).
Proof.
  unfold bwd_step. intros H. unfold lift in H.
  destruct (bind (extract gr (mo_in op)) _) as [[[[[ins outs] gouts] li] L0]| |] eqn:E1; try discriminate H. inv_ok E1. injection E1 as <- <- <- <- <-.
  match type of H with context [lupdate ?e ?l ?i ?g] => destruct (lupdate e l i g) as [L1| |] eqn:U2; try discriminate H end.
  match type of H with context [lbackward ?a ?b ?c ?d ?e ?f ?g] => destruct (lbackward a b c d e f g) as [[L3 g3]| |] eqn:U3; try discriminate H end.
  injection H as <- <- <-. repeat eexists; try eassumption. unfold rd in *. destruct (nth_error infos (mo_info op)); congruence.
Qed.

Lemma bwd_twice E E' mem : forall ops ls infos gr i1 l1 g1, NoDup (map mo_info ops) -> bwd_ops E mem ops ls infos gr = Ret (i1, l1, g1) ->
  forall infos', (forall op, In op ops -> nth_error infos' (mo_info op) = nth_error i1 (mo_info op)) ->
  bwd_ops E' mem ops l1 infos' gr = Ret (infos', l1, g1).
Proof.
  induction ops as [|op ot IH]; intros ls infos gr i1 l1 g1 ND H infos' A; cbn in H.
  - injection H as -> -> ->. reflexivity.
  - destruct ls as [|L lt]; [discriminate|]. destruct (bwd_ops E mem ot lt infos gr) as [[[i0 l0] g0]|[[? ?] ?]|] eqn:E0; try discriminate H.
    destruct (bwd_step (E (mo_ph op)) mem op L i0 g0) as [[[i2 L2] g2]|[[? ?] ?]|] eqn:E1; try discriminate H. injection H as -> <- ->.
    inversion ND as [|? ? NI ND']; subst. cbn.
    destruct (bwd_step_inv _ _ _ _ _ _ _ _ _ E1) as (ins & outs & gouts & li & L0 & L1 & M1 & M2 & M3 & (gi & M4) & M5 & M6 & M7 & M8 & M9).
    rewrite (IH lt infos gr i0 l0 g0 ND' E0 infos').
    2:{ intros op' I'. rewrite (A op' (or_intror I')), M9. apply nth_error_upd_neq. intros X. apply NI. rewrite X. apply in_map, I'. }
    assert (LI : mo_info op < length i0) by (apply nth_error_Some; congruence).
    assert (HL : nth_error infos' (mo_info op) = Some (lstore L2 li)).
    { rewrite (A op (or_introl eq_refl)), M9. apply nth_error_upd_eq, LI. }
    destruct (layer_twice _ (E' (mo_ph op)) _ _ _ _ _ _ _ _ _ _ M3 M7 M8) as [T1 T2].
    assert (K : same_kind L0 L2).
    { eapply same_kind_trans; [apply (lupdate_kind _ _ _ _ _ M7)|apply (lbackward_kind _ _ _ _ _ _ _ _ _ M8)]. }
    unfold bwd_step. rewrite M4, M1, M2, M3. cbn [bind]. unfold rd at 1. rewrite HL. cbn [bind]. rewrite (load_store _ _ _ _ M6 K). cbn [bind lift].
    rewrite T1. cbn [lift]. rewrite T2. cbn [lift]. rewrite lstore_again. rewrite upd_self by exact HL. reflexivity.
Qed.
