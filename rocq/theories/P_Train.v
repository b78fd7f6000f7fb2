(** A layer that has run stays able to run. *)
From Coq Require Import Reals String Lia Lra.
From Verif Require Import Base BaseFacts Sums M_Im2col S_Im2col M_Kernels M_Conv M_Layers M_Optim M_Nn M_Graph M_Model M_Backend S_Grad S_Partial S_Graph S_Run S_Fit S_Primed
  P_Kernels P_Conv P_Conv2 P_Pool P_Graph P_Graph2 P_Nn P_Model P_Model2 P_Run P_Fwd P_Load P_Fwd2 P_Bwd P_Run2 P_Idem P_Fit P_Safe P_Safe2.
Open Scope nat_scope.

Lemma maxpool_grad_len g planes h w ho wo go ind buf gi gd bd : maxpool_input_grad g planes h w ho wo go ind buf gi = Ok (gd, bd) -> length bd = length buf.
Proof.
  intros H. unfold maxpool_input_grad in H.
  apply (forr_pres (fun s => length (snd s) = length buf)) in H; [exact H|reflexivity|].
  intros i [x y] [x' y'] HS Ls. cbn [snd] in *. inv_ok HS. injection HS as _ <-.
  apply (forr_pres (fun s => length s = length buf)) in E; [exact E|unfold zeros; rewrite tab_length; exact Ls|].
  intros j s s' HJ L2. inv_ok HJ. unfold wr in HJ. destruct (_ <? _) in HJ; [|discriminate]. injection HJ as <-. rewrite upd_length. exact L2.
Qed.

Lemma caches_lupdate E L inshs osh xs gos L' : caches L inshs osh -> lupdate E L xs gos = Ok L' -> caches L' inshs osh.
Proof.
  intros C H. destruct L; cbn [lupdate] in H; inv_ok H; repeat match goal with p : (_ * _)%type |- _ => destruct p end; inv_ok H; injection H as <-; try exact C.
  match goal with X : nchw2nhwc _ _ _ _ _ _ = Ok _ |- _ => apply nchw_len in X; rename X into LN end.
  cbn [caches] in *. unfold tot, set_dat in *. cbn [tdat]. rewrite LN. exact C.
Qed.
Lemma caches_lbackward E L inshs osh xs os gm gi go L' gm' : caches L inshs osh -> lbackward E L xs os gm gi go = Ok (L', gm') -> caches L' inshs osh.
Proof.
  intros C H. destruct L; cbn [lbackward] in H; inv_ok H; repeat match goal with p : (_ * _)%type |- _ => destruct p end; inv_ok H; injection H as <- _; try exact C.
  - match goal with X : maxpool_input_grad _ _ _ _ _ _ _ _ _ _ = Ok _ |- _ => apply maxpool_grad_len in X; rename X into LM end.
    cbn [caches] in *. unfold tot, set_dat in *. cbn [tdat]. rewrite LM. exact C.
  - match goal with X : nchw2nhwc _ _ _ _ _ _ = Ok _ |- _ => apply nchw_len in X; rename X into LN end.
    match goal with X : bn_input_grad _ _ _ _ _ _ _ = Ok _ |- _ => apply bn_input_len in X; rename X into LG end.
    cbn [caches] in *. unfold tot, set_dat in *. cbn [tdat]. rewrite LN, LG. unfold zeros. rewrite tab_length. exact C.
Qed.
Lemma primed_ran L L3 inshs osh : primed L inshs osh -> ran_back L L3 -> primed L3 inshs osh.
Proof.
  intros [F C] (E & xs & gos & os & gm & gi & go & gm' & L2 & U & B). split.
  - eapply fits_lbackward; [|exact B]. eapply fits_lupdate; [exact F|exact U].
  - eapply caches_lbackward; [|exact B]. eapply caches_lupdate; [exact C|exact U].
Qed.
