(** Loading and storing the parameters of a layer. *)
From Coq Require Import Reals String Lia.
From Verif Require Import Base BaseFacts Sums M_Im2col S_Im2col M_Kernels M_Conv M_Layers M_Optim M_Nn M_Model M_Backend S_Grad S_Run P_Nn.
Local Open Scope string_scope.
Open Scope nat_scope.

Lemma find_set {V} (l : list (string * V)) k v k' : find_key (set_key l k v) k' =
  if String.eqb k k' then match find_key l k with Some _ => Some v | None => None end else find_key l k'.
Proof.
  induction l as [|[x w] t IH]; cbn; [destruct (String.eqb k k'); reflexivity|].
  destruct (String.eqb_spec x k) as [->|N]; cbn; [destruct (String.eqb_spec k k') as [->|N']; cbn|].
  - reflexivity.
  - reflexivity.
  - rewrite IH. destruct (String.eqb_spec k k') as [->|N']; [|reflexivity].
    destruct (String.eqb_spec x k'); [congruence|reflexivity].
Qed.

(** The layer object without its parameters and buffers. *)
Definition same_kind (L L' : layer) : Prop :=
  match L, L' with
  | LReLU, LReLU | LSigmoid, LSigmoid | LSoftmax, LSoftmax | LGap, LGap | LAdd, LAdd | LLinear _ _, LLinear _ _ => True
  | LLeaky a, LLeaky b | LELU a, LELU b => a = b
  | LConv g _ _ _, LConv h _ _ _ => g = h
  | LMaxPool g _ _, LMaxPool h _ _ => g = h
  | LDropout p _, LDropout q _ => p = q
  | LBN1 e a _ _ _ _ _ _, LBN1 f b _ _ _ _ _ _ => e = f /\ a = b
  | LBN2 e a _ _ _ _ _ _ _ _, LBN2 f b _ _ _ _ _ _ _ _ => e = f /\ a = b
  | _, _ => False
  end.
Lemma same_kind_refl L : same_kind L L.
Proof. destruct L; cbn; auto. Qed.
Lemma same_kind_trans L L' L2 : same_kind L L' -> same_kind L' L2 -> same_kind L L2.
Proof. destruct L, L'; cbn; try tauto; destruct L2; cbn; try tauto; intuition congruence. Qed.
Lemma same_kind_sym L L' : same_kind L L' -> same_kind L' L.
Proof. destruct L, L'; cbn; try tauto; intuition congruence. Qed.

Ltac inv_ok H :=
  repeat match type of H with
  | bind ?x _ = Ok _ => let E := fresh "E" in destruct x eqn:E; cbn [bind] in H; try discriminate H
  | (let '(_, _) := ?x in _) = Ok _ => destruct x; cbn [bind] in H
  | (if ?c then _ else _) = Ok _ => destruct c eqn:?; cbn [bind] in H; try discriminate H
  end.

Lemma lforward_kind E L ins outs L' o : lforward E L ins outs = Ok (L', o) -> same_kind L L' /\ dparams L' = dparams L.
Proof.
  intros H. destruct L; cbn in H; unfold act_forward in H; inv_ok H; repeat match goal with p : (_ * _)%type |- _ => destruct p end; inv_ok H;
    try (injection H as <- _; cbn; auto; fail).
Qed.
Lemma lupdate_kind E L ins gouts L' : lupdate E L ins gouts = Ok L' -> same_kind L L' /\ map p_data (dparams L') = map p_data (dparams L).
Proof.
  intros H. destruct L; cbn in H; inv_ok H; repeat match goal with p : (_ * _)%type |- _ => destruct p end; inv_ok H;
    try (injection H as <-; cbn; auto; fail).
Qed.
Lemma lbackward_kind E L ins outs gm gi go L' gm' : lbackward E L ins outs gm gi go = Ok (L', gm') -> same_kind L L' /\ lparams L' = lparams L.
Proof.
  intros H. destruct L; cbn in H; inv_ok H; repeat match goal with p : (_ * _)%type |- _ => destruct p end; inv_ok H;
    try (injection H as <- _; cbn; auto; fail).
Qed.

Lemma lforward_flags E L ins outs L' o : lforward E L ins outs = Ok (L', o) ->
  map p_grad (lparams L') = map p_grad (lparams L) /\ map p_train (lparams L') = map p_train (lparams L).
Proof.
  intros H. destruct L; cbn in H; unfold act_forward in H; inv_ok H; repeat match goal with p : (_ * _)%type |- _ => destruct p end; inv_ok H;
    try (injection H as <- _; cbn; split; congruence).
Qed.

Lemma load_kind li L0 L : load li L0 = Ok L -> same_kind L0 L.
Proof. intros H. destruct L0; cbn in H; inv_ok H; injection H as <-; cbn; auto. Qed.

Lemma par_Ok li k p : par li k = Ok p -> find_key (li_params li) k = Some p.
Proof. unfold par. destruct (find_key (li_params li) k); congruence. Qed.
Lemma buf_Ok li k t : bufr li k = Ok t -> find_key (li_bufs li) k = Some t.
Proof. unfold bufr. destruct (find_key (li_bufs li) k); congruence. Qed.

Ltac use_keys :=
  repeat match goal with
  | H : par _ _ = Ok _ |- _ => apply par_Ok in H
  | H : bufr _ _ = Ok _ |- _ => apply buf_Ok in H
  end.

Lemma load_store li L0 L L' : load li L0 = Ok L -> same_kind L L' -> load (lstore L' li) L' = Ok L'.
Proof.
  intros H K. destruct L0; cbn in H; inv_ok H; injection H as <-; destruct L'; cbn in K; try contradiction; try reflexivity;
    use_keys; cbn; unfold par, bufr; cbn; rewrite !find_set; cbn; rewrite ?find_set; cbn;
    repeat match goal with X : find_key _ _ = Some _ |- _ => rewrite X end; reflexivity.
Qed.

(** The names of the parameters [dparams] lists. *)
Definition pkeys (L : layer) : list string :=
  match L with
  | LLinear _ _ | LConv _ _ _ _ => ["weight"; "bias"]
  | LBN1 _ _ _ _ _ _ _ _ | LBN2 _ _ _ _ _ _ _ _ _ _ => ["gamma"; "beta"]
  | _ => []
  end.
Lemma pkeys_kind L L' : same_kind L L' -> pkeys L = pkeys L'.
Proof. destruct L, L'; cbn; tauto. Qed.
Lemma pkeys_length L : length (pkeys L) = length (dparams L).
Proof. destruct L; reflexivity. Qed.
Lemma load_params li L0 L : load li L0 = Ok L -> map (find_key (li_params li)) (pkeys L) = map Some (dparams L).
Proof. intros H. destruct L0; cbn in H; inv_ok H; injection H as <-; cbn; use_keys; try reflexivity; congruence. Qed.

Lemma store_frame L li : li_name (lstore L li) = li_name li /\ li_type (lstore L li) = li_type li /\ li_attrs (lstore L li) = li_attrs li.
Proof. destruct L; repeat split. Qed.

Lemma set_key_keys {V} (l : list (string * V)) k v : map fst (set_key l k v) = map fst l.
Proof. induction l as [|[x w] t IH]; cbn; [reflexivity|]. destruct (String.eqb x k); cbn; [reflexivity|]. rewrite IH. reflexivity. Qed.
Lemma store_keys L li : map fst (li_params (lstore L li)) = map fst (li_params li) /\ map fst (li_bufs (lstore L li)) = map fst (li_bufs li).
Proof. destruct L; cbn; rewrite ?set_key_keys; split; reflexivity. Qed.

Lemma store_params li L0 L L' k : load li L0 = Ok L -> same_kind L L' -> k <> "mask" ->
  find_key (li_params (lstore L' li)) k =
  match nth_error (combine (pkeys L) (dparams L')) 0, nth_error (combine (pkeys L) (dparams L')) 1 with
  | Some (a, p), Some (b, q) => if String.eqb a k then Some p else if String.eqb b k then Some q else find_key (li_params li) k
  | _, _ => find_key (li_params li) k
  end.
Proof.
  intros H K N. destruct L0; cbn in H; inv_ok H; injection H as <-; destruct L'; cbn in K; try contradiction; try reflexivity; use_keys;
    cbn [lstore set_par set_buf li_params li_bufs pkeys dparams lparams combine nth_error]; rewrite !find_set;
    match goal with
    | |- context [String.eqb "mask" k] => destruct (String.eqb_spec "mask" k); [congruence|reflexivity]
    | |- context [String.eqb "weight" k] =>
        destruct (String.eqb_spec "weight" k) as [<-|]; [cbn|destruct (String.eqb_spec "bias" k) as [<-|]; [cbn|]];
        repeat match goal with X : find_key _ _ = Some _ |- _ => rewrite X; clear X end; reflexivity
    | |- context [String.eqb "gamma" k] =>
        destruct (String.eqb_spec "gamma" k) as [<-|]; [cbn|destruct (String.eqb_spec "beta" k) as [<-|]; [cbn|]];
        repeat match goal with X : find_key _ _ = Some _ |- _ => rewrite X; clear X end; reflexivity
    end.
Qed.

Lemma store_same_params li L0 L L' k : load li L0 = Ok L -> same_kind L L' -> dparams L' = dparams L -> k <> "mask" ->
  find_key (li_params (lstore L' li)) k = find_key (li_params li) k.
Proof.
  intros H K D N. rewrite (store_params _ _ _ _ _ H K N), D. pose proof (load_params _ _ _ H) as P.
  destruct (pkeys L) as [|a [|b t]] eqn:EK; [reflexivity| |].
  - destruct L; discriminate EK.
  - destruct (dparams L) as [|p [|q u]] eqn:ED; [discriminate P|discriminate P|]. cbn in P. injection P as P1 P2 _. cbn.
    destruct (String.eqb_spec a k) as [<-|]; [congruence|]. destruct (String.eqb_spec b k) as [<-|]; [congruence|reflexivity].
Qed.
