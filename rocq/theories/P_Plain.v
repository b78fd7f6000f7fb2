(** Applying layers to arguments they are meant for. *)
From Coq Require Import Reals String Lia Lra.
From Verif Require Import Base BaseFacts Sums M_Tensor M_Im2col S_Im2col M_Kernels M_Conv M_Layers M_Optim M_Init M_Nn M_Graph M_Model M_Backend S_Grad S_Graph S_Run S_Fit S_Plain
  P_Layout P_Nn P_Run2.
Local Open Scope string_scope.
Open Scope nat_scope.
Local Open Scope list_scope.

(** *** Numbers *)
Lemma prod_pos sh : Forall (fun d => 0 < d) sh -> 0 < prodN sh.
Proof. induction 1 as [|d t H _ IH]; [apply Nat.lt_0_1|]. cbn [prodN fold_right]. fold (prodN t). nia. Qed.
Lemma fits_small n : small n -> fits_int (Z.of_nat n) = true.
Proof. unfold small, fits_int, int_min, int_max. intros H. apply Bool.andb_true_iff. split; apply Z.leb_le; lia. Qed.
Lemma int_prod_go sh : Forall (fun d => 0 < d) sh -> forall a, 0 < a -> small (a * prodN sh) ->
  int_prod_from (Z.of_nat a) (zs sh) = Ok (Z.of_nat (a * prodN sh)).
Proof.
  induction 1 as [|d t Hd Ht IH]; intros a Ha S; [cbn; f_equal; f_equal; lia|]. cbn [zs map int_prod_from]. fold (zs t).
  rewrite <- Nat2Z.inj_mul. cbn [prodN fold_right] in *. fold (prodN t) in *. pose proof (prod_pos t Ht). rewrite Nat.mul_assoc in *.
  rewrite fits_small; [apply IH; [nia|exact S]|]. unfold small in *. nia.
Qed.
Lemma int_prod_zs sh : proper sh -> int_prod (zs sh) = Ok (Z.of_nat (prodN sh)).
Proof. intros [P S]. unfold int_prod. change 1%Z with (Z.of_nat 1). rewrite int_prod_go; [f_equal; f_equal; lia|exact P|lia|rewrite Nat.mul_1_l; exact S]. Qed.
Lemma zs_nat sh : map Z.to_nat (zs sh) = sh.
Proof. unfold zs. rewrite map_map. rewrite <- (map_id sh) at 2. apply map_ext. intros; apply Nat2Z.id. Qed.
Lemma no_negative sh : have_negative_dim (zs sh) = false.
Proof. unfold have_negative_dim. induction sh as [|d t IH]; [reflexivity|]. cbn. fold (zs t). rewrite IH. destruct (Z.ltb_spec (Z.of_nat d) 0); [lia|reflexivity]. Qed.

(** *** Tensors *)
Lemma new_ten_proper sh junk : proper sh -> new_ten (zs sh) junk = Ok (mkT sh (tab (prodN sh) junk)).
Proof. intros P. unfold new_ten. rewrite no_negative. cbn. rewrite int_prod_zs by exact P. cbn. rewrite zs_nat, Nat2Z.id. reflexivity. Qed.
Lemma t_constant_proper I sh v : proper sh -> t_constant I (zs sh) v = Ok (all v sh).
Proof. intros P. unfold t_constant. rewrite new_ten_proper by exact P. cbn. unfold set_dat, tot, all. cbn. rewrite tab_length. reflexivity. Qed.

Lemma xavier_proper I i o sh : proper sh -> xavier_features (zs sh) (Z.of_nat (prodN sh)) = Ok (Z.of_nat i, Z.of_nat o) -> small (i + o) -> 0 < i + o ->
  t_xavier I 0 (zs sh) = Ok (drawn I i o sh).
Proof.
  intros P X S Q. unfold t_xavier. rewrite new_ten_proper by exact P. cbn [bind]. unfold tot at 1. cbn [tdat]. rewrite tab_length, X. cbn [bind].
  rewrite <- Nat2Z.inj_add, fits_small by exact S. cbn [negb]. destruct (Z.eqb_spec (Z.of_nat (i + o)) 0); [lia|].
  unfold drawn, set_dat, tot. cbn [tsh tdat]. rewrite tab_length, <- INR_IZR_INZ. reflexivity.
Qed.
Lemma features_2 u p t : xavier_features (zs [u; p]) t = Ok (Z.of_nat u, Z.of_nat p).
Proof. reflexivity. Qed.
Lemma features_4 a b c d : 0 < a -> small a -> xavier_features (zs [a; b; c; d]) (Z.of_nat (prodN [a; b; c; d])) = Ok (Z.of_nat (b * c * d), Z.of_nat a).
Proof.
  intros H S. unfold xavier_features. cbn [zs map]. destruct (Z.eqb_spec (Z.of_nat a) 0); [lia|]. do 2 f_equal.
  unfold small in S. rewrite Z.mod_small by (unfold size_mod; lia). cbn [prodN fold_right].
  replace (a * (b * (c * (d * 1)))) with (b * c * d * a) by ring. rewrite Nat2Z.inj_mul. apply Z.div_mul. lia.
Qed.

Lemma layer_size inp k p s n : places inp k p s n -> layer_out_size (Z.of_nat inp) (Z.of_nat p) (Z.of_nat k) (Z.of_nat s) = Ok (Z.of_nat n).
Proof.
  intros (Hk & Hs & Hn & H). destruct (layer_out_size_fits (Z.of_nat inp) (Z.of_nat p) (Z.of_nat k) (Z.of_nat s)) as (m & E & M1 & M2).
  { lia. } { apply H in Hn. lia. }
  rewrite E. f_equal. destruct (Z.lt_trichotomy m (Z.of_nat n)) as [L|[L|L]]; [|exact L|].
  - assert (X : Z.to_nat m < n) by lia. apply H in X. specialize (M2 m). assert (0 <= m < m)%Z; [|lia]. apply M2. split; [lia|]. rewrite <- (Z2Nat.id m) at 1 by lia. lia.
  - specialize (M2 (Z.of_nat n)). assert (X : (0 <= Z.of_nat n < m)%Z) by lia. apply M2 in X. assert (n < n); [|lia]. apply H. lia.
Qed.
Lemma im2col_size inp k p s n : places inp k p s n -> im2col_out_size (Z.of_nat inp) (Z.of_nat p) (Z.of_nat k) (Z.of_nat s) 1 = Ok (Z.of_nat n).
Proof. intros H. rewrite <- (layer_size _ _ _ _ _ H). unfold im2col_out_size, layer_out_size. do 2 f_equal. lia. Qed.
Lemma sizes_window wi h w ho wo : places h (w_kh wi) (w_ph wi) (w_sh wi) ho -> places w (w_kw wi) (w_pw wi) (w_sw wi) wo -> sizes_ok (window_of wi) h w ho wo.
Proof. intros A B. split; cbn; apply im2col_size; assumption. Qed.
Lemma valid_window wi h w ho wo : places h (w_kh wi) (w_ph wi) (w_sh wi) ho -> places w (w_kw wi) (w_pw wi) (w_sw wi) wo -> validate_geom (window_of wi) = Ok tt.
Proof.
  intros (A1 & A2 & _) (B1 & B2 & _). unfold validate_geom, dw_assert. cbn.
  repeat match goal with |- context [(?a <? ?b)%Z] => destruct (Z.ltb_spec a b); [|lia] | |- context [(?a <=? ?b)%Z] => destruct (Z.leb_spec a b); [|lia] end. reflexivity.
Qed.

(** *** Parameters *)
Lemma fresh_ok sh t : tsh t = sh -> tot t = prodN sh -> prm_ok sh (fresh t).
Proof. intros <- H. unfold prm_ok, fresh, twf. cbn. rewrite repeat_length. auto. Qed.
Lemma all_ok v sh : ten_ok sh (all v sh).
Proof. split; [reflexivity|]. unfold twf. cbn. apply repeat_length. Qed.
Lemma fresh_all v sh : prm_ok sh (fresh (all v sh)).
Proof. apply fresh_ok; [reflexivity|apply repeat_length]. Qed.
Lemma fresh_drawn I i o sh : prm_ok sh (fresh (drawn I i o sh)).
Proof. apply fresh_ok; [reflexivity|apply tab_length]. Qed.

(** *** The layer fits *)
Lemma start_fits I l shs osh : meant_for l shs osh -> fits (start I l shs) shs osh.
Proof.
  intros (R & P & PO & _). destruct R; cbn [start]; try (inversion P as [|? ? P1 P2]; subst); try solve [constructor].
  - constructor; [assumption|apply fresh_drawn|apply fresh_all].
  - constructor; [apply fresh_all|]. apply prod_pos, P1.
  - constructor. destruct P1 as [P1 _]. inversion P1 as [|? ? ? Q]; inversion Q; assumption.
  - constructor; try apply all_ok; try apply fresh_all; try reflexivity; [|left; reflexivity]. destruct P1 as [P1 _]. inversion P1; assumption.
  - constructor; try apply all_ok; try apply fresh_all; try reflexivity; try (left; reflexivity). destruct P1 as [P1 _]. apply prod_pos in P1. cbn in P1. nia.
  - constructor. destruct P1 as [P1 _]. apply prod_pos in P1. cbn in P1. destruct h, w; nia.
  - constructor; [eapply sizes_window; eassumption|eapply valid_window; eassumption|left; reflexivity].
  - assert (KH (window_of wi) = w_kh wi) by (unfold KH; cbn; apply Nat2Z.id). assert (KW (window_of wi) = w_kw wi) by (unfold KW; cbn; apply Nat2Z.id).
    constructor; [eapply sizes_window; eassumption|eapply valid_window; eassumption| |apply fresh_all|].
    + rewrite H2, H3. apply fresh_drawn.
    + rewrite H2, H3. destruct P1 as [P1 _]. inversion P1 as [|? ? Q1 Q2]; subst. inversion Q2; subst. destruct H0 as (? & ? & ? & _), H1 as (? & ? & ? & _). apply Nat.mul_pos_pos; [|nia]. apply Nat.mul_pos_pos; [assumption|]. nia.
Qed.

(** *** Construction *)
Lemma proper_one c : 0 < c -> small c -> proper [c].
Proof. intros H S. split; [constructor; [exact H|constructor]|]. cbn. rewrite Nat.mul_1_r. exact S. Qed.
Lemma proper_in sh d : proper sh -> In d sh -> 0 < d /\ small d.
Proof.
  intros [P S] H. split; [rewrite Forall_forall in P; auto|]. assert (d <= prodN sh); [|unfold small in *; lia].
  clear S. induction P as [|x t Hx Ht IH]; [contradiction|]. cbn [prodN fold_right]. fold (prodN t). pose proof (prod_pos t Ht). destruct H as [->|H]; [nia|]. specialize (IH H). nia.
Qed.
Lemma proper_tail d t : proper (d :: t) -> proper t.
Proof. intros [P S]. inversion P; subst. split; [assumption|]. unfold small in *. cbn [prodN fold_right] in S. fold (prodN t) in S. nia. Qed.

Lemma out_start l shs osh name : meant_for l shs osh -> out_shape (class l) (li_attrs (object l name)) (map zs shs) = Ok (zs osh).
Proof.
  intros (R & P & PO & _). destruct R; try reflexivity.
  - cbn. destruct rest; [contradiction|]. reflexivity.
  - cbn. rewrite (layer_size _ _ _ _ _ H). cbn. rewrite (layer_size _ _ _ _ _ H0). reflexivity.
  - cbn. rewrite (layer_size _ _ _ _ _ H0). cbn. rewrite (layer_size _ _ _ _ _ H1). reflexivity.
  - cbn. rewrite shape_eqb_refl. reflexivity.
Qed.

Lemma linit_start I l shs osh name : meant_for l shs osh -> linit (class l) I (map zs shs) (object l name) = Ret (description I l shs name).
Proof.
  intros (R & P & PO & WS). destruct R; try reflexivity; inversion P as [|? ? P1 P2]; subst.
  - destruct (WS _ _ _ eq_refl) as [W1 W2]. pose proof (proper_tail _ _ P1) as PR. destruct (proper_in _ u PO) as [_ Su]; [right; left; reflexivity|].
    cbn [class object linit map zs rd nth_error lift li_attrs Linear new_info get_int find_key String.eqb Ascii.eqb Bool.eqb]. fold (zs rest).
    rewrite int_prod_zs by exact PR. cbn [lift]. change [Z.of_nat u; Z.of_nat (prodN rest)] with (zs [u; prodN rest]). change [Z.of_nat u] with (zs [u]).
    rewrite (xavier_proper I u (prodN rest)); [|split; [|exact W1]|apply features_2|exact W2|lia].
    + unfold t_zeros. rewrite t_constant_proper by (apply proper_one; assumption). reflexivity.
    + constructor; [assumption|]. constructor; [apply prod_pos, PR|constructor].
  - cbn. fold (zs sh). unfold t_zeros. rewrite t_constant_proper by exact P1. reflexivity.
  - destruct (proper_in _ m P1) as [Pm Sm]; [right; left; reflexivity|]. cbn. unfold bn_init. cbn. change [Z.of_nat m] with (zs [m]). unfold t_zeros.
    rewrite !t_constant_proper by (apply proper_one; assumption). reflexivity.
  - destruct (proper_in _ c P1) as [Pm Sm]; [right; left; reflexivity|]. cbn. unfold bn_init. cbn. change [Z.of_nat c] with (zs [c]). unfold t_zeros.
    rewrite !t_constant_proper by (apply proper_one; assumption). reflexivity.
  - destruct (WS _ _ _ eq_refl) as [W1 W2]. destruct (proper_in _ out PO) as [_ So]; [right; left; reflexivity|]. destruct (proper_in _ c P1) as [Pc _]; [right; left; reflexivity|].
    cbn -[t_xavier t_zeros]. change [Z.of_nat out; Z.of_nat c; Z.of_nat (w_kh wi); Z.of_nat (w_kw wi)] with (zs [out; c; w_kh wi; w_kw wi]). change [Z.of_nat out] with (zs [out]).
    rewrite (xavier_proper I (c * w_kh wi * w_kw wi) out); [|split; [|exact W1]|apply features_4; assumption|exact W2|lia].
    + unfold t_zeros. rewrite t_constant_proper by (apply proper_one; assumption). reflexivity.
    + destruct H0 as (? & _), H1 as (? & _). repeat (constructor; [assumption|]). constructor.
Qed.

(** Initialising again changes nothing. *)
Lemma linit_again I J l shs osh li : meant_for l shs osh -> renamed (description I l shs "") li -> linit (class l) J (map zs shs) li = Ret li.
Proof.
  intros M (T & A & PP & BB). destruct li as [n ty at' ps bs]. cbn in T, A, PP, BB. subst ty at' ps bs.
  assert (K : forall K, linit (class l) J (map zs shs) (object l n) = Ret K -> True) by auto. clear K.
  pose proof (linit_start J l shs osh n M) as E. destruct M as (R & P & PO & WS).
  destruct R; try reflexivity.
  - cbn [class object linit map zs rd nth_error lift li_attrs Linear new_info get_int find_key String.eqb Ascii.eqb Bool.eqb] in *. fold (zs rest) in *.
    destruct (int_prod (zs rest)); try discriminate E. cbn [lift] in *. unfold add_param in *. destruct (t_xavier _ _ _); try discriminate E. cbn [lift st_bind] in *.
    destruct (t_zeros _ _); try discriminate E. reflexivity.
  - cbn in *. unfold add_param in *. destruct (t_zeros _ _); try discriminate E. reflexivity.
  - cbn in *. unfold bn_init in *. cbn in *. unfold add_param, add_buffer in *. destruct (t_constant _ _ 1%R); try discriminate E. cbn in *. destruct (t_zeros _ _); try discriminate E. reflexivity.
  - cbn in *. unfold bn_init in *. cbn in *. unfold add_param, add_buffer in *. destruct (t_constant _ _ 1%R); try discriminate E. cbn in *. destruct (t_zeros _ _); try discriminate E. reflexivity.
  - cbn -[t_xavier t_zeros] in *. unfold add_param in *. destruct (t_xavier _ _ _); try discriminate E. cbn in *. destruct (t_zeros _ _); try discriminate E. reflexivity.
Qed.

Lemma create_start I l shs osh li : meant_for l shs osh -> renamed (description I l shs "") li -> create_layer li = Ok (start I l shs).
Proof.
  intros (R & P & PO & WS) (T & A & PP & BB). destruct li as [n ty at' ps bs]. cbn in T, A, PP, BB. subst ty at' ps bs.
  destruct R; try reflexivity.
  - cbn. unfold all. rewrite !(eq_refl : prodN [m] = m * 1), !Nat.mul_1_r. reflexivity.
  - cbn. unfold all. rewrite !(eq_refl : prodN [c] = c * 1), !Nat.mul_1_r. reflexivity.
Qed.

(** *** One application *)
Lemma shapes_of ps args shs : Forall2 (has_shape ps) args shs -> map_res (fun a => p <- rd ps a ;; Ok (ph_shape p)) args = Ok (map zs shs).
Proof. induction 1 as [|a sh l l' (p & H & E) _ IH]; [reflexivity|]. cbn [map_res]. rewrite rd_nth, H. cbn [bind]. rewrite IH, E. reflexivity. Qed.
Lemma class_args l shs osh : result l shs osh -> length shs = num_in (class l).
Proof. destruct 1; reflexivity. Qed.

Lemma apply_new I l shs osh name args es : Forall2 (has_shape (es_ph es)) args shs -> meant_for l shs osh ->
  apply_op (class l) I (length (es_info es)) args (fst (new_op (object l name) es)) =
  RVal (mkES (es_ph es ++ [mkPh (zs osh) (Some (length (es_info es), args))]) (es_info es ++ [description I l shs name])) (length (es_ph es)).
Proof.
  intros F M. unfold apply_op. cbn [fst new_op es_ph es_info]. rewrite (shapes_of _ _ _ F), rd_nth, nth_error_app2, Nat.sub_diag by lia. cbn [nth_error].
  rewrite (linit_start I l shs osh name M). cbn [description li_attrs]. rewrite (out_start l shs osh name M). unfold set_info. cbn [es_ph es_info].
  do 3 f_equal. assert (U : forall (l : list linfo) x y, upd (l ++ [x]) (length l) y = l ++ [y]) by (clear; intros l x y; induction l; cbn; congruence). apply U.
Qed.
Lemma apply_again I J l shs osh li i args es : Forall2 (has_shape (es_ph es)) args shs -> meant_for l shs osh -> nth_error (es_info es) i = Some li ->
  renamed (description I l shs "") li ->
  apply_op (class l) J i args es = RVal (mkES (es_ph es ++ [mkPh (zs osh) (Some (i, args))]) (es_info es)) (length (es_ph es)).
Proof.
  intros F M Hi R. unfold apply_op. rewrite (shapes_of _ _ _ F), rd_nth, Hi. rewrite (linit_again I J l shs osh li M R).
  destruct R as (T & A & _). rewrite A. cbn [description li_attrs]. rewrite (out_start l shs osh "" M). unfold set_info. cbn [es_ph es_info].
  assert (U : forall (l : list linfo) i x, nth_error l i = Some x -> upd l i x = l) by (clear; induction l as [|a t IH]; intros [|i] x H; try discriminate; cbn in *; [congruence|f_equal; auto]).
  rewrite (U _ _ _ Hi). reflexivity.
Qed.

(** *** Programs *)
Lemma Forall2_weaken {A B} (P Q : A -> B -> Prop) l l' : (forall a b, P a b -> Q a b) -> Forall2 P l l' -> Forall2 Q l l'.
Proof. intros H. induction 1; constructor; auto. Qed.
Record plain_ok (es : estore) (D : list made) : Prop := mkPO {
  po_built : built es;
  po_meant : Forall (fun x => meant_for (md_layer x) (md_in x) (md_out x)) D;
  po_infos : Forall2 (fun x li => renamed (description (md_draws x) (md_layer x) (md_in x) "") li) D (es_info es);
  po_input : forall d p, nth_error (es_ph es) d = Some p -> exists sh, proper sh /\ ph_shape p = zs sh;
  po_call : forall d s i args, nth_error (es_ph es) d = Some (mkPh s (Some (i, args))) ->
     exists x, nth_error D i = Some x /\ Forall2 (has_shape (es_ph es)) args (md_in x) /\ s = zs (md_out x) }.

Lemma object_built l name es : built es -> built (fst (new_op (object l name) es)).
Proof. intros B. apply (built_layer es (class l) (li_attrs (object l name)) name); [exact B|]. destruct l; reflexivity. Qed.
Lemma has_shape_app ps x a sh : has_shape ps a sh -> has_shape (ps ++ [x]) a sh.
Proof. intros (p & H & E). exists p. split; [|exact E]. rewrite nth_error_app1; [exact H|]. apply nth_error_Some. congruence. Qed.
Lemma has_shape_lt ps a sh : has_shape ps a sh -> a < length ps.
Proof. intros (p & H & _). apply nth_error_Some. congruence. Qed.
Lemma shapes_lt ps args shs : Forall2 (has_shape ps) args shs -> Forall (fun a => a < length ps) args.
Proof. induction 1; constructor; [eapply has_shape_lt; eassumption|assumption]. Qed.
Lemma table_class l name : layer_table (li_type (object l name)) = Some (class l).
Proof. destruct l; reflexivity. Qed.
Lemma description_renamed I l shs name : renamed (description I l shs "") (description I l shs name).
Proof. repeat split; destruct l; reflexivity. Qed.

Lemma plain_plain_ok es D : plain es D -> plain_ok es D.
Proof.
  induction 1 as [|es D sh _ [B M Fi Pi C] Psh|es D I l name args shs osh es' p _ [B M Fi Pi C] F ML E|es D I i x args es' p _ [B M Fi Pi C] Hx F E|es D order ins outs es' m _ [B M Fi Pi C] E].
  - split; [constructor|constructor|constructor| |]; cbn; intros [|d]; discriminate.
  - split; cbn [new_input fst es_ph es_info].
    + apply built_input, B.
    + exact M.
    + exact Fi.
    + intros d p H. destruct (Nat.lt_ge_cases d (length (es_ph es))) as [L|L]; [rewrite nth_error_app1 in H by lia; eauto|].
      rewrite nth_error_app2 in H by lia. destruct (d - length (es_ph es)) as [|k]; [|destruct k; discriminate H]. injection H as <-. eauto.
    + intros d s i args H. destruct (Nat.lt_ge_cases d (length (es_ph es))) as [L|L].
      * rewrite nth_error_app1 in H by lia. destruct (C _ _ _ _ H) as (x & Hx & Fx & Ex). exists x. repeat (split; [assumption|]).
        split; [|exact Ex]. eapply Forall2_weaken; [|exact Fx]. intros a b. apply has_shape_app.
      * rewrite nth_error_app2 in H by lia. destruct (d - length (es_ph es)) as [|k]; [discriminate H|destruct k; discriminate H].
  - rewrite (apply_new I l shs osh name args es F ML) in E. injection E as <- <-. split; cbn [es_ph es_info].
    + eapply (built_apply _ (class l) I (length (es_info es)) args); [apply (object_built l name), B| | | |apply (apply_new I l shs osh name args es F ML)].
      * cbn [fst new_op es_ph]. eapply shapes_lt, F.
      * rewrite <- (class_args _ _ _ (proj1 ML)). clear -F. induction F; cbn; congruence.
      * exists (object l name). cbn [fst new_op es_info]. rewrite nth_error_app2, Nat.sub_diag by lia. split; [reflexivity|apply table_class].
    + apply Forall_app. split; [exact M|]. constructor; [exact ML|constructor].
    + apply Forall2_app; [exact Fi|]. constructor; [apply description_renamed|constructor].
    + intros d q H. destruct (Nat.lt_ge_cases d (length (es_ph es))) as [L|L]; [rewrite nth_error_app1 in H by lia; eauto|].
      rewrite nth_error_app2 in H by lia. destruct (d - length (es_ph es)) as [|k]; [|destruct k; discriminate H]. injection H as <-. exists osh. split; [apply ML|reflexivity].
    + assert (LD : length D = length (es_info es)) by (clear -Fi; induction Fi; cbn; congruence).
      intros d s i args' H. destruct (Nat.lt_ge_cases d (length (es_ph es))) as [L|L].
      * rewrite nth_error_app1 in H by lia. destruct (C _ _ _ _ H) as (x & Hx & Fx & Ex). exists x. split; [rewrite nth_error_app1; [exact Hx|apply nth_error_Some; congruence]|].
        split; [|exact Ex]. eapply Forall2_weaken; [|exact Fx]. intros a b. apply has_shape_app.
      * rewrite nth_error_app2 in H by lia. destruct (d - length (es_ph es)) as [|k]; [|destruct k; discriminate H]. injection H as <- <- <-.
        exists (mkMade I l shs osh). rewrite <- LD, nth_error_app2, Nat.sub_diag by lia. split; [reflexivity|]. split; [|reflexivity].
        eapply Forall2_weaken; [|exact F]. intros a b. apply has_shape_app.
  - destruct (Forall2_nth _ _ _ _ _ Fi Hx) as (li & Hli & R). assert (ML : meant_for (md_layer x) (md_in x) (md_out x)) by (rewrite Forall_forall in M; apply M; eapply nth_error_In, Hx).
    pose proof (apply_again _ I _ _ _ _ _ _ _ F ML Hli R) as EA. rewrite EA in E. injection E as <- <-. split; cbn [es_ph es_info].
    + eapply (built_apply _ (class (md_layer x)) I i args); [exact B| | | |exact EA].
      * eapply shapes_lt, F.
      * rewrite <- (class_args _ _ _ (proj1 ML)). clear -F. induction F; cbn; congruence.
      * exists li. split; [exact Hli|]. destruct R as (-> & _). apply table_class.
    + exact M.
    + exact Fi.
    + intros d q H. destruct (Nat.lt_ge_cases d (length (es_ph es))) as [L|L]; [rewrite nth_error_app1 in H by lia; eauto|].
      rewrite nth_error_app2 in H by lia. destruct (d - length (es_ph es)) as [|k]; [|destruct k; discriminate H]. injection H as <-. exists (md_out x). split; [apply ML|reflexivity].
    + intros d s j args' H. destruct (Nat.lt_ge_cases d (length (es_ph es))) as [L|L].
      * rewrite nth_error_app1 in H by lia. destruct (C _ _ _ _ H) as (y & Hy & Fy & Ey). exists y. split; [exact Hy|].
        split; [|exact Ey]. eapply Forall2_weaken; [|exact Fy]. intros a b. apply has_shape_app.
      * rewrite nth_error_app2 in H by lia. destruct (d - length (es_ph es)) as [|k]; [|destruct k; discriminate H]. injection H as <- <- <-.
        exists x. split; [exact Hx|]. split; [|reflexivity]. eapply Forall2_weaken; [|exact F]. intros a b. apply has_shape_app.
  - assert (RN : es_ph es' = es_ph es /\ Forall2 renamed (es_info es) (es_info es')).
    { unfold construct_model in E. destruct (build (es_ph es) ins outs) as [g| |]; try discriminate E.
      destruct (init_ops (es_ph es) g (order g) 0 (op_nodes (order g)) (es_info es)) as [[infos ops]| |] eqn:IO; try discriminate E.
      apply init_ops_renamed in IO. match type of E with (match ?x with _ => _ end) = _ => destruct x; try discriminate E end. injection E as <- _. cbn. auto. }
    destruct RN as [EP RN]. split.
    + eapply built_model; eassumption.
    + exact M.
    + clear -Fi RN. revert D Fi. induction RN as [|a b l l' R _ IH]; intros D F; inversion F; subst; constructor; [eapply renamed_trans; eassumption|auto].
    + rewrite EP. exact Pi.
    + rewrite EP. exact C.
Qed.
