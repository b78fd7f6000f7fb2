(** The sample programs from the command line: proofs. *)
From Coq Require Import Reals String Ascii Lia Permutation.
From Verif Require Import Base BaseFacts Sums M_Tensor M_Layers M_Kernels M_Optim M_Init M_Nn M_Graph M_Model M_Backend M_DataLoader M_Train M_Serial M_Saved M_Sample M_Image M_Data M_Main
  S_Grad S_Loss S_DataLoader S_Fit S_Nn S_Serial S_Graph S_Run S_Build S_Train S_Plain S_Eval S_Sample S_Data S_Saved S_Saved2 S_Saved3 S_Main
  P_Run2 P_Sample P_Saved8 P_Saved9 P_Saved10 P_Saved11 P_Saved12 P_Data3 Prop_Sample Prop_Loss.
Local Open Scope string_scope.
Open Scope nat_scope.
Local Open Scope list_scope.

(** ** atoi *)
Lemma space_white a : is_space a = true <-> white a.
Proof.
  unfold is_space, white. rewrite orb_true_iff, andb_true_iff, Nat.eqb_eq, !Nat.leb_le. split; intros [H|H]; auto.
  - left. rewrite <- (ascii_nat_embedding a), H. reflexivity.
  - subst a. left. reflexivity.
Qed.
Definition fig (d : nat) : ascii := ascii_of_nat (48 + d).
Lemma fig_digit d : d < 10 -> digit (fig d) = Some (Z.of_nat d).
Proof. intros H. do 10 (destruct d as [|d]; [reflexivity|]). lia. Qed.
Lemma fig_text d : d < 10 -> substring d 1 figures = String (fig d) "".
Proof. intros H. do 10 (destruct d as [|d]; [reflexivity|]). lia. Qed.
Lemma fig_other d : d < 10 -> is_space (fig d) = false /\ Ascii.eqb (fig d) "-" = false /\ Ascii.eqb (fig d) "+" = false.
Proof. intros H. do 10 (destruct d as [|d]; [repeat split; reflexivity|]). lia. Qed.
Lemma concat_cons x l : String.concat "" (x :: l) = (x ++ String.concat "" l)%string.
Proof. destruct l as [|y l]; [|reflexivity]. cbn. induction x as [|a x IH]; [reflexivity|]. cbn. rewrite <- IH. reflexivity. Qed.
Lemma written_cons d ds : d < 10 -> written (d :: ds) = String (fig d) (written ds).
Proof. intros H. unfold written. cbn [map]. rewrite concat_cons, fig_text by exact H. reflexivity. Qed.
Lemma digit_none a : ~ In a (list_ascii_of_string figures) -> digit a = None.
Proof.
  intros H. unfold digit. destruct (andb _ _) eqn:E; [|reflexivity]. apply andb_true_iff in E. destruct E as (E1 & E2). apply Nat.leb_le in E1, E2.
  destruct H. rewrite <- (ascii_nat_embedding a). remember (nat_of_ascii a) as k. clear Heqk.
  assert (K : k = 48 \/ k = 49 \/ k = 50 \/ k = 51 \/ k = 52 \/ k = 53 \/ k = 54 \/ k = 55 \/ k = 56 \/ k = 57) by lia. cbn [list_ascii_of_string figures In].
  repeat (destruct K as [->|K]; [vm_compute; tauto|]). subst k. vm_compute. tauto.
Qed.
Lemma digits_written rest : match rest with "" => True | String a _ => ~ In a (list_ascii_of_string figures) end ->
  forall ds v, Forall (fun d => d < 10) ds -> digits (written ds ++ rest) v = fold_left (fun v d => (10 * v + Z.of_nat d)%Z) ds v.
Proof.
  intros R. induction ds as [|d ds IH]; intros v F.
  - cbn [written map String.concat fold_left append]. destruct rest as [|a r]; [reflexivity|]. cbn. rewrite digit_none by exact R. reflexivity.
  - inversion F as [|x y H F']; subst. rewrite written_cons by exact H. cbn [append digits]. rewrite fig_digit by exact H. cbn [fold_left]. apply IH, F'.
Qed.
Lemma number_written ds rest : ds <> [] -> Forall (fun d => d < 10) ds -> match rest with "" => True | String a _ => ~ In a (list_ascii_of_string figures) end ->
  number (written ds ++ rest) = Some (value_of ds).
Proof.
  intros N F R. destruct ds as [|d ds]; [destruct N; reflexivity|]. pose proof (digits_written rest R (d :: ds) 0%Z F) as D. inversion F as [|x y H F']; subst.
  rewrite written_cons in * by exact H. cbn [append] in *. unfold number. rewrite fig_digit by exact H. f_equal. exact D.
Qed.
Lemma fits_int_an v : fits_int v = true <-> an_int v.
Proof. unfold fits_int, an_int, int_max, int_min. change (2 ^ 31)%Z with 2147483648%Z. rewrite andb_true_iff, !Z.leb_le. lia. Qed.
Lemma atoi_blank blank s : Forall white blank -> atoi (string_of_list_ascii blank ++ s) = atoi s.
Proof. induction 1 as [|a t H _ IH]; [reflexivity|]. cbn. apply space_white in H. rewrite H. exact IH. Qed.
Lemma atoi_denotes s v : denotes s v -> (an_int v -> atoi s = Ok v) /\ (~ an_int v -> atoi s = UB).
Proof.
  intros (blank & sign & ds & rest & -> & FB & N & FD & R & SG). rewrite atoi_blank by exact FB.
  pose proof (number_written ds rest N FD R) as NW.
  assert (K : atoi (sign ++ written ds ++ rest) = if fits_int v then Ok v else UB).
  { destruct SG as [([<-|[<-|[]]] & ->)|(-> & ->)].
    - destruct ds as [|d ds]; [destruct N; reflexivity|]. inversion FD as [|x y H F']; subst. rewrite written_cons in * by exact H. cbn [append] in *.
      destruct (fig_other d H) as (O1 & O2 & O3). cbn [atoi]. rewrite O1, O2, O3, NW. reflexivity.
    - cbn [append atoi]. change (is_space "+") with false. cbn. rewrite NW. reflexivity.
    - cbn [append atoi]. change (is_space "-") with false. cbn. rewrite NW. reflexivity. }
  rewrite K. split; intros H.
  - apply fits_int_an in H. rewrite H. reflexivity.
  - destruct (fits_int v) eqn:E; [|reflexivity]. apply fits_int_an in E. contradiction.
Qed.
Lemma atoi_refuses s : no_number s -> atoi s = Ok 0%Z.
Proof.
  intros H. pose proof (stoi_refuses s H) as T. destruct s as [|a t]; [reflexivity|]. destruct H as (IN & SP).
  assert (W : is_space a = false).
  { destruct (is_space a) eqn:E; [|reflexivity]. apply space_white in E. destruct E as [->|E]; [destruct IN; vm_compute; tauto|contradiction]. }
  cbn in T |- *. rewrite W in *. destruct (if Ascii.eqb a "-" then _ else _) as [v|] eqn:E; [|reflexivity].
  exfalso. destruct (Ascii.eqb_spec a "-") as [->|_]; [apply IN; vm_compute; tauto|]. destruct (Ascii.eqb_spec a "+") as [->|_]; [apply IN; vm_compute; tauto|].
  unfold number in E. rewrite digit_none in E; [discriminate E|]. intros X. apply IN. cbn [list_ascii_of_string figures In] in X |- *. tauto.
Qed.

Lemma atoi_reads s v : reads s v -> atoi s = Ok v.
Proof. intros [(D & A)|(N & ->)]; [apply (atoi_denotes s v D), A|apply atoi_refuses, N]. Qed.

(** ** Saving never fails *)
Lemma save_cfg_ok can (b0 bits : R -> Z) (c : config R) c' : good_cfg can (cfg_map b0 c) -> iterated (cfg_map bits c) c' -> exists f, save_cfg c' = Ok f.
Proof.
  intros (_ & _ & _ & _ & _ & _ & G) (_ & _ & _ & IT). unfold save_cfg, concat_res.
  assert (K : exists bs, map_res write_op (c_ops c') = Ok bs).
  { cbn [cfg_map c_ops] in *. revert G IT. generalize (c_ops c'). induction (c_ops c) as [|o t IH]; intros l G IT; cbn in G, IT.
    - inversion IT; subst. exists []. reflexivity.
    - inversion IT as [|x o' y l' (_ & _ & _ & _ & PE) IT' E1 E2]. inversion G as [|x' y' GO G' E3]. clear IT G. destruct (IH l' G' IT') as (bs & HB).
      assert (W : exists w, write_op o' = Ok w).
      { unfold write_op, write_attributes, concat_res. destruct GO as (_ & _ & _ & _ & _ & _ & GA).
        assert (FA : Forall (fun e => snd e <> AOther) (oi_attrs o')).
        { apply Forall_forall. intros e He. apply (Permutation_in _ (Permutation_sym PE)) in He. cbn [op_map oi_attrs] in He, GA. apply in_map_iff in He. destruct He as (e0 & <- & He).
          rewrite Forall_forall in GA. specialize (GA (fst e0, attr_map b0 (snd e0)) (in_map (fun e => (fst e, attr_map b0 (snd e))) _ _ He)). destruct GA as (_ & GA). cbn in GA |- *. destruct (snd e0); cbn in GA |- *; first [discriminate | contradiction]. }
        match goal with |- context [map_res ?f (oi_attrs o')] => assert (MA : exists ws, map_res f (oi_attrs o') = Ok ws) end.
        { clear -FA. induction FA as [|(k & a) t H _ (ws & IH)]; [exists []; reflexivity|]. cbn [map_res]. destruct a; cbn in H; first [contradiction | cbn [write_attribute bind]; rewrite IH; eexists; reflexivity | congruence]. }
        destruct MA as (ws & ->). eexists. reflexivity. }
      destruct W as (w & HW). exists (w :: bs). cbn [map_res]. rewrite HW. cbn [bind]. rewrite HB. reflexivity. }
  destruct K as (bs & ->). eexists. reflexivity.
Qed.

(** ** Evaluation mode twice *)
Lemma upd_self {V} (l : list V) : forall k x, nth_error l k = Some x -> upd l k x = l.
Proof. induction l as [|a t IH]; intros [|k] x H; cbn in *; try discriminate; [congruence|]. rewrite IH by exact H. reflexivity. Qed.
Lemma set_key_self {V} (l : list (string * V)) k v : find_key l k = Some v -> set_key l k v = l.
Proof. induction l as [|[x w] t IH]; cbn; [reflexivity|]. destruct (String.eqb_spec x k) as [->|]; [intros [= ->]; reflexivity|]. intros H. rewrite (IH H). reflexivity. Qed.
Lemma on_par_self f infos r : (forall p, get_par infos r = Some p -> f p = p) -> on_par f infos r = infos.
Proof.
  unfold get_par, on_par. destruct (nth_error infos (fst r)) as [li|] eqn:E; [|reflexivity]. destruct (find_key (li_params li) (snd r)) as [p|] eqn:F; [|reflexivity].
  intros H. rewrite (H p eq_refl). unfold set_par. rewrite set_key_self by exact F. destruct li. apply upd_self, E.
Qed.
Lemma fold_self f (l : list (string * (nat * string))) infos : (forall e p, In e l -> get_par infos (snd e) = Some p -> f p = p) ->
  fold_left (fun infos e => on_par f infos (snd e)) l infos = infos.
Proof.
  induction l as [|e t IH]; intros H; [reflexivity|]. cbn [fold_left]. rewrite on_par_self; [apply IH; intros e' p He; apply (H e' p); right; exact He|].
  intros p. apply (H e p). left. reflexivity.
Qed.
Lemma fold_trained mode l : forall infos r p, get_par (fold_left (fun infos (e : string * (nat * string)) => on_par (train_prm mode) infos (snd e)) l infos) r = Some p ->
  (In r (map snd l) \/ (forall q, get_par infos r = Some q -> p_train q = mode)) -> p_train p = mode.
Proof.
  induction l as [|e t IH]; intros infos r p H C; cbn [fold_left] in H.
  - destruct C as [[]|C]. apply C, H.
  - apply (IH _ _ _ H). destruct (in_dec (fun x y : nat * string => ltac:(decide equality; [apply string_dec|apply Nat.eq_dec])) r (map snd t)) as [IN|NI]; [left; exact IN|right].
    intros q Hq. rewrite on_par_get in Hq. destruct ((fst (snd e) =? fst r) && String.eqb (snd (snd e)) (snd r)) eqn:EQ.
    + destruct (get_par infos r) as [q0|]; [|discriminate]. injection Hq as <-. reflexivity.
    + destruct C as [[C|C]|C]; [|contradiction|apply C, Hq]. subst r. rewrite Nat.eqb_refl, String.eqb_refl in EQ. discriminate EQ.
Qed.
Lemma train_twice mode m infos : model_train mode m (model_train mode m infos) = model_train mode m infos.
Proof.
  unfold model_train at 1. apply fold_self. intros e p He Hp.
  assert (T : p_train p = mode) by (eapply fold_trained; [exact Hp|left; apply in_map, He]). destruct p as [d g t]. cbn in T |- *. subst t. reflexivity.
Qed.

(** ** Predictions are determined *)
Lemma predicts_same {D D'} m n c rest (ds : dataset R D) item (ds' : dataset R D') item' infos bo scores scores' (E : nat -> env) P :
  0 < n -> (forall d, fair (E d)) -> ten_ok [n; c] P -> ds_size ds' = ds_size ds -> (forall j, (0 <= j < ds_size ds)%Z -> item' j = item j) ->
  predicts m n c rest ds item infos bo scores -> predicts m n c rest ds' item' infos bo scores' -> forall j, (0 <= j < ds_size ds)%Z -> scores' j = scores j.
Proof.
  intros N0 FE TP ES EI PR PR' j J.
  set (X := mkT (n :: rest) (flat_map (fun j => fst (item j)) (repeat j n))). set (y := mkT [n; 1] (flat_map (fun j => snd (item j)) (repeat j n))).
  assert (RJ : nth_error (repeat j n) 0 = Some j) by (destruct n; [lia|reflexivity]).
  assert (B : batch_of n rest item (repeat j n) X y) by (split; [apply repeat_length|split; reflexivity]).
  assert (FM : forall (f : list R * list R -> list R), flat_map (fun j => f (item j)) (repeat j n) = flat_map (fun j => f (item' j)) (repeat j n)).
  { intros f. clear -EI J. induction n as [|k IH]; [reflexivity|]. cbn [repeat flat_map]. rewrite IH, EI by exact J. reflexivity. }
  assert (B' : batch_of n rest item' (repeat j n) X y) by (split; [apply repeat_length|split; unfold X, y; f_equal; apply FM]).
  assert (FJ : Forall (fun j => 0 <= j < ds_size ds)%Z (repeat j n)) by (apply Forall_forall; intros x Hx; apply repeat_spec in Hx; subst x; exact J).
  destruct (PR j E (repeat j n) X y P 0 J FE FJ B RJ TP) as (bo1 & p & E1 & _ & <-).
  destruct (PR' j E (repeat j n) X y P 0) as (bo2 & p' & E2 & _ & <-); try assumption; [rewrite ES; assumption..|]. rewrite E1 in E2. injection E2 as _ <-. reflexivity.
Qed.
