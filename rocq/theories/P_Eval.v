(** Layers in evaluation mode look at one sample at a time. *)
From Coq Require Import Reals String Lia Lra.
From Verif Require Import Base BaseFacts Sums M_Im2col S_Im2col M_Kernels M_Conv M_Layers S_Grad S_Partial S_Stats S_BN S_Act M_Graph M_Model M_Backend S_Graph S_Run S_Fit S_Eval
  P_Kernels P_Conv P_Conv2 P_Vjp1 P_Vjp2 P_Vjp3 P_VjpConv P_Pool P_Partial P_BN P_BN2 P_BN3 P_Layers P_Layers2 P_Fit.
Open Scope nat_scope.

Definition slab (rest : list nat) (r r' : nat) (t t' : ten) : Prop :=
  forall k, k < prodN rest -> (tdat t).[r * prodN rest + k] = (tdat t').[r' * prodN rest + k].

Lemma list_eq_get (l l' : list R) : length l = length l' -> (forall i, i < length l -> l.[i] = l'.[i]) -> l = l'.
Proof. intros H K. apply (nth_ext _ _ 0%R 0%R H). exact K. Qed.

Lemma sample_length n rest t r : ten_ok (n :: rest) t -> r < n -> length (sample t r) = prodN rest.
Proof.
  intros [S W] H. unfold sample. rewrite S. cbn [tl]. rewrite firstn_length, skipn_length. unfold twf in W. rewrite W, S. cbn [prodN fold_right].
  change (fold_right Nat.mul 1 rest) with (prodN rest). nia.
Qed.
Lemma sample_get n rest t r k : ten_ok (n :: rest) t -> r < n -> k < prodN rest -> (sample t r).[k] = (tdat t).[r * prodN rest + k].
Proof.
  intros [S W] H K. unfold sample. rewrite S. cbn [tl].
  assert (G : forall (l : list R) a b i, i < a -> nth i (firstn a (skipn b l)) 0%R = nth (b + i) l 0%R).
  { clear. intros l a b i H. revert a b i H. assert (F : forall (l : list R) a i, i < a -> nth i (firstn a l) 0%R = nth i l 0%R).
    { induction l0 as [|x l0 IH]; intros [|a] [|i] H; cbn; try reflexivity; try lia. apply IH. lia. }
    intros a b i H. rewrite F by exact H. revert l. induction b; intros l; [reflexivity|]. destruct l; cbn; [destruct i; reflexivity|apply IHb]. }
  apply G. exact K.
Qed.
Lemma slab_sample n n' rest t t' r r' : ten_ok (n :: rest) t -> ten_ok (n' :: rest) t' -> r < n -> r' < n' ->
  (sample t r = sample t' r' <-> slab rest r r' t t').
Proof.
  intros T T' H H'. split.
  - intros E k K. rewrite <- (sample_get n rest t r k), <- (sample_get n' rest t' r' k), E by assumption. reflexivity.
  - intros S. apply list_eq_get; rewrite (sample_length n rest t r T H); [rewrite (sample_length n' rest t' r' T' H'); reflexivity|].
    intros i Hi. rewrite (sample_get n rest), (sample_get n' rest) by assumption. apply S. exact Hi.
Qed.

Lemma computes_at E L xs sh t : computes E L xs sh t -> ten_ok sh t /\ exists L', lforward E L xs [t] = Ok (L', t).
Proof. intros [T (L' & H)]. split; [exact T|]. exists L'. apply H, T. Qed.

Lemma prodN3 a b c : prodN [a; b; c] = a * b * c. Proof. unfold prodN. cbn. ring. Qed.

(** The padded images of two tensors whose samples [r] and [r'] agree. *)
Lemma slab_padded fill n n' cin h w r r' x x' c u v : ten_ok [n; cin; h; w] x -> ten_ok [n'; cin; h; w] x' -> r < n -> r' < n' ->
  slab [cin; h; w] r r' x x' -> c < cin ->
  padded fill h w (tdat x) (r * cin + c) u v = padded fill h w (tdat x') (r' * cin + c) u v.
Proof.
  intros T T' R R' S C. unfold padded. destruct (inside h w u v) eqn:I; [|reflexivity].
  unfold inside in I. apply andb_prop in I as [I I4]. apply andb_prop in I as [I I3]. apply andb_prop in I as [I1 I2].
  apply Z.leb_le in I1, I3. apply Z.ltb_lt in I2, I4. unfold pixel.
  set (y := Z.to_nat u). set (z := Z.to_nat v). assert (y < h) by (unfold y; lia). assert (z < w) by (unfold z; lia).
  pose proof (ten_ok_len _ _ T) as L. pose proof (ten_ok_len _ _ T') as L'. rewrite prodN4 in L, L'.
  assert (K : (c * h + y) * w + z < cin * h * w) by (apply mult_lt; [apply mult_lt|]; assumption).
  rewrite (nth_indep _ fill 0%R) by (rewrite L; repeat apply mult_lt; assumption). rewrite (nth_indep (tdat x') fill 0%R) by (rewrite L'; repeat apply mult_lt; assumption).
  specialize (S ((c * h + y) * w + z)). rewrite prodN3 in S. specialize (S K).
  replace (((r * cin + c) * h + y) * w + z) with (r * (cin * h * w) + ((c * h + y) * w + z)) by ring.
  replace (((r' * cin + c) * h + y) * w + z) with (r' * (cin * h * w) + ((c * h + y) * w + z)) by ring. exact S.
Qed.

Lemma split3 k c h w : k < c * h * w -> exists i y z, i < c /\ y < h /\ z < w /\ k = (i * h + y) * w + z.
Proof.
  intros H. assert (H' : k < (c * h) * w) by lia. destruct (divmod_lt k (c * h) w H') as (A & B & C).
  destruct (divmod_lt (k / w) c h A) as (A1 & B1 & C1). exists (k / w / h), ((k / w) mod h), (k mod w). repeat split; try assumption.
  rewrite <- C1. exact C.
Qed.

Ltac one X := inversion X as [|? ? ? ? ? X1]; subst; clear X; inversion X1; subst; clear X1.

(** Elementwise. *)
Lemma slab_act E E' L L' op rest n n' r r' x x' t t' :
  (forall E ins outs, lforward E L ins outs = act_forward op L ins outs) -> (forall E ins outs, lforward E L' ins outs = act_forward op L' ins outs) ->
  ten_ok (n :: rest) x -> ten_ok (n' :: rest) x' -> r < n -> r' < n' -> slab rest r r' x x' ->
  computes E L [x] (n :: rest) t -> computes E' L' [x'] (n' :: rest) t' -> slab rest r r' t t'.
Proof.
  intros A A' T T' R R' S C C' k K. apply computes_at in C as (Tt & L1 & F), C' as (Tt' & L1' & F').
  pose proof (ten_ok_len _ _ T) as LX. pose proof (ten_ok_len _ _ T') as LX'. destruct T as [Sx Wx], T' as [Sx' Wx'].
  rewrite <- Sx in Tt. rewrite <- Sx' in Tt'.
  destruct (act_spec E L op x t (A E) Wx Tt) as (o & F1 & _ & V). destruct (act_spec E' L' op x' t' (A' E') Wx' Tt') as (o' & F1' & _ & V').
  rewrite F1 in F. rewrite F1' in F'. injection F as <- ->. injection F' as <- ->.
  assert (P : prodN (n :: rest) = n * prodN rest) by reflexivity. assert (P' : prodN (n' :: rest) = n' * prodN rest) by reflexivity.
  rewrite V, V' by (unfold tot; rewrite ?LX, ?LX'; nia). f_equal. apply S. exact K.
Qed.


Ltac both C C' L1 F Tt L1' F' Tt' := apply computes_at in C as (Tt & L1 & F), C' as (Tt' & L1' & F').
Ltac same F1 F := rewrite F1 in F; inversion F; subst; clear F.

Lemma slab_softmax E E' n n' m r r' x x' t t' : 0 < m -> ten_ok [n; m] x -> ten_ok [n'; m] x' -> r < n -> r' < n' -> slab [m] r r' x x' ->
  computes E LSoftmax [x] [n; m] t -> computes E' LSoftmax [x'] [n'; m] t' -> slab [m] r r' t t'.
Proof.
  intros M T T' R R' S C C' k K. both C C' L1 F Tt L1' F' Tt'.
  destruct (softmax_spec E n m x t M T Tt) as (o & F1 & _ & V). destruct (softmax_spec E' n' m x' t' M T' Tt') as (o' & F1' & _ & V').
  same F1 F. same F1' F'. unfold slab in S. rewrite prodN1 in *. rewrite V, V' by assumption. unfold P_Vjp3.softmax_val. rewrite S by exact K. f_equal.
  apply rsum_ext. intros i Hi. rewrite S by exact Hi. reflexivity.
Qed.

Lemma slab_gap E E' n n' c h w r r' x x' t t' : 0 < h * w -> ten_ok [n; c; h; w] x -> ten_ok [n'; c; h; w] x' -> r < n -> r' < n' -> slab [c; h; w] r r' x x' ->
  computes E LGap [x] [n; c; 1; 1] t -> computes E' LGap [x'] [n'; c; 1; 1] t' -> slab [c; 1; 1] r r' t t'.
Proof.
  intros M T T' R R' S C C' k K. both C C' L1 F Tt L1' F' Tt'.
  destruct (gap_spec E n c h w x t M T Tt) as (o & F1 & _ & V & _). destruct (gap_spec E' n' c h w x' t' M T' Tt') as (o' & F1' & _ & V' & _).
  same F1 F. same F1' F'. unfold slab in S. rewrite prodN3 in *. rewrite !Nat.mul_1_r in *. rewrite V, V' by assumption. f_equal.
  apply rsum_ext. intros y Hy. apply rsum_ext. intros z Hz.
  replace (((r * c + k) * h + y) * w + z) with (r * (c * h * w) + ((k * h + y) * w + z)) by ring.
  replace (((r' * c + k) * h + y) * w + z) with (r' * (c * h * w) + ((k * h + y) * w + z)) by ring.
  apply S. repeat apply mult_lt; assumption.
Qed.

Lemma slab_add E E' n n' rest r r' x x' y y' t t' : ten_ok (n :: rest) x -> ten_ok (n' :: rest) x' -> ten_ok (n :: rest) y -> ten_ok (n' :: rest) y' ->
  r < n -> r' < n' -> slab rest r r' x x' -> slab rest r r' y y' ->
  computes E LAdd [x; y] (n :: rest) t -> computes E' LAdd [x'; y'] (n' :: rest) t' -> slab rest r r' t t'.
Proof.
  intros T T' U U' R R' S S2 C C' k K. both C C' L1 F Tt L1' F' Tt'.
  pose proof (ten_ok_len _ _ T) as LX. pose proof (ten_ok_len _ _ T') as LX'. destruct T as [Sx Wx], T' as [Sx' Wx'], U as [Sy Wy], U' as [Sy' Wy'].
  rewrite <- Sx in Tt. rewrite <- Sx' in Tt'.
  destruct (add_spec E x y t Wx Wy ltac:(congruence) Tt) as (o & F1 & _ & V & _). destruct (add_spec E' x' y' t' Wx' Wy' ltac:(congruence) Tt') as (o' & F1' & _ & V' & _).
  same F1 F. same F1' F'.
  assert (P : prodN (n :: rest) = n * prodN rest) by reflexivity. assert (P' : prodN (n' :: rest) = n' * prodN rest) by reflexivity.
  rewrite V, V' by (unfold tot; rewrite ?LX, ?LX'; nia). rewrite S, S2 by exact K. reflexivity.
Qed.

Lemma slab_linear E E' W b W' b' n n' u rest r r' x x' t t' : rest <> [] -> prm_ok [u; prodN rest] W -> prm_ok [u] b -> prm_ok [u; prodN rest] W' -> prm_ok [u] b' ->
  p_data W' = p_data W -> p_data b' = p_data b -> ten_ok (n :: rest) x -> ten_ok (n' :: rest) x' -> r < n -> r' < n' -> slab rest r r' x x' ->
  computes E (LLinear W b) [x] [n; u] t -> computes E' (LLinear W' b') [x'] [n'; u] t' -> slab [u] r r' t t'.
Proof.
  intros NE PW Pb PW' Pb' EW Eb T T' R R' S C C' k K. both C C' L1 F Tt L1' F' Tt'.
  destruct (linear_spec E W b n u rest x t NE PW Pb T Tt) as (o & F1 & _ & V). destruct (linear_spec E' W' b' n' u rest x' t' NE PW' Pb' T' Tt') as (o' & F1' & _ & V').
  same F1 F. same F1' F'. rewrite prodN1 in *. rewrite V, V', EW, Eb by assumption. f_equal. apply rsum_ext. intros i Hi. rewrite S by exact Hi. reflexivity.
Qed.

Lemma slab_conv E E' g W b W' b' buf buf' n n' cin h w cout ho wo r r' x x' t t' : sizes_ok g h w ho wo -> validate_geom g = Ok tt ->
  prm_ok [cout; cin; KH g; KW g] W -> prm_ok [cout] b -> prm_ok [cout; cin; KH g; KW g] W' -> prm_ok [cout] b' ->
  p_data W' = p_data W -> p_data b' = p_data b -> ten_ok [n; cin; h; w] x -> ten_ok [n'; cin; h; w] x' -> r < n -> r' < n' -> slab [cin; h; w] r r' x x' ->
  computes E (LConv g W b buf) [x] [n; cout; ho; wo] t -> computes E' (LConv g W' b' buf') [x'] [n'; cout; ho; wo] t' -> slab [cout; ho; wo] r r' t t'.
Proof.
  intros SO VG PW Pb PW' Pb' EW Eb T T' R R' S C C' k K. both C C' L1 F Tt L1' F' Tt'.
  destruct (conv_forward_spec E g W b buf n cin h w cout ho wo x SO VG PW Pb T t Tt) as (bf & o & F1 & _ & V).
  destruct (conv_forward_spec E' g W' b' buf' n' cin h w cout ho wo x' SO VG PW' Pb' T' t' Tt') as (bf' & o' & F1' & _ & V').
  same F1 F. same F1' F'. rewrite prodN3 in *. destruct (split3 _ _ _ _ K) as (i & y & z & Hi & Hy & Hz & ->).
  replace (r * (cout * ho * wo) + ((i * ho + y) * wo + z)) with (((r * cout + i) * ho + y) * wo + z) by ring.
  replace (r' * (cout * ho * wo) + ((i * ho + y) * wo + z)) with (((r' * cout + i) * ho + y) * wo + z) by ring.
  rewrite V, V', EW, Eb by assumption. f_equal. apply rsum_ext. intros c Hc. apply rsum_ext. intros a Ha. apply rsum_ext. intros d Hd. f_equal.
  eapply slab_padded; eassumption.
Qed.

Lemma slab_maxpool E E' g ind buf ind' buf' n n' c h w ho wo r r' x x' t t' : sizes_ok g h w ho wo -> validate_geom g = Ok tt -> ibuf_ok ind -> ibuf_ok ind' ->
  fair E -> fair E' -> ten_ok [n; c; h; w] x -> ten_ok [n'; c; h; w] x' -> r < n -> r' < n' -> slab [c; h; w] r r' x x' ->
  computes E (LMaxPool g ind buf) [x] [n; c; ho; wo] t -> computes E' (LMaxPool g ind' buf') [x'] [n'; c; ho; wo] t' -> slab [c; ho; wo] r r' t t'.
Proof.
  intros SO VG IB IB' [AM AE] [AM' AE'] T T' R R' S C C' k K. both C C' L1 F Tt L1' F' Tt'.
  destruct (maxpool_forward_spec E g ind buf n c h w ho wo x SO VG IB T AM AE t Tt) as (i1 & bf & o & F1 & _ & V).
  destruct (maxpool_forward_spec E' g ind' buf' n' c h w ho wo x' SO VG IB' T' AM' AE' t' Tt') as (i1' & bf' & o' & F1' & _ & V').
  same F1 F. same F1' F'. rewrite prodN3 in *. destruct (split3 _ _ _ _ K) as (i & y & z & Hi & Hy & Hz & ->).
  replace (r * (c * ho * wo) + ((i * ho + y) * wo + z)) with (((r * c + i) * ho + y) * wo + z) by ring.
  replace (r' * (c * ho * wo) + ((i * ho + y) * wo + z)) with (((r' * c + i) * ho + y) * wo + z) by ring.
  assert (P : forall a d, wcell g h w (tdat x) (r * c + i) y z a d = wcell g h w (tdat x') (r' * c + i) y z a d).
  { intros a d. unfold wcell. eapply slab_padded; eassumption. }
  destruct (V (r * c + i) y z) as (a & d & Ha & Hd & E1 & M1); [apply mult_lt; assumption|assumption..|].
  destruct (V' (r' * c + i) y z) as (a' & d' & Ha' & Hd' & E1' & M1'); [apply mult_lt; assumption|assumption..|].
  apply Rle_antisym; [rewrite E1, P; apply M1'; assumption|rewrite E1', <- P; apply M1; assumption].
Qed.

Lemma slab_dropout E E' p mk p' mk' n n' rest r r' x x' t t' : p_train mk = false -> p_train mk' = false -> 0 < prodN (n :: rest) -> 0 < prodN (n' :: rest) ->
  ten_ok (n :: rest) x -> ten_ok (n' :: rest) x' -> slab rest r r' x x' ->
  computes E (LDropout p mk) [x] (n :: rest) t -> computes E' (LDropout p' mk') [x'] (n' :: rest) t' -> slab rest r r' t t'.
Proof.
  intros PT PT' N N' T T' S C C'. both C C' L1 F Tt L1' F' Tt'. pose proof (ten_ok_len _ _ Tt) as Lt. pose proof (ten_ok_len _ _ Tt') as Lt'.
  destruct T as [Sx Wx], T' as [Sx' Wx']. rewrite <- Sx in Tt. rewrite <- Sx' in Tt'.
  rewrite (dropout_eval_spec E p mk x t PT Wx Tt) in F by (unfold tot; lia). rewrite (dropout_eval_spec E' p' mk' x' t' PT' Wx' Tt') in F' by (unfold tot; lia).
  injection F as _ <-. injection F' as _ <-. exact S.
Qed.

Lemma slab_bn1 E E' e a g b s rm rv c a' g' b' s' c' n n' m r r' x x' t t' :
  bn1_state m g b s rm rv c -> bn1_state m g' b' s' rm rv c' -> p_train g = false -> p_train b = false -> p_train g' = false -> p_train b' = false ->
  p_data g' = p_data g -> p_data b' = p_data b -> ten_ok [n; m] x -> ten_ok [n'; m] x' -> r < n -> r' < n' -> slab [m] r r' x x' ->
  computes E (LBN1 e a g b s rm rv c) [x] [n; m] t -> computes E' (LBN1 e a' g' b' s' rm rv c') [x'] [n'; m] t' -> slab [m] r r' t t'.
Proof.
  intros ST ST' G B G' B' EG EB T T' R R' S C C' k K. both C C' L1 F Tt L1' F' Tt'.
  destruct (bn1_forward E e a g b s rm rv c n m x t false ltac:(discriminate) ST G B T Tt) as (? & ? & ? & ? & o & F1 & _ & _ & _ & V & _).
  destruct (bn1_forward E' e a' g' b' s' rm rv c' n' m x' t' false ltac:(discriminate) ST' G' B' T' Tt') as (? & ? & ? & ? & o' & F1' & _ & _ & _ & V' & _).
  same F1 F. same F1' F'. unfold slab in S. rewrite prodN1 in *. rewrite V, V', EG, EB, S by assumption. reflexivity.
Qed.

Lemma slab_bn2 E E' e a g b s rm rv c ni no a' g' b' s' c' ni' no' n n' C H W r r' x x' t t' :
  bn2_state C g b s rm rv -> bn2_state C g' b' s' rm rv -> bn2_room (n * C * H * W) c ni no -> bn2_room (n' * C * H * W) c' ni' no' ->
  p_train g = false -> p_train b = false -> p_train g' = false -> p_train b' = false ->
  p_data g' = p_data g -> p_data b' = p_data b -> ten_ok [n; C; H; W] x -> ten_ok [n'; C; H; W] x' -> r < n -> r' < n' -> slab [C; H; W] r r' x x' ->
  computes E (LBN2 e a g b s rm rv c ni no) [x] [n; C; H; W] t -> computes E' (LBN2 e a' g' b' s' rm rv c' ni' no') [x'] [n'; C; H; W] t' -> slab [C; H; W] r r' t t'.
Proof.
  intros ST ST' RM RM' G B G' B' EG EB T T' R R' S Cm Cm' k K. both Cm Cm' L1 F Tt L1' F' Tt'.
  destruct (bn2_forward E e a g b s rm rv c ni no n C H W x t false ltac:(discriminate) ST RM G B T Tt) as (? & ? & ? & ? & ? & ? & o & F1 & _ & _ & _ & _ & _ & V & _).
  destruct (bn2_forward E' e a' g' b' s' rm rv c' ni' no' n' C H W x' t' false ltac:(discriminate) ST' RM' G' B' T' Tt') as (? & ? & ? & ? & ? & ? & o' & F1' & _ & _ & _ & _ & _ & V' & _).
  same F1 F. same F1' F'. unfold slab in S. rewrite prodN3 in *. destruct (split3 _ _ _ _ K) as (i & y & z & Hi & Hy & Hz & ->).
  specialize (S ((i * H + y) * W + z) K).
  replace (r * (C * H * W) + ((i * H + y) * W + z)) with (((r * C + i) * H + y) * W + z) in * by ring.
  replace (r' * (C * H * W) + ((i * H + y) * W + z)) with (((r' * C + i) * H + y) * W + z) in * by ring.
  rewrite V, V', EG, EB, S by assumption. reflexivity.
Qed.

Lemma eval_layer E E' L L' n n' rests rest xs xs' r r' t t' :
  fits L (map (cons n) rests) (n :: rest) -> fits L' (map (cons n') rests) (n' :: rest) ->
  evaluating L -> evaluating L' -> same_weights L L' -> fair E -> fair E' ->
  Forall2 ten_ok (map (cons n) rests) xs -> Forall2 ten_ok (map (cons n') rests) xs' -> r < n -> r' < n' ->
  Forall2 (fun x x' => sample x r = sample x' r') xs xs' ->
  computes E L xs (n :: rest) t -> computes E' L' xs' (n' :: rest) t' -> sample t r = sample t' r'.
Proof.
  intros F F' EV EV' SW [AM AE] [AM' AE'] X X' R R' SS C C'.
  apply (slab_sample n n' rest); [apply C|apply C'|assumption..|].
  assert (SL : forall i rs x x', nth_error rests i = Some rs -> nth_error xs i = Some x -> nth_error xs' i = Some x' ->
    ten_ok (n :: rs) x /\ ten_ok (n' :: rs) x' /\ slab rs r r' x x').
  { clear -X X' SS R R'. revert xs xs' X X' SS. induction rests as [|rs0 rests IH]; intros xs xs' X X' SS i rs x x' H1 H2 H3; [destruct i; discriminate|].
    cbn in X, X'. inversion X; subst. inversion X'; subst. inversion SS; subst. destruct i; cbn in *; [|eapply IH; eassumption].
    injection H1 as <-. injection H2 as <-. injection H3 as <-. split; [assumption|]. split; [assumption|]. eapply slab_sample; eassumption. }
  inversion F; subst; destruct L'; try contradiction; cbn [same_weights evaluating] in *.
  all: try (destruct rests as [|s1 [|]]; try discriminate; cbn [map] in *; one X; one X'; clear SS;
            match goal with H : [_] = [_] |- _ => injection H as <- end).
  all: try (destruct (SL 0 _ _ _ eq_refl eq_refl eq_refl) as (Tx & Tx' & S); clear SL).

  - eapply slab_act; [| |exact Tx|exact Tx'|exact R|exact R'|exact S|exact C|exact C']; reflexivity.
  - eapply slab_act; [| |exact Tx|exact Tx'|exact R|exact R'|exact S|exact C|exact C']; reflexivity.
  - subst. eapply slab_act; [| |exact Tx|exact Tx'|exact R|exact R'|exact S|exact C|exact C']; reflexivity.
  - subst. eapply slab_act; [| |exact Tx|exact Tx'|exact R|exact R'|exact S|exact C|exact C']; reflexivity.
  - eapply slab_softmax; [|exact Tx|exact Tx'|exact R|exact R'|exact S|exact C|exact C']; assumption.
  - eapply slab_gap; [|exact Tx|exact Tx'|exact R|exact R'|exact S|exact C|exact C']; assumption.
  - destruct rests as [|s1 [|s2 [|]]]; try discriminate. cbn [map] in *. injection H1 as <- <-.
    inversion X as [|? x ? xt Tx Xt]; subst; clear X; inversion Xt as [|? y ? yt Ty Yt]; subst; clear Xt; inversion Yt; subst; clear Yt.
    inversion X' as [|? x' ? xt Tx' Xt]; subst; clear X'; inversion Xt as [|? y' ? yt Ty' Yt]; subst; clear Xt; inversion Yt; subst; clear Yt.
    destruct (SL 0 _ _ _ eq_refl eq_refl eq_refl) as (_ & _ & S1). destruct (SL 1 _ _ _ eq_refl eq_refl eq_refl) as (_ & _ & S2).
    eapply (slab_add E E' n n' rest r r' x x' y y'); eassumption.
  - inversion F'; subst. destruct SW. eapply slab_linear; cycle -3; [exact S|exact C|exact C'|assumption..].
  - destruct SW as (-> & ? & ?). inversion F'; subst. eapply slab_conv; cycle -3; [exact S|exact C|exact C'|assumption..].
  - subst. inversion F'; subst. eapply slab_maxpool; cycle -3; [exact S|exact C|exact C'|try assumption..]; split; assumption.
  - inversion F'; subst. eapply slab_dropout; cycle -3; [exact S|exact C|exact C'|assumption..].
  - destruct SW as (-> & ? & ? & -> & ->). inversion F'; subst. eapply slab_bn1; cycle -3; [exact S|exact C|exact C'|try assumption; try congruence..]; repeat (split; [assumption|]); assumption.
  - destruct SW as (-> & ? & ? & -> & ->). inversion F'; subst.
    assert (RM : forall T c ni no, tot ni = 0 \/ tot ni = T /\ tot no = T -> tot c = 0 \/ tot c = T -> bn2_room T c ni no).
    { unfold bn2_room. intros T0 c0 ni0 no0 [->|[-> ->]] [->| ->]; auto. }
    eapply slab_bn2; cycle -3; [exact S|exact C|exact C'|try assumption; try congruence; try (apply RM; assumption)..]; repeat (split; [assumption|]); assumption.
Qed.
