(** Error bounds of the layers that add products, and of those that do not round. *)
From Coq Require Import Reals Lra Permutation.
From Verif Require Import Base BaseFacts Sums M_Im2col S_Im2col M_Kernels M_Conv M_Layers M_Optim M_Nn M_Graph M_Model M_Backend S_Grad S_Partial S_Graph S_Run S_Fit S_Float
  P_Kernels P_Conv2 P_Vjp1 P_Vjp2 P_Vjp3 P_VjpConv P_Pool P_BN3 P_BN2 P_BN P_Layers P_Fit P_Eval P_Float M_Round S_Round P_Round P_Round2 P_Round3 P_Round4 P_Round5.
Open Scope nat_scope.

Lemma within1 e sh x x' : ten_ok sh x -> ten_ok sh x' -> within e x x' -> (0 <= e)%R -> forall a i, (Rabs (values [x'] a i - values [x] a i) <= e)%R.
Proof. intros T T' W He. eapply within_values; [| | |exact He]; (apply Forall2_cons; [eassumption|apply Forall2_nil]). Qed.

Lemma rc1 u eta E L x' sh ish t' : tsh x' = ish -> rcomputes u eta E L [x'] sh t' -> forall p, p < prodN sh -> rev u eta (values [x']) (layer_ex E L [ish] sh p) (tdat t').[p].
Proof. intros <- (_ & _ & H) p Hp. exact (H p Hp). Qed.

Lemma linear_error E W b n m rest x x' t t' u eta e : rest <> [] -> prm_ok [m; prodN rest] W -> prm_ok [m] b -> ten_ok (n :: rest) x -> ten_ok (n :: rest) x' -> fair E ->
  (0 <= u)%R -> (0 <= eta)%R -> (0 <= e)%R -> within e x x' -> computes E (LLinear W b) [x] [n; m] t -> rcomputes u eta E (LLinear W b) [x'] [n; m] t' ->
  forall i j, i < n -> j < m ->
  let K := prodN rest in
  (Rabs ((tdat t').[i * m + j] - (tdat t).[i * m + j]) <=
    affine_error u eta e K (rsum K (fun k => Rabs (tdat x).[i * K + k] * Rabs (tdat (p_data W)).[j * K + k]))
                 (rsum K (fun k => Rabs (tdat (p_data W)).[j * K + k])) (Rabs (tdat (p_data b)).[j]))%R.
Proof.
  intros Hr HW Hb T T' FE Hu Ht He WI C RC i j Hi Hj K. pose proof (within1 _ _ _ _ T T' WI He) as D.
  assert (Hp : i * m + j < prodN [n; m]) by (rewrite prodN2; apply mult_lt; assumption).
  assert (F : fits (LLinear W b) [n :: rest] [n; m]) by (constructor; assumption).
  pose proof (fits_ex E _ [n :: rest] _ [x] t _ F ltac:(apply Forall2_cons; [exact T|apply Forall2_nil]) FE C Hp) as EX.
  pose proof (rc1 _ _ _ _ _ _ _ _ (proj1 T') RC _ Hp) as RX. cbn [layer_ex] in EX, RX. unfold linear_ex in EX, RX. cbn [ev] in EX. cbn [rev] in RX.
  destruct (divmod_nat i m j Hj) as [E1 E2]. rewrite E1, E2 in EX, RX.
  destruct RX as (s & b' & (ys & HY & SU) & -> & NR). rewrite EX. unfold values at 1. cbn [nth].
  apply (affine_bound u eta e K (fun k => (tdat x).[i * K + k]) (fun k => (tdat x').[i * K + k]) (fun k => (tdat (p_data W)).[j * K + k]) ys _ s); try assumption.
  - intros k Hk. exact (D 0 (i * K + k)).
  - intros k Hk. destruct (HY k Hk) as (a & c & -> & -> & N). exact N.
Qed.

Lemma conv_ex_at g cin h w cout ho wo W b i o r q : o < cout -> r < ho -> q < wo ->
  conv_ex g cin h w cout ho wo W b (((i * cout + o) * ho + r) * wo + q) =
  EAdd (ESum (cin * KH g * KW g) (fun k => EMul (EConst W.[o * (cin * KH g * KW g) + k])
         (cell_ex 0 h w (i * cin + k / KW g / KH g) (win_row g ((k / KW g) mod KH g) r) (win_col g (k mod KW g) q)))) (EConst b.[o]).
Proof.
  intros Ho Hr Hq. assert (Hrq : r * wo + q < ho * wo) by (apply mult_lt; assumption).
  replace (((i * cout + o) * ho + r) * wo + q) with ((i * cout + o) * (ho * wo) + (r * wo + q)) by ring.
  unfold conv_ex. destruct (divmod_nat (i * cout + o) (ho * wo) (r * wo + q) Hrq) as [E1 E2]. destruct (divmod_nat r wo q Hq) as [E3 E4]. destruct (divmod_nat i cout o Ho) as [E5 E6].
  rewrite E1, E2, E3, E4, E5, E6. reflexivity.
Qed.

Lemma cell_rev u eta v fill h w i y z c : rev u eta v (cell_ex fill h w i y z) c -> c = ev v (cell_ex fill h w i y z).
Proof. unfold cell_ex. destruct (inside h w y z); exact (fun H => H). Qed.
Lemma cell_close e v v' fill h w i y z : (0 <= e)%R -> (forall a i, Rabs (v' a i - v a i) <= e)%R -> (Rabs (ev v' (cell_ex fill h w i y z) - ev v (cell_ex fill h w i y z)) <= e)%R.
Proof. intros He D. unfold cell_ex. destruct (inside h w y z); cbn [ev]; [apply D|]. rewrite Rminus_diag_eq by reflexivity. rewrite Rabs_R0. exact He. Qed.

Lemma conv_error E g W b buf n cin h w cout ho wo x x' t t' u eta e :
  fits (LConv g W b buf) [[n; cin; h; w]] [n; cout; ho; wo] -> ten_ok [n; cin; h; w] x -> ten_ok [n; cin; h; w] x' -> fair E ->
  (0 <= u)%R -> (0 <= eta)%R -> (0 <= e)%R -> within e x x' ->
  computes E (LConv g W b buf) [x] [n; cout; ho; wo] t -> rcomputes u eta E (LConv g W b buf) [x'] [n; cout; ho; wo] t' ->
  forall i o r q, i < n -> o < cout -> r < ho -> q < wo ->
  let weight := fun c a d => (tdat (p_data W)).[((o * cin + c) * KH g + a) * KW g + d] in
  let K := cin * KH g * KW g in
  let p := ((i * cout + o) * ho + r) * wo + q in
  (Rabs ((tdat t').[p] - (tdat t).[p]) <=
    affine_error u eta e K
      (rsum cin (fun c => rsum (KH g) (fun a => rsum (KW g) (fun d =>
         Rabs (padded 0 h w (tdat x) (i * cin + c) (win_row g a r) (win_col g d q)) * Rabs (weight c a d)))))
      (rsum cin (fun c => rsum (KH g) (fun a => rsum (KW g) (fun d => Rabs (weight c a d))))) (Rabs (tdat (p_data b)).[o]))%R.
Proof.
  intros F T T' FE Hu Ht He WI C RC i o r q Hi Ho Hr Hq weight K p. pose proof (within1 _ _ _ _ T T' WI He) as D.
  assert (Hrq : r * wo + q < ho * wo) by (apply mult_lt; assumption).
  assert (Ep : p = (i * cout + o) * (ho * wo) + (r * wo + q)) by (unfold p; ring).
  assert (Hp : p < prodN [n; cout; ho; wo]).
  { rewrite prodN4. unfold p. apply mult_lt; [|exact Hq]. apply mult_lt; [|exact Hr]. apply mult_lt; assumption. }
  pose proof (fits_ex E _ [[n; cin; h; w]] _ [x] t _ F ltac:(apply Forall2_cons; [exact T|apply Forall2_nil]) FE C Hp) as EX.
  pose proof (rc1 _ _ _ _ _ _ _ _ (proj1 T') RC _ Hp) as RX. cbn [layer_ex] in EX, RX. unfold p in EX at 2. unfold p in RX at 1. rewrite conv_ex_at in EX, RX by assumption.
  cbn [ev] in EX. cbn [rev] in RX. destruct RX as (s & b' & (ys & HY & SU) & -> & NR). rewrite EX. fold K in HY, SU |- *.
  set (cell := fun v k => ev v (cell_ex 0 h w (i * cin + k / KW g / KH g) (win_row g ((k / KW g) mod KH g) r) (win_col g (k mod KW g) q))).
  set (wk := fun k => (tdat (p_data W)).[o * K + k]).
  rewrite (rsum_ext K _ (fun k => (cell (values [x]) k * wk k)%R)) by (intros k _; apply Rmult_comm).
  pose proof (ten_ok_len _ _ T) as Lx. rewrite prodN4 in Lx.
  assert (S3 : forall f : nat -> nat -> nat -> R, rsum cin (fun c => rsum (KH g) (fun a => rsum (KW g) (fun d => f c a d))) = rsum K (fun k => f (k / KW g / KH g) ((k / KW g) mod KH g) (k mod KW g))).
  { intros f. unfold K. rewrite rsum3. apply rsum_ext. intros c Hc. apply rsum_ext. intros a Ha. apply rsum_ext. intros d Hd.
    destruct (divmod_nat (c * KH g + a) (KW g) d Hd) as [E1 E2]. destruct (divmod_nat c (KH g) a Ha) as [E3 E4]. rewrite E1, E2, E3, E4. reflexivity. }
  rewrite !S3.
  assert (KF : forall k, k < K -> k / KW g / KH g < cin /\ ((o * cin + k / KW g / KH g) * KH g + (k / KW g) mod KH g) * KW g + k mod KW g = o * K + k).
  { intros k Hk. unfold K in Hk. destruct (divmod_lt k (cin * KH g) (KW g) Hk) as (A1 & A2 & A3). destruct (divmod_lt (k / KW g) cin (KH g) A1) as (B1 & B2 & B3).
    split; [exact B1|]. rewrite A3 at 4. rewrite B3 at 3. unfold K. ring. }
  rewrite (rsum_ext K (fun k => (Rabs (padded 0 h w (tdat x) (i * cin + k / KW g / KH g)%nat (win_row g ((k / KW g) mod KH g)%nat r) (win_col g (k mod KW g)%nat q)) * Rabs (weight (k / KW g / KH g)%nat ((k / KW g) mod KH g)%nat (k mod KW g)%nat))%R)
    (fun k => (Rabs (cell (values [x]) k) * Rabs (wk k))%R)).
  2:{ intros k Hk. destruct (KF k Hk) as [K1 K2]. unfold weight. rewrite K2. f_equal. f_equal. apply (padded_cell _ _ _ _ _ _ _ (n * cin)); [unfold tot in Lx; rewrite Lx; ring|apply mult_lt; assumption]. }
  rewrite (rsum_ext K (fun k => Rabs (weight (k / KW g / KH g) ((k / KW g) mod KH g) (k mod KW g))) (fun k => Rabs (wk k))).
  2:{ intros k Hk. destruct (KF k Hk) as [K1 K2]. unfold weight. rewrite K2. reflexivity. }
  apply (affine_bound u eta e K (cell (values [x])) (cell (values [x'])) wk ys _ s); try assumption.
  - intros k Hk. apply cell_close; assumption.
  - intros k Hk. destruct (HY k Hk) as (a & c & -> & Hc & N). apply cell_rev in Hc. subst c. rewrite Rmult_comm. exact N.
Qed.

(** Layers that only compare and copy. *)
Lemma copying_error E L inshs osh x x' t t' u eta e : fits L inshs osh -> inshs = [tsh x] -> twf x -> ten_ok (tsh x) x' -> fair E -> (0 <= e)%R -> within e x x' ->
  (match L with LReLU | LMaxPool _ _ _ => True | LDropout _ mask => p_train mask = false | _ => False end) ->
  computes E L [x] osh t -> rcomputes u eta E L [x'] osh t' -> within e t t'.
Proof.
  intros F -> Tw T' FE He WI KL C RC. assert (T : ten_ok (tsh x) x) by (split; [reflexivity|exact Tw]). pose proof (within1 _ _ _ _ T T' WI He) as D.
  pose proof C as [Tt _]. pose proof RC as (S' & _ & _). split; [destruct Tt; congruence|]. intros p Hp. pose proof (ten_ok_len _ _ Tt) as Lt. unfold tot in Hp. rewrite Lt in Hp.
  rewrite (fits_ex E L _ osh [x] t p F ltac:(apply Forall2_cons; [exact T|apply Forall2_nil]) FE C Hp).
  pose proof (rc1 _ _ _ _ _ _ _ _ (proj1 T') RC _ Hp) as RX. set (v := values [x]) in *. set (v' := values [x']) in *. set (r := (tdat t').[p]) in *. clearbody r v v'.
  destruct L; try contradiction.
  - cbn in RX |- *. destruct RX as (a & c & -> & -> & RX). specialize (D 0 p). unfold ltb in *. unfold Rabs in *.
    destruct (Rlt_dec 0 (v' 0 p)); destruct (Rlt_dec 0 (v 0 p)); subst r; repeat destruct (Rcase_abs _) in *; try destruct (Rcase_abs _); lra.
  - inversion F as [| | | | | | | | |g0 i0 b0 n c h w ho wo H1 H2 H3 H4 H5 H6| | |]; subst g0 i0 b0. rewrite <- H5, <- H6 in RX. cbn [layer_ex] in RX |- *. unfold maxpool_ex in *. cbn [rev ev] in *. destruct RX as (ys & HY & PZ & ->). apply rmax_close; [exact PZ|].
    intros k Hk. rewrite (cell_rev _ _ _ _ _ _ _ _ _ _ (HY k Hk)). apply cell_close; assumption.
  - cbn [layer_ex] in *. unfold dropout_ex in *. rewrite KL in *. cbn in *. subst r. apply D.
Qed.
