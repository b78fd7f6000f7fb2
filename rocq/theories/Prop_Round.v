(** Property C64: floating point.  The models and theorems of the other files compute with real numbers; here every
    operation may be rounded (M_Round), and sums may be added in any order. *)
From Coq Require Import Reals String Lia Lra Permutation.
From Verif Require Import Base BaseFacts Sums M_Im2col S_Im2col M_Layers M_Kernels M_Optim M_Nn M_Graph M_Model M_Backend S_Grad S_Partial S_Graph S_Run S_Fit S_Float
  P_Graph P_Graph2 P_Nn P_Model P_Model2 P_Run P_Fwd P_Load P_Fwd2 P_Run2 P_Fit Prop_Graph Prop_Model Prop_Run Prop_Bwd
  M_Round S_Round P_Round P_Round2 P_Round3 P_Round4 P_Round5 P_Round6.
Open Scope nat_scope.

(** The expressions are what the layers compute: element [p] of the output of any layer. *)
Theorem C64_expressions_are_the_layers :
  forall (E : env) (L : layer) (inshs : list (list nat)) (osh : list nat) (xs : list ten) (t : ten) (p : nat),
  fits L inshs osh -> Forall2 ten_ok inshs xs -> fair E -> computes E L xs osh t -> p < prodN osh ->
  (tdat t).[p] = ev (values xs) (layer_ex E L inshs osh p).
Proof. exact fits_ex. Qed.
Print Assumptions C64_expressions_are_the_layers.

(** Whatever error [eps] is asked for: with small enough rounding errors and inputs near enough, every way of
    rounding and of ordering the sums gives outputs within [eps] of the exact ones. *)
Theorem C64_outputs_are_near_the_exact_ones :
  forall (es : estore) (ins outs : list nat) (m : model) (infos : list linfo) (b : backend) (E : nat -> env) (V : nat -> ten) (tins : list ten),
  constructed es ins outs m -> closed (es_ph es) ins outs -> shaped (es_ph es) ins tins -> (forall d, fair (E d)) ->
  (forall d args, needed (es_ph es) outs d -> call (es_ph es) d args ->
     exists L, produces m infos b d L /\ fits L (map (dims (es_ph es)) args) (dims (es_ph es) d) /\ regular L) ->
  evaluation (es_ph es) ins outs tins E (produces m infos b) V ->
  forall eps, (0 < eps)%R -> exists del, (0 < del)%R /\
  forall (u eta : R) (tins' : list ten) (V' : nat -> ten), (0 <= u <= del)%R -> (0 <= eta <= del)%R ->
    shaped (es_ph es) ins tins' -> Forall2 (within del) tins tins' ->
    rounded_evaluation u eta (es_ph es) ins outs tins' E (produces m infos b) V' ->
    Forall2 (within eps) (map V outs) (map V' outs).
Proof.
  intros es ins outs m infos b E V tins C CL SI FE FT EV eps He. exact (outputs_stable es ins outs m C CL infos b E V tins SI FE FT EV eps He).
Qed.
Print Assumptions C64_outputs_are_near_the_exact_ones.

(** A prediction that is not a tie does not depend on the rounding. *)
Theorem C64_predictions_survive_rounding :
  forall (es : estore) (ins outs : list nat) (m : model) (infos : list linfo) (b : backend) (E : nat -> env) (V : nat -> ten) (tins : list ten),
  constructed es ins outs m -> closed (es_ph es) ins outs -> shaped (es_ph es) ins tins -> (forall d, fair (E d)) ->
  (forall d args, needed (es_ph es) outs d -> call (es_ph es) d args ->
     exists L, produces m infos b d L /\ fits L (map (dims (es_ph es)) args) (dims (es_ph es) d) /\ regular L) ->
  evaluation (es_ph es) ins outs tins E (produces m infos b) V ->
  forall d n c i k, In d outs -> dims (es_ph es) d = [n; c] -> i < n -> only_largest c (V d) i k ->
  exists del, (0 < del)%R /\
  forall (u eta : R) (tins' : list ten) (V' : nat -> ten), (0 <= u <= del)%R -> (0 <= eta <= del)%R ->
    shaped (es_ph es) ins tins' -> Forall2 (within del) tins tins' ->
    rounded_evaluation u eta (es_ph es) ins outs tins' E (produces m infos b) V' ->
    only_largest c (V' d) i k.
Proof.
  intros es ins outs m infos b E V tins C CL SI FE FT EV d n c i k Ho Dd Hi OL.
  exact (prediction_stable es ins outs m C CL infos b E V tins SI FE FT EV d n c i k (need_out _ _ _ Ho) Dd Hi OL).
Qed.
Print Assumptions C64_predictions_survive_rounding.

(** The exact evaluation is one of the rounded ones. *)
Theorem C64_exact_evaluation_is_included :
  forall (es : estore) (ins outs : list nat) (m : model) (infos : list linfo) (b : backend) (E : nat -> env) (V : nat -> ten) (tins : list ten) (u eta : R),
  constructed es ins outs m -> closed (es_ph es) ins outs -> shaped (es_ph es) ins tins -> (forall d, fair (E d)) ->
  (forall d args, needed (es_ph es) outs d -> call (es_ph es) d args ->
     exists L, produces m infos b d L /\ fits L (map (dims (es_ph es)) args) (dims (es_ph es) d) /\ regular L) ->
  evaluation (es_ph es) ins outs tins E (produces m infos b) V -> (0 <= u)%R -> (0 <= eta)%R ->
  rounded_evaluation u eta (es_ph es) ins outs tins E (produces m infos b) V.
Proof.
  intros es ins outs m infos b E V tins u eta C CL SI FE FT [VI EL] Hu He. pose proof (constructed_mfacts _ _ _ _ C) as MF. split; [exact VI|].
  intros d args N Ca. destruct (EL d args N Ca) as (L & PL & CP). destruct (FT d args N Ca) as (L0 & PL0 & F & RG).
  assert (L0 = L) as -> by (eapply (produces_fun _ _ _ _ MF); eassumption).
  exists L. split; [exact PL|]. apply (layer_exact _ _ (map (dims (es_ph es)) args)); try assumption; [|apply FE].
  assert (Y : forall a, In a args -> ten_ok (dims (es_ph es) a) (V a)).
  { intros a Ha. assert (Na : needed (es_ph es) outs a) by (eapply need_arg; eassumption). destruct CL as (_ & _ & _ & _ & K). destruct (K a Na) as [(args' & Ca')|HI].
    - destruct (EL a args' Na Ca') as (La & _ & [T _]). exact T.
    - apply In_nth_error in HI. destruct HI as (k & Hk). destruct (Forall2_nth_error _ _ _ VI k a Hk) as (t & Et & ->).
      destruct (Forall2_nth_error _ _ _ SI k a Hk) as (t' & Et' & T). congruence. }
  clear - Y. induction args; cbn; constructor; [apply Y; left; reflexivity|apply IHargs; intros; apply Y; right; assumption].
Qed.
Print Assumptions C64_exact_evaluation_is_included.

(** So is rounding every operation with a function and adding up in any order and bracketing chosen. *)
Theorem C64_rounding_functions_are_included :
  forall (u eta : R) (fl : R -> R) (pick : list R -> tree) (E : env) (L : layer) (xs : list ten) (sh : list nat) (t : ten),
  (forall x, near u eta x (fl x)) -> (forall x l, Permutation (x :: l) (leaves (pick (x :: l)))) -> ten_ok sh t ->
  (forall p, p < prodN sh -> flv fl pick (values xs) (layer_ex E L (map tsh xs) sh p) = Some (tdat t).[p]) ->
  rcomputes u eta E L xs sh t.
Proof. intros u eta fl pick E L xs sh t F PK [T1 T2] H. split; [exact T1|]. split; [exact T2|]. intros p Hp. exact (flv_rev u eta fl pick _ _ F PK _ (H p Hp)). Qed.
Print Assumptions C64_rounding_functions_are_included.

(** Rounding to the nearest 32-bit float has errors of that form, as long as the result is not too large. *)
Theorem C64_float32 :
  forall (x y : R), (Rabs x <= IZR ((2 ^ 24 - 1) * 2 ^ 253) / 2 ^ 149)%R -> nearest_float x y -> near (/ 2 ^ 24)%R (/ 2 ^ 150)%R x y.
Proof. exact float32_near. Qed.
Print Assumptions C64_float32.

(** ** How large the errors are *)
(** A sum of [n] numbers, added up in any order and bracketing. *)
Theorem C64_sums_in_any_order :
  forall (u eta : R) (n : nat) (xs : nat -> R) (t : tree) (r : R), (0 <= u)%R -> (0 <= eta)%R -> Permutation (tab n xs) (leaves t) -> added u eta t r ->
  (Rabs (r - rsum n xs) <= ((1 + u) ^ (n - 1) - 1) * rsum n (fun k => Rabs (xs k)) + INR (n - 1) * (1 + u) ^ (n - 1) * eta)%R.
Proof.
  intros u eta n xs t r Hu He P A. apply summed_bound; [exact Hu|exact He|]. unfold summed.
  destruct (tab n xs) as [|x l] eqn:T; [|eauto]. apply Permutation_nil in P. pose proof (leaves_pos t). rewrite P in H. cbn in H. lia.
Qed.
Print Assumptions C64_sums_in_any_order.

(** A Linear layer, its inputs known up to [e]. *)
Theorem C64_linear_error :
  forall (E : env) (W b : prm) (n m : nat) (rest : list nat) (x x' t t' : ten) (u eta e : R),
  rest <> [] -> prm_ok [m; prodN rest] W -> prm_ok [m] b -> ten_ok (n :: rest) x -> ten_ok (n :: rest) x' -> fair E ->
  (0 <= u)%R -> (0 <= eta)%R -> (0 <= e)%R -> within e x x' ->
  computes E (LLinear W b) [x] [n; m] t -> rcomputes u eta E (LLinear W b) [x'] [n; m] t' ->
  forall i j, i < n -> j < m ->
  let K := prodN rest in
  (Rabs ((tdat t').[i * m + j] - (tdat t).[i * m + j]) <=
    affine_error u eta e K (rsum K (fun k => Rabs (tdat x).[i * K + k] * Rabs (tdat (p_data W)).[j * K + k]))
                 (rsum K (fun k => Rabs (tdat (p_data W)).[j * K + k])) (Rabs (tdat (p_data b)).[j]))%R.
Proof. exact linear_error. Qed.
Print Assumptions C64_linear_error.

(** A Convolution layer. *)
Theorem C64_convolution_error :
  forall (E : env) (g : geom) (W b : prm) (buf : ten) (n cin h w cout ho wo : nat) (x x' t t' : ten) (u eta e : R),
  fits (LConv g W b buf) [[n; cin; h; w]] [n; cout; ho; wo] -> ten_ok [n; cin; h; w] x -> ten_ok [n; cin; h; w] x' -> fair E ->
  (0 <= u)%R -> (0 <= eta)%R -> (0 <= e)%R -> within e x x' ->
  computes E (LConv g W b buf) [x] [n; cout; ho; wo] t -> rcomputes u eta E (LConv g W b buf) [x'] [n; cout; ho; wo] t' ->
  forall i o r q, i < n -> o < cout -> r < ho -> q < wo ->
  let weight := fun c a d => (tdat (p_data W)).[((o * cin + c) * KH g + a) * KW g + d] in
  let K := cin * KH g * KW g in
  let p := ((i * cout + o) * ho + r) * wo + q in
  (Rabs ((tdat t').[p] - (tdat t).[p]) <=
    affine_error u eta e K
      (rsum cin (fun c => rsum (KH g) (fun a => rsum (KW g) (fun d =>
         Rabs (padded 0 h w (tdat x) (i * cin + c) (win_row g a r) (win_col g d q)) * Rabs (weight c a d)))))
      (rsum cin (fun c => rsum (KH g) (fun a => rsum (KW g) (fun d => Rabs (weight c a d))))) (Rabs (tdat (p_data b)).[o]))%R.
Proof. exact conv_error. Qed.
Print Assumptions C64_convolution_error.

(** ReLU, MaxPooling and, in evaluation mode, Dropout add no error to that of their inputs. *)
Theorem C64_comparing_layers_add_no_error :
  forall (E : env) (L : layer) (osh : list nat) (x x' t t' : ten) (u eta e : R),
  fits L [tsh x] osh -> twf x -> ten_ok (tsh x) x' -> fair E -> (0 <= e)%R -> within e x x' ->
  (match L with LReLU | LMaxPool _ _ _ => True | LDropout _ mask => p_train mask = false | _ => False end) ->
  computes E L [x] osh t -> rcomputes u eta E L [x'] osh t' -> within e t t'.
Proof. intros E L osh x x' t t' u eta e F. exact (copying_error E L _ osh x x' t t' u eta e F eq_refl). Qed.
Print Assumptions C64_comparing_layers_add_no_error.

(** ** Example: the model of C38 meets the hypotheses, whatever its parameters and input *)
Example C64_nonvacuous : forall (W c : prm) (E : nat -> env) (x : ten), prm_ok [4; 3] W -> prm_ok [4] c -> (forall d, fair (E d)) -> ten_ok [2; 3] x ->
  constructed ex3_es [0] [3] ex3_m /\ closed (es_ph ex3_es) [0] [3] /\ shaped (es_ph ex3_es) [0] [x] /\
  (forall d args, needed (es_ph ex3_es) [3] d -> call (es_ph ex3_es) d args ->
     exists L, produces ex3_m (ex3_infos W c) (ex3_b W c) d L /\ fits L (map (dims (es_ph ex3_es)) args) (dims (es_ph ex3_es) d) /\ regular L) /\
  exists V, evaluation (es_ph ex3_es) [0] [3] [x] E (produces ex3_m (ex3_infos W c) (ex3_b W c)) V /\
    forall u eta, (0 <= u)%R -> (0 <= eta)%R -> rounded_evaluation u eta (es_ph ex3_es) [0] [3] [x] E (produces ex3_m (ex3_infos W c) (ex3_b W c)) V.
Proof.
  intros W c E x HW Hc FE Tx. split; [exact ex3_constructed|]. split; [exact ex3_closed|].
  assert (SI : shaped (es_ph ex3_es) [0] [x]) by (apply Forall2_cons; [exact Tx|apply Forall2_nil]). split; [exact SI|].
  assert (FT : forall d args, needed (es_ph ex3_es) [3] d -> call (es_ph ex3_es) d args ->
     exists L, produces ex3_m (ex3_infos W c) (ex3_b W c) d L /\ fits L (map (dims (es_ph ex3_es)) args) (dims (es_ph ex3_es) d) /\ regular L).
  { intros d args N Ca. assert (LT : d < 4) by (apply Nat.lt_succ_r, (needed_le (es_ph ex3_es)); [apply store_links_back, built_ok, ex3_built|exact N]).
    destruct (ex3_produces W c d LT args Ca) as (L & PL & Q). exists L. split; [exact PL|].
    destruct d as [|[|[|[|d]]]]; try contradiction; destruct Q as [-> ->]; (split; [|exact Logic.I]).
    - apply (fit_linear W c 2 4 [3]); [discriminate|exact HW|exact Hc].
    - apply fit_sigmoid.
    - apply fit_add. }
  split; [exact FT|].
  destruct (C37_fitting_models_can_be_evaluated _ _ _ _ (ex3_infos W c) (ex3_b W c) E [x] ex3_constructed ex3_closed SI FE) as (V & EV & _).
  { intros d args N Ca. destruct (FT d args N Ca) as (L & PL & F & _). eauto. }
  exists V. split; [exact EV|]. intros u eta Hu He. exact (C64_exact_evaluation_is_included _ _ _ _ _ _ _ _ _ _ _ ex3_constructed ex3_closed SI FE FT EV Hu He).
Qed.

(** A quarter of the smallest positive float is rounded to zero. *)
Example C64_float32_nonvacuous : nearest_float (/ 2 ^ 151)%R 0%R /\ (Rabs (/ 2 ^ 151) <= IZR ((2 ^ 24 - 1) * 2 ^ 253) / 2 ^ 149)%R.
Proof.
  assert (P : (0 < 2 ^ 149)%R) by (apply pow_lt; lra). assert (I0 : (0 < / 2 ^ 149)%R) by (apply Rinv_0_lt_compat, P).
  assert (Q : (/ 2 ^ 151 = / 2 ^ 149 / 4)%R) by (replace (2 ^ 151)%R with (2 ^ 149 * 4)%R by (simpl; ring); rewrite Rinv_mult; reflexivity).
  rewrite Q. set (a := (/ 2 ^ 149)%R) in *. split.
  - exists 0%Z. split; [exists 0%Z, 0%Z; split; [reflexivity|split; [lia|reflexivity]]|]. split; [unfold Rdiv; ring|]. intros z _. unfold Rdiv at 2. fold a.
    replace (0 - a / 4)%R with (- (a / 4))%R by ring. rewrite Rabs_Ropp, (Rabs_right (a / 4)) by lra.
    destruct (Z_le_gt_dec z 0) as [L|G].
    + assert (IZR z <= 0)%R by (apply IZR_le; exact L). rewrite Rabs_left1 by nra. nra.
    + assert (1 <= IZR z)%R by (apply IZR_le; lia). rewrite Rabs_right by nra. nra.
  - rewrite Rabs_right by lra. unfold Rdiv at 2. fold a. assert (1 <= IZR ((2 ^ 24 - 1) * 2 ^ 253))%R by (apply IZR_le; vm_compute; discriminate). nra.
Qed.
