(** Property C68: batches of another size than the network was built for. *)
From Coq Require Import Reals String Lia.
From Verif Require Import Base BaseFacts Sums S_Stats M_Im2col S_Im2col M_Tensor M_Kernels M_Layers M_Nn M_Graph M_Model M_Backend S_Grad S_Partial S_Graph S_Run
  P_Graph P_Nn P_Run P_BN3 P_Batch P_Batch2 P_Batch3 Prop_Graph Prop_Run Prop_Bwd Prop_Conv.
Open Scope nat_scope.

(** ** Layers *)
(** An activation or Dropout layer refuses every other batch size. *)
Theorem C68_activations_and_dropout_throw :
  forall (E : env) (L : layer) (x o : ten) (k n : nat) (rest : list nat),
  L = LReLU \/ L = LSigmoid \/ (exists a, L = LLeaky a) \/ (exists a, L = LELU a) \/ (exists p mask, L = LDropout p mask) ->
  tsh x = k :: rest -> tsh o = n :: rest -> k <> n -> lforward E L [x] [o] = Throw.
Proof.
  intros E L x o k n rest HL SX SO NK.
  assert (V : validate_same [x] [o] = Throw) by (unfold validate_same, front, rd; cbn [length Nat.eqb dw_assert bind nth_error]; rewrite SX, SO, (shapes_differ k n rest NK); reflexivity).
  destruct HL as [->|[->|[(a & ->)|[(a & ->)|(p & mask & ->)]]]]; cbn [lforward]; unfold act_forward; rewrite V; reflexivity.
Qed.
Print Assumptions C68_activations_and_dropout_throw.

(** The other layers do not look: a Linear, Softmax, BatchNorm1D, Add or global pooling layer given another batch size
    is undefined behaviour, and so are convolution and max pooling given a larger one. *)
Theorem C68_finding_other_layers_do_not_check :
  forall (E : env) (k n : nat), k <> n ->
  (forall W b x o rest u, rest <> [] -> tsh x = k :: rest -> tsh o = [n; u] -> lforward E (LLinear W b) [x] [o] = UB) /\
  (forall x o m, tsh x = [k; m] -> tsh o = [n; m] -> lforward E LSoftmax [x] [o] = UB) /\
  (forall eps alpha gamma beta std rmean rvar centered x o m, p_train gamma = p_train beta -> tsh x = [k; m] -> tsh o = [n; m] ->
     lforward E (LBN1 eps alpha gamma beta std rmean rvar centered) [x] [o] = UB) /\
  (forall x y o s, 0 < s -> tot x = k * s -> tot y = k * s -> tot o = n * s -> lforward E LAdd [x; y] [o] = UB) /\
  (forall x o c h w, 0 < c -> tsh x = [k; c; h; w] -> tot o = n * c -> lforward E LGap [x] [o] = UB) /\
  (forall g W b buf cin h w cout ho wo x o, sizes_ok g h w ho wo -> validate_geom g = Ok tt ->
     prm_ok [cout; cin; KH g; KW g] W -> prm_ok [cout] b -> ten_ok [k; cin; h; w] x -> ten_ok [n; cout; ho; wo] o ->
     n < k -> 0 < cout * ho * wo -> lforward E (LConv g W b buf) [x] [o] = UB) /\
  (forall g ind buf c h w ho wo x o, sizes_ok g h w ho wo -> validate_geom g = Ok tt -> ibuf_ok ind -> is_argmax (e_amax E) -> am_ext (e_amax E) ->
     ten_ok [k; c; h; w] x -> ten_ok [n; c; ho; wo] o ->
     n < k -> 0 < c * ho * wo -> lforward E (LMaxPool g ind buf) [x] [o] = UB).
Proof.
  intros E k n NK.
  assert (SM : same k n = UB) by (unfold same; destruct (Nat.eqb_spec k n); [contradiction|reflexivity]).
  split; [|split; [|split; [|split; [|split; [|split]]]]].
  - intros W b x o rest u NR SX SO. destruct (linear_refuses E W b x [] o [] k rest n u SX NR SO NK) as (_ & H). apply H; reflexivity.
  - intros x o m SX SO. cbn [lforward]. unfold validate_rank, front, rd, dims2, rd. cbn [length Nat.eqb dw_assert bind nth_error]. rewrite SX, SO. cbn [length Nat.eqb dw_assert bind nth_error].
    unfold softmax_forward, softmax_forward_with. rewrite SM. unfold emap. destruct (_ <=? _); cbn [bind]; [|reflexivity]. destruct (_ <=? _); reflexivity.
  - intros eps alpha gamma beta std rmean rvar cent x o m TR SX SO. cbn [lforward]. unfold validate_rank, front, rd. cbn [length Nat.eqb dw_assert bind nth_error]. rewrite SX, SO. cbn [length Nat.eqb dw_assert bind nth_error].
    unfold bn1_fwd. rewrite TR, Bool.eqb_reflx. cbn [dw_assert bind]. unfold dims2 at 1 2, rd at 1 2 3 4. rewrite SX, SO. cbn [bind nth_error].
    match goal with |- context [dims2 ?t] => destruct (dims2 t) as [[cn cm]| |] eqn:D; unfold dims2, rd in D; destruct (nth_error (tsh t) 0); cbn [bind] in D; try discriminate; destruct (nth_error (tsh t) 1); cbn [bind] in D; try discriminate end; cbn [bind]; try reflexivity.
    all: unfold dim0, rd; repeat (match goal with |- context [nth_error ?l 0] => destruct (nth_error l 0) end; cbn [bind]; [|reflexivity]); rewrite SM; reflexivity.
  - intros x y o s S0 TX TY TO. cbn [lforward]. unfold at_. cbn [nth_error bind]. unfold add_forward, same. unfold tot in *. rewrite TX, TY, TO, Nat.eqb_refl. cbn [bind].
    destruct (Nat.eqb_spec (k * s) (n * s)) as [X|_]; [|reflexivity]. exfalso. apply NK. apply Nat.mul_cancel_r in X; lia.
  - intros x o c h w C0 SX TO. cbn [lforward]. unfold front, rd, dims4, rd. cbn [nth_error bind]. rewrite SX. cbn [nth_error bind]. unfold gap_forward, same, emap. unfold tot in TO. rewrite TO.
    destruct (_ <=? _); cbn [bind]; [|reflexivity]. destruct (Nat.eqb_spec (k * c) (n * c)) as [X|_]; [|reflexivity]. exfalso. apply NK. apply Nat.mul_cancel_r in X; lia.
  - intros g W b buf cin h w cout ho wo x o H1 H2 H3 H4 H5 H6. exact (conv_larger E g W b buf k n cin h w cout ho wo x o H1 H2 H3 H4 H5 H6).
  - intros g ind buf c h w ho wo x o H1 H2 H3 H4 H5 H6 H7. exact (maxpool_larger E g ind buf k n c h w ho wo x o H1 H2 H3 H6 H4 H5 H7).
Qed.
Print Assumptions C68_finding_other_layers_do_not_check.

(** A smaller batch goes through convolution and max pooling without complaint: the first [k] items of the output
    are computed, the others keep what they held before. *)
Theorem C68_finding_smaller_batches_leave_old_values :
  forall (E : env) (g : geom) (k n h w ho wo : nat), k <= n -> sizes_ok g h w ho wo -> validate_geom g = Ok tt ->
  (forall W b buf cin cout x o, prm_ok [cout; cin; KH g; KW g] W -> prm_ok [cout] b -> ten_ok [k; cin; h; w] x -> ten_ok [n; cout; ho; wo] o ->
   exists buf' o', lforward E (LConv g W b buf) [x] [o] = Ok (LConv g W b buf', o') /\ ten_ok [n; cout; ho; wo] o' /\
    (forall i oc r q, i < k -> oc < cout -> r < ho -> q < wo ->
      (tdat o').[((i * cout + oc) * ho + r) * wo + q] =
      ((tdat (p_data b)).[oc] +
      rsum cin (fun c => rsum (KH g) (fun a => rsum (KW g) (fun d =>
        (tdat (p_data W)).[((oc * cin + c) * KH g + a) * KW g + d] *
        padded 0 h w (tdat x) (i * cin + c) (win_row g a r) (win_col g d q)))))%R) /\
    forall p, k * cout * ho * wo <= p -> (tdat o').[p] = (tdat o).[p]) /\
  (forall ind buf c x o, ibuf_ok ind -> is_argmax (e_amax E) -> am_ext (e_amax E) -> ten_ok [k; c; h; w] x -> ten_ok [n; c; ho; wo] o ->
   exists ind' buf' o', lforward E (LMaxPool g ind buf) [x] [o] = Ok (LMaxPool g ind' buf', o') /\ ten_ok [n; c; ho; wo] o' /\
    (forall i r q, i < k * c -> r < ho -> q < wo ->
      exists a d, a < KH g /\ d < KW g /\
        (tdat o').[(i * ho + r) * wo + q] = wcell g h w (tdat x) i r q a d /\
        forall a' d', a' < KH g -> d' < KW g -> (wcell g h w (tdat x) i r q a' d' <= (tdat o').[(i * ho + r) * wo + q])%R) /\
    forall p, k * c * ho * wo <= p -> (tdat o').[p] = (tdat o).[p]).
Proof.
  intros E g k n h w ho wo LE SZ VG. split.
  - intros W b buf cin cout x o HW Hb Hx Ho. exact (conv_smaller E g W b buf k n cin h w cout ho wo x o SZ VG HW Hb Hx Ho LE).
  - intros ind buf c x o HI AM AE Hx Ho. exact (maxpool_smaller E g ind buf k n c h w ho wo x o SZ VG HI Hx AM AE Ho LE).
Qed.
Print Assumptions C68_finding_smaller_batches_leave_old_values.

(** BatchNorm2D does not look either. A layer that has not run yet is undefined behaviour for a batch smaller than its
    output and normalises a larger one by the statistics of all items, of which only the first are written. A layer that
    has seen a smaller batch is undefined behaviour. A layer that has seen a batch of [n] items and is given [k] returns
    [n] again: the first [k] normalised by their own statistics, the others copied from the earlier answer. *)
Theorem C68_finding_batchnorm2d_mixes_batches :
  forall (eps alpha : R) (gamma beta : prm) (std rmean rvar : ten) (k n C H W : nat) (tr : bool),
  0 < C -> 0 < H -> 0 < W -> (tr = true -> 0 < k) ->
  bn2_state C gamma beta std rmean rvar -> p_train gamma = tr -> p_train beta = tr ->
  let pixel := fun (x : ten) c i h w => (tdat x).[((i * C + c) * H + h) * W + w] in
  let m := fun (mean_now : ten) (x : ten) c => if tr then mean3 k H W (pixel x c) else (tdat mean_now).[c] in
  let v := fun (var_now : ten) (x : ten) c => if tr then variance3 k H W (pixel x c) else (tdat var_now).[c] in
  let normalised := fun mean_now var_now x c i h w =>
    ((tdat (p_data gamma)).[c] * ((pixel x c i h w - m mean_now x c) / sqrt (v var_now x c + eps)) + (tdat (p_data beta)).[c])%R in
  (forall E centered nin nout x o, tot nin = 0 -> tot centered = 0 -> ten_ok [k; C; H; W] x -> ten_ok [n; C; H; W] o -> k < n ->
    lforward E (LBN2 eps alpha gamma beta std rmean rvar centered nin nout) [x] [o] = UB) /\
  (forall E centered nin nout x o, tot nin = 0 -> tot centered = 0 -> ten_ok [k; C; H; W] x -> ten_ok [n; C; H; W] o -> n <= k ->
    exists L' o', lforward E (LBN2 eps alpha gamma beta std rmean rvar centered nin nout) [x] [o] = Ok (L', o') /\ ten_ok [n; C; H; W] o' /\
      forall i c h w, i < n -> c < C -> h < H -> w < W -> pixel o' c i h w = normalised rmean rvar x c i h w) /\
  (forall E centered nin nout x o, 0 < tot nin < k * C * H * W -> ten_ok [k; C; H; W] x -> ten_ok [n; C; H; W] o ->
    lforward E (LBN2 eps alpha gamma beta std rmean rvar centered nin nout) [x] [o] = UB) /\
  (forall E1 E2 centered nin nout x1 o1 x2 o2, tot nin = 0 -> tot centered = 0 ->
    ten_ok [n; C; H; W] x1 -> ten_ok [n; C; H; W] o1 -> ten_ok [k; C; H; W] x2 -> ten_ok [n; C; H; W] o2 -> 0 < n -> k <= n ->
    exists L1 o1' L2 o2' mean_now var_now,
      lforward E1 (LBN2 eps alpha gamma beta std rmean rvar centered nin nout) [x1] [o1] = Ok (L1, o1') /\
      lforward E2 L1 [x2] [o2] = Ok (L2, o2') /\ ten_ok [n; C; H; W] o2' /\
      (tr = false -> mean_now = rmean /\ var_now = rvar) /\
      (forall i c h w, i < k -> c < C -> h < H -> w < W -> pixel o2' c i h w = normalised mean_now var_now x2 c i h w) /\
      (forall i c h w, k <= i -> i < n -> c < C -> h < H -> w < W -> pixel o2' c i h w = pixel o1' c i h w)).
Proof.
  intros eps alpha gamma beta std rmean rvar k n C H W tr C0 H0 W0 Hk HS Tg Tb pixel m v normalised.
  assert (Hn : tr = true -> 0 < k * H * W) by (intros T; specialize (Hk T); nia).
  assert (MONO : forall a b, a < b -> a * C * H * W < b * C * H * W) by (intros; do 3 (apply Nat.mul_lt_mono_pos_r; [lia|]); assumption).
  assert (MONO' : forall a b, a <= b -> a * C * H * W <= b * C * H * W) by (intros; do 3 apply Nat.mul_le_mono_r; assumption).
  split; [|split; [|split]].
  - intros E centered nin nout x o Z1 Z2 Hx Ho LT.
    destruct (bn2_other E eps alpha gamma beta std rmean rvar centered nin nout k n C H W x o tr Hn HS) as (U & _); try assumption; [split; left; assumption|].
    apply U. rewrite Z1. cbn [Nat.eqb]. apply MONO. exact LT.
  - intros E centered nin nout x o Z1 Z2 Hx Ho LE.
    destruct (bn2_other E eps alpha gamma beta std rmean rvar centered nin nout k n C H W x o tr Hn HS) as (_ & U); try assumption; [split; left; assumption|].
    destruct U as (s' & rm' & rv' & c' & ni' & no' & o' & F & _ & _ & _ & _ & To & V & _); [rewrite Z1; cbn [Nat.eqb]; apply MONO'; exact LE|].
    exists (LBN2 eps alpha gamma beta s' rm' rv' c' ni' no'), o'. split; [exact F|]. split; [exact To|]. intros i c h w Hi Hc Hh Hw. exact (V i c h w ltac:(lia) Hi Hc Hh Hw).
  - intros E centered nin nout x o Z Hx Ho. apply (bn2_other_larger E eps alpha gamma beta std rmean rvar centered nin nout k n C H W x o); try assumption. congruence.
  - intros E1 E2 centered nin nout x1 o1 x2 o2 Z1 Z2 Hx1 Ho1 Hx2 Ho2 N0 LE.
    assert (NP : 0 < n * C * H * W) by (pose proof (MONO 0 n N0); lia).
    destruct (bn2_other E1 eps alpha gamma beta std rmean rvar centered nin nout n n C H W x1 o1 tr ltac:(intros _; nia) HS) as (_ & U); try assumption; [split; left; assumption|].
    destruct U as (s' & rm' & rv' & c' & ni' & no' & o' & F & S1 & T1 & T2 & T3 & To & _ & _ & NO); [rewrite Z1; cbn [Nat.eqb]; lia|].
    rewrite Z1 in T1, T2. rewrite Z2 in T3. cbn [Nat.eqb] in T1, T2, T3.
    destruct (bn2_forward E1 eps alpha gamma beta std rmean rvar centered nin nout n C H W x1 o1 tr ltac:(intros _; nia) HS) as (s2 & rm2 & rv2 & c2 & ni2 & no2 & o2' & F2 & _ & _ & _ & _ & _ & _ & _ & _ & RM & RV); try assumption; [split; left; assumption|].
    rewrite F in F2. injection F2 as -> -> -> -> -> -> ->.
    destruct (bn2_other E2 eps alpha gamma beta s2 rm2 rv2 c2 ni2 no2 k n C H W x2 o2 tr Hn S1) as (_ & U); try assumption.
    { split; right; [split|]; rewrite ?T1, ?T2, ?T3; apply MONO'; exact LE. }
    destruct U as (s3 & rm3 & rv3 & c3 & ni3 & no3 & o3 & F3 & _ & _ & _ & _ & To3 & V & OLD & _).
    { destruct (Nat.eqb_spec (tot ni2) 0); [lia|]. lia. }
    exists (LBN2 eps alpha gamma beta s2 rm2 rv2 c2 ni2 no2), o2', (LBN2 eps alpha gamma beta s3 rm3 rv3 c3 ni3 no3), o3, rm2, rv2.
    split; [exact F|]. split; [exact F3|]. split; [exact To3|].
    split; [intros ->; split; [exact RM|exact RV]|].
    split; [intros i c h w Hi Hc Hh Hw; exact (V i c h w Hi ltac:(lia) Hc Hh Hw)|].
    intros i c h w Hi Hi' Hc Hh Hw. unfold pixel. rewrite (OLD i c h w Hi Hi' Hc Hh Hw). apply NO; assumption.
Qed.
Print Assumptions C68_finding_batchnorm2d_mixes_batches.

(** ** Models *)
(** Whatever tensors a forward pass is given: if it returns, inputs and outputs have the shapes they had. *)
Theorem C68_forward_keeps_shapes :
  forall (E : nat -> env) (m : model) (infos infos' : list linfo) (b b' : option backend) (inputs outputs inputs' outputs' : list ten),
  model_forward E m infos b inputs outputs = Ret (infos', b', inputs', outputs') ->
  map tsh inputs' = map tsh inputs /\ map tsh outputs' = map tsh outputs.
Proof. intros E m infos infos' b b' xs os xs' os'. apply forward_shapes. Qed.
Print Assumptions C68_forward_keeps_shapes.

(** A model with a Linear layer reading an input never returns from forward for another batch size in that input;
    if this layer is the only one that needs no other, it is undefined behaviour. *)
Theorem C68_linear_models_need_their_batch_size :
  forall (es : estore) (ins outs : list nat) (m : model) (infos : list linfo) (b : backend) (E : nat -> env) (inputs outputs : list ten)
         (p i d : nat) (W c : prm) (x : ten) (k n u : nat) (rest : list nat),
  constructed es ins outs m -> closed (es_ph es) ins outs -> backend_fits (es_ph es) m b ->
  length inputs = length ins -> shaped (es_ph es) outs outputs ->
  nth_error ins p = Some i -> nth_error inputs p = Some x -> call (es_ph es) d [i] ->
  produces m infos b d (LLinear W c) -> dims (es_ph es) d = [n; u] ->
  tsh x = k :: rest -> rest <> [] -> k <> n ->
  (forall r, model_forward E m infos (Some b) inputs outputs <> Ret r) /\
  (visits (es_ph es) outs d = 1 ->
   (forall d' args, needed (es_ph es) outs d' -> call (es_ph es) d' args -> d' = d \/ exists a z, In a args /\ call (es_ph es) a z) ->
   model_forward E m infos (Some b) inputs outputs = Bad).
Proof.
  intros es ins outs m infos b E inputs outputs p i d W c x k n u rest C CL BF LI SO HI HX CA PD DD SX NR NK. pose proof (constructed_mfacts _ _ _ _ C) as MF. split.
  - exact (other_batch_never_returns _ _ _ _ MF CL infos b E inputs outputs d i p W c x k rest n u BF LI SO PD CA HI HX SX NR DD NK).
  - exact (other_batch_undefined _ _ _ _ MF CL infos b E inputs outputs d i p W c x k rest n u BF LI SO PD CA HI HX SX NR DD NK).
Qed.
Print Assumptions C68_linear_models_need_their_batch_size.

(** ** Examples *)
(** The model of [ex3_es], built for batches of 2: any other batch size is undefined behaviour. *)
Example C68_nonvacuous : forall (W c : prm) (E : nat -> env) (x o : ten) (k : nat), prm_ok [4; 3] W -> prm_ok [4] c ->
  tsh x = [k; 3] -> ten_ok [2; 4] o -> k <> 2 ->
  model_forward E ex3_m (ex3_infos W c) (Some (ex3_b W c)) [x] [o] = Bad.
Proof.
  intros W c E x o k HW Hc SX To NK. destruct (C38_nonvacuous W c E (fun _ => x) HW Hc) as (CO & CL & BF & _).
  destruct (ex3_produces W c 1 ltac:(lia) [0]) as (L & PL & _ & ->); [eexists _, _; reflexivity|].
  refine (proj2 (C68_linear_models_need_their_batch_size ex3_es [0] [3] ex3_m (ex3_infos W c) (ex3_b W c) E [x] [o] 0 0 1 W c x k 2 4 [3] CO CL BF eq_refl _ eq_refl eq_refl _ PL eq_refl SX _ NK) _ _).
  - constructor; [exact To|constructor].
  - eexists _, _. reflexivity.
  - discriminate.
  - vm_compute. reflexivity.
  - intros d' args N (s & i & C). assert (LD : d' <= 3) by (apply (needed_le (es_ph ex3_es)); [apply store_links_back, built_ok, ex3_built|exact N]).
    destruct d' as [|[|[|[|d']]]]; [discriminate C|left; reflexivity|right|right|lia]; injection C as _ _ <-.
    + exists 1. eexists. split; [left; reflexivity|eexists _, _; reflexivity].
    + exists 2. eexists. split; [left; reflexivity|eexists _, _; reflexivity].
Qed.

(** The convolution of [C09_nonvacuous] with one image instead of two: the second image of the output is the old one. *)
Example C68_stale_nonvacuous : forall (E : env) (o : ten), ten_ok [2; 3; 2; 2] o ->
  exists buf' o', lforward E (LConv ex_g (ex_p [3; 1; 2; 2]) (ex_p [3]) empty_ten) [ex_t [1; 1; 3; 3]] [o] = Ok (LConv ex_g (ex_p [3; 1; 2; 2]) (ex_p [3]) buf', o') /\
    ten_ok [2; 3; 2; 2] o' /\ forall p, 12 <= p -> (tdat o').[p] = (tdat o).[p].
Proof.
  intros E o To. destruct C09_nonvacuous as (SZ & VG & HW & Hb & _).
  destruct (C68_finding_smaller_batches_leave_old_values E ex_g 1 2 3 3 2 2 ltac:(lia) SZ VG) as (K & _).
  destruct (K (ex_p [3; 1; 2; 2]) (ex_p [3]) empty_ten 1 3 (ex_t [1; 1; 3; 3]) o HW Hb ltac:(split; reflexivity) To) as (buf' & o' & F & T & _ & V).
  exists buf', o'. split; [exact F|]. split; [exact T|]. exact V.
Qed.

(** BatchNorm2D with 2 channels, first given 3 images of one pixel, then one: images 1 and 2 of the second answer are those of the first. *)
Example C68_batchnorm2d_nonvacuous : forall (E : env) (tr : bool) (x1 o1 x2 o2 : ten),
  ten_ok [3; 2; 1; 1] x1 -> ten_ok [3; 2; 1; 1] o1 -> ten_ok [1; 2; 1; 1] x2 -> ten_ok [3; 2; 1; 1] o2 ->
  let p := mkP (ex_t [2]) (ex_t [2]) tr in
  exists L1 o1' L2 o2',
    lforward E (LBN2 1 1 p p (ex_t [2]) (ex_t [2]) (ex_t [2]) empty_ten empty_ten empty_ten) [x1] [o1] = Ok (L1, o1') /\
    lforward E L1 [x2] [o2] = Ok (L2, o2') /\ forall q, 2 <= q < 6 -> (tdat o2').[q] = (tdat o1').[q].
Proof.
  intros E tr x1 o1 x2 o2 H1 H2 H3 H4 p.
  assert (ST : bn2_state 2 p p (ex_t [2]) (ex_t [2]) (ex_t [2])) by (repeat split).
  destruct (C68_finding_batchnorm2d_mixes_batches 1 1 p p (ex_t [2]) (ex_t [2]) (ex_t [2]) 1 3 2 1 1 tr ltac:(lia) ltac:(lia) ltac:(lia) ltac:(lia) ST eq_refl eq_refl) as (_ & _ & _ & K).
  destruct (K E E empty_ten empty_ten empty_ten x1 o1 x2 o2 eq_refl eq_refl H1 H2 H3 H4 ltac:(lia) ltac:(lia)) as (L1 & o1' & L2 & o2' & _ & _ & F1 & F2 & _ & _ & _ & OLD).
  exists L1, o1', L2, o2'. split; [exact F1|]. split; [exact F2|]. intros q Hq.
  assert (X : q = 2 \/ q = 3 \/ q = 4 \/ q = 5) by lia.
  destruct X as [->|[->|[->| ->]]]; [exact (OLD 1 0 0 0 ltac:(lia) ltac:(lia) ltac:(lia) ltac:(lia) ltac:(lia))|exact (OLD 1 1 0 0 ltac:(lia) ltac:(lia) ltac:(lia) ltac:(lia) ltac:(lia))
    |exact (OLD 2 0 0 0 ltac:(lia) ltac:(lia) ltac:(lia) ltac:(lia) ltac:(lia))|exact (OLD 2 1 0 0 ltac:(lia) ltac:(lia) ltac:(lia) ltac:(lia) ltac:(lia))].
Qed.
