(** Layers given a batch of another size than their output has. *)
From Coq Require Import Reals Lra Lia.
From Verif Require Import Base BaseFacts Sums M_Im2col S_Im2col M_Kernels M_Conv M_Layers S_Grad S_Partial P_Layout P_Kernels P_Vjp1 P_Vjp2 P_BN P_BN2 P_Conv P_Conv2 P_VjpConv P_Pool P_BN3 P_Idem.
Open Scope nat_scope.

Lemma forr_frame {S T} (f : S -> T) n (b1 : nat -> S -> res S) (b2 : nat -> T -> res T) s r :
  (forall i s s', i < n -> b1 i s = Ok s' -> b2 i (f s) = Ok (f s')) -> forr n b1 s = Ok r -> forr n b2 (f s) = Ok (f r).
Proof.
  revert r. induction n as [|n IH]; intros r K H; cbn [forr] in *; [injection H as <-; reflexivity|].
  destruct (forr n b1 s) as [a| |] eqn:E; cbn [bind] in H; try discriminate. rewrite (IH a); [|intros; apply K; [lia|assumption]|reflexivity]. cbn [bind]. apply K; [lia|exact H].
Qed.
Lemma forr_stop {S} k n (body : nat -> S -> res S) s a : forr k body s = Ok a -> body k a = UB -> k < n -> forr n body s = UB.
Proof.
  intros H B L. replace n with (Datatypes.S k + (n - Datatypes.S k)) by lia. rewrite forr_add, forr_S, H. cbn [bind]. rewrite B. reflexivity.
Qed.
Lemma slice_app {V} off n (l t r : list V) : slice off n l = Ok r -> slice off n (l ++ t) = Ok r.
Proof.
  unfold slice. destruct (Nat.leb_spec (off + n) (length l)) as [H|]; [|discriminate]. intros E. injection E as <-. rewrite app_length.
  destruct (Nat.leb_spec (off + n) (length l + length t)); [|lia]. f_equal. rewrite skipn_app, firstn_app, skipn_length.
  replace (n - (length l - off)) with 0 by lia. rewrite firstn_O, app_nil_r. reflexivity.
Qed.
Lemma splice_app {V} off (s l t : list V) : off + length s <= length l -> splice off s (l ++ t) = splice off s l ++ t.
Proof.
  intros H. unfold splice. rewrite firstn_app, skipn_app. replace (off - length l) with 0 by lia. replace (off + length s - length l) with 0 by lia.
  rewrite firstn_O, app_nil_r. cbn [skipn]. rewrite <- !app_assoc. reflexivity.
Qed.
Lemma upd_app {V} (l t : list V) : forall i v, i < length l -> upd (l ++ t) i v = upd l i v ++ t.
Proof. induction l as [|a l IH]; intros [|i] v H; cbn in *; try lia; [reflexivity|]. rewrite IH by lia. reflexivity. Qed.
Lemma wr_app {V} (l t r : list V) i v : wr l i v = Ok r -> wr (l ++ t) i v = Ok (r ++ t).
Proof.
  unfold wr. destruct (Nat.ltb_spec i (length l)); [|discriminate]. intros E. injection E as <-. rewrite app_length. destruct (Nat.ltb_spec i (length l + length t)); [|lia].
  rewrite upd_app by assumption. reflexivity.
Qed.

(** ** Convolution *)
Lemma conv_step_frame g d input weights bias b tl s s' :
  conv_step g d input weights bias b s = Ok s' -> conv_step g d input weights bias b (fst s, snd s ++ tl) = Ok (fst s', snd s' ++ tl).
Proof.
  destruct s as [buf o]. cbn [fst snd]. unfold conv_step. intros H.
  destruct (slice (b * (cd_cin d * cd_h d * cd_w d)) _ input) as [src| |]; try discriminate. cbn [bind] in *.
  destruct (slice (b * (cd_rows g d * cd_cols d)) _ buf) as [pl| |]; try discriminate. cbn [bind] in *.
  destruct (im2col _ _ _ _ _ _ _) as [X| |]; try discriminate. cbn [bind] in *.
  destruct (emap _ weights); try discriminate. cbn [bind] in *. destruct (emap _ bias); try discriminate. cbn [bind] in *.
  destruct (slice _ _ o) as [r| |] eqn:E; try discriminate. cbn [bind] in H. rewrite (slice_app _ _ _ tl _ E). cbn [bind]. injection H as <-. cbn [fst snd].
  f_equal. f_equal. apply splice_app. unfold slice in E. destruct (Nat.leb_spec (b * (cd_cout d * cd_ho d * cd_wo d) + cd_cout d * cd_cols d) (length o)) as [L|]; [|discriminate]. injection E as <-.
  match goal with |- _ + length ?r <= _ => assert (LR : length r = cd_cout d * cd_cols d) end.
  { rewrite !put2_length; rewrite ?put2_length; rewrite ?firstn_length, ?skipn_length; lia. }
  lia.
Qed.
Lemma conv_forward_frame g d batch input weights bias buf o tl buf' o' :
  conv_forward g d batch input weights bias buf o = Ok (buf', o') -> conv_forward g d batch input weights bias buf (o ++ tl) = Ok (buf', o' ++ tl).
Proof.
  intros H. unfold conv_forward in *. refine (forr_frame (fun s => (fst s, snd s ++ tl)) batch _ _ (buf, o) (buf', o') _ H).
  intros i s s' _. apply conv_step_frame.
Qed.
(** The other way round: with a shorter output, the same steps as long as they fit. *)
Lemma conv_step_short g d input weights bias b tl buf o s' : let out_off := cd_cout d * cd_ho d * cd_wo d in
  conv_step g d input weights bias b (buf, o ++ tl) = Ok s' ->
  if b * out_off + out_off <=? length o then exists o', conv_step g d input weights bias b (buf, o) = Ok (fst s', o') /\ length o' = length o /\ snd s' = o' ++ tl
  else conv_step g d input weights bias b (buf, o) = UB.
Proof.
  cbv zeta. unfold conv_step. intros H.
  destruct (slice (b * (cd_cin d * cd_h d * cd_w d)) _ input) as [src| |]; try discriminate. cbn [bind] in *.
  destruct (slice (b * (cd_rows g d * cd_cols d)) _ buf) as [pl| |]; try discriminate. cbn [bind] in *.
  destruct (im2col _ _ _ _ _ _ _) as [X| |]; try discriminate. cbn [bind] in *.
  destruct (emap _ weights); try discriminate. cbn [bind] in *. destruct (emap _ bias); try discriminate. cbn [bind] in *.
  assert (OO : cd_cout d * cd_ho d * cd_wo d = cd_cout d * cd_cols d) by (unfold cd_cols; ring). rewrite OO in *.
  unfold slice at 1. unfold slice at 1.
  destruct (Nat.leb_spec (b * (cd_cout d * cd_cols d) + cd_cout d * cd_cols d) (length o)) as [L|L]; [|reflexivity].
  rewrite (slice_app _ _ o tl (firstn (cd_cout d * cd_cols d) (skipn (b * (cd_cout d * cd_cols d)) o))) in H.
  2:{ unfold slice. destruct (Nat.leb_spec (b * (cd_cout d * cd_cols d) + cd_cout d * cd_cols d) (length o)); [reflexivity|lia]. }
  cbn [bind] in *. injection H as <-. cbn [fst snd]. eexists. split; [reflexivity|].
  match goal with |- context [splice _ ?r o] => assert (LR : length r = cd_cout d * cd_cols d) end.
  { rewrite !put2_length; rewrite ?put2_length; rewrite ?firstn_length, ?skipn_length; lia. }
  split; [apply splice_length; lia|]. apply splice_app. lia.
Qed.

Lemma conv_short_run g d input weights bias buf o tl : let out_off := cd_cout d * cd_ho d * cd_wo d in forall p r,
  forr p (conv_step g d input weights bias) (buf, o ++ tl) = Ok r -> p * out_off <= length o ->
  exists o', forr p (conv_step g d input weights bias) (buf, o) = Ok (fst r, o') /\ length o' = length o /\ snd r = o' ++ tl.
Proof.
  cbv zeta. induction p as [|p IH]; intros r H L; cbn [forr] in *.
  - injection H as <-. exists o. cbn. auto.
  - destruct (forr p _ (buf, o ++ tl)) as [[bf ot]| |] eqn:E; cbn [bind] in H; try discriminate.
    destruct (IH _ eq_refl ltac:(cbn [Nat.mul] in L; lia)) as (o1 & E1 & L1 & T1). cbn [fst snd] in *. subst ot. rewrite E1. cbn [bind].
    pose proof (conv_step_short _ _ _ _ _ _ _ _ _ _ H) as K. cbv zeta in K. rewrite L1 in K.
    destruct (Nat.leb_spec (p * (cd_cout d * cd_ho d * cd_wo d) + cd_cout d * cd_ho d * cd_wo d) (length o)) as [_|X]; [|cbn [Nat.mul] in L; lia].
    destruct K as (o' & K1 & K2 & K3). exists o'. split; [exact K1|]. split; [congruence|exact K3].
Qed.

Section Conv.
Variables (E : env) (g : geom) (W b : prm) (buf : ten) (k n cin h w cout ho wo : nat) (x o : ten).
Hypothesis Hsz : sizes_ok g h w ho wo.
Hypothesis Hg : validate_geom g = Ok tt.
Hypothesis HW : prm_ok [cout; cin; KH g; KW g] W.
Hypothesis Hb : prm_ok [cout] b.
Hypothesis Hx : ten_ok [k; cin; h; w] x.
Hypothesis Ho : ten_ok [n; cout; ho; wo] o.

Lemma conv_smaller : k <= n ->
  exists buf' o', lforward E (LConv g W b buf) [x] [o] = Ok (LConv g W b buf', o') /\ ten_ok [n; cout; ho; wo] o' /\
    (forall i oc r q, i < k -> oc < cout -> r < ho -> q < wo ->
      (tdat o').[((i * cout + oc) * ho + r) * wo + q] =
      ((tdat (p_data b)).[oc] +
      rsum cin (fun c => rsum (KH g) (fun a => rsum (KW g) (fun d =>
        (tdat (p_data W)).[((oc * cin + c) * KH g + a) * KW g + d] *
        padded 0 h w (tdat x) (i * cin + c) (win_row g a r) (win_col g d q)))))%R) /\
    forall p, k * cout * ho * wo <= p -> (tdat o').[p] = (tdat o).[p].
Proof.
  intros LE. pose proof (ten_ok_len _ _ Ho) as Lo. rewrite prodN4 in Lo. set (N := k * cout * ho * wo).
  assert (LN : N <= length (tdat o)) by (rewrite Lo; unfold N; do 3 apply Nat.mul_le_mono_r; exact LE).
  set (o1 := mkT [k; cout; ho; wo] (firstn N (tdat o))). set (tl := skipn N (tdat o)).
  assert (Ho1 : ten_ok [k; cout; ho; wo] o1). { split; [reflexivity|]. unfold twf, o1. cbn [tdat tsh]. rewrite firstn_length, prodN4. unfold N in *. lia. }
  destruct (conv_forward_spec E g W b buf k cin h w cout ho wo x Hsz Hg HW Hb Hx o1 Ho1) as (buf' & o1' & F & T1 & V).
  assert (SP : tdat o = tdat o1 ++ tl) by (symmetry; apply firstn_skipn).
  cbn [lforward] in F |- *. rewrite Hg in F |- *. cbn [bind] in F |- *. unfold front, rd in F |- *. cbn [nth_error bind] in F |- *.
  unfold conv_fwd, dims4, dim0, rd in F |- *. destruct Hx as [Sx Wx]. pose proof Ho as [So Wo]. destruct HW as (W1 & _). rewrite Sx, W1 in F |- *. cbn [o1 tsh] in F. rewrite So.
  cbn [nth_error bind] in F |- *. fold o1 in F.
  destruct (conv_forward _ _ _ _ _ _ _ (tdat o1)) as [[bd od]| |] eqn:C; cbn [bind] in F; try discriminate.
  apply (conv_forward_frame _ _ _ _ _ _ _ _ tl) in C. rewrite <- SP in C. rewrite C. cbn [bind].
  injection F as F1 F2. eexists. eexists. split; [reflexivity|].
  assert (LD : length od = N). { rewrite <- F2 in T1. destruct T1 as [_ T]. unfold twf in T. cbn [set_dat tdat tsh o1] in T. rewrite prodN4 in T. exact T. }
  split; [|split].
  - split; [exact So|]. unfold twf. cbn [set_dat tdat tsh]. rewrite So, app_length, LD. unfold tl. rewrite skipn_length, Lo, prodN4. lia.
  - intros i oc r q Hi Hoc Hr Hq. rewrite <- F2 in V. cbn [set_dat tdat] in V |- *. rewrite app_nth1; [exact (V i oc r q Hi Hoc Hr Hq)|]. rewrite LD. unfold N.
    apply mult_lt; [|exact Hq]. apply mult_lt; [|exact Hr]. apply mult_lt; assumption.
  - intros p Hp. cbn [set_dat tdat]. rewrite SP. rewrite !app_nth2; [f_equal|..]; unfold o1; cbn [tdat]; rewrite ?firstn_length; unfold N in *; lia.
Qed.

Lemma conv_larger : n < k -> 0 < cout * ho * wo -> lforward E (LConv g W b buf) [x] [o] = UB.
Proof.
  intros LT NE. pose proof (ten_ok_len _ _ Ho) as Lo. rewrite prodN4 in Lo. set (oo := cout * ho * wo) in *.
  set (tl := repeat 0%R ((k - n) * oo)). set (o1 := mkT [k; cout; ho; wo] (tdat o ++ tl)).
  assert (Ho1 : ten_ok [k; cout; ho; wo] o1). { split; [reflexivity|]. unfold twf, o1. cbn [tdat tsh]. rewrite app_length. unfold tl. rewrite repeat_length, prodN4, Lo. unfold oo. replace k with (n + (k - n)) at 2 by lia. ring. }
  destruct (conv_forward_spec E g W b buf k cin h w cout ho wo x Hsz Hg HW Hb Hx o1 Ho1) as (buf' & o1' & F & _).
  cbn [lforward] in F |- *. rewrite Hg in F |- *. cbn [bind] in F |- *. unfold front, rd in F |- *. cbn [nth_error bind] in F |- *.
  unfold conv_fwd, dims4, dim0, rd in F |- *. destruct Hx as [Sx Wx]. pose proof Ho as [So Wo]. destruct HW as (W1 & _). rewrite Sx, W1 in F |- *. cbn [o1 tsh] in F. rewrite So.
  cbn [nth_error bind] in F |- *. fold o1 in F.
  destruct (conv_forward _ _ _ _ _ _ _ (tdat o1)) as [[bd od]| |] eqn:C; cbn [bind] in F; try discriminate. clear F.
  unfold conv_forward in C |- *. destruct (forr_prefix _ _ _ _ C n LT) as (a & b' & A & B).
  destruct (conv_short_run _ _ _ _ _ _ (tdat o) tl n a A) as (o' & A' & L' & T'); [cbn [cd_cout cd_ho cd_wo]; fold oo; rewrite Lo; unfold oo; lia|].
  rewrite (forr_stop n k _ _ _ A'); [reflexivity| |exact LT].
  destruct a as [bf ot]. cbn [fst snd] in *. subst ot. pose proof (conv_step_short _ _ _ _ _ _ _ _ _ _ B) as K. cbv zeta in K. cbn [cd_cout cd_ho cd_wo] in K. fold oo in K.
  destruct (Nat.leb_spec (n * oo + oo) (length o')) as [X|_]; [|exact K]. rewrite L', Lo in X. exfalso. assert (n * cout * ho * wo = n * oo) by (unfold oo; ring). lia.
Qed.
End Conv.

(** ** Max pooling *)
Lemma pool_cols_frame am i rows cols col t1 t2 o x o' x' : pool_cols am i rows cols col (o, x) = Ok (o', x') ->
  pool_cols am i rows cols col (o ++ t1, x ++ t2) = Ok (o' ++ t1, x' ++ t2).
Proof.
  intros H. unfold pool_cols in *. refine (forr_frame (fun s => (fst s ++ t1, snd s ++ t2)) cols _ _ (o, x) (o', x') _ H).
  intros j [d ix] s' _ K. cbn [fst snd]. destruct (rows =? 0); [discriminate|]. cbv zeta in *.
  destruct (wr d _ _) as [d1| |] eqn:E1; cbn [bind] in K; try discriminate. destruct (wr ix _ _) as [x1| |] eqn:E2; cbn [bind] in K; try discriminate. injection K as <-.
  rewrite (wr_app _ t1 _ _ _ E1). cbn [bind]. rewrite (wr_app _ t2 _ _ _ E2). reflexivity.
Qed.
Lemma maxpool_forward_frame am g planes h w ho wo input o x buf t1 t2 o' x' buf' :
  maxpool_forward am g planes h w ho wo input o x buf = Ok (o', x', buf') ->
  maxpool_forward am g planes h w ho wo input (o ++ t1) (x ++ t2) buf = Ok (o' ++ t1, x' ++ t2, buf').
Proof.
  intros H. unfold maxpool_forward in *. refine (forr_frame (fun s => (fst (fst s) ++ t1, snd (fst s) ++ t2, snd s)) planes _ _ (o, x, buf) (o', x', buf') _ H).
  intros i [[d ix] bf] s' _ K. cbn [fst snd]. destruct (slice _ _ input) as [src| |]; cbn [bind] in *; try discriminate. destruct (im2col _ _ _ _ _ _ _) as [X| |]; cbn [bind] in *; try discriminate.
  destruct (emap _ X); cbn [bind] in *; try discriminate. destruct (pool_cols _ _ _ _ _ (d, ix)) as [[d1 x1]| |] eqn:P; cbn [bind] in *; try discriminate. injection K as <-.
  rewrite (pool_cols_frame _ _ _ _ _ t1 t2 _ _ _ _ P). reflexivity.
Qed.
Lemma pool_cols_short am i rows cols col t1 t2 o x r : length x = length o -> i * cols + cols <= length o ->
  pool_cols am i rows cols col (o ++ t1, x ++ t2) = Ok r ->
  exists o' x', pool_cols am i rows cols col (o, x) = Ok (o', x') /\ length o' = length o /\ length x' = length o /\ r = (o' ++ t1, x' ++ t2).
Proof.
  intros LX L. unfold pool_cols. assert (K : forall p r, p <= cols ->
    forr p (fun j '(dst, ind) => if rows =? 0 then UB else
      let f := fun k => el col cols k j in
      dst' <- wr dst (i * cols + j) (f (am rows f)) ;; ind' <- wr ind (i * cols + j) (am rows f) ;; Ok (dst', ind')) (o ++ t1, x ++ t2) = Ok r ->
    exists o' x', forr p (fun j '(dst, ind) => if rows =? 0 then UB else
      let f := fun k => el col cols k j in
      dst' <- wr dst (i * cols + j) (f (am rows f)) ;; ind' <- wr ind (i * cols + j) (am rows f) ;; Ok (dst', ind')) (o, x) = Ok (o', x') /\
      length o' = length o /\ length x' = length o /\ r = (o' ++ t1, x' ++ t2)).
  { induction p as [|p IH]; intros r0 LP H; cbn [forr] in *.
    - injection H as <-. exists o, x. auto.
    - destruct (forr p _ (o ++ t1, x ++ t2)) as [a| |] eqn:A; cbn [bind] in H; try discriminate. destruct (IH a ltac:(lia) eq_refl) as (o1 & x1 & F & L1 & L2 & ->). rewrite F. cbn [bind].
      destruct (rows =? 0); [discriminate|]. cbv zeta in *. unfold wr in *. rewrite !app_length in H.
      destruct (Nat.ltb_spec (i * cols + p) (length o1 + length t1)); [|lia]. cbn [bind] in H. destruct (Nat.ltb_spec (i * cols + p) (length x1 + length t2)); [|lia]. cbn [bind] in H. injection H as <-.
      destruct (Nat.ltb_spec (i * cols + p) (length o1)); [|lia]. cbn [bind]. destruct (Nat.ltb_spec (i * cols + p) (length x1)); [|lia]. cbn [bind].
      eexists _, _. split; [reflexivity|]. rewrite !upd_length, !upd_app by assumption. auto. }
  intros H. apply (K cols); [lia|exact H].
Qed.
Lemma maxpool_short_run am g h w ho wo input o x buf t1 t2 planes : length x = length o -> planes * (ho * wo) <= length o -> forall r,
  maxpool_forward am g planes h w ho wo input (o ++ t1) (x ++ t2) buf = Ok r ->
  exists o' x' bf, maxpool_forward am g planes h w ho wo input o x buf = Ok (o', x', bf) /\ length o' = length o /\ length x' = length o /\ r = (o' ++ t1, x' ++ t2, bf).
Proof.
  intros LX. unfold maxpool_forward. induction planes as [|p IH]; intros L r H; cbn [forr] in *.
  - injection H as <-. exists o, x, buf. auto.
  - destruct (forr p _ (o ++ t1, x ++ t2, buf)) as [a| |] eqn:A; cbn [bind] in H; try discriminate.
    destruct (IH ltac:(cbn [Nat.mul] in L; lia) a eq_refl) as (o1 & x1 & bf & F & L1 & L2 & ->). rewrite F. cbn [bind].
    destruct (slice _ _ input) as [src| |]; cbn [bind] in *; try discriminate. destruct (im2col _ _ _ _ _ _ _) as [X| |]; cbn [bind] in *; try discriminate.
    destruct (emap _ X); cbn [bind] in *; try discriminate. destruct (pool_cols _ _ _ _ _ (o1 ++ t1, x1 ++ t2)) as [q| |] eqn:P; cbn [bind] in *; try discriminate.
    assert (FI : p * (ho * wo) + ho * wo <= length o1) by (cbn [Nat.mul] in L; lia).
    destruct (pool_cols_short _ _ _ _ _ _ _ _ _ _ (eq_trans L2 (eq_sym L1)) FI P) as (o2 & x2 & P2 & M1 & M2 & ->). rewrite P2. cbn [bind]. injection H as <-.
    eexists _, _, _. split; [reflexivity|]. split; [congruence|]. split; [congruence|reflexivity].
Qed.

Section Pool.
Variables (E : env) (g : geom) (ind : iten) (buf : ten) (k n c h w ho wo : nat) (x o : ten).
Hypothesis Hsz : sizes_ok g h w ho wo.
Hypothesis Hg : validate_geom g = Ok tt.
Hypothesis Hind : ibuf_ok ind.
Hypothesis Hx : ten_ok [k; c; h; w] x.
Hypothesis Ham : is_argmax (e_amax E).
Hypothesis Hext : am_ext (e_amax E).
Hypothesis Ho : ten_ok [n; c; ho; wo] o.

Let ind1 := if nshape_eqb (ish ind) (tsh o) then ind else mkIT (tsh o) (tab (prodN (tsh o)) (e_ijunk E)).
Lemma ind1_len : length (idat ind1) = length (tdat o).
Proof.
  destruct Ho as [So Wo]. unfold twf in Wo. rewrite Wo. unfold ind1. destruct (nshape_eqb (ish ind) (tsh o)) eqn:En; [|cbn; apply tab_length].
  apply nshape_eqb_spec in En. destruct Hind as [X|X]; [rewrite X, So in En; discriminate|]. rewrite X, En. reflexivity.
Qed.

Lemma maxpool_smaller : k <= n ->
  exists ind' buf' o', lforward E (LMaxPool g ind buf) [x] [o] = Ok (LMaxPool g ind' buf', o') /\ ten_ok [n; c; ho; wo] o' /\
    (forall i r q, i < k * c -> r < ho -> q < wo ->
      exists a d, a < KH g /\ d < KW g /\
        (tdat o').[(i * ho + r) * wo + q] = wcell g h w (tdat x) i r q a d /\
        forall a' d', a' < KH g -> d' < KW g -> (wcell g h w (tdat x) i r q a' d' <= (tdat o').[(i * ho + r) * wo + q])%R) /\
    forall p, k * c * ho * wo <= p -> (tdat o').[p] = (tdat o).[p].
Proof.
  intros LE. pose proof (ten_ok_len _ _ Ho) as Lo. rewrite prodN4 in Lo. set (N := k * c * ho * wo). pose proof ind1_len as LI.
  assert (LN : N <= length (tdat o)) by (rewrite Lo; unfold N; do 3 apply Nat.mul_le_mono_r; exact LE).
  set (o1 := mkT [k; c; ho; wo] (firstn N (tdat o))). set (t1 := skipn N (tdat o)). set (i1 := mkIT [k; c; ho; wo] (firstn N (idat ind1))). set (t2 := skipn N (idat ind1)).
  assert (Ho1 : ten_ok [k; c; ho; wo] o1). { split; [reflexivity|]. unfold twf, o1. cbn [tdat tsh]. rewrite firstn_length, prodN4. unfold N in *. lia. }
  assert (Hi1 : ibuf_ok i1). { right. unfold i1. cbn [idat ish]. rewrite firstn_length, prodN4. unfold N in *. lia. }
  destruct (maxpool_forward_spec E g i1 buf k c h w ho wo x Hsz Hg Hi1 Hx Ham Hext o1 Ho1) as (ind' & buf' & o1' & F & T1 & V).
  assert (SP : tdat o = tdat o1 ++ t1) by (symmetry; apply firstn_skipn). assert (SI : idat ind1 = idat i1 ++ t2) by (symmetry; apply firstn_skipn).
  cbn [lforward] in F |- *. rewrite Hg in F |- *. cbn [bind] in F |- *. unfold front, rd in F |- *. cbn [nth_error bind] in F |- *.
  unfold maxpool_fwd in F |- *. fold ind1. destruct Hx as [Sx Wx]. pose proof Ho as [So Wo].
  assert (EI : nshape_eqb (ish i1) (tsh o1) = true) by (apply nshape_eqb_spec; reflexivity). rewrite EI in F.
  unfold dims4, rd in F |- *. rewrite Sx in F |- *. change (tsh o1) with [k; c; ho; wo] in F. rewrite So.
  cbn [nth_error bind] in F |- *.
  destruct (maxpool_forward _ _ _ _ _ _ _ _ (tdat o1) (idat i1) _) as [[[od id] bd]| |] eqn:C; cbn [bind] in F; try discriminate.
  apply (maxpool_forward_frame _ _ _ _ _ _ _ _ _ _ _ t1 t2) in C. rewrite <- SP, <- SI in C. rewrite C. cbn [bind].
  injection F as F1 F2 F3. eexists. eexists. eexists. split; [reflexivity|].
  assert (LD : length od = N). { rewrite <- F3 in T1. destruct T1 as [_ T]. unfold twf in T. cbn [set_dat tdat tsh o1] in T. rewrite prodN4 in T. exact T. }
  split; [|split].
  - split; [exact So|]. unfold twf. cbn [set_dat tdat tsh]. rewrite So, app_length, LD. unfold t1. rewrite skipn_length, Lo, prodN4. lia.
  - intros i r q Hi Hr Hq. rewrite <- F3 in V. cbn [set_dat tdat] in V |- *. rewrite app_nth1; [exact (V i r q Hi Hr Hq)|]. rewrite LD. unfold N.
    apply mult_lt; [|exact Hq]. apply mult_lt; [|exact Hr]. exact Hi.
  - intros p Hp. cbn [set_dat tdat]. rewrite SP. rewrite !app_nth2; [f_equal|..]; unfold o1; cbn [tdat]; rewrite ?firstn_length; unfold N in *; lia.
Qed.

Lemma maxpool_larger : n < k -> 0 < c * ho * wo -> lforward E (LMaxPool g ind buf) [x] [o] = UB.
Proof.
  intros LT NE. pose proof (ten_ok_len _ _ Ho) as Lo. rewrite prodN4 in Lo. set (oo := c * ho * wo) in *. pose proof ind1_len as LI.
  set (t1 := repeat 0%R ((k - n) * oo)). set (o1 := mkT [k; c; ho; wo] (tdat o ++ t1)). set (t2 := repeat 0 ((k - n) * oo)). set (i1 := mkIT [k; c; ho; wo] (idat ind1 ++ t2)).
  assert (EN : n * c * ho * wo + (k - n) * oo = k * c * ho * wo). { unfold oo. replace k with (n + (k - n)) at 2 by lia. ring. }
  assert (Ho1 : ten_ok [k; c; ho; wo] o1). { split; [reflexivity|]. unfold twf, o1. cbn [tdat tsh]. rewrite app_length. unfold t1. rewrite repeat_length, prodN4, Lo. exact EN. }
  assert (Hi1 : ibuf_ok i1). { right. unfold i1. cbn [idat ish]. rewrite app_length. unfold t2. rewrite repeat_length, LI, prodN4, Lo. exact EN. }
  destruct (maxpool_forward_spec E g i1 buf k c h w ho wo x Hsz Hg Hi1 Hx Ham Hext o1 Ho1) as (ind' & buf' & o1' & F & _).
  cbn [lforward] in F |- *. rewrite Hg in F |- *. cbn [bind] in F |- *. unfold front, rd in F |- *. cbn [nth_error bind] in F |- *.
  unfold maxpool_fwd in F |- *. fold ind1. destruct Hx as [Sx Wx]. pose proof Ho as [So Wo].
  assert (EI : nshape_eqb (ish i1) (tsh o1) = true) by (apply nshape_eqb_spec; reflexivity). rewrite EI in F.
  unfold dims4, rd in F |- *. rewrite Sx in F |- *. change (tsh o1) with [k; c; ho; wo] in F. rewrite So.
  cbn [nth_error bind] in F |- *.
  destruct (maxpool_forward _ _ _ _ _ _ _ _ (tdat o1) (idat i1) _) as [[[od id] bd]| |] eqn:C; cbn [bind] in F; try discriminate. clear F.
  assert (PL : n * c < k * c) by (apply Nat.mul_lt_mono_pos_r; [unfold oo in NE; destruct c; lia|exact LT]).
  unfold maxpool_forward in C. destruct (forr_prefix _ _ _ _ C (n * c) PL) as (a & b' & A & B).
  destruct (maxpool_short_run (e_amax E) g h w ho wo (tdat x) (tdat o) (idat ind1) _ t1 t2 (n * c) LI ltac:(rewrite Lo; lia) a A) as (o' & x' & bf & A' & L1 & L2 & ->).
  unfold maxpool_forward in A' |- *. rewrite (forr_stop (n * c) (k * c) _ _ _ A'); [reflexivity| |exact PL].
  cbn [fst snd] in *. destruct (slice _ _ (tdat x)) as [src| |]; cbn [bind] in *; try discriminate. destruct (im2col _ _ _ _ _ _ _) as [X| |]; cbn [bind] in *; try discriminate.
  destruct (emap _ X); cbn [bind] in *; try discriminate. clear B.
  assert (PU : forall rows, pool_cols (e_amax E) (n * c) rows (ho * wo) X (o', x') = UB).
  { intros rows. unfold pool_cols. apply (forr_stop 0 (ho * wo) _ _ (o', x')); [reflexivity| |unfold oo in NE; lia].
    destruct (rows =? 0); [reflexivity|]. cbv zeta. unfold wr. rewrite L1, Lo. destruct (Nat.ltb_spec (n * c * (ho * wo) + 0) (n * c * ho * wo)); [lia|reflexivity]. }
  rewrite PU. reflexivity.
Qed.
End Pool.

(** ** The other layers *)
Lemma shapes_differ k n (rest : list nat) : k <> n -> nshape_eqb (k :: rest) (n :: rest) = false.
Proof. intros NK. destruct (nshape_eqb (k :: rest) (n :: rest)) eqn:E; [|reflexivity]. apply nshape_eqb_spec in E. congruence. Qed.
