(** Optimizers in floats: what the expressions compute, and concrete runs. *)
From Coq Require Import Reals Lra Lia String List.
From Verif Require Import Base BaseFacts Sums S_Float M_Im2col S_Im2col M_Kernels M_Conv M_Layers M_Optim S_Grad M_Round S_Round P_Kernels P_Round P_Optim M_Ieee S_Ieee P_Ieee P_Ieee2 P_Ieee9 M_IeeeOpt S_IeeeOpt P_IeeeOpt.
Import ListNotations.
Open Scope R_scope.

Lemma momentum_is lr gamma k p vel v : p_train p = true -> prm_ok (tsh (p_data p)) p -> find_key vel k = Some v -> length (tdat v) = tot (p_data p) ->
  let w := tdat (p_data p) in let g := tdat (p_grad p) in
  let v' := tab (tot (p_data p)) (fun i => ev (arrays [w; g; tdat v]) (momentum_v_ex gamma lr i)) in
  momentum_one lr gamma k p vel = Ok (set_weight p (tab (tot (p_data p)) (fun i => ev (arrays [w; g; v']) (momentum_w_ex i))), set_key vel k (set_dat v v')).
Proof.
  intros T Hp FK LV w g v'. unfold momentum_one. rewrite T. rewrite (proj1 (proj2 (proj2 Hp))), nshape_refl. cbn [dw_assert bind]. pose proof (prm_tot p Hp) as HT.
  unfold at_key. rewrite FK. cbn [bind]. rewrite !emap_Ok by (unfold tot in *; lia). cbn [bind]. rewrite HT.
  rewrite !P_Optim.put_full by (unfold tot in *; lia). reflexivity.
Qed.

Lemma adam_is lr b1 b2 eps t k p s mm vv : p_train p = true -> prm_ok (tsh (p_data p)) p -> find_key (fst s) k = Some mm -> find_key (snd s) k = Some vv ->
  length (tdat mm) = tot (p_data p) -> length (tdat vv) = tot (p_data p) ->
  let w := tdat (p_data p) in let g := tdat (p_grad p) in
  let m' := tab (tot (p_data p)) (fun i => ev (arrays [tdat mm; g; [1 - b1]]) (adam_m_ex b1 i)) in
  let v' := tab (tot (p_data p)) (fun i => ev (arrays [tdat vv; g; [1 - b2]]) (adam_v_ex b2 i)) in
  adam_one lr b1 b2 eps t k p s =
    Ok (set_weight p (tab (tot (p_data p)) (fun i => ev (arrays [w; m'; v'; [1 - b1 ^ t]; [1 - b2 ^ t]]) (adam_w_ex lr eps i))),
        (set_key (fst s) k (set_dat mm m'), set_key (snd s) k (set_dat vv v'))).
Proof.
  intros T Hp F1 F2 L1 L2 w g m' v'. unfold adam_one. rewrite T. rewrite (proj1 (proj2 (proj2 Hp))), nshape_refl. cbn [dw_assert bind]. pose proof (prm_tot p Hp) as HT.
  destruct s as [sm sv]. cbn [fst snd] in *. unfold at_key. rewrite F1. cbn [bind]. rewrite F2. cbn [bind]. rewrite !emap_Ok by (unfold tot in *; lia). cbn [bind]. rewrite HT.
  rewrite !P_Optim.put_full by (unfold tot in *; lia). reflexivity.
Qed.

(** ** Every step has a result *)
Section Exist.
Variable lib : flt -> flt -> Prop.
Hypothesis LT : forall a, exists r, lib a r.

Lemma momentum_ex gamma lr n w g v : exists w' v', fmomentum lib gamma lr n w g v w' v'.
Proof.
  destruct (choose n (fun p r => fev lib (among [w; g; v]) (momentum_v_ex gamma lr p) r)) as (v' & V); [intros p _; apply (fev_ex lib LT); cbn; auto|].
  destruct (choose n (fun p r => fev lib (among [w; g; v']) (momentum_w_ex p) r)) as (w' & W); [intros p _; apply (fev_ex lib LT); cbn; auto|].
  exists w', v'. split; assumption.
Qed.
Lemma momentums_ex gamma lr n : forall gs w v, exists w' v', fmomentums lib gamma lr n gs w v w' v'.
Proof.
  induction gs as [|g gs IH]; intros w v; [exists w, v; split; reflexivity|]. destruct (momentum_ex gamma lr n w g v) as (w1 & v1 & S). destruct (IH w1 v1) as (w' & v' & R0).
  exists w', v', w1, v1. split; assumption.
Qed.
Lemma adam_w_some lr b1 b2 eps c1 c2 n w g m v v' o2 : fsub (Fin 1) (Fin b2) o2 ->
  (forall p, (p < n)%nat -> fev lib (among [v; g; fun _ => o2]) (adam_v_ex b2 p) (v' p)) -> exists w' m', fadam lib lr b1 b2 eps c1 c2 n w g m v w' m' v'.
Proof.
  intros O2 V. destruct (fadd_ex (Fin 1) (fopp (Fin b1))) as (o1 & O1).
  destruct (choose n (fun p r => fev lib (among [m; g; fun _ => o1]) (adam_m_ex b1 p) r)) as (m' & M); [intros p _; apply (fev_ex lib LT); cbn; auto|].
  destruct (choose n (fun p r => fev lib (among [w; m'; v'; fun _ => c1; fun _ => c2]) (adam_w_ex lr eps p) r)) as (w' & W); [intros p _; apply (fev_ex lib LT); cbn; auto 10|].
  exists w', m', o1, o2. tauto.
Qed.
Lemma adam_ex lr b1 b2 eps c1 c2 n w g m v : exists w' m' v', fadam lib lr b1 b2 eps c1 c2 n w g m v w' m' v'.
Proof.
  destruct (fadd_ex (Fin 1) (fopp (Fin b2))) as (o2 & O2).
  destruct (choose n (fun p r => fev lib (among [v; g; fun _ => o2]) (adam_v_ex b2 p) r)) as (v' & V); [intros p _; apply (fev_ex lib LT); cbn; auto|].
  destruct (adam_w_some lr b1 b2 eps c1 c2 n w g m v v' o2 O2 V) as (w' & m' & A). exists w', m', v'. exact A.
Qed.
Lemma adams_ex lr b1 b2 eps n : forall gs cs w m v, length cs = length gs -> exists w' m' v', fadams lib lr b1 b2 eps n cs gs w m v w' m' v'.
Proof.
  induction gs as [|g gs IH]; intros [|k cs] w m v L; try discriminate; [exists w, m, v; cbn; auto|]. injection L as L.
  destruct (adam_ex lr b1 b2 eps (fst k) (snd k) n w g m v) as (w1 & m1 & v1 & S). destruct (IH cs w1 m1 v1 L) as (w' & m' & v' & R0).
  exists w', m', v', w1, m1, v1. split; assumption.
Qed.
(** A gradient whose square overflows. *)
Lemma overflows lr b1 b2 eps c1 c2 w m y : 0 < b2 <= 1 - / 2 ^ 24 -> top < y * y ->
  exists w' m' v', fadam lib lr b1 b2 eps c1 c2 1 w (fun _ => Fin y) m (fun _ => Fin 0) w' m' v' /\ v' 0%nat = Inf false.
Proof.
  intros B2 Y. destruct (fadd_ex (Fin 1) (fopp (Fin b2))) as (o2 & O2). destruct (complement_pos _ _ B2 O2) as (o & -> & PO).
  destruct (adam_w_some lr b1 b2 eps c1 c2 1 w (fun _ => Fin y) m (fun _ => Fin 0) (fun _ => Inf false) (Fin o) O2) as (w' & m' & A); [|exists w', m', (fun _ => Inf false); split; [exact A|reflexivity]].
  intros p _. exists (Fin (b2 * 0)), (Inf false). split; [|split; [|reflexivity]].
  - exists (Fin b2), (Fin 0). split; [reflexivity|]. split; [reflexivity|]. right. reflexivity.
  - exists (Fin o), (Inf false). split; [reflexivity|]. split.
    + exists (Fin y), (Fin y). split; [reflexivity|]. split; [reflexivity|]. left. pose proof top_pos. split; [rewrite Rabs_right; lra|lra].
    + cbn. destruct (Req_EM_T o 0); [lra|]. unfold ltb. destruct (Rlt_dec o 0); [lra|reflexivity].
Qed.
End Exist.

(** ** Numbers with room *)
Lemma small_numbers : eps32 = / 8388608 /\ 0 < tiny32 <= / 1048576 /\ 2 ^ 127 <= top.
Proof.
  split; [unfold eps32; f_equal; lra|]. split; [|exact top_big]. split; [exact tiny32_pos|]. unfold tiny32. replace 1048576 with (2 ^ 20) by lra.
  apply Rinv_le_contravar; [apply pow_lt; lra|]. apply Rle_pow; [lra|lia].
Qed.
Lemma exact_complement b r : isf (1 - b) -> fsub (Fin 1) (Fin b) r -> r = Fin (1 - b).
Proof.
  intros F S. destruct (sub_fin _ _ _ (Rabs (1 - b)) S) as (z & -> & R0 & _); [lra|apply isf_le_top, F|]. f_equal. exact (rounds_self _ _ F R0).
Qed.
Lemma mean_room_case k : (k <= 76)%nat -> mean_room (/ 1024) (7 / 8) (/ 1024) (2 ^ k) (2 * 2 ^ k).
Proof.
  intros K. destruct small_numbers as (E & T & TB). exists (/ 8).
  assert (P : 1 <= 2 ^ k) by (apply pow_R1_Rle; lra).
  assert (Q : 2 ^ k <= 2 ^ 76) by (apply Rle_pow; [lra|exact K]).
  assert (B : 2 ^ 127 = 2 ^ 76 * 2251799813685248) by (replace 127%nat with (76 + 51)%nat by reflexivity; rewrite pow_add; f_equal; lra).
  rewrite B in TB. set (X := 2 ^ 76) in *. set (Y := 2 ^ k) in *. clearbody X Y.
  split; [intros r S; replace (/ 8) with (1 - 7 / 8) by lra; apply exact_complement; [replace (1 - 7 / 8) with (/ 2 ^ 3) by (replace (2 ^ 3) with 8 by lra; lra); apply isf_inv2; lia|exact S]|].
  unfold settles, grown. rewrite !Rabs_right by lra. rewrite E. split; [split; [lra|]; split; [lra|]; split; lra|]. split; [lra|]. split; lra.
Qed.
Lemma adam_room_case : adam_room (/ 1024) (7 / 8) (1023 / 1024) (/ 2 ^ 27) (/ 1024) 1 2 2.
Proof.
  pose proof (mean_room_case 0 ltac:(lia)) as MR. cbn [pow] in MR. replace (2 * 1) with 2 in MR by ring. destruct small_numbers as (E & T & TB).
  assert (B : 2 ^ 127 = 2 ^ 77 * 1125899906842624) by (replace 127%nat with (77 + 50)%nat by reflexivity; rewrite pow_add; f_equal; lra).
  assert (P : 1 <= 2 ^ 77) by (apply pow_R1_Rle; lra). assert (TB' : 1125899906842624 <= top) by lra. clear B P TB.
  assert (EP : / 2 ^ 27 = / 134217728) by (f_equal; lra).
  assert (SQ : 0 <= sqrt (grown (2 / / 1024)) <= 64).
  { split; [apply sqrt_pos|]. replace 64 with (sqrt (64 * 64)) by (apply sqrt_square; lra). apply sqrt_le_1; unfold grown; rewrite ?E; lra. }
  split; [exact MR|]. split; [lra|]. split; [rewrite EP; lra|]. split; [apply isf_inv2; lia|]. split; [lra|]. split.
  - exists (/ 1024). split; [|split; [|lra]].
    + intros r S. replace (/ 1024) with (1 - 1023 / 1024) by lra. apply exact_complement; [|exact S]. replace (1 - 1023 / 1024) with (/ 2 ^ 10) by (replace (2 ^ 10) with 1024 by lra; lra). apply isf_inv2. lia.
    + unfold settles, grown. rewrite !Rabs_right by lra. rewrite E. split; [lra|]. split; [lra|]. split; lra.
  - split; [lra|]. split; [unfold grown; rewrite E; lra|]. split.
    + rewrite EP. set (q := sqrt (grown (2 / / 1024))) in *. clearbody q. unfold grown. rewrite E. lra.
    + rewrite EP. unfold grown. rewrite Rabs_right by lra. rewrite E. lra.
Qed.
