(** Accuracy of the loss and of the gradients at the logits. *)
From Coq Require Import Reals Lia Lra Permutation.
From Verif Require Import Base BaseFacts Sums S_Float M_Im2col M_Kernels M_Conv M_Layers M_Optim M_Nn M_Graph M_Model M_Backend M_Round S_Round P_Round M_Ieee S_Ieee
  P_Ieee P_Ieee2 P_Ieee3 P_Ieee7.
Open Scope R_scope.

(** Sums of which all terms but one are zero. *)
Lemma fadd_zero_l x r : isf x -> fadd (Fin 0) (Fin x) r -> r = Fin x.
Proof. intros F A. cbn in A. rewrite Rplus_0_l in A. destruct (rnd_fin x r (isf_le_top x F) A) as (y & -> & Ry & _). f_equal. exact (rounds_self x y F Ry). Qed.
Lemma fadded_zero t r : (forall x, In x (fleaves t) -> x = Fin 0) -> fadded t r -> r = Fin 0.
Proof.
  revert r. induction t as [x|a IHa b IHb]; intros r Z A; cbn in *; [rewrite A; apply Z; auto|]. destruct A as (x & y & Ax & Ay & S).
  rewrite (IHa x (fun z Hz => Z z (in_or_app _ _ _ (or_introl Hz))) Ax), (IHb y (fun z Hz => Z z (in_or_app _ _ _ (or_intror Hz))) Ay) in S. exact (fadd_zero_l 0 r isf_0 S).
Qed.
Lemma fadded_one t r P l1 l2 : Rabs P <= top -> fleaves t = (l1 ++ Fin P :: l2)%list -> (forall x, In x l1 -> x = Fin 0) -> (forall x, In x l2 -> x = Fin 0) -> fadded t r ->
  exists s, r = Fin s /\ (s = P \/ rounds P s).
Proof.
  intros TP. revert r l1 l2. induction t as [x|a IHa b IHb]; intros r l1 l2 E Z1 Z2 A; cbn in *.
  - destruct l1 as [|y l1]; [|destruct l1; discriminate]. injection E as E _. subst. eauto.
  - destruct A as (x & y & Ax & Ay & S).
    assert (C : (exists l, fleaves a = l1 ++ Fin P :: l /\ l2 = l ++ fleaves b)%list \/ (exists l, l1 = fleaves a ++ l /\ fleaves b = l ++ Fin P :: l2)%list).
    { clear - E. revert l1 E. induction (fleaves a) as [|z la IH]; intros l1 E; [right; exists l1; auto|]. destruct l1 as [|z' l1]; cbn in E.
      - injection E as -> E. left. exists la. auto.
      - injection E as -> E. destruct (IH l1 E) as [(l & -> & ->)|(l & -> & F)]; [left; exists l; auto|right; exists l; auto]. }
    destruct C as [(l & Ea & ->)|(l & -> & Eb)].
    + destruct (IHa x l1 l Ea Z1 (fun z Hz => Z2 z (in_or_app _ _ _ (or_introl Hz))) Ax) as (s & -> & Hs).
      rewrite (fadded_zero b y (fun z Hz => Z2 z (in_or_app _ _ _ (or_intror Hz))) Ay) in S. cbn in S. rewrite Rplus_0_r in S.
      destruct Hs as [->|Rs].
      * destruct (rnd_fin P r TP S) as (w & -> & Rw & _). eauto.
      * destruct (rnd_fin s r (isf_le_top s (rounds_isf _ _ Rs)) S) as (w & -> & Rw & _). rewrite (rounds_self s w (rounds_isf _ _ Rs) Rw). eauto.
    + destruct (IHb y l l2 Eb (fun z Hz => Z1 z (in_or_app _ _ _ (or_intror Hz))) Z2 Ay) as (s & -> & Hs).
      rewrite (fadded_zero a x (fun z Hz => Z1 z (in_or_app _ _ _ (or_introl Hz))) Ax) in S. cbn in S. rewrite Rplus_0_l in S.
      destruct Hs as [->|Rs].
      * destruct (rnd_fin P r TP S) as (w & -> & Rw & _). eauto.
      * destruct (rnd_fin s r (isf_le_top s (rounds_isf _ _ Rs)) S) as (w & -> & Rw & _). rewrite (rounds_self s w (rounds_isf _ _ Rs) Rw). eauto.
Qed.
Lemma seq_from s j k : seq (s + j) k = map (fun x => (s + x)%nat) (seq j k).
Proof. revert j. induction k as [|k IH]; intros j; [reflexivity|]. cbn [seq map]. f_equal. rewrite <- IH. f_equal. lia. Qed.
Lemma tab_split {A} n (f : nat -> A) c : (c < n)%nat -> tab n f = (tab c f ++ f c :: tab (n - S c) (fun k => f (S c + k)%nat))%list.
Proof.
  intros H. unfold tab. rewrite <- (map_map (fun k => (S c + k)%nat) f), <- seq_from, Nat.add_0_r.
  replace (seq 0 n) with (seq 0 c ++ c :: seq (S c) (n - S c))%list; [rewrite map_app; reflexivity|].
  change (c :: seq (S c) (n - S c))%list with (seq c (S (n - S c))). replace (seq c) with (seq (0 + c)) by reflexivity. rewrite <- seq_app. f_equal. lia.
Qed.
Lemma fsummed_one n xs r P c : (c < n)%nat -> Rabs P <= top -> xs c = Fin P -> (forall k, (k < n)%nat -> k <> c -> xs k = Fin 0) -> fsummed (tab n xs) r ->
  exists s, r = Fin s /\ (s = P \/ rounds P s).
Proof.
  intros Hc TP EC Z S. assert (T : exists t, Permutation (tab n xs) (fleaves t) /\ fadded t r).
  { unfold fsummed in S. destruct (tab n xs) eqn:E; [apply (f_equal (@length _)) in E; rewrite tab_length in E; cbn in E; lia|exact S]. }
  destruct T as (t & PM & A). rewrite (tab_split n xs c Hc), EC in PM. assert (IP : In (Fin P) (fleaves t)) by (apply (Permutation_in _ PM), in_elt).
  destruct (in_split _ _ IP) as (l1 & l2 & E). rewrite E in PM. apply Permutation_app_inv in PM.
  assert (ZZ : forall x, In x (l1 ++ l2) -> x = Fin 0).
  { intros x Hx. apply (Permutation_in _ (Permutation_sym PM)) in Hx. apply in_app_or in Hx. unfold tab in Hx. rewrite !in_map_iff in Hx.
    destruct Hx as [(k & <- & Hk)|(k & <- & Hk)]; apply in_seq in Hk; apply Z; lia. }
  apply (fadded_one t r P l1 l2 TP E); [intros x Hx; apply ZZ, in_or_app; auto|intros x Hx; apply ZZ, in_or_app; auto|exact A].
Qed.

(** One operation, scaled by [n]: an error of [e] becomes one of [e + 3 * eps32]. *)
Lemma eps_small : 0 < eps32 <= / 1024.
Proof. split; [exact eps32_pos|]. unfold eps32. apply Rinv_le_contravar; [lra|]. replace 1024 with (2 ^ 10) by ring. apply Rle_pow; [lra|lia]. Qed.
Lemma near_scaled x y n a e : 0 <= n -> tiny32 * n <= eps32 -> Rabs a <= 1 -> e <= / 2 -> Rabs (x * n - a) <= e -> near eps32 tiny32 x y -> Rabs (y * n - a) <= e + 3 * eps32.
Proof.
  intros N0 TN A EH X NR. unfold near in NR. destruct eps_small as [E0 E1]. replace (y * n - a) with ((y - x) * n + (x * n - a)) by ring.
  eapply Rle_trans; [apply Rabs_triang|]. rewrite Rabs_mult, (Rabs_right n) by lra.
  assert (XN : Rabs x * n <= 3 / 2). { replace (Rabs x * n) with (Rabs (x * n)) by (rewrite Rabs_mult, (Rabs_right n) by lra; reflexivity). replace (x * n) with ((x * n - a) + a) by ring. eapply Rle_trans; [apply Rabs_triang|]. lra. }
  assert (Rabs (y - x) * n <= (eps32 * Rabs x + tiny32) * n) by (apply Rmult_le_compat_r; lra). assert (eps32 * (Rabs x * n) <= eps32 * (3 / 2)) by (apply Rmult_le_compat_l; lra). nra.
Qed.
Lemma near_id x : near eps32 tiny32 x x.
Proof. unfold near. replace (x - x) with 0 by ring. rewrite Rabs_R0. pose proof eps32_pos. pose proof tiny32_pos. pose proof (Rabs_pos x). nra. Qed.
Lemma mul_near x y r : Rabs (x * y) <= top -> fmul (Fin x) (Fin y) r -> exists z, r = Fin z /\ near eps32 tiny32 (x * y) z.
Proof. intros T [R0| ->]; [destruct (rnd_fin _ _ T R0) as (z & -> & _ & N); eauto|]. exists (x * y). split; [reflexivity|apply near_id]. Qed.

Section Accuracy.
Variable lib : flt -> flt -> Prop.
Variables rows m : nat.
Variable label : nat -> nat.
Hypothesis R0 : (0 < rows)%nat.
Hypothesis RL : (rows <= 2 ^ 23)%nat.
Let n := INR rows.

Lemma n_range : 1 <= n <= 2 ^ 23.
Proof. clear label m lib. unfold n. split; [apply (le_INR 1); lia|]. apply le_INR in RL. rewrite pow_INR in RL. cbn [INR] in RL. replace (1 + 1) with 2 in RL by ring. exact RL. Qed.
Lemma tiny_n : tiny32 * n <= eps32.
Proof.
  clear label m lib.
  pose proof n_range as N. pose proof tiny32_pos. apply Rle_trans with (tiny32 * 2 ^ 23); [apply Rmult_le_compat_l; lra|].
  unfold tiny32, eps32. replace 149%nat with (23 + (23 + 103))%nat by lia. rewrite !pow_add. assert (P : 0 < 2 ^ 23) by (apply pow_lt; lra). assert (Q : 1 <= 2 ^ 103) by (apply pow_R1_Rle; lra).
  rewrite !Rinv_mult. assert (/ 2 ^ 103 <= 1) by (rewrite <- Rinv_1; apply Rinv_le_contravar; lra). assert (0 < / 2 ^ 23) by (apply Rinv_0_lt_compat; exact P).
  replace (/ 2 ^ 23 * (/ 2 ^ 23 * / 2 ^ 103) * 2 ^ 23) with (/ 2 ^ 23 * / 2 ^ 103) by (field; lra). nra.
Qed.
Lemma small_top x : Rabs x <= 1000 * 2 ^ 23 -> Rabs x <= top.
Proof. clear label m lib n R0 RL rows. intros H. pose proof top_big. assert (2 ^ 33 <= 2 ^ 127) by (apply Rle_pow; [lra|lia]). replace (2 ^ 33) with (1024 * 2 ^ 23) in * by (replace 1024 with (2 ^ 10) by ring; rewrite <- pow_add; reflexivity). assert (0 < 2 ^ 23) by (apply pow_lt; lra). lra. Qed.

(** The gradient at the labelled prediction [y]. *)
Lemma loss_grad_accurate v p g y : (p mod m)%nat = label (p / m)%nat -> v 0%nat p = Fin y -> / 2 ^ 124 <= y <= 1 -> fev lib v (loss_grad_ex rows m label p) g ->
  exists x, g = Fin x /\ Rabs x <= 2 ^ 124 /\ Rabs (x * (y * n) - -1) <= 6 * eps32.
Proof.
  intros EQ Ey Y F. destruct (loss_grad_label lib label rows m R0 RL v p g y EQ Ey Y F) as (x0 & Ex & XB & _). exists x0. split; [exact Ex|]. split; [exact XB|]. subst g.
  destruct F as (x & nn & X & N & D). rewrite EQ, Nat.eqb_refl in X. destruct X as (a & b & -> & B & Q). cbn in B, N. rewrite Ey in B. subst b. cbn in Q.
  assert (P124 : 0 < 2 ^ 124) by (apply pow_lt; lra). assert (I124 : 0 < / 2 ^ 124) by (apply Rinv_0_lt_compat; exact P124).
  destruct (Req_EM_T y 0) as [C|_]; [lra|]. assert (YI : 0 < / y) by (apply Rinv_0_lt_compat; lra).
  assert (YL : / y <= 2 ^ 124) by (rewrite <- (Rinv_inv (2 ^ 124)); apply Rinv_le_contravar; lra).
  assert (T124 : 2 ^ 124 <= top) by (pose proof top_big; assert (2 ^ 124 <= 2 ^ 127) by (apply Rle_pow; [lra|lia]); lra).
  assert (A1 : -1 / y = - / y) by (unfold Rdiv; ring).
  pose proof n_range as NR. pose proof tiny_n as TN. pose proof tiny32_pos as T0. destruct eps_small as [E0 E1].
  destruct (rnd_fin (-1 / y) x) as (z & -> & Rz & Nz); [rewrite A1, Rabs_Ropp, Rabs_right by lra; lra|exact Q|].
  assert (F124 : isf (2 ^ 124)) by (apply isf_pow2; lia).
  assert (ZB : Rabs z <= 2 ^ 124).
  { apply Rabs_le. split; [apply (rounds_ge _ _ _ Rz (isf_opp _ F124)); lra|apply (rounds_le _ _ _ Rz F124); lra]. }
  rewrite (int_fin rows nn (le_24 _ RL) N) in D. cbn in D. fold n in D. destruct (Req_EM_T n 0) as [C|_]; [lra|].
  assert (IN : 0 < / n <= 1) by (split; [apply Rinv_0_lt_compat; lra|rewrite <- Rinv_1; apply Rinv_le_contravar; lra]).
  assert (DZ : Rabs (z / n) <= Rabs z) by (unfold Rdiv; rewrite Rabs_mult, (Rabs_right (/ n)) by lra; pose proof (Rabs_pos z); nra).
  destruct (rnd_fin (z / n) (Fin x0)) as (w & Ew & _ & Nw); [lra|exact D|]. injection Ew as <-.
  assert (ZE : Rabs (z * y - -1) <= 0 + 3 * eps32).
  { apply (near_scaled (-1 / y) z y (-1) 0); [lra| |rewrite Rabs_left; lra|lra| |exact Nz]; [assert (y <= n) by lra; nra|]. replace (-1 / y * y - -1) with 0 by (field; lra). rewrite Rabs_R0. lra. }
  eapply Rle_trans; [apply (near_scaled (z / n) x0 (y * n) (-1) (3 * eps32)); [nra| |rewrite Rabs_left; lra|lra| |exact Nw]|lra].
  - apply Rle_trans with (tiny32 * n); [apply Rmult_le_compat_l; nra|exact TN].
  - replace (z / n * (y * n)) with (z * y) by (field; lra). lra.
Qed.

(** Element [p] of the gradient at the logits: the predictions are [o], the gradient of the loss [g]. *)
Lemma softmax_grad_accurate (o g : nat -> R) p r c : (c < m)%nat ->
  (forall k, (k < m)%nat -> 0 <= o (p / m * m + k)%nat <= 1) -> (forall k, (k < m)%nat -> k <> c -> g (p / m * m + k)%nat = 0) ->
  Rabs (g (p / m * m + c)%nat) <= 2 ^ 124 -> Rabs (g (p / m * m + c)%nat * (o (p / m * m + c)%nat * n) - -1) <= 6 * eps32 ->
  fev lib (fun a i => Fin (match a with 0%nat => o i | 1%nat => g i | _ => 0 end)) (softmax_grad_ex m p) r ->
  exists x, r = Fin x /\ Rabs (x * n - (o p - if (p mod m =? c)%nat then 1 else 0)) <= 32 * eps32.
Proof.
  clear label. intros Hc O GZ GB GO F. assert (M0 : (0 < m)%nat) by lia. assert (Q : (p mod m < m)%nat) by (apply Nat.mod_upper_bound; lia).
  set (i := (p / m)%nat) in *. assert (Ep : p = (i * m + p mod m)%nat) by (unfold i; rewrite (Nat.mul_comm (p / m)); apply Nat.div_mod; lia).
  set (G := g (i * m + c)%nat) in *. set (Y := o (i * m + c)%nat) in *. pose proof (O c Hc) as Yc. fold Y in Yc.
  pose proof n_range as NR. pose proof tiny_n as TN. pose proof tiny32_pos as T0. destruct eps_small as [E0 E1]. assert (P23 : 0 < 2 ^ 23) by (apply pow_lt; lra).
  assert (T127 : 2 ^ 127 <= top) by exact top_big.
  assert (P124 : 2 ^ 124 * 8 = 2 ^ 127) by (replace 8 with (2 ^ 3) by ring; rewrite <- pow_add; reflexivity).
  assert (P4 : 512 <= 2 ^ 124) by (replace 512 with (2 ^ 9) by ring; apply Rle_pow; [lra|lia]).
  (* a number [x] with [x * n] near [a] is at most 2 *)
  assert (SM : forall x a e, Rabs a <= 1 -> e <= 1 -> Rabs (x * n - a) <= e -> Rabs x <= 2).
  { intros x a e A1 L H. assert (X2 : Rabs x * n <= 2). { replace (Rabs x * n) with (Rabs (x * n)) by (rewrite Rabs_mult, (Rabs_right n) by lra; reflexivity). replace (x * n) with ((x * n - a) + a) by ring. eapply Rle_trans; [apply Rabs_triang|]. lra. }
    pose proof (Rabs_pos x). nra. }
  destruct F as (z0 & q & Z0 & (op & d & Op & (gp & s & Gp & (xs & XS & SU) & SB) & ML) & AD). cbn in Z0, Op, Gp. subst z0 op gp.
  assert (A1' : Rabs (-1) <= 1) by (rewrite Rabs_left; lra).
  (* the sum *)
  assert (XZ : forall k, (k < m)%nat -> k <> c -> xs k = Fin 0).
  { intros k Hk NE. destruct (XS k Hk) as (a & b & -> & -> & ML'). cbv beta in ML'. fold i in ML'. rewrite (GZ k Hk NE) in ML'. destruct ML' as [RR|E]; [|rewrite Rmult_0_l in E; exact E]. rewrite Rmult_0_l in RR. exact (rnd_zero _ RR). }
  destruct (XS c Hc) as (a & b & -> & -> & MLc). fold i in MLc. fold G Y in MLc.
  assert (GY : Rabs (G * Y * n - -1) <= 6 * eps32) by (replace (G * Y * n) with (G * (Y * n)) by ring; exact GO).
  destruct (mul_near G Y (xs c)) as (P & EP & NP); [pose proof (SM (G * Y) (-1) (6 * eps32) A1' ltac:(lra) GY); lra|exact MLc|].
  assert (PE : Rabs (P * n - -1) <= 9 * eps32) by (eapply Rle_trans; [apply (near_scaled (G * Y) P n (-1) (6 * eps32)); try assumption; lra|lra]).
  destruct (fsummed_one m xs s P c Hc) as (s' & -> & HS); [pose proof (SM P (-1) (9 * eps32) A1' ltac:(lra) PE); lra|exact EP|exact XZ|exact SU|].
  assert (NS : near eps32 tiny32 P s').
  { destruct HS as [->|RS]; [apply near_id|]. destruct (rnd_fin P (Fin s')) as (s2 & E2 & _ & N2); [pose proof (SM P (-1) (9 * eps32) A1' ltac:(lra) PE); lra|exact RS|]. injection E2 as <-. exact N2. }
  assert (SE : Rabs (s' * n - -1) <= 12 * eps32) by (eapply Rle_trans; [apply (near_scaled P s' n (-1) (9 * eps32)); try assumption; lra|lra]).
  pose proof (SM s' (-1) (12 * eps32) A1' ltac:(lra) SE) as S2.
  (* the product *)
  assert (QE : exists q', q = Fin q' /\ Rabs (q' * n - (o p - if (p mod m =? c)%nat then 1 else 0)) <= 29 * eps32).
  { unfold fsub in SB. cbn in SB. destruct (Nat.eqb_spec (p mod m) c) as [EC|NC].
    - assert (Epc : p = (i * m + c)%nat) by (rewrite <- EC; exact Ep). assert (EG : g p = G) by (unfold G; rewrite Epc; reflexivity). assert (EY : o p = Y) by (unfold Y; rewrite Epc; reflexivity).
      replace (o p) with Y by (unfold Y; rewrite Epc; reflexivity). rewrite EG in SB. rewrite EY in ML.
      assert (DB : Rabs (G + - s') <= 2 ^ 124 + 2) by (eapply Rle_trans; [apply Rabs_triang|]; rewrite Rabs_Ropp; lra).
      destruct (rnd_fin (G + - s') d) as (d' & -> & _ & ND); [lra|exact SB|].
      assert (YN : Rabs (Y - 1) <= 1) by (apply Rabs_le; lra).
      assert (DE : Rabs ((G + - s') * (Y * n) - (Y - 1)) <= 18 * eps32).
      { replace ((G + - s') * (Y * n) - (Y - 1)) with ((G * (Y * n) - -1) + - (Y * (s' * n - -1))) by ring. eapply Rle_trans; [apply Rabs_triang|].
        rewrite Rabs_Ropp, Rabs_mult, (Rabs_right Y) by lra. pose proof (Rabs_pos (s' * n - -1)). nra. }
      assert (YT : tiny32 * (Y * n) <= eps32) by (apply Rle_trans with (tiny32 * n); [apply Rmult_le_compat_l; nra|exact TN]).
      assert (DE' : Rabs (d' * (Y * n) - (Y - 1)) <= 21 * eps32).
      { eapply Rle_trans; [apply (near_scaled (G + - s') d' (Y * n) (Y - 1) (18 * eps32)); try assumption; [nra|lra]|lra]. }
      assert (DY : Rabs (Y * d' * n - (Y - 1)) <= 21 * eps32) by (replace (Y * d' * n) with (d' * (Y * n)) by ring; exact DE').
      destruct (mul_near Y d' q) as (q' & -> & NQ); [pose proof (SM (Y * d') (Y - 1) (21 * eps32) YN ltac:(lra) DY); lra|exact ML|]. exists q'. split; [reflexivity|].
      eapply Rle_trans; [apply (near_scaled (Y * d') q' n (Y - 1) (21 * eps32)); try assumption; lra|lra].
    - assert (Ob : 0 <= o p <= 1) by (rewrite Ep; apply O, Q). assert (Gp : g p = 0) by (rewrite Ep; apply GZ; assumption). rewrite Rminus_0_r.
      rewrite Gp, Rplus_0_l in SB.
      destruct (rnd_fin (- s') d) as (d' & -> & _ & ND); [rewrite Rabs_Ropp; lra|exact SB|].
      assert (DE : Rabs (d' * n - 1) <= 15 * eps32).
      { eapply Rle_trans; [apply (near_scaled (- s') d' n 1 (12 * eps32)); try assumption; [lra|rewrite Rabs_R1; lra|lra|]|lra].
        replace (- s' * n - 1) with (- (s' * n - -1)) by ring. rewrite Rabs_Ropp. exact SE. }
      assert (OD : Rabs (o p * d' * n - o p) <= 15 * eps32).
      { replace (o p * d' * n - o p) with (o p * (d' * n - 1)) by ring. rewrite Rabs_mult, (Rabs_right (o p)) by lra. pose proof (Rabs_pos (d' * n - 1)). nra. }
      assert (OA : Rabs (o p) <= 1) by (rewrite Rabs_right; lra).
      destruct (mul_near (o p) d' q) as (q' & -> & NQ); [pose proof (SM (o p * d') (o p) (15 * eps32) OA ltac:(lra) OD); lra|exact ML|]. exists q'. split; [reflexivity|].
      eapply Rle_trans; [apply (near_scaled (o p * d') q' n (o p) (15 * eps32)); try assumption; lra|lra]. }
  destruct QE as (q' & -> & QE). cbn in AD. rewrite Rplus_0_l in AD.
  assert (OI : Rabs (o p - if (p mod m =? c)%nat then 1 else 0) <= 1) by (assert (0 <= o p <= 1) by (rewrite Ep; apply O, Q); destruct (p mod m =? c)%nat; apply Rabs_le; lra).
  destruct (rnd_fin q' r) as (x & -> & _ & NX); [pose proof (SM q' _ (29 * eps32) OI ltac:(lra) QE); lra|exact AD|]. exists x. split; [reflexivity|].
  eapply Rle_trans; [apply (near_scaled q' x n _ (29 * eps32)); try eassumption; lra|lra].
Qed.
End Accuracy.
