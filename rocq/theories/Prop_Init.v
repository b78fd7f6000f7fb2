(** Property C50: initializers fill exactly the tensor. *)
From Coq Require Import Reals Lra.
From Verif Require Import Base S_Tensor M_Tensor S_Heap P_Tensor M_Init.
Open Scope R_scope.

(** What is assumed of std::uniform_real_distribution: numbers in the half-open interval. *)
Definition uniform_contract (dist : R -> R -> nat -> R) : Prop :=
  forall lo hi k, lo < hi -> lo <= dist lo hi k < hi.

(** The call succeeded, variable [x] now holds [vs], and nothing else changed. *)
Definition filled (h : heap R) (x : nat) (r : st (heap R)) (vs : list R) : Prop :=
  exists h', r = Ret h' /\ contents h' x = Ok vs /\ h_vars h' = h_vars h /\ h_descs h' = h_descs h /\
    (forall b i, ~ covers h x b i -> cell h' b i = cell h b i).

Theorem C50_zeros_and_constant :
  forall (h : heap R) (x k : nat) (d : desc) (v : R),
  reachable h -> accessible h x -> denotes h x k d ->
  filled h x (init_zeros h x) (repeat 0 (Z.to_nat (d_total d))) /\
  filled h x (init_constant h x v) (repeat v (Z.to_nat (d_total d))).
Proof.
  intros h x k d v Hr Ha Hd. split; exact (fill_spec h x k d _ (reachable_wf h Hr) Ha Hd).
Qed.
Print Assumptions C50_zeros_and_constant.

Theorem C50_uniform :
  forall (dist : R -> R -> nat -> R) (h : heap R) (x k : nat) (d : desc) (lo hi : R),
  uniform_contract dist -> reachable h -> accessible h x -> denotes h x k d -> lo < hi ->
  exists vs, filled h x (init_uniform dist h x lo hi) vs /\ length vs = Z.to_nat (d_total d) /\
    Forall (fun v => lo <= v < hi) vs.
Proof.
  intros dist h x k d lo hi Hc Hr Ha Hd Hl. unfold init_uniform, draw_all. destruct (Rle_dec lo hi) as [_|N]; [|lra].
  eexists. split; [exact (generate_spec h x k d _ (reachable_wf h Hr) Ha Hd)|]. split; [apply BaseFacts.tab_length|].
  apply Forall_forall. intros v Hv. apply in_map_iff in Hv. destruct Hv as (j & <- & _). apply Hc. exact Hl.
Qed.
Print Assumptions C50_uniform.

(** The two counts of xavierUniform: rows and columns of a matrix, otherwise elements per slice and slices. *)
Definition xavier_counts (s : shape) (i o : Z) : Prop :=
  (exists a b, s = [a; b] /\ i = a /\ o = b) \/
  (exists a t, s = a :: t /\ length t <> 1%nat /\ i = prodZ t /\ o = a).

Theorem C50_xavier_uniform :
  forall (dist : R -> R -> nat -> R) (h : heap R) (x k : nat) (d : desc) (i o : Z),
  uniform_contract dist -> reachable h -> accessible h x -> denotes h x k d ->
  nonneg (d_shape d) -> xavier_counts (d_shape d) i o -> (0 < i + o <= int_max)%Z ->
  (length (d_shape d) <> 2%nat -> (0 < o)%Z) ->
  exists vs, filled h x (init_xavier dist h x) vs /\ length vs = Z.to_nat (d_total d) /\
    Forall (fun v => Rabs v <= sqrt 6 / IZR (i + o)) vs.
Proof.
  intros dist h x k d i o Hc Hr Ha Hd Hn Hio Hs Ho.
  pose proof (reachable_wf h Hr) as Hwf.
  assert (Hf : xavier_features (d_shape d) (d_total d) = Ok (i, o)).
  { destruct Hio as [(a & b & E & -> & ->)|(a & t & E & Hl & -> & ->)].
    - rewrite E. reflexivity.
    - rewrite E in *. destruct (wf_descs h Hwf k d (proj2 Hd)) as [_ B _ _].
      destruct B as [[B _]|[B _]]; rewrite E in B; [|discriminate].
      assert (Ha0 : (0 < a)%Z) by (apply Ho; cbn; lia).
      assert (Q : (d_total d / (a mod size_mod))%Z = prodZ t).
      { rewrite B, prodZ_cons. inversion Hn as [|? ? H0 H1]; subst. pose proof (prodZ_nonneg t H1).
        rewrite Z.mod_small; [rewrite Z.mul_comm; apply Z.div_mul; lia|]. unfold size_mod. unfold int_max in Hs. lia. }
      destruct t as [|b [|c t]]; [|cbn in Hl; lia|]; unfold xavier_features; (destruct (Z.eqb_spec a 0) as [E0|_]; [lia|]);
        rewrite Q; reflexivity. }
  unfold init_xavier. apply var_desc_Ok in Hd as Hd'. rewrite Hd'. cbn [lift]. rewrite Hf. cbn [lift].
  assert (E1 : fits_int (i + o) = true) by (unfold fits_int, int_min; lia). rewrite E1. cbn [negb].
  destruct (Z.eqb_spec (i + o) 0) as [E0|_]; [lia|].
  assert (Ps : 0 < IZR (i + o)) by (apply IZR_lt; lia).
  assert (Pa : 0 < sqrt 6 / IZR (i + o)).
  { apply Rdiv_lt_0_compat; [apply sqrt_lt_R0; lra|exact Ps]. }
  unfold draw_all. destruct (Rle_dec _ _) as [_|N]; [|lra].
  eexists. split; [exact (generate_spec h x k d _ Hwf Ha Hd)|]. split; [apply BaseFacts.tab_length|].
  apply Forall_forall. intros v Hv. apply in_map_iff in Hv. destruct Hv as (j & <- & _).
  pose proof (Hc (- (sqrt 6 / IZR (i + o))) (sqrt 6 / IZR (i + o)) j ltac:(lra)). apply Rabs_le. lra.
Qed.
Print Assumptions C50_xavier_uniform.

(** Rank 0 is refused without any effect; a first dimension of zero divides by zero unless the rank is 2. *)
Theorem C50_xavier_uniform_corner_cases :
  forall (dist : R -> R -> nat -> R) (h : heap R) (x k : nat) (d : desc), denotes h x k d ->
  (d_shape d = [] -> init_xavier dist h x = Exc h) /\
  (forall t, d_shape d = 0%Z :: t -> length t <> 1%nat -> init_xavier dist h x = Bad).
Proof.
  intros dist h x k d Hd. apply var_desc_Ok in Hd. unfold init_xavier. rewrite Hd. cbn [lift]. split.
  - intros ->. reflexivity.
  - intros t ->. destruct t as [|b [|c t]]; [reflexivity|cbn; lia|reflexivity].
Qed.
Print Assumptions C50_xavier_uniform_corner_cases.

(** A generator meeting the contract, and a heap with a 2x3 matrix, a 4-element vector and a scalar. *)
Definition ex_dist (lo hi : R) (k : nat) : R := (lo + hi) / 2.
Definition ex_init : list (call R) :=
  [CNewShape [2;3]%Z true (fun _ => 7); CNewShape [4]%Z true (fun _ => 7); CNewShape [] true (fun _ => 7); CNewShape [0;2;2]%Z true (fun _ => 7)].
Definition ex_init_heap : heap R := match run heap0 ex_init with Some h => h | None => heap0 end.
Example C50_nonvacuous : uniform_contract ex_dist /\
  exists h, reachable h /\ run heap0 ex_init = Some h /\ accessible h 0 /\ accessible h 1 /\
    (exists k d, denotes h 0 k d /\ nonneg (d_shape d) /\ xavier_counts (d_shape d) 2 3 /\ d_total d = 6%Z) /\
    (exists k d, denotes h 1 k d /\ nonneg (d_shape d) /\ xavier_counts (d_shape d) 1 4 /\ d_total d = 4%Z) /\
    (exists k d, denotes h 2 k d /\ d_shape d = []) /\
    (exists k d, denotes h 3 k d /\ d_shape d = [0;2;2]%Z).
Proof.
  assert (F : forall s t, int_prod s = Ok t -> fits s) by (intros s t E; apply (int_prod_Ok s t) in E; tauto).
  split; [intros lo hi k Hl; unfold ex_dist; lra|].
  exists ex_init_heap. split; [exists ex_init; split; [|vm_compute; reflexivity]|].
  - intros cs1 c cs2 h' E Hr.
    destruct cs1 as [|c1 [|c2 [|c3 [|c4 cs1]]]]; [| | | |destruct cs1; discriminate E]; injection E; clear E; intros; subst;
      try discriminate; cbn; (split; [reflexivity|]); intros _; eapply F; reflexivity.
  - assert (E : exists js, ex_init_heap = mkHeap [0; 1; 2; 3]%nat
        [mkDesc [3;1]%Z [2;3]%Z (Some 0%nat) (Some (0, 0)%nat) 6%Z; mkDesc [1]%Z [4]%Z (Some 1%nat) (Some (1, 0)%nat) 4%Z;
         mkDesc [] [] (Some 2%nat) (Some (2, 0)%nat) 1%Z; mkDesc [4;2;1]%Z [0;2;2]%Z (Some 3%nat) (Some (3, 0)%nat) 0%Z] js)
      by (eexists; vm_compute; reflexivity).
    split; [vm_compute; reflexivity|]. destruct E as (js & ->).
    split; [do 2 eexists; split; [split; reflexivity|left; discriminate]|].
    split; [do 2 eexists; split; [split; reflexivity|left; discriminate]|].
    split; [do 2 eexists; split; [split; reflexivity|]; split; [repeat constructor; lia|];
            split; [left; do 2 eexists; repeat split|reflexivity]|].
    split; [do 2 eexists; split; [split; reflexivity|]; split; [repeat constructor; lia|];
            split; [right; do 2 eexists; repeat split; discriminate|reflexivity]|].
    split; do 2 eexists; (split; [split; reflexivity|]); reflexivity.
Qed.
