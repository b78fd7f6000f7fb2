(** Specification of a correct backward pass.

    Parameters and inputs move along arbitrary differentiable curves through the current point.
    A layer's gradients are right when, for every output gradient [go], the derivative of
    <go, output> along the curves equals <input gradients, input velocities> + <parameter gradients,
    parameter velocities>.  As the velocities are arbitrary, this determines the gradients. *)
From Coq Require Import Reals Lra.
From Verif Require Import Base Sums M_Im2col S_Im2col M_Kernels M_Conv M_Layers.
Open Scope R_scope.

(** A tensor, and a parameter with its gradient, of shape [sh]. *)
Definition ten_ok (sh : list nat) (t : ten) : Prop := tsh t = sh /\ twf t.
Definition prm_ok (sh : list nat) (p : prm) : Prop :=
  tsh (p_data p) = sh /\ twf (p_data p) /\ tsh (p_grad p) = sh /\ twf (p_grad p).

(** A member tensor of a layer: default-constructed (no shape, no elements) or consistent. *)
Definition buf_ok (t : ten) : Prop := tsh t = [] \/ twf t.
Definition ibuf_ok (t : iten) : Prop := ish t = [] \/ length (idat t) = prodN (ish t).

(** Away from the kink of the piecewise activations. *)
Definition no_zero (x : ten) : Prop := forall i, (i < tot x)%nat -> (tdat x).[i] <> 0.

(** What is assumed of Eigen's [maxCoeff(&index)]: [am n f] is an index at which [f 0 .. f (n-1)] is
    largest, and depends on these values only. *)
Definition is_argmax (am : nat -> (nat -> R) -> nat) : Prop :=
  forall n f, (0 < n)%nat -> (am n f < n)%nat /\ forall k, (k < n)%nat -> f k <= f (am n f).
Definition am_ext (am : nat -> (nat -> R) -> nat) : Prop :=
  forall n f f', (forall k, (k < n)%nat -> f k = f' k) -> am n f = am n f'.

(** A tensor of fixed shape moving along a curve, with velocity [dT] at time [t]. *)
Definition tcurve (sh : list nat) (T : R -> ten) (t : R) (dT : nat -> R) : Prop :=
  (forall s, tsh (T s) = sh /\ twf (T s)) /\
  (forall i, (i < prodN sh)%nat -> derivable_pt_lim (fun s => (tdat (T s)).[i]) t (dT i)).

(** The parameters the output depends on.  (Dropout's mask is redrawn by every training forward.) *)
Definition dparams (L : layer) : list prm :=
  match L with LDropout _ _ => [] | _ => lparams L end.

Definition with_data (p : prm) (d : list R) : prm := mkP (set_dat (p_data p) d) (p_grad p) (p_train p).

(** The layer with other parameter values. *)
Definition with_params (L : layer) (ds : list (list R)) : layer :=
  match L, ds with
  | LLinear W b, [x; y] => LLinear (with_data W x) (with_data b y)
  | LConv g W b buf, [x; y] => LConv g (with_data W x) (with_data b y) buf
  | LBN1 e a ga be std rm rv c, [x; y] => LBN1 e a (with_data ga x) (with_data be y) std rm rv c
  | LBN2 e a ga be std rm rv c ni no, [x; y] => LBN2 e a (with_data ga x) (with_data be y) std rm rv c ni no
  | _, _ => L
  end.

(** Parameter values moving along a curve. *)
Definition pcurve (L : layer) (P : R -> list (list R)) (t : R) (dP : nat -> nat -> R) : Prop :=
  (forall s, length (P s) = length (dparams L)) /\
  (forall k p, nth_error (dparams L) k = Some p ->
     (forall s, length (nth k (P s) []) = tot (p_data p)) /\
     (forall i, (i < tot (p_data p))%nat -> derivable_pt_lim (fun s => (nth k (P s) []).[i]) t (dP k i))).

(** Inputs moving along a curve. *)
Definition icurve (inshs : list (list nat)) (I : R -> list ten) (t : R) (dI : nat -> nat -> R) : Prop :=
  (forall s, length (I s) = length inshs) /\
  (forall p, (p < length inshs)%nat -> tcurve (nth p inshs []) (fun s => nth p (I s) empty_ten) t (dI p)).

(** [gm'] is [gm] with the contribution [c p] added to tensor [ids[p]], for every port [p]. *)
Definition accum (gm : list ten) (ids : list nat) (c : nat -> nat -> R) (gm' : list ten) : Prop :=
  length gm' = length gm /\
  forall k g, nth_error gm k = Some g ->
    exists g', nth_error gm' k = Some g' /\ tsh g' = tsh g /\ tot g' = tot g /\
      forall i, (i < tot g)%nat ->
        (tdat g').[i] = (tdat g).[i] + rsum (length ids) (fun p => if (nth p ids O =? k)%nat then c p i else 0).

(** BatchNorm2D writes its input gradient instead of adding to it. *)
Definition overwrites (L : layer) : bool := match L with LBN2 _ _ _ _ _ _ _ _ _ _ => true | _ => false end.

Definition all_zero (t : ten) : Prop := forall i, (i < tot t)%nat -> (tdat t).[i] = 0.

(** Gradient tensors fit for a call of backward: [gins] are the ids of the input gradients, [kout]
    the id of the output gradient [go]. *)
Definition grads_ready (L : layer) (inshs : list (list nat)) (osh : list nat)
                       (gm : list ten) (gins : list nat) (kout : nat) (go : ten) : Prop :=
  nth_error gm kout = Some go /\ tsh go = osh /\ twf go /\
  length gins = length inshs /\ ~ In kout gins /\
  forall p, (p < length inshs)%nat ->
    exists gi, nth_error gm (nth p gins O) = Some gi /\ tsh gi = nth p inshs [] /\ twf gi /\
      (overwrites L = true -> all_zero gi).

(** Forward along the curves always succeeds and its output moves differentiably; running
    updateGradients and backward after the forward pass at time [t] yields the right gradients. *)
Definition layer_vjp (E : env) (L : layer) (inshs : list (list nat)) (osh : list nat) (t : R)
                     (P : R -> list (list R)) (I : R -> list ten) : Prop :=
  forall dP dI, pcurve L P t dP -> icurve inshs I t dI ->
  exists (O : R -> ten) (L' : R -> layer) (dO : nat -> R),
    (forall s o, tsh o = osh -> twf o -> lforward E (with_params L (P s)) (I s) [o] = Ok (L' s, O s)) /\
    tcurve osh O t dO /\
    forall E2 gm gins kout go, grads_ready L inshs osh gm gins kout go ->
    exists L2 L3 gm' c,
      lupdate E2 (L' t) (I t) [go] = Ok L2 /\
      lbackward E2 L2 (I t) [O t] gm gins [kout] = Ok (L3, gm') /\
      accum gm gins c gm' /\
      map p_data (dparams L3) = map p_data (dparams (with_params L (P t))) /\
      rsum (prodN osh) (fun i => (tdat go).[i] * dO i) =
      rsum (length inshs) (fun p => rsum (prodN (nth p inshs [])) (fun i => c p i * dI p i)) +
      rsum (length (dparams L)) (fun k =>
        rsum (length (nth k (P t) [])) (fun i =>
          (nth k (map (fun p => tdat (p_grad p)) (dparams L3)) []).[i] * dP k i)).
