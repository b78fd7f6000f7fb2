(** Vocabulary for programs that build an expression from scratch: what applying each layer is meant to
    give. *)
From Coq Require Import Reals String.
From Verif Require Import Base Sums M_Tensor M_Im2col M_Kernels M_Layers M_Optim M_Nn M_Graph M_Model S_Graph S_Run.
Open Scope nat_scope.

(** Window size, padding and step, each vertical then horizontal. *)
Record window := mkWin { w_kh : nat; w_kw : nat; w_ph : nat; w_pw : nat; w_sh : nat; w_sw : nat }.

(** A layer as the program writes it. *)
Inductive lspec :=
| ALinear (units : nat) | AReLU | ASoftmax | ABatchNorm1D (eps alpha : R) | AELU (alpha : R) | AMaxPooling (w : window)
| AConvolution (out : nat) (w : window) | ALeakyReLU (alpha : R) | ASigmoid | ADropout (p : R) | AGlobalAvgPooling
| ABatchNorm2D (eps alpha : R) | AAdd.

(** The object its constructor creates, and its class. *)
Definition pair2 (a b : nat) : Z * Z := (Z.of_nat a, Z.of_nat b).
Definition object (l : lspec) (name : string) : linfo :=
  match l with
  | ALinear u => Linear (Z.of_nat u) name
  | AReLU => ReLU name
  | ASoftmax => Softmax name
  | ABatchNorm1D e a => BatchNorm1D e a name
  | AELU a => ELU a name
  | AMaxPooling w => MaxPooling (pair2 (w_kh w) (w_kw w)) (pair2 (w_ph w) (w_pw w)) (pair2 (w_sh w) (w_sw w)) name
  | AConvolution o w => Convolution (Z.of_nat o) (pair2 (w_kh w) (w_kw w)) (pair2 (w_ph w) (w_pw w)) (pair2 (w_sh w) (w_sw w)) name
  | ALeakyReLU a => LeakyReLU a name
  | ASigmoid => Sigmoid name
  | ADropout p => Dropout p name
  | AGlobalAvgPooling => GlobalAvgPooling name
  | ABatchNorm2D e a => BatchNorm2D e a name
  | AAdd => Add name
  end.
Definition class (l : lspec) : kind :=
  match l with
  | ALinear _ => KLinear | AReLU => KReLU | ASoftmax => KSoftmax | ABatchNorm1D _ _ => KBN1 | AELU _ => KELU | AMaxPooling _ => KMaxPool
  | AConvolution _ _ => KConv | ALeakyReLU _ => KLeaky | ASigmoid => KSigmoid | ADropout _ => KDropout | AGlobalAvgPooling => KGap
  | ABatchNorm2D _ _ => KBN2 | AAdd => KAdd
  end.

(** ** Shapes *)
(** [n] is the number of places of a window of [k] elements moved by steps of [s] along [inp] elements
    with [p] more on either side. *)
Definition places (inp k p s n : nat) : Prop :=
  0 < k /\ 0 < s /\ 0 < n /\ forall t, t < n <-> t * s + k <= inp + 2 * p.

(** The shape of the result for arguments of the given shapes. *)
Inductive result : lspec -> list (list nat) -> list nat -> Prop :=
| res_linear u n rest : rest <> [] -> 0 < u -> result (ALinear u) [n :: rest] [n; u]
| res_relu sh : result AReLU [sh] sh
| res_elu a sh : result (AELU a) [sh] sh
| res_leaky a sh : result (ALeakyReLU a) [sh] sh
| res_sigmoid sh : result ASigmoid [sh] sh
| res_dropout p sh : result (ADropout p) [sh] sh
| res_softmax n m : result ASoftmax [[n; m]] [n; m]
| res_bn1 e a n m : result (ABatchNorm1D e a) [[n; m]] [n; m]
| res_bn2 e a n c h w : result (ABatchNorm2D e a) [[n; c; h; w]] [n; c; h; w]
| res_gap n c h w : result AGlobalAvgPooling [[n; c; h; w]] [n; c; 1; 1]
| res_maxpool wi n c h w ho wo :
    places h (w_kh wi) (w_ph wi) (w_sh wi) ho -> places w (w_kw wi) (w_pw wi) (w_sw wi) wo ->
    result (AMaxPooling wi) [[n; c; h; w]] [n; c; ho; wo]
| res_conv out wi n c h w ho wo :
    0 < out -> places h (w_kh wi) (w_ph wi) (w_sh wi) ho -> places w (w_kw wi) (w_pw wi) (w_sw wi) wo ->
    result (AConvolution out wi) [[n; c; h; w]] [n; out; ho; wo]
| res_add sh : result AAdd [sh; sh] sh.

(** Sizes an [int] can hold; shapes without empty dimensions and with such a number of elements. *)
Definition small (n : nat) : Prop := (Z.of_nat n <= 2147483647)%Z.
Definition proper (sh : list nat) : Prop := Forall (fun d => 0 < d) sh /\ small (prodN sh).

(** The weight of a Linear or Convolution layer: its shape, and how many values enter and leave. *)
Definition weight_of (l : lspec) (shs : list (list nat)) : option (list nat * nat * nat) :=
  match l, shs with
  | ALinear u, [_ :: rest] => Some ([u; prodN rest], u, prodN rest)
  | AConvolution o w, [[_; c; _; _]] => Some ([o; c; w_kh w; w_kw w], c * w_kh w * w_kw w, o)
  | _, _ => None
  end.

(** The program applies [l] to arguments it is meant for. *)
Definition meant_for (l : lspec) (shs : list (list nat)) (osh : list nat) : Prop :=
  result l shs osh /\ Forall proper shs /\ proper osh /\
  forall w i o, weight_of l shs = Some (w, i, o) -> small (prodN w) /\ small (i + o).

(** ** Layers *)
(** A parameter before training. *)
Definition fresh (t : ten) : prm := mkP t (mkT (tsh t) (repeat 0%R (prodN (tsh t)))) true.
Definition all (v : R) (sh : list nat) : ten := mkT sh (repeat v (prodN sh)).
(** Weights are drawn between plus and minus [sqrt 6 / (i + o)]. *)
Definition drawn (I : ienv) (i o : nat) (sh : list nat) : ten :=
  let a := (sqrt 6 / INR (i + o))%R in mkT sh (tab (prodN sh) (in_dist I 0 (- a)%R a)).
Definition window_of (w : window) : geom :=
  mkGeom (Z.of_nat (w_kh w)) (Z.of_nat (w_kw w)) (Z.of_nat (w_ph w)) (Z.of_nat (w_pw w)) (Z.of_nat (w_sh w)) (Z.of_nat (w_sw w)) 1 1.

(** The layer that has to run for [l], as compiled before any training. *)
Definition start (I : ienv) (l : lspec) (shs : list (list nat)) : layer :=
  match l, shs with
  | ALinear u, [_ :: rest] => LLinear (fresh (drawn I u (prodN rest) [u; prodN rest])) (fresh (all 0%R [u]))
  | AConvolution o w, [[_; c; _; _]] =>
      LConv (window_of w) (fresh (drawn I (c * w_kh w * w_kw w) o [o; c; w_kh w; w_kw w])) (fresh (all 0%R [o])) empty_ten
  | AMaxPooling w, _ => LMaxPool (window_of w) (mkIT [] []) empty_ten
  | ABatchNorm1D e a, [[_; c]] => LBN1 e a (fresh (all 1%R [c])) (fresh (all 0%R [c])) (all 0%R [c]) (all 0%R [c]) (all 0%R [c]) empty_ten
  | ABatchNorm2D e a, [[_; c; _; _]] =>
      LBN2 e a (fresh (all 1%R [c])) (fresh (all 0%R [c])) (all 0%R [c]) (all 0%R [c]) (all 0%R [c]) empty_ten empty_ten empty_ten
  | ADropout p, [sh] => LDropout p (fresh (all 0%R sh))
  | AReLU, _ => LReLU
  | ASoftmax, _ => LSoftmax
  | AELU a, _ => LELU a
  | ALeakyReLU a, _ => LLeaky a
  | ASigmoid, _ => LSigmoid
  | AGlobalAvgPooling, _ => LGap
  | _, _ => LAdd
  end.

(** The parameters and buffers by name. *)
Local Open Scope string_scope.
Definition start_params (I : ienv) (l : lspec) (shs : list (list nat)) : pmap :=
  match start I l shs with
  | LLinear W b | LConv _ W b _ => [("weight", W); ("bias", b)]
  | LBN1 _ _ g b _ _ _ _ | LBN2 _ _ g b _ _ _ _ _ _ => [("gamma", g); ("beta", b)]
  | LDropout _ m => [("mask", m)]
  | _ => []
  end.
Definition start_bufs (I : ienv) (l : lspec) (shs : list (list nat)) : tmap :=
  match start I l shs with
  | LBN1 _ _ _ _ _ rm rv _ | LBN2 _ _ _ _ _ rm rv _ _ _ => [("running_mean", rm); ("running_var", rv)]
  | _ => []
  end.
Definition description (I : ienv) (l : lspec) (shs : list (list nat)) (name : string) : linfo :=
  mkLI name (li_type (object l name)) (li_attrs (object l name)) (start_params I l shs) (start_bufs I l shs).

(** ** Programs *)
Definition zs (sh : list nat) : shape := map Z.of_nat sh.
Definition has_shape (ps : list phnode) (a : nat) (sh : list nat) : Prop := exists p, nth_error ps a = Some p /\ ph_shape p = zs sh.

(** What the program knows about each of its layer objects: what it is and the shapes it is used for. *)
Record made := mkMade { md_draws : ienv; md_layer : lspec; md_in : list (list nat); md_out : list nat }.

(** A program that creates inputs, applies each layer to arguments it is meant for, applies layers
    again to arguments of the same shapes, and constructs models. *)
Inductive plain : estore -> list made -> Prop :=
| plain_start : plain es0 []
| plain_input es D sh : plain es D -> proper sh -> plain (fst (new_input (zs sh) es)) D
| plain_layer es D I l name args shs osh es' p :
    plain es D -> Forall2 (has_shape (es_ph es)) args shs -> meant_for l shs osh ->
    apply_op (class l) I (length (es_info es)) args (fst (new_op (object l name) es)) = RVal es' p ->
    plain es' (D ++ [mkMade I l shs osh])
| plain_again es D I i x args es' p :
    plain es D -> nth_error D i = Some x -> Forall2 (has_shape (es_ph es)) args (md_in x) ->
    apply_op (class (md_layer x)) I i args es = RVal es' p -> plain es' D
| plain_model es D order ins outs es' m :
    plain es D -> construct_model order ins outs es = RVal es' m -> plain es' D.

(** Layers whose result may be reached several times through duplicated links. *)
Definition patient (l : lspec) : bool :=
  match l with AGlobalAvgPooling | AAdd | AConvolution _ _ | AMaxPooling _ => true | _ => false end.
Definition reached_well (es : estore) (D : list made) (outs : list nat) : Prop :=
  forall d s i args, needed (es_ph es) outs d -> nth_error (es_ph es) d = Some (mkPh s (Some (i, args))) ->
  visits (es_ph es) outs d = 1 \/ exists x, nth_error D i = Some x /\ patient (md_layer x) = true.
