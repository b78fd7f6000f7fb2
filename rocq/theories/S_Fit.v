(** When a layer can run on tensors of given shapes, and where its output is differentiable. *)
From Coq Require Import Reals.
From Verif Require Import Base Sums M_Im2col S_Im2col M_Kernels M_Layers S_Grad S_Partial.
Open Scope nat_scope.

(** The state of the layer fits inputs of shapes [inshs] and an output of shape [osh]. *)
Inductive fits : layer -> list (list nat) -> list nat -> Prop :=
| fit_relu sh : fits LReLU [sh] sh
| fit_sigmoid sh : fits LSigmoid [sh] sh
| fit_leaky a sh : fits (LLeaky a) [sh] sh
| fit_elu a sh : fits (LELU a) [sh] sh
| fit_softmax n m : 0 < m -> fits LSoftmax [[n; m]] [n; m]
| fit_gap n c h w : 0 < h * w -> fits LGap [[n; c; h; w]] [n; c; 1; 1]
| fit_add sh : fits LAdd [sh; sh] sh
| fit_linear W b n u rest : rest <> [] -> prm_ok [u; prodN rest] W -> prm_ok [u] b -> fits (LLinear W b) [n :: rest] [n; u]
| fit_conv g W b buf batch cin h w cout ho wo :
    sizes_ok g h w ho wo -> validate_geom g = Ok tt -> prm_ok [cout; cin; KH g; KW g] W -> prm_ok [cout] b ->
    0 < batch * (cin * KH g * KW g) * (ho * wo) -> fits (LConv g W b buf) [[batch; cin; h; w]] [batch; cout; ho; wo]
| fit_maxpool g ind buf n c h w ho wo :
    sizes_ok g h w ho wo -> validate_geom g = Ok tt -> ibuf_ok ind -> fits (LMaxPool g ind buf) [[n; c; h; w]] [n; c; ho; wo]
| fit_dropout p mask sh : prm_ok sh mask -> 0 < prodN sh -> fits (LDropout p mask) [sh] sh
| fit_bn1 e a g b s rm rv c n m :
    0 < n -> p_train b = p_train g -> prm_ok [m] g -> prm_ok [m] b -> ten_ok [m] s -> ten_ok [m] rm -> ten_ok [m] rv -> buf_ok c ->
    fits (LBN1 e a g b s rm rv c) [[n; m]] [n; m]
| fit_bn2 e a g b s rm rv c ni no N C H W :
    0 < N * C * H * W -> p_train b = p_train g -> prm_ok [C] g -> prm_ok [C] b -> ten_ok [C] s -> ten_ok [C] rm -> ten_ok [C] rv ->
    tot ni = 0 \/ tot ni = N * C * H * W /\ tot no = N * C * H * W -> tot c = 0 \/ tot c = N * C * H * W ->
    fits (LBN2 e a g b s rm rv c ni no) [[N; C; H; W]] [N; C; H; W].

(** What is assumed of Eigen's [maxCoeff]. *)
Definition fair (E : env) : Prop := is_argmax (e_amax E) /\ am_ext (e_amax E).

(** Away from kinks and ties.  BatchNorm must be in training mode (its backward pass is that of the
    training mode); Dropout must keep everything (its backward pass omits the scaling). *)
Definition smooth (E : env) (L : layer) (xs : list ten) (osh : list nat) : Prop :=
  match L with
  | LReLU | LLeaky _ | LELU _ => Forall no_zero xs
  | LMaxPool g _ _ =>
      forall x n c h w ho wo, xs = [x] -> tsh x = [n; c; h; w] -> osh = [n; c; ho; wo] -> clear_maxima g (n * c) h w ho wo x
  | LDropout p mask => p = 0%R /\ p_train mask = true /\ forall i, (0 <= e_rnd E i)%R
  | LBN1 eps _ gamma _ _ _ _ _ | LBN2 eps _ gamma _ _ _ _ _ _ _ => (0 < eps)%R /\ p_train gamma = true
  | _ => True
  end.
