(** The documented activation functions. *)
From Coq Require Import Reals.
From Verif Require Import Base Sums M_Im2col M_Kernels M_Conv M_Layers S_Grad.
Open Scope R_scope.

Definition relu_fn (x : R) : R := Rmax 0 x.
Definition leaky_fn (alpha x : R) : R := if Rlt_dec x 0 then alpha * x else x.
Definition elu_fn (alpha x : R) : R := if Rlt_dec x 0 then alpha * (exp x - 1) else x.
Definition sigmoid_fn (x : R) : R := 1 / (1 + exp (- x)).

(** Forward computes [f] on every element and backward adds the incoming gradient times any derivative. *)
Definition activation (E E2 : env) (L : layer) (f : R -> R) (x o : ten) : Prop :=
  exists o', lforward E L [x] [o] = Ok (L, o') /\ ten_ok (tsh x) o' /\
    (forall i, (i < tot x)%nat -> (tdat o').[i] = f (tdat x).[i]) /\
    forall gm kg ko gi go, ten_ok (tsh x) gi -> ten_ok (tsh x) go -> nth_error gm kg = Some gi -> nth_error gm ko = Some go ->
    exists gi', lupdate E2 L [x] [go] = Ok L /\ lbackward E2 L [x] [o'] gm [kg] [ko] = Ok (L, upd gm kg gi') /\ ten_ok (tsh x) gi' /\
      forall i l, (i < tot x)%nat -> derivable_pt_lim f (tdat x).[i] l ->
        (tdat gi').[i] = (tdat gi).[i] + (tdat go).[i] * l.

