(** When the backward pass of a layer can run. *)
From Coq Require Import Reals.
From Verif Require Import Base Sums M_Im2col S_Im2col M_Kernels M_Layers S_Grad S_Fit.
Open Scope nat_scope.

(** What forward leaves in the buffers of a layer for backward. *)
Definition caches (L : layer) (inshs : list (list nat)) (osh : list nat) : Prop :=
  match L with
  | LConv g _ _ buf =>
      forall batch cin h w cout ho wo, inshs = [[batch; cin; h; w]] -> osh = [batch; cout; ho; wo] ->
      tot buf = batch * (cin * KH g * KW g) * (ho * wo)
  | LMaxPool g ind buf =>
      forall n c ho wo, osh = [n; c; ho; wo] ->
      ish ind = osh /\ length (idat ind) = n * c * (ho * wo) /\
      (forall p, p < n * c * (ho * wo) -> nth p (idat ind) 0 < KH g * KW g) /\ tot buf = KH g * KW g * (ho * wo)
  | LBN1 _ _ _ _ _ _ _ c => ten_ok osh c
  | LBN2 _ _ _ _ _ _ _ c ni no => tot c = prodN osh /\ tot ni = prodN osh /\ tot no = prodN osh
  | _ => True
  end.
Definition primed (L : layer) (inshs : list (list nat)) (osh : list nat) : Prop := fits L inshs osh /\ caches L inshs osh.
