(** When [int] is wide enough. *)
From Verif Require Import Base M_Im2col S_Im2col M_Layers S_Grad S_Plain.
Open Scope Z_scope.

(** One direction of sliding windows over an image of [inp] rows (or columns): padded size, extent of the kernel and the
    position behind the last window are [int]s. *)
Definition walks (inp pad kernel stride dilation out : Z) : Prop :=
  0 <= inp /\ 0 <= pad /\ 0 < kernel /\ 0 < stride /\ 0 < dilation /\
  inp + 2 * pad <= 2147483647 /\ dilation * (kernel - 1) + 1 <= 2147483647 /\
  (kernel - 1) * dilation - pad + out * stride <= 2147483647.

Definition windows_fit (g : geom) (h w ho wo : nat) : Prop :=
  walks (Z.of_nat h) (g_ph g) (g_kh g) (g_sh g) (g_dh g) (Z.of_nat ho) /\
  walks (Z.of_nat w) (g_pw g) (g_kw g) (g_sw g) (g_dw g) (Z.of_nat wo).

(** A tensor of a shape the library can make. *)
Definition made (t : ten) : Prop := proper (tsh t).

(** The layer, applied to tensors of the shapes [ins] to give one of shape [out], computes with ints only. *)
Definition room (L : layer) (ins : list (list nat)) (out : list nat) : Prop :=
  match L with
  | LConv g W _ _ => exists n cin h w cout ho wo,
      ins = [[n; cin; h; w]]%nat /\ out = [n; cout; ho; wo]%nat /\ tsh (p_data W) = [cout; cin; KH g; KW g] /\ tsh (p_grad W) = [cout; cin; KH g; KW g] /\
      proper [cout; cin; KH g; KW g] /\ windows_fit g h w ho wo /\ sizes_ok g h w ho wo /\ small (n * (cin * KH g * KW g) * (ho * wo))%nat
  | LMaxPool g _ _ => exists n c h w ho wo,
      ins = [[n; c; h; w]]%nat /\ out = [n; c; ho; wo]%nat /\
      windows_fit g h w ho wo /\ sizes_ok g h w ho wo /\ small (KH g * KW g * (ho * wo))%nat /\ Z.of_nat (KH g * KW g) <= 16777216
  | _ => True
  end.

(** What MaxPooling has recorded are positions in its windows. *)
Definition positions (L : layer) : Prop :=
  match L with LMaxPool g ind _ => Forall (fun k => (k < KH g * KW g)%nat) (idat ind) | _ => True end.
