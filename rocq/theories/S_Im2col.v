(** Specification of windows over a zero- (or fill-) padded image. *)
From Coq Require Import Reals.
From Verif Require Import Base BaseFacts Sums M_Im2col.
Open Scope nat_scope.

(** Image row / column under kernel position [a] of the window with output coordinate [r]. *)
Definition win_row (g : geom) (a r : nat) : Z := (Z.of_nat r * g_sh g - g_ph g + Z.of_nat a * g_dh g)%Z.
Definition win_col (g : geom) (b q : nat) : Z := (Z.of_nat q * g_sw g - g_pw g + Z.of_nat b * g_dw g)%Z.

Definition inside (h w : nat) (y x : Z) : bool :=
  ((0 <=? y) && (y <? Z.of_nat h) && (0 <=? x) && (x <? Z.of_nat w))%Z.

(** Offset of pixel (c, y, x) in a CHW image. *)
Definition pixel (h w c : nat) (y x : Z) : nat := (c * h + Z.to_nat y) * w + Z.to_nat x.

(** The padded image. *)
Definition padded {V} (fill : V) (h w : nat) (img : list V) (c : nat) (y x : Z) : V :=
  if inside h w y x then nth (pixel h w c y x) img fill else fill.

(** Offset of cell (c, a, b | r, q) in the column matrix. *)
Definition col_cell := lin5.

(** The sizes with which im2col and col2im work. *)
Definition sizes_ok (g : geom) (h w ho wo : nat) : Prop :=
  im2col_out_size (Z.of_nat h) (g_ph g) (g_kh g) (g_sh g) (g_dh g) = Ok (Z.of_nat ho) /\
  im2col_out_size (Z.of_nat w) (g_pw g) (g_kw g) (g_sw g) (g_dw g) = Ok (Z.of_nat wo).

Definition KH (g : geom) : nat := Z.to_nat (g_kh g).
Definition KW (g : geom) : nat := Z.to_nat (g_kw g).

(** Sum of all column cells whose window position is pixel (c, y, x). *)
Definition gathered (g : geom) (ho wo : nat) (col : list R) (c : nat) (y x : Z) : R :=
  rsum (KH g) (fun a => rsum (KW g) (fun b => rsum ho (fun r => rsum wo (fun q =>
    if ((win_row g a r =? y) && (win_col g b q =? x))%Z
    then nth (col_cell (KH g) (KW g) ho wo c a b r q) col 0%R else 0%R)))).
