(** Model of the layer API: src/expression/nn.cpp, include/deepworks/base_op.hpp, layer_info.hpp,
    src/expression/call.cpp and placeholder.cpp, src/model/parameter.cpp, and the creation of the CPU
    layers (src/runtime/cpu/layers/cpulayer.cpp).

    The expression a program builds is a store: placeholders and layer descriptions in order of
    creation, both referred to by position (the C++ handles are shared pointers to unique objects).
    Every call of a layer creates exactly one placeholder, so the position of the placeholder also
    identifies the call.  Tensors of parameters are values (shape and data).

    Simplification: parameters are initialised from the draws handed to the call instead of a global
    generator; memory never runs out. *)
From Coq Require Import Reals String.
From Verif Require Import Base Sums M_Tensor M_Im2col S_Im2col M_Kernels M_Conv M_Layers M_Optim M_Init.
Local Open Scope string_scope.
Open Scope nat_scope.

(** layer_info.hpp:14-82, [Attribute]: a value with its type and shape.  [AOther]: an unsupported type. *)
Inductive attr (F : Type) :=
| AInt (z : Z)
| AFloat (f : F)
| AInt2 (a b : Z)
| AFloat2 (a b : F)
| AOther.
Arguments AInt {F} z.
Arguments AFloat {F} f.
Arguments AInt2 {F} a b.
Arguments AFloat2 {F} a b.
Arguments AOther {F}.

Definition amap := list (string * attr R).

(** layer_info.hpp:90-96, [LayerInfo::Impl] *)
Record linfo := mkLI { li_name : string; li_type : string; li_attrs : amap;
                       li_params : pmap; li_bufs : tmap }.

(** [unordered_map::emplace]: nothing happens when the key is present. *)
Definition emplace {V} (m : list (string * V)) (k : string) (v : V) : list (string * V) :=
  match find_key m k with Some _ => m | None => (m ++ [(k, v)])%list end.

(** layer_info.hpp:63-66, [attrs["k"].get<T>()]: a missing attribute or one of another type makes
    [any_cast] return a null pointer, which is dereferenced. *)
Definition get_int (m : amap) (k : string) : res Z :=
  match find_key m k with Some (AInt z) => Ok z | _ => UB end.
Definition get_float (m : amap) (k : string) : res R :=
  match find_key m k with Some (AFloat f) => Ok f | _ => UB end.
Definition get_int2 (m : amap) (k : string) : res (Z * Z) :=
  match find_key m k with Some (AInt2 a b) => Ok (a, b) | _ => UB end.

(** nn.cpp:21-28, [attrs.at("k").get<T>()]: a missing attribute throws. *)
Definition at_int (m : amap) (k : string) : res Z := _ <- at_key m k ;; get_int m k.
Definition at_float (m : amap) (k : string) : res R := _ <- at_key m k ;; get_float m k.
Definition at_int2 (m : amap) (k : string) : res (Z * Z) := _ <- at_key m k ;; get_int2 m k.

(** The thirteen layer classes of nn.hpp. *)
Inductive kind :=
| KLinear | KReLU | KSoftmax | KBN1 | KELU | KMaxPool | KConv | KLeaky | KSigmoid | KDropout | KGap | KBN2 | KAdd.

(** The constructors, nn.cpp:16-19, 162-164, 170-172, 178-182, 196-199, 205-213, 226-236, 263-266,
    272-274, 280-283, 293-295, 302-306, 321-323. *)
Definition new_info (ty name : string) (attrs : amap) : linfo := mkLI name ty attrs [] [].
Definition Linear (units : Z) (name : string) := new_info "Linear" name [("units", AInt units)].
Definition ReLU (name : string) := new_info "ReLU" name [].
Definition Softmax (name : string) := new_info "Softmax" name [].
Definition BatchNorm1D (eps alpha : R) (name : string) := new_info "BatchNorm1D" name [("eps", AFloat eps); ("alpha", AFloat alpha)].
Definition ELU (alpha : R) (name : string) := new_info "ELU" name [("alpha", AFloat alpha)].
Definition MaxPooling (k p s : Z * Z) (name : string) :=
  new_info "MaxPooling" name
    [("kernel", AInt2 (fst k) (snd k)); ("padding", AInt2 (fst p) (snd p)); ("stride", AInt2 (fst s) (snd s))].
Definition Convolution (out : Z) (k p s : Z * Z) (name : string) :=
  new_info "Convolution" name
    [("out_channels", AInt out); ("kernel", AInt2 (fst k) (snd k)); ("padding", AInt2 (fst p) (snd p)); ("stride", AInt2 (fst s) (snd s))].
Definition LeakyReLU (alpha : R) (name : string) := new_info "LeakyReLU" name [("alpha", AFloat alpha)].
Definition Sigmoid (name : string) := new_info "Sigmoid" name [].
Definition Dropout (p : R) (name : string) := new_info "Dropout" name [("p", AFloat p)].
Definition GlobalAvgPooling (name : string) := new_info "GlobalAvgPooling" name [].
Definition BatchNorm2D (eps alpha : R) (name : string) := new_info "BatchNorm2D" name [("eps", AFloat eps); ("alpha", AFloat alpha)].
Definition Add (name : string) := new_info "Add" name [].

(** What initialising a layer obtains from outside: [in_dist which lo hi k] is draw [k] for parameter
    number [which]. *)
Record ienv := mkIE { in_junk : nat -> R; in_dist : nat -> R -> R -> nat -> R }.

(** tensor.cpp:57-59, 66-77, 89-95: a tensor of shape [s]. *)
Definition new_ten (s : shape) (junk : nat -> R) : res ten :=
  _ <- dw_assert (negb (have_negative_dim s)) ;;
  t <- int_prod s ;;
  Ok (mkT (map Z.to_nat s) (tab (Z.to_nat t) junk)).

(** tensor.cpp:11-27 with initializers.cpp:9-26 *)
Definition t_constant (I : ienv) (s : shape) (v : R) : res ten :=
  t <- new_ten s (in_junk I) ;; Ok (set_dat t (repeat v (tot t))).
Definition t_zeros (I : ienv) (s : shape) : res ten := t_constant I s 0%R.
Definition t_xavier (I : ienv) (which : nat) (s : shape) : res ten :=
  t <- new_ten s (in_junk I) ;;
  '(i, o) <- xavier_features s (Z.of_nat (tot t)) ;;
  if negb (fits_int (i + o)) then UB else
  if (i + o =? 0)%Z then UB else
  let a := (sqrt 6 / IZR (i + o))%R in
  Ok (set_dat t (tab (tot t) (in_dist I which (- a)%R a))).

(** parameter.cpp:10-15 (the constructor's [is_trainable] defaults to true, parameter.hpp) *)
Definition new_prm (t : ten) : prm := mkP t (mkT (tsh t) (repeat 0%R (prodN (tsh t)))) true.

Definition add_param (k : string) (t : res ten) (li : linfo) : st linfo :=
  lift li t (fun t => Ret (mkLI (li_name li) (li_type li) (li_attrs li) (emplace (li_params li) k (new_prm t)) (li_bufs li))).
Definition add_buffer (k : string) (t : res ten) (li : linfo) : st linfo :=
  lift li t (fun t => Ret (mkLI (li_name li) (li_type li) (li_attrs li) (li_params li) (emplace (li_bufs li) k t))).

(** [shape[i]]: unchecked. *)
Definition dim (s : shape) (i : nat) : res Z := rd s i.

(** nn.cpp:184-190 and 308-314 *)
Definition bn_init (I : ienv) (s : shape) (li : linfo) : st linfo :=
  lift li (dim s 1) (fun c =>
  st_bind (add_param "gamma" (t_constant I [c] 1%R) li) (fun li =>
  st_bind (add_param "beta" (t_zeros I [c]) li) (fun li =>
  st_bind (add_buffer "running_mean" (t_zeros I [c]) li) (fun li =>
  add_buffer "running_var" (t_zeros I [c]) li)))).

(** The [init] functions (nn.cpp:143-154, 184-190, 238-249, 285-287, 308-314; base_op.hpp:22-23 for the
    others). *)
Definition linit (k : kind) (I : ienv) (ss : list shape) (li : linfo) : st linfo :=
  lift li (rd ss 0) (fun s =>
  match k with
  | KLinear =>
      lift li (get_int (li_attrs li) "units") (fun units =>
      lift li (match s with [] => UB | _ :: t => int_prod t end) (fun second =>
      st_bind (add_param "weight" (t_xavier I 0 [units; second]) li) (fun li =>
      add_param "bias" (t_zeros I [units]) li)))
  | KConv =>
      lift li (get_int (li_attrs li) "out_channels") (fun out =>
      lift li (get_int2 (li_attrs li) "kernel") (fun '(kh, kw) =>
      lift li (dim s 1) (fun c =>
      st_bind (add_param "weight" (t_xavier I 0 [out; c; kh; kw]) li) (fun li =>
      add_param "bias" (t_zeros I [out]) li))))
  | KBN1 | KBN2 => bn_init I s li
  | KDropout => add_param "mask" (t_zeros I s) li
  | _ => Ret li
  end).

(** The [h_out], [w_out] of nn.cpp:215-224 and 251-261. *)
Definition window_out (m : amap) (s : shape) : res (Z * Z) :=
  '(kh, kw) <- get_int2 m "kernel" ;;
  '(ph, pw) <- get_int2 m "padding" ;;
  '(sh, sw) <- get_int2 m "stride" ;;
  h <- dim s 2 ;; w <- dim s 3 ;;
  ho <- layer_out_size h ph kh sh ;; wo <- layer_out_size w pw kw sw ;;
  Ok (ho, wo).

(** The [outShape] functions (nn.cpp:156-160, 166-168, 174-176, 192-194, 201-203, 215-224, 251-261,
    268-270, 276-278, 289-291, 297-300, 316-319, 325-334). *)
Definition out_shape (k : kind) (m : amap) (ss : list shape) : res shape :=
  s <- rd ss 0 ;;
  match k with
  | KLinear =>
      _ <- dw_assert (negb (length s =? 1)) ;;
      units <- get_int m "units" ;; n <- dim s 0 ;; Ok [n; units]
  | KMaxPool =>
      _ <- dw_assert (length s =? 4) ;;
      '(ho, wo) <- window_out m s ;; n <- dim s 0 ;; c <- dim s 1 ;; Ok [n; c; ho; wo]
  | KConv =>
      _ <- dw_assert (length s =? 4) ;;
      out <- get_int m "out_channels" ;;
      '(ho, wo) <- window_out m s ;; n <- dim s 0 ;; Ok [n; out; ho; wo]
  | KGap =>
      _ <- dw_assert (length s =? 4) ;;
      n <- dim s 0 ;; c <- dim s 1 ;; Ok [n; c; 1%Z; 1%Z]
  | KBN2 => _ <- dw_assert (length s =? 4) ;; Ok s
  | KAdd => s2 <- rd ss 1 ;; _ <- dw_assert (shape_eqb s s2) ;; Ok s
  | KReLU | KSoftmax | KBN1 | KELU | KLeaky | KSigmoid | KDropout => Ok s
  end.

(** The number of arguments of [outShape] (base_op.hpp:9-12, 16-18). *)
Definition num_in (k : kind) : nat := match k with KAdd => 2 | _ => 1 end.

(** placeholder_impl.hpp: the shape, and the producing call with its arguments.  The port is always 0
    (call.cpp:15-17). *)
Record phnode := mkPh { ph_shape : shape; ph_call : option (nat * list nat) }.

(** All placeholders and all layer descriptions. *)
Record estore := mkES { es_ph : list phnode; es_info : list linfo }.
Definition es0 : estore := mkES [] [].

(** The outcome of a call that changes the store and returns something. *)
Inductive outcome (A : Type) :=
| RVal (s : estore) (a : A)
| RExc (s : estore)
| RBad.
Arguments RVal {A} s a.
Arguments RExc {A} s.
Arguments RBad {A}.

Definition set_info (es : estore) (i : nat) (li : linfo) : estore := mkES (es_ph es) (upd (es_info es) i li).

(** placeholder.cpp:12-14 *)
Definition new_input (s : shape) (es : estore) : estore * nat :=
  (mkES (es_ph es ++ [mkPh s None]) (es_info es), length (es_ph es)).

(** A layer object comes into existence. *)
Definition new_op (li : linfo) (es : estore) : estore * nat :=
  (mkES (es_ph es) (es_info es ++ [li]), length (es_info es)).

(** base_op.hpp:31-39, [operator()]: init, then a call with the arguments, then its output. *)
Definition apply_op (k : kind) (I : ienv) (info : nat) (args : list nat) (es : estore) : outcome nat :=
  match map_res (fun a => p <- rd (es_ph es) a ;; Ok (ph_shape p)) args, rd (es_info es) info with
  | Ok ss, Ok li =>
      match linit k I ss li with
      | Ret li' =>
          let es1 := set_info es info li' in
          match out_shape k (li_attrs li') ss with
          | Ok s => RVal (mkES (es_ph es1 ++ [mkPh s (Some (info, args))]) (es_info es1)) (length (es_ph es1))
          | Throw => RExc es1
          | UB => RBad
          end
      | Exc li' => RExc (set_info es info li')
      | Bad => RBad
      end
  | _, _ => RBad
  end.

(** base_op.hpp:42-50, the vector version: [phs[i]] for the first [num_in] arguments, unchecked. *)
Definition apply_vec (k : kind) (I : ienv) (info : nat) (phs : list nat) (es : estore) : outcome nat :=
  if length phs <? num_in k then RBad else apply_op k I info (firstn (num_in k) phs) es.

(** nn.cpp:119-133, the table. *)
Definition layer_table (type : string) : option kind :=
  if String.eqb type "Linear" then Some KLinear
  else if String.eqb type "ReLU" then Some KReLU
  else if String.eqb type "BatchNorm1D" then Some KBN1
  else if String.eqb type "Softmax" then Some KSoftmax
  else if String.eqb type "MaxPooling" then Some KMaxPool
  else if String.eqb type "Convolution" then Some KConv
  else if String.eqb type "ELU" then Some KELU
  else if String.eqb type "LeakyReLU" then Some KLeaky
  else if String.eqb type "Sigmoid" then Some KSigmoid
  else if String.eqb type "Dropout" then Some KDropout
  else if String.eqb type "BatchNorm2D" then Some KBN2
  else if String.eqb type "GlobalAvgPooling" then Some KGap
  else if String.eqb type "Add" then Some KAdd
  else None.

(** nn.cpp:60-117, the attributes are fetched by name and passed to the constructor. *)
Definition construct (k : kind) (m : amap) (name : string) : res linfo :=
  match k with
  | KLinear => u <- at_int m "units" ;; Ok (Linear u name)
  | KReLU => Ok (ReLU name)
  | KELU => a <- at_float m "alpha" ;; Ok (ELU a name)
  | KBN1 => e <- at_float m "eps" ;; a <- at_float m "alpha" ;; Ok (BatchNorm1D e a name)
  | KSoftmax => Ok (Softmax name)
  | KSigmoid => Ok (Sigmoid name)
  | KMaxPool => k <- at_int2 m "kernel" ;; p <- at_int2 m "padding" ;; s <- at_int2 m "stride" ;; Ok (MaxPooling k p s name)
  | KConv => o <- at_int m "out_channels" ;; k <- at_int2 m "kernel" ;; p <- at_int2 m "padding" ;; s <- at_int2 m "stride" ;;
             Ok (Convolution o k p s name)
  | KLeaky => a <- at_float m "alpha" ;; Ok (LeakyReLU a name)
  | KDropout => p <- at_float m "p" ;; Ok (Dropout p name)
  | KBN2 => e <- at_float m "eps" ;; a <- at_float m "alpha" ;; Ok (BatchNorm2D e a name)
  | KGap => Ok (GlobalAvgPooling name)
  | KAdd => Ok (Add name)
  end.

(** nn.cpp:53-141 *)
Definition make_layer (I : ienv) (type name : string) (m : amap) (inputs : list nat) (es : estore) : outcome nat :=
  match layer_table type with
  | None => RExc es
  | Some k =>
      match construct k m name with
      | Ok li => let '(es1, i) := new_op li es in apply_vec k I i inputs es1
      | Throw => RExc es
      | UB => RBad
      end
  end.

(** cpulayer.cpp:17-49, [ICPULayer::create], with the constructors cpulinear.cpp:6-12,
    cpuconvolution.cpp:4-8, cpudropout.cpp:4-7, cpubatchnorm1d.cpp:6-15, cpubatchnorm2d.cpp:6-15: the
    layer refers to the parameters and buffers of the description; its own buffers start empty (the
    standard deviations at zero).  Simplification: attributes are read here, not at the first use. *)
Definition bn_create (li : linfo) : res (R * R * prm * prm * ten * ten * ten) :=
  g <- at_key (li_params li) "gamma" ;; b <- at_key (li_params li) "beta" ;;
  n <- rd (tsh (p_data g)) 0 ;;
  rm <- at_key (li_bufs li) "running_mean" ;; rv <- at_key (li_bufs li) "running_var" ;;
  e <- get_float (li_attrs li) "eps" ;; a <- get_float (li_attrs li) "alpha" ;;
  Ok (e, a, g, b, mkT [n] (repeat 0%R n), rm, rv).

Definition window_geom (m : amap) : res geom :=
  '(kh, kw) <- get_int2 m "kernel" ;; '(ph, pw) <- get_int2 m "padding" ;; '(sh, sw) <- get_int2 m "stride" ;;
  Ok (mkGeom kh kw ph pw sh sw 1 1).

Definition create_layer (li : linfo) : res layer :=
  let ty := li_type li in
  if String.eqb ty "ReLU" then Ok LReLU
  else if String.eqb ty "Linear" then
    w <- at_key (li_params li) "weight" ;; b <- at_key (li_params li) "bias" ;; Ok (LLinear w b)
  else if String.eqb ty "Softmax" then Ok LSoftmax
  else if String.eqb ty "BatchNorm1D" then
    '(e, a, g, b, s, rm, rv) <- bn_create li ;; Ok (LBN1 e a g b s rm rv empty_ten)
  else if String.eqb ty "BatchNorm2D" then
    '(e, a, g, b, s, rm, rv) <- bn_create li ;; Ok (LBN2 e a g b s rm rv empty_ten empty_ten empty_ten)
  else if String.eqb ty "ELU" then a <- get_float (li_attrs li) "alpha" ;; Ok (LELU a)
  else if String.eqb ty "LeakyReLU" then a <- get_float (li_attrs li) "alpha" ;; Ok (LLeaky a)
  else if String.eqb ty "MaxPooling" then g <- window_geom (li_attrs li) ;; Ok (LMaxPool g (mkIT [] []) empty_ten)
  else if String.eqb ty "Convolution" then
    w <- at_key (li_params li) "weight" ;; b <- at_key (li_params li) "bias" ;;
    g <- window_geom (li_attrs li) ;; Ok (LConv g w b empty_ten)
  else if String.eqb ty "Sigmoid" then Ok LSigmoid
  else if String.eqb ty "Dropout" then
    m <- at_key (li_params li) "mask" ;; p <- get_float (li_attrs li) "p" ;; Ok (LDropout p m)
  else if String.eqb ty "GlobalAvgPooling" then Ok LGap
  else if String.eqb ty "Add" then Ok LAdd
  else Throw.
