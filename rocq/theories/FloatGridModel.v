(** Model of the arithmetic of Grid objects (spherical_functions/SWSH_grids: algebra.py, ufuncs.py) in IEEE double arithmetic:
    [RN64] (FloatIndexModel.v) rounds the result of every operation.  Overflow, infinities, nan and signed zeros are not part
    of the model; the entries are complex, as everywhere in GridModel.v, whose definitions are repeated here with the rounded
    operations of numpy in place of the exact ones. *)
Require Import ZArith List Reals Bool.
From Coquelicot Require Import Complex.
From Verif Require Import Base CBase ModesModel FloatIndexModel FloatPowersModel FloatConvModel FloatModesModel GridModel.
Import ListNotations.
Open Scope Z_scope.

(** ** numpy

    Functions of the C library that numpy calls: hypot, csqrt and cpow *)
Record grid_lib : Type := mkgridlib { l_hypot : R -> R -> R; l_csqrt : C -> C; l_cpow : C -> C -> C }.
(** How the compiled loops do the operations at each entry: the order of additions and the fusing of products with additions in
    complex products, quotients, reciprocals, and each of the products of an integer power *)
Record grid_way : Type := mkgridway {
  w_mul : list Z -> order * order;
  w_div : list Z -> bool * bool * bool;
  w_rec : list Z -> bool;
  w_pow : list Z -> nat -> order * order }.

(** [nd_op] and [nd_map] (GridModel.v) with an operation that may be done in another way at another entry *)
Definition nd_op64 (op : list Z -> C -> C -> C) (a b : garr) : res garr :=
  match broadcast (gshape a) (gshape b) with
  | None => Err ValueError
  | Some sh => Ok (mkgarr sh (fun idx => op idx (gval a (bidx (gshape a) idx)) (gval b (bidx (gshape b) idx))))
  end.
Definition nd_map64 (f : list Z -> C -> C) (a : garr) : garr := mkgarr (gshape a) (fun idx => f idx (gval a idx)).

(** [np.absolute] (loops.c.src: npy_hypot) *)
Definition cabs64 (lib : grid_lib) (z : C) : C := RtoC (l_hypot lib (Re z) (Im z)).
(** [np.reciprocal] (loops.c.src) *)
Definition creciprocal64 (fused : bool) (z : C) : C :=
  if Rle_dec (Rabs (Im z)) (Rabs (Re z)) then
    let r := RN64 (Im z / Re z) in
    let d := muladd64 fused (Im z) r (Re z) in
    (RN64 (1 / d), RN64 (- r / d))
  else
    let r := RN64 (Re z / Im z) in
    let d := muladd64 fused (Re z) r (Im z) in
    (RN64 (r / d), RN64 (-1 / d)).
(** [np.power] with an integer exponent (npy_math_complex.c.src: npy_cpow); the loop goes through the bits of the exponent from
    the lowest, and its products are numbered by [k] *)
Fixpoint cpow_loop64 (t : nat -> order * order) (k : nat) (aa p : C) (n : positive) : C :=
  match n with
  | xH => cmul64 (t k) aa p
  | xO n => cpow_loop64 t (2 + k) aa (cmul64 (t (1 + k)%nat) p p) n
  | xI n => cpow_loop64 t (2 + k) (cmul64 (t k) aa p) (cmul64 (t (1 + k)%nat) p p) n
  end.
Definition cpow64 (lib : grid_lib) (t : nat -> order * order) (d : bool * bool * bool) (z : C) (e : Z) : C :=
  if e =? 0 then RtoC 1
  else if Ceqb z (RtoC 0) && (0 <? e) then RtoC 0
  else if e =? 1 then z
  else if e =? 2 then cmul64 (t 0%nat) z z
  else if e =? 3 then cmul64 (t 1%nat) z (cmul64 (t 0%nat) z z)
  else if (-100 <? e) && (e <? 100) then
    let r := match Z.abs e with Zpos n => cpow_loop64 t 0 (RtoC 1) z n | _ => RtoC 1 end in
    if e <? 0 then cdiv64 d (RtoC 1) r else r
  else l_cpow lib z (RtoC (IZR e)).

(** ** algebra.py

    [conjugate], [real] and [imag] round nothing: they are [gconjugate], [greal] and [gimag] (GridModel.v). *)

(** algebra.py:63-67 *)
Definition gabsolute64 (lib : grid_lib) (self : grid) : res grid := gconstruct (nd_map64 (fun _ => cabs64 lib) (gdata self)) 0.

(** algebra.py:70-83 *)
Definition gadd64 (self : grid) (other : operand) : res grid :=
  match other with
  | OG other =>
    if negb (gspin self =? gspin other) then Err ValueError
    else if negb (same_grid self other) then Err ValueError
    else do r <- nd_op64 (fun _ => cadd64) (gdata self) (gdata other); gconstruct r (gspin self)
  | OS x =>
    if negb (gspin self =? 0) && np_any x then Err ValueError
    else do r <- nd_op64 (fun _ => cadd64) (gdata self) (of_scalars x); gconstruct r (gspin self)
  end.
(** algebra.py:86-98; line 89 uses the undefined name [s] in the message *)
Definition gsubtract64 (self : grid) (other : operand) : res grid :=
  match other with
  | OG other =>
    if negb (gspin self =? gspin other) then Err NameError
    else if negb (same_grid self other) then Err ValueError
    else do r <- nd_op64 (fun _ => csub64) (gdata self) (gdata other); gconstruct r (gspin self)
  | OS x =>
    if negb (gspin self =? 0) && np_any x then Err ValueError
    else do r <- nd_op64 (fun _ => csub64) (gdata self) (of_scalars x); gconstruct r (gspin self)
  end.

(** algebra.py:101-131; the scalar branch multiplies without adding axes *)
Definition gmultiply64 (w : grid_way) (self : grid) (other : operand) : res grid :=
  match other with
  | OG other =>
    if negb (same_grid self other) then Err ValueError
    else do r <- nd_op64 (fun idx => cmul64 (w_mul w idx)) (gdata self) (gdata other); gconstruct r (gspin self + gspin other)
  | OS x =>
    do ok <- gcheck_broadcasting self (sc_shape x);
    if ok then do r <- nd_op64 (fun idx => cmul64 (w_mul w idx)) (gdata self) (of_scalars x); gconstruct r (gspin self)
    else do ok <- gcheck_broadcasting self (sc_shape x);
         if ok then do r <- nd_op64 (fun idx => cmul64 (w_mul w idx)) (of_scalars x) (gdata self); gconstruct r (gspin self) else Err ValueError
  end.
(** algebra.py:134-162 *)
Definition gdivide64 (w : grid_way) (self : grid) (other : operand) : res grid :=
  match other with
  | OG other =>
    if negb (same_grid self other) then Err ValueError
    else do r <- nd_op64 (fun idx => cdiv64 (w_div w idx)) (gdata self) (gdata other); gconstruct r (gspin self - gspin other)
  | OS x =>
    do ok <- gcheck_broadcasting self (sc_shape x);
    if ok then do r <- nd_op64 (fun idx => cdiv64 (w_div w idx)) (gdata self) (of_scalars x); gconstruct r (gspin self) else Err ValueError
  end.

(** ** ufuncs.py *)

(** ufuncs.py:12-176, as [grid_array_ufunc] (GridModel.v) *)
Definition grid_array_ufunc64 (lib : grid_lib) (w : grid_way) (self : grid) (u : ufunc) (m : umethod) (args : list operand) (out : option outarg)
    (kwargs : bool) : res gresult :=
  match relation u, predicate u with
  | Some rel, _ =>
    match m, kwargs with
    | m_call, false =>
      do a <- arg args 0; do b <- arg args 1;
      match broadcast (gshape (view a)) (gshape (view b)) with
      | None => Err ValueError
      | Some sh => finish_bool out sh (fun idx => rel (gval (view a) (bidx (gshape (view a)) idx)) (gval (view b) (bidx (gshape (view b)) idx)))
      end
    | _, _ => Ok RPlain
    end
  | None, Some p =>
    match m, kwargs with
    | m_call, false => do a <- arg args 0; finish_bool out (gshape (view a)) (fun idx => p (gval (view a) idx))
    | _, _ => Ok RPlain
    end
  | None, None =>
    match u with u_other => Ok RDecline | _ =>
    if kwargs then Err NotImplementedError else
    do r <-
      match u with
      | u_positive => finish (Ok (gdata self)) out (gspin self)
      | u_negative => finish (Ok (nd_map Copp (gdata self))) out (gspin self)
      | u_add | u_subtract =>
        let op := fun _ : list Z => match u with u_add => cadd64 | _ => csub64 end in
        do a <- arg args 0; do b <- arg args 1;
        match a, b with
        | OG g1, OG g2 =>
          if negb (gspin g1 =? gspin g2) then Err ValueError
          else if negb (same_grid g1 g2) then Err ValueError
          else finish (nd_op64 op (gdata g1) (gdata g2)) out (gspin self)
        | OG g, OS x =>
          if negb (gspin g =? 0) && np_any x then Ok RDecline else
          do ok <- gcheck_broadcasting g (sc_shape x);
          if negb ok then Ok RDecline else finish (nd_op64 op (gdata g) (newaxis2 x)) out (gspin self)
        | OS x, OG g =>
          if negb (gspin g =? 0) && np_any x then Ok RDecline else
          do ok <- gcheck_broadcasting g (sc_shape x);
          if negb ok then Ok RDecline else finish (nd_op64 op (newaxis2 x) (gdata g)) out (gspin self)
        | OS _, OS _ => Ok RDecline
        end
      | u_multiply | u_divide =>
        let op := fun idx => match u with u_multiply => cmul64 (w_mul w idx) | _ => cdiv64 (w_div w idx) end in
        do a <- arg args 0; do b <- arg args 1;
        match a, b with
        | OG g1, OG g2 =>
          if negb (same_grid g1 g2) then Err ValueError
          else finish (nd_op64 op (gdata g1) (gdata g2)) out
                 (match u with u_multiply => gspin g1 + gspin g2 | _ => gspin g1 - gspin g2 end)
        | OG g, OS x =>
          do ok <- gcheck_broadcasting g (sc_shape x);
          if negb ok then Ok RDecline else finish (nd_op64 op (gdata g) (newaxis2 x)) out (gspin g)
        | OS x, OG g =>
          do ok <- gcheck_broadcasting g (sc_shape x);
          if negb ok then Ok RDecline else finish (nd_op64 op (newaxis2 x) (gdata g)) out
                                             (match u with u_multiply => gspin g | _ => - gspin g end)
        | OS _, OS _ => Ok RDecline
        end
      | u_conjugate =>
        do a <- arg args 0;
        match a with OG g => finish (Ok (nd_map Cconj (gdata g))) out (- gspin g) | OS _ => Ok RDecline end
      | u_absolute =>
        do a <- arg args 0;
        match a with OG g => finish (Ok (nd_map64 (fun _ => cabs64 lib) (gdata g))) out 0 | OS _ => Ok RDecline end
      | u_power =>
        do a <- arg args 0;
        match a with
        | OG g =>
          match nth_error args 1 with
          | Some b =>
            match int_of b with
            | Some e => finish (Ok (nd_map64 (fun idx z => cpow64 lib (w_pow w idx) (w_div w idx) z e) (gdata g))) out (e * gspin g)
            | None => Ok RDecline
            end
          | None => Ok RDecline
          end
        | OS _ => Ok RDecline
        end
      | u_sqrt | u_square | u_reciprocal =>
        do a <- arg args 0;
        match a with
        | OG g =>
          match u with
          | u_sqrt => if negb (gspin g mod 2 =? 0) then Ok RDecline else finish (Ok (nd_map64 (fun _ => l_csqrt lib) (gdata g))) out (gspin g / 2)
          | u_square => finish (Ok (nd_map64 (fun idx z => cmul64 (w_mul w idx) z z) (gdata g))) out (gspin g * 2)
          | _ => finish (Ok (nd_map64 (fun idx => creciprocal64 (w_rec w idx)) (gdata g))) out (- gspin g)
          end
        | OS _ => Ok RDecline
        end
      | _ => Err NotImplementedError
      end;
    match r with RDecline => Ok RDecline | _ => match m with m_at => Ok RNone | _ => Ok r end end
    end
  end.

(** numpy: the override of the first Grid among the inputs, else of [out], is called; NotImplemented becomes TypeError. *)
Definition grid_ufunc64 (lib : grid_lib) (w : grid_way) (u : ufunc) (m : umethod) (args : list operand) (out : option outarg) (kwargs : bool) : res gresult :=
  if match m with m_rest => one_input u | _ => false end then Err ValueError else
  let self := match find (fun x => match x with OG _ => true | OS _ => false end) args with
              | Some (OG g) => Some g
              | _ => match out with Some (OutGrid g) => Some g | _ => None end
              end in
  match self with
  | None => Err TypeError
  | Some self =>
    do r <- grid_array_ufunc64 lib w self u m args out kwargs;
    match r with RDecline => Err TypeError | r => Ok r end
  end.
