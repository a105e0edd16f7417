(** Model of spherical_functions/SWSH_grids/: the Grid container (__init__.py), algebra.py, ufuncs.py, utilities.py; and
    of [theta_phi] in spherical_functions/__init__.py.  Exact complex arithmetic.

    A Grid is an array value plus its spin weight (the only key of [_metadata] that the package reads); memory shared
    between arrays is not modelled in this layer.  Division by zero, which gives inf or nan in numpy, is not modelled:
    the entry is then whatever Coq's total division gives, and no theorem speaks about it.  The effects of a call that
    raises are not recorded. *)
Require Import ZArith List Reals Bool.
From Coquelicot Require Import Complex.
From Verif Require Import Base CBase ModesModel.
Import ListNotations.
Open Scope Z_scope.

(** ** numpy *)

(** A complex array of any rank; the shape and the indices are listed from the last axis to the first. *)
Record garr : Type := mkgarr { gshape : list Z; gval : list Z -> C }.

(** A binary operation with broadcasting *)
Definition nd_op (op : C -> C -> C) (a b : garr) : res garr :=
  match broadcast (gshape a) (gshape b) with
  | None => Err ValueError
  | Some sh => Ok (mkgarr sh (fun idx => op (gval a (bidx (gshape a) idx)) (gval b (bidx (gshape b) idx))))
  end.
Definition nd_map (f : C -> C) (a : garr) : garr := mkgarr (gshape a) (fun idx => f (gval a idx)).
Definition of_scalars (x : scalars) : garr := mkgarr (sc_shape x) (sc_val x).
(** [x[..., np.newaxis, np.newaxis]] *)
Definition newaxis2 (x : scalars) : garr := mkgarr (1 :: 1 :: sc_shape x) (fun idx => sc_val x (tl (tl idx))).

(** The numpy universal functions.  [np.divide] and [np.true_divide] are one object, and so are [np.conj] and
    [np.conjugate].  [u_other] stands for every ufunc the package does not name. *)
Inductive ufunc : Type :=
| u_greater | u_greater_equal | u_less | u_less_equal | u_not_equal | u_equal | u_logical_and | u_logical_or
| u_isfinite | u_isinf | u_isnan
| u_positive | u_negative | u_add | u_subtract | u_multiply | u_divide | u_conjugate | u_absolute
| u_power | u_sqrt | u_square | u_reciprocal | u_other.
(** [__call__], [at], and the rest (reduce, accumulate, outer, reduceat) *)
Inductive umethod : Type := m_call | m_at | m_rest.
(** The ufuncs of one argument: numpy itself refuses the rest of the methods for them, with a ValueError. *)
Definition one_input (u : ufunc) : bool :=
  match u with
  | u_isfinite | u_isinf | u_isnan | u_positive | u_negative | u_conjugate | u_absolute | u_sqrt | u_square | u_reciprocal => true
  | _ => false
  end.

Definition Creal_lt (x y : R) : bool := if Rlt_dec x y then true else false.
Definition Creal_eq (x y : R) : bool := if Req_EM_T x y then true else false.
(** numpy compares complex numbers lexicographically *)
Definition Clt (x y : C) : bool := Creal_lt (Re x) (Re y) || (Creal_eq (Re x) (Re y) && Creal_lt (Im x) (Im y)).
Definition truthy (x : C) : bool := negb (Ceqb x (RtoC 0)).
Definition relation (u : ufunc) : option (C -> C -> bool) :=
  match u with
  | u_greater => Some (fun x y => Clt y x)
  | u_greater_equal => Some (fun x y => Clt y x || Ceqb x y)
  | u_less => Some Clt
  | u_less_equal => Some (fun x y => Clt x y || Ceqb x y)
  | u_not_equal => Some (fun x y => negb (Ceqb x y))
  | u_equal => Some Ceqb
  | u_logical_and => Some (fun x y => truthy x && truthy y)
  | u_logical_or => Some (fun x y => truthy x || truthy y)
  | _ => None
  end.
(** entries are numbers in this model, never inf or nan *)
Definition predicate (u : ufunc) : option (C -> bool) :=
  match u with
  | u_isfinite => Some (fun _ => true)
  | u_isinf | u_isnan => Some (fun _ => false)
  | _ => None
  end.
(** The principal square root *)
Definition Csqrt (z : C) : C :=
  (sqrt ((Cmod z + Re z) / 2), (if Rlt_dec (Im z) 0 then -1 else 1) * sqrt ((Cmod z - Re z) / 2))%R.

(** ** The container *)
Record grid : Type := mkgrid { gdata : garr; gspin : Z }.

(** SWSH_grids/__init__.py:74-93 [Grid.__new__]; [im] is the spin weight in the [_metadata] of the input, [kw] the
    keyword argument.  Line 89 formats the message of a ValueError with the undefined name [s]. *)
Definition Grid_new (a : garr) (im : option Z) (args : list Z) (kw : option Z) : res grid :=
  do kw <- match args with [] => Ok kw | [s] => Ok (Some s) | _ => Err ValueError end;
  match gshape a with
  | n_phi :: n_theta :: _ =>
    match orelse kw im with
    | None => Err ValueError
    | Some s => if (n_theta <? 2 * Z.abs s + 1) || (n_phi <? 2 * Z.abs s + 1) then Err NameError else Ok (mkgrid a s)
    end
  | _ => Err ValueError
  end.
(** [type(self)(a, **metadata)] *)
Definition gconstruct (a : garr) (s : Z) : res grid := Grid_new a None [] (Some s).

(** SWSH_grids/__init__.py:125-133 *)
Definition n_phi (g : grid) : Z := nth 0 (gshape (gdata g)) 0.
Definition n_theta (g : grid) : Z := nth 1 (gshape (gdata g)) 0.
(** All axes but the last two *)
Definition glead (g : grid) : list Z := tl (tl (gshape (gdata g))).

(** [g.copy()], [copy.copy(g)], [copy.deepcopy(g)]: ndarray's own methods with __init__.py:96-100 *)
Definition gcopy (g : grid) : grid := g.
(** SWSH_grids/__init__.py:103-106: [super(Modes, self)] in a module that does not define [Modes] *)
Definition gpickle (g : grid) : res (garr * Z) := Err NameError.

(** SWSH_grids/utilities.py:9-33; [map2salm] is the spinsfast transform, [ell_max] and [kwargs] the arguments.  Without
    ell_max (or with 0) the names n_phi and n_theta are undefined; otherwise [**metadata] unpacks the function [copy.copy]. *)
Definition Grid_modes (map2salm : garr -> Z -> Z -> garr) (g : grid) (ell_max : option Z) : res modes :=
  do L <- match ell_max with Some L => if L =? 0 then Err NameError else Ok L | None => Err NameError end;
  let salm := map2salm (gdata g) (gspin g) L in
  Err TypeError.

(** ** algebra.py *)

(** algebra.py:12-27; in place, the object itself gets the conjugated values and the new spin weight, without the check
    of the constructor *)
Definition gconjugate (self : grid) (inplace : bool) : res grid :=
  let c := nd_map Cconj (gdata self) in
  if inplace then Ok (mkgrid c (- gspin self)) else gconstruct c (- gspin self).
(** algebra.py:35-60 *)
Definition greal (self : grid) : res grid :=
  if negb (gspin self =? 0) then Err ValueError else gconstruct (nd_map (fun z => RtoC (Re z)) (gdata self)) (gspin self).
Definition gimag (self : grid) : res grid :=
  if negb (gspin self =? 0) then Err ValueError else gconstruct (nd_map (fun z => RtoC (Im z)) (gdata self)) (gspin self).
(** algebra.py:63-67 *)
Definition gabsolute (self : grid) : res grid := gconstruct (nd_map (fun z => RtoC (Cmod z)) (gdata self)) 0.

(** What the second operand can be *)
Inductive operand : Type := OG (g : grid) | OS (x : scalars).

Definition same_grid (a b : grid) : bool := (n_theta a =? n_theta b) && (n_phi a =? n_phi b).

(** algebra.py:70-83 *)
Definition gadd (self : grid) (other : operand) : res grid :=
  match other with
  | OG other =>
    if negb (gspin self =? gspin other) then Err ValueError
    else if negb (same_grid self other) then Err ValueError
    else do r <- nd_op Cplus (gdata self) (gdata other); gconstruct r (gspin self)
  | OS x =>
    if negb (gspin self =? 0) && np_any x then Err ValueError
    else do r <- nd_op Cplus (gdata self) (of_scalars x); gconstruct r (gspin self)
  end.
(** algebra.py:86-98; line 89 uses the undefined name [s] in the message *)
Definition gsubtract (self : grid) (other : operand) : res grid :=
  match other with
  | OG other =>
    if negb (gspin self =? gspin other) then Err NameError
    else if negb (same_grid self other) then Err ValueError
    else do r <- nd_op Cminus (gdata self) (gdata other); gconstruct r (gspin self)
  | OS x =>
    if negb (gspin self =? 0) && np_any x then Err ValueError
    else do r <- nd_op Cminus (gdata self) (of_scalars x); gconstruct r (gspin self)
  end.

(** utilities.py:36-66, for an operand that is not a Grid; [reverse] makes no difference.  [self[..., 0, 0]] needs a
    point on the grid. *)
Definition gcheck_broadcasting (self : grid) (sh : list Z) : res bool :=
  if (length (gshape (gdata self)) <? length sh + 2)%nat then Err ValueError
  else if (n_theta self <=? 0) || (n_phi self <=? 0) then Err IndexError
  else Ok (match broadcast (glead self) sh with Some _ => true | None => false end).

(** algebra.py:101-131; the scalar branch multiplies without adding axes *)
Definition gmultiply (self : grid) (other : operand) : res grid :=
  match other with
  | OG other =>
    if negb (same_grid self other) then Err ValueError
    else do r <- nd_op Cmult (gdata self) (gdata other); gconstruct r (gspin self + gspin other)
  | OS x =>
    do ok <- gcheck_broadcasting self (sc_shape x);
    if ok then do r <- nd_op Cmult (gdata self) (of_scalars x); gconstruct r (gspin self)
    else do ok <- gcheck_broadcasting self (sc_shape x);
         if ok then do r <- nd_op Cmult (of_scalars x) (gdata self); gconstruct r (gspin self) else Err ValueError
  end.
(** algebra.py:134-162 *)
Definition gdivide (self : grid) (other : operand) : res grid :=
  match other with
  | OG other =>
    if negb (same_grid self other) then Err ValueError
    else do r <- nd_op Cdiv (gdata self) (gdata other); gconstruct r (gspin self - gspin other)
  | OS x =>
    do ok <- gcheck_broadcasting self (sc_shape x);
    if ok then do r <- nd_op Cdiv (gdata self) (of_scalars x); gconstruct r (gspin self) else Err ValueError
  end.

(** ** ufuncs.py *)

(** The [out=] argument: a plain array or a Grid *)
Inductive outarg : Type := OutArr (a : garr) | OutGrid (g : grid).
Definition out_view (o : outarg) : garr := match o with OutArr a => a | OutGrid g => gdata g end.

(** numpy writes the result [r] into [out]: ValueError unless it broadcasts to the shape of [out]. *)
Definition into (r : garr) (out : option outarg) : res garr :=
  match out with
  | None => Ok r
  | Some o =>
    let sh := gshape (out_view o) in
    if broadcasts_to (gshape r) sh then Ok (mkgarr sh (fun idx => gval r (bidx (gshape r) idx))) else Err ValueError
  end.

(** What comes back: a Grid (with [out=], a view of it; a Grid passed as [out] then has the same metadata, so it is that
    object), an array of truth values, the plain array [out] (of complex type) with truth values in it as 1 and 0, whatever
    numpy does with plain arrays ([RPlain], not modelled further), [None], or NotImplemented *)
Inductive gresult : Type :=
| RGrid (g : grid) | RBool (sh : list Z) (b : list Z -> bool) | RArr (a : garr) | RPlain | RNone | RDecline.
(** ufuncs.py:16-19, a truth-valued result in a new array or in [out] *)
Definition finish_bool (out : option outarg) (sh : list Z) (b : list Z -> bool) : res gresult :=
  match out with
  | None => Ok (RBool sh b)
  | Some _ => do a <- into (mkgarr sh (fun idx => if b idx then RtoC 1 else RtoC 0)) out; Ok (RArr a)
  end.

(** [type(self)(ufunc(..., out=out_view), **metadata)] *)
Definition finish (r : res garr) (out : option outarg) (s : Z) : res gresult :=
  do r <- r; do r <- into r out; do g <- gconstruct r s; Ok (RGrid g).

Definition view (x : operand) : garr := match x with OG g => gdata g | OS x => of_scalars x end.
(** [args[i]] *)
Definition arg (args : list operand) (i : nat) : res operand :=
  match nth_error args i with Some x => Ok x | None => Err IndexError end.

(** [int(x)] of a size-one array; an entry with zero imaginary part is taken to be of a real type.  Towards zero. *)
Definition trunc (x : R) : Z := if Rlt_dec x 0 then (- Int_part (- x))%Z else Int_part x.
Definition int_of (x : operand) : option Z :=
  let a := view x in
  if forallb (fun n => n =? 1) (gshape a) then
    let z := gval a (map (fun _ => 0) (gshape a)) in
    if Creal_eq (Im z) 0 then Some (trunc (Re z)) else None
  else None.

(** ufuncs.py:12-176; [kwargs] tells whether there are further keyword arguments. *)
Definition grid_array_ufunc (self : grid) (u : ufunc) (m : umethod) (args : list operand) (out : option outarg)
    (kwargs : bool) : res gresult :=
  match relation u, predicate u with
  | Some rel, _ =>
    match m, kwargs with
    | m_call, false =>
      do a <- arg args 0; do b <- arg args 1;
      match broadcast (gshape (view a)) (gshape (view b)) with
      | None => Err ValueError
      | Some sh => finish_bool out sh (fun idx => rel (gval (view a) (bidx (gshape (view a)) idx)) (gval (view b) (bidx (gshape (view b)) idx)))
      end
    | _, _ => Ok RPlain
    end
  | None, Some p =>
    match m, kwargs with
    | m_call, false => do a <- arg args 0; finish_bool out (gshape (view a)) (fun idx => p (gval (view a) idx))
    | _, _ => Ok RPlain
    end
  | None, None =>
    match u with u_other => Ok RDecline | _ =>
    if kwargs then Err NotImplementedError else
    do r <-
      match u with
      | u_positive => finish (Ok (gdata self)) out (gspin self)
      | u_negative => finish (Ok (nd_map Copp (gdata self))) out (gspin self)
      | u_add | u_subtract =>
        let op := match u with u_add => Cplus | _ => Cminus end in
        do a <- arg args 0; do b <- arg args 1;
        match a, b with
        | OG g1, OG g2 =>
          if negb (gspin g1 =? gspin g2) then Err ValueError
          else if negb (same_grid g1 g2) then Err ValueError
          else finish (nd_op op (gdata g1) (gdata g2)) out (gspin self)
        | OG g, OS x =>
          if negb (gspin g =? 0) && np_any x then Ok RDecline else
          do ok <- gcheck_broadcasting g (sc_shape x);
          if negb ok then Ok RDecline else finish (nd_op op (gdata g) (newaxis2 x)) out (gspin self)
        | OS x, OG g =>
          if negb (gspin g =? 0) && np_any x then Ok RDecline else
          do ok <- gcheck_broadcasting g (sc_shape x);
          if negb ok then Ok RDecline else finish (nd_op op (newaxis2 x) (gdata g)) out (gspin self)
        | OS _, OS _ => Ok RDecline
        end
      | u_multiply | u_divide =>
        let op := match u with u_multiply => Cmult | _ => Cdiv end in
        do a <- arg args 0; do b <- arg args 1;
        match a, b with
        | OG g1, OG g2 =>
          if negb (same_grid g1 g2) then Err ValueError
          else finish (nd_op op (gdata g1) (gdata g2)) out
                 (match u with u_multiply => gspin g1 + gspin g2 | _ => gspin g1 - gspin g2 end)
        | OG g, OS x =>
          do ok <- gcheck_broadcasting g (sc_shape x);
          if negb ok then Ok RDecline else finish (nd_op op (gdata g) (newaxis2 x)) out (gspin g)
        | OS x, OG g =>
          do ok <- gcheck_broadcasting g (sc_shape x);
          if negb ok then Ok RDecline else finish (nd_op op (newaxis2 x) (gdata g)) out
                                             (match u with u_multiply => gspin g | _ => - gspin g end)
        | OS _, OS _ => Ok RDecline
        end
      | u_conjugate =>
        do a <- arg args 0;
        match a with OG g => finish (Ok (nd_map Cconj (gdata g))) out (- gspin g) | OS _ => Ok RDecline end
      | u_absolute =>
        do a <- arg args 0;
        match a with OG g => finish (Ok (nd_map (fun z => RtoC (Cmod z)) (gdata g))) out 0 | OS _ => Ok RDecline end
      | u_power =>
        do a <- arg args 0;
        match a with
        | OG g =>
          match nth_error args 1 with
          | Some b =>
            match int_of b with
            | Some e => finish (Ok (nd_map (fun z => Cpowz z e) (gdata g))) out (e * gspin g)
            | None => Ok RDecline
            end
          | None => Ok RDecline
          end
        | OS _ => Ok RDecline
        end
      | u_sqrt | u_square | u_reciprocal =>
        do a <- arg args 0;
        match a with
        | OG g =>
          match u with
          | u_sqrt => if negb (gspin g mod 2 =? 0) then Ok RDecline else finish (Ok (nd_map Csqrt (gdata g))) out (gspin g / 2)
          | u_square => finish (Ok (nd_map (fun z => z * z)%C (gdata g))) out (gspin g * 2)
          | _ => finish (Ok (nd_map Cinv (gdata g))) out (- gspin g)
          end
        | OS _ => Ok RDecline
        end
      | _ => Err NotImplementedError
      end;
    match r with RDecline => Ok RDecline | _ => match m with m_at => Ok RNone | _ => Ok r end end
    end
  end.

(** numpy: the override of the first Grid among the inputs, else of [out], is called; NotImplemented becomes TypeError. *)
Definition grid_ufunc (u : ufunc) (m : umethod) (args : list operand) (out : option outarg) (kwargs : bool) : res gresult :=
  if match m with m_rest => one_input u | _ => false end then Err ValueError else
  let self := match find (fun x => match x with OG _ => true | OS _ => false end) args with
              | Some (OG g) => Some g
              | _ => match out with Some (OutGrid g) => Some g | _ => None end
              end in
  match self with
  | None => Err TypeError
  | Some self =>
    do r <- grid_array_ufunc self u m args out kwargs;
    match r with RDecline => Err TypeError | r => Ok r end
  end.

(** ** spherical_functions/__init__.py:295-316 *)

(** [np.linspace(start, stop, num, endpoint)] in exact arithmetic: start + i*step, the last entry set to [stop]. *)
Definition linspace (start stop : R) (num : Z) (endpoint : bool) : res (arr R) :=
  if num <? 0 then Err ValueError else
  let div := if endpoint then num - 1 else num in
  Ok (mkarr num (fun i =>
        if endpoint && (1 <? num) && (i =? num - 1) then stop
        else if 0 <? div then (IZR i * ((stop - start) / IZR div) + start)%R
        else (IZR i * (stop - start) + start)%R)).
(** The entry [i, j, k] and the shape; an empty list comprehension loses the later axes. *)
Definition theta_phi (n_theta n_phi : Z) : res (list Z * (Z -> Z -> Z -> R)) :=
  do theta <- linspace 0 PI n_theta true;
  do phi <- (if n_theta =? 0 then Ok (mkarr 0 (fun _ => 0%R)) else linspace 0 (2 * PI) n_phi false);
  Ok (if alen theta =? 0 then [0] else if alen phi =? 0 then [n_theta; 0] else [n_theta; n_phi; 2],
      fun i j k => if k =? 0 then aget theta i else aget phi j).
