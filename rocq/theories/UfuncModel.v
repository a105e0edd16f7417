(** Model of spherical_functions/SWSH_modes/ufuncs.py:14-185, [Modes.__array_ufunc__], and of the way numpy calls it.
    Exact complex arithmetic, arrays as references (see ModesModel).  Division by zero, which gives inf or nan in numpy,
    is whatever Coq's total division gives.  The effects of a call that raises are not recorded. *)
Require Import ZArith List Reals Bool.
From Coquelicot Require Import Complex.
From Verif Require Import Base CBase IndexModel Wigner3jModel ModesModel MultModel.
From Verif Require GridModel.
Import ListNotations.
Open Scope Z_scope.

(** The ufuncs and their methods, as enumerated for Grid. *)
Import GridModel (ufunc(..), umethod(..), truthy).

(** An input is a Modes object or anything else that numpy takes for an array (by value: numpy itself takes care of
    inputs that overlap with [out]). *)
Inductive operand : Type := OM (m : modes) | OS (x : scalars).
(** The [out=] argument: a plain array or a Modes object, of at least one dimension. *)
Inductive outarg : Type := OutArr (a : ndarray) | OutModes (m : modes).
Definition out_nd (o : outarg) : ndarray := match o with OutArr a => a | OutModes m => nd m end.

(** What comes back: a Modes object (with [out=] a view of it; a Modes object passed as [out] has been given the same
    metadata, so it is that object), a plain array of truth values or of real numbers, the [out] array itself, whatever
    a method of the ufunc other than a plain call gives for plain arrays, [None], or NotImplemented *)
Inductive mresult : Type :=
| RModes (m : modes) | RBool (sh : list Z) (b : list Z -> bool) | RReal (sh : list Z) (v : list Z -> R)
| RArr (a : ndarray) | RPlain | RNone | RDecline.

(** [args[i]] *)
Definition arg (args : list operand) (i : nat) : res operand :=
  match nth_error args i with Some x => Ok x | None => Err IndexError end.

(** The plain array of an operand: shape (last axis to first) and entries *)
Definition view (h : heap) (x : operand) : scalars :=
  match x with
  | OM m => mkscalars (wid (nd m) :: lead (nd m)) (fun idx => mem h (buf (nd m)) (tl idx) (hd 0 idx))
  | OS x => x
  end.

(** ufuncs.py:16 *)
Definition relation (u : ufunc) : option (C -> C -> bool) :=
  match u with
  | u_not_equal => Some (fun x y => negb (Ceqb x y))
  | u_equal => Some Ceqb
  | u_logical_and => Some (fun x y => truthy x && truthy y)
  | u_logical_or => Some (fun x y => truthy x || truthy y)
  | _ => None
  end.
(** entries are numbers in this model, never inf or nan *)
Definition predicate (u : ufunc) : option (C -> bool) :=
  match u with
  | u_isfinite => Some (fun _ => true)
  | u_isinf | u_isnan => Some (fun _ => false)
  | _ => None
  end.

(** numpy writes a result of leading shape [ld] and width [w] into [a]; ValueError if it does not broadcast to it *)
Definition into (h : heap) (a : ndarray) (ld : list Z) (w : Z) (v : list Z -> Z -> C) : res heap :=
  assign_slice h a 0 (wid a) ld w v (fun _ y => y).

(** A truth-valued result, in a new array or in [out] *)
Definition finish_bool (h : heap) (out : option outarg) (sh : list Z) (b : list Z -> bool) : res (heap * mresult) :=
  match out with
  | None => Ok (h, RBool sh b)
  | Some o =>
    let w := hd 1 sh in let ld := tl sh in
    do h <- into h (out_nd o) ld w (fun idx k => if b (match sh with [] => [] | _ => k :: idx end) then RtoC 1 else RtoC 0);
    Ok (h, RArr (out_nd o))
  end.

(** ufuncs.py:32-36, [np.positive] and [np.negative]: the values come from [self], whatever [args] are *)
Definition unary (op : C -> C) (h : heap) (self : modes) (out : option outarg) : res (heap * mresult) :=
  let v := fun idx k => op (mem h (buf (nd self)) idx k) in
  do '(h, a) <- match out with
                | None => Ok (alloc h (lead (nd self)) (wid (nd self)) v)
                | Some o => do h <- into h (out_nd o) (lead (nd self)) (wid (nd self)) v; Ok (h, out_nd o)
                end;
  do '(h, r) <- construct h a (md self);
  Ok (h, RModes r).

(** ufuncs.py:69-76, 77-84, 118-125, 126-133, 137-145: [type(self)(ufunc(modes.view(np.ndarray), scalars[..., np.newaxis],
    out=out), **self._metadata)].  A Modes object in [out] makes numpy call its own override again, with two plain
    arrays, which is declined (:85-86, 134-135, 138-139). *)
Definition scalar (op : C -> C -> C) (h : heap) (self m : modes) (x : scalars) (out : option outarg) : res (heap * mresult) :=
  do ok <- check_broadcasting h m (sc_shape x);
  if negb ok then Ok (h, RDecline) else
  match broadcast (lead (nd m)) (sc_shape x) with
  | None => Err ValueError
  | Some sh =>
    let v := fun idx k => op (mem h (buf (nd m)) (bidx (lead (nd m)) idx) k) (sc_val x (bidx (sc_shape x) idx)) in
    do '(h, a) <- match out with
                  | None => Ok (alloc h sh (wid (nd m)) v)
                  | Some (OutArr o) => do h <- into h o sh (wid (nd m)) v; Ok (h, o)
                  | Some (OutModes _) => Err TypeError
                  end;
    do '(h, r) <- construct h a (md self);
    Ok (h, RModes r)
  end.

(** [c[..., i] = v] with [v] of leading shape [ld] *)
Definition wrcolb (h : heap) (c : ndarray) (ld : list Z) (i : Z) (v : list Z -> C) : res heap :=
  if list_eq_dec Z.eq_dec ld (lead c) then wrcol h c i v else
  if broadcasts_to ld (lead c) then wrcol h c i (fun idx => v (bidx ld idx)) else Err ValueError.

(** ufuncs.py:152-163 into an array [c] that need not have the shape of [s] *)
Definition conj_out_loop (s c : ndarray) (spin ell_max : Z) (h : heap) : res heap :=
  for_range (Z.abs spin) (ell_max + 1) (fun ell h =>
    let i := LM_index ell 0 0 in
    do v <- rdcol h s i;
    do h <- (if spin mod 2 =? 0 then wrcolb h c (lead s) i (fun idx => Cconj (v idx))
             else wrcolb h c (lead s) i (fun idx => - Cconj (v idx))%C);
    for_range 1 (ell + 1) (fun m h =>
      let i_p := LM_index ell m 0 in let i_n := LM_index ell (- m) 0 in
      do vn <- rdcol h s i_n;
      do vp <- rdcol h s i_p;
      if (spin + m) mod 2 =? 0 then
        do h <- wrcolb h c (lead s) i_p (fun idx => Cconj (vn idx)); wrcolb h c (lead s) i_n (fun idx => Cconj (vp idx))
      else
        do h <- wrcolb h c (lead s) i_p (fun idx => - Cconj (vn idx))%C; wrcolb h c (lead s) i_n (fun idx => - Cconj (vp idx))%C) h) h.

(** ufuncs.py:148-171 *)
Definition conj_branch (h : heap) (m : modes) (out : option outarg) : res (heap * mresult) :=
  let meta := mkmeta (- spin (md m)) (ellmax (md m)) (truncator (md m)) in
  do '(h, r) <- match out with
                | None => let '(h, c) := zeros_like h (nd m) in
                          do h <- conj_out_loop (nd m) c (spin (md m)) (ellmax (md m)) h; construct h c meta
                | Some o => do h <- conj_out_loop (nd m) (out_nd o) (spin (md m)) (ellmax (md m)) h;
                            Modes_new h (InArr (out_nd o)) (match o with OutArr _ => None | OutModes x => Some (md x) end)
                                      [] (kw_of meta)
                end;
  Ok (h, RModes r).

(** ufuncs.py:14-185; [w], [gs], [gm] are the parameters of the 3-j calculators, [kw] tells whether there are further
    keyword arguments *)
Definition array_ufunc (w : widths) (gs gm : Z -> R) (h : heap) (self : modes) (u : ufunc) (meth : umethod)
    (args : list operand) (out : option outarg) (kw : bool) : res (heap * mresult) :=
  match relation u, predicate u with
  | Some _, _ | None, Some _ =>
    match meth, kw with
    | m_call, false =>
      match relation u, predicate u with
      | Some rel, _ =>
        do a <- arg args 0; do b <- arg args 1;
        let va := view h a in let vb := view h b in
        match broadcast (sc_shape va) (sc_shape vb) with
        | None => Err ValueError
        | Some sh => finish_bool h out sh (fun idx => rel (sc_val va (bidx (sc_shape va) idx)) (sc_val vb (bidx (sc_shape vb) idx)))
        end
      | None, Some p =>
        do a <- arg args 0; let va := view h a in finish_bool h out (sc_shape va) (fun idx => p (sc_val va idx))
      | None, None => Ok (h, RDecline)
      end
    | _, _ => Ok (h, RPlain)
    end
  | None, None =>
    match u with
    | u_positive | u_negative | u_add | u_subtract | u_multiply | u_divide | u_conjugate | u_absolute =>
      if kw then Err NotImplementedError else
      match u with
      | u_absolute =>
        do a <- arg args 0;
        match a with
        | OM m => Ok (h, RReal (wid (nd m) :: lead (nd m)) (fun idx => Cmod (mem h (buf (nd m)) (tl idx) (hd 0 idx))))
        | OS _ => Err AttributeError
        end
      | _ =>
        do '(h, r) <-
          match u with
          | u_positive => unary (fun z => z) h self out
          | u_negative => unary Copp h self out
          | u_add | u_subtract =>
            let sub := match u with u_subtract => true | _ => false end in
            let op := if sub then Cminus else Cplus in
            do a <- arg args 0; do b <- arg args 1;
            match a, b with
            | OM m1, OM m2 =>
              if negb (spin (md m1) =? spin (md m2)) then Ok (h, RDecline) else
              do '(h, r) <- match out with None => np_add h m1 m2 sub | Some o => np_add_out h m1 m2 (out_nd o) sub end;
              Ok (h, RModes r)
            | OM m, OS x => if np_any x then Ok (h, RDecline) else scalar op h self m x out
            | OS x, OM m => if np_any x then Ok (h, RDecline) else scalar (fun a b => op b a) h self m x out
            | OS _, OS _ => Ok (h, RDecline)
            end
          | u_multiply =>
            do a <- arg args 0; do b <- arg args 1;
            match a, b with
            | OM m1, OM m2 =>
              do '(h, r) <- match out with
                            | None => multiply w gs gm h m1 m2 None
                            | Some o => np_multiply_out w gs gm h m1 m2 (out_nd o)
                            end;
              Ok (h, RModes r)
            | OM m, OS x => scalar Cmult h self m x out
            | OS x, OM m => scalar (fun a b => b * a)%C h self m x out
            | OS _, OS _ => Ok (h, RDecline)
            end
          | u_divide =>
            do b <- arg args 1; do a <- arg args 0;
            match a, b with
            | OM m, OS x => scalar Cdiv h self m x out
            | _, _ => Ok (h, RDecline)
            end
          | _ => (* u_conjugate *)
            do a <- arg args 0;
            match a with OM m => conj_branch h m out | OS _ => Ok (h, RDecline) end
          end;
        match r with RDecline => Ok (h, RDecline) | _ => match meth with m_at => Ok (h, RNone) | _ => Ok (h, r) end end
      end
    | _ => Ok (h, RDecline)
    end
  end.

(** numpy: the override of the first Modes object among the inputs, else of [out], is called; NotImplemented becomes
    TypeError.  Without any, the ufunc does not concern this package. *)
Definition modes_ufunc (w : widths) (gs gm : Z -> R) (h : heap) (u : ufunc) (meth : umethod) (args : list operand)
    (out : option outarg) (kw : bool) : res (heap * mresult) :=
  if match meth with m_rest => GridModel.one_input u | _ => false end then Err ValueError else
  let self := match find (fun x => match x with OM _ => true | OS _ => false end) args with
              | Some (OM m) => Some m
              | _ => match out with Some (OutModes m) => Some m | _ => None end
              end in
  match self with
  | None => Err TypeError
  | Some self =>
    do '(h, r) <- array_ufunc w gs gm h self u meth args out kw;
    match r with RDecline => Err TypeError | _ => Ok (h, r) end
  end.
