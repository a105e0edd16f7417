(** Model of spherical_functions/SWSH_modes/: the Modes container (__init__.py), algebra.py without multiplication,
    derivatives.py and utilities.py.  Exact complex arithmetic; dtype is complex throughout (the [.view(complex)] of
    __init__.py:110 is then the identity).

    numpy arrays are references into a heap of buffers, so that views alias: [a[..., :k]] and [a.view(cls)] are new
    references to the same buffer.  Every array here has a last axis ("columns", the modes) and any number of leading
    axes; package code only ever makes views that keep all leading axes and a prefix of the columns, which is what
    [ndarray] can express.  The effects of a call that raises are not recorded. *)
Require Import ZArith List Reals Bool.
From Coquelicot Require Import Complex.
From Verif Require Import Base CBase IndexModel PowersModel DRep WignerModel SWSHModel.
Import ListNotations.
Open Scope Z_scope.

(** ** numpy *)

(** [lead] lists the lengths of the leading axes from the last one to the first (the order in which broadcasting
    compares them); a leading index is a list in the same order. *)
Record ndarray : Type := mknd { buf : nat; lead : list Z; wid : Z }.
Record heap : Type := mkheap { next : nat; mem : nat -> list Z -> Z -> C }.

Definition alloc (h : heap) (ld : list Z) (w : Z) (data : list Z -> Z -> C) : heap * ndarray :=
  (mkheap (S (next h)) (fun b => if Nat.eqb b (next h) then data else mem h b), mknd (next h) ld w).

(** numpy index check: IndexError outside the axis *)
Definition col_index (w i : Z) : res Z :=
  let j := norm_index w i in if in_bounds w j then Ok j else Err IndexError.
(** [a[..., i]] *)
Definition rdcol (h : heap) (a : ndarray) (i : Z) : res (list Z -> C) :=
  do j <- col_index (wid a) i; Ok (fun idx => mem h (buf a) idx j).
(** [a[..., i] = v], [v] of the leading shape of [a] *)
Definition wrcol (h : heap) (a : ndarray) (i : Z) (v : list Z -> C) : res heap :=
  do j <- col_index (wid a) i;
  Ok (mkheap (next h) (fun b idx k => if Nat.eqb b (buf a) && (k =? j) then v idx else mem h b idx k)).

(** Python slice bounds [i:j] of an axis of length [w]: first column and number of columns *)
Definition clip (w i : Z) : Z := Z.max 0 (Z.min w (if i <? 0 then i + w else i)).
Definition slice_len (w i j : Z) : Z := Z.max 0 (clip w j - clip w i).
(** [a[..., i:j] = f(columns)], where [f idx k] is the value for the k-th column of the slice *)
Definition wrslice (h : heap) (a : ndarray) (i j : Z) (f : list Z -> Z -> C) : heap :=
  let i' := clip (wid a) i in let n := slice_len (wid a) i j in
  mkheap (next h) (fun b idx k => if Nat.eqb b (buf a) && ((i' <=? k) && (k <? i' + n)) then f idx (k - i') else mem h b idx k).

(** Broadcasting of shapes (lists from the last axis to the first) *)
Fixpoint broadcast (a b : list Z) : option (list Z) :=
  match a, b with
  | [], _ => Some b
  | _, [] => Some a
  | x :: a, y :: b =>
    match broadcast a b with
    | None => None
    | Some c => if x =? y then Some (x :: c) else if x =? 1 then Some (y :: c) else if y =? 1 then Some (x :: c) else None
    end
  end.
(** The index into an operand of shape [sh] for the index [idx] of the broadcast result *)
Fixpoint bidx (sh idx : list Z) : list Z :=
  match sh, idx with
  | n :: sh, i :: idx => (if n =? 1 then 0 else i) :: bidx sh idx
  | _, _ => []
  end.

(** ** The container *)

(** The [_metadata] dictionary. *)
Record meta : Type := mkmeta { spin : Z; ellmax : Z; truncator : option (Z -> Z -> Z) }.
Record modes : Type := mkmodes { nd : ndarray; md : meta }.

(** Keyword arguments of the constructor; [None] is "not passed". *)
Record kwargs : Type := mkkw
  { kw_spin : option Z; kw_ell_min : option Z; kw_ell_max : option Z; kw_trunc : option (Z -> Z -> Z) }.
Definition no_kw : kwargs := mkkw None None None None.
(** [**metadata] *)
Definition kw_of (m : meta) : kwargs := mkkw (Some (spin m)) None (Some (ellmax m)) (truncator m).

(** What [np.asanyarray(input).view(complex)] can be: zero-dimensional, or with a last axis. *)
Inductive input : Type := In0 (z : C) | InArr (a : ndarray).

Definition orelse {A} (x y : option A) : option A := match x with Some _ => x | None => y end.

(** SWSH_modes/__init__.py:100-106 *)
Definition positional (args : list Z) (kw : kwargs) : res kwargs :=
  match args with
  | [] => Ok kw
  | [s] => Ok (mkkw (Some s) (kw_ell_min kw) (kw_ell_max kw) (kw_trunc kw))
  | [s; l; L] => Ok (mkkw (Some s) (Some l) (Some L) (kw_trunc kw))
  | _ => Err ValueError
  end.

(** SWSH_modes/__init__.py:99-132 [Modes.__new__]; [im] is the [_metadata] of the input, if it has one *)
Definition Modes_new (h : heap) (a : input) (im : option meta) (args : list Z) (kw : kwargs) : res (heap * modes) :=
  do kw <- positional args kw;
  let ell_min := match kw_ell_min kw with Some l => l | None => 0 end in
  match orelse (kw_spin kw) (option_map spin im) with
  | None => Err ValueError
  | Some s =>
    do ell_max <- match orelse (kw_ell_max kw) (option_map ellmax im) with
                  | Some L => Ok L
                  | None => match a with
                            | In0 _ => Ok 0
                            | InArr a => LM_deduce_ell_max (wid a) ell_min
                            end
                  end;
    match a with
    | In0 _ => Err IndexError
    | InArr a =>
      if negb (wid a =? LM_total_size ell_min ell_max) then Err ValueError else
      let '(h, obj) :=
        if ell_min =? 0 then (h, a)
        else let k := LM_total_size 0 (ell_min - 1) in
             alloc h (lead a) (k + wid a)
                   (fun idx c => if c <? k then RtoC 0 else mem h (buf a) idx (c - k)) in
      let h := wrslice h obj 0 (LM_total_size 0 (Z.abs s - 1)) (fun _ _ => RtoC 0) in
      Ok (h, mkmodes obj (mkmeta s ell_max
              (orelse (kw_trunc kw) (match im with Some m => truncator m | None => None end))))
    end
  end.

(** [type(self)(array, **metadata)] for a freshly computed or existing plain array *)
Definition construct (h : heap) (a : ndarray) (m : meta) : res (heap * modes) :=
  Modes_new h (InArr a) None [] (kw_of m).

(** SWSH_modes/__init__.py:159-174; ell_min is always 0 *)
Definition ell_min_of (m : modes) : Z := 0.

(** SWSH_modes/utilities.py:9-27 *)
Definition index (m : modes) (ell mm : Z) : res Z :=
  if (ell <? Z.abs (spin (md m))) || (ell <? Z.abs mm) then Err ValueError
  else if (ell <? ell_min_of m) || (ell >? ellmax (md m)) then Err ValueError
  else Ok (LM_index ell mm (ell_min_of m)).

(** SWSH_modes/utilities.py:30-41; [self[..., :k]] is a view, with its own copy of the metadata (__init__.py:135-141) *)
Definition truncate_ell (m : modes) (new_ell_max : Z) : res modes :=
  if new_ell_max >=? ellmax (md m) then Ok m
  else do i <- index m new_ell_max new_ell_max;
       Ok (mkmodes (mknd (buf (nd m)) (lead (nd m)) (slice_len (wid (nd m)) 0 (i + 1)))
                   (mkmeta (spin (md m)) new_ell_max (truncator (md m)))).

(** [m.copy()], [copy.copy(m)], [copy.deepcopy(m)], [np.array(m, copy=True, subok=True)] *)
Definition copy (h : heap) (m : modes) : heap * modes :=
  let '(h, a) := alloc h (lead (nd m)) (wid (nd m)) (mem h (buf (nd m))) in (h, mkmodes a (md m)).

(** [np.zeros_like(x)] *)
Definition zeros_like (h : heap) (a : ndarray) : heap * ndarray := alloc h (lead a) (wid a) (fun _ _ => RtoC 0).

(** ** algebra.py *)

(** algebra.py:47-58, also ufuncs.py:152-163: the conjugation loop from array [s] into array [c], which may be one and
    the same *)
Definition conj_loop (s c : ndarray) (spin ell_max : Z) (h : heap) : res heap :=
  for_range (Z.abs spin) (ell_max + 1) (fun ell h =>
    let i := LM_index ell 0 0 in
    do v <- rdcol h s i;
    do h <- (if spin mod 2 =? 0 then wrcol h c i (fun idx => Cconj (v idx))
             else wrcol h c i (fun idx => - Cconj (v idx))%C);
    for_range 1 (ell + 1) (fun m h =>
      let i_p := LM_index ell m 0 in let i_n := LM_index ell (- m) 0 in
      do vn <- rdcol h s i_n;
      do vp <- rdcol h s i_p;
      if (spin + m) mod 2 =? 0 then
        do h <- wrcol h c i_p (fun idx => Cconj (vn idx)); wrcol h c i_n (fun idx => Cconj (vp idx))
      else
        do h <- wrcol h c i_p (fun idx => - Cconj (vn idx))%C; wrcol h c i_n (fun idx => - Cconj (vp idx))%C) h) h.

(** algebra.py:14-64 *)
Definition conjugate (h : heap) (self : modes) (inplace : bool) : res (heap * modes) :=
  let s := nd self in
  let '(h, c) := if inplace then (h, s) else zeros_like h s in
  do h <- conj_loop s c (spin (md self)) (ellmax (md self)) h;
  let m := mkmeta (- spin (md self)) (ellmax (md self)) (truncator (md self)) in
  if inplace then Ok (h, mkmodes s m) else construct h c m.

(** algebra.py:94-104 *)
Definition real_loop (s c : ndarray) (ell_max : Z) (h : heap) : res heap :=
  for_range 0 (ell_max + 1) (fun ell h =>
    let i := LM_index ell 0 0 in
    do v <- rdcol h s i;
    do h <- wrcol h c i (fun idx => RtoC (Re (v idx)));
    for_range 1 (ell + 1) (fun m h =>
      let i_p := LM_index ell m 0 in let i_n := LM_index ell (- m) 0 in
      do vp <- rdcol h s i_p;
      do vn <- rdcol h s i_n;
      if m mod 2 =? 0 then
        do h <- wrcol h c i_p (fun idx => (vp idx + Cconj (vn idx)) / RtoC 2)%C;
        do w <- rdcol h c i_p;
        wrcol h c i_n (fun idx => Cconj (w idx))
      else
        do h <- wrcol h c i_p (fun idx => (vp idx - Cconj (vn idx)) / RtoC 2)%C;
        do w <- rdcol h c i_p;
        wrcol h c i_n (fun idx => - Cconj (w idx))%C) h) h.

(** algebra.py:73-107 *)
Definition real_func (h : heap) (self : modes) (inplace : bool) : res (heap * modes) :=
  if negb (spin (md self) =? 0) then Err ValueError else
  let s := nd self in
  let '(h, c) := if inplace then (h, s) else zeros_like h s in
  do h <- real_loop s c (ellmax (md self)) h;
  if inplace then Ok (h, self) else construct h c (md self).

(** algebra.py:142-154; [-1j * x / 2] *)
Definition imag_loop (s c : ndarray) (ell_max : Z) (h : heap) : res heap :=
  for_range 0 (ell_max + 1) (fun ell h =>
    let i := LM_index ell 0 0 in
    do v <- rdcol h s i;
    do h <- wrcol h c i (fun idx => RtoC (Im (v idx)));
    for_range 1 (ell + 1) (fun m h =>
      let i_p := LM_index ell m 0 in let i_n := LM_index ell (- m) 0 in
      do vp <- rdcol h s i_p;
      do vn <- rdcol h s i_n;
      if m mod 2 =? 0 then
        do h <- wrcol h c i_p (fun idx => - Ci * (vp idx - Cconj (vn idx)) / RtoC 2)%C;
        do w <- rdcol h c i_p;
        wrcol h c i_n (fun idx => Cconj (w idx))
      else
        do h <- wrcol h c i_p (fun idx => - Ci * (vp idx + Cconj (vn idx)) / RtoC 2)%C;
        do w <- rdcol h c i_p;
        wrcol h c i_n (fun idx => - Cconj (w idx))%C) h) h.

(** algebra.py:115-157 *)
Definition imag_func (h : heap) (self : modes) (inplace : bool) : res (heap * modes) :=
  if negb (spin (md self) =? 0) then Err ValueError else
  let s := nd self in
  let '(h, c) := if inplace then (h, s) else zeros_like h s in
  do h <- imag_loop s c (ellmax (md self)) h;
  if inplace then Ok (h, self) else construct h c (md self).

(** [x_0 + ... + x_(n-1)] *)
Fixpoint rsum_to (n : nat) (f : Z -> R) : R :=
  match n with O => 0%R | S n => (rsum_to n f + f (Z.of_nat n))%R end.

(** algebra.py:165-166 [np.linalg.norm(..., axis=-1)]: square root of the sum of the squared moduli of the columns *)
Definition norm (h : heap) (m : modes) : list Z -> R :=
  fun idx => sqrt (rsum_to (Z.to_nat (wid (nd m))) (fun k => (Cmod (mem h (buf (nd m)) idx k)) ^ 2)%R).

(** ufuncs.py:172-173 [np.absolute(m)]: [np.abs(args[0].ndarray)], a plain array with the mode axis still there *)
Definition np_absolute (h : heap) (m : modes) : list Z -> Z -> R := fun idx k => Cmod (mem h (buf (nd m)) idx k).

(** [result[..., i:j] = b] and [result[..., i:j] += b] with numpy broadcasting of [b] (a by-value copy [bv] of an array
    of leading shape [bl] and width [bw]): ValueError when [b] does not broadcast to the slice. *)
Definition broadcasts_to (a b : list Z) : bool :=
  match broadcast a b with
  | Some c => (length c =? length b)%nat && forallb (fun '(x, y) => x =? y) (combine c b)
  | None => false
  end.
Definition assign_slice (h : heap) (r : ndarray) (i j : Z) (bl : list Z) (bw : Z) (bv : list Z -> Z -> C)
    (op : C -> C -> C) : res heap :=
  if broadcasts_to (bw :: bl) (slice_len (wid r) i j :: lead r) then
    Ok (wrslice h r i j (fun idx k => op (mem h (buf r) idx (clip (wid r) i + k))
                                        (bv (bidx bl idx) (if bw =? 1 then 0 else k))))
  else Err ValueError.

(** algebra.py:176-186, ufuncs.py:52-60: the body of addition into the array [result] *)
Definition add_into (h : heap) (self other : modes) (result : ndarray) (subtraction : bool) : res heap :=
  let i_s1 := LM_total_size 0 (ell_min_of self - 1) in
  let i_s2 := i_s1 + LM_total_size (ell_min_of self) (ellmax (md self)) in
  let i_o1 := LM_total_size 0 (ell_min_of other - 1) in
  let i_o2 := i_o1 + LM_total_size (ell_min_of other) (ellmax (md other)) in
  do h <- assign_slice h result i_s1 i_s2 (lead (nd self)) (wid (nd self)) (mem h (buf (nd self))) (fun _ y => y);
  assign_slice h result i_o1 i_o2 (lead (nd other)) (wid (nd other)) (mem h (buf (nd other)))
               (if subtraction then Cminus else Cplus).

(** algebra.py:169-191, both operands Modes *)
Definition add (h : heap) (self other : modes) (subtraction : bool) : res (heap * modes) :=
  if negb (spin (md self) =? spin (md other)) then Err ValueError else
  let ell_max := Z.max (ellmax (md self)) (ellmax (md other)) in
  do _ <- rdcol h (nd self) 0;
  do _ <- rdcol h (nd other) 0;
  match broadcast (lead (nd self)) (lead (nd other)) with
  | None => Err ValueError
  | Some sh =>
    let '(h, result) := alloc h sh (LM_total_size 0 ell_max) (fun _ _ => RtoC 0) in
    do h <- add_into h self other result subtraction;
    construct h result (mkmeta (spin (md self)) ell_max (truncator (md self)))
  end.
(** algebra.py:198-202 *)
Definition subtract (h : heap) (self other : modes) : res (heap * modes) :=
  if negb (spin (md self) =? spin (md other)) then Err ValueError else add h self other true.

(** ufuncs.py:38-70 with [out=result]: addition into an existing plain or Modes array.  Different spin weights give
    NotImplemented, which numpy turns into TypeError.  The returned object is a view of [result]; when [result] is a
    Modes object its metadata become those of the returned object (so it is that object). *)
Definition np_add_out (h : heap) (m1 m2 : modes) (result : ndarray) (subtraction : bool) : res (heap * modes) :=
  if negb (spin (md m1) =? spin (md m2)) then Err TypeError else
  let ell_max := Z.max (ellmax (md m1)) (ellmax (md m2)) in
  do _ <- rdcol h (nd m1) 0;
  do _ <- rdcol h (nd m2) 0;
  match broadcast (lead (nd m1)) (lead (nd m2)) with
  | None => Err ValueError
  | Some _ =>
    do h <- add_into h m1 m2 result subtraction;
    construct h result (mkmeta (spin (md m1)) ell_max (truncator (md m1)))
  end.
(** ufuncs.py:38-67 without [out=]: [m1 + m2] and [m1 - m2] *)
Definition np_add (h : heap) (m1 m2 : modes) (subtraction : bool) : res (heap * modes) :=
  match add h m1 m2 subtraction with
  | Ok r => Ok r
  | Err e => Err (if spin (md m1) =? spin (md m2) then e else TypeError)
  end.

(** A scalar or array operand: shape (last axis to first) and entries. *)
Record scalars : Type := mkscalars { sc_shape : list Z; sc_val : list Z -> C }.
(** All indices of an array of the given shape *)
Fixpoint all_idx (sh : list Z) : list (list Z) :=
  match sh with
  | [] => [[]]
  | n :: sh => flat_map (fun i => map (cons (Z.of_nat i)) (all_idx sh)) (seq 0 (Z.to_nat n))
  end.
Definition Ceqb (x y : C) : bool := if Req_EM_T (Re x) (Re y) then if Req_EM_T (Im x) (Im y) then true else false else false.
(** [np.any] *)
Definition np_any (x : scalars) : bool := existsb (fun idx => negb (Ceqb (sc_val x idx) (RtoC 0))) (all_idx (sc_shape x)).

(** utilities.py:95-128, for an operand that is not a Modes object; [reverse] makes no difference *)
Definition check_broadcasting (h : heap) (self : modes) (sh : list Z) : res bool :=
  if (length (lead (nd self)) <? length sh)%nat then Err ValueError
  else do _ <- rdcol h (nd self) 0;
       Ok (match broadcast (lead (nd self)) sh with Some _ => true | None => false end).

(** ufuncs.py:111-118, 119-127, 131-141: [ufunc(modes.view(np.ndarray), scalars[..., np.newaxis])] and the constructor;
    NotImplemented becomes TypeError *)
Definition scalar_op (op : C -> C -> C) (h : heap) (self : modes) (x : scalars) : res (heap * modes) :=
  do ok <- check_broadcasting h self (sc_shape x);
  if negb ok then Err TypeError else
  match broadcast (lead (nd self)) (sc_shape x) with
  | None => Err ValueError
  | Some sh =>
    let '(h', a) := alloc h sh (wid (nd self))
      (fun idx k => op (mem h (buf (nd self)) (bidx (lead (nd self)) idx) k) (sc_val x (bidx (sc_shape x) idx))) in
    construct h' a (md self)
  end.
(** [self * x] and [self / x] *)
Definition mul_scalar := scalar_op Cmult.
Definition div_scalar := scalar_op Cdiv.
(** algebra.py:257-265: [self.multiply(x)] for an operand that is not a Modes object *)
Definition multiply_scalar (h : heap) (self : modes) (x : scalars) : res (heap * modes) :=
  do ok <- check_broadcasting h self (sc_shape x);
  if ok then mul_scalar h self x
  else do ok <- check_broadcasting h self (sc_shape x);
       if ok then mul_scalar h self x else Err ValueError.
(** ufuncs.py:71-88: [self + x], [x + self], [self - x], [x - self] *)
Definition add_scalar (op : C -> C -> C) (h : heap) (self : modes) (x : scalars) : res (heap * modes) :=
  if np_any x then Err TypeError else scalar_op op h self x.
(** algebra.py:192-195 and 203-206: [self.add(x)], [self.subtract(x)] *)
Definition add_method_scalar (op : C -> C -> C) (h : heap) (self : modes) (x : scalars) : res (heap * modes) :=
  if np_any x then Err ValueError else add_scalar op h self x.

(** ** derivatives.py *)

(** [d[..., d.index(ell,-ell):d.index(ell,ell)+1] = factor * s[..., self.index(ell,-ell):self.index(ell,ell)+1]] *)
Definition scale_ell (d self : modes) (factor : R) (ell : Z) (h : heap) : res heap :=
  do a <- index d ell (- ell);
  do b <- index d ell ell;
  do a' <- index self ell (- ell);
  do b' <- index self ell ell;
  let n' := slice_len (wid (nd self)) a' (b' + 1) in
  assign_slice h (nd d) a (b + 1) (lead (nd self)) n'
    (fun idx k => RtoC factor * mem h (buf (nd self)) idx (clip (wid (nd self)) a' + k))%C (fun _ y => y).

(** derivatives.py:12-43; both index calls are on [d], which has the metadata of [self] *)
Definition Lsquared (h : heap) (self : modes) : res (heap * modes) :=
  let '(h, d) := copy h self in
  do h <- for_range (Z.abs (spin (md self))) (ellmax (md self) + 1) (fun ell h =>
            scale_ell d self (IZR (ell * (ell + 1))) ell h) h;
  Ok (h, d).

(** derivatives.py:46-67 *)
Definition Lz (h : heap) (self : modes) : res (heap * modes) :=
  let '(h, d) := copy h self in
  do h <- for_range (Z.abs (spin (md self))) (ellmax (md self) + 1) (fun ell h =>
    for_range (- ell) (ell + 1) (fun m h =>
      do j <- index self ell m;
      do v <- rdcol h (nd self) j;
      do i <- index d ell m;
      wrcol h (nd d) i (fun idx => RtoC (IZR m) * v idx)%C) h) h;
  Ok (h, d).

(** [np.zeros_like(self)] for a Modes object keeps the metadata *)
Definition zeros_like_modes (h : heap) (m : modes) : heap * modes :=
  let '(h, a) := zeros_like h (nd m) in (h, mkmodes a (md m)).

(** derivatives.py:70-107 *)
Definition Lplus (h : heap) (self : modes) : res (heap * modes) :=
  let '(h, d) := zeros_like_modes h self in
  do h <- for_range (Z.abs (spin (md self))) (ellmax (md self) + 1) (fun ell h =>
    do i0 <- index self ell (- ell);
    do h <- wrcol h (nd d) i0 (fun _ => RtoC 0);
    for_range (- ell + 1) (ell + 1) (fun m h =>
      do j <- index self ell (m - 1);
      do v <- rdcol h (nd self) j;
      do i <- index d ell m;
      wrcol h (nd d) i (fun idx => RtoC (sqrt (IZR ((ell + m) * (ell - m + 1)))) * v idx)%C) h) h;
  Ok (h, d).

(** derivatives.py:110-148 *)
Definition Lminus (h : heap) (self : modes) : res (heap * modes) :=
  let '(h, d) := zeros_like_modes h self in
  do h <- for_range (Z.abs (spin (md self))) (ellmax (md self) + 1) (fun ell h =>
    do h <- for_range (- ell) ell (fun m h =>
      do j <- index self ell (m + 1);
      do v <- rdcol h (nd self) j;
      do i <- index self ell m;
      wrcol h (nd d) i (fun idx => RtoC (sqrt (IZR ((ell - m) * (ell + m + 1)))) * v idx)%C) h;
    do i <- index self ell ell;
    wrcol h (nd d) i (fun _ => RtoC 0)) h;
  Ok (h, d).

(** derivatives.py:151-176 *)
Definition Rsquared (h : heap) (self : modes) : res (heap * modes) := Lsquared h self.

(** derivatives.py:179-212 *)
Definition Rz (h : heap) (self : modes) : res (heap * modes) :=
  let '(h', a) := alloc h (lead (nd self)) (wid (nd self))
                    (fun idx k => RtoC (IZR (- spin (md self))) * mem h (buf (nd self)) idx k)%C in
  construct h' a (md self).

(** derivatives.py:215-262 and 265-314: the common shape of Rplus and Rminus *)
Definition R_shift (ds : Z) (factor : Z -> Z -> R) (h : heap) (self : modes) : res (heap * modes) :=
  let m := mkmeta (spin (md self) + ds) (ellmax (md self)) (truncator (md self)) in
  let '(h, a) := zeros_like h (nd self) in
  do ' (h, d) <- Modes_new h (InArr a) None []
       (mkkw (Some (spin m)) (Some (Z.min (Z.abs (spin m)) (ell_min_of self))) (Some (ellmax m)) (truncator m));
  do h <- for_range (Z.max (Z.abs (spin (md d))) (Z.abs (spin (md self)))) (ellmax (md d) + 1) (fun ell h =>
    if ell >=? ell_min_of self then scale_ell d self (factor (spin (md d)) ell) ell h else Ok h) h;
  Ok (h, d).
(** derivatives.py:215-262; [math.sqrt((ell-d.s)*(ell+d.s+1))] *)
Definition Rplus : heap -> modes -> res (heap * modes) :=
  R_shift (-1) (fun s ell => sqrt (IZR ((ell - s) * (ell + s + 1)))).
(** derivatives.py:265-314; [math.sqrt((ell+d.s)*(ell-d.s+1))] *)
Definition Rminus : heap -> modes -> res (heap * modes) :=
  R_shift 1 (fun s ell => sqrt (IZR ((ell + s) * (ell - s + 1)))).

(** ufuncs.py:32-36 without [out=]: [type(self)(ufunc(self.view(np.ndarray)), **self._metadata)] *)
Definition negative (h : heap) (self : modes) : res (heap * modes) :=
  let '(h', a) := alloc h (lead (nd self)) (wid (nd self)) (fun idx k => - mem h (buf (nd self)) idx k)%C in
  construct h' a (md self).

(** derivatives.py:317-334 *)
Definition eth (h : heap) (self : modes) : res (heap * modes) := Rminus h self.
(** derivatives.py:337-355 *)
Definition ethbar (h : heap) (self : modes) : res (heap * modes) :=
  do ' (h, d) <- Rplus h self; negative h d.

(** ** Evaluation *)

Fixpoint csum_to (n : nat) (f : Z -> C) : C :=
  match n with O => RtoC 0 | S n => (csum_to n f + f (Z.of_nat n))%C end.

(** utilities.py:83-92; the array of rotors is flattened.  [np.tensordot] raises ValueError when the contracted axes
    differ in length. *)
Definition evaluate (tab : arr R) (lm_garbage : Z -> Z * Z) (h : heap) (self : modes) (Rs : arr quat)
  : res (list Z -> Z -> C) :=
  do SWSHs <- SWSH_grid tab lm_garbage Rs (spin (md self)) (ellmax (md self));
  let lo := LM_index (ell_min_of self) (- ell_min_of self) 0 in
  let hi := LM_index (ellmax (md self)) (ellmax (md self)) 0 + 1 in
  let n := slice_len (ncol SWSHs) lo hi in
  if negb (n =? wid (nd self)) then Err ValueError
  else Ok (fun idx i => csum_to (Z.to_nat n) (fun k =>
             mem h (buf (nd self)) idx k * get2 SWSHs i (clip (ncol SWSHs) lo + k))%C).
