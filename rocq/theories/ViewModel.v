(** Model of indexing, copying and pickling of Modes objects: numpy's basic indexing on strided memory with
    spherical_functions/SWSH_modes/__init__.py:134-156 ([__array_finalize__], [__reduce__], [__setstate__]).  numpy's part is
    modelled from its documentation.  Indexing with arrays of indices or truth values is not modelled. *)
Require Import ZArith List Bool Reals.
From Coquelicot Require Import Complex.
From Verif Require Import Base CBase DRep WignerModel SWSHModel ModesModel HCallModel SWSHCallModel.
Import ListNotations.
Open Scope Z_scope.

(** ** numpy: strided views *)

(** Memory: buffers of complex numbers.  An array is a buffer, its shape from the first axis to the last, the address of its
    first element and the step in memory for each axis (in elements). *)
Record vheap : Type := mkvheap { vnext : nat; vmem : nat -> Z -> C }.
Record view : Type := mkview { vbuf : nat; vshape : list Z; vstart : Z; vstrides : list Z }.
Fixpoint dot (a b : list Z) : Z := match a, b with x :: a, y :: b => x * y + dot a b | _, _ => 0 end.
Definition addr (v : view) (p : list Z) : Z := vstart v + dot p (vstrides v).
Definition entry (h : vheap) (v : view) (p : list Z) : C := vmem h (vbuf v) (addr v p).

(** The strides of an array in C order *)
Fixpoint C_strides (sh : list Z) : list Z := match sh with [] => [] | _ :: sh => nsize sh :: C_strides sh end.
(** A new array in C order with given entries *)
Definition valloc (h : vheap) (sh : list Z) (F : list Z -> C) : vheap * view :=
  (mkvheap (S (vnext h)) (fun b a => if Nat.eqb b (vnext h) then F (nth (Z.to_nat a) (positions sh) []) else vmem h b a),
   mkview (vnext h) sh 0 (C_strides sh)).

(** The items of a key: an integer, [start:stop:step], [...], [np.newaxis] *)
Inductive item : Type := KInt (i : Z) | KSlice (start stop step : option Z) | KEllipsis | KNew.
Definition full : item := KSlice None None None.

(** Python's [slice.indices(n)] and the number of elements *)
Definition slice_bounds (n : Z) (start stop step : option Z) : res (Z * Z * Z) :=
  let step := match step with Some s => s | None => 1 end in
  if step =? 0 then Err ValueError else
  let lower := if step <? 0 then -1 else 0 in
  let upper := if step <? 0 then n - 1 else n in
  let adjust x := let x := if x <? 0 then x + n else x in Z.max lower (Z.min upper x) in
  let start := match start with Some x => adjust x | None => if step <? 0 then upper else lower end in
  let stop := match stop with Some x => adjust x | None => if step <? 0 then lower else upper end in
  let len := if step <? 0 then (if stop <? start then (start - stop - 1) / (- step) + 1 else 0)
             else (if start <? stop then (stop - start - 1) / step + 1 else 0) in
  Ok (start, step, len).

(** Items that use up an axis *)
Definition consumes (k : item) : bool := match k with KInt _ | KSlice _ _ _ => true | _ => false end.
Definition consumed (key : list item) : nat := length (filter consumes key).
Definition is_ellipsis (k : item) : bool := match k with KEllipsis => true | _ => false end.
(** [...] stands for as many full slices as are missing; without it they are added at the end. *)
Fixpoint replace_ellipsis (key : list item) (missing : nat) : list item :=
  match key with
  | [] => []
  | KEllipsis :: key => repeat full missing ++ key
  | k :: key => k :: replace_ellipsis key missing
  end.
Definition expand (key : list item) (ndim : nat) : res (list item) :=
  if (ndim <? consumed key)%nat then Err IndexError else
  let missing := (ndim - consumed key)%nat in
  match length (filter is_ellipsis key) with
  | O => Ok (key ++ repeat full missing)
  | S O => Ok (replace_ellipsis key missing)
  | _ => Err IndexError
  end.

(** One item after the other: offset, shape and strides of the result *)
Fixpoint walk (key : list item) (sh st : list Z) : res (Z * list Z * list Z) :=
  match key with
  | [] => Ok (0, sh, st)
  | KEllipsis :: key => walk key sh st
  | KNew :: key => do ' (o, sh', st') <- walk key sh st; Ok (o, 1 :: sh', 0 :: st')
  | KInt i :: key =>
    match sh, st with
    | n :: sh, s :: st =>
      let j := norm_index n i in
      if in_bounds n j then do ' (o, sh', st') <- walk key sh st; Ok (j * s + o, sh', st') else Err IndexError
    | _, _ => Err IndexError
    end
  | KSlice a b c :: key =>
    match sh, st with
    | n :: sh, s :: st =>
      do ' (start, step, len) <- slice_bounds n a b c;
      do ' (o, sh', st') <- walk key sh st; Ok (start * s + o, len :: sh', (step * s) :: st')
    | _, _ => Err IndexError
    end
  end.
Definition index_view (v : view) (key : list item) : res view :=
  do key <- expand key (length (vshape v));
  do ' (o, sh, st) <- walk key (vshape v) (vstrides v);
  Ok (mkview (vbuf v) sh (vstart v + o) st).

(** ** Modes objects *)

(** The array and the object's own [_metadata] dictionary *)
Record vmodes : Type := mkvmodes { vw : view; vmd : meta }.

(** [f[key]]: an element, or a Modes object on the same memory; [__array_finalize__] (__init__.py:135-141) gives it a copy of the
    dictionary, whatever the key does to the last axis. *)
Inductive element : Type := Number (z : C) | Object (f : vmodes).
Definition getitem (h : vheap) (f : vmodes) (key : list item) : res element :=
  do v <- index_view (vw f) key;
  match vshape v, existsb is_ellipsis key with
  | [], false => Ok (Number (entry h v []))
  | _, _ => Ok (Object (mkvmodes v (vmd f)))
  end.

(** [f.copy()], [copy.copy(f)], [copy.deepcopy(f)], with __init__.py:135-141 *)
Definition vcopy (h : vheap) (f : vmodes) : vheap * vmodes :=
  let '(h', v) := valloc h (vshape (vw f)) (entry h (vw f)) in (h', mkvmodes v (vmd f)).

(** Pickling: the state is the shape, the flag for Fortran order, the raw data in that order, and the metadata. *)
Record pickled : Type := mkpickled { p_shape : list Z; p_fortran : bool; p_data : arr C; p_meta : meta }.
(** __init__.py:144-147; numpy chooses Fortran order for arrays laid out that way, so both values of the flag occur. *)
Definition reduce (h : vheap) (f : vmodes) (fortran : bool) : pickled :=
  let sh := vshape (vw f) in
  mkpickled sh fortran
    (if fortran then flatten (mknda (rev sh) (fun p => entry h (vw f) (rev p))) else flatten (mknda sh (entry h (vw f))))
    (vmd f).
(** __init__.py:150-152: the metadata is taken from the end of the state, the rest goes to [ndarray.__setstate__]. *)
Definition setstate (h : vheap) (s : pickled) : vheap * vmodes :=
  let sh := p_shape s in
  let F p := if p_fortran s then aget (p_data s) (ravel_index (rev sh) (rev p)) else aget (p_data s) (ravel_index sh p) in
  let '(h', v) := valloc h sh F in (h', mkvmodes v (p_meta s)).

(** ** The functions of the package on such an object *)

(** They reach the entries through indices only, so they act as in ModesModel.v on an array with the same entries.  Leading
    indices are reversed there.  A zero-dimensional object has no last axis: IndexError. *)
Definition in_shape (sh p : list Z) : bool :=
  (length p =? length sh)%nat && forallb (fun '(n, i) => in_bounds n i) (combine sh p).
(** There is nothing outside the shape; ModesModel.v has a value there all the same, 0 is used. *)
Definition plain (h : vheap) (v : view) : heap :=
  mkheap 1 (fun _ idx k => let p := rev idx ++ [k] in if in_shape (vshape v) p then entry h v p else RtoC 0).
Definition as_modes (f : vmodes) : res modes :=
  match rev (vshape (vw f)) with
  | [] => Err IndexError
  | w :: ld => Ok (mkmodes (mknd 0 ld w) (vmd f))
  end.
(** [f.evaluate(Rs)] *)
Definition vevaluate (tab : arr R) (lm_garbage : Z -> Z * Z) (h : vheap) (f : vmodes) (Rs : arr quat) : res (list Z -> Z -> C) :=
  do m <- as_modes f; evaluate tab lm_garbage (plain h (vw f)) m Rs.
(** Writing the entries [F] into the memory of a view.  If several indices have one address the first is used; views made by
    basic indexing of an array without overlap have none. *)
Definition write_view (h : vheap) (v : view) (F : list Z -> C) : vheap :=
  mkvheap (vnext h) (fun b a =>
    if Nat.eqb b (vbuf v) then match find (fun p => addr v p =? a) (positions (vshape v)) with Some p => F p | None => vmem h b a end
    else vmem h b a).
(** [op(inplace=True)] on the object: its entries and its own metadata change. *)
Definition inplace (op : heap -> modes -> res (heap * modes)) (h : vheap) (f : vmodes) : res (vheap * vmodes) :=
  do m <- as_modes f;
  do ' (h', r) <- op (plain h (vw f)) m;
  Ok (write_view h (vw f) (fun p => mem h' 0 (rev (removelast p)) (last p 0)), mkvmodes (vw f) (md r)).
(** [Modes(f)] of an object: [np.asanyarray(input_array).view(complex)] and [.view(cls)] share its memory, and __init__.py:130
    writes to it. *)
Definition rebuild : vheap -> vmodes -> res (vheap * vmodes) :=
  inplace (fun h m => Modes_new h (InArr (nd m)) (Some (md m)) [] no_kw).
(** [f.index(ell, m)] *)
Definition vindex (f : vmodes) (ell m : Z) : res Z := do g <- as_modes f; index g ell m.
