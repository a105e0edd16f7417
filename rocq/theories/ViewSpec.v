(** Statement-level definitions for the theorems about indexing, copying and pickling of Modes objects. *)
Require Import ZArith List Bool Reals.
From Coquelicot Require Import Complex.
From Verif Require Import Base CBase DRep WignerModel SWSHModel ModesModel ModesSpec SWSHCallModel ViewModel.
Import ListNotations.
Open Scope Z_scope.

(** The shape of an object is [ld ++ [w]]: leading shape and number of columns.  The (ell, m) mode of the function at the leading
    index [p] is column [ell^2 + ell + m]. *)
Definition column (h : vheap) (f : vmodes) (p : list Z) (k : Z) : C := entry h (vw f) (p ++ [k]).
Definition vmode (h : vheap) (f : vmodes) (p : list Z) (ell m : Z) : C := column h f p (ell * ell + (ell + m)).

(** The memory cell of a column *)
Definition cell (f : vmodes) (p : list Z) (k : Z) : nat * Z := (vbuf (vw f), addr (vw f) (p ++ [k])).

(** An array in allocated memory, one step per axis, different elements in different cells *)
Definition sound (h : vheap) (v : view) : Prop :=
  (vbuf v < vnext h)%nat /\ length (vstrides v) = length (vshape v) /\ Forall (fun n => 0 <= n) (vshape v)
  /\ forall p q, at_index (vshape v) p -> at_index (vshape v) q -> addr v p = addr v q -> p = q.

(** What the class promises, for an object of leading shape [ld]. *)
Definition valid (h : vheap) (f : vmodes) (ld : list Z) : Prop :=
  sound h (vw f) /\ vshape (vw f) = ld ++ [(ellmax (vmd f) + 1) ^ 2]
  /\ forall p ell m, at_index ld p -> 0 <= ell <= ellmax (vmd f) -> ell < Z.abs (spin (vmd f)) -> - ell <= m <= ell ->
       vmode h f p ell m = RtoC 0.

(** Python's [a:b:c] on an axis of length [n]: the positions it picks ... *)
Definition picked (n : Z) (a b c : option Z) (x : Z) : Prop :=
  let from_end y := if y <? 0 then y + n else y in
  let c := match c with Some c => c | None => 1 end in
  0 <= x < n /\
  if 0 <? c then
    let lo := match a with Some a => Z.max 0 (from_end a) | None => 0 end in
    let hi := match b with Some b => from_end b | None => n end in
    lo <= x < hi /\ (c | x - lo)
  else
    let lo := match a with Some a => Z.min (n - 1) (from_end a) | None => n - 1 end in
    let hi := match b with Some b => from_end b | None => -1 end in
    hi < x <= lo /\ (c | x - lo).
(** ... and their order: [e 0], ..., [e (len - 1)] are these positions, upwards for a positive step, downwards for a negative
    one. *)
Definition enumerates (n : Z) (a b c : option Z) (len : Z) (e : Z -> Z) : Prop :=
  let c' := match c with Some c => c | None => 1 end in
  c' <> 0 /\ 0 <= len
  /\ (forall j, 0 <= j < len -> picked n a b c (e j))
  /\ (forall x, picked n a b c x -> exists j, 0 <= j < len /\ e j = x)
  /\ (forall j k, 0 <= j < k -> k < len -> if 0 <? c' then e j < e k else e k < e j).

(** [selects key ld ld' t]: applied to an array of shape [ld], the key (without [...]) gives shape [ld'], and the element at the
    index [p] of the result is the one at [t p] of the array. *)
Inductive selects : list item -> list Z -> list Z -> (list Z -> list Z) -> Prop :=
| sel_end ld : selects [] ld ld (fun p => p)
| sel_new key ld ld' t : selects key ld ld' t -> selects (KNew :: key) ld (1 :: ld') (fun p => t (tl p))
| sel_int i n key ld ld' t : - n <= i < n -> selects key ld ld' t ->
    selects (KInt i :: key) (n :: ld) ld' (fun p => (i mod n) :: t p)
| sel_slice a b c len e n key ld ld' t : enumerates n a b c len e -> selects key ld ld' t ->
    selects (KSlice a b c :: key) (n :: ld) (len :: ld') (fun p => e (hd 0 p) :: t (tl p)).

(** Only the cells of [f] differ. *)
Definition only_cells (f : vmodes) (ld : list Z) (h h' : vheap) : Prop :=
  vnext h' = vnext h
  /\ forall b a, (forall p k, at_index (ld ++ [(ellmax (vmd f) + 1) ^ 2]) (p ++ [k]) -> (b, a) <> cell f p k) ->
       vmem h' b a = vmem h b a.

(** [r] is an object in memory of its own with the metadata, shape and entries of [f]; what existed before is untouched. *)
Definition separate_twin (h h' : vheap) (f r : vmodes) (ld : list Z) : Prop :=
  (vnext h <= vbuf (vw r) < vnext h')%nat /\ (forall b, (b < vnext h)%nat -> forall a, vmem h' b a = vmem h b a)
  /\ valid h' r ld /\ vmd r = vmd f
  /\ forall p k, at_index ld p -> 0 <= k < (ellmax (vmd f) + 1) ^ 2 -> column h' r p k = column h f p k.
