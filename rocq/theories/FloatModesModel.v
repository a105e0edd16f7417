(** Model of SWSH_grid (spherical_functions/SWSH/__init__.py) and of the arithmetic of Modes (spherical_functions/SWSH_modes:
    algebra.py, derivatives.py, utilities.py) in IEEE double arithmetic: [RN64] (FloatIndexModel.v) rounds the result of every
    operation.  Overflow and signed zeros are not part of the model.  Arrays are those of ModesModel.v. *)
Require Import ZArith List Reals Bool.
From Coquelicot Require Import Complex.
From Verif Require Import Base CBase DRep IndexModel PowersModel ModesModel FloatIndexModel FloatPowersModel FloatConvModel FloatWignerModel.
Import ListNotations.
Open Scope Z_scope.

(** ** Sums of products

    numpy leaves the sums of [np.tensordot] to a BLAS library and those of [np.linalg.norm] to its own pairwise summation.
    Neither promises an order, and a library may fuse a product with the addition that follows.  [order] is any such way of
    adding products x_k * y_k, and the functions below take the order as an argument. *)
Inductive order : Type :=
| Prod (k : Z)                       (* the rounded product x_k * y_k *)
| Plus (l r : order)                 (* the rounded sum of two partial sums *)
| Fused (k : Z) (r : order).         (* x_k * y_k + r, rounded once *)
Fixpoint dot64 (x y : Z -> R) (t : order) : R :=
  match t with
  | Prod k => RN64 (x k * y k)
  | Plus l r => RN64 (dot64 x y l + dot64 x y r)
  | Fused k r => RN64 (x k * y k + dot64 x y r)
  end.
(** The products that are added, and how many roundings one of them goes through at most *)
Fixpoint terms (t : order) : list Z :=
  match t with Prod k => [k] | Plus l r => terms l ++ terms r | Fused k r => k :: terms r end.
Fixpoint depth (t : order) : nat :=
  match t with Prod _ => 1%nat | Plus l r => S (Nat.max (depth l) (depth r)) | Fused _ r => S (depth r) end.

(** The sum of n complex products: the real part is a sum of the 2n products Re a_k Re b_k and - Im a_k Im b_k, the imaginary
    part one of the 2n products Re a_k Im b_k and Im a_k Re b_k, each in its own order *)
Definition two (n : Z) (f g : Z -> R) (k : Z) : R := if k <? n then f k else g (k - n).
Definition cdot64 (n : Z) (a b : Z -> C) (t : order * order) : C :=
  (dot64 (two n (fun k => Re (a k)) (fun k => - Im (a k))%R) (two n (fun k => Re (b k)) (fun k => Im (b k))) (fst t),
   dot64 (two n (fun k => Re (a k)) (fun k => Im (a k))) (two n (fun k => Im (b k)) (fun k => Re (b k))) (snd t)).

(** ** Evaluation *)

(** SWSH/__init__.py:80-88, as [SWSH_grid] (SWSHModel.v) *)
Definition SWSH_grid64 (lib : libm) (lm_garbage : Z -> Z * Z) (Rs : arr quat) (s ell_max : Z) : res (arr2 C) :=
  do indices <- LM_range lm_garbage 0 ell_max;
  if alen Rs =? 0 then Err ValueError else
  for_range 0 (alen Rs) (fun i values =>
    do q <- rd Rs i;
    do row <- SWSH_core64 lib (qa q) (qb q) s indices (mkarr (ncol values) (get2 values i));
    Ok (mkarr2 (nrow values) (ncol values) (fun k l => if k =? i then aget row l else get2 values k l)))
    (mkarr2 (alen Rs) (alen indices) (fun _ _ => RtoC 0)).

(** utilities.py:83-92; every entry of the result may be summed in another order *)
Definition evaluate64 (lib : libm) (ord : list Z -> Z -> order * order) (lm_garbage : Z -> Z * Z) (h : heap) (self : modes)
    (Rs : arr quat) : res (list Z -> Z -> C) :=
  do SWSHs <- SWSH_grid64 lib lm_garbage Rs (spin (md self)) (ellmax (md self));
  let lo := LM_index (ell_min_of self) (- ell_min_of self) 0 in
  let hi := LM_index (ellmax (md self)) (ellmax (md self)) 0 + 1 in
  let n := slice_len (ncol SWSHs) lo hi in
  if negb (n =? wid (nd self)) then Err ValueError
  else Ok (fun idx i => cdot64 n (mem h (buf (nd self)) idx) (fun k => get2 SWSHs i (clip (ncol SWSHs) lo + k)) (ord idx i)).

(** ** Norm *)

(** algebra.py:165-166; [np.linalg.norm] adds up [(x.conj() * x).real], that is Re x_k Re x_k and Im x_k Im x_k, and takes the
    square root *)
Definition norm64 (ord : list Z -> order) (h : heap) (m : modes) : list Z -> R :=
  fun idx =>
    let x := mem h (buf (nd m)) idx in
    let v := two (wid (nd m)) (fun k => Re (x k)) (fun k => Im (x k)) in
    RN64 (sqrt (dot64 v v (ord idx))).

(** ** Derivatives *)

(** [math.sqrt(a * b)] of Python integers *)
Definition sqrt_product64 (a b : Z) : R := RN64 (sqrt (RN64 (IZR (a * b)))).

(** [d[..., d.index(ell,-ell):d.index(ell,ell)+1] = factor * s[..., self.index(ell,-ell):self.index(ell,ell)+1]].  numpy makes
    the factor complex, with imaginary part 0: the products with 0 and the additions of 0 are exact. *)
Definition scale_ell64 (d self : modes) (factor : R) (ell : Z) (h : heap) : res heap :=
  do a <- index d ell (- ell);
  do b <- index d ell ell;
  do a' <- index self ell (- ell);
  do b' <- index self ell ell;
  let n' := slice_len (wid (nd self)) a' (b' + 1) in
  assign_slice h (nd d) a (b + 1) (lead (nd self)) n'
    (fun idx k => cscale64 factor (mem h (buf (nd self)) idx (clip (wid (nd self)) a' + k))) (fun _ y => y).

(** derivatives.py:12-43; the integer factor becomes a double *)
Definition Lsquared64 (h : heap) (self : modes) : res (heap * modes) :=
  let '(h, d) := copy h self in
  do h <- for_range (Z.abs (spin (md self))) (ellmax (md self) + 1) (fun ell h =>
            scale_ell64 d self (RN64 (IZR (ell * (ell + 1)))) ell h) h;
  Ok (h, d).

(** derivatives.py:46-67 *)
Definition Lz64 (h : heap) (self : modes) : res (heap * modes) :=
  let '(h, d) := copy h self in
  do h <- for_range (Z.abs (spin (md self))) (ellmax (md self) + 1) (fun ell h =>
    for_range (- ell) (ell + 1) (fun m h =>
      do j <- index self ell m;
      do v <- rdcol h (nd self) j;
      do i <- index d ell m;
      wrcol h (nd d) i (fun idx => cscale64 (RN64 (IZR m)) (v idx))) h) h;
  Ok (h, d).

(** derivatives.py:70-107 *)
Definition Lplus64 (h : heap) (self : modes) : res (heap * modes) :=
  let '(h, d) := zeros_like_modes h self in
  do h <- for_range (Z.abs (spin (md self))) (ellmax (md self) + 1) (fun ell h =>
    do i0 <- index self ell (- ell);
    do h <- wrcol h (nd d) i0 (fun _ => RtoC 0);
    for_range (- ell + 1) (ell + 1) (fun m h =>
      do j <- index self ell (m - 1);
      do v <- rdcol h (nd self) j;
      do i <- index d ell m;
      wrcol h (nd d) i (fun idx => cscale64 (sqrt_product64 (ell + m) (ell - m + 1)) (v idx))) h) h;
  Ok (h, d).

(** derivatives.py:110-148 *)
Definition Lminus64 (h : heap) (self : modes) : res (heap * modes) :=
  let '(h, d) := zeros_like_modes h self in
  do h <- for_range (Z.abs (spin (md self))) (ellmax (md self) + 1) (fun ell h =>
    do h <- for_range (- ell) ell (fun m h =>
      do j <- index self ell (m + 1);
      do v <- rdcol h (nd self) j;
      do i <- index self ell m;
      wrcol h (nd d) i (fun idx => cscale64 (sqrt_product64 (ell - m) (ell + m + 1)) (v idx))) h;
    do i <- index self ell ell;
    wrcol h (nd d) i (fun _ => RtoC 0)) h;
  Ok (h, d).

(** derivatives.py:151-176 *)
Definition Rsquared64 (h : heap) (self : modes) : res (heap * modes) := Lsquared64 h self.

(** derivatives.py:179-212 *)
Definition Rz64 (h : heap) (self : modes) : res (heap * modes) :=
  let '(h', a) := alloc h (lead (nd self)) (wid (nd self))
                    (fun idx k => cscale64 (RN64 (IZR (- spin (md self)))) (mem h (buf (nd self)) idx k)) in
  construct h' a (md self).

(** derivatives.py:215-262 and 265-314 *)
Definition R_shift64 (ds : Z) (factor : Z -> Z -> R) (h : heap) (self : modes) : res (heap * modes) :=
  let m := mkmeta (spin (md self) + ds) (ellmax (md self)) (truncator (md self)) in
  let '(h, a) := zeros_like h (nd self) in
  do ' (h, d) <- Modes_new h (InArr a) None []
       (mkkw (Some (spin m)) (Some (Z.min (Z.abs (spin m)) (ell_min_of self))) (Some (ellmax m)) (truncator m));
  do h <- for_range (Z.max (Z.abs (spin (md d))) (Z.abs (spin (md self)))) (ellmax (md d) + 1) (fun ell h =>
    if ell >=? ell_min_of self then scale_ell64 d self (factor (spin (md d)) ell) ell h else Ok h) h;
  Ok (h, d).
Definition Rplus64 : heap -> modes -> res (heap * modes) :=
  R_shift64 (-1) (fun s ell => sqrt_product64 (ell - s) (ell + s + 1)).
Definition Rminus64 : heap -> modes -> res (heap * modes) :=
  R_shift64 1 (fun s ell => sqrt_product64 (ell + s) (ell - s + 1)).
(** derivatives.py:317-334 and 337-355; the negation is exact *)
Definition eth64 (h : heap) (self : modes) : res (heap * modes) := Rminus64 h self.
Definition ethbar64 (h : heap) (self : modes) : res (heap * modes) :=
  do ' (h, d) <- Rplus64 h self; negative h d.

(** ** Addition and multiplication by numbers *)

(** algebra.py:176-186 *)
Definition add_into64 (h : heap) (self other : modes) (result : ndarray) (subtraction : bool) : res heap :=
  let i_s1 := LM_total_size 0 (ell_min_of self - 1) in
  let i_s2 := i_s1 + LM_total_size (ell_min_of self) (ellmax (md self)) in
  let i_o1 := LM_total_size 0 (ell_min_of other - 1) in
  let i_o2 := i_o1 + LM_total_size (ell_min_of other) (ellmax (md other)) in
  do h <- assign_slice h result i_s1 i_s2 (lead (nd self)) (wid (nd self)) (mem h (buf (nd self))) (fun _ y => y);
  assign_slice h result i_o1 i_o2 (lead (nd other)) (wid (nd other)) (mem h (buf (nd other)))
               (if subtraction then csub64 else cadd64).
(** algebra.py:169-191, both operands Modes *)
Definition add64 (h : heap) (self other : modes) (subtraction : bool) : res (heap * modes) :=
  if negb (spin (md self) =? spin (md other)) then Err ValueError else
  let ell_max := Z.max (ellmax (md self)) (ellmax (md other)) in
  do _ <- rdcol h (nd self) 0;
  do _ <- rdcol h (nd other) 0;
  match broadcast (lead (nd self)) (lead (nd other)) with
  | None => Err ValueError
  | Some sh =>
    let '(h, result) := alloc h sh (LM_total_size 0 ell_max) (fun _ _ => RtoC 0) in
    do h <- add_into64 h self other result subtraction;
    construct h result (mkmeta (spin (md self)) ell_max (truncator (md self)))
  end.
(** Complex multiplication: each part is the sum of two products *)
Definition cmul64 (t : order * order) (a b : C) : C := cdot64 1 (fun _ => a) (fun _ => b) t.
(** x * y + z, with the product rounded or not *)
Definition muladd64 (fused : bool) (x y z : R) : R :=
  if fused then RN64 (x * y + z) else RN64 (RN64 (x * y) + z).
(** Complex division of numpy (Smith's algorithm, numpy/core/src/umath/loops.c.src); a compiler may fuse any product with the
    addition that follows: [t] says which *)
Definition cdiv64 (t : bool * bool * bool) (a b : C) : C :=
  let '(f1, f2, f3) := t in
  if Rle_dec (Rabs (Im b)) (Rabs (Re b)) then
    let rat := RN64 (Im b / Re b) in
    let scl := RN64 (1 / muladd64 f1 (Im b) rat (Re b)) in
    (RN64 (muladd64 f2 (Im a) rat (Re a) * scl), RN64 (muladd64 f3 (- Re a) rat (Im a) * scl))
  else
    let rat := RN64 (Re b / Im b) in
    let scl := RN64 (1 / muladd64 f1 (Re b) rat (Im b)) in
    (RN64 (muladd64 f2 (Re a) rat (Im a) * scl), RN64 (muladd64 f3 (Im a) rat (- Re a) * scl)).
(** ufuncs.py:111-118 and 131-141, as [scalar_op] (ModesModel.v); the operation may be done in another way at another entry
    (vectorised loops treat the last entries differently) *)
Definition scalar_op64 (op : list Z -> Z -> C -> C -> C) (h : heap) (self : modes) (x : scalars) : res (heap * modes) :=
  do ok <- check_broadcasting h self (sc_shape x);
  if negb ok then Err TypeError else
  match broadcast (lead (nd self)) (sc_shape x) with
  | None => Err ValueError
  | Some sh =>
    let '(h', a) := alloc h sh (wid (nd self))
      (fun idx k => op idx k (mem h (buf (nd self)) (bidx (lead (nd self)) idx) k) (sc_val x (bidx (sc_shape x) idx))) in
    construct h' a (md self)
  end.
(** [self * x] and [self / x] *)
Definition mul_scalar64 (ord : list Z -> Z -> order * order) : heap -> modes -> scalars -> res (heap * modes) :=
  scalar_op64 (fun idx k => cmul64 (ord idx k)).
Definition div_scalar64 (ord : list Z -> Z -> bool * bool * bool) : heap -> modes -> scalars -> res (heap * modes) :=
  scalar_op64 (fun idx k => cdiv64 (ord idx k)).
