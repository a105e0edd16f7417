(** Model of the public entry point spherical_functions/WignerD/__init__.py:31-145 [Wigner_D_element] and of
    [_check_valid_indices] (24-28).

    Python's [round] and [np.round] round half to even; that is [ZnearestE].  Numbers are exact. *)
Require Import ZArith List Reals Bool.
From Coquelicot Require Import Complex.
From Flocq Require Import Core.
From Verif Require Import Base CBase Fact DRep IndexModel WignerModel.
Import ListNotations.
Open Scope Z_scope.

(** [round(2*x)] *)
Definition round2 (x : R) : Z := ZnearestE (2 * x).

(** The positional arguments.  An [ndarray] argument is an array of quaternions (flattened) or an array of indices; an
    array of anything else in first position fails inside the quaternion library and is not modelled. *)
Inductive arg : Type :=
| AQuats (Rs : arr quat)              (* np.ndarray of quaternions *)
| AQuat (q : quat)                    (* np.quaternion *)
| AReal (x : R)                       (* an int or a float *)
| AComplex (z : C)                    (* a complex; numbers.Number too *)
| AIndices0 (x : R)                   (* 0-dimensional array *)
| AIndices1 (l : list R)              (* list of ell *)
| AIndices2 (ncols : Z) (l : list (list R)). (* rows *)

(** [isinstance(x, numbers.Number)]; every real is also a [numbers.Complex] *)
Definition is_number (a : arg) : bool := match a with AReal _ | AComplex _ => true | _ => false end.

(** quaternion.from_euler_angles, a library function: the standard z-y-z formula, on reals only *)
Definition from_euler_angles (alpha beta gamma : R) : quat :=
  mkquat (cos (beta / 2) * cos ((alpha + gamma) / 2))
         (- sin (beta / 2) * sin ((alpha - gamma) / 2))
         (sin (beta / 2) * cos ((alpha - gamma) / 2))
         (cos (beta / 2) * sin ((alpha + gamma) / 2)).
Definition euler_call (a b c : arg) : res quat :=
  match a, b, c with
  | AReal x, AReal y, AReal z => Ok (from_euler_angles x y z)
  | _, _, _ => Err TypeError
  end.
Definition as_complex (a : arg) : C :=
  match a with AReal x => RtoC x | AComplex z => z | _ => RtoC 0 end.

(** WignerD/__init__.py:24-28; [sf_ell_max] is the table size *)
Definition check_valid_indices (sf_ell_max twoell twomp twom : Z) : bool :=
  negb ((twoell >? 2 * sf_ell_max) || (Z.abs twomp >? twoell) || (Z.abs twom >? twoell)).

(** range(-twoell, twoell+1, 2) as a list *)
Definition twom_range (twoell : Z) : list Z :=
  map (fun i => - twoell + 2 * Z.of_nat i) (seq 0 (Z.to_nat (twoell + 1))).
(** WignerD/__init__.py:124-127 *)
Definition all_rows (twoell : Z) : list (Z * Z * Z) :=
  flat_map (fun twomp => map (fun twom => (twoell, twomp, twom)) (twom_range twoell)) (twom_range twoell).

Definition arr_of_list {A} (d : A) (l : list A) : arr A :=
  mkarr (Z.of_nat (length l)) (fun i => nth (Z.to_nat i) l d).

(** [for twoell, twomp, twom in indices]: a row that does not have three entries cannot be unpacked *)
Definition row3 (l : list R) : res (Z * Z * Z) :=
  match l with [a; b; c] => Ok (round2 a, round2 b, round2 c) | _ => Err ValueError end.

Fixpoint check_rows (L : Z) (l : list (list R)) : res (list (Z * Z * Z)) :=
  match l with
  | [] => Ok []
  | r :: l =>
    do '(e, mp, m) <- row3 r;
    if negb (check_valid_indices L e mp m) then Err ValueError
    else do l' <- check_rows L l; Ok ((e, mp, m) :: l')
  end.

(** WignerD/__init__.py:98-140: the rows of doubled indices and [return_scalar].
    [error_on_bad_indices] is the name imported at line 19, which is [True]; assigning [sf.error_on_bad_indices] rebinds
    the package's attribute and leaves this one alone. *)
Definition find_indices (L : Z) (error_on_bad_indices : bool) (rest : list arg) : res (list (Z * Z * Z) * bool) :=
  match rest with
  | [e; mp; m] =>
    match e, mp, m with
    | AReal e, AReal mp, AReal m =>
      if error_on_bad_indices && negb (check_valid_indices L (round2 e) (round2 mp) (round2 m)) then Err ValueError
      else Ok ([(round2 e, round2 mp, round2 m)], true)
    | _, _, _ => Err TypeError
    end
  | [x] =>
    match x with
    | AReal _ | AIndices0 _ => Err IndexError          (* line 112: indices[0] of a 0-dimensional array *)
    | AIndices1 [] => Err ValueError
    | AIndices1 l =>
      match flat_map (fun x => all_rows (round2 x)) l with
      | [] => Err TypeError                              (* np.array([]) is 1-dimensional: no matching signature *)
      | rows => Ok (rows, false)
      end
    | AIndices2 ncols l =>
      if error_on_bad_indices then do rows <- check_rows L l; Ok (rows, false)
      else if ncols =? 3 then
        Ok (map (fun r => match row3 r with Ok t => t | Err _ => (0, 0, 0) end) l, false)
      else Err TypeError                                 (* not reached: the flag is True *)
    | _ => Err TypeError
    end
  | _ => Err ValueError
  end.

Definition D_call (tab : arr R) (L : Z) (flag : bool) (garbage : Z -> C) (Ra Rb : C) (rest : list arg) : res (arr C * bool) :=
  do '(rows, scalar) <- find_indices L flag rest;
  do elements <- np_empty (Z.of_nat (length rows)) garbage;
  do out <- Wigner_D_element_core tab Ra Rb (arr_of_list (0, 0, 0) rows) elements;
  Ok (out, scalar).

(** [int(x)] when numba passes a float for an [int64] argument: the fraction is dropped *)
Definition to_i8 (a : arg) : res Z := match a with AReal x => Ok (Ztrunc x) | _ => Err TypeError end.

(** WignerD/__init__.py:78-145; the second component says whether [elements[0]] is returned instead of the array *)
Definition Wigner_D_element (tab : arr R) (L : Z) (garbage : Z -> C) (args : list arg) : res (arr C * bool) :=
  let flag := true in
  match args with
  | [] => Err IndexError
  | AQuats Rs :: rest =>
    match rest with
    | e :: mp :: m :: _ =>
      do e <- to_i8 e; do mp <- to_i8 mp; do m <- to_i8 m;
      do elements <- np_empty (alen Rs) garbage;
      do out <- Wigner_D_elements_core tab Rs e mp m elements;
      Ok (out, false)
    | _ => Err IndexError
    end
  | AQuat q :: rest => D_call tab L flag garbage (qa q) (qb q) rest
  | a :: rest =>
    if negb (is_number a) then Err ValueError else
    match rest with
    | [] => Err IndexError
    | b :: rest' =>
      if negb (is_number b) then Err ValueError else
      match rest' with
      | [] => Err IndexError
      | c :: rest'' =>
        if is_number c then do q <- euler_call a b c; D_call tab L flag garbage (qa q) (qb q) rest''
        else D_call tab L flag garbage (as_complex a) (as_complex b) rest'
      end
    end
  end.
