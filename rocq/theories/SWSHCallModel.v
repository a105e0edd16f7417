(** Model of what [SWSH], [SWSH_grid] and [Modes.evaluate] do with rotors and indices of any shape:
    spherical_functions/SWSH/__init__.py:11-88 and spherical_functions/SWSH_modes/utilities.py:83-92, around the compiled cores of
    SWSHModel.v. *)
Require Import ZArith List Bool Reals.
From Coquelicot Require Import Complex.
From Verif Require Import Base CBase DRep IndexModel PowersModel WignerModel SWSHModel ModesModel HCallModel.
Import ListNotations.
Open Scope Z_scope.

(** A numpy array: its shape and its value at every multi-index.  Memory order has no effect in the functions below:
    [R.flatten()] and [reshape] go by C order of the multi-indices whatever the layout. *)
Record nda (A : Type) : Type := mknda { nshape : list Z; nval : list Z -> A }.
Arguments mknda {A}. Arguments nshape {A}. Arguments nval {A}.

(** [a.size] *)
Definition nsize (sh : list Z) : Z := fold_right Z.mul 1 sh.
(** Position of a multi-index in C order (last index fastest). *)
Fixpoint ravel_index (sh p : list Z) : Z :=
  match sh, p with
  | _ :: sh, i :: p => i * nsize sh + ravel_index sh p
  | _, _ => 0
  end.
(** [a.flatten()]: the i-th element is the one at the i-th multi-index in C order. *)
Definition flatten {A} (a : nda A) : arr A :=
  mkarr (nsize (nshape a)) (fun i => nval a (nth (Z.to_nat i) (positions (nshape a)) [])).
(** [v.reshape(sh)] of a one-dimensional array of [nsize sh] elements *)
Definition reshape {A} (v : arr A) (sh : list Z) : nda A := mknda sh (fun p => aget v (ravel_index sh p)).

(** The argument [R]: one [np.quaternion], or an array of them.  Arrays of anything else fail inside the quaternion library
    and are not modelled. *)
Inductive rotor_arg : Type := RQuat (q : quat) | RArr (a : nda quat).

(** SWSH/__init__.py:104-234: [_SWSH] is compiled for a two-dimensional [indices] only; anything else is "No matching
    definition for argument type(s)", a TypeError.  [ell, m = indices[i, 0:2]] takes the first two columns and cannot be unpacked
    (ValueError) when there are fewer.  Indices are integers; floats have no matching definition either. *)
Definition SWSH_compiled (tab : arr R) (q : quat) (s : Z) (indices : nda Z) (values : arr C) : res (arr C) :=
  match nshape indices with
  | [N; k] =>
    if (k <? 2) && (0 <? N) then Err ValueError
    else SWSH_core tab (qa q) (qb q) s (mkarr N (fun i => (nval indices [i; 0], nval indices [i; 1]))) values
  | _ => Err TypeError
  end.

(** [a[i]] on the first axis, used as an [int64] argument of a compiled function: IndexError outside the axis, TypeError when
    what is left is still an array. *)
Definition first_axis (a : nda Z) (i : Z) : res (option Z) :=
  match nshape a with
  | [] => Err IndexError
  | n :: sh => if n <=? i then Err IndexError
               else match sh with [] => Ok (Some (nval a [i])) | _ => Ok None end
  end.

(** SWSH/__init__.py:36-45, [SWSH(R, s, indices)] *)
Definition SWSH_call (tab : arr R) (garbage : Z -> C) (R : rotor_arg) (s : Z) (indices : nda Z) : res (nda C) :=
  match R, 2 <? nsize (nshape indices) with
  | RArr a, false =>
    do values <- np_empty (nsize (nshape a)) garbage;
    do ell <- first_axis indices 0;
    do m <- first_axis indices 1;
    match ell, m with
    | Some ell, Some m =>
      do values <- SWSHs_core tab (flatten a) s ell m values;
      Ok (reshape values (nshape a))
    | _, _ => Err TypeError
    end
  | _, _ =>
    match nshape indices with
    | [] => Err IndexError                                (* indices.shape[0] *)
    | N :: _ =>
      do values <- np_empty N garbage;
      match R with
      | RArr _ => Err AttributeError                      (* an ndarray has no attribute [a] *)
      | RQuat q =>
        do values <- SWSH_compiled tab q s indices values;
        Ok (mknda [N] (fun p => aget values (nth 0 p 0)))
      end
    end
  end.

(** SWSH/__init__.py:80-88: [values[it.multi_index]] is the row of the rotor at that multi-index. *)
Definition SWSH_grid_call (tab : arr R) (lm_garbage : Z -> Z * Z) (Rs : nda quat) (s ell_max : Z) : res (nda C) :=
  do out <- SWSH_grid tab lm_garbage (flatten Rs) s ell_max;
  Ok (mknda (nshape Rs ++ [ncol out])
        (fun p => get2 out (ravel_index (nshape Rs) (removelast p)) (last p 0))).

(** utilities.py:83-92: [np.tensordot] over the last axes puts the leading axes of the modes first and the axes of the rotors
    after them.  The leading index is in the order of ModesModel.v (last leading axis first). *)
Definition evaluate_call (tab : arr R) (lm_garbage : Z -> Z * Z) (h : heap) (self : modes) (Rs : nda quat)
  : res (list Z * (list Z -> list Z -> C)) :=
  do E <- evaluate tab lm_garbage h self (flatten Rs);
  Ok (rev (lead (nd self)) ++ nshape Rs, fun idx p => E idx (ravel_index (nshape Rs) p)).
