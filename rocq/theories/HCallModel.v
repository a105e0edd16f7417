(** Model of what [HCalculator.__call__] does with arrays of angles of any shape and memory layout:
    spherical_functions/recursions/wignerH.py:462-491 and spherical_functions/WignerD/WignerDRecursion.py:425-456, around the
    calculation of HModel.v. *)
Require Import ZArith List Bool Reals.
From Verif Require Import Base IndexModel HModel.
Import ListNotations.
Open Scope R_scope.

(** A numpy array of floats: its shape, its axes from the slowest to the fastest varying one in memory, and its value at every
    multi-index.  C order is [0; 1; ...], Fortran order [...; 1; 0], a transposed array has them permuted.  Simplification: all
    strides positive, as for every array numpy allocates and for its transposes. *)
Record farr : Type := mkfarr { fshape : list Z; faxes : list nat; fval : list Z -> R }.

(** All multi-indices of an array of shape [sh], last index fastest. *)
Fixpoint positions (sh : list Z) : list (list Z) :=
  match sh with
  | [] => [[]]
  | n :: sh' => flat_map (fun i => map (cons i) (positions sh')) (zrange 0 n)
  end.

(** Where [a] stands in [l]. *)
Fixpoint pos (a : nat) (l : list nat) : nat :=
  match l with [] => O | b :: t => if Nat.eqb a b then O else S (pos a t) end.
(** The multi-index whose entry on axis [nth k axes] is the k-th entry of [p]. *)
Definition unperm (axes : list nat) (p : list Z) : list Z := map (fun a => nth (pos a axes) p 0%Z) (seq 0 (length axes)).
(** The multi-indices in the order in which the elements lie in memory. *)
Definition memory_order (sh : list Z) (axes : list nat) : list (list Z) :=
  map (unperm axes) (positions (map (fun a => nth a sh 0%Z) axes)).

(** numpy's [a.ravel(order='K')] *)
Definition ravel_K (a : farr) : list R := map (fval a) (memory_order (fshape a) (faxes a)).

(** The argument [sinβ]: absent, a Python float (which has no attribute [shape]), or an array. *)
Inductive sin_arg : Type := SNone | SFloat (x : R) | SArr (a : farr).

Fixpoint eq_shape (l m : list Z) : bool :=
  match l, m with [], [] => true | x :: l', y :: m' => (x =? y)%Z && eq_shape l' m' | _, _ => false end.

(** wignerH.py:468-480; WignerDRecursion.py:430-445: np.max and np.min raise ValueError on an empty array; then the range
    test, then the comparison of the shapes. *)
Definition check_nd (c : farr) (s : sin_arg) : res (option (list R)) :=
  if (length (ravel_K c) =? 0)%nat then Err ValueError else
  if out_of_range (ravel_K c) then Err ValueError else
  match s with
  | SNone => Ok None
  | SFloat _ => Err AttributeError
  | SArr a => if eq_shape (fshape a) (fshape c) then Ok (Some (ravel_K a)) else Err ValueError
  end.

(** The argument [workspace]: absent, one-dimensional, or two-dimensional with one column per angle.  Other workspaces
    are not modelled. *)
Inductive ws_arg : Type := WNone | W1 | W2 (w : hbuf).

(** [hc.workspace(cosβ)] (wignerH.py:462-465) for an array of at most one dimension *)
Definition workspace_for (n_max : Z) (c : farr) : ws_arg :=
  match fshape c with
  | [] => W1
  | _ :: _ => W2 (hzeros (workspace_size n_max))
  end.

(** wignerH.py:467-491.  The result is the shape of the returned array and its rows.  The last-but-one statement,
    [Hwedge.reshape((-1,)+cosβshape)], discards its value.  numba cannot compile [Hwedge[0, :]] for a one-dimensional array
    (a TypingError, here [TypeError]). *)
Definition HCalculator_nd (hc : HCalc) (c : farr) (s : sin_arg) (ws : ws_arg) : res (list Z * hbuf) :=
  do sl <- check_nd c s;
  let cl := ravel_K c in
  let size := Z.of_nat (length cl) in
  do w <- match ws with
          | WNone => Ok None
          | W1 => Err TypeError
          | W2 w => Ok (Some w)
          end;
  do H <- HCalculator_call hc cl sl w;
  Ok ([alen H; size], H).

(** WignerDRecursion.py:425-456: the workspace is reshaped to [cosβ.size] columns before use, so only what it then holds
    matters. *)
Definition HCalculator_full_nd (hc : HCalc) (c : farr) (s : sin_arg) (ws : option hbuf) : res (list Z * hbuf) :=
  do sl <- check_nd c s;
  let cl := ravel_K c in
  do H <- HCalculator_full_call hc cl sl ws;
  Ok ([alen H; Z.of_nat (length cl)], H).
