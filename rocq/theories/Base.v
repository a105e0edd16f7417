(** Common vocabulary of the model: Python results, buffers, [for] loops.

    This file models language and numpy/numba primitives, not repository code:
    - [res] : a Python call returns a value or raises;
    - [arr] : a one-dimensional buffer (numpy array seen from numba code);
    - [for_range], [for_step] : Python's [for i in range(...)]. *)
Require Import ZArith Lia List Bool.
Import ListNotations.
Open Scope Z_scope.

(** Exceptions that the modelled code can raise.  [OutOfBounds] is not a Python
    exception: it marks a memory access outside a buffer in compiled (numba)
    code, which in reality is undefined behaviour.  Neither is [Undetermined]: it marks the use of a
    number that the run has not determined (memory not written in this run, or a non-finite value). *)
Inductive err : Type :=
| ValueError | IndexError | TypeError | NameError | AttributeError
| ZeroDivisionError | NotImplementedError | UFuncTypeError | OutOfBounds
| Diverges | Undetermined.

Inductive res (A : Type) : Type :=
| Ok (a : A)
| Err (e : err).
Arguments Ok {A} a.
Arguments Err {A} e.

Definition bind {A B} (x : res A) (f : A -> res B) : res B :=
  match x with Ok a => f a | Err e => Err e end.
Notation "'do' x <- e ; f" := (bind e (fun x => f))
  (at level 200, x name, e at level 100, f at level 200, right associativity).
Notation "'do' ' p <- e ; f" := (bind e (fun p => f))
  (at level 200, p strict pattern, e at level 100, f at level 200, right associativity).

(** A buffer of [alen] entries.  [aget] outside [0, alen) is meaningless and is
    never consulted by the checked accessors. *)
Record arr (A : Type) : Type := mkarr { alen : Z; aget : Z -> A }.
Arguments mkarr {A} alen aget.
Arguments alen {A} a.
Arguments aget {A} a i.

(** Index normalisation used by numpy and numba: a negative index counts from
    the end. *)
Definition norm_index (len i : Z) : Z := if i <? 0 then i + len else i.

Definition in_bounds (len i : Z) : bool := (0 <=? i) && (i <? len).

(** [a[i]] in compiled code. *)
Definition rd {A} (a : arr A) (i : Z) : res A :=
  let j := norm_index (alen a) i in
  if in_bounds (alen a) j then Ok (aget a j) else Err OutOfBounds.

(** [a[i] = v] in compiled code. *)
Definition wr {A} (a : arr A) (i : Z) (v : A) : res (arr A) :=
  let j := norm_index (alen a) i in
  if in_bounds (alen a) j
  then Ok (mkarr (alen a) (fun k => if k =? j then v else aget a k))
  else Err OutOfBounds.

(** [np.empty(n)]: the contents are whatever the memory held. *)
Definition np_empty {A} (n : Z) (garbage : Z -> A) : res (arr A) :=
  if n <? 0 then Err ValueError else Ok (mkarr n garbage).

(** [for i in range(a, b): body], threading a state. *)
Fixpoint for_loop {S} (n : nat) (i step : Z) (body : Z -> S -> res S) (s : S) : res S :=
  match n with
  | O => Ok s
  | Datatypes.S n' => bind (body i s) (for_loop n' (i + step) step body)
  end.

Definition for_range {S} (a b : Z) (body : Z -> S -> res S) (s : S) : res S :=
  for_loop (Z.to_nat (b - a)) a 1 body s.

(** [for i in range(a, b, step): body] for a positive step: Python runs
    [max(0, ceil((b - a) / step))] iterations. *)
Definition for_step {S} (a b step : Z) (body : Z -> S -> res S) (s : S) : res S :=
  for_loop (Z.to_nat ((b - a + step - 1) / step)) a step body s.

(** [for i in range(a, b, -1)]: descending loop. *)
Definition for_down {S} (a b : Z) (body : Z -> S -> res S) (s : S) : res S :=
  for_loop (Z.to_nat (a - b)) a (-1) body s.
