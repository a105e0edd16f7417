(** Statement-level definitions for the theorems about calls of the H calculators with arrays of angles. *)
Require Import ZArith List Reals Permutation.
From Verif Require Import Base IndexModel HModel HCallModel.
Import ListNotations.
Open Scope R_scope.

(** [axes] lists every axis of an array of shape [sh] once, and no dimension is negative. *)
Definition layout_ok (sh : list Z) (axes : list nat) : Prop :=
  Permutation axes (seq 0 (length sh)) /\ Forall (fun n => 0 <= n)%Z sh.

(** The arrays [c] and [s] hold the cosines and sines of the angles [betas] (no sines: the angles are in [0, pi]), at least one. *)
Definition angle_arrays (betas : list Z -> R) (c : farr) (s : sin_arg) : Prop :=
  layout_ok (fshape c) (faxes c) /\ Forall (fun n => 1 <= n)%Z (fshape c)
  /\ (forall idx, In idx (positions (fshape c)) -> fval c idx = cos (betas idx))
  /\ match s with
     | SNone => forall idx, In idx (positions (fshape c)) -> 0 <= betas idx <= PI
     | SFloat _ => False
     | SArr a => fshape a = fshape c /\ layout_ok (fshape a) (faxes a)
                 /\ forall idx, In idx (positions (fshape c)) -> fval a idx = sin (betas idx)
     end.
Definition same_layout (c : farr) (s : sin_arg) : Prop := match s with SArr a => faxes a = faxes c | _ => True end.
Definition ws_ok (size : Z) (ws : ws_arg) : Prop := match ws with WNone => True | W1 => False | W2 w => (size <= alen w)%Z end.
