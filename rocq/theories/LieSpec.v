(** Statement-level definitions for the theorems about derivatives of Modes objects. *)
Require Import ZArith List Reals.
From Coquelicot Require Import Hierarchy Derive Complex.
From Verif Require Import Base CBase CSum DRep IndexModel WignerModel RotorSpec SWSHModel ModesModel ModesSpec.
Open Scope R_scope.

(** [d] is the derivative of [F] at 0. *)
Definition Cderiv (F : R -> C) (d : C) : Prop :=
  is_derive (fun t : R => Re (F t)) 0 (Re d) /\ is_derive (fun t : R => Im (F t)) 0 (Im d).

(** exp(t*x), exp(t*y), exp(t*z) for the quaternion units: the rotations by the angle 2t. *)
Definition turn_x (t : R) : quat := mkquat (cos t) (sin t) 0 0.
Definition turn_y (t : R) : quat := mkquat (cos t) 0 (sin t) 0.
Definition turn_z (t : R) : quat := mkquat (cos t) 0 0 (sin t).

(** Away from the poles: both complex parts are above the code's cut-off. *)
Definition generic (q : quat) : Prop := unit_quat q /\ epsilon < Cmod (qa q) /\ epsilon < Cmod (qb q).

(** derivatives.py:20-24: Lg(f){Q} = -0.5j df{exp(t*g) * Q} / dt at t = 0, where f is what [f.evaluate] returns. *)
Definition left_derivative (tab : arr R) (h : heap) (f : modes) (g : R -> quat) (q : quat) (v : list Z -> C) : Prop :=
  exists F : R -> list Z -> C,
    (exists delta, 0 < delta /\ forall t, Rabs t < delta -> value_at tab h f (qmul (g t) q) (F t))
    /\ forall idx, at_index (lead (nd f)) idx -> exists d, Cderiv (fun t => F t idx) d /\ v idx = (- (Ci / RtoC 2) * d)%C.
(** derivatives.py:161-166: Rg(f){Q} = -0.5j df{Q * exp(t*g)} / dt at t = 0. *)
Definition right_derivative (tab : arr R) (h : heap) (f : modes) (g : R -> quat) (q : quat) (v : list Z -> C) : Prop :=
  exists F : R -> list Z -> C,
    (exists delta, 0 < delta /\ forall t, Rabs t < delta -> value_at tab h f (qmul q (g t)) (F t))
    /\ forall idx, at_index (lead (nd f)) idx -> exists d, Cderiv (fun t => F t idx) d /\ v idx = (- (Ci / RtoC 2) * d)%C.

(** [op f] returns an object whose value at [q] is [v]. *)
Definition op_value (op : heap -> modes -> res (heap * modes)) (tab : arr R) (h : heap) (f : modes) (q : quat) (v : list Z -> C) : Prop :=
  exists h' r, op h f = Ok (h', r) /\ lead (nd r) = lead (nd f) /\ value_at tab h' r q v.

(** The modes of the function r |-> f(q r), for f with modes [w]; [d ell] is the Wigner D matrix of q. *)
Definition rotated (d : Z -> Z -> Z -> C) (w : list Z -> Z -> Z -> C) : list Z -> Z -> Z -> C :=
  fun idx ell m' => csum (- ell) ell (fun m => w idx ell m * d ell m m')%C.
