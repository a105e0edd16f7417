(** Statement-level definitions for the Wigner and SWSH theorems. *)
Require Import ZArith Reals List.
From Coquelicot Require Import Complex.
From Verif Require Import Base CBase DRep WignerModel SWSHModel WignerCallModel.
Import ListNotations.
Open Scope R_scope.

(** The two complex parts of a unit quaternion for which the code's cut-off [epsilon = 1e-15] makes no difference: a
    part at or below the cut-off is exactly zero.  (Between 0 and the cut-off the code drops terms below that size.) *)
Definition rotor_parts (a b : C) : Prop :=
  (a * Cconj a + b * Cconj b)%C = RtoC 1 /\ (a = RtoC 0 \/ epsilon < Cmod a) /\ (b = RtoC 0 \/ epsilon < Cmod b).

Definition rotor (q : quat) : Prop :=
  unit_quat q /\ (qa q = RtoC 0 \/ epsilon < Cmod (qa q)) /\ (qb q = RtoC 0 \/ epsilon < Cmod (qb q)).

(** The ways of passing one rotation: a quaternion, or three Euler angles. *)
Definition rotation_args (args : list arg) (a b : C) : Prop :=
  (exists q, args = [AQuat q] /\ qa q = a /\ qb q = b)
  \/ (exists alpha beta gamma, args = [AReal alpha; AReal beta; AReal gamma]
       /\ qa (from_euler_angles alpha beta gamma) = a /\ qb (from_euler_angles alpha beta gamma) = b).

(** [Wigner_D_element(q, twoell/2, twomp/2, twom/2)] returns the scalar [v], whatever the uninitialised memory held. *)
Definition D_returns (tab : arr R) (L : Z) (q : quat) (twoell twomp twom : Z) (v : C) : Prop :=
  forall garbage, exists out,
    Wigner_D_element tab L garbage [AQuat q; AReal (IZR twoell / 2); AReal (IZR twomp / 2); AReal (IZR twom / 2)]
    = Ok (out, true) /\ aget out 0 = v.

(** [SWSH(q, s, [[ell, m]])] returns an array whose only entry is [v]. *)
Definition SWSH_returns (tab : arr R) (q : quat) (s ell m : Z) (v : C) : Prop :=
  forall garbage, exists out,
    SWSH_indices tab garbage q s (mkarr 1 (fun _ => (ell, m))) = Ok out /\ alen out = 1%Z /\ aget out 0 = v.

(** [d] holds every element of D(q) for one (possibly half-integer) ell = N/2, rows and columns counted from 0:
    [d p r] is the value returned for m' = p - ell, m = r - ell. *)
Definition D_matrix (tab : arr R) (L N : Z) (q : quat) (d : Z -> Z -> C) : Prop :=
  forall p r, (0 <= p <= N)%Z -> (0 <= r <= N)%Z -> D_returns tab L q N (2 * p - N) (2 * r - N) (d p r).

(** Rotation about the z axis by gamma. *)
Definition z_rotor (gamma : R) : quat := mkquat (cos (gamma / 2)) 0 0 (sin (gamma / 2)).

(** quaternion.from_spherical_coords(theta, phi): the rotor taking the z axis to the direction (theta, phi). *)
Definition direction_rotor (theta phi : R) : quat :=
  mkquat (cos (theta / 2) * cos (phi / 2)) (- (sin (theta / 2) * sin (phi / 2)))
         (sin (theta / 2) * cos (phi / 2)) (cos (theta / 2) * sin (phi / 2)).

(** The call forms whose indices are validated: (ell, mp, m) or a two-dimensional index array, after one quaternion or
    three angles; or a two-dimensional index array after the two complex parts. *)
Definition checked_call (args : list arg) : Prop :=
  (exists rot rest, args = rot ++ rest
    /\ ((exists q, rot = [AQuat q]) \/ (exists x y z, rot = [AReal x; AReal y; AReal z]))
    /\ ((exists e mp m, rest = [AReal e; AReal mp; AReal m]) \/ (exists n l, rest = [AIndices2 n l])))
  \/ exists a b n l, args = [AComplex a; AComplex b; AIndices2 n l].
