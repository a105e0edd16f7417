(** Statement-level definitions for the theorems about [Modes.grid]. *)
Require Import ZArith List Reals.
From Coquelicot Require Import Complex.
From Verif Require Import Base CBase CSum WignerModel RotorSpec SWSHModel ModesModel ModesSpec GridModel GridSpec OrthoSpec.
Import ListNotations.
Open Scope Z_scope.

(** What is assumed of [spinsfast.salm2map]: for an array whose last axis holds the modes up to ell_max = L >= 1 and for at
    least 2 L + 1 points in each direction, it returns the values of the sum of modes times harmonics at the points
    theta_j = j pi / (n_theta - 1), phi_k = 2 pi k / n_phi, on two last axes that replace the axis of the modes. *)
Definition salm2map_right (salm2map : garr -> Z -> Z -> Z -> Z -> res garr) : Prop :=
  forall a s L nt np ld, gshape a = (L + 1) ^ 2 :: ld -> 1 <= L -> Z.abs s <= L -> 2 * L + 1 <= nt -> 2 * L + 1 <= np ->
  exists r, salm2map a s L nt np = Ok r /\ gshape r = np :: nt :: ld
    /\ forall l j k, at_index ld l -> 0 <= j < nt -> 0 <= k < np ->
       gval r (k :: j :: l)
       = csum (Z.abs s) L (fun ell => csum (- ell) ell (fun m =>
           gval a ((ell * ell + (ell + m))%Z :: l) * harmonic s ell m (IZR j * PI / (IZR nt - 1)) (2 * PI * IZR k / IZR np)))%C.

(** The Grid [g] has [nt] by [np] points, the spin weight and leading axes of [f], and at each point of
    [theta_phi(nt, np)] the value that [f.evaluate] returns there. *)
Definition samples (tab : arr R) (h : heap) (f : modes) (g : grid) (nt np : Z) : Prop :=
  has_shape g (spin (md f)) nt np (lead (nd f))
  /\ exists shape points, theta_phi nt np = Ok (shape, points)
     /\ forall j k, 0 <= j < nt -> 0 <= k < np ->
        value_at tab h f (direction_rotor (points j k 0) (points j k 1)) (fun idx => value g idx j k).
