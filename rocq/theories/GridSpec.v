(** Statement-level definitions for the theorems about Grid objects. *)
Require Import ZArith List Reals.
From Coquelicot Require Import Complex.
From Verif Require Import Base CBase ModesModel ModesSpec GridModel.
Import ListNotations.
Open Scope Z_scope.

(** The value at the grid point (theta_i, phi_j) of the function with leading index [l]. *)
Definition value (g : grid) (l : list Z) (i j : Z) : C := gval (gdata g) (j :: i :: l).

(** [r] has spin weight [s], [nt] by [np] grid points and leading shape [ld]. *)
Definition has_shape (r : grid) (s nt np : Z) (ld : list Z) : Prop := gspin r = s /\ gshape (gdata r) = np :: nt :: ld.
(** ... and the values [F]. *)
Definition is_grid (r : grid) (s nt np : Z) (ld : list Z) (F : list Z -> Z -> Z -> C) : Prop :=
  has_shape r s nt np ld
  /\ forall l i j, at_index ld l -> 0 <= i < nt -> 0 <= j < np -> value r l i j = F l i j.

(** Enough points for the spin weight. *)
Definition enough (s nt np : Z) : Prop := 2 * Z.abs s + 1 <= nt /\ 2 * Z.abs s + 1 <= np.
(** A Grid as the constructor makes it. *)
Definition gwf (g : grid) : Prop :=
  (2 <= length (gshape (gdata g)))%nat /\ enough (gspin g) (n_theta g) (n_phi g).
(** The two functions live on the same grid points. *)
Definition same_points (f g : grid) : Prop := n_theta f = n_theta g /\ n_phi f = n_phi g.
(** The same spin weight, shape and entries. *)
Definition same_grid_value (a b : grid) : Prop :=
  gspin a = gspin b /\ gshape (gdata a) = gshape (gdata b)
  /\ forall idx, at_index (gshape (gdata b)) idx -> gval (gdata a) idx = gval (gdata b) idx.
