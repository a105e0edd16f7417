(** Model of [Modes.grid] (spherical_functions/SWSH_modes/utilities.py:44-80). *)
Require Import ZArith List.
From Coquelicot Require Import Complex.
From Verif Require Import Base CBase ModesModel GridModel.
Import ListNotations.
Open Scope Z_scope.

(** Python's [x or d]; [None] is [None] *)
Definition py_or (x : option Z) (d : Z) : Z := match x with Some n => if n =? 0 then d else n | None => d end.
(** [self.view(np.ndarray)]: the entries of the array, indices from the last axis to the first *)
Definition entries (h : heap) (a : ndarray) : garr := mkgarr (wid a :: lead a) (fun idx => mem h (buf a) (tl idx) (hd 0 idx)).
(** utilities.py:44-80; [salm2map] is the function of spinsfast (array, s, ell_max, n_theta, n_phi), not modelled; [kw] is
    the keyword argument spin_weight, which overrides the value in the metadata.  Other keyword arguments are only stored. *)
Definition Modes_grid (salm2map : garr -> Z -> Z -> Z -> Z -> res garr) (h : heap) (self : modes) (n_theta n_phi kw : option Z)
    : res grid :=
  let n_theta := py_or n_theta (2 * ellmax (md self) + 1) in
  let n_phi := py_or n_phi n_theta in
  do map <- salm2map (entries h (nd self)) (spin (md self)) (ellmax (md self)) n_theta n_phi;
  Grid_new map None [] (orelse kw (Some (spin (md self)))).
