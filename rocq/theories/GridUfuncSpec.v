(** Statement-level definitions for universal functions on Grid objects (C58). *)
Require Import ZArith List Reals Bool.
From Coquelicot Require Import Complex.
From Verif Require Import Base CBase ModesModel ModesSpec GridModel GridSpec.
Import ListNotations.
Open Scope Z_scope.

(** Number of inputs of each ufunc; numpy checks it for a plain call. *)
Definition inputs (u : ufunc) : option nat :=
  match u with
  | u_isfinite | u_isinf | u_isnan | u_positive | u_negative | u_conjugate | u_absolute | u_sqrt | u_square | u_reciprocal => Some 1%nat
  | u_other => None
  | _ => Some 2%nat
  end.
Definition inputs_ok (u : ufunc) (args : list operand) : Prop := match inputs u with Some n => length args = n | None => True end.
(** At least one input is a Grid, and every Grid is as the constructor makes it. *)
Definition some_grid (args : list operand) : Prop := exists g, In (OG g) args.
Definition grids_wf (args : list operand) : Prop := forall g, In (OG g) args -> gwf g.

(** ** Truth values *)
Definition truth_valued (u : ufunc) : bool :=
  match u with
  | u_greater | u_greater_equal | u_less | u_less_equal | u_not_equal | u_equal | u_logical_and | u_logical_or
  | u_isfinite | u_isinf | u_isnan => true
  | _ => false
  end.
(** Shape (last axis first) and entries of an input, as a plain array *)
Definition shape_of (x : operand) : list Z := match x with OG g => gshape (gdata g) | OS x => sc_shape x end.
Definition entry (x : operand) (idx : list Z) : C := match x with OG g => gval (gdata g) idx | OS x => sc_val x idx end.
Definition bentry (x : operand) (idx : list Z) : C := entry x (bidx (shape_of x) idx).
Definition bshape (args : list operand) : option (list Z) :=
  match args with [a] => Some (shape_of a) | [a; b] => broadcast (shape_of a) (shape_of b) | _ => None end.
(** The order of numpy: real parts first, imaginary parts to break ties *)
Definition before (x y : C) : Prop := (Re x < Re y)%R \/ Re x = Re y /\ (Im x < Im y)%R.
Definition truth (u : ufunc) (args : list operand) (idx : list Z) : Prop :=
  match u, args with
  | u_less, [a; b] => before (bentry a idx) (bentry b idx)
  | u_less_equal, [a; b] => before (bentry a idx) (bentry b idx) \/ bentry a idx = bentry b idx
  | u_greater, [a; b] => before (bentry b idx) (bentry a idx)
  | u_greater_equal, [a; b] => before (bentry b idx) (bentry a idx) \/ bentry a idx = bentry b idx
  | u_equal, [a; b] => bentry a idx = bentry b idx
  | u_not_equal, [a; b] => bentry a idx <> bentry b idx
  | u_logical_and, [a; b] => bentry a idx <> RtoC 0 /\ bentry b idx <> RtoC 0
  | u_logical_or, [a; b] => bentry a idx <> RtoC 0 \/ bentry b idx <> RtoC 0
  | u_isfinite, [_] => True
  | _, _ => False
  end.

(** ** Arithmetic *)

(** The number that an input contributes at the grid point (theta_i, phi_j) of the function with leading index [l]: an
    array that is not a Grid holds one number per function. *)
Definition at_point (x : operand) (l : list Z) (i j : Z) : C :=
  match x with OG g => value g (bidx (glead g) l) i j | OS x => sc_val x (bidx (sc_shape x) l) end.
Definition all_zero (x : scalars) : Prop := forall idx, at_index (sc_shape x) idx -> sc_val x idx = RtoC 0.
(** [e] is the integer part (towards zero) of the only entry of [x], a real number. *)
Definition exponent (x : operand) (e : Z) : Prop :=
  Forall (fun n => n = 1) (shape_of x)
  /\ exists r : R, entry x (repeat 0 (length (shape_of x))) = RtoC r
       /\ ((0 <= r)%R /\ (IZR e <= r < IZR e + 1)%R \/ (r <= 0)%R /\ (IZR e - 1 < r <= IZR e)%R).

(** The inputs can be combined by [u]; the result has spin weight [s], [nt] by [np] points and leading shape [ld]. *)
Definition combines (u : ufunc) (args : list operand) (s nt np : Z) (ld : list Z) : Prop :=
  match u, args with
  | (u_positive | u_negative), [OG g] => s = gspin g /\ nt = n_theta g /\ np = n_phi g /\ ld = glead g
  | u_conjugate, [OG g] | u_reciprocal, [OG g] => s = - gspin g /\ nt = n_theta g /\ np = n_phi g /\ ld = glead g
  | u_absolute, [OG g] => s = 0 /\ nt = n_theta g /\ np = n_phi g /\ ld = glead g
  | u_square, [OG g] => s = 2 * gspin g /\ nt = n_theta g /\ np = n_phi g /\ ld = glead g
  | u_sqrt, [OG g] => 2 * s = gspin g /\ nt = n_theta g /\ np = n_phi g /\ ld = glead g
  | u_power, [OG g; x] => (exists e, exponent x e /\ s = e * gspin g) /\ nt = n_theta g /\ np = n_phi g /\ ld = glead g
  | (u_add | u_subtract | u_multiply | u_divide), [OG f; OG g] =>
      same_points f g /\ nt = n_theta f /\ np = n_phi f /\ broadcast (glead f) (glead g) = Some ld
      /\ match u with
         | u_multiply => s = gspin f + gspin g
         | u_divide => s = gspin f - gspin g
         | _ => s = gspin f /\ gspin f = gspin g
         end
  | (u_add | u_subtract | u_multiply | u_divide), ([OG g; OS x] | [OS x; OG g]) =>
      nt = n_theta g /\ np = n_phi g /\ (length (sc_shape x) <= length (glead g))%nat /\ broadcast (glead g) (sc_shape x) = Some ld
      /\ match u, args with
         | u_multiply, _ => s = gspin g
         | u_divide, [OG _; _] => s = gspin g
         | u_divide, _ => s = - gspin g
         | _, _ => s = gspin g /\ (gspin g = 0 \/ all_zero x)
         end
  | _, _ => False
  end.
(** What the value [z] of the result is, given the numbers [x], [y] (if any) that the inputs contribute *)
Definition pointwise (u : ufunc) (args : list operand) (l : list Z) (i j : Z) (z : C) : Prop :=
  match u, args with
  | u_positive, [a] => z = at_point a l i j
  | u_negative, [a] => (z + at_point a l i j)%C = RtoC 0
  | u_conjugate, [a] => z = Cconj (at_point a l i j)
  | u_absolute, [a] => z = RtoC (Cmod (at_point a l i j))
  | u_square, [a] => z = (at_point a l i j * at_point a l i j)%C
  | u_reciprocal, [a] => at_point a l i j <> RtoC 0 -> (z * at_point a l i j)%C = RtoC 1
  | u_sqrt, [a] => (z * z)%C = at_point a l i j /\ ((0 < Re z)%R \/ Re z = 0%R /\ (0 <= Im z)%R)
  | u_power, [a; x] => forall e, exponent x e ->
      (0 <= e -> z = Cpow (at_point a l i j) (Z.to_nat e))
      /\ (e < 0 -> at_point a l i j <> RtoC 0 -> (z * Cpow (at_point a l i j) (Z.to_nat (- e)))%C = RtoC 1)
  | u_add, [a; b] => z = (at_point a l i j + at_point b l i j)%C
  | u_subtract, [a; b] => (z + at_point b l i j)%C = at_point a l i j
  | u_multiply, [a; b] => z = (at_point a l i j * at_point b l i j)%C
  | u_divide, [a; b] => at_point b l i j <> RtoC 0 -> (z * at_point b l i j)%C = at_point a l i j
  | _, _ => False
  end.

(** The documented result *)
Definition is_result (u : ufunc) (args : list operand) (r : gresult) : Prop :=
  if truth_valued u then
    exists sh b, bshape args = Some sh /\ r = RBool sh b /\ forall idx, at_index sh idx -> (b idx = true <-> truth u args idx)
  else
    exists g s nt np ld, r = RGrid g /\ combines u args s nt np ld /\ gwf g /\ has_shape g s nt np ld
      /\ forall l i j, at_index ld l -> 0 <= i < nt -> 0 <= j < np -> pointwise u args l i j (value g l i j).
(** The inputs for which there is one *)
Definition has_result (u : ufunc) (args : list operand) : Prop :=
  if truth_valued u then exists sh, bshape args = Some sh
  else exists s nt np ld, combines u args s nt np ld /\ enough s nt np.

(** A result of shape [sh] can be written into [o]. *)
Definition fits (sh : list Z) (o : outarg) : Prop := broadcast sh (gshape (out_view o)) = Some (gshape (out_view o)).
(** [a] holds an array of shape [sh] and entries [v], broadcast to its own shape. *)
Definition holds (sh : list Z) (v : list Z -> C) (a : garr) : Prop :=
  broadcast sh (gshape a) = Some (gshape a) /\ forall idx, at_index (gshape a) idx -> gval a idx = v (bidx sh idx).
