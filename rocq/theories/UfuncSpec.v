(** Statement-level definitions for universal functions on Modes objects (C29). *)
Require Import ZArith List Reals Bool.
From Coquelicot Require Import Complex.
From Verif Require Import Base CBase Fact ModesModel ModesSpec MultModel MultSpec UfuncModel.
From Verif Require GridModel.
Import ListNotations.
Import GridModel (ufunc(..), umethod(..)).
Open Scope Z_scope.

(** Number of inputs of each ufunc; numpy checks it for a plain call. *)
Definition arity (u : ufunc) : option nat :=
  match u with
  | u_isfinite | u_isinf | u_isnan | u_positive | u_negative | u_conjugate | u_absolute | u_sqrt | u_square | u_reciprocal => Some 1%nat
  | u_other => None
  | _ => Some 2%nat
  end.
Definition inputs_ok (u : ufunc) (args : list operand) : Prop := match arity u with Some n => length args = n | None => True end.

(** Shape (last axis first) and entries of an input *)
Definition shape_of (x : operand) : list Z :=
  match x with OM m => wid (nd m) :: lead (nd m) | OS x => sc_shape x end.
Definition entry (h : heap) (x : operand) (idx : list Z) : C :=
  match x with OM m => mem h (buf (nd m)) (tl idx) (hd 0 idx) | OS x => sc_val x idx end.
Definition bentry (h : heap) (x : operand) (idx : list Z) : C := entry h x (bidx (shape_of x) idx).

(** The truth-valued ufuncs: the shape and what each entry says *)
Definition comparison (u : ufunc) : bool :=
  match u with u_equal | u_not_equal | u_logical_and | u_logical_or | u_isfinite | u_isinf | u_isnan => true | _ => false end.
Definition bshape (args : list operand) : option (list Z) :=
  match args with [a] => Some (shape_of a) | [a; b] => broadcast (shape_of a) (shape_of b) | _ => None end.
Definition truth (h : heap) (u : ufunc) (args : list operand) (idx : list Z) : Prop :=
  match u, args with
  | u_equal, [a; b] => bentry h a idx = bentry h b idx
  | u_not_equal, [a; b] => bentry h a idx <> bentry h b idx
  | u_logical_and, [a; b] => bentry h a idx <> RtoC 0 /\ bentry h b idx <> RtoC 0
  | u_logical_or, [a; b] => bentry h a idx <> RtoC 0 \/ bentry h b idx <> RtoC 0
  | u_isfinite, [_] => True
  | _, _ => False
  end.

(** [r] has spin weight [s], maximum ell [L], truncator [t] and the modes [F]: without [out] a new object of leading
    shape [sh] that leaves everything else alone; with [out] that very array, nothing else being changed. *)
Definition placed (h : heap) (out : option outarg) (h' : heap) (r : modes) (s L : Z) (t : option (Z -> Z -> Z)) (sh : list Z)
    (F : list Z -> Z -> Z -> C) : Prop :=
  spin (md r) = s /\ ellmax (md r) = L /\ truncator (md r) = t /\ wf h' r
  /\ (forall idx ell mm, at_index (lead (nd r)) idx -> 0 <= ell <= L -> - ell <= mm <= ell -> mode h' r idx ell mm = F idx ell mm)
  /\ match out with
     | None => lead (nd r) = sh /\ (next h <= buf (nd r))%nat /\ forall b, (b < next h)%nat -> forall idx k, mem h' b idx k = mem h b idx k
     | Some o => nd r = out_nd o /\ changes_only (buf (out_nd o)) h h' /\ broadcast sh (lead (nd r)) = Some (lead (nd r))
     end.

(** The modes of [f] at the leading index [idx] of a result to which [f] is broadcast; zero beyond its ell_max *)
Definition bmode (h : heap) (f : modes) (idx : list Z) (ell mm : Z) : C :=
  if ell <=? ellmax (md f) then mode h f (bidx (lead (nd f)) idx) ell mm else RtoC 0.
(** The scalar that multiplies every mode of the function with leading index [idx] *)
Definition bscalar (x : scalars) (idx : list Z) : C := sc_val x (bidx (sc_shape x) idx).
Definition all_zero (x : scalars) : Prop := forall idx, at_index (sc_shape x) idx -> sc_val x idx = RtoC 0.
(** The scalar has no more axes than the object has leading axes, and broadcasts against those. *)
Definition over_functions (f : modes) (x : scalars) (sh : list Z) : Prop :=
  (length (sc_shape x) <= length (lead (nd f)))%nat /\ broadcast (lead (nd f)) (sc_shape x) = Some sh.

(** The documented result of calling [u] on [args]. *)
Definition documented (h : heap) (u : ufunc) (args : list operand) (out : option outarg) (h' : heap) (r : mresult) : Prop :=
  if comparison u then
    exists sh, bshape args = Some sh
      /\ match out with
         | None => h' = h /\ exists b, r = RBool sh b /\ forall idx, at_index sh idx -> (b idx = true <-> truth h u args idx)
         | Some o => r = RArr (out_nd o) /\ changes_only (buf (out_nd o)) h h'
             /\ broadcast sh (wid (out_nd o) :: lead (out_nd o)) = Some (wid (out_nd o) :: lead (out_nd o))
             /\ forall idx k, at_index (lead (out_nd o)) idx -> 0 <= k < wid (out_nd o) ->
                  (truth h u args (k :: idx) -> mem h' (buf (out_nd o)) idx k = RtoC 1)
                  /\ (~ truth h u args (k :: idx) -> mem h' (buf (out_nd o)) idx k = RtoC 0)
         end
  else
  match u, args, r with
  | u_positive, [OM f], RModes r =>
      placed h out h' r (spin (md f)) (ellmax (md f)) (truncator (md f)) (lead (nd f)) (bmode h f)
  | u_negative, [OM f], RModes r =>
      placed h out h' r (spin (md f)) (ellmax (md f)) (truncator (md f)) (lead (nd f)) (fun idx ell mm => - bmode h f idx ell mm)%C
  | u_add, [OM f; OM g], RModes r =>
      spin (md f) = spin (md g) /\ exists sh, broadcast (lead (nd f)) (lead (nd g)) = Some sh
      /\ placed h out h' r (spin (md f)) (Z.max (ellmax (md f)) (ellmax (md g))) (truncator (md f)) sh
           (fun idx ell mm => bmode h f idx ell mm + bmode h g idx ell mm)%C
  | u_subtract, [OM f; OM g], RModes r =>
      spin (md f) = spin (md g) /\ exists sh, broadcast (lead (nd f)) (lead (nd g)) = Some sh
      /\ placed h out h' r (spin (md f)) (Z.max (ellmax (md f)) (ellmax (md g))) (truncator (md f)) sh
           (fun idx ell mm => bmode h f idx ell mm - bmode h g idx ell mm)%C
  | u_add, [OM f; OS x], RModes r | u_add, [OS x; OM f], RModes r | u_subtract, [OM f; OS x], RModes r =>
      all_zero x /\ exists sh, over_functions f x sh
      /\ placed h out h' r (spin (md f)) (ellmax (md f)) (truncator (md f)) sh (bmode h f)
  | u_subtract, [OS x; OM f], RModes r =>
      all_zero x /\ exists sh, over_functions f x sh
      /\ placed h out h' r (spin (md f)) (ellmax (md f)) (truncator (md f)) sh (fun idx ell mm => - bmode h f idx ell mm)%C
  | u_multiply, [OM f; OM g], RModes r =>
      exists sh, broadcast (lead (nd f)) (lead (nd g)) = Some sh
      /\ placed h out h' r (spin (md f) + spin (md g)) (product_ell_max f g None) (truncator (md f)) sh
           (fun idx => product_weight (spin (md f)) (ellmax (md f)) (spin (md g)) (ellmax (md g)) (bmode h f idx) (bmode h g idx))
  | u_multiply, [OM f; OS x], RModes r | u_multiply, [OS x; OM f], RModes r =>
      exists sh, over_functions f x sh
      /\ placed h out h' r (spin (md f)) (ellmax (md f)) (truncator (md f)) sh (fun idx ell mm => bscalar x idx * bmode h f idx ell mm)%C
  | u_divide, [OM f; OS x], RModes r =>
      exists sh, over_functions f x sh
      /\ placed h out h' r (spin (md f)) (ellmax (md f)) (truncator (md f)) sh (fun idx ell mm => bmode h f idx ell mm / bscalar x idx)%C
  | u_conjugate, [OM f], RModes r =>
      placed h out h' r (- spin (md f)) (ellmax (md f))
        (match out with Some (OutModes o) => orelse (truncator (md f)) (truncator (md o)) | _ => truncator (md f) end) (lead (nd f))
        (fun idx ell mm => RtoC (sgn (spin (md f) + mm)) * Cconj (bmode h f idx ell (- mm)))%C
  | u_absolute, [OM f], RReal sh v =>
      h' = h /\ out = None /\ sh = wid (nd f) :: lead (nd f)
      /\ forall idx ell mm, 0 <= ell <= ellmax (md f) -> - ell <= mm <= ell ->
           v ((ell * ell + (ell + mm)) :: idx) = Cmod (mode h f idx ell mm)
  | _, _, _ => False
  end.

(** The inputs for which there is a documented result *)
Definition supported (u : ufunc) (args : list operand) : Prop :=
  match u, args with
  | (u_isfinite | u_isinf | u_isnan | u_positive | u_negative | u_conjugate | u_absolute), [OM f] => True
  | (u_equal | u_not_equal | u_logical_and | u_logical_or), [a; b] => exists sh, broadcast (shape_of a) (shape_of b) = Some sh
  | (u_add | u_subtract), [OM f; OM g] => spin (md f) = spin (md g) /\ exists sh, broadcast (lead (nd f)) (lead (nd g)) = Some sh
  | (u_add | u_subtract), ([OM f; OS x] | [OS x; OM f]) => all_zero x /\ exists sh, over_functions f x sh
  | u_multiply, [OM f; OM g] => exists sh, broadcast (lead (nd f)) (lead (nd g)) = Some sh
  | u_multiply, ([OM f; OS x] | [OS x; OM f]) | u_divide, [OM f; OS x] => exists sh, over_functions f x sh
  | _, _ => False
  end.

(** The objects among the inputs keep the promises of the class; products stay within the widths of the compiled code and
    no truncator asks for a negative ell_max. *)
Definition inputs_wf (w : Wigner3jModel.widths) (h : heap) (args : list operand) : Prop :=
  (forall f, In (OM f) args -> wf h f /\ 0 <= ellmax (md f))
  /\ forall f g, args = [OM f; OM g] -> wide_enough w (ellmax (md f)) (ellmax (md g)) /\ 0 <= product_ell_max f g None.

(** What [out] has to satisfy for the documented result to be put there.  Each clause is necessary: see the refutations. *)
Definition out_ok (h : heap) (u : ufunc) (args : list operand) (out : option outarg) : Prop :=
  match out with
  | None => True
  | Some o =>
    let a := out_nd o in
    (buf a < next h)%nat /\ 0 <= wid a
    /\ match u, args with
       | (u_positive | u_negative), [OS _] => False
       | u_absolute, _ => False
       | (u_add | u_subtract), [OM f; OM g] =>
           buf a <> buf (nd g)
           /\ forall idx k, at_index (lead a) idx -> (ellmax (md f) + 1) ^ 2 <= k < wid a -> mem h (buf a) idx k = RtoC 0
       | u_multiply, [OM f; OM g] =>
           buf a <> buf (nd f) /\ buf a <> buf (nd g)
           /\ forall idx k, at_index (lead a) idx -> 0 <= k < wid a -> mem h (buf a) idx k = RtoC 0
       | u_conjugate, [OM f] => Z.abs (spin (md f)) <= ellmax (md f)
       | _, _ => True
       end
  end.
