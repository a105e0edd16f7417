(** Property C67: Grid objects in double precision.  The functions ending in 64 (FloatGridModel.v) round every operation; [u64]
    is 2^-53 and [tiny64] is 2^-1074, the smallest positive double.  [lib] holds the functions of the C library, [w] says how
    the compiled loops order and fuse the operations at each entry. *)
Require Import ZArith List Reals Lia Lra.
From Coquelicot Require Import Complex.
From Verif Require Import Base CBase ModesModel ModesSpec GridModel GridSpec GridUfuncSpec FloatIndexModel FloatPowersSpec FloatConvSpec FloatModesModel
  FloatModesSpec FloatGridModel FloatGridSpec.
From Verif Require P_Grid P_GridUfunc FloatGridProps.
Import ListNotations.
Open Scope Z_scope.

(** ** C67 *)

(** Rounding never changes how a call ends: the same exception, or the same shape and spin weight, or the same truth values,
    for every ufunc, method, inputs and [out=]. *)
Theorem C67_outcome :
  forall lib w u m args out kwargs, same_outcome (grid_ufunc u m args out kwargs) (grid_ufunc64 lib w u m args out kwargs).
Proof. exact FloatGridProps.C67_outcome. Qed.
Print Assumptions C67_outcome.

(** The entries of the result are close to what C58 says they are in exact arithmetic. *)
Theorem C67_accurate :
  forall lib w u args s nt np ld, good_hypot (l_hypot lib) -> good_csqrt (l_csqrt lib) -> good_way w ->
  grids_wf args -> combines u args s nt np ld -> enough s nt np ->
  exists r, grid_ufunc64 lib w u m_call args None false = Ok (RGrid r) /\ gwf r /\ has_shape r s nt np ld
    /\ forall l i j, at_index ld l -> 0 <= i < nt -> 0 <= j < np -> near u args l i j (value r l i j).
Proof. exact FloatGridProps.C67_accurate. Qed.
Print Assumptions C67_accurate.

(** With [out=]: the same rounded numbers, broadcast into [out]. *)
Theorem C67_out :
  forall lib w u args o r r', truth_valued u = false -> some_grid args ->
  grid_ufunc64 lib w u m_call args None false = Ok (RGrid r) -> grid_ufunc64 lib w u m_call args (Some o) false = Ok (RGrid r') ->
  gspin r' = gspin r /\ gshape (gdata r') = gshape (out_view o) /\ holds (gshape (gdata r)) (gval (gdata r)) (gdata r').
Proof. exact FloatGridProps.C67_out. Qed.
Print Assumptions C67_out.

(** The methods [add], [subtract], [multiply], [divide] and [absolute] against the same methods in exact arithmetic *)
Theorem C67_add :
  forall self other, same_grids (fun v z => z = rounded v) (gadd self other) (gadd64 self other)
    /\ same_grids (fun v z => z = rounded v) (gsubtract self other) (gsubtract64 self other).
Proof. exact FloatGridProps.C67_add. Qed.
Print Assumptions C67_add.
Theorem C67_multiply :
  forall w self other, good_way w ->
  same_grids (fun v z => (Cmod (z - v)%C <= 3 * u64 * Cmod v + 4 * tiny64)%R) (gmultiply self other) (gmultiply64 w self other).
Proof. exact FloatGridProps.C67_multiply. Qed.
Print Assumptions C67_multiply.
Theorem C67_divide :
  forall w self other m, (/ 2 ^ 900 <= m)%R ->
  (forall idx, at_index (shape_of other) idx -> (m <= Cmod (entry other idx) <= 2 ^ 900)%R) ->
  same_grids (fun v z => (Cmod (z - v)%C <= 18 * u64 * Cmod v + 3 * tiny64 * (1 + / m))%R) (gdivide self other) (gdivide64 w self other).
Proof. exact FloatGridProps.C67_divide. Qed.
Print Assumptions C67_divide.
Theorem C67_absolute :
  forall lib self, good_hypot (l_hypot lib) ->
  same_grids (fun v z => Im z = 0%R /\ Im v = 0%R /\ (Rabs (Re z - Re v) <= 2 * u64 * Re v + tiny64)%R) (gabsolute self) (gabsolute64 lib self).
Proof. exact FloatGridProps.C67_absolute. Qed.
Print Assumptions C67_absolute.

(** An exact hypot, the principal square root, and loops that treat the first point of each row differently *)
Example C67_nonvacuous :
  good_hypot (l_hypot FloatGridProps.example_lib) /\ good_csqrt (l_csqrt FloatGridProps.example_lib) /\ good_way FloatGridProps.example_way.
Proof.
  exact FloatGridProps.C67_example.
Qed.
(** The inputs of the examples of C58, and a quotient by a number *)
Example C67_nonvacuous_inputs :
  grids_wf [OG P_Grid.demo_a; OG P_Grid.demo_b] /\ combines u_multiply [OG P_Grid.demo_a; OG P_Grid.demo_b] 1 5 6 [3; 2] /\ enough 1 5 6
  /\ (forall idx, at_index (shape_of (OS (mkscalars [] (fun _ => RtoC 3)))) idx -> (1 <= Cmod (entry (OS (mkscalars [] (fun _ => RtoC 3))) idx) <= 2 ^ 900)%R)
  /\ (/ 2 ^ 900 <= 1)%R.
Proof.
  destruct P_GridUfunc.C58_nonvacuous as (_ & W & H & _). split; [exact W|]. split; [exact H|]. split; [split; cbn; lia|].
  assert (P : (8 <= 2 ^ 900)%R) by (replace 8%R with (2 ^ 3)%R by ring; apply Rle_pow; [lra|lia]). split.
  - intros idx _. cbn [entry sc_val]. rewrite Cmod_R, Rabs_pos_eq by lra. lra.
  - rewrite <- Rinv_1. apply Rinv_le_contravar; lra.
Qed.
