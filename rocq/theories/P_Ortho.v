(** Properties C42 (the integral), C48, C49, C50 and C51: integrals over the sphere and the rotation group, and sampling. *)
Require Import ZArith Lia List Reals Lra Bool.
From Coquelicot Require Import Hierarchy RInt Complex.
From Verif Require Import Base CBase CSum DRep WignerSpec IndexModel WignerModel WignerCallModel RotorSpec SWSHModel SWSHProofs ModesModel ModesSpec GridModel OrthoSpec.
From Verif Require GridProps AdjProps OrthoProps SampleProps SampleProofs WignerProps ModesProofs3.
From Verif Require Import P_Modes.
Import ListNotations.
Open Scope R_scope.

(** ** C48 *)

(** The harmonics that SWSH returns are orthonormal over the sphere, at every spin weight.  ([harmonic] is the value of the
    formula; SWSH returns it at every rotor, see [rotor] about the cut-off near the poles.) *)
Theorem C48_orthonormal :
  forall Lt tab s ell m ell' m', is_Wigner_table Lt tab ->
  (Z.abs s <= ell <= Lt)%Z -> (Z.abs m <= ell)%Z -> (Z.abs s <= ell' <= Lt)%Z -> (Z.abs m' <= ell')%Z ->
  exists Y Y' : R -> R -> C,
    (forall theta phi, Y theta phi = harmonic s ell m theta phi /\ Y' theta phi = harmonic s ell' m' theta phi)
    /\ (forall theta phi, rotor (direction_rotor theta phi) ->
          SWSH_returns tab (direction_rotor theta phi) s ell m (Y theta phi)
          /\ SWSH_returns tab (direction_rotor theta phi) s ell' m' (Y' theta phi))
    /\ sphere_integral (fun theta phi => Y theta phi * Cconj (Y' theta phi))%C
         (if ((ell =? ell') && (m =? m'))%Z then RtoC 1 else RtoC 0).
Proof. exact OrthoProps.C48_orthonormal. Qed.
Print Assumptions C48_orthonormal.

(** [f.evaluate] returns the function of which the next theorems speak. *)
Theorem C48_function :
  forall Lt tab h f, is_Wigner_table Lt tab -> wf h f -> (0 <= ellmax (md f) <= Lt)%Z ->
  forall theta phi, rotor (direction_rotor theta phi) ->
  value_at tab h f (direction_rotor theta phi) (fun idx => sphere_function h f idx theta phi).
Proof. exact OrthoProps.C48_function. Qed.
Print Assumptions C48_function.

(** Each mode is the integral of the function against the conjugate harmonic; other harmonics give zero. *)
Theorem C48_recovery :
  forall Lt tab h f ell m, is_Wigner_table Lt tab -> wf h f -> (0 <= ellmax (md f) <= Lt)%Z -> (0 <= ell <= Lt)%Z -> (Z.abs m <= ell)%Z ->
  exists (F : list Z -> R -> R -> C) (Y : R -> R -> C),
    (forall theta phi, Y theta phi = harmonic (spin (md f)) ell m theta phi
       /\ forall idx, F idx theta phi = sphere_function h f idx theta phi)
    /\ (forall theta phi, rotor (direction_rotor theta phi) ->
          value_at tab h f (direction_rotor theta phi) (fun idx => F idx theta phi)
          /\ SWSH_returns tab (direction_rotor theta phi) (spin (md f)) ell m (Y theta phi))
    /\ forall idx, sphere_integral (fun theta phi => F idx theta phi * Cconj (Y theta phi))%C
         (if (ell <=? ellmax (md f))%Z then mode h f idx ell m else RtoC 0).
Proof. exact OrthoProps.C48_recovery. Qed.
Print Assumptions C48_recovery.

(** The inner product of two functions is that of their modes. *)
Theorem C48_inner :
  forall Lt tab h f h' g, is_Wigner_table Lt tab -> wf h f -> wf h' g -> spin (md f) = spin (md g) ->
  (0 <= ellmax (md f) <= Lt)%Z -> (0 <= ellmax (md g) <= Lt)%Z ->
  exists F G : list Z -> R -> R -> C,
    (forall theta phi idx, F idx theta phi = sphere_function h f idx theta phi /\ G idx theta phi = sphere_function h' g idx theta phi)
    /\ (forall theta phi, rotor (direction_rotor theta phi) ->
          value_at tab h f (direction_rotor theta phi) (fun idx => F idx theta phi)
          /\ value_at tab h' g (direction_rotor theta phi) (fun idx => G idx theta phi))
    /\ forall idx idx', sphere_integral (fun theta phi => F idx theta phi * Cconj (G idx' theta phi))%C
         (csum 0 (Z.min (ellmax (md f)) (ellmax (md g))) (fun ell => csum (- ell) ell (fun m => mode h f idx ell m * Cconj (mode h' g idx' ell m))))%C.
Proof. exact OrthoProps.C48_inner. Qed.
Print Assumptions C48_inner.

Example C48_nonvacuous : (exists tab, is_Wigner_table 32 tab) /\ (Z.abs (-2) <= 3 <= 32)%Z /\ (Z.abs 1 <= 3)%Z
  /\ rotor (direction_rotor (1 * PI / (3 - 1)) (1 / 3)) /\ wf demo_heap demo_f /\ (0 <= ellmax (md demo_f) <= 32)%Z
  /\ mode demo_heap demo_f [1%Z] 3 2 <> RtoC 0.
Proof.
  split; [exact demo_table|]. split; [lia|]. split; [lia|]. split; [apply (SampleProofs.grid_rotor 3 1); lia|].
  split; [exact demo_f_wf|]. split; [cbn; lia|]. exact demo_nonzero.
Qed.

(** ** C42 *)

(** The norm is the L2 norm of the function that [f.evaluate] returns. *)
Theorem C42_parseval :
  forall Lt tab h f idx, is_Wigner_table Lt tab -> wf h f -> (0 <= ellmax (md f) <= Lt)%Z ->
  (forall theta phi, rotor (direction_rotor theta phi) ->
     value_at tab h f (direction_rotor theta phi) (fun idx => sphere_function h f idx theta phi))
  /\ sphere_integral (fun theta phi => RtoC (Cmod (sphere_function h f idx theta phi) ^ 2)) (RtoC (norm h f idx ^ 2)).
Proof. exact OrthoProps.C42_parseval. Qed.
Print Assumptions C42_parseval.

(** ** C49 *)

(** The D functions that Wigner_D_element returns are orthogonal over the unit quaternions, for integer and half-integer
    ell alike: the integral of D conj(D') is the volume 16 pi^2 divided by 2 ell + 1, or zero. *)
Theorem C49_orthogonal :
  forall L tab twoell twomp twom twoell' twomp' twom', is_Wigner_table L tab ->
  D_indices twoell twomp twom -> (twoell <= 2 * L)%Z -> D_indices twoell' twomp' twom' -> (twoell' <= 2 * L)%Z ->
  exists D D' : R -> R -> R -> C,
    (forall alpha beta gamma, D alpha beta gamma = D_function twoell twomp twom alpha beta gamma
       /\ D' alpha beta gamma = D_function twoell' twomp' twom' alpha beta gamma)
    /\ (forall alpha beta gamma garbage, rotor (from_euler_angles alpha beta gamma) ->
          (exists out, Wigner_D_element tab L garbage [AReal alpha; AReal beta; AReal gamma; AReal (IZR twoell / 2); AReal (IZR twomp / 2); AReal (IZR twom / 2)]
             = Ok (out, true) /\ aget out 0 = D alpha beta gamma)
          /\ (exists out, Wigner_D_element tab L garbage [AReal alpha; AReal beta; AReal gamma; AReal (IZR twoell' / 2); AReal (IZR twomp' / 2); AReal (IZR twom' / 2)]
             = Ok (out, true) /\ aget out 0 = D' alpha beta gamma))
    /\ group_integral (fun alpha beta gamma => D alpha beta gamma * Cconj (D' alpha beta gamma))%C
         (if ((twoell =? twoell') && (twomp =? twomp') && (twom =? twom'))%Z then RtoC (16 * PI ^ 2 / IZR (twoell + 1)) else RtoC 0).
Proof. exact OrthoProps.C49_orthogonal. Qed.
Print Assumptions C49_orthogonal.

Example C49_nonvacuous : (exists tab, is_Wigner_table 32 tab) /\ D_indices 3 1 (-3) /\ (3 <= 2 * 32)%Z /\ D_indices 4 2 (-4)
  /\ rotor (from_euler_angles (1 / 3) (1 * PI / (3 - 1)) 0).
Proof.
  split; [exact demo_table|]. split; [unfold D_indices; repeat split; cbn; lia|]. split; [lia|].
  split; [unfold D_indices; repeat split; cbn; lia|].
  replace (from_euler_angles (1 / 3) (1 * PI / (3 - 1)) 0) with (direction_rotor (1 * PI / (3 - 1)) (1 / 3)).
  - apply (SampleProofs.grid_rotor 3 1); lia.
  - unfold from_euler_angles, direction_rotor. rewrite Rplus_0_r, Rminus_0_r. f_equal; ring.
Qed.

(** ** C50 *)

(** Two Modes objects of one spin weight that evaluate to the same values at the points of theta_phi(n_theta, n_phi) have the
    same modes, when both numbers are at least 2 ell_max + 1. *)
Open Scope Z_scope.
Theorem C50_samples :
  forall Lt tab h f h' g idx idx' nt np shape points,
  is_Wigner_table Lt tab -> wf h f -> wf h' g -> spin (md f) = spin (md g) ->
  at_index (lead (nd f)) idx -> at_index (lead (nd g)) idx' ->
  0 <= ellmax (md f) <= Lt -> 0 <= ellmax (md g) <= Lt ->
  theta_phi nt np = Ok (shape, points) -> 2 <= nt <= 10 ^ 12 ->
  2 * Z.max (ellmax (md f)) (ellmax (md g)) + 1 <= nt -> 2 * Z.max (ellmax (md f)) (ellmax (md g)) + 1 <= np ->
  (forall j k, 0 <= j < nt -> 0 <= k < np -> exists v v',
     value_at tab h f (direction_rotor (points j k 0) (points j k 1)) v
     /\ value_at tab h' g (direction_rotor (points j k 0) (points j k 1)) v'
     /\ v idx = v' idx') ->
  forall ell m, 0 <= ell -> - ell <= m <= ell ->
    (if ell <=? ellmax (md f) then mode h f idx ell m else RtoC 0)
    = (if ell <=? ellmax (md g) then mode h' g idx' ell m else RtoC 0).
Proof. exact SampleProps.C50_samples. Qed.
Print Assumptions C50_samples.
Open Scope R_scope.

(** [demo_f] has ell_max 3; on the 7 by 7 grid, the default size, every hypothesis holds for two views of it. *)
Example C50_nonvacuous : exists tab shape points, is_Wigner_table 32 tab /\ wf demo_heap demo_f
  /\ theta_phi 7 7 = Ok (shape, points) /\ (2 * Z.max (ellmax (md demo_f)) (ellmax (md demo_f)) + 1 <= 7)%Z
  /\ forall j k, (0 <= j < 7)%Z -> (0 <= k < 7)%Z -> exists v v',
     value_at tab demo_heap demo_f (direction_rotor (points j k 0%Z) (points j k 1%Z)) v
     /\ value_at tab demo_heap demo_f (direction_rotor (points j k 0%Z) (points j k 1%Z)) v'
     /\ v [1%Z] = v' [1%Z].
Proof.
  destruct demo_table as (tab & Ht). destruct (GridProps.C38_theta_phi 7 7 ltac:(lia) ltac:(lia)) as (e & TP & PT & _).
  exists tab, [7%Z; 7%Z; 2%Z], e. split; [exact Ht|]. split; [exact demo_f_wf|]. split; [exact TP|]. split; [cbn; lia|].
  intros j k Hj Hk. destruct (PT j k Hj Hk) as (-> & ->).
  exists (fun idx => sphere_function demo_heap demo_f idx (IZR j * PI / (7 - 1)) (2 * PI * IZR k / 7)).
  exists (fun idx => sphere_function demo_heap demo_f idx (IZR j * PI / (7 - 1)) (2 * PI * IZR k / 7)).
  assert (V : value_at tab demo_heap demo_f (direction_rotor (IZR j * PI / (7 - 1)) (2 * PI * IZR k / 7))
    (fun idx => sphere_function demo_heap demo_f idx (IZR j * PI / (7 - 1)) (2 * PI * IZR k / 7))).
  { apply (C48_function 32); [exact Ht|exact demo_f_wf|cbn; lia|]. apply (SampleProofs.grid_rotor 7 j); lia. }
  auto.
Qed.

(** ** C51 *)

(** Adjoints over the sphere: the integral of (A f) conj(g) is sg times that of f conj(B g), where f, g, A f and B g are the
    functions that [evaluate] returns. *)
Open Scope Z_scope.
Theorem C51_adjoint :
  forall A B ds sg, In (A, B, ds, sg)
    [(Lz, Lz, 0, 1); (Lplus, Lminus, 0, 1); (Lminus, Lplus, 0, 1); (Lsquared, Lsquared, 0, 1);
     (Rz, Rz, 0, 1); (Rplus, Rminus, -1, 1); (Rminus, Rplus, 1, 1); (Rsquared, Rsquared, 0, 1);
     (eth, ethbar, 1, -1); (ethbar, eth, -1, -1)] ->
  forall Lt tab h f g, is_Wigner_table Lt tab -> wf h f -> wf h g -> spin (md g) = spin (md f) + ds ->
  0 <= ellmax (md f) <= Lt -> 0 <= ellmax (md g) <= Lt ->
  exists h1 r h2 t, A h f = Ok (h1, r) /\ B h g = Ok (h2, t)
    /\ (forall theta phi, rotor (direction_rotor theta phi) ->
          value_at tab h f (direction_rotor theta phi) (fun idx => sphere_function h f idx theta phi)
          /\ value_at tab h g (direction_rotor theta phi) (fun idx => sphere_function h g idx theta phi)
          /\ value_at tab h1 r (direction_rotor theta phi) (fun idx => sphere_function h1 r idx theta phi)
          /\ value_at tab h2 t (direction_rotor theta phi) (fun idx => sphere_function h2 t idx theta phi))
    /\ forall idx idx', at_index (lead (nd f)) idx -> at_index (lead (nd g)) idx' -> exists I,
         sphere_integral (fun theta phi => sphere_function h1 r idx theta phi * Cconj (sphere_function h g idx' theta phi))%C I
         /\ sphere_integral (fun theta phi => sphere_function h f idx theta phi * Cconj (sphere_function h2 t idx' theta phi))%C (RtoC (IZR sg) * I)%C.
Proof. exact AdjProps.C51_adjoint. Qed.
Print Assumptions C51_adjoint.
Open Scope R_scope.

(** [demo_f] has spin weight -2, and so has [demo_g]: the hypotheses hold for the pair (Lplus, Lminus). *)
Example C51_nonvacuous : (exists tab, is_Wigner_table 32 tab) /\ wf demo_heap demo_f /\ wf demo_heap demo_g
  /\ spin (md demo_g) = (spin (md demo_f) + 0)%Z /\ (0 <= ellmax (md demo_f) <= 32)%Z /\ (0 <= ellmax (md demo_g) <= 32)%Z
  /\ at_index (lead (nd demo_f)) [1%Z] /\ at_index (lead (nd demo_g)) [0%Z].
Proof.
  split; [exact demo_table|]. split; [exact demo_f_wf|]. split; [exact demo_g_wf|].
  repeat split; cbn; try lia; repeat constructor; lia.
Qed.
