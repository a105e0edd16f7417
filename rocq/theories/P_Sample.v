(** Property C56: how many sample points determine a function. *)
Require Import ZArith Lia List Reals Lra Bool.
From Coquelicot Require Import Hierarchy Complex.
From Verif Require Import Base CBase DRep WignerModel RotorSpec SWSHModel ModesModel ModesSpec GridModel OrthoSpec.
From Verif Require GridProps SampleProofs SampleSharpProps.
From Verif Require Import P_Modes P_Ortho.
Import ListNotations.
Open Scope Z_scope.

(** ** C56 *)

(** As [C50_samples], with M + 2 points in theta at spin weight zero and M - |s| + 3 at spin weight s <> 0, where M is the
    larger ell_max. *)
Theorem C56_enough :
  forall Lt tab h f h' g idx idx' nt np shape points M,
  is_Wigner_table Lt tab -> wf h f -> wf h' g -> spin (md f) = spin (md g) ->
  at_index (lead (nd f)) idx -> at_index (lead (nd g)) idx' ->
  0 <= ellmax (md f) <= Lt -> 0 <= ellmax (md g) <= Lt ->
  theta_phi nt np = Ok (shape, points) -> 2 <= nt <= 10 ^ 12 ->
  M = Z.max (ellmax (md f)) (ellmax (md g)) ->
  (if spin (md f) =? 0 then M + 2 else M - Z.abs (spin (md f)) + 3) <= nt -> 2 * M + 1 <= np ->
  (forall j k, 0 <= j < nt -> 0 <= k < np -> exists v v',
     value_at tab h f (direction_rotor (points j k 0) (points j k 1)) v
     /\ value_at tab h' g (direction_rotor (points j k 0) (points j k 1)) v'
     /\ v idx = v' idx') ->
  forall ell m, 0 <= ell -> - ell <= m <= ell ->
    (if ell <=? ellmax (md f) then mode h f idx ell m else RtoC 0)
    = (if ell <=? ellmax (md g) then mode h' g idx' ell m else RtoC 0).
Proof. exact SampleSharpProps.C56_enough. Qed.
Print Assumptions C56_enough.

(** [demo_f] has spin weight -2 and ell_max 3, so 4 points in theta are enough. *)
Example C56_nonvacuous : exists tab shape points, is_Wigner_table 32 tab /\ wf demo_heap demo_f
  /\ theta_phi 4 7 = Ok (shape, points)
  /\ (if spin (md demo_f) =? 0 then 3 + 2 else 3 - Z.abs (spin (md demo_f)) + 3) <= 4
  /\ forall j k, 0 <= j < 4 -> 0 <= k < 7 -> exists v v',
     value_at tab demo_heap demo_f (direction_rotor (points j k 0) (points j k 1)) v
     /\ value_at tab demo_heap demo_f (direction_rotor (points j k 0) (points j k 1)) v'
     /\ v [1] = v' [1].
Proof.
  destruct demo_table as (tab & Ht). destruct (GridProps.C38_theta_phi 4 7 ltac:(lia) ltac:(lia)) as (e & TP & PT & _).
  exists tab, [4; 7; 2], e. split; [exact Ht|]. split; [exact demo_f_wf|]. split; [exact TP|]. split; [cbn; lia|].
  intros j k Hj Hk. destruct (PT j k Hj Hk) as (-> & ->).
  set (th := (IZR j * PI / (4 - 1))%R). set (ph := (2 * PI * IZR k / 7)%R).
  exists (fun idx => sphere_function demo_heap demo_f idx th ph), (fun idx => sphere_function demo_heap demo_f idx th ph).
  assert (V : value_at tab demo_heap demo_f (direction_rotor th ph) (fun idx => sphere_function demo_heap demo_f idx th ph)).
  { apply (C48_function 32); [exact Ht|exact demo_f_wf|cbn; lia|]. apply (SampleProofs.grid_rotor 4 j); lia. }
  auto.
Qed.

(** With fewer points in theta some function that is not zero vanishes at every point of the grid, whatever n_phi is. *)
Theorem C56_theta_too_few :
  forall Lt tab s L nt np shape points, is_Wigner_table Lt tab -> Z.abs s <= L -> 1 <= L <= Lt ->
  theta_phi nt np = Ok (shape, points) -> 1 <= np ->
  2 <= nt <= 10 ^ 12 -> nt < (if s =? 0 then L + 2 else L - Z.abs s + 3) ->
  exists h f, wf h f /\ spin (md f) = s /\ ellmax (md f) = L /\ lead (nd f) = []
    /\ (exists ell m, Z.abs s <= ell <= L /\ - ell <= m <= ell /\ mode h f [] ell m <> RtoC 0)
    /\ forall j k, 0 <= j < nt -> 0 <= k < np ->
         value_at tab h f (direction_rotor (points j k 0) (points j k 1)) (fun _ => RtoC 0).
Proof. exact SampleSharpProps.C56_theta_too_few. Qed.
Print Assumptions C56_theta_too_few.

(** And with n_phi = 2 M points in phi, M <= ell_max, at spin weight zero, whatever n_theta is. *)
Theorem C56_phi_too_few :
  forall Lt tab L nt M shape points, is_Wigner_table Lt tab -> 1 <= M <= L -> L <= Lt -> 2 <= nt <= 10 ^ 12 ->
  theta_phi nt (2 * M) = Ok (shape, points) ->
  exists h f, wf h f /\ spin (md f) = 0 /\ ellmax (md f) = L /\ lead (nd f) = []
    /\ mode h f [] M M = RtoC 1
    /\ forall j k, 0 <= j < nt -> 0 <= k < 2 * M ->
         value_at tab h f (direction_rotor (points j k 0) (points j k 1)) (fun _ => RtoC 0).
Proof. exact SampleSharpProps.C56_phi_too_few. Qed.
Print Assumptions C56_phi_too_few.

(** The hypotheses hold at spin weight -2, ell_max 3 and three points in theta; and for six points in phi. *)
Example C56_too_few_nonvacuous : (exists tab, is_Wigner_table 32 tab) /\ (exists points, theta_phi 3 7 = Ok ([3; 7; 2], points))
  /\ 3 < (if -2 =? 0 then 3 + 2 else 3 - Z.abs (-2) + 3) /\ (exists points, theta_phi 7 (2 * 3) = Ok ([7; 6; 2], points)).
Proof.
  split; [exact demo_table|]. split; [destruct (GridProps.C38_theta_phi 3 7 ltac:(lia) ltac:(lia)) as (e & TP & _); exists e; exact TP|].
  split; [cbn; lia|]. destruct (GridProps.C38_theta_phi 7 6 ltac:(lia) ltac:(lia)) as (e & TP & _); exists e; exact TP.
Qed.

(** The documentation of [Modes.grid] calls 2 ell_max + 1 the minimum number of points in theta that captures a function up to
    ell_max.  It is not: from ell_max = 2 on, fewer points determine all the modes. *)
Theorem C56_minimum_refuted :
  forall L, 2 <= L <= 10 ^ 11 -> exists nt, nt < 2 * L + 1 /\
  forall Lt tab h f h' g np shape points,
  is_Wigner_table Lt tab -> wf h f -> wf h' g -> spin (md f) = spin (md g) -> lead (nd f) = [] -> lead (nd g) = [] ->
  ellmax (md f) = L -> ellmax (md g) = L -> L <= Lt ->
  theta_phi nt np = Ok (shape, points) -> 2 * L + 1 <= np ->
  (forall j k, 0 <= j < nt -> 0 <= k < np -> exists v v',
     value_at tab h f (direction_rotor (points j k 0) (points j k 1)) v
     /\ value_at tab h' g (direction_rotor (points j k 0) (points j k 1)) v'
     /\ v [] = v' []) ->
  forall ell m, 0 <= ell <= L -> - ell <= m <= ell -> mode h f [] ell m = mode h' g [] ell m.
Proof. exact SampleSharpProps.C56_minimum_refuted. Qed.
Print Assumptions C56_minimum_refuted.
