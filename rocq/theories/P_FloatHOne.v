(** Property C75: the H calculators in double precision for n = 1, at every angle.  The functions ending in 64 (FloatHModel.v) round
    every operation to the nearest double, [u64] is 2^-53, [H_function] is the exact function (HSpec.v). *)
Require Import ZArith Reals List Lia Lra.
From Verif Require Import Base IndexModel HModel HSpec FloatPowersSpec FloatIndexModel FloatHModel.
From Verif Require FloatHOne FloatHSineProps.
Import ListNotations.
Open Scope R_scope.

(** ** C75 *)

(** Both calculators, any n_max, any position in an array of angles, any contents of the workspace *)
Theorem C75_dipole :
  forall n_max hc cosb sinb ws, (1 <= n_max)%Z -> HCalculator_init64 n_max = Ok hc ->
    cosb <> [] -> (forall c, In c cosb -> -1 <= c <= 1) -> length sinb = length cosb ->
    (* the cosine and sine at [j] are those of beta, each within half a unit in the last place of 1 *)
    let good mp m j x := forall beta, Rabs (nth j cosb 0 - cos beta) <= u64 -> Rabs (nth j sinb 0 - sin beta) <= u64 ->
      Rabs (x - H_function 1 mp m beta) <= 170 * u64 in
    (match ws with Some w => (workspace_size n_max <= alen w)%Z | None => True end ->
     exists H, HCalculator_call64 hc cosb (Some sinb) ws = Ok H /\
       forall mp m, (Z.abs mp <= m <= 1)%Z ->
         exists r, aget H (wedge_index 1 mp m) = Some r /\ forall j, (j < length cosb)%nat -> good mp m j (r (Z.of_nat j))) /\
    (match ws with Some w => (LMpM_total_size 0 n_max <= alen w)%Z | None => True end ->
     exists H, HCalculator_full_call64 hc cosb (Some sinb) ws = Ok H /\
       forall mp m, (- 1 <= mp <= 1)%Z -> (- 1 <= m <= 1)%Z ->
         exists r, aget H (nmpm_index 1 mp m) = Some r /\ forall j, (j < length cosb)%nat -> good mp m j (r (Z.of_nat j))).
Proof. exact FloatHOne.C75_dipole. Qed.
Print Assumptions C75_dipole.

(** The same if only cosines are given: the calculators compute the sines themselves. *)
Theorem C75_default_sine :
  forall n_max hc cosb ws, (1 <= n_max)%Z -> HCalculator_init64 n_max = Ok hc ->
    cosb <> [] -> (forall c, In c cosb -> is_double c /\ -1 <= c <= 1) ->
    let good mp m j x := Rabs (x - H_function 1 mp m (acos (nth j cosb 0))) <= / 2 ^ 36 in
    (match ws with Some w => (workspace_size n_max <= alen w)%Z | None => True end ->
     exists H, HCalculator_call64 hc cosb None ws = Ok H /\
       forall mp m, (Z.abs mp <= m <= 1)%Z ->
         exists r, aget H (wedge_index 1 mp m) = Some r /\ forall j, (j < length cosb)%nat -> good mp m j (r (Z.of_nat j))) /\
    (match ws with Some w => (LMpM_total_size 0 n_max <= alen w)%Z | None => True end ->
     exists H, HCalculator_full_call64 hc cosb None ws = Ok H /\
       forall mp m, (- 1 <= mp <= 1)%Z -> (- 1 <= m <= 1)%Z ->
         exists r, aget H (nmpm_index 1 mp m) = Some r /\ forall j, (j < length cosb)%nat -> good mp m j (r (Z.of_nat j))).
Proof. exact FloatHSineProps.C75_default_sine. Qed.
Print Assumptions C75_default_sine.

(** That costs accuracy: at cos = 1 - 3/2^29 the result is worse than any with a given sine. *)
Theorem C75_default_as_accurate_refuted :
  exists c hc H r, is_double c /\ -1 <= c <= 1 /\ HCalculator_init64 1 = Ok hc /\ HCalculator_call64 hc [c] None None = Ok H /\
    aget H (wedge_index 1 0 1) = Some r /\ 800 * u64 <= Rabs (r 0%Z - H_function 1 0 1 (acos c)).
Proof. exact FloatHSineProps.C75_default_as_accurate_refuted. Qed.
Print Assumptions C75_default_as_accurate_refuted.

(** The angle with cosine 3/5, at n_max = 4 *)
Example C75_nonvacuous :
  exists hc H r, HCalculator_init64 4 = Ok hc /\ HCalculator_full_call64 hc [RN64 (3/5)] (Some [RN64 (4/5)]) None = Ok H /\
    aget H (nmpm_index 1 (-1) 1) = Some r /\ Rabs (r 0%Z - 1 / 5) <= 170 * u64.
Proof.
  exact FloatHOne.C75_example.
Qed.
