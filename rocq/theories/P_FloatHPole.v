(** Property C74: the H calculators in double precision at the poles, and the ends of the row m' = 0 at any angle.  The functions ending
    in 64 (FloatHModel.v) round every operation to the nearest double, [u64] is 2^-53, [H_function] is the exact function (HSpec.v). *)
Require Import ZArith Reals List Lia Lra.
From Verif Require Import Base IndexModel HModel HSpec FloatPowersSpec FloatIndexModel FloatHModel.
From Verif Require FloatHPoleProps.
Import ListNotations.
Open Scope R_scope.

(** ** C74 *)

(** At cos = 1 and cos = -1, in an array of any angles: small absolute error, and exact zeros *)
Theorem C74_poles :
  forall n_max hc cosb sinb ws, (1 <= n_max)%Z -> HCalculator_init64 n_max = Ok hc ->
    cosb <> [] -> (forall c, In c cosb -> -1 <= c <= 1) -> match sinb with Some s => length s = length cosb | None => True end ->
    (* at the pole [j], no sine was given or it was given as 0 *)
    let at_pole j := match sinb with Some s => nth j s 0 = 0 | None => True end in
    let good n mp m j x :=
      (nth j cosb 0 = 1 -> at_pole j ->
         Rabs (x - H_function n mp m 0) <= 20 * (IZR n + 2) * u64 /\ (Z.abs mp <> Z.abs m -> x = 0)) /\
      (nth j cosb 0 = -1 -> at_pole j ->
         Rabs (x - H_function n mp m PI) <= 20 * (IZR n + 2) * u64 /\ ((mp <> - m)%Z -> x = 0)) in
    (match ws with Some w => (workspace_size n_max <= alen w)%Z | None => True end ->
     exists H, HCalculator_call64 hc cosb sinb ws = Ok H /\
       forall n mp m, (0 <= n <= n_max)%Z -> (n <= 1000)%Z -> (Z.abs mp <= m <= n)%Z ->
         exists r, aget H (wedge_index n mp m) = Some r /\ forall j, (j < length cosb)%nat -> good n mp m j (r (Z.of_nat j))) /\
    (match ws with Some w => (LMpM_total_size 0 n_max <= alen w)%Z | None => True end ->
     exists H, HCalculator_full_call64 hc cosb sinb ws = Ok H /\
       forall n mp m, (0 <= n <= n_max)%Z -> (n <= 1000)%Z -> (- n <= mp <= n)%Z -> (- n <= m <= n)%Z ->
         exists r, aget H (nmpm_index n mp m) = Some r /\ forall j, (j < length cosb)%nat -> good n mp m j (r (Z.of_nat j))).
Proof. exact FloatHPoleProps.C74_poles. Qed.
Print Assumptions C74_poles.

(** The last two entries of the row and of the column 0, at any angle: small relative error *)
Theorem C74_ends :
  forall n_max hc cosb sinb ws, (1 <= n_max)%Z -> HCalculator_init64 n_max = Ok hc ->
    cosb <> [] -> (forall c, In c cosb -> -1 <= c <= 1) -> match sinb with Some s => length s = length cosb | None => True end ->
    let sinr := match sinb with Some s => s | None => map (fun c => RN64 (sqrt (RN64 (1 - RN64 (c ^ 2))))) cosb end in
    (* the cosine and sine at [j] are those of beta, each within one rounding, and are not tiny *)
    let angle n j beta :=
      Rabs (nth j cosb 0 - cos beta) <= u64 * Rabs (cos beta) /\ Rabs (nth j sinr 0 - sin beta) <= u64 * Rabs (sin beta) /\
      (cos beta = 0 \/ / 2 ^ 50 <= Rabs (cos beta)) /\ / 2 ^ 800 <= Rabs (sin beta) ^ Z.to_nat n in
    let good n mp m j x := forall beta, angle n j beta ->
      Rabs (x - H_function n mp m beta) <= (6 * IZR n + 5) * u64 * Rabs (H_function n mp m beta) in
    (match ws with Some w => (workspace_size n_max <= alen w)%Z | None => True end ->
     exists H, HCalculator_call64 hc cosb sinb ws = Ok H /\
       forall n m, (1 <= n <= n_max)%Z -> (n <= 1000)%Z -> (n - 1 <= m <= n)%Z ->
         exists r, aget H (wedge_index n 0 m) = Some r /\ forall j, (j < length cosb)%nat -> good n 0%Z m j (r (Z.of_nat j))) /\
    (match ws with Some w => (LMpM_total_size 0 n_max <= alen w)%Z | None => True end ->
     exists H, HCalculator_full_call64 hc cosb sinb ws = Ok H /\
       forall n mp m, (1 <= n <= n_max)%Z -> (n <= 1000)%Z -> (mp = 0 \/ m = 0)%Z -> (n - 1 <= Z.abs mp + Z.abs m <= n)%Z ->
         exists r, aget H (nmpm_index n mp m) = Some r /\ forall j, (j < length cosb)%nat -> good n mp m j (r (Z.of_nat j))).
Proof. exact FloatHPoleProps.C74_ends. Qed.
Print Assumptions C74_ends.

(** A wedge with n_max = 3 at cos = -1 with the default sine and, as second angle, at the equator *)
Example C74_nonvacuous :
  exists hc H, HCalculator_init64 3 = Ok hc /\ HCalculator_call64 hc [-1; 0] None None = Ok H /\
    (exists r, aget H (wedge_index 3 (-2) 2) = Some r /\ Rabs (r 0%Z - H_function 3 (-2) 2 PI) <= 100 * u64) /\
    (exists r, aget H (wedge_index 3 1 2) = Some r /\ r 0%Z = 0) /\
    (exists r, aget H (wedge_index 3 0 3) = Some r /\
       Rabs (r 1%Z - H_function 3 0 3 (PI / 2)) <= 23 * u64 * Rabs (H_function 3 0 3 (PI / 2))).
Proof.
  exact FloatHPoleProps.C74_example.
Qed.
