(** Property C71: the H calculators in double precision.  The functions ending in 64 (FloatHModel.v) round every operation to the
    nearest double; those ending in _r are the same with any rounding. *)
Require Import ZArith Reals List Lia Lra.
From Verif Require Import Base IndexModel HModel FloatIndexModel FloatHModel.
From Verif Require FloatHProps.
Import ListNotations.
Open Scope R_scope.

(** ** C71 *)

(** One function of (n, m', m) and of the cosine and sine of one angle describes all results of both calculators, and it has the
    symmetries of H exactly. *)
Theorem C71_one_function :
  exists f : Z -> Z -> Z -> R -> R -> R,
  (* both calculators return f, whatever n_max, the workspace and the other angles are *)
  (forall n_max hc cosb sinb ws, (1 <= n_max)%Z -> HCalculator_init64 n_max = Ok hc ->
     cosb <> [] -> (forall c, In c cosb -> -1 <= c <= 1) -> match sinb with Some s => length s = length cosb | None => True end ->
     let sinr := match sinb with Some s => s | None => map (fun c => RN64 (sqrt (RN64 (1 - RN64 (c ^ 2))))) cosb end in
     (match ws with Some w => (workspace_size n_max <= alen w)%Z | None => True end ->
      exists H, HCalculator_call64 hc cosb sinb ws = Ok H /\ alen H = wedge_size n_max /\
        forall n mp m, (0 <= n <= n_max)%Z -> (Z.abs mp <= m <= n)%Z ->
          exists r, aget H (wedge_index n mp m) = Some r /\
            forall j, (j < length cosb)%nat -> r (Z.of_nat j) = f n mp m (nth j cosb 0) (nth j sinr 0)) /\
     (match ws with Some w => (LMpM_total_size 0 n_max <= alen w)%Z | None => True end ->
      exists H, HCalculator_full_call64 hc cosb sinb ws = Ok H /\ alen H = LMpM_total_size 0 n_max /\
        forall n mp m, (0 <= n <= n_max)%Z -> (- n <= mp <= n)%Z -> (- n <= m <= n)%Z ->
          exists r, aget H (nmpm_index n mp m) = Some r /\
            forall j, (j < length cosb)%nat -> r (Z.of_nat j) = f n mp m (nth j cosb 0) (nth j sinr 0))) /\
  (* the symmetries of H hold exactly *)
  (forall n mp m c s, f n m mp c s = f n mp m c s /\ f n (- mp)%Z (- m)%Z c s = f n mp m c s) /\
  (forall c s, f 0%Z 0%Z 0%Z c s = 1) /\
  (forall n mp m c s, (- n <= mp <= n)%Z -> (- n <= m <= n)%Z ->
     f n mp m c (- s) = if Z.even (mp + m) then f n mp m c s else - f n mp m c s) /\
  (forall n m c s, (- n <= m <= n)%Z ->
     f n 0%Z m (- c) s = if Z.even (n + m) then f n 0%Z m c s else - f n 0%Z m c s).
Proof. exact FloatHProps.C71_one_function. Qed.
Print Assumptions C71_one_function.

(** The constructor accepts every n_max >= 0. *)
Theorem C71_init :
  forall n_max, ((0 <= n_max)%Z -> exists hc, HCalculator_init64 n_max = Ok hc /\ hc_n_max hc = n_max) /\
  ((n_max < 0)%Z -> HCalculator_init64 n_max = Err ValueError).
Proof. exact FloatHProps.C71_init. Qed.
Print Assumptions C71_init.

(** Without rounding the model is that of C39 and C40. *)
Theorem C71_exact :
  HCalculator_init_r (fun x => x) = HCalculator_init /\ HCalculator_call_r (fun x => x) = HCalculator_call /\
  HCalculator_full_call_r (fun x => x) = HCalculator_full_call.
Proof. exact FloatHProps.C71_exact. Qed.
Print Assumptions C71_exact.

(** The entry (2, -1, 2) at cos = 3/5, from a wedge of n_max = 2 and from full storage with n_max = 5 and another angle *)
Example C71_nonvacuous :
  exists hc hc' H H' r r', HCalculator_init64 2 = Ok hc /\ HCalculator_init64 5 = Ok hc' /\
    HCalculator_call64 hc [3/5] (Some [4/5]) None = Ok H /\ HCalculator_full_call64 hc' [1/2; 3/5] (Some [1; 4/5]) None = Ok H' /\
    aget H (wedge_index 2 (-1) 2) = Some r /\ aget H' (nmpm_index 2 2 (-1)) = Some r' /\ r 0%Z = r' 1%Z.
Proof.
  exact FloatHProps.C71_example.
Qed.
