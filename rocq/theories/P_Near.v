(** Property C52: the evaluators at every quaternion, and how far the cut-off epsilon moves their values. *)
Require Import ZArith Lia List Reals Lra Bool.
From Coquelicot Require Import Rcomplements Complex.
From Verif Require Import Base CBase CSum RSum DRep IndexModel WignerModel WignerSpec WignerCallModel PowersModel SWSHModel RotorSpec
  ModesModel ModesSpec OrthoSpec.
From Verif Require WignerProps OrthoProofs NearProps.
From Verif Require Import P_Modes.
Import ListNotations.
Open Scope R_scope.

(** ** C52 *)

(** The evaluators agree with each other at every quaternion, unit or not, below the cut-off or not; the only exception is
    a quaternion with qb = 0 and |qa| <= epsilon, where the code raises 0 to a negative power. *)
Theorem C52_matrices :
  forall L tab q ell_min ell_max, is_Wigner_table L tab -> (0 <= ell_min <= ell_max)%Z -> (ell_max <= L)%Z ->
  epsilon < Cmod (qa q) \/ qb q <> RtoC 0 ->
  forall g, exists out, Wigner_D_matrices tab g q ell_min ell_max = Ok out
    /\ alen out = LMpM_total_size ell_min ell_max
    /\ forall ell mp m, (ell_min <= ell <= ell_max)%Z -> (- ell <= mp <= ell)%Z -> (- ell <= m <= ell)%Z ->
         D_returns tab L q (2 * ell) (2 * mp) (2 * m) (aget out (LMpM_index ell mp m ell_min)).
Proof. exact NearProps.C52_matrices. Qed.
Print Assumptions C52_matrices.

Theorem C52_elements :
  forall L tab Rs ell mp m g, is_Wigner_table L tab -> (ell <= L)%Z -> (0 <= alen Rs)%Z ->
  (forall i, (0 <= i < alen Rs)%Z -> epsilon < Cmod (qa (aget Rs i)) \/ qb (aget Rs i) <> RtoC 0) ->
  (- ell <= mp <= ell)%Z -> (- ell <= m <= ell)%Z ->
  exists out, Wigner_D_element tab L g [AQuats Rs; AReal (IZR ell); AReal (IZR mp); AReal (IZR m)] = Ok (out, false)
    /\ alen out = alen Rs
    /\ forall i, (0 <= i < alen Rs)%Z -> D_returns tab L (aget Rs i) (2 * ell) (2 * mp) (2 * m) (aget out i).
Proof. exact NearProps.C52_elements. Qed.
Print Assumptions C52_elements.

Theorem C52_SWSH :
  forall L tab q s ell m, is_Wigner_table L tab -> (ell <= L)%Z -> epsilon < Cmod (qa q) \/ qb q <> RtoC 0 ->
  exists v, SWSH_returns tab q s ell m v
    /\ ((Z.abs m <= ell -> Z.abs s <= ell -> forall d, D_returns tab L q (2 * ell) (2 * m) (2 * - s) d ->
           v = (RtoC (if Z.even s then 1 else -1)%R * RtoC (sqrt (IZR (2 * ell + 1) / (4 * PI))) * d)%C)%Z)
    /\ (ell < Z.abs m \/ ell < Z.abs s -> v = RtoC 0)%Z.
Proof. exact NearProps.C52_SWSH. Qed.
Print Assumptions C52_SWSH.

Theorem C52_SWSH_arrays :
  forall L tab Rs, is_Wigner_table L tab -> (0 <= alen Rs)%Z ->
  (forall i, (0 <= i < alen Rs)%Z -> epsilon < Cmod (qa (aget Rs i)) \/ qb (aget Rs i) <> RtoC 0) ->
  (forall s ell m g, (ell <= L)%Z ->
     exists out, SWSH_rotors tab g Rs s ell m = Ok out /\ alen out = alen Rs
       /\ forall i, (0 <= i < alen Rs)%Z -> SWSH_returns tab (aget Rs i) s ell m (aget out i))
  /\ (forall s ell_max g, (0 <= ell_max <= L)%Z -> (0 < alen Rs)%Z ->
     exists out, SWSH_grid tab g Rs s ell_max = Ok out /\ nrow out = alen Rs /\ ncol out = LM_total_size 0 ell_max
       /\ forall i ell m, (0 <= i < alen Rs)%Z -> (0 <= ell <= ell_max)%Z -> (- ell <= m <= ell)%Z ->
            SWSH_returns tab (aget Rs i) s ell m (get2 out i (LM_index ell m 0))).
Proof. exact NearProps.C52_SWSH_arrays. Qed.
Print Assumptions C52_SWSH_arrays.

(** At every unit quaternion the value is within (2l+1) epsilon of Wigner's formula. *)
Theorem C52_accuracy :
  forall L tab g rot a b twoell twomp twom, is_Wigner_table L tab -> rotation_args rot a b ->
  (a * Cconj a + b * Cconj b)%C = RtoC 1 ->
  D_indices twoell twomp twom -> (twoell <= 2 * L)%Z -> (twoell <= 10 ^ 14)%Z ->
  exists out, Wigner_D_element tab L g (rot ++ [AReal (IZR twoell / 2); AReal (IZR twomp / 2); AReal (IZR twom / 2)])
              = Ok (out, true)
    /\ alen out = 1%Z
    /\ Cmod (aget out 0 - Wigner_formula twoell twomp twom a b)%C <= IZR (twoell + 1) * epsilon.
Proof. exact NearProps.C52_accuracy. Qed.
Print Assumptions C52_accuracy.

Theorem C52_SWSH_accuracy :
  forall L tab q s ell m, is_Wigner_table L tab -> unit_quat q -> (Z.abs m <= ell <= L)%Z -> (Z.abs s <= ell)%Z -> (ell <= 10 ^ 13)%Z ->
  exists v, SWSH_returns tab q s ell m v
    /\ Cmod (v - RtoC (if Z.even s then 1 else -1)%R * RtoC (sqrt (IZR (2 * ell + 1) / (4 * PI)))
                 * Wigner_formula (2 * ell) (2 * m) (2 * - s) (qa q) (qb q))%C
       <= sqrt (IZR (2 * ell + 1) / (4 * PI)) * IZR (2 * ell + 1) * epsilon.
Proof. exact NearProps.C52_SWSH_accuracy. Qed.
Print Assumptions C52_SWSH_accuracy.

Theorem C52_evaluate :
  forall Lt tab h f, is_Wigner_table Lt tab -> wf h f -> (0 <= ellmax (md f) <= Lt)%Z -> (ellmax (md f) <= 10 ^ 13)%Z ->
  forall theta phi, exists F, value_at tab h f (direction_rotor theta phi) F
    /\ forall idx, at_index (lead (nd f)) idx ->
       Cmod (F idx - sphere_function h f idx theta phi)%C
       <= epsilon * rsum 0 (ellmax (md f)) (fun ell => rsum (- ell) ell (fun m =>
            Cmod (mode h f idx ell m) * (sqrt (IZR (2 * ell + 1) / (4 * PI)) * IZR (2 * ell + 1)))).
Proof. exact NearProps.C52_evaluate. Qed.
Print Assumptions C52_evaluate.

(** The matrices of two rotations multiply to that of their product, at every pair of unit quaternions. *)
Theorem C52_product :
  forall L tab N q1 q2 d1 d2 d12, is_Wigner_table L tab -> (0 <= N <= 2 * L)%Z -> (N <= 10 ^ 13)%Z ->
  unit_quat q1 -> unit_quat q2 ->
  D_matrix tab L N q1 d1 -> D_matrix tab L N q2 d2 -> D_matrix tab L N (qmul q1 q2) d12 ->
  forall p r, (0 <= p <= N)%Z -> (0 <= r <= N)%Z ->
    Cmod (d12 p r - csum 0 N (fun k => d1 p k * d2 k r))%C <= 4 * (IZR (N + 1) * IZR (N + 1)) * epsilon.
Proof. exact NearProps.C52_product. Qed.
Print Assumptions C52_product.

(** A rotation about the y axis by an angle of epsilon: a unit quaternion with |qb| strictly between 0 and epsilon, which
    the other theorems exclude.  The code returns 0 for an off-diagonal element that is not zero. *)
Example C52_nonvacuous : exists tab, is_Wigner_table 32 tab /\ unit_quat (direction_rotor epsilon 0)
  /\ ~ rotor (direction_rotor epsilon 0) /\ epsilon < Cmod (qa (direction_rotor epsilon 0))
  /\ D_indices 1 1 (-1) /\ (1 <= 2 * 32)%Z /\ D_returns tab 32 (direction_rotor epsilon 0) 1 1 (-1) (RtoC 0)
  /\ Wigner_formula 1 1 (-1) (qa (direction_rotor epsilon 0)) (qb (direction_rotor epsilon 0)) <> RtoC 0
  /\ wf demo_heap demo_f /\ (0 <= ellmax (md demo_f) <= 32)%Z /\ mode demo_heap demo_f [1%Z] 3 2 <> RtoC 0.
Proof.
  destruct demo_table as (tab & Ht). exists tab. fold NearProps.near_rotor. destruct NearProps.near_rotor_facts as (U & B & A).
  split; [exact Ht|]. split; [exact U|]. split; [intros (_ & _ & [Z|Z]); [rewrite Z, Cmod_0 in B; lra|lra]|]. split; [exact A|].
  split; [split; [lia|split; [lia|split; reflexivity]]|]. split; [lia|].
  split; [apply NearProps.near_rotor_dropped; [exact Ht|lia]|]. split; [exact NearProps.near_rotor_formula|].
  split; [exact demo_f_wf|]. split; [cbn; lia|]. exact demo_nonzero.
Qed.

(** A quaternion that is neither a unit nor resolved satisfies the hypothesis of the agreement theorems. *)
Example C52_agree_nonvacuous : exists tab, is_Wigner_table 32 tab
  /\ (epsilon < Cmod (qa (mkquat 0 1 2 0)) \/ qb (mkquat 0 1 2 0) <> RtoC 0) /\ ~ unit_quat (mkquat 0 1 2 0).
Proof.
  destruct demo_table as (tab & Ht). exists tab. split; [exact Ht|]. split.
  - right. intros Q. injection Q. lra.
  - unfold unit_quat, qnorm2. cbn [qw qx qy qz]. lra.
Qed.
