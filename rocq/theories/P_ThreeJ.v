(** Properties C31-C35 and C43: Wigner 3-j symbols and Clebsch-Gordan coefficients.
    [threej] (ThreeJSpec.v) is Racah's closed formula; [late_zero] is the condition under which the program may divide by
    zero; [exact] is unbounded integer arithmetic and [fixed] the declared fixed-width types. *)
From Coq Require Import ZArith Reals Lia Lra Bool.
From Verif Require Import Base Fact RSum ThreeJSpec Wigner3jModel Wigner3jSpec.
From Verif Require Wigner3jProps.
Local Open Scope Z_scope.

Definition demo_calc : calc := mkcalc 9 (mkarr 36 (fun k => IZR k)).
Example demo_wf : calc_wf demo_calc.
Proof. split; cbn; [lia|reflexivity]. Qed.
(** (j2, j3, m2, m3) = (4, 4, 1, -3): a family with a growing region, seven symbols *)
Example demo_calculation : exists c', calculate exact demo_calc 4 4 1 (-3) = Ok c'.
Proof. apply Wigner3jProps.C32_small; [apply demo_wf| | | |]; cbn; lia. Qed.
Example demo_allowed : tj_allowed 6 4 4 2 1 (-3).
Proof. unfold tj_allowed. lia. Qed.
(** ** C31 *)
Theorem C31_zero :
  forall w g j1 j2 j3 m1 m2 m3,
    m1 + m2 + m3 <> 0 \/ Z.abs m1 > j1 \/ Z.abs m2 > j2 \/ Z.abs m3 > j3 \/ j1 > j2 + j3 \/ j2 > j3 + j1 \/ j3 > j1 + j2 ->
    Wigner3j w g j1 j2 j3 m1 m2 m3 = Ok 0%R.
Proof. exact Wigner3jProps.C31_zero. Qed.
Print Assumptions C31_zero.

Theorem C31_slot :
  forall w g j1 j2 j3 m1 m2 m3, tj_allowed j1 j2 j3 m1 m2 m3 -> j2 <= j1 -> j3 <= j1 ->
    Wigner3j w g j1 j2 j3 m1 m2 m3 =
      (do c <- calc_new j2 j3 g; do c <- calculate w c j2 j3 m2 m3; returned c j1) /\
    (j2 < j1 -> j3 < j1 ->
     Wigner3j w g j2 j3 j1 m2 m3 m1 = (do c <- calc_new j2 j3 g; do c <- calculate w c j2 j3 m2 m3; returned c j1) /\
     Wigner3j w g j3 j1 j2 m3 m1 m2 = (do c <- calc_new j2 j3 g; do c <- calculate w c j2 j3 m2 m3; returned c j1)).
Proof. exact Wigner3jProps.C31_slot. Qed.
Print Assumptions C31_slot.

Theorem C31_value :
  forall g j1 j2 j3 m1 m2 m3,
    Wigner3j exact g j1 j2 j3 m1 m2 m3 = Ok (threej j1 j2 j3 m1 m2 m3) \/
    (Wigner3j exact g j1 j2 j3 m1 m2 m3 = Err ZeroDivisionError /\ tj_allowed j1 j2 j3 m1 m2 m3 /\
     (j2 <= j1 /\ j3 <= j1 /\ late_zero j2 j3 m2 m3 \/ j3 <= j2 /\ j1 <= j2 /\ late_zero j3 j1 m3 m1 \/ j1 <= j3 /\ j2 <= j3 /\ late_zero j1 j2 m1 m2)).
Proof. exact Wigner3jProps.C31_value. Qed.
Print Assumptions C31_value.

Theorem C31_small :
  forall g j1 j2 j3 m1 m2 m3, j1 <= 7 \/ j2 <= 7 \/ j3 <= 7 \/ (j1 <= 12 /\ j2 <= 12) \/ (j1 <= 12 /\ j3 <= 12) \/ (j2 <= 12 /\ j3 <= 12) \/ (m1 = 0 /\ m2 = 0 /\ m3 = 0) ->
    Wigner3j exact g j1 j2 j3 m1 m2 m3 = Ok (threej j1 j2 j3 m1 m2 m3).
Proof. exact Wigner3jProps.C31_small. Qed.
Print Assumptions C31_small.

Theorem C31_in_bounds :
  forall g j1 j2 j3 m1 m2 m3 e, Wigner3j exact g j1 j2 j3 m1 m2 m3 = Err e -> e = ZeroDivisionError.
Proof. exact Wigner3jProps.C31_in_bounds. Qed.
Print Assumptions C31_in_bounds.

Example C31_nonvacuous : exists x, Wigner3j exact (fun k => IZR k) 6 4 4 2 1 (-3) = Ok x.
Proof.
  eexists. apply Wigner3jProps.C31_small. right. right. left. lia.
Qed.

(** ** C32 *)
Theorem C32_symbols :
  forall c j2 j3 m2 m3 c', calc_wf c -> 0 <= j2 -> 0 <= j3 -> j2 + j3 < csize c ->
    calculate exact c j2 j3 m2 m3 = Ok c' ->
    calc_wf c' /\ csize c' = csize c /\
    forall j, 0 <= j < csize c -> returned c' j = Ok (threej j j2 j3 (- m2 - m3) m2 m3).
Proof. exact Wigner3jProps.C32_symbols. Qed.
Print Assumptions C32_symbols.

Theorem C32_returns :
  forall c j2 j3 m2 m3, calc_wf c -> 0 <= j2 -> 0 <= j3 -> j2 + j3 < csize c ->
    ~ late_zero j2 j3 m2 m3 -> exists c', calculate exact c j2 j3 m2 m3 = Ok c'.
Proof. exact Wigner3jProps.C32_returns. Qed.
Print Assumptions C32_returns.

Theorem C32_small :
  forall c j2 j3 m2 m3, calc_wf c -> 0 <= j2 -> 0 <= j3 -> j2 + j3 < csize c ->
    (j2 <= 7 \/ j3 <= 7 \/ (j2 - 7) * (j3 - 7) < 28 \/ m2 = 0 /\ m3 = 0 \/ 0 <= Bq (jlo j2 j3 m2 m3) j2 j3 m2 m3) ->
    exists c', calculate exact c j2 j3 m2 m3 = Ok c'.
Proof. exact Wigner3jProps.C32_small. Qed.
Print Assumptions C32_small.

Theorem C32_only_error :
  forall c j2 j3 m2 m3 e, calc_wf c -> 0 <= j2 -> 0 <= j3 -> j2 + j3 < csize c ->
    calculate exact c j2 j3 m2 m3 = Err e -> e = ZeroDivisionError /\ late_zero j2 j3 m2 m3.
Proof. exact Wigner3jProps.C32_only_error. Qed.
Print Assumptions C32_only_error.

Theorem C32_recurrence :
  forall c j2 j3 m2 m3 c' v, calc_wf c -> Z.abs m2 <= j2 -> Z.abs m3 <= j3 -> j2 + j3 < csize c ->
    calculate exact c j2 j3 m2 m3 = Ok c' -> (forall j, 0 <= j < csize c -> returned c' j = Ok (v j)) ->
    let lo := Z.max (Z.abs (j2 - j3)) (Z.abs (m2 + m3)) in
    let al j := sqrt (IZR ((j ^ 2 - (j2 - j3) ^ 2) * ((j2 + j3 + 1) ^ 2 - j ^ 2) * (j ^ 2 - (m2 + m3) ^ 2))) in
    let be j := IZR ((2 * j + 1) * ((m2 + m3) * (j2 * (j2 + 1) - j3 * (j3 + 1)) - (m2 - m3) * j * (j + 1))) in
    (forall j, lo < j < j2 + j3 -> (IZR j * al (j + 1)%Z * v (j + 1)%Z + be j * v j + IZR (j + 1) * al j * v (j - 1)%Z = 0)%R) /\
    rsum lo (j2 + j3) (fun j => IZR (2 * j + 1) * v j ^ 2)%R = 1%R /\
    (0 < sgn (j2 - j3 + m2 + m3) * v (j2 + j3)%Z)%R /\
    (forall j, 0 <= j < csize c -> j < lo \/ j2 + j3 < j -> v j = 0%R).
Proof. exact Wigner3jProps.C32_recurrence. Qed.
Print Assumptions C32_recurrence.

Example C32_nonvacuous : calc_wf demo_calc /\ 4 + 4 < csize demo_calc /\ ~ late_zero 4 4 1 (-3) /\ (exists c', calculate exact demo_calc 4 4 1 (-3) = Ok c').
Proof.
  split; [apply demo_wf|]. split; [cbn; lia|]. split; [|apply demo_calculation].
  intros (_ & k & Hk & _). unfold jlo in Hk. cbn in Hk. lia.
Qed.

(** ** C33 *)
Theorem C33_history :
  forall w a1 b1 a2 b2 c1 c2 garbage f1 f2 j2 j3 m2 m3, history w a1 b1 a2 b2 c1 c2 ->
    calc_new a1 b1 garbage = Ok f1 -> calc_new a2 b2 garbage = Ok f2 ->
    calculate w c1 j2 j3 m2 m3 = calculate w f1 j2 j3 m2 m3 /\ calculate w c2 j2 j3 m2 m3 = calculate w f2 j2 j3 m2 m3.
Proof. exact Wigner3jProps.C33_history. Qed.
Print Assumptions C33_history.

Theorem C33_workspace_size :
  forall c d j2 j3 m2 m3 c' d', calc_wf c -> calc_wf d -> 0 <= j2 -> 0 <= j3 -> j2 + j3 < csize c -> j2 + j3 < csize d ->
    calculate exact c j2 j3 m2 m3 = Ok c' -> calculate exact d j2 j3 m2 m3 = Ok d' ->
    forall j, 0 <= j <= j2 + j3 -> returned c' j = returned d' j.
Proof. exact Wigner3jProps.C33_workspace_size. Qed.
Print Assumptions C33_workspace_size.

Example C33_nonvacuous : exists c1 c2, history exact 4 4 2 3 c1 c2 /\ exists c, calculate exact c1 4 4 1 (-3) = Ok c /\ history exact 4 4 2 3 c c2.
Proof.
  pose (c1 := mkcalc 9 (mkarr 36 (fun k => IZR k))). pose (c2 := mkcalc 6 (mkarr 24 (fun k => IZR (- k)))).
  assert (H : history exact 4 4 2 3 c1 c2) by (apply (h_new exact 4 4 2 3 (fun k => IZR k) (fun k => IZR (- k))); reflexivity).
  exists c1, c2. split; auto. destruct demo_calculation as [c E]. exists c. split; auto.
  apply (h_call1 exact 4 4 2 3 c1 c2 c 4 4 1 (-3)); auto.
Qed.

(** ** C34 *)
Theorem C34_symmetries :
  forall g g' j1 j2 j3 m1 m2 m3 x, Wigner3j exact g j1 j2 j3 m1 m2 m3 = Ok x ->
    (forall y, Wigner3j exact g' j2 j3 j1 m2 m3 m1 = Ok y -> y = x) /\
    (forall y, Wigner3j exact g' j3 j1 j2 m3 m1 m2 = Ok y -> y = x) /\
    (forall y, Wigner3j exact g' j2 j1 j3 m2 m1 m3 = Ok y -> y = (sgn (j1 + j2 + j3) * x)%R) /\
    (forall y, Wigner3j exact g' j1 j3 j2 m1 m3 m2 = Ok y -> y = (sgn (j1 + j2 + j3) * x)%R) /\
    (forall y, Wigner3j exact g' j3 j2 j1 m3 m2 m1 = Ok y -> y = (sgn (j1 + j2 + j3) * x)%R) /\
    (forall y, Wigner3j exact g' j1 j2 j3 (- m1) (- m2) (- m3) = Ok y -> y = (sgn (j1 + j2 + j3) * x)%R).
Proof. exact Wigner3jProps.C34_symmetries. Qed.
Print Assumptions C34_symmetries.

(** With a strictly largest first argument, cyclic rearrangements even run the same computation. *)
Theorem C34_returns_together :
  forall g g' w j1 j2 j3 m1 m2 m3, j1 > j2 -> j1 > j3 ->
    Wigner3j w g j1 j2 j3 m1 m2 m3 = Wigner3j w g' j2 j3 j1 m2 m3 m1 /\
    Wigner3j w g j1 j2 j3 m1 m2 m3 = Wigner3j w g' j3 j1 j2 m3 m1 m2.
Proof. exact Wigner3jProps.C34_returns_together. Qed.
Print Assumptions C34_returns_together.

Theorem C34_clebsch_gordan :
  forall g j1 m1 j2 m2 j3 m3 x, 0 <= j3 -> Wigner3j exact g j1 j2 j3 m1 m2 (- m3) = Ok x ->
    clebsch_gordan exact g j1 m1 j2 m2 j3 m3 = Ok (sgn (j1 - j2 + m3) * sqrt (IZR (2 * j3 + 1)) * x)%R /\
    (sgn (j1 - j2 + m3) * sqrt (IZR (2 * j3 + 1)) * x)%R = cg j1 m1 j2 m2 j3 m3.
Proof. exact Wigner3jProps.C34_clebsch_gordan. Qed.
Print Assumptions C34_clebsch_gordan.

(** For a negative j3 both sides of the relation are the square root of a negative number times 0. *)
Theorem C34_clebsch_gordan_negative_j3 :
  forall w g j1 m1 j2 m2 j3 m3, j3 < 0 ->
    Wigner3j w g j1 j2 j3 m1 m2 (- m3) = Ok 0%R /\ clebsch_gordan w g j1 m1 j2 m2 j3 m3 = Err ValueError.
Proof. exact Wigner3jProps.C34_clebsch_gordan_negative_j3. Qed.
Print Assumptions C34_clebsch_gordan_negative_j3.

Example C34_nonvacuous : exists x y, Wigner3j exact (fun _ => 0%R) 6 4 4 2 1 (-3) = Ok x /\ Wigner3j exact (fun _ => 1%R) 4 6 4 1 2 (-3) = Ok y.
Proof. do 2 eexists. split; apply Wigner3jProps.C31_small; lia. Qed.

(** ** C35 *)
Theorem C35_B :
  forall j j2 j3 m2 m3, 0 <= j <= j2 + j3 -> Z.abs m2 <= j2 -> Z.abs m3 <= j3 -> j2 + j3 <= 151 ->
    B fixed j j2 j3 m2 m3 = (2 * j + 1) * ((m2 + m3) * (j2 * (j2 + 1) - j3 * (j3 + 1)) - (m2 - m3) * j * (j + 1)).
Proof. exact Wigner3jProps.C35_B. Qed.
Print Assumptions C35_B.

Theorem C35_A :
  forall j j2 j3 m1, 0 <= j <= j2 + j3 + 1 -> 0 <= j2 -> 0 <= j3 -> Z.abs m1 <= j2 + j3 -> j2 + j3 <= 1447 ->
    A fixed j j2 j3 m1 = A exact j j2 j3 m1.
Proof. exact Wigner3jProps.C35_A. Qed.
Print Assumptions C35_A.

Theorem C35_calculator :
  forall c j2 j3 m2 m3, calc_wf c -> 0 <= j2 -> 0 <= j3 -> j2 + j3 < csize c -> j2 + j3 <= 151 ->
    (exists c', calculate fixed c j2 j3 m2 m3 = Ok c' /\ calc_wf c' /\ csize c' = csize c /\
       forall j, 0 <= j < csize c -> returned c' j = Ok (threej j j2 j3 (- m2 - m3) m2 m3)) \/
    (calculate fixed c j2 j3 m2 m3 = Err ZeroDivisionError /\ late_zero j2 j3 m2 m3).
Proof. exact Wigner3jProps.C35_calculator. Qed.
Print Assumptions C35_calculator.

(** The property is false beyond these limits: at j2 = j3 = 100 the int32 result of B wraps, and at j2 = j3 = 1000 the
    64-bit product in A wraps to a negative number. *)
Theorem C35_B_refuted :
  exists j j2 j3 m2 m3, Z.abs m2 <= j2 /\ Z.abs m3 <= j3 /\ Z.max (Z.abs (j2 - j3)) (Z.abs (m2 + m3)) <= j <= j2 + j3 /\
    B fixed j j2 j3 m2 m3 <> B exact j j2 j3 m2 m3.
Proof. exact Wigner3jProps.C35_B_refuted. Qed.
Print Assumptions C35_B_refuted.

Theorem C35_A_refuted :
  exists j j2 j3 m1, Z.abs (j2 - j3) <= j <= j2 + j3 /\ Z.abs m1 <= j /\
    A exact j j2 j3 m1 <> Err ValueError /\ A fixed j j2 j3 m1 = Err ValueError.
Proof. exact Wigner3jProps.C35_A_refuted. Qed.
Print Assumptions C35_A_refuted.

Example C35_nonvacuous : 0 <= 100 <= 75 + 75 /\ Z.abs 70 <= 75 /\ Z.abs (-70) <= 75 /\ 75 + 75 <= 151.
Proof. lia. Qed.

(** ** C43 *)
Theorem C43_columns :
  forall c c' j2 j3 m2 m3 n2 n3 d d' v u, calc_wf c -> calc_wf c' -> j2 + j3 < csize c -> j2 + j3 < csize c' ->
    Z.abs m2 <= j2 -> Z.abs m3 <= j3 -> Z.abs n2 <= j2 -> Z.abs n3 <= j3 -> m2 + m3 = n2 + n3 ->
    calculate exact c j2 j3 m2 m3 = Ok d -> calculate exact c' j2 j3 n2 n3 = Ok d' ->
    (forall j, 0 <= j <= j2 + j3 -> returned d j = Ok (v j)) -> (forall j, 0 <= j <= j2 + j3 -> returned d' j = Ok (u j)) ->
    rsum 0 (j2 + j3) (fun j => IZR (2 * j + 1) * (v j * u j))%R = (if m2 =? n2 then 1 else 0)%R.
Proof. exact Wigner3jProps.C43_columns. Qed.
Print Assumptions C43_columns.

Theorem C43_rows :
  forall g j1 j2 j3 j3' m3 x y, 0 <= j1 -> 0 <= j2 -> Z.abs (j1 - j2) <= j3 <= j1 + j2 -> Z.abs m3 <= j3 ->
    (forall m1, - j1 <= m1 <= j1 -> Wigner3j exact g j1 j2 j3 m1 (- m3 - m1) m3 = Ok (x m1)) ->
    (forall m1, - j1 <= m1 <= j1 -> Wigner3j exact g j1 j2 j3' m1 (- m3 - m1) m3 = Ok (y m1)) ->
    (IZR (2 * j3 + 1) * rsum (- j1) j1 (fun m1 => x m1 * y m1) = if (j3 =? j3')%Z then 1 else 0)%R.
Proof. exact Wigner3jProps.C43_rows. Qed.
Print Assumptions C43_rows.

Example C43_nonvacuous : exists c' d', calculate exact demo_calc 4 4 1 (-3) = Ok c' /\ calculate exact demo_calc 4 4 (-2) 0 = Ok d' /\ 1 + -3 = -2 + 0.
Proof.
  destruct demo_calculation as [c' E]. destruct (Wigner3jProps.C32_small demo_calc 4 4 (-2) 0) as [d' E']; try (cbn; lia); [apply demo_wf|].
  exists c', d'. auto.
Qed.
