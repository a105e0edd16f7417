(** Properties C05 (values), C10 (with SWSH) and C13-C19: Wigner D and spin-weighted spherical harmonics.
    [L] is the table size ([ell_max = 32] in the shipped package); every theorem is for all [L]. *)
Require Import ZArith Lia List Reals Lra Bool.
From Coquelicot Require Import Complex.
From Verif Require Import Base CBase CSum DRep IndexModel PowersModel ConvModel WignerSpec WignerModel SWSHModel
  WignerCallModel RotorSpec.
From Verif Require WignerProps SWSHProofs WignerCallProofs.
Import ListNotations.
Open Scope R_scope.

(** ** C05 *)
Theorem C05_coefficient_values :
  forall L, (0 <= L)%Z ->
  (forall g, exists tab, gen_binomial binomial_entry g L = Ok tab /\
     forall n k : Z, (0 <= n <= 2 * L)%Z -> (0 <= k <= n)%Z ->
       binomial_lookup tab n k = Ok (INR (fact (Z.to_nat n)) / (INR (fact (Z.to_nat k)) * INR (fact (Z.to_nat (n - k))))))
  /\ (forall g, exists tab, gen_ladder ladder_entry g L = Ok tab /\
     forall twoell twom, (0 <= twoell <= 2 * L)%Z -> (- twoell <= twom <= twoell)%Z -> Z.even (twoell + twom) = true ->
       let ell := IZR twoell / 2 in let m := IZR twom / 2 in
       ladder_lookup tab twoell twom = Ok (sqrt (ell * (ell + 1) - m * (m + 1))))
  /\ (forall g, exists tab, gen_Wigner Wigner_entry g L = Ok tab /\
     forall twoell lpmp lpm, (0 <= twoell <= 2 * L)%Z -> (0 <= lpmp <= twoell)%Z -> (0 <= lpm <= twoell)%Z ->
       let lmmp := (twoell - lpmp)%Z in let lmm := (twoell - lpm)%Z in
       let rho := Z.max 0 (lpmp - lpm) in
       let F n := INR (fact (Z.to_nat n)) in let Ch n k := Binomial.C (Z.to_nat n) (Z.to_nat k) in
       Wigner_lookup tab twoell (2 * lpmp - twoell) (2 * lpm - twoell)
       = Ok (sqrt (F lpm * F lmm / (F lpmp * F lmmp)) * Ch lpmp rho * Ch lmmp (lmm - rho)%Z)).
Proof. exact WignerProps.C05_values. Qed.
Print Assumptions C05_coefficient_values.

Example C05_values_nonvacuous : (0 <= 32)%Z /\ (0 <= 7 <= 2 * 32)%Z /\ (- 7 <= -3 <= 7)%Z /\ Z.even (7 + -3) = true.
Proof. repeat split; try lia. Qed.

(** ** C10 *)
(** With the harmonics that [SWSH] itself returns in the direction (theta, phi). *)
Theorem C10_with_SWSH :
  forall L tab, is_Wigner_table L tab -> (1 <= L)%Z ->
  forall theta phi, rotor (direction_rotor theta phi) ->
  (forall c y, SWSH_returns tab (direction_rotor theta phi) 0 0 0 y -> (constant_as_ell_0_mode c * y)%C = c)
  /\ (forall x y z ym y0 yp,
       SWSH_returns tab (direction_rotor theta phi) 0 1 (-1) ym ->
       SWSH_returns tab (direction_rotor theta phi) 0 1 0 y0 ->
       SWSH_returns tab (direction_rotor theta phi) 0 1 1 yp ->
       let '(a, b, d) := vector_as_ell_1_modes (x, y, z) in
       (a * ym + b * y0 + d * yp
        = x * RtoC (sin theta * cos phi) + y * RtoC (sin theta * sin phi) + z * RtoC (cos theta))%C).
Proof. exact WignerProps.C10_with_SWSH. Qed.
Print Assumptions C10_with_SWSH.

(** ** C13 *)
(** (ell, mp, m) given as three numbers, integer or half-integer. *)
Theorem C13_Wigner_D_element :
  forall L tab g rot a b twoell twomp twom,
    is_Wigner_table L tab -> rotation_args rot a b -> rotor_parts a b ->
    D_indices twoell twomp twom -> (twoell <= 2 * L)%Z ->
    exists out, Wigner_D_element tab L g (rot ++ [AReal (IZR twoell / 2); AReal (IZR twomp / 2); AReal (IZR twom / 2)])
                = Ok (out, true)
      /\ alen out = 1%Z /\ aget out 0 = Wigner_formula twoell twomp twom a b.
Proof. exact WignerProps.C13_single. Qed.
Print Assumptions C13_Wigner_D_element.

(** An array of index triples. *)
Theorem C13_Wigner_D_element_indices :
  forall L tab g rot a b rows,
    is_Wigner_table L tab -> (rotation_args rot a b \/ rot = [AComplex a; AComplex b]) -> rotor_parts a b ->
    Forall (fun '(twoell, twomp, twom) => (twoell <= 2 * L)%Z /\ D_indices twoell twomp twom) rows ->
    exists out, Wigner_D_element tab L g
        (rot ++ [AIndices2 3 (map (fun '(twoell, twomp, twom) => [IZR twoell / 2; IZR twomp / 2; IZR twom / 2]) rows)])
                = Ok (out, false)
      /\ alen out = Z.of_nat (length rows)
      /\ forall i twoell twomp twom, nth_error rows i = Some (twoell, twomp, twom) ->
           aget out (Z.of_nat i) = Wigner_formula twoell twomp twom a b.
Proof. exact WignerProps.C13_rows. Qed.
Print Assumptions C13_Wigner_D_element_indices.

(** A one-element list of ell: the whole matrix in row-major order. *)
Theorem C13_Wigner_D_element_ell :
  forall L tab g rot a b twoell,
    is_Wigner_table L tab -> (rotation_args rot a b \/ rot = [AComplex a; AComplex b]) -> rotor_parts a b ->
    (0 <= twoell <= 2 * L)%Z ->
    exists out, Wigner_D_element tab L g (rot ++ [AIndices1 [IZR twoell / 2]]) = Ok (out, false)
      /\ alen out = ((twoell + 1) * (twoell + 1))%Z
      /\ forall i j, (0 <= i <= twoell)%Z -> (0 <= j <= twoell)%Z ->
           aget out (i * (twoell + 1) + j)%Z = Wigner_formula twoell (2 * i - twoell) (2 * j - twoell) a b.
Proof. exact WignerProps.C13_ells. Qed.
Print Assumptions C13_Wigner_D_element_ell.

Theorem C13_euler_angles_unit : forall alpha beta gamma, unit_quat (from_euler_angles alpha beta gamma).
Proof. exact WignerProps.C13_euler_unit. Qed.
Print Assumptions C13_euler_angles_unit.

(** A table of every size exists; generic, diagonal and antidiagonal rotors all meet the hypothesis. *)
Example C13_nonvacuous :
  (exists tab, is_Wigner_table 32 tab) /\ rotor (mkquat (3 / 5) 0 (4 / 5) 0) /\ rotor qone
  /\ rotation_args [AQuat qone] (RtoC 1) (RtoC 0)
  /\ D_indices 3 (-1) 1 /\ (3 <= 2 * 32)%Z.
Proof.
  split; [apply WignerProps.table_exists; lia|]. split; [exact WignerProps.q345_rotor|]. split; [exact WignerProps.qone_rotor|].
  split; [left; exists qone; repeat split|]. split; [|lia]. unfold D_indices. repeat split; simpl; auto; lia.
Qed.

(** ** C14 *)
(** Every slot is Wigner's formula, and no slot depends on what the memory held before. *)
Theorem C14_Wigner_D_matrices :
  forall L tab q ell_min ell_max,
    is_Wigner_table L tab -> (0 <= ell_min <= ell_max + 1)%Z -> (ell_max <= L)%Z -> rotor q ->
    forall g, exists out, Wigner_D_matrices tab g q ell_min ell_max = Ok out
      /\ alen out = LMpM_total_size ell_min ell_max
      /\ (forall ell mp m, (ell_min <= ell <= ell_max)%Z -> (- ell <= mp <= ell)%Z -> (- ell <= m <= ell)%Z ->
           aget out (LMpM_index ell mp m ell_min) = Wigner_formula (2 * ell) (2 * mp) (2 * m) (qa q) (qb q))
      /\ forall g' out', Wigner_D_matrices tab g' q ell_min ell_max = Ok out' ->
           forall k, (0 <= k < alen out)%Z -> aget out' k = aget out k.
Proof. exact WignerProps.C14_matrices. Qed.
Print Assumptions C14_Wigner_D_matrices.

Theorem C14_Wigner_D_elements :
  forall L tab Rs ell mp m g,
    is_Wigner_table L tab -> (ell <= L)%Z -> (0 <= alen Rs)%Z ->
    (forall i, (0 <= i < alen Rs)%Z -> rotor (aget Rs i)) ->
    exists out, Wigner_D_element tab L g [AQuats Rs; AReal (IZR ell); AReal (IZR mp); AReal (IZR m)] = Ok (out, false)
      /\ alen out = alen Rs
      /\ forall i, (0 <= i < alen Rs)%Z ->
           aget out i = if ((Z.abs mp <=? ell) && (Z.abs m <=? ell))%Z
                        then Wigner_formula (2 * ell) (2 * mp) (2 * m) (qa (aget Rs i)) (qb (aget Rs i)) else RtoC 0.
Proof. exact WignerProps.C14_elements. Qed.
Print Assumptions C14_Wigner_D_elements.

Example C14_nonvacuous : (0 <= 2 <= 8 + 1)%Z /\ (8 <= 32)%Z
  /\ forall i, (0 <= i < alen (mkarr 3 (fun _ => qone)))%Z -> rotor (aget (mkarr 3 (fun _ => qone)) i).
Proof. split; [lia|]. split; [lia|]. intros. exact WignerProps.qone_rotor. Qed.

(** ** C15 *)
Theorem C15_product :
  forall L tab N, is_Wigner_table L tab -> (0 <= N <= 2 * L)%Z ->
  forall q1 q2 d1 d2 d12, rotor q1 -> rotor q2 -> rotor (qmul q1 q2) ->
    D_matrix tab L N q1 d1 -> D_matrix tab L N q2 d2 -> D_matrix tab L N (qmul q1 q2) d12 ->
    forall p r, (0 <= p <= N)%Z -> (0 <= r <= N)%Z -> d12 p r = csum 0 N (fun k => d1 p k * d2 k r)%C.
Proof. exact WignerProps.C15_product. Qed.
Print Assumptions C15_product.

Theorem C15_identity :
  forall L tab N, is_Wigner_table L tab -> (0 <= N <= 2 * L)%Z ->
  forall d, D_matrix tab L N qone d -> rotor qone ->
    forall p r, (0 <= p <= N)%Z -> (0 <= r <= N)%Z -> d p r = if (p =? r)%Z then RtoC 1 else RtoC 0.
Proof. exact WignerProps.C15_one. Qed.
Print Assumptions C15_identity.

Theorem C15_double_cover :
  forall L tab N, is_Wigner_table L tab -> (0 <= N <= 2 * L)%Z ->
  forall q d d', rotor q -> rotor (qneg q) -> D_matrix tab L N q d -> D_matrix tab L N (qneg q) d' ->
    forall p r, (0 <= p <= N)%Z -> (0 <= r <= N)%Z -> d' p r = (RtoC (if Z.even N then 1 else -1) * d p r)%C.
Proof. exact WignerProps.C15_neg. Qed.
Print Assumptions C15_double_cover.

(** The matrices exist: the hypotheses [D_matrix] describe what the calls return. *)
Example C15_nonvacuous : forall L tab N q, is_Wigner_table L tab -> (0 <= N <= 2 * L)%Z -> rotor q ->
  D_matrix tab L N q (fun p r => Wigner_formula N (2 * p - N) (2 * r - N) (qa q) (qb q)).
Proof.
  intros L tab N q Ht HN Hq p r Hp Hr. apply WignerProps.D_returns_formula; auto; [|lia].
  unfold D_indices. replace (N + (2 * p - N))%Z with (2 * p)%Z by lia. replace (N + (2 * r - N))%Z with (2 * r)%Z by lia.
  rewrite !Z.even_mul. repeat split; auto; lia.
Qed.

(** ** C16 *)
Theorem C16_unitary :
  forall L tab N, is_Wigner_table L tab -> (0 <= N <= 2 * L)%Z ->
  forall q d, rotor q -> D_matrix tab L N q d ->
    forall p r, (0 <= p <= N)%Z -> (0 <= r <= N)%Z ->
      csum 0 N (fun k => d p k * Cconj (d r k))%C = (if (p =? r)%Z then RtoC 1 else RtoC 0)
      /\ csum 0 N (fun k => Cconj (d k p) * d k r)%C = (if (p =? r)%Z then RtoC 1 else RtoC 0).
Proof. exact WignerProps.C16_unitary. Qed.
Print Assumptions C16_unitary.

(** Row [p] is m' = p - ell and row [N - p] is -m'; the sign (-1)^(p - r) is (-1)^(m' - m). *)
Theorem C16_symmetries :
  forall L tab N, is_Wigner_table L tab -> (0 <= N <= 2 * L)%Z ->
  forall q d d', rotor q -> rotor (qconj q) -> D_matrix tab L N q d -> D_matrix tab L N (qconj q) d' ->
    forall p r, (0 <= p <= N)%Z -> (0 <= r <= N)%Z ->
      d p r = Cconj (d' r p) /\ d p r = (RtoC (if Z.even (p + r) then 1 else -1) * Cconj (d (N - p)%Z (N - r)%Z))%C.
Proof. exact WignerProps.C16_symmetries. Qed.
Print Assumptions C16_symmetries.

Example C16_nonvacuous : rotor (mkquat (3 / 5) 0 (4 / 5) 0) /\ rotor (qconj qone) /\ (0 <= 5 <= 2 * 32)%Z.
Proof.
  split; [exact WignerProps.q345_rotor|]. split; [|lia].
  replace (qconj qone) with qone by (unfold qconj, qone; cbn [qw qx qy qz]; rewrite Ropp_0; reflexivity).
  exact WignerProps.qone_rotor.
Qed.

(** ** C17 *)
Theorem C17_value :
  forall L tab q s ell m v d, is_Wigner_table L tab -> rotor q -> (ell <= L)%Z ->
    SWSH_returns tab q s ell m v ->
    (Z.abs m <= ell -> Z.abs s <= ell -> D_returns tab L q (2 * ell) (2 * m) (2 * - s) d ->
       v = (RtoC (if Z.even s then 1 else -1)%R * RtoC (sqrt (IZR (2 * ell + 1) / (4 * PI))) * d)%C)%Z
    /\ (ell < Z.abs m \/ ell < Z.abs s -> v = RtoC 0)%Z.
Proof. exact WignerProps.C17_value. Qed.
Print Assumptions C17_value.

Theorem C17_conjugate :
  forall L tab q s ell m v v', is_Wigner_table L tab -> rotor q -> (ell <= L)%Z ->
    SWSH_returns tab q s ell m v -> SWSH_returns tab q (- s) ell (- m) v' ->
    Cconj v = (RtoC (if Z.even (s + m) then 1 else -1)%R * v')%C.
Proof. exact WignerProps.C17_conj. Qed.
Print Assumptions C17_conjugate.

Theorem C17_frame_rotation :
  forall L tab q s ell m gamma v v', is_Wigner_table L tab -> rotor q -> rotor (qmul q (z_rotor gamma)) -> (ell <= L)%Z ->
    SWSH_returns tab q s ell m v -> SWSH_returns tab (qmul q (z_rotor gamma)) s ell m v' ->
    v' = (cis (- (IZR s * gamma)) * v)%C.
Proof. exact WignerProps.C17_frame. Qed.
Print Assumptions C17_frame_rotation.

(** The three call forms: an array of rotors, an array of indices, a grid of rotors. *)
Theorem C17_array_of_rotors :
  forall L tab g Rs s ell m, is_Wigner_table L tab -> (ell <= L)%Z -> (0 <= alen Rs)%Z ->
    (forall i, (0 <= i < alen Rs)%Z -> rotor (aget Rs i)) ->
    exists out, SWSH_rotors tab g Rs s ell m = Ok out /\ alen out = alen Rs
      /\ forall i, (0 <= i < alen Rs)%Z -> SWSH_returns tab (aget Rs i) s ell m (aget out i).
Proof. exact WignerProps.C17_rotors. Qed.
Print Assumptions C17_array_of_rotors.

Theorem C17_array_of_indices :
  forall L tab g q s indices, is_Wigner_table L tab -> rotor q -> (0 <= alen indices)%Z ->
    (forall i, (0 <= i < alen indices)%Z -> (fst (aget indices i) <= L)%Z) ->
    exists out, SWSH_indices tab g q s indices = Ok out /\ alen out = alen indices
      /\ forall i, (0 <= i < alen indices)%Z -> SWSH_returns tab q s (fst (aget indices i)) (snd (aget indices i)) (aget out i).
Proof. exact WignerProps.C17_indices. Qed.
Print Assumptions C17_array_of_indices.

Theorem C17_grid :
  forall L tab g Rs s ell_max, is_Wigner_table L tab -> (0 <= ell_max <= L)%Z -> (0 < alen Rs)%Z ->
    (forall i, (0 <= i < alen Rs)%Z -> rotor (aget Rs i)) ->
    exists out, SWSH_grid tab g Rs s ell_max = Ok out
      /\ nrow out = alen Rs /\ ncol out = LM_total_size 0 ell_max
      /\ forall i ell m, (0 <= i < alen Rs)%Z -> (0 <= ell <= ell_max)%Z -> (- ell <= m <= ell)%Z ->
           SWSH_returns tab (aget Rs i) s ell m (get2 out i (LM_index ell m 0)).
Proof. exact WignerProps.C17_grid. Qed.
Print Assumptions C17_grid.

Example C17_nonvacuous : forall L tab q s ell m, is_Wigner_table L tab -> rotor q -> (ell <= L)%Z ->
  exists v, SWSH_returns tab q s ell m v.
Proof. intros. eexists. eapply WignerProps.SWSH_returns_value; eauto. Qed.

(** ** C18 *)
Theorem C18_rotation :
  forall L tab q r s ell d y y', is_Wigner_table L tab -> rotor q -> rotor r -> rotor (qmul q r) -> (0 <= ell <= L)%Z ->
    (forall m m', (- ell <= m <= ell)%Z -> (- ell <= m' <= ell)%Z -> D_returns tab L q (2 * ell) (2 * m) (2 * m') (d m m')) ->
    (forall m, (- ell <= m <= ell)%Z -> SWSH_returns tab r s ell m (y m)) ->
    (forall m, (- ell <= m <= ell)%Z -> SWSH_returns tab (qmul q r) s ell m (y' m)) ->
    forall m, (- ell <= m <= ell)%Z -> y' m = csum (- ell) ell (fun m' => d m m' * y m')%C.
Proof. exact WignerProps.C18_rotation. Qed.
Print Assumptions C18_rotation.

Example C18_nonvacuous : rotor (mkquat (3 / 5) 0 (4 / 5) 0) /\ rotor qone /\ rotor (qmul (mkquat (3 / 5) 0 (4 / 5) 0) qone).
Proof.
  split; [exact WignerProps.q345_rotor|]. split; [exact WignerProps.qone_rotor|].
  replace (qmul (mkquat (3 / 5) 0 (4 / 5) 0) qone) with (mkquat (3 / 5) 0 (4 / 5) 0); [exact WignerProps.q345_rotor|].
  unfold qmul, qone; cbn [qw qx qy qz]. f_equal; field.
Qed.

(** ** C19 *)
(** Call forms that validate: ValueError, or success with every table read in range (an out-of-range read is
    [Err OutOfBounds] in the model).  No hypothesis on the rotation. *)
Theorem C19_checked_calls :
  forall L tab g args, (0 <= L)%Z -> is_Wigner_table L tab -> checked_call args ->
    Wigner_D_element tab L g args = Err ValueError \/ exists r, Wigner_D_element tab L g args = Ok r.
Proof. exact WignerProps.C19_checked. Qed.
Print Assumptions C19_checked_calls.

Theorem C19_rejected_triples :
  forall L tab g q e mp m, (0 <= L)%Z -> is_Wigner_table L tab ->
    Wigner_D_element tab L g [AQuat q; AReal e; AReal mp; AReal m] = Err ValueError
    <-> (2 * L < round2 e)%Z \/ (round2 e < Z.abs (round2 mp))%Z \/ (round2 e < Z.abs (round2 m))%Z.
Proof. exact WignerProps.C19_rejects. Qed.
Print Assumptions C19_rejected_triples.

(** Triples of mixed parity such as (1, 1/2, 0) are accepted and give a number. *)
Theorem C19_mixed_parity_refuted :
  forall L tab g q t mp m, (0 <= L)%Z -> is_Wigner_table L tab ->
    (t <= 2 * L)%Z -> (Z.abs mp <= t)%Z -> (Z.abs m <= t)%Z -> ~ D_indices t mp m ->
    exists out, Wigner_D_element tab L g [AQuat q; AReal (IZR t / 2); AReal (IZR mp / 2); AReal (IZR m / 2)] = Ok out.
Proof. exact WignerProps.C19_parity. Qed.
Print Assumptions C19_mixed_parity_refuted.

(** A list of ell values is not validated: any ell above the table size reads outside the table. *)
Theorem C19_ell_list_refuted :
  forall L tab g t l, (0 <= L)%Z -> is_Wigner_table L tab -> (2 * L < t)%Z ->
    exists q, rotor q /\ Wigner_D_element tab L g [AQuat q; AIndices1 (IZR t / 2 :: l)] = Err OutOfBounds.
Proof. exact WignerProps.C19_ell_list. Qed.
Print Assumptions C19_ell_list_refuted.

(** An array of quaternions with ell above the table size reads outside the table. *)
Theorem C19_quaternion_array_refuted :
  forall L tab g Rs e mp m, (0 <= L)%Z -> is_Wigner_table L tab -> (0 <= alen Rs)%Z ->
    (L < e)%Z -> (Z.abs mp <= e)%Z -> (Z.abs m <= e)%Z ->
    Wigner_D_element tab L g [AQuats Rs; AReal (IZR e); AReal (IZR mp); AReal (IZR m)] = Err OutOfBounds.
Proof. exact WignerCallProofs.quats_oob. Qed.
Print Assumptions C19_quaternion_array_refuted.

(** The documented form (Ra, Rb, ell, mp, m) always raises; the documented single ell raises IndexError. *)
Theorem C19_two_parts_form_refuted :
  forall tab L g za zb e mp m, exists x,
    Wigner_D_element tab L g [AComplex za; AComplex zb; AReal e; AReal mp; AReal m] = Err x.
Proof. exact WignerProps.C19_two_parts. Qed.
Print Assumptions C19_two_parts_form_refuted.

Theorem C19_single_ell_refuted :
  forall tab L g q x, Wigner_D_element tab L g [AQuat q; AReal x] = Err IndexError
    /\ Wigner_D_element tab L g [AQuat q; AIndices0 x] = Err IndexError.
Proof. exact WignerProps.C19_scalar. Qed.
Print Assumptions C19_single_ell_refuted.

Example C19_nonvacuous : ~ D_indices 2 1 0 /\ (2 <= 2 * 32)%Z /\ (2 * 32 < 65)%Z
  /\ checked_call [AQuat qone; AReal 1; AReal 0; AReal 0].
Proof.
  split; [intros (_ & _ & H & _); discriminate|]. split; [lia|]. split; [lia|].
  left. exists [AQuat qone], [AReal 1; AReal 0; AReal 0]. split; [reflexivity|]. split; left; eauto.
Qed.
