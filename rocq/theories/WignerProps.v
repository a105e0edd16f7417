(** The statements of [P_Wigner], assembled from the lemmas. *)
Require Import ZArith Lia List Reals Lra Bool.
From Coquelicot Require Import Complex.
From Flocq Require Import Core.
From Verif Require Import Base BaseProofs CBase CSum RSum Fact SymPow WignerSpec DRep IndexModel IndexProofs IndexProofs2
  IndexProps WignerModel WignerProofs WignerProofs2 WignerProofs3 PowersModel RotorSpec SWSHModel SWSHProofs
  WignerCallModel WignerCallProofs ConvModel ConvProps.
Import ListNotations.
Open Scope R_scope.

Lemma rotor_q q : rotor q -> rotor_parts (qa q) (qb q).
Proof. intros (U & A & B). split; auto. apply unit_norm; auto. Qed.

(** C05 *)
Lemma C05_values L : (0 <= L)%Z ->
  (forall g, exists tab, gen_binomial binomial_entry g L = Ok tab /\
     forall n k : Z, (0 <= n <= 2 * L)%Z -> (0 <= k <= n)%Z ->
       binomial_lookup tab n k = Ok (INR (fact (Z.to_nat n)) / (INR (fact (Z.to_nat k)) * INR (fact (Z.to_nat (n - k))))))
  /\ (forall g, exists tab, gen_ladder ladder_entry g L = Ok tab /\
     forall twoell twom, (0 <= twoell <= 2 * L)%Z -> (- twoell <= twom <= twoell)%Z -> Z.even (twoell + twom) = true ->
       let ell := IZR twoell / 2 in let m := IZR twom / 2 in
       ladder_lookup tab twoell twom = Ok (sqrt (ell * (ell + 1) - m * (m + 1))))
  /\ (forall g, exists tab, gen_Wigner Wigner_entry g L = Ok tab /\
     forall twoell lpmp lpm, (0 <= twoell <= 2 * L)%Z -> (0 <= lpmp <= twoell)%Z -> (0 <= lpm <= twoell)%Z ->
       let lmmp := (twoell - lpmp)%Z in let lmm := (twoell - lpm)%Z in
       let rho := Z.max 0 (lpmp - lpm) in
       let F n := INR (fact (Z.to_nat n)) in let Ch n k := Binomial.C (Z.to_nat n) (Z.to_nat k) in
       Wigner_lookup tab twoell (2 * lpmp - twoell) (2 * lpm - twoell)
       = Ok (sqrt (F lpm * F lmm / (F lpmp * F lmmp)) * Ch lpmp rho * Ch lmmp (lmm - rho)%Z)).
Proof.
  intros HL. split; [|split]; intros g.
  - destruct (binomial_table_ok binomial_entry g L HL) as (tab & E & H). exists tab. split; auto.
    intros n k Hn Hk. rewrite H by auto. f_equal. unfold binomial_entry. rewrite bin_fct by lia.
    rewrite !ifct_inv by lia. unfold fct. field. split; apply INR_fact_neq_0.
  - destruct (ladder_table_ok ladder_entry g L HL) as (tab & E & H). exists tab. split; auto.
    intros t m Ht Hm Ev ell m'. rewrite H by auto. f_equal. unfold ladder_entry, ell, m'. f_equal.
    rewrite minus_IZR, !mult_IZR, !plus_IZR. field.
  - destruct (Wigner_table_ok Wigner_entry g L HL) as (tab & E & H). exists tab. split; auto.
    intros t p q Ht Hp Hq lmmp lmm rho F Ch. rewrite (table_lookup L) by (auto; exists g; auto).
    f_equal. unfold F, Ch, lmmp, lmm, rho, Tlo, wt, fct, bin.
    replace ((0 <=? Z.max 0 (p - q)) && (Z.max 0 (p - q) <=? p))%Z with true
      by (symmetry; apply andb_true_iff; split; apply Z.leb_le; lia).
    replace ((0 <=? t - q - Z.max 0 (p - q)) && (t - q - Z.max 0 (p - q) <=? t - p))%Z with true
      by (symmetry; apply andb_true_iff; split; apply Z.leb_le; lia).
    reflexivity.
Qed.

(** C13 *)
Lemma C13_single L tab g rot a b twoell twomp twom :
  is_Wigner_table L tab -> rotation_args rot a b -> rotor_parts a b ->
  D_indices twoell twomp twom -> (twoell <= 2 * L)%Z ->
  exists out, Wigner_D_element tab L g (rot ++ [AReal (IZR twoell / 2); AReal (IZR twomp / 2); AReal (IZR twom / 2)])
              = Ok (out, true)
    /\ alen out = 1%Z /\ aget out 0 = Wigner_formula twoell twomp twom a b.
Proof.
  intros Ht Hr (U & Ra & Rb) HD HL.
  assert (EF : find_indices L true [AReal (IZR twoell / 2); AReal (IZR twomp / 2); AReal (IZR twom / 2)]
          = Ok ([(twoell, twomp, twom)], true)).
  { cbn [find_indices]. rewrite !round2_half.
    replace (check_valid_indices L twoell twomp twom) with true; [reflexivity|].
    symmetry. apply check_valid_true. destruct HD as (? & ? & _). auto. }
  destruct (D_call_ok L tab g a b _ _ _ Ht U Ra Rb EF) as (out & E & A & B).
  { constructor; [split; auto|constructor]. }
  exists out. split; [|split; [exact A|apply (B 0%nat); reflexivity]].
  destruct Hr as [(q & -> & <- & <-)|(x & y & z & -> & <- & <-)]; exact E.
Qed.

Lemma C13_rows L tab g rot a b rows :
  is_Wigner_table L tab -> (rotation_args rot a b \/ rot = [AComplex a; AComplex b]) -> rotor_parts a b ->
  Forall (fun '(twoell, twomp, twom) => (twoell <= 2 * L)%Z /\ D_indices twoell twomp twom) rows ->
  exists out, Wigner_D_element tab L g
      (rot ++ [AIndices2 3 (map (fun '(twoell, twomp, twom) => [IZR twoell / 2; IZR twomp / 2; IZR twom / 2]) rows)])
              = Ok (out, false)
    /\ alen out = Z.of_nat (length rows)
    /\ forall i twoell twomp twom, nth_error rows i = Some (twoell, twomp, twom) ->
         aget out (Z.of_nat i) = Wigner_formula twoell twomp twom a b.
Proof.
  intros Ht Hr (U & Ra & Rb) HD.
  change (map (fun '(twoell, twomp, twom) => [IZR twoell / 2; IZR twomp / 2; IZR twom / 2]) rows) with (map half3 rows).
  assert (EF : find_indices L true [AIndices2 3 (map half3 rows)] = Ok (rows, false)).
  { cbn [find_indices]. rewrite check_rows_ok by auto. reflexivity. }
  destruct (D_call_ok L tab g a b _ _ _ Ht U Ra Rb EF HD) as (out & E & A & B).
  exists out. split; [|auto].
  destruct Hr as [[(q & -> & <- & <-)|(x & y & z & -> & <- & <-)]| ->]; exact E.
Qed.

Lemma C13_ells L tab g rot a b twoell :
  is_Wigner_table L tab -> (rotation_args rot a b \/ rot = [AComplex a; AComplex b]) -> rotor_parts a b ->
  (0 <= twoell <= 2 * L)%Z ->
  exists out, Wigner_D_element tab L g (rot ++ [AIndices1 [IZR twoell / 2]]) = Ok (out, false)
    /\ alen out = ((twoell + 1) * (twoell + 1))%Z
    /\ forall i j, (0 <= i <= twoell)%Z -> (0 <= j <= twoell)%Z ->
         aget out (i * (twoell + 1) + j)%Z = Wigner_formula twoell (2 * i - twoell) (2 * j - twoell) a b.
Proof.
  intros Ht Hr (U & Ra & Rb) HL.
  assert (EF : find_indices L true [AIndices1 [IZR twoell / 2]] = Ok (all_rows twoell, false)).
  { cbn [find_indices flat_map]. rewrite round2_half, app_nil_r.
    destruct (all_rows_head twoell ltac:(lia)) as (l & ->). reflexivity. }
  destruct (D_call_ok L tab g a b _ _ _ Ht U Ra Rb EF) as (out & E & A & B).
  { apply Forall_forall. intros [[e mp] m] Hi. apply all_rows_in in Hi. destruct Hi as (-> & Hi). split; [lia|auto]. }
  exists out. split; [|split].
  - destruct Hr as [[(q & -> & <- & <-)|(x & y & z & -> & <- & <-)]| ->]; exact E.
  - rewrite A. apply all_rows_length. lia.
  - intros i j Hi Hj. pose proof (all_rows_nth twoell (Z.to_nat i) (Z.to_nat j) ltac:(lia) ltac:(lia)) as N.
    apply B in N. rewrite Nat2Z.inj_add, Nat2Z.inj_mul, !Z2Nat.id in N by lia. rewrite N. f_equal; lia.
Qed.

Lemma C13_euler_unit alpha beta gamma : unit_quat (from_euler_angles alpha beta gamma).
Proof.
  unfold unit_quat, qnorm2, from_euler_angles; cbn [qw qx qy qz].
  pose proof (sin2_cos2 (beta / 2)) as H1. pose proof (sin2_cos2 ((alpha + gamma) / 2)) as H2.
  pose proof (sin2_cos2 ((alpha - gamma) / 2)) as H3. unfold Rsqr in *.
  set (c := cos (beta / 2)) in *. set (s := sin (beta / 2)) in *.
  set (c1 := cos ((alpha + gamma) / 2)) in *. set (s1 := sin ((alpha + gamma) / 2)) in *.
  set (c2 := cos ((alpha - gamma) / 2)) in *. set (s2 := sin ((alpha - gamma) / 2)) in *.
  transitivity (c * c * (s1 * s1 + c1 * c1) + s * s * (s2 * s2 + c2 * c2)); [ring|]. rewrite H2, H3. lra.
Qed.

(** C14 *)
Lemma C14_matrices L tab q ell_min ell_max :
  is_Wigner_table L tab -> (0 <= ell_min <= ell_max + 1)%Z -> (ell_max <= L)%Z -> rotor q ->
  forall g, exists out, Wigner_D_matrices tab g q ell_min ell_max = Ok out
    /\ alen out = LMpM_total_size ell_min ell_max
    /\ (forall ell mp m, (ell_min <= ell <= ell_max)%Z -> (- ell <= mp <= ell)%Z -> (- ell <= m <= ell)%Z ->
         aget out (LMpM_index ell mp m ell_min) = Wigner_formula (2 * ell) (2 * mp) (2 * m) (qa q) (qb q))
    /\ forall g' out', Wigner_D_matrices tab g' q ell_min ell_max = Ok out' ->
         forall k, (0 <= k < alen out)%Z -> aget out' k = aget out k.
Proof.
  intros Ht Hl HL (U & Ra & Rb).
  assert (G : forall g, exists out, Wigner_D_matrices tab g q ell_min ell_max = Ok out
    /\ alen out = LMpM_total_size ell_min ell_max
    /\ (forall ell mp m, (ell_min <= ell <= ell_max)%Z -> (- ell <= mp <= ell)%Z -> (- ell <= m <= ell)%Z ->
         aget out (LMpM_index ell mp m ell_min) = Wigner_formula (2 * ell) (2 * mp) (2 * m) (qa q) (qb q))).
  { intros g. unfold Wigner_D_matrices.
    destruct (C03 (fun _ => (0, 0, 0)%Z) ell_min ell_max Hl) as (a & _ & EL & _).
    destruct (Z_lt_ge_dec (LMpM_total_size ell_min ell_max) 0) as [X|X].
    - exfalso. destruct (Z_lt_ge_dec ell_max ell_min).
      + assert (ell_max = ell_min - 1)%Z by lia. subst. revert X. unfold LMpM_total_size.
        match goal with |- (?x / 3 < 0)%Z -> _ => replace x with (0 * 3)%Z by ring end. rewrite Z.div_mul by lia. lia.
      + pose proof (LMpM_index_bounds ell_min 0 0 ell_min ell_max). lia.
    - rewrite np_empty_ok by lia. cbn [bind].
      destruct (Wigner_D_matrices_ok L tab (qa q) (qb q) ell_min ell_max (mkarr (LMpM_total_size ell_min ell_max) g) Ht Hl HL
        (unit_norm q U) Ra Rb eq_refl) as (out & E & A & B).
      exists out. split; auto. split; auto. intros. rewrite B by auto. symmetry. apply Dv_formula; auto. }
  intros g. destruct (G g) as (out & E & A & B). exists out. split; auto. split; auto. split; auto.
  intros g' out' E' k Hk. destruct (G g') as (o & E2 & A2 & B2). rewrite E' in E2. apply Ok_inj in E2. subst o.
  destruct (LMpM_range_ok (fun _ => (0, 0, 0)%Z) ell_min ell_max Hl) as (a & _ & EL & R).
  specialize (R k ltac:(lia)). destruct (aget a k) as [[e mp] m]. cbv beta iota delta [LMpM_row_ok] in R. destruct R as (H1 & H2 & H3 & <-).
  rewrite B, B2 by lia. auto.
Qed.

Lemma C14_elements L tab Rs ell mp m g :
  is_Wigner_table L tab -> (ell <= L)%Z -> (0 <= alen Rs)%Z ->
  (forall i, (0 <= i < alen Rs)%Z -> rotor (aget Rs i)) ->
  exists out, Wigner_D_element tab L g [AQuats Rs; AReal (IZR ell); AReal (IZR mp); AReal (IZR m)] = Ok (out, false)
    /\ alen out = alen Rs
    /\ forall i, (0 <= i < alen Rs)%Z ->
         aget out i = if ((Z.abs mp <=? ell) && (Z.abs m <=? ell))%Z
                      then Wigner_formula (2 * ell) (2 * mp) (2 * m) (qa (aget Rs i)) (qb (aget Rs i)) else RtoC 0.
Proof.
  intros Ht HL Hlen HR. cbn [Wigner_D_element to_i8 bind]. rewrite !Ztrunc_IZR.
  rewrite np_empty_ok by lia. cbn [bind].
  destruct (Wigner_D_elements_ok L tab Rs ell mp m (mkarr (alen Rs) g) Ht HL) as (out & E & A & B & _); [cbn [alen]; lia|auto|].
  rewrite E. cbn [bind]. exists out. split; auto. split; auto. intros i Hi. rewrite B by auto.
  unfold D_value, in_range.
  replace (Z.abs (2 * mp) <=? 2 * ell)%Z with (Z.abs mp <=? ell)%Z by (destruct (Z.leb_spec (Z.abs mp) ell), (Z.leb_spec (Z.abs (2 * mp)) (2 * ell)); auto; lia).
  replace (Z.abs (2 * m) <=? 2 * ell)%Z with (Z.abs m <=? ell)%Z by (destruct (Z.leb_spec (Z.abs m) ell), (Z.leb_spec (Z.abs (2 * m)) (2 * ell)); auto; lia).
  reflexivity.
Qed.

Lemma D_returns_formula L tab q t mp m : is_Wigner_table L tab -> rotor q -> D_indices t mp m -> (t <= 2 * L)%Z ->
  D_returns tab L q t mp m (Wigner_formula t mp m (qa q) (qb q)).
Proof.
  intros Ht Hq HD HL g. destruct (C13_single L tab g [AQuat q] (qa q) (qb q) t mp m Ht) as (out & E & _ & A); auto.
  - left. exists q. auto.
  - apply rotor_q; auto.
  - exists out. auto.
Qed.
Lemma D_returns_fun L tab q t mp m v v' : D_returns tab L q t mp m v -> D_returns tab L q t mp m v' -> v = v'.
Proof.
  intros H H'. destruct (H (fun _ => RtoC 0)) as (o & E & <-). destruct (H' (fun _ => RtoC 0)) as (o' & E' & <-).
  rewrite E in E'. apply Ok_inj in E'. injection E' as ->. auto.
Qed.
Lemma D_returns_Dm L tab q N p r v : is_Wigner_table L tab -> rotor q -> (0 <= p <= N)%Z -> (0 <= r <= N)%Z -> (N <= 2 * L)%Z ->
  D_returns tab L q N (2 * p - N) (2 * r - N) v <-> v = Dm N p r (qa q) (qb q).
Proof.
  intros Ht Hq Hp Hr HL.
  pose proof (D_returns_formula L tab q N (2 * p - N) (2 * r - N) Ht Hq (D_indices_pq N p r Hp Hr) HL) as H.
  rewrite Wigner_formula_Dm in H by auto. split.
  - intros H'. eapply D_returns_fun; eauto.
  - intros ->. auto.
Qed.

Section Rep.
Variables (L : Z) (tab : arr R) (N : Z).
Hypothesis (Ht : is_Wigner_table L tab) (HL : (0 <= N <= 2 * L)%Z).

Lemma D_matrix_Dm q d : rotor q -> D_matrix tab L N q d -> forall p r, (0 <= p <= N)%Z -> (0 <= r <= N)%Z -> d p r = Dm N p r (qa q) (qb q).
Proof. intros Hq H p r Hp Hr. apply (D_returns_Dm L tab q N p r); auto. lia. Qed.

Lemma C15_product q1 q2 d1 d2 d12 : rotor q1 -> rotor q2 -> rotor (qmul q1 q2) ->
  D_matrix tab L N q1 d1 -> D_matrix tab L N q2 d2 -> D_matrix tab L N (qmul q1 q2) d12 ->
  forall p r, (0 <= p <= N)%Z -> (0 <= r <= N)%Z -> d12 p r = csum 0 N (fun k => d1 p k * d2 k r)%C.
Proof.
  intros R1 R2 R12 H1 H2 H12 p r Hp Hr. rewrite (D_matrix_Dm _ _ R12 H12) by auto.
  rewrite qmul_a, qmul_b, Dm_product by auto. apply csum_ext. intros k Hk.
  rewrite (D_matrix_Dm _ _ R1 H1), (D_matrix_Dm _ _ R2 H2) by auto. auto.
Qed.
Lemma C15_one d : D_matrix tab L N qone d -> rotor qone ->
  forall p r, (0 <= p <= N)%Z -> (0 <= r <= N)%Z -> d p r = if (p =? r)%Z then RtoC 1 else RtoC 0.
Proof.
  intros H R1 p r Hp Hr. rewrite (D_matrix_Dm _ _ R1 H) by auto. rewrite <- (Dm_one N p r) by auto.
  f_equal; apply C_eq; reflexivity.
Qed.
Lemma C15_neg q d d' : rotor q -> rotor (qneg q) -> D_matrix tab L N q d -> D_matrix tab L N (qneg q) d' ->
  forall p r, (0 <= p <= N)%Z -> (0 <= r <= N)%Z -> d' p r = (RtoC (if Z.even N then 1 else -1) * d p r)%C.
Proof.
  intros R1 R2 H H' p r Hp Hr. rewrite (D_matrix_Dm _ _ R1 H), (D_matrix_Dm _ _ R2 H') by auto.
  rewrite qneg_a, qneg_b, Dm_neg by auto. reflexivity.
Qed.
Lemma C16_unitary q d : rotor q -> D_matrix tab L N q d ->
  forall p r, (0 <= p <= N)%Z -> (0 <= r <= N)%Z ->
    csum 0 N (fun k => d p k * Cconj (d r k))%C = (if (p =? r)%Z then RtoC 1 else RtoC 0)
    /\ csum 0 N (fun k => Cconj (d k p) * d k r)%C = (if (p =? r)%Z then RtoC 1 else RtoC 0).
Proof.
  intros R1 H p r Hp Hr. pose proof (unit_norm q (proj1 R1)) as U.
  rewrite <- (Dm_unitary N p r (qa q) (qb q)) by auto. split.
  - apply csum_ext. intros k Hk. rewrite !(D_matrix_Dm _ _ R1 H) by auto. auto.
  - rewrite (Dm_unitary N p r (qa q) (qb q)) by auto. rewrite <- (Dm_unitary' N p r (qa q) (qb q)) by auto.
    apply csum_ext. intros k Hk. rewrite !(D_matrix_Dm _ _ R1 H) by auto. auto.
Qed.
Lemma C16_symmetries q d d' : rotor q -> rotor (qconj q) -> D_matrix tab L N q d -> D_matrix tab L N (qconj q) d' ->
  forall p r, (0 <= p <= N)%Z -> (0 <= r <= N)%Z ->
    d p r = Cconj (d' r p) /\ d p r = (RtoC (if Z.even (p + r) then 1 else -1) * Cconj (d (N - p)%Z (N - r)%Z))%C.
Proof.
  intros R1 R2 H H' p r Hp Hr. split.
  - rewrite (D_matrix_Dm _ _ R1 H), (D_matrix_Dm _ _ R2 H') by auto.
    rewrite qconj_a, qconj_b, Dm_adjoint, Cconj_conj by auto. auto.
  - rewrite !(D_matrix_Dm _ _ R1 H) by (auto; lia). rewrite Dm_reflect by auto.
    rewrite Cconj_mult, Cconj_RtoC, Cconj_conj. fold (sgn (p + r)).
    replace (p - r)%Z with (p + r + 2 * (- r))%Z by lia. rewrite (sgn_add (p + r)), sgn_double, Rmult_1_r.
    rewrite Cmult_assoc, <- RtoC_mult, sgn_sqr. ring.
Qed.
End Rep.

(** C17, C18 *)
Lemma SWSH_returns_value L tab q s ell m : is_Wigner_table L tab -> rotor q -> (ell <= L)%Z ->
  SWSH_returns tab q s ell m (SWSH_value s ell m (qa q) (qb q)).
Proof.
  intros Ht (U & Ra & Rb) HL g. unfold SWSH_indices. cbn [alen]. rewrite np_empty_ok by lia. cbn [bind].
  destruct (SWSH_core_ok L tab (qa q) (qb q) s (mkarr 1 (fun _ => (ell, m))) (mkarr 1 g) Ht (unit_norm q U) Ra Rb)
    as (out & E & A & B & _).
  - cbn [alen]. lia.
  - intros i Hi. auto.
  - exists out. split; auto. split; auto. apply B. cbn [alen]. lia.
Qed.
Lemma SWSH_returns_fun tab q s ell m v v' : SWSH_returns tab q s ell m v -> SWSH_returns tab q s ell m v' -> v = v'.
Proof.
  intros H H'. destruct (H (fun _ => RtoC 0)) as (o & E & _ & <-). destruct (H' (fun _ => RtoC 0)) as (o' & E' & _ & <-).
  rewrite E in E'. apply Ok_inj in E'. subst. auto.
Qed.

Lemma C17_value L tab q s ell m v d : is_Wigner_table L tab -> rotor q -> (ell <= L)%Z ->
  SWSH_returns tab q s ell m v ->
  (Z.abs m <= ell -> Z.abs s <= ell -> D_returns tab L q (2 * ell) (2 * m) (2 * - s) d ->
     v = (RtoC (if Z.even s then 1 else -1)%R * RtoC (sqrt (IZR (2 * ell + 1) / (4 * PI))) * d)%C)%Z
  /\ (ell < Z.abs m \/ ell < Z.abs s -> v = RtoC 0)%Z.
Proof.
  intros Ht Hq HL Hv. rewrite (SWSH_returns_fun _ _ _ _ _ _ _ Hv (SWSH_returns_value L tab q s ell m Ht Hq HL)).
  split.
  - intros Hm Hs Hd. rewrite SWSH_value_in by lia. fold (sgn s). fold (swsh_norm ell). f_equal.
    rewrite <- Dv_formula by lia. symmetry. eapply D_returns_fun; [exact Hd|]. apply D_returns_formula; auto; try lia.
    replace (2 * - s)%Z with (- (2 * s))%Z by lia.
    unfold D_indices. replace (2 * ell + 2 * m)%Z with (2 * (ell + m))%Z by lia.
    replace (2 * ell + - (2 * s))%Z with (2 * (ell - s))%Z by lia. rewrite !Z.even_mul. repeat split; auto; lia.
  - intros Ho. unfold SWSH_value.
    replace ((Z.abs m <=? ell) && (Z.abs s <=? ell))%Z with false; auto.
    symmetry. apply andb_false_iff. destruct Ho; [left|right]; apply Z.leb_gt; lia.
Qed.

Lemma C17_conj L tab q s ell m v v' : is_Wigner_table L tab -> rotor q -> (ell <= L)%Z ->
  SWSH_returns tab q s ell m v -> SWSH_returns tab q (- s) ell (- m) v' ->
  Cconj v = (RtoC (if Z.even (s + m) then 1 else -1)%R * v')%C.
Proof.
  intros Ht Hq HL Hv Hv'. rewrite (SWSH_returns_fun _ _ _ _ _ _ _ Hv (SWSH_returns_value L tab q s ell m Ht Hq HL)).
  rewrite (SWSH_returns_fun _ _ _ _ _ _ _ Hv' (SWSH_returns_value L tab q (- s) ell (- m) Ht Hq HL)).
  destruct (Z_le_gt_dec (Z.abs m) ell), (Z_le_gt_dec (Z.abs s) ell).
  - rewrite !SWSH_value_in by lia. rewrite !Cconj_mult, !Cconj_RtoC.
    pose proof (Dv_neg (qa q) (qb q) ell m (- s) ltac:(lia) ltac:(lia)) as H. rewrite H. fold (sgn (s + m)).
    replace (- s + m)%Z with (s + m + 2 * (- s))%Z by lia. rewrite (sgn_add (s + m)), sgn_double, sgn_opp, Rmult_1_r.
    transitivity (RtoC (sgn (s + m) * sgn (s + m)) * (RtoC (sgn s) * RtoC (swsh_norm ell) * Cconj (Dv (qa q) (qb q) ell m (- s))))%C.
    { rewrite sgn_sqr. ring. } rewrite RtoC_mult. ring.
  - unfold SWSH_value. rewrite !Z.abs_opp. replace (Z.abs s <=? ell)%Z with false by (symmetry; apply Z.leb_gt; lia).
    rewrite !andb_false_r, Cconj_RtoC. ring.
  - unfold SWSH_value. rewrite !Z.abs_opp. replace (Z.abs m <=? ell)%Z with false by (symmetry; apply Z.leb_gt; lia).
    cbn [andb]. rewrite Cconj_RtoC. ring.
  - unfold SWSH_value. rewrite !Z.abs_opp. replace (Z.abs m <=? ell)%Z with false by (symmetry; apply Z.leb_gt; lia).
    cbn [andb]. rewrite Cconj_RtoC. ring.
Qed.

Lemma C17_frame L tab q s ell m gamma v v' : is_Wigner_table L tab -> rotor q -> rotor (qmul q (z_rotor gamma)) -> (ell <= L)%Z ->
  SWSH_returns tab q s ell m v -> SWSH_returns tab (qmul q (z_rotor gamma)) s ell m v' ->
  v' = (cis (- (IZR s * gamma)) * v)%C.
Proof.
  intros Ht Hq Hq' HL Hv Hv'. rewrite (SWSH_returns_fun _ _ _ _ _ _ _ Hv (SWSH_returns_value L tab q s ell m Ht Hq HL)).
  rewrite (SWSH_returns_fun _ _ _ _ _ _ _ Hv' (SWSH_returns_value L tab _ s ell m Ht Hq' HL)).
  unfold SWSH_value. destruct ((Z.abs m <=? ell) && (Z.abs s <=? ell))%Z eqn:EI; [|ring].
  apply andb_true_iff in EI. destruct EI as [E1 E2]. apply Z.leb_le in E1, E2.
  rewrite !Dv_formula by lia. unfold Dv. rewrite qmul_a, qmul_b, Dm_product by lia.
  assert (Ea : qa (z_rotor gamma) = cis (gamma / 2)) by reflexivity.
  assert (Eb : qb (z_rotor gamma) = RtoC 0) by reflexivity.
  rewrite Ea, Eb.
  rewrite (csum_ext 0 (2 * ell) _ (fun k => if (k =? ell + - s)%Z then (Dm (2 * ell) (ell + m) (ell + - s) (qa q) (qb q) * cis (- (IZR s * gamma)))%C else RtoC 0)).
  - rewrite (csum_delta 0 (2 * ell) (ell + - s)%Z) by (try lia; intros i Hi Hne; destruct (Z.eqb_spec i (ell + - s)); auto; lia). rewrite Z.eqb_refl. ring.
  - intros k Hk. rewrite Dm_b0 by (try lia; apply cis_mod).
    destruct (Z.eqb_spec k (ell + - s)) as [->|]; [|ring]. f_equal.
    rewrite <- cis_powz. f_equal. rewrite minus_IZR, !mult_IZR, plus_IZR, opp_IZR. field.
Qed.

Lemma C17_rotors L tab g Rs s ell m : is_Wigner_table L tab -> (ell <= L)%Z -> (0 <= alen Rs)%Z ->
  (forall i, (0 <= i < alen Rs)%Z -> rotor (aget Rs i)) ->
  exists out, SWSH_rotors tab g Rs s ell m = Ok out /\ alen out = alen Rs
    /\ forall i, (0 <= i < alen Rs)%Z -> SWSH_returns tab (aget Rs i) s ell m (aget out i).
Proof.
  intros Ht HL Hlen HR. unfold SWSH_rotors. rewrite np_empty_ok by lia. cbn [bind].
  destruct (SWSHs_core_ok L tab Rs s ell m (mkarr (alen Rs) g) Ht HL) as (out & E & A & B & _); [cbn [alen]; lia|exact HR|].
  exists out. split; auto. split; auto. intros i Hi. rewrite B by auto. eapply SWSH_returns_value; eauto.
Qed.

Lemma C17_indices L tab g q s indices : is_Wigner_table L tab -> rotor q -> (0 <= alen indices)%Z ->
  (forall i, (0 <= i < alen indices)%Z -> (fst (aget indices i) <= L)%Z) ->
  exists out, SWSH_indices tab g q s indices = Ok out /\ alen out = alen indices
    /\ forall i, (0 <= i < alen indices)%Z -> SWSH_returns tab q s (fst (aget indices i)) (snd (aget indices i)) (aget out i).
Proof.
  intros Ht Hq Hlen HI. unfold SWSH_indices. rewrite np_empty_ok by lia. cbn [bind].
  destruct Hq as (U & Ra & Rb).
  destruct (SWSH_core_ok L tab (qa q) (qb q) s indices (mkarr (alen indices) g) Ht (unit_norm q U) Ra Rb) as (out & E & A & B & _);
    [cbn [alen]; lia|exact HI|].
  exists out. split; auto. split; auto. intros i Hi. rewrite B by auto. apply (SWSH_returns_value L); auto. split; auto.
Qed.

Lemma C17_grid L tab g Rs s ell_max : is_Wigner_table L tab -> (0 <= ell_max <= L)%Z -> (0 < alen Rs)%Z ->
  (forall i, (0 <= i < alen Rs)%Z -> rotor (aget Rs i)) ->
  exists out, SWSH_grid tab g Rs s ell_max = Ok out
    /\ nrow out = alen Rs /\ ncol out = LM_total_size 0 ell_max
    /\ forall i ell m, (0 <= i < alen Rs)%Z -> (0 <= ell <= ell_max)%Z -> (- ell <= m <= ell)%Z ->
         SWSH_returns tab (aget Rs i) s ell m (get2 out i (LM_index ell m 0)).
Proof.
  intros Ht HL Hlen HR. destruct (SWSH_grid_ok L tab g Rs s ell_max Ht HL Hlen HR) as (out & E & A & B & D).
  exists out. split; auto. split; auto. split; auto. intros. rewrite D by auto. apply (SWSH_returns_value L); auto. lia.
Qed.

Lemma C18_rotation L tab q r s ell d y y' : is_Wigner_table L tab -> rotor q -> rotor r -> rotor (qmul q r) -> (0 <= ell <= L)%Z ->
  (forall m m', (- ell <= m <= ell)%Z -> (- ell <= m' <= ell)%Z -> D_returns tab L q (2 * ell) (2 * m) (2 * m') (d m m')) ->
  (forall m, (- ell <= m <= ell)%Z -> SWSH_returns tab r s ell m (y m)) ->
  (forall m, (- ell <= m <= ell)%Z -> SWSH_returns tab (qmul q r) s ell m (y' m)) ->
  forall m, (- ell <= m <= ell)%Z -> y' m = csum (- ell) ell (fun m' => d m m' * y m')%C.
Proof.
  intros Ht Hq Hr Hqr HL Hd Hy Hy' m Hm.
  rewrite (SWSH_returns_fun _ _ _ _ _ _ _ (Hy' m Hm) (SWSH_returns_value L tab _ s ell m Ht Hqr ltac:(lia))).
  rewrite (csum_ext (- ell) ell _ (fun m' => Dv (qa q) (qb q) ell m m' * SWSH_value s ell m' (qa r) (qb r))%C).
  2:{ intros m' Hm'. rewrite (SWSH_returns_fun _ _ _ _ _ _ _ (Hy m' Hm') (SWSH_returns_value L tab _ s ell m' Ht Hr ltac:(lia))).
      f_equal. rewrite <- Dv_formula by auto. eapply D_returns_fun; [apply Hd; auto|]. apply D_returns_formula; auto; try lia.
      unfold D_indices. replace (2 * ell + 2 * m)%Z with (2 * (ell + m))%Z by lia.
      replace (2 * ell + 2 * m')%Z with (2 * (ell + m'))%Z by lia. rewrite !Z.even_mul. repeat split; auto; lia. }
  destruct (Z_le_gt_dec (Z.abs s) ell).
  - rewrite SWSH_value_in by lia. unfold Dv at 1. rewrite qmul_a, qmul_b, Dm_product by lia.
    rewrite <- csum_scal. rewrite (csum_shift 0 (2 * ell) (- ell)).
    replace (0 + - ell)%Z with (- ell)%Z by lia. replace (2 * ell + - ell)%Z with ell by lia.
    apply csum_ext. intros m' Hm'. rewrite SWSH_value_in by lia. unfold Dv.
    replace (m' - - ell)%Z with (ell + m')%Z by lia. ring.
  - rewrite csum_zero.
    + unfold SWSH_value. replace (Z.abs s <=? ell)%Z with false by (symmetry; apply Z.leb_gt; lia). rewrite andb_false_r. auto.
    + intros m' Hm'. unfold SWSH_value. replace (Z.abs s <=? ell)%Z with false by (symmetry; apply Z.leb_gt; lia).
      rewrite andb_false_r. ring.
Qed.

(** C19 *)
Lemma C19_checked L tab g args : (0 <= L)%Z -> is_Wigner_table L tab -> checked_call args ->
  Wigner_D_element tab L g args = Err ValueError \/ exists r, Wigner_D_element tab L g args = Ok r.
Proof.
  intros HL Ht H.
  assert (G : forall a b r, validated r -> D_call tab L true g a b r = Err ValueError \/ exists x, D_call tab L true g a b r = Ok x).
  { intros a b r V. destruct (D_call_safe L tab g a b r HL Ht V) as [E|(o & s & E)]; eauto. }
  destruct H as [(rot & rest & -> & Hrot & Hrest)|(a & b & n & l & ->)].
  - destruct Hrot as [(q & ->)|(x & y & z & ->)]; cbn [app].
    + apply G; auto.
    + cbn [Wigner_D_element is_number negb euler_call bind].
      destruct Hrest as [(e & mp & m & ->)|(n & l & ->)]; apply G; [left|right]; eauto.
  - cbn [Wigner_D_element is_number negb]. apply G. right. eauto.
Qed.

(** What is rejected: exactly an index triple that, doubled and rounded, is above the table or has |mp| or |m| above ell. *)
Lemma C19_rejects L tab g q e mp m : (0 <= L)%Z -> is_Wigner_table L tab ->
  Wigner_D_element tab L g [AQuat q; AReal e; AReal mp; AReal m] = Err ValueError
  <-> (2 * L < round2 e)%Z \/ (round2 e < Z.abs (round2 mp))%Z \/ (round2 e < Z.abs (round2 m))%Z.
Proof.
  intros HL Ht. cbn [Wigner_D_element]. split.
  - intros E. unfold D_call in E. cbn [find_indices] in E.
    destruct (check_valid_indices L (round2 e) (round2 mp) (round2 m)) eqn:EC.
    + exfalso. cbn [andb negb bind] in E. rewrite np_empty_ok in E by lia. cbn [bind] in E.
      destruct (element_core_total L tab (qa q) (qb q) (arr_of_list (0, 0, 0)%Z [(round2 e, round2 mp, round2 m)])
        (mkarr (Z.of_nat (length [(round2 e, round2 mp, round2 m)])) g) HL Ht) as (out & E' & _).
      * cbn [alen arr_of_list]. lia.
      * intros i Hi. apply (Forall_nth_arr (fun t => fst (fst t) <= 2 * L)%Z); auto. apply check_valid_true in EC.
        constructor; [cbn [fst]; lia|constructor].
      * rewrite E' in E. discriminate.
    + unfold check_valid_indices in EC. rewrite negb_false_iff, !orb_true_iff, !Z.gtb_ltb, !Z.ltb_lt in EC. tauto.
  - intros H. unfold D_call. cbn [find_indices]. replace (check_valid_indices L (round2 e) (round2 mp) (round2 m)) with false; auto.
    symmetry. unfold check_valid_indices. rewrite negb_false_iff, !orb_true_iff, !Z.gtb_ltb, !Z.ltb_lt. tauto.
Qed.

(** Mixed parity is not rejected: there is no D^1_{1/2,0}. *)
Lemma C19_parity L tab g q t mp m : (0 <= L)%Z -> is_Wigner_table L tab ->
  (t <= 2 * L)%Z -> (Z.abs mp <= t)%Z -> (Z.abs m <= t)%Z -> ~ D_indices t mp m ->
  exists out, Wigner_D_element tab L g [AQuat q; AReal (IZR t / 2); AReal (IZR mp / 2); AReal (IZR m / 2)] = Ok out.
Proof.
  intros HL Ht H1 H2 H3 _.
  destruct (C19_checked L tab g [AQuat q; AReal (IZR t / 2); AReal (IZR mp / 2); AReal (IZR m / 2)] HL Ht) as [E|E]; auto.
  - left. exists [AQuat q], [AReal (IZR t / 2); AReal (IZR mp / 2); AReal (IZR m / 2)]. split; [reflexivity|].
    split; [left; eauto|left; eauto].
  - exfalso. apply C19_rejects in E; auto. rewrite !round2_half in E. lia.
Qed.

Lemma table_exists L : (0 <= L)%Z -> exists tab, is_Wigner_table L tab.
Proof. intros HL. destruct (Wigner_table_ok Wigner_entry (fun _ => 0) L HL) as (tab & E & _). exists tab. exists (fun _ => 0). auto. Qed.

(** A rotor with both parts nonzero: (3 + 4k)/5 rotated... here w = 3/5, y = 4/5. *)
Definition q345 : quat := mkquat (3 / 5) 0 (4 / 5) 0.
Lemma Cmod_real x : 0 <= x -> Cmod (x, 0) = x.
Proof. intros. unfold Cmod. cbn [fst snd]. replace (x ^ 2 + 0 ^ 2) with (x * x) by ring. apply sqrt_square. auto. Qed.
Lemma epsilon_small : epsilon < 1 / 10.
Proof.
  unfold epsilon. replace (1 / 10) with (/ 10) by field. apply Rinv_lt_contravar; [apply Rmult_lt_0_compat; [lra|apply pow_lt; lra]|].
  replace 10 with (10 ^ 1) at 1 by ring. apply Rlt_pow; [lra|lia].
Qed.
Lemma q345_parts : epsilon < Cmod (qa q345) /\ epsilon < Cmod (qb q345).
Proof.
  pose proof epsilon_small. unfold q345, qa, qb; cbn [qw qx qy qz]. rewrite !Cmod_real by lra. lra.
Qed.
Lemma q345_rotor : rotor q345.
Proof.
  destruct q345_parts. split; [|auto]. unfold unit_quat, qnorm2, q345; cbn. field.
Qed.
Lemma qone_rotor : rotor qone.
Proof.
  pose proof epsilon_small. split; [unfold unit_quat, qnorm2; cbn; ring|]. split; [right|left].
  - unfold qa, qone; cbn [qw qz]. rewrite Cmod_real; lra.
  - unfold qb, qone. cbn. reflexivity.
Qed.

Lemma C19_ell_list L tab g t l : (0 <= L)%Z -> is_Wigner_table L tab -> (2 * L < t)%Z ->
  exists q, rotor q /\ Wigner_D_element tab L g [AQuat q; AIndices1 (IZR t / 2 :: l)] = Err OutOfBounds.
Proof. intros. exists q345. split; [apply q345_rotor|]. apply (ell_list_oob L); auto; apply q345_parts. Qed.

Lemma C19_two_parts tab L g za zb e mp m : exists x,
  Wigner_D_element tab L g [AComplex za; AComplex zb; AReal e; AReal mp; AReal m] = Err x.
Proof. apply two_parts_form. Qed.

Lemma C19_scalar tab L g q x : Wigner_D_element tab L g [AQuat q; AReal x] = Err IndexError
  /\ Wigner_D_element tab L g [AQuat q; AIndices0 x] = Err IndexError.
Proof. split; reflexivity. Qed.

(** C10 with the harmonics computed by [SWSH] *)
Lemma dir_a theta phi : qa (direction_rotor theta phi) = (RtoC (cos (theta / 2)) * cis (phi / 2))%C.
Proof. apply C_eq; unfold qa, direction_rotor, cis; cbn; ring. Qed.
Lemma dir_b theta phi : qb (direction_rotor theta phi) = (RtoC (sin (theta / 2)) * Cconj (cis (phi / 2)))%C.
Proof. apply C_eq; unfold qb, direction_rotor, cis; cbn; ring. Qed.

Lemma Y00 a b : SWSH_value 0 0 0 a b = RtoC (sqrt (1 / (4 * PI))).
Proof.
  rewrite SWSH_value_in by lia. unfold Dv, Dm, swsh_norm, sgn.
  cbn [Z.mul Z.add Z.opp Z.sub Z.to_nat Z.even sp sp0 Z.eqb]. rewrite fct_0.
  replace (1 * 1 / (1 * 1)) with 1 by field. rewrite sqrt_1. change (IZR (0 + 1)) with 1. ring.
Qed.

Lemma sqrt_half : 2 * sqrt (1 / 2) = sqrt 2.
Proof.
  replace (1 / 2) with (2 / (2 * 2)) by field. rewrite sqrt_div_alt by lra. rewrite sqrt_square by lra. field.
Qed.

Lemma fct_2 : fct 2 = 2.
Proof. unfold fct. change (fact (Z.to_nat 2)) with 2%nat. simpl. ring. Qed.

Lemma Y1 a b m : (m = -1 \/ m = 0 \/ m = 1)%Z ->
  Dv a b 1 m 0 = if (m =? 0)%Z then (a * Cconj a - b * Cconj b)%C
                 else if (m =? 1)%Z then (- (RtoC (sqrt 2) * a * Cconj b))%C else (RtoC (sqrt 2) * Cconj a * b)%C.
Proof.
  intros H. unfold Dv, Dm. change (2 * 1)%Z with 2%Z. change (1 + 0)%Z with 1%Z. change (2 - 1)%Z with 1%Z.
  destruct H as [->|[->| ->]].
  - change (1 + -1)%Z with 0%Z. change (2 - 0)%Z with 2%Z. change (Z.to_nat 0) with 0%nat. change (Z.to_nat 2) with 2%nat.
    cbn [sp sp0 Z.eqb Z.sub Z.add Z.opp Z.pos_sub Pos.pred_double]. rewrite fct_0, fct_1, fct_2.
    replace (1 * 1 / (1 * 2)) with (1 / 2) by field. rewrite <- sqrt_half, RtoC_mult. ring.
  - change (1 + 0)%Z with 1%Z. change (2 - 1)%Z with 1%Z. change (Z.to_nat 1) with 1%nat.
    cbn [sp sp0 Z.eqb Z.sub Z.add Z.opp Z.pos_sub Pos.pred_double]. rewrite fct_1.
    replace (1 * 1 / (1 * 1)) with 1 by field. rewrite sqrt_1. ring.
  - change (1 + 1)%Z with 2%Z. change (2 - 2)%Z with 0%Z. change (Z.to_nat 0) with 0%nat. change (Z.to_nat 2) with 2%nat.
    cbn [sp sp0 Z.eqb Z.sub Z.add Z.opp Z.pos_sub Pos.pred_double Pos.eqb]. rewrite fct_0, fct_1, fct_2.
    replace (1 * 1 / (2 * 1)) with (1 / 2) by field. rewrite <- sqrt_half, RtoC_mult. ring.
Qed.

Lemma norm1_sqrt2 : swsh_norm 1 * sqrt 2 = 2 * sqrt (3 / (8 * PI)).
Proof.
  unfold swsh_norm. change (IZR (2 * 1 + 1)) with 3. pose proof PI_RGT_0 as P. rewrite <- sqrt_mult_alt.
  2:{ left. apply Rdiv_lt_0_compat; lra. }
  replace (3 / (4 * PI) * 2) with (2 * 2 * (3 / (8 * PI))) by (field; lra).
  rewrite sqrt_mult_alt by lra. rewrite sqrt_square by lra. auto.
Qed.

Lemma half_angle theta : sin theta = 2 * (sin (theta / 2) * cos (theta / 2))
  /\ cos theta = cos (theta / 2) * cos (theta / 2) - sin (theta / 2) * sin (theta / 2).
Proof.
  split.
  - replace theta with (2 * (theta / 2)) at 1 by field. rewrite sin_2a. ring.
  - replace theta with (theta / 2 + theta / 2) at 1 by field. rewrite cos_plus. ring.
Qed.

Lemma Y1_values theta phi : let a := qa (direction_rotor theta phi) in let b := qb (direction_rotor theta phi) in
  SWSH_value 0 1 (-1) a b = (RtoC (sqrt (3 / (8 * PI)) * sin theta) * cis (- phi))%C
  /\ SWSH_value 0 1 0 a b = RtoC (sqrt (3 / (4 * PI)) * cos theta)
  /\ SWSH_value 0 1 1 a b = (RtoC (- sqrt (3 / (8 * PI)) * sin theta) * cis phi)%C.
Proof.
  intros a b. rewrite !SWSH_value_in by lia. change (- 0)%Z with 0%Z. rewrite !Y1 by auto.
  cbn [Z.eqb Pos.eqb]. unfold a, b. rewrite dir_a, dir_b. rewrite !Cconj_mult, !Cconj_RtoC, !Cconj_conj.
  destruct (half_angle theta) as [Hs Hc]. rewrite Hs, Hc. change (sgn 0) with 1.
  replace (cis phi) with (cis (phi / 2) * cis (phi / 2))%C by (rewrite <- cis_add; f_equal; field).
  replace (cis (- phi)) with (Cconj (cis (phi / 2)) * Cconj (cis (phi / 2)))%C
    by (rewrite <- cis_neg, <- cis_add; f_equal; field).
  pose proof norm1_sqrt2 as N. split; [|split].
  - transitivity (RtoC (swsh_norm 1 * sqrt 2) * RtoC (sin (theta / 2) * cos (theta / 2)) * (Cconj (cis (phi / 2)) * Cconj (cis (phi / 2))))%C.
    { rewrite !RtoC_mult. ring. } rewrite N, !RtoC_mult. ring.
  - unfold swsh_norm. change (IZR (2 * 1 + 1)) with 3.
    transitivity (RtoC (sqrt (3 / (4 * PI))) * (RtoC (cos (theta / 2)) * RtoC (cos (theta / 2)) * (cis (phi / 2) * Cconj (cis (phi / 2)))
       - RtoC (sin (theta / 2)) * RtoC (sin (theta / 2)) * (cis (phi / 2) * Cconj (cis (phi / 2)))))%C; [ring|].
    rewrite cis_mod. rewrite !RtoC_mult, RtoC_minus, !RtoC_mult. ring.
  - transitivity (- (RtoC (swsh_norm 1 * sqrt 2) * RtoC (sin (theta / 2) * cos (theta / 2)) * (cis (phi / 2) * cis (phi / 2))))%C.
    { rewrite !RtoC_mult. ring. } rewrite N, !RtoC_mult, RtoC_opp. ring.
Qed.

Lemma C10_with_SWSH L tab : is_Wigner_table L tab -> (1 <= L)%Z ->
  forall theta phi, rotor (direction_rotor theta phi) ->
  (forall c y, SWSH_returns tab (direction_rotor theta phi) 0 0 0 y -> (constant_as_ell_0_mode c * y)%C = c)
  /\ (forall x y z ym y0 yp,
       SWSH_returns tab (direction_rotor theta phi) 0 1 (-1) ym ->
       SWSH_returns tab (direction_rotor theta phi) 0 1 0 y0 ->
       SWSH_returns tab (direction_rotor theta phi) 0 1 1 yp ->
       let '(a, b, d) := vector_as_ell_1_modes (x, y, z) in
       (a * ym + b * y0 + d * yp
        = x * RtoC (sin theta * cos phi) + y * RtoC (sin theta * sin phi) + z * RtoC (cos theta))%C).
Proof.
  intros Ht HL theta phi Hq. split.
  - intros c y Hy. rewrite (SWSH_returns_fun _ _ _ _ _ _ _ Hy (SWSH_returns_value L tab _ 0 0 0 Ht Hq ltac:(lia))).
    rewrite Y00. apply C10_constant_function.
  - intros x y z ym y0 yp Hm H0 Hp.
    rewrite (SWSH_returns_fun _ _ _ _ _ _ _ Hm (SWSH_returns_value L tab _ 0 1 (-1) Ht Hq ltac:(lia))).
    rewrite (SWSH_returns_fun _ _ _ _ _ _ _ H0 (SWSH_returns_value L tab _ 0 1 0 Ht Hq ltac:(lia))).
    rewrite (SWSH_returns_fun _ _ _ _ _ _ _ Hp (SWSH_returns_value L tab _ 0 1 1 Ht Hq ltac:(lia))).
    destruct (Y1_values theta phi) as (-> & -> & ->). apply C10_vector_function.
Qed.
