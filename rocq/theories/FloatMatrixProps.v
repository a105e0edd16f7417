(** Property C63: how accurate Wigner_D_matrices and the evaluators over arrays of rotors are in double precision. *)
Require Import ZArith Lia Reals Lra Bool.
From Flocq Require Import Core.
From Coquelicot Require Import Complex.
From Verif Require Import Base BaseProofs CBase Fact RSum CSum SymPow WignerSpec DRep IndexModel IndexProofs FloatIndexModel FloatIndexProofs FloatPowersModel
  FloatPowersSpec FloatPowersProofs FloatPowersProps FloatConvModel FloatConvSpec FloatConvProofs WignerModel WignerProofs WignerProofs2 WignerProofs3
  SWSHModel SWSHProofs FloatWignerModel FloatWignerSpec FloatWignerProofs FloatWignerProofs2 FloatWignerProofs3 FloatWignerProofs4 FloatWignerProofs5
  FloatWignerProofs6 FloatWignerProps FloatMatrixModel FloatMatrixSpec FloatMatrixProofs FloatMatrixProofs2 FloatMatrixProofs3 FloatMatrixProofs4 FloatMatrixProofs5.
Set Bullet Behavior "Strict Subproofs".
Open Scope R_scope.

Lemma above_pos lib a b : good_libm lib -> above_cutoff lib a b -> 0 < Cmod a /\ 0 < Cmod b.
Proof.
  intros ((Gp & _) & _) ((Ba & Bb) & Ha & Hb). pose proof p16.
  destruct (lib_polar lib a) as [ha pa] eqn:Ea. destruct (lib_polar lib b) as [hb pb] eqn:Eb. cbn [fst] in *.
  destruct (polar_rel _ a ha pa Gp Ea Ba Ha) as (_ & B1 & _). destruct (polar_rel _ b hb pb Gp Eb Bb Hb) as (_ & B2 & _). lra.
Qed.
Lemma isize_Wigner ell mp m a b : (- ell <= mp <= ell)%Z -> (- ell <= m <= ell)%Z -> 0 < Cmod a -> 0 < Cmod b ->
  isize ell mp m (Cmod a) (Cmod b) = Wigner_size (2 * ell) (2 * mp) (2 * m) a b.
Proof. intros H1 H2 Pa Pb. unfold isize. rewrite <- Wigner_size_W by (auto; lia). f_equal; lia. Qed.
Lemma int_indices ell mp m : (- ell <= mp <= ell)%Z -> (- ell <= m <= ell)%Z -> D_indices (2 * ell) (2 * mp) (2 * m).
Proof. intros. unfold D_indices. rewrite <- !Z.mul_add_distr_l, !Z.even_mul. repeat split; auto; lia. Qed.
(** From a bound in terms of the size to a bound for rotors *)
Lemma rotor_bound ell mp m a b k j x : nearly_unit a b -> 0 < Cmod a -> 0 < Cmod b -> (- ell <= mp <= ell)%Z -> (- ell <= m <= ell)%Z -> (ell <= 32)%Z ->
  0 <= k <= 110 -> 0 <= j <= 25 -> 0 <= x ->
  (k * IZR ell + j) * u64 * (x * Wigner_size (2 * ell) (2 * mp) (2 * m) a b) <= (k * IZR ell + (j + 4)) * u64 * (x * 2 ^ Z.to_nat ell).
Proof.
  intros U Pa Pb H1 H2 Hl Hk Hj Hx. pose proof u64_pos as Up.
  pose proof (rotor_size (2 * ell) (2 * mp) (2 * m) a b U Pa Pb (int_indices _ _ _ H1 H2) ltac:(lia)) as W. rewrite sqrt2_even in W by lia.
  assert (L : 0 <= IZR ell <= 32) by (split; [apply (IZR_le 0)|apply (IZR_le _ 32)]; lia).
  set (r := 2 ^ Z.to_nat ell) in *. set (w := Wigner_size _ _ _ _ _) in *.
  assert (Lk : 0 <= k * IZR ell <= 110 * 32) by (split; [apply Rmult_le_pos; lra|apply Rmult_le_compat; lra]).
  assert (R0 : 0 <= r) by lra.
  apply Rle_trans with ((k * IZR ell + j) * u64 * (x * (1001 / 1000 * r))).
  - apply Rmult_le_compat_l; [apply Rmult_le_pos; lra|]. apply Rmult_le_compat_l; lra.
  - assert (0 <= u64 * (x * r)) by (apply Rmult_le_pos; [lra|apply Rmult_le_pos; lra]). set (y := u64 * (x * r)) in *.
    replace ((k * IZR ell + j) * u64 * (x * (1001 / 1000 * r))) with ((k * IZR ell + j) * (1001 / 1000) * y) by (unfold y; ring).
    replace ((k * IZR ell + (j + 4)) * u64 * (x * r)) with ((k * IZR ell + (j + 4)) * y) by (unfold y; ring).
    apply Rmult_le_compat_r; lra.
Qed.
Lemma pow2_ge1 n : 1 <= 2 ^ n.
Proof. apply pow_R1_Rle. lra. Qed.

(** ** Wigner_D_matrices *)
Lemma total_size_nonneg ell_min ell_max : (0 <= ell_min <= ell_max + 1)%Z -> (0 <= LMpM_total_size ell_min ell_max)%Z.
Proof.
  intros Hl. destruct (Z_lt_ge_dec (LMpM_total_size ell_min ell_max) 0) as [X|X]; [exfalso|lia]. destruct (Z_lt_ge_dec ell_max ell_min).
  - assert (ell_max = ell_min - 1)%Z by lia. subst. revert X. unfold LMpM_total_size.
    match goal with |- (?x / 3 < 0)%Z -> _ => replace x with (0 * 3)%Z by ring end. rewrite Z.div_mul by lia. lia.
  - pose proof (LMpM_index_bounds ell_min 0 0 ell_min ell_max). lia.
Qed.

Lemma C63_matrices :
  forall lib g q ell_min ell_max, good_libm lib -> above_cutoff lib (qa q) (qb q) -> (0 <= ell_min <= ell_max + 1)%Z -> (ell_max <= 32)%Z ->
  exists out, Wigner_D_matrices64 lib g q ell_min ell_max = Ok out
    /\ alen out = LMpM_total_size ell_min ell_max
    /\ forall ell mp m, (ell_min <= ell <= ell_max)%Z -> (- ell <= mp <= ell)%Z -> (- ell <= m <= ell)%Z ->
         Cmod (aget out (LMpM_index ell mp m ell_min) - Wigner_formula (2 * ell) (2 * mp) (2 * m) (qa q) (qb q))%C
         <= (106 * IZR ell + 15) * u64 * Wigner_size (2 * ell) (2 * mp) (2 * m) (qa q) (qb q) + / 2 ^ 600.
Proof.
  intros lib g q ell_min ell_max GL HA Hmin Hmax. destruct (above_pos lib _ _ GL HA) as [Pa Pb].
  destruct HA as ((Ba & Bb) & Ha & Hb). set (a := qa q) in *. set (b := qb q) in *. pose proof GL as ((Gp & _) & _).
  destruct (lib_polar lib a) as [ha pa] eqn:Ea. destruct (lib_polar lib b) as [hb pb] eqn:Eb. cbn [fst] in *.
  destruct (polar_rel _ a ha pa Gp Ea Ba Ha) as (R1 & B1 & al & A1 & A2). destruct (polar_rel _ b hb pb Gp Eb Bb Hb) as (R2 & B2 & be & C1 & C2).
  unfold Wigner_D_matrices64. rewrite np_empty_ok by (apply total_size_nonneg; auto). cbn [bind]. fold a b.
  destruct (matrices_core lib a b ha pa hb pb (matrix_bound a b) ell_min ell_max (mkarr (LMpM_total_size ell_min ell_max) g) Ea Eb Hmin) as (out & E & A & B).
  - reflexivity.
  - intros; lra.
  - intros; lra.
  - intros _ _ Hle ell mp m mat Hs Hv. apply (step_lt64 lib a b al be ell_min ell_max); auto; lia.
  - intros _ _ Hle ell mp m mat Hs Hv. apply (step_ge64 lib a b al be ell_min ell_max); auto; lia.
  - exists out. split; [exact E|]. split; [exact A|]. intros ell mp m H1 H2 H3. specialize (B ell mp m H1 H2 H3). unfold matrix_bound in B.
    rewrite Dv_formula, <- isize_Wigner by auto. exact B.
Qed.

Lemma C63_matrices_rotor :
  forall lib g q ell_min ell_max, good_libm lib -> nearly_unit (qa q) (qb q) -> (0 <= ell_min <= ell_max + 1)%Z -> (ell_max <= 32)%Z ->
  exists out, Wigner_D_matrices64 lib g q ell_min ell_max = Ok out
    /\ alen out = LMpM_total_size ell_min ell_max
    /\ forall ell mp m, (ell_min <= ell <= ell_max)%Z -> (- ell <= mp <= ell)%Z -> (- ell <= m <= ell)%Z ->
         Cmod (aget out (LMpM_index ell mp m ell_min) - Wigner_formula (2 * ell) (2 * mp) (2 * m) (qa q) (qb q))%C
         <= 53 * IZR (2 * ell + 1) * u64 * 2 ^ Z.to_nat ell.
Proof.
  intros lib g q ell_min ell_max GL U Hmin Hmax. pose proof u64_pos as Up. pose proof tiny_600 as T6. pose proof GL as ((Gp & _) & _).
  pose proof (nearly_unit_le _ _ U) as Ba. pose proof (nearly_unit_le _ _ (nearly_unit_sym _ _ U)) as Bb.
  assert (EI : forall ell, IZR (2 * ell + 1) = 2 * IZR ell + 1) by (intros; rewrite plus_IZR, mult_IZR; ring).
  destruct (lib_polar lib (qa q)) as [ha pa] eqn:Ea. destruct (lib_polar lib (qb q)) as [hb pb] eqn:Eb.
  destruct (Rlt_le_dec (RN64 epsilon) ha) as [Ha|Ha]; [destruct (Rlt_le_dec (RN64 epsilon) hb) as [Hb|Hb]|].
  1:{ assert (HA : above_cutoff lib (qa q) (qb q)) by (unfold above_cutoff; rewrite Ea, Eb; auto).
      destruct (C63_matrices lib g q ell_min ell_max GL HA Hmin Hmax) as (out & E & A & B). destruct (above_pos lib _ _ GL HA) as [Pa Pb].
      exists out. split; [exact E|]. split; [exact A|]. intros ell mp m H1 H2 H3. eapply Rle_trans; [apply (B ell mp m H1 H2 H3)|].
      pose proof (rotor_bound ell mp m _ _ 106 15 1 U Pa Pb H2 H3 ltac:(lia) ltac:(lra) ltac:(lra) ltac:(lra)) as X. rewrite !Rmult_1_l in X.
      rewrite EI. pose proof (pow2_ge1 (Z.to_nat ell)) as P1. assert (u64 * 1 <= u64 * 2 ^ Z.to_nat ell) by (apply Rmult_le_compat_l; lra).
      assert (0 <= IZR ell * (u64 * 2 ^ Z.to_nat ell)) by (apply Rmult_le_pos; [apply (IZR_le 0); lia|apply Rmult_le_pos; lra]). lra. }
  all: unfold Wigner_D_matrices64; rewrite np_empty_ok by (apply total_size_nonneg; auto); cbn [bind].
  all: destruct (matrices_core lib (qa q) (qb q) ha pa hb pb (fun ell mp m v => Cmod (v - Dv (qa q) (qb q) ell mp m)%C <= 34 * (IZR (2 * ell) + 1) * u64)
         ell_min ell_max (mkarr (LMpM_total_size ell_min ell_max) g) Ea Eb Hmin) as (out & E & A & B); try (intros; lra); try reflexivity.
  1:{ intros _ _ ell mp m (V1 & V2 & V3).
      pose proof (D_b064_ok lib (2 * ell) (ell + mp) (ell + m) _ _ GL ltac:(lia) ltac:(lia) ltac:(lia) U (polar_small _ _ hb pb Gp Eb Bb Hb)) as X.
      replace (2 * (ell + mp) - 2 * ell)%Z with (2 * mp)%Z in X by lia. replace (2 * (ell + m) - 2 * ell)%Z with (2 * m)%Z in X by lia. exact X. }
  2:{ intros _ ell mp m (V1 & V2 & V3).
      pose proof (D_a064_ok lib (2 * ell) (ell + mp) (ell + m) _ _ GL ltac:(lia) ltac:(lia) ltac:(lia) U (polar_small _ _ ha pa Gp Ea Ba Ha)) as X.
      replace (2 * (ell + mp) - 2 * ell)%Z with (2 * mp)%Z in X by lia. replace (2 * (ell + m) - 2 * ell)%Z with (2 * m)%Z in X by lia. exact X. }
  all: exists out; split; [exact E|]; split; [exact A|]; intros ell mp m H1 H2 H3; specialize (B ell mp m H1 H2 H3); cbv beta in B; rewrite Dv_formula by auto.
  all: eapply Rle_trans; [exact B|]; rewrite EI, mult_IZR; pose proof (pow2_ge1 (Z.to_nat ell)) as P1.
  all: assert (L : 0 <= IZR ell) by (apply (IZR_le 0); lia); assert (K : 0 <= (2 * IZR ell + 1) * u64) by (apply Rmult_le_pos; lra).
  all: assert ((2 * IZR ell + 1) * u64 * 1 <= (2 * IZR ell + 1) * u64 * 2 ^ Z.to_nat ell) by (apply Rmult_le_compat_l; lra); lra.
Qed.

(** ** Arrays of rotors *)
Lemma C63_elements :
  forall lib Rs ell mp m values, good_libm lib -> (0 <= alen Rs <= alen values)%Z -> (Z.abs mp <= ell -> Z.abs m <= ell -> ell <= 32)%Z ->
  (forall i, (0 <= i < alen Rs)%Z -> above_cutoff lib (qa (aget Rs i)) (qb (aget Rs i)) \/ nearly_unit (qa (aget Rs i)) (qb (aget Rs i))) ->
  exists out, Wigner_D_elements_core64 lib Rs ell mp m values = Ok out
    /\ alen out = alen values
    /\ (forall i, (0 <= i < alen Rs)%Z ->
         ((Z.abs mp <= ell)%Z -> (Z.abs m <= ell)%Z ->
            (above_cutoff lib (qa (aget Rs i)) (qb (aget Rs i)) ->
               Cmod (aget out i - Wigner_formula (2 * ell) (2 * mp) (2 * m) (qa (aget Rs i)) (qb (aget Rs i)))%C
               <= (74 * IZR ell + 15) * u64 * Wigner_size (2 * ell) (2 * mp) (2 * m) (qa (aget Rs i)) (qb (aget Rs i)) + / 2 ^ 600)
            /\ (nearly_unit (qa (aget Rs i)) (qb (aget Rs i)) ->
               Cmod (aget out i - Wigner_formula (2 * ell) (2 * mp) (2 * m) (qa (aget Rs i)) (qb (aget Rs i)))%C
               <= 37 * IZR (2 * ell + 1) * u64 * 2 ^ Z.to_nat ell))
         /\ (ell < Z.abs mp \/ ell < Z.abs m -> aget out i = RtoC 0)%Z)
    /\ (forall i, (alen Rs <= i)%Z -> aget out i = aget values i).
Proof.
  intros lib Rs ell mp m values GL Hlen Hl HR. pose proof u64_pos as Up. pose proof tiny_600 as T6.
  unfold Wigner_D_elements_core64.
  destruct ((Z.abs m >? ell) || (Z.abs mp >? ell))%Z eqn:EO.
  { apply orb_true_iff in EO. rewrite !Z.gtb_ltb, !Z.ltb_lt in EO.
    destruct (fill_wr (fun i v => wr v i (RtoC 0)) (fun _ v => v = RtoC 0) (alen Rs) values Hlen) as (out & E & A & B & D).
    { intros. eexists. split; reflexivity. }
    exists out. split; [exact E|]. split; [exact A|]. split; [|exact D]. intros i Hi. split; [lia|]. intros _. apply B; auto. }
  apply orb_false_iff in EO. rewrite !Z.gtb_ltb, !Z.ltb_ge in EO.
  assert (Hm : (- ell <= m <= ell)%Z) by lia. assert (Hmp : (- ell <= mp <= ell)%Z) by lia. assert (Hl' : (ell <= 32)%Z) by (apply Hl; lia).
  destruct (coeff64_ok (2 * ell) (ell + mp) (ell + m) ltac:(lia) ltac:(lia) ltac:(lia)) as (ca & EA & _).
  replace (2 * (ell + mp) - 2 * ell)%Z with (2 * mp)%Z in EA by lia. replace (2 * (ell + m) - 2 * ell)%Z with (2 * m)%Z in EA by lia.
  destruct (coeff64_ok (2 * ell) (ell - mp) (ell + m) ltac:(lia) ltac:(lia) ltac:(lia)) as (cb & EB & _).
  replace (2 * (ell - mp) - 2 * ell)%Z with (2 * - mp)%Z in EB by lia. replace (2 * (ell + m) - 2 * ell)%Z with (2 * m)%Z in EB by lia.
  rewrite EA. cbn [bind]. rewrite EB. cbn [bind]. rewrite !mod2_even, !sgn_ifR.
  match goal with |- context [for_range 0 (alen Rs) ?f values] => set (body := f) end.
  destruct (fill_wr body (fun i v =>
      (above_cutoff lib (qa (aget Rs i)) (qb (aget Rs i)) ->
         Cmod (v - Dv (qa (aget Rs i)) (qb (aget Rs i)) ell mp m)%C <= (74 * IZR ell + 15) * u64 * isize ell mp m (Cmod (qa (aget Rs i))) (Cmod (qb (aget Rs i))) + / 2 ^ 600)
      /\ (nearly_unit (qa (aget Rs i)) (qb (aget Rs i)) ->
         Cmod (v - Dv (qa (aget Rs i)) (qb (aget Rs i)) ell mp m)%C <= 37 * IZR (2 * ell + 1) * u64 * 2 ^ Z.to_nat ell)) (alen Rs) values Hlen) as (out & E & A & B & D).
  - intros i o Hi. specialize (HR i Hi). unfold body. rewrite rd_ok by lia. cbn [bind]. set (q := aget Rs i) in *. fold (qa q). fold (qb q).
    destruct (lib_polar lib (qa q)) as [ha pa] eqn:Ea. destruct (lib_polar lib (qb q)) as [hb pb] eqn:Eb.
    set (cA := sgn (Z.max 0 (mp - m)) * ca). set (cB := sgn (ell + m + Z.max 0 (- m - mp)) * cb).
    assert (EI : IZR (2 * ell + 1) = 2 * IZR ell + 1) by (rewrite plus_IZR, mult_IZR; ring).
    assert (L : 0 <= IZR ell) by (apply (IZR_le 0); lia). pose proof (pow2_ge1 (Z.to_nat ell)) as P1.
    assert (H : exists v, elements_row lib (qa q) (qb q) ha pa hb pb cA cB ell mp m o i = wr o i v /\
       ((above_cutoff lib (qa q) (qb q) -> Cmod (v - Dv (qa q) (qb q) ell mp m)%C <= (74 * IZR ell + 15) * u64 * isize ell mp m (Cmod (qa q)) (Cmod (qb q)) + / 2 ^ 600)
        /\ (nearly_unit (qa q) (qb q) -> Cmod (v - Dv (qa q) (qb q) ell mp m)%C <= 37 * IZR (2 * ell + 1) * u64 * 2 ^ Z.to_nat ell))).
    { destruct (Rlt_le_dec (RN64 epsilon) ha) as [Ha|Ha]; [destruct (Rlt_le_dec (RN64 epsilon) hb) as [Hb|Hb]|].
      - assert (HA : above_cutoff lib (qa q) (qb q)).
        { destruct HR as [HA|U]; auto. unfold above_cutoff. rewrite Ea, Eb. split; [|auto]. split; [apply (nearly_unit_le _ _ U)|apply (nearly_unit_le _ _ (nearly_unit_sym _ _ U))]. }
        destruct (elements_row_above lib (qa q) (qb q) ha pa hb pb GL Ea Eb ca cb ell mp m o i Hl' Hmp Hm HA EA EB) as (v & Ev & Bv).
        exists v. split; [exact Ev|]. split; auto. intros U. destruct (above_pos lib _ _ GL HA) as [Pa Pb].
        eapply Rle_trans; [exact Bv|]. rewrite isize_Wigner by auto.
        pose proof (rotor_bound ell mp m _ _ 74 15 1 U Pa Pb Hmp Hm ltac:(lia) ltac:(lra) ltac:(lra) ltac:(lra)) as X. rewrite !Rmult_1_l in X.
        rewrite EI. assert (u64 * 1 <= u64 * 2 ^ Z.to_nat ell) by (apply Rmult_le_compat_l; lra). lra.
      - destruct HR as [(_ & _ & HA)|U]; [rewrite Eb in HA; cbn [fst] in HA; lra|].
        destruct (elements_row_degenerate lib (qa q) (qb q) ha pa hb pb GL Ea Eb cA cB ell mp m o i Hl' Hmp Hm U (or_intror Hb)) as (v & Ev & Bv).
        exists v. split; [exact Ev|]. split; [intros (_ & _ & X); rewrite Eb in X; cbn [fst] in X; lra|]. intros _. eapply Rle_trans; [exact Bv|]. rewrite EI.
        assert (K : 0 <= (2 * IZR ell + 1) * u64) by (apply Rmult_le_pos; lra).
        assert ((2 * IZR ell + 1) * u64 * 1 <= (2 * IZR ell + 1) * u64 * 2 ^ Z.to_nat ell) by (apply Rmult_le_compat_l; lra). lra.
      - destruct HR as [(_ & HA & _)|U]; [rewrite Ea in HA; cbn [fst] in HA; lra|].
        destruct (elements_row_degenerate lib (qa q) (qb q) ha pa hb pb GL Ea Eb cA cB ell mp m o i Hl' Hmp Hm U (or_introl Ha)) as (v & Ev & Bv).
        exists v. split; [exact Ev|]. split; [intros (_ & X & _); rewrite Ea in X; cbn [fst] in X; lra|]. intros _. eapply Rle_trans; [exact Bv|]. rewrite EI.
        assert (K : 0 <= (2 * IZR ell + 1) * u64) by (apply Rmult_le_pos; lra).
        assert ((2 * IZR ell + 1) * u64 * 1 <= (2 * IZR ell + 1) * u64 * 2 ^ Z.to_nat ell) by (apply Rmult_le_compat_l; lra). lra. }
    destruct H as (v & Ev & Bv). exists v. split; [|exact Bv]. unfold elements_row in Ev. rewrite !mod2_even in Ev. exact Ev.
  - exists out. split; [exact E|]. split; [exact A|]. split; [|exact D]. intros i Hi. split; [|lia]. intros _ _. destruct (B i Hi) as [B1 B2].
    rewrite Dv_formula by auto. split; auto. intros HA. destruct (above_pos lib _ _ GL HA) as [Pa Pb]. rewrite <- isize_Wigner by auto. auto.
Qed.

Lemma C63_SWSHs :
  forall lib Rs s ell m values, good_libm lib -> (0 <= alen Rs <= alen values)%Z -> (Z.abs m <= ell -> Z.abs s <= ell -> ell <= 32)%Z ->
  (forall i, (0 <= i < alen Rs)%Z -> above_cutoff lib (qa (aget Rs i)) (qb (aget Rs i)) \/ nearly_unit (qa (aget Rs i)) (qb (aget Rs i))) ->
  exists out, SWSHs_core64 lib Rs s ell m values = Ok out
    /\ alen out = alen values
    /\ (forall i, (0 <= i < alen Rs)%Z ->
         ((Z.abs m <= ell)%Z -> (Z.abs s <= ell)%Z ->
            (above_cutoff lib (qa (aget Rs i)) (qb (aget Rs i)) ->
               Cmod (aget out i - RtoC (if Z.even s then 1 else -1)%R * RtoC (sqrt (IZR (2 * ell + 1) / (4 * PI)))
                                  * Wigner_formula (2 * ell) (2 * m) (2 * - s) (qa (aget Rs i)) (qb (aget Rs i)))%C
               <= ((74 * IZR ell + 22) * u64 * (sqrt (IZR (2 * ell + 1) / (4 * PI)) * Wigner_size (2 * ell) (2 * m) (2 * - s) (qa (aget Rs i)) (qb (aget Rs i))) + / 2 ^ 600)%R)
            /\ (nearly_unit (qa (aget Rs i)) (qb (aget Rs i)) ->
               Cmod (aget out i - RtoC (if Z.even s then 1 else -1)%R * RtoC (sqrt (IZR (2 * ell + 1) / (4 * PI)))
                                  * Wigner_formula (2 * ell) (2 * m) (2 * - s) (qa (aget Rs i)) (qb (aget Rs i)))%C
               <= (42 * IZR (2 * ell + 1) * u64 * sqrt (IZR (2 * ell + 1) / (4 * PI)) * 2 ^ Z.to_nat ell)%R))
         /\ (ell < Z.abs m \/ ell < Z.abs s -> aget out i = RtoC 0)%Z)
    /\ (forall i, (alen Rs <= i)%Z -> aget out i = aget values i).
Proof.
  intros lib Rs s ell m values GL Hlen Hl HR. pose proof u64_pos as Up. pose proof tiny_600 as T6.
  unfold SWSHs_core64.
  destruct ((Z.abs m >? ell) || (Z.abs s >? ell))%Z eqn:EO.
  { apply orb_true_iff in EO. rewrite !Z.gtb_ltb, !Z.ltb_lt in EO.
    destruct (fill_wr (fun i v => wr v i (RtoC 0)) (fun _ v => v = RtoC 0) (alen Rs) values Hlen) as (out & E & A & B & D).
    { intros. eexists. split; reflexivity. }
    exists out. split; [exact E|]. split; [exact A|]. split; [|exact D]. intros i Hi. split; [lia|]. intros _. apply B; auto. }
  apply orb_false_iff in EO. rewrite !Z.gtb_ltb, !Z.ltb_ge in EO.
  assert (Hm : (- ell <= m <= ell)%Z) by lia. assert (Hs : (- ell <= s <= ell)%Z) by lia. assert (Hs' : (- ell <= - s <= ell)%Z) by lia. assert (Hl' : (ell <= 32)%Z) by (apply Hl; lia).
  destruct (coeff64_ok (2 * ell) (ell + m) (ell - s) ltac:(lia) ltac:(lia) ltac:(lia)) as (ca & EA & _).
  replace (2 * (ell + m) - 2 * ell)%Z with (2 * m)%Z in EA by lia. replace (2 * (ell - s) - 2 * ell)%Z with (2 * - s)%Z in EA by lia.
  destruct (coeff64_ok (2 * ell) (ell - m) (ell - s) ltac:(lia) ltac:(lia) ltac:(lia)) as (cb & EB & _).
  replace (2 * (ell - m) - 2 * ell)%Z with (2 * - m)%Z in EB by lia. replace (2 * (ell - s) - 2 * ell)%Z with (2 * - s)%Z in EB by lia.
  cbv zeta. rewrite EA. cbn [bind]. rewrite EB. cbn [bind]. rewrite (mod2_even (_ + s)), (mod2_even (ell + _)), !sgn_ifR.
  match goal with |- context [for_range 0 (alen Rs) ?f values] => set (body := f) end.
  pose proof (swsh_norm_low ell ltac:(lia)) as NL. fold (swsh_norm ell).
  set (V := fun i => (RtoC (swsh_norm ell) * (RtoC (sgn s) * Dv (qa (aget Rs i)) (qb (aget Rs i)) ell m (- s)))%C).
  destruct (fill_wr body (fun i v =>
      (above_cutoff lib (qa (aget Rs i)) (qb (aget Rs i)) ->
         Cmod (v - V i)%C <= (74 * IZR ell + 22) * u64 * (swsh_norm ell * isize ell m (- s) (Cmod (qa (aget Rs i))) (Cmod (qb (aget Rs i)))) + / 2 ^ 600)
      /\ (nearly_unit (qa (aget Rs i)) (qb (aget Rs i)) ->
         Cmod (v - V i)%C <= 42 * IZR (2 * ell + 1) * u64 * swsh_norm ell * 2 ^ Z.to_nat ell)) (alen Rs) values Hlen) as (out & E & A & B & D).
  - intros i o Hi. specialize (HR i Hi). unfold body, V. rewrite rd_ok by lia. cbn [bind]. set (q := aget Rs i) in *. fold (qa q). fold (qb q).
    destruct (lib_polar lib (qa q)) as [ha pa] eqn:Ea. destruct (lib_polar lib (qb q)) as [hb pb] eqn:Eb.
    set (cA := sgn (Z.max 0 (m + s) + s) * ca). set (cB := sgn (ell + Z.max 0 (- m + s)) * cb).
    assert (EI : IZR (2 * ell + 1) = 2 * IZR ell + 1) by (rewrite plus_IZR, mult_IZR; ring).
    assert (L : 0 <= IZR ell) by (apply (IZR_le 0); lia). pose proof (pow2_ge1 (Z.to_nat ell)) as P1.
    assert (UN : 0 <= u64 * swsh_norm ell) by (apply Rmult_le_pos; lra).
    assert (Grow : 42 * (2 * IZR ell + 1) * u64 * swsh_norm ell <= 42 * IZR (2 * ell + 1) * u64 * swsh_norm ell * 2 ^ Z.to_nat ell).
    { rewrite EI. assert (K : 0 <= 42 * (2 * IZR ell + 1) * u64 * swsh_norm ell) by (apply Rmult_le_pos; [apply Rmult_le_pos|]; lra).
      rewrite <- (Rmult_1_r (42 * (2 * IZR ell + 1) * u64 * swsh_norm ell)) at 1. apply Rmult_le_compat_l; lra. }
    assert (H : exists v, SWSHs_row lib (qa q) (qb q) ha pa hb pb cA cB s ell m o i = wr o i v /\
       ((above_cutoff lib (qa q) (qb q) -> Cmod (v - RtoC (swsh_norm ell) * (RtoC (sgn s) * Dv (qa q) (qb q) ell m (- s)))%C
            <= (74 * IZR ell + 22) * u64 * (swsh_norm ell * isize ell m (- s) (Cmod (qa q)) (Cmod (qb q))) + / 2 ^ 600)
        /\ (nearly_unit (qa q) (qb q) -> Cmod (v - RtoC (swsh_norm ell) * (RtoC (sgn s) * Dv (qa q) (qb q) ell m (- s)))%C
            <= 42 * IZR (2 * ell + 1) * u64 * swsh_norm ell * 2 ^ Z.to_nat ell))).
    { destruct (Rlt_le_dec (RN64 epsilon) ha) as [Ha|Ha]; [destruct (Rlt_le_dec (RN64 epsilon) hb) as [Hb|Hb]|].
      - assert (HA : above_cutoff lib (qa q) (qb q)).
        { destruct HR as [HA|U]; auto. unfold above_cutoff. rewrite Ea, Eb. split; [|auto]. split; [apply (nearly_unit_le _ _ U)|apply (nearly_unit_le _ _ (nearly_unit_sym _ _ U))]. }
        destruct (SWSHs_row_above lib (qa q) (qb q) ha pa hb pb GL Ea Eb ca cb s ell m o i Hl' Hs Hm HA EA EB) as (v & Ev & Bv).
        exists v. split; [exact Ev|]. split; auto. intros U. destruct (above_pos lib _ _ GL HA) as [Pa Pb].
        eapply Rle_trans; [exact Bv|]. rewrite isize_Wigner by auto.
        pose proof (rotor_bound ell m (- s) _ _ 74 22 (swsh_norm ell) U Pa Pb Hm Hs' ltac:(lia) ltac:(lra) ltac:(lra) ltac:(lra)) as X.
        rewrite EI. assert (u64 * swsh_norm ell * 1 <= u64 * swsh_norm ell * 2 ^ Z.to_nat ell) by (apply Rmult_le_compat_l; lra).
        assert (u64 * / 10 <= u64 * swsh_norm ell) by (apply Rmult_le_compat_l; lra).
        assert (0 <= IZR ell * (u64 * swsh_norm ell * 2 ^ Z.to_nat ell)) by (apply Rmult_le_pos; [lra|apply Rmult_le_pos; lra]). lra.
      - destruct HR as [(_ & _ & HA)|U]; [rewrite Eb in HA; cbn [fst] in HA; lra|].
        destruct (SWSHs_row_degenerate lib (qa q) (qb q) ha pa hb pb GL Ea Eb cA cB s ell m o i Hl' Hs Hm U (or_intror Hb)) as (v & Ev & Bv).
        exists v. split; [exact Ev|]. split; [intros (_ & _ & X); rewrite Eb in X; cbn [fst] in X; lra|]. intros _. eapply Rle_trans; [exact Bv|exact Grow].
      - destruct HR as [(_ & HA & _)|U]; [rewrite Ea in HA; cbn [fst] in HA; lra|].
        destruct (SWSHs_row_degenerate lib (qa q) (qb q) ha pa hb pb GL Ea Eb cA cB s ell m o i Hl' Hs Hm U (or_introl Ha)) as (v & Ev & Bv).
        exists v. split; [exact Ev|]. split; [intros (_ & X & _); rewrite Ea in X; cbn [fst] in X; lra|]. intros _. eapply Rle_trans; [exact Bv|exact Grow]. }
    destruct H as (v & Ev & Bv). exists v. split; [exact Ev|exact Bv].
  - exists out. split; [exact E|]. split; [exact A|]. split; [|exact D]. intros i Hi. split; [|lia]. intros _ _. destruct (B i Hi) as [B1 B2].
    rewrite Dv_formula by auto. fold (sgn s).
    replace (RtoC (sgn s) * RtoC (swsh_norm ell) * Dv (qa (aget Rs i)) (qb (aget Rs i)) ell m (- s))%C with (V i) by (unfold V; ring).
    split; auto. intros HA. destruct (above_pos lib _ _ GL HA) as [Pa Pb]. rewrite <- isize_Wigner by auto. auto.
Qed.

Lemma C63_example :
  let q := mkquat (3 / 5) 0 (4 / 5) 0 in
  nearly_unit (qa q) (qb q) /\ good_libm FloatWignerProps.rounded_libm /\ above_cutoff FloatWignerProps.rounded_libm (qa q) (qb q)
  /\ (let one := mkquat 1 0 0 0 in nearly_unit (qa one) (qb one) /\ ~ above_cutoff FloatWignerProps.rounded_libm (qa one) (qb one))
  /\ 53 * IZR (2 * 8 + 1) * u64 * 2 ^ Z.to_nat 8 < / 10 ^ 10.
Proof.
  assert (QA : forall x y, qa (mkquat x 0 y 0) = RtoC x) by reflexivity. assert (QB : forall x y, qb (mkquat x 0 y 0) = RtoC y) by reflexivity.
  cbv zeta. rewrite !QA, !QB.
  assert (F : forall x, 0 <= x -> fst (lib_polar rounded_libm (RtoC x)) = RN64 x).
  { intros x Hx. cbn [lib_polar rounded_libm fst]. rewrite Cmod_R, Rabs_pos_eq; auto. }
  pose proof u64_pos as Up. pose proof eta_pos as E0. pose proof eta_small as E1. pose proof (RN64_err epsilon) as Re. pose proof eps_u as Ee.
  rewrite (Rabs_pos_eq epsilon) in Re by lra. apply Rabs_le_inv in Re.
  assert (Rs : RN64 epsilon < / 2).
  { assert (u64 * epsilon <= epsilon * 1) by (rewrite Rmult_comm; apply Rmult_le_compat_l; lra).
    assert (eta <= u64) by (eapply Rle_trans; [exact E1|]; unfold Rdiv; rewrite <- (Rmult_1_r u64) at 2; apply Rmult_le_compat_l; [lra|]; simpl; lra). lra. }
  assert (Big : forall x, 3 / 5 <= x <= 1 -> / 2 < RN64 x).
  { intros x Hx. pose proof (RN64_err x) as R. rewrite (Rabs_pos_eq x) in R by lra. apply Rabs_le_inv in R.
    assert (u64 * x <= u64 * 1) by (apply Rmult_le_compat_l; lra).
    assert (eta <= u64) by (eapply Rle_trans; [exact E1|]; unfold Rdiv; rewrite <- (Rmult_1_r u64) at 2; apply Rmult_le_compat_l; [lra|]; simpl; lra). lra. }
  split; [|split; [|split; [|split]]].
  - unfold nearly_unit. rewrite !Cmod_R, (Rabs_pos_eq (3 / 5)), (Rabs_pos_eq (4 / 5)) by lra. replace ((3 / 5) ^ 2 + (4 / 5) ^ 2 - 1) with 0 by field.
    rewrite Rabs_R0. lra.
  - exact rounded_libm_good.
  - unfold above_cutoff. rewrite !Cmod_R, (Rabs_pos_eq (3 / 5)), (Rabs_pos_eq (4 / 5)), !F by lra.
    pose proof (Big (3 / 5) ltac:(lra)). pose proof (Big (4 / 5) ltac:(lra)). lra.
  - split.
    + unfold nearly_unit. rewrite !Cmod_R, Rabs_R1, Rabs_R0. replace (1 ^ 2 + 0 ^ 2 - 1) with 0 by ring. rewrite Rabs_R0. lra.
    + intros (_ & _ & X). rewrite F, RN64_zero in X by lra.
      assert (0 <= RN64 epsilon).
      { rewrite <- RN64_zero. unfold RN64. apply round_le; [apply FLT_exp_valid; reflexivity|apply valid_rnd_N|lra]. }
      lra.
  - unfold u64. simpl. lra.
Qed.
