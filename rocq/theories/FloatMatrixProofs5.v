(** Rounding errors of the evaluators over arrays of rotors: one rotor. *)
Require Import ZArith Lia Reals Lra Bool.
From Flocq Require Import Core.
From Coquelicot Require Import Complex.
From Verif Require Import Base BaseProofs CBase Fact RSum CSum SymPow WignerSpec DRep IndexModel FloatIndexModel FloatIndexProofs FloatPowersModel
  FloatPowersSpec FloatPowersProofs FloatPowersProps FloatConvModel FloatConvSpec FloatConvProofs WignerModel WignerProofs WignerProofs2 WignerProofs3
  SWSHModel SWSHProofs FloatWignerModel FloatWignerSpec FloatWignerProofs FloatWignerProofs2 FloatWignerProofs3 FloatWignerProofs4 FloatWignerProofs5
  FloatWignerProofs6 FloatWignerProps FloatMatrixModel FloatMatrixSpec FloatMatrixProofs FloatMatrixProofs2 FloatMatrixProofs3 FloatMatrixProofs4.
Set Bullet Behavior "Strict Subproofs".
Open Scope R_scope.

Lemma fill_wr (body : Z -> arr C -> res (arr C)) (Q : Z -> C -> Prop) N (e : arr C) : (0 <= N <= alen e)%Z ->
  (forall i o, (0 <= i < N)%Z -> exists v, body i o = wr o i v /\ Q i v) ->
  exists out, for_range 0 N body e = Ok out
    /\ alen out = alen e /\ (forall i, (0 <= i < N)%Z -> Q i (aget out i))
    /\ (forall i, (N <= i)%Z -> aget out i = aget e i).
Proof.
  intros HN Hb.
  destruct (for_range_inv (fun k o => alen o = alen e /\ (forall i, (0 <= i < k)%Z -> Q i (aget o i)) /\ (forall i, (N <= i)%Z -> aget o i = aget e i))
    0 N body e ltac:(lia)) as (out & E & A & B & D).
  - repeat split; auto. intros; lia.
  - intros i o Hi (A & B & D). destruct (Hb i o Hi) as (v & Ev & Qv). rewrite Ev, wr_ok by lia. eexists. split; [reflexivity|].
    cbn [alen aget]. split; auto. split.
    + intros j Hj. destruct (Z.eq_dec j i) as [->|]; [rewrite upd_same; auto|]. rewrite upd_other by auto. apply B. lia.
    + intros j Hj. rewrite upd_other by lia. auto.
  - exists out. auto.
Qed.
Lemma R_zero_sg sg d : Rabs sg = 1 -> R_is_zero (sg * d) = true -> d = 0.
Proof. intros H E. apply R_is_zero_true in E. destruct (unit_cases sg H) as [-> | ->]; lra. Qed.

Section OneRotor.
  Variables (lib : libm) (a b : C) (ha pa hb pb : R).
  Hypothesis GL : good_libm lib.
  Hypothesis Ea : lib_polar lib a = (ha, pa).
  Hypothesis Eb : lib_polar lib b = (hb, pb).

  (** What Wigner_D_elements writes for one rotor *)
  Definition elements_row (ca cb : R) (ell mp m : Z) (o : arr C) (i : Z) : res (arr C) :=
      if Rleb ha (RN64 epsilon) then
        wr o i (if negb (mp =? - m)%Z then RtoC 0
                else if ((ell + mp) mod 2 =? 0)%Z then lib_cpow lib b (-2 * mp) else (- lib_cpow lib b (-2 * mp))%C)
      else if Rleb hb (RN64 epsilon) then
        wr o i (if negb (mp =? m)%Z then RtoC 0 else lib_cpow lib a (2 * mp))
      else if Rltb ha hb then
        let d := radius64 lib cb hb ha (2 * ell - m - mp - 2 * Z.max 0 (- m - mp)) (m + mp + 2 * Z.max 0 (- m - mp)) in
        if R_is_zero d then wr o i (RtoC 0) else
        let P1 := lib_rect lib d (RN64 (RN64 (pb * int64 (m - mp)) + RN64 (pa * int64 (m + mp)))) in
        do Sum <- for_down (Z.min (ell - mp) (ell - m)) (Z.max 0 (- m - mp)) (sum_step64 (ratio64 ha hb) (ell - mp + 1) (ell - m + 1) (m + mp)) 1%R;
        wr o i (cscale64 Sum P1)
      else
        let d := radius64 lib ca ha hb (2 * ell - m + mp - 2 * Z.max 0 (mp - m)) (m - mp + 2 * Z.max 0 (mp - m)) in
        if R_is_zero d then wr o i (RtoC 0) else
        let P1 := lib_rect lib d (RN64 (RN64 (pa * int64 (m + mp)) + RN64 (pb * int64 (m - mp)))) in
        do Sum <- for_down (Z.min (ell + mp) (ell - m)) (Z.max 0 (mp - m)) (sum_step64 (ratio64 hb ha) (ell + mp + 1) (ell - m + 1) (m - mp)) 1%R;
        wr o i (cscale64 Sum P1).

  Lemma elements_row_above ca cb ell mp m o i : (ell <= 32)%Z -> (- ell <= mp <= ell)%Z -> (- ell <= m <= ell)%Z -> above_cutoff lib a b ->
    coeff64 (2 * ell) (2 * mp) (2 * m) = Ok ca -> coeff64 (2 * ell) (2 * - mp) (2 * m) = Ok cb ->
    exists v, elements_row (sgn (Z.max 0 (mp - m)) * ca) (sgn (ell + m + Z.max 0 (- m - mp)) * cb) ell mp m o i = wr o i v
      /\ Cmod (v - Dv a b ell mp m)%C <= (74 * IZR ell + 15) * u64 * isize ell mp m (Cmod a) (Cmod b) + / 2 ^ 600.
  Proof.
    intros Hl Hmp Hm ((Ba & Bb) & Ha & Hb) EA EB. rewrite Ea in Ha. rewrite Eb in Hb. cbn [fst] in *. pose proof GL as ((Gp & _) & _).
    destruct (polar_rel _ a ha pa Gp Ea Ba Ha) as (R1 & B1 & al & A1 & A2).
    destruct (polar_rel _ b hb pb Gp Eb Bb Hb) as (R2 & B2 & be & C1 & C2).
    unfold elements_row. rewrite !radius64_sg by apply Rabs_sgn.
    destruct (Rleb ha (RN64 epsilon)) eqn:E1; [apply Rleb_true in E1; lra|]. destruct (Rleb hb (RN64 epsilon)) eqn:E2; [apply Rleb_true in E2; lra|].
    destruct (Rltb ha hb) eqn:E3; [apply Rltb_true in E3|apply Rltb_false in E3].
    - destruct (int_lt64 lib ell mp m (Cmod a) (Cmod b) al be ha hb pa pb GL Hl Hmp Hm B1 B2 R1 R2 A2 C2 (Rlt_le _ _ E3)) as (c & S64 & EC & ES & HR & _).
      rewrite EC in EB. apply Ok_inj in EB. subst c. replace (- m - mp)%Z with (- mp - m)%Z by lia. rewrite ES. cbn [bind]. rewrite <- A1, <- C1 in HR.
      match goal with |- context [R_is_zero ?x] => destruct (R_is_zero x) eqn:EZ end.
      + apply R_zero_sg in EZ; [|apply Rabs_sgn]. eexists. split; [reflexivity|].
        destruct (HR 1 (RtoC 0) Rabs_R1 (or_intror (conj EZ eq_refl))) as [X _]. rewrite cscale64_0, Cmult_1_l in X. exact X.
      + eexists. split; [reflexivity|].
        destruct (HR 1 _ Rabs_R1 (or_introl eq_refl)) as [X _]. rewrite Cmult_1_l, Rmult_1_r in X. exact X.
    - destruct (int_ge64 lib ell mp m (Cmod a) (Cmod b) al be ha hb pa pb GL Hl Hmp Hm B1 B2 R1 R2 A2 C2 E3) as (c & S64 & EC & ES & HR & _).
      rewrite EC in EA. apply Ok_inj in EA. subst c. rewrite ES. cbn [bind]. rewrite <- A1, <- C1 in HR.
      match goal with |- context [R_is_zero ?x] => destruct (R_is_zero x) eqn:EZ end.
      + apply R_zero_sg in EZ; [|apply Rabs_sgn]. eexists. split; [reflexivity|].
        destruct (HR 1 (RtoC 0) Rabs_R1 (or_intror (conj EZ eq_refl))) as [X _]. rewrite cscale64_0, Cmult_1_l in X. exact X.
      + eexists. split; [reflexivity|].
        destruct (HR 1 _ Rabs_R1 (or_introl eq_refl)) as [X _]. rewrite Cmult_1_l, Rmult_1_r in X. exact X.
  Qed.
  Lemma elements_row_degenerate ca cb ell mp m o i : (ell <= 32)%Z -> (- ell <= mp <= ell)%Z -> (- ell <= m <= ell)%Z -> nearly_unit a b ->
    ha <= RN64 epsilon \/ hb <= RN64 epsilon ->
    exists v, elements_row ca cb ell mp m o i = wr o i v /\ Cmod (v - Dv a b ell mp m)%C <= 34 * (2 * IZR ell + 1) * u64.
  Proof.
    intros Hl Hmp Hm U HO. pose proof (nearly_unit_le _ _ U) as Ba. pose proof (nearly_unit_le _ _ (nearly_unit_sym _ _ U)) as Bb.
    pose proof GL as ((Gp & _) & _). unfold elements_row. rewrite <- mult_IZR.
    assert (X : (2 * (ell + mp) - 2 * ell)%Z = (2 * mp)%Z /\ (2 * (ell + m) - 2 * ell)%Z = (2 * m)%Z) by lia. destruct X as [X1 X2].
    destruct (Rleb ha (RN64 epsilon)) eqn:E1; [apply Rleb_true in E1|apply Rleb_false in E1].
    - eexists. split; [reflexivity|].
      pose proof (D_a064_ok lib (2 * ell) (ell + mp) (ell + m) a b GL ltac:(lia) ltac:(lia) ltac:(lia) U (polar_small _ a ha pa Gp Ea Ba E1)) as X.
      rewrite X1, X2, elem_a064_int in X by lia. rewrite mod2_even. unfold Dv. destruct (Z.eqb_spec mp (- m)); cbn [negb]; exact X.
    - destruct (Rleb hb (RN64 epsilon)) eqn:E2; [apply Rleb_true in E2|apply Rleb_false in E2; lra].
      eexists. split; [reflexivity|].
      pose proof (D_b064_ok lib (2 * ell) (ell + mp) (ell + m) a b GL ltac:(lia) ltac:(lia) ltac:(lia) U (polar_small _ b hb pb Gp Eb Bb E2)) as X.
      rewrite X1, X2, elem_b064_int in X by lia. unfold Dv. destruct (Z.eqb_spec mp m); cbn [negb]; exact X.
  Qed.

  (** What SWSHs writes for one rotor *)
  Definition SWSHs_row (ca cb : R) (s ell m : Z) (o : arr C) (i : Z) : res (arr C) :=
      if Rleb ha (RN64 epsilon) then
        wr o i (if negb (m =? s)%Z then RtoC 0
                else if (ell mod 2 =? 0)%Z then cscale64 (swsh_norm64 ell) (lib_cpow lib b (-2 * s))
                else cscale64 (- swsh_norm64 ell) (lib_cpow lib b (-2 * s)))
      else if Rleb hb (RN64 epsilon) then
        wr o i (if negb (m =? - s)%Z then RtoC 0
                else if (s mod 2 =? 0)%Z then cscale64 (swsh_norm64 ell) (lib_cpow lib a (-2 * s))
                else cscale64 (- swsh_norm64 ell) (lib_cpow lib a (-2 * s)))
      else if Rltb ha hb then
        if R_is_zero cb then wr o i (RtoC 0) else
        let P := lib_rect lib (radius64 lib cb hb ha (2 * ell + s - m - 2 * Z.max 0 (- m + s)) (- s + m + 2 * Z.max 0 (- m + s)))
                              (RN64 (RN64 (pb * int64 (- s - m)) + RN64 (pa * int64 (- s + m)))) in
        do Sum <- for_down (Z.min (ell - m) (ell + s)) (Z.max 0 (- m + s)) (sum_step64 (ratio64 ha hb) (ell - m + 1) (ell + s + 1) (- s + m)) 1%R;
        wr o i (cscale64 Sum (cscale64 (swsh_norm64 ell) P))
      else
        if R_is_zero ca then wr o i (RtoC 0) else
        let P := lib_rect lib (radius64 lib ca ha hb (2 * ell + s + m - 2 * Z.max 0 (m + s)) (- s - m + 2 * Z.max 0 (m + s)))
                              (RN64 (RN64 (pa * int64 (- s + m)) + RN64 (pb * int64 (- s - m)))) in
        do Sum <- for_down (Z.min (ell + m) (ell + s)) (Z.max 0 (m + s)) (sum_step64 (ratio64 hb ha) (ell + m + 1) (ell + s + 1) (- s - m)) 1%R;
        wr o i (cscale64 Sum (cscale64 (swsh_norm64 ell) P)).
  Lemma radius64_0 r1 r2 e1 e2 : radius64 lib 0 r1 r2 e1 e2 = 0.
  Proof. unfold radius64. rewrite Rmult_0_l, RN64_zero, Rmult_0_l, RN64_zero. reflexivity. Qed.

  Lemma SWSHs_row_above ca cb s ell m o i : (ell <= 32)%Z -> (- ell <= s <= ell)%Z -> (- ell <= m <= ell)%Z -> above_cutoff lib a b ->
    coeff64 (2 * ell) (2 * m) (2 * - s) = Ok ca -> coeff64 (2 * ell) (2 * - m) (2 * - s) = Ok cb ->
    exists v, SWSHs_row (sgn (Z.max 0 (m + s) + s) * ca) (sgn (ell + Z.max 0 (- m + s)) * cb) s ell m o i = wr o i v
      /\ Cmod (v - RtoC (swsh_norm ell) * (RtoC (sgn s) * Dv a b ell m (- s)))%C
         <= (74 * IZR ell + 22) * u64 * (swsh_norm ell * isize ell m (- s) (Cmod a) (Cmod b)) + / 2 ^ 600.
  Proof.
    intros Hl Hs Hm ((Ba & Bb) & Ha & Hb) EA EB. rewrite Ea in Ha. rewrite Eb in Hb. cbn [fst] in *. pose proof GL as ((Gp & _) & _).
    destruct (polar_rel _ a ha pa Gp Ea Ba Ha) as (R1 & B1 & al & A1 & A2).
    destruct (polar_rel _ b hb pb Gp Eb Bb Hb) as (R2 & B2 & be & C1 & C2). destruct (norm64_ok ell ltac:(lia)) as [RN BN].
    unfold SWSHs_row. rewrite !radius64_sg by apply Rabs_sgn.
    destruct (Rleb ha (RN64 epsilon)) eqn:E1; [apply Rleb_true in E1; lra|]. destruct (Rleb hb (RN64 epsilon)) eqn:E2; [apply Rleb_true in E2; lra|].
    destruct (Rltb ha hb) eqn:E3; [apply Rltb_true in E3|apply Rltb_false in E3].
    - destruct (int_lt64 lib ell m (- s) (Cmod a) (Cmod b) al be ha hb pa pb GL Hl Hm ltac:(lia) B1 B2 R1 R2 A2 C2 (Rlt_le _ _ E3)) as (c & S64 & EC & ES & HR & _).
      rewrite EC in EB. apply Ok_inj in EB. subst c. replace (- m - - s)%Z with (- m + s)%Z in * by lia. replace (ell - - s)%Z with (ell + s)%Z in * by lia.
      replace (2 * ell - - s - m)%Z with (2 * ell + s - m)%Z in * by lia.
      rewrite ES. cbn [bind]. rewrite <- A1, <- C1 in HR.
      assert (SG : sgn (ell + - s + Z.max 0 (- m + s)) * sgn s = sgn (ell + Z.max 0 (- m + s))).
      { rewrite <- sgn_add. f_equal. lia. }
      match goal with |- context [R_is_zero ?x] => destruct (R_is_zero x) eqn:EZ end.
      + apply R_zero_sg in EZ; [|apply Rabs_sgn]. eexists. split; [reflexivity|]. subst cb. rewrite radius64_0 in HR.
        destruct (HR (sgn s) (RtoC 0) (Rabs_sgn _) (or_intror (conj eq_refl eq_refl))) as [_ X]. specialize (X _ _ RN BN). rewrite !cscale64_0 in X. exact X.
      + eexists. split; [reflexivity|].
        destruct (HR (sgn s) _ (Rabs_sgn _) (or_introl eq_refl)) as [_ X]. specialize (X _ _ RN BN). rewrite SG in X. exact X.
    - destruct (int_ge64 lib ell m (- s) (Cmod a) (Cmod b) al be ha hb pa pb GL Hl Hm ltac:(lia) B1 B2 R1 R2 A2 C2 E3) as (c & S64 & EC & ES & HR & _).
      rewrite EC in EA. apply Ok_inj in EA. subst c. replace (m - - s)%Z with (m + s)%Z in * by lia. replace (ell - - s)%Z with (ell + s)%Z in * by lia.
      replace (2 * ell - - s + m)%Z with (2 * ell + s + m)%Z in * by lia.
      rewrite ES. cbn [bind]. rewrite <- A1, <- C1 in HR.
      match goal with |- context [R_is_zero ?x] => destruct (R_is_zero x) eqn:EZ end.
      + apply R_zero_sg in EZ; [|apply Rabs_sgn]. eexists. split; [reflexivity|]. subst ca. rewrite radius64_0 in HR.
        destruct (HR (sgn s) (RtoC 0) (Rabs_sgn _) (or_intror (conj eq_refl eq_refl))) as [_ X]. specialize (X _ _ RN BN). rewrite !cscale64_0 in X. exact X.
      + eexists. split; [reflexivity|].
        destruct (HR (sgn s) _ (Rabs_sgn _) (or_introl eq_refl)) as [_ X]. specialize (X _ _ RN BN). rewrite <- sgn_add in X. exact X.
  Qed.
  Lemma SWSHs_row_degenerate ca cb s ell m o i : (ell <= 32)%Z -> (- ell <= s <= ell)%Z -> (- ell <= m <= ell)%Z -> nearly_unit a b ->
    ha <= RN64 epsilon \/ hb <= RN64 epsilon ->
    exists v, SWSHs_row ca cb s ell m o i = wr o i v
      /\ Cmod (v - RtoC (swsh_norm ell) * (RtoC (sgn s) * Dv a b ell m (- s)))%C <= 42 * (2 * IZR ell + 1) * u64 * swsh_norm ell.
  Proof.
    intros Hl Hs Hm U HO. pose proof (nearly_unit_le _ _ U) as Ba. pose proof (nearly_unit_le _ _ (nearly_unit_sym _ _ U)) as Bb.
    pose proof GL as ((Gp & _) & _). unfold SWSHs_row. rewrite <- mult_IZR. unfold Dv. replace (ell + - s)%Z with (ell - s)%Z by lia.
    assert (T : ((Z.abs m >? ell) || (Z.abs s >? ell))%Z = false) by (apply orb_false_iff; rewrite !Z.gtb_ltb, !Z.ltb_ge; lia).
    destruct (Rleb ha (RN64 epsilon)) eqn:E1; [apply Rleb_true in E1|apply Rleb_false in E1].
    - eexists. split; [reflexivity|].
      pose proof (S_a064_ok lib s ell m a b GL Hl Hm Hs U (polar_small _ a ha pa Gp Ea Ba E1)) as X.
      unfold S_elem_a064 in X. rewrite <- orb_assoc, T, orb_false_r in X. exact X.
    - destruct (Rleb hb (RN64 epsilon)) eqn:E2; [apply Rleb_true in E2|apply Rleb_false in E2; lra].
      eexists. split; [reflexivity|].
      pose proof (S_b064_ok lib s ell m a b GL Hl Hm Hs U (polar_small _ b hb pb Gp Eb Bb E2)) as X.
      unfold S_elem_b064 in X. rewrite <- orb_assoc, T, orb_false_r in X. exact X.
  Qed.
End OneRotor.
