(** Rounding errors of Wigner_D_matrices: what each iteration writes, and the branches. *)
Require Import ZArith Lia Reals Lra Bool.
From Flocq Require Import Core.
From Coquelicot Require Import Complex.
From Verif Require Import Base BaseProofs CBase Fact RSum CSum SymPow WignerSpec DRep IndexModel FloatIndexModel FloatIndexProofs FloatPowersModel
  FloatPowersSpec FloatPowersProofs FloatPowersProps FloatConvModel FloatConvSpec FloatConvProofs WignerModel WignerProofs WignerProofs2 WignerProofs3
  SWSHModel SWSHProofs FloatWignerModel FloatWignerSpec FloatWignerProofs FloatWignerProofs2 FloatWignerProofs3 FloatWignerProofs4 FloatWignerProofs5
  FloatWignerProofs6 FloatWignerProps FloatMatrixModel FloatMatrixProofs FloatMatrixProofs2 FloatMatrixProofs3.
Set Bullet Behavior "Strict Subproofs".
Open Scope R_scope.

(** ** Symmetries of the rounded product and of the size *)
Lemma cscale64_conj r z : cscale64 r (Cconj z) = Cconj (cscale64 r z).
Proof. unfold cscale64, Cconj. cbn [Re Im fst snd]. rewrite Ropp_mult_distr_r_reverse, RN64_opp. reflexivity. Qed.
Lemma cscale64_opp r z : cscale64 r (- z)%C = (- cscale64 r z)%C.
Proof. unfold cscale64, Copp. cbn [Re Im fst snd]. rewrite !Ropp_mult_distr_r_reverse, !RN64_opp. reflexivity. Qed.
Lemma isize_neg_swap ell mp m x y : (- ell <= mp <= ell)%Z -> (- ell <= m <= ell)%Z -> isize ell (- m) (- mp) x y = isize ell mp m x y.
Proof.
  intros H1 H2. unfold isize. rewrite (Wsize_sym (2 * ell) (ell + mp)) by lia.
  replace (2 * ell - (ell + m))%Z with (ell + - m)%Z by lia. replace (2 * ell - (ell + mp))%Z with (ell + - mp)%Z by lia. reflexivity.
Qed.
Lemma isize_swap ell mp m x y : (- ell <= mp <= ell)%Z -> (- ell <= m <= ell)%Z -> isize ell m mp x y = isize ell mp m x y.
Proof.
  intros H1 H2. unfold isize. rewrite <- (Wsize_flip (2 * ell) (ell + mp)), <- (Wsize_flip (2 * ell) (ell + m)) by lia.
  rewrite (Wsize_sym (2 * ell) (2 * ell - (ell + mp))) by lia. replace (2 * ell - (2 * ell - (ell + mp)))%Z with (ell + mp)%Z by lia. reflexivity.
Qed.
Lemma isize_neg ell mp m x y : (- ell <= mp <= ell)%Z -> (- ell <= m <= ell)%Z -> isize ell (- mp) (- m) x y = isize ell mp m x y.
Proof. intros H1 H2. rewrite isize_neg_swap by lia. apply isize_swap; lia. Qed.
Lemma Cmod_sgn_conj e x y : Rabs e = 1 -> Cmod (RtoC e * Cconj x - RtoC e * Cconj y)%C = Cmod (x - y)%C.
Proof.
  intros H. replace (RtoC e * Cconj x - RtoC e * Cconj y)%C with (RtoC e * Cconj (x - y))%C by (rewrite Cconj_minus; ring).
  rewrite Cmod_mult, Cmod_R, H, Cmod_conj. ring.
Qed.

(** ** One iteration *)
Section Step.
  Variables (lib : libm) (a b : C) (al be : R) (ell_min ell_max : Z).
  Hypothesis Hmin : (0 <= ell_min)%Z.
  Hypothesis Ea : a = (RtoC (Cmod a) * cis al)%C.
  Hypothesis Eb : b = (RtoC (Cmod b) * cis be)%C.
  Definition matrix_bound (ell mp m : Z) (v : C) : Prop :=
    Cmod (v - Dv a b ell mp m)%C <= (106 * IZR ell + 15) * u64 * isize ell mp m (Cmod a) (Cmod b) + / 2 ^ 600.
  Notation sized := (WignerProofs3.sized ell_min ell_max).
  Notation valid := (WignerProofs3.valid ell_min ell_max).

  Lemma four_images ell mp m P1 P2 S64 d sg t1 t2 : (- ell <= mp <= ell)%Z -> (- ell <= m <= ell)%Z -> 0 < Cmod a -> 0 < Cmod b ->
    row_good lib ell mp m (Cmod a) (Cmod b) al be S64 d sg t1 t2 -> prefactor lib d sg t1 P1 -> prefactor lib d sg t2 P2 ->
    matrix_bound ell mp m (cscale64 S64 P1)
    /\ matrix_bound ell (- mp) (- m) (cscale64 S64 (if Z.even (m + mp) then Cconj P1 else - Cconj P1))%C
    /\ matrix_bound ell (- m) (- mp) (cscale64 S64 (if Z.even (m + mp) then P2 else - P2))%C
    /\ matrix_bound ell m mp (cscale64 S64 (Cconj P2)).
  Proof.
    intros H1 H2 Pa Pb [G1 G2] HP1 HP2. rewrite <- Ea, <- Eb in *.
    assert (W0 : 0 <= isize ell mp m (Cmod a) (Cmod b)) by (apply Wsize_nonneg; auto; lia). pose proof u64_pos as Up.
    assert (L0 : 0 <= IZR ell) by (apply (IZR_le 0); lia).
    destruct (G1 1 P1 Rabs_R1 ltac:(rewrite Rmult_1_r; exact HP1)) as [X1 _]. rewrite Cmult_1_l in X1. specialize (G2 P2 HP2).
    assert (B1 : matrix_bound ell mp m (cscale64 S64 P1)).
    { unfold matrix_bound. eapply Rle_trans; [exact X1|]. apply Rplus_le_compat_r, Rmult_le_compat_r; auto. apply Rmult_le_compat_r; lra. }
    split; [exact B1|]. unfold matrix_bound in *. rewrite (isize_neg ell mp m), (isize_neg_swap ell mp m), (isize_swap ell mp m) by auto. split; [|split].
    - rewrite Dv_neg by auto. replace (cscale64 S64 (if Z.even (m + mp) then Cconj P1 else - Cconj P1))%C with (RtoC (sgn (m + mp)) * Cconj (cscale64 S64 P1))%C.
      + rewrite Cmod_sgn_conj by apply Rabs_sgn. exact B1.
      + rewrite <- cscale64_conj. unfold sgn. destruct (Z.even (m + mp)); [ring|]. rewrite cscale64_opp. replace (RtoC (-1)) with (- RtoC 1)%C by (rewrite <- RtoC_opp; reflexivity). ring.
    - rewrite (Dv_neg a b ell m mp), (Dv_swap a b ell mp m) by auto. replace (cscale64 S64 (if Z.even (m + mp) then P2 else - P2))%C
        with (RtoC (sgn (mp + m)) * Cconj (Cconj (cscale64 S64 P2)))%C.
      + rewrite Cmod_sgn_conj by apply Rabs_sgn. rewrite <- Cconj_minus, Cmod_conj. exact G2.
      + rewrite Cconj_conj, (Z.add_comm mp). unfold sgn. destruct (Z.even (m + mp)); [ring|]. rewrite cscale64_opp. replace (RtoC (-1)) with (- RtoC 1)%C by (rewrite <- RtoC_opp; reflexivity). ring.
    - rewrite (Dv_swap a b ell mp m) by auto. rewrite cscale64_conj, <- Cconj_minus, Cmod_conj. exact G2.
  Qed.

  Lemma row_step ell mp m S64 d sg t1 t2 mat : sized mat -> valid (ell, mp, m) -> 0 < Cmod a -> 0 < Cmod b ->
    row_good lib ell mp m (Cmod a) (Cmod b) al be S64 d sg t1 t2 ->
    exists mat', (if R_is_zero d then D_zero_writes (linear_matrix_offset ell ell_min) ell mp m mat
                  else D_symmetric_writes64 (linear_matrix_offset ell ell_min) ell mp m (lib_rect lib (sg * d) t1) (lib_rect lib (sg * d) t2) S64 mat) = Ok mat'
      /\ stepQ matrix_bound ell_min ell_max ell mp m mat mat'.
  Proof.
    intros Hs Hv Pa Pb HR. pose proof Hv as (V1 & V2 & V3). destruct (R_is_zero d) eqn:EZ.
    - apply R_is_zero_true in EZ.
      destruct (four_images ell mp m (RtoC 0) (RtoC 0) S64 d sg t1 t2 V2 V3 Pa Pb HR (or_intror (conj EZ eq_refl)) (or_intror (conj EZ eq_refl))) as (X1 & X2 & X3 & X4).
      assert (Z2 : (if Z.even (m + mp) then Cconj (RtoC 0) else - Cconj (RtoC 0))%C = RtoC 0) by (rewrite Cconj_RtoC; destruct (Z.even (m + mp)); ring).
      assert (Z3 : (if Z.even (m + mp) then RtoC 0 else - RtoC 0)%C = RtoC 0) by (destruct (Z.even (m + mp)); ring).
      rewrite Z2 in X2. rewrite Z3 in X3. rewrite Cconj_RtoC in X4. rewrite cscale64_0 in *. apply zero_writesQ; auto.
    - destruct (four_images ell mp m _ _ S64 d sg t1 t2 V2 V3 Pa Pb HR (or_introl eq_refl) (or_introl eq_refl)) as (X1 & X2 & X3 & X4).
      apply symmetric_writesQ; auto.
  Qed.

  Variables (ha hb pa pb : R).
  Hypothesis GL : good_libm lib.
  Hypothesis Hmax : (ell_max <= 32)%Z.
  Hypothesis Ba : / 10 ^ 16 <= Cmod a <= 3 / 2.
  Hypothesis Bb : / 10 ^ 16 <= Cmod b <= 3 / 2.
  Hypothesis Ra : rel 3 ha (Cmod a).
  Hypothesis Rb : rel 3 hb (Cmod b).
  Hypothesis Al : Rabs al <= PI /\ Rabs (pa - al) <= 8 * u64.
  Hypothesis Be : Rabs be <= PI /\ Rabs (pb - be) <= 8 * u64.

  Lemma step_ge64 ell mp m mat : hb <= ha -> sized mat -> valid (ell, mp, m) ->
    exists mat', D_matrix_ge64 lib ha hb pa pb (linear_matrix_offset ell ell_min) ell mp m mat = Ok mat' /\ stepQ matrix_bound ell_min ell_max ell mp m mat mat'.
  Proof.
    intros Hle Hs Hv. pose proof Hv as (V1 & V2 & V3). pose proof p16.
    destruct (int_ge64 lib ell mp m (Cmod a) (Cmod b) al be ha hb pa pb GL ltac:(lia) V2 V3 Ba Bb Ra Rb Al Be Hle) as (c & S64 & EC & ES & HR).
    destruct (row_step ell mp m _ _ _ _ _ mat Hs Hv ltac:(lra) ltac:(lra) HR) as (mat' & E & St). exists mat'. split; [|exact St].
    rewrite <- E. unfold D_matrix_ge64. rewrite EC. cbn [bind]. rewrite ES. cbn [bind]. rewrite mod2_even, sgn_ifR. reflexivity.
  Qed.
  Lemma step_lt64 ell mp m mat : ha <= hb -> sized mat -> valid (ell, mp, m) ->
    exists mat', D_matrix_lt64 lib ha hb pa pb (linear_matrix_offset ell ell_min) ell mp m mat = Ok mat' /\ stepQ matrix_bound ell_min ell_max ell mp m mat mat'.
  Proof.
    intros Hle Hs Hv. pose proof Hv as (V1 & V2 & V3). pose proof p16.
    destruct (int_lt64 lib ell mp m (Cmod a) (Cmod b) al be ha hb pa pb GL ltac:(lia) V2 V3 Ba Bb Ra Rb Al Be Hle) as (c & S64 & EC & ES & HR).
    destruct (row_step ell mp m _ _ _ _ _ mat Hs Hv ltac:(lra) ltac:(lra) HR) as (mat' & E & St). exists mat'. split; [|exact St].
    rewrite <- E. unfold D_matrix_lt64. rewrite EC. cbn [bind]. rewrite ES. cbn [bind]. rewrite mod2_even, sgn_ifR. reflexivity.
  Qed.
End Step.

(** ** The branches *)
Lemma elem_a064_int lib b ell mp m : (- ell <= mp <= ell)%Z -> (- ell <= m <= ell)%Z ->
  D_elem_a064 lib b (2 * ell, 2 * mp, 2 * m)%Z
  = if (mp =? - m)%Z then (if Z.even (ell + mp) then lib_cpow lib b (-2 * mp) else (- lib_cpow lib b (-2 * mp))%C) else RtoC 0.
Proof.
  intros H1 H2. unfold D_elem_a064.
  replace ((Z.abs (2 * mp) >? 2 * ell)%Z) with false by (symmetry; rewrite Z.gtb_ltb; apply Z.ltb_ge; lia).
  replace ((Z.abs (2 * m) >? 2 * ell)%Z) with false by (symmetry; rewrite Z.gtb_ltb; apply Z.ltb_ge; lia). rewrite !orb_false_r.
  replace (2 * ell - 2 * m)%Z with (2 * (ell - m))%Z by lia. rewrite mod4_even.
  destruct (Z.eqb_spec (2 * mp) (- (2 * m))), (Z.eqb_spec mp (- m)); try lia; cbn [negb]; auto.
  replace (ell - m)%Z with (ell + mp)%Z by lia. replace (2 * m)%Z with (-2 * mp)%Z by lia. reflexivity.
Qed.
Lemma elem_b064_int lib a ell mp m : (- ell <= mp <= ell)%Z -> (- ell <= m <= ell)%Z ->
  D_elem_b064 lib a (2 * ell, 2 * mp, 2 * m)%Z = if (mp =? m)%Z then lib_cpow lib a (2 * mp) else RtoC 0.
Proof.
  intros H1 H2. unfold D_elem_b064.
  replace ((Z.abs (2 * mp) >? 2 * ell)%Z) with false by (symmetry; rewrite Z.gtb_ltb; apply Z.ltb_ge; lia).
  replace ((Z.abs (2 * m) >? 2 * ell)%Z) with false by (symmetry; rewrite Z.gtb_ltb; apply Z.ltb_ge; lia). rewrite !orb_false_r.
  destruct (Z.eqb_spec (2 * mp) (2 * m)), (Z.eqb_spec mp m); try lia; cbn [negb]; auto. subst. reflexivity.
Qed.

Lemma matrices_core lib a b ha pa hb pb (Q : Z -> Z -> Z -> C -> Prop) ell_min ell_max mat :
  lib_polar lib a = (ha, pa) -> lib_polar lib b = (hb, pb) -> (0 <= ell_min <= ell_max + 1)%Z -> WignerProofs3.sized ell_min ell_max mat ->
  (ha <= RN64 epsilon -> forall ell mp m, WignerProofs3.valid ell_min ell_max (ell, mp, m) -> Q ell mp m (D_elem_a064 lib b (2 * ell, 2 * mp, 2 * m)%Z)) ->
  (RN64 epsilon < ha -> hb <= RN64 epsilon -> forall ell mp m, WignerProofs3.valid ell_min ell_max (ell, mp, m) -> Q ell mp m (D_elem_b064 lib a (2 * ell, 2 * mp, 2 * m)%Z)) ->
  (RN64 epsilon < ha -> RN64 epsilon < hb -> ha <= hb -> forall ell mp m mat, WignerProofs3.sized ell_min ell_max mat -> WignerProofs3.valid ell_min ell_max (ell, mp, m) ->
     exists mat', D_matrix_lt64 lib ha hb pa pb (linear_matrix_offset ell ell_min) ell mp m mat = Ok mat' /\ stepQ Q ell_min ell_max ell mp m mat mat') ->
  (RN64 epsilon < ha -> RN64 epsilon < hb -> hb <= ha -> forall ell mp m mat, WignerProofs3.sized ell_min ell_max mat -> WignerProofs3.valid ell_min ell_max (ell, mp, m) ->
     exists mat', D_matrix_ge64 lib ha hb pa pb (linear_matrix_offset ell ell_min) ell mp m mat = Ok mat' /\ stepQ Q ell_min ell_max ell mp m mat mat') ->
  exists out, Wigner_D_matrices_core64 lib a b ell_min ell_max mat = Ok out
    /\ alen out = LMpM_total_size ell_min ell_max
    /\ forall ell mp m, (ell_min <= ell <= ell_max)%Z -> (- ell <= mp <= ell)%Z -> (- ell <= m <= ell)%Z ->
         Q ell mp m (aget out (LMpM_index ell mp m ell_min)).
Proof.
  intros Ea Eb Hmin Hs Ca Cb Cl Cg.
  assert (G : exists out, Wigner_D_matrices_core64 lib a b ell_min ell_max mat = Ok out
     /\ WignerProofs3.sized ell_min ell_max out /\ forall s, WignerProofs3.valid ell_min ell_max s -> correctQ Q ell_min out s).
  2:{ destruct G as (out & E & S & I). exists out. split; auto. split; auto.
      intros ell mp m H1 H2 H3. exact (I (ell, mp, m) (conj H1 (conj H2 H3))). }
  unfold Wigner_D_matrices_core64. rewrite Ea, Eb.
  destruct (Rleb ha (RN64 epsilon)) eqn:E1; [apply Rleb_true in E1|apply Rleb_false in E1].
  { destruct (degenerateQ Q ell_min ell_max ltac:(lia) (fun k => - k)%Z
      (fun ell mpmm => if ((ell + mpmm) mod 2 =? 0)%Z then lib_cpow lib b (-2 * mpmm) else (- lib_cpow lib b (-2 * mpmm))%C) mat) as (out & E & P); auto; try lia.
    + intros ell k He Hk. specialize (Ca E1 ell k (- k)%Z). rewrite elem_a064_int, Z.opp_involutive, Z.eqb_refl in Ca by lia.
      rewrite mod2_even. apply Ca. unfold WignerProofs3.valid. lia.
    + intros ell k m He Hk Hm N. specialize (Ca E1 ell k m). rewrite elem_a064_int in Ca by lia.
      destruct (Z.eqb_spec k (- m)); [lia|]. apply Ca. unfold WignerProofs3.valid. lia.
    + exists out. split; [|exact P]. rewrite <- E. apply for_loop_ext. intros k s Hk. cbv zeta.
      destruct (for_range 0 _ _ s); cbn [bind]; auto.
      apply for_loop_ext. intros k' s' Hk'. rewrite linear_slot. reflexivity. }
  destruct (Rleb hb (RN64 epsilon)) eqn:E2; [apply Rleb_true in E2|apply Rleb_false in E2].
  { destruct (degenerateQ Q ell_min ell_max ltac:(lia) (fun k => k)%Z (fun ell mpm => lib_cpow lib a (2 * mpm)) mat) as (out & E & P); auto; try lia.
    + intros ell k He Hk. specialize (Cb E1 E2 ell k k). rewrite elem_b064_int, Z.eqb_refl in Cb by lia. apply Cb. unfold WignerProofs3.valid. lia.
    + intros ell k m He Hk Hm N. specialize (Cb E1 E2 ell k m). rewrite elem_b064_int in Cb by lia.
      destruct (Z.eqb_spec k m); [lia|]. apply Cb. unfold WignerProofs3.valid. lia.
    + exists out. split; [|exact P]. rewrite <- E. apply for_loop_ext. intros k s Hk. cbv zeta.
      destruct (for_range 0 _ _ s); cbn [bind]; auto.
      apply for_loop_ext. intros k' s' Hk'. rewrite linear_diag_slot. reflexivity. }
  destruct (Rltb ha hb) eqn:E3; [apply Rltb_true in E3|apply Rltb_false in E3].
  - apply (wedgeQ Q ell_min ell_max ltac:(lia)); [intros; apply Cl; auto; lra|exact Hs|lia].
  - apply (wedgeQ Q ell_min ell_max ltac:(lia)); [intros; apply Cg; auto|exact Hs|lia].
Qed.
