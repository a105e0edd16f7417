(** [_Wigner_D_matrices] and [_Wigner_D_elements] compute Wigner's formula everywhere. *)
Require Import ZArith Lia Reals Lra Bool.
From Coquelicot Require Import Complex.
From Verif Require Import Base BaseProofs CBase CSum RSum Fact SymPow WignerSpec DRep IndexModel IndexProofs IndexProofs2
  IndexProps WignerModel WignerProofs WignerProofs2.
Open Scope R_scope.

(** Integer-index element. *)
Definition Dv (a b : C) (ell mp m : Z) : C := Dm (2 * ell) (ell + mp) (ell + m) a b.

Lemma Dv_formula a b ell mp m : (- ell <= mp <= ell)%Z -> (- ell <= m <= ell)%Z ->
  Wigner_formula (2 * ell) (2 * mp) (2 * m) a b = Dv a b ell mp m.
Proof.
  intros. unfold Dv. rewrite <- Wigner_formula_Dm by lia. f_equal; lia.
Qed.
Lemma Dv_neg a b ell mp m : (- ell <= mp <= ell)%Z -> (- ell <= m <= ell)%Z ->
  Dv a b ell (- mp) (- m) = (RtoC (sgn (m + mp)) * Cconj (Dv a b ell mp m))%C.
Proof.
  intros. unfold Dv. rewrite <- (sgn_opp (m + mp)).
  replace (- (m + mp))%Z with (ell + mp - (ell + m) + 2 * (- mp))%Z by lia.
  rewrite sgn_add, sgn_double, Rmult_1_r.
  rewrite <- Dm_reflect by lia. f_equal; lia.
Qed.
Lemma Dv_swap a b ell mp m : (- ell <= mp <= ell)%Z -> (- ell <= m <= ell)%Z ->
  Dv a b ell m mp = Cconj (Dv (Cconj a) (- b)%C ell mp m).
Proof.
  intros. unfold Dv. rewrite <- Dm_adjoint by lia. rewrite Cconj_conj. f_equal. ring.
Qed.

Lemma coefficient_ok L tab ell mp m : is_Wigner_table L tab -> (0 <= ell <= L)%Z ->
  (- ell <= mp <= ell)%Z -> (- ell <= m <= ell)%Z ->
  Wigner_coefficient tab ell mp m =
  Ok (sqrt (wt (2 * ell) (ell + m) / wt (2 * ell) (ell + mp)) * bin (ell + mp) (Z.max 0 (mp - m))
      * bin (ell - mp) (ell - m - Z.max 0 (mp - m)))%R.
Proof.
  intros Ht HL Hmp Hm. unfold Wigner_coefficient.
  pose proof (table_lookup L tab (2 * ell) (ell + mp) (ell + m) Ht ltac:(lia) ltac:(lia) ltac:(lia)) as E.
  replace (2 * (ell + mp) - 2 * ell)%Z with (2 * mp)%Z in E by lia.
  replace (2 * (ell + m) - 2 * ell)%Z with (2 * m)%Z in E by lia.
  rewrite E. unfold Tlo. replace (ell + mp - (ell + m))%Z with (mp - m)%Z by lia.
  replace (2 * ell - (ell + mp))%Z with (ell - mp)%Z by lia.
  replace (2 * ell - (ell + m))%Z with (ell - m)%Z by lia. reflexivity.
Qed.

Lemma polar_conj z : Cconj z = (RtoC (Cmod z) * cis (- phase z))%C.
Proof. rewrite <- (polar_spec z) at 1. rewrite Cconj_mult, Cconj_RtoC, cis_neg. auto. Qed.
Lemma polar_opp z : (- z)%C = (RtoC (Cmod z) * cis (phase z + PI))%C.
Proof. rewrite <- (polar_spec z) at 1. rewrite cis_add, cis_PI. ring. Qed.

(** The integer loops, branch [ra >= rb]. *)
Lemma int_ge L tab a b ell mp m : is_Wigner_table L tab -> (0 <= ell <= L)%Z ->
  (- ell <= mp <= ell)%Z -> (- ell <= m <= ell)%Z -> 0 < Cmod a -> 0 < Cmod b ->
  exists c S, Wigner_coefficient tab ell mp m = Ok c
  /\ for_down (Z.min (ell + mp) (ell - m)) (Z.max 0 (mp - m))
       (sum_step (- Cmod b * Cmod b / (Cmod a * Cmod a)) (ell + mp + 1) (ell - m + 1) (m - mp)) 1 = Ok S
  /\ forall d, d = sgn (Z.max 0 (mp - m)) * (c * powerRZ (Cmod a) (2 * ell - m + mp - 2 * Z.max 0 (mp - m))
                     * powerRZ (Cmod b) (m - mp + 2 * Z.max 0 (mp - m))) ->
     (crect d (phase a * IZR (m + mp) + phase b * IZR (m - mp)) * RtoC S)%C = Dv a b ell mp m
     /\ (crect d (- phase a * IZR (m + mp) + (phase b + PI) * IZR (m - mp)) * RtoC S)%C
        = Dv (Cconj a) (- b)%C ell mp m.
Proof.
  intros Ht HL Hmp Hm Ha Hb. rewrite (coefficient_ok L) by auto.
  set (N := (2 * ell)%Z). set (p := (ell + mp)%Z). set (q := (ell + m)%Z).
  destruct (Tt_loop N p q (- Cmod b * Cmod b / (Cmod a * Cmod a)) ltac:(lia) ltac:(lia)) as (S & ES & HS).
  eexists. exists S. split; [reflexivity|].
  replace (Thi N p q) with (Z.min (ell + mp) (ell - m)) in ES by (unfold Thi; lia).
  assert (ET : Tlo p q = Z.max 0 (mp - m)) by (unfold Tlo; lia). rewrite ET in ES.
  replace (p + 1)%Z with (ell + mp + 1)%Z in ES by lia. replace (N - q + 1)%Z with (ell - m + 1)%Z in ES by lia.
  replace (q - p)%Z with (m - mp)%Z in ES by lia. split; [exact ES|].
  assert (G : forall al be, (RtoC (sgn (Z.max 0 (mp - m)) * (sqrt (wt N q / wt N p) * bin p (Z.max 0 (mp - m)) *
     bin (ell - mp) (ell - m - Z.max 0 (mp - m)) * powerRZ (Cmod a) (N - m + mp - 2 * Z.max 0 (mp - m))
                     * powerRZ (Cmod b) (m - mp + 2 * Z.max 0 (mp - m)))) * cis (al * IZR (m + mp) + be * IZR (m - mp)) * RtoC S)%C =
     Dm N p q (RtoC (Cmod a) * cis al)%C (RtoC (Cmod b) * cis be)%C).
  { intros al be. rewrite (Dm_ge_polar N p q (Cmod a) (Cmod b) al be S) by (auto; lia).
    rewrite ET. replace (N - p)%Z with (ell - mp)%Z by lia. replace (N - q)%Z with (ell - m)%Z by lia.
    replace (p + (ell - m) - 2 * Z.max 0 (mp - m))%Z with (N - m + mp - 2 * Z.max 0 (mp - m))%Z by lia.
    replace (q - p)%Z with (m - mp)%Z by lia. replace (p + q - N)%Z with (m + mp)%Z by lia.
    rewrite !RtoC_mult. ring. }
  intros d ->. rewrite !crect_cis. unfold Dv. fold N p q. split.
  - rewrite G, !polar_spec. reflexivity.
  - rewrite G, <- polar_conj, <- polar_opp. reflexivity.
Qed.

Lemma int_lt L tab a b ell mp m : is_Wigner_table L tab -> (0 <= ell <= L)%Z ->
  (- ell <= mp <= ell)%Z -> (- ell <= m <= ell)%Z -> 0 < Cmod a -> 0 < Cmod b ->
  exists c S, Wigner_coefficient tab ell (- mp) m = Ok c
  /\ for_down (Z.min (ell - mp) (ell - m)) (Z.max 0 (- mp - m))
       (sum_step (- Cmod a * Cmod a / (Cmod b * Cmod b)) (ell - mp + 1) (ell - m + 1) (m + mp)) 1 = Ok S
  /\ forall d, d = sgn (ell + m + Z.max 0 (- mp - m)) * (c * powerRZ (Cmod b) (2 * ell - m - mp - 2 * Z.max 0 (- mp - m))
                     * powerRZ (Cmod a) (m + mp + 2 * Z.max 0 (- mp - m))) ->
     (crect d (phase b * IZR (m - mp) + phase a * IZR (m + mp)) * RtoC S)%C = Dv a b ell mp m
     /\ (crect d ((phase b + PI) * IZR (m - mp) - phase a * IZR (m + mp)) * RtoC S)%C
        = Dv (Cconj a) (- b)%C ell mp m.
Proof.
  intros Ht HL Hmp Hm Ha Hb. rewrite (coefficient_ok L) by (auto; lia).
  set (N := (2 * ell)%Z). set (p := (ell + mp)%Z). set (q := (ell + m)%Z).
  destruct (Tt_loop N (N - p) q (- Cmod a * Cmod a / (Cmod b * Cmod b)) ltac:(lia) ltac:(lia)) as (S & ES & HS).
  eexists. exists S. split; [reflexivity|].
  replace (Thi N (N - p) q) with (Z.min (ell - mp) (ell - m)) in ES by (unfold Thi; lia).
  assert (ET : Tlo (N - p) q = Z.max 0 (- mp - m)) by (unfold Tlo; lia). rewrite ET in ES.
  replace (N - p + 1)%Z with (ell - mp + 1)%Z in ES by lia. replace (N - q + 1)%Z with (ell - m + 1)%Z in ES by lia.
  replace (q - (N - p))%Z with (m + mp)%Z in ES by lia. split; [exact ES|].
  assert (G : forall al be, (RtoC (sgn (ell + m + Z.max 0 (- mp - m)) * (sqrt (wt N q / wt N (ell + - mp)) * bin (ell + - mp) (Z.max 0 (- mp - m)) *
     bin (ell - - mp) (ell - m - Z.max 0 (- mp - m)) * powerRZ (Cmod b) (N - m - mp - 2 * Z.max 0 (- mp - m))
                     * powerRZ (Cmod a) (m + mp + 2 * Z.max 0 (- mp - m)))) * cis (al * IZR (m + mp) + be * IZR (m - mp)) * RtoC S)%C =
     Dm N p q (RtoC (Cmod a) * cis al)%C (RtoC (Cmod b) * cis be)%C).
  { intros al be. rewrite (Dm_lt_polar N p q (Cmod a) (Cmod b) al be S) by (auto; lia).
    rewrite ET. replace (ell + - mp)%Z with (N - p)%Z by lia. replace (ell - - mp)%Z with p by lia.
    rewrite wt_flip. replace (N - q)%Z with (ell - m)%Z by lia.
    replace (N - p + (ell - m) - 2 * Z.max 0 (- mp - m))%Z with (N - m - mp - 2 * Z.max 0 (- mp - m))%Z by lia.
    replace (q - (N - p))%Z with (m + mp)%Z by lia.
    replace (q - p)%Z with (m - mp)%Z by lia. replace (p + q - N)%Z with (m + mp)%Z by lia.
    assert (SG : sgn (ell - m - Z.max 0 (- mp - m)) = sgn (ell + m + Z.max 0 (- mp - m))).
    { replace (ell - m - Z.max 0 (- mp - m))%Z with (ell + m + Z.max 0 (- mp - m) + 2 * (- m - Z.max 0 (- mp - m)))%Z by lia.
      rewrite (sgn_add (ell + m + Z.max 0 (- mp - m))), sgn_double. ring. }
    rewrite SG.
    rewrite !RtoC_mult. ring. }
  intros d ->. rewrite !crect_cis. unfold Dv. fold N p q. split.
  - rewrite (Rplus_comm (phase b * _)), G, !polar_spec. reflexivity.
  - replace ((phase b + PI) * IZR (m - mp) - phase a * IZR (m + mp)) with (- phase a * IZR (m + mp) + (phase b + PI) * IZR (m - mp)) by ring.
    rewrite G, <- polar_conj, <- polar_opp. reflexivity.
Qed.

(** ** Slots *)
Section Matrices.
Variables (W : Z -> Z -> Z -> C) (a b : C) (ell_min ell_max : Z).
Hypothesis (Hmin : (0 <= ell_min)%Z).

Definition valid (s : Z * Z * Z) : Prop := let '(ell, mp, m) := s in
  (ell_min <= ell <= ell_max /\ - ell <= mp <= ell /\ - ell <= m <= ell)%Z.
Definition slot (s : Z * Z * Z) : Z := let '(ell, mp, m) := s in LMpM_index ell mp m ell_min.
Definition right_value (s : Z * Z * Z) : C := let '(ell, mp, m) := s in W ell mp m.
Definition correct (mat : arr C) (s : Z * Z * Z) : Prop := aget mat (slot s) = right_value s.
Definition sized (mat : arr C) : Prop := alen mat = LMpM_total_size ell_min ell_max.

Lemma slot_bounds s : valid s -> (0 <= slot s < LMpM_total_size ell_min ell_max)%Z.
Proof. destruct s as [[ell mp] m]. intros (H1 & H2 & H3). apply LMpM_index_bounds; lia. Qed.
Lemma slot_inj s s' : valid s -> valid s' -> slot s = slot s' -> s = s'.
Proof.
  destruct s as [[ell mp] m], s' as [[ell' mp'] m']. intros (H1 & H2 & H3) (H1' & H2' & H3') E.
  apply LMpM_index_inj in E; try lia. destruct E as (-> & -> & ->). auto.
Qed.
Lemma linear_slot ell mp m : (linear_matrix_offset ell ell_min + linear_matrix_index ell mp m)%Z = slot (ell, mp, m).
Proof. destruct (C06_index ell mp m ell_min) as [E _]. exact E. Qed.
Lemma linear_diag_slot ell m : (linear_matrix_offset ell ell_min + linear_matrix_diagonal_index ell m)%Z = slot (ell, m, m).
Proof. destruct (C06_index ell m m ell_min) as [_ E]. exact E. Qed.

(** Writing the right value somewhere never spoils anything. *)
Lemma wr_right mat s v : sized mat -> valid s -> v = right_value s ->
  exists mat', wr mat (slot s) v = Ok mat' /\ sized mat'
    /\ correct mat' s /\ forall s', valid s' -> correct mat s' -> correct mat' s'.
Proof.
  intros Hs Hv ->. pose proof (slot_bounds s Hv). unfold sized in *. rewrite wr_ok by lia.
  eexists; split; [reflexivity|]. split; [exact Hs|]. unfold correct. cbn [aget]. split.
  - apply upd_same.
  - intros s' Hv' E. destruct (Z.eq_dec (slot s') (slot s)) as [E'|E'].
    + rewrite E', upd_same. f_equal. symmetry. now apply slot_inj.
    + rewrite upd_other by auto. auto.
Qed.

Definition images (ell mp m : Z) (s : Z * Z * Z) : Prop :=
  s = (ell, mp, m) \/ s = (ell, - mp, - m)%Z \/ s = (ell, m, mp) \/ s = (ell, - m, - mp)%Z.

Definition step_ok (ell mp m : Z) (mat mat' : arr C) : Prop :=
  sized mat' /\ (forall s, images ell mp m s -> correct mat' s)
  /\ (forall s, valid s -> correct mat s -> correct mat' s).

Lemma valid_image ell mp m s : valid (ell, mp, m) -> images ell mp m s -> valid s.
Proof. intros (H1 & H2 & H3) [->|[->|[->| ->]]]; unfold valid; lia. Qed.

Section Formula.
Hypothesis (HW : forall ell mp m, W ell mp m = Dv a b ell mp m).

Lemma symmetric_writes_ok ell mp m P1 P2 Sum mat : sized mat -> valid (ell, mp, m) ->
  (P1 * RtoC Sum)%C = Dv a b ell mp m ->
  (P2 * RtoC Sum)%C = Dv (Cconj a) (- b)%C ell mp m ->
  exists mat', D_symmetric_writes (linear_matrix_offset ell ell_min) ell mp m P1 P2 Sum mat = Ok mat'
    /\ step_ok ell mp m mat mat'.
Proof.
  intros Hs Hv E1 E2. pose proof Hv as (V1 & V2 & V3).
  assert (C1 : (Cconj P1 * RtoC Sum)%C = Cconj (Dv a b ell mp m)).
  { rewrite <- E1, Cconj_mult, Cconj_RtoC. auto. }
  assert (C2 : (Cconj P2 * RtoC Sum)%C = Dv a b ell m mp).
  { rewrite Dv_swap, <- E2, Cconj_mult, Cconj_RtoC by lia. auto. }
  assert (C3 : Dv a b ell (- m) (- mp) = (RtoC (sgn (m + mp)) * (P2 * RtoC Sum))%C).
  { rewrite Dv_neg by lia. rewrite <- C2, Cconj_mult, Cconj_conj, Cconj_RtoC, (Z.add_comm mp m). auto. }
  assert (C4 : Dv a b ell (- mp) (- m) = (RtoC (sgn (m + mp)) * (Cconj P1 * RtoC Sum))%C).
  { rewrite Dv_neg by lia. rewrite C1. auto. }
  unfold D_symmetric_writes. rewrite !linear_slot.
  destruct (wr_right mat (ell, mp, m) (P1 * RtoC Sum)%C Hs Hv (eq_trans E1 (eq_sym (HW _ _ _)))) as (m1 & W1 & S1 & K1 & Q1).
  rewrite W1. cbn [bind].
  assert (Vn : valid (ell, - mp, - m)%Z) by (unfold valid; lia).
  assert (Vt : valid (ell, m, mp)) by (unfold valid; lia).
  assert (Vnt : valid (ell, - m, - mp)%Z) by (unfold valid; lia).
  rewrite mod2_even. unfold sgn in C3, C4.
  destruct (Z.eqb_spec (Z.abs m) (Z.abs mp)) as [Eabs|Nabs]; cbn [negb].
  - destruct (Z.eqb_spec m 0) as [E0|N0]; cbn [negb].
    + subst m. exists m1. split; auto. split; auto. split; [|auto].
      assert (mp = 0%Z) as -> by lia. intros s [->|[->|[->| ->]]]; exact K1.
    + set (v := if Z.even (m + mp) then (Cconj P1 * RtoC Sum)%C else (- Cconj P1 * RtoC Sum)%C).
      destruct (wr_right m1 (ell, - mp, - m)%Z v S1 Vn) as (m2 & W2 & S2 & K2 & Q2).
      { unfold v, right_value. rewrite HW, C4. destruct (Z.even (m + mp)); rewrite ?RtoC_opp; ring. }
      exists m2. split.
      { unfold v in W2. destruct (Z.even (m + mp)); exact W2. }
      split; auto. split; [|auto].
      assert (D : m = mp \/ m = (- mp)%Z) by lia.
      destruct D as [-> | ->].
      * intros s [->|[->|[->| ->]]]; auto.
      * rewrite ?Z.opp_involutive in *. intros s [->|[->|[->| ->]]]; rewrite ?Z.opp_involutive; auto.
  - set (v := if Z.even (m + mp) then (Cconj P1 * RtoC Sum)%C else (- Cconj P1 * RtoC Sum)%C).
    set (w := if Z.even (m + mp) then (P2 * RtoC Sum)%C else (- P2 * RtoC Sum)%C).
    destruct (wr_right m1 (ell, - mp, - m)%Z v S1 Vn) as (m2 & W2 & S2 & K2 & Q2).
    { unfold v, right_value. rewrite HW, C4. destruct (Z.even (m + mp)); rewrite ?RtoC_opp; ring. }
    destruct (wr_right m2 (ell, - m, - mp)%Z w S2 Vnt) as (m3 & W3 & S3 & K3 & Q3).
    { unfold w, right_value. rewrite HW, C3. destruct (Z.even (m + mp)); rewrite ?RtoC_opp; ring. }
    destruct (wr_right m3 (ell, m, mp) (Cconj P2 * RtoC Sum)%C S3 Vt (eq_trans C2 (eq_sym (HW _ _ _)))) as (m4 & W4 & S4 & K4 & Q4).
    exists m4. split.
    { unfold v, w in *. destruct (Z.even (m + mp)); rewrite W2; cbn [bind]; rewrite W3; cbn [bind]; exact W4. }
    split; auto. split; [|auto].
    intros s [->|[->|[->| ->]]]; auto.
Qed.

Lemma zero_writes_ok ell mp m mat : sized mat -> valid (ell, mp, m) ->
  Dv a b ell mp m = RtoC 0 -> Dv (Cconj a) (- b)%C ell mp m = RtoC 0 ->
  exists mat', D_zero_writes (linear_matrix_offset ell ell_min) ell mp m mat = Ok mat'
    /\ step_ok ell mp m mat mat'.
Proof.
  intros Hs Hv E1 E2. pose proof Hv as (V1 & V2 & V3).
  assert (C2 : RtoC 0 = Dv a b ell m mp).
  { rewrite Dv_swap, E2, Cconj_RtoC by lia. auto. }
  assert (C3 : RtoC 0 = Dv a b ell (- m) (- mp)).
  { rewrite Dv_neg, <- C2, Cconj_RtoC by lia. ring. }
  assert (C4 : RtoC 0 = Dv a b ell (- mp) (- m)).
  { rewrite Dv_neg, E1, Cconj_RtoC by lia. ring. }
  unfold D_zero_writes. rewrite !linear_slot.
  destruct (wr_right mat (ell, mp, m) (RtoC 0) Hs Hv (eq_trans (eq_sym E1) (eq_sym (HW _ _ _)))) as (m1 & W1 & S1 & K1 & Q1).
  rewrite W1. cbn [bind].
  assert (Vn : valid (ell, - mp, - m)%Z) by (unfold valid; lia).
  assert (Vt : valid (ell, m, mp)) by (unfold valid; lia).
  assert (Vnt : valid (ell, - m, - mp)%Z) by (unfold valid; lia).
  destruct (wr_right m1 (ell, - mp, - m)%Z (RtoC 0) S1 Vn (eq_trans C4 (eq_sym (HW _ _ _)))) as (m2 & W2 & S2 & K2 & Q2).
  destruct (Z.eqb_spec (Z.abs m) (Z.abs mp)) as [Eabs|Nabs]; cbn [negb].
  - destruct (Z.eqb_spec m 0) as [E0|N0]; cbn [negb].
    + subst m. exists m1. split; auto. split; auto. split; [|auto].
      assert (mp = 0%Z) as -> by lia. intros s [->|[->|[->| ->]]]; exact K1.
    + exists m2. split; auto. split; auto. split; [|auto].
      assert (D : m = mp \/ m = (- mp)%Z) by lia.
      destruct D as [-> | ->].
      * intros s [->|[->|[->| ->]]]; auto.
      * rewrite ?Z.opp_involutive in *. intros s [->|[->|[->| ->]]]; rewrite ?Z.opp_involutive; auto.
  - rewrite W2. cbn [bind].
    destruct (wr_right m2 (ell, m, mp) (RtoC 0) S2 Vt (eq_trans C2 (eq_sym (HW _ _ _)))) as (m3 & W3 & S3 & K3 & Q3).
    destruct (wr_right m3 (ell, - m, - mp)%Z (RtoC 0) S3 Vnt (eq_trans C3 (eq_sym (HW _ _ _)))) as (m4 & W4 & S4 & K4 & Q4).
    rewrite W3. cbn [bind]. exists m4. split; auto. split; auto. split; [|auto].
    intros s [->|[->|[->| ->]]]; auto.
Qed.

Lemma D_matrix_ge_ok L tab ell mp m mat : is_Wigner_table L tab -> (ell_max <= L)%Z ->
  0 < Cmod a -> 0 < Cmod b -> sized mat -> valid (ell, mp, m) ->
  exists mat', D_matrix_ge tab (Cmod a) (Cmod b) (phase a) (phase b) (linear_matrix_offset ell ell_min) ell mp m mat = Ok mat'
    /\ step_ok ell mp m mat mat'.
Proof.
  intros Ht HL Ha Hb Hs Hv. pose proof Hv as (V1 & V2 & V3).
  destruct (int_ge L tab a b ell mp m Ht ltac:(lia) ltac:(lia) ltac:(lia) Ha Hb) as (c & S & EC & ES & EV).
  unfold D_matrix_ge. rewrite EC. cbn [bind]. rewrite ES. cbn [bind].
  rewrite mod2_even, sgn_ifR. destruct (EV _ eq_refl) as (X1 & X2).
  match goal with |- context [R_is_zero ?d] => destruct (R_is_zero d) eqn:EZ end.
  - apply R_is_zero_true in EZ. rewrite EZ in X1, X2.
    assert (Z0 : forall t u, (crect (sgn u * 0) t * RtoC S)%C = RtoC 0).
    { intros. rewrite crect_cis. rewrite Rmult_0_r. ring. }
    rewrite Z0 in X1, X2. apply zero_writes_ok; auto.
  - apply symmetric_writes_ok; auto.
Qed.

Lemma D_matrix_lt_ok L tab ell mp m mat : is_Wigner_table L tab -> (ell_max <= L)%Z ->
  0 < Cmod a -> 0 < Cmod b -> sized mat -> valid (ell, mp, m) ->
  exists mat', D_matrix_lt tab (Cmod a) (Cmod b) (phase a) (phase b) (linear_matrix_offset ell ell_min) ell mp m mat = Ok mat'
    /\ step_ok ell mp m mat mat'.
Proof.
  intros Ht HL Ha Hb Hs Hv. pose proof Hv as (V1 & V2 & V3).
  destruct (int_lt L tab a b ell mp m Ht ltac:(lia) ltac:(lia) ltac:(lia) Ha Hb) as (c & S & EC & ES & EV).
  unfold D_matrix_lt. rewrite EC. cbn [bind]. rewrite ES. cbn [bind].
  rewrite mod2_even, sgn_ifR. destruct (EV _ eq_refl) as (X1 & X2).
  match goal with |- context [R_is_zero ?d] => destruct (R_is_zero d) eqn:EZ end.
  - apply R_is_zero_true in EZ. rewrite EZ in X1, X2.
    assert (Z0 : forall t u, (crect (sgn u * 0) t * RtoC S)%C = RtoC 0).
    { intros. rewrite crect_cis. rewrite Rmult_0_r. ring. }
    rewrite Z0 in X1, X2. apply zero_writes_ok; auto.
  - apply symmetric_writes_ok; auto.
Qed.

End Formula.

(** The triple loop over the wedge. *)
Definition visited (ell mp m : Z) (s : Z * Z * Z) : Prop :=
  (let '(ell', _, _) := s in ell' < ell)%Z
  \/ exists mp' m', ((mp' < mp \/ (mp' = mp /\ m' < m)) /\ mp' <= 0 /\ mp' <= m' <= - mp')%Z /\ images ell mp' m' s.
Definition inv (ell mp m : Z) (mat : arr C) : Prop :=
  sized mat /\ forall s, valid s -> visited ell mp m s -> correct mat s.

Lemma wedge_covers ell mp m : (- ell <= mp <= ell)%Z -> (- ell <= m <= ell)%Z ->
  exists mp' m', (- ell <= mp' <= 0 /\ mp' <= m' <= - mp')%Z /\ images ell mp' m' (ell, mp, m).
Proof.
  intros Hmp Hm. unfold images.
  destruct (Z_le_gt_dec (Z.abs m) (Z.abs mp)).
  - destruct (Z_le_gt_dec mp 0).
    + exists mp, m. split; [lia|]. auto.
    + exists (- mp)%Z, (- m)%Z. split; [lia|]. right; left. rewrite !Z.opp_involutive. auto.
  - destruct (Z_le_gt_dec m 0).
    + exists m, mp. split; [lia|]. auto.
    + exists (- m)%Z, (- mp)%Z. split; [lia|]. right; right; right. rewrite !Z.opp_involutive. auto.
Qed.

Lemma wedge_loop body mat :
  (forall ell mp m mat, sized mat -> valid (ell, mp, m) -> exists mat', body ell mp m mat = Ok mat' /\ step_ok ell mp m mat mat') ->
  sized mat -> (ell_min <= ell_max + 1)%Z ->
  exists out, for_range ell_min (ell_max + 1) (fun ell mat =>
      for_range (- ell) 1 (fun mp mat => for_range mp (- mp + 1) (fun m mat => body ell mp m mat) mat) mat) mat = Ok out
    /\ sized out /\ forall s, valid s -> correct out s.
Proof.
  intros Hb Hs Hle.
  destruct (for_range_inv (fun ell mat => inv ell (- ell) (- ell) mat) ell_min (ell_max + 1)
    (fun ell mat => for_range (- ell) 1 (fun mp mat => for_range mp (- mp + 1) (fun m mat => body ell mp m mat) mat) mat) mat Hle)
    as (out & E & I).
  - split; auto. intros [[ell mp] m] (V1 & V2 & V3) [Hlt|(mp' & m' & H & Him)]; [lia|].
    exfalso. destruct Him as [X|[X|[X|X]]]; injection X; intros; lia.
  - intros ell mat0 Hell I0.
    destruct (for_range_inv (fun mp mat => inv ell mp mp mat) (- ell) 1
      (fun mp mat => for_range mp (- mp + 1) (fun m mat => body ell mp m mat) mat) mat0 ltac:(lia) I0)
      as (mat1 & E1 & I1).
    + intros mp mat1 Hmp I1.
      destruct (for_range_inv (fun m mat => inv ell mp m mat) mp (- mp + 1) (fun m mat => body ell mp m mat) mat1 ltac:(lia) I1)
        as (mat2 & E2 & I2).
      * intros m mat2 Hm (S2 & I2).
        destruct (Hb ell mp m mat2 S2) as (mat3 & E3 & S3 & Im3 & P3); [unfold valid; lia|].
        exists mat3. split; auto. split; auto. intros s Hv [Hlt|(mp' & m' & H & Him)].
        -- apply P3; auto. apply I2; auto. left; auto.
        -- destruct (Z.eq_dec mp' mp) as [->|]; [destruct (Z.eq_dec m' m) as [->|]|].
           ++ apply Im3; auto.
           ++ apply P3; auto. apply I2; auto. right. exists mp, m'. split; auto. lia.
           ++ apply P3; auto. apply I2; auto. right. exists mp', m'. split; auto. lia.
      * exists mat2. split; auto. destruct I2 as (S2 & I2). split; auto.
        intros s Hv [Hlt|(mp' & m' & H & Him)]; apply I2; auto.
        -- left; auto.
        -- right. exists mp', m'. split; auto. lia.
    + exists mat1. split; auto. destruct I1 as (S1 & I1). split; auto.
      intros s Hv [Hlt|(mp' & m' & H & Him)].
      * destruct s as [[ell' mp'] m']. destruct (Z.eq_dec ell' ell) as [->|].
        -- apply I1; auto. right. destruct Hv as (V1 & V2 & V3).
           destruct (wedge_covers ell mp' m' V2 V3) as (u & w & Hu & Him). exists u, w. split; auto. lia.
        -- apply I1; auto. left. lia.
      * exfalso. destruct s as [[ell' mp''] m'']. destruct Hv as (V1 & V2 & V3).
        destruct Him as [X|[X|[X|X]]]; injection X; intros; lia.
  - exists out. split; auto. destruct I as (S & I). split; auto.
    intros s Hv. apply I; auto. left. destruct s as [[ell' mp'] m']. destruct Hv. lia.
Qed.

(** The degenerate branches: clear a block, then write one (anti)diagonal. *)
Lemma block_loop_zero ell mat : sized mat -> (ell_min <= ell <= ell_max)%Z ->
  exists mat', for_range 0 ((2 * ell + 1) ^ 2) (fun i mat => wr mat (linear_matrix_offset ell ell_min + i) (RtoC 0)) mat = Ok mat'
   /\ sized mat'
   /\ (forall mp m, valid (ell, mp, m) -> aget mat' (slot (ell, mp, m)) = RtoC 0)
   /\ (forall ell' mp m, valid (ell', mp, m) -> ell' <> ell -> aget mat' (slot (ell', mp, m)) = aget mat (slot (ell', mp, m))).
Proof.
  intros Hs Hell. set (o := linear_matrix_offset ell ell_min). set (n := ((2 * ell + 1) ^ 2)%Z).
  assert (Hn : (0 <= n)%Z) by (unfold n; nia).
  assert (Ho : (0 <= o)%Z /\ (o + n <= LMpM_total_size ell_min ell_max)%Z).
  { unfold o, n. destruct (C06_tile ell_min ell_max) as (_ & _ & _ & T).
    rewrite <- T. rewrite !linear_matrix_offset_eq, LMpM_total_size_eq.
    pose proof (cub_mono ell_min ell ltac:(lia) ltac:(lia)).
    pose proof (cub_mono (ell + 1) (ell_max + 1) ltac:(lia) ltac:(lia)). lia. }
  destruct (for_range_inv (fun k mat' => sized mat' /\ forall i, aget mat' i = if (o <=? i)%Z && (i <? o + k)%Z then RtoC 0 else aget mat i)
     0 n (fun i mat => wr mat (o + i) (RtoC 0)) mat Hn) as (mat' & E & S' & G).
  - split; auto. intros i. replace ((o <=? i)%Z && (i <? o + 0)%Z) with false; auto.
    symmetry. apply andb_false_iff. destruct (Z.leb_spec o i); auto. right. apply Z.ltb_ge. lia.
  - intros k m0 Hk (S0 & G0). unfold sized in *. rewrite wr_ok by lia. eexists; split; [reflexivity|]. split; auto.
    intros i. cbn [aget]. unfold upd. rewrite G0.
    destruct (Z.eqb_spec i (o + k)), (Z.leb_spec o i), (Z.ltb_spec i (o + k)), (Z.ltb_spec i (o + (k + 1))); cbn [andb]; auto; lia.
  - exists mat'. split; auto. split; auto.
    assert (B : forall ell' mp m, valid (ell', mp, m) -> ((o <= slot (ell', mp, m) < o + n)%Z <-> ell' = ell)).
    { intros ell' mp m (V1 & V2 & V3).
      unfold slot, o, n. destruct (C06_tile ell_min ell_max) as (_ & _ & _ & T). rewrite <- T.
      rewrite LMpM_index_eq, !linear_matrix_offset_eq. pose proof (cub_succ ell') as CS.
      split.
      - intros H. destruct (Z.lt_trichotomy ell' ell) as [X|[X|X]]; auto; exfalso.
        + pose proof (cub_mono (ell' + 1) ell ltac:(lia) ltac:(lia)). nia.
        + pose proof (cub_mono (ell + 1) ell' ltac:(lia) ltac:(lia)). nia.
      - intros ->. nia. }
    split.
    + intros mp m V. rewrite G. destruct (B ell mp m V) as [_ B']. specialize (B' eq_refl).
      replace ((o <=? slot (ell, mp, m))%Z && (slot (ell, mp, m) <? o + n)%Z) with true; auto.
      symmetry. apply andb_true_iff. split; [apply Z.leb_le|apply Z.ltb_lt]; lia.
    + intros ell' mp m V N. rewrite G. destruct (B ell' mp m V) as [B' _].
      destruct (Z.leb_spec o (slot (ell', mp, m))), (Z.ltb_spec (slot (ell', mp, m)) (o + n)); cbn [andb]; auto.
      exfalso. apply N, B'. lia.
Qed.

Lemma degenerate_loop (mps : Z -> Z) (v : Z -> Z -> C) mat :
  (forall k ell, (- ell <= k <= ell)%Z -> (- ell <= mps k <= ell)%Z) ->
  (forall ell k, (ell_min <= ell <= ell_max)%Z -> (- ell <= k <= ell)%Z -> v ell k = W ell k (mps k)) ->
  (forall ell k m, (ell_min <= ell <= ell_max)%Z -> (- ell <= k <= ell)%Z -> (- ell <= m <= ell)%Z -> m <> mps k -> W ell k m = RtoC 0) ->
  sized mat -> (ell_min <= ell_max + 1)%Z ->
  exists out, for_range ell_min (ell_max + 1) (fun ell mat =>
      do mat <- for_range 0 ((2 * ell + 1) ^ 2) (fun i mat => wr mat (linear_matrix_offset ell ell_min + i) (RtoC 0)) mat;
      for_range (- ell) (ell + 1) (fun k mat => wr mat (slot (ell, k, mps k)) (v ell k)) mat) mat = Ok out
    /\ sized out /\ forall s, valid s -> correct out s.
Proof.
  intros Hmps Hv H0 Hs Hle.
  destruct (for_range_inv (fun ell mat => sized mat /\ forall ell' mp m, valid (ell', mp, m) -> (ell' < ell)%Z -> correct mat (ell', mp, m))
    ell_min (ell_max + 1) (fun ell mat =>
      do mat <- for_range 0 ((2 * ell + 1) ^ 2) (fun i mat => wr mat (linear_matrix_offset ell ell_min + i) (RtoC 0)) mat;
      for_range (- ell) (ell + 1) (fun k mat => wr mat (slot (ell, k, mps k)) (v ell k)) mat) mat Hle) as (out & E & S & I).
  - split; auto. intros ell' mp m (V1 & _) H. lia.
  - intros ell mat0 Hell (S0 & I0).
    destruct (block_loop_zero ell mat0 S0 ltac:(lia)) as (m1 & E1 & S1 & Z1 & K1). rewrite E1. cbn [bind].
    destruct (for_range_inv (fun k mat => sized mat
        /\ (forall ell' mp m, valid (ell', mp, m) -> (ell' < ell)%Z \/ (ell' = ell /\ (mp < k \/ m <> mps mp))%Z -> correct mat (ell', mp, m)))
      (- ell) (ell + 1) (fun k mat => wr mat (slot (ell, k, mps k)) (v ell k)) m1 ltac:(lia)) as (m2 & E2 & S2 & I2).
    + split; auto. intros ell' mp m V [H|(-> & H)].
      * unfold correct. rewrite K1 by (auto; lia). apply I0; auto.
      * destruct V as (V1 & V2 & V3). unfold correct. rewrite Z1 by (unfold valid; lia).
        unfold right_value. symmetry. apply H0; lia.
    + intros k m2 Hk (S2 & I2).
      destruct (wr_right m2 (ell, k, mps k) (v ell k) S2) as (m3 & E3 & S3 & C3 & P3).
      { unfold valid. specialize (Hmps k ell ltac:(lia)). lia. }
      { unfold right_value. apply Hv; lia. }
      exists m3. split; auto. split; auto. intros ell' mp m V [H|(-> & H)].
      * apply P3; auto.
      * destruct (Z.eq_dec mp k) as [->|]; [destruct (Z.eq_dec m (mps k)) as [->|]|].
        -- exact C3.
        -- apply P3; auto.
        -- apply P3; auto. apply I2; auto. right. split; auto. lia.
    + exists m2. split; auto. split; auto. intros ell' mp m V H. apply I2; auto.
      destruct (Z.eq_dec ell' ell) as [->|]; [|left; lia]. right. split; auto. left. destruct V as (V1 & V2 & V3). lia.
  - exists out. split; auto. split; auto. intros [[ell' mp] m] V. apply I; auto. destruct V. lia.
Qed.
End Matrices.

(** The element the code computes, integer indices. *)
Definition Dcv (a b : C) (ell mp m : Z) : C := Dc (2 * ell) (ell + mp) (ell + m) a b.

Theorem Wigner_D_matrices_code L tab a b ell_min ell_max mat :
  is_Wigner_table L tab -> (0 <= ell_min <= ell_max + 1)%Z -> (ell_max <= L)%Z ->
  alen mat = LMpM_total_size ell_min ell_max ->
  exists out, Wigner_D_matrices_core tab a b ell_min ell_max mat = Ok out
    /\ alen out = LMpM_total_size ell_min ell_max
    /\ forall ell mp m, (ell_min <= ell <= ell_max)%Z -> (- ell <= mp <= ell)%Z -> (- ell <= m <= ell)%Z ->
         aget out (LMpM_index ell mp m ell_min) = Dcv a b ell mp m.
Proof.
  intros Ht Hmin HL Hlen.
  assert (G : exists out, Wigner_D_matrices_core tab a b ell_min ell_max mat = Ok out
     /\ sized ell_min ell_max out /\ forall s, valid ell_min ell_max s -> correct (Dcv a b) ell_min out s).
  2:{ destruct G as (out & E & S & I). exists out. split; auto. split; auto.
      intros ell mp m H1 H2 H3. exact (I (ell, mp, m) (conj H1 (conj H2 H3))). }
  unfold Wigner_D_matrices_core.
  destruct (Rleb (Cmod a) epsilon) eqn:E1; [|destruct (Rleb (Cmod b) epsilon) eqn:E2].
  - destruct (degenerate_loop (Dcv a b) ell_min ell_max ltac:(lia) (fun k => - k)%Z
      (fun ell mpmm => if ((ell + mpmm) mod 2 =? 0)%Z then Cpowz b (-2 * mpmm) else (- Cpowz b (-2 * mpmm))%C) mat) as (out & E & P); auto; try lia.
    + intros ell k He Hk. unfold Dcv, Dc. rewrite E1.
      destruct (Z.eqb_spec (ell + - k) (2 * ell - (ell + k))); [|lia].
      replace (2 * (ell + - k) - 2 * ell)%Z with (-2 * k)%Z by lia.
      rewrite mod2_even. unfold sgn. destruct (Z.even (ell + k)); rewrite ?RtoC_opp; ring.
    + intros ell k m He Hk Hm N. unfold Dcv, Dc. rewrite E1.
      destruct (Z.eqb_spec (ell + m) (2 * ell - (ell + k))); auto. lia.
    + exists out. split; [|exact P]. rewrite <- E. apply for_loop_ext. intros k s Hk. cbv zeta.
      destruct (for_range 0 _ _ s); cbn [bind]; auto.
      apply for_loop_ext. intros k' s' Hk'. rewrite linear_slot. reflexivity.
  - destruct (degenerate_loop (Dcv a b) ell_min ell_max ltac:(lia) (fun k => k)%Z
      (fun ell mpm => Cpowz a (2 * mpm)) mat) as (out & E & P); auto; try lia.
    + intros ell k He Hk. unfold Dcv, Dc. rewrite E1, E2.
      rewrite Z.eqb_refl. f_equal. lia.
    + intros ell k m He Hk Hm N. unfold Dcv, Dc. rewrite E1, E2.
      destruct (Z.eqb_spec (ell + k) (ell + m)); auto. lia.
    + exists out. split; [|exact P]. rewrite <- E. apply for_loop_ext. intros k s Hk. cbv zeta.
      destruct (for_range 0 _ _ s); cbn [bind]; auto.
      apply for_loop_ext. intros k' s' Hk'. rewrite linear_diag_slot. reflexivity.
  - assert (HW : forall ell mp m, Dcv a b ell mp m = Dv a b ell mp m) by (intros; unfold Dcv, Dc; rewrite E1, E2; auto).
    apply Rleb_false_pos in E1, E2.
    destruct (Rltb (Cmod a) (Cmod b)).
    + apply (wedge_loop (Dcv a b) ell_min ell_max); auto; try lia. intros. apply (D_matrix_lt_ok (Dcv a b) a b ell_min ell_max ltac:(lia) HW L); auto.
    + apply (wedge_loop (Dcv a b) ell_min ell_max); auto; try lia. intros. apply (D_matrix_ge_ok (Dcv a b) a b ell_min ell_max ltac:(lia) HW L); auto.
Qed.

Theorem Wigner_D_matrices_ok L tab a b ell_min ell_max mat :
  is_Wigner_table L tab -> (0 <= ell_min <= ell_max + 1)%Z -> (ell_max <= L)%Z ->
  (a * Cconj a + b * Cconj b)%C = RtoC 1 -> resolved a -> resolved b ->
  alen mat = LMpM_total_size ell_min ell_max ->
  exists out, Wigner_D_matrices_core tab a b ell_min ell_max mat = Ok out
    /\ alen out = LMpM_total_size ell_min ell_max
    /\ forall ell mp m, (ell_min <= ell <= ell_max)%Z -> (- ell <= mp <= ell)%Z -> (- ell <= m <= ell)%Z ->
         aget out (LMpM_index ell mp m ell_min) = Dv a b ell mp m.
Proof.
  intros Ht Hmin HL U Ra Rb Hlen. destruct (Wigner_D_matrices_code L tab a b ell_min ell_max mat Ht Hmin HL Hlen) as (out & E & A & B).
  exists out. split; auto. split; auto. intros. rewrite B by auto. apply Dc_resolved; auto; lia.
Qed.

Theorem Wigner_D_elements_code L tab Rs ell mp m values :
  is_Wigner_table L tab -> (ell <= L)%Z -> (0 <= alen Rs <= alen values)%Z ->
  exists out, Wigner_D_elements_core tab Rs ell mp m values = Ok out
    /\ alen out = alen values
    /\ (forall i, (0 <= i < alen Rs)%Z ->
          aget out i = D_code (2 * ell, 2 * mp, 2 * m)%Z (qa (aget Rs i)) (qb (aget Rs i)))
    /\ (forall i, (alen Rs <= i)%Z -> aget out i = aget values i).
Proof.
  intros Ht HL Hlen. unfold Wigner_D_elements_core.
  destruct ((Z.abs m >? ell) || (Z.abs mp >? ell))%Z eqn:EO.
  - destruct (fill_loop (fun i => Ok (RtoC 0)) (fun _ => RtoC 0) (alen Rs) values Hlen ltac:(auto)) as (out & E & A & B & D).
    exists out. split; [exact E|]. split; auto. split; auto. intros i Hi. rewrite B by auto.
    unfold D_code. replace (in_range (2 * ell, 2 * mp, 2 * m)%Z) with false; auto.
    unfold in_range. symmetry. apply orb_true_iff in EO.
    apply andb_false_iff. destruct EO as [X|X]; [right|left]; apply Z.leb_gt; lia.
  - apply orb_false_iff in EO. destruct EO as [O1 O2].
    assert (Hm : (- ell <= m <= ell)%Z) by lia. assert (Hmp : (- ell <= mp <= ell)%Z) by lia.
    assert (HD : forall a b, D_code (2 * ell, 2 * mp, 2 * m)%Z a b = Dcv a b ell mp m).
    { intros a b. unfold D_code, Dcv. replace (in_range (2 * ell, 2 * mp, 2 * m)%Z) with true.
      - replace (2 * ell + 2 * mp)%Z with ((ell + mp) * 2)%Z by lia. replace (2 * ell + 2 * m)%Z with ((ell + m) * 2)%Z by lia.
        rewrite !Z.div_mul by lia. auto.
      - symmetry. unfold in_range. apply andb_true_iff. split; apply Z.leb_le; lia. }
    rewrite (coefficient_ok L tab ell mp m) by (auto; lia). cbn [bind].
    rewrite (coefficient_ok L tab ell (- mp) m) by (auto; lia). cbn [bind].
    match goal with |- context [for_range 0 (alen Rs) ?f values] => set (body := f) end.
    destruct (for_range_inv (fun k o => alen o = alen values
        /\ (forall i, (0 <= i < k)%Z -> aget o i = D_code (2 * ell, 2 * mp, 2 * m)%Z (qa (aget Rs i)) (qb (aget Rs i)))
        /\ (forall i, (alen Rs <= i)%Z -> aget o i = aget values i)) 0 (alen Rs) body values ltac:(lia)) as (out & E & A & B & D).
    + repeat split; auto. intros; lia.
    + intros i o Hi (A & B & D). 
      set (q := aget Rs i) in *.
      assert (HW : exists v, v = Dcv (qa q) (qb q) ell mp m /\ body i o = wr o i v).
      { unfold body. rewrite rd_ok by lia. cbn [bind]. fold q. fold (qa q). fold (qb q).
        destruct (Rleb (Cmod (qa q)) epsilon) eqn:E1; [|destruct (Rleb (Cmod (qb q)) epsilon) eqn:E2].
        - eexists. split; [|reflexivity]. unfold Dcv, Dc. rewrite E1.
          rewrite mod2_even. unfold sgn.
          destruct (Z.eqb_spec mp (- m)), (Z.eqb_spec (ell + m) (2 * ell - (ell + mp))); try lia; cbn [negb]; auto.
          replace (2 * (ell + m) - 2 * ell)%Z with (-2 * mp)%Z by lia.
          destruct (Z.even (ell + mp)); rewrite ?RtoC_opp; ring.
        - eexists. split; [|reflexivity]. unfold Dcv, Dc. rewrite E1, E2.
          destruct (Z.eqb_spec mp m), (Z.eqb_spec (ell + mp) (ell + m)); try lia; cbn [negb]; auto.
          f_equal. lia.
        - replace (Dcv (qa q) (qb q) ell mp m) with (Dv (qa q) (qb q) ell mp m) by (unfold Dcv, Dc; rewrite E1, E2; auto).
          apply Rleb_false_pos in E1, E2. rename E1 into H. rename E2 into H'.
          destruct (Rltb (Cmod (qa q)) (Cmod (qb q))).
          + destruct (int_lt L tab (qa q) (qb q) ell mp m Ht ltac:(lia) Hmp Hm H H') as (c & S & EC & ES & EV).
            rewrite (coefficient_ok L tab ell (- mp) m) in EC by (auto; lia). apply Ok_inj in EC; subst c.
            replace (- m - mp)%Z with (- mp - m)%Z by lia.
            rewrite mod2_even, sgn_ifR.
            replace (Z.max 0 (- m - mp)) with (Z.max 0 (- mp - m)) by (f_equal; lia).
            rewrite ES. cbn [bind]. destruct (EV _ eq_refl) as (X1 & _).
            match goal with |- context [R_is_zero ?d] => destruct (R_is_zero d) eqn:EZ end.
            * apply R_is_zero_true in EZ. eexists. split; [|reflexivity]. rewrite <- X1.
              match goal with |- context [crect ?d _] => replace d with 0 by (rewrite <- EZ; ring) end. rewrite crect_cis. ring.
            * eexists. split; [|reflexivity]. rewrite <- X1. rewrite <- !Rmult_assoc. reflexivity.
          + destruct (int_ge L tab (qa q) (qb q) ell mp m Ht ltac:(lia) Hmp Hm H H') as (c & S & EC & ES & EV).
            rewrite (coefficient_ok L tab ell mp m) in EC by (auto; lia). apply Ok_inj in EC; subst c.
            rewrite mod2_even, sgn_ifR.
            rewrite ES. cbn [bind]. destruct (EV _ eq_refl) as (X1 & _).
            match goal with |- context [R_is_zero ?d] => destruct (R_is_zero d) eqn:EZ end.
            * apply R_is_zero_true in EZ. eexists. split; [|reflexivity]. rewrite <- X1.
              match goal with |- context [crect ?d _] => replace d with 0 by (rewrite <- EZ; ring) end. rewrite crect_cis. ring.
            * eexists. split; [|reflexivity]. rewrite <- X1. rewrite <- !Rmult_assoc. reflexivity. }
      destruct HW as (v & Ev & Eb). rewrite Eb, wr_ok by lia. eexists; split; [reflexivity|].
      cbn [alen aget]. split; auto. split.
      * intros j Hj. destruct (Z.eq_dec j i) as [->|]; [rewrite upd_same, HD, Ev; auto|]. rewrite upd_other by auto. apply B. lia.
      * intros j Hj. rewrite upd_other by lia. auto.
    + exists out. auto.
Qed.

Theorem Wigner_D_elements_ok L tab Rs ell mp m values :
  is_Wigner_table L tab -> (ell <= L)%Z -> (0 <= alen Rs <= alen values)%Z ->
  (forall i, (0 <= i < alen Rs)%Z -> unit_quat (aget Rs i) /\ resolved (qa (aget Rs i)) /\ resolved (qb (aget Rs i))) ->
  exists out, Wigner_D_elements_core tab Rs ell mp m values = Ok out
    /\ alen out = alen values
    /\ (forall i, (0 <= i < alen Rs)%Z ->
          aget out i = D_value (2 * ell, 2 * mp, 2 * m)%Z (qa (aget Rs i)) (qb (aget Rs i)))
    /\ (forall i, (alen Rs <= i)%Z -> aget out i = aget values i).
Proof.
  intros Ht HL Hlen HR. destruct (Wigner_D_elements_code L tab Rs ell mp m values Ht HL Hlen) as (out & E & A & B & D).
  exists out. split; auto. split; auto. split; auto. intros i Hi. rewrite B by auto. destruct (HR i Hi) as (Uq & Ra & Rb).
  apply (D_code_value L); auto using unit_norm.
  intros EI. split; [lia|]. unfold in_range in EI. apply andb_true_iff in EI. destruct EI as [X Y]. apply Z.leb_le in X, Y.
  repeat split; auto; rewrite <- Z.mul_add_distr_l, Z.even_mul; auto.
Qed.
