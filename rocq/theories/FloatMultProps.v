(** Statements about the product of Modes objects in double precision. *)
Require Import ZArith Lia List Reals Lra Bool.
From Flocq Require Import Core.
From Coquelicot Require Import Complex.
From Verif Require Import Base BaseProofs CBase CSum RSum Fact IndexModel IndexProofs SWSHModel WignerProofs ThreeJSpec ThreeJ ThreeJ2 Wigner3jModel Wigner3jSpec
  Wigner3jWs Wigner3jFwd Wigner3jProofs Wigner3jProps ModesModel ModesSpec ModesProofs ModesProofs2 ModesProofs3 ModesProps2 MultModel MultSpec MultProofs MultProps NearProps OrthoProofs.
From Verif Require Import FloatIndexModel FloatIndexProofs FloatPowersModel FloatPowersSpec FloatPowersProofs FloatPowersProps
  FloatConvModel FloatConvSpec FloatConvProofs FloatWignerModel FloatModesModel FloatModesSpec FloatModesProofs FloatModesProofs2 FloatModesProofs4 FloatPartsProofs
  FloatThreeJModel FloatThreeJProofs FloatThreeJProps FloatThreeJSame FloatThreeJSameProps FloatLog FloatMultModel FloatMultSpec FloatMultProofs FloatMultProofs2.
Import ListNotations.
Set Bullet Behavior "Strict Subproofs".
Open Scope R_scope.

(** ** Collapsing the accumulated sums *)
Definition tri (l1 l2 l : Z) : bool := ((Z.abs (l1 - l2) <=? l) && (l <=? l1 + l2))%Z.

Lemma ccollapse L1 L2 L X idx l m : (0 <= l <= L)%Z -> (- l <= m <= l)%Z ->
  cnest L1 L2 L 0 0 X idx (LM_index l m 0)
  = csum 0 L1 (fun l1 => csum (- l1) l1 (fun m1 => csum 0 L2 (fun l2 =>
      if (Z.abs (m - m1) <=? l2)%Z then (if tri l1 l2 l then X idx l1 m1 l2 (m - m1)%Z l else RtoC 0) else RtoC 0))).
Proof.
  intros Hl Hm. unfold cnest. apply csum_ext. intros l1 H1. apply csum_ext. intros m1 Hm1. apply csum_ext. intros l2 H2.
  assert (T : forall m2 l3, (Z.abs (m1 + m2) <= l3)%Z -> (l3 <> l \/ m2 <> m - m1)%Z ->
    (if (LM_index l m 0 =? LM_index l3 (m1 + m2) 0)%Z then X idx l1 m1 l2 m2 l3 else RtoC 0) = RtoC 0).
  { intros m2 l3 H3 N. destruct (Z.eqb_spec (LM_index l m 0) (LM_index l3 (m1 + m2) 0)) as [E|E]; auto. apply LM_index_inj in E; lia. }
  assert (I : forall m2, csum (Z.max (Z.abs (m1 + m2)) (Z.abs (l1 - l2))) (Z.min (l1 + l2) L) (fun l3 => if (LM_index l m 0 =? LM_index l3 (m1 + m2) 0)%Z then X idx l1 m1 l2 m2 l3 else RtoC 0)
    = if (m2 =? m - m1)%Z then (if tri l1 l2 l then X idx l1 m1 l2 (m - m1)%Z l else RtoC 0) else RtoC 0).
  { intros m2. destruct (Z.eqb_spec m2 (m - m1)) as [->|E].
    - unfold tri. destruct (Z.leb_spec (Z.abs (l1 - l2)) l) as [A|A]; cbn [andb].
      + destruct (Z.leb_spec l (l1 + l2)) as [A'|A'].
        * rewrite (csum_delta _ _ l); try lia.
          -- replace (m1 + (m - m1))%Z with m by lia. rewrite Z.eqb_refl. reflexivity.
          -- intros i Hi Ni. apply T; lia.
        * apply csum_zero. intros. apply T; lia.
      + apply csum_zero. intros. apply T; lia.
    - apply csum_zero. intros. apply T; lia. }
  rewrite (csum_ext _ _ _ _ (fun m2 _ => I m2)). destruct (Z.leb_spec (Z.abs (m - m1)) l2) as [A|A].
  - rewrite (csum_delta _ _ (m - m1)%Z); try lia.
    + rewrite Z.eqb_refl. reflexivity.
    + intros i Hi N. apply Z.eqb_neq in N. rewrite N. reflexivity.
  - apply csum_zero. intros i Hi. destruct (Z.eqb_spec i (m - m1)); [lia|reflexivity].
Qed.

Lemma cnest_RtoC L1 L2 L X idx k : RtoC (nest L1 L2 L 0 0 X idx k) = cnest L1 L2 L 0 0 (fun idx l1 m1 l2 m2 l => RtoC (X idx l1 m1 l2 m2 l)) idx k.
Proof.
  unfold nest, cnest. rewrite rsum_RtoC. apply csum_ext. intros. rewrite rsum_RtoC. apply csum_ext. intros. rewrite rsum_RtoC. apply csum_ext. intros.
  rewrite rsum_RtoC. apply csum_ext. intros. rewrite rsum_RtoC. apply csum_ext. intros. unfold at_. destruct (_ =? _)%Z; reflexivity.
Qed.
Lemma rcollapse L1 L2 L X idx l m : (0 <= l <= L)%Z -> (- l <= m <= l)%Z ->
  nest L1 L2 L 0 0 X idx (LM_index l m 0) = over_pairs L1 L2 m (fun l1 m1 l2 m2 => if tri l1 l2 l then X idx l1 m1 l2 m2 l else 0).
Proof.
  intros Hl Hm. apply RtoC_inj. rewrite cnest_RtoC, ccollapse by auto. unfold over_pairs. rewrite rsum_RtoC. apply csum_ext. intros. rewrite rsum_RtoC. apply csum_ext. intros.
  rewrite rsum_RtoC. apply csum_ext. intros. destruct (_ <=? _)%Z; auto. destruct (tri _ _ _); reflexivity.
Qed.

(** ** Sums over pairs *)
Lemma over_pairs_le L1 L2 m X Y :
  (forall l1 m1 l2, (0 <= l1 <= L1)%Z -> (Z.abs m1 <= l1)%Z -> (0 <= l2 <= L2)%Z -> (Z.abs (m - m1) <= l2)%Z -> X l1 m1 l2 (m - m1)%Z <= Y l1 m1 l2 (m - m1)%Z) ->
  over_pairs L1 L2 m X <= over_pairs L1 L2 m Y.
Proof.
  intros H. unfold over_pairs. apply rsum_le. intros l1 H1. apply rsum_le. intros m1 Hm1. apply rsum_le. intros l2 H2. destruct (Z.leb_spec (Z.abs (m - m1)) l2); [|lra]. apply H; lia.
Qed.
Lemma over_pairs_ext L1 L2 m X Y :
  (forall l1 m1 l2, (0 <= l1 <= L1)%Z -> (Z.abs m1 <= l1)%Z -> (0 <= l2 <= L2)%Z -> (Z.abs (m - m1) <= l2)%Z -> X l1 m1 l2 (m - m1)%Z = Y l1 m1 l2 (m - m1)%Z) ->
  over_pairs L1 L2 m X = over_pairs L1 L2 m Y.
Proof. intros H. apply Rle_antisym; apply over_pairs_le; intros; rewrite H by auto; lra. Qed.
Lemma over_pairs_scal L1 L2 m k X : over_pairs L1 L2 m (fun l1 m1 l2 m2 => k * X l1 m1 l2 m2) = k * over_pairs L1 L2 m X.
Proof.
  unfold over_pairs. rewrite <- rsum_scal. apply rsum_ext. intros. rewrite <- rsum_scal. apply rsum_ext. intros. rewrite <- rsum_scal. apply rsum_ext. intros.
  destruct (_ <=? _)%Z; ring.
Qed.
Lemma over_pairs_nonneg L1 L2 m X : (forall l1 m1 l2 m2, 0 <= X l1 m1 l2 m2) -> 0 <= over_pairs L1 L2 m X.
Proof.
  intros H. unfold over_pairs. apply rsum_nonneg. intros. apply rsum_nonneg. intros. apply rsum_nonneg. intros. destruct (_ <=? _)%Z; [apply H|lra].
Qed.
Lemma over_pairs_zero L1 L2 m X :
  (forall l1 m1 l2, (0 <= l1 <= L1)%Z -> (Z.abs m1 <= l1)%Z -> (0 <= l2 <= L2)%Z -> (Z.abs (m - m1) <= l2)%Z -> X l1 m1 l2 (m - m1)%Z = 0) -> over_pairs L1 L2 m X = 0.
Proof.
  intros H. unfold over_pairs. apply rsum_zero. intros. apply rsum_zero. intros. apply rsum_zero. intros. destruct (Z.leb_spec (Z.abs (m - i0)) i1); auto. apply H; lia.
Qed.
Lemma over_pairs_count L1 L2 m X : (0 <= L1)%Z -> (0 <= L2)%Z -> (L1 + L2 <= 1447)%Z -> (forall l1 m1 l2 m2, X l1 m1 l2 m2 <= 1) -> over_pairs L1 L2 m X <= 7 * 10 ^ 9.
Proof.
  intros H1 H2 H3 H.
  assert (A : forall l1 m1, rsum 0 L2 (fun l2 => if (Z.abs (m - m1) <=? l2)%Z then X l1 m1 l2 (m - m1)%Z else 0) <= 1448).
  { intros l1 m1. eapply Rle_trans; [apply (rsum_le _ _ _ (fun _ => 1)); intros; destruct (_ <=? _)%Z; [apply H|lra]|].
    rewrite rsum_const by lia. rewrite Rmult_1_r. apply (IZR_le _ 1448). lia. }
  assert (B : forall l1, (0 <= l1 <= L1)%Z -> rsum (- l1) l1 (fun m1 => rsum 0 L2 (fun l2 => if (Z.abs (m - m1) <=? l2)%Z then X l1 m1 l2 (m - m1)%Z else 0)) <= 2895 * 1448).
  { intros l1 Hl. eapply Rle_trans; [apply (rsum_le _ _ _ (fun _ => 1448)); intros; apply A|]. rewrite rsum_const by lia. apply Rmult_le_compat_r; [lra|]. apply (IZR_le _ 2895). lia. }
  unfold over_pairs. eapply Rle_trans; [apply (rsum_le _ _ _ (fun _ => 2895 * 1448)); intros; apply B; lia|]. rewrite rsum_const by lia.
  apply Rle_trans with (1448 * (2895 * 1448)); [|simpl; lra]. apply Rmult_le_compat_r; [lra|]. apply (IZR_le _ 1448). lia.
Qed.

Lemma nonzero_bd z : 0 <= nonzero z <= 1.
Proof. unfold nonzero. destruct (Ceq_dec _ _); lra. Qed.
Lemma pairs_bd L1 L2 u v l m : (0 <= L1)%Z -> (0 <= L2)%Z -> (L1 + L2 <= 1447)%Z -> 0 <= pairs L1 L2 u v l m <= 7 * 10 ^ 9.
Proof.
  intros H1 H2 H3. unfold pairs. split.
  - apply over_pairs_nonneg. intros. destruct (_ && _); [|lra]. apply Rmult_le_pos; apply nonzero_bd.
  - apply over_pairs_count; auto. intros. destruct (_ && _); [|lra]. pose proof (nonzero_bd (u l1 m1)). pose proof (nonzero_bd (v l2 m2)).
    rewrite <- (Rmult_1_l 1). apply Rmult_le_compat; lra.
Qed.
Lemma abs_weight_nonneg c L1 L2 u v l m : 0 <= abs_weight c L1 L2 u v l m.
Proof. apply over_pairs_nonneg. intros. apply Rmult_le_pos; [apply Rmult_le_pos; [apply Rabs_pos|]|]; apply Cmod_ge_0. Qed.
Lemma underflow_nonneg L1 L2 u v l m : 0 <= underflow L1 L2 u v l m.
Proof.
  unfold underflow. apply Rmult_le_pos; [apply Rlt_le, Rinv_0_lt_compat, pow_lt; lra|]. apply over_pairs_nonneg. intros.
  pose proof (nonzero_bd (u l1 m1)). pose proof (nonzero_bd (v l2 m2)). pose proof (Cmod_ge_0 (u l1 m1)). pose proof (Cmod_ge_0 (v l2 m2)).
  destruct (_ && _); [|lra]. repeat apply Rmult_le_pos; lra.
Qed.

Lemma exp_frac t : 0 <= t <= 7 / 1000 -> 1 <= exp t <= 1 + 1008 / 1000 * t.
Proof.
  intros H. pose proof (exp_ineq1_le t) as A. pose proof (exp_ineq1_le (- t)) as B. pose proof (exp_pos t) as P. split; [lra|].
  assert (M : exp t * exp (- t) = 1) by (rewrite <- exp_plus, Rplus_opp_r; apply exp_0).
  assert (E : exp t * (1 - t) <= 1) by (rewrite <- M; apply Rmult_le_compat_l; lra).
  apply Rmult_le_reg_r with (1 - t); [lra|]. eapply Rle_trans; [exact E|].
  assert (0 <= t * (8 / 1000 - 1008 / 1000 * t)) by (apply Rmult_le_pos; lra). lra.
Qed.

Lemma final_bound N S U : 0 <= N <= 7 * 10 ^ 9 -> 0 <= S -> 0 <= U ->
  (exp (u64 * N) * qq - 1) * S + exp (u64 * N) * (2 ^ 19 * eta * U) <= (101 / 100 * N + 14) * u64 * S + / 2 ^ 1000 * U.
Proof.
  intros HN HS HU. pose proof u64_bd as [U0 U1]. pose proof eta_pos as E0.
  assert (T : 0 <= u64 * N <= 7 / 1000). { split; [apply Rmult_le_pos; lra|]. apply Rle_trans with (/ 10 ^ 12 * (7 * 10 ^ 9)); [apply Rmult_le_compat; lra|simpl; lra]. }
  destruct (exp_frac _ T) as [X0 X1]. set (e := exp (u64 * N)) in *. clearbody e. apply Rplus_le_compat.
  - apply Rmult_le_compat_r; auto. unfold qq.
    assert (e * (27 / 2 * u64) <= 102 / 100 * (27 / 2 * u64)) by (apply Rmult_le_compat_r; lra).
    assert (0 <= u64 * N) by lra. lra.
  - rewrite <- Rmult_assoc. apply Rmult_le_compat_r; auto. pose proof eta_1000 as E.
    apply Rle_trans with (2 ^ 70 * eta); auto. rewrite <- Rmult_assoc. apply Rmult_le_compat_r; [lra|].
    apply Rle_trans with (2 * 2 ^ 19); [apply Rmult_le_compat_r; [apply pow_le|]; lra|]. change (2 * 2 ^ 19) with (2 ^ 20). apply Rle_pow; [lra|lia].
Qed.

(** ** Modes below the lowest stored one are zero *)
Lemma rsum_low a b f : (0 <= a <= b + 1)%Z -> (forall i, (0 <= i < a)%Z -> f i = 0) -> rsum a b f = rsum 0 b f.
Proof.
  intros H Z0. destruct (Z_le_gt_dec (a - 1) b) as [B|B]; [|lia]. rewrite (rsum_split 0 b (a - 1)) by lia.
  rewrite (rsum_zero 0 (a - 1)) by (intros; apply Z0; lia). replace (a - 1 + 1)%Z with a by lia. ring.
Qed.
Lemma csum_low a b f : (0 <= a <= b + 1)%Z -> (forall i, (0 <= i < a)%Z -> f i = RtoC 0) -> csum a b f = csum 0 b f.
Proof.
  intros H Z0. rewrite (csum_split 0 b (a - 1)) by lia.
  rewrite (csum_zero 0 (a - 1)) by (intros; apply Z0; lia). replace (a - 1 + 1)%Z with a by lia. ring.
Qed.
Lemma nest_low L1 L2 L lf lg X idx k : (0 <= lf <= L1 + 1)%Z -> (0 <= lg <= L2 + 1)%Z ->
  (forall l1 m1 l2 m2 l, (l1 < lf \/ l2 < lg)%Z -> X idx l1 m1 l2 m2 l = 0) -> nest L1 L2 L lf lg X idx k = nest L1 L2 L 0 0 X idx k.
Proof.
  intros Hf Hg H. assert (A : forall l m x, x = 0 -> at_ k l m x = 0) by (intros; unfold at_; destruct (_ =? _)%Z; auto).
  unfold nest. rewrite rsum_low; auto.
  - apply rsum_ext. intros l1 H1. apply rsum_ext. intros m1 Hm1. apply rsum_low; auto. intros l2 H2. apply rsum_zero. intros. apply rsum_zero. intros. apply A, H. lia.
  - intros l1 H1. repeat (apply rsum_zero; intros). apply A, H. lia.
Qed.
Lemma cnest_low L1 L2 L lf lg X idx k : (0 <= lf <= L1 + 1)%Z -> (0 <= lg <= L2 + 1)%Z ->
  (forall l1 m1 l2 m2 l, (l1 < lf \/ l2 < lg)%Z -> X idx l1 m1 l2 m2 l = RtoC 0) -> cnest L1 L2 L lf lg X idx k = cnest L1 L2 L 0 0 X idx k.
Proof.
  intros Hf Hg H. unfold cnest. rewrite csum_low; auto.
  - apply csum_ext. intros l1 H1. apply csum_ext. intros m1 Hm1. apply csum_low; auto. intros l2 H2. apply csum_zero. intros. apply csum_zero. intros. rewrite H by lia. destruct (_ =? _)%Z; auto.
  - intros l1 H1. repeat (apply csum_zero; intros). rewrite H by lia. destruct (_ =? _)%Z; auto.
Qed.

(** ** The weights that the loops accumulate *)
Lemma acc64_weights b nf ng lf lg Lf sf Lg sg L F G h1 h2 : (0 <= lf <= Lf)%Z -> (0 <= lg <= Lg)%Z -> (Lf + Lg <= 1447)%Z ->
  acc64 b h1 h2 (cnest Lf Lg L lf lg (Dt nf ng lf sf lg sg F G)) (nest Lf Lg L lf lg (Nt nf ng lf lg F G))
    (nest Lf Lg L lf lg (St nf ng lf sf lg sg F G)) (nest Lf Lg L lf lg (Ut nf ng lf lg F G)) ->
  (forall idx k, mem h1 b idx k = RtoC 0) ->
  forall idx l m, (0 <= l <= L)%Z -> (- l <= m <= l)%Z ->
    let u := arr_mode F lf (bidx (lead nf) idx) in let v := arr_mode G lg (bidx (lead ng) idx) in let c := product_coeff64 sf sg in
    Cmod (mem h2 b idx (LM_index l m 0) - weight_with c Lf Lg u v l m)%C
    <= (101 / 100 * pairs Lf Lg u v l m + 14) * u64 * abs_weight c Lf Lg u v l m + underflow Lf Lg u v l m.
Proof.
  intros HF HG HW (_ & _ & D2) Z1 idx l m Hl Hm u v c.
  destruct (D2 idx (LM_index l m 0)) as (Q1 & Q2 & Q3 & Q4). rewrite Z1 in Q4.
  destruct Q4 as [_ Q4]. { split; unfold is_double; cbn [Re Im fst snd RtoC]; apply RN64_zero. }
  assert (FV : forall l1 m1, fval nf lf F idx l1 m1 = u l1 m1) by reflexivity.
  assert (GV : forall l1 m1, gval ng lg G idx l1 m1 = v l1 m1) by reflexivity.
  assert (LOW : forall l1 m1 l2 m2, (l1 < lf \/ l2 < lg)%Z -> u l1 m1 = RtoC 0 \/ v l2 m2 = RtoC 0).
  { intros l1 m1 l2 m2 [H|H]; [left|right]; unfold u, v, arr_mode; apply Z.ltb_lt in H; rewrite H; reflexivity. }
  assert (CO : forall l1 m1 l2 m2, (0 <= l1 <= Lf)%Z -> (0 <= l2 <= Lg)%Z -> tri l1 l2 l = false -> c l1 m1 l2 m2 l = 0).
  { intros l1 m1 l2 m2 H1 H2 T. unfold c. apply coeff64_out; try lia. unfold tri in T. apply andb_false_iff in T. rewrite !Z.leb_gt in T. lia. }
  assert (CD : cnest Lf Lg L lf lg (Dt nf ng lf sf lg sg F G) idx (LM_index l m 0) = weight_with c Lf Lg u v l m).
  { rewrite cnest_low by (try lia; intros l1 m1 l2 m2 l' H; unfold Dt; rewrite FV, GV; destruct (LOW l1 m1 l2 m2 H) as [-> | ->]; ring).
    rewrite ccollapse by auto. unfold weight_with, dsum. apply csum_ext. intros l1 H1. apply csum_ext. intros m1 Hm1. apply csum_ext. intros l2 H2.
    destruct (_ <=? _)%Z; auto. unfold Dt, coef. rewrite FV, GV. fold c. destruct (tri l1 l2 l) eqn:T; auto. rewrite CO by (auto; lia). ring. }
  assert (CS : nest Lf Lg L lf lg (St nf ng lf sf lg sg F G) idx (LM_index l m 0) = abs_weight c Lf Lg u v l m).
  { rewrite nest_low by (try lia; intros l1 m1 l2 m2 l' H; unfold St; rewrite FV, GV; destruct (LOW l1 m1 l2 m2 H) as [-> | ->]; rewrite Cmod_0; ring).
    rewrite rcollapse by auto. apply over_pairs_ext. intros l1 m1 l2 H1 Hm1 H2 Hm2. unfold St, coef. rewrite FV, GV. fold c. destruct (tri l1 l2 l) eqn:T; auto.
    rewrite CO by (auto; lia). rewrite Rabs_R0. ring. }
  assert (CN : nest Lf Lg L lf lg (Nt nf ng lf lg F G) idx (LM_index l m 0) = pairs Lf Lg u v l m).
  { rewrite nest_low by (try lia; intros l1 m1 l2 m2 l' H; unfold Nt; rewrite FV, GV; destruct (LOW l1 m1 l2 m2 H) as [-> | ->]; rewrite nonzero_0; ring).
    rewrite rcollapse by auto. apply over_pairs_ext. intros l1 m1 l2 H1 Hm1 H2 Hm2. unfold Nt. rewrite FV, GV. reflexivity. }
  set (UU := over_pairs Lf Lg m (fun l1 m1 l2 m2 => if tri l1 l2 l then nonzero (u l1 m1) * nonzero (v l2 m2) * (1 + Cmod (u l1 m1)) * (1 + Cmod (v l2 m2)) else 0)).
  assert (U0 : forall l1 m1 l2 m2, 0 <= nonzero (u l1 m1) * nonzero (v l2 m2) * (1 + Cmod (u l1 m1)) * (1 + Cmod (v l2 m2))).
  { intros l1 m1 l2 m2. pose proof (nonzero_bd (u l1 m1)). pose proof (nonzero_bd (v l2 m2)). pose proof (Cmod_ge_0 (u l1 m1)). pose proof (Cmod_ge_0 (v l2 m2)). repeat apply Rmult_le_pos; lra. }
  assert (CU : nest Lf Lg L lf lg (Ut nf ng lf lg F G) idx (LM_index l m 0) = 2 ^ 19 * eta * UU).
  { rewrite nest_low by (try lia; intros l1 m1 l2 m2 l' H; unfold Ut; rewrite FV, GV; destruct (LOW l1 m1 l2 m2 H) as [-> | ->]; rewrite nonzero_0; ring).
    rewrite rcollapse by auto. unfold UU. rewrite <- over_pairs_scal. apply over_pairs_ext. intros l1 m1 l2 H1 Hm1 H2 Hm2. unfold Ut. rewrite FV, GV. destruct (tri l1 l2 l); ring. }
  rewrite CD, CS, CN, CU in Q4. rewrite Cmod_0, Rmult_0_r, Rplus_0_l in Q4.
  replace (RtoC 0 + weight_with c Lf Lg u v l m)%C with (weight_with c Lf Lg u v l m) in Q4 by ring.
  eapply Rle_trans; [exact Q4|]. unfold underflow. fold UU.
  apply final_bound; [apply pairs_bd; auto; lia|apply abs_weight_nonneg|apply over_pairs_nonneg]. intros l1 m1 l2 m2. cbv beta. destruct (_ && _); [apply U0|lra].
Qed.

(** Only the modes of the two functions matter *)
Lemma over_pairs_cong L1 L2 m (u v u' v' : Z -> Z -> C) (X : C -> C -> Z -> Z -> Z -> Z -> R) :
  (forall l k, (0 <= l)%Z -> u l k = u' l k) -> (forall l k, (0 <= l)%Z -> v l k = v' l k) ->
  over_pairs L1 L2 m (fun l1 m1 l2 m2 => X (u l1 m1) (v l2 m2) l1 m1 l2 m2) = over_pairs L1 L2 m (fun l1 m1 l2 m2 => X (u' l1 m1) (v' l2 m2) l1 m1 l2 m2).
Proof. intros A B. apply over_pairs_ext. intros. rewrite A, B by lia. reflexivity. Qed.
Lemma weights_cong c L1 L2 u v u' v' l m : (forall l k, (0 <= l)%Z -> u l k = u' l k) -> (forall l k, (0 <= l)%Z -> v l k = v' l k) ->
  weight_with c L1 L2 u v l m = weight_with c L1 L2 u' v' l m /\ abs_weight c L1 L2 u v l m = abs_weight c L1 L2 u' v' l m
  /\ pairs L1 L2 u v l m = pairs L1 L2 u' v' l m /\ underflow L1 L2 u v l m = underflow L1 L2 u' v' l m.
Proof.
  intros A B. split; [|split; [|split]].
  - unfold weight_with, dsum. apply csum_ext. intros. apply csum_ext. intros. apply csum_ext. intros. destruct (_ <=? _)%Z; auto. rewrite A, B by lia. reflexivity.
  - apply (over_pairs_cong L1 L2 m u v u' v' (fun a b l1 m1 l2 m2 => Rabs (c l1 m1 l2 m2 l) * Cmod a * Cmod b)); auto.
  - apply (over_pairs_cong L1 L2 m u v u' v' (fun a b l1 m1 l2 m2 => if (Z.abs (l1 - l2) <=? l)%Z && (l <=? l1 + l2)%Z then nonzero a * nonzero b else 0)); auto.
  - unfold underflow. f_equal.
    apply (over_pairs_cong L1 L2 m u v u' v' (fun a b l1 m1 l2 m2 => if (Z.abs (l1 - l2) <=? l)%Z && (l <=? l1 + l2)%Z then nonzero a * nonzero b * (1 + Cmod a) * (1 + Cmod b) else 0)); auto.
Qed.

(** ** The objects *)
Lemma multiply64_new way gs gm h f g tr sh : good_ways way -> wf h f -> wf h g -> (0 <= ellmax (md f))%Z -> (0 <= ellmax (md g))%Z -> (0 <= product_ell_max f g tr)%Z ->
  broadcast (lead (nd f)) (lead (nd g)) = Some sh -> (ellmax (md f) + ellmax (md g) <= 1447)%Z ->
  (exists h' r, multiply64 fixed way gs gm h f g tr = Ok (h', r)
    /\ new_modes h h' r (spin (md f) + spin (md g)) (product_ell_max f g tr) sh (mode h' r)
    /\ truncator (md r) = truncator (md f)
    /\ forall idx l m, (0 <= l <= product_ell_max f g tr)%Z -> (- l <= m <= l)%Z ->
       let u := mode h f (bidx (lead (nd f)) idx) in let v := mode h g (bidx (lead (nd g)) idx) in
       let L1 := ellmax (md f) in let L2 := ellmax (md g) in let c := product_coeff64 (spin (md f)) (spin (md g)) in
       Cmod (mode h' r idx l m - weight_with c L1 L2 u v l m)%C
       <= (101 / 100 * pairs L1 L2 u v l m + 14) * u64 * abs_weight c L1 L2 u v l m + underflow L1 L2 u v l m)
  \/ (multiply64 fixed way gs gm h f g tr = Err ZeroDivisionError /\ blocked64 0 (ellmax (md f)) 0 (ellmax (md g))).
Proof.
  intros Way Wf Wg HF HG HL HB HW. unfold multiply64. set (L := product_ell_max f g tr) in *. cbv zeta.
  rewrite (rdcol0 h f), (rdcol0 h g) by auto. cbn [bind]. rewrite HB. rewrite LM_total_sqr. unfold ell_min_of.
  replace ((L + 1) ^ 2 - 0 ^ 2)%Z with ((L + 1) ^ 2)%Z by lia.
  destruct (alloc h sh ((L + 1) ^ 2) (fun _ _ => RtoC 0)) as [h1 new] eqn:EA.
  pose proof EA as EA'. unfold alloc in EA'. injection EA' as E1 E2.
  assert (M1 : forall b idx k, mem h1 b idx k = if Nat.eqb b (next h) then RtoC 0 else mem h b idx k) by (intros; rewrite <- E1; cbn; destruct (Nat.eqb _ _); auto).
  assert (N1 : next h1 = S (next h)) by (rewrite <- E1; reflexivity). clear E1.
  destruct f as [nf mf], g as [ng mg]. cbn [nd md] in *.
  pose proof Wf as (Fb & Fw & Fz). pose proof Wg as (Gb & Gw & Gz). cbn [nd md] in *.
  destruct (mult_helper64_acc way Way nf ng new 0 (ellmax mf) (spin mf) 0 (ellmax mg) (spin mg) L ltac:(lia) ltac:(lia)
             ltac:(intros l m Hl Hm; rewrite LM_col, Fw; apply col_bound; lia)
             ltac:(intros l m Hl Hm; rewrite LM_col, Gw; apply col_bound; lia)
             ltac:(rewrite <- E2; reflexivity)
             ltac:(rewrite <- E2; cbn [buf]; lia) ltac:(rewrite <- E2; cbn [buf]; lia)
             ltac:(rewrite HB, <- E2; cbn [lead]; apply fits_refl)
             ltac:(lia) ltac:(lia)
             (mem h (buf nf)) (mem h (buf ng)) gs gm h1) as [(h2 & EH & A2)|[EH HBad]].
  { intros idx k. rewrite !M1. destruct (Nat.eqb_spec (buf nf) (next h)), (Nat.eqb_spec (buf ng) (next h)); try lia; auto. }
  2:{ right. split; auto. rewrite EH. reflexivity. }
  left. rewrite EH. cbn [bind]. pose proof A2 as (N2 & O2 & _).
  assert (Wn : wid new = ((L + 1) ^ 2)%Z) by (rewrite <- E2; reflexivity).
  destruct (construct_ok h2 new (mkmeta (spin mf + spin mg) L (truncator mf)) Wn) as (h3 & E3 & N3 & K3 & D3).
  exists h3. eexists. split; [exact E3|]. cbn [nd md spin ellmax truncator] in *.
  assert (Bn : buf new = next h) by (rewrite <- E2; reflexivity).
  split; [|split; [reflexivity|]].
  { unfold new_modes. split; [lia|]. split.
    { intros b Hb idx k. rewrite K3, O2, M1 by lia. destruct (Nat.eqb_spec b (next h)); [lia|reflexivity]. }
    cbn [nd md spin ellmax buf lead]. split; [lia|]. split; auto. split; auto. split; [rewrite <- E2; reflexivity|]. split; auto.
    split; [cbn [nd]; lia|]. split; [exact Wn|]. cbn [nd md spin ellmax]. intros idx ell mm He Hs Hm. unfold mode. cbn [nd]. rewrite D3 by auto. cbn [spin].
    destruct (Z.ltb_spec ell (Z.abs (spin mf + spin mg))); [reflexivity|lia]. }
  intros idx l m Hl Hm.
  set (u := mode h (mkmodes nf mf) (bidx (lead nf) idx)). set (v := mode h (mkmodes ng mg) (bidx (lead ng) idx)). set (c := product_coeff64 (spin mf) (spin mg)).
  unfold mode at 1. cbn [nd]. rewrite D3 by auto. cbn [spin]. destruct (Z.ltb_spec l (Z.abs (spin mf + spin mg))) as [Hlow|Hhigh].
  - assert (Z0 : weight_with c (ellmax mf) (ellmax mg) u v l m = RtoC 0).
    { apply csum_zero. intros l1 H1. apply csum_zero. intros m1 Hm1. apply csum_zero. intros l2 H2. unfold c. rewrite coeff64_out by lia. destruct (_ <=? _)%Z; ring. }
    rewrite Z0. replace (RtoC 0 - RtoC 0)%C with (RtoC 0) by ring. rewrite Cmod_0.
    pose proof (abs_weight_nonneg c (ellmax mf) (ellmax mg) u v l m). pose proof (underflow_nonneg (ellmax mf) (ellmax mg) u v l m).
    pose proof (pairs_bd (ellmax mf) (ellmax mg) u v l m HF HG HW). pose proof u64_bd as [U0 _].
    apply Rplus_le_le_0_compat; auto. repeat apply Rmult_le_pos; lra.
  - replace (l * l + (l + m))%Z with (LM_index l m 0) by (rewrite LM_col; lia).
    assert (Z1 : forall idx k, mem h1 (buf new) idx k = RtoC 0) by (intros; rewrite M1, Bn, Nat.eqb_refl; reflexivity).
    pose proof (acc64_weights (buf new) nf ng 0 0 (ellmax mf) (spin mf) (ellmax mg) (spin mg) L (mem h (buf nf)) (mem h (buf ng)) h1 h2
      ltac:(lia) ltac:(lia) HW A2 Z1 idx l m Hl Hm) as Q. cbv zeta in Q. fold c in Q.
    destruct (weights_cong c (ellmax mf) (ellmax mg) (arr_mode (mem h (buf nf)) 0 (bidx (lead nf) idx)) (arr_mode (mem h (buf ng)) 0 (bidx (lead ng) idx)) u v l m) as (W1 & W2 & W3 & W4).
    { intros l' k Hl'. rewrite arr_mode_0 by auto. reflexivity. }
    { intros l' k Hl'. rewrite arr_mode_0 by auto. reflexivity. }
    rewrite W1, W2, W3, W4 in Q. exact Q.
Qed.

(** ** C72 *)

Lemma C72_reproducible :
  forall way gs gm gs' gm' h f g tr, wf h f -> wf h g -> (0 <= ellmax (md f))%Z -> (0 <= ellmax (md g))%Z -> (0 <= product_ell_max f g tr)%Z ->
  (ellmax (md f) + ellmax (md g) <= 1447)%Z ->
  multiply64 fixed way gs gm h f g tr = multiply64 fixed way gs' gm' h f g tr.
Proof.
  intros way gs gm gs' gm' h f g tr Wf Wg HF HG HL HW. unfold multiply64. set (L := product_ell_max f g tr) in *. cbv zeta.
  rewrite (rdcol0 h f), (rdcol0 h g) by auto. cbn [bind]. destruct (broadcast (lead (nd f)) (lead (nd g))) as [sh|] eqn:HB; auto. rewrite LM_total_sqr. unfold ell_min_of.
  replace ((L + 1) ^ 2 - 0 ^ 2)%Z with ((L + 1) ^ 2)%Z by lia.
  destruct (alloc h sh ((L + 1) ^ 2) (fun _ _ => RtoC 0)) as [h1 new] eqn:EA. unfold alloc in EA. injection EA as E1 E2.
  destruct f as [nf mf], g as [ng mg]. cbn [nd md] in *.
  pose proof Wf as (Fb & Fw & Fz). pose proof Wg as (Gb & Gw & Gz). cbn [nd md] in *.
  pose proof (helper_rel way nf ng new 0 (ellmax mf) (spin mf) 0 (ellmax mg) (spin mg) L
             ltac:(intros l m Hl Hm; rewrite LM_col, Fw; apply col_bound; lia)
             ltac:(intros l m Hl Hm; rewrite LM_col, Gw; apply col_bound; lia)
             ltac:(rewrite <- E2; reflexivity)
             ltac:(rewrite HB, <- E2; cbn [lead]; apply fits_refl)
             ltac:(lia) ltac:(lia) gs gm gs' gm' h1) as R.
  destruct (mult_helper64 fixed way gs gm h1 nf 0 (ellmax mf) (spin mf) ng 0 (ellmax mg) (spin mg) new 0 L (spin mf + spin mg)),
           (mult_helper64 fixed way gs' gm' h1 nf 0 (ellmax mf) (spin mf) ng 0 (ellmax mg) (spin mg) new 0 L (spin mf + spin mg)); cbn [rel] in R; try tauto.
  - subst. reflexivity.
  - destruct R as [-> ->]. reflexivity.
Qed.

Lemma C72_rounding :
  forall way gs gm h f g tr sh, good_ways way -> wf h f -> wf h g -> (0 <= ellmax (md f))%Z -> (0 <= ellmax (md g))%Z -> (0 <= product_ell_max f g tr)%Z ->
  broadcast (lead (nd f)) (lead (nd g)) = Some sh -> (ellmax (md f) + ellmax (md g) <= 1447)%Z ->
  (exists h' r, multiply64 fixed way gs gm h f g tr = Ok (h', r)
    /\ new_modes h h' r (spin (md f) + spin (md g)) (product_ell_max f g tr) sh (mode h' r)
    /\ truncator (md r) = truncator (md f)
    /\ forall idx l m, (0 <= l <= product_ell_max f g tr)%Z -> (- l <= m <= l)%Z ->
       let u := mode h f (bidx (lead (nd f)) idx) in let v := mode h g (bidx (lead (nd g)) idx) in
       let L1 := ellmax (md f) in let L2 := ellmax (md g) in let c := product_coeff64 (spin (md f)) (spin (md g)) in
       Cmod (mode h' r idx l m - weight_with c L1 L2 u v l m)%C
       <= (101 / 100 * pairs L1 L2 u v l m + 14) * u64 * abs_weight c L1 L2 u v l m + underflow L1 L2 u v l m)
  \/ (multiply64 fixed way gs gm h f g tr = Err ZeroDivisionError
      /\ exists l1 l2 m n, (0 <= l1 <= ellmax (md f))%Z /\ (0 <= l2 <= ellmax (md g))%Z /\ (Z.abs m <= l1)%Z /\ (Z.abs n <= l2)%Z /\ stuck64 l1 l2 m n).
Proof. exact multiply64_new. Qed.

(** *** Accuracy *)
Lemma weight_diff c c' L1 L2 u v l m d : 0 <= d ->
  (forall l1 m1 l2, (0 <= l1 <= L1)%Z -> (Z.abs m1 <= l1)%Z -> (0 <= l2 <= L2)%Z -> (Z.abs (m - m1) <= l2)%Z -> u l1 m1 <> RtoC 0 -> v l2 (m - m1)%Z <> RtoC 0 ->
    Rabs (c l1 m1 l2 (m - m1)%Z l - c' l1 m1 l2 (m - m1)%Z l) <= d * Rabs (c' l1 m1 l2 (m - m1)%Z l)) ->
  Cmod (weight_with c L1 L2 u v l m - weight_with c' L1 L2 u v l m)%C <= d * abs_weight c' L1 L2 u v l m
  /\ abs_weight c L1 L2 u v l m <= (1 + d) * abs_weight c' L1 L2 u v l m.
Proof.
  intros Hd H.
  assert (K : forall l1 m1 l2, (0 <= l1 <= L1)%Z -> (Z.abs m1 <= l1)%Z -> (0 <= l2 <= L2)%Z -> (Z.abs (m - m1) <= l2)%Z ->
    Rabs (c l1 m1 l2 (m - m1)%Z l - c' l1 m1 l2 (m - m1)%Z l) * Cmod (u l1 m1) * Cmod (v l2 (m - m1)%Z) <= d * (Rabs (c' l1 m1 l2 (m - m1)%Z l) * Cmod (u l1 m1) * Cmod (v l2 (m - m1)%Z))).
  { intros l1 m1 l2 H1 Hm1 H2 Hm2. destruct (Ceq_dec (u l1 m1) (RtoC 0)) as [-> |Nu]; [rewrite Cmod_0; lra|].
    destruct (Ceq_dec (v l2 (m - m1)%Z) (RtoC 0)) as [-> |Nv]; [rewrite Cmod_0; lra|].
    pose proof (H l1 m1 l2 H1 Hm1 H2 Hm2 Nu Nv) as Q. rewrite <- !Rmult_assoc. apply Rmult_le_compat_r; [apply Cmod_ge_0|]. apply Rmult_le_compat_r; [apply Cmod_ge_0|auto]. }
  split.
  - unfold abs_weight. rewrite <- over_pairs_scal. unfold weight_with, dsum, over_pairs. rewrite <- csum_minus. eapply Rle_trans; [apply Cmod_csum|]. apply rsum_le. intros l1 H1.
    rewrite <- csum_minus. eapply Rle_trans; [apply Cmod_csum|]. apply rsum_le. intros m1 Hm1. rewrite <- csum_minus. eapply Rle_trans; [apply Cmod_csum|]. apply rsum_le. intros l2 H2.
    destruct (Z.leb_spec (Z.abs (m - m1)) l2) as [A|A].
    + eapply Rle_trans; [|apply (K l1 m1 l2); lia]. apply Req_le. rewrite <- Cmod_R, <- !Cmod_mult. f_equal. rewrite RtoC_minus. ring.
    + replace (RtoC 0 - RtoC 0)%C with (RtoC 0) by ring. rewrite Cmod_0. lra.
  - unfold abs_weight. rewrite <- over_pairs_scal. apply over_pairs_le. intros l1 m1 l2 H1 Hm1 H2 Hm2. pose proof (K l1 m1 l2 H1 Hm1 H2 Hm2) as Q.
    set (a := c l1 m1 l2 (m - m1)%Z l) in *. set (b := c' l1 m1 l2 (m - m1)%Z l) in *. pose proof (Cmod_ge_0 (u l1 m1)) as U0. pose proof (Cmod_ge_0 (v l2 (m - m1)%Z)) as V0.
    assert (T : Rabs a <= Rabs (a - b) + Rabs b) by (replace a with (a - b + b) at 1 by ring; apply Rabs_triang).
    assert (Rabs a * Cmod (u l1 m1) * Cmod (v l2 (m - m1)%Z) <= (Rabs (a - b) + Rabs b) * Cmod (u l1 m1) * Cmod (v l2 (m - m1)%Z)) by (apply Rmult_le_compat_r; auto; apply Rmult_le_compat_r; auto).
    lra.
Qed.

Lemma coeff_diff eps s1 s2 l1 m1 l2 m2 l : 0 <= eps -> close_symbol eps l l1 l2 s1 s2 -> close_symbol eps l l1 l2 m1 m2 ->
  Rabs (product_coeff64 s1 s2 l1 m1 l2 m2 l - product_coeff s1 s2 l1 m1 l2 m2 l) <= ((1 + eps) ^ 2 - 1) * Rabs (product_coeff s1 s2 l1 m1 l2 m2 l).
Proof.
  unfold close_symbol. intros He H1 H2. unfold product_coeff64, product_coeff.
  rewrite (threej_cyc l l1 l2) in H1. rewrite (threej_cyc l l1 l2) in H2.
  replace (- s1 - s2)%Z with (- (s1 + s2))%Z in H1 by lia. replace (- m1 - m2)%Z with (- (m1 + m2))%Z in H2 by lia.
  set (x := symbol64 l l1 l2 s1 s2) in *. set (y := symbol64 l l1 l2 m1 m2) in *.
  set (a := threej l1 l2 l s1 s2 (- (s1 + s2))) in *. set (b := threej l1 l2 l m1 m2 (- (m1 + m2))) in *.
  set (k := sgn (l1 + l2 + l + (s1 + s2) + (m1 + m2)) * sqrt (IZR (2 * l1 + 1) * IZR (2 * l2 + 1) * IZR (2 * l + 1) / (4 * PI))). clearbody x y a b k.
  replace (k * x * y - k * a * b) with (k * ((x - a) * (y - b) + (x - a) * b + a * (y - b))) by ring. rewrite !Rabs_mult.
  pose proof (Rabs_pos k). pose proof (Rabs_pos a) as A0. pose proof (Rabs_pos b) as B0. pose proof (Rabs_pos (x - a)) as X0. pose proof (Rabs_pos (y - b)) as Y0.
  assert (T : Rabs ((x - a) * (y - b) + (x - a) * b + a * (y - b)) <= ((1 + eps) ^ 2 - 1) * (Rabs a * Rabs b)).
  { eapply Rle_trans; [apply Rabs_triang|]. eapply Rle_trans; [apply Rplus_le_compat_r, Rabs_triang|]. rewrite !Rabs_mult.
    assert (Rabs (x - a) * Rabs (y - b) <= (eps * Rabs a) * (eps * Rabs b)) by (apply Rmult_le_compat; auto).
    assert (Rabs (x - a) * Rabs b <= (eps * Rabs a) * Rabs b) by (apply Rmult_le_compat_r; auto).
    assert (Rabs a * Rabs (y - b) <= Rabs a * (eps * Rabs b)) by (apply Rmult_le_compat_l; auto).
    replace (((1 + eps) ^ 2 - 1) * (Rabs a * Rabs b)) with (eps * Rabs a * (eps * Rabs b) + eps * Rabs a * Rabs b + Rabs a * (eps * Rabs b)) by ring. lra. }
  replace (((1 + eps) ^ 2 - 1) * (Rabs k * Rabs a * Rabs b)) with (Rabs k * (((1 + eps) ^ 2 - 1) * (Rabs a * Rabs b))) by ring. apply Rmult_le_compat_l; auto.
Qed.

Lemma multiply64_ok way gs gm h f g tr h' r : good_ways way -> wf h f -> wf h g -> (0 <= ellmax (md f))%Z -> (0 <= ellmax (md g))%Z -> (0 <= product_ell_max f g tr)%Z ->
  (ellmax (md f) + ellmax (md g) <= 1447)%Z -> multiply64 fixed way gs gm h f g tr = Ok (h', r) ->
  forall idx l m, (0 <= l <= product_ell_max f g tr)%Z -> (- l <= m <= l)%Z ->
       let u := mode h f (bidx (lead (nd f)) idx) in let v := mode h g (bidx (lead (nd g)) idx) in
       let L1 := ellmax (md f) in let L2 := ellmax (md g) in let c := product_coeff64 (spin (md f)) (spin (md g)) in
       Cmod (mode h' r idx l m - weight_with c L1 L2 u v l m)%C
       <= (101 / 100 * pairs L1 L2 u v l m + 14) * u64 * abs_weight c L1 L2 u v l m + underflow L1 L2 u v l m.
Proof.
  intros Way Wf Wg HF HG HL HW E. destruct (broadcast (lead (nd f)) (lead (nd g))) as [sh|] eqn:HB.
  - destruct (multiply64_new way gs gm h f g tr sh Way Wf Wg HF HG HL HB HW) as [(h1 & r1 & E1 & _ & _ & V)|[E1 _]]; rewrite E in E1; [|discriminate].
    injection E1 as <- <-. exact V.
  - exfalso. revert E. unfold multiply64. cbv zeta. rewrite (rdcol0 h f), (rdcol0 h g) by auto. cbn [bind]. rewrite HB. discriminate.
Qed.

Lemma accuracy_core x s1 s2 L1 L2 u v l m eps : (0 <= L1)%Z -> (0 <= L2)%Z -> (L1 + L2 <= 1447)%Z -> (0 <= l)%Z -> 0 <= eps ->
  (forall l1 m1 l2 m2, (0 <= l1 <= L1)%Z -> (0 <= l2 <= L2)%Z -> (Z.abs m1 <= l1)%Z -> (Z.abs m2 <= l2)%Z -> (m1 + m2 = m)%Z -> (Z.abs (l1 - l2) <= l <= l1 + l2)%Z ->
     u l1 m1 <> RtoC 0 -> v l2 m2 <> RtoC 0 -> close_symbol eps l l1 l2 s1 s2 /\ close_symbol eps l l1 l2 m1 m2) ->
  Cmod (x - weight_with (product_coeff64 s1 s2) L1 L2 u v l m)%C
  <= (101 / 100 * pairs L1 L2 u v l m + 14) * u64 * abs_weight (product_coeff64 s1 s2) L1 L2 u v l m + underflow L1 L2 u v l m ->
  Cmod (x - product_weight s1 L1 s2 L2 u v l m)%C
  <= ((1 + eps) ^ 2 * (1 + (101 / 100 * pairs L1 L2 u v l m + 14) * u64) - 1) * abs_weight (product_coeff s1 s2) L1 L2 u v l m + underflow L1 L2 u v l m.
Proof.
  intros HF HG HW Hl He H Q.
  assert (E2 : 0 <= (1 + eps) ^ 2 - 1) by (replace ((1 + eps) ^ 2 - 1) with (eps * (2 + eps)) by ring; apply Rmult_le_pos; lra).
  destruct (weight_diff (product_coeff64 s1 s2) (product_coeff s1 s2) L1 L2 u v l m ((1 + eps) ^ 2 - 1) E2) as [W1 W2].
  { intros l1 m1 l2 H1 Hm1 H2 Hm2 Nu Nv. destruct (tri l1 l2 l) eqn:T.
    - unfold tri in T. apply andb_true_iff in T. rewrite !Z.leb_le in T. destruct (H l1 m1 l2 (m - m1)%Z) as [C1 C2]; auto; try lia. apply coeff_diff; auto.
    - unfold tri in T. apply andb_false_iff in T. rewrite !Z.leb_gt in T. rewrite coeff64_out, coeff_out by lia. rewrite Rminus_0_r, Rabs_R0. lra. }
  change (weight_with (product_coeff s1 s2) L1 L2 u v l m) with (product_weight s1 L1 s2 L2 u v l m) in W1.
  pose proof (abs_weight_nonneg (product_coeff s1 s2) L1 L2 u v l m) as A0. pose proof (pairs_bd L1 L2 u v l m HF HG HW) as PB. pose proof u64_bd as [U0 _].
  set (A := abs_weight (product_coeff s1 s2) L1 L2 u v l m) in *. set (A' := abs_weight (product_coeff64 s1 s2) L1 L2 u v l m) in *.
  set (y := (101 / 100 * pairs L1 L2 u v l m + 14) * u64) in *. assert (X0 : 0 <= y) by (unfold y; apply Rmult_le_pos; lra).
  set (w := weight_with (product_coeff64 s1 s2) L1 L2 u v l m) in *. set (pw := product_weight s1 L1 s2 L2 u v l m) in *.
  replace (x - pw)%C with ((x - w) + (w - pw))%C by ring. eapply Rle_trans; [apply Cmod_triangle|].
  assert (K : y * A' <= y * ((1 + ((1 + eps) ^ 2 - 1)) * A)) by (apply Rmult_le_compat_l; auto).
  replace (((1 + eps) ^ 2 * (1 + y) - 1) * A) with (((1 + eps) ^ 2 - 1) * A + y * ((1 + ((1 + eps) ^ 2 - 1)) * A)) by ring. lra.
Qed.

Lemma C72_accuracy :
  forall way gs gm h f g tr h' r, good_ways way -> wf h f -> wf h g -> (0 <= ellmax (md f))%Z -> (0 <= ellmax (md g))%Z -> (0 <= product_ell_max f g tr)%Z ->
  (ellmax (md f) + ellmax (md g) <= 1447)%Z -> multiply64 fixed way gs gm h f g tr = Ok (h', r) ->
  forall idx l m eps, (0 <= l <= product_ell_max f g tr)%Z -> (- l <= m <= l)%Z -> 0 <= eps ->
    let u := mode h f (bidx (lead (nd f)) idx) in let v := mode h g (bidx (lead (nd g)) idx) in
    let s1 := spin (md f) in let s2 := spin (md g) in let L1 := ellmax (md f) in let L2 := ellmax (md g) in
    (forall l1 m1 l2 m2, (0 <= l1 <= L1)%Z -> (0 <= l2 <= L2)%Z -> (Z.abs m1 <= l1)%Z -> (Z.abs m2 <= l2)%Z -> (m1 + m2 = m)%Z -> (Z.abs (l1 - l2) <= l <= l1 + l2)%Z ->
       u l1 m1 <> RtoC 0 -> v l2 m2 <> RtoC 0 -> close_symbol eps l l1 l2 s1 s2 /\ close_symbol eps l l1 l2 m1 m2) ->
    Cmod (mode h' r idx l m - product_weight s1 L1 s2 L2 u v l m)%C
    <= ((1 + eps) ^ 2 * (1 + (101 / 100 * pairs L1 L2 u v l m + 14) * u64) - 1) * abs_weight (product_coeff s1 s2) L1 L2 u v l m + underflow L1 L2 u v l m.
Proof.
  intros way gs gm h f g tr h' r Way Wf Wg HF HG HL HW E idx l m eps Hl Hm He u v s1 s2 L1 L2 H.
  pose proof (multiply64_ok way gs gm h f g tr h' r Way Wf Wg HF HG HL HW E idx l m Hl Hm) as Q. cbv zeta in Q. fold u v s1 s2 L1 L2 in Q, HF, HG, HW.
  apply (accuracy_core _ s1 s2 L1 L2 u v l m eps); auto; lia.
Qed.

Lemma eps_bound eps x : 0 <= eps <= / 1000 -> 0 <= x <= 8 / 1000 -> (1 + eps) ^ 2 * (1 + x) - 1 <= 202 / 100 * eps + x.
Proof.
  intros He Hx. replace ((1 + eps) ^ 2 * (1 + x) - 1) with (x + eps * ((2 + eps) * (1 + x))) by ring.
  assert ((2 + eps) * (1 + x) <= (2 + / 1000) * (1 + 8 / 1000)) by (apply Rmult_le_compat; lra).
  assert (eps * ((2 + eps) * (1 + x)) <= eps * (202 / 100)) by (apply Rmult_le_compat_l; lra). lra.
Qed.

Lemma close_zero l l1 l2 : (0 <= l1)%Z -> (0 <= l2)%Z -> (l1 + l2 <= 1447)%Z -> (0 <= l <= l1 + l2)%Z -> close_symbol ((18 * IZR (Z.min l1 l2) + 40) * u64) l l1 l2 0 0.
Proof.
  intros H1 H2 H3 Hl. destruct (fresh_ok l1 l2 ltac:(lia)) as (c & Ec & Wc & Sc). destruct (C69_calculator c l1 l2 Wc H1 H2 ltac:(lia) H3) as (c' & E & _ & _ & V).
  destruct (V l ltac:(lia)) as (x & Ex & Bx). unfold close_symbol, symbol64. rewrite Ec. cbn [bind]. rewrite E. cbn [bind]. rewrite Ex. exact Bx.
Qed.
Lemma close_weak e e' l l1 l2 m n : close_symbol e l l1 l2 m n -> e <= e' -> close_symbol e' l l1 l2 m n.
Proof. unfold close_symbol. intros H He. eapply Rle_trans; [exact H|]. apply Rmult_le_compat_r; auto using Rabs_pos. Qed.

Lemma C72_axisymmetric :
  forall way gs gm h f g tr h' r, good_ways way -> wf h f -> wf h g -> (0 <= ellmax (md f))%Z -> (0 <= ellmax (md g))%Z -> (0 <= product_ell_max f g tr)%Z ->
  (ellmax (md f) + ellmax (md g) <= 1447)%Z -> spin (md f) = 0%Z -> spin (md g) = 0%Z ->
  (forall idx l m, (0 <= l <= ellmax (md f))%Z -> (Z.abs m <= l)%Z -> m <> 0%Z -> mode h f idx l m = RtoC 0) ->
  (forall idx l m, (0 <= l <= ellmax (md g))%Z -> (Z.abs m <= l)%Z -> m <> 0%Z -> mode h g idx l m = RtoC 0) ->
  multiply64 fixed way gs gm h f g tr = Ok (h', r) ->
  forall idx l m, (0 <= l <= product_ell_max f g tr)%Z -> (- l <= m <= l)%Z ->
    let u := mode h f (bidx (lead (nd f)) idx) in let v := mode h g (bidx (lead (nd g)) idx) in
    let L1 := ellmax (md f) in let L2 := ellmax (md g) in
    (m <> 0%Z -> mode h' r idx l m = RtoC 0) /\
    Cmod (mode h' r idx l m - product_weight 0 L1 0 L2 u v l m)%C
    <= (37 * IZR (Z.min L1 L2) + 95 + 101 / 100 * pairs L1 L2 u v l m) * u64 * abs_weight (product_coeff 0 0) L1 L2 u v l m + underflow L1 L2 u v l m.
Proof.
  intros way gs gm h f g tr h' r Way Wf Wg HF HG HL HW Sf Sg Zf Zg E idx l m Hl Hm u v L1 L2.
  assert (Zp : m <> 0%Z -> forall l1 m1 l2, (0 <= l1 <= L1)%Z -> (Z.abs m1 <= l1)%Z -> (0 <= l2 <= L2)%Z -> (Z.abs (m - m1) <= l2)%Z -> u l1 m1 = RtoC 0 \/ v l2 (m - m1)%Z = RtoC 0).
  { intros Nm l1 m1 l2 H1 Hm1 H2 Hm2. destruct (Z.eq_dec m1 0) as [-> |N1]; [right; apply Zg; auto; lia|left; apply Zf; auto]. }
  split.
  - intros Nm. pose proof (multiply64_ok way gs gm h f g tr h' r Way Wf Wg HF HG HL HW E idx l m Hl Hm) as Q. cbv zeta in Q. fold u v L1 L2 in Q.
    assert (A0 : forall c, abs_weight c L1 L2 u v l m = 0).
    { intros c. apply over_pairs_zero. intros l1 m1 l2 H1 Hm1 H2 Hm2. destruct (Zp Nm l1 m1 l2 H1 Hm1 H2 Hm2) as [-> | ->]; rewrite Cmod_0; ring. }
    assert (U0 : underflow L1 L2 u v l m = 0).
    { unfold underflow. rewrite over_pairs_zero; [ring|]. intros l1 m1 l2 H1 Hm1 H2 Hm2. destruct (_ && _); auto. destruct (Zp Nm l1 m1 l2 H1 Hm1 H2 Hm2) as [-> | ->]; rewrite nonzero_0; ring. }
    assert (W0 : weight_with (product_coeff64 (spin (md f)) (spin (md g))) L1 L2 u v l m = RtoC 0).
    { apply csum_zero. intros l1 H1. apply csum_zero. intros m1 Hm1. apply csum_zero. intros l2 H2. destruct (Z.leb_spec (Z.abs (m - m1)) l2); auto.
      destruct (Zp Nm l1 m1 l2) as [-> | ->]; try lia; ring. }
    rewrite A0, U0, W0, Rmult_0_r, Rplus_0_r in Q. replace (mode h' r idx l m - RtoC 0)%C with (mode h' r idx l m) in Q by ring.
    apply Cmod_eq_0. pose proof (Cmod_ge_0 (mode h' r idx l m)). lra.
  - set (e := (18 * IZR (Z.min L1 L2) + 40) * u64).
    assert (M0 : 0 <= IZR (Z.min L1 L2) <= 1447) by (split; [apply (IZR_le 0)|apply (IZR_le _ 1447)]; unfold L1, L2; lia).
    pose proof u64_bd as [U0 U1].
    assert (E0 : 0 <= e <= / 1000). { unfold e. split; [apply Rmult_le_pos; lra|]. apply Rle_trans with ((18 * 1447 + 40) * / 10 ^ 12); [apply Rmult_le_compat; lra|simpl; lra]. }
    pose proof (C72_accuracy way gs gm h f g tr h' r Way Wf Wg HF HG HL HW E idx l m e Hl Hm (proj1 E0)) as Q. cbv zeta in Q. fold u v L1 L2 in Q. rewrite Sf, Sg in Q.
    eapply Rle_trans; [apply Q|].
    + intros l1 m1 l2 m2 H1 H2 Hm1 Hm2 Em T Nu Nv.
      assert (M1 : m1 = 0%Z) by (destruct (Z.eq_dec m1 0) as [|N]; auto; exfalso; apply Nu, Zf; auto). assert (M2 : m2 = 0%Z) by (destruct (Z.eq_dec m2 0) as [|N]; auto; exfalso; apply Nv, Zg; auto).
      subst m1 m2. assert (C0 : close_symbol e l l1 l2 0 0).
      { eapply close_weak; [apply close_zero; fold L1 L2 in HW; lia|]. unfold e. apply Rmult_le_compat_r; [lra|]. assert (IZR (Z.min l1 l2) <= IZR (Z.min L1 L2)) by (apply IZR_le; lia). lra. }
      auto.
    + apply Rplus_le_compat_r. apply Rmult_le_compat_r; [apply abs_weight_nonneg|].
      pose proof (pairs_bd L1 L2 u v l m HF HG HW) as PB. set (n := pairs L1 L2 u v l m) in *.
      assert (X0 : 0 <= (101 / 100 * n + 14) * u64 <= 8 / 1000).
      { split; [apply Rmult_le_pos; lra|]. apply Rle_trans with ((101 / 100 * (7 * 10 ^ 9) + 14) * / 10 ^ 12); [apply Rmult_le_compat; lra|simpl; lra]. }
      eapply Rle_trans; [apply eps_bound; auto|]. unfold e.
      assert (0 <= (37 - 202 / 100 * 18) * (IZR (Z.min L1 L2) * u64)) by (apply Rmult_le_pos; [lra|apply Rmult_le_pos; lra]). lra.
Qed.
