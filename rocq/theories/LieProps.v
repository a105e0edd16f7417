(** Modes operators as Lie derivatives: statements C27 and C44. *)
Require Import ZArith Lia Reals Lra List Bool.
From Coquelicot Require Import Complex Derive Hierarchy Rcomplements Continuity.
From Verif Require Import Base BaseProofs CBase CSum Fact SymPow WignerSpec DRep IndexModel WignerModel WignerProofs WignerProofs2 WignerProofs3 RotorSpec
  SWSHModel SWSHProofs WignerProps ModesModel ModesSpec ModesProofs ModesProofs2 ModesProofs3 ModesProps2 LieSpec LieProofs.
Import ListNotations.
Open Scope C_scope.

(** ** The evaluation of f near q *)
Lemma Cderiv_locally_big (F : R -> C) d (e : R) : (0 <= e)%R -> Cderiv F d -> (e < Cmod (F 0%R))%R ->
  exists delta, (0 < delta)%R /\ forall t, (Rabs t < delta)%R -> (e < Cmod (F t))%R.
Proof.
  intros He (H1 & H2) H0. set (N := fun t : R => (Re (F t) * Re (F t) + Im (F t) * Im (F t))%R).
  assert (DN : ex_derive N 0%R).
  { eexists. apply (is_derive_plus (fun t : R => Re (F t) * Re (F t))%R (fun t : R => Im (F t) * Im (F t))%R).
    - apply (is_derive_mult (fun t : R => Re (F t)) (fun t : R => Re (F t))); exact H1.
    - apply (is_derive_mult (fun t : R => Im (F t)) (fun t : R => Im (F t))); exact H2. }
  assert (Eq : forall t, Cmod (F t) = sqrt (N t)).
  { intros t. unfold Cmod, N. f_equal. cbn [pow]. change (fst (F t)) with (Re (F t)). change (snd (F t)) with (Im (F t)). ring. }
  assert (P0 : (e * e < N 0)%R).
  { rewrite Eq in H0. rewrite <- (sqrt_Rsqr e He) in H0. apply sqrt_lt_0_alt in H0. exact H0. }
  pose proof (ex_derive_continuous N 0%R DN (fun y => (e * e < y)%R)) as HC.
  destruct HC as (d' & Hd').
  - apply open_gt. exact P0.
  - exists d'. split; [apply cond_pos|]. intros t Ht. rewrite Eq. rewrite <- (sqrt_Rsqr e He). apply sqrt_lt_1_alt.
    split; [apply Rle_0_sqr|]. unfold Rsqr. apply Hd'. change (Rabs (t - 0) < d')%R. rewrite Rminus_0_r. exact Ht.
Qed.

Lemma qmul_unit p q : unit_quat p -> unit_quat q -> unit_quat (qmul p q).
Proof.
  unfold unit_quat, qnorm2, qmul. cbn [qw qx qy qz]. intros Hp Hq.
  transitivity ((qw p * qw p + qx p * qx p + qy p * qy p + qz p * qz p) * (qw q * qw q + qx q * qx q + qy q * qy q + qz q * qz q))%R; [ring|].
  rewrite Hp, Hq. ring.
Qed.

Definition subgroup (g : R -> quat) (za : R) (b' : C) : Prop := (forall t, unit_quat (g t)) /\ one_param g za b'.
Lemma sc1 t : (cos t * cos t + sin t * sin t = 1)%R.
Proof. pose proof (sin2_cos2 t) as H. unfold Rsqr in H. lra. Qed.
Lemma sub_x : subgroup turn_x 0 Ci.
Proof. split; [|apply turn_x_ok]. intros t. unfold unit_quat, qnorm2, turn_x. cbn [qw qx qy qz]. pose proof (sc1 t). lra. Qed.
Lemma sub_y : subgroup turn_y 0 (RtoC 1).
Proof. split; [|apply turn_y_ok]. intros t. unfold unit_quat, qnorm2, turn_y. cbn [qw qx qy qz]. pose proof (sc1 t). lra. Qed.
Lemma sub_z : subgroup turn_z 1 (RtoC 0).
Proof. split; [|apply turn_z_ok]. intros t. unfold unit_quat, qnorm2, turn_z. cbn [qw qx qy qz]. pose proof (sc1 t). lra. Qed.

Lemma eps_nonneg : (0 <= epsilon)%R.
Proof. unfold epsilon. apply Rlt_le, Rinv_0_lt_compat, pow_lt. lra. Qed.
Lemma generic_rotor q : generic q -> rotor q.
Proof. intros (U & A & B). split; auto. Qed.

Lemma one_a g za b' : one_param g za b' -> qa (g 0%R) = RtoC 1 /\ qb (g 0%R) = RtoC 0.
Proof. intros (A & B & _). auto. Qed.

Lemma near_left g za b' q : subgroup g za b' -> generic q ->
  exists delta, (0 < delta)%R /\ forall t, (Rabs t < delta)%R -> rotor (qmul (g t) q).
Proof.
  intros (U & HG) (Uq & Ha & Hb). pose proof HG as (A0 & B0 & Da & Db).
  destruct (Cderiv_locally_big (fun t => qa (qmul (g t) q)) ((Ci * RtoC za) * qa q + - (Cconj b' * qb q)) epsilon eps_nonneg) as (d1 & P1 & N1).
  { eapply Cderiv_ext; [intros t; symmetry; apply qmul_a|]. unfold Cminus.
    apply (Cderiv_plus (fun t => qa (g t) * qa q) (fun t => - (Cconj (qb (g t)) * qb q))).
    - apply (Cderiv_scal_r _ (fun t => qa (g t))). exact Da.
    - apply (Cderiv_opp (fun t => Cconj (qb (g t)) * qb q)), (Cderiv_scal_r _ (fun t => Cconj (qb (g t)))), (Cderiv_conj (fun t => qb (g t))). exact Db. }
  { rewrite qmul_a, A0, B0, Cconj_RtoC. replace (RtoC 1 * qa q - RtoC 0 * qb q) with (qa q) by ring. exact Ha. }
  destruct (Cderiv_locally_big (fun t => qb (qmul (g t) q)) (b' * qa q + Cconj (Ci * RtoC za) * qb q) epsilon eps_nonneg) as (d2 & P2 & N2).
  { eapply Cderiv_ext; [intros t; symmetry; rewrite qmul_b; reflexivity|].
    apply (Cderiv_plus (fun t => qb (g t) * qa q) (fun t => Cconj (qa (g t)) * qb q)).
    - apply (Cderiv_scal_r _ (fun t => qb (g t))). exact Db.
    - apply (Cderiv_scal_r _ (fun t => Cconj (qa (g t)))), (Cderiv_conj (fun t => qa (g t))). exact Da. }
  { rewrite qmul_b, A0, B0, Cconj_RtoC. replace (_ + _) with (qb q) by ring. exact Hb. }
  exists (Rmin d1 d2). split; [apply Rmin_pos; auto|]. intros t Ht. pose proof (Rmin_l d1 d2). pose proof (Rmin_r d1 d2).
  split; [apply qmul_unit; auto|]. split; right; [apply N1|apply N2]; lra.
Qed.
Lemma near_right g za b' q : subgroup g za b' -> generic q ->
  exists delta, (0 < delta)%R /\ forall t, (Rabs t < delta)%R -> rotor (qmul q (g t)).
Proof.
  intros (U & HG) (Uq & Ha & Hb). pose proof HG as (A0 & B0 & Da & Db).
  destruct (Cderiv_locally_big (fun t => qa (qmul q (g t))) (qa q * (Ci * RtoC za) + - (Cconj (qb q) * b')) epsilon eps_nonneg) as (d1 & P1 & N1).
  { eapply Cderiv_ext; [intros t; symmetry; apply qmul_a|]. unfold Cminus.
    apply (Cderiv_plus (fun t => qa q * qa (g t)) (fun t => - (Cconj (qb q) * qb (g t)))).
    - apply (Cderiv_scal _ (fun t => qa (g t))). exact Da.
    - apply (Cderiv_opp (fun t => Cconj (qb q) * qb (g t))), (Cderiv_scal _ (fun t => qb (g t))). exact Db. }
  { rewrite qmul_a, A0, B0. replace (qa q * RtoC 1 - Cconj (qb q) * RtoC 0) with (qa q) by ring. exact Ha. }
  destruct (Cderiv_locally_big (fun t => qb (qmul q (g t))) (qb q * (Ci * RtoC za) + Cconj (qa q) * b') epsilon eps_nonneg) as (d2 & P2 & N2).
  { eapply Cderiv_ext; [intros t; symmetry; rewrite qmul_b; reflexivity|].
    apply (Cderiv_plus (fun t => qb q * qa (g t)) (fun t => Cconj (qa q) * qb (g t))).
    - apply (Cderiv_scal _ (fun t => qa (g t))). exact Da.
    - apply (Cderiv_scal _ (fun t => qb (g t))). exact Db. }
  { rewrite qmul_b, A0, B0. replace (_ + _) with (qb q) by ring. exact Hb. }
  exists (Rmin d1 d2). split; [apply Rmin_pos; auto|]. intros t Ht. pose proof (Rmin_l d1 d2). pose proof (Rmin_r d1 d2).
  split; [apply qmul_unit; auto|]. split; right; [apply N1|apply N2]; lra.
Qed.

(** ** The derivative of the value *)
Lemma block_up ell (w Y : Z -> C) : (0 <= ell)%Z ->
  csum (- ell) ell (fun m => RtoC (down ell m) * w m * Y (m + 1)%Z) = csum (- ell) ell (fun m => RtoC (up ell m) * w (m - 1)%Z * Y m).
Proof.
  intros He. rewrite (csum_shift (- ell) ell 1).
  rewrite (csum_ext _ _ _ (fun m => RtoC (up ell m) * w (m - 1)%Z * Y m)).
  2:{ intros m Hm. replace (m - 1 + 1)%Z with m by lia. replace (down ell (m - 1)) with (up ell m); auto. unfold up, down. do 2 f_equal; lia. }
  rewrite (csum_last (- ell + 1)) by lia. replace (ell + 1 - 1)%Z with ell by lia.
  replace (up ell (ell + 1)) with 0%R by (unfold up; replace ((ell + (ell + 1)) * (ell - (ell + 1) + 1))%Z with 0%Z by lia; symmetry; apply sqrt_0).
  rewrite (csum_first (- ell) ell) by lia. rewrite up_low. ring.
Qed.
Lemma block_down ell (w Y : Z -> C) : (0 <= ell)%Z ->
  csum (- ell) ell (fun m => RtoC (up ell m) * w m * Y (m - 1)%Z) = csum (- ell) ell (fun m => RtoC (down ell m) * w (m + 1)%Z * Y m).
Proof.
  intros He. rewrite (csum_rev (- ell) ell). rewrite Z.opp_involutive.
  rewrite (csum_ext _ _ _ (fun m => RtoC (down ell m) * w (- m)%Z * Y (- (m + 1))%Z)).
  2:{ intros m Hm. replace (- m - 1)%Z with (- (m + 1))%Z by lia. do 3 f_equal. unfold up, down. do 2 f_equal; lia. }
  rewrite (block_up ell (fun m => w (- m)%Z) (fun m => Y (- m)%Z)) by auto.
  rewrite (csum_rev (- ell) ell (fun m => RtoC (down ell m) * _ * _)). rewrite Z.opp_involutive. apply csum_ext. intros m Hm.
  replace (- (m - 1))%Z with (- m + 1)%Z by lia. do 3 f_equal. unfold up, down. do 2 f_equal; lia.
Qed.

Definition Vz s L (w : Z -> Z -> C) q := fvalue s L (fun ell m => RtoC (IZR m) * w ell m) q.
Definition Vp s L (w : Z -> Z -> C) q := fvalue s L (fun ell m => RtoC (up ell m) * w ell (m - 1)%Z) q.
Definition Vm s L (w : Z -> Z -> C) q := fvalue s L (fun ell m => RtoC (down ell m) * w ell (m + 1)%Z) q.
Lemma fvalue_left_deriv s L w g za b' q : one_param g za b' ->
  Cderiv (fun t => fvalue s L w (qmul (g t) q))
    (RtoC 2 * (Ci * RtoC za) * Vz s L w q - Cconj b' * Vm s L w q + b' * Vp s L w q).
Proof.
  intros HG. unfold Vz, Vp, Vm, fvalue.
  eapply eq_ind; [apply (Cderiv_dsum L (fun t ell m => w ell m * SWSH_value s ell m (qa (qmul (g t) q)) (qb (qmul (g t) q))))|].
  - intros ell m He Hm. cbv beta. apply (Cderiv_scal _ (fun t => SWSH_value s ell m (qa (qmul (g t) q)) (qb (qmul (g t) q)))).
    apply SWSH_left_deriv; eauto.
  - cbv beta. rewrite <- !dsum_scal. unfold Cminus. unfold dsum. rewrite <- csum_opp.
    rewrite <- !csum_plus. apply csum_ext. intros ell He. rewrite <- csum_opp.
    set (Y := fun k => SWSH_value s ell k (qa q) (qb q)).
    rewrite (csum_ext _ _ _ (fun m => RtoC 2 * (Ci * RtoC za) * (RtoC (IZR m) * w ell m * Y m)
        + - Cconj b' * (RtoC (up ell m) * w ell m * Y (m - 1)%Z) + b' * (RtoC (down ell m) * w ell m * Y (m + 1)%Z))).
    2:{ intros m Hm. unfold Y. rewrite mult_IZR, RtoC_mult. ring. }
    rewrite !csum_plus. rewrite !(csum_scal _ _ (- Cconj b')), !(csum_scal _ _ b').
    rewrite (block_up ell (w ell) Y), (block_down ell (w ell) Y) by lia. rewrite <- !csum_scal.
    unfold Y. f_equal. f_equal. apply csum_ext. intros. ring.
Qed.

Definition Vrp s L (w : Z -> Z -> C) q := fvalue (s - 1) L (fun ell m => RtoC (rup s ell) * w ell m) q.
Definition Vrm s L (w : Z -> Z -> C) q := fvalue (s + 1) L (fun ell m => RtoC (rdown s ell) * w ell m) q.
Lemma fvalue_right_deriv s L w g za b' q : one_param g za b' ->
  Cderiv (fun t => fvalue s L w (qmul q (g t)))
    (RtoC (IZR (- 2 * s)) * (Ci * RtoC za) * fvalue s L w q + Cconj b' * Vrp s L w q - b' * Vrm s L w q).
Proof.
  intros HG. unfold Vrp, Vrm, fvalue.
  eapply eq_ind; [apply (Cderiv_dsum L (fun t ell m => w ell m * SWSH_value s ell m (qa (qmul q (g t))) (qb (qmul q (g t)))))|].
  - intros ell m He Hm. cbv beta. apply (Cderiv_scal _ (fun t => SWSH_value s ell m (qa (qmul q (g t))) (qb (qmul q (g t))))).
    apply SWSH_right_deriv; eauto. lia.
  - cbv beta. rewrite <- !dsum_scal. rewrite <- dsum_plus, <- dsum_minus. apply dsum_ext. intros ell m He Hm. ring.
Qed.

(** ** C27: the L operators are the left Lie derivatives *)
Lemma left_derivative_ok Lt tab h f g za b' q : is_Wigner_table Lt tab -> wf h f -> (0 <= ellmax (md f) <= Lt)%Z -> generic q -> subgroup g za b' ->
  left_derivative tab h f g q (fun idx => - (Ci / RtoC 2) *
    (RtoC 2 * (Ci * RtoC za) * Vz (spin (md f)) (ellmax (md f)) (mode h f idx) q
     - Cconj b' * Vm (spin (md f)) (ellmax (md f)) (mode h f idx) q + b' * Vp (spin (md f)) (ellmax (md f)) (mode h f idx) q)).
Proof.
  intros Ht W HL Gq SG. exists (fun t idx => fvalue (spin (md f)) (ellmax (md f)) (mode h f idx) (qmul (g t) q)). split.
  - destruct (near_left g za b' q SG Gq) as (d & Pd & Hd). exists d. split; auto. intros t Ht'. apply (value_at_fvalue Lt); auto.
  - intros idx Hi. eexists. split; [apply (fvalue_left_deriv _ _ _ g za b' q (proj2 SG))|]. reflexivity.
Qed.
Lemma right_derivative_ok Lt tab h f g za b' q : is_Wigner_table Lt tab -> wf h f -> (0 <= ellmax (md f) <= Lt)%Z -> generic q -> subgroup g za b' ->
  right_derivative tab h f g q (fun idx => - (Ci / RtoC 2) *
    (RtoC (IZR (- 2 * spin (md f))) * (Ci * RtoC za) * fvalue (spin (md f)) (ellmax (md f)) (mode h f idx) q
     + Cconj b' * Vrp (spin (md f)) (ellmax (md f)) (mode h f idx) q - b' * Vrm (spin (md f)) (ellmax (md f)) (mode h f idx) q)).
Proof.
  intros Ht W HL Gq SG. exists (fun t idx => fvalue (spin (md f)) (ellmax (md f)) (mode h f idx) (qmul q (g t))). split.
  - destruct (near_right g za b' q SG Gq) as (d & Pd & Hd). exists d. split; auto. intros t Ht'. apply (value_at_fvalue Lt); auto.
  - intros idx Hi. eexists. split; [apply (fvalue_right_deriv _ _ _ g za b' q (proj2 SG))|]. reflexivity.
Qed.

Lemma op_value_new Lt tab op h f s w q v : is_Wigner_table Lt tab -> gives op h f s w -> (0 <= ellmax (md f) <= Lt)%Z -> rotor q ->
  (forall idx, at_index (lead (nd f)) idx -> fvalue s (ellmax (md f)) (w idx) q = v idx) -> op_value op tab h f q v.
Proof.
  intros Ht (h' & r & E & NM) HL Hq Hv. exists h', r. split; [exact E|]. pose proof NM as (_ & _ & _ & _ & _ & El & _).
  split; [exact El|]. eapply value_at_ext; [|eapply (value_at_new Lt); eauto]. intros idx Hi. cbv beta. apply Hv. rewrite <- El. exact Hi.
Qed.

Lemma Ci2 : Ci * Ci = - RtoC 1.
Proof. apply injective_projections; cbn; ring. Qed.
Lemma Cconj_Ci : Cconj Ci = - Ci.
Proof. apply injective_projections; cbn; ring. Qed.
Ltac lie := rewrite ?Cconj_Ci, ?Cconj_RtoC; apply injective_projections; unfold Cdiv, Cinv; cbn; field.

Lemma C27_left_derivatives :
  forall Lt tab h f q, is_Wigner_table Lt tab -> wf h f -> (0 <= ellmax (md f) <= Lt)%Z -> generic q ->
  exists vx vy vz,
    left_derivative tab h f turn_x q vx /\ left_derivative tab h f turn_y q vy /\ left_derivative tab h f turn_z q vz
    /\ op_value Lz tab h f q vz
    /\ op_value Lplus tab h f q (fun idx => vx idx + Ci * vy idx)
    /\ op_value Lminus tab h f q (fun idx => vx idx - Ci * vy idx).
Proof.
  intros Lt tab h f q Ht W HL Gq. do 3 eexists.
  split; [exact (left_derivative_ok Lt tab h f _ _ _ q Ht W HL Gq sub_x)|].
  split; [exact (left_derivative_ok Lt tab h f _ _ _ q Ht W HL Gq sub_y)|].
  split; [exact (left_derivative_ok Lt tab h f _ _ _ q Ht W HL Gq sub_z)|].
  pose proof (generic_rotor q Gq) as Rq.
  split; [|split].
  - eapply op_value_new; eauto; [exact (op_run _ _ _ h f spec_Lz W)|]. intros idx Hi. cbv beta. rewrite Z.add_0_r.
    fold (Vz (spin (md f)) (ellmax (md f)) (mode h f idx) q). generalize (Vz (spin (md f)) (ellmax (md f)) (mode h f idx) q).
    generalize (Vp (spin (md f)) (ellmax (md f)) (mode h f idx) q) (Vm (spin (md f)) (ellmax (md f)) (mode h f idx) q). intros x y z. lie.
  - eapply op_value_new; eauto; [exact (op_run _ _ _ h f spec_Lp W)|]. intros idx Hi. cbv beta. rewrite Z.add_0_r.
    fold (Vp (spin (md f)) (ellmax (md f)) (mode h f idx) q). generalize (Vz (spin (md f)) (ellmax (md f)) (mode h f idx) q).
    generalize (Vp (spin (md f)) (ellmax (md f)) (mode h f idx) q) (Vm (spin (md f)) (ellmax (md f)) (mode h f idx) q). intros x y z. lie.
  - eapply op_value_new; eauto; [exact (op_run _ _ _ h f spec_Lm W)|]. intros idx Hi. cbv beta. rewrite Z.add_0_r.
    fold (Vm (spin (md f)) (ellmax (md f)) (mode h f idx) q). generalize (Vz (spin (md f)) (ellmax (md f)) (mode h f idx) q).
    generalize (Vp (spin (md f)) (ellmax (md f)) (mode h f idx) q) (Vm (spin (md f)) (ellmax (md f)) (mode h f idx) q). intros x y z. lie.
Qed.

(** ** C44: the R operators and the right Lie derivatives *)
Lemma C44_right_derivatives :
  forall Lt tab h f q, is_Wigner_table Lt tab -> wf h f -> (0 <= ellmax (md f) <= Lt)%Z -> generic q ->
  exists vx vy vz,
    right_derivative tab h f turn_x q vx /\ right_derivative tab h f turn_y q vy /\ right_derivative tab h f turn_z q vz
    /\ op_value Rz tab h f q vz
    /\ op_value Rplus tab h f q (fun idx => - (vx idx - Ci * vy idx))
    /\ op_value Rminus tab h f q (fun idx => - (vx idx + Ci * vy idx))
    /\ op_value eth tab h f q (fun idx => - (vx idx + Ci * vy idx))
    /\ op_value ethbar tab h f q (fun idx => vx idx - Ci * vy idx).
Proof.
  intros Lt tab h f q Ht W HL Gq. do 3 eexists.
  split; [exact (right_derivative_ok Lt tab h f _ _ _ q Ht W HL Gq sub_x)|].
  split; [exact (right_derivative_ok Lt tab h f _ _ _ q Ht W HL Gq sub_y)|].
  split; [exact (right_derivative_ok Lt tab h f _ _ _ q Ht W HL Gq sub_z)|].
  pose proof (generic_rotor q Gq) as Rq.
  assert (Eth : op_value Rminus tab h f q (fun idx => - (- (Ci / RtoC 2) *
    (RtoC (IZR (- 2 * spin (md f))) * (Ci * RtoC 0) * fvalue (spin (md f)) (ellmax (md f)) (mode h f idx) q
     + Cconj Ci * Vrp (spin (md f)) (ellmax (md f)) (mode h f idx) q - Ci * Vrm (spin (md f)) (ellmax (md f)) (mode h f idx) q)
    + Ci * (- (Ci / RtoC 2) * (RtoC (IZR (- 2 * spin (md f))) * (Ci * RtoC 0) * fvalue (spin (md f)) (ellmax (md f)) (mode h f idx) q
     + Cconj (RtoC 1) * Vrp (spin (md f)) (ellmax (md f)) (mode h f idx) q - RtoC 1 * Vrm (spin (md f)) (ellmax (md f)) (mode h f idx) q))))).
  { eapply op_value_new; eauto; [exact (op_run _ _ _ h f spec_Rm W)|]. intros idx Hi. cbv beta.
    fold (Vrm (spin (md f)) (ellmax (md f)) (mode h f idx) q). generalize (fvalue (spin (md f)) (ellmax (md f)) (mode h f idx) q).
    generalize (Vrp (spin (md f)) (ellmax (md f)) (mode h f idx) q) (Vrm (spin (md f)) (ellmax (md f)) (mode h f idx) q). intros x y z. lie. }
  split; [|split; [|split; [exact Eth|split; [exact Eth|]]]].
  - eapply op_value_new; eauto; [exact (op_run _ _ _ h f spec_Rz W)|]. intros idx Hi. cbv beta. rewrite Z.add_0_r.
    unfold fvalue at 1. rewrite (dsum_ext _ _ (fun ell m => RtoC (IZR (- spin (md f))) * (mode h f idx ell m * SWSH_value (spin (md f)) ell m (qa q) (qb q)))) by (intros; ring).
    rewrite dsum_scal. fold (fvalue (spin (md f)) (ellmax (md f)) (mode h f idx) q). generalize (fvalue (spin (md f)) (ellmax (md f)) (mode h f idx) q).
    generalize (Vrp (spin (md f)) (ellmax (md f)) (mode h f idx) q) (Vrm (spin (md f)) (ellmax (md f)) (mode h f idx) q). intros x y z.
    rewrite opp_IZR, mult_IZR. generalize (IZR (spin (md f))). intros r. lie.
  - eapply op_value_new; eauto; [exact (op_run _ _ _ h f spec_Rp W)|]. intros idx Hi. cbv beta. change (spin (md f) + -1)%Z with (spin (md f) - 1)%Z.
    fold (Vrp (spin (md f)) (ellmax (md f)) (mode h f idx) q). generalize (fvalue (spin (md f)) (ellmax (md f)) (mode h f idx) q).
    generalize (Vrp (spin (md f)) (ellmax (md f)) (mode h f idx) q) (Vrm (spin (md f)) (ellmax (md f)) (mode h f idx) q). intros x y z. lie.
  - eapply op_value_new; eauto; [exact (op_run _ _ _ h f spec_ethbar W)|]. intros idx Hi. cbv beta.
    unfold fvalue at 1. rewrite (dsum_ext _ _ (fun ell m => RtoC (-1) * (RtoC (rup (spin (md f)) ell) * mode h f idx ell m * SWSH_value (spin (md f) + -1) ell m (qa q) (qb q)))) by (intros; apply injective_projections; cbn; ring).
    rewrite dsum_scal. change (spin (md f) + -1)%Z with (spin (md f) - 1)%Z.
    fold (fvalue (spin (md f) - 1) (ellmax (md f)) (fun ell m => RtoC (rup (spin (md f)) ell) * mode h f idx ell m) q).
    fold (Vrp (spin (md f)) (ellmax (md f)) (mode h f idx) q). generalize (fvalue (spin (md f)) (ellmax (md f)) (mode h f idx) q).
    generalize (Vrp (spin (md f)) (ellmax (md f)) (mode h f idx) q) (Vrm (spin (md f)) (ellmax (md f)) (mode h f idx) q). intros x y z. lie.
Qed.

(** The entries of the L operators on each ell block. *)
Lemma C27_ladder_entries :
  forall h f, wf h f -> let s := spin (md f) in
  exists z p m, gives Lz h f s z /\ gives Lplus h f s p /\ gives Lminus h f s m
    /\ same_modes f z (fun idx ell k => RtoC (IZR k) * mode h f idx ell k)
    /\ same_modes f p (fun idx ell k => if (k =? - ell)%Z then RtoC 0 else RtoC (sqrt (IZR ell * (IZR ell + 1) - IZR k * (IZR k - 1))) * mode h f idx ell (k - 1)%Z)
    /\ same_modes f m (fun idx ell k => if (k =? ell)%Z then RtoC 0 else RtoC (sqrt (IZR ell * (IZR ell + 1) - IZR k * (IZR k + 1))) * mode h f idx ell (k + 1)%Z).
Proof.
  intros h f W s. unfold s. rewrite <- (Z.add_0_r (spin (md f))). do 3 eexists.
  split; [exact (op_run _ _ _ h f spec_Lz W)|]. split; [exact (op_run _ _ _ h f spec_Lp W)|]. split; [exact (op_run _ _ _ h f spec_Lm W)|].
  split; [intros idx ell k Hi He Hk; reflexivity|]. split; intros idx ell k Hi He Hk; cbv beta.
  - destruct (Z.eqb_spec k (- ell)) as [->|]; [rewrite up_low; ring|]. f_equal. f_equal. unfold up. f_equal.
    rewrite mult_IZR, !plus_IZR, minus_IZR. ring.
  - destruct (Z.eqb_spec k ell) as [->|]; [rewrite down_high; ring|]. f_equal. f_equal. unfold down. f_equal.
    rewrite mult_IZR, !plus_IZR, minus_IZR. ring.
Qed.

(** ** Rotations *)
Lemma formula_Dm ell m m' a b : (- ell <= m <= ell)%Z -> (- ell <= m' <= ell)%Z ->
  Wigner_formula (2 * ell) (2 * m) (2 * m') a b = Dm (2 * ell) (ell + m) (ell + m') a b.
Proof. intros. rewrite <- Wigner_formula_Dm by lia. f_equal; lia. Qed.

Lemma C27_rotated_values :
  forall Lt tab h f g p, is_Wigner_table Lt tab -> wf h f -> wf h g -> (0 <= ellmax (md f) <= Lt)%Z -> unit_quat p ->
  spin (md g) = spin (md f) -> ellmax (md g) = ellmax (md f) -> lead (nd g) = lead (nd f) ->
  same_modes f (mode h g) (rotated (fun ell m m' => Wigner_formula (2 * ell) (2 * m) (2 * m') (qa p) (qb p)) (mode h f)) ->
  forall q F, rotor q -> rotor (qmul p q) -> value_at tab h f (qmul p q) F -> value_at tab h g q F.
Proof.
  intros Lt tab h f g p Ht Wf Wg HL Up Es EL El M q F Rq Rpq V.
  eapply value_at_ext; [|apply (value_at_fvalue Lt); eauto; lia]. intros idx Hi. cbv beta. rewrite El in Hi.
  rewrite <- (value_at_fun _ _ _ _ _ _ (value_at_fvalue Lt tab h f (qmul p q) Ht Wf HL Rpq) V idx Hi).
  rewrite Es, EL. unfold fvalue, dsum. apply csum_ext. intros ell He.
  rewrite (csum_ext _ _ (fun m => mode h f idx ell m * _) (fun m => csum (- ell) ell (fun m' => mode h f idx ell m * Wigner_formula (2 * ell) (2 * m) (2 * m') (qa p) (qb p) * SWSH_value (spin (md f)) ell m' (qa q) (qb q)))).
  2:{ intros m Hm. rewrite SWSH_left by auto. rewrite <- csum_scal. apply csum_ext. intros m' Hm'. rewrite formula_Dm by auto. ring. }
  rewrite csum_swap. apply csum_ext. intros m' Hm'. rewrite M by auto. unfold rotated. rewrite <- csum_scal_r. apply csum_ext. intros; ring.
Qed.

Lemma C27_rotation_commutes :
  forall op ds, In (op, ds) [(Rz, 0%Z); (Rplus, (-1)%Z); (Rminus, 1%Z); (Rsquared, 0%Z); (Lsquared, 0%Z); (eth, 1%Z); (ethbar, (-1)%Z)] ->
  forall h f g p, wf h f -> wf h g -> unit_quat p ->
  let d := fun ell m m' => Wigner_formula (2 * ell) (2 * m) (2 * m') (qa p) (qb p) in
  spin (md g) = spin (md f) -> ellmax (md g) = ellmax (md f) -> lead (nd g) = lead (nd f) ->
  same_modes f (mode h g) (rotated d (mode h f)) ->
  exists v w, gives op h f (spin (md f) + ds) v /\ gives op h g (spin (md f) + ds) w /\ same_modes f w (rotated d v).
Proof.
  intros op ds Hop h f g p Wf Wg Up d Es EL El M.
  assert (G : forall c, op_spec op ds (fun s w ell mm => RtoC (c s ell) * w ell mm) -> exists v w, gives op h f (spin (md f) + ds) v /\ gives op h g (spin (md f) + ds) w /\ same_modes f w (rotated d v)).
  { intros c Sp. do 2 eexists. split; [exact (op_run _ _ _ h f Sp Wf)|]. pose proof (op_run _ _ _ h g Sp Wg) as Hg. rewrite Es in Hg.
    split; [exact Hg|]. intros idx ell mm Hi He Hm. cbv beta. rewrite M by auto. unfold rotated. rewrite <- csum_scal. apply csum_ext. intros; ring. }
  cbn [In] in Hop. destruct Hop as [E|[E|[E|[E|[E|[E|[E|[]]]]]]]]; inversion E; subst; clear E.
  - apply (G (fun s ell => IZR (- s))), spec_Rz.
  - apply (G (fun s ell => rup s ell)), spec_Rp.
  - apply (G (fun s ell => rdown s ell)), spec_Rm.
  - apply (G (fun s ell => IZR (ell * (ell + 1)))), spec_L2.
  - apply (G (fun s ell => IZR (ell * (ell + 1)))), spec_L2.
  - apply (G (fun s ell => rdown s ell)), spec_Rm.
  - apply (G (fun s ell => (- rup s ell)%R)). destruct spec_ethbar as (A & B). split.
    + intros h0 f0 W0. eapply gives_ext; [apply A; auto|]. intros idx ell mm Hi He Hm. cbv beta. rewrite RtoC_opp. ring.
    + intros. f_equal. auto.
Qed.

(** ** The documented sign of Rplus is wrong *)
Definition one_mode_heap : heap := mkheap 1 (fun b idx k => if (k =? 2)%Z then RtoC 1 else RtoC 0).
Definition one_mode : modes := mkmodes (mknd 0 [] 4) (mkmeta 1 1 None).
Lemma one_mode_wf : wf one_mode_heap one_mode.
Proof.
  split; [cbn; lia|]. split; [reflexivity|]. cbn. intros idx ell mm H1 H2 H3. unfold mode. cbn.
  destruct (Z.eqb_spec (ell * ell + (ell + mm)) 2); [nia|reflexivity].
Qed.
Lemma one_mode_Rplus : exists x, Vrp 1 1 (mode one_mode_heap one_mode []) q345 = RtoC x /\ (x < 0)%R.
Proof.
  exists (sqrt 2 * (swsh_norm 1 * (- 7 / 25)))%R. split.
  - unfold Vrp, fvalue, dsum. rewrite (csum_delta 0 1 1) by (try lia; intros ell He Hn; apply csum_zero; intros m Hm; unfold mode; cbn;
      replace ell with 0%Z in * by lia; replace m with 0%Z by lia; cbn; ring).
    rewrite (csum_delta (- (1)) 1 0) by (try lia; intros m He Hn; unfold mode; cbn [nd one_mode buf mem one_mode_heap];
      replace (1 * 1 + (1 + m) =? 2)%Z with false by (symmetry; apply Z.eqb_neq; lia); ring).
    unfold mode. cbn [nd one_mode buf mem one_mode_heap]. replace (1 * 1 + (1 + 0) =? 2)%Z with true by reflexivity.
    rewrite SWSH_value_in by lia. unfold Dv, Dm. replace (- (1 - 1))%Z with 0%Z by lia. unfold rup.
    replace ((1 + 1) * (1 - 1 + 1))%Z with 2%Z by lia. replace (1 - 1)%Z with 0%Z by lia.
    replace (sgn 0) with 1%R by reflexivity. replace (2 * 1)%Z with 2%Z by lia. replace (1 + 0)%Z with 1%Z by lia. replace (2 - 1)%Z with 1%Z by lia.
    change (Z.to_nat 1) with 1%nat. cbn [sp sp0].
    unfold q345, qa, qb. cbn [qw qx qy qz]. rewrite !RtoC_mult.
    replace (fct 1 * fct 1 / (fct 1 * fct 1))%R with 1%R by (pose proof (fct_pos 1); field; lra). rewrite sqrt_1.
    apply injective_projections; cbn; field.
  - assert (0 < sqrt 2)%R by (apply sqrt_lt_R0; lra). assert (0 < swsh_norm 1)%R.
    { unfold swsh_norm. apply sqrt_lt_R0. apply Rdiv_lt_0_compat; [cbn; lra|]. pose proof PI_RGT_0. lra. }
    assert (0 < sqrt 2 * swsh_norm 1)%R by (apply Rmult_lt_0_compat; auto). nra.
Qed.

Lemma C44_refuted :
  exists Lt tab h f q idx, is_Wigner_table Lt tab /\ wf h f /\ (0 <= ellmax (md f) <= Lt)%Z /\ generic q /\ at_index (lead (nd f)) idx
  /\ exists vx vy vp, right_derivative tab h f turn_x q vx /\ right_derivative tab h f turn_y q vy
       /\ op_value Rplus tab h f q vp /\ vp idx <> vx idx - Ci * vy idx.
Proof.
  destruct (table_exists 32 ltac:(lia)) as (tab & Ht). exists 32%Z, tab, one_mode_heap, one_mode, q345, [].
  assert (Gq : generic q345) by (split; [exact (proj1 q345_rotor)|exact q345_parts]).
  split; [exact Ht|]. split; [exact one_mode_wf|]. split; [cbn; lia|]. split; [exact Gq|]. split; [constructor|].
  pose proof (right_derivative_ok 32 tab _ _ _ _ _ q345 Ht one_mode_wf ltac:(cbn; lia) Gq sub_x) as RX.
  pose proof (right_derivative_ok 32 tab _ _ _ _ _ q345 Ht one_mode_wf ltac:(cbn; lia) Gq sub_y) as RY.
  do 3 eexists. split; [exact RX|]. split; [exact RY|]. split.
  - eapply (op_value_new 32); [exact Ht|exact (op_run _ _ _ _ _ spec_Rp one_mode_wf)|cbn; lia|apply q345_rotor|]. intros. reflexivity.
  - cbv beta. change (spin (md one_mode) + -1)%Z with (1 - 1)%Z. change (spin (md one_mode)) with 1%Z. change (ellmax (md one_mode)) with 1%Z.
    fold (Vrp 1 1 (mode one_mode_heap one_mode []) q345). destruct one_mode_Rplus as (x & -> & Hx).
    generalize (fvalue 1 1 (mode one_mode_heap one_mode []) q345) (Vrm 1 1 (mode one_mode_heap one_mode []) q345). intros z y H.
    apply (f_equal Re) in H. revert H. rewrite Cconj_Ci, Cconj_RtoC. unfold Cdiv, Cinv. cbn. intros H.
    assert (x = - x)%R; [|lra]. rewrite H at 1. field.
Qed.
