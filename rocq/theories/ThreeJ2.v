(** The 3-j symbol itself: symmetries, ladder relations, recurrence, orthonormality. *)
From Coq Require Import ZArith Reals Lia Lra Psatz Bool.
From Verif Require Import Fact RSum ThreeJSpec ThreeJ.
Local Open Scope R_scope.

Lemma tj_allowedP j1 j2 j3 m1 m2 m3 :
  tj_allowedb j1 j2 j3 m1 m2 m3 = true <-> tj_allowed j1 j2 j3 m1 m2 m3.
Proof.
  unfold tj_allowedb, tj_allowed. rewrite !andb_true_iff, !Z.leb_le, Z.eqb_eq. tauto.
Qed.
Lemma tj_allowed_dec j1 j2 j3 m1 m2 m3 :
  tj_allowed j1 j2 j3 m1 m2 m3 \/ ~ tj_allowed j1 j2 j3 m1 m2 m3.
Proof.
  destruct (tj_allowedb j1 j2 j3 m1 m2 m3) eqn:E; [left; now apply tj_allowedP|right].
  intros H. apply tj_allowedP in H. congruence.
Qed.

(** The symbol without its guard. *)
Definition PP (j1 j2 j3 m1 m2 m3 : Z) : R :=
  fct (j1 + m1) * fct (j1 - m1) * fct (j2 + m2) * fct (j2 - m2) * fct (j3 + m3) * fct (j3 - m3).
Definition tjU (j1 j2 j3 m1 m2 m3 : Z) : R :=
  sgn (j1 - j2 - m3) * sqrt (tri2 j1 j2 j3) * sqrt (PP j1 j2 j3 m1 m2 m3)
  * Sm (j1 + j2 - j3) (j1 - m1) (j2 + m2) (j3 - j2 + m1) (j3 - j1 - m2).

Lemma threej_in j1 j2 j3 m1 m2 m3 : tj_allowed j1 j2 j3 m1 m2 m3 ->
  threej j1 j2 j3 m1 m2 m3 = tjU j1 j2 j3 m1 m2 m3.
Proof. intros H. unfold threej. apply tj_allowedP in H. now rewrite H. Qed.
Lemma threej_out j1 j2 j3 m1 m2 m3 : ~ tj_allowed j1 j2 j3 m1 m2 m3 -> threej j1 j2 j3 m1 m2 m3 = 0.
Proof.
  intros H. unfold threej. destruct (tj_allowedb j1 j2 j3 m1 m2 m3) eqn:E; auto.
  apply tj_allowedP in E. contradiction.
Qed.

Lemma PP_pos j1 j2 j3 m1 m2 m3 : 0 < PP j1 j2 j3 m1 m2 m3.
Proof. unfold PP. repeat apply Rmult_lt_0_compat; apply fct_pos. Qed.
Lemma tri2_pos j1 j2 j3 : 0 < tri2 j1 j2 j3.
Proof.
  unfold tri2, Rdiv. repeat apply Rmult_lt_0_compat; try apply fct_pos.
  apply Rinv_0_lt_compat, fct_pos.
Qed.

(** ** Symmetries *)
Lemma threej_cyc j1 j2 j3 m1 m2 m3 : threej j1 j2 j3 m1 m2 m3 = threej j2 j3 j1 m2 m3 m1.
Proof.
  destruct (tj_allowed_dec j1 j2 j3 m1 m2 m3) as [H|H].
  2:{ rewrite !threej_out; auto. unfold tj_allowed in *. lia. }
  rewrite !threej_in by (unfold tj_allowed in *; lia). unfold tjU. destruct H as [H _].
  rewrite (Sm_su (j1 + j2 - j3)), Sm_shift.
  replace (j1 + j2 - j3 + (j3 - j1 - m2))%Z with (j2 - m2)%Z by lia.
  replace (j1 - m1 + (j3 - j1 - m2))%Z with (j3 + m3)%Z by lia.
  replace (j2 + m2 + (j3 - j1 - m2))%Z with (j2 + j3 - j1)%Z by lia.
  replace (- (j3 - j1 - m2))%Z with (j1 - j3 + m2)%Z by lia.
  replace (j3 - j2 + m1 - (j3 - j1 - m2))%Z with (j1 - j2 - m3)%Z by lia.
  rewrite (Sm_qr (j2 - m2)), (Sm_pq (j2 - m2)).
  replace (PP j2 j3 j1 m2 m3 m1) with (PP j1 j2 j3 m1 m2 m3) by (unfold PP; ring).
  replace (tri2 j2 j3 j1) with (tri2 j1 j2 j3).
  2:{ unfold tri2. replace (j2 + j3 - j1)%Z with (- j1 + j2 + j3)%Z by lia.
      replace (j2 - j3 + j1)%Z with (j1 + j2 - j3)%Z by lia. replace (- j2 + j3 + j1)%Z with (j1 - j2 + j3)%Z by lia.
      replace (j2 + j3 + j1 + 1)%Z with (j1 + j2 + j3 + 1)%Z by lia. field. apply fct_neq0. }
  replace (sgn (j2 - j3 - m1)) with (sgn (j1 - j2 - m3) * sgn (j3 - j1 - m2)).
  2:{ rewrite <- sgn_add. replace (j1 - j2 - m3 + (j3 - j1 - m2))%Z with (- (j2 - j3 - m1))%Z by lia. apply sgn_opp. }
  ring.
Qed.

Lemma threej_neg j1 j2 j3 m1 m2 m3 :
  threej j1 j2 j3 (- m1) (- m2) (- m3) = sgn (j1 + j2 + j3) * threej j1 j2 j3 m1 m2 m3.
Proof.
  destruct (tj_allowed_dec j1 j2 j3 m1 m2 m3) as [H|H].
  2:{ rewrite !threej_out; auto. ring. unfold tj_allowed in *. lia. }
  rewrite !threej_in by (unfold tj_allowed in *; lia). unfold tjU. destruct H as [H _].
  rewrite (Sm_reverse (j1 + j2 - j3) (j1 - m1)).
  replace (j3 - j2 + m1 + (j1 + j2 - j3))%Z with (j1 - - m1)%Z by lia.
  replace (j3 - j1 - m2 + (j1 + j2 - j3))%Z with (j2 + - m2)%Z by lia.
  replace (j1 - m1 - (j1 + j2 - j3))%Z with (j3 - j2 + - m1)%Z by lia.
  replace (j2 + m2 - (j1 + j2 - j3))%Z with (j3 - j1 - - m2)%Z by lia.
  replace (PP j1 j2 j3 (- m1) (- m2) (- m3)) with (PP j1 j2 j3 m1 m2 m3).
  2:{ unfold PP. rewrite !Z.add_opp_r, !Z.sub_opp_r. ring. }
  replace (sgn (j1 + j2 + j3)) with (sgn (j1 + j2 - j3)) by (rewrite !sgn_add, sgn_sub, sgn_add; ring).
  replace (sgn (j1 - j2 - - m3)) with (sgn (j1 - j2 - m3)) by (rewrite !sgn_sub, sgn_opp; ring).
  pose proof (sgn_sqr (j1 + j2 - j3)) as E.
  set (x := sgn (j1 + j2 - j3)) in *. set (y := sgn (j1 - j2 - m3)).
  match goal with |- ?l = x * (?b * (x * ?c)) => transitivity (x * x * (b * c)); [rewrite E; ring|ring] end.
Qed.

Lemma threej_swap12 j1 j2 j3 m1 m2 m3 :
  threej j2 j1 j3 m2 m1 m3 = sgn (j1 + j2 + j3) * threej j1 j2 j3 m1 m2 m3.
Proof.
  rewrite <- threej_neg.
  destruct (tj_allowed_dec j1 j2 j3 m1 m2 m3) as [H|H].
  2:{ rewrite !threej_out; auto; unfold tj_allowed in *; lia. }
  rewrite !threej_in by (unfold tj_allowed in *; lia). unfold tjU. destruct H as [H _].
  rewrite (Sm_su (j2 + j1 - j3)), (Sm_qr (j2 + j1 - j3)).
  replace (j2 + j1 - j3)%Z with (j1 + j2 - j3)%Z by lia. replace (j1 - - m1)%Z with (j1 + m1)%Z by lia.
  replace (j3 - j2 + - m1)%Z with (j3 - j2 - m1)%Z by lia. replace (j3 - j1 - - m2)%Z with (j3 - j1 + m2)%Z by lia.
  rewrite (Z.add_opp_r j2 m2).
  replace (PP j1 j2 j3 (- m1) (- m2) (- m3)) with (PP j2 j1 j3 m2 m1 m3).
  2:{ unfold PP. rewrite !Z.add_opp_r, !Z.sub_opp_r. ring. }
  replace (tri2 j2 j1 j3) with (tri2 j1 j2 j3).
  2:{ unfold tri2. rewrite (Z.add_comm j2 j1). replace (j2 - j1 + j3)%Z with (- j1 + j2 + j3)%Z by lia.
      replace (- j2 + j1 + j3)%Z with (j1 - j2 + j3)%Z by lia. field. apply fct_neq0. }
  replace (sgn (j2 - j1 - m3)) with (sgn (j1 - j2 - - m3)) by (rewrite !sgn_sub, sgn_opp; ring).
  reflexivity.
Qed.

(** ** Ladder relations *)
Definition cp (j m : Z) : R := sqrt (IZR ((j - m) * (j + m + 1))).

Lemma cp_refl j m : cp j (- m - 1) = cp j m.
Proof. unfold cp. do 2 f_equal. ring. Qed.
Lemma cp_sqr j m : (- j - 1 <= m <= j)%Z -> cp j m * cp j m = IZR ((j - m) * (j + m + 1)).
Proof. intros. unfold cp. apply sqrt_sqrt. apply IZR_le. apply Z.mul_nonneg_nonneg; lia. Qed.
Lemma cp_top j : cp j j = 0.
Proof. unfold cp. replace ((j - j) * (j + j + 1))%Z with 0%Z by ring. apply sqrt_0. Qed.
Lemma cp_bot j : cp j (- j - 1) = 0.
Proof. rewrite cp_refl. apply cp_top. Qed.
Lemma cp_pos j m : (- j <= m < j)%Z -> 0 < cp j m.
Proof. intros. unfold cp. apply sqrt_lt_R0. apply IZR_lt. apply Z.mul_pos_pos; lia. Qed.

Lemma sqrt_ladder j m Q : 0 <= Q -> (- j <= m < j)%Z ->
  cp j m * sqrt (fct (j + (m + 1)) * fct (j - (m + 1)) * Q) = IZR (j + m + 1) * sqrt (fct (j + m) * fct (j - m) * Q).
Proof.
  intros HQ Hm. unfold cp.
  pose proof (fct_pos (j + m)). pose proof (fct_pos (j - m)).
  rewrite <- sqrt_mult_alt by (apply IZR_le, Z.mul_nonneg_nonneg; lia).
  transitivity (sqrt (Rsqr (IZR (j + m + 1)) * (fct (j + m) * fct (j - m) * Q))).
  - f_equal. unfold Rsqr. rewrite mult_IZR.
    replace (j + (m + 1))%Z with (j + m + 1)%Z by lia. rewrite fct_succ by lia.
    rewrite (fct_pred (j - m)) by lia. replace (j - m - 1)%Z with (j - (m + 1))%Z by lia. ring.
  - rewrite sqrt_mult_alt by apply Rle_0_sqr. rewrite sqrt_Rsqr by (apply IZR_le; lia). auto.
Qed.

Lemma Sm_q_neg p q r s u : (q < 0)%Z -> Sm p q r s u = 0.
Proof. intros. rewrite Sm_pq. unfold Sm. apply rsum_empty. lia. Qed.
Lemma Sm_p_neg p q r s u : (p < 0)%Z -> Sm p q r s u = 0.
Proof. intros. unfold Sm. apply rsum_empty. lia. Qed.
Lemma Sm_ps_neg p q r s u : (p + s < 0)%Z -> Sm p q r s u = 0.
Proof. intros. rewrite Sm_shift, Sm_p_neg by lia. ring. Qed.
Lemma Sm_pu_neg p q r s u : (p + u < 0)%Z -> Sm p q r s u = 0.
Proof. intros. rewrite Sm_su, Sm_ps_neg by lia. ring. Qed.
Lemma Sm_qs_neg p q r s u : (q + s < 0)%Z -> Sm p q r s u = 0.
Proof. intros. rewrite Sm_pq, Sm_ps_neg by lia. ring. Qed.
Lemma Sm_qu_neg p q r s u : (q + u < 0)%Z -> Sm p q r s u = 0.
Proof. intros. rewrite Sm_pq, Sm_pu_neg by lia. ring. Qed.
Lemma Sm_rs_neg p q r s u : (r + s < 0)%Z -> Sm p q r s u = 0.
Proof. intros. rewrite Sm_qr, Sm_qs_neg by lia. ring. Qed.
Lemma Sm_ru_neg p q r s u : (r + u < 0)%Z -> Sm p q r s u = 0.
Proof. intros. rewrite Sm_qr, Sm_qu_neg by lia. ring. Qed.
Lemma Sm_r_neg p q r s u : (r < 0)%Z -> Sm p q r s u = 0.
Proof. intros. rewrite Sm_qr. now apply Sm_q_neg. Qed.

Lemma threej_raise j1 j2 j3 m1 m2 m3 : (m1 + m2 + m3 = -1)%Z ->
  cp j1 m1 * threej j1 j2 j3 (m1 + 1) m2 m3 + cp j2 m2 * threej j1 j2 j3 m1 (m2 + 1) m3
  + cp j3 m3 * threej j1 j2 j3 m1 m2 (m3 + 1) = 0.
Proof.
  intros Hs.
  assert (D : ((j3 <= j1 + j2 /\ j2 <= j1 + j3 /\ j1 <= j2 + j3) \/ (j1 + j2 < j3 \/ j1 + j3 < j2 \/ j2 + j3 < j1))%Z) by lia.
  destruct D as [T|T].
  2:{ rewrite !threej_out by (unfold tj_allowed; lia). ring. }
  assert (D : ((m1 < - j1 - 1 \/ j1 < m1 \/ m2 < - j2 - 1 \/ j2 < m2 \/ m3 < - j3 - 1 \/ j3 < m3)
     \/ m1 = - j1 - 1 \/ m2 = - j2 - 1 \/ m3 = - j3 - 1
     \/ (- j1 <= m1 <= j1 /\ - j2 <= m2 <= j2 /\ - j3 <= m3 <= j3))%Z) by lia.
  destruct D as [D|[->|[->|[->|[D1 [D2 D3]]]]]].
  - rewrite !threej_out by (unfold tj_allowed; lia). ring.
  - rewrite cp_bot. rewrite (threej_out _ _ _ _ (m2 + 1)), (threej_out _ _ _ _ _ (m3 + 1)) by (unfold tj_allowed; lia). ring.
  - rewrite cp_bot. rewrite (threej_out _ _ _ (m1 + 1)), (threej_out _ _ _ _ _ (m3 + 1)) by (unfold tj_allowed; lia). ring.
  - rewrite cp_bot. rewrite (threej_out _ _ _ (m1 + 1)), (threej_out _ _ _ _ (m2 + 1)) by (unfold tj_allowed; lia). ring.
  - set (K := sgn (j1 - j2 - m3) * sqrt (tri2 j1 j2 j3) * sqrt (PP j1 j2 j3 m1 m2 m3)).
    set (p := (j1 + j2 - j3)%Z). set (q := (j1 - m1)%Z). set (r := (j2 + m2)%Z).
    set (s := (j3 - j2 + m1)%Z). set (u := (j3 - j1 - m2)%Z).
    assert (P1 : cp j1 m1 * threej j1 j2 j3 (m1 + 1) m2 m3 = K * (IZR (p + s + 1) * Sm p (q - 1) r (s + 1) u)).
    { destruct (Z.eq_dec m1 j1) as [->|N].
      - rewrite cp_top, Sm_q_neg by lia. ring.
      - rewrite threej_in by (unfold tj_allowed; lia). unfold tjU, K.
        pose proof (sqrt_ladder j1 m1 (fct (j2 + m2) * fct (j2 - m2) * fct (j3 + m3) * fct (j3 - m3))
          ltac:(repeat apply Rmult_le_pos; apply Rlt_le, fct_pos) ltac:(lia)) as E.
        replace (PP j1 j2 j3 (m1 + 1) m2 m3) with (fct (j1 + (m1 + 1)) * fct (j1 - (m1 + 1)) * (fct (j2 + m2) * fct (j2 - m2) * fct (j3 + m3) * fct (j3 - m3))) by (unfold PP; ring).
        replace (PP j1 j2 j3 m1 m2 m3) with (fct (j1 + m1) * fct (j1 - m1) * (fct (j2 + m2) * fct (j2 - m2) * fct (j3 + m3) * fct (j3 - m3))) by (unfold PP; ring).
        replace (p + s + 1)%Z with (j1 + m1 + 1)%Z by lia.
        replace (j1 - (m1 + 1))%Z with (q - 1)%Z in * by lia.
        replace (j3 - j2 + (m1 + 1))%Z with (s + 1)%Z by lia.
        match type of E with ?c * ?x = ?y * ?z => set (X := x) in *; set (Y := z) in * end.
        fold p r u. match goal with |- cp _ _ * (?A * ?B * X * ?C) = _ => transitivity ((cp j1 m1 * X) * (A * B * C)); [ring|] end.
        rewrite E. ring. }
    assert (P2 : cp j2 m2 * threej j1 j2 j3 m1 (m2 + 1) m3 = K * (IZR (r + 1) * Sm p q (r + 1) s (u - 1))).
    { destruct (Z.eq_dec m2 j2) as [->|N].
      - rewrite cp_top, Sm_pu_neg by lia. ring.
      - rewrite threej_in by (unfold tj_allowed; lia). unfold tjU, K.
        pose proof (sqrt_ladder j2 m2 (fct (j1 + m1) * fct (j1 - m1) * fct (j3 + m3) * fct (j3 - m3))
          ltac:(repeat apply Rmult_le_pos; apply Rlt_le, fct_pos) ltac:(lia)) as E.
        replace (PP j1 j2 j3 m1 (m2 + 1) m3) with (fct (j2 + (m2 + 1)) * fct (j2 - (m2 + 1)) * (fct (j1 + m1) * fct (j1 - m1) * fct (j3 + m3) * fct (j3 - m3))) by (unfold PP; ring).
        replace (PP j1 j2 j3 m1 m2 m3) with (fct (j2 + m2) * fct (j2 - m2) * (fct (j1 + m1) * fct (j1 - m1) * fct (j3 + m3) * fct (j3 - m3))) by (unfold PP; ring).
        replace (r + 1)%Z with (j2 + m2 + 1)%Z by lia.
        replace (j2 + (m2 + 1))%Z with (j2 + m2 + 1)%Z in * by lia.
        replace (j3 - j1 - (m2 + 1))%Z with (u - 1)%Z by lia.
        match type of E with ?c * ?x = ?y * ?z => set (X := x) in *; set (Y := z) in * end.
        fold p q s. match goal with |- cp _ _ * (?A * ?B * X * ?C) = _ => transitivity ((cp j2 m2 * X) * (A * B * C)); [ring|] end.
        rewrite E. ring. }
    assert (P3 : cp j3 m3 * threej j1 j2 j3 m1 m2 (m3 + 1) = - K * (IZR (u + q) * Sm p q r s u)).
    { destruct (Z.eq_dec m3 j3) as [->|N].
      - rewrite cp_top, Sm_rs_neg by lia. ring.
      - rewrite threej_in by (unfold tj_allowed; lia). unfold tjU, K.
        pose proof (sqrt_ladder j3 m3 (fct (j1 + m1) * fct (j1 - m1) * fct (j2 + m2) * fct (j2 - m2))
          ltac:(repeat apply Rmult_le_pos; apply Rlt_le, fct_pos) ltac:(lia)) as E.
        replace (PP j1 j2 j3 m1 m2 (m3 + 1)) with (fct (j3 + (m3 + 1)) * fct (j3 - (m3 + 1)) * (fct (j1 + m1) * fct (j1 - m1) * fct (j2 + m2) * fct (j2 - m2))) by (unfold PP; ring).
        replace (PP j1 j2 j3 m1 m2 m3) with (fct (j3 + m3) * fct (j3 - m3) * (fct (j1 + m1) * fct (j1 - m1) * fct (j2 + m2) * fct (j2 - m2))) by (unfold PP; ring).
        replace (u + q)%Z with (j3 + m3 + 1)%Z by lia.
        replace (sgn (j1 - j2 - (m3 + 1))) with (- sgn (j1 - j2 - m3)) by (rewrite !sgn_sub, sgn_succ; ring).
        match type of E with ?c * ?x = ?y * ?z => set (X := x) in *; set (Y := z) in * end.
        fold p q r s u. match goal with |- cp _ _ * (?A * ?B * X * ?C) = _ => transitivity ((cp j3 m3 * X) * (A * B * C)); [ring|] end.
        rewrite E. ring. }
    rewrite P1, P2, P3. pose proof (Sm_ladder p q r s u) as E.
    transitivity (K * (IZR (p + s + 1) * Sm p (q - 1) r (s + 1) u + IZR (r + 1) * Sm p q (r + 1) s (u - 1) - IZR (u + q) * Sm p q r s u)); [ring|].
    rewrite E. ring.
Qed.

Lemma threej_lower j1 j2 j3 m1 m2 m3 : (m1 + m2 + m3 = 1)%Z ->
  cp j1 (- m1) * threej j1 j2 j3 (m1 - 1) m2 m3 + cp j2 (- m2) * threej j1 j2 j3 m1 (m2 - 1) m3
  + cp j3 (- m3) * threej j1 j2 j3 m1 m2 (m3 - 1) = 0.
Proof.
  intros H. pose proof (threej_raise j1 j2 j3 (- m1) (- m2) (- m3) ltac:(lia)) as E.
  replace (- m1 + 1)%Z with (- (m1 - 1))%Z in E by lia.
  replace (- m2 + 1)%Z with (- (m2 - 1))%Z in E by lia.
  replace (- m3 + 1)%Z with (- (m3 - 1))%Z in E by lia.
  rewrite !threej_neg in E. pose proof (sgn_neq0 (j1 + j2 + j3)) as N.
  apply (Rmult_eq_reg_l (sgn (j1 + j2 + j3))); auto. rewrite Rmult_0_r, <- E. ring.
Qed.

(** ** Rows: different j, same m, are orthogonal *)
Lemma row_rec a b j mu m : (- j <= mu <= j)%Z ->
  let V := fun m => threej a b j m (- mu - m) mu in
  (- a <= m <= a)%Z -> (- b <= - mu - m <= b)%Z ->
  IZR ((j + mu) * (j - mu + 1)) * V m
  = (IZR ((a - m) * (a + m + 1)) + IZR ((b - (- mu - m)) * (b + (- mu - m) + 1))) * V m
    + cp a m * cp b (mu + m) * V (m + 1)%Z + cp a (m - 1) * cp b (mu + m - 1) * V (m - 1)%Z.
Proof.
  intros Hj V Ha Hb. subst V. cbv beta. set (n := (- mu - m)%Z) in *.
  replace (- mu - (m + 1))%Z with (n - 1)%Z by lia. replace (- mu - (m - 1))%Z with (n + 1)%Z by lia.
  replace (mu + m)%Z with (- n)%Z by lia. replace (- n - 1)%Z with (- n - 1)%Z by lia. rewrite cp_refl.
  pose proof (threej_raise a b j m n (mu - 1) ltac:(lia)) as E1.
  replace (mu - 1 + 1)%Z with mu in E1 by lia.
  pose proof (threej_lower a b j (m + 1) n mu ltac:(lia)) as E2.
  replace (m + 1 - 1)%Z with m in E2 by lia. replace (- (m + 1))%Z with (- m - 1)%Z in E2 by lia. rewrite cp_refl in E2.
  pose proof (threej_lower a b j m (n + 1) mu ltac:(lia)) as E3.
  replace (n + 1 - 1)%Z with n in E3 by lia. replace (- (n + 1))%Z with (- n - 1)%Z in E3 by lia. rewrite cp_refl in E3.
  assert (E4 : cp j (mu - 1) = cp j (- mu)) by (rewrite <- (cp_refl j (- mu)); f_equal; lia).
  rewrite E4 in E1. replace (- m)%Z with (- (m - 1) - 1)%Z in E3 by lia. rewrite cp_refl in E3.
  pose proof (cp_sqr j (- mu) ltac:(lia)) as S1. pose proof (cp_sqr a m ltac:(lia)) as S2.
  pose proof (cp_sqr b n ltac:(lia)) as S3.
  replace ((j - - mu) * (j + - mu + 1))%Z with ((j + mu) * (j - mu + 1))%Z in S1 by ring.
  rewrite <- S1, <- S2, <- S3.
  set (c := cp j (- mu)) in *. set (ca := cp a m) in *. set (cb := cp b n) in *.
  set (ca' := cp a (m - 1)) in *. set (cb' := cp b (- n)) in *.
  set (W0 := threej a b j m n mu) in *. set (W1 := threej a b j (m + 1) (n - 1) mu) in *.
  set (W2 := threej a b j (m - 1) (n + 1) mu) in *.
  set (U1 := threej a b j (m + 1) n (mu - 1)) in *. set (U2 := threej a b j m (n + 1) (mu - 1)) in *.
  assert (F1 : c * W0 = - ca * U1 - cb * U2) by lra.
  assert (F2 : c * U1 = - ca * W0 - cb' * W1) by lra.
  assert (F3 : c * U2 = - ca' * W2 - cb * W0) by lra.
  transitivity (c * (c * W0)); [ring|]. rewrite F1.
  transitivity (- ca * (c * U1) - cb * (c * U2)); [ring|]. rewrite F2, F3. ring.
Qed.

Lemma rows_orth a b j j' mu : (0 <= a)%Z -> j <> j' ->
  rsum (- a) a (fun m => threej a b j m (- mu - m) mu * threej a b j' m (- mu - m) mu) = 0.
Proof.
  intros Ha Hne.
  destruct (Z_le_gt_dec (Z.abs mu) j) as [Hj|Hj].
  2:{ apply rsum_zero. intros i _. rewrite threej_out by (unfold tj_allowed; lia). ring. }
  destruct (Z_le_gt_dec (Z.abs mu) j') as [Hj'|Hj'].
  2:{ apply rsum_zero. intros i _. rewrite (threej_out a b j') by (unfold tj_allowed; lia). ring. }
  set (V := fun m => threej a b j m (- mu - m) mu). set (V' := fun m => threej a b j' m (- mu - m) mu).
  set (h := fun m => cp a (m - 1) * cp b (mu + m - 1) * (V m * V' (m - 1)%Z - V (m - 1)%Z * V' m)).
  assert (Hd : IZR ((j - j') * (j + j' + 1)) <> 0).
  { apply IZR_neq. intros E. apply Z.mul_eq_0 in E. lia. }
  apply (Rmult_eq_reg_l (IZR ((j - j') * (j + j' + 1)))); auto. rewrite Rmult_0_r.
  rewrite <- rsum_scal.
  rewrite (rsum_ext _ _ _ (fun m => h (m + 1)%Z - h m)).
  - rewrite rsum_telescope by lia. unfold h. replace (a + 1 - 1)%Z with a by lia. rewrite cp_top, cp_bot. ring.
  - intros m Hm. change (threej a b j m (- mu - m) mu) with (V m). change (threej a b j' m (- mu - m) mu) with (V' m). unfold h.
    replace (m + 1 - 1)%Z with m by lia. replace (mu + (m + 1) - 1)%Z with (mu + m)%Z by lia.
    destruct (Z_le_gt_dec (Z.abs (- mu - m)) b) as [Hb|Hb].
    + assert (E : IZR ((j + mu) * (j - mu + 1)) * V m
        = (IZR ((a - m) * (a + m + 1)) + IZR ((b - (- mu - m)) * (b + (- mu - m) + 1))) * V m
          + cp a m * cp b (mu + m) * V (m + 1)%Z + cp a (m - 1) * cp b (mu + m - 1) * V (m - 1)%Z)
        by (exact (row_rec a b j mu m ltac:(lia) Hm ltac:(lia))).
      assert (E' : IZR ((j' + mu) * (j' - mu + 1)) * V' m
        = (IZR ((a - m) * (a + m + 1)) + IZR ((b - (- mu - m)) * (b + (- mu - m) + 1))) * V' m
          + cp a m * cp b (mu + m) * V' (m + 1)%Z + cp a (m - 1) * cp b (mu + m - 1) * V' (m - 1)%Z)
        by (exact (row_rec a b j' mu m ltac:(lia) Hm ltac:(lia))).
      replace (IZR ((j - j') * (j + j' + 1))) with (IZR ((j + mu) * (j - mu + 1)) - IZR ((j' + mu) * (j' - mu + 1)))
        by (rewrite <- minus_IZR; f_equal; ring).
      transitivity ((IZR ((j + mu) * (j - mu + 1)) * V m) * V' m - V m * (IZR ((j' + mu) * (j' - mu + 1)) * V' m)); [ring|].
      rewrite E, E'. ring.
    + assert (Z0 : V m = 0) by (unfold V; apply threej_out; unfold tj_allowed; lia).
      assert (Z1 : V' m = 0) by (unfold V'; apply threej_out; unfold tj_allowed; lia).
      rewrite Z0, Z1. ring.
Qed.
