(** C52: what the evaluators return at every quaternion, and how far that is from Wigner's formula. *)
Require Import ZArith Lia List Reals Lra Bool.
From Coquelicot Require Import Rcomplements Complex.
From Flocq Require Import Core.
From Verif Require Import Base BaseProofs CBase CSum RSum Fact SymPow WignerSpec DRep IndexModel IndexProofs IndexProofs2
  IndexProps WignerModel WignerProofs WignerProofs2 WignerProofs3 PowersModel RotorSpec SWSHModel SWSHProofs
  WignerCallModel WignerCallProofs WignerProps ModesModel ModesSpec ModesProofs ModesProofs2 ModesProofs3 OrthoSpec OrthoProofs LieProps NearProofs.
Import ListNotations.
Open Scope R_scope.

Lemma D_call_code L tab g a b rest rows scalar : is_Wigner_table L tab ->
  find_indices L true rest = Ok (rows, scalar) -> Forall (valid_row L) rows ->
  exists out, D_call tab L true g a b rest = Ok (out, scalar)
    /\ alen out = Z.of_nat (length rows)
    /\ forall i t, nth_error rows i = Some t -> aget out (Z.of_nat i) = D_code t a b.
Proof.
  intros Ht EF HV. unfold D_call. rewrite EF. cbn [bind]. rewrite np_empty_ok by lia. cbn [bind].
  destruct (Wigner_D_element_code L tab a b (arr_of_list (0, 0, 0)%Z rows) (mkarr (Z.of_nat (length rows)) g) Ht)
    as (out & E & A & B & _).
  - cbn [alen arr_of_list]. lia.
  - intros i Hi. apply (Forall_nth_arr (row_ok L)); auto.
    eapply Forall_impl; [|exact HV]. intros [[e mp] m] (H1 & H2). unfold row_ok. auto.
  - exists out. split; [rewrite E; reflexivity|]. split; [exact A|].
    intros i t Hn. assert (Hi : (i < length rows)%nat) by (apply nth_error_Some; congruence).
    rewrite B by (cbn [alen arr_of_list]; lia). rewrite arr_of_list_get, Nat2Z.id.
    rewrite (nth_error_nth rows i (0, 0, 0)%Z Hn). auto.
Qed.

Lemma single_code L tab g rot a b twoell twomp twom :
  is_Wigner_table L tab -> rotation_args rot a b -> D_indices twoell twomp twom -> (twoell <= 2 * L)%Z ->
  exists out, Wigner_D_element tab L g (rot ++ [AReal (IZR twoell / 2); AReal (IZR twomp / 2); AReal (IZR twom / 2)])
              = Ok (out, true)
    /\ alen out = 1%Z /\ aget out 0 = D_code (twoell, twomp, twom) a b.
Proof.
  intros Ht Hr HD HL.
  assert (EF : find_indices L true [AReal (IZR twoell / 2); AReal (IZR twomp / 2); AReal (IZR twom / 2)]
          = Ok ([(twoell, twomp, twom)], true)).
  { cbn [find_indices]. rewrite !round2_half.
    replace (check_valid_indices L twoell twomp twom) with true; [reflexivity|].
    symmetry. apply check_valid_true. destruct HD as (? & ? & _). auto. }
  destruct (D_call_code L tab g a b _ _ _ Ht EF) as (out & E & A & B).
  { constructor; [split; auto|constructor]. }
  exists out. split; [|split; [exact A|apply (B 0%nat); reflexivity]].
  destruct Hr as [(q & -> & <- & <-)|(x & y & z & -> & <- & <-)]; exact E.
Qed.

Lemma D_returns_code L tab q t mp m : is_Wigner_table L tab -> D_indices t mp m -> (t <= 2 * L)%Z ->
  D_returns tab L q t mp m (D_code (t, mp, m) (qa q) (qb q)).
Proof.
  intros Ht HD HL g. destruct (single_code L tab g [AQuat q] (qa q) (qb q) t mp m Ht) as (out & E & _ & A); auto.
  - left. exists q. auto.
  - exists out. auto.
Qed.

Lemma D_code_int a b ell mp m : (- ell <= mp <= ell)%Z -> (- ell <= m <= ell)%Z ->
  D_code (2 * ell, 2 * mp, 2 * m)%Z a b = Dcv a b ell mp m.
Proof.
  intros Hmp Hm. unfold D_code. replace (in_range (2 * ell, 2 * mp, 2 * m)%Z) with true.
  - replace (2 * ell + 2 * mp)%Z with ((ell + mp) * 2)%Z by lia. replace (2 * ell + 2 * m)%Z with ((ell + m) * 2)%Z by lia.
    rewrite !Z.div_mul by lia. auto.
  - symmetry. unfold in_range. apply andb_true_iff. split; apply Z.leb_le; lia.
Qed.
Lemma D_indices_int ell mp m : (- ell <= mp <= ell)%Z -> (- ell <= m <= ell)%Z -> D_indices (2 * ell) (2 * mp) (2 * m).
Proof. intros. unfold D_indices. rewrite <- !Z.mul_add_distr_l, !Z.even_mul. repeat split; auto; lia. Qed.

(** ** The three evaluators agree at every quaternion. *)
Lemma C52_matrices :
  forall L tab q ell_min ell_max, is_Wigner_table L tab -> (0 <= ell_min <= ell_max)%Z -> (ell_max <= L)%Z ->
  epsilon < Cmod (qa q) \/ qb q <> RtoC 0 ->
  forall g, exists out, Wigner_D_matrices tab g q ell_min ell_max = Ok out
    /\ alen out = LMpM_total_size ell_min ell_max
    /\ forall ell mp m, (ell_min <= ell <= ell_max)%Z -> (- ell <= mp <= ell)%Z -> (- ell <= m <= ell)%Z ->
         D_returns tab L q (2 * ell) (2 * mp) (2 * m) (aget out (LMpM_index ell mp m ell_min)).
Proof.
  intros L tab q ell_min ell_max Ht Hl HL _ g. unfold Wigner_D_matrices.
  pose proof (LMpM_index_bounds ell_min 0 0 ell_min ell_max ltac:(lia) ltac:(lia) ltac:(lia) ltac:(lia)) as Hb.
  rewrite np_empty_ok by lia. cbn [bind].
  destruct (Wigner_D_matrices_code L tab (qa q) (qb q) ell_min ell_max (mkarr (LMpM_total_size ell_min ell_max) g) Ht
    ltac:(lia) HL eq_refl) as (out & E & A & B).
  exists out. split; auto. split; auto. intros ell mp m He Hmp Hm. rewrite B by auto. rewrite <- D_code_int by auto.
  apply D_returns_code; auto; [apply D_indices_int; auto|lia].
Qed.

Lemma C52_elements :
  forall L tab Rs ell mp m g, is_Wigner_table L tab -> (ell <= L)%Z -> (0 <= alen Rs)%Z ->
  (forall i, (0 <= i < alen Rs)%Z -> epsilon < Cmod (qa (aget Rs i)) \/ qb (aget Rs i) <> RtoC 0) ->
  (- ell <= mp <= ell)%Z -> (- ell <= m <= ell)%Z ->
  exists out, Wigner_D_element tab L g [AQuats Rs; AReal (IZR ell); AReal (IZR mp); AReal (IZR m)] = Ok (out, false)
    /\ alen out = alen Rs
    /\ forall i, (0 <= i < alen Rs)%Z -> D_returns tab L (aget Rs i) (2 * ell) (2 * mp) (2 * m) (aget out i).
Proof.
  intros L tab Rs ell mp m g Ht HL Hlen _ Hmp Hm. cbn [Wigner_D_element to_i8 bind]. rewrite !Ztrunc_IZR.
  rewrite np_empty_ok by lia. cbn [bind].
  destruct (Wigner_D_elements_code L tab Rs ell mp m (mkarr (alen Rs) g) Ht HL) as (out & E & A & B & _); [cbn [alen]; lia|].
  rewrite E. cbn [bind]. exists out. split; auto. split; auto. intros i Hi. rewrite B by auto.
  apply D_returns_code; auto; [apply D_indices_int; auto|lia].
Qed.

(** ** SWSH at every quaternion. *)
Lemma SWSH_returns_code L tab q s ell m : is_Wigner_table L tab -> (ell <= L)%Z ->
  SWSH_returns tab q s ell m (SWSH_code s ell m (qa q) (qb q)).
Proof.
  intros Ht HL g. unfold SWSH_indices. cbn [alen]. rewrite np_empty_ok by lia. cbn [bind].
  destruct (SWSH_core_code L tab (qa q) (qb q) s (mkarr 1 (fun _ => (ell, m))) (mkarr 1 g) Ht)
    as (out & E & A & B & _).
  - cbn [alen]. lia.
  - intros i Hi. auto.
  - exists out. split; auto. split; auto. apply B. cbn [alen]. lia.
Qed.

Lemma C52_SWSH :
  forall L tab q s ell m, is_Wigner_table L tab -> (ell <= L)%Z -> epsilon < Cmod (qa q) \/ qb q <> RtoC 0 ->
  exists v, SWSH_returns tab q s ell m v
    /\ ((Z.abs m <= ell -> Z.abs s <= ell -> forall d, D_returns tab L q (2 * ell) (2 * m) (2 * - s) d ->
           v = (RtoC (if Z.even s then 1 else -1)%R * RtoC (sqrt (IZR (2 * ell + 1) / (4 * PI))) * d)%C)%Z)
    /\ (ell < Z.abs m \/ ell < Z.abs s -> v = RtoC 0)%Z.
Proof.
  intros L tab q s ell m Ht HL _. exists (SWSH_code s ell m (qa q) (qb q)). split; [apply (SWSH_returns_code L); auto|]. split.
  - intros Hm Hs d Hd. rewrite SWSH_code_in by lia. fold (sgn s). fold (swsh_norm ell). f_equal.
    rewrite <- D_code_int by lia. symmetry. eapply D_returns_fun; [exact Hd|]. apply D_returns_code; auto; [|lia].
    apply D_indices_int; lia.
  - intros Ho. unfold SWSH_code.
    replace ((Z.abs m <=? ell) && (Z.abs s <=? ell))%Z with false; auto.
    symmetry. apply andb_false_iff. destruct Ho; [left|right]; apply Z.leb_gt; lia.
Qed.

Lemma C52_SWSH_arrays :
  forall L tab Rs, is_Wigner_table L tab -> (0 <= alen Rs)%Z ->
  (forall i, (0 <= i < alen Rs)%Z -> epsilon < Cmod (qa (aget Rs i)) \/ qb (aget Rs i) <> RtoC 0) ->
  (forall s ell m g, (ell <= L)%Z ->
     exists out, SWSH_rotors tab g Rs s ell m = Ok out /\ alen out = alen Rs
       /\ forall i, (0 <= i < alen Rs)%Z -> SWSH_returns tab (aget Rs i) s ell m (aget out i))
  /\ (forall s ell_max g, (0 <= ell_max <= L)%Z -> (0 < alen Rs)%Z ->
     exists out, SWSH_grid tab g Rs s ell_max = Ok out /\ nrow out = alen Rs /\ ncol out = LM_total_size 0 ell_max
       /\ forall i ell m, (0 <= i < alen Rs)%Z -> (0 <= ell <= ell_max)%Z -> (- ell <= m <= ell)%Z ->
            SWSH_returns tab (aget Rs i) s ell m (get2 out i (LM_index ell m 0))).
Proof.
  intros L tab Rs Ht Hlen _. split.
  - intros s ell m g HL. unfold SWSH_rotors. rewrite np_empty_ok by lia. cbn [bind].
    destruct (SWSHs_core_code L tab Rs s ell m (mkarr (alen Rs) g) Ht HL) as (out & E & A & B & _); [cbn [alen]; lia|].
    exists out. split; auto. split; auto. intros i Hi. rewrite B by auto. apply (SWSH_returns_code L); auto.
  - intros s ell_max g HL Hpos. destruct (SWSH_grid_code L tab g Rs s ell_max Ht HL Hpos) as (out & E & A & B & D).
    exists out. split; auto. split; auto. split; auto. intros i ell m Hi He Hm. rewrite D by auto. apply (SWSH_returns_code L); auto. lia.
Qed.

(** ** Accuracy at every unit quaternion. *)
Lemma eps_small N : (0 <= N <= 10 ^ 14)%Z -> IZR N * epsilon <= / 10 /\ epsilon <= / 10.
Proof.
  intros HN. assert (E : epsilon = / 10 * / 10 ^ 14) by (unfold epsilon; rewrite <- Rinv_mult; f_equal; simpl; lra).
  assert (P : 0 < / 10 ^ 14) by (apply Rinv_0_lt_compat, pow_lt; lra).
  assert (IZR N <= 10 ^ 14) by (replace (10 ^ 14) with (IZR (10 ^ 14)) by (simpl; lra); apply IZR_le; lia).
  assert (0 <= IZR N) by (apply IZR_le; lia).
  assert (Q : 10 ^ 14 * / 10 ^ 14 = 1) by (apply Rinv_r; apply pow_nonzero; lra).
  assert (/ 10 ^ 14 <= 1) by (rewrite <- Rinv_1; apply Rinv_le_contravar; [lra|]; apply pow_R1_Rle; lra).
  rewrite E. set (z := / 10 ^ 14) in *. set (w := 10 ^ 14) in *. split; [nra|lra].
Qed.

Lemma near N p q a b : (0 <= p <= N)%Z -> (0 <= q <= N)%Z -> (N <= 10 ^ 14)%Z ->
  (a * Cconj a + b * Cconj b)%C = RtoC 1 -> Cmod (Dc N p q a b - Dm N p q a b)%C <= IZR (N + 1) * epsilon.
Proof.
  intros Hp Hq HN U. destruct (eps_small N ltac:(lia)) as (X & Y). pose proof epsilon_pos as Pe.
  assert (N0 : 0 <= IZR N) by (apply IZR_le; lia). assert (N1 : 0 <= IZR (N + 1)) by (apply IZR_le; lia).
  replace (Cmod (Dc N p q a b - Dm N p q a b)%C) with (Cmod (Dm N p q a b - Dc N p q a b)%C)
    by (rewrite <- Cmod_opp; f_equal; ring).
  unfold Dc. destruct (Rleb (Cmod a) epsilon) eqn:E1; [|destruct (Rleb (Cmod b) epsilon) eqn:E2].
  - apply Rleb_true in E1. pose proof (Cmod_ge_0 a).
    eapply Rle_trans; [apply near_a; auto; [nra|lra]|]. apply Rmult_le_compat_l; auto.
  - apply Rleb_true in E2. pose proof (Cmod_ge_0 b).
    replace (if (p =? q)%Z then Cpowz a (2 * p - N) else RtoC 0) with (if (p =? q)%Z then Cpowz a (2 * q - N) else RtoC 0)
      by (destruct (Z.eqb_spec p q); subst; auto).
    eapply Rle_trans; [apply near_b; auto; [nra|lra]|]. apply Rmult_le_compat_l; auto.
  - replace (Dm N p q a b - Dm N p q a b)%C with (RtoC 0) by ring. rewrite Cmod_0. apply Rmult_le_pos; lra.
Qed.

Lemma near_code t mp m a b : D_indices t mp m -> (t <= 10 ^ 14)%Z -> (a * Cconj a + b * Cconj b)%C = RtoC 1 ->
  Cmod (D_code (t, mp, m) a b - Wigner_formula t mp m a b)%C <= IZR (t + 1) * epsilon.
Proof.
  intros HD HN U. destruct (D_indices_half _ _ _ HD) as (p & q & Hp & Hq & -> & ->). rewrite Wigner_formula_Dm by auto.
  unfold D_code. replace (in_range (t, 2 * p - t, 2 * q - t)%Z) with true.
  - replace ((t + (2 * p - t)) / 2)%Z with p by (replace (t + (2 * p - t))%Z with (p * 2)%Z by lia; symmetry; apply Z.div_mul; lia).
    replace ((t + (2 * q - t)) / 2)%Z with q by (replace (t + (2 * q - t))%Z with (q * 2)%Z by lia; symmetry; apply Z.div_mul; lia).
    apply near; auto.
  - symmetry. unfold in_range. apply andb_true_iff. split; apply Z.leb_le; lia.
Qed.

Lemma C52_accuracy :
  forall L tab g rot a b twoell twomp twom, is_Wigner_table L tab -> rotation_args rot a b ->
  (a * Cconj a + b * Cconj b)%C = RtoC 1 ->
  D_indices twoell twomp twom -> (twoell <= 2 * L)%Z -> (twoell <= 10 ^ 14)%Z ->
  exists out, Wigner_D_element tab L g (rot ++ [AReal (IZR twoell / 2); AReal (IZR twomp / 2); AReal (IZR twom / 2)])
              = Ok (out, true)
    /\ alen out = 1%Z
    /\ Cmod (aget out 0 - Wigner_formula twoell twomp twom a b)%C <= IZR (twoell + 1) * epsilon.
Proof.
  intros L tab g rot a b t mp m Ht Hr U HD HL HN.
  destruct (single_code L tab g rot a b t mp m Ht Hr HD HL) as (out & E & A & B). exists out. split; auto. split; auto.
  rewrite B. apply near_code; auto.
Qed.

Lemma swsh_norm_pos ell : 0 <= swsh_norm ell.
Proof. apply sqrt_pos. Qed.

Lemma near_SWSH s ell m a b : (ell <= 10 ^ 13)%Z -> (a * Cconj a + b * Cconj b)%C = RtoC 1 ->
  Cmod (SWSH_code s ell m a b - SWSH_value s ell m a b)%C <= swsh_norm ell * IZR (Z.max 0 (2 * ell + 1)) * epsilon.
Proof.
  intros HN U. pose proof epsilon_pos as Pe. destruct ((Z.abs m <=? ell) && (Z.abs s <=? ell))%Z eqn:E.
  - apply andb_true_iff in E. destruct E as [E1 E2]. apply Z.leb_le in E1, E2.
    rewrite SWSH_code_in, SWSH_value_in by lia. unfold Dcv, Dv.
    replace (RtoC (sgn s) * RtoC (swsh_norm ell) * Dc (2 * ell) (ell + m) (ell + - s) a b -
       RtoC (sgn s) * RtoC (swsh_norm ell) * Dm (2 * ell) (ell + m) (ell + - s) a b)%C
      with (RtoC (sgn s) * RtoC (swsh_norm ell) * (Dc (2 * ell) (ell + m) (ell + - s) a b - Dm (2 * ell) (ell + m) (ell + - s) a b))%C by ring.
    rewrite !Cmod_mult, !Cmod_R, Rabs_sgn, Rmult_1_l, (Rabs_pos_eq (swsh_norm ell)) by apply swsh_norm_pos.
    rewrite Rmult_assoc. apply Rmult_le_compat_l; [apply swsh_norm_pos|].
    rewrite Z.max_r by lia. apply near; auto; lia.
  - unfold SWSH_code, SWSH_value. rewrite E. replace (RtoC 0 - RtoC 0)%C with (RtoC 0) by ring. rewrite Cmod_0.
    apply Rmult_le_pos; [|lra]. apply Rmult_le_pos; [apply swsh_norm_pos|apply IZR_le; lia].
Qed.

Lemma Cmod_csum lo hi F : Cmod (csum lo hi F) <= rsum lo hi (fun k => Cmod (F k)).
Proof.
  revert hi. apply (csum_ind (fun hi => Cmod (csum lo hi F) <= rsum lo hi (fun k => Cmod (F k))) lo).
  - intros h Hb. rewrite csum_empty, rsum_empty by auto. rewrite Cmod_0. lra.
  - intros h Hb IH. rewrite csum_last, rsum_last by auto. eapply Rle_trans; [apply Cmod_triangle|]. lra.
Qed.

Lemma rsum_const a b k : (a <= b + 1)%Z -> rsum a b (fun _ => k) = IZR (b + 1 - a) * k.
Proof.
  revert b. apply (rsum_ind (fun b => (a <= b + 1)%Z -> rsum a b (fun _ => k) = IZR (b + 1 - a) * k) a).
  - intros b Hb Hb'. rewrite rsum_empty by lia. replace (b + 1 - a)%Z with 0%Z by lia. ring.
  - intros b Hb IH _. rewrite rsum_last by lia. rewrite IH by lia. rewrite !minus_IZR, !plus_IZR, minus_IZR. ring.
Qed.

Lemma evaluate_code Lt tab g h m Rs : is_Wigner_table Lt tab -> wf h m -> (0 <= ellmax (md m) <= Lt)%Z -> (0 < alen Rs)%Z ->
  exists E, evaluate tab g h m Rs = Ok E
    /\ forall idx i, (0 <= i < alen Rs)%Z -> E idx i = dsum (ellmax (md m)) (fun ell mm =>
         mode h m idx ell mm * SWSH_code (spin (md m)) ell mm (qa (aget Rs i)) (qb (aget Rs i)))%C.
Proof.
  intros Ht (Wb & Ww & Wz) HL Hlen. unfold evaluate.
  destruct (SWSH_grid_code Lt tab g Rs (spin (md m)) (ellmax (md m)) Ht HL Hlen) as (out & E & Er & Ec & HV).
  rewrite E. cbn [bind]. unfold ell_min_of. rewrite !LM_col. replace (0 * 0 + (0 + - 0))%Z with 0%Z by lia.
  set (L := ellmax (md m)) in *. rewrite LM_total_sqr in Ec.
  replace (L * L + (L + L) + 1)%Z with ((L + 1) ^ 2)%Z by lia.
  destruct (slice_full (ncol out) 0 ((L + 1) ^ 2) ltac:(lia) ltac:(nia)) as (Ecl & Esl). rewrite Esl, Ecl, Ww.
  replace ((L + 1) ^ 2 - 0)%Z with ((L + 1) ^ 2)%Z by lia. rewrite Z.eqb_refl. cbn [negb]. eexists. split; [reflexivity|].
  intros idx i Hi. cbv beta. rewrite csum_to_csum, Z2Nat.id by nia. rewrite csum_cols by lia.
  apply dsum_ext. intros ell mm He Hm. unfold mode. f_equal. replace (0 + (ell * ell + (ell + mm)))%Z with (LM_index ell mm 0) by (rewrite LM_col; lia).
  apply HV; auto.
Qed.

(** The value [f.evaluate] returns differs from the sum of modes times harmonics by at most [epsilon] times the sum of
    |mode| sqrt((2l+1)/4pi) (2l+1). *)
Lemma C52_evaluate :
  forall Lt tab h f, is_Wigner_table Lt tab -> wf h f -> (0 <= ellmax (md f) <= Lt)%Z -> (ellmax (md f) <= 10 ^ 13)%Z ->
  forall theta phi, exists F, value_at tab h f (direction_rotor theta phi) F
    /\ forall idx, at_index (lead (nd f)) idx ->
       Cmod (F idx - sphere_function h f idx theta phi)%C
       <= epsilon * rsum 0 (ellmax (md f)) (fun ell => rsum (- ell) ell (fun m =>
            Cmod (mode h f idx ell m) * (sqrt (IZR (2 * ell + 1) / (4 * PI)) * IZR (2 * ell + 1)))).
Proof.
  intros Lt tab h f Ht W HL HN theta phi. set (q := direction_rotor theta phi).
  exists (fun idx => dsum (ellmax (md f)) (fun ell mm => mode h f idx ell mm * SWSH_code (spin (md f)) ell mm (qa q) (qb q))%C). split.
  - intros g. destruct (evaluate_code Lt tab g h f (mkarr 1 (fun _ => q)) Ht W HL) as (E & EE & HE); [cbn [alen]; lia|].
    exists E. split; auto. intros idx _. rewrite HE by (cbn [alen]; lia). reflexivity.
  - intros idx _. unfold sphere_function, harmonic. fold q.
    change (csum 0 (ellmax (md f)) (fun ell => csum (- ell) ell (fun m => mode h f idx ell m * SWSH_value (spin (md f)) ell m (qa q) (qb q))))%C
      with (dsum (ellmax (md f)) (fun ell m => mode h f idx ell m * SWSH_value (spin (md f)) ell m (qa q) (qb q)))%C.
    rewrite <- dsum_minus. unfold dsum. eapply Rle_trans; [apply Cmod_csum|]. rewrite <- rsum_scal. apply rsum_le. intros ell He.
    eapply Rle_trans; [apply Cmod_csum|]. rewrite <- rsum_scal. apply rsum_le. intros m Hm.
    match goal with |- Cmod ?z <= _ => replace z with (mode h f idx ell m * (SWSH_code (spin (md f)) ell m (qa q) (qb q) - SWSH_value (spin (md f)) ell m (qa q) (qb q)))%C by ring end.
    rewrite Cmod_mult.
    assert (U : (qa q * Cconj (qa q) + qb q * Cconj (qb q))%C = RtoC 1) by apply direction_unit.
    pose proof (near_SWSH (spin (md f)) ell m (qa q) (qb q) ltac:(lia) U) as B. rewrite Z.max_r in B by lia.
    pose proof (Cmod_ge_0 (mode h f idx ell m)) as M0. fold (swsh_norm ell).
    apply Rle_trans with (Cmod (mode h f idx ell m) * (swsh_norm ell * IZR (2 * ell + 1) * epsilon)); [apply Rmult_le_compat_l; auto|lra].
Qed.

Lemma C52_SWSH_accuracy :
  forall L tab q s ell m, is_Wigner_table L tab -> unit_quat q -> (Z.abs m <= ell <= L)%Z -> (Z.abs s <= ell)%Z -> (ell <= 10 ^ 13)%Z ->
  exists v, SWSH_returns tab q s ell m v
    /\ Cmod (v - RtoC (if Z.even s then 1 else -1)%R * RtoC (sqrt (IZR (2 * ell + 1) / (4 * PI)))
                 * Wigner_formula (2 * ell) (2 * m) (2 * - s) (qa q) (qb q))%C
       <= sqrt (IZR (2 * ell + 1) / (4 * PI)) * IZR (2 * ell + 1) * epsilon.
Proof.
  intros L tab q s ell m Ht U Hm Hs HN. exists (SWSH_code s ell m (qa q) (qb q)). split; [apply (SWSH_returns_code L); auto; lia|].
  pose proof (near_SWSH s ell m (qa q) (qb q) HN (unit_norm q U)) as B. rewrite Z.max_r in B by lia.
  rewrite SWSH_value_in in B by lia. rewrite <- Dv_formula in B by lia. exact B.
Qed.

(** The product of two D matrices, at every pair of unit quaternions. *)
Lemma Dm_mod_le N p q a b : (0 <= p <= N)%Z -> (0 <= q <= N)%Z -> (a * Cconj a + b * Cconj b)%C = RtoC 1 -> Cmod (Dm N p q a b) <= 1.
Proof.
  intros Hp Hq U. pose proof (Dm_unitary N p p a b Hp Hp U) as V. rewrite Z.eqb_refl in V.
  rewrite (csum_ext 0 N _ (fun q => RtoC (Cmod (Dm N p q a b) * Cmod (Dm N p q a b)))) in V by (intros; apply Cconj_mod).
  rewrite <- rsum_RtoC in V. apply RtoC_inj in V. pose proof (Cmod_ge_0 (Dm N p q a b)).
  assert (Cmod (Dm N p q a b) * Cmod (Dm N p q a b) <= 1); [|nra].
  rewrite <- V. set (f := fun k => Cmod (Dm N p k a b) * Cmod (Dm N p k a b)). change (f q <= rsum 0 N f).
  replace (f q) with (rsum 0 N (fun k => if (k =? q)%Z then f k else 0)).
  - apply rsum_le. intros k _. assert (0 <= f k) by (unfold f; pose proof (Cmod_ge_0 (Dm N p k a b)); nra).
    destruct (k =? q)%Z; lra.
  - rewrite (rsum_delta 0 N q) by (auto; intros i _ Hi; destruct (Z.eqb_spec i q); congruence). now rewrite Z.eqb_refl.
Qed.

Lemma C52_product :
  forall L tab N q1 q2 d1 d2 d12, is_Wigner_table L tab -> (0 <= N <= 2 * L)%Z -> (N <= 10 ^ 13)%Z ->
  unit_quat q1 -> unit_quat q2 ->
  D_matrix tab L N q1 d1 -> D_matrix tab L N q2 d2 -> D_matrix tab L N (qmul q1 q2) d12 ->
  forall p r, (0 <= p <= N)%Z -> (0 <= r <= N)%Z ->
    Cmod (d12 p r - csum 0 N (fun k => d1 p k * d2 k r))%C <= 4 * (IZR (N + 1) * IZR (N + 1)) * epsilon.
Proof.
  intros L tab N q1 q2 d1 d2 d12 Ht HL HN U1 U2 H1 H2 H12 p r Hp Hr.
  assert (G : forall q d, D_matrix tab L N q d -> unit_quat q -> forall i j, (0 <= i <= N)%Z -> (0 <= j <= N)%Z ->
    Cmod (d i j - Dm N i j (qa q) (qb q))%C <= IZR (N + 1) * epsilon).
  { intros q d H U i j Hi Hj. rewrite <- Wigner_formula_Dm by auto.
    rewrite (D_returns_fun _ _ _ _ _ _ _ _ (H i j Hi Hj) (D_returns_code L tab q N (2 * i - N) (2 * j - N) Ht (D_indices_pq N i j Hi Hj) ltac:(lia))).
    apply near_code; [apply D_indices_pq; auto|lia|apply unit_norm; auto]. }
  assert (U12 : unit_quat (qmul q1 q2)) by (apply qmul_unit; auto).
  pose proof (G _ _ H12 U12 p r Hp Hr) as B12. rewrite qmul_a, qmul_b, Dm_product in B12 by auto.
  set (e := IZR (N + 1) * epsilon) in *. pose proof epsilon_pos as Pe.
  assert (N1 : 1 <= IZR (N + 1)) by (apply IZR_le; lia).
  assert (e0 : 0 <= e) by (unfold e; apply Rmult_le_pos; lra).
  assert (e1 : e <= 1).
  { destruct (eps_small (N + 1) ltac:(lia)) as (X & _). unfold e. lra. }
  match goal with |- Cmod ?z <= _ => replace z with ((d12 p r - csum 0 N (fun k => Dm N p k (qa q1) (qb q1) * Dm N k r (qa q2) (qb q2)))
     + csum 0 N (fun k => Dm N p k (qa q1) (qb q1) * Dm N k r (qa q2) (qb q2) - d1 p k * d2 k r))%C by (rewrite csum_minus; ring) end.
  eapply Rle_trans; [apply Cmod_triangle|].
  assert (T : Cmod (csum 0 N (fun k => Dm N p k (qa q1) (qb q1) * Dm N k r (qa q2) (qb q2) - d1 p k * d2 k r))%C <= IZR (N + 1) * (3 * e)).
  { eapply Rle_trans; [apply Cmod_csum|].
    apply Rle_trans with (rsum 0 N (fun _ => 3 * e)).
    - apply rsum_le. intros k Hk. pose proof (G _ _ H1 U1 p k Hp Hk) as B1. pose proof (G _ _ H2 U2 k r Hk Hr) as B2.
      pose proof (Dm_mod_le N p k (qa q1) (qb q1) Hp Hk (unit_norm _ U1)) as M1.
      pose proof (Dm_mod_le N k r (qa q2) (qb q2) Hk Hr (unit_norm _ U2)) as M2.
      set (D1 := Dm N p k (qa q1) (qb q1)) in *. set (D2 := Dm N k r (qa q2) (qb q2)) in *.
      replace (D1 * D2 - d1 p k * d2 k r)%C with (- (D1 * (d2 k r - D2) + (d1 p k - D1) * D2 + (d1 p k - D1) * (d2 k r - D2)))%C by ring.
      rewrite Cmod_opp. eapply Rle_trans; [apply Cmod_triangle|]. eapply Rle_trans; [apply Rplus_le_compat_r, Cmod_triangle|].
      rewrite !Cmod_mult. pose proof (Cmod_ge_0 D1). pose proof (Cmod_ge_0 D2).
      pose proof (Cmod_ge_0 (d1 p k - D1)%C). pose proof (Cmod_ge_0 (d2 k r - D2)%C).
      assert (Cmod D1 * Cmod (d2 k r - D2)%C <= 1 * e) by (apply Rmult_le_compat; auto).
      assert (Cmod (d1 p k - D1)%C * Cmod D2 <= e * 1) by (apply Rmult_le_compat; auto).
      assert (Cmod (d1 p k - D1)%C * Cmod (d2 k r - D2)%C <= e * 1) by (apply Rmult_le_compat; auto; lra). lra.
    - rewrite rsum_const by lia. apply Req_le. f_equal. f_equal. lia. }
  apply Rle_trans with (e + IZR (N + 1) * (3 * e)); [apply Rplus_le_compat; auto|].
  unfold e. assert (0 <= IZR (N + 1) * epsilon) by (apply Rmult_le_pos; lra). nra.
Qed.

(** ** A rotation about the y axis by the angle epsilon. *)
Definition near_rotor : quat := direction_rotor epsilon 0.
Lemma near_rotor_facts : unit_quat near_rotor /\ 0 < Cmod (qb near_rotor) < epsilon /\ epsilon < Cmod (qa near_rotor).
Proof.
  pose proof WignerProps.epsilon_small as X. pose proof epsilon_pos as P.
  assert (B : 0 < sin (epsilon / 2) < epsilon).
  { split; [apply sin_gt_0; [lra|]; pose proof PI2_3_2; lra|].
    apply Rlt_trans with (epsilon / 2); [apply sin_lt_x; lra|lra]. }
  assert (U : unit_quat near_rotor).
  { unfold unit_quat, qnorm2, near_rotor, direction_rotor. cbn [qw qx qy qz]. replace (0 / 2) with 0 by lra. rewrite sin_0, cos_0.
    pose proof (sin2_cos2 (epsilon / 2)) as S. unfold Rsqr in S. lra. }
  assert (EB : Cmod (qb near_rotor) = sin (epsilon / 2)).
  { unfold near_rotor. rewrite OrthoProofs.direction_b, Cmod_mult, Cmod_R, Cmod_cis, Rmult_1_r. apply Rabs_pos_eq. lra. }
  split; auto. rewrite EB. split; auto.
  pose proof (unit_norm_mod _ U) as M. rewrite EB in M. pose proof (Cmod_ge_0 (qa near_rotor)). nra.
Qed.

Lemma near_rotor_dropped L tab : is_Wigner_table L tab -> (1 <= L)%Z -> D_returns tab L near_rotor 1 1 (-1) (RtoC 0).
Proof.
  intros Ht HL. destruct near_rotor_facts as (U & B & A).
  replace (RtoC 0) with (D_code (1, 1, -1)%Z (qa near_rotor) (qb near_rotor)).
  - apply D_returns_code; auto; [split; [lia|split; [lia|split; reflexivity]]|lia].
  - unfold D_code. change (in_range (1, 1, -1)%Z) with true. unfold Dc.
    destruct (Rleb (Cmod (qa near_rotor)) epsilon) eqn:E; [apply Rleb_true in E; lra|].
    replace (Rleb (Cmod (qb near_rotor)) epsilon) with true by (symmetry; apply Rleb_true; lra). reflexivity.
Qed.

Lemma near_rotor_formula : Wigner_formula 1 1 (-1) (qa near_rotor) (qb near_rotor) <> RtoC 0.
Proof.
  destruct near_rotor_facts as (U & B & A). change 1%Z with (2 * 1 - 1)%Z at 2. change (-1)%Z with (2 * 0 - 1)%Z.
  rewrite Wigner_formula_Dm by lia. unfold Dm. change (Z.to_nat 1) with 1%nat. change (Z.to_nat (1 - 1)) with 0%nat.
  cbn [sp sp0]. change (0 - 1 =? 0)%Z with false. change (0 =? 0)%Z with true. cbv iota.
  change (1 - 1)%Z with 0%Z. change (1 - 0)%Z with 1%Z.
  intros Q. apply (f_equal Cmod) in Q. rewrite Cmod_0, Cmod_mult, Cmod_R in Q.
  replace (qa near_rotor * RtoC 0 + - Cconj (qb near_rotor) * RtoC 1)%C with (- Cconj (qb near_rotor))%C in Q by ring.
  rewrite Cmod_opp, Cmod_conj in Q. change (fct 0) with 1 in Q. change (fct 1) with 1 in Q.
  replace (1 * 1 / (1 * 1)) with 1 in Q by lra. rewrite sqrt_1, Rabs_R1 in Q. lra.
Qed.
