(** Property C64: how accurate SWSH_grid, Modes.evaluate and Modes.norm are in double precision. *)
Require Import ZArith Lia List Reals Lra Bool Permutation.
From Flocq Require Import Core.
From Coquelicot Require Import Complex.
From Verif Require Import Base BaseProofs CBase Fact RSum CSum DRep IndexModel IndexProofs PowersModel WignerSpec WignerModel WignerProofs WignerProofs3 SWSHModel SWSHProofs
  NearProofs NearProps ModesModel ModesSpec ModesProofs ModesProofs2 ModesProofs3 FloatIndexModel FloatPowersModel FloatPowersSpec FloatPowersProofs FloatConvModel
  FloatConvSpec FloatConvProofs FloatConvProps FloatWignerModel FloatWignerSpec FloatWignerProofs FloatWignerProofs5 FloatWignerProofs6 FloatWignerProps FloatModesModel FloatModesSpec
  FloatModesProofs FloatModesProofs2.
Import ListNotations.
Set Bullet Behavior "Strict Subproofs".
Open Scope R_scope.

Definition grid_entry (s : Z) (q : quat) (t : Z * Z) (v : C) : Prop :=
  let '(ell, m) := t in
  ((Z.abs m <= ell)%Z -> (Z.abs s <= ell)%Z ->
     Cmod (v - RtoC (if Z.even s then 1 else -1)%R * RtoC (sqrt (IZR (2 * ell + 1) / (4 * PI))) * Wigner_formula (2 * ell) (2 * m) (2 * - s) (qa q) (qb q))%C
     <= (42 * IZR (2 * ell + 1) * u64 * sqrt (IZR (2 * ell + 1) / (4 * PI)) * 2 ^ Z.to_nat ell)%R)
  /\ (ell < Z.abs m \/ ell < Z.abs s -> v = RtoC 0)%Z.
Lemma grid_rows lib gb Rs s ell_max : good_libm lib -> (0 <= ell_max <= 32)%Z -> (0 < alen Rs)%Z ->
  (forall i, (0 <= i < alen Rs)%Z -> nearly_unit (qa (aget Rs i)) (qb (aget Rs i))) ->
  exists out, SWSH_grid64 lib gb Rs s ell_max = Ok out
    /\ nrow out = alen Rs /\ ncol out = LM_total_size 0 ell_max
    /\ forall i ell m, (0 <= i < alen Rs)%Z -> (0 <= ell <= ell_max)%Z -> (- ell <= m <= ell)%Z ->
         grid_entry s (aget Rs i) (ell, m) (get2 out i (LM_index ell m 0)).
Proof.
  intros GL HL Hlen HU. apply SWSH_grid64_rows; auto; [lia|]. intros i indices values Hi Hv Hr.
  destruct (C62_SWSH_rotor lib (qa (aget Rs i)) (qb (aget Rs i)) s indices values GL (HU i Hi) Hv) as (out & E & _ & D & _).
  { intros j ell m Hj Ej _ _. specialize (Hr j Hj). rewrite Ej in Hr. cbn [fst] in Hr. lia. }
  exists out. split; auto. intros j Hj. destruct (aget indices j) as [ell m] eqn:Ej. exact (D j ell m Hj Ej).
Qed.

Lemma C64_SWSH_grid :
  forall lib g Rs s ell_max, good_libm lib -> (0 <= ell_max <= 32)%Z -> (0 < alen Rs)%Z ->
  (forall i, (0 <= i < alen Rs)%Z -> nearly_unit (qa (aget Rs i)) (qb (aget Rs i))) ->
  exists out, SWSH_grid64 lib g Rs s ell_max = Ok out
    /\ nrow out = alen Rs /\ ncol out = ((ell_max + 1) ^ 2)%Z
    /\ forall i ell m, (0 <= i < alen Rs)%Z -> (0 <= ell <= ell_max)%Z -> (- ell <= m <= ell)%Z ->
         ((Z.abs s <= ell)%Z ->
            Cmod (get2 out i (ell * ell + (ell + m)) - RtoC (if Z.even s then 1 else -1)%R * RtoC (sqrt (IZR (2 * ell + 1) / (4 * PI)))
                    * Wigner_formula (2 * ell) (2 * m) (2 * - s) (qa (aget Rs i)) (qb (aget Rs i)))%C
            <= (42 * IZR (2 * ell + 1) * u64 * sqrt (IZR (2 * ell + 1) / (4 * PI)) * 2 ^ Z.to_nat ell)%R)
         /\ ((ell < Z.abs s)%Z -> get2 out i (ell * ell + (ell + m))%Z = RtoC 0).
Proof.
  intros lib gb Rs s ell_max GL HL Hlen HU. destruct (grid_rows lib gb Rs s ell_max GL HL Hlen HU) as (out & E & A & B & D).
  exists out. split; auto. split; auto. split; [rewrite B, LM_total_sqr; lia|]. intros i ell m Hi He Hm.
  specialize (D i ell m Hi He Hm). rewrite LM_col in D. replace (ell * ell + (ell + m) - 0)%Z with (ell * ell + (ell + m))%Z in D by lia.
  destruct D as (D1 & D2). split; auto. apply D1. lia.
Qed.

Lemma eta_1000 n : 0 <= n <= 2000 -> 6 * n * eta <= / 2 ^ 1000.
Proof.
  intros Hn. apply Rle_trans with (2 ^ 14 * eta); [apply Rmult_le_compat_r; [left; apply eta_pos|simpl; lra]|].
  replace (/ 2 ^ 1000) with (bpow radix2 (-1000)).
  2:{ transitivity (/ bpow radix2 1000); [exact (bpow_opp radix2 1000)|]. f_equal. rewrite <- (IZR_Zpower radix2 1000) by lia. rewrite pow_IZR. reflexivity. }
  replace (2 ^ 14) with (bpow radix2 14) by (simpl; lra). unfold eta. rewrite <- bpow_plus. apply bpow_le. lia.
Qed.
Lemma pow2_33 : 42 * IZR (2 * 32 + 1) * u64 * 2 ^ Z.to_nat 32 <= 2 / 1000.
Proof. unfold u64. simpl. lra. Qed.
Lemma entry_size ell : (0 <= ell <= 32)%Z -> 0 <= 42 * IZR (2 * ell + 1) * u64 * 2 ^ Z.to_nat ell <= 2 / 1000.
Proof.
  intros H. pose proof u64_pos as U. assert (0 <= IZR (2 * ell + 1) <= 65) by (split; [apply (IZR_le 0)|apply (IZR_le _ 65)]; lia).
  assert (P : 0 <= 2 ^ Z.to_nat ell <= 2 ^ Z.to_nat 32) by (split; [apply pow_le; lra|apply Rle_pow; [lra|lia]]).
  split; [apply Rmult_le_pos; [apply Rmult_le_pos; lra|lra]|]. eapply Rle_trans; [|apply pow2_33].
  apply Rmult_le_compat; try lra; [apply Rmult_le_pos; lra|]. apply Rmult_le_compat_r; [lra|]. replace (IZR (2 * 32 + 1)) with 65 by reflexivity. lra.
Qed.

Lemma C64_evaluate :
  forall lib ord d g h f Rs, good_libm lib -> wf h f -> (0 <= ellmax (md f) <= 32)%Z -> (0 < alen Rs)%Z ->
  (forall i, (0 <= i < alen Rs)%Z -> nearly_unit (qa (aget Rs i)) (qb (aget Rs i))) ->
  (forall idx i, adds_all (2 * (ellmax (md f) + 1) ^ 2) d (fst (ord idx i)) /\ adds_all (2 * (ellmax (md f) + 1) ^ 2) d (snd (ord idx i))) ->
  exists E, evaluate64 lib ord g h f Rs = Ok E
    /\ forall idx i, (0 <= i < alen Rs)%Z ->
         Cmod (E idx i - csum (Z.abs (spin (md f))) (ellmax (md f)) (fun ell => csum (- ell) ell (fun m => mode h f idx ell m
                * (RtoC (if Z.even (spin (md f)) then 1 else -1)%R * RtoC (sqrt (IZR (2 * ell + 1) / (4 * PI)))
                    * Wigner_formula (2 * ell) (2 * m) (2 * - spin (md f)) (qa (aget Rs i)) (qb (aget Rs i))))))%C
         <= u64 * rsum (Z.abs (spin (md f))) (ellmax (md f)) (fun ell => rsum (- ell) ell (fun m => Cmod (mode h f idx ell m)
                * (sqrt (IZR (2 * ell + 1) / (4 * PI)) * (42 * IZR (2 * ell + 1) * 2 ^ Z.to_nat ell + 3 / 2 * INR d)))) + / 2 ^ 1000.
Proof.
  intros lib ord d gb h f Rs GL (Wb & Ww & Wz) HL Hlen HU Hord. unfold evaluate64.
  destruct (grid_rows lib gb Rs (spin (md f)) (ellmax (md f)) GL HL Hlen HU) as (out & E & Er & Ec & HV).
  rewrite E. cbn [bind]. unfold ell_min_of. rewrite !LM_col. replace (0 * 0 + (0 + - 0))%Z with 0%Z by lia.
  set (L := ellmax (md f)) in *. set (s := spin (md f)) in *. rewrite LM_total_sqr in Ec.
  replace (L * L + (L + L) + 1)%Z with ((L + 1) ^ 2)%Z by lia.
  destruct (slice_full (ncol out) 0 ((L + 1) ^ 2) ltac:(lia) ltac:(nia)) as (Ecl & Esl). rewrite Esl, Ecl, Ww.
  replace ((L + 1) ^ 2 - 0)%Z with ((L + 1) ^ 2)%Z by lia. rewrite Z.eqb_refl. cbn [negb]. eexists. split; [reflexivity|].
  intros idx i Hi. cbv beta. pose proof u64_pos as Up. pose proof eta_pos as Ep.
  set (b := fun k => get2 out i (0 + k)%Z). set (a := mem h (buf (nd f)) idx).
  (* fewer roundings than products *)
  assert (Hd : exists d', (d' <= d)%nat /\ (d' <= 4000)%nat /\ adds_all (2 * (L + 1) ^ 2) d' (fst (ord idx i)) /\ adds_all (2 * (L + 1) ^ 2) d' (snd (ord idx i))).
  { destruct (Hord idx i) as ((P1 & D1) & (P2 & D2)).
    exists (Nat.max (depth (fst (ord idx i))) (depth (snd (ord idx i)))).
    assert (N : (Z.to_nat (2 * (L + 1) ^ 2) <= 4000)%nat). { assert ((L + 1) ^ 2 <= 33 ^ 2)%Z by (apply Z.pow_le_mono_l; lia). lia. }
    pose proof (depth_terms (fst (ord idx i))) as T1. pose proof (depth_terms (snd (ord idx i))) as T2.
    rewrite (Permutation_length P1), map_length, seq_length in T1. rewrite (Permutation_length P2), map_length, seq_length in T2.
    split; [lia|]. split; [lia|]. split; split; auto; lia. }
  destruct Hd as (d' & Hdd & Hd4 & A1 & A2).
  assert (HN : (0 <= (L + 1) ^ 2 <= 2000)%Z). { split; [nia|]. assert ((L + 1) ^ 2 <= 33 ^ 2)%Z by (apply Z.pow_le_mono_l; lia). lia. }
  pose proof (cdot64_err ((L + 1) ^ 2) d' a b (ord idx i) ltac:(lia) A1 A2) as HE.
  set (y := fun ell m => SWSH_value s ell m (qa (aget Rs i)) (qb (aget Rs i))).
  (* the exact sum *)
  match goal with |- Cmod (_ - ?S)%C <= u64 * ?T + _ =>
    assert (ES : S = dsum L (fun ell m => mode h f idx ell m * y ell m)%C);
    [|assert (ET : T = rdsum L (fun ell m => Cmod (mode h f idx ell m) * (swsh_norm ell * (42 * IZR (2 * ell + 1) * 2 ^ Z.to_nat ell + 3 / 2 * INR d)))); [|rewrite ES, ET]] end.
  { unfold dsum. destruct (Z_le_gt_dec (Z.abs s) (L + 1)).
    - rewrite (csum_split 0 L (Z.abs s - 1)) by lia. rewrite (csum_zero 0 (Z.abs s - 1)).
      + rewrite Cplus_0_l. replace (Z.abs s - 1 + 1)%Z with (Z.abs s) by lia. apply csum_ext. intros ell He. apply csum_ext. intros m Hm.
        unfold y, SWSH_value. replace (Z.abs m <=? ell)%Z with true by (symmetry; apply Z.leb_le; lia). replace (Z.abs s <=? ell)%Z with true by (symmetry; apply Z.leb_le; lia).
        cbn [andb]. reflexivity.
      + intros ell He. apply csum_zero. intros m Hm. rewrite Wz by lia. ring.
    - rewrite csum_empty by lia. symmetry. apply csum_zero. intros ell He. apply csum_zero. intros m Hm. rewrite Wz by lia. ring. }
  { clear ES. unfold rdsum. destruct (Z_le_gt_dec (Z.abs s) (L + 1)).
    - rewrite (rsum_split 0 L (Z.abs s - 1)) by lia. rewrite (rsum_zero 0 (Z.abs s - 1)).
      + rewrite Rplus_0_l. replace (Z.abs s - 1 + 1)%Z with (Z.abs s) by lia. reflexivity.
      + intros ell He. apply rsum_zero. intros m Hm. rewrite Wz by lia. rewrite Cmod_0. ring.
    - rewrite rsum_empty by lia. symmetry. apply rsum_zero. intros ell He. apply rsum_zero. intros m Hm. rewrite Wz by lia. rewrite Cmod_0. ring. }
  (* one column *)
  assert (HY : forall ell m, (0 <= ell <= L)%Z -> (- ell <= m <= ell)%Z -> mode h f idx ell m <> RtoC 0 ->
     Cmod (b (ell * ell + (ell + m))%Z - y ell m)%C <= u64 * (swsh_norm ell * (42 * IZR (2 * ell + 1) * 2 ^ Z.to_nat ell))
     /\ Cmod (b (ell * ell + (ell + m))%Z) <= 1012 / 1000 * swsh_norm ell).
  { intros ell m He Hm Hnz. assert (Hs : (Z.abs s <= ell)%Z). { destruct (Z_le_gt_dec (Z.abs s) ell); auto. exfalso. apply Hnz. apply Wz; lia. }
    specialize (HV i ell m Hi He Hm). rewrite LM_col in HV. destruct HV as (HV & _).
    specialize (HV ltac:(lia) Hs).
    assert (EY : y ell m = (RtoC (if Z.even s then 1 else -1)%R * RtoC (sqrt (IZR (2 * ell + 1) / (4 * PI))) * Wigner_formula (2 * ell) (2 * m) (2 * - s) (qa (aget Rs i)) (qb (aget Rs i)))%C).
    { unfold y, SWSH_value. replace (Z.abs m <=? ell)%Z with true by (symmetry; apply Z.leb_le; lia). replace (Z.abs s <=? ell)%Z with true by (symmetry; apply Z.leb_le; lia). reflexivity. }
    rewrite <- EY in HV.
    assert (X : Cmod (b (ell * ell + (ell + m))%Z - y ell m)%C <= u64 * (swsh_norm ell * (42 * IZR (2 * ell + 1) * 2 ^ Z.to_nat ell))).
    { unfold b. replace (0 + (ell * ell + (ell + m)))%Z with (ell * ell + (ell + m))%Z by lia. eapply Rle_trans; [exact HV|]. unfold swsh_norm. apply Req_le. ring. }
    split; auto. replace (b (ell * ell + (ell + m))%Z) with ((b (ell * ell + (ell + m))%Z - y ell m) + y ell m)%C by ring.
    eapply Rle_trans; [apply Cmod_triangle|]. pose proof (nearly_unit_value s ell m _ _ (HU i Hi) ltac:(lia) Hs) as V. fold (y ell m) in V.
    pose proof (entry_size ell ltac:(lia)) as ZS. pose proof (swsh_norm_pos ell) as P.
    assert (u64 * (swsh_norm ell * (42 * IZR (2 * ell + 1) * 2 ^ Z.to_nat ell)) <= 2 / 1000 * swsh_norm ell).
    { replace (u64 * (swsh_norm ell * (42 * IZR (2 * ell + 1) * 2 ^ Z.to_nat ell))) with (42 * IZR (2 * ell + 1) * u64 * 2 ^ Z.to_nat ell * swsh_norm ell) by ring.
      apply Rmult_le_compat_r; lra. }
    lra. }
  rewrite csum_cols in HE by lia. rewrite rsum_cols in HE by lia.
  change (dsum L (fun ell m => a (ell * ell + (ell + m))%Z * b (ell * ell + (ell + m))%Z)%C) with (dsum L (fun ell m => mode h f idx ell m * b (ell * ell + (ell + m))%Z)%C) in HE.
  change (rdsum L (fun ell m => Cmod (a (ell * ell + (ell + m))%Z) * Cmod (b (ell * ell + (ell + m))%Z)))
    with (rdsum L (fun ell m => Cmod (mode h f idx ell m) * Cmod (b (ell * ell + (ell + m))%Z))) in HE.
  match type of HE with Cmod (?v - ?S)%C <= _ => match goal with |- Cmod (_ - ?T)%C <= _ => replace (v - T)%C with ((v - S) + (S - T))%C by ring end end.
  eapply Rle_trans; [apply Cmod_triangle|].
  pose proof (g_small d' Hd4) as G1. pose proof (g_half d' Hd4) as G2. pose proof (g_pos d') as G0. pose proof (pos_INR d') as I0. pose proof (le_INR _ _ Hdd) as I1.
  assert (F1 : g d' <= 1001 / 1000 * INR d * u64). { eapply Rle_trans; [exact G1|]. apply Rmult_le_compat_r; lra. }
  assert (TT : 1415 / 1000 * (4 * IZR ((L + 1) ^ 2) * (1 + g d') * eta) <= / 2 ^ 1000).
  { assert (0 <= IZR ((L + 1) ^ 2) <= 2000) by (split; [apply (IZR_le 0)|apply (IZR_le _ 2000)]; lia).
    eapply Rle_trans; [|apply (eta_1000 (IZR ((L + 1) ^ 2))); auto].
    replace (1415 / 1000 * (4 * IZR ((L + 1) ^ 2) * (1 + g d') * eta)) with (1415 / 1000 * 4 * IZR ((L + 1) ^ 2) * eta * (1 + g d')) by ring.
    assert (0 <= IZR ((L + 1) ^ 2) * eta) by (apply Rmult_le_pos; lra). set (z := IZR ((L + 1) ^ 2) * eta) in *.
    apply Rle_trans with (1415 / 1000 * 4 * z * (1001 / 1000)).
    - replace (1415 / 1000 * 4 * IZR ((L + 1) ^ 2) * eta * (1 + g d')) with (1415 / 1000 * 4 * z * (1 + g d')) by (unfold z; ring). apply Rmult_le_compat_l; lra.
    - replace (6 * IZR ((L + 1) ^ 2) * eta) with (6 * z) by (unfold z; ring). lra. }
  match type of HE with _ <= 1415 / 1000 * (g d' * ?X + _) => set (X1 := X) in * end.
  assert (S1 : 1415 / 1000 * (g d' * X1) <= u64 * rdsum L (fun ell m => Cmod (mode h f idx ell m) * (swsh_norm ell * (3 / 2 * INR d)))).
  { apply Rle_trans with (1415 / 1000 * (1001 / 1000 * INR d * u64 * rdsum L (fun ell m => Cmod (mode h f idx ell m) * (1012 / 1000 * swsh_norm ell)))).
    - apply Rmult_le_compat_l; [lra|]. apply Rmult_le_compat; auto.
      + apply rsum_nonneg; intros; apply rsum_nonneg; intros; apply Rmult_le_pos; apply Cmod_ge_0.
      + apply rdsum_le. intros ell m He Hm. destruct (Req_dec (Cmod (mode h f idx ell m)) 0) as [Z0|NZ]; [rewrite Z0; lra|].
        apply Rmult_le_compat_l; [apply Cmod_ge_0|]. apply HY; auto. intros X. apply NZ. rewrite X. apply Cmod_0.
    - rewrite <- !rdsum_scal. apply rdsum_le. intros ell m He Hm. pose proof (Cmod_ge_0 (mode h f idx ell m)). pose proof (swsh_norm_pos ell).
      assert (Q : 0 <= Cmod (mode h f idx ell m) * swsh_norm ell * INR d * u64) by (repeat apply Rmult_le_pos; lra).
      set (q := Cmod (mode h f idx ell m) * swsh_norm ell * INR d * u64) in *.
      replace (u64 * (Cmod (mode h f idx ell m) * (swsh_norm ell * (3 / 2 * INR d)))) with (3 / 2 * q) by (unfold q; ring).
      match goal with |- ?l <= _ => replace l with (1415 / 1000 * (1001 / 1000) * (1012 / 1000) * q) by (unfold q; ring) end. lra. }
  assert (S2 : Cmod (dsum L (fun ell m => mode h f idx ell m * b (ell * ell + (ell + m))%Z) - dsum L (fun ell m => mode h f idx ell m * y ell m))%C
     <= u64 * rdsum L (fun ell m => Cmod (mode h f idx ell m) * (swsh_norm ell * (42 * IZR (2 * ell + 1) * 2 ^ Z.to_nat ell)))).
  { rewrite <- dsum_minus. unfold dsum. eapply Rle_trans; [apply Cmod_csum|]. rewrite <- rdsum_scal. apply rsum_le. intros ell He.
    eapply Rle_trans; [apply Cmod_csum|]. apply rsum_le. intros m Hm.
    match goal with |- Cmod ?z <= _ => replace z with (mode h f idx ell m * (b (ell * ell + (ell + m))%Z - y ell m))%C by ring end.
    rewrite Cmod_mult. destruct (Req_dec (Cmod (mode h f idx ell m)) 0) as [Z0|NZ]; [rewrite Z0; lra|].
    match goal with |- _ <= u64 * (?x * ?w) => replace (u64 * (x * w)) with (x * (u64 * w)) by ring end.
    apply Rmult_le_compat_l; [apply Cmod_ge_0|]. apply HY; auto. intros X. apply NZ. rewrite X. apply Cmod_0. }
  assert (S3 : rdsum L (fun ell m => Cmod (mode h f idx ell m) * (swsh_norm ell * (42 * IZR (2 * ell + 1) * 2 ^ Z.to_nat ell + 3 / 2 * INR d)))
     = rdsum L (fun ell m => Cmod (mode h f idx ell m) * (swsh_norm ell * (42 * IZR (2 * ell + 1) * 2 ^ Z.to_nat ell)))
       + rdsum L (fun ell m => Cmod (mode h f idx ell m) * (swsh_norm ell * (3 / 2 * INR d)))).
  { rewrite <- rdsum_plus. apply rsum_ext. intros ell _. apply rsum_ext. intros m _. ring. }
  rewrite S3. lra.
Qed.

(** ** Norm *)
Lemma dot64_squares v t : 0 <= dot64 v v t.
Proof.
  induction t as [k|l IHl r IHr|k r IHr]; cbn [dot64]; apply RN64_ge_0'; [|lra|]; assert (0 <= v k * v k) by apply Rle_0_sqr; lra.
Qed.
Lemma sqrt_close S T gm e : 0 <= S -> 0 <= T -> 0 <= gm <= 1 / 100 -> 0 <= e -> Rabs (T - S) <= gm * S + e ->
  Rabs (sqrt T - sqrt S) <= 51 / 100 * gm * sqrt S + sqrt e.
Proof.
  intros HS HT Hg He H. apply Rabs_le_inv in H. pose proof (sqrt_pos S) as P. pose proof (sqrt_pos e) as Pe.
  pose proof (sqrt_sqrt S HS) as SS. pose proof (sqrt_sqrt e He) as Se. set (s := sqrt S) in *. set (r := sqrt e) in *.
  apply Rabs_le. split.
  - assert (X : s * (1 - 51 / 100 * gm) <= sqrt T + r); [|lra].
    apply Rle_trans with (sqrt (T + e)).
    + rewrite <- (sqrt_square (s * (1 - 51 / 100 * gm))) by (apply Rmult_le_pos; lra). apply sqrt_le_1_alt.
      replace (s * (1 - 51 / 100 * gm) * (s * (1 - 51 / 100 * gm))) with (S * ((1 - 51 / 100 * gm) * (1 - 51 / 100 * gm))) by (rewrite <- SS; ring).
      apply Rle_trans with (S * (1 - gm)); [|lra]. apply Rmult_le_compat_l; auto. assert (gm * gm <= 1 / 100 * gm) by (apply Rmult_le_compat_r; lra). lra.
    + pose proof (sqrt_pos T) as PT. rewrite <- (sqrt_square (sqrt T + r)) by lra. apply sqrt_le_1_alt.
      pose proof (sqrt_sqrt T HT). assert (0 <= sqrt T * r) by (apply Rmult_le_pos; lra). lra.
  - assert (X : sqrt T <= s * (1 + 51 / 100 * gm) + r); [|lra].
    assert (0 <= s * (1 + 51 / 100 * gm)) by (apply Rmult_le_pos; lra).
    rewrite <- (sqrt_square (s * (1 + 51 / 100 * gm) + r)) by lra. apply sqrt_le_1_alt.
    assert (0 <= s * (1 + 51 / 100 * gm) * r) by (apply Rmult_le_pos; lra).
    assert (S * (1 + gm) <= s * (1 + 51 / 100 * gm) * (s * (1 + 51 / 100 * gm))).
    { replace (s * (1 + 51 / 100 * gm) * (s * (1 + 51 / 100 * gm))) with (S * ((1 + 51 / 100 * gm) * (1 + 51 / 100 * gm))) by (rewrite <- SS; ring).
      apply Rmult_le_compat_l; auto. assert (0 <= gm * gm) by (apply Rmult_le_pos; lra). lra. }
    lra.
Qed.
Lemma sqrt_tiny n : 0 <= n <= 2 ^ 60 -> sqrt (4 * n * (1 + 1 / 1000) * eta) <= bpow radix2 (-502).
Proof.
  intros Hn. pose proof eta_pos as E. rewrite <- (sqrt_square (bpow radix2 (-502))) by apply bpow_ge_0. apply sqrt_le_1_alt.
  rewrite <- bpow_plus. apply Rle_trans with (bpow radix2 63 * eta).
  - apply Rmult_le_compat_r; [lra|]. replace (bpow radix2 63) with (2 ^ 60 * 8) by (simpl; lra). lra.
  - unfold eta. rewrite <- bpow_plus. apply bpow_le. lia.
Qed.
Lemma two_square n f h : (0 <= n)%Z -> rsum 0 (2 * n - 1) (fun k => Rabs (two n f h k * two n f h k)) = rsum 0 (2 * n - 1) (fun k => two n f h k * two n f h k).
Proof. intros _. apply rsum_ext. intros i _. apply Rabs_pos_eq, Rle_0_sqr. Qed.

Lemma C64_norm :
  forall ord d h f, wf h f -> (0 <= ellmax (md f) < 2 ^ 29)%Z -> (d <= 4000)%nat ->
  (forall idx, adds_all (2 * (ellmax (md f) + 1) ^ 2) d (ord idx)) ->
  forall idx, let exact := sqrt (rsum 0 (ellmax (md f)) (fun ell => rsum (- ell) ell (fun m => Cmod (mode h f idx ell m) ^ 2))) in
    Rabs (norm64 ord h f idx - exact) <= (52 / 100 * INR d + 2) * u64 * exact + / 2 ^ 500.
Proof.
  intros ord d h f (Wb & Ww & Wz) HL Hd Hord idx. set (L := ellmax (md f)) in *. cbv zeta.
  match goal with |- context [sqrt ?x] => set (S := x) end. pose proof u64_pos as Up. pose proof eta_pos as Ep.
  unfold norm64. rewrite Ww. set (n := ((L + 1) ^ 2)%Z) in *.
  assert (Hn : (0 <= n <= 2 ^ 60)%Z). { unfold n. split; [nia|]. change (2 ^ 60)%Z with ((2 ^ 30) ^ 2)%Z. apply Z.pow_le_mono_l. lia. }
  assert (Hn' : 0 <= IZR n <= 2 ^ 60). { split; [apply (IZR_le 0); lia|]. replace (2 ^ 60) with (IZR (2 ^ 60)) by (rewrite pow_IZR; reflexivity). apply IZR_le. lia. }
  set (v := two n (fun k => Re (mem h (buf (nd f)) idx k)) (fun k => Im (mem h (buf (nd f)) idx k))).
  pose proof (dot64_all v v (2 * n) d (ord idx) ltac:(lia) (Hord idx)) as H.
  pose proof (dot64_squares v (ord idx)) as T0. set (T := dot64 v v (ord idx)) in *. unfold v in H. rewrite two_square in H by (auto; lia).
  assert (ES : rsum 0 (2 * n - 1) (fun k => two n (fun k => Re (mem h (buf (nd f)) idx k)) (fun k => Im (mem h (buf (nd f)) idx k)) k
                 * two n (fun k => Re (mem h (buf (nd f)) idx k)) (fun k => Im (mem h (buf (nd f)) idx k)) k) = S).
  { rewrite (dot_two n _ _ _ _ Rmult) by lia. unfold n. rewrite rsum_cols by lia. apply rsum_ext. intros ell _. apply rsum_ext. intros m _.
    fold (mode h f idx ell m). simpl pow. rewrite Rmult_1_r. symmetry. apply Cmod_sqr. }
  rewrite ES in H. rewrite mult_IZR in H.
  assert (S0 : 0 <= S). { unfold S. apply rsum_nonneg. intros. apply rsum_nonneg. intros. apply pow2_ge_0. }
  pose proof (g_small d Hd) as G1. pose proof (g_half d Hd) as G2. pose proof (g_pos d) as G0.
  assert (H' : Rabs (T - S) <= g d * S + 4 * IZR n * (1 + 1 / 1000) * eta).
  { eapply Rle_trans; [exact H|]. apply Rplus_le_compat_l. replace (2 * (2 * IZR n)) with (4 * IZR n) by ring.
    apply Rmult_le_compat_r; [lra|]. apply Rmult_le_compat_l; lra. }
  apply sqrt_close in H'; try lra.
  2:{ apply Rmult_le_pos; [|lra]. apply Rmult_le_pos; lra. }
  pose proof (sqrt_tiny (IZR n) Hn') as ET. set (e := sqrt (4 * IZR n * (1 + 1 / 1000) * eta)) in *. pose proof (sqrt_pos S) as P. set (s := sqrt S) in *.
  pose proof (RN64_err (sqrt T)) as R. rewrite (Rabs_pos_eq (sqrt T)) in R by apply sqrt_pos.
  assert (I0 : 0 <= INR d <= 4000). { split; [apply pos_INR|]. replace 4000 with (INR 4000) by (rewrite INR_IZR_INZ; reflexivity). apply le_INR. auto. }
  assert (A : 51 / 100 * g d * s <= 511 / 1000 * (INR d * u64 * s)).
  { apply Rle_trans with (51 / 100 * (1001 / 1000 * INR d * u64) * s); [apply Rmult_le_compat_r; lra|]. assert (0 <= INR d * u64 * s) by (apply Rmult_le_pos; [apply Rmult_le_pos; lra|lra]). lra. }
  assert (B : INR d * u64 * s <= / 1000 * s). { apply Rmult_le_compat_r; [lra|]. assert (INR d * u64 <= 4000 * u64) by (apply Rmult_le_compat_r; lra). lra. }
  pose proof H' as H2. apply Rabs_le_inv in H2.
  assert (Bt : sqrt T <= 101 / 100 * s + e) by lra.
  assert (Q : u64 * sqrt T <= u64 * (101 / 100 * s + e)) by (apply Rmult_le_compat_l; lra).
  assert (E2 : 2 * e + eta <= / 2 ^ 500).
  { apply Rle_trans with (bpow radix2 (-500)).
    - replace (bpow radix2 (-500)) with (4 * bpow radix2 (-502)) by (change (-500)%Z with (2 + -502)%Z; rewrite bpow_plus; simpl (bpow radix2 2); lra).
      assert (eta <= bpow radix2 (-502)) by (apply bpow_le; lia). lra.
    - apply Req_le. transitivity (/ bpow radix2 500); [exact (bpow_opp radix2 500)|]. f_equal. rewrite <- (IZR_Zpower radix2 500) by lia. rewrite pow_IZR. reflexivity. }
  assert (Pe : 0 <= e) by apply sqrt_pos. assert (u64 * e <= 1 * e) by (apply Rmult_le_compat_r; lra).
  replace (RN64 (sqrt T) - s) with ((RN64 (sqrt T) - sqrt T) + (sqrt T - s)) by ring. eapply Rle_trans; [apply Rabs_triang|].
  replace ((52 / 100 * INR d + 2) * u64 * s) with (52 / 100 * (INR d * u64 * s) + 2 * (u64 * s)) by ring.
  assert (0 <= INR d * u64 * s) by (apply Rmult_le_pos; [apply Rmult_le_pos; lra|lra]). assert (0 <= u64 * s) by (apply Rmult_le_pos; lra). lra.
Qed.

(** Ways of adding: one after the other with fused operations, from the last to the first, and pairwise *)
Fixpoint forward (n : nat) (k : Z) : order := match n with O => Prod k | S n => Fused k (forward n (k + 1)) end.
Fixpoint backward (n : nat) : order := match n with O => Prod 0 | S n => Plus (Prod (Z.of_nat (S n))) (backward n) end.
Fixpoint pairwise (n : nat) (k : Z) : order := match n with O => Prod k | S n => Plus (pairwise n k) (pairwise n (k + 2 ^ Z.of_nat n)) end.
Definition example_heap : heap := mkheap 1 (fun _ _ k => if (k <? 1)%Z then RtoC 0 else (1, 2)%R).
Definition example_modes : modes := mkmodes (mknd 0 [] 16) (mkmeta (-1) 3 None).
Lemma C64_example :
  wf example_heap example_modes
  /\ (let n := (2 * (ellmax (md example_modes) + 1) ^ 2)%Z in adds_all n 32 (forward 31 0) /\ adds_all n 32 (backward 31) /\ adds_all n 6 (pairwise 5 0))
  /\ good_libm FloatWignerProps.rounded_libm
  /\ (let q := mkquat (3 / 5) 0 (4 / 5) 0 in nearly_unit (qa q) (qb q))
  /\ u64 * (42 * IZR (2 * 3 + 1) * 2 ^ Z.to_nat 3 + 3 / 2 * INR 32) < / 10 ^ 12.
Proof.
  split; [|split; [|split; [|split]]].
  - split; [cbn; lia|]. split; [reflexivity|]. cbn [example_modes md ellmax spin]. intros idx ell mm H1 H2 H3. unfold mode. cbn.
    change (Z.abs (-1))%Z with 1%Z in H2. replace (ell * ell + (ell + mm))%Z with 0%Z by (assert (ell = 0)%Z by lia; subst; lia). reflexivity.
  - cbn [example_modes md ellmax]. unfold adds_all. repeat split; try (vm_compute; lia).
    + apply Permutation_refl.
    + apply Permutation_sym, Permutation_rev.
    + apply Permutation_refl.
  - apply rounded_libm_good.
  - change (nearly_unit (RtoC (3 / 5)) (RtoC (4 / 5))). unfold nearly_unit. rewrite !Cmod_R, (Rabs_pos_eq (3 / 5)), (Rabs_pos_eq (4 / 5)) by lra.
    replace ((3 / 5) ^ 2 + (4 / 5) ^ 2 - 1) with 0 by field. rewrite Rabs_R0. pose proof u64_pos. lra.
  - unfold u64. replace (INR 32) with 32 by (rewrite INR_IZR_INZ; reflexivity). simpl. lra.
Qed.
