(** Rounding errors of [complex_powers]: the loop and the statement. *)
Require Import ZArith Lia Reals Lra Bool.
From Flocq Require Import Core.
From Coquelicot Require Import Complex.
From Verif Require Import Base BaseProofs CBase FloatIndexModel PowersModel PowersProofs FloatPowersModel FloatPowersSpec FloatPowersProofs.
Set Bullet Behavior "Strict Subproofs".
Open Scope R_scope.

Lemma RN64_0 : RN64 0 = 0.
Proof. unfold RN64. apply round_0. apply valid_rnd_N. Qed.
Lemma RN64_opp x : RN64 (- x) = - RN64 x.
Proof.
  unfold RN64. rewrite round_NE_opp. reflexivity.
Qed.
Lemma is_double_opp x : is_double x -> is_double (- x).
Proof. unfold is_double. intros H. rewrite RN64_opp, H. reflexivity. Qed.
Lemma resolved_opp x : resolved x -> resolved (- x).
Proof. unfold resolved. rewrite Rabs_Ropp. intros [->|H]; auto. left. ring. Qed.

(** Powers of a number close to one *)
Lemma pow_near r n : Rabs (r - 1) <= 4 * u64 -> IZR (Z.of_nat n) * u64 <= / 100 -> Rabs (r ^ n - 1) <= 5 * IZR (Z.of_nat n) * u64.
Proof.
  intros Hr. pose proof u64_pos as U. induction n as [|n IH]; intros Hn.
  - cbn [pow]. rewrite Rminus_diag_eq by reflexivity. rewrite Rabs_R0. cbn. lra.
  - rewrite Nat2Z.inj_succ, succ_IZR in *. assert (N0 : 0 <= IZR (Z.of_nat n)) by (apply IZR_le; lia).
    assert (N1 : 0 <= IZR (Z.of_nat n) * u64) by (apply Rmult_le_pos; lra).
    specialize (IH ltac:(lra)). cbn [pow]. replace (r * r ^ n - 1) with ((r - 1) * (r ^ n - 1) + (r - 1) + (r ^ n - 1)) by ring.
    eapply Rle_trans; [apply Rabs_triang|]. eapply Rle_trans; [apply Rplus_le_compat_r; apply Rabs_triang|]. rewrite Rabs_mult.
    assert (Rabs (r - 1) * Rabs (r ^ n - 1) <= 4 * u64 * (5 * IZR (Z.of_nat n) * u64)) by (apply Rmult_le_compat; auto using Rabs_pos).
    assert (u64 * (IZR (Z.of_nat n) * u64) <= u64 * (/ 100)) by (apply Rmult_le_compat_l; lra). lra.
Qed.

Lemma u64_limit n : (Z.of_nat n <= 2 ^ 36)%Z -> IZR (Z.of_nat n) * u64 <= / 100000.
Proof.
  intros H. apply IZR_le in H. pose proof u64_pos. eapply Rle_trans; [apply Rmult_le_compat_r; [lra|exact H]|].
  unfold u64. change (2 ^ 36)%Z with 68719476736%Z. lra.
Qed.

(** ** The loop, away from the array *)
Section Loop.
  Variables (sqrt_im : C -> R) (x y : R).
  Hypothesis (Hq : good_sqrt sqrt_im) (Hz : near_unit (x, y)) (Hx : 0 <= x) (Hy : 0 <= y).
  Let g := sqrt_im (x, y).
  Let dc := RN64 (- 2 * RN64 (g * g)).
  Let t := RN64 (2 * dc).
  Let w := (RN64 (1 + RN64 (2 * x)), RN64 (2 * y)) : C.
  Let dz := cadd64 (cscale64 dc w) (0, RN64 (sqrt (RN64 (- dc * RN64 (2 + dc))))).
  Definition follows (Good : nat -> C -> C -> Prop) : Prop :=
    Good 1%nat (x, y) dz
    /\ (forall n p d, (1 <= Z.of_nat n < 2 ^ 36)%Z -> Good n p d ->
          let p' := cadd64 p d in Good (S n) p' (cadd64 d (cscale64 t p')))
    /\ (forall n p d, (1 <= Z.of_nat n <= 2 ^ 36)%Z -> Good n p d -> Cmod (p - Cpow (x, y) n)%C <= 150 * IZR (Z.of_nat n) * u64).

  Lemma loop_real : y = 0 -> follows (fun _ p d => p = (x, y) /\ d = RtoC 0).
  Proof.
    intros E. destruct Hz as (Dx & Dy & Hm & _). cbn [Re Im fst snd] in Dx, Dy.
    assert (Mx : Cmod (x, y) = x).
    { unfold Cmod. cbn [fst snd]. rewrite E. replace (x ^ 2 + 0 ^ 2) with (x ^ 2) by ring. apply sqrt_pow2. auto. }
    assert (G0 : g = 0).
    { pose proof (Hq _ Hz Hx Hy) as Q. unfold Csqrt in Q. cbn [Re Im fst snd] in Q. destruct (Rle_dec 0 y); [|lra].
      rewrite Mx in Q. replace ((x - x) / 2) with 0 in Q by field. rewrite sqrt_0, Rmult_0_r in Q.
      fold g in Q. rewrite Rminus_0_r in Q. pose proof (Rabs_pos g). destruct (Req_dec g 0); auto.
      pose proof (Rabs_pos_lt g ltac:(auto)). lra. }
    assert (D0 : dc = 0) by (unfold dc; rewrite G0, Rmult_0_l, RN64_0, Rmult_0_r, RN64_0; reflexivity).
    assert (T0 : t = 0) by (unfold t; rewrite D0, Rmult_0_r, RN64_0; reflexivity).
    repeat split.
    - unfold dz, cadd64, cscale64. rewrite D0, Ropp_0, !Rmult_0_l, !RN64_0. cbn [Re Im fst snd].
      rewrite sqrt_0, RN64_0, Rplus_0_r, RN64_0. reflexivity.
    - destruct H0 as [-> ->]. unfold cadd64. cbn [Re Im fst snd RtoC]. rewrite !Rplus_0_r, Dx, Dy. reflexivity.
    - destruct H0 as [-> ->]. unfold cadd64, cscale64. rewrite T0. cbn [Re Im fst snd RtoC]. rewrite !Rmult_0_l, RN64_0, Rplus_0_r, RN64_0.
      reflexivity.
    - intros n p d Hn [-> _]. pose proof u64_pos as U. pose proof (u64_limit n ltac:(lia)) as L.
      assert (N1 : 1 <= IZR (Z.of_nat n)) by (apply IZR_le; lia).
      assert (u64 * 1 <= u64 * IZR (Z.of_nat n)) by (apply Rmult_le_compat_l; lra).
      rewrite Mx in Hm. rewrite E. replace ((x, 0) : C) with (RtoC x) by reflexivity. rewrite Cpow_RtoC, <- RtoC_minus, Cmod_R.
      pose proof (pow_near x n Hm ltac:(lra)). replace (x - x ^ n) with ((x - 1) - (x ^ n - 1)) by ring.
      eapply Rle_trans; [apply Rabs_triang|]. rewrite Rabs_Ropp. lra.
  Qed.

  Lemma loop_good : exists Good, follows Good.
  Proof.
    destruct (Req_dec y 0) as [E|NE]; [eexists; apply (loop_real E)|].
    destruct Hz as (Dx & Dy & Hm & _ & Ry). cbn [Re Im fst snd] in *.
    assert (Ry' : / 2 ^ 300 <= y) by (destruct Ry as [?|R0]; [lra|rewrite Rabs_pos_eq in R0; auto]).
    pose proof (Hq _ Hz Hx Hy) as Q. fold g in Q.
    set (r := Cmod (x, y)) in *.
    pose proof (c_nonneg x y Hx Hm) as C0. pose proof (s_pos x y Ry' Hm) as S0. pose proof (cs_unit x y Hm) as CS.
    pose proof (eta_tau x y Hx Ry' Hm) as ET. fold r in C0, S0, CS, ET.
    pose proof (t_err x y g Hx Ry' Hm Q) as TE. pose proof (init64 x y g Hx Ry' Hm Q) as IN. fold r dc in TE, IN. fold t in TE. fold w in IN. fold dz in IN.
    set (c := x / r) in *. set (s := y / r) in *. pose proof u64_pos as U.
    exists (fun n p d => small c s ((60 + 30 * IZR (Z.of_nat n)) * u64) (p - Cpow (c, s) n)%C (d - Cpow (c, s) n * ((c, s) - 1))%C).
    split; [|split].
    - cbn [Z.of_nat Pos.of_succ_nat]. replace ((60 + 30 * 1) * u64) with (90 * u64) by ring. exact IN.
    - intros n p d Hn Sm p'. rewrite Nat2Z.inj_succ, succ_IZR.
      replace ((60 + 30 * (IZR (Z.of_nat n) + 1)) * u64) with ((60 + 30 * IZR (Z.of_nat n)) * u64 + 30 * u64) by ring.
      apply (step64 c s C0 S0 CS ET); auto. pose proof (u64_limit n ltac:(lia)).
      assert (0 <= IZR (Z.of_nat n) * u64) by (apply Rmult_le_pos; [apply IZR_le; lia|lra]). lra.
    - intros n p d Hn Sm. pose proof (small_e c s C0 S0 CS _ _ _ Sm) as E. pose proof (u64_limit n ltac:(lia)) as L.
      assert (N1 : 1 <= IZR (Z.of_nat n)) by (apply IZR_le; lia).
      assert (u64 * 1 <= u64 * IZR (Z.of_nat n)) by (apply Rmult_le_compat_l; lra).
      pose proof (pow_near r n Hm ltac:(lra)) as PN.
      assert (EZ : ((x, y) : C) = (RtoC r * (c, s))%C).
      { unfold c, s, r. apply C_eq; cbn [Re Im fst snd RtoC Cmult]; pose proof (rc x y Hm); pose proof (rs x y Hm); lra. }
      assert (F : Cmod (Cpow (c, s) n - Cpow (x, y) n)%C <= 5 * IZR (Z.of_nat n) * u64).
      { rewrite EZ, Cpow_mul, Cpow_RtoC.
        replace (Cpow (c, s) n - RtoC (r ^ n) * Cpow (c, s) n)%C with (- (RtoC (r ^ n - 1) * Cpow (c, s) n))%C
          by (rewrite RtoC_minus; ring).
        rewrite Cmod_opp, Cmod_mult, Cmod_R, (zeta_pow_mod c s CS). lra. }
      replace (p - Cpow (x, y) n)%C with ((p - Cpow (c, s) n) + (Cpow (c, s) n - Cpow (x, y) n))%C by ring.
      eapply Rle_trans; [apply Cmod_triangle|]. lra.
  Qed.
End Loop.

(** ** The array *)
Open Scope Z_scope.
(** The quadrant loop only permutes the parts and changes signs. *)
Lemma quadrant_parts (P : R -> Prop) fuel z theta z' theta' : (forall x, P x -> P (- x)%R) -> P (Re z) -> P (Im z) ->
  quadrant fuel z theta = Ok (z', theta') -> P (Re z') /\ P (Im z').
Proof.
  intros HP. revert z theta. induction fuel as [|fuel IH]; intros [x y] theta Hx Hy; cbn [quadrant Re Im fst snd] in *;
    destruct (Rlt_dec x 0), (Rlt_dec y 0); intros E; try discriminate;
    try (apply Ok_inj in E; injection E as <- <-; split; assumption);
    (apply IH in E; [exact E| |]); rewrite div_Ci; cbn [Re Im fst snd]; auto.
Qed.

Lemma powers_row64_ok sqrt_im fuel M zr i zp : (3 <= fuel)%nat -> 1 <= M <= 2 ^ 36 -> good_sqrt sqrt_im ->
  0 <= i < alen zr -> nrow zp = alen zr -> ncol zp = M + 1 -> near_unit (aget zr i) ->
  exists zp', powers_row64 sqrt_im fuel M zr i zp = Ok zp' /\ nrow zp' = nrow zp /\ ncol zp' = ncol zp
    /\ (forall k m, k <> i -> get2 zp' k m = get2 zp k m)
    /\ (forall m, 0 <= m <= M -> (Cmod (get2 zp' i m - Cpow (aget zr i) (Z.to_nat m))%C <= 150 * IZR m * u64)%R).
Proof.
  intros Hf HM Hq Hi Hr Hc Hz. unfold powers_row64. rewrite rd_ok by auto. cbn [bind].
  destruct (quadrant_ok fuel (aget zr i) (RtoC 1) Hf) as (z & th & EQ & Hx & Hy & Et & Em).
  rewrite EQ. cbn [bind]. rewrite wr2_ok by lia. cbn [bind nrow ncol get2].
  rewrite wr2_ok by (cbn [nrow ncol]; lia). cbn [bind nrow ncol get2].
  rewrite rd2_ok by (cbn [nrow ncol]; lia). cbn [bind nrow ncol get2]. rewrite upd2_same.
  assert (Nz : near_unit z).
  { destruct Hz as (D1 & D2 & D3 & D4 & D5). unfold near_unit. rewrite Em.
    destruct (quadrant_parts is_double _ _ _ _ _ is_double_opp D1 D2 EQ). destruct (quadrant_parts resolved _ _ _ _ _ resolved_opp D4 D5 EQ).
    auto. }
  assert (Th : Cmod th = 1%R).
  { pose proof (f_equal Cmod Et) as Q. rewrite !Cmod_mult, Cmod_1, Rmult_1_l, Em in Q. destruct Hz as (_ & _ & D3 & _).
    pose proof u64_pos. apply Rabs_le_inv in D3. apply (Rmult_eq_reg_r (Cmod (aget zr i))); lra. }
  destruct z as [x y]. cbn [Re Im fst snd] in Hx, Hy |- *.
  destruct (loop_good sqrt_im x y Hq Nz Hx Hy) as (Good & G1 & G2 & G3). cbv zeta in G2.
  set (z := (x, y) : C) in *.
  set (dc := RN64 (-2 * RN64 (sqrt_im z * sqrt_im z))) in *. set (t := RN64 (2 * dc)) in *.
  set (dz0 := cadd64 (cscale64 dc (RN64 (1 + RN64 (2 * x)), RN64 (2 * y))) (0%R, RN64 (sqrt (RN64 (- dc * RN64 (2 + dc)))))) in *.
  assert (Et' : aget zr i = (th * z)%C) by (rewrite Et; ring).
  rewrite Et'. clear Et Et' EQ.
  assert (Rot : forall n (p : C), Cmod (p * Cpow th n - Cpow (th * z) n)%C = Cmod (p - Cpow z n)%C).
  { intros n p. rewrite Cpow_mul. replace (p * Cpow th n - Cpow th n * Cpow z n)%C with (Cpow th n * (p - Cpow z n))%C by ring.
    rewrite Cmod_mult, Cmod_Cpow, Th, pow1. ring. }
  set (P := fun (m : Z) (st : arr2 C * C * C) =>
    let '(a, dz, clock) := st in
    nrow a = nrow zp /\ ncol a = ncol zp
    /\ clock = Cpow th (Z.to_nat (m - 1))
    /\ Good (Z.to_nat (m - 1)) (get2 a i (m - 1)) dz
    /\ (forall j, 0 <= j < m - 1 -> (Cmod (get2 a i j - Cpow (th * z) (Z.to_nat j))%C <= 150 * IZR j * u64)%R)
    /\ (forall k j, k <> i -> get2 a k j = get2 zp k j)).
  assert (P2 : P 2 (mkarr2 (nrow zp) (ncol zp) (upd2 (upd2 (get2 zp) i 0 (RtoC 1)) i 1 z), dz0, th)).
  { unfold P. change (Z.to_nat (2 - 1)) with 1%nat. change (2 - 1) with 1. cbn [Cpow nrow ncol get2]. rewrite upd2_same.
    split; [reflexivity|]. split; [reflexivity|]. split; [ring|]. split; [exact G1|]. split.
    - intros j Hj. assert (j = 0) by lia. subst j. rewrite upd2_other, upd2_same by lia. cbn [Z.to_nat Cpow].
      rewrite Rmult_0_r, Rmult_0_l. right. rewrite <- Cmod_0. f_equal. ring.
    - intros k j Hk. rewrite !upd2_other by auto. auto. }
  destruct (for_range_inv P 2 (M + 1) (powers_step64 i t th) _ ltac:(lia) P2) as (st & E & HP).
  - intros m [[a dz] clock] Hm (Ha & Hb & -> & Hd & He & Hg). unfold powers_step64.
    rewrite rd2_ok by lia. cbn [bind]. rewrite wr2_ok by lia. cbn [bind].
    rewrite rd2_ok by (cbn [nrow ncol]; lia). cbn [bind get2]. rewrite upd2_same.
    rewrite rd2_ok by (cbn [nrow ncol]; lia). cbn [bind get2]. rewrite upd2_other by lia.
    rewrite wr2_ok by (cbn [nrow ncol]; lia). cbn [bind get2 nrow ncol].
    eexists; split; [reflexivity|]. unfold P. cbn [nrow ncol get2].
    replace (m + 1 - 1) with m by lia. split; [auto|]. split; [auto|].
    assert (Em1 : Z.to_nat m = S (Z.to_nat (m - 1))) by lia. split; [rewrite Em1; apply Cpow_shift|].
    split; [|split].
    + rewrite upd2_other, upd2_same by lia. rewrite Em1. apply G2; auto. lia.
    + intros j Hj. destruct (Z.eq_dec j (m - 1)) as [->|Hne].
      * rewrite upd2_same, Rot. eapply Rle_trans; [eapply G3; [|exact Hd]; lia|]. rewrite Z2Nat.id by lia. lra.
      * rewrite !upd2_other by lia. apply He; lia.
    + intros k j Hk. rewrite !upd2_other by auto. auto.
  - rewrite E. destruct st as [[a dz] clock]. destruct HP as (Ha & Hb & -> & Hd & He & Hg).
    cbn [bind]. rewrite rd2_ok by lia. cbn [bind]. rewrite wr2_ok by lia.
    eexists; split; [reflexivity|]. cbn [nrow ncol get2]. split; [auto|]. split; [auto|]. split.
    + intros k m Hk. rewrite upd2_other by auto. auto.
    + intros m Hm. replace (M + 1 - 1) with M in * by lia. destruct (Z.eq_dec m M) as [->|Hne].
      * rewrite upd2_same, Rot. eapply Rle_trans; [eapply G3; [|exact Hd]; lia|]. rewrite Z2Nat.id by lia. lra.
      * rewrite upd2_other by lia. apply He; lia.
Qed.

(** ** C59 *)
Lemma C59_complex_powers :
  forall sqrt_im fuel garbage (z : arr C) M, (3 <= fuel)%nat -> 1 <= M <= 2 ^ 36 -> 0 <= alen z -> good_sqrt sqrt_im ->
    (forall i, 0 <= i < alen z -> near_unit (aget z i)) ->
    exists zp, complex_powers64 sqrt_im fuel garbage z M = Ok zp /\ nrow zp = alen z /\ ncol zp = M + 1
      /\ forall i m, 0 <= i < alen z -> 0 <= m <= M ->
           (Cmod (get2 zp i m - Cpow (aget z i) (Z.to_nat m))%C <= 150 * IZR m * u64)%R.
Proof.
  intros sq fuel garbage z M Hf HM Hn Hq Hz. unfold complex_powers64. destruct (M + 1 <? 0) eqn:E; [lia|].
  unfold complex_powers_fill64.
  set (P := fun (n : Z) (a : arr2 C) => nrow a = alen z /\ ncol a = M + 1
     /\ forall i m, 0 <= i < n -> 0 <= m <= M -> (Cmod (get2 a i m - Cpow (aget z i) (Z.to_nat m))%C <= 150 * IZR m * u64)%R).
  destruct (for_range_inv P 0 (alen z) (powers_row64 sq fuel M z) (mkarr2 (alen z) (M + 1) garbage))
    as (zp & Ez & A & B & G); auto.
  - repeat split; auto. intros; lia.
  - intros i a Hi (A & B & G).
    destruct (powers_row64_ok sq fuel M z i a) as (a' & E' & A' & B' & O & N); auto.
    exists a'; split; auto. repeat split; try congruence.
    intros k m Hk Hm. destruct (Z.eq_dec k i) as [->|Hne]; auto.
    rewrite O by auto. apply G; lia.
  - exists zp. auto.
Qed.

(** A correctly rounded square root is accurate enough. *)
Lemma C59_rounded_sqrt :
  good_sqrt (fun z => RN64 (Im (Csqrt z))).
Proof.
  intros [x y] (_ & _ & Hm & _ & Ry) Hx Hy. cbn [Re Im fst snd] in Hx, Hy, Ry. pose proof u64_pos as U.
  destruct (Req_dec y 0) as [E|NE].
  - assert (Mx : Cmod (x, y) = x).
    { unfold Cmod. cbn [fst snd]. rewrite E. replace (x ^ 2 + 0 ^ 2)%R with (x ^ 2)%R by ring. apply sqrt_pow2. auto. }
    assert (G0 : Im (Csqrt (x, y)) = 0%R).
    { unfold Csqrt. cbn [Re Im fst snd]. destruct (Rle_dec 0 y); [|lra]. rewrite Mx. replace ((x - x) / 2)%R with 0%R by field. apply sqrt_0. }
    rewrite G0, RN64_0, Rminus_0_r, Rabs_R0. lra.
  - assert (Ry' : (/ 2 ^ 300 <= y)%R) by (destruct Ry as [?|R0]; [lra|rewrite Rabs_pos_eq in R0; auto]).
    destruct (g_sq x y Hx Ry' Hm) as [G2 G0]. pose proof (eta_tau x y Hx Ry' Hm) as ET. pose proof (r_bounds x y Hm).
    pose proof (tau_bounds x y Hx Ry' Hm) as T. pose proof (RN64_err (Im (Csqrt (x, y)))) as E. rewrite (Rabs_pos_eq _ G0) in E.
    set (v := Im (Csqrt (x, y))) in *. set (tau := (2 - 2 * (x / Cmod (x, y)))%R) in *.
    assert (A : (tau / 8 <= v)%R).
    { assert (v * v <= 1)%R by (rewrite G2; nra). assert (tau / 8 <= v * v)%R by (rewrite G2; nra). nra. }
    assert (u64 * (tau / 8) <= u64 * v)%R by (apply Rmult_le_compat_l; lra).
    assert (0 < u64 * tau)%R by (apply Rmult_lt_0_compat; lra). lra.
Qed.
