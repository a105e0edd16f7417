(** Multiplication of a Modes object by a constant in double precision. *)
Require Import ZArith Lia List Permutation Reals Lra Bool.
From Flocq Require Import Core.
From Coquelicot Require Import Complex.
From Verif Require Import Base BaseProofs CBase CSum RSum Fact IndexModel IndexProofs SWSHModel WignerProofs ThreeJSpec ThreeJ ThreeJ2 Wigner3jModel Wigner3jSpec
  Wigner3jWs Wigner3jFwd Wigner3jProofs Wigner3jProps ModesModel ModesSpec ModesProofs ModesProofs2 ModesProofs3 ModesProps2 MultModel MultSpec MultProofs MultProps NearProps OrthoProofs.
From Verif Require Import FloatIndexModel FloatIndexProofs FloatPowersModel FloatPowersSpec FloatPowersProofs FloatPowersProps
  FloatConvModel FloatConvSpec FloatConvProofs FloatWignerModel FloatModesModel FloatModesSpec FloatModesProofs FloatModesProofs2 FloatModesProofs4 FloatPartsProofs
  FloatThreeJModel FloatThreeJProofs FloatThreeJProps FloatThreeJSame FloatThreeJSameProps FloatLog FloatMultModel FloatMultSpec FloatMultProofs FloatMultProofs2 FloatMultProps.
From Verif Require FloatModesProps.
Import ListNotations.
Set Bullet Behavior "Strict Subproofs".
Open Scope R_scope.

(** *** Multiplication by a constant *)
Lemma over_pairs_0 L2 l m X : (0 <= l)%Z -> (Z.abs m <= l)%Z -> (forall l2 m2, l2 <> l -> X 0%Z 0%Z l2 m2 = 0) ->
  over_pairs 0 L2 m X = if (l <=? L2)%Z then X 0%Z 0%Z l m else 0.
Proof.
  intros Hl Hm H. unfold over_pairs. rewrite rsum_one. change (- 0)%Z with 0%Z. rewrite rsum_one. rewrite Z.sub_0_r. destruct (Z.leb_spec l L2) as [A|A].
  - rewrite (rsum_delta _ _ l); try lia.
    + replace (Z.abs m <=? l)%Z with true by (symmetry; apply Z.leb_le; lia). reflexivity.
    + intros i Hi N. rewrite H by auto. destruct (_ <=? _)%Z; reflexivity.
  - apply rsum_zero. intros i Hi. rewrite H by lia. destruct (_ <=? _)%Z; reflexivity.
Qed.

Lemma constant_coeff s l m : (Z.abs s <= l)%Z -> (Z.abs m <= l)%Z -> product_coeff 0 s 0 0 l m l = / sqrt (4 * PI).
Proof.
  intros Hs Hm. unfold product_coeff. rewrite !Z.add_0_l.
  rewrite (threej_cyc 0 l l 0 s (- s)), (threej_cyc 0 l l 0 m (- m)), threej_0, threej_0 by auto.
  unfold Rdiv. change (IZR (2 * 0 + 1)) with 1. rewrite Rmult_1_l.
  assert (P : 0 < IZR (2 * l + 1)) by (apply (IZR_lt 0); lia). pose proof PI_RGT_0 as PP.
  assert (S0 : sqrt (IZR (2 * l + 1)) <> 0) by (apply Rgt_not_eq, sqrt_lt_R0; auto).
  assert (IP : 0 < / (4 * PI)) by (apply Rinv_0_lt_compat; lra).
  rewrite (sqrt_mult (IZR (2 * l + 1) * IZR (2 * l + 1))) by (try apply Rmult_le_pos; lra). rewrite sqrt_square by lra. rewrite sqrt_inv.
  replace (l + l + s + m)%Z with (s + m + 2 * l)%Z by lia. rewrite (sgn_add (s + m)), sgn_double, sgn_add.
  rewrite (sgn_sub l s), (sgn_sub l m).
  assert (Q : IZR (2 * l + 1) = sqrt (IZR (2 * l + 1)) * sqrt (IZR (2 * l + 1))) by (symmetry; apply sqrt_sqrt; lra).
  rewrite Q at 1. pose proof (sgn_sqr s) as Q1. pose proof (sgn_sqr m) as Q2. pose proof (sgn_sqr l) as Q3.
  transitivity (/ sqrt (4 * PI) * (sgn s * sgn s) * (sgn m * sgn m) * (sgn l * sgn l)); [field; split; auto; apply Rgt_not_eq, sqrt_lt_R0; lra|]. rewrite Q1, Q2, Q3. ring.
Qed.

Lemma constant_not_stuck l m n : (0 <= l <= 151)%Z -> (Z.abs m <= 0)%Z -> (Z.abs n <= l)%Z -> ~ stuck64 0 l m n.
Proof.
  intros Hl Hm Hn. unfold stuck64. destruct (fresh_ok 0 l ltac:(lia)) as (c & Ec & Wc & Sc). rewrite Ec. cbn [bind].
  destruct (C70_short c 0 l m n Wc ltac:(lia) ltac:(lia) Hm Hn ltac:(lia)) as (c' & E & _). rewrite E. discriminate.
Qed.
Lemma close_constant l n : (0 <= l <= 151)%Z -> (Z.abs n <= l)%Z -> close_symbol (12 * u64) l 0 l 0 n.
Proof.
  intros Hl Hn. destruct (fresh_ok 0 l ltac:(lia)) as (c & Ec & Wc & Sc).
  destruct (C70_short c 0 l 0 n Wc ltac:(lia) ltac:(lia) ltac:(lia) Hn ltac:(lia)) as (c' & E & _ & _ & V). destruct (V l ltac:(lia)) as (x & Ex & Bx).
  unfold close_symbol, symbol64. rewrite Ec. cbn [bind]. rewrite E. cbn [bind]. rewrite Ex. exact Bx.
Qed.

Lemma C72_constant :
  forall way gs gm h f g tr sh, good_ways way -> wf h f -> wf h g -> ellmax (md f) = 0%Z -> spin (md f) = 0%Z -> (0 <= ellmax (md g) <= 151)%Z -> (0 <= product_ell_max f g tr)%Z ->
  broadcast (lead (nd f)) (lead (nd g)) = Some sh ->
  exists h' r, multiply64 fixed way gs gm h f g tr = Ok (h', r)
    /\ forall idx l m, (0 <= l <= product_ell_max f g tr)%Z -> (- l <= m <= l)%Z ->
       let w := (mode h f (bidx (lead (nd f)) idx) 0 0 * mode h g (bidx (lead (nd g)) idx) l m / RtoC (sqrt (4 * PI)))%C in
       ((l <= ellmax (md g))%Z -> Cmod (mode h' r idx l m - w)%C
          <= 40 * u64 * Cmod w + / 2 ^ 1000 * ((1 + Cmod (mode h f (bidx (lead (nd f)) idx) 0 0)) * (1 + Cmod (mode h g (bidx (lead (nd g)) idx) l m))))
       /\ ((ellmax (md g) < l)%Z -> mode h' r idx l m = RtoC 0).
Proof.
  intros way gs gm h f g tr sh Way Wf Wg LF SF LG HL HB.
  assert (HF : (0 <= ellmax (md f))%Z) by lia. assert (HG : (0 <= ellmax (md g))%Z) by lia. assert (HW : (ellmax (md f) + ellmax (md g) <= 1447)%Z) by lia.
  destruct (multiply64_new way gs gm h f g tr sh Way Wf Wg HF HG HL HB HW) as [(h' & r & E & _)|[_ (l1 & l2 & m & n & H1 & H2 & H3 & H4 & H5)]].
  2:{ exfalso. assert (l1 = 0)%Z by lia. subst l1. revert H5. apply constant_not_stuck; lia. }
  exists h', r. split; auto. intros idx l m Hl Hm. cbv zeta.
  set (u := mode h f (bidx (lead (nd f)) idx)). set (v := mode h g (bidx (lead (nd g)) idx)).
  pose proof u64_bd as [U0 U1].
  assert (T0 : forall l2, l2 <> l -> (0 <= l2)%Z \/ (l2 < 0)%Z -> ((Z.abs (0 - l2) <=? l) && (l <=? 0 + l2))%Z = false).
  { intros l2 N _. apply andb_false_iff. rewrite !Z.leb_gt. lia. }
  assert (Cl : forall l1 m1 l2 m2, (0 <= l1 <= ellmax (md f))%Z -> (0 <= l2 <= ellmax (md g))%Z -> (Z.abs m1 <= l1)%Z -> (Z.abs m2 <= l2)%Z -> (m1 + m2 = m)%Z -> (Z.abs (l1 - l2) <= l <= l1 + l2)%Z ->
       u l1 m1 <> RtoC 0 -> v l2 m2 <> RtoC 0 -> close_symbol (12 * u64) l l1 l2 (spin (md f)) (spin (md g)) /\ close_symbol (12 * u64) l l1 l2 m1 m2).
  { intros l1 m1 l2 m2 H1 H2 H3 H4 H5 H6 Nu Nv. assert (l1 = 0 /\ m1 = 0 /\ l2 = l)%Z as (-> & -> & ->) by lia. rewrite SF. split; apply close_constant; try lia.
    destruct (Z_le_gt_dec (Z.abs (spin (md g))) l) as [|X]; auto. exfalso. apply Nv. destruct Wg as (_ & _ & Zz). apply Zz; lia. }
  pose proof (C72_accuracy way gs gm h f g tr h' r Way Wf Wg HF HG HL HW E idx l m (12 * u64) Hl Hm ltac:(lra) Cl) as Q. cbv zeta in Q. fold u v in Q. rewrite LF, SF in Q.
  assert (OUT : forall s1 s2 l2 m2, l2 <> l -> product_coeff s1 s2 0 0 l2 m2 l = 0) by (intros; apply coeff_out; lia).
  assert (PA : abs_weight (product_coeff 0 (spin (md g))) 0 (ellmax (md g)) u v l m
     = if (l <=? ellmax (md g))%Z then Rabs (product_coeff 0 (spin (md g)) 0 0 l m l) * Cmod (u 0 0)%Z * Cmod (v l m) else 0).
  { unfold abs_weight. rewrite (over_pairs_0 _ l) by (try lia; intros; rewrite OUT by auto; rewrite Rabs_R0; ring). reflexivity. }
  assert (PP : pairs 0 (ellmax (md g)) u v l m <= 1).
  { unfold pairs. rewrite (over_pairs_0 _ l) by (try lia; intros; rewrite T0 by lia; reflexivity). destruct (_ <=? _)%Z; [|lra]. destruct (_ && _); [|lra].
    pose proof (nonzero_bd (u 0 0)%Z). pose proof (nonzero_bd (v l m)). rewrite <- (Rmult_1_l 1). apply Rmult_le_compat; lra. }
  assert (PU : underflow 0 (ellmax (md g)) u v l m <= if (l <=? ellmax (md g))%Z then / 2 ^ 1000 * ((1 + Cmod (u 0 0)%Z) * (1 + Cmod (v l m))) else 0).
  { unfold underflow. rewrite (over_pairs_0 _ l) by (try lia; intros; rewrite T0 by lia; reflexivity). destruct (_ <=? _)%Z; [|lra].
    apply Rmult_le_compat_l; [apply Rlt_le, Rinv_0_lt_compat, pow_lt; lra|]. pose proof (Cmod_ge_0 (u 0 0)%Z). pose proof (Cmod_ge_0 (v l m)).
    assert (0 <= (1 + Cmod (u 0 0)%Z) * (1 + Cmod (v l m))) by (apply Rmult_le_pos; lra). destruct (_ && _); [|lra].
    pose proof (nonzero_bd (u 0 0)%Z). pose proof (nonzero_bd (v l m)).
    assert (nonzero (u 0 0)%Z * nonzero (v l m) <= 1) by (rewrite <- (Rmult_1_l 1); apply Rmult_le_compat; lra). rewrite Rmult_assoc.
    rewrite <- (Rmult_1_l ((1 + Cmod (u 0 0)%Z) * (1 + Cmod (v l m)))) at 2. apply Rmult_le_compat_r; auto. }
  assert (PW : product_weight 0 0 (spin (md g)) (ellmax (md g)) u v l m = if (l <=? ellmax (md g))%Z then (RtoC (product_coeff 0 (spin (md g)) 0 0 l m l) * u 0 0 * v l m)%C%Z else RtoC 0).
  { unfold product_weight, dsum. rewrite csum_one. change (- 0)%Z with 0%Z. rewrite csum_one. rewrite Z.sub_0_r. destruct (Z.leb_spec l (ellmax (md g))) as [A|A].
    - rewrite (csum_delta _ _ l); try lia.
      + replace (Z.abs m <=? l)%Z with true by (symmetry; apply Z.leb_le; lia). reflexivity.
      + intros i Hi N. rewrite OUT by auto. destruct (_ <=? _)%Z; ring.
    - apply csum_zero. intros i Hi. rewrite OUT by lia. destruct (_ <=? _)%Z; ring. }
  rewrite PA, PW in Q. clear PA PW. split; intros A.
  - replace (l <=? ellmax (md g))%Z with true in * by (symmetry; apply Z.leb_le; lia).
    assert (EW : (RtoC (product_coeff 0 (spin (md g)) 0 0 l m l) * u 0%Z 0%Z * v l m = u 0%Z 0%Z * v l m / RtoC (sqrt (4 * PI)))%C).
    { destruct (Z_le_gt_dec (Z.abs (spin (md g))) l) as [S1|S1].
      - rewrite constant_coeff by lia. assert (sqrt (4 * PI) <> 0) by (apply Rgt_not_eq, sqrt_lt_R0; pose proof PI_RGT_0; lra). rewrite RtoC_inv by auto. unfold Cdiv. ring.
      - assert (Vz : v l m = RtoC 0) by (destruct Wg as (_ & _ & Zz); apply Zz; lia). rewrite Vz. unfold Cdiv. ring. }
    set (w := (u 0%Z 0%Z * v l m / RtoC (sqrt (4 * PI)))%C) in *. rewrite <- Cmod_R, <- !Cmod_mult, EW in Q. eapply Rle_trans; [exact Q|]. apply Rplus_le_compat; auto.
    apply Rmult_le_compat_r; [apply Cmod_ge_0|].
    pose proof (pairs_bd 0 (ellmax (md g)) u v l m ltac:(lia) HG ltac:(lia)) as PB.
    eapply Rle_trans; [apply eps_bound; simpl in *; [lra|split]|].
    + apply Rmult_le_pos; lra.
    + apply Rle_trans with ((101 / 100 * 1 + 14) * / 10 ^ 12); [apply Rmult_le_compat; simpl; lra|simpl; lra].
    + assert (101 / 100 * pairs 0 (ellmax (md g)) u v l m * u64 <= 101 / 100 * 1 * u64) by (apply Rmult_le_compat_r; lra). lra.
  - replace (l <=? ellmax (md g))%Z with false in * by (symmetry; apply Z.leb_gt; lia).
    rewrite Rmult_0_r, Rplus_0_l in Q. replace (mode h' r idx l m - RtoC 0)%C with (mode h' r idx l m) in Q by ring.
    apply Cmod_eq_0. pose proof (Cmod_ge_0 (mode h' r idx l m)). lra.
Qed.

(** A constant and two functions of spin weight -2 with modes up to ell = 3 *)
Definition constant_heap : heap :=
  mkheap 2 (fun b idx k => if (b =? 0)%nat then RtoC 3 else if (k <? 4)%Z then RtoC 0 else (RtoC (IZR (k + 1)) + Ci * RtoC (IZR (nth 0 idx 0%Z)))%C).
Definition constant_f : modes := mkmodes (mknd 0 [] 1) (mkmeta 0 0 None).
Definition constant_g : modes := mkmodes (mknd 1 [2%Z] 16) (mkmeta (-2) 3 None).
Definition plain_way : ways := fun _ _ _ _ _ _ => (FloatModesProps.forward 1 0, FloatModesProps.forward 1 0).

Lemma C72_example :
  wf constant_heap constant_f /\ wf constant_heap constant_g /\ good_ways plain_way /\
  broadcast (lead (nd constant_f)) (lead (nd constant_g)) = Some [2%Z] /\ product_ell_max constant_f constant_g None = 3%Z /\
  mode constant_heap constant_g [1%Z] 3 2 <> RtoC 0 /\
  exists h' r, multiply64 fixed plain_way (fun _ => 7) (fun _ => 8) constant_heap constant_f constant_g None = Ok (h', r)
    /\ Cmod (mode h' r [1%Z] 3 2 - RtoC 3 * (RtoC 15 + Ci) / RtoC (sqrt (4 * PI)))%C <= / 10 ^ 8.
Proof.
  assert (W1 : wf constant_heap constant_f) by (split; [cbn; lia|]; split; [reflexivity|]; cbn; lia).
  assert (W2 : wf constant_heap constant_g).
  { split; [cbn; lia|]. split; [reflexivity|]. cbn [constant_g nd md spin ellmax]. intros idx ell mm H1 H2 H3. unfold mode. cbn [constant_g nd buf constant_heap mem Nat.eqb].
    replace (ell * ell + (ell + mm) <? 4)%Z with true; [reflexivity|]. symmetry. apply Z.ltb_lt. change (Z.abs (-2)) with 2%Z in H2. nia. }
  assert (GW : good_ways plain_way) by (intros l1 m1 l2 m2 l3 idx; cbn [plain_way fst snd]; unfold adds_all; repeat split; try (vm_compute; lia); apply Permutation_refl).
  split; auto. split; auto. split; auto. split; [reflexivity|]. split; [reflexivity|].
  assert (V : mode constant_heap constant_g [1%Z] 3 2 = (RtoC 15 + Ci * RtoC 1)%C) by reflexivity.
  split. { rewrite V. intros H. apply (f_equal Im) in H. cbn in H. lra. }
  destruct (C72_constant plain_way (fun _ => 7) (fun _ => 8) constant_heap constant_f constant_g None [2%Z] GW W1 W2 eq_refl eq_refl ltac:(cbn; lia) ltac:(cbn; lia) eq_refl) as (h' & r & E & Q).
  exists h', r. split; auto. destruct (Q [1%Z] 3%Z 2%Z ltac:(cbn; lia) ltac:(cbn; lia)) as [B _]. specialize (B ltac:(cbn; lia)).
  change (mode constant_heap constant_f (bidx (lead (nd constant_f)) [1%Z]) 0 0) with (RtoC 3) in B.
  change (mode constant_heap constant_g (bidx (lead (nd constant_g)) [1%Z]) 3 2) with (RtoC 15 + Ci * RtoC 1)%C in B. rewrite Cmult_1_r in B.
  eapply Rle_trans; [exact B|].
  assert (M1 : Cmod (RtoC 15 + Ci)%C <= 16). { eapply Rle_trans; [apply Cmod_triangle|]. rewrite Cmod_R, Rabs_pos_eq by lra. assert (Cmod Ci = 1) by (unfold Cmod, Ci; cbn [fst snd]; transitivity (sqrt 1); [f_equal; ring|apply sqrt_1]). lra. }
  assert (M3 : Cmod (RtoC 3) = 3) by (rewrite Cmod_R; apply Rabs_pos_eq; lra).
  assert (S1 : 1 <= sqrt (4 * PI)) by (rewrite <- sqrt_1 at 1; apply sqrt_le_1_alt; pose proof PI_bounds; lra).
  assert (M2 : Cmod (RtoC 3 * (RtoC 15 + Ci) / RtoC (sqrt (4 * PI)))%C <= 48).
  { unfold Cdiv. rewrite <- RtoC_inv by lra. rewrite !Cmod_mult, M3, Cmod_R, Rabs_pos_eq by (apply Rlt_le, Rinv_0_lt_compat; lra).
    assert (/ sqrt (4 * PI) <= / 1) by (apply Rinv_le_contravar; lra). pose proof (Rinv_0_lt_compat (sqrt (4 * PI)) ltac:(lra)). pose proof (Cmod_ge_0 (RtoC 15 + Ci)%C).
    apply Rle_trans with (48 * 1); [|lra]. apply Rmult_le_compat; lra. }
  rewrite M3. pose proof u64_bd as [U0 U1]. pose proof (Cmod_ge_0 (RtoC 15 + Ci)%C).
  assert (A : 40 * u64 * Cmod (RtoC 3 * (RtoC 15 + Ci) / RtoC (sqrt (4 * PI)))%C <= 40 * / 10 ^ 12 * 48) by (apply Rmult_le_compat; auto using Cmod_ge_0; lra).
  assert (T : / 2 ^ 1000 <= / 2 ^ 40) by (apply Rinv_le_contravar; [apply pow_lt; lra|]; apply Rle_pow; [lra|lia]).
  assert (D : / 2 ^ 1000 * ((1 + 3) * (1 + Cmod (RtoC 15 + Ci)%C)) <= / 2 ^ 40 * (4 * 17)) by (apply Rmult_le_compat; [apply Rlt_le, Rinv_0_lt_compat, pow_lt; lra| |auto|]; lra).
  simpl in *. lra.
Qed.
