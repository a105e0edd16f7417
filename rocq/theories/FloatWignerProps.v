(** Property C62: how accurate Wigner_D_element and SWSH are in double precision. *)
Require Import ZArith Lia Reals Lra Bool.
From Flocq Require Import Core.
From Coquelicot Require Import Complex.
From Verif Require Import Base BaseProofs CBase Fact RSum CSum SymPow WignerSpec DRep IndexModel FloatIndexModel FloatIndexProofs FloatPowersModel
  FloatPowersSpec FloatPowersProofs FloatConvModel FloatConvSpec FloatConvProofs WignerModel WignerProofs WignerProofs2 WignerProofs3 SWSHModel SWSHProofs
  NearProofs FloatWignerModel FloatWignerSpec FloatWignerProofs FloatWignerProofs2 FloatWignerProofs3 FloatWignerProofs4 FloatWignerProofs5 FloatWignerProofs6.
Set Bullet Behavior "Strict Subproofs".
Open Scope R_scope.

Lemma Rleb_false x y : Rleb x y = false -> y < x.
Proof. unfold Rleb. destruct (Rle_dec x y); [discriminate|]. lra. Qed.
Lemma Rltb_false x y : Rltb x y = false -> y <= x.
Proof. unfold Rltb. destruct (Rlt_dec x y); [discriminate|]. lra. Qed.

(** The four branches, each over all rows *)
Lemma D_core_rows lib Ra Rb ha pa hb pb (Q : Z * Z * Z -> C -> Prop) indices elements :
  lib_polar lib Ra = (ha, pa) -> lib_polar lib Rb = (hb, pb) -> (0 <= alen indices <= alen elements)%Z ->
  (forall i, (0 <= i < alen indices)%Z -> let t := aget indices i in
     (ha <= RN64 epsilon -> Q t (D_elem_a064 lib Rb t))
     /\ (RN64 epsilon < ha -> hb <= RN64 epsilon -> Q t (D_elem_b064 lib Ra t))
     /\ (RN64 epsilon < ha -> RN64 epsilon < hb -> ha <= hb -> exists v, D_elem_lt64 lib ha hb pa pb t = Ok v /\ Q t v)
     /\ (RN64 epsilon < ha -> RN64 epsilon < hb -> hb <= ha -> exists v, D_elem_ge64 lib ha hb pa pb t = Ok v /\ Q t v)) ->
  exists out, Wigner_D_element_core64 lib Ra Rb indices elements = Ok out
    /\ alen out = alen elements
    /\ (forall i, (0 <= i < alen indices)%Z -> Q (aget indices i) (aget out i))
    /\ (forall i, (alen indices <= i)%Z -> aget out i = aget elements i).
Proof.
  intros Ea Eb Hlen H. unfold Wigner_D_element_core64. rewrite Ea, Eb.
  destruct (Rleb ha (RN64 epsilon)) eqn:E1; [apply Rleb_true in E1|apply Rleb_false in E1].
  { apply (fill_rows (fun t => Ok (D_elem_a064 lib Rb t)) Q indices elements Hlen).
    intros i Hi. destruct (H i Hi) as (X & _). eexists. split; [reflexivity|]. exact (X E1). }
  destruct (Rleb hb (RN64 epsilon)) eqn:E2; [apply Rleb_true in E2|apply Rleb_false in E2].
  { apply (fill_rows (fun t => Ok (D_elem_b064 lib Ra t)) Q indices elements Hlen).
    intros i Hi. destruct (H i Hi) as (_ & X & _). eexists. split; [reflexivity|]. exact (X E1 E2). }
  destruct (Rltb ha hb) eqn:E3; [apply Rltb_true in E3|apply Rltb_false in E3].
  - apply (fill_rows (D_elem_lt64 lib ha hb pa pb) Q indices elements Hlen). intros i Hi. destruct (H i Hi) as (_ & _ & X & _). exact (X E1 E2 (Rlt_le _ _ E3)).
  - apply (fill_rows (D_elem_ge64 lib ha hb pa pb) Q indices elements Hlen). intros i Hi. destruct (H i Hi) as (_ & _ & _ & X). exact (X E1 E2 E3).
Qed.
Lemma S_core_rows lib Ra Rb ha pa hb pb s (Q : Z * Z -> C -> Prop) indices values :
  lib_polar lib Ra = (ha, pa) -> lib_polar lib Rb = (hb, pb) -> (0 <= alen indices <= alen values)%Z ->
  (forall i, (0 <= i < alen indices)%Z -> let t := aget indices i in
     (ha <= RN64 epsilon -> Q t (S_elem_a064 lib Rb s t))
     /\ (RN64 epsilon < ha -> hb <= RN64 epsilon -> Q t (S_elem_b064 lib Ra s t))
     /\ (RN64 epsilon < ha -> RN64 epsilon < hb -> ha <= hb -> exists v, S_elem_lt64 lib ha hb pa pb s t = Ok v /\ Q t v)
     /\ (RN64 epsilon < ha -> RN64 epsilon < hb -> hb <= ha -> exists v, S_elem_ge64 lib ha hb pa pb s t = Ok v /\ Q t v)) ->
  exists out, SWSH_core64 lib Ra Rb s indices values = Ok out
    /\ alen out = alen values
    /\ (forall i, (0 <= i < alen indices)%Z -> Q (aget indices i) (aget out i))
    /\ (forall i, (alen indices <= i)%Z -> aget out i = aget values i).
Proof.
  intros Ea Eb Hlen H. unfold SWSH_core64. rewrite Ea, Eb.
  destruct (Rleb ha (RN64 epsilon)) eqn:E1; [apply Rleb_true in E1|apply Rleb_false in E1].
  { apply (fill_rows (fun t => Ok (S_elem_a064 lib Rb s t)) Q indices values Hlen).
    intros i Hi. destruct (H i Hi) as (X & _). eexists. split; [reflexivity|]. exact (X E1). }
  destruct (Rleb hb (RN64 epsilon)) eqn:E2; [apply Rleb_true in E2|apply Rleb_false in E2].
  { apply (fill_rows (fun t => Ok (S_elem_b064 lib Ra s t)) Q indices values Hlen).
    intros i Hi. destruct (H i Hi) as (_ & X & _). eexists. split; [reflexivity|]. exact (X E1 E2). }
  destruct (Rltb ha hb) eqn:E3; [apply Rltb_true in E3|apply Rltb_false in E3].
  - apply (fill_rows (S_elem_lt64 lib ha hb pa pb s) Q indices values Hlen). intros i Hi. destruct (H i Hi) as (_ & _ & X & _). exact (X E1 E2 (Rlt_le _ _ E3)).
  - apply (fill_rows (S_elem_ge64 lib ha hb pa pb s) Q indices values Hlen). intros i Hi. destruct (H i Hi) as (_ & _ & _ & X). exact (X E1 E2 E3).
Qed.

Lemma D_out64 lib Ra Rb ha hb pa pb t mp m : (t < Z.abs mp \/ t < Z.abs m)%Z ->
  D_elem_a064 lib Rb (t, mp, m) = RtoC 0 /\ D_elem_b064 lib Ra (t, mp, m) = RtoC 0
  /\ D_elem_lt64 lib ha hb pa pb (t, mp, m) = Ok (RtoC 0) /\ D_elem_ge64 lib ha hb pa pb (t, mp, m) = Ok (RtoC 0).
Proof.
  intros H. assert (E : ((Z.abs mp >? t) || (Z.abs m >? t))%Z = true) by (apply orb_true_iff; rewrite <- !Zgt_is_gt_bool; lia).
  unfold D_elem_a064, D_elem_b064, D_elem_lt64, D_elem_ge64. rewrite <- !orb_assoc, !E, !orb_true_r. auto.
Qed.
Lemma S_out64 lib Ra Rb ha hb pa pb s ell m : (ell < Z.abs m \/ ell < Z.abs s)%Z ->
  S_elem_a064 lib Rb s (ell, m) = RtoC 0 /\ S_elem_b064 lib Ra s (ell, m) = RtoC 0
  /\ S_elem_lt64 lib ha hb pa pb s (ell, m) = Ok (RtoC 0) /\ S_elem_ge64 lib ha hb pa pb s (ell, m) = Ok (RtoC 0).
Proof.
  intros H. assert (E : ((Z.abs m >? ell) || (Z.abs s >? ell))%Z = true) by (apply orb_true_iff; rewrite <- !Zgt_is_gt_bool; lia).
  unfold S_elem_a064, S_elem_b064, S_elem_lt64, S_elem_ge64. rewrite <- !orb_assoc, !E, !orb_true_r. auto.
Qed.

(** ** Parts above the cut-off *)
Lemma D_row_ok lib Ra Rb ha pa hb pb t mp m : good_libm lib -> lib_polar lib Ra = (ha, pa) -> lib_polar lib Rb = (hb, pb) ->
  Cmod Ra <= 3 / 2 -> Cmod Rb <= 3 / 2 -> RN64 epsilon < ha -> RN64 epsilon < hb -> D_indices t mp m -> (t <= 64)%Z ->
  let Q := fun v => Cmod (v - Wigner_formula t mp m Ra Rb)%C <= (37 * IZR t + 15) * u64 * Wigner_size t mp m Ra Rb + / 2 ^ 600 in
  (ha <= hb -> exists v, D_elem_lt64 lib ha hb pa pb (t, mp, m) = Ok v /\ Q v)
  /\ (hb <= ha -> exists v, D_elem_ge64 lib ha hb pa pb (t, mp, m) = Ok v /\ Q v).
Proof.
  intros GL Ea Eb Ba Bb Ha Hb HD Ht Q. destruct (D_indices_half _ _ _ HD) as (p & q & Hp & Hq & -> & ->). pose proof p16 as P16.
  destruct GL as ((Gp & Gc) & Gw & Gr).
  destruct (polar_rel _ Ra ha pa Gp Ea Ba Ha) as (R1 & B1 & al & A1 & A2).
  destruct (polar_rel _ Rb hb pb Gp Eb Bb Hb) as (R2 & B2 & be & C1 & C2).
  assert (EQ : forall v, Q v = (Cmod (v - Dm t p q (RtoC (Cmod Ra) * cis al) (RtoC (Cmod Rb) * cis be))%C
                               <= (37 * IZR t + 15) * u64 * Wsize t p q (Cmod Ra) (Cmod Rb) + / 2 ^ 600)).
  { intros v. unfold Q. rewrite Wigner_formula_Dm, Wigner_size_W by (auto; lra). rewrite <- A1, <- C1. reflexivity. }
  assert (GL : good_libm lib) by (split; auto).
  split; intros Hle.
  - destruct (D_lt64_ok lib t p q (Cmod Ra) (Cmod Rb) al be ha hb pa pb GL ltac:(lia) Hp Hq B1 B2 R1 R2 A2 C2 Hle) as (v & E & B).
    exists v. split; auto. rewrite EQ. exact B.
  - destruct (D_ge64_ok lib t p q (Cmod Ra) (Cmod Rb) al be ha hb pa pb GL ltac:(lia) Hp Hq B1 B2 R1 R2 A2 C2 Hle) as (v & E & B).
    exists v. split; auto. rewrite EQ. exact B.
Qed.
Lemma S_row_ok lib Ra Rb ha pa hb pb s ell m : good_libm lib -> lib_polar lib Ra = (ha, pa) -> lib_polar lib Rb = (hb, pb) ->
  Cmod Ra <= 3 / 2 -> Cmod Rb <= 3 / 2 -> RN64 epsilon < ha -> RN64 epsilon < hb -> (Z.abs m <= ell)%Z -> (Z.abs s <= ell)%Z -> (ell <= 32)%Z ->
  let Q := fun v => Cmod (v - SWSH_value s ell m Ra Rb)%C
    <= (74 * IZR ell + 22) * u64 * (swsh_norm ell * Wigner_size (2 * ell) (2 * m) (2 * - s) Ra Rb) + / 2 ^ 600 in
  (ha <= hb -> exists v, S_elem_lt64 lib ha hb pa pb s (ell, m) = Ok v /\ Q v)
  /\ (hb <= ha -> exists v, S_elem_ge64 lib ha hb pa pb s (ell, m) = Ok v /\ Q v).
Proof.
  intros GL Ea Eb Ba Bb Ha Hb Hm Hs Hl Q. pose proof p16 as P16. destruct GL as ((Gp & Gc) & Gw & Gr).
  destruct (polar_rel _ Ra ha pa Gp Ea Ba Ha) as (R1 & B1 & al & A1 & A2).
  destruct (polar_rel _ Rb hb pb Gp Eb Bb Hb) as (R2 & B2 & be & C1 & C2).
  assert (EQ : forall v, Q v = (Cmod (v - RtoC (swsh_norm ell) * (RtoC (sgn s) * Dm (2 * ell) (ell + m) (ell - s) (RtoC (Cmod Ra) * cis al) (RtoC (Cmod Rb) * cis be)))%C
                               <= (37 * IZR (2 * ell) + 22) * u64 * (swsh_norm ell * Wsize (2 * ell) (ell + m) (ell - s) (Cmod Ra) (Cmod Rb)) + / 2 ^ 600)).
  { intros v. unfold Q. rewrite SWSH_value_in by lia. unfold Dv. rewrite <- A1, <- C1, mult_IZR.
    rewrite <- Wigner_size_W by (lia || lra).
    replace (2 * (ell + m) - 2 * ell)%Z with (2 * m)%Z by lia. replace (2 * (ell - s) - 2 * ell)%Z with (2 * - s)%Z by lia.
    replace (ell + - s)%Z with (ell - s)%Z by lia.
    replace (37 * (2 * IZR ell)) with (74 * IZR ell) by ring.
    replace (RtoC (sgn s) * RtoC (swsh_norm ell) * Dm (2 * ell) (ell + m) (ell - s) Ra Rb)%C
      with (RtoC (swsh_norm ell) * (RtoC (sgn s) * Dm (2 * ell) (ell + m) (ell - s) Ra Rb))%C by ring. reflexivity. }
  assert (GL : good_libm lib) by (split; auto).
  split; intros Hle.
  - destruct (S_lt64_ok lib s ell m (Cmod Ra) (Cmod Rb) al be ha hb pa pb GL Hl ltac:(lia) ltac:(lia) B1 B2 R1 R2 A2 C2 Hle) as (v & E & B).
    exists v. split; auto. rewrite EQ. exact B.
  - destruct (S_ge64_ok lib s ell m (Cmod Ra) (Cmod Rb) al be ha hb pa pb GL Hl ltac:(lia) ltac:(lia) B1 B2 R1 R2 A2 C2 Hle) as (v & E & B).
    exists v. split; auto. rewrite EQ. exact B.
Qed.

Lemma C62_D :
  forall lib Ra Rb indices elements, good_libm lib -> Cmod Ra <= 3 / 2 -> Cmod Rb <= 3 / 2 ->
  RN64 epsilon < fst (lib_polar lib Ra) -> RN64 epsilon < fst (lib_polar lib Rb) ->
  (0 <= alen indices <= alen elements)%Z -> D_rows_ok indices ->
  exists out, Wigner_D_element_core64 lib Ra Rb indices elements = Ok out
    /\ alen out = alen elements
    /\ (forall i t mp m, (0 <= i < alen indices)%Z -> aget indices i = (t, mp, m) ->
         (D_indices t mp m ->
            Cmod (aget out i - Wigner_formula t mp m Ra Rb)%C <= (37 * IZR t + 15) * u64 * Wigner_size t mp m Ra Rb + / 2 ^ 600)
         /\ (t < Z.abs mp \/ t < Z.abs m -> aget out i = RtoC 0)%Z)
    /\ (forall i, (alen indices <= i)%Z -> aget out i = aget elements i).
Proof.
  intros lib Ra Rb indices elements GL Ba Bb Ha Hb Hlen Hrows.
  destruct (lib_polar lib Ra) as [ha pa] eqn:Ea. destruct (lib_polar lib Rb) as [hb pb] eqn:Eb. cbn [fst] in *.
  set (Q := fun (t3 : Z * Z * Z) v => let '(t, mp, m) := t3 in
     (D_indices t mp m -> Cmod (v - Wigner_formula t mp m Ra Rb)%C <= (37 * IZR t + 15) * u64 * Wigner_size t mp m Ra Rb + / 2 ^ 600)
     /\ (t < Z.abs mp \/ t < Z.abs m -> v = RtoC 0)%Z).
  destruct (D_core_rows lib Ra Rb ha pa hb pb Q indices elements Ea Eb Hlen) as (out & E & A & B & D).
  - intros i Hi T. unfold T. destruct (aget indices i) as [[t mp] m] eqn:Ei.
    split; [intros; lra|]. split; [intros; lra|].
    destruct (Hrows i t mp m Hi Ei) as [[HD Ht]|HO].
    + destruct (D_row_ok lib Ra Rb ha pa hb pb t mp m GL Ea Eb Ba Bb Ha Hb HD Ht) as [L G]. pose proof HD as (X1 & X2 & _).
      split; intros _ _ Hle; [destruct (L Hle) as (v & Ev & Bv)|destruct (G Hle) as (v & Ev & Bv)]; exists v; split; auto; split; auto; lia.
    + destruct (D_out64 lib Ra Rb ha hb pa pb t mp m HO) as (_ & _ & O3 & O4).
      split; intros; eexists; (split; [eassumption|]); split; auto; intros (X1 & X2 & _); lia.
  - exists out. split; auto. split; auto. split; auto. intros i t mp m Hi Ei. specialize (B i Hi). rewrite Ei in B. exact B.
Qed.

Lemma C62_SWSH :
  forall lib Ra Rb s indices values, good_libm lib -> Cmod Ra <= 3 / 2 -> Cmod Rb <= 3 / 2 ->
  RN64 epsilon < fst (lib_polar lib Ra) -> RN64 epsilon < fst (lib_polar lib Rb) ->
  (0 <= alen indices <= alen values)%Z -> S_rows_ok s indices ->
  exists out, SWSH_core64 lib Ra Rb s indices values = Ok out
    /\ alen out = alen values
    /\ (forall i ell m, (0 <= i < alen indices)%Z -> aget indices i = (ell, m) ->
         ((Z.abs m <= ell)%Z -> (Z.abs s <= ell)%Z ->
            Cmod (aget out i - RtoC (if Z.even s then 1 else -1)%R * RtoC (sqrt (IZR (2 * ell + 1) / (4 * PI))) * Wigner_formula (2 * ell) (2 * m) (2 * - s) Ra Rb)%C
            <= ((74 * IZR ell + 22) * u64 * (sqrt (IZR (2 * ell + 1) / (4 * PI)) * Wigner_size (2 * ell) (2 * m) (2 * - s) Ra Rb) + / 2 ^ 600)%R)
         /\ (ell < Z.abs m \/ ell < Z.abs s -> aget out i = RtoC 0)%Z)
    /\ (forall i, (alen indices <= i)%Z -> aget out i = aget values i).
Proof.
  intros lib Ra Rb s indices values GL Ba Bb Ha Hb Hlen Hrows.
  destruct (lib_polar lib Ra) as [ha pa] eqn:Ea. destruct (lib_polar lib Rb) as [hb pb] eqn:Eb. cbn [fst] in *.
  set (Q := fun (t2 : Z * Z) v => let '(ell, m) := t2 in
     ((Z.abs m <= ell)%Z -> (Z.abs s <= ell)%Z -> Cmod (v - SWSH_value s ell m Ra Rb)%C
        <= ((74 * IZR ell + 22) * u64 * (swsh_norm ell * Wigner_size (2 * ell) (2 * m) (2 * - s) Ra Rb) + / 2 ^ 600)%R)
     /\ (ell < Z.abs m \/ ell < Z.abs s -> v = RtoC 0)%Z).
  destruct (S_core_rows lib Ra Rb ha pa hb pb s Q indices values Ea Eb Hlen) as (out & E & A & B & D).
  - intros i Hi T. unfold T. destruct (aget indices i) as [ell m] eqn:Ei.
    split; [intros; lra|]. split; [intros; lra|].
    destruct (Z_le_gt_dec (Z.abs m) ell) as [Hm|Hm]; [destruct (Z_le_gt_dec (Z.abs s) ell) as [Hs|Hs]|].
    + pose proof (Hrows i ell m Hi Ei Hm Hs) as Hl.
      destruct (S_row_ok lib Ra Rb ha pa hb pb s ell m GL Ea Eb Ba Bb Ha Hb Hm Hs Hl) as [L G].
      split; intros _ _ Hle; [destruct (L Hle) as (v & Ev & Bv)|destruct (G Hle) as (v & Ev & Bv)]; exists v; split; auto; split; auto; lia.
    + destruct (S_out64 lib Ra Rb ha hb pa pb s ell m ltac:(lia)) as (_ & _ & O3 & O4).
      split; intros; eexists; (split; [eassumption|]); split; auto; lia.
    + destruct (S_out64 lib Ra Rb ha hb pa pb s ell m ltac:(lia)) as (_ & _ & O3 & O4).
      split; intros; eexists; (split; [eassumption|]); split; auto; lia.
  - exists out. split; auto. split; auto. split; auto. intros i ell m Hi Ei. specialize (B i Hi). rewrite Ei in B. destruct B as [B1 B2]. split; auto.
    intros Hm Hs. specialize (B1 Hm Hs). unfold SWSH_value in B1.
    replace ((Z.abs m <=? ell) && (Z.abs s <=? ell))%Z with true in B1 by (symmetry; apply andb_true_iff; split; apply Z.leb_le; lia). exact B1.
Qed.

(** ** Rotors *)
Lemma rotor_size t mp m Ra Rb : nearly_unit Ra Rb -> 0 < Cmod Ra -> 0 < Cmod Rb -> D_indices t mp m -> (t <= 64)%Z ->
  0 <= Wigner_size t mp m Ra Rb <= 1001 / 1000 * sqrt 2 ^ Z.to_nat t.
Proof.
  intros U Pa Pb HD Ht. destruct (D_indices_half _ _ _ HD) as (p & q & Hp & Hq & -> & ->). rewrite Wigner_size_W by auto.
  split; [apply Wsize_nonneg; auto|]. eapply Rle_trans; [apply Wsize_le; auto|].
  pose proof u64_pos as Up. unfold nearly_unit in U. apply Rabs_le_inv in U.
  assert (S2 : 0 < sqrt 2) by (apply sqrt_lt_R0; lra). pose proof (sqrt_sqrt 2 ltac:(lra)) as S22.
  assert (L : Cmod Ra + Cmod Rb <= sqrt 2 * (1 + u64) ^ 8).
  { assert (G8 : 1 + 8 * u64 <= (1 + u64) ^ 8). { pose proof (g_ge 8) as G. unfold g in G. replace (INR 8) with 8 in G by (rewrite INR_IZR_INZ; reflexivity). lra. }
    apply Rle_trans with (sqrt 2 * (1 + 8 * u64)); [|apply Rmult_le_compat_l; lra].
    set (x := Cmod Ra) in *. set (y := Cmod Rb) in *. apply Rnot_lt_le. intros C0.
    assert (A : (sqrt 2 * (1 + 8 * u64)) * (sqrt 2 * (1 + 8 * u64)) < (x + y) * (x + y)).
    { apply Rmult_le_0_lt_compat; auto; apply Rmult_le_pos; lra. }
    replace (sqrt 2 * (1 + 8 * u64) * (sqrt 2 * (1 + 8 * u64))) with (sqrt 2 * sqrt 2 * ((1 + 8 * u64) * (1 + 8 * u64))) in A by ring. rewrite S22 in A.
    assert (0 <= u64 * u64) by (apply Rmult_le_pos; lra). pose proof (pow2_ge_0 (x - y)). nra. }
  eapply Rle_trans; [apply pow_incr; split; [lra|exact L]|]. rewrite Rpow_mult_distr, <- pow_mult.
  rewrite Rmult_comm. apply Rmult_le_compat_r; [apply pow_le; lra|]. pose proof (g_half (8 * Z.to_nat t) ltac:(lia)) as G. unfold g in G. lra.
Qed.
Lemma tiny_600 : 0 <= / 2 ^ 600 <= / 100 * u64.
Proof.
  split; [left; apply Rinv_0_lt_compat, pow_lt; lra|]. apply Rle_trans with (/ 2 ^ 60); [apply Rinv_le_contravar; [apply pow_lt; lra|apply Rle_pow; [lra|lia]]|].
  unfold u64. simpl. lra.
Qed.
Lemma sqrt2_pow n : 1 <= sqrt 2 ^ n.
Proof. apply pow_R1_Rle. rewrite <- sqrt_1 at 1. apply sqrt_le_1_alt. lra. Qed.
Lemma sqrt2_even ell : (0 <= ell)%Z -> sqrt 2 ^ Z.to_nat (2 * ell) = 2 ^ Z.to_nat ell.
Proof.
  intros H. replace (Z.to_nat (2 * ell)) with (2 * Z.to_nat ell)%nat by lia. rewrite pow_mult. f_equal. simpl. rewrite Rmult_1_r. apply sqrt_sqrt. lra.
Qed.

Lemma C62_D_rotor :
  forall lib Ra Rb indices elements, good_libm lib -> nearly_unit Ra Rb ->
  (0 <= alen indices <= alen elements)%Z -> D_rows_ok indices ->
  exists out, Wigner_D_element_core64 lib Ra Rb indices elements = Ok out
    /\ alen out = alen elements
    /\ (forall i t mp m, (0 <= i < alen indices)%Z -> aget indices i = (t, mp, m) ->
         (D_indices t mp m ->
            Cmod (aget out i - Wigner_formula t mp m Ra Rb)%C <= 37 * (IZR t + 1) * u64 * sqrt 2 ^ Z.to_nat t)
         /\ (t < Z.abs mp \/ t < Z.abs m -> aget out i = RtoC 0)%Z)
    /\ (forall i, (alen indices <= i)%Z -> aget out i = aget elements i).
Proof.
  intros lib Ra Rb indices elements GL U Hlen Hrows. pose proof u64_pos as Up. pose proof p16 as P16.
  pose proof (nearly_unit_le _ _ U) as Ba. pose proof (nearly_unit_le _ _ (nearly_unit_sym _ _ U)) as Bb.
  destruct (lib_polar lib Ra) as [ha pa] eqn:Ea. destruct (lib_polar lib Rb) as [hb pb] eqn:Eb.
  pose proof GL as ((Gp & Gc) & _).
  set (Q := fun (t3 : Z * Z * Z) v => let '(t, mp, m) := t3 in
     (D_indices t mp m -> Cmod (v - Wigner_formula t mp m Ra Rb)%C <= 37 * (IZR t + 1) * u64 * sqrt 2 ^ Z.to_nat t)
     /\ (t < Z.abs mp \/ t < Z.abs m -> v = RtoC 0)%Z).
  destruct (D_core_rows lib Ra Rb ha pa hb pb Q indices elements Ea Eb Hlen) as (out & E & A & B & D).
  - intros i Hi T. unfold T. destruct (aget indices i) as [[t mp] m] eqn:Ei.
    destruct (Hrows i t mp m Hi Ei) as [[HD Ht]|HO].
    2:{ destruct (D_out64 lib Ra Rb ha hb pa pb t mp m HO) as (O1 & O2 & O3 & O4).
        split; [intros _; rewrite O1|]. { split; auto. intros (X1 & X2 & _); lia. }
        split; [intros _ _; rewrite O2|]. { split; auto. intros (X1 & X2 & _); lia. }
        split; intros; eexists; (split; [eassumption|]); split; auto; intros (X1 & X2 & _); lia. }
    pose proof HD as (X1 & X2 & _).
    assert (T0 : 0 <= IZR t <= 64) by (split; [apply (IZR_le 0)|apply (IZR_le _ 64)]; lia).
    pose proof (sqrt2_pow (Z.to_nat t)) as S1.
    assert (Small : forall v, Cmod (v - Wigner_formula t mp m Ra Rb)%C <= 34 * (IZR t + 1) * u64 -> Q (t, mp, m) v).
    { intros v Hv. split; [|lia]. intros _. eapply Rle_trans; [exact Hv|].
      assert (K : 0 <= (IZR t + 1) * u64) by (apply Rmult_le_pos; lra).
      assert ((IZR t + 1) * u64 * 1 <= (IZR t + 1) * u64 * sqrt 2 ^ Z.to_nat t) by (apply Rmult_le_compat_l; lra). lra. }
    destruct (D_indices_half _ _ _ HD) as (p & q & Hp & Hq & -> & ->). rewrite Wigner_formula_Dm in Small by auto.
    split; [|split].
    + intros Ha. apply Small. apply D_a064_ok; auto; [lia|]. apply (polar_small _ Ra ha pa Gp Ea Ba Ha).
    + intros _ Hb. apply Small. apply D_b064_ok; auto; [lia|]. apply (polar_small _ Rb hb pb Gp Eb Bb Hb).
    + assert (Big : RN64 epsilon < ha -> RN64 epsilon < hb -> forall v,
        Cmod (v - Wigner_formula t (2 * p - t) (2 * q - t) Ra Rb)%C <= (37 * IZR t + 15) * u64 * Wigner_size t (2 * p - t) (2 * q - t) Ra Rb + / 2 ^ 600 ->
        Q (t, 2 * p - t, 2 * q - t)%Z v).
      { intros Ha Hb v Hv. split; [|lia]. intros _. eapply Rle_trans; [exact Hv|].
        destruct (polar_rel _ Ra ha pa Gp Ea Ba Ha) as (_ & B1 & _). destruct (polar_rel _ Rb hb pb Gp Eb Bb Hb) as (_ & B2 & _).
        pose proof (rotor_size t _ _ Ra Rb U ltac:(lra) ltac:(lra) HD Ht) as W. pose proof tiny_600 as T6.
        set (r := sqrt 2 ^ Z.to_nat t) in *. set (w := Wigner_size _ _ _ _ _) in *.
        assert (K0 : 0 <= (37 * IZR t + 15) * u64) by (apply Rmult_le_pos; lra).
        assert ((37 * IZR t + 15) * u64 * w <= (37 * IZR t + 15) * u64 * (1001 / 1000 * r)) by (apply Rmult_le_compat_l; lra).
        assert (u64 * 1 <= u64 * r) by (apply Rmult_le_compat_l; lra).
        assert (IZR t * (u64 * r) <= 64 * (u64 * r)) by (apply Rmult_le_compat_r; lra). lra. }
      split; intros Ha Hb Hle.
      * destruct (D_row_ok lib Ra Rb ha pa hb pb _ _ _ GL Ea Eb Ba Bb Ha Hb HD Ht) as [L _]. destruct (L Hle) as (v & Ev & Bv). exists v. split; auto.
      * destruct (D_row_ok lib Ra Rb ha pa hb pb _ _ _ GL Ea Eb Ba Bb Ha Hb HD Ht) as [_ L]. destruct (L Hle) as (v & Ev & Bv). exists v. split; auto.
  - exists out. split; auto. split; auto. split; auto. intros i t mp m Hi Ei. specialize (B i Hi). rewrite Ei in B. exact B.
Qed.

Lemma C62_SWSH_rotor :
  forall lib Ra Rb s indices values, good_libm lib -> nearly_unit Ra Rb ->
  (0 <= alen indices <= alen values)%Z -> S_rows_ok s indices ->
  exists out, SWSH_core64 lib Ra Rb s indices values = Ok out
    /\ alen out = alen values
    /\ (forall i ell m, (0 <= i < alen indices)%Z -> aget indices i = (ell, m) ->
         ((Z.abs m <= ell)%Z -> (Z.abs s <= ell)%Z ->
            Cmod (aget out i - RtoC (if Z.even s then 1 else -1)%R * RtoC (sqrt (IZR (2 * ell + 1) / (4 * PI))) * Wigner_formula (2 * ell) (2 * m) (2 * - s) Ra Rb)%C
            <= (42 * IZR (2 * ell + 1) * u64 * sqrt (IZR (2 * ell + 1) / (4 * PI)) * 2 ^ Z.to_nat ell)%R)
         /\ (ell < Z.abs m \/ ell < Z.abs s -> aget out i = RtoC 0)%Z)
    /\ (forall i, (alen indices <= i)%Z -> aget out i = aget values i).
Proof.
  intros lib Ra Rb s indices values GL U Hlen Hrows. pose proof u64_pos as Up. pose proof p16 as P16.
  pose proof (nearly_unit_le _ _ U) as Ba. pose proof (nearly_unit_le _ _ (nearly_unit_sym _ _ U)) as Bb.
  destruct (lib_polar lib Ra) as [ha pa] eqn:Ea. destruct (lib_polar lib Rb) as [hb pb] eqn:Eb.
  pose proof GL as ((Gp & Gc) & _).
  set (Q := fun (t2 : Z * Z) v => let '(ell, m) := t2 in
     ((Z.abs m <= ell)%Z -> (Z.abs s <= ell)%Z -> Cmod (v - SWSH_value s ell m Ra Rb)%C <= (42 * IZR (2 * ell + 1) * u64 * swsh_norm ell * 2 ^ Z.to_nat ell)%R)
     /\ (ell < Z.abs m \/ ell < Z.abs s -> v = RtoC 0)%Z).
  destruct (S_core_rows lib Ra Rb ha pa hb pb s Q indices values Ea Eb Hlen) as (out & E & A & B & D).
  - intros i Hi T. unfold T. destruct (aget indices i) as [ell m] eqn:Ei.
    assert (HO : (ell < Z.abs m \/ ell < Z.abs s)%Z \/ (Z.abs m <= ell /\ Z.abs s <= ell)%Z) by lia. destruct HO as [HO|[Hm Hs]].
    { destruct (S_out64 lib Ra Rb ha hb pa pb s ell m HO) as (O1 & O2 & O3 & O4).
      split; [intros _; rewrite O1|]. { split; auto; lia. }
      split; [intros _ _; rewrite O2|]. { split; auto; lia. }
      split; intros; eexists; (split; [eassumption|]); split; auto; lia. }
    pose proof (Hrows i ell m Hi Ei Hm Hs) as Hl.
    assert (T0 : 0 <= IZR ell <= 32) by (split; [apply (IZR_le 0)|apply (IZR_le _ 32)]; lia).
    assert (S1 : 1 <= 2 ^ Z.to_nat ell) by (apply pow_R1_Rle; lra).
    pose proof (swsh_norm_low ell ltac:(lia)) as NL.
    assert (EV : SWSH_value s ell m Ra Rb = (RtoC (swsh_norm ell) * (RtoC (sgn s) * Dm (2 * ell) (ell + m) (ell - s) Ra Rb))%C).
    { rewrite SWSH_value_in by lia. unfold Dv. replace (ell + - s)%Z with (ell - s)%Z by lia. ring. }
    assert (EI : IZR (2 * ell + 1) = 2 * IZR ell + 1) by (rewrite plus_IZR, mult_IZR; ring).
    assert (UN : 0 <= u64 * swsh_norm ell) by (apply Rmult_le_pos; lra).
    assert (Small : forall v, Cmod (v - SWSH_value s ell m Ra Rb)%C <= 42 * (IZR (2 * ell) + 1) * u64 * swsh_norm ell -> Q (ell, m) v).
    { intros v Hv. split; [|lia]. intros _ _. eapply Rle_trans; [exact Hv|]. rewrite plus_IZR.
      assert (K : 0 <= 42 * (IZR (2 * ell) + 1) * u64 * swsh_norm ell).
      { rewrite mult_IZR. apply Rmult_le_pos; [apply Rmult_le_pos; lra|lra]. }
      rewrite <- (Rmult_1_r (42 * (IZR (2 * ell) + 1) * u64 * swsh_norm ell)) at 1. apply Rmult_le_compat_l; lra. }
    rewrite EV in Small.
    split; [|split].
    + intros Ha. apply Small. apply S_a064_ok; auto; try lia. apply (polar_small _ Ra ha pa Gp Ea Ba Ha).
    + intros _ Hb. apply Small. apply S_b064_ok; auto; try lia. apply (polar_small _ Rb hb pb Gp Eb Bb Hb).
    + assert (Big : RN64 epsilon < ha -> RN64 epsilon < hb -> forall v,
        Cmod (v - SWSH_value s ell m Ra Rb)%C <= (74 * IZR ell + 22) * u64 * (swsh_norm ell * Wigner_size (2 * ell) (2 * m) (2 * - s) Ra Rb) + / 2 ^ 600 ->
        Q (ell, m) v).
      { intros Ha Hb v Hv. split; [|lia]. intros _ _. eapply Rle_trans; [exact Hv|].
        destruct (polar_rel _ Ra ha pa Gp Ea Ba Ha) as (_ & B1 & _). destruct (polar_rel _ Rb hb pb Gp Eb Bb Hb) as (_ & B2 & _).
        assert (HD : D_indices (2 * ell) (2 * m) (2 * - s)).
        { unfold D_indices. rewrite <- !Z.mul_add_distr_l, !Z.even_mul. repeat split; auto; lia. }
        pose proof (rotor_size (2 * ell) _ _ Ra Rb U ltac:(lra) ltac:(lra) HD ltac:(lia)) as W. rewrite sqrt2_even in W by lia. pose proof tiny_600 as T6.
        rewrite EI. set (r := 2 ^ Z.to_nat ell) in *. set (w := Wigner_size _ _ _ _ _) in *. set (n := swsh_norm ell) in *.
        replace ((74 * IZR ell + 22) * u64 * (n * w)) with ((74 * IZR ell + 22) * (u64 * n) * w) by ring.
        replace (42 * (2 * IZR ell + 1) * u64 * n * r) with (42 * (2 * IZR ell + 1) * (u64 * n * r)) by ring.
        assert (K0 : 0 <= (74 * IZR ell + 22) * (u64 * n)) by (apply Rmult_le_pos; lra).
        assert (K1 : (74 * IZR ell + 22) * (u64 * n) * w <= (74 * IZR ell + 22) * (u64 * n) * (1001 / 1000 * r)) by (apply Rmult_le_compat_l; lra).
        assert (K2 : u64 * n * 1 <= u64 * n * r) by (apply Rmult_le_compat_l; lra).
        assert (K3 : u64 * / 10 <= u64 * n) by (apply Rmult_le_compat_l; lra).
        assert (K4 : 0 <= IZR ell * (u64 * n * r)) by (apply Rmult_le_pos; lra). lra. }
      split; intros Ha Hb Hle.
      * destruct (S_row_ok lib Ra Rb ha pa hb pb s ell m GL Ea Eb Ba Bb Ha Hb Hm Hs Hl) as [L _]. destruct (L Hle) as (v & Ev & Bv). exists v. split; auto.
      * destruct (S_row_ok lib Ra Rb ha pa hb pb s ell m GL Ea Eb Ba Bb Ha Hb Hm Hs Hl) as [_ L]. destruct (L Hle) as (v & Ev & Bv). exists v. split; auto.
  - exists out. split; auto. split; auto. split; auto. intros i ell m Hi Ei. specialize (B i Hi). rewrite Ei in B. destruct B as [B1 B2]. split; auto.
    intros Hm Hs. specialize (B1 Hm Hs). unfold SWSH_value in B1.
    replace ((Z.abs m <=? ell) && (Z.abs s <=? ell))%Z with true in B1 by (symmetry; apply andb_true_iff; split; apply Z.leb_le; lia). exact B1.
Qed.

(** ** A library that is as accurate as required: exact functions, rounded once *)
Definition round_parts (z : C) : C := (RN64 (Re z), RN64 (Im z)).
Definition rounded_libm : libm :=
  mklibm (fun z => (RN64 (Cmod z), RN64 (phase z))) (fun x y => RN64 (Rpower x y))
         (fun r phi => round_parts (RtoC r * cis phi)%C) (fun z n => round_parts (Cpowz z n)).
Lemma round_parts_err z : Cmod (round_parts z - z)%C <= 2 * u64 * Cmod z + 2 * eta.
Proof.
  pose proof (RN64_err (Re z)) as A. pose proof (RN64_err (Im z)) as B. pose proof u64_pos.
  pose proof (Rmax_Cmod z). pose proof (Rmax_l (Rabs (fst z)) (Rabs (snd z))). pose proof (Rmax_r (Rabs (fst z)) (Rabs (snd z))).
  assert (Ra : Rabs (Re z) <= Cmod z) by (unfold Re; lra). assert (Rb : Rabs (Im z) <= Cmod z) by (unfold Im; lra).
  replace (round_parts z - z)%C with (RtoC (RN64 (Re z) - Re z) + Ci * RtoC (RN64 (Im z) - Im z))%C.
  - eapply Rle_trans; [apply Cmod_triangle|]. rewrite Cmod_mult, !Cmod_R.
    assert (MI : Cmod Ci = 1) by (unfold Cmod, Ci; cbn; replace (0 * (0 * 1) + 1 * (1 * 1)) with 1 by ring; apply sqrt_1). rewrite MI, Rmult_1_l.
    assert (u64 * Rabs (Re z) <= u64 * Cmod z) by (apply Rmult_le_compat_l; lra).
    assert (u64 * Rabs (Im z) <= u64 * Cmod z) by (apply Rmult_le_compat_l; lra). lra.
  - destruct z as [x y]. apply injective_projections; cbn; ring.
Qed.
Lemma atan_sign x : (0 <= x -> 0 <= atan x) /\ (x <= 0 -> atan x <= 0).
Proof.
  split; intros [H|H].
  - left. rewrite <- atan_0. apply atan_increasing; auto.
  - rewrite <- H, atan_0. lra.
  - left. rewrite <- atan_0. apply atan_increasing; auto.
  - rewrite H, atan_0. lra.
Qed.
Lemma phase_le z : Rabs (phase z) <= PI.
Proof.
  destruct z as [x y]. unfold phase, atan2. cbn [Re Im fst snd]. pose proof PI_RGT_0. pose proof (atan_bound (y / x)) as B. destruct (atan_sign (y / x)) as [A1 A2].
  destruct (Rlt_dec 0 x); [apply Rabs_le; lra|]. destruct (Rlt_dec x 0).
  - destruct (Rle_dec 0 y).
    + assert (y / x <= 0).
      { unfold Rdiv. rewrite <- (Rmult_0_r y). apply Rmult_le_compat_l; auto. left. apply Rinv_lt_0_compat; auto. }
      specialize (A2 H0). apply Rabs_le; lra.
    + assert (0 <= y / x).
      { replace (y / x) with (- y * / - x) by (field; lra). apply Rmult_le_pos; [lra|]. left. apply Rinv_0_lt_compat. lra. }
      specialize (A1 H0). apply Rabs_le; lra.
  - destruct (Rlt_dec 0 y); [apply Rabs_le; lra|]. destruct (Rlt_dec y 0); apply Rabs_le; lra.
Qed.
Lemma rounded_libm_good : good_libm rounded_libm.
Proof.
  pose proof u64_pos as U. pose proof eta_pos as E0. pose proof eta_small as E1. pose proof PI_bounds as PB.
  assert (T : tiny64 = 2 * eta) by apply tiny_eta.
  split; [split|split]; unfold rounded_libm; cbn [lib_polar lib_pow lib_rect lib_cpow].
  - intros z Hz. cbn [fst snd]. split.
    + pose proof (RN64_err (Cmod z)) as A. pose proof (Cmod_ge_0 z). rewrite (Rabs_pos_eq (Cmod z)) in A by auto. rewrite T.
      assert (0 <= u64 * Cmod z) by (apply Rmult_le_pos; lra). lra.
    + exists (phase z). split; [symmetry; apply polar_spec|]. split; [apply phase_le|]. pose proof (RN64_err (phase z)) as A. pose proof (phase_le z).
      assert (u64 * Rabs (phase z) <= u64 * 4) by (apply Rmult_le_compat_l; lra).
      assert (eta <= u64) by (eapply Rle_trans; [exact E1|]; unfold Rdiv; rewrite <- (Rmult_1_r u64) at 2; apply Rmult_le_compat_l; [lra|]; simpl; lra). lra.
  - intros z n Hz Hn. pose proof (round_parts_err (Cpowz z n)) as A.
    assert (Z0 : z <> RtoC 0) by (intros ->; rewrite Cmod_0 in Hz; lra).
    assert (M : Cmod (Cpowz z n) = powerRZ (Cmod z) n).
    { rewrite Cpowz_polar by auto. rewrite Cmod_mult, Cmod_cis, Cmod_R, Rabs_pos_eq by (left; apply powerRZ_lt; lra). ring. }
    assert (Lo : / 2 ^ 64 <= powerRZ (Cmod z) n).
    { destruct (Z_le_gt_dec 0 n).
      - rewrite <- pow_powerRZ by lia. apply Rle_trans with ((/ 2) ^ Z.to_nat n).
        + rewrite pow_inv. apply Rinv_le_contravar; [apply pow_lt; lra|]. apply Rle_pow; [lra|lia].
        + apply pow_incr. lra.
      - replace n with (- - n)%Z by lia. rewrite powerRZ_neg', <- pow_powerRZ by lia. apply Rinv_le_contravar; [apply pow_lt; lra|].
        apply Rle_trans with (2 ^ Z.to_nat (- n)); [apply pow_incr; lra|apply Rle_pow; [lra|lia]]. }
    rewrite M in *. eapply Rle_trans; [exact A|]. assert (K : 0 <= IZR (Z.abs n)) by (apply (IZR_le 0); lia).
    set (w := powerRZ (Cmod z) n) in *.
    assert (eta <= u64 * w).
    { eapply Rle_trans; [exact E1|]. unfold Rdiv. apply Rmult_le_compat_l; [lra|]. eapply Rle_trans; [|exact Lo]. simpl. lra. }
    assert (0 <= IZR (Z.abs n) * (u64 * w)) by (apply Rmult_le_pos; lra). lra.
  - intros x n Hx Hn. rewrite <- powerRZ_Rpower by lra. pose proof (RN64_err (powerRZ x n)) as A.
    assert (P : 0 < powerRZ x n) by (apply powerRZ_lt; lra). rewrite (Rabs_pos_eq (powerRZ x n)) in A by lra. rewrite T.
    assert (K : 0 <= IZR n) by (apply (IZR_le 0); lia). set (w := powerRZ x n) in *.
    assert (0 <= u64 * w) by (apply Rmult_le_pos; lra). assert (0 <= IZR n * (u64 * w)) by (apply Rmult_le_pos; lra). lra.
  - intros r phi Hr Hphi. pose proof (round_parts_err (RtoC r * cis phi)%C) as A. rewrite (Cmod_mult (RtoC r)), Cmod_cis, Cmod_R, Rmult_1_r in A. rewrite T.
    assert (0 <= u64 * Rabs r) by (apply Rmult_le_pos; [lra|apply Rabs_pos]). lra.
Qed.
