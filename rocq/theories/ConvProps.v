Require Import ZArith Lia Reals Lra Bool.
From Coquelicot Require Import Complex.
From Verif Require Import Base BaseProofs CBase IndexModel IndexProofs ConvModel ConvProofs.
Open Scope Z_scope.

Lemma sqrt2_nz : RtoC (sqrt 2) <> RtoC 0.
Proof. apply RtoC_neq0, sqrt_nz; lra. Qed.

(** The relation between the square roots in the harmonics and in the conversions. *)
Lemma sq_c0 : (sqrt (4 * PI) * sqrt (1 / (4 * PI)) = 1)%R.
Proof.
  pose proof PI_RGT_0. rewrite <- sqrt_mult_alt by lra.
  replace (4 * PI * (1 / (4 * PI)))%R with 1%R by (field; lra). apply sqrt_1.
Qed.
Lemma sq_c1 : (sqrt (4 * PI / 3) * sqrt (3 / (4 * PI)) = 1)%R.
Proof.
  pose proof PI_RGT_0. rewrite <- sqrt_mult_alt by lra.
  replace (4 * PI / 3 * (3 / (4 * PI)))%R with 1%R by (field; lra). apply sqrt_1.
Qed.
Lemma sq_c2 : (sqrt (2 * PI / 3) * sqrt (3 / (8 * PI)) = 1 / 2)%R.
Proof.
  pose proof PI_RGT_0. rewrite <- sqrt_mult_alt by lra.
  replace (2 * PI / 3 * (3 / (8 * PI)))%R with ((1 / 2) * (1 / 2))%R by (field; lra).
  apply sqrt_square; lra.
Qed.

Lemma C10_constant_function c : (constant_as_ell_0_mode c * RtoC (sqrt (1 / (4 * PI))))%C = c.
Proof.
  unfold constant_as_ell_0_mode. rewrite <- Cmult_assoc, <- RtoC_mult, sq_c0. ring.
Qed.

Lemma C10_vector_function (x y z : C) (theta phi : R) :
  let '(a, b, d) := vector_as_ell_1_modes (x, y, z) in
  (a * (RtoC (sqrt (3 / (8 * PI)) * sin theta) * cis (- phi))
   + b * RtoC (sqrt (3 / (4 * PI)) * cos theta)
   + d * (RtoC (- sqrt (3 / (8 * PI)) * sin theta) * cis phi)
   = x * RtoC (sin theta * cos phi) + y * RtoC (sin theta * sin phi) + z * RtoC (cos theta))%C.
Proof.
  unfold vector_as_ell_1_modes.
  pose proof sq_c1 as E1. pose proof sq_c2 as E2.
  set (p := sqrt (2 * PI / 3)) in *. set (q := sqrt (3 / (8 * PI))) in *.
  set (u := sqrt (4 * PI / 3)) in *. set (w := sqrt (3 / (4 * PI))) in *.
  unfold cis. rewrite cos_neg, sin_neg.
  destruct x as [x1 x2], y as [y1 y2], z as [z1 z2].
  apply C_eq; simpl.
  - transitivity ((p * q) * (2 * (sin theta * (x1 * cos phi + y1 * sin phi))) + (u * w) * (z1 * cos theta))%R.
    + ring.
    + rewrite E1, E2. field.
  - transitivity ((p * q) * (2 * (sin theta * (x2 * cos phi + y2 * sin phi))) + (u * w) * (z2 * cos theta))%R.
    + ring.
    + rewrite E1, E2. field.
Qed.

(** C11: mode-by-mode factor. *)
Lemma C11_factors modes s ell_min ell_max :
  0 <= ell_min <= ell_max + 1 -> alen modes = LM_total_size ell_min ell_max ->
  exists e eb eG ebG,
    eth_NP modes s ell_min = Ok e /\ ethbar_NP modes s ell_min = Ok eb
    /\ eth_GHP modes s ell_min = Ok eG /\ ethbar_GHP modes s ell_min = Ok ebG
    /\ alen e = alen modes /\ alen eb = alen modes /\ alen eG = alen modes /\ alen ebG = alen modes
    /\ forall ell m, ell_min <= ell <= ell_max -> - ell <= m <= ell ->
       let k := LM_index ell m ell_min in
       (Z.abs (s + 1) <= ell ->
          aget e k = (RtoC (sqrt ((IZR ell - IZR s) * (IZR ell + IZR s + 1))) * aget modes k)%C)
       /\ (ell < Z.abs (s + 1) -> aget e k = RtoC 0)
       /\ (Z.abs (s - 1) <= ell ->
          aget eb k = (- (RtoC (sqrt ((IZR ell + IZR s) * (IZR ell - IZR s + 1))) * aget modes k))%C)
       /\ (ell < Z.abs (s - 1) -> aget eb k = RtoC 0)
       /\ aget eG k = (aget e k / RtoC (sqrt 2))%C
       /\ aget ebG k = (aget eb k / RtoC (sqrt 2))%C.
Proof.
  intros H L.
  destruct (scale_loop_ok (eth_NP_factor s) ell_min ell_max modes H L) as (e & Ee & Le & He).
  destruct (scale_loop_ok (ethbar_NP_factor s) ell_min ell_max modes H L) as (b & Eb & Lb & Hb).
  destruct (scale_loop_ok (eth_GHP_factor s) ell_min ell_max modes H L) as (g & Eg & Lg & Hg).
  destruct (scale_loop_ok (ethbar_GHP_factor s) ell_min ell_max modes H L) as (h & Eh & Lh & Hh).
  exists e, b, g, h. do 8 (split; [auto|]).
  intros ell m Hl Hm k. subst k. rewrite He, Hb, Hg, Hh by auto.
  rewrite eth_factor_GHP, ethbar_factor_GHP.
  pose proof sqrt2_nz. assert (sqrt 2 <> 0)%R by (apply sqrt_nz; lra).
  unfold eth_NP_factor, ethbar_NP_factor.
  rewrite <- !minus_IZR, <- !plus_IZR.
  split; [|split; [|split; [|split]]]; try (intros HH).
  - destruct (Z.ltb_spec ell (Z.abs (s + 1))); [lia|]. ring.
  - destruct (Z.ltb_spec ell (Z.abs (s + 1))); [|lia]. ring.
  - destruct (Z.ltb_spec ell (Z.abs (s - 1))); [lia|]. rewrite RtoC_opp. ring.
  - destruct (Z.ltb_spec ell (Z.abs (s - 1))); [|lia]. ring.
  - rewrite !RtoC_div by auto. split; field; auto.
Qed.

Lemma C11_commutator modes s ell_min ell_max :
  0 <= ell_min <= ell_max + 1 -> alen modes = LM_total_size ell_min ell_max ->
  (forall ell m, ell_min <= ell <= ell_max -> - ell <= m <= ell -> ell < Z.abs s ->
     aget modes (LM_index ell m ell_min) = RtoC 0) ->
  exists e eb ebe eeb,
    eth_NP modes s ell_min = Ok e /\ ethbar_NP modes s ell_min = Ok eb
    /\ ethbar_NP e (s + 1) ell_min = Ok ebe /\ eth_NP eb (s - 1) ell_min = Ok eeb
    /\ forall ell m, ell_min <= ell <= ell_max -> - ell <= m <= ell ->
       let k := LM_index ell m ell_min in
       aget ebe k = (RtoC (- ((IZR ell - IZR s) * (IZR ell + IZR s + 1))) * aget modes k)%C
       /\ (aget ebe k - aget eeb k = RtoC (2 * IZR s) * aget modes k)%C.
Proof.
  intros H L Hz.
  destruct (scale_loop_ok (eth_NP_factor s) ell_min ell_max modes H L) as (e & Ee & Le & He).
  destruct (scale_loop_ok (ethbar_NP_factor s) ell_min ell_max modes H L) as (b & Eb & Lb & Hb).
  destruct (scale_loop_ok (ethbar_NP_factor (s + 1)) ell_min ell_max e H) as (g & Eg & Lg & Hg); [congruence|].
  destruct (scale_loop_ok (eth_NP_factor (s - 1)) ell_min ell_max b H) as (h & Eh & Lh & Hh); [congruence|].
  exists e, b, g, h. do 4 (split; [auto|]).
  intros ell m Hl Hm k. subst k. rewrite Hg, Hh, He, Hb by auto.
  rewrite <- !Cmult_assoc, <- !RtoC_mult.
  destruct (Z_lt_ge_dec ell (Z.abs s)) as [Hs|Hs].
  - rewrite (Hz ell m Hl Hm Hs). split; ring.
  - rewrite ethbar_eth_factor, eth_ethbar_factor by lia.
    rewrite !RtoC_mult, !RtoC_opp, !RtoC_mult, !RtoC_plus, !RtoC_minus. split; ring.
Qed.

Lemma term_pos ell s : 0 <= ell -> Z.abs s <= ell -> Z.abs (s + 1) <= ell ->
  (0 < IZR (ell + s + 1) * IZR (ell - s))%R.
Proof. intros. apply Rmult_lt_0_compat; apply IZR_lt; lia. Qed.

Lemma C12_left modes s ell_min ell_max :
  0 <= ell_min <= ell_max + 1 -> alen modes = LM_total_size ell_min ell_max ->
  exists d i, ethbar_NP modes (s + 1) ell_min = Ok d /\ ethbar_inverse_NP d s ell_min = Ok i
    /\ forall ell m, ell_min <= ell <= ell_max -> - ell <= m <= ell ->
       Z.abs s <= ell -> Z.abs (s + 1) <= ell ->
       aget i (LM_index ell m ell_min) = aget modes (LM_index ell m ell_min).
Proof.
  intros H L.
  destruct (scale_loop_ok (ethbar_NP_factor (s + 1)) ell_min ell_max modes H L) as (d & Ed & Ld & Hd).
  destruct (inverse_loop_ok s ell_min ell_max d H) as (i & Ei & Li & Hi); [congruence|].
  exists d, i. do 2 (split; [auto|]). intros ell m Hl Hm H1 H2.
  rewrite Hi, Hd by auto. pose proof (term_pos ell s ltac:(lia) H1 H2) as T.
  destruct (Rlt_dec _ _); [|lra]. unfold ethbar_NP_factor.
  replace (s + 1 - 1) with s by lia. destruct (Z.ltb_spec ell (Z.abs s)); [lia|].
  replace (ell - (s + 1) + 1) with (ell - s) by lia. replace (ell + (s + 1)) with (ell + s + 1) by lia.
  field. apply RtoC_neq0. pose proof (sqrt_nz _ T). lra.
Qed.

Lemma C12_right modes s ell_min ell_max :
  0 <= ell_min <= ell_max + 1 -> alen modes = LM_total_size ell_min ell_max ->
  exists d i, ethbar_inverse_NP modes s ell_min = Ok i /\ ethbar_NP i (s + 1) ell_min = Ok d
    /\ forall ell m, ell_min <= ell <= ell_max -> - ell <= m <= ell ->
       Z.abs s <= ell -> Z.abs (s + 1) <= ell ->
       aget d (LM_index ell m ell_min) = aget modes (LM_index ell m ell_min).
Proof.
  intros H L.
  destruct (inverse_loop_ok s ell_min ell_max modes H L) as (i & Ei & Li & Hi).
  destruct (scale_loop_ok (ethbar_NP_factor (s + 1)) ell_min ell_max i H) as (d & Ed & Ld & Hd); [congruence|].
  exists d, i. do 2 (split; [auto|]). intros ell m Hl Hm H1 H2.
  rewrite Hd, Hi by auto. pose proof (term_pos ell s ltac:(lia) H1 H2) as T.
  destruct (Rlt_dec _ _); [|lra]. unfold ethbar_NP_factor.
  replace (s + 1 - 1) with s by lia. destruct (Z.ltb_spec ell (Z.abs s)); [lia|].
  replace (ell - (s + 1) + 1) with (ell - s) by lia. replace (ell + (s + 1)) with (ell + s + 1) by lia.
  field. apply RtoC_neq0. pose proof (sqrt_nz _ T). lra.
Qed.

(** Outside that range the round trip does lose the mode: [ell = s] is annihilated. *)
Lemma C12_kernel : exists modes d i,
  alen modes = LM_total_size 0 0
  /\ ethbar_inverse_NP modes 0 0 = Ok i /\ ethbar_NP i 1 0 = Ok d
  /\ aget d (LM_index 0 0 0) <> aget modes (LM_index 0 0 0).
Proof.
  set (modes := mkarr 1 (fun _ => RtoC 1)).
  assert (L : alen modes = LM_total_size 0 0) by reflexivity.
  destruct (inverse_loop_ok 0 0 0 modes ltac:(lia) L) as (i & Ei & Li & Hi).
  destruct (scale_loop_ok (ethbar_NP_factor 1) 0 0 i ltac:(lia)) as (d & Ed & Ld & Hd); [congruence|].
  exists modes, d, i. repeat split; auto.
  rewrite Hd by lia. unfold ethbar_NP_factor. simpl Z.ltb. cbv iota.
  replace (- sqrt (IZR (0 + 1) * IZR (0 - 1 + 1)))%R with 0%R
    by (replace (IZR (0 + 1) * IZR (0 - 1 + 1))%R with 0%R by (simpl; ring); rewrite sqrt_0; ring).
  rewrite Cmult_0_r. intros E. apply C1_neq_C0. symmetry; exact E.
Qed.
