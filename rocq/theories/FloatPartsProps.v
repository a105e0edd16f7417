(** Real and imaginary part of Modes in double precision: the statements. *)
Require Import ZArith Lia List Reals Lra Bool Permutation.
From Flocq Require Import Core.
From Coquelicot Require Import Complex.
From Verif Require Import Base BaseProofs CBase CSum RSum Fact IndexModel IndexProofs PowersModel DRep WignerModel SWSHModel SWSHProofs ModesModel ModesSpec ModesProofs ModesProofs2
  FloatIndexModel FloatIndexProofs FloatPowersModel FloatPowersSpec FloatPowersProofs FloatPowersProps FloatConvModel FloatConvSpec FloatConvProofs FloatConvProps
  FloatModesModel FloatModesSpec FloatPartsModel FloatPartsSpec FloatPartsProofs.
Import ListNotations.
Set Bullet Behavior "Strict Subproofs".
Open Scope Z_scope.

Lemma C68_conjugate :
  forall h f, wf h f -> stored h f ->
  exists h' r, conjugate h f false = Ok (h', r)
    /\ forall idx ell m, at_index (lead (nd f)) idx -> 0 <= ell <= ellmax (md f) -> - ell <= m <= ell ->
         is_double (Re (mode h' r idx ell m)) /\ is_double (Im (mode h' r idx ell m)).
Proof.
  intros h f W SD. destruct (conjugate_new h f W) as (h' & r & E & (_ & _ & _ & _ & _ & _ & _ & M) & _).
  exists h', r. split; [exact E|]. intros idx ell m Hi He Hm. rewrite M by auto. unfold conj_data, sgn.
  destruct (SD idx (ell * ell + (ell + - m))) as (Dr & Di). fold (mode h f idx ell (- m)) in Dr, Di.
  set (x := mode h f idx ell (- m)) in *. clearbody x. destruct x as [a b]. cbn [Re Im fst snd] in *.
  assert (Dr' := is_double_opp _ Dr). assert (Di' := is_double_opp _ Di).
  destruct (Z.even _); unfold Re, Im; cbn.
  - replace (1 * a - 0 * - b)%R with a by ring. replace (1 * - b + 0 * a)%R with (- b)%R by ring. auto.
  - replace (-1 * a - 0 * - b)%R with (- a)%R by ring. replace (-1 * - b + 0 * a)%R with b by ring. auto.
Qed.

Lemma C68_real :
  forall w h f, wf h f -> spin (md f) = 0 -> stored h f ->
  exists h' r he re, real_func64 w h f false = Ok (h', r) /\ real_func h f false = Ok (he, re) /\ md r = md re
    /\ new_modes h h' r 0 (ellmax (md f)) (lead (nd f)) (fun idx ell m => rounded (mode he re idx ell m)).
Proof.
  intros w h f W S0 SD. destruct (real64_new w h f W S0 SD) as (h' & r & E & (N1 & N2 & N3 & N4 & N5 & N6 & N7 & M) & T).
  destruct (real_new h f W S0) as (he & re & Ee & (_ & _ & _ & Es & EL & _ & _ & Me) & Te).
  exists h', r, he, re. split; [exact E|]. split; [exact Ee|]. split.
  { rewrite T. destruct (md f) as [s1 l1 t1], (md re) as [s2 l2 t2]. cbn [spin ellmax truncator] in *. congruence. }
  do 7 (split; [assumption|]). intros idx ell m Hi He Hm. rewrite M, Me by auto. reflexivity.
Qed.

Lemma C68_imag :
  forall w h f, good_parts_way w -> wf h f -> spin (md f) = 0 -> stored h f ->
  exists h' r he im, imag_func64 w h f false = Ok (h', r) /\ imag_func h f false = Ok (he, im) /\ md r = md im
    /\ new_modes h h' r 0 (ellmax (md f)) (lead (nd f)) (fun idx ell m => rounded (mode he im idx ell m)).
Proof.
  intros w h f GW W S0 SD. destruct (imag64_new w h f GW W S0 SD) as (h' & r & E & (N1 & N2 & N3 & N4 & N5 & N6 & N7 & M) & T).
  destruct (imag_new h f W S0) as (he & re & Ee & (_ & _ & _ & Es & EL & _ & _ & Me) & Te).
  exists h', r, he, re. split; [exact E|]. split; [exact Ee|]. split.
  { rewrite T. destruct (md f) as [s1 l1 t1], (md re) as [s2 l2 t2]. cbn [spin ellmax truncator] in *. congruence. }
  do 7 (split; [assumption|]). intros idx ell m Hi He Hm. rewrite M, Me by auto. reflexivity.
Qed.

Lemma C68_inplace :
  forall w h f, good_parts_way w -> wf h f -> spin (md f) = 0 -> stored h f ->
  exists h1 r1 h2 i1 h3 h4, real_func64 w h f false = Ok (h1, r1) /\ imag_func64 w h f false = Ok (h2, i1)
    /\ real_func64 w h f true = Ok (h3, f) /\ imag_func64 w h f true = Ok (h4, f)
    /\ same_modes f (mode h3 f) (mode h1 r1) /\ same_modes f (mode h4 f) (mode h2 i1)
    /\ changes_only (buf (nd f)) h h3 /\ changes_only (buf (nd f)) h h4.
Proof.
  intros w h f GW W S0 SD. destruct (real64_new w h f W S0 SD) as (h1 & r1 & E1 & (_ & _ & _ & _ & _ & _ & _ & M1) & _).
  destruct (imag64_new w h f GW W S0 SD) as (h2 & i1 & E2 & (_ & _ & _ & _ & _ & _ & _ & M2) & _).
  destruct (real64_inplace w h f W S0 SD) as (h3 & E3 & Co3 & _ & _ & M3). destruct (imag64_inplace w h f GW W S0 SD) as (h4 & E4 & Co4 & _ & M4).
  exists h1, r1, h2, i1, h3, h4. do 4 (split; [assumption|]).
  split; [intros idx ell mm Hi He Hm; rewrite M1, M3 by auto; reflexivity|].
  split; [intros idx ell mm Hi He Hm; rewrite M2, M4 by auto; reflexivity|]. split; [exact Co3|exact Co4].
Qed.

Lemma C68_real_valued :
  forall w h f, good_parts_way w -> wf h f -> spin (md f) = 0 -> stored h f ->
  exists h1 r1 h2 i1, real_func64 w h f false = Ok (h1, r1) /\ imag_func64 w h f false = Ok (h2, i1)
    /\ real_valued f (mode h1 r1) /\ real_valued f (mode h2 i1).
Proof.
  intros w h f GW W S0 SD. destruct (real64_new w h f W S0 SD) as (h1 & r1 & E1 & (_ & _ & _ & _ & _ & _ & _ & M1) & _).
  destruct (imag64_new w h f GW W S0 SD) as (h2 & i1 & E2 & (_ & _ & _ & _ & _ & _ & _ & M2) & _).
  exists h1, r1, h2, i1. split; [exact E1|]. split; [exact E2|]. split; intros idx ell m Hi He Hm.
  - rewrite !M1 by (auto; lia). unfold real_data. rewrite Z.opp_involutive, sgn_opp. unfold sgn.
    destruct (Z.even m); rewrite <- ?rounded_conj, <- ?rounded_opp; f_equal; rewrite Cconj_half, Cconj_plus, Cconj_mult, Cconj_RtoC, Cconj_conj; unfold Cdiv; ring.
  - rewrite !M2 by (auto; lia). unfold imag_data. rewrite Z.opp_involutive, sgn_opp. unfold sgn.
    destruct (Z.even m); rewrite <- ?rounded_conj, <- ?rounded_opp; f_equal;
    rewrite Cconj_half, Cconj_mult, Cconj_opp, Cconj_Ci, Cconj_minus, Cconj_mult, Cconj_RtoC, Cconj_conj; unfold Cdiv; ring.
Qed.

Lemma C68_fixed :
  forall w h f, good_parts_way w -> wf h f -> spin (md f) = 0 -> stored h f -> real_valued f (mode h f) ->
  exists h1 r1 h2 i1, real_func64 w h f false = Ok (h1, r1) /\ imag_func64 w h f false = Ok (h2, i1)
    /\ same_modes f (mode h1 r1) (mode h f) /\ same_modes f (mode h2 i1) (fun _ _ _ => RtoC 0).
Proof.
  intros w h f GW W S0 SD RV. destruct (real64_new w h f W S0 SD) as (h1 & r1 & E1 & (_ & _ & _ & _ & _ & _ & _ & M1) & _).
  destruct (imag64_new w h f GW W S0 SD) as (h2 & i1 & E2 & (_ & _ & _ & _ & _ & _ & _ & M2) & _).
  exists h1, r1, h2, i1. split; [exact E1|]. split; [exact E2|].
  assert (S : forall idx ell m, at_index (lead (nd f)) idx -> 0 <= ell <= ellmax (md f) -> - ell <= m <= ell ->
            (RtoC (sgn m) * Cconj (mode h f idx ell (- m)))%C = mode h f idx ell m).
  { intros idx ell m Hi He Hm. rewrite (RV idx ell m) by auto. unfold sgn. destruct (Z.even m); rewrite ?Cconj_opp, Cconj_conj; ring. }
  split; intros idx ell m Hi He Hm.
  - rewrite M1 by auto. unfold real_data. rewrite S by auto.
    replace ((mode h f idx ell m + mode h f idx ell m) / RtoC 2)%C with (mode h f idx ell m) by (field; apply RtoC2_neq0).
    apply rounded_dbl. apply SD.
  - rewrite M2 by auto. unfold imag_data. rewrite S by auto.
    replace (- Ci * (mode h f idx ell m - mode h f idx ell m) / RtoC 2)%C with (RtoC 0) by (unfold Cdiv; ring). apply rounded_R. apply RN64_0.
Qed.

(** Both parts together give back the modes, up to the roundings *)
Lemma half_err a b : (Rabs (RN64 ((a + b) / 2) + RN64 ((a - b) / 2) - a) <= u64 * Rmax (Rabs a) (Rabs b) + tiny64)%R.
Proof.
  pose proof (RN64_err ((a + b) / 2)) as H1. pose proof (RN64_err ((a - b) / 2)) as H2. pose proof u64_pos as U.
  set (p := RN64 _) in *. set (q := RN64 ((a - b) / 2)) in *. clearbody p q.
  assert (M : (Rabs ((a + b) / 2) + Rabs ((a - b) / 2) <= Rmax (Rabs a) (Rabs b))%R).
  { unfold Rmax. destruct (Rle_dec (Rabs a) (Rabs b)) as [L|L]; revert L; unfold Rabs; repeat destruct (Rcase_abs _); lra. }
  assert (M' : (u64 * Rabs ((a + b) / 2) + u64 * Rabs ((a - b) / 2) <= u64 * Rmax (Rabs a) (Rabs b))%R).
  { rewrite <- Rmult_plus_distr_l. apply Rmult_le_compat_l; lra. }
  replace (p + q - a)%R with ((p - (a + b) / 2) + (q - (a - b) / 2))%R by field.
  eapply Rle_trans; [apply Rabs_triang|]. rewrite tiny_eta. lra.
Qed.

Lemma real_parts e a b c d : (((a, b) + RtoC e * Cconj (c, d)) / RtoC 2)%C = ((a + e * c) / 2, (b - e * d) / 2)%R.
Proof. apply C_eq; unfold Re, Im; cbn; field. Qed.
Lemma imag_parts e a b c d : (- Ci * ((a, b) - RtoC e * Cconj (c, d)) / RtoC 2)%C = ((b + e * d) / 2, - ((a - e * c) / 2))%R.
Proof. apply C_eq; unfold Re, Im; cbn; field. Qed.

Lemma C68_together :
  forall w h f, good_parts_way w -> wf h f -> spin (md f) = 0 -> stored h f ->
  exists h1 r1 h2 i1, real_func64 w h f false = Ok (h1, r1) /\ imag_func64 w h f false = Ok (h2, i1)
    /\ forall idx ell m, at_index (lead (nd f)) idx -> 0 <= ell <= ellmax (md f) -> - ell <= m <= ell ->
         let x := mode h f idx ell m in let y := mode h f idx ell (- m) in
         let z := (mode h1 r1 idx ell m + Ci * mode h2 i1 idx ell m)%C in
         (Rabs (Re z - Re x) <= u64 * Rmax (Rabs (Re x)) (Rabs (Re y)) + tiny64
          /\ Rabs (Im z - Im x) <= u64 * Rmax (Rabs (Im x)) (Rabs (Im y)) + tiny64)%R.
Proof.
  intros w h f GW W S0 SD. destruct (real64_new w h f W S0 SD) as (h1 & r1 & E1 & (_ & _ & _ & _ & _ & _ & _ & M1) & _).
  destruct (imag64_new w h f GW W S0 SD) as (h2 & i1 & E2 & (_ & _ & _ & _ & _ & _ & _ & M2) & _).
  exists h1, r1, h2, i1. split; [exact E1|]. split; [exact E2|]. intros idx ell m Hi He Hm. rewrite M1, M2 by auto.
  unfold real_data, imag_data. cbv zeta. set (x := mode h f idx ell m). set (y := mode h f idx ell (- m)). clearbody x y.
  destruct x as [a b], y as [c d]. rewrite real_parts, imag_parts. unfold rounded. cbn [Re Im fst snd]. rewrite RN64_opp.
  assert (A : forall t, Rabs (sgn m * t) = Rabs t) by (intros t; rewrite Rabs_mult; replace (Rabs (sgn m)) with 1%R; [ring|]; unfold sgn;
    destruct (Z.even m); unfold Rabs; destruct (Rcase_abs _); lra).
  pose proof (half_err a (sgn m * c)) as P. pose proof (half_err b (sgn m * d)) as Q. rewrite A in P, Q.
  split; [eapply Rle_trans; [|exact P]|eapply Rle_trans; [|exact Q]]; right; f_equal; unfold Re, Im; cbn; ring.
Qed.

Lemma C68_twice :
  forall w h f, wf h f -> spin (md f) = 0 -> stored h f ->
  exists h1 h2, real_func64 w h f true = Ok (h1, f) /\ stored h1 f /\ real_func64 w h1 f true = Ok (h2, f)
    /\ same_modes f (mode h2 f) (mode h1 f).
Proof.
  intros w h f W S0 SD. destruct (real64_inplace w h f W S0 SD) as (h1 & E1 & _ & W1 & SD1 & M1).
  destruct (real64_inplace w h1 f W1 S0 SD1) as (h2 & E2 & _ & _ & _ & M2).
  exists h1, h2. split; [exact E1|]. split; [exact SD1|]. split; [exact E2|].
  intros idx ell m Hi He Hm. rewrite M2 by auto.
  transitivity (rounded (mode h1 f idx ell m)); [f_equal|apply rounded_dbl, SD1].
  unfold real_data at 1. rewrite !M1 by lia. rewrite <- rounded_conj.
  assert (E : (RtoC (sgn m) * rounded (Cconj (real_data h f idx ell (- m))))%C = rounded (real_data h f idx ell m)).
  { unfold real_data. rewrite Z.opp_involutive, sgn_opp. unfold sgn.
    destruct (Z.even m); [rewrite Cmult_1_l|match goal with |- (RtoC (-1) * ?z)%C = _ => replace (RtoC (-1) * z)%C with (- z)%C by ring end;
      rewrite <- rounded_opp]; f_equal; rewrite Cconj_half, Cconj_plus, Cconj_mult, Cconj_RtoC, Cconj_conj; unfold Cdiv; ring. }
  rewrite E. field. apply RtoC2_neq0.
Qed.

(** 1 and 2^-60 cannot be averaged exactly *)
Definition parts_heap : heap := mkheap 1 (fun _ _ k => if k =? 0 then (1, 2)%R else if k =? 1 then (- / 2 ^ 60, 0)%R else if k =? 2 then (3, -1)%R else RtoC 1).
Definition parts_modes : modes := mkmodes (mknd 0 [] 4) (mkmeta 0 1 None).
Definition parts_ways : parts_way := mkpw (fun _ k => if k =? 3 then (Fused 1 (Prod 0), Plus (Prod 0) (Prod 1)) else (Plus (Prod 1) (Prod 0), Fused 0 (Prod 1)))
  (fun _ k => (k =? 3, false, true)).
Lemma RN64_near_half : RN64 ((1 + / 2 ^ 60) / 2) = (1 / 2)%R.
Proof.
  unfold RN64, round, F2R, scaled_mantissa, cexp. cbn [Fnum Fexp].
  assert (E : mag radix2 ((1 + / 2 ^ 60) / 2) = 0 :> Z).
  { apply mag_unique. change (bpow radix2 (0 - 1)) with (/ 2)%R. change (bpow radix2 0) with 1%R.
    rewrite Rabs_pos_eq; simpl; lra. }
  rewrite E. change (FLT_exp (-1074) 53 0) with (-53).
  replace (bpow radix2 (- (-53))) with (2 ^ 53)%R by (change (- (-53)) with 53; rewrite bpow_powerRZ; simpl; lra).
  replace (ZnearestE ((1 + / 2 ^ 60) / 2 * 2 ^ 53)) with (2 ^ 52).
  - change (bpow radix2 (-53)) with (/ IZR (Z.pow_pos 2 53))%R. change (Z.pow_pos 2 53) with 9007199254740992. change (2 ^ 52) with 4503599627370496. lra.
  - symmetry. apply Znearest_imp. change (2 ^ 52) with 4503599627370496. unfold Rabs. destruct (Rcase_abs _); simpl; lra.
Qed.
Lemma C68_example :
  wf parts_heap parts_modes /\ spin (md parts_modes) = 0 /\ stored parts_heap parts_modes /\ good_parts_way parts_ways
  /\ exists h r he re, real_func64 parts_ways parts_heap parts_modes false = Ok (h, r) /\ real_func parts_heap parts_modes false = Ok (he, re)
     /\ mode h r [] 1 1 = RtoC (1 / 2) /\ mode he re [] 1 1 = RtoC ((1 + / 2 ^ 60) / 2).
Proof.
  assert (W : wf parts_heap parts_modes). { split; [cbn; lia|]. split; [reflexivity|]. cbn. lia. }
  assert (D60 : is_double (/ 2 ^ 60)).
  { apply round_generic; [apply valid_rnd_N|]. replace (/ 2 ^ 60)%R with (bpow radix2 (-60)) by (cbn; lra). apply generic_format_bpow. cbn. lia. }
  assert (SD : stored parts_heap parts_modes).
  { intros idx k. cbn [mem parts_heap parts_modes nd buf]. unfold is_double.
    destruct (k =? 0); [|destruct (k =? 1); [|destruct (k =? 2)]]; cbn [Re Im fst snd RtoC]; split; try apply RN64_0; try (apply (RN64_int _); lia).
    apply is_double_opp. exact D60. }
  split; [exact W|]. split; [reflexivity|]. split; [exact SD|]. split.
  { intros idx k. unfold parts_ways, adds_all. cbn [p_mul]. destruct (k =? 3); cbn [fst snd terms app depth]; change (map Z.of_nat (seq 0 (Z.to_nat 2))) with [0; 1];
    repeat split; try lia; try apply Permutation_refl; apply perm_swap. }
  destruct (real64_new parts_ways parts_heap parts_modes W eq_refl SD) as (h & r & E & (_ & _ & _ & _ & _ & _ & _ & M) & _).
  destruct (real_new parts_heap parts_modes W eq_refl) as (he & re & Ee & (_ & _ & _ & _ & _ & _ & _ & Me) & _).
  exists h, r, he, re. split; [exact E|]. split; [exact Ee|].
  assert (V : real_data parts_heap parts_modes [] 1 1 = RtoC ((1 + / 2 ^ 60) / 2)).
  { unfold real_data, mode. change (1 * 1 + (1 + 1)) with 3. change (1 * 1 + (1 + - (1))) with 1. cbn [mem parts_heap parts_modes nd buf].
    change (3 =? 0) with false. change (3 =? 1) with false. change (3 =? 2) with false. change (1 =? 0) with false. change (1 =? 1) with true. cbv iota.
    change (sgn 1) with (-1)%R. apply C_eq; unfold Re, Im; cbn; field. }
  assert (A : at_index (lead (nd parts_modes)) []) by constructor.
  rewrite M, Me by (auto; cbn; lia). rewrite V. split; [|reflexivity].
  unfold rounded. cbn [Re Im fst snd RtoC]. rewrite RN64_0. unfold RtoC. f_equal. apply RN64_near_half.
Qed.
