(** Rounding in the real and imaginary part of Modes. *)
Require Import ZArith Lia List Reals Lra Bool Permutation Classical.
From Flocq Require Import Core.
From Coquelicot Require Import Complex.
From Verif Require Import Base BaseProofs CBase CSum RSum Fact IndexModel IndexProofs PowersModel DRep WignerModel SWSHModel SWSHProofs ModesModel ModesSpec ModesProofs ModesProofs2
  FloatIndexModel FloatIndexProofs FloatPowersModel FloatPowersSpec FloatPowersProofs FloatPowersProps FloatConvModel FloatConvSpec FloatConvProofs FloatConvProps
  FloatModesModel FloatModesSpec FloatPartsModel FloatPartsSpec.
Import ListNotations.
Set Bullet Behavior "Strict Subproofs".
Open Scope R_scope.

(** ** Halves *)
Lemma RN64_idem x : RN64 (RN64 x) = RN64 x.
Proof. apply round_generic; [apply valid_rnd_N|apply generic_format_round; [apply FLT_exp_valid; reflexivity|apply valid_rnd_N]]. Qed.

Lemma RN64_half_big s : bpow radix2 (-1021) <= Rabs s -> RN64 (s / 2) = RN64 s / 2.
Proof.
  intros H. assert (Hs : s <> 0). { intros ->. rewrite Rabs_R0 in H. pose proof (bpow_gt_0 radix2 (-1021)). lra. }
  assert (Hm : (-1020 <= mag radix2 s)%Z). { apply mag_ge_bpow. exact H. }
  assert (E2 : bpow radix2 (-1) = / 2). { cbn. reflexivity. }
  assert (Eh : s / 2 = s * bpow radix2 (-1)). { rewrite E2. reflexivity. }
  unfold RN64, round, F2R, scaled_mantissa, cexp. cbn [Fnum Fexp]. rewrite Eh, mag_mult_bpow by auto.
  unfold FLT_exp. rewrite !Z.max_l by lia.
  replace (s * bpow radix2 (-1) * bpow radix2 (- (mag radix2 s + -1 - 53))) with (s * bpow radix2 (- (mag radix2 s - 53))).
  - replace (mag radix2 s + -1 - 53)%Z with (mag radix2 s - 53 + -1)%Z by lia. rewrite bpow_plus, E2. unfold Rdiv. ring.
  - rewrite Rmult_assoc, <- bpow_plus. do 2 f_equal. lia.
Qed.

Lemma double_sum_small a b : is_double a -> is_double b -> Rabs (a + b) < bpow radix2 (-1021) -> is_double (a + b).
Proof.
  intros Ha Hb H. unfold is_double. apply round_generic; [apply valid_rnd_N|].
  apply generic_format_FLT_FIX; [reflexivity|apply Rlt_le; exact H|].
  assert (F : forall x, is_double x -> generic_format radix2 (FIX_exp (-1074)) x).
  { intros x Hx. apply generic_format_FIX_FLT with 53%Z. rewrite <- Hx. apply generic_format_round; [apply FLT_exp_valid; reflexivity|apply valid_rnd_N]. }
  apply F in Ha. apply F in Hb. apply FIX_format_generic in Ha. apply FIX_format_generic in Hb.
  destruct Ha as [fa Ea Xa], Hb as [fb Eb Xb]. apply generic_format_FIX. exists (Float radix2 (Fnum fa + Fnum fb) (-1074)); [|reflexivity].
  rewrite Ea, Eb. unfold F2R. rewrite Xa, Xb. cbn [Fnum Fexp]. rewrite plus_IZR. ring.
Qed.

(** Halving a rounded sum is as good as rounding once *)
Lemma half_sum a b : is_double a -> is_double b -> RN64 (RN64 (a + b) / 2) = RN64 ((a + b) / 2).
Proof.
  intros Ha Hb. destruct (Rlt_or_le (Rabs (a + b)) (bpow radix2 (-1021))) as [H|H].
  - rewrite (double_sum_small a b) by auto. reflexivity.
  - rewrite (RN64_half_big (a + b)) by auto. rewrite <- (RN64_half_big (a + b)) by auto. apply RN64_idem.
Qed.
Lemma half_diff a b : is_double a -> is_double b -> RN64 (RN64 (a - b) / 2) = RN64 ((a - b) / 2).
Proof. intros Ha Hb. apply (half_sum a (- b)); auto. apply is_double_opp. auto. Qed.

Lemma double_double a : is_double a -> RN64 (2 * a) = 2 * a.
Proof.
  intros Ha. replace (2 * a) with (a + a) by ring. destruct (Rlt_or_le (Rabs (a + a)) (bpow radix2 (-1021))) as [H|H].
  - apply double_sum_small; auto.
  - assert (E : RN64 ((a + a) / 2) = RN64 (a + a) / 2) by (apply RN64_half_big; auto).
    replace ((a + a) / 2) with a in E by field. unfold is_double in Ha. lra.
Qed.

(** ** Division by 2 and multiplication by -i *)
Lemma cdiv64_2 t x : is_double (Re x) -> is_double (Im x) -> cdiv64 t x (RtoC 2) = (RN64 (Re x / 2), RN64 (Im x / 2)).
Proof.
  intros Hr Hi. destruct t as [[f1 f2] f3]. unfold cdiv64. cbn [Re Im fst snd RtoC].
  destruct (Rle_dec (Rabs 0) (Rabs 2)) as [_|N]; [|exfalso; apply N; rewrite Rabs_R0; apply Rabs_pos].
  replace (0 / 2) with 0 by field. rewrite RN64_0.
  assert (M : forall f a b, is_double b -> muladd64 f a 0 b = b).
  { intros f a b Hb. unfold muladd64. rewrite Rmult_0_r, RN64_0, Rplus_0_l. destruct f; exact Hb. }
  rewrite !M; auto.
  - assert (E : RN64 (1 / 2) = / 2). { replace (1 / 2) with (bpow radix2 (-1)) by (cbn; lra). apply round_generic; [apply valid_rnd_N|]. change (/ 2) with (bpow radix2 (-1)). apply generic_format_bpow. cbn. lia. }
    rewrite E. reflexivity.
  - unfold is_double. apply (RN64_int 2). lia.
Qed.

Lemma adds_two t : adds_all 2 2 t ->
  t = Plus (Prod 0) (Prod 1) \/ t = Plus (Prod 1) (Prod 0) \/ t = Fused 0 (Prod 1) \/ t = Fused 1 (Prod 0).
Proof.
  intros (P & D). change (map Z.of_nat (seq 0 (Z.to_nat 2))) with [0; 1]%Z in P.
  assert (Q : forall a b, Permutation [a; b] [0; 1]%Z -> (a = 0 /\ b = 1)%Z \/ (a = 1 /\ b = 0)%Z).
  { intros a b Hp. apply Permutation_length_2 in Hp. lia. }
  destruct t as [k|l r|k r].
  - apply Permutation_length in P. discriminate.
  - cbn [depth] in D. destruct l as [i| |]; cbn [depth] in D; [|destruct l1; cbn [depth] in D; lia|destruct l; cbn [depth] in D; lia].
    destruct r as [j| |]; cbn [depth] in D; [|destruct r1; cbn [depth] in D; lia|destruct r; cbn [depth] in D; lia].
    cbn [terms app] in P. destruct (Q _ _ P) as [[-> ->]|[-> ->]]; auto.
  - cbn [depth] in D. destruct r as [j| |]; cbn [depth] in D; [|destruct r1; cbn [depth] in D; lia|destruct r; cbn [depth] in D; lia].
    cbn [terms] in P. destruct (Q _ _ P) as [[-> ->]|[-> ->]]; auto.
Qed.

Lemma cmul64_mi t x : adds_all 2 2 (fst t) -> adds_all 2 2 (snd t) -> is_double (Re x) -> is_double (Im x) ->
  cmul64 t (- Ci)%C x = (Im x, - Re x).
Proof.
  intros H1 H2 Hr Hi. destruct x as [a b]. cbn [Re Im fst snd] in *.
  pose proof (is_double_opp _ Hr) as Hr'. unfold is_double in *. unfold cmul64, cdot64. f_equal;
  [destruct (adds_two _ H1) as [->|[->|[->| ->]]]|destruct (adds_two _ H2) as [->|[->|[->| ->]]]];
  cbn [dot64]; unfold two; change (0 <? 1)%Z with true; change (1 <? 1)%Z with false; cbv beta iota;
  cbn [Re Im fst snd Copp Ci]; rewrite ?Ropp_0, ?Rmult_0_l, ?RN64_0, ?Rplus_0_l, ?Rplus_0_r, ?Ropp_involutive, ?Rmult_1_l;
  replace (- (1) * a) with (- a) by ring; replace (- -1) with 1 by ring; rewrite ?Rmult_1_l, ?Hi, ?Hr'; auto.
Qed.

(** ** One entry *)
Lemma double_Re_sub x y : Re (x - Cconj y)%C = Re x - Re y.
Proof. unfold Re. cbn. ring. Qed.

Definition dbl (x : C) : Prop := is_double (Re x) /\ is_double (Im x).
Lemma half_add t x y : dbl x -> dbl y -> cdiv64 t (cadd64 x (Cconj y)) (RtoC 2) = rounded ((x + Cconj y) / RtoC 2)%C.
Proof.
  intros (Xr & Xi) (Yr & Yi). rewrite cdiv64_2; [|apply RN64_idem|apply RN64_idem]. unfold rounded, cadd64. cbn [Re Im fst snd].
  rewrite !half_sum; auto; [|apply is_double_opp; auto].
  f_equal; f_equal; unfold Re, Im; cbn; field.
Qed.
Lemma half_sub t x y : dbl x -> dbl y -> cdiv64 t (csub64 x (Cconj y)) (RtoC 2) = rounded ((x - Cconj y) / RtoC 2)%C.
Proof.
  intros (Xr & Xi) (Yr & Yi). rewrite cdiv64_2; [|apply RN64_idem|apply RN64_idem]. unfold rounded, csub64. cbn [Re Im fst snd].
  rewrite !half_diff; auto; [|apply is_double_opp; auto].
  f_equal; f_equal; unfold Re, Im; cbn; field.
Qed.
Lemma half_i_add t u x y : adds_all 2 2 (fst u) -> adds_all 2 2 (snd u) -> dbl x -> dbl y ->
  cdiv64 t (cmul64 u (- Ci)%C (cadd64 x (Cconj y))) (RtoC 2) = rounded (- Ci * (x + Cconj y) / RtoC 2)%C.
Proof.
  intros U1 U2 (Xr & Xi) (Yr & Yi). rewrite cmul64_mi; auto; [|apply RN64_idem|apply RN64_idem].
  rewrite cdiv64_2; cbn [Re Im fst snd]; [|apply RN64_idem|apply is_double_opp, RN64_idem]. unfold rounded, cadd64. cbn [Re Im fst snd].
  f_equal.
  - rewrite half_sum; auto; [|apply is_double_opp; auto]. f_equal. unfold Re, Im; cbn; field.
  - match goal with |- RN64 (- ?r / 2) = _ => replace (- r / 2) with (- (r / 2)) by field end. rewrite RN64_opp.
    rewrite half_sum; auto. rewrite <- RN64_opp. f_equal. unfold Re, Im; cbn; field.
Qed.
Lemma half_i_sub t u x y : adds_all 2 2 (fst u) -> adds_all 2 2 (snd u) -> dbl x -> dbl y ->
  cdiv64 t (cmul64 u (- Ci)%C (csub64 x (Cconj y))) (RtoC 2) = rounded (- Ci * (x - Cconj y) / RtoC 2)%C.
Proof.
  intros U1 U2 (Xr & Xi) (Yr & Yi). rewrite cmul64_mi; auto; [|apply RN64_idem|apply RN64_idem].
  rewrite cdiv64_2; cbn [Re Im fst snd]; [|apply RN64_idem|apply is_double_opp, RN64_idem]. unfold rounded, csub64. cbn [Re Im fst snd].
  f_equal.
  - rewrite half_diff; auto; [|apply is_double_opp; auto]. f_equal. unfold Re, Im; cbn; field.
  - match goal with |- RN64 (- ?r / 2) = _ => replace (- r / 2) with (- (r / 2)) by field end. rewrite RN64_opp.
    rewrite half_diff; auto. rewrite <- RN64_opp. f_equal. unfold Re, Im; cbn; field.
Qed.
Lemma rounded_conj z : rounded (Cconj z) = Cconj (rounded z).
Proof. unfold rounded, Cconj. cbn [Re Im fst snd]. rewrite RN64_opp. reflexivity. Qed.
Lemma rounded_opp z : rounded (- z)%C = (- rounded z)%C.
Proof. unfold rounded, Copp. cbn [Re Im fst snd]. rewrite !RN64_opp. reflexivity. Qed.
Lemma rounded_dbl z : dbl z -> rounded z = z.
Proof. intros (H1 & H2). unfold rounded. rewrite H1, H2. destruct z; reflexivity. Qed.
Lemma rounded_R x : is_double x -> rounded (RtoC x) = RtoC x.
Proof. intros H. apply rounded_dbl. split; [exact H|apply RN64_0]. Qed.

(** ** The loops *)
Open Scope Z_scope.
Definition Rreal m x y := rounded (Greal m x y).
Definition Rimag m x y := rounded (Gimag m x y).

Lemma real_loop64_ok w s c L h : (forall idx k, dbl (mem h (buf s) idx k)) -> wid s = (L + 1) ^ 2 -> wid c = (L + 1) ^ 2 ->
  exists h', real_loop64 w s c L h = Ok h' /\ blocks (buf c) 0 (L + 1) blk (F_at Rreal (mem h (buf s))) h h'.
Proof.
  intros HD Ws Wc. unfold real_loop64.
  apply (blocks_loop (buf s) (buf c) blk (mem h (buf s))); [|intros ell h1 He HS|auto].
  { intros i j k Hi Hj. apply blk_inj; lia. }
  rewrite !LM_col. replace (ell * ell + (ell + 0)) with (ell * ell + ell) by lia.
  pose proof (col_bound ell 0 L ltac:(lia) ltac:(lia)).
  rewrite rdcol_ok by lia. cbn [bind].
  apply (ell_step (buf s) (buf c) (mem h (buf s)) Rreal); [lia|auto| |].
  - rewrite !wrcol_ok by lia. f_equal. apply set_col_ext. intros. unfold Rreal, Greal. rewrite sgn_0, HS by (unfold blk; lia).
    rewrite Cmult_1_l, <- RtoC_half_re. symmetry. apply rounded_R. apply HD.
  - intros m h2 Hm Sp Sn.
    pose proof (col_bound ell m L ltac:(lia) ltac:(lia)). pose proof (col_bound ell (- m) L ltac:(lia) ltac:(lia)).
    rewrite !LM_col. replace (ell * ell + (ell + - m)) with (ell * ell + (ell - m)) in * by lia.
    rewrite !rdcol_ok by lia. cbn [bind]. rewrite mod2_even. unfold Rreal, Greal. rewrite sgn_opp. unfold sgn.
    destruct (Z.even m); rewrite !wrcol_ok by lia; cbn [bind]; rewrite !rdcol_ok by lia; cbn [bind]; rewrite !wrcol_ok by lia;
    (eexists; pair_done h2 c); rewrite ?set_col_same, ?Sp, ?Sn, ?half_add, ?half_sub by apply HD;
    rewrite <- ?rounded_conj, <- ?rounded_opp; f_equal; rewrite ?Cconj_half, ?Cconj_plus, ?Cconj_minus, ?Cconj_conj; unfold Cdiv; ring.
Qed.

Lemma imag_loop64_ok w s c L h : good_parts_way w -> (forall idx k, dbl (mem h (buf s) idx k)) -> wid s = (L + 1) ^ 2 -> wid c = (L + 1) ^ 2 ->
  exists h', imag_loop64 w s c L h = Ok h' /\ blocks (buf c) 0 (L + 1) blk (F_at Rimag (mem h (buf s))) h h'.
Proof.
  intros GW HD Ws Wc. unfold imag_loop64.
  apply (blocks_loop (buf s) (buf c) blk (mem h (buf s))); [|intros ell h1 He HS|auto].
  { intros i j k Hi Hj. apply blk_inj; lia. }
  rewrite !LM_col. replace (ell * ell + (ell + 0)) with (ell * ell + ell) by lia.
  pose proof (col_bound ell 0 L ltac:(lia) ltac:(lia)).
  rewrite rdcol_ok by lia. cbn [bind].
  apply (ell_step (buf s) (buf c) (mem h (buf s)) Rimag); [lia|auto| |].
  - rewrite !wrcol_ok by lia. f_equal. apply set_col_ext. intros. unfold Rimag, Gimag. rewrite sgn_0, HS by (unfold blk; lia).
    rewrite Cmult_1_l, <- RtoC_half_im. symmetry. apply rounded_R. apply HD.
  - intros m h2 Hm Sp Sn.
    pose proof (col_bound ell m L ltac:(lia) ltac:(lia)). pose proof (col_bound ell (- m) L ltac:(lia) ltac:(lia)).
    rewrite !LM_col. replace (ell * ell + (ell + - m)) with (ell * ell + (ell - m)) in * by lia.
    rewrite !rdcol_ok by lia. cbn [bind]. rewrite mod2_even. unfold Rimag, Gimag. rewrite sgn_opp. unfold sgn.
    destruct (Z.even m); rewrite !wrcol_ok by lia; cbn [bind]; rewrite !rdcol_ok by lia; cbn [bind]; rewrite !wrcol_ok by lia;
    (eexists; pair_done h2 c); rewrite ?set_col_same, ?Sp, ?Sn, ?half_i_add, ?half_i_sub by (apply HD || apply GW);
    rewrite <- ?rounded_conj, <- ?rounded_opp; f_equal;
    rewrite ?Cconj_half, ?Cconj_mult, ?Cconj_opp, ?Cconj_plus, ?Cconj_minus, ?Cconj_conj, ?Cconj_Ci; unfold Cdiv; ring.
Qed.

(** ** The functions *)
Lemma stored_dbl h h1 f : stored h f -> (buf (nd f) < next h)%nat -> (forall b, b <> next h -> mem h1 b = mem h b) ->
  forall idx k, dbl (mem h1 (buf (nd f)) idx k).
Proof. intros S Hb K idx k. rewrite K by lia. apply S. Qed.

Lemma real64_new w h m : wf h m -> spin (md m) = 0 -> stored h m ->
  exists h' r, real_func64 w h m false = Ok (h', r)
    /\ new_modes h h' r 0 (ellmax (md m)) (lead (nd m)) (fun idx ell mm => rounded (real_data h m idx ell mm)) /\ md r = md m.
Proof.
  intros W S0 SD. pose proof W as (Wb & Ww & _). unfold real_func64. rewrite S0. cbn [Z.eqb negb].
  destruct (zeros_like_facts h (nd m)) as (Zn & Zr & Zo & _).
  destruct (zeros_like h (nd m)) as [h1 c] eqn:EZ. cbn [fst snd] in *. subst c.
  destruct (real_loop64_ok w (nd m) (mknd (next h) (lead (nd m)) (wid (nd m))) (ellmax (md m)) h1) as (h2 & E2 & N2 & D2 & K2);
    [eapply stored_dbl; eauto|exact Ww|exact Ww|].
  cbn [buf] in *. rewrite E2. cbn [bind].
  destruct (construct_new h h2 (mknd (next h) (lead (nd m)) (wid (nd m))) (md m) (fun idx ell mm => rounded (real_data h m idx ell mm))) as (h' & E & NM).
  - exact Ww.
  - cbn [buf]. lia.
  - intros b Hb idx k. rewrite K2 by (left; lia). rewrite Zo by lia. reflexivity.
  - cbn [lead buf]. intros idx ell mm _ He0 He Hm.
    rewrite (D2 ell) by (try lia; apply blk_col; lia). rewrite F_at_col. unfold Rreal, Greal, real_data, mode.
    rewrite !Zo by lia. reflexivity.
  - lia.
  - eexists h', _. split; [exact E|]. rewrite S0 in NM. split; [exact NM|reflexivity].
Qed.

Lemma imag64_new w h m : good_parts_way w -> wf h m -> spin (md m) = 0 -> stored h m ->
  exists h' r, imag_func64 w h m false = Ok (h', r)
    /\ new_modes h h' r 0 (ellmax (md m)) (lead (nd m)) (fun idx ell mm => rounded (imag_data h m idx ell mm)) /\ md r = md m.
Proof.
  intros GW W S0 SD. pose proof W as (Wb & Ww & _). unfold imag_func64. rewrite S0. cbn [Z.eqb negb].
  destruct (zeros_like_facts h (nd m)) as (Zn & Zr & Zo & _).
  destruct (zeros_like h (nd m)) as [h1 c] eqn:EZ. cbn [fst snd] in *. subst c.
  destruct (imag_loop64_ok w (nd m) (mknd (next h) (lead (nd m)) (wid (nd m))) (ellmax (md m)) h1 GW) as (h2 & E2 & N2 & D2 & K2);
    [eapply stored_dbl; eauto|exact Ww|exact Ww|].
  cbn [buf] in *. rewrite E2. cbn [bind].
  destruct (construct_new h h2 (mknd (next h) (lead (nd m)) (wid (nd m))) (md m) (fun idx ell mm => rounded (imag_data h m idx ell mm))) as (h' & E & NM).
  - exact Ww.
  - cbn [buf]. lia.
  - intros b Hb idx k. rewrite K2 by (left; lia). rewrite Zo by lia. reflexivity.
  - cbn [lead buf]. intros idx ell mm _ He0 He Hm.
    rewrite (D2 ell) by (try lia; apply blk_col; lia). rewrite F_at_col. unfold Rimag, Gimag, imag_data, mode.
    rewrite !Zo by lia. reflexivity.
  - lia.
  - eexists h', _. split; [exact E|]. rewrite S0 in NM. split; [exact NM|reflexivity].
Qed.

Lemma real64_inplace w h m : wf h m -> spin (md m) = 0 -> stored h m ->
  exists h', real_func64 w h m true = Ok (h', m) /\ changes_only (buf (nd m)) h h' /\ wf h' m /\ stored h' m
    /\ forall idx ell mm, 0 <= ell <= ellmax (md m) -> - ell <= mm <= ell -> mode h' m idx ell mm = rounded (real_data h m idx ell mm).
Proof.
  intros W S0 SD. pose proof W as (Wb & Ww & Wz). unfold real_func64. rewrite S0. cbn [Z.eqb negb].
  destruct (real_loop64_ok w (nd m) (nd m) (ellmax (md m)) h SD Ww Ww) as (h2 & E2 & N2 & D2 & K2).
  rewrite E2. cbn [bind]. eexists. split; [reflexivity|].
  split; [split; [exact N2|intros; apply K2; auto]|]. split.
  - split; [lia|]. split; [exact Ww|]. lia.
  - split.
    { intros idx k. destruct (classic (exists i, 0 <= i < ellmax (md m) + 1 /\ blk i k)) as [(i & Hi & Bi)|N].
      - rewrite (D2 i) by auto. split; apply RN64_idem.
      - rewrite K2; [apply SD|]. right. intros i Hi Bi. apply N. eauto. }
    intros idx ell mm He Hm. unfold mode. rewrite (D2 ell) by (try lia; apply blk_col; lia). rewrite F_at_col. reflexivity.
Qed.
Lemma imag64_inplace w h m : good_parts_way w -> wf h m -> spin (md m) = 0 -> stored h m ->
  exists h', imag_func64 w h m true = Ok (h', m) /\ changes_only (buf (nd m)) h h' /\ wf h' m
    /\ forall idx ell mm, 0 <= ell <= ellmax (md m) -> - ell <= mm <= ell -> mode h' m idx ell mm = rounded (imag_data h m idx ell mm).
Proof.
  intros GW W S0 SD. pose proof W as (Wb & Ww & Wz). unfold imag_func64. rewrite S0. cbn [Z.eqb negb].
  destruct (imag_loop64_ok w (nd m) (nd m) (ellmax (md m)) h GW SD Ww Ww) as (h2 & E2 & N2 & D2 & K2).
  rewrite E2. cbn [bind]. eexists. split; [reflexivity|].
  split; [split; [exact N2|intros; apply K2; auto]|]. split.
  - split; [lia|]. split; [exact Ww|]. lia.
  - intros idx ell mm He Hm. unfold mode. rewrite (D2 ell) by (try lia; apply blk_col; lia). rewrite F_at_col. reflexivity.
Qed.
