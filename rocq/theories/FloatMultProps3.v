(** multiplication.multiply on plain arrays in double precision. *)
Require Import ZArith Lia List Reals Lra Bool.
From Flocq Require Import Core.
From Coquelicot Require Import Complex.
From Verif Require Import Base BaseProofs CBase CSum RSum Fact IndexModel IndexProofs SWSHModel WignerProofs ThreeJSpec ThreeJ ThreeJ2 Wigner3jModel Wigner3jSpec
  Wigner3jWs Wigner3jFwd Wigner3jProofs Wigner3jProps ModesModel ModesSpec ModesProofs ModesProofs2 ModesProofs3 ModesProps2 MultModel MultSpec MultProofs MultProps NearProps OrthoProofs.
From Verif Require Import FloatIndexModel FloatIndexProofs FloatPowersModel FloatPowersSpec FloatPowersProofs FloatPowersProps
  FloatConvModel FloatConvSpec FloatConvProofs FloatWignerModel FloatModesModel FloatModesSpec FloatModesProofs FloatModesProofs2 FloatModesProofs4 FloatPartsProofs
  FloatThreeJModel FloatThreeJProofs FloatThreeJProps FloatThreeJSame FloatThreeJSameProps FloatLog FloatMultModel FloatMultSpec FloatMultProofs FloatMultProofs2 FloatMultProps.
Import ListNotations.
Set Bullet Behavior "Strict Subproofs".
Open Scope R_scope.


Lemma C72_arrays :
  forall way gs gm h f lf Lf sf g lg Lg sg sh, good_ways way -> (buf f < next h)%nat -> (buf g < next h)%nat ->
  (0 <= lf <= Lf)%Z -> (0 <= lg <= Lg)%Z -> wid f = LM_total_size lf Lf -> wid g = LM_total_size lg Lg ->
  broadcast (lead f) (lead g) = Some sh -> (Lf + Lg <= 1447)%Z ->
  (forall gs' gm', multiply_arrays64 fixed way gs' gm' h f lf Lf sf g lg Lg sg = multiply_arrays64 fixed way gs gm h f lf Lf sf g lg Lg sg) /\
  ((exists h' fg, multiply_arrays64 fixed way gs gm h f lf Lf sf g lg Lg sg = Ok (h', (fg, 0%Z, (Lf + Lg)%Z, (sf + sg)%Z))
     /\ lead fg = sh /\ wid fg = LM_total_size 0 (Lf + Lg) /\ (next h <= buf fg)%nat
     /\ (forall b, (b < next h)%nat -> forall idx k, mem h' b idx k = mem h b idx k)
     /\ forall idx l m, (0 <= l <= Lf + Lg)%Z -> (- l <= m <= l)%Z ->
        let u := arr_mode (mem h (buf f)) lf (bidx (lead f) idx) in let v := arr_mode (mem h (buf g)) lg (bidx (lead g) idx) in
        let c := product_coeff64 sf sg in let x := mem h' (buf fg) idx (LM_index l m 0) in
        Cmod (x - weight_with c Lf Lg u v l m)%C
          <= (101 / 100 * pairs Lf Lg u v l m + 14) * u64 * abs_weight c Lf Lg u v l m + underflow Lf Lg u v l m
        /\ forall eps, 0 <= eps ->
          (forall l1 m1 l2 m2, (lf <= l1 <= Lf)%Z -> (lg <= l2 <= Lg)%Z -> (Z.abs m1 <= l1)%Z -> (Z.abs m2 <= l2)%Z -> (m1 + m2 = m)%Z -> (Z.abs (l1 - l2) <= l <= l1 + l2)%Z ->
             u l1 m1 <> RtoC 0 -> v l2 m2 <> RtoC 0 -> close_symbol eps l l1 l2 sf sg /\ close_symbol eps l l1 l2 m1 m2) ->
          Cmod (x - product_weight sf Lf sg Lg u v l m)%C
          <= ((1 + eps) ^ 2 * (1 + (101 / 100 * pairs Lf Lg u v l m + 14) * u64) - 1) * abs_weight (product_coeff sf sg) Lf Lg u v l m + underflow Lf Lg u v l m)
   \/ (multiply_arrays64 fixed way gs gm h f lf Lf sf g lg Lg sg = Err ZeroDivisionError
       /\ exists l1 l2 m n, (lf <= l1 <= Lf)%Z /\ (lg <= l2 <= Lg)%Z /\ (Z.abs m <= l1)%Z /\ (Z.abs n <= l2)%Z /\ stuck64 l1 l2 m n)).
Proof.
  intros way gs gm h nf lf Lf sf ng lg Lg sg sh Way Fb Gb HF HG Fw Gw HB HW. unfold multiply_arrays64. set (L := (Lf + Lg)%Z) in *. cbv zeta.
  rewrite (rdcol_ok h nf), (rdcol_ok h ng) by (rewrite ?Fw, ?Gw, LM_total_sqr; nia). cbn [bind]. rewrite HB. rewrite LM_total_sqr.
  replace ((L + 1) ^ 2 - 0 ^ 2)%Z with ((L + 1) ^ 2)%Z by lia.
  destruct (alloc h sh ((L + 1) ^ 2) (fun _ _ => RtoC 0)) as [h1 new] eqn:EA.
  unfold alloc in EA. injection EA as E1 E2.
  assert (M1 : forall b idx k, mem h1 b idx k = if Nat.eqb b (next h) then RtoC 0 else mem h b idx k) by (intros; rewrite <- E1; cbn; destruct (Nat.eqb _ _); auto).
  assert (If : forall l m, (lf <= l <= Lf)%Z -> (- l <= m <= l)%Z -> (0 <= LM_index l m lf < wid nf)%Z) by (intros l m Hl Hm; rewrite Fw; apply LM_index_bounds; lia).
  assert (Ig : forall l m, (lg <= l <= Lg)%Z -> (- l <= m <= l)%Z -> (0 <= LM_index l m lg < wid ng)%Z) by (intros l m Hl Hm; rewrite Gw; apply LM_index_bounds; lia).
  assert (Wn : wid new = ((L + 1) ^ 2)%Z) by (rewrite <- E2; reflexivity).
  assert (Ft : fits (broadcast (lead nf) (lead ng)) (lead new) = true) by (rewrite HB, <- E2; cbn [lead]; apply fits_refl).
  split.
  { intros gs' gm'. pose proof (helper_rel way nf ng new lf Lf sf lg Lg sg L If Ig Wn Ft ltac:(lia) ltac:(lia) gs' gm' gs gm h1) as R.
    destruct (mult_helper64 fixed way gs' gm' h1 nf lf Lf sf ng lg Lg sg new 0 L (sf + sg)), (mult_helper64 fixed way gs gm h1 nf lf Lf sf ng lg Lg sg new 0 L (sf + sg));
      cbn [rel] in R; try tauto; [subst; reflexivity|destruct R as [-> ->]; reflexivity]. }
  destruct (mult_helper64_acc way Way nf ng new lf Lf sf lg Lg sg L ltac:(lia) ltac:(lia) If Ig Wn
             ltac:(rewrite <- E2; cbn [buf]; lia) ltac:(rewrite <- E2; cbn [buf]; lia) Ft ltac:(lia) ltac:(lia)
             (mem h (buf nf)) (mem h (buf ng)) gs gm h1) as [(h2 & EH & A2)|[EH HBad]].
  { intros idx k. rewrite !M1. destruct (Nat.eqb_spec (buf nf) (next h)), (Nat.eqb_spec (buf ng) (next h)); try lia; auto. }
  2:{ right. split; auto. rewrite EH. reflexivity. }
  left. rewrite EH. cbn [bind]. exists h2, new. split; [reflexivity|].
  assert (Bn : buf new = next h) by (rewrite <- E2; reflexivity). pose proof A2 as (N2 & O2 & _).
  split; [rewrite <- E2; reflexivity|]. split; [rewrite <- E2; cbn [wid]; lia|]. split; [lia|]. split.
  { intros b Hb idx k. rewrite O2, M1 by lia. destruct (Nat.eqb_spec b (next h)); [lia|reflexivity]. }
  intros idx l m Hl Hm. set (u := arr_mode (mem h (buf nf)) lf (bidx (lead nf) idx)). set (v := arr_mode (mem h (buf ng)) lg (bidx (lead ng) idx)).
  set (c := product_coeff64 sf sg). set (x := mem h2 (buf new) idx (LM_index l m 0)).
  assert (Q : Cmod (x - weight_with c Lf Lg u v l m)%C <= (101 / 100 * pairs Lf Lg u v l m + 14) * u64 * abs_weight c Lf Lg u v l m + underflow Lf Lg u v l m).
  { apply (acc64_weights (buf new) nf ng lf lg Lf sf Lg sg L (mem h (buf nf)) (mem h (buf ng)) h1 h2); auto. intros. rewrite M1, Bn, Nat.eqb_refl. reflexivity. }
  split; auto. intros eps He H. apply accuracy_core; auto; try lia.
  intros l1 m1 l2 m2 H1 H2 Hm1 Hm2 Hm3 Ht Nu Nv. apply H; auto.
  - destruct (Z_lt_ge_dec l1 lf) as [X|X]; [|lia]. exfalso. apply Nu. unfold u, arr_mode. apply Z.ltb_lt in X. rewrite X. reflexivity.
  - destruct (Z_lt_ge_dec l2 lg) as [X|X]; [|lia]. exfalso. apply Nv. unfold v, arr_mode. apply Z.ltb_lt in X. rewrite X. reflexivity.
Qed.
