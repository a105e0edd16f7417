(** Property C72: products of Modes in double precision.  The functions ending in 64 (FloatMultModel.v) round every operation to the
    nearest double; [way] says in which order, and whether with fused operations, the parts of a complex product are added. *)
Require Import ZArith Reals List Lia Lra.
From Coquelicot Require Import Complex.
From Verif Require Import Base CBase IndexModel Wigner3jModel ModesModel ModesSpec ModesProofs3 ModesProps2 MultModel MultSpec
  FloatPowersSpec FloatModesModel FloatModesSpec FloatThreeJModel FloatMultModel FloatMultSpec.
From Verif Require FloatMultProps FloatMultProps2 FloatMultProps3.
Import ListNotations.
Open Scope R_scope.

(** ** C72 *)

(** The result does not depend on what the workspaces of the calculators held. *)
Theorem C72_reproducible :
  forall way gs gm gs' gm' h f g tr, wf h f -> wf h g -> (0 <= ellmax (md f))%Z -> (0 <= ellmax (md g))%Z -> (0 <= product_ell_max f g tr)%Z ->
  (ellmax (md f) + ellmax (md g) <= 1447)%Z ->
  multiply64 fixed way gs gm h f g tr = multiply64 fixed way gs' gm' h f g tr.
Proof. exact FloatMultProps.C72_reproducible. Qed.
Print Assumptions C72_reproducible.

(** With the 3-j symbols as computed, every mode is the sum of all products up to rounding; the only exception that can occur is
    that of a 3-j calculator. *)
Theorem C72_rounding :
  forall way gs gm h f g tr sh, good_ways way -> wf h f -> wf h g -> (0 <= ellmax (md f))%Z -> (0 <= ellmax (md g))%Z -> (0 <= product_ell_max f g tr)%Z ->
  broadcast (lead (nd f)) (lead (nd g)) = Some sh -> (ellmax (md f) + ellmax (md g) <= 1447)%Z ->
  (exists h' r, multiply64 fixed way gs gm h f g tr = Ok (h', r)
    /\ new_modes h h' r (spin (md f) + spin (md g)) (product_ell_max f g tr) sh (mode h' r)
    /\ truncator (md r) = truncator (md f)
    /\ forall idx l m, (0 <= l <= product_ell_max f g tr)%Z -> (- l <= m <= l)%Z ->
       let u := mode h f (bidx (lead (nd f)) idx) in let v := mode h g (bidx (lead (nd g)) idx) in
       let L1 := ellmax (md f) in let L2 := ellmax (md g) in let c := product_coeff64 (spin (md f)) (spin (md g)) in
       Cmod (mode h' r idx l m - weight_with c L1 L2 u v l m)%C
       <= (101 / 100 * pairs L1 L2 u v l m + 14) * u64 * abs_weight c L1 L2 u v l m + underflow L1 L2 u v l m)
  \/ (multiply64 fixed way gs gm h f g tr = Err ZeroDivisionError
      /\ exists l1 l2 m n, (0 <= l1 <= ellmax (md f))%Z /\ (0 <= l2 <= ellmax (md g))%Z /\ (Z.abs m <= l1)%Z /\ (Z.abs n <= l2)%Z /\ stuck64 l1 l2 m n).
Proof. exact FloatMultProps.C72_rounding. Qed.
Print Assumptions C72_rounding.

(** If the symbols used are accurate, so is the product. *)
Theorem C72_accuracy :
  forall way gs gm h f g tr h' r, good_ways way -> wf h f -> wf h g -> (0 <= ellmax (md f))%Z -> (0 <= ellmax (md g))%Z -> (0 <= product_ell_max f g tr)%Z ->
  (ellmax (md f) + ellmax (md g) <= 1447)%Z -> multiply64 fixed way gs gm h f g tr = Ok (h', r) ->
  forall idx l m eps, (0 <= l <= product_ell_max f g tr)%Z -> (- l <= m <= l)%Z -> 0 <= eps ->
    let u := mode h f (bidx (lead (nd f)) idx) in let v := mode h g (bidx (lead (nd g)) idx) in
    let s1 := spin (md f) in let s2 := spin (md g) in let L1 := ellmax (md f) in let L2 := ellmax (md g) in
    (forall l1 m1 l2 m2, (0 <= l1 <= L1)%Z -> (0 <= l2 <= L2)%Z -> (Z.abs m1 <= l1)%Z -> (Z.abs m2 <= l2)%Z -> (m1 + m2 = m)%Z -> (Z.abs (l1 - l2) <= l <= l1 + l2)%Z ->
       u l1 m1 <> RtoC 0 -> v l2 m2 <> RtoC 0 -> close_symbol eps l l1 l2 s1 s2 /\ close_symbol eps l l1 l2 m1 m2) ->
    Cmod (mode h' r idx l m - product_weight s1 L1 s2 L2 u v l m)%C
    <= ((1 + eps) ^ 2 * (1 + (101 / 100 * pairs L1 L2 u v l m + 14) * u64) - 1) * abs_weight (product_coeff s1 s2) L1 L2 u v l m + underflow L1 L2 u v l m.
Proof. exact FloatMultProps.C72_accuracy. Qed.
Print Assumptions C72_accuracy.

(** Products of axisymmetric functions of spin weight zero *)
Theorem C72_axisymmetric :
  forall way gs gm h f g tr h' r, good_ways way -> wf h f -> wf h g -> (0 <= ellmax (md f))%Z -> (0 <= ellmax (md g))%Z -> (0 <= product_ell_max f g tr)%Z ->
  (ellmax (md f) + ellmax (md g) <= 1447)%Z -> spin (md f) = 0%Z -> spin (md g) = 0%Z ->
  (forall idx l m, (0 <= l <= ellmax (md f))%Z -> (Z.abs m <= l)%Z -> m <> 0%Z -> mode h f idx l m = RtoC 0) ->
  (forall idx l m, (0 <= l <= ellmax (md g))%Z -> (Z.abs m <= l)%Z -> m <> 0%Z -> mode h g idx l m = RtoC 0) ->
  multiply64 fixed way gs gm h f g tr = Ok (h', r) ->
  forall idx l m, (0 <= l <= product_ell_max f g tr)%Z -> (- l <= m <= l)%Z ->
    let u := mode h f (bidx (lead (nd f)) idx) in let v := mode h g (bidx (lead (nd g)) idx) in
    let L1 := ellmax (md f) in let L2 := ellmax (md g) in
    (m <> 0%Z -> mode h' r idx l m = RtoC 0) /\
    Cmod (mode h' r idx l m - product_weight 0 L1 0 L2 u v l m)%C
    <= (37 * IZR (Z.min L1 L2) + 95 + 101 / 100 * pairs L1 L2 u v l m) * u64 * abs_weight (product_coeff 0 0) L1 L2 u v l m + underflow L1 L2 u v l m.
Proof. exact FloatMultProps.C72_axisymmetric. Qed.
Print Assumptions C72_axisymmetric.

(** Products with a constant *)
Theorem C72_constant :
  forall way gs gm h f g tr sh, good_ways way -> wf h f -> wf h g -> ellmax (md f) = 0%Z -> spin (md f) = 0%Z -> (0 <= ellmax (md g) <= 151)%Z -> (0 <= product_ell_max f g tr)%Z ->
  broadcast (lead (nd f)) (lead (nd g)) = Some sh ->
  exists h' r, multiply64 fixed way gs gm h f g tr = Ok (h', r)
    /\ forall idx l m, (0 <= l <= product_ell_max f g tr)%Z -> (- l <= m <= l)%Z ->
       let w := (mode h f (bidx (lead (nd f)) idx) 0 0 * mode h g (bidx (lead (nd g)) idx) l m / RtoC (sqrt (4 * PI)))%C in
       ((l <= ellmax (md g))%Z -> Cmod (mode h' r idx l m - w)%C
          <= 40 * u64 * Cmod w + / 2 ^ 1000 * ((1 + Cmod (mode h f (bidx (lead (nd f)) idx) 0 0)) * (1 + Cmod (mode h g (bidx (lead (nd g)) idx) l m))))
       /\ ((ellmax (md g) < l)%Z -> mode h' r idx l m = RtoC 0).
Proof. exact FloatMultProps2.C72_constant. Qed.
Print Assumptions C72_constant.

(** multiplication.multiply on plain arrays, with any lowest ell *)
Theorem C72_arrays :
  forall way gs gm h f lf Lf sf g lg Lg sg sh, good_ways way -> (buf f < next h)%nat -> (buf g < next h)%nat ->
  (0 <= lf <= Lf)%Z -> (0 <= lg <= Lg)%Z -> wid f = LM_total_size lf Lf -> wid g = LM_total_size lg Lg ->
  broadcast (lead f) (lead g) = Some sh -> (Lf + Lg <= 1447)%Z ->
  (forall gs' gm', multiply_arrays64 fixed way gs' gm' h f lf Lf sf g lg Lg sg = multiply_arrays64 fixed way gs gm h f lf Lf sf g lg Lg sg) /\
  ((exists h' fg, multiply_arrays64 fixed way gs gm h f lf Lf sf g lg Lg sg = Ok (h', (fg, 0%Z, (Lf + Lg)%Z, (sf + sg)%Z))
     /\ lead fg = sh /\ wid fg = LM_total_size 0 (Lf + Lg) /\ (next h <= buf fg)%nat
     /\ (forall b, (b < next h)%nat -> forall idx k, mem h' b idx k = mem h b idx k)
     /\ forall idx l m, (0 <= l <= Lf + Lg)%Z -> (- l <= m <= l)%Z ->
        let u := arr_mode (mem h (buf f)) lf (bidx (lead f) idx) in let v := arr_mode (mem h (buf g)) lg (bidx (lead g) idx) in
        let c := product_coeff64 sf sg in let x := mem h' (buf fg) idx (LM_index l m 0) in
        Cmod (x - weight_with c Lf Lg u v l m)%C
          <= (101 / 100 * pairs Lf Lg u v l m + 14) * u64 * abs_weight c Lf Lg u v l m + underflow Lf Lg u v l m
        /\ forall eps, 0 <= eps ->
          (forall l1 m1 l2 m2, (lf <= l1 <= Lf)%Z -> (lg <= l2 <= Lg)%Z -> (Z.abs m1 <= l1)%Z -> (Z.abs m2 <= l2)%Z -> (m1 + m2 = m)%Z -> (Z.abs (l1 - l2) <= l <= l1 + l2)%Z ->
             u l1 m1 <> RtoC 0 -> v l2 m2 <> RtoC 0 -> close_symbol eps l l1 l2 sf sg /\ close_symbol eps l l1 l2 m1 m2) ->
          Cmod (x - product_weight sf Lf sg Lg u v l m)%C
          <= ((1 + eps) ^ 2 * (1 + (101 / 100 * pairs Lf Lg u v l m + 14) * u64) - 1) * abs_weight (product_coeff sf sg) Lf Lg u v l m + underflow Lf Lg u v l m)
   \/ (multiply_arrays64 fixed way gs gm h f lf Lf sf g lg Lg sg = Err ZeroDivisionError
       /\ exists l1 l2 m n, (lf <= l1 <= Lf)%Z /\ (lg <= l2 <= Lg)%Z /\ (Z.abs m <= l1)%Z /\ (Z.abs n <= l2)%Z /\ stuck64 l1 l2 m n)).
Proof. exact FloatMultProps3.C72_arrays. Qed.
Print Assumptions C72_arrays.

(** Two functions with modes ell = 2 and 3, and one with ell = 1 *)
Example C72_arrays_nonvacuous :
  let h := mkheap 2 (fun _ _ k => RtoC (IZR (k + 1))) in let f := mknd 0 [2%Z; 1%Z] 12 in let g := mknd 1 [] 3 in
  good_ways FloatMultProps2.plain_way /\ (buf f < next h)%nat /\ (buf g < next h)%nat /\ (0 <= 2 <= 3)%Z /\ (0 <= 1 <= 1)%Z /\
  wid f = LM_total_size 2 3 /\ wid g = LM_total_size 1 1 /\ broadcast (lead f) (lead g) = Some [2%Z; 1%Z] /\ (3 + 1 <= 1447)%Z /\
  arr_mode (mem h (buf f)) 2 [1%Z; 0%Z] 3 2 <> RtoC 0.
Proof.
  cbv zeta. split; [apply FloatMultProps2.C72_example|]. cbn [buf next lead wid]. repeat split; try lia; try reflexivity.
  intros H. apply (f_equal fst) in H. cbn in H. lra.
Qed.

(** 3 times two functions of spin weight -2 *)
Example C72_nonvacuous :
  wf FloatMultProps2.constant_heap FloatMultProps2.constant_f /\ wf FloatMultProps2.constant_heap FloatMultProps2.constant_g /\ good_ways FloatMultProps2.plain_way /\
  broadcast (lead (nd FloatMultProps2.constant_f)) (lead (nd FloatMultProps2.constant_g)) = Some [2%Z] /\
  product_ell_max FloatMultProps2.constant_f FloatMultProps2.constant_g None = 3%Z /\
  mode FloatMultProps2.constant_heap FloatMultProps2.constant_g [1%Z] 3 2 <> RtoC 0 /\
  exists h' r, multiply64 fixed FloatMultProps2.plain_way (fun _ => 7) (fun _ => 8) FloatMultProps2.constant_heap FloatMultProps2.constant_f FloatMultProps2.constant_g None = Ok (h', r)
    /\ Cmod (mode h' r [1%Z] 3 2 - RtoC 3 * (RtoC 15 + Ci) / RtoC (sqrt (4 * PI)))%C <= / 10 ^ 8.
Proof.
  exact FloatMultProps2.C72_example.
Qed.
