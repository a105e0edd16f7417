(** Vocabulary of the statements about products of Modes in double precision. *)
Require Import ZArith List Reals Bool.
From Coquelicot Require Import Complex.
From Verif Require Import Base CBase CSum RSum Fact Wigner3jModel ThreeJSpec ModesProofs3 FloatPowersSpec FloatModesModel FloatModesSpec FloatThreeJModel FloatMultModel.
Open Scope R_scope.

(** What a new calculator returns for the symbol (j j2 j3; -m2-m3 m2 m3); by C70 every other one returns the same.  0 if it raises *)
Definition symbol64 (j j2 j3 m2 m3 : Z) : R :=
  match (do c <- calc_new j2 j3 (fun _ => 0); do c <- calculate64 fixed c j2 j3 m2 m3; returned c j) with Ok x => x | Err _ => 0 end.

(** A new calculator raises ZeroDivisionError for these arguments *)
Definition stuck64 (j2 j3 m2 m3 : Z) : Prop :=
  (do c <- calc_new j2 j3 (fun _ => 0); calculate64 fixed c j2 j3 m2 m3) = Err ZeroDivisionError.

(** The coefficient of Y_l in the product of harmonics (l1, m1, s1) and (l2, m2, s2), with these symbols in place of the exact ones *)
Definition product_coeff64 (s1 s2 l1 m1 l2 m2 l : Z) : R :=
  sgn (l1 + l2 + l + (s1 + s2) + (m1 + m2)) * sqrt (IZR (2 * l1 + 1) * IZR (2 * l2 + 1) * IZR (2 * l + 1) / (4 * PI))
  * symbol64 l l1 l2 s1 s2 * symbol64 l l1 l2 m1 m2.

(** The (l, m) weight of the product of functions with weights [u] and [v], for given coefficients *)
Definition weight_with (c : Z -> Z -> Z -> Z -> Z -> R) (L1 L2 : Z) (u v : Z -> Z -> C) (l m : Z) : C :=
  dsum L1 (fun l1 m1 => csum 0 L2 (fun l2 =>
    if (Z.abs (m - m1) <=? l2)%Z then (RtoC (c l1 m1 l2 (m - m1)%Z l) * u l1 m1 * v l2 (m - m1)%Z)%C else RtoC 0)).
(** A sum over the pairs of modes (l1, m1), (l2, m - m1) *)
Definition over_pairs (L1 L2 m : Z) (X : Z -> Z -> Z -> Z -> R) : R :=
  rsum 0 L1 (fun l1 => rsum (- l1) l1 (fun m1 => rsum 0 L2 (fun l2 => if (Z.abs (m - m1) <=? l2)%Z then X l1 m1 l2 (m - m1)%Z else 0))).
(** The same sum with absolute values *)
Definition abs_weight (c : Z -> Z -> Z -> Z -> Z -> R) (L1 L2 : Z) (u v : Z -> Z -> C) (l m : Z) : R :=
  over_pairs L1 L2 m (fun l1 m1 l2 m2 => Rabs (c l1 m1 l2 m2 l) * Cmod (u l1 m1) * Cmod (v l2 m2)).
(** The number of pairs of nonzero modes that contribute to (l, m) *)
Definition nonzero (z : C) : R := if Ceq_dec z (RtoC 0) then 0 else 1.
Definition pairs (L1 L2 : Z) (u v : Z -> Z -> C) (l m : Z) : R :=
  over_pairs L1 L2 m (fun l1 m1 l2 m2 =>
    if (Z.abs (l1 - l2) <=? l)%Z && (l <=? l1 + l2)%Z then nonzero (u l1 m1) * nonzero (v l2 m2) else 0).
(** Room for underflow *)
Definition underflow (L1 L2 : Z) (u v : Z -> Z -> C) (l m : Z) : R :=
  / 2 ^ 1000 * over_pairs L1 L2 m (fun l1 m1 l2 m2 =>
    if (Z.abs (l1 - l2) <=? l)%Z && (l <=? l1 + l2)%Z then nonzero (u l1 m1) * nonzero (v l2 m2) * (1 + Cmod (u l1 m1)) * (1 + Cmod (v l2 m2)) else 0).

(** The computed symbol has a relative error of at most [eps] *)
Definition close_symbol (eps : R) (l l1 l2 m n : Z) : Prop :=
  Rabs (symbol64 l l1 l2 m n - threej l l1 l2 (- m - n) m n) <= eps * Rabs (threej l l1 l2 (- m - n) m n).

(** Every complex product is added up in an order that uses each part once *)
Definition good_ways (way : ways) : Prop :=
  forall l1 m1 l2 m2 l3 idx, adds_all 2 2 (fst (way l1 m1 l2 m2 l3 idx)) /\ adds_all 2 2 (snd (way l1 m1 l2 m2 l3 idx)).
