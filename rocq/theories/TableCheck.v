(** The computation behind the statements about the shipped tables. *)
Require Import ZArith Bool List.
From Verif Require Import Base IndexModel TableData TableModel.
Import ListNotations.
Open Scope Z_scope.

(** Rows of Pascal's triangle *)
Fixpoint zip_add (l l' : list Z) : list Z :=
  match l, l' with x :: l, y :: l' => x + y :: zip_add l l' | _, _ => [] end.
Fixpoint row (n : nat) : list Z :=
  match n with O => [1] | S n => let r := row n in zip_add (0 :: r) (r ++ [0]) end.
Definition pascal : list (list Z) := map row (seq 0 65).
Definition choose (pas : list (list Z)) (n k : nat) : Z := nth k (nth n pas []) 0.

(** [M * 2^e] is the integer [n] up to half a unit in the last place *)
Definition int_ok (n : Z) (p : Z * Z) : bool :=
  let '(M, e) := p in
  if e <=? 0 then M =? Z.shiftl n (- e) else Z.shiftl (Z.abs (Z.shiftl M e - n)) 53 <=? n.
(** the square root of [q / 4] is between [M * 2^e] and [(M + 1) * 2^e] *)
Definition sqrt_ok (q : Z) (p : Z * Z) : bool :=
  let '(M, e) := p in
  if q =? 0 then (M =? 0) else
  (4503599627370496 <=? M) &&
  let M2 := M * M in
  if e <=? 0 then let s := Z.shiftl q (- 2 * e) in (4 * M2 <=? s) && (s <=? 4 * (M2 + 2 * M + 1))
  else (Z.shiftl (4 * M2) (2 * e) <=? q) && (q <=? Z.shiftl (4 * (M2 + 2 * M + 1)) (2 * e)).

Definition nats (a b : nat) : list nat := seq a (S b - a).
Definition binomial_at (pas : list (list Z)) (n k : nat) : bool :=
  int_ok (choose pas n k) (nth (Z.to_nat (binomial_index (Z.of_nat n) (Z.of_nat k))) binomial_file (0, 0)).
Definition ladder_at (t j : nat) : bool :=
  sqrt_ok (Z.of_nat t * (Z.of_nat t + 2) - (2 * Z.of_nat j - Z.of_nat t) * (2 * Z.of_nat j - Z.of_nat t + 2))
    (nth (Z.to_nat (ladder_index (Z.of_nat t) (2 * Z.of_nat j - Z.of_nat t))) ladder_file (0, 0)).
(** square of the coefficient for [ell + m = a >= b = ell + mp] *)
Definition Wsq (pas : list (list Z)) (t a b : nat) : Z := choose pas (t - b) (a - b) * choose pas a (a - b).
Definition Wigner_at (pas : list (list Z)) (t a b : nat) : bool :=
  sqrt_ok (4 * Wsq pas t a b)
    (nth (a + b - t) (nth (Nat.div2 (2 * a - t)) (nth t Wigner_file_quarter []) []) (0, 0)).
Definition exception_at (pas : list (list Z)) (x : Z * Z * Z * (Z * Z)) : bool :=
  let '(t, mp, m, p) := x in
  let a := Z.to_nat ((t + m) / 2) in let b := Z.to_nat ((t + mp) / 2) in
  sqrt_ok (4 * Wsq pas (Z.to_nat t) (Nat.max a b) (Nat.min a b)) p.
