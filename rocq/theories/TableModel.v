(** The three coefficient tables as they are shipped: the .npy files next to spherical_functions/__init__.py, whose
    contents TableData.v lists. *)
Require Import ZArith Reals Bool List.
From Flocq Require Import Core.
From Verif Require Import Base IndexModel FloatIndexModel TableData.
Import ListNotations.
Open Scope Z_scope.

(** The double that a pair stands for *)
Definition double_of (p : Z * Z) : R := (IZR (fst p) * bpow radix2 (snd p))%R.
Definition file_arr (l : list (Z * Z)) : arr (Z * Z) := mkarr (Z.of_nat (length l)) (fun i => nth (Z.to_nat i) l (0, 0)).

(** Entry (twoell, twomp, twom) of Wigner_coefficients.npy in terms of the transcription *)
Definition Wigner_stored (t mp m : Z) : Z * Z :=
  match find (fun x => let '(t', mp', m', _) := x in (t' =? t) && (mp' =? mp) && (m' =? m)) Wigner_file_exceptions with
  | Some (_, p) => p
  | None =>
    let '(x, y) := if Z.abs mp <=? Z.abs m then (mp, m) else (m, mp) in
    let '(x, y) := if y <? 0 then (- x, - y) else (x, y) in
    nth (Z.to_nat ((x + y) / 2)) (nth (Z.to_nat (y / 2)) (nth (Z.to_nat t) Wigner_file_quarter []) []) (0, 0)
  end.
Definition Wigner_file : res (arr (Z * Z)) := gen_Wigner Wigner_stored (fun _ => (0, 0)) 32.

(** [round(2 * x)] of a double *)
Definition round_twice (x : R) : Z := ZnearestE (RN64 (2 * x)).

(** spherical_functions/__init__.py:54-59 *)
Definition binomial_coefficient64 (n k : Z) : res R :=
  do p <- binomial_lookup (file_arr binomial_file) n k; Ok (double_of p).
(** spherical_functions/__init__.py:62-71 *)
Definition ladder_operator_coefficient64 (ell m : R) : res R :=
  do p <- ladder_lookup (file_arr ladder_file) (round_twice ell) (round_twice m); Ok (double_of p).
(** spherical_functions/__init__.py:74-87 *)
Definition Wigner_coefficient64 (ell mp m : R) : res R :=
  do tab <- Wigner_file;
  do p <- Wigner_lookup tab (round_twice ell) (round_twice mp) (round_twice m); Ok (double_of p).
