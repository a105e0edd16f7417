(** Specification of the H functions: H^{m',m}_n(beta) = eps(m') eps(-m) d^n_{m',m}(beta), with Wigner's d matrix the D matrix
    of the rotation through beta about y, given by Wigner's formula. *)
Require Import ZArith Reals.
From Coquelicot Require Import Complex.
From Verif Require Import CBase Fact WignerSpec.
Open Scope R_scope.

(** 1 for k <= 0, (-1)^k for k > 0 *)
Definition eps (k : Z) : R := if (k <=? 0)%Z then 1 else sgn k.
(** The quaternion cos(beta/2) + sin(beta/2) j *)
Definition small_d (n mp m : Z) (beta : R) : R :=
  Re (Wigner_formula (2 * n) (2 * mp) (2 * m) (RtoC (cos (beta / 2))) (RtoC (sin (beta / 2)))).
Definition H_function (n mp m : Z) (beta : R) : R := eps mp * eps (- m) * small_d n mp m beta.
