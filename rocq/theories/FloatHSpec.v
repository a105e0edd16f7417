(** The numbers that the H recursion produces in floating-point arithmetic, as functions of (n, m', m) and of the cosine [c] and the
    sine [s] of one angle: no storage, no n_max, no other angle.  Used in the proofs about FloatHModel.v. *)
Require Import ZArith Reals.
Open Scope R_scope.

Section Spec.
Variable rnd : R -> R.

(** ** The coefficients *)
Definition aflt (n m : Z) : R := rnd (sqrt (rnd (rnd (IZR ((n + 1 + m) * (n + 1 - m))) / rnd (IZR ((2 * n + 1) * (2 * n + 3)))))).
Definition bflt (n m : Z) : R :=
  let v := rnd (sqrt (rnd (rnd (IZR ((n - m - 1) * (n - m))) / rnd (IZR ((2 * n - 1) * (2 * n + 1)))))) in
  if (m <? 0)%Z then rnd (v * -1) else v.
Definition dflt (n m : Z) : R :=
  let v := rnd (1 / 2 * rnd (sqrt (rnd (IZR ((n - m) * (n + m + 1)))))) in
  if (m <? 0)%Z then rnd (v * -1) else v.
Definition gflt (n m : Z) : R := rnd (rnd (IZR (2 * (m + 1))) / rnd (sqrt (rnd (IZR ((n - m) * (n + m + 1)))))).
Definition hflt (n m : Z) : R := rnd (sqrt (rnd (rnd (IZR ((n + m + 2) * (n - m - 1))) / rnd (IZR ((n - m) * (n + m + 1)))))).

(** ** The recursion, for one angle *)
Variables c s : R.
Definition normf (n : Z) : R := rnd (sqrt (rnd (IZR (4 * n + 2)))).
(** the element m = n of row m' = 0 before its normalisation, n = k + 1 *)
Fixpoint topf (k : nat) : R :=
  match k with
  | O => rnd (sqrt 3)
  | S k' => rnd (rnd (sqrt (rnd (1 + rnd (1 / 2 / rnd (IZR (Z.of_nat k + 1)))))) * topf k')
  end.
Definition recf (n m : Z) (x y : R) : R := rnd (rnd (rnd (gflt n m * c) * x) - rnd (rnd (hflt n m * rnd (s ^ 2)) * y)).
(** the element m = n - k, before its normalisation *)
Fixpoint rawf (n : Z) (k : nat) : R :=
  match k with
  | O => topf (Z.to_nat (n - 1))
  | S k' => match k' with
            | O => rnd (rnd (gflt n (n - 1) * c) * rawf n k')
            | S k'' => recf n (n - Z.of_nat k) (rawf n k') (rawf n k'')
            end
  end.
Fixpoint preff (n : Z) (i : nat) : R := match i with O => rnd (1 / normf n) | S i' => rnd (preff n i' * s) end.
Fixpoint powf (i : nat) : R := match i with O => 1 | S i' => rnd (powf i' * s) end.
Definition H0f (n m : Z) : R :=
  if (m =? n)%Z then rnd (rawf n 0 * rnd (powf (Z.to_nat n) / normf n))
  else if (n =? 1)%Z then rnd (rnd (gflt 1 0 * c) / rnd (sqrt 2))
  else if (m =? 0)%Z then rnd (recf n 0 (rawf n (Z.to_nat (n - 1))) (rawf n (Z.to_nat (n - 2))) / normf n)
  else rnd (rawf n (Z.to_nat (n - m)) * preff n (Z.to_nat m)).
Definition H1f (n m : Z) : R :=
  rnd (rnd (1 / bflt (n + 1) 0) * rnd (rnd (1 / 2 * rnd (rnd (rnd (bflt (n + 1) (- m - 1) * rnd (1 - c)) * H0f (n + 1) (m + 1))
    - rnd (rnd (bflt (n + 1) (m - 1) * rnd (1 + c)) * H0f (n + 1) (m - 1)))) - rnd (rnd (aflt n m * s) * H0f (n + 1) m))).
(** the rows m' >= 0 *)
Fixpoint upf (n : Z) (k : nat) (m : Z) : R :=
  match k with
  | O => if (m <? 0)%Z then H0f n 1 else H0f n m
  | S k' => match k' with
            | O => if (m =? 0)%Z then H0f n 1 else H1f n m
            | S k'' => let p := Z.of_nat k' in
                let d := rnd (rnd (dflt n (p - 1) * upf n k'' m) - rnd (dflt n (m - 1) * upf n k' (m - 1))) in
                rnd (rnd (1 / dflt n p) * (if (m =? n)%Z then d else rnd (d + rnd (dflt n m * upf n k' (m + 1)))))
            end
  end.
(** the rows m' = -k <= 0 *)
Fixpoint dnf (n : Z) (k : nat) (m : Z) : R :=
  match k with
  | O => upf n 0 m
  | S k' => let p := (- Z.of_nat k')%Z in
      let x := match k' with O => upf n 1 m | S k'' => dnf n k'' m end in
      let d := rnd (rnd (dflt n p * x) + rnd (dflt n (m - 1) * dnf n k' (m - 1))) in
      rnd (rnd (1 / dflt n (p - 1)) * (if (m =? n)%Z then d else rnd (d - rnd (dflt n m * dnf n k' (m + 1)))))
  end.
Definition Hflt (n mp m : Z) : R :=
  if (n =? 0)%Z then 1 else if (0 <=? mp)%Z then upf n (Z.to_nat mp) m else dnf n (Z.to_nat (- mp)) m.
End Spec.
