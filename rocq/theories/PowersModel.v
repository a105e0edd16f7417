(** Model of spherical_functions/recursions/complex_powers.py. *)
Require Import ZArith Lia Reals Lra Bool.
From Coquelicot Require Import Complex.
From Verif Require Import Base CBase.
Open Scope Z_scope.

(** A two-dimensional numpy buffer as seen by compiled code.  The second index is checked against its
    own axis (in reality an excess spills into the next row). *)
Record arr2 (A : Type) : Type := mkarr2 { nrow : Z; ncol : Z; get2 : Z -> Z -> A }.
Arguments mkarr2 {A} nrow ncol get2.
Arguments nrow {A} a.
Arguments ncol {A} a.
Arguments get2 {A} a i j.

Definition rd2 {A} (a : arr2 A) (i j : Z) : res A :=
  if in_bounds (nrow a) i && in_bounds (ncol a) j then Ok (get2 a i j) else Err OutOfBounds.
Definition wr2 {A} (a : arr2 A) (i j : Z) (v : A) : res (arr2 A) :=
  if in_bounds (nrow a) i && in_bounds (ncol a) j
  then Ok (mkarr2 (nrow a) (ncol a)
             (fun k l => if (k =? i) && (l =? j) then v else get2 a k l))
  else Err OutOfBounds.

(** recursions/complex_powers.py:52-54, the loop
    [while z.real<0 or z.imag<0: theta *= 1j; z /= 1j].
    [fuel] bounds the iterations; running out is [Diverges]. *)
Fixpoint quadrant (fuel : nat) (z theta : C) : res (C * C) :=
  if Rlt_dec (Re z) 0 then
    match fuel with
    | O => Err Diverges
    | S fuel => quadrant fuel (z / Ci)%C (theta * Ci)%C
    end
  else if Rlt_dec (Im z) 0 then
    match fuel with
    | O => Err Diverges
    | S fuel => quadrant fuel (z / Ci)%C (theta * Ci)%C
    end
  else Ok (z, theta).

(** recursions/complex_powers.py:61-65, loop body; state: (zpowers, dz, clock). *)
Definition powers_step (i : Z) (t theta : C) (m : Z) (st : arr2 C * C * C) : res (arr2 C * C * C) :=
  let '(zp, dz, clock) := st in
  do x <- rd2 zp i (m - 1);
  do zp <- wr2 zp i m (x + dz)%C;
  do y <- rd2 zp i m;
  let dz := (dz + t * y)%C in
  do w <- rd2 zp i (m - 1);
  do zp <- wr2 zp i (m - 1) (w * clock)%C;
  Ok (zp, dz, (clock * theta)%C).

(** recursions/complex_powers.py:50-66, one value of the outer loop. *)
Definition powers_row (fuel : nat) (M : Z) (zravel : arr C) (i : Z) (zp : arr2 C) : res (arr2 C) :=
  do z <- rd zravel i;
  do ' (z, theta) <- quadrant fuel z (RtoC 1);
  do zp <- wr2 zp i 0 (RtoC 1);
  do zp <- wr2 zp i 1 z;
  let clock := theta in
  let dc := (- 2 * (Im (Csqrt z)) ^ 2)%R in
  let t := RtoC (2 * dc) in
  do z1 <- rd2 zp i 1;
  let dz := (RtoC dc * (RtoC 1 + RtoC 2 * z1) + Ci * RtoC (sqrt (- dc * (2 + dc))))%C in
  do ' (zp, dz, clock) <- for_range 2 (M + 1) (powers_step i t theta) (zp, dz, clock);
  do x <- rd2 zp i M;
  wr2 zp i M (x * clock)%C.

(** recursions/complex_powers.py:47-66 [_complex_powers]. *)
Definition complex_powers_fill (fuel : nat) (zravel : arr C) (M : Z) (zp : arr2 C) : res (arr2 C) :=
  for_range 0 (alen zravel) (powers_row fuel M zravel) zp.

(** recursions/complex_powers.py:7-43 [complex_powers] for [zpowers=None]; the reshape of the
    input and output is the identity on the flattened data. *)
Definition complex_powers (fuel : nat) (garbage : Z -> Z -> C) (z : arr C) (M : Z) : res (arr2 C) :=
  if M + 1 <? 0 then Err ValueError
  else complex_powers_fill fuel z M (mkarr2 (alen z) (M + 1) garbage).
