(** Model of spherical_functions/recursions/complex_powers.py in IEEE double arithmetic: [RN64] (FloatIndexModel.v) rounds
    the result of every operation.  Overflow and signed zeros are not part of the model. *)
Require Import ZArith Reals Bool.
From Coquelicot Require Import Complex.
From Verif Require Import Base CBase FloatIndexModel PowersModel.
Open Scope Z_scope.

(** Sum of two complex numbers, and product of a real number and a complex number *)
Definition cadd64 (a b : C) : C := (RN64 (Re a + Re b), RN64 (Im a + Im b)).
Definition cscale64 (r : R) (a : C) : C := (RN64 (r * Re a), RN64 (r * Im a)).

(** complex_powers.py:61-65, loop body.  [clock] and [theta] are 1, i, -1 or -i, and the products with them are exact. *)
Definition powers_step64 (i : Z) (t : R) (theta : C) (m : Z) (st : arr2 C * C * C) : res (arr2 C * C * C) :=
  let '(zp, dz, clock) := st in
  do x <- rd2 zp i (m - 1);
  do zp <- wr2 zp i m (cadd64 x dz);
  do y <- rd2 zp i m;
  let dz := cadd64 dz (cscale64 t y) in
  do w <- rd2 zp i (m - 1);
  do zp <- wr2 zp i (m - 1) (w * clock)%C;
  Ok (zp, dz, (clock * theta)%C).

(** complex_powers.py:50-66, one value of the outer loop.  The divisions by 1j of the quadrant loop only exchange the parts and
    change signs, so it is the exact one.  [sqrt_im z] is the computed [np.sqrt(z).imag]. *)
Definition powers_row64 (sqrt_im : C -> R) (fuel : nat) (M : Z) (zravel : arr C) (i : Z) (zp : arr2 C) : res (arr2 C) :=
  do z <- rd zravel i;
  do ' (z, theta) <- quadrant fuel z (RtoC 1);
  do zp <- wr2 zp i 0 (RtoC 1);
  do zp <- wr2 zp i 1 z;
  let clock := theta in
  let dc := RN64 (- 2 * RN64 (sqrt_im z * sqrt_im z)) in
  let t := RN64 (2 * dc) in
  do z1 <- rd2 zp i 1;
  let w := (RN64 (1 + RN64 (2 * Re z1)), RN64 (2 * Im z1)) : C in
  let dz := cadd64 (cscale64 dc w) (0%R, RN64 (sqrt (RN64 (- dc * RN64 (2 + dc))))) in
  do ' (zp, dz, clock) <- for_range 2 (M + 1) (powers_step64 i t theta) (zp, dz, clock);
  do x <- rd2 zp i M;
  wr2 zp i M (x * clock)%C.

(** complex_powers.py:47-66 [_complex_powers] *)
Definition complex_powers_fill64 (sqrt_im : C -> R) (fuel : nat) (zravel : arr C) (M : Z) (zp : arr2 C) : res (arr2 C) :=
  for_range 0 (alen zravel) (powers_row64 sqrt_im fuel M zravel) zp.

(** complex_powers.py:7-43 [complex_powers] for [zpowers=None] *)
Definition complex_powers64 (sqrt_im : C -> R) (fuel : nat) (garbage : Z -> Z -> C) (z : arr C) (M : Z) : res (arr2 C) :=
  if M + 1 <? 0 then Err ValueError
  else complex_powers_fill64 sqrt_im fuel z M (mkarr2 (alen z) (M + 1) garbage).
