(** Property C65: the accuracy of the derivatives of Modes, of addition and subtraction and of multiplication and division by
    numbers in double precision.  The functions ending in 64 (FloatModesModel.v) round every operation; [u64] is 2^-53 and
    [tiny64] the smallest positive double.  [gives_close n A h f s w] (FloatModesSpec.v): [A] returns new modes of spin weight
    [s] whose real and imaginary parts are those of [w] up to n units of 2^-53, relatively, and underflow. *)
Require Import ZArith Lia List Reals Lra Bool Permutation.
From Coquelicot Require Import Complex.
From Verif Require Import Base CBase IndexModel FloatIndexModel FloatPowersSpec FloatConvSpec ModesModel ModesSpec FloatModesModel FloatModesSpec.
From Verif Require FloatAlgebraProps.
Import ListNotations.
Open Scope Z_scope.

(** ** C65 *)

(** The left derivatives: L^2, Lz and its raising and lowering operators *)
Theorem C65_L :
  forall h f, wf h f ->
  let s := spin (md f) in
  gives_close (21 / 10) Lsquared64 h f s (fun idx ell m => RtoC (IZR (ell * (ell + 1))) * mode h f idx ell m)%C
  /\ gives_close (21 / 10) Lz64 h f s (fun idx ell m => RtoC (IZR m) * mode h f idx ell m)%C
  /\ gives_close (31 / 10) Lplus64 h f s (fun idx ell m => RtoC (sqrt (IZR ((ell + m) * (ell - m + 1)))) * mode h f idx ell (m - 1)%Z)%C
  /\ gives_close (31 / 10) Lminus64 h f s (fun idx ell m => RtoC (sqrt (IZR ((ell - m) * (ell + m + 1)))) * mode h f idx ell (m + 1)%Z)%C.
Proof. exact FloatAlgebraProps.C65_L. Qed.
Print Assumptions C65_L.

(** The right derivatives *)
Theorem C65_R :
  forall h f, wf h f ->
  let s := spin (md f) in
  gives_close (21 / 10) Rsquared64 h f s (fun idx ell m => RtoC (IZR (ell * (ell + 1))) * mode h f idx ell m)%C
  /\ gives_close (21 / 10) Rz64 h f s (fun idx ell m => RtoC (IZR (- s)) * mode h f idx ell m)%C
  /\ gives_close (31 / 10) Rplus64 h f (s - 1) (fun idx ell m => RtoC (sqrt (IZR ((ell + s) * (ell - s + 1)))) * mode h f idx ell m)%C
  /\ gives_close (31 / 10) Rminus64 h f (s + 1) (fun idx ell m => RtoC (sqrt (IZR ((ell - s) * (ell + s + 1)))) * mode h f idx ell m)%C.
Proof. exact FloatAlgebraProps.C65_R. Qed.
Print Assumptions C65_R.

(** eth and ethbar *)
Theorem C65_eth :
  forall h f, wf h f ->
  let s := spin (md f) in
  gives_close (31 / 10) eth64 h f (s + 1) (fun idx ell m => RtoC (sqrt (IZR ((ell - s) * (ell + s + 1)))) * mode h f idx ell m)%C
  /\ gives_close (31 / 10) ethbar64 h f (s - 1) (fun idx ell m => - (RtoC (sqrt (IZR ((ell + s) * (ell - s + 1)))) * mode h f idx ell m))%C.
Proof. exact FloatAlgebraProps.C65_eth. Qed.
Print Assumptions C65_eth.

(** Every entry of a sum or difference is the exact one rounded once; beyond the shorter operand it is the exact one *)
Theorem C65_add :
  forall h f g subtraction sh, wf h f -> wf h g -> stored h f -> 0 <= ellmax (md f) -> 0 <= ellmax (md g) ->
  spin (md f) = spin (md g) -> broadcast (lead (nd f)) (lead (nd g)) = Some sh ->
  let entry k idx ell m := if ell <=? ellmax (md k) then mode h k (bidx (lead (nd k)) idx) ell m else RtoC 0 in
  exists h' r, add64 h f g subtraction = Ok (h', r)
    /\ new_modes h h' r (spin (md f)) (Z.max (ellmax (md f)) (ellmax (md g))) sh
         (fun idx ell m => rounded (if subtraction then entry f idx ell m - entry g idx ell m else entry f idx ell m + entry g idx ell m)%C).
Proof. exact FloatAlgebraProps.C65_add. Qed.
Print Assumptions C65_add.

(** Products with numbers, with or without fused operations *)
Theorem C65_multiply :
  forall ord h f x sh, wf h f -> 0 <= ellmax (md f) -> (length (sc_shape x) <= length (lead (nd f)))%nat ->
  broadcast (lead (nd f)) (sc_shape x) = Some sh ->
  (forall idx k, adds_all 2 2 (fst (ord idx k)) /\ adds_all 2 2 (snd (ord idx k))) ->
  exists h' r v, mul_scalar64 ord h f x = Ok (h', r) /\ new_modes h h' r (spin (md f)) (ellmax (md f)) sh v
    /\ forall idx ell m, at_index sh idx -> 0 <= ell <= ellmax (md f) -> - ell <= m <= ell ->
         let a := mode h f (bidx (lead (nd f)) idx) ell m in let b := sc_val x (bidx (sc_shape x) idx) in
         (Cmod (v idx ell m - a * b)%C <= 3 * u64 * (Cmod a * Cmod b) + 4 * tiny64)%R.
Proof. exact FloatAlgebraProps.C65_multiply. Qed.
Print Assumptions C65_multiply.

(** Quotients by numbers whose modulus is not extreme, by Smith's algorithm, with or without fused operations *)
Theorem C65_divide :
  forall ord h f x sh, wf h f -> 0 <= ellmax (md f) -> (length (sc_shape x) <= length (lead (nd f)))%nat ->
  broadcast (lead (nd f)) (sc_shape x) = Some sh ->
  (forall idx, at_index sh idx -> (/ 2 ^ 900 <= Cmod (sc_val x (bidx (sc_shape x) idx)) <= 2 ^ 900)%R) ->
  exists h' r v, div_scalar64 ord h f x = Ok (h', r) /\ new_modes h h' r (spin (md f)) (ellmax (md f)) sh v
    /\ forall idx ell m, at_index sh idx -> 0 <= ell <= ellmax (md f) -> - ell <= m <= ell ->
         let a := mode h f (bidx (lead (nd f)) idx) ell m in let b := sc_val x (bidx (sc_shape x) idx) in
         (Cmod (v idx ell m - a / b)%C <= 18 * u64 * (Cmod a / Cmod b) + 3 * tiny64 * (1 + / Cmod b))%R.
Proof. exact FloatAlgebraProps.C65_divide. Qed.
Print Assumptions C65_divide.

(** Two arrays of modes of spin weight -1, of shapes (2,) and (), up to l = 3 and l = 2; both ways of adding two products; the
    number 3 + 4i *)
Example C65_nonvacuous :
  wf FloatAlgebraProps.example_heap FloatAlgebraProps.example_f /\ wf FloatAlgebraProps.example_heap FloatAlgebraProps.example_g
  /\ stored FloatAlgebraProps.example_heap FloatAlgebraProps.example_f
  /\ spin (md FloatAlgebraProps.example_f) = spin (md FloatAlgebraProps.example_g)
  /\ broadcast (lead (nd FloatAlgebraProps.example_f)) (lead (nd FloatAlgebraProps.example_g)) = Some [2]
  /\ adds_all 2 2 (Plus (Prod 0) (Prod 1)) /\ adds_all 2 2 (Fused 1 (Prod 0))
  /\ (let x := mkscalars [] (fun _ => (3, 4)%R) in
        broadcast (lead (nd FloatAlgebraProps.example_f)) (sc_shape x) = Some [2]
        /\ forall idx, at_index [2] idx -> (/ 2 ^ 900 <= Cmod (sc_val x (bidx (sc_shape x) idx)) <= 2 ^ 900)%R).
Proof.
  exact FloatAlgebraProps.C65_example.
Qed.
