(** Properties C09-C12: complex powers, constants and vectors as modes, eth and ethbar on plain arrays. *)
Require Import ZArith Lia Reals Lra Bool.
From Coquelicot Require Import Complex.
From Verif Require Import Base CBase IndexModel PowersModel ConvModel.
From Verif Require PowersProofs ConvProofs ConvProps.
Open Scope Z_scope.

(** ** C09 *)
(** Three turns of the quadrant loop always suffice; the contents of the uninitialised output never show. *)
Theorem C09_complex_powers :
  forall fuel garbage (z : arr C) M, (3 <= fuel)%nat -> 1 <= M -> 0 <= alen z ->
    (forall i, 0 <= i < alen z -> Cmod (aget z i) = 1%R) ->
    exists zp, complex_powers fuel garbage z M = Ok zp /\ nrow zp = alen z /\ ncol zp = M + 1
      /\ forall i m, 0 <= i < alen z -> 0 <= m <= M -> get2 zp i m = Cpow (aget z i) (Z.to_nat m).
Proof. exact PowersProofs.complex_powers_ok. Qed.
Print Assumptions C09_complex_powers.

(** The hypothesis [1 <= M] is needed: with [M = 0] the code writes outside its output. *)
Theorem C09_M0_refuted :
  forall fuel garbage (z : arr C), (3 <= fuel)%nat -> 1 <= alen z ->
    complex_powers fuel garbage z 0 = Err OutOfBounds.
Proof. exact PowersProofs.complex_powers_M0. Qed.
Print Assumptions C09_M0_refuted.

Example C09_nonvacuous :
  let z := mkarr 2 (fun i => if i =? 0 then Ci else ((- (3 / 5))%R, (- (4 / 5))%R) : C) in
  0 <= alen z /\ forall i, 0 <= i < alen z -> Cmod (aget z i) = 1%R.
Proof.
  cbv zeta. split; [simpl; lia|]. intros i Hi. simpl in *.
  destruct (i =? 0); unfold Cmod; simpl.
  - replace (0 * (0 * 1) + 1 * (1 * 1))%R with 1%R by ring. apply sqrt_1.
  - replace (- (3 / 5) * (- (3 / 5) * 1) + - (4 / 5) * (- (4 / 5) * 1))%R with 1%R by field. apply sqrt_1.
Qed.

(** ** C10 *)
Theorem C10_roundtrips :
  (forall c, constant_from_ell_0_mode (constant_as_ell_0_mode c) = c)
  /\ (forall c, constant_as_ell_0_mode (constant_from_ell_0_mode c) = c)
  /\ (forall v, vector_from_ell_1_modes (vector_as_ell_1_modes v) = v)
  /\ (forall v, vector_as_ell_1_modes (vector_from_ell_1_modes v) = v).
Proof.
  exact (conj ConvProofs.constant_inv1 (conj ConvProofs.constant_inv2
          (conj ConvProofs.vector_inv1 ConvProofs.vector_inv2))).
Qed.
Print Assumptions C10_roundtrips.

(** [Y_00 = sqrt (1 / 4 pi)]. *)
Theorem C10_constant_function :
  forall c, (constant_as_ell_0_mode c * RtoC (sqrt (1 / (4 * PI))))%C = c.
Proof. exact ConvProps.C10_constant_function. Qed.
Print Assumptions C10_constant_function.

(** The weights of [Y_{1,-1}], [Y_{1,0}], [Y_{1,1}] sum to the dot product with the unit vector in
    the direction (theta, phi). *)
Theorem C10_vector_function :
  forall (x y z : C) (theta phi : R),
    let '(a, b, d) := vector_as_ell_1_modes (x, y, z) in
    (a * (RtoC (sqrt (3 / (8 * PI)) * sin theta) * cis (- phi))
     + b * RtoC (sqrt (3 / (4 * PI)) * cos theta)
     + d * (RtoC (- sqrt (3 / (8 * PI)) * sin theta) * cis phi)
     = x * RtoC (sin theta * cos phi) + y * RtoC (sin theta * sin phi) + z * RtoC (cos theta))%C.
Proof. exact ConvProps.C10_vector_function. Qed.
Print Assumptions C10_vector_function.

(** ** C11 *)
Theorem C11_eth_factors :
  forall modes s ell_min ell_max,
    0 <= ell_min <= ell_max + 1 -> alen modes = LM_total_size ell_min ell_max ->
    exists e eb eG ebG,
      eth_NP modes s ell_min = Ok e /\ ethbar_NP modes s ell_min = Ok eb
      /\ eth_GHP modes s ell_min = Ok eG /\ ethbar_GHP modes s ell_min = Ok ebG
      /\ alen e = alen modes /\ alen eb = alen modes /\ alen eG = alen modes /\ alen ebG = alen modes
      /\ forall ell m, ell_min <= ell <= ell_max -> - ell <= m <= ell ->
         let k := LM_index ell m ell_min in
         (Z.abs (s + 1) <= ell ->
            aget e k = (RtoC (sqrt ((IZR ell - IZR s) * (IZR ell + IZR s + 1))) * aget modes k)%C)
         /\ (ell < Z.abs (s + 1) -> aget e k = RtoC 0)
         /\ (Z.abs (s - 1) <= ell ->
            aget eb k = (- (RtoC (sqrt ((IZR ell + IZR s) * (IZR ell - IZR s + 1))) * aget modes k))%C)
         /\ (ell < Z.abs (s - 1) -> aget eb k = RtoC 0)
         /\ aget eG k = (aget e k / RtoC (sqrt 2))%C
         /\ aget ebG k = (aget eb k / RtoC (sqrt 2))%C.
Proof. exact ConvProps.C11_factors. Qed.
Print Assumptions C11_eth_factors.

Theorem C11_eth_commutator :
  forall modes s ell_min ell_max,
    0 <= ell_min <= ell_max + 1 -> alen modes = LM_total_size ell_min ell_max ->
    (forall ell m, ell_min <= ell <= ell_max -> - ell <= m <= ell -> ell < Z.abs s ->
       aget modes (LM_index ell m ell_min) = RtoC 0) ->
    exists e eb ebe eeb,
      eth_NP modes s ell_min = Ok e /\ ethbar_NP modes s ell_min = Ok eb
      /\ ethbar_NP e (s + 1) ell_min = Ok ebe /\ eth_NP eb (s - 1) ell_min = Ok eeb
      /\ forall ell m, ell_min <= ell <= ell_max -> - ell <= m <= ell ->
         let k := LM_index ell m ell_min in
         aget ebe k = (RtoC (- ((IZR ell - IZR s) * (IZR ell + IZR s + 1))) * aget modes k)%C
         /\ (aget ebe k - aget eeb k = RtoC (2 * IZR s) * aget modes k)%C.
Proof. exact ConvProps.C11_commutator. Qed.
Print Assumptions C11_eth_commutator.

Example C11_nonvacuous :
  let modes := mkarr 21 (fun k => RtoC (IZR k + 1)) in
  0 <= 2 <= 4 + 1 /\ alen modes = LM_total_size 2 4
  /\ forall ell m, 2 <= ell <= 4 -> - ell <= m <= ell -> ell < Z.abs (-2) ->
       aget modes (LM_index ell m 2) = RtoC 0.
Proof. simpl. repeat split; lia. Qed.

(** ** C12 *)
Theorem C12_inverse_after_ethbar :
  forall modes s ell_min ell_max,
    0 <= ell_min <= ell_max + 1 -> alen modes = LM_total_size ell_min ell_max ->
    exists d i, ethbar_NP modes (s + 1) ell_min = Ok d /\ ethbar_inverse_NP d s ell_min = Ok i
      /\ forall ell m, ell_min <= ell <= ell_max -> - ell <= m <= ell ->
         Z.abs s <= ell -> Z.abs (s + 1) <= ell ->
         aget i (LM_index ell m ell_min) = aget modes (LM_index ell m ell_min).
Proof. exact ConvProps.C12_left. Qed.
Print Assumptions C12_inverse_after_ethbar.

Theorem C12_ethbar_after_inverse :
  forall modes s ell_min ell_max,
    0 <= ell_min <= ell_max + 1 -> alen modes = LM_total_size ell_min ell_max ->
    exists d i, ethbar_inverse_NP modes s ell_min = Ok i /\ ethbar_NP i (s + 1) ell_min = Ok d
      /\ forall ell m, ell_min <= ell <= ell_max -> - ell <= m <= ell ->
         Z.abs s <= ell -> Z.abs (s + 1) <= ell ->
         aget d (LM_index ell m ell_min) = aget modes (LM_index ell m ell_min).
Proof. exact ConvProps.C12_right. Qed.
Print Assumptions C12_ethbar_after_inverse.

(** Outside that range the mode really is lost: the condition cannot be dropped. *)
Theorem C12_kernel :
  exists modes d i,
    alen modes = LM_total_size 0 0
    /\ ethbar_inverse_NP modes 0 0 = Ok i /\ ethbar_NP i 1 0 = Ok d
    /\ aget d (LM_index 0 0 0) <> aget modes (LM_index 0 0 0).
Proof. exact ConvProps.C12_kernel. Qed.
Print Assumptions C12_kernel.

Example C12_nonvacuous : exists ell m s, 2 <= ell <= 4 /\ - ell <= m <= ell
  /\ Z.abs s <= ell /\ Z.abs (s + 1) <= ell /\ s <> 0.
Proof. exists 3, (-1), (-2). lia. Qed.
