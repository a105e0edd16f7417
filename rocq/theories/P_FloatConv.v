(** Property C60: the rounding errors of mode_conversions.py.  The functions ending in 64 (FloatConvModel.v) round every
    operation to double precision; [u64] is 2^-53, and [close n x y] allows n roundings relative to y. *)
Require Import ZArith Lia Reals Lra Bool.
From Flocq Require Import Core.
From Coquelicot Require Import Complex.
From Verif Require Import Base CBase IndexModel FloatIndexModel FloatPowersModel FloatPowersSpec FloatConvModel FloatConvSpec ConvModel.
From Verif Require FloatConvProofs FloatConvProps.
Open Scope Z_scope.

(** ** C60 *)

(** Constants, in both directions and around both ways *)
Theorem C60_constants :
  forall div, good_div div ->
  forall c : C,
    cclose 5 (constant_as64 c) (constant_as_ell_0_mode c) /\
    cclose 7 (constant_from64 div c) (constant_from_ell_0_mode c) /\
    cclose 5 (constant_from64 div (constant_as64 c)) c /\
    cclose 5 (constant_as64 (constant_from64 div c)) c.
Proof. exact FloatConvProps.C60_constants. Qed.
Print Assumptions C60_constants.

(** Real vectors: the modes are accurate, and converting back gives a vector that is real and close *)
Theorem C60_vectors :
  forall div, good_div div ->
  forall x y z, is_double x -> is_double y ->
  exists m0 m1 m2 x' y' z',
    vector_as64 (RtoC x, RtoC y, RtoC z) = (m0, m1, m2) /\
    vector_from64 div (m0, m1, m2) = (RtoC x', RtoC y', RtoC z') /\
    close 7 x' x /\ close 7 y' y /\ close 7 z' z /\
    let '(e0, e1, e2) := vector_as_ell_1_modes (RtoC x, RtoC y, RtoC z) in
    cclose 6 m0 e0 /\ cclose 6 m1 e1 /\ cclose 6 m2 e2.
Proof. exact FloatConvProps.C60_vectors. Qed.
Print Assumptions C60_vectors.

(** The four eth operators *)
Theorem C60_eth :
  forall modes s ell_min ell_max,
    0 <= ell_min <= ell_max + 1 -> (ell_max + 1) ^ 2 < 2 ^ 53 -> alen modes = LM_total_size ell_min ell_max ->
    array_close 4 (eth_NP64 modes s ell_min) (eth_NP modes s ell_min) /\
    array_close 4 (ethbar_NP64 modes s ell_min) (ethbar_NP modes s ell_min) /\
    array_close 5 (eth_GHP64 modes s ell_min) (eth_GHP modes s ell_min) /\
    array_close 5 (ethbar_GHP64 modes s ell_min) (ethbar_GHP modes s ell_min).
Proof. exact FloatConvProps.C60_eth. Qed.
Print Assumptions C60_eth.

(** The inverse, and the inverse of what [ethbar_NP] computed *)
Theorem C60_ethbar_inverse :
  forall div, good_div div ->
  forall modes s ell_min ell_max,
    0 <= ell_min <= ell_max + 1 -> (ell_max + 1) ^ 2 < 2 ^ 53 -> alen modes = LM_total_size ell_min ell_max ->
    array_close 6 (ethbar_inverse_NP64 div modes s ell_min) (ethbar_inverse_NP modes s ell_min).
Proof. exact FloatConvProps.C60_ethbar_inverse. Qed.
Print Assumptions C60_ethbar_inverse.
Theorem C60_ethbar_round_trip :
  forall div, good_div div ->
  forall modes s ell_min ell_max,
    0 <= ell_min <= ell_max + 1 -> (ell_max + 1) ^ 2 < 2 ^ 53 -> alen modes = LM_total_size ell_min ell_max ->
    exists b c, ethbar_NP64 modes (s + 1) ell_min = Ok b /\ ethbar_inverse_NP64 div b s ell_min = Ok c /\ alen c = alen modes /\
      forall ell m, ell_min <= ell <= ell_max -> Z.abs s <= ell -> Z.abs (s + 1) <= ell -> - ell <= m <= ell ->
        cclose 5 (aget c (LM_index ell m ell_min)) (aget modes (LM_index ell m ell_min)).
Proof. exact FloatConvProps.C60_ethbar_round_trip. Qed.
Print Assumptions C60_ethbar_round_trip.

(** Both a plain division and a multiplication by the reciprocal are divisions in the sense of these theorems. *)
Example C60_divisions : good_div (fun a k => RN64 (a / k)) /\ good_div (fun a k => RN64 (a * RN64 (1 / k))).
Proof. split; [exact FloatConvProofs.good_div_direct|exact FloatConvProofs.good_div_reciprocal]. Qed.
(** 3 is a double; 77 modes from ell = 2 to ell = 8 have spin weights -2 and -1 among those the round trip covers, from ell = 2 on. *)
Example C60_nonvacuous :
  is_double 3 /\ 0 <= 2 <= 8 + 1 /\ (8 + 1) ^ 2 < 2 ^ 53 /\ LM_total_size 2 8 = 77 /\ Z.abs (-2) <= 2 /\ Z.abs (-2 + 1) <= 2.
Proof.
  split; [|repeat split; cbn; lia]. apply FloatIndexProofs.RN64_int. lia.
Qed.
