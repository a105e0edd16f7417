(** Property C68: conjugate, real and imaginary part of Modes in double precision.  The functions ending in 64
    (FloatPartsModel.v) round every operation; [w] says how the complex products and quotients are ordered and fused at each
    entry.  [stored] says that the entries are doubles, [rounded] rounds both parts of a complex number. *)
Require Import ZArith List Reals Lia Lra.
From Coquelicot Require Import Complex.
From Verif Require Import Base CBase IndexModel ModesModel ModesSpec FloatIndexModel FloatPowersSpec FloatConvSpec FloatModesModel
  FloatModesSpec FloatPartsModel FloatPartsSpec.
From Verif Require FloatPartsProps.
Import ListNotations.
Open Scope Z_scope.

(** ** C68 *)

(** The conjugate needs no rounding: its exact modes (C22) are doubles. *)
Theorem C68_conjugate :
  forall h f, wf h f -> stored h f ->
  exists h' r, conjugate h f false = Ok (h', r)
    /\ forall idx ell m, at_index (lead (nd f)) idx -> 0 <= ell <= ellmax (md f) -> - ell <= m <= ell ->
         is_double (Re (mode h' r idx ell m)) /\ is_double (Im (mode h' r idx ell m)).
Proof. exact FloatPartsProps.C68_conjugate. Qed.
Print Assumptions C68_conjugate.

(** Every mode of the real and of the imaginary part is the exact one (C23) rounded once. *)
Theorem C68_real :
  forall w h f, wf h f -> spin (md f) = 0 -> stored h f ->
  exists h' r he re, real_func64 w h f false = Ok (h', r) /\ real_func h f false = Ok (he, re) /\ md r = md re
    /\ new_modes h h' r 0 (ellmax (md f)) (lead (nd f)) (fun idx ell m => rounded (mode he re idx ell m)).
Proof. exact FloatPartsProps.C68_real. Qed.
Print Assumptions C68_real.
Theorem C68_imag :
  forall w h f, good_parts_way w -> wf h f -> spin (md f) = 0 -> stored h f ->
  exists h' r he im, imag_func64 w h f false = Ok (h', r) /\ imag_func h f false = Ok (he, im) /\ md r = md im
    /\ new_modes h h' r 0 (ellmax (md f)) (lead (nd f)) (fun idx ell m => rounded (mode he im idx ell m)).
Proof. exact FloatPartsProps.C68_imag. Qed.
Print Assumptions C68_imag.

(** In place: the same numbers, and nothing else changes. *)
Theorem C68_inplace :
  forall w h f, good_parts_way w -> wf h f -> spin (md f) = 0 -> stored h f ->
  exists h1 r1 h2 i1 h3 h4, real_func64 w h f false = Ok (h1, r1) /\ imag_func64 w h f false = Ok (h2, i1)
    /\ real_func64 w h f true = Ok (h3, f) /\ imag_func64 w h f true = Ok (h4, f)
    /\ same_modes f (mode h3 f) (mode h1 r1) /\ same_modes f (mode h4 f) (mode h2 i1)
    /\ changes_only (buf (nd f)) h h3 /\ changes_only (buf (nd f)) h h4.
Proof. exact FloatPartsProps.C68_inplace. Qed.
Print Assumptions C68_inplace.

(** Both are exactly the modes of real functions, not only up to rounding. *)
Theorem C68_real_valued :
  forall w h f, good_parts_way w -> wf h f -> spin (md f) = 0 -> stored h f ->
  exists h1 r1 h2 i1, real_func64 w h f false = Ok (h1, r1) /\ imag_func64 w h f false = Ok (h2, i1)
    /\ real_valued f (mode h1 r1) /\ real_valued f (mode h2 i1).
Proof. exact FloatPartsProps.C68_real_valued. Qed.
Print Assumptions C68_real_valued.

(** A function that is real has itself as real part and 0 as imaginary part, exactly. *)
Theorem C68_fixed :
  forall w h f, good_parts_way w -> wf h f -> spin (md f) = 0 -> stored h f -> real_valued f (mode h f) ->
  exists h1 r1 h2 i1, real_func64 w h f false = Ok (h1, r1) /\ imag_func64 w h f false = Ok (h2, i1)
    /\ same_modes f (mode h1 r1) (mode h f) /\ same_modes f (mode h2 i1) (fun _ _ _ => RtoC 0).
Proof. exact FloatPartsProps.C68_fixed. Qed.
Print Assumptions C68_fixed.

(** Taking the real part a second time changes nothing. *)
Theorem C68_twice :
  forall w h f, wf h f -> spin (md f) = 0 -> stored h f ->
  exists h1 h2, real_func64 w h f true = Ok (h1, f) /\ stored h1 f /\ real_func64 w h1 f true = Ok (h2, f)
    /\ same_modes f (mode h2 f) (mode h1 f).
Proof. exact FloatPartsProps.C68_twice. Qed.
Print Assumptions C68_twice.

(** Real part plus i times imaginary part: the modes, with an error of one rounding of the larger of the two modes m and -m. *)
Theorem C68_together :
  forall w h f, good_parts_way w -> wf h f -> spin (md f) = 0 -> stored h f ->
  exists h1 r1 h2 i1, real_func64 w h f false = Ok (h1, r1) /\ imag_func64 w h f false = Ok (h2, i1)
    /\ forall idx ell m, at_index (lead (nd f)) idx -> 0 <= ell <= ellmax (md f) -> - ell <= m <= ell ->
         let x := mode h f idx ell m in let y := mode h f idx ell (- m) in
         let z := (mode h1 r1 idx ell m + Ci * mode h2 i1 idx ell m)%C in
         (Rabs (Re z - Re x) <= u64 * Rmax (Rabs (Re x)) (Rabs (Re y)) + tiny64
          /\ Rabs (Im z - Im x) <= u64 * Rmax (Rabs (Im x)) (Rabs (Im y)) + tiny64)%R.
Proof. exact FloatPartsProps.C68_together. Qed.
Print Assumptions C68_together.

(** Modes of spin weight 0 where a rounding takes place *)
Example C68_nonvacuous :
  wf FloatPartsProps.parts_heap FloatPartsProps.parts_modes /\ spin (md FloatPartsProps.parts_modes) = 0
  /\ stored FloatPartsProps.parts_heap FloatPartsProps.parts_modes /\ good_parts_way FloatPartsProps.parts_ways
  /\ exists h r he re, real_func64 FloatPartsProps.parts_ways FloatPartsProps.parts_heap FloatPartsProps.parts_modes false = Ok (h, r)
     /\ real_func FloatPartsProps.parts_heap FloatPartsProps.parts_modes false = Ok (he, re)
     /\ mode h r [] 1 1 = RtoC (1 / 2) /\ mode he re [] 1 1 = RtoC ((1 + / 2 ^ 60) / 2).
Proof.
  exact FloatPartsProps.C68_example.
Qed.
(** Modes of a real function: 1, -2 + i, 3, 2 + i *)
Example C68_nonvacuous_real :
  let h := mkheap 1 (fun _ _ k => if k =? 0 then RtoC 1 else if k =? 1 then (-2, 1)%R else if k =? 2 then RtoC 3 else (2, 1)%R) in
  real_valued FloatPartsProps.parts_modes (mode h FloatPartsProps.parts_modes).
Proof.
  intros h idx ell m _ He Hm. cbn in He. unfold mode, h. cbn [mem buf nd FloatPartsProps.parts_modes].
  assert (C : (ell = 0 /\ m = 0) \/ (ell = 1 /\ m = -1) \/ (ell = 1 /\ m = 0) \/ (ell = 1 /\ m = 1)) by lia.
  destruct C as [[-> ->]|[[-> ->]|[[-> ->]|[-> ->]]]]; cbn; unfold RtoC, Cconj, Copp; cbn; f_equal; ring.
Qed.
