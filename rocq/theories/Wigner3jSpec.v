(** Vocabulary for the properties of the 3-j calculator. *)
Require Import ZArith Reals List.
From Verif Require Import Base ThreeJSpec Wigner3jModel.
Open Scope Z_scope.

(** A calculator object: the workspace has four slots of [csize] entries. *)
Definition calc_wf (c : calc) : Prop := 0 < csize c /\ alen (workspace c) = 4 * csize c.

(** Two calculators, created with maximal arguments (a1, b1) and (a2, b2), after any finite interleaved history of calls.
    A call that raises leaves an arbitrary workspace of the same length behind. *)
Inductive history (w : widths) (a1 b1 a2 b2 : Z) : calc -> calc -> Prop :=
| h_new garbage1 garbage2 c1 c2 :
    calc_new a1 b1 garbage1 = Ok c1 -> calc_new a2 b2 garbage2 = Ok c2 -> history w a1 b1 a2 b2 c1 c2
| h_call1 c1 c2 c j2 j3 m2 m3 :
    history w a1 b1 a2 b2 c1 c2 -> calculate w c1 j2 j3 m2 m3 = Ok c -> history w a1 b1 a2 b2 c c2
| h_call2 c1 c2 c j2 j3 m2 m3 :
    history w a1 b1 a2 b2 c1 c2 -> calculate w c2 j2 j3 m2 m3 = Ok c -> history w a1 b1 a2 b2 c1 c
| h_raise1 c1 c2 e j2 j3 m2 m3 left :
    history w a1 b1 a2 b2 c1 c2 -> calculate w c1 j2 j3 m2 m3 = Err e ->
    history w a1 b1 a2 b2 (mkcalc (csize c1) (mkarr (alen (workspace c1)) left)) c2
| h_raise2 c1 c2 e j2 j3 m2 m3 left :
    history w a1 b1 a2 b2 c1 c2 -> calculate w c2 j2 j3 m2 m3 = Err e ->
    history w a1 b1 a2 b2 c1 (mkcalc (csize c2) (mkarr (alen (workspace c2)) left)).
