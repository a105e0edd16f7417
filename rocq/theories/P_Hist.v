(** Property C20: the invariant of the Modes class under every finite history of operations. *)
Require Import ZArith Lia List Reals Lra Bool.
From Coquelicot Require Import Complex.
From Verif Require Import Base CBase IndexModel ModesModel ModesSpec HistSpec.
From Verif Require HistProofs.
Import ListNotations.
Open Scope Z_scope.

(** ** C20 *)

(** [reachable] starts from any memory with no Modes object and takes any finite number of steps: arrays of the caller,
    the constructor on any array, conjugate / real / imag (new or in place, also when other objects are views of the
    same memory), addition, subtraction, multiplication, operations with scalars, the derivatives, truncation, copies. *)
Theorem C20_invariant :
  forall h ms m, reachable (h, ms) -> In m ms ->
    wid (nd m) = (ellmax (md m) + 1) ^ 2
    /\ forall idx ell mm, 0 <= ell <= ellmax (md m) -> ell < Z.abs (spin (md m)) -> - ell <= mm <= ell -> mode h m idx ell mm = RtoC 0.
Proof. exact HistProofs.C20_invariant. Qed.
Print Assumptions C20_invariant.

(** The steps leave out [out=]: it can be used to break an object that is a view of the target. *)
Theorem C20_out_refuted :
  exists h ms a m t, reachable (h, ms) /\ In a ms /\ In m ms /\ In t ms /\ truncate_ell m 1 = Ok t
    /\ exists h' r, np_add_out h a a (nd m) false = Ok (h', r)
         /\ spin (md t) = 1 /\ ellmax (md t) = 1 /\ mode h' t [] 0 0 <> RtoC 0.
Proof. exact HistProofs.C20_out_refuted. Qed.
Print Assumptions C20_out_refuted.

(** A history: construct with spin weight -1 from an array of ones, take a truncated view, conjugate the first object in
    place.  The view now has spin weight -1, the object has 1; both have a mode different from zero. *)
Example C20_nonvacuous :
  exists h m t, reachable (h, [t; m]) /\ buf (nd m) = buf (nd t) /\ spin (md m) = 1 /\ ellmax (md m) = 2
    /\ spin (md t) = -1 /\ ellmax (md t) = 1 /\ mode h t [] 1 0 <> RtoC 0.
Proof.
  destruct (Modes_new HistProofs.ones (InArr (mknd 0 [] 9)) None [-1; 0; 2] no_kw) as [[h1 m]|] eqn:E1; [|discriminate].
  assert (R1 : reachable (h1, [m])) by (eapply re_step; [apply (re_start HistProofs.ones)|]; eapply st_new; [|exact E1]; cbn; lia).
  injection E1 as <- <-.
  destruct (truncate_ell (mkmodes (mknd 0 [] 9) (mkmeta (-1) 2 None)) 1) as [t|] eqn:E2; [|discriminate].
  assert (R2 := re_step _ _ R1 (st_truncate _ _ _ 1 _ (in_eq _ []) E2)). injection E2 as <-.
  match type of R2 with reachable (?h, [?t; ?m]) => destruct (conjugate h m true) as [[h3 m3]|] eqn:E3; [|discriminate];
    assert (R3 := re_step _ _ R2 (st_conjugate_inplace h [t] m [] _ _ E3)) end.
  injection E3 as <- <-. eexists _, _, _. split; [exact R3|]. do 5 (split; [reflexivity|]).
  cbv - [Cconj Copp RtoC C]. intros H. apply (f_equal fst) in H. cbn in H. lra.
Qed.
