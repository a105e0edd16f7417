(** Property C54: SWSH, SWSH_grid and evaluate called with rotors and indices of any shape. *)
Require Import ZArith Lia List Reals Lra Bool.
From Coquelicot Require Import Complex.
From Verif Require Import Base CBase DRep IndexModel WignerModel RotorSpec ModesModel ModesSpec SWSHCallModel.
From Verif Require WignerProps P_Modes SWSHCallProps.
Import ListNotations.
Open Scope Z_scope.

(** ** C54 *)

(** An array of rotors of any shape (none of them zero) and a pair (ell, m). *)
Theorem C54_rotors :
  forall L tab, is_Wigner_table L tab ->
  forall (a : nda quat) s indices ell m, Forall (fun n => 0 <= n) (nshape a) ->
  (forall p, at_index (nshape a) p -> (epsilon < Cmod (qa (nval a p)))%R \/ qb (nval a p) <> RtoC 0) ->
  nshape indices = [2] -> nval indices [0] = ell -> nval indices [1] = m -> ell <= L ->
  forall g, exists out, SWSH_call tab g (RArr a) s indices = Ok out /\ nshape out = nshape a
    /\ forall p, at_index (nshape a) p -> SWSH_returns tab (nval a p) s ell m (nval out p).
Proof. exact SWSHCallProps.C54_rotors. Qed.
Print Assumptions C54_rotors.

(** One rotor and an array with one row for every (ell, m); further columns are ignored. *)
Theorem C54_indices :
  forall L tab, is_Wigner_table L tab ->
  forall q s indices N k, (epsilon < Cmod (qa q))%R \/ qb q <> RtoC 0 ->
  0 <= N -> 2 <= k -> nshape indices = [N; k] -> (forall i, 0 <= i < N -> nval indices [i; 0] <= L) ->
  forall g, exists out, SWSH_call tab g (RQuat q) s indices = Ok out /\ nshape out = [N]
    /\ forall i, 0 <= i < N -> SWSH_returns tab q s (nval indices [i; 0]) (nval indices [i; 1]) (nval out [i]).
Proof. exact SWSHCallProps.C54_indices. Qed.
Print Assumptions C54_indices.

(** A grid of rotors; the harmonic (ell, m) is at [ell^2 + ell + m] of the last axis. *)
Theorem C54_grid :
  forall L tab, is_Wigner_table L tab ->
  forall (a : nda quat) s ell_max, Forall (fun n => 1 <= n) (nshape a) ->
  (forall p, at_index (nshape a) p -> (epsilon < Cmod (qa (nval a p)))%R \/ qb (nval a p) <> RtoC 0) ->
  0 <= ell_max <= L ->
  forall g, exists out, SWSH_grid_call tab g a s ell_max = Ok out /\ nshape out = nshape a ++ [(ell_max + 1) ^ 2]
    /\ forall p ell m, at_index (nshape a) p -> 0 <= ell <= ell_max -> - ell <= m <= ell ->
         SWSH_returns tab (nval a p) s ell m (nval out (p ++ [ell ^ 2 + ell + m])).
Proof. exact SWSHCallProps.C54_grid. Qed.
Print Assumptions C54_grid.

(** The leading axes of the modes come first, then the axes of the rotors. *)
Theorem C54_evaluate :
  forall Lt tab h f, is_Wigner_table Lt tab -> wf h f -> 0 <= ellmax (md f) <= Lt ->
  forall a : nda quat, Forall (fun n => 1 <= n) (nshape a) -> (forall p, at_index (nshape a) p -> rotor (nval a p)) ->
  forall g, exists E, evaluate_call tab g h f a = Ok (rev (lead (nd f)) ++ nshape a, E)
    /\ forall p F, at_index (nshape a) p -> value_at tab h f (nval a p) F ->
         forall idx, at_index (lead (nd f)) idx -> E idx p = F idx.
Proof. exact SWSHCallProps.C54_evaluate. Qed.
Print Assumptions C54_evaluate.

(** All other combinations of arguments raise a Python exception. *)
Theorem C54_other_calls :
  forall tab g R s indices, Forall (fun n => 0 <= n) (nshape indices) ->
  (match R with
   | RQuat _ => forall N k, nshape indices = [N; k] -> k < 2 /\ 0 < N
   | RArr a => Forall (fun n => 0 <= n) (nshape a) /\ nshape indices <> [2]
   end) ->
  exists e, SWSH_call tab g R s indices = Err e /\ In e [IndexError; TypeError; AttributeError; ValueError].
Proof. exact SWSHCallProps.C54_other_calls. Qed.
Print Assumptions C54_other_calls.

(** In particular a pair is not accepted with one rotor. *)
Theorem C54_pair_raises :
  forall tab g q s ell m, SWSH_call tab g (RQuat q) s (mknda [2] (fun p => if nth 0 p 0 =? 0 then ell else m)) = Err TypeError.
Proof. exact SWSHCallProps.C54_pair_raises. Qed.
Print Assumptions C54_pair_raises.

(** What is not as one would expect: triples are taken for pairs, ... *)
Theorem C54_columns_refuted :
  exists indices, (nshape indices = [1; 3]) /\
  forall L tab g, 0 <= L -> is_Wigner_table L tab ->
  exists q out, rotor q /\ SWSH_call tab g (RQuat q) 0 indices = Ok out.
Proof. exact SWSHCallProps.C54_columns_refuted. Qed.
Print Assumptions C54_columns_refuted.

(** ... an empty grid raises (documented shape [R_grid.shape + (N_lm,)]), ... *)
Theorem C54_empty_grid :
  forall tab (a : nda quat) s ell_max, 0 <= ell_max -> In 0 (nshape a) ->
  forall g, SWSH_grid_call tab g a s ell_max = Err ValueError
    /\ forall h f, ellmax (md f) = ell_max -> evaluate_call tab g h f a = Err ValueError.
Proof. exact SWSHCallProps.C54_empty_grid. Qed.
Print Assumptions C54_empty_grid.

Theorem C54_empty_grid_refuted :
  exists a : nda quat, Forall (fun n => 0 <= n) (nshape a) /\
  forall tab g s ell_max, 0 <= ell_max -> SWSH_grid_call tab g a s ell_max = Err ValueError.
Proof. exact SWSHCallProps.C54_empty_grid_refuted. Qed.
Print Assumptions C54_empty_grid_refuted.

(** ... and ell above the size of the tables is not rejected: the compiled code reads outside the table. *)
Theorem C54_large_ell :
  forall L tab, 0 <= L -> is_Wigner_table L tab ->
  forall g q s indices, (epsilon < Cmod (qa q))%R -> (epsilon < Cmod (qb q))%R ->
  nshape indices = [1; 2] -> L < nval indices [0; 0] ->
  Z.abs (nval indices [0; 1]) <= nval indices [0; 0] -> Z.abs s <= nval indices [0; 0] ->
  SWSH_call tab g (RQuat q) s indices = Err OutOfBounds.
Proof. exact SWSHCallProps.C54_large_ell. Qed.
Print Assumptions C54_large_ell.

Theorem C54_large_ell_refuted :
  forall L tab, 0 <= L -> is_Wigner_table L tab ->
  exists q indices, rotor q /\ nshape indices = [1; 2] /\ forall g, SWSH_call tab g (RQuat q) 0 indices = Err OutOfBounds.
Proof. exact SWSHCallProps.C54_large_ell_refuted. Qed.
Print Assumptions C54_large_ell_refuted.

(** A 2 by 3 array of rotors, the pair (3, -2), four rows of indices, the object [demo_f]; the element at [1; 2]
    is the last one in C order. *)
Example C54_nonvacuous :
  let a := mknda [2; 3] (fun p => if nth 1 p 0 =? 0 then DRep.qone else WignerProps.q345) in
  let pair := mknda [2] (fun p => if nth 0 p 0 =? 0 then 3 else -2) in
  let rows := mknda [4; 2] (fun p => if nth 1 p 0 =? 0 then nth 0 p 0 else - nth 0 p 0) in
  (exists tab, is_Wigner_table 32 tab)
  /\ Forall (fun n => 1 <= n) (nshape a) /\ (forall p, at_index (nshape a) p -> rotor (nval a p))
  /\ (forall p, at_index (nshape a) p -> (epsilon < Cmod (qa (nval a p)))%R \/ qb (nval a p) <> RtoC 0)
  /\ nshape pair = [2] /\ nval pair [0] = 3 /\ nval pair [1] = -2
  /\ nshape rows = [4; 2] /\ (forall i, 0 <= i < 4 -> nval rows [i; 0] <= 32)
  /\ at_index (nshape a) [1; 2] /\ ravel_index (nshape a) [1; 2] = 5
  /\ wf P_Modes.demo_heap P_Modes.demo_f /\ 0 <= ellmax (md P_Modes.demo_f) <= 32
  /\ Forall (fun n => 0 <= n) [5] /\ nshape (mknda [5] (fun _ => 0)) <> [2].
Proof.
  intros a pair rows. split; [exact P_Modes.demo_table|].
  split; [repeat constructor; lia|].
  split; [intros p _; unfold a; cbn [nval]; destruct (_ =? _); [apply WignerProps.qone_rotor|apply WignerProps.q345_rotor]|].
  split; [intros p _; left; unfold a; cbn [nval]; destruct (_ =? _); [|apply WignerProps.q345_parts]|].
  { pose proof WignerProps.epsilon_small. unfold qa, DRep.qone; cbn [qw qz]. change (1%R, 0%R) with (RtoC 1). rewrite Cmod_1. lra. }
  split; [reflexivity|]. split; [reflexivity|]. split; [reflexivity|]. split; [reflexivity|].
  split; [intros i Hi; unfold rows; cbn [nval nth Z.eqb]; lia|].
  split; [repeat constructor; lia|]. split; [reflexivity|].
  split; [exact P_Modes.demo_f_wf|]. split; [cbn; lia|]. split; [repeat constructor; lia|]. discriminate.
Qed.
