(** Property C58: every universal function on Grid objects. *)
Require Import ZArith Lia List Reals Lra Bool.
From Coquelicot Require Import Complex.
From Verif Require Import Base CBase ModesModel ModesSpec GridModel GridSpec GridUfuncSpec P_Grid.
From Verif Require GridUfuncProps.
Import ListNotations.
Open Scope Z_scope.

(** ** C58 *)

(** Whenever there is a documented result, it is returned, for every ufunc, operand kinds, shapes and spin weights. *)
Theorem C58_accepts :
  forall u args, inputs_ok u args -> some_grid args -> grids_wf args -> has_result u args ->
  exists r, grid_ufunc u m_call args None false = Ok r /\ is_result u args r.
Proof. exact GridUfuncProps.C58_accepts. Qed.
Print Assumptions C58_accepts.

(** The grid is too small for the spin weight of the result: NameError, where the constructor means ValueError. *)
Theorem C58_too_small :
  forall u args s nt np ld, grids_wf args -> combines u args s nt np ld -> ~ enough s nt np ->
  grid_ufunc u m_call args None false = Err NameError.
Proof. exact GridUfuncProps.C58_too_small. Qed.
Print Assumptions C58_too_small.

(** Everything else is declined. *)
Theorem C58_rejects :
  forall u args, inputs_ok u args -> some_grid args -> grids_wf args ->
  (if truth_valued u then bshape args = None else forall s nt np ld, ~ combines u args s nt np ld) ->
  exists e, grid_ufunc u m_call args None false = Err e /\ (e = TypeError \/ e = ValueError).
Proof. exact GridUfuncProps.C58_rejects. Qed.
Print Assumptions C58_rejects.

(** With [out=]: the same result, broadcast into [out], or ValueError if it does not fit there. *)
Theorem C58_out :
  forall u args o, inputs_ok u args -> some_grid args -> grids_wf args -> Forall (fun n => 0 < n) (gshape (out_view o)) ->
  match grid_ufunc u m_call args None false with
  | Ok (RGrid r) =>
      (fits (gshape (gdata r)) o ->
         exists r', grid_ufunc u m_call args (Some o) false = Ok (RGrid r') /\ gwf r' /\ gspin r' = gspin r
           /\ gshape (gdata r') = gshape (out_view o) /\ holds (gshape (gdata r)) (gval (gdata r)) (gdata r'))
      /\ (~ fits (gshape (gdata r)) o -> grid_ufunc u m_call args (Some o) false = Err ValueError)
  | Ok (RBool sh b) =>
      (fits sh o ->
         exists a, grid_ufunc u m_call args (Some o) false = Ok (RArr a)
           /\ gshape a = gshape (out_view o) /\ holds sh (fun idx => if b idx then RtoC 1 else RtoC 0) a)
      /\ (~ fits sh o -> grid_ufunc u m_call args (Some o) false = Err ValueError)
  | Ok _ => False
  | Err _ => exists e, grid_ufunc u m_call args (Some o) false = Err e
  end.
Proof. exact GridUfuncProps.C58_out. Qed.
Print Assumptions C58_out.

(** A Grid as [out] only makes no other input acceptable (np.positive and np.negative: C36_negative_out_refuted). *)
Theorem C58_out_only :
  forall u args g, inputs_ok u args -> ~ some_grid args -> truth_valued u = false -> u <> u_positive -> u <> u_negative ->
  grid_ufunc u m_call args (Some (OutGrid g)) false = Err TypeError.
Proof. exact GridUfuncProps.C58_out_only. Qed.
Print Assumptions C58_out_only.

(** The other methods of the ufuncs: [reduce] and [accumulate] always raise; [outer] and [reduceat] do what a call does, and so
    does [at], which returns None. *)
Theorem C58_methods :
  forall u args out, truth_valued u = false ->
  (inputs u = Some 1%nat -> grid_ufunc u m_rest args out false = Err ValueError)
  /\ (inputs u <> Some 1%nat -> grid_ufunc u m_rest args out false = grid_ufunc u m_call args out false)
  /\ (forall g, inputs u = Some 2%nat -> exists e, grid_ufunc u m_rest [OG g] out false = Err e)
  /\ match grid_ufunc u m_call args out false with
     | Ok _ => grid_ufunc u m_at args out false = Ok RNone
     | Err e => grid_ufunc u m_at args out false = Err e
     end.
Proof. exact GridUfuncProps.C58_methods. Qed.
Print Assumptions C58_methods.

Theorem C58_keywords :
  forall u m args out, truth_valued u = false ->
  exists e, grid_ufunc u m args out true = Err e
    /\ (e = NotImplementedError \/ e = TypeError \/ e = ValueError /\ m = m_rest /\ inputs u = Some 1%nat).
Proof. exact GridUfuncProps.C58_keywords. Qed.
Print Assumptions C58_keywords.

Theorem C58_outer_refuted :
  exists f g r, gwf f /\ gwf g /\ grid_ufunc u_multiply m_rest [OG f; OG g] None false = Ok (RGrid r)
    /\ gshape (gdata r) <> gshape (gdata g) ++ gshape (gdata f).
Proof. exact GridUfuncProps.C58_outer_refuted. Qed.
Print Assumptions C58_outer_refuted.

Theorem C58_reduceat_refuted :
  exists g r, gwf g /\ grid_ufunc u_add m_rest [OG g; OS (mkscalars [2] (fun idx => RtoC (IZR (nth 0 idx 0))))] None false = Ok (RGrid r)
    /\ (forall i j, value g [1] i j = RtoC 2 /\ value r [1] i j = RtoC 3).
Proof. exact GridUfuncProps.C58_reduceat_refuted. Qed.
Print Assumptions C58_reduceat_refuted.

(** Two stacks of functions of different spin weights: they can be multiplied and compared, but not added or divided (the
    grid is too small). *)
Example C58_nonvacuous :
  some_grid [OG demo_a; OG demo_b] /\ grids_wf [OG demo_a; OG demo_b]
  /\ combines u_multiply [OG demo_a; OG demo_b] 1 5 6 [3; 2] /\ has_result u_multiply [OG demo_a; OG demo_b]
  /\ combines u_divide [OG demo_a; OG demo_b] 3 5 6 [3; 2] /\ ~ enough 3 5 6
  /\ (forall s nt np ld, ~ combines u_add [OG demo_a; OG demo_b] s nt np ld)
  /\ has_result u_less [OG demo_a; OG demo_b]
  /\ truth u_less [OG demo_b; OG demo_a] [2; 0; 1; 1] /\ ~ truth u_less [OG demo_b; OG demo_a] [0; 1; 1; 0].
Proof.
  assert (CM : combines u_multiply [OG demo_a; OG demo_b] 1 5 6 [3; 2]) by (cbn; repeat split).
  split; [exists demo_a; left; reflexivity|]. split.
  { intros g [E|[E|[]]]; injection E as <-; [exact demo_a_wf|exact demo_b_wf]. }
  split; [exact CM|]. split; [exists 1, 5, 6, [3; 2]; split; [exact CM|split; cbn; lia]|].
  split; [cbn; repeat split|]. split; [intros (H & _); cbn in H; lia|]. split; [intros s nt np ld (_ & _ & _ & _ & _ & H); discriminate|].
  split; [eexists; reflexivity|]. split.
  - left. cbn. lra.
  - intros [H|[_ H]]; cbn in H; lra.
Qed.
(** Numbers, one per function, and an exponent in an array of one entry. *)
Example C58_scalars_nonvacuous :
  let x := mkscalars [2] (fun idx => RtoC (IZR (nth 0 idx 0 + 2))) in
  let e := OS (mkscalars [1; 1] (fun idx => RtoC (IZR (nth 0 idx 0) - 5 / 2))) in
  (forall u, In u [u_multiply; u_divide] -> has_result u [OS x; OG (mkgrid (mkgarr [6; 5; 2] (fun _ => RtoC 1)) (-1))])
  /\ exponent e (-2) /\ combines u_power [OG demo_b; e] 2 5 6 [3] /\ enough 2 5 6.
Proof.
  cbv zeta. split.
  { intros u [<-|[<-|[]]]; eexists _, _, _, _; (split; [cbn; repeat split; reflexivity|split; cbn; lia]). }
  assert (E : exponent (OS (mkscalars [1; 1] (fun idx => RtoC (IZR (nth 0 idx 0) - 5 / 2)))) (-2)).
  { split; [repeat constructor|]. exists (0 - 5 / 2)%R. split; [reflexivity|]. right. lra. }
  split; [exact E|]. split; [|split; cbn; lia]. cbn. split; [|repeat split]. exists (-2). split; [exact E|reflexivity].
Qed.
Example C58_out_nonvacuous :
  Forall (fun n => 0 < n) (gshape (out_view (OutGrid demo_b))) /\ fits [6; 5; 1] (OutGrid demo_b) /\ ~ fits [6; 5; 2] (OutGrid demo_b).
Proof. split; [repeat constructor|]. split; [reflexivity|]. discriminate. Qed.
(** Comparisons look at the values only: equal everywhere, though the spin weights differ. *)
Example C58_spin_ignored : exists f g b, gspin f <> gspin g /\ grid_ufunc u_equal m_call [OG f; OG g] None false = Ok (RBool [6; 5; 3] b)
  /\ forall idx, at_index [6; 5; 3] idx -> b idx = true.
Proof.
  exists demo_b, (mkgrid (gdata demo_b) 1). assert (W : grids_wf [OG demo_b; OG (mkgrid (gdata demo_b) 1)]).
  { intros g [E|[E|[]]]; injection E as <-; [exact demo_b_wf|]. split; [cbn; lia|split; cbn; lia]. }
  destruct (C58_accepts u_equal [OG demo_b; OG (mkgrid (gdata demo_b) 1)] eq_refl (ex_intro _ demo_b (or_introl eq_refl)) W) as (r & E & R); [eexists; reflexivity|].
  destruct R as (sh & b & Hs & -> & Hb). cbn in Hs. injection Hs as <-. exists b. split; [cbn; lia|]. split; [exact E|].
  intros idx Hi. apply Hb; [exact Hi|]. reflexivity.
Qed.
