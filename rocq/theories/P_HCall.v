(** Property C53: the H calculators called with arrays of any shape and memory layout. *)
Require Import ZArith Lia List Reals Lra Bool Permutation.
From Verif Require Import Base IndexModel HSpec HModel HProps HCallModel HCallSpec.
From Verif Require HCoef HCallProps.
Import ListNotations.
Open Scope R_scope.

(** ** C53 *)

(** Every column belongs to one position of the array of angles, and every position has one column.  What is missing: the
    documented shape of the result (C53_shape), columns in the order of the positions for an array that is not in C order
    (C53_order_refuted), and cosines and sines in different memory orders (C53_mixed_refuted). *)
Theorem C53_wedge_partial :
  forall n_max hc betas c s ws, (1 <= n_max)%Z -> HCalculator_init n_max = Ok hc -> angle_arrays betas c s -> same_layout c s ->
  ws_ok (workspace_size n_max) ws ->
  exists H order, HCalculator_nd hc c s ws = Ok ([wedge_size n_max; fold_right Z.mul 1%Z (fshape c)], H)
    /\ Permutation order (positions (fshape c))
    /\ (faxes c = seq 0 (length (fshape c)) -> order = positions (fshape c))
    /\ forall n mp m, (0 <= n <= n_max)%Z -> (- n <= mp <= n)%Z -> (- n <= m <= n)%Z ->
       exists r, (let '(n', mp', m') := wedgeify_index n mp m in aget H (wedge_index n' mp' m')) = Some r /\
         forall j, (0 <= j < fold_right Z.mul 1%Z (fshape c))%Z -> r j = H_function n mp m (betas (nth (Z.to_nat j) order [])).
Proof. exact HCallProps.C53_wedge_partial. Qed.
Print Assumptions C53_wedge_partial.

Theorem C53_full_partial :
  forall n_max hc betas c s ws, (1 <= n_max)%Z -> HCalculator_init n_max = Ok hc -> angle_arrays betas c s -> same_layout c s ->
  workspace_ok (LMpM_total_size 0 n_max) ws ->
  exists H order, HCalculator_full_nd hc c s ws = Ok ([LMpM_total_size 0 n_max; fold_right Z.mul 1%Z (fshape c)], H)
    /\ Permutation order (positions (fshape c))
    /\ (faxes c = seq 0 (length (fshape c)) -> order = positions (fshape c))
    /\ forall n mp m, (0 <= n <= n_max)%Z -> (- n <= mp <= n)%Z -> (- n <= m <= n)%Z ->
       exists r, aget H (nmpm_index n mp m) = Some r /\
         forall j, (0 <= j < fold_right Z.mul 1%Z (fshape c))%Z -> r j = H_function n mp m (betas (nth (Z.to_nat j) order [])).
Proof. exact HCallProps.C53_full_partial. Qed.
Print Assumptions C53_full_partial.

(** The documented shape [(rows,) + cosβ.shape] comes back exactly when the array of angles is one-dimensional. *)
Theorem C53_shape :
  forall hc c s ws sh H, layout_ok (fshape c) (faxes c) -> HCalculator_nd hc c s ws = Ok (sh, H) ->
  (sh = alen H :: fshape c <-> exists k, fshape c = [k]).
Proof. exact HCallProps.C53_shape. Qed.
Print Assumptions C53_shape.

Theorem C53_shape_refuted :
  exists hc betas c H sh, HCalculator_init 1 = Ok hc /\ angle_arrays betas c SNone
  /\ HCalculator_nd hc c SNone WNone = Ok (sh, H) /\ fshape c = [2; 2]%Z /\ sh = [alen H; 4]%Z.
Proof. exact HCallProps.C53_shape_refuted. Qed.
Print Assumptions C53_shape_refuted.

(** Fortran order: the columns do not follow the order that [reshape] to the shape of the angles assumes. *)
Theorem C53_order_refuted :
  exists hc betas c H j r, HCalculator_init 1 = Ok hc /\ angle_arrays betas c SNone
    /\ HCalculator_nd hc c SNone WNone = Ok ([wedge_size 1; 4%Z], H)
    /\ aget H (wedge_index 1 0 0) = Some r /\ (0 <= j < 4)%Z
    /\ r j <> H_function 1 0 0 (betas (nth (Z.to_nat j) (positions (fshape c)) [])).
Proof. exact HCallProps.C53_order_refuted. Qed.
Print Assumptions C53_order_refuted.

(** Cosines in Fortran order, sines in C order: a column belongs to none of the angles. *)
Theorem C53_mixed_refuted :
  exists hc betas c a H j r0 r1, HCalculator_init 1 = Ok hc /\ angle_arrays betas c (SArr a)
    /\ HCalculator_nd hc c (SArr a) WNone = Ok ([wedge_size 1; 4%Z], H)
    /\ aget H (wedge_index 1 0 0) = Some r0 /\ aget H (wedge_index 1 0 1) = Some r1 /\ (0 <= j < 4)%Z
    /\ forall idx, In idx (positions (fshape c)) ->
         ~ (r0 j = H_function 1 0 0 (betas idx) /\ r1 j = H_function 1 0 1 (betas idx)).
Proof. exact HCallProps.C53_mixed_refuted. Qed.
Print Assumptions C53_mixed_refuted.

(** A single number: accepted without a workspace; refused with the workspace made for it, and with a Python float as sine. *)
Theorem C53_scalar :
  forall n_max hc beta, (1 <= n_max)%Z -> HCalculator_init n_max = Ok hc ->
  let c := mkfarr [] [] (fun _ => cos beta) in
  angle_arrays (fun _ => beta) c (SArr (mkfarr [] [] (fun _ => sin beta)))
  /\ (exists H, HCalculator_nd hc c (SArr (mkfarr [] [] (fun _ => sin beta))) WNone = Ok ([wedge_size n_max; 1%Z], H))
  /\ HCalculator_nd hc c (SArr (mkfarr [] [] (fun _ => sin beta))) (workspace_for n_max c) = Err TypeError
  /\ HCalculator_nd hc c (SFloat (sin beta)) WNone = Err AttributeError.
Proof. exact HCallProps.C53_scalar. Qed.
Print Assumptions C53_scalar.

Theorem C53_scalar_refuted :
  exists n_max hc beta, (1 <= n_max)%Z /\ HCalculator_init n_max = Ok hc
  /\ HCalculator_nd hc (mkfarr [] [] (fun _ => cos beta)) (SArr (mkfarr [] [] (fun _ => sin beta)))
       (workspace_for n_max (mkfarr [] [] (fun _ => cos beta))) = Err TypeError
  /\ HCalculator_nd hc (mkfarr [] [] (fun _ => cos beta)) (SFloat (sin beta)) WNone = Err AttributeError.
Proof. exact HCallProps.C53_scalar_refuted. Qed.
Print Assumptions C53_scalar_refuted.

(** An empty array, a cosine outside [-1, 1], or sines of another shape: ValueError. *)
Theorem C53_rejects :
  forall hc c s ws w, layout_ok (fshape c) (faxes c) ->
  (In 0%Z (fshape c) \/ (exists idx, In idx (positions (fshape c)) /\ ~ -1 <= fval c idx <= 1)
   \/ exists a, s = SArr a /\ fshape a <> fshape c) ->
  HCalculator_nd hc c s ws = Err ValueError /\ HCalculator_full_nd hc c s w = Err ValueError.
Proof. exact HCallProps.C53_rejects. Qed.
Print Assumptions C53_rejects.

Example C53_rejects_nonvacuous :
  let c := mkfarr [2; 3]%Z [1; 0]%nat (fun idx => match idx with [i; j] => IZR (i + j) / 2 | _ => 0 end) in
  layout_ok (fshape c) (faxes c) /\ In [1; 2]%Z (positions (fshape c)) /\ ~ -1 <= fval c [1; 2]%Z <= 1.
Proof. intros c. split; [split; [apply perm_swap|repeat constructor; lia]|]. split; [apply HCallProps.in_positions; repeat constructor; lia|]. cbn. lra. Qed.

(** Six angles in a 2 by 3 array in Fortran order, with their sines, and the same without sines. *)
Example C53_nonvacuous :
  let betas := fun idx => match idx with [i; j] => IZR (3 * i + j) / 2 | _ => 0 end in
  let c := mkfarr [2; 3]%Z [1; 0]%nat (fun idx => cos (betas idx)) in
  let a := mkfarr [2; 3]%Z [1; 0]%nat (fun idx => sin (betas idx)) in
  (exists hc, HCalculator_init 3 = Ok hc) /\ angle_arrays betas c (SArr a) /\ same_layout c (SArr a) /\ angle_arrays betas c SNone
  /\ ws_ok (workspace_size 3) (W2 (hzeros 51)) /\ memory_order [2; 3]%Z [1; 0]%nat <> positions [2; 3]%Z.
Proof.
  intros betas c a. split; [eexists; apply HCoef.HCalculator_init_ok; lia|].
  assert (L : layout_ok [2; 3]%Z [1; 0]%nat) by (split; [apply perm_swap|repeat constructor; lia]).
  assert (N : Forall (fun n => 1 <= n)%Z [2; 3]%Z) by (repeat constructor; lia).
  split; [split; [exact L|]; split; [exact N|]; split; [reflexivity|]; split; [reflexivity|]; split; [exact L|]; reflexivity|].
  split; [reflexivity|]. split.
  { split; [exact L|]. split; [exact N|]. split; [reflexivity|]. intros idx Hi. pose proof PI2_3_2 as P. unfold PI2 in P.
    cbn in Hi. destruct Hi as [<-|[<-|[<-|[<-|[<-|[<-|[]]]]]]]; unfold betas; simpl; lra. }
  split; [vm_compute; discriminate|]. vm_compute. discriminate.
Qed.
