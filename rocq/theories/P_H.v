(** Properties C39, C40, C46, C47: the H recursion and the angles that go with it. *)
Require Import ZArith Lia List Reals Lra Bool.
From Coquelicot Require Import Complex.
From Verif Require Import Base BaseProofs CBase Fact WignerSpec DRep WignerCallModel IndexModel HSpec HMath HModel HProps QAnglesModel.
From Verif Require HCoef QAnglesProps.
Import ListNotations.
Open Scope R_scope.

(** ** C39 *)
(** The constructor accepts every n_max >= 0: no coefficient it tests is infinite or NaN. *)
Theorem C39_constructor : forall n_max, (0 <= n_max)%Z -> exists hc, HCalculator_init n_max = Ok hc /\ hc_n_max hc = n_max.
Proof. intros n_max H. eexists. split; [exact (HCoef.HCalculator_init_ok n_max H)|reflexivity]. Qed.
Print Assumptions C39_constructor.
(** Whatever the workspace holds, undetermined entries included, a call returns the same fully determined wedge; any access out
    of bounds and any read of an undetermined entry would make it fail. *)
Theorem C39_run :
  forall n_max hc cosb sinb, (1 <= n_max)%Z -> HCalculator_init n_max = Ok hc -> angles_ok cosb sinb ->
  exists rows : Z -> row, forall ws, workspace_ok (workspace_size n_max) ws ->
    exists H, HCalculator_call hc cosb sinb ws = Ok H /\ alen H = wedge_size n_max /\
      forall i, (0 <= i < wedge_size n_max)%Z -> aget H i = Some (rows i).
Proof. exact HProps.C39_run. Qed.
Print Assumptions C39_run.
(** The same for the calculator with full storage. *)
Theorem C39_full_run :
  forall n_max hc cosb sinb, (1 <= n_max)%Z -> HCalculator_init n_max = Ok hc -> angles_ok cosb sinb ->
  exists rows : Z -> Z -> Z -> row, forall ws,
    match ws with Some w => alen w = LMpM_total_size 0 n_max | None => True end ->
    exists H, HCalculator_full_call hc cosb sinb ws = Ok H /\ alen H = LMpM_total_size 0 n_max /\
      forall n mp m, (0 <= n <= n_max)%Z -> (- n <= mp <= n)%Z -> (- n <= m <= n)%Z ->
        aget H (nmpm_index n mp m) = Some (rows n mp m).
Proof. exact HProps.C39_full_run. Qed.
Print Assumptions C39_full_run.
Theorem C39_rejects :
  forall n_max cosb sinb ws,
  (HCalculator_init n_max = Err ValueError <-> (n_max < 0)%Z) /\
  (forall hc, HCalculator_init n_max = Ok hc ->
     cosb = [] \/ (exists c, In c cosb /\ (c < -1 \/ 1 < c)) \/ (exists s, sinb = Some s /\ length s <> length cosb) ->
     HCalculator_call hc cosb sinb ws = Err ValueError /\ HCalculator_full_call hc cosb sinb ws = Err ValueError).
Proof. exact HProps.C39_rejects. Qed.
Print Assumptions C39_rejects.

Definition demo_blank (n : Z) : hbuf := mkarr n (fun _ => None).
Example C39_nonvacuous : (exists hc, HCalculator_init 3 = Ok hc) /\ angles_ok [1 / 2; -1] (Some [0; 7])
  /\ angles_ok [1 / 2; -1] None
  /\ workspace_ok (workspace_size 3) (Some (demo_blank 51)) /\ hrd (demo_blank 51) 0 = Err Undetermined.
Proof.
  split; [eexists; apply HCoef.HCalculator_init_ok; lia|].
  assert (A : Forall in_range [1 / 2; -1]) by (repeat constructor; unfold in_range; lra).
  split; [split; [discriminate|split; [exact A|reflexivity]]|]. split; [split; [discriminate|split; [exact A|exact I]]|].
  split; [vm_compute; discriminate|reflexivity].
Qed.

(** ** C40 *)
(** The entry of (n, m', m) in the wedge is the H function at the angle of its column. *)
Theorem C40_wedge :
  forall n_max hc betas ws, (1 <= n_max)%Z -> HCalculator_init n_max = Ok hc -> betas <> [] ->
  workspace_ok (workspace_size n_max) ws ->
  exists H, HCalculator_call hc (map cos betas) (Some (map sin betas)) ws = Ok H /\ alen H = wedge_size n_max /\
    forall n mp m, (0 <= n <= n_max)%Z -> (Z.abs mp <= m <= n)%Z ->
      exists r, aget H (wedge_index n mp m) = Some r /\
        forall j, (0 <= j < Z.of_nat (length betas))%Z -> r j = H_function n mp m (nth (Z.to_nat j) betas 0).
Proof. exact HProps.C40_wedge. Qed.
Print Assumptions C40_wedge.
(** Every other (m', m) is found through wedgeify_index. *)
Theorem C40_wedge_any :
  forall n_max hc betas ws, (1 <= n_max)%Z -> HCalculator_init n_max = Ok hc -> betas <> [] ->
  workspace_ok (workspace_size n_max) ws ->
  exists H, HCalculator_call hc (map cos betas) (Some (map sin betas)) ws = Ok H /\
    forall n mp m, (0 <= n <= n_max)%Z -> (- n <= mp <= n)%Z -> (- n <= m <= n)%Z ->
      exists r, (let '(n', mp', m') := wedgeify_index n mp m in aget H (wedge_index n' mp' m')) = Some r /\
        forall j, (0 <= j < Z.of_nat (length betas))%Z -> r j = H_function n mp m (nth (Z.to_nat j) betas 0).
Proof. exact HProps.C40_wedge_any. Qed.
Print Assumptions C40_wedge_any.
(** Without sines the angles are taken between 0 and pi. *)
Theorem C40_wedge_default_sine :
  forall n_max hc cosb ws, (1 <= n_max)%Z -> HCalculator_init n_max = Ok hc -> cosb <> [] ->
  (forall c, In c cosb -> -1 <= c <= 1) -> workspace_ok (workspace_size n_max) ws ->
  exists H, HCalculator_call hc cosb None ws = Ok H /\ alen H = wedge_size n_max /\
    forall n mp m, (0 <= n <= n_max)%Z -> (Z.abs mp <= m <= n)%Z ->
      exists r, aget H (wedge_index n mp m) = Some r /\
        forall j, (0 <= j < Z.of_nat (length cosb))%Z -> r j = H_function n mp m (acos (nth (Z.to_nat j) cosb 0)).
Proof. exact HProps.C40_wedge_default_sine. Qed.
Print Assumptions C40_wedge_default_sine.
(** The calculator with full storage. *)
Theorem C40_full :
  forall n_max hc betas ws, (1 <= n_max)%Z -> HCalculator_init n_max = Ok hc -> betas <> [] ->
  workspace_ok (LMpM_total_size 0 n_max) ws ->
  exists H, HCalculator_full_call hc (map cos betas) (Some (map sin betas)) ws = Ok H /\ alen H = LMpM_total_size 0 n_max /\
    forall n mp m, (0 <= n <= n_max)%Z -> (- n <= mp <= n)%Z -> (- n <= m <= n)%Z ->
      exists r, aget H (nmpm_index n mp m) = Some r /\
        forall j, (0 <= j < Z.of_nat (length betas))%Z -> r j = H_function n mp m (nth (Z.to_nat j) betas 0).
Proof. exact HProps.C40_full. Qed.
Print Assumptions C40_full.

Example C40_nonvacuous : (exists hc, HCalculator_init 3 = Ok hc) /\ [PI / 3; 5] <> [] /\ workspace_ok (workspace_size 3) None
  /\ forall beta, H_function 1 0 0 beta = cos beta /\ H_function 1 1 1 beta = - (1 + cos beta) / 2.
Proof.
  split; [eexists; apply HCoef.HCalculator_init_ok; lia|]. split; [discriminate|]. split; [exact I|].
  intros beta. rewrite !H_function_Hd by lia. destruct (half_angle beta) as (U & C & _). cbv zeta in *.
  assert (W1 : W 1 1 = sqrt 2) by (unfold W; f_equal; unfold fct; simpl; ring).
  assert (sqrt 2 <> 0) by (pose proof (sqrt_lt_R0 2 ltac:(lra)); lra).
  set (a := cos (beta / 2)) in *. set (b := sin (beta / 2)) in *.
  unfold Hd, dd, S2, eps. simpl. unfold sgn. simpl.
  pose proof (W_neq0 1 0). pose proof (W_neq0 1 1).
  split; rewrite <- C; field_simplify; auto; nra.
Qed.

(** ** C46 *)
(** HCalculator(0) is accepted, but every call on it writes outside its storage. *)
Theorem C46_n_max_0_refuted :
  exists hc, HCalculator_init 0 = Ok hc /\
  forall cosb sinb ws, cosb <> [] -> (forall c, In c cosb -> -1 <= c <= 1) ->
  match sinb with Some s => length s = length cosb | None => True end ->
  (match ws with Some w => (1 <= alen w)%Z | None => True end -> HCalculator_call hc cosb sinb ws = Err OutOfBounds) /\
  (match ws with Some w => alen w = 1%Z | None => True end -> HCalculator_full_call hc cosb sinb ws = Err OutOfBounds).
Proof. exact HProps.C46_n_max_0. Qed.
Print Assumptions C46_n_max_0_refuted.

(** ** C47 *)
(** The three numbers returned for a unit quaternion are exp(i beta) and two phases that factor every element of its D matrices. *)
Theorem C47_angles :
  forall q, unit_quat q -> qa q <> RtoC 0 -> qb q <> RtoC 0 ->
  exists beta zp zm, quaternion_angles q = Ok (cis beta, zp, zm) /\ 0 < beta < PI /\ Cmod zp = 1 /\ Cmod zm = 1 /\
  forall n mp m, (- n <= mp <= n)%Z -> (- n <= m <= n)%Z ->
    Wigner_formula (2 * n) (2 * mp) (2 * m) (qa q) (qb q) =
    (RtoC (small_d n mp m beta) * Cpowz zp (mp + m) * Cpowz zm (mp - m))%C.
Proof. exact QAnglesProps.C47_angles. Qed.
Print Assumptions C47_angles.
(** For Euler angles they are the three documented exponentials. *)
Theorem C47_euler :
  forall alpha beta gamma, 0 < beta < PI ->
  quaternion_angles (from_euler_angles alpha beta gamma) = Ok (cis beta, cis ((alpha + gamma) / 2), cis ((alpha - gamma) / 2)).
Proof. exact QAnglesProps.C47_euler. Qed.
Print Assumptions C47_euler.
(** With the H calculator they give the D matrices. *)
Theorem C47_D_from_H :
  forall n_max hc q zb zp zm, (1 <= n_max)%Z -> HCalculator_init n_max = Ok hc -> unit_quat q ->
  quaternion_angles q = Ok (zb, zp, zm) ->
  exists H, HCalculator_call hc [Re zb] (Some [Im zb]) None = Ok H /\
    forall n mp m, (0 <= n <= n_max)%Z -> (- n <= mp <= n)%Z -> (- n <= m <= n)%Z ->
      exists r, (let '(n', mp', m') := wedgeify_index n mp m in aget H (wedge_index n' mp' m')) = Some r /\
        Wigner_formula (2 * n) (2 * mp) (2 * m) (qa q) (qb q) =
        (RtoC (eps mp * eps (- m) * r 0%Z) * Cpowz zp (mp + m) * Cpowz zm (mp - m))%C.
Proof. exact QAnglesProps.C47_D_from_H. Qed.
Print Assumptions C47_D_from_H.
(** A rotation that fixes or reverses the z axis, the identity for example, raises ZeroDivisionError. *)
Theorem C47_degenerate :
  forall q, qa q = RtoC 0 \/ qb q = RtoC 0 -> quaternion_angles q = Err ZeroDivisionError.
Proof. exact QAnglesProps.C47_degenerate. Qed.
Print Assumptions C47_degenerate.
Theorem C47_degenerate_refuted :
  exists q, unit_quat q /\ quaternion_angles q = Err ZeroDivisionError.
Proof. exact QAnglesProps.C47_degenerate_refuted. Qed.
Print Assumptions C47_degenerate_refuted.

Example C47_nonvacuous : let q := mkquat (1 / 2) (1 / 2) (1 / 2) (1 / 2) in
  unit_quat q /\ qa q <> RtoC 0 /\ qb q <> RtoC 0 /\ (exists r, quaternion_angles q = Ok r) /\ 0 < 1 < PI.
Proof.
  cbv zeta. split; [unfold unit_quat, qnorm2; simpl; lra|].
  assert (A : qa (mkquat (1 / 2) (1 / 2) (1 / 2) (1 / 2)) <> RtoC 0) by (intros X; apply (f_equal fst) in X; simpl in X; lra).
  assert (B : qb (mkquat (1 / 2) (1 / 2) (1 / 2) (1 / 2)) <> RtoC 0) by (intros X; apply (f_equal fst) in X; simpl in X; lra).
  split; [exact A|]. split; [exact B|]. split.
  - eexists. apply QAnglesProps.quaternion_angles_ok; auto.
  - pose proof PI2_1. lra.
Qed.
