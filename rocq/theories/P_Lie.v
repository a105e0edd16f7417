(** Properties C27 and C44: the L and R operators as Lie derivatives, and rotations of modes. *)
Require Import ZArith Lia List Reals Lra Bool.
From Coquelicot Require Import Complex.
From Verif Require Import Base CBase CSum DRep IndexModel WignerSpec WignerModel SWSHModel RotorSpec ModesModel ModesSpec LieSpec.
From Verif Require WignerProps LieProps.
Import ListNotations.
Open Scope C_scope.

(** Concrete objects: a function with spin weight 0 and ell up to 2 (buffer 0) and its rotation by the quaternion
    (3/5, 0, 4/5, 0) (buffer 1). *)
Definition turn : quat := mkquat (3 / 5) 0 (4 / 5) 0.
Definition turn_D (ell m m' : Z) : C := Wigner_formula (2 * ell) (2 * m) (2 * m') (qa turn) (qb turn).
Definition start (idx : list Z) (ell m : Z) : C := RtoC (IZR (ell * ell + (ell + m) + 1)).
Definition demo_heap : heap :=
  mkheap 2 (fun b idx k => if (b =? 0)%nat then RtoC (IZR (k + 1))
                           else rotated turn_D start idx (Z.sqrt k) (k - Z.sqrt k * Z.sqrt k - Z.sqrt k)).
Definition demo_f : modes := mkmodes (mknd 0 [2%Z] 9) (mkmeta 0 2 None).
Definition demo_g : modes := mkmodes (mknd 1 [2%Z] 9) (mkmeta 0 2 None).
Example demo_f_wf : wf demo_heap demo_f.
Proof. split; [cbn; lia|]. split; [reflexivity|]. cbn. lia. Qed.
Example demo_g_wf : wf demo_heap demo_g.
Proof. split; [cbn; lia|]. split; [reflexivity|]. cbn. lia. Qed.
Example demo_rotated : same_modes demo_f (mode demo_heap demo_g) (rotated turn_D (mode demo_heap demo_f)).
Proof.
  intros idx ell m Hi He Hm. unfold mode. cbn [demo_g nd buf demo_heap mem Nat.eqb].
  assert (E : Z.sqrt (ell * ell + (ell + m)) = ell) by (apply Z.sqrt_unique; nia). rewrite E.
  replace (ell * ell + (ell + m) - ell * ell - ell)%Z with m by lia. reflexivity.
Qed.
Example turn_generic : generic turn /\ unit_quat turn.
Proof. split; [split; [exact (proj1 WignerProps.q345_rotor)|exact WignerProps.q345_parts]|exact (proj1 WignerProps.q345_rotor)]. Qed.
Example demo_table : exists tab, is_Wigner_table 32 tab.
Proof. apply WignerProps.table_exists. lia. Qed.
Example demo_nonzero : mode demo_heap demo_f [1%Z] 2 (-1) <> RtoC 0.
Proof. unfold mode. cbn. intros H. apply (f_equal Re) in H. cbn in H. lra. Qed.

(** ** C27 *)
(** Lz, Lplus and Lminus return the left Lie derivatives Lz, Lx + i Ly, Lx - i Ly of the function that [evaluate] computes. *)
Theorem C27_left_derivatives :
  forall Lt tab h f q, is_Wigner_table Lt tab -> wf h f -> (0 <= ellmax (md f) <= Lt)%Z -> generic q ->
  exists vx vy vz,
    left_derivative tab h f turn_x q vx /\ left_derivative tab h f turn_y q vy /\ left_derivative tab h f turn_z q vz
    /\ op_value Lz tab h f q vz
    /\ op_value Lplus tab h f q (fun idx => vx idx + Ci * vy idx)
    /\ op_value Lminus tab h f q (fun idx => vx idx - Ci * vy idx).
Proof. exact LieProps.C27_left_derivatives. Qed.
Print Assumptions C27_left_derivatives.
Theorem C27_ladder_entries :
  forall h f, wf h f -> let s := spin (md f) in
  exists z p m, gives Lz h f s z /\ gives Lplus h f s p /\ gives Lminus h f s m
    /\ same_modes f z (fun idx ell k => RtoC (IZR k) * mode h f idx ell k)
    /\ same_modes f p (fun idx ell k => if (k =? - ell)%Z then RtoC 0 else RtoC (sqrt (IZR ell * (IZR ell + 1) - IZR k * (IZR k - 1))) * mode h f idx ell (k - 1)%Z)
    /\ same_modes f m (fun idx ell k => if (k =? ell)%Z then RtoC 0 else RtoC (sqrt (IZR ell * (IZR ell + 1) - IZR k * (IZR k + 1))) * mode h f idx ell (k + 1)%Z).
Proof. exact LieProps.C27_ladder_entries. Qed.
Print Assumptions C27_ladder_entries.
(** Replacing the modes [w] by [w . D(p)] gives the function q |-> f(p q) ... *)
Theorem C27_rotated_values :
  forall Lt tab h f g p, is_Wigner_table Lt tab -> wf h f -> wf h g -> (0 <= ellmax (md f) <= Lt)%Z -> unit_quat p ->
  spin (md g) = spin (md f) -> ellmax (md g) = ellmax (md f) -> lead (nd g) = lead (nd f) ->
  same_modes f (mode h g) (rotated (fun ell m m' => Wigner_formula (2 * ell) (2 * m) (2 * m') (qa p) (qb p)) (mode h f)) ->
  forall q F, rotor q -> rotor (qmul p q) -> value_at tab h f (qmul p q) F -> value_at tab h g q F.
Proof. exact LieProps.C27_rotated_values. Qed.
Print Assumptions C27_rotated_values.
(** ... and that commutes with every R operator, eth and ethbar. *)
Theorem C27_rotation_commutes :
  forall op ds, In (op, ds) [(Rz, 0%Z); (Rplus, (-1)%Z); (Rminus, 1%Z); (Rsquared, 0%Z); (Lsquared, 0%Z); (eth, 1%Z); (ethbar, (-1)%Z)] ->
  forall h f g p, wf h f -> wf h g -> unit_quat p ->
  let d := fun ell m m' => Wigner_formula (2 * ell) (2 * m) (2 * m') (qa p) (qb p) in
  spin (md g) = spin (md f) -> ellmax (md g) = ellmax (md f) -> lead (nd g) = lead (nd f) ->
  same_modes f (mode h g) (rotated d (mode h f)) ->
  exists v w, gives op h f (spin (md f) + ds) v /\ gives op h g (spin (md f) + ds) w /\ same_modes f w (rotated d v).
Proof. exact LieProps.C27_rotation_commutes. Qed.
Print Assumptions C27_rotation_commutes.

Example C27_nonvacuous : wf demo_heap demo_f /\ (0 <= ellmax (md demo_f) <= 32)%Z /\ generic turn
  /\ spin (md demo_g) = spin (md demo_f) /\ lead (nd demo_g) = lead (nd demo_f)
  /\ same_modes demo_f (mode demo_heap demo_g) (rotated turn_D (mode demo_heap demo_f)).
Proof.
  split; [exact demo_f_wf|]. split; [cbn; lia|]. split; [exact (proj1 turn_generic)|]. split; [reflexivity|]. split; [reflexivity|].
  exact demo_rotated.
Qed.
(** Rotating [turn] by itself stays away from the poles, so the values theorem applies at q = turn. *)
Example C27_values_nonvacuous : rotor turn /\ rotor (qmul turn turn).
Proof.
  split; [exact WignerProps.q345_rotor|]. split; [unfold unit_quat, qnorm2, qmul, turn; cbn; field|].
  pose proof WignerProps.epsilon_small. split; right; unfold qa, qb, qmul, turn; cbn [qw qx qy qz]; unfold Cmod; cbn [fst snd].
  - apply (Rlt_le_trans _ (1 / 5)); [lra|]. rewrite <- (sqrt_Rsqr (1 / 5)) by lra. apply sqrt_le_1_alt. unfold Rsqr. lra.
  - apply (Rlt_le_trans _ (1 / 5)); [lra|]. rewrite <- (sqrt_Rsqr (1 / 5)) by lra. apply sqrt_le_1_alt. unfold Rsqr. lra.
Qed.

(** ** C44 *)
(** Rz is the right Lie derivative; Rplus and Rminus are the documented combinations with the opposite sign. *)
Theorem C44_right_derivatives_partial :
  forall Lt tab h f q, is_Wigner_table Lt tab -> wf h f -> (0 <= ellmax (md f) <= Lt)%Z -> generic q ->
  exists vx vy vz,
    right_derivative tab h f turn_x q vx /\ right_derivative tab h f turn_y q vy /\ right_derivative tab h f turn_z q vz
    /\ op_value Rz tab h f q vz
    /\ op_value Rplus tab h f q (fun idx => - (vx idx - Ci * vy idx))
    /\ op_value Rminus tab h f q (fun idx => - (vx idx + Ci * vy idx))
    /\ op_value eth tab h f q (fun idx => - (vx idx + Ci * vy idx))
    /\ op_value ethbar tab h f q (fun idx => vx idx - Ci * vy idx).
Proof. exact LieProps.C44_right_derivatives. Qed.
Print Assumptions C44_right_derivatives_partial.
(** The documented sign is refuted. *)
Theorem C44_Rplus_refuted :
  exists Lt tab h f q idx, is_Wigner_table Lt tab /\ wf h f /\ (0 <= ellmax (md f) <= Lt)%Z /\ generic q /\ at_index (lead (nd f)) idx
  /\ exists vx vy vp, right_derivative tab h f turn_x q vx /\ right_derivative tab h f turn_y q vy
       /\ op_value Rplus tab h f q vp /\ vp idx <> vx idx - Ci * vy idx.
Proof. exact LieProps.C44_refuted. Qed.
Print Assumptions C44_Rplus_refuted.
Example C44_nonvacuous : wf demo_heap demo_f /\ (0 <= ellmax (md demo_f) <= 32)%Z /\ generic turn.
Proof. split; [exact demo_f_wf|]. split; [cbn; lia|]. exact (proj1 turn_generic). Qed.
