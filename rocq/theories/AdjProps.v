(** C51: the differential operators are adjoint to each other with respect to the integral over the sphere. *)
Require Import ZArith Lia Reals Lra Bool List.
From Coquelicot Require Import Hierarchy RInt Complex.
From Verif Require Import Base BaseProofs CBase CSum RSum Fact DRep WignerSpec WignerModel IndexModel RotorSpec WignerProps
  SWSHModel SWSHProofs ModesModel ModesSpec ModesProofs2 ModesProofs3 ModesProps2 OrthoSpec OrthoProofs OrthoProps.
Import ListNotations.
Open Scope Z_scope.

Lemma Cconj_scale r z : Cconj (RtoC r * z)%C = (RtoC r * Cconj z)%C.
Proof. rewrite Cconj_mult, Cconj_RtoC. reflexivity. Qed.

(** Modes with ell < |s| vanish. *)
Definition low0 (s ell : Z) (w : Z -> Z -> C) : Prop := ell < Z.abs s -> forall m, - ell <= m <= ell -> w ell m = RtoC 0.
Definition adjoint_rows (sg ds : Z) (W V : Z -> (Z -> Z -> C) -> Z -> Z -> C) : Prop :=
  forall s ell w v, 0 <= ell -> low0 s ell w -> low0 (s + ds) ell v ->
  csum (- ell) ell (fun m => w ell m * Cconj (V (s + ds)%Z v ell m))%C
  = (RtoC (IZR sg) * csum (- ell) ell (fun m => W s w ell m * Cconj (v ell m)))%C.

Lemma adjoint_run A B ds sg W V : op_spec A ds W -> op_spec B (- ds) V -> adjoint_rows sg ds W V ->
  forall Lt tab h f g, is_Wigner_table Lt tab -> wf h f -> wf h g -> spin (md g) = spin (md f) + ds ->
  0 <= ellmax (md f) <= Lt -> 0 <= ellmax (md g) <= Lt ->
  exists h1 r h2 t, A h f = Ok (h1, r) /\ B h g = Ok (h2, t)
    /\ (forall theta phi, rotor (direction_rotor theta phi) ->
          value_at tab h f (direction_rotor theta phi) (fun idx => sphere_function h f idx theta phi)
          /\ value_at tab h g (direction_rotor theta phi) (fun idx => sphere_function h g idx theta phi)
          /\ value_at tab h1 r (direction_rotor theta phi) (fun idx => sphere_function h1 r idx theta phi)
          /\ value_at tab h2 t (direction_rotor theta phi) (fun idx => sphere_function h2 t idx theta phi))
    /\ forall idx idx', at_index (lead (nd f)) idx -> at_index (lead (nd g)) idx' -> exists I,
         sphere_integral (fun theta phi => sphere_function h1 r idx theta phi * Cconj (sphere_function h g idx' theta phi))%C I
         /\ sphere_integral (fun theta phi => sphere_function h f idx theta phi * Cconj (sphere_function h2 t idx' theta phi))%C (RtoC (IZR sg) * I)%C.
Proof.
  intros SA SB R Lt tab h f g Ht Wf Wg Es Lf Lg.
  destruct (op_run _ _ _ h f SA Wf) as (h1 & r & E1 & (_ & _ & _ & Sr & Lr & _ & Wr & Mr)).
  destruct (op_run _ _ _ h g SB Wg) as (h2 & t & E2 & (_ & _ & _ & St & Lt' & _ & Wt & Mt)).
  exists h1, r, h2, t. split; [exact E1|]. split; [exact E2|]. split.
  - intros theta phi Hr. repeat split; apply (C48_function Lt); auto; lia.
  - intros idx idx' Hi Hi'. eexists. split; [apply inner_modes; auto; lia|].
    eapply SInt_eq; [|apply inner_modes; auto; lia]. rewrite Lr, Lt', <- csum_scal. apply csum_ext. intros ell He.
    transitivity (csum (- ell) ell (fun m => mode h f idx ell m * Cconj (V (spin (md f) + ds)%Z (mode h g idx') ell m)))%C.
    { apply csum_ext. intros m Hm. rewrite Mt by (auto; lia). rewrite Es. reflexivity. }
    rewrite R; try lia.
    + f_equal. apply csum_ext. intros m Hm. rewrite Mr by (auto; lia). reflexivity.
    + intros Lo m Hm. apply Wf; auto; lia.
    + intros Lo m Hm. apply Wg; auto; lia.
Qed.

Lemma rows_diag sg ds (c d : Z -> Z -> Z -> R) :
  (forall s ell m, Z.abs s <= ell -> Z.abs (s + ds) <= ell -> - ell <= m <= ell -> d (s + ds) ell m = (IZR sg * c s ell m)%R) ->
  adjoint_rows sg ds (fun s w ell m => RtoC (c s ell m) * w ell m)%C (fun s w ell m => RtoC (d s ell m) * w ell m)%C.
Proof.
  intros H s ell w v He Lw Lv. rewrite <- csum_scal. apply csum_ext. intros m Hm. rewrite Cconj_scale.
  destruct (Z_lt_ge_dec ell (Z.abs s)); [rewrite Lw by auto; ring|].
  destruct (Z_lt_ge_dec ell (Z.abs (s + ds))); [rewrite Lv by auto; rewrite Cconj_RtoC; ring|].
  rewrite H by lia. rewrite RtoC_mult. ring.
Qed.

Lemma rows_up : adjoint_rows 1 0 (fun s w ell m => RtoC (up ell m) * w ell (m - 1)%Z)%C (fun s w ell m => RtoC (down ell m) * w ell (m + 1)%Z)%C.
Proof.
  intros s ell w v He _ _. rewrite Cmult_1_l.
  rewrite (csum_last (- ell) ell) by lia. rewrite (csum_first (- ell) ell) by lia.
  assert (U : up ell (- ell) = 0%R) by (unfold up; replace (ell + - ell) with 0 by lia; apply sqrt_0).
  assert (D : down ell ell = 0%R) by (unfold down; replace (ell - ell) with 0 by lia; apply sqrt_0).
  rewrite U, D, !Cmult_0_l, Cconj_RtoC, Cmult_0_r, Cplus_0_l, Cplus_0_r.
  rewrite (csum_shift (- ell) (ell - 1) 1). replace (ell - 1 + 1) with ell by lia. apply csum_ext. intros m Hm.
  rewrite Cconj_scale. replace (m - 1 + 1) with m by lia. unfold up, down. replace ((ell - (m - 1)) * (ell + (m - 1) + 1)) with ((ell + m) * (ell - m + 1)) by ring. ring.
Qed.
Lemma rows_down : adjoint_rows 1 0 (fun s w ell m => RtoC (down ell m) * w ell (m + 1)%Z)%C (fun s w ell m => RtoC (up ell m) * w ell (m - 1)%Z)%C.
Proof.
  intros s ell w v He _ _. rewrite Cmult_1_l.
  rewrite (csum_first (- ell) ell) by lia. rewrite (csum_last (- ell) ell) by lia.
  assert (U : up ell (- ell) = 0%R) by (unfold up; replace (ell + - ell) with 0 by lia; apply sqrt_0).
  assert (D : down ell ell = 0%R) by (unfold down; replace (ell - ell) with 0 by lia; apply sqrt_0).
  rewrite U, D, !Cmult_0_l, Cconj_RtoC, Cmult_0_r, Cplus_0_l, Cplus_0_r.
  symmetry. rewrite (csum_shift (- ell) (ell - 1) 1). replace (ell - 1 + 1) with ell by lia. apply csum_ext. intros m Hm.
  rewrite Cconj_scale. replace (m - 1 + 1) with m by lia. unfold up, down. replace ((ell - (m - 1)) * (ell + (m - 1) + 1)) with ((ell + m) * (ell - m + 1)) by ring. ring.
Qed.

Lemma spec_R2 : op_spec Rsquared 0 (fun s w ell mm => RtoC (IZR (ell * (ell + 1))) * w ell mm)%C.
Proof. exact spec_L2. Qed.
Lemma spec_eth : op_spec eth 1 (fun s w ell mm => RtoC (rdown s ell) * w ell mm)%C.
Proof. exact spec_Rm. Qed.
Lemma spec_ethbar' : op_spec ethbar (-1) (fun s w ell mm => RtoC (- rup s ell) * w ell mm)%C.
Proof.
  destruct spec_ethbar as (H & _). split.
  - intros h f W. eapply gives_ext; [apply H; auto|]. intros idx ell m _ _ _. cbv beta. rewrite RtoC_opp. ring.
  - intros. f_equal. auto.
Qed.

Lemma C51_adjoint :
  forall A B ds sg, In (A, B, ds, sg)
    [(Lz, Lz, 0, 1); (Lplus, Lminus, 0, 1); (Lminus, Lplus, 0, 1); (Lsquared, Lsquared, 0, 1);
     (Rz, Rz, 0, 1); (Rplus, Rminus, -1, 1); (Rminus, Rplus, 1, 1); (Rsquared, Rsquared, 0, 1);
     (eth, ethbar, 1, -1); (ethbar, eth, -1, -1)] ->
  forall Lt tab h f g, is_Wigner_table Lt tab -> wf h f -> wf h g -> spin (md g) = spin (md f) + ds ->
  0 <= ellmax (md f) <= Lt -> 0 <= ellmax (md g) <= Lt ->
  exists h1 r h2 t, A h f = Ok (h1, r) /\ B h g = Ok (h2, t)
    /\ (forall theta phi, rotor (direction_rotor theta phi) ->
          value_at tab h f (direction_rotor theta phi) (fun idx => sphere_function h f idx theta phi)
          /\ value_at tab h g (direction_rotor theta phi) (fun idx => sphere_function h g idx theta phi)
          /\ value_at tab h1 r (direction_rotor theta phi) (fun idx => sphere_function h1 r idx theta phi)
          /\ value_at tab h2 t (direction_rotor theta phi) (fun idx => sphere_function h2 t idx theta phi))
    /\ forall idx idx', at_index (lead (nd f)) idx -> at_index (lead (nd g)) idx' -> exists I,
         sphere_integral (fun theta phi => sphere_function h1 r idx theta phi * Cconj (sphere_function h g idx' theta phi))%C I
         /\ sphere_integral (fun theta phi => sphere_function h f idx theta phi * Cconj (sphere_function h2 t idx' theta phi))%C (RtoC (IZR sg) * I)%C.
Proof.
  intros A B ds sg H.
  assert (X : forall s ell, rup (s + 1) ell = rdown s ell).
  { intros. unfold rup, rdown. f_equal. f_equal. ring. }
  assert (Y : forall s ell, rdown (s + -1) ell = rup s ell).
  { intros. unfold rup, rdown. f_equal. f_equal. ring. }
  cbn [In] in H.
  repeat (destruct H as [H|H]; [injection H; intros <- <- <- <-|]); [..|destruct H].
  - refine (adjoint_run _ _ _ _ _ _ spec_Lz spec_Lz _). apply (rows_diag 1 0 (fun s ell m => IZR m) (fun s ell m => IZR m)). intros. ring.
  - exact (adjoint_run _ _ _ _ _ _ spec_Lp spec_Lm rows_up).
  - exact (adjoint_run _ _ _ _ _ _ spec_Lm spec_Lp rows_down).
  - refine (adjoint_run _ _ _ _ _ _ spec_L2 spec_L2 _). apply (rows_diag 1 0 (fun s ell m => IZR (ell * (ell + 1))) (fun s ell m => IZR (ell * (ell + 1)))). intros. ring.
  - refine (adjoint_run _ _ _ _ _ _ spec_Rz spec_Rz _). apply (rows_diag 1 0 (fun s ell m => IZR (- s)) (fun s ell m => IZR (- s))). intros. rewrite Z.add_0_r. ring.
  - refine (adjoint_run _ _ _ _ _ _ spec_Rp spec_Rm _). apply (rows_diag 1 (-1) (fun s ell m => rup s ell) (fun s ell m => rdown s ell)). intros. rewrite Y. ring.
  - refine (adjoint_run _ _ _ _ _ _ spec_Rm spec_Rp _). apply (rows_diag 1 1 (fun s ell m => rdown s ell) (fun s ell m => rup s ell)). intros. rewrite X. ring.
  - refine (adjoint_run _ _ _ _ _ _ spec_R2 spec_R2 _). apply (rows_diag 1 0 (fun s ell m => IZR (ell * (ell + 1))) (fun s ell m => IZR (ell * (ell + 1)))). intros. ring.
  - refine (adjoint_run _ _ _ _ _ _ spec_eth spec_ethbar' _). apply (rows_diag (-1) 1 (fun s ell m => rdown s ell) (fun s ell m => (- rup s ell)%R)). intros. rewrite X. ring.
  - refine (adjoint_run _ _ _ _ _ _ spec_ethbar' spec_eth _). apply (rows_diag (-1) (-1) (fun s ell m => (- rup s ell)%R) (fun s ell m => rdown s ell)). intros. rewrite Y. ring.
Qed.
