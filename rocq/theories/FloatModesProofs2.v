(** Rounding errors of SWSH_grid and of the evaluation of Modes. *)
Require Import ZArith Lia List Reals Lra Bool Permutation.
From Flocq Require Import Core.
From Coquelicot Require Import Complex.
From Verif Require Import Base BaseProofs CBase Fact RSum CSum DRep IndexModel IndexProofs IndexProps PowersModel WignerSpec WignerModel WignerProofs WignerProofs3 SWSHModel SWSHProofs
  NearProofs NearProps ModesModel ModesSpec ModesProofs ModesProofs2 ModesProofs3 FloatIndexModel FloatPowersModel FloatPowersSpec FloatPowersProofs FloatConvModel FloatConvSpec
  FloatConvProofs FloatWignerModel FloatWignerSpec FloatWignerProofs FloatWignerProofs5 FloatWignerProofs6 FloatWignerProps FloatModesModel FloatModesSpec FloatModesProofs.
Import ListNotations.
Set Bullet Behavior "Strict Subproofs".
Open Scope R_scope.

Lemma Re_csum a b F : Re (csum a b F) = rsum a b (fun k => Re (F k)).
Proof.
  revert b. apply (csum_ind (fun b => Re (csum a b F) = rsum a b (fun k => Re (F k))) a).
  - intros b Hb. rewrite csum_empty, rsum_empty by auto. reflexivity.
  - intros b Hb IH. rewrite csum_last, rsum_last by auto. rewrite <- IH. reflexivity.
Qed.
Lemma Im_csum a b F : Im (csum a b F) = rsum a b (fun k => Im (F k)).
Proof.
  revert b. apply (csum_ind (fun b => Im (csum a b F) = rsum a b (fun k => Im (F k))) a).
  - intros b Hb. rewrite csum_empty, rsum_empty by auto. reflexivity.
  - intros b Hb IH. rewrite csum_last, rsum_last by auto. rewrite <- IH. reflexivity.
Qed.
Lemma Cmod_parts z e : 0 <= e -> Rabs (Re z) <= e -> Rabs (Im z) <= e -> Cmod z <= 1415 / 1000 * e.
Proof.
  intros He H1 H2. rewrite Cmod_abs. rewrite <- (sqrt_square (1415 / 1000 * e)) by lra. apply sqrt_le_1_alt.
  pose proof (Rabs_pos (Re z)). pose proof (Rabs_pos (Im z)).
  assert (Rabs (Re z) * Rabs (Re z) <= e * e) by (apply Rmult_le_compat; auto). assert (Rabs (Im z) * Rabs (Im z) <= e * e) by (apply Rmult_le_compat; auto).
  assert (0 <= e * e) by (apply Rmult_le_pos; auto). lra.
Qed.

Lemma cdot64_err n d a b t : (0 <= n)%Z -> adds_all (2 * n) d (fst t) -> adds_all (2 * n) d (snd t) ->
  Cmod (cdot64 n a b t - csum 0 (n - 1) (fun k => a k * b k))%C
  <= 1415 / 1000 * (g d * rsum 0 (n - 1) (fun k => Cmod (a k) * Cmod (b k)) + 4 * IZR n * (1 + g d) * eta).
Proof.
  intros Hn H1 H2. pose proof (g_pos d) as G. pose proof eta_pos as Et. pose proof (IZR_le _ _ Hn) as Hn'.
  apply dot64_all with (x := two n (fun k => Re (a k)) (fun k => - Im (a k))) (y := two n (fun k => Re (b k)) (fun k => Im (b k))) in H1; [|lia].
  apply dot64_all with (x := two n (fun k => Re (a k)) (fun k => Im (a k))) (y := two n (fun k => Im (b k)) (fun k => Re (b k))) in H2; [|lia].
  rewrite (dot_two n _ _ _ _ Rmult), (dot_two n _ _ _ _ (fun x y => Rabs (x * y))) in H1 by auto. rewrite mult_IZR in H1.
  rewrite (dot_two n _ _ _ _ Rmult), (dot_two n _ _ _ _ (fun x y => Rabs (x * y))) in H2 by auto. rewrite mult_IZR in H2.
  assert (P : 0 <= 4 * IZR n * (1 + g d) * eta) by (apply Rmult_le_pos; [apply Rmult_le_pos; lra|lra]).
  assert (Q : 0 <= rsum 0 (n - 1) (fun k => Cmod (a k) * Cmod (b k))) by (apply rsum_nonneg; intros; apply Rmult_le_pos; apply Cmod_ge_0).
  apply Cmod_parts.
  - assert (0 <= g d * rsum 0 (n - 1) (fun k => Cmod (a k) * Cmod (b k))) by (apply Rmult_le_pos; auto). lra.
  - change (Re (cdot64 n a b t - csum 0 (n - 1) (fun k => a k * b k))%C) with
      (dot64 (two n (fun k => Re (a k)) (fun k => - Im (a k))%R) (two n (fun k => Re (b k)) (fun k => Im (b k))) (fst t) - Re (csum 0 (n - 1) (fun k => a k * b k)%C)).
    rewrite Re_csum. rewrite (rsum_ext 0 (n - 1) (fun k => Re (a k * b k)%C) (fun k => Re (a k) * Re (b k) + - Im (a k) * Im (b k))).
    2:{ intros k _. unfold Re, Im, Cmult. cbn [fst snd]. ring. }
    eapply Rle_trans; [exact H1|]. replace (2 * (2 * IZR n)) with (4 * IZR n) by ring. apply Rplus_le_compat_r. apply Rmult_le_compat_l; auto.
    apply rsum_le. intros k _. rewrite !Rabs_mult, Rabs_Ropp, (Cmod_abs (a k)), (Cmod_abs (b k)). apply parts_le; apply Rabs_pos.
  - change (Im (cdot64 n a b t - csum 0 (n - 1) (fun k => a k * b k))%C) with
      (dot64 (two n (fun k => Re (a k)) (fun k => Im (a k))%R) (two n (fun k => Im (b k)) (fun k => Re (b k))) (snd t) - Im (csum 0 (n - 1) (fun k => a k * b k)%C)).
    rewrite Im_csum. rewrite (rsum_ext 0 (n - 1) (fun k => Im (a k * b k)%C) (fun k => Re (a k) * Im (b k) + Im (a k) * Re (b k))).
    2:{ intros k _. unfold Re, Im, Cmult. cbn [fst snd]. ring. }
    eapply Rle_trans; [exact H2|]. replace (2 * (2 * IZR n)) with (4 * IZR n) by ring. apply Rplus_le_compat_r. apply Rmult_le_compat_l; auto.
    apply rsum_le. intros k _. rewrite !Rabs_mult, (Cmod_abs (a k)), (Cmod_sym (b k)). apply parts_le; apply Rabs_pos.
Qed.

(** Sums over columns and over (ell, m) *)
Definition rdsum (L : Z) (G : Z -> Z -> R) : R := rsum 0 L (fun ell => rsum (- ell) ell (G ell)).
Lemma rsum_cols L f : (0 <= L)%Z -> rsum 0 ((L + 1) ^ 2 - 1) f = rdsum L (fun ell m => f (ell * ell + (ell + m))%Z).
Proof.
  intros HL. pose proof (csum_cols L (fun k => RtoC (f k)) HL) as H. unfold dsum in H. rewrite <- rsum_RtoC in H.
  rewrite (csum_ext 0 L _ (fun ell => RtoC (rsum (- ell) ell (fun m => f (ell * ell + (ell + m))%Z)))) in H by (intros; symmetry; apply rsum_RtoC).
  rewrite <- rsum_RtoC in H. apply RtoC_inj in H. exact H.
Qed.
Lemma rdsum_le L F G : (forall ell m, (0 <= ell <= L)%Z -> (- ell <= m <= ell)%Z -> F ell m <= G ell m) -> rdsum L F <= rdsum L G.
Proof. intros H. apply rsum_le. intros ell He. apply rsum_le. intros m Hm. apply H; auto. Qed.
Lemma rdsum_scal L k F : rdsum L (fun ell m => k * F ell m) = k * rdsum L F.
Proof. unfold rdsum. rewrite <- rsum_scal. apply rsum_ext. intros. apply rsum_scal. Qed.
Lemma rdsum_plus L F G : rdsum L (fun ell m => F ell m + G ell m) = rdsum L F + rdsum L G.
Proof. unfold rdsum. rewrite <- rsum_plus. apply rsum_ext. intros. apply rsum_plus. Qed.

(** A harmonic at a rotor *)
Lemma nearly_unit_value s ell m a b : nearly_unit a b -> (Z.abs m <= ell <= 32)%Z -> (Z.abs s <= ell)%Z -> Cmod (SWSH_value s ell m a b) <= 101 / 100 * swsh_norm ell.
Proof.
  intros U Hm Hs. rewrite SWSH_value_in by lia. unfold Dv. rewrite !Cmod_mult, !Cmod_R, Rabs_sgn, Rmult_1_l, (Rabs_pos_eq (swsh_norm ell)) by apply swsh_norm_pos.
  rewrite Rmult_comm. apply Rmult_le_compat_r; [apply swsh_norm_pos|].
  pose proof (nu_pos a b U) as P. destruct (nu_sq a b U) as (E & B & B'). pose proof (nu_unit a b U) as V. pose proof u64_pos as Up.
  set (nu := sqrt (Cmod a ^ 2 + Cmod b ^ 2)) in *.
  assert (EN : forall x, x = (RtoC nu * (RtoC (/ nu) * x))%C). { intros x. rewrite Cmult_assoc, <- RtoC_mult, Rinv_r by lra. ring. }
  rewrite (EN a), (EN b), Dm_scale by lia. rewrite Cmod_mult, Cmod_R.
  assert (PN : 0 <= nu ^ Z.to_nat (2 * ell) <= 101 / 100).
  { split; [apply pow_le; lra|]. rewrite pow_powerRZ by lia. apply power_unit; [lra|lia]. }
  rewrite Rabs_pos_eq by lra. pose proof (Dm_mod_le (2 * ell) (ell + m) (ell + - s) _ _ ltac:(lia) ltac:(lia) V).
  rewrite <- (Rmult_1_r (101 / 100)). apply Rmult_le_compat; try lra. apply Cmod_ge_0.
Qed.

(** SWSH_grid: the rows go through SWSH_core64 *)
Lemma SWSH_grid64_rows lib gb Rs s ell_max (Q : quat -> Z * Z -> C -> Prop) : (0 <= ell_max)%Z -> (0 < alen Rs)%Z ->
  (forall i indices values, (0 <= i < alen Rs)%Z -> (0 <= alen indices <= alen values)%Z ->
     (forall j, (0 <= j < alen indices)%Z -> 0 <= fst (aget indices j) <= ell_max)%Z ->
     exists out, SWSH_core64 lib (qa (aget Rs i)) (qb (aget Rs i)) s indices values = Ok out
       /\ forall j, (0 <= j < alen indices)%Z -> Q (aget Rs i) (aget indices j) (aget out j)) ->
  exists out, SWSH_grid64 lib gb Rs s ell_max = Ok out
    /\ nrow out = alen Rs /\ ncol out = LM_total_size 0 ell_max
    /\ forall i ell m, (0 <= i < alen Rs)%Z -> (0 <= ell <= ell_max)%Z -> (- ell <= m <= ell)%Z ->
         Q (aget Rs i) (ell, m) (get2 out i (LM_index ell m 0)).
Proof.
  intros HL Hlen HQ. unfold SWSH_grid64.
  destruct (C01 gb 0 ell_max ltac:(lia)) as (LM & E & EL & Hrow & _ & Hidx). rewrite E. cbn [bind].
  destruct (Z.eqb_spec (alen Rs) 0); [lia|].
  match goal with |- context [for_range 0 (alen Rs) ?f ?v] => set (body := f); set (v0 := v) end.
  destruct (for_range_inv (fun k o => nrow o = alen Rs /\ ncol o = alen LM
     /\ (forall i j, (0 <= i < k)%Z -> (0 <= j < alen LM)%Z -> Q (aget Rs i) (aget LM j) (get2 o i j)))
     0 (alen Rs) body v0 ltac:(lia)) as (out & EO & A & B & D).
  - unfold v0; cbn. repeat split; auto. intros; lia.
  - intros i o Hi (A & B & D).
    assert (0 <= alen LM)%Z by (rewrite EL; unfold LM_total_size; nia).
    destruct (HQ i LM (mkarr (ncol o) (get2 o i)) Hi) as (row & ER & HV).
    { cbn [alen]. rewrite B. lia. }
    { intros j Hj. specialize (Hrow j Hj). lia. }
    unfold body. rewrite rd_ok by lia. cbn [bind]. rewrite ER. cbn [bind]. eexists. split; [reflexivity|].
    cbn [nrow ncol get2]. repeat split; auto. intros i' j Hi' Hj.
    destruct (Z.eqb_spec i' i) as [->|]; [auto|]. apply D; lia.
  - exists out. split; [auto|]. split; [auto|]. split; [congruence|].
    intros i ell m Hi Hell Hm. destruct (Hidx ell m Hell Hm) as [X Y].
    specialize (D i (LM_index ell m 0) Hi X). rewrite Y in D. exact D.
Qed.
