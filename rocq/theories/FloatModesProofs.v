(** Rounding errors of sums of products in any order. *)
Require Import ZArith Lia List Reals Lra Bool Permutation.
From Flocq Require Import Core.
From Coquelicot Require Import Complex.
From Verif Require Import Base BaseProofs CBase RSum FloatIndexModel FloatPowersModel FloatPowersSpec FloatPowersProofs FloatConvModel FloatConvSpec
  FloatConvProofs FloatWignerModel FloatWignerSpec FloatWignerProofs FloatModesModel FloatModesSpec.
Import ListNotations.
Set Bullet Behavior "Strict Subproofs".
Open Scope R_scope.

(** Sum over a list of indices *)
Definition lsum (l : list Z) (f : Z -> R) : R := fold_right (fun k s => f k + s) 0 l.
Lemma lsum_app l l' f : lsum (l ++ l') f = lsum l f + lsum l' f.
Proof. unfold lsum. induction l as [|k l IH]; cbn [app fold_right]; [ring|]. rewrite IH. ring. Qed.
Lemma lsum_perm l l' f : Permutation l l' -> lsum l f = lsum l' f.
Proof. unfold lsum. induction 1; cbn [fold_right]; lra. Qed.
Lemma lsum_nonneg l f : (forall k, 0 <= f k) -> 0 <= lsum l f.
Proof. intros H. unfold lsum. induction l as [|k l IH]; cbn [fold_right]; [lra|]. pose proof (H k). lra. Qed.
Lemma lsum_abs l f : Rabs (lsum l f) <= lsum l (fun k => Rabs (f k)).
Proof.
  unfold lsum. induction l as [|k l IH]; cbn [fold_right]; [rewrite Rabs_R0; lra|]. eapply Rle_trans; [apply Rabs_triang|]. lra.
Qed.
Lemma lsum_range n f : (0 <= n)%Z -> lsum (map Z.of_nat (seq 0 (Z.to_nat n))) f = rsum 0 (n - 1) f.
Proof.
  intros Hn. rewrite <- (Z2Nat.id n) at 2 by lia. generalize (Z.to_nat n) as k. induction k as [|k IH]; [reflexivity|].
  rewrite seq_S, map_app, lsum_app, IH, Nat2Z.inj_succ. unfold Z.succ. rewrite (rsum_last 0 (Z.of_nat k + 1 - 1)) by lia.
  replace (Z.of_nat k + 1 - 1)%Z with (Z.of_nat k) by lia. cbn [map lsum fold_right plus]. ring.
Qed.

Lemma terms_pos t : (1 <= length (terms t))%nat.
Proof. induction t; cbn [terms length]; try rewrite app_length; lia. Qed.
Lemma depth_terms t : (depth t <= length (terms t))%nat.
Proof.
  induction t as [k|l IHl r IHr|k r IHr]; cbn [terms depth length]; try lia. rewrite app_length. pose proof (terms_pos l). pose proof (terms_pos r). lia.
Qed.

Lemma dot64_err x y t :
  Rabs (dot64 x y t - lsum (terms t) (fun k => x k * y k))
  <= g (depth t) * lsum (terms t) (fun k => Rabs (x k * y k)) + (2 * INR (length (terms t)) - 1) * (1 + g (depth t)) * eta.
Proof.
  pose proof u64_pos as U. pose proof eta_pos as E.
  assert (B : forall v e gd S c, Rabs (v - e) <= gd * S + c * (1 + gd) * eta -> Rabs e <= S -> Rabs v <= (1 + gd) * S + c * (1 + gd) * eta).
  { intros v e gd S c H1 H2. replace v with ((v - e) + e) by ring. eapply Rle_trans; [apply Rabs_triang|]. lra. }
  induction t as [k|l IHl r IHr|k r IHr]; cbn [terms depth dot64].
  - pose proof (RN64_err (x k * y k)) as H. rewrite g_S. unfold lsum, g. cbn [fold_right length INR pow]. rewrite !Rplus_0_r.
    eapply Rle_trans; [exact H|]. pose proof (Rabs_pos (x k * y k)). nra.
  - set (D := Nat.max (depth l) (depth r)). rewrite !lsum_app, app_length, plus_INR.
    set (vl := dot64 x y l) in *. set (vr := dot64 x y r) in *.
    pose proof (lsum_abs (terms l) (fun k => x k * y k)) as Al. pose proof (lsum_abs (terms r) (fun k => x k * y k)) as Ar.
    set (el := lsum (terms l) (fun k => x k * y k)) in *. set (er := lsum (terms r) (fun k => x k * y k)) in *.
    assert (Sl0 : 0 <= lsum (terms l) (fun k => Rabs (x k * y k))) by (apply lsum_nonneg; intros; apply Rabs_pos).
    assert (Sr0 : 0 <= lsum (terms r) (fun k => Rabs (x k * y k))) by (apply lsum_nonneg; intros; apply Rabs_pos).
    set (Sl := lsum (terms l) (fun k => Rabs (x k * y k))) in *. set (Sr := lsum (terms r) (fun k => Rabs (x k * y k))) in *.
    assert (Nl : 1 <= INR (length (terms l))) by (apply (le_INR 1), terms_pos).
    assert (Nr : 1 <= INR (length (terms r))) by (apply (le_INR 1), terms_pos).
    set (cl := INR (length (terms l))) in *. set (cr := INR (length (terms r))) in *.
    pose proof (g_le (depth l) D ltac:(lia)) as Gl. pose proof (g_le (depth r) D ltac:(lia)) as Gr. pose proof (g_pos D) as G0.
    set (gD := g D) in *.
    assert (Hl : Rabs (vl - el) <= gD * Sl + (2 * cl - 1) * (1 + gD) * eta).
    { eapply Rle_trans; [exact IHl|]. apply Rplus_le_compat; [apply Rmult_le_compat_r; lra|]. apply Rmult_le_compat_r; [lra|]. apply Rmult_le_compat_l; lra. }
    assert (Hr : Rabs (vr - er) <= gD * Sr + (2 * cr - 1) * (1 + gD) * eta).
    { eapply Rle_trans; [exact IHr|]. apply Rplus_le_compat; [apply Rmult_le_compat_r; lra|]. apply Rmult_le_compat_r; [lra|]. apply Rmult_le_compat_l; lra. }
    pose proof (B _ _ _ _ _ Hl Al) as Bl. pose proof (B _ _ _ _ _ Hr Ar) as Br.
    pose proof (RN64_err (vl + vr)) as H. rewrite g_S. fold gD.
    assert (A1 : Rabs (vl + vr) <= (1 + gD) * (Sl + Sr) + (2 * cl + 2 * cr - 2) * (1 + gD) * eta).
    { eapply Rle_trans; [apply Rabs_triang|]. lra. }
    replace (RN64 (vl + vr) - (el + er)) with ((RN64 (vl + vr) - (vl + vr)) + ((vl - el) + (vr - er))) by ring.
    eapply Rle_trans; [apply Rabs_triang|]. eapply Rle_trans; [apply Rplus_le_compat_l, Rabs_triang|].
    assert (A2 : u64 * Rabs (vl + vr) <= u64 * ((1 + gD) * (Sl + Sr) + (2 * cl + 2 * cr - 2) * (1 + gD) * eta)) by (apply Rmult_le_compat_l; lra).
    assert (A3 : eta <= (1 + (gD + u64 * (1 + gD))) * eta).
    { rewrite <- (Rmult_1_l eta) at 1. apply Rmult_le_compat_r; [lra|]. assert (0 <= u64 * (1 + gD)) by (apply Rmult_le_pos; lra). lra. }
    replace ((gD + u64 * (1 + gD)) * (Sl + Sr) + (2 * (cl + cr) - 1) * (1 + (gD + u64 * (1 + gD))) * eta)
      with (gD * Sl + gD * Sr + u64 * ((1 + gD) * (Sl + Sr) + (2 * cl + 2 * cr - 2) * (1 + gD) * eta) + (2 * cl - 1) * (1 + gD) * eta + (2 * cr - 1) * (1 + gD) * eta
            + (1 + (gD + u64 * (1 + gD))) * eta) by ring.
    lra.
  - change (lsum (k :: terms r) (fun k => x k * y k)) with (x k * y k + lsum (terms r) (fun k => x k * y k)).
    change (lsum (k :: terms r) (fun k => Rabs (x k * y k))) with (Rabs (x k * y k) + lsum (terms r) (fun k => Rabs (x k * y k))).
    cbn [length]. rewrite S_INR, g_S. set (vr := dot64 x y r) in *. set (p := x k * y k).
    pose proof (lsum_abs (terms r) (fun k => x k * y k)) as Ar.
    set (er := lsum (terms r) (fun k => x k * y k)) in *.
    assert (Sr0 : 0 <= lsum (terms r) (fun k => Rabs (x k * y k))) by (apply lsum_nonneg; intros; apply Rabs_pos).
    set (Sr := lsum (terms r) (fun k => Rabs (x k * y k))) in *.
    assert (Nr : 1 <= INR (length (terms r))) by (apply (le_INR 1), terms_pos).
    set (cr := INR (length (terms r))) in *. pose proof (g_pos (depth r)) as G0. set (gD := g (depth r)) in *.
    pose proof (B _ _ _ _ _ IHr Ar) as Br. pose proof (RN64_err (p + vr)) as H. pose proof (Rabs_pos p) as P0.
    replace (RN64 (p + vr) - (p + er)) with ((RN64 (p + vr) - (p + vr)) + (vr - er)) by ring.
    eapply Rle_trans; [apply Rabs_triang|].
    assert (A2 : u64 * Rabs (p + vr) <= u64 * (Rabs p + ((1 + gD) * Sr + (2 * cr - 1) * (1 + gD) * eta))).
    { apply Rmult_le_compat_l; [lra|]. eapply Rle_trans; [apply Rabs_triang|]. lra. }
    assert (A3 : eta <= 2 * (1 + (gD + u64 * (1 + gD))) * eta).
    { rewrite <- (Rmult_1_l eta) at 1. apply Rmult_le_compat_r; [lra|]. assert (0 <= u64 * (1 + gD)) by (apply Rmult_le_pos; lra). lra. }
    assert (A4 : 0 <= (gD + u64 * gD) * Rabs p) by (apply Rmult_le_pos; [|lra]; assert (0 <= u64 * gD) by (apply Rmult_le_pos; lra); lra).
    replace ((gD + u64 * (1 + gD)) * (Rabs p + Sr) + (2 * (cr + 1) - 1) * (1 + (gD + u64 * (1 + gD))) * eta)
      with (gD * Sr + u64 * (Rabs p + ((1 + gD) * Sr + (2 * cr - 1) * (1 + gD) * eta)) + (gD + u64 * gD) * Rabs p + (2 * cr - 1) * (1 + gD) * eta
            + 2 * (1 + (gD + u64 * (1 + gD))) * eta) by ring.
    lra.
Qed.

(** All of n products *)
Lemma dot64_all x y n d t : (0 <= n)%Z -> adds_all n d t ->
  Rabs (dot64 x y t - rsum 0 (n - 1) (fun k => x k * y k)) <= g d * rsum 0 (n - 1) (fun k => Rabs (x k * y k)) + 2 * IZR n * (1 + g d) * eta.
Proof.
  intros Hn (HP & HD). pose proof (dot64_err x y t) as H. rewrite !(lsum_perm _ _ _ HP), !lsum_range in H by auto.
  assert (EL : INR (length (terms t)) = IZR n).
  { rewrite (Permutation_length HP), map_length, seq_length, INR_IZR_INZ, Z2Nat.id by auto. reflexivity. }
  rewrite EL in H. pose proof (g_le _ _ HD) as G. pose proof (g_pos (depth t)) as G0. pose proof eta_pos.
  eapply Rle_trans; [exact H|]. apply Rplus_le_compat.
  - apply Rmult_le_compat_r; auto. apply rsum_nonneg. intros; apply Rabs_pos.
  - apply Rmult_le_compat_r; [lra|]. apply IZR_le in Hn.
    apply Rle_trans with (2 * IZR n * (1 + g (depth t))); [apply Rmult_le_compat_r; lra|apply Rmult_le_compat_l; lra].
Qed.

(** Complex products *)
Lemma rsum_two n f : (0 <= n)%Z -> rsum 0 (2 * n - 1) f = rsum 0 (n - 1) f + rsum 0 (n - 1) (fun k => f (k + n)%Z).
Proof.
  intros Hn. rewrite (rsum_split 0 (2 * n - 1) (n - 1)) by lia. f_equal. rewrite (rsum_shift 0 (n - 1) n).
  replace (n - 1 + 1)%Z with (0 + n)%Z by lia. replace (2 * n - 1)%Z with (n - 1 + n)%Z by lia. apply rsum_ext. intros i _. f_equal. lia.
Qed.
Lemma two_lo n f h k : (k < n)%Z -> two n f h k = f k.
Proof. intros H. unfold two. destruct (Z.ltb_spec k n); [auto|lia]. Qed.
Lemma two_hi n f h k : (0 <= k)%Z -> two n f h (k + n) = h k.
Proof. intros H. unfold two. destruct (Z.ltb_spec (k + n) n); [lia|]. f_equal. lia. Qed.
Lemma dot_two n f h f' h' op : (0 <= n)%Z ->
  rsum 0 (2 * n - 1) (fun k => op (two n f h k) (two n f' h' k)) = rsum 0 (n - 1) (fun k => op (f k) (f' k) + op (h k) (h' k)).
Proof.
  intros Hn. rewrite rsum_two by auto. rewrite <- rsum_plus. apply rsum_ext. intros k Hk. rewrite !two_lo by lia. rewrite !two_hi by lia. reflexivity.
Qed.
Lemma parts_le a b c d : 0 <= a -> 0 <= b -> 0 <= c -> 0 <= d -> a * c + b * d <= sqrt (a * a + b * b) * sqrt (c * c + d * d).
Proof.
  intros. rewrite <- sqrt_mult by nra. rewrite <- (sqrt_square (a * c + b * d)) by nra. apply sqrt_le_1_alt.
  assert (0 <= (a * d - b * c) * (a * d - b * c)) by (apply Rle_0_sqr). lra.
Qed.
Lemma Cmod_abs z : Cmod z = sqrt (Rabs (Re z) * Rabs (Re z) + Rabs (Im z) * Rabs (Im z)).
Proof. unfold Cmod, Re, Im. f_equal. rewrite <- !Rabs_mult, !Rabs_pos_eq by apply Rle_0_sqr. ring. Qed.
Lemma Cmod_sym z : Cmod z = sqrt (Rabs (Im z) * Rabs (Im z) + Rabs (Re z) * Rabs (Re z)).
Proof. rewrite Cmod_abs. f_equal. ring. Qed.
