(** The loops of the product of two Modes objects in double precision: they do not depend on the contents of the new workspaces,
    and they accumulate the weights of the product with rounding errors. *)
Require Import ZArith Lia List Reals Lra Bool.
From Flocq Require Import Core.
From Coquelicot Require Import Complex.
From Verif Require Import Base BaseProofs CBase CSum RSum Fact IndexModel IndexProofs SWSHModel WignerProofs ThreeJSpec ThreeJ ThreeJ2 Wigner3jModel Wigner3jSpec
  Wigner3jWs Wigner3jFwd Wigner3jProofs Wigner3jProps ModesModel ModesProofs ModesProofs3 MultModel MultSpec MultProofs.
From Verif Require Import FloatIndexModel FloatIndexProofs FloatPowersModel FloatPowersSpec FloatPowersProofs FloatPowersProps
  FloatConvModel FloatConvSpec FloatConvProofs FloatWignerModel FloatModesModel FloatModesSpec FloatModesProofs FloatModesProofs2 FloatModesProofs4 FloatPartsProofs
  FloatThreeJModel FloatThreeJSame FloatThreeJSameProps FloatLog FloatMultModel FloatMultSpec FloatMultProofs.
Import ListNotations.
Set Bullet Behavior "Strict Subproofs".
Open Scope Z_scope.

(** ** The symbols *)
Lemma new_calc_ok a b gb : 0 <= a + b -> exists c, calc_new a b gb = Ok c /\ calc_wf c /\ csize c = a + b + 1.
Proof.
  intros H. unfold calc_new. cbv zeta. rewrite np_empty_ok by lia. cbn [bind]. eexists. split; [reflexivity|].
  split; [|reflexivity]. split; cbn [csize workspace alen]; lia.
Qed.
Lemma fresh_ok a b : 0 <= a + b -> exists c, calc_new a b (fun _ => 0%R) = Ok c /\ calc_wf c /\ csize c = a + b + 1.
Proof. apply new_calc_ok. Qed.
Lemma rdcol_nb_ok' h a i : 0 <= i < wid a -> rdcol_nb h a i = Ok (fun idx => mem h (buf a) idx i).
Proof. intros. unfold rdcol_nb. rewrite rdcol_ok by auto. reflexivity. Qed.

Lemma calc64_out c a b m n : calc_wf c -> 0 <= a + b -> a + b < csize c -> a + b <= 1447 ->
  (calculate64 fixed c a b m n = Err ZeroDivisionError /\ Z.abs m <= a /\ Z.abs n <= b /\ stuck64 a b m n)
  \/ exists c', calculate64 fixed c a b m n = Ok c' /\ calc_wf c' /\ csize c' = csize c
    /\ forall j, 0 <= j <= a + b -> returned c' j = Ok (symbol64 j a b m n).
Proof.
  intros W H0 Hs Hab. destruct (fresh_ok a b H0) as (c2 & E2 & W2 & S2).
  destruct (same_core c c2 a b m n W W2 Hab) as [[E E']|(d1 & d2 & E1 & E2' & D1 & D2 & C1 & C2 & V)]; [intros; lia| |].
  { left. split; auto. split; [|split]; [| |unfold stuck64; rewrite E2; auto].
    - destruct (Z_le_gt_dec (Z.abs m) a) as [|X]; auto. exfalso. revert E. unfold calculate64, calculate_ws64. cbv zeta.
      destruct (Z.gtb_spec (Z.abs m) a); [|lia]. rewrite orb_true_l. discriminate.
    - destruct (Z_le_gt_dec (Z.abs n) b) as [|X]; auto. exfalso. revert E. unfold calculate64, calculate_ws64. cbv zeta.
      destruct (Z.gtb_spec (Z.abs n) b); [|lia]. rewrite orb_true_r. discriminate. }
  right. exists d1. split; auto. split; auto. split; auto. intros j Hj. destruct (V j) as (x & X1 & X2 & _); [lia|].
  rewrite X1. f_equal. unfold symbol64. rewrite E2. cbn [bind]. rewrite E2'. cbn [bind]. rewrite X2 by lia. reflexivity.
Qed.
Lemma symbol64_cases j a b m n : 0 <= a + b -> a + b <= 1447 -> 0 <= j ->
  symbol64 j a b m n = 0%R \/ (j <= a + b /\ (~ tj_allowed j a b (- m - n) m n -> symbol64 j a b m n = 0%R) /\ (Rabs (symbol64 j a b m n) <= 5 / 4)%R).
Proof.
  intros H0 Hab Hj. destruct (fresh_ok a b H0) as (c2 & E2 & W2 & S2). unfold symbol64. rewrite E2. cbn [bind].
  destruct (same_core c2 c2 a b m n W2 W2 Hab) as [[E _]|(d1 & d2 & E1 & _ & D1 & _ & C1 & _ & V)]; [intros; lia|rewrite E; auto|].
  rewrite E1. cbn [bind]. destruct (Z_le_gt_dec j (a + b)) as [J|J].
  - destruct (V j) as (x & X1 & _ & X2 & X3 & _); [lia|]. rewrite X1. right. split; auto.
  - left. unfold returned. destruct D1 as [Q1 Q2]. rewrite Q2. rewrite slot_eq by (auto; lia). unfold rdv. cbn [vlen voff]. rewrite norm_index_nonneg by lia.
    unfold in_bounds. destruct (Z.ltb_spec j (csize d1)); [lia|]. rewrite andb_false_r. reflexivity.
Qed.
Lemma symbol64_bd j a b m n : 0 <= a + b -> a + b <= 1447 -> 0 <= j -> (Rabs (symbol64 j a b m n) <= 5 / 4)%R.
Proof. intros H0 Hab Hj. destruct (symbol64_cases j a b m n H0 Hab Hj) as [-> |(_ & _ & B)]; auto. rewrite Rabs_R0. lra. Qed.
Lemma symbol64_out j a b m n : 0 <= a + b -> a + b <= 1447 -> 0 <= j -> ~ tj_allowed j a b (- m - n) m n -> symbol64 j a b m n = 0%R.
Proof. intros H0 Hab Hj N. destruct (symbol64_cases j a b m n H0 Hab Hj) as [-> |(_ & B & _)]; auto. Qed.
Lemma coeff64_out s1 s2 l1 m1 l2 m2 l : 0 <= l1 + l2 -> l1 + l2 <= 1447 -> 0 <= l -> l < Z.abs (l1 - l2) \/ l1 + l2 < l \/ l < Z.abs (s1 + s2) ->
  product_coeff64 s1 s2 l1 m1 l2 m2 l = 0%R.
Proof.
  intros H0 Hab Hl N. unfold product_coeff64. rewrite (symbol64_out l l1 l2 s1 s2); auto; [ring|]. unfold tj_allowed. lia.
Qed.

(** ** Independence of the new workspaces *)
Definition rel3 (N : Z) (s t : heap * calc * calc) : Prop :=
  fst (fst s) = fst (fst t) /\ (calc_wf (snd (fst s)) /\ csize (snd (fst s)) = N) /\ (calc_wf (snd (fst t)) /\ csize (snd (fst t)) = N)
  /\ (calc_wf (snd s) /\ csize (snd s) = N) /\ (calc_wf (snd t) /\ csize (snd t) = N).
Definition rel2 (N : Z) (s t : heap * calc) : Prop :=
  fst s = fst t /\ (calc_wf (snd s) /\ csize (snd s) = N) /\ (calc_wf (snd t) /\ csize (snd t) = N).

Lemma calc64_rel c1 c2 a b m n : calc_wf c1 -> calc_wf c2 -> a + b < csize c1 -> csize c1 = csize c2 -> a + b <= 1447 ->
  rel (fun d1 d2 => (calc_wf d1 /\ csize d1 = csize c1) /\ (calc_wf d2 /\ csize d2 = csize c1)
    /\ forall j, 0 <= j < csize c1 -> exists x, returned d1 j = Ok x /\ returned d2 j = Ok x)
    (calculate64 fixed c1 a b m n) (calculate64 fixed c2 a b m n).
Proof.
  intros W1 W2 Hs E Hab. destruct (same_core c1 c2 a b m n W1 W2 Hab) as [[-> ->]|(d1 & d2 & -> & -> & D1 & D2 & C1 & C2 & V)]; [intros; lia|cbn; auto|].
  cbn [rel]. split; auto. split; [split; auto; congruence|]. intros j Hj. destruct (V j Hj) as (x & X1 & X2 & _). exists x. split; auto. apply X2. lia.
Qed.

Lemma rel_same {S} (r : res S) : (forall e, r = Err e -> e = ZeroDivisionError) -> rel eq r r.
Proof. destruct r; cbn; auto. Qed.

Section Reproducible.
Variable way : ways.
Variables f g fg : ndarray.
Variables ellmin_f ellmax_f s_f ellmin_g ellmax_g s_g ellmax_fg : Z.
Hypothesis Hf : 0 <= ellmin_f.
Hypothesis Hg : 0 <= ellmin_g.
Hypothesis Wf : forall l m, ellmin_f <= l <= ellmax_f -> - l <= m <= l -> 0 <= LM_index l m ellmin_f < wid f.
Hypothesis Wg : forall l m, ellmin_g <= l <= ellmax_g -> - l <= m <= l -> 0 <= LM_index l m ellmin_g < wid g.
Hypothesis Wfg : wid fg = (ellmax_fg + 1) ^ 2.
Hypothesis Fit : fits (broadcast (lead f) (lead g)) (lead fg) = true.
Hypothesis HL : 0 <= ellmax_f + ellmax_g.
Hypothesis HS : ellmax_f + ellmax_g <= 1447.

Lemma helper_rel gs gm gs' gm' h :
  rel eq (mult_helper64 fixed way gs gm h f ellmin_f ellmax_f s_f g ellmin_g ellmax_g s_g fg 0 ellmax_fg (s_f + s_g))
         (mult_helper64 fixed way gs' gm' h f ellmin_f ellmax_f s_f g ellmin_g ellmax_g s_g fg 0 ellmax_fg (s_f + s_g)).
Proof.
  unfold mult_helper64.
  destruct (new_calc_ok ellmax_f ellmax_g gs HL) as (sc & Es & Ws & Ss).
  destruct (new_calc_ok ellmax_f ellmax_g gm HL) as (mc & Em & Wm & Sm).
  destruct (new_calc_ok ellmax_f ellmax_g gs' HL) as (sc' & Es' & Ws' & Ss').
  destruct (new_calc_ok ellmax_f ellmax_g gm' HL) as (mc' & Em' & Wm' & Sm').
  rewrite Es, Em, Es', Em'. cbn [bind]. set (N := ellmax_f + ellmax_g + 1) in *.
  apply (rel_bind (rel3 N)).
  2:{ intros [[h1 s1] m1] [[h2 s2] m2] (E & _). cbn [fst snd] in E. subst. cbn. reflexivity. }
  apply rel_range. { unfold rel3. cbn [fst snd]. auto 10. }
  intros l1 s t H1 R1. apply rel_range; auto.
  intros m1 s1 t1 Hm1 R2. rewrite !rdcol_nb_ok' by (apply Wf; lia). cbn [bind]. pose proof R2 as (E2 & _). rewrite E2.
  apply rel_range; auto.
  intros l2 [[h3 sc3] mc3] [[h4 sc4] mc4] H2 (E3 & (A1 & A2) & (B1 & B2) & (C1 & C2) & (D1 & D2)). cbn [fst snd] in *. subst h4.
  apply (rel_bind (fun d1 d2 => (calc_wf d1 /\ csize d1 = csize sc3) /\ (calc_wf d2 /\ csize d2 = csize sc3)
    /\ forall j, 0 <= j < csize sc3 -> exists x, returned d1 j = Ok x /\ returned d2 j = Ok x)).
  { apply calc64_rel; auto; lia. }
  intros sd1 sd2 ((Sa & Sb) & (Sc & Sd) & SV).
  apply (rel_bind (rel2 N)).
  2:{ intros [h5 c5] [h6 c6] (E5 & P5 & P6). cbn [fst snd] in *. subst h6. cbn [rel]. unfold rel3. cbn [fst snd]. rewrite A2 in *. auto 10. }
  apply rel_range. { unfold rel2. cbn [fst snd]. auto. }
  intros m2 [h5 mc5] [h6 mc6] Hm2 (E5 & (P1 & P2) & (P3 & P4)). cbn [fst snd] in *. subst h6.
  apply (rel_bind (fun d1 d2 => (calc_wf d1 /\ csize d1 = csize mc5) /\ (calc_wf d2 /\ csize d2 = csize mc5)
    /\ forall j, 0 <= j < csize mc5 -> exists x, returned d1 j = Ok x /\ returned d2 j = Ok x)).
  { apply calc64_rel; auto; lia. }
  intros md1 md2 ((Ma & Mb) & (Mc & Md) & MV).
  rewrite !rdcol_nb_ok' by (apply Wg; lia). cbn [bind].
  apply (rel_bind eq).
  2:{ intros h7 h8 <-. cbn [rel]. unfold rel2. cbn [fst snd]. rewrite P2 in *. auto. }
  apply rel_range; auto. intros l3 h7 h8 H3 <-.
  destruct (SV l3 ltac:(lia)) as (x & X1 & X2). destruct (MV l3 ltac:(lia)) as (y & Y1 & Y2). rewrite X1, X2, Y1, Y2. cbn [bind].
  apply rel_same. intros e. unfold addcol64. rewrite Fit. rewrite rdcol_nb_ok'. 2:{ rewrite Wfg, LM_col. apply col_bound; lia. }
  cbn [bind]. unfold wrcol_nb. rewrite wrcol_ok. 2:{ rewrite Wfg, LM_col. apply col_bound; lia. } discriminate.
Qed.
End Reproducible.

(** ** Accumulating with rounding errors *)
Open Scope R_scope.
Definition qq : R := 1 + 27 / 2 * u64.
Definition step (x0 x D : C) (N S U : R) : Prop :=
  0 <= N /\ 0 <= U /\ Cmod D <= S /\ (dbl x0 -> dbl x /\
    Cmod (x - (x0 + D))%C <= (exp (u64 * N) - 1) * Cmod x0 + (exp (u64 * N) * qq - 1) * S + exp (u64 * N) * U).

Lemma exp_ge n : 0 <= n -> 1 <= exp (u64 * n).
Proof. intros H. rewrite <- exp_0. pose proof u64_bd as [U0 _]. assert (0 <= u64 * n) by (apply Rmult_le_pos; lra). destruct (Req_dec (u64 * n) 0) as [-> |]; [lra|]. left. apply exp_increasing. lra. Qed.
Lemma qq_ge : 1 <= qq.
Proof. unfold qq. pose proof u64_bd. lra. Qed.

Lemma step_refl x : step x x (RtoC 0) 0 0 0.
Proof.
  split; [lra|]. split; [lra|]. split; [rewrite Cmod_0; lra|]. intros H. split; auto. rewrite Rmult_0_r, exp_0.
  replace (x - (x + RtoC 0))%C with (RtoC 0) by ring. rewrite Cmod_0. lra.
Qed.
Lemma step_trans x0 x1 x2 D1 N1 S1 U1 D2 N2 S2 U2 : step x0 x1 D1 N1 S1 U1 -> step x1 x2 D2 N2 S2 U2 -> step x0 x2 (D1 + D2)%C (N1 + N2) (S1 + S2) (U1 + U2).
Proof.
  intros (A1 & B1 & C1 & E1) (A2 & B2 & C2 & E2). split; [lra|]. split; [lra|]. split; [eapply Rle_trans; [apply Cmod_triangle|lra]|].
  intros H0. destruct (E1 H0) as [H1 F1]. destruct (E2 H1) as [H2 F2]. split; auto.
  rewrite Rmult_plus_distr_l, exp_plus. pose proof (exp_ge _ A1) as X1. pose proof (exp_ge _ A2) as X2. set (e1 := exp (u64 * N1)) in *. set (e2 := exp (u64 * N2)) in *. clearbody e1 e2.
  pose proof qq_ge as Q. set (q := qq) in *. clearbody q.
  pose proof (Cmod_ge_0 x0) as Z0. pose proof (Cmod_ge_0 D1) as Z1. pose proof (Cmod_ge_0 D2) as Z2. pose proof (Cmod_ge_0 x1) as Z3.
  assert (T1 : Cmod x1 <= Cmod x0 + S1 + Cmod (x1 - (x0 + D1))%C).
  { replace x1 with (x0 + D1 + (x1 - (x0 + D1)))%C at 1 by ring. eapply Rle_trans; [apply Cmod_triangle|].
    eapply Rle_trans; [apply Rplus_le_compat_r, Cmod_triangle|]. lra. }
  assert (T2 : Cmod (x2 - (x0 + (D1 + D2)))%C <= Cmod (x2 - (x1 + D2))%C + Cmod (x1 - (x0 + D1))%C).
  { replace (x2 - (x0 + (D1 + D2)))%C with ((x2 - (x1 + D2)) + (x1 - (x0 + D1)))%C by ring. apply Cmod_triangle. }
  set (d1 := Cmod (x1 - (x0 + D1))%C) in *. set (d2 := Cmod (x2 - (x1 + D2))%C) in *. clearbody d1 d2.
  assert (K1 : (e2 - 1) * Cmod x1 <= (e2 - 1) * (Cmod x0 + S1 + d1)) by (apply Rmult_le_compat_l; lra).
  assert (K2 : e2 * d1 <= e2 * ((e1 - 1) * Cmod x0 + (e1 * q - 1) * S1 + e1 * U1)) by (apply Rmult_le_compat_l; lra).
  assert (K3 : 1 * (e2 * q * S2) <= e1 * (e2 * q * S2)) by (apply Rmult_le_compat_r; [apply Rmult_le_pos; [apply Rmult_le_pos|]; lra|lra]).
  assert (K4 : 1 * (e2 * U2) <= e1 * (e2 * U2)) by (apply Rmult_le_compat_r; [apply Rmult_le_pos; lra|lra]).
  replace (e2 * ((e1 - 1) * Cmod x0 + (e1 * q - 1) * S1 + e1 * U1)) with (e1 * e2 * Cmod x0 - e2 * Cmod x0 + e1 * e2 * q * S1 - e2 * S1 + e1 * e2 * U1) in K2 by ring.
  replace ((e1 * e2 - 1) * Cmod x0 + (e1 * e2 * q - 1) * (S1 + S2) + e1 * e2 * (U1 + U2))
    with (e1 * e2 * Cmod x0 - Cmod x0 + e1 * e2 * q * S1 - S1 + e1 * (e2 * q * S2) - S2 + e1 * e2 * U1 + e1 * (e2 * U2)) by ring.
  lra.
Qed.

Lemma cadd_zero x : dbl x -> cadd64 x (RtoC 0) = x.
Proof. intros H. rewrite cadd_rounded, Cplus_0_r. apply rounded_dbl, H. Qed.
Lemma dbl_rounded z : dbl (rounded z).
Proof. split; unfold is_double, rounded; cbn [Re Im fst snd]; apply RN64_idem. Qed.

Lemma step_zero x : step x (cadd64 x (RtoC 0)) (RtoC 0) 0 0 0.
Proof.
  destruct (step_refl x) as (A & B & C & D). split; auto. split; auto. split; auto. intros H. rewrite (cadd_zero x H). auto.
Qed.
Lemma step_add x t D U : clo (27 / 2) U t D -> 0 <= U -> step x (cadd64 x t) D 1 (Cmod D) (U + 2 * eta).
Proof.
  intros H HU. pose proof eta_pos as E0. pose proof u64_bd as [U0 U1]. split; [lra|]. split; [lra|]. split; [lra|]. intros _. rewrite cadd_rounded. split; [apply dbl_rounded|].
  rewrite Rmult_1_r. pose proof (exp_ineq1_le u64) as X. set (e := exp u64) in *. clearbody e.
  pose proof (rounded_err (x + t)%C) as R. unfold clo in H.
  replace (rounded (x + t) - (x + D))%C with ((rounded (x + t) - (x + t)) + (t - D))%C by ring. eapply Rle_trans; [apply Cmod_triangle|].
  assert (T : Cmod (x + t)%C <= Cmod x + Cmod D + Cmod (t - D)%C).
  { replace (x + t)%C with (x + D + (t - D))%C by ring. eapply Rle_trans; [apply Cmod_triangle|]. apply Rplus_le_compat_r, Cmod_triangle. }
  pose proof (Cmod_ge_0 x) as X0. pose proof (Cmod_ge_0 D) as D0. pose proof (Cmod_ge_0 (t - D)%C) as T0.
  set (d := Cmod (t - D)%C) in *. set (X' := Cmod x) in *. set (D' := Cmod D) in *. clearbody d X' D'.
  assert (K1 : u64 * Cmod (x + t)%C <= u64 * (X' + D' + d)) by (apply Rmult_le_compat_l; lra).
  assert (K2 : (1 + u64) * d <= (1 + u64) * (27 / 2 * u64 * D' + U)) by (apply Rmult_le_compat_l; lra).
  assert (K3 : (1 + u64) * X' <= e * X') by (apply Rmult_le_compat_r; lra).
  assert (K4 : (1 + u64) * (qq * D') <= e * (qq * D')) by (apply Rmult_le_compat_r; [apply Rmult_le_pos; [pose proof qq_ge|]; lra|lra]).
  assert (K5 : (1 + u64) * (U + 2 * eta) <= e * (U + 2 * eta)) by (apply Rmult_le_compat_r; lra).
  assert (K6 : 0 <= u64 * eta) by (apply Rmult_le_pos; lra).
  replace ((1 + u64) * (qq * D')) with (D' + u64 * D' + (1 + u64) * (27 / 2 * u64 * D')) in K4 by (unfold qq; ring).
  lra.
Qed.

Section Acc.
Variable b : nat.
Variable Bad : Prop.
Definition acc64 (h0 h : heap) (D : list Z -> Z -> C) (N S U : list Z -> Z -> R) : Prop :=
  next h = next h0 /\ (forall x idx k, x <> b -> mem h x idx k = mem h0 x idx k)
  /\ forall idx k, step (mem h0 b idx k) (mem h b idx k) (D idx k) (N idx k) (S idx k) (U idx k).
Definition outz {S} (r : res S) (P : S -> Prop) : Prop := (exists s, r = Ok s /\ P s) \/ (r = Err ZeroDivisionError /\ Bad).
Lemma outz_ok {S} (s : S) (P : S -> Prop) : P s -> outz (Ok s) P.
Proof. left. eauto. Qed.
Lemma outz_bind {S T} (r : res S) (k : S -> res T) P Q : outz r P -> (forall s, P s -> outz (k s) Q) -> outz (bind r k) Q.
Proof. intros [(s & -> & HP)|[-> HB]] H; [cbn [bind]; auto|right; auto]. Qed.
Lemma outz_impl {S} (r : res S) (P Q : S -> Prop) : outz r P -> (forall s, P s -> Q s) -> outz r Q.
Proof. intros [(s & -> & HP)|[-> HB]] H; [left; eauto|right; auto]. Qed.

Lemma acc64_refl h : acc64 h h (fun _ _ => RtoC 0) (fun _ _ => 0) (fun _ _ => 0) (fun _ _ => 0).
Proof. split; auto. split; auto. intros. apply step_refl. Qed.
Lemma acc64_ext h0 h D N S U D' N' S' U' : acc64 h0 h D N S U -> (forall idx k, D idx k = D' idx k) -> (forall idx k, N idx k = N' idx k) ->
  (forall idx k, S idx k = S' idx k) -> (forall idx k, U idx k = U' idx k) -> acc64 h0 h D' N' S' U'.
Proof. intros (A1 & A2 & A3) H1 H2 H3 H4. split; auto. split; auto. intros. rewrite <- H1, <- H2, <- H3, <- H4. auto. Qed.
Lemma acc64_trans h0 h1 h2 D1 N1 S1 U1 D2 N2 S2 U2 : acc64 h0 h1 D1 N1 S1 U1 -> acc64 h1 h2 D2 N2 S2 U2 ->
  acc64 h0 h2 (fun idx k => D1 idx k + D2 idx k)%C (fun idx k => N1 idx k + N2 idx k) (fun idx k => S1 idx k + S2 idx k) (fun idx k => U1 idx k + U2 idx k).
Proof.
  intros (A1 & B1 & C1) (A2 & B2 & C2). split; [congruence|]. split; [intros; rewrite B2, B1; auto|]. intros. eapply step_trans; eauto.
Qed.

Lemma acc64_loop {T} (hp : T -> heap) (I : T -> Prop) (D : Z -> list Z -> Z -> C) (N S U : Z -> list Z -> Z -> R) a body : forall n s,
  I s ->
  (forall i s, (a <= i < a + Z.of_nat n)%Z -> I s -> outz (body i s) (fun s' => I s' /\ acc64 (hp s) (hp s') (D i) (N i) (S i) (U i))) ->
  outz (for_range a (a + Z.of_nat n) body s) (fun s' => I s' /\ acc64 (hp s) (hp s') (fun idx k => csum a (a + Z.of_nat n - 1) (fun i => D i idx k))
    (fun idx k => rsum a (a + Z.of_nat n - 1) (fun i => N i idx k)) (fun idx k => rsum a (a + Z.of_nat n - 1) (fun i => S i idx k))
    (fun idx k => rsum a (a + Z.of_nat n - 1) (fun i => U i idx k))).
Proof.
  intros n. revert a. induction n as [|n IH]; intros a s HI HB.
  - rewrite for_range_empty by lia. apply outz_ok. split; auto. eapply acc64_ext; [apply acc64_refl|..]; intros; symmetry; try (apply csum_empty; lia); apply rsum_empty; lia.
  - rewrite for_range_step by lia. eapply outz_bind. { apply HB; auto. lia. }
    intros s1 [I1 A1]. replace (a + Z.of_nat (Datatypes.S n))%Z with (a + 1 + Z.of_nat n)%Z by lia.
    eapply outz_impl. { apply (IH (a + 1)%Z s1 I1). intros. apply HB; auto. lia. }
    intros s2 [I2 A2]. split; auto. eapply acc64_ext; [exact (acc64_trans _ _ _ _ _ _ _ _ _ _ _ A1 A2)|..]; intros; cbv beta; symmetry;
      [apply (csum_first a)|apply (rsum_first a)|apply (rsum_first a)|apply (rsum_first a)]; lia.
Qed.
Lemma acc64_range {T} (hp : T -> heap) (I : T -> Prop) (D : Z -> list Z -> Z -> C) (N S U : Z -> list Z -> Z -> R) a hi body s :
  I s ->
  (forall i s, (a <= i <= hi)%Z -> I s -> outz (body i s) (fun s' => I s' /\ acc64 (hp s) (hp s') (D i) (N i) (S i) (U i))) ->
  outz (for_range a (hi + 1) body s) (fun s' => I s' /\ acc64 (hp s) (hp s') (fun idx k => csum a hi (fun i => D i idx k))
    (fun idx k => rsum a hi (fun i => N i idx k)) (fun idx k => rsum a hi (fun i => S i idx k)) (fun idx k => rsum a hi (fun i => U i idx k))).
Proof.
  intros HI HB. destruct (Z_le_gt_dec a (hi + 1)) as [H|H].
  - remember (Z.to_nat (hi + 1 - a)) as n. assert (E1 : (hi + 1 = a + Z.of_nat n)%Z) by lia. assert (E2 : (hi = a + Z.of_nat n - 1)%Z) by lia.
    rewrite E1. rewrite E2. apply acc64_loop; auto. intros. apply HB; auto. lia.
  - rewrite for_range_empty by lia. apply outz_ok. split; auto. eapply acc64_ext; [apply acc64_refl|..]; intros; symmetry; try (apply csum_empty; lia); apply rsum_empty; lia.
Qed.
End Acc.

Section Helper64.
Variable way : ways.
Hypothesis Way : good_ways way.
Variables f g fg : ndarray.
Variables ellmin_f ellmax_f s_f ellmin_g ellmax_g s_g ellmax_fg : Z.
Hypothesis Hf : (0 <= ellmin_f)%Z.
Hypothesis Hg : (0 <= ellmin_g)%Z.
Hypothesis Wf : forall l m, (ellmin_f <= l <= ellmax_f)%Z -> (- l <= m <= l)%Z -> (0 <= LM_index l m ellmin_f < wid f)%Z.
Hypothesis Wg : forall l m, (ellmin_g <= l <= ellmax_g)%Z -> (- l <= m <= l)%Z -> (0 <= LM_index l m ellmin_g < wid g)%Z.
Hypothesis Wfg : (wid fg = (ellmax_fg + 1) ^ 2)%Z.
Hypothesis Bf : buf f <> buf fg.
Hypothesis Bg : buf g <> buf fg.
Hypothesis Fit : fits (broadcast (lead f) (lead g)) (lead fg) = true.
Hypothesis HL : (0 <= ellmax_f + ellmax_g)%Z.
Hypothesis HS : (ellmax_f + ellmax_g <= 1447)%Z.

Lemma addcol64_ok h i e D N S U : (0 <= i < wid fg)%Z ->
  (forall idx x, step x (cadd64 x (e idx)) (D idx) (N idx) (S idx) (U idx)) ->
  exists h', addcol64 h fg i (lead f) (lead g) e = Ok h' /\ acc64 (buf fg) h h'
    (fun idx k => if (k =? i)%Z then D idx else RtoC 0) (fun idx k => if (k =? i)%Z then N idx else 0)
    (fun idx k => if (k =? i)%Z then S idx else 0) (fun idx k => if (k =? i)%Z then U idx else 0).
Proof.
  intros Hi He. unfold addcol64. rewrite Fit, rdcol_nb_ok' by auto. cbn [bind]. unfold wrcol_nb. rewrite wrcol_ok by auto.
  eexists. split; [reflexivity|]. split; [reflexivity|]. split.
  - intros. rewrite set_col_other; auto.
  - intros. destruct (Z.eqb_spec k i) as [->|X].
    + rewrite set_col_same. apply He.
    + rewrite set_col_other by auto. apply step_refl.
Qed.

Variables F G : list Z -> Z -> C.
Definition fval (idx : list Z) (l m : Z) : C := arr_mode F ellmin_f (bidx (lead f) idx) l m.
Definition gval (idx : list Z) (l m : Z) : C := arr_mode G ellmin_g (bidx (lead g) idx) l m.
Definition coef (l1 m1 l2 m2 l : Z) : R := product_coeff64 s_f s_g l1 m1 l2 m2 l.
Definition Dt idx l1 m1 l2 m2 l : C := (RtoC (coef l1 m1 l2 m2 l) * fval idx l1 m1 * gval idx l2 m2)%C.
Definition Nt idx (l1 m1 l2 m2 l : Z) : R := nonzero (fval idx l1 m1) * nonzero (gval idx l2 m2).
Definition St idx l1 m1 l2 m2 l : R := Rabs (coef l1 m1 l2 m2 l) * Cmod (fval idx l1 m1) * Cmod (gval idx l2 m2).
Definition Ut idx (l1 m1 l2 m2 l : Z) : R :=
  2 ^ 19 * eta * (nonzero (fval idx l1 m1) * nonzero (gval idx l2 m2) * (1 + Cmod (fval idx l1 m1)) * (1 + Cmod (gval idx l2 m2))).

Lemma coef_eq l1 m1 l2 m2 l : (0 <= l1)%Z -> (0 <= l2)%Z -> (0 <= l)%Z ->
  sgn (l1 + l2 + l + (s_f + s_g) + (m1 + m2)) * sqrt (IZR (2 * l + 1)) * symbol64 l l1 l2 s_f s_g * symbol64 l l1 l2 m1 m2 * swsh_norm l1 * sqrt (IZR (2 * l2 + 1))
  = coef l1 m1 l2 m2 l.
Proof. intros. unfold coef, product_coeff64, swsh_norm. rewrite sqrt4 by (apply odd_nonneg; auto). ring. Qed.

Lemma nonzero_0 : nonzero (RtoC 0) = 0.
Proof. unfold nonzero. destruct (Ceq_dec _ _); congruence. Qed.
Lemma nonzero_1 z : z <> RtoC 0 -> nonzero z = 1.
Proof. intros. unfold nonzero. destruct (Ceq_dec _ _); congruence. Qed.

Lemma term_step idx l1 m1 l2 m2 l x t : adds_all 2 2 (fst t) -> adds_all 2 2 (snd t) ->
  (0 <= l1 <= ellmax_f)%Z -> (0 <= l2 <= ellmax_g)%Z -> (0 <= l <= l1 + l2)%Z ->
  step x (cadd64 x (cmul64 t (cscale64 (factor64 l1 l2 l (s_f + s_g) (m1 + m2) (symbol64 l l1 l2 s_f s_g) (symbol64 l l1 l2 m1 m2))
                               (cscale64 (swsh_norm64 l1) (fval idx l1 m1))) (cscale64 (sqrt_odd64 l2) (gval idx l2 m2))))
    (Dt idx l1 m1 l2 m2 l) (Nt idx l1 m1 l2 m2 l) (St idx l1 m1 l2 m2 l) (Ut idx l1 m1 l2 m2 l).
Proof.
  intros T1 T2 H1 H2 H3. change (cmul64 t ?a ?b) with (cmul64 t a b).
  set (fc := factor64 l1 l2 l (s_f + s_g) (m1 + m2) (symbol64 l l1 l2 s_f s_g) (symbol64 l l1 l2 m1 m2)).
  change (cmul64 t (cscale64 fc (cscale64 (swsh_norm64 l1) (fval idx l1 m1))) (cscale64 (sqrt_odd64 l2) (gval idx l2 m2)))
    with (pterm64 t fc (swsh_norm64 l1) (sqrt_odd64 l2) (fval idx l1 m1) (gval idx l2 m2)).
  unfold Dt, Nt, St, Ut.
  destruct (Ceq_dec (fval idx l1 m1) (RtoC 0)) as [E|E].
  { rewrite E, pterm64_0l, nonzero_0, Cmod_0. replace (RtoC (coef l1 m1 l2 m2 l) * RtoC 0 * gval idx l2 m2)%C with (RtoC 0) by ring.
    rewrite !Rmult_0_l, !Rmult_0_r, Rmult_0_l. apply step_zero. }
  destruct (Ceq_dec (gval idx l2 m2) (RtoC 0)) as [E'|E'].
  { rewrite E', pterm64_0r, nonzero_0, Cmod_0. replace (RtoC (coef l1 m1 l2 m2 l) * fval idx l1 m1 * RtoC 0)%C with (RtoC 0) by ring.
    rewrite !Rmult_0_r, !Rmult_0_l, !Rmult_0_r. apply step_zero. }
  rewrite !nonzero_1 by auto. rewrite !Rmult_1_l.
  pose proof (pterm64_err t l1 l2 l (s_f + s_g) (m1 + m2) (symbol64 l l1 l2 s_f s_g) (symbol64 l l1 l2 m1 m2) (fval idx l1 m1) (gval idx l2 m2) T1 T2
    ltac:(lia) ltac:(lia) ltac:(lia) ltac:(apply symbol64_bd; lia) ltac:(apply symbol64_bd; lia)) as H.
  cbv zeta in H. rewrite coef_eq in H by lia. fold fc in H.
  set (fv := fval idx l1 m1) in *. set (gv := gval idx l2 m2) in *.
  pose proof (Cmod_ge_0 fv) as f0. pose proof (Cmod_ge_0 gv) as g0. pose proof eta_pos as E0.
  assert (P : 1 <= (1 + Cmod fv) * (1 + Cmod gv)). { rewrite <- (Rmult_1_l 1) at 1. apply Rmult_le_compat; lra. }
  set (B := (1 + Cmod fv) * (1 + Cmod gv)) in *.
  assert (PB : 0 <= 2 ^ 18 * eta * B) by (apply Rmult_le_pos; [apply Rmult_le_pos; [apply pow_le|]; lra|lra]).
  pose proof (step_add x _ _ _ H PB) as Q.
  rewrite !Cmod_mult, Cmod_R in Q.
  destruct Q as (Q1 & Q2 & Q3 & Q4). split; auto.
  assert (EB : eta * 1 <= eta * B) by (apply Rmult_le_compat_l; lra).
  assert (LE : 2 ^ 18 * eta * B + 2 * eta <= 2 ^ 19 * eta * B).
  { replace (2 ^ 19 * eta * B) with (2 ^ 18 * eta * B + 2 ^ 18 * (eta * B)) by (simpl; ring).
    assert (2 * (eta * B) <= 2 ^ 18 * (eta * B)) by (apply Rmult_le_compat_r; [lra|simpl; lra]). lra. }
  split; [lra|]. split. { rewrite !Cmod_mult, Cmod_R. lra. }
  intros Hx. destruct (Q4 Hx) as [Q5 Q6]. split; auto. eapply Rle_trans; [exact Q6|]. apply Rplus_le_compat_l. apply Rmult_le_compat_l; [apply Rlt_le, exp_pos|auto].
Qed.

Lemma fval_at idx l m : (ellmin_f <= l)%Z -> fval idx l m = F (bidx (lead f) idx) (LM_index l m ellmin_f).
Proof. intros. unfold fval, arr_mode. destruct (Z.ltb_spec l ellmin_f); [lia|reflexivity]. Qed.
Lemma gval_at idx l m : (ellmin_g <= l)%Z -> gval idx l m = G (bidx (lead g) idx) (LM_index l m ellmin_g).
Proof. intros. unfold gval, arr_mode. destruct (Z.ltb_spec l ellmin_g); [lia|reflexivity]. Qed.

Definition at_ (k l m : Z) (x : R) : R := if (k =? LM_index l m 0)%Z then x else 0.
Definition nest (lf lg : Z) (X : list Z -> Z -> Z -> Z -> Z -> Z -> R) (idx : list Z) (k : Z) : R :=
  rsum lf ellmax_f (fun l1 => rsum (- l1) l1 (fun m1 => rsum lg ellmax_g (fun l2 => rsum (- l2) l2 (fun m2 =>
    rsum (Z.max (Z.abs (m1 + m2)) (Z.abs (l1 - l2))) (Z.min (l1 + l2) ellmax_fg) (fun l3 => at_ k l3 (m1 + m2) (X idx l1 m1 l2 m2 l3)))))).
Definition cnest (lf lg : Z) (X : list Z -> Z -> Z -> Z -> Z -> Z -> C) (idx : list Z) (k : Z) : C :=
  csum lf ellmax_f (fun l1 => csum (- l1) l1 (fun m1 => csum lg ellmax_g (fun l2 => csum (- l2) l2 (fun m2 =>
    csum (Z.max (Z.abs (m1 + m2)) (Z.abs (l1 - l2))) (Z.min (l1 + l2) ellmax_fg) (fun l3 => if (k =? LM_index l3 (m1 + m2) 0)%Z then X idx l1 m1 l2 m2 l3 else RtoC 0))))).

Definition same64 (h : heap) : Prop := forall idx k, mem h (buf f) idx k = F idx k /\ mem h (buf g) idx k = G idx k.
Lemma same64_acc h h' D N S U : same64 h -> acc64 (buf fg) h h' D N S U -> same64 h'.
Proof. intros S0 (_ & O & _) idx k. rewrite !O by auto. apply S0. Qed.

Definition blocked64 : Prop := exists l1 l2 m n, (ellmin_f <= l1 <= ellmax_f)%Z /\ (ellmin_g <= l2 <= ellmax_g)%Z /\ (Z.abs m <= l1)%Z /\ (Z.abs n <= l2)%Z /\ stuck64 l1 l2 m n.
Lemma mult_helper64_acc gs gm h : same64 h ->
  outz blocked64 (mult_helper64 fixed way gs gm h f ellmin_f ellmax_f s_f g ellmin_g ellmax_g s_g fg 0 ellmax_fg (s_f + s_g))
    (fun h' => acc64 (buf fg) h h' (cnest ellmin_f ellmin_g Dt) (nest ellmin_f ellmin_g Nt) (nest ellmin_f ellmin_g St) (nest ellmin_f ellmin_g Ut)).
Proof.
  intros S0. unfold mult_helper64.
  destruct (new_calc_ok ellmax_f ellmax_g gs HL) as (sc & Es & Ws & Ss).
  destruct (new_calc_ok ellmax_f ellmax_g gm HL) as (mc & Em & Wm & Sm).
  rewrite Es, Em. cbn [bind].
  set (N := (ellmax_f + ellmax_g + 1)%Z) in *.
  set (I3 := fun st : heap * calc * calc => same64 (fst (fst st)) /\ (calc_wf (snd (fst st)) /\ csize (snd (fst st)) = N) /\ (calc_wf (snd st) /\ csize (snd st) = N)).
  eapply outz_bind with (P := fun st => I3 st /\ acc64 (buf fg) h (fst (fst st)) _ _ _ _).
  2:{ intros [[h' sc'] mc'] [_ A]. apply outz_ok. cbn [fst snd] in A. exact A. }
  unfold cnest, nest.
  apply (acc64_range _ _ (fun st : heap * calc * calc => fst (fst st)) I3). { unfold I3. cbn [fst snd]. auto. }
  intros l1 st1 H1 J1. cbv zeta.
  apply (acc64_range _ _ (fun st : heap * calc * calc => fst (fst st)) I3); auto.
  intros m1 st2 Hm1 J2. cbv beta. rewrite rdcol_nb_ok' by (apply Wf; lia). cbn [bind].
  assert (S2 : same64 (fst (fst st2))) by apply J2.
  apply (acc64_range _ _ (fun st : heap * calc * calc => fst (fst st)) I3); auto.
  intros l2 [[h3 sc3] mc3] H2 J3. unfold I3 in J3. destruct J3 as (S3 & (Ws3 & Ss3) & (Wm3 & Sm3)). cbn [fst snd] in *.
  eapply outz_bind with (P := fun c' => calc_wf c' /\ csize c' = csize sc3 /\ forall j, (0 <= j <= l1 + l2)%Z -> returned c' j = Ok (symbol64 j l1 l2 s_f s_g)).
  { destruct (calc64_out sc3 l1 l2 s_f s_g) as [(E & Q)|(c' & E & R)]; auto; try lia; [right; split; auto; exists l1, l2, s_f, s_g; split; [lia|split; [lia|auto]]|left; eauto]. }
  cbv beta. intros sc4 (Ws4 & Ss4 & R4).
  eapply outz_bind with (P := fun st => (same64 (fst st) /\ calc_wf (snd st) /\ csize (snd st) = N) /\ acc64 (buf fg) h3 (fst st) _ _ _ _).
  2:{ intros [h' mc'] [(S' & W' & C') A]. apply outz_ok. cbn [fst snd] in *. split; [|exact A]. unfold I3. cbn [fst snd]. split; auto. split; split; auto. congruence. }
  apply (acc64_range _ _ (fun st : heap * calc => fst st) (fun st => same64 (fst st) /\ calc_wf (snd st) /\ csize (snd st) = N)). { cbn [fst snd]. auto. }
  intros m2 [h5 mc5] Hm2 (S5 & W5 & C5). cbn [fst snd] in *.
  eapply outz_bind with (P := fun c' => calc_wf c' /\ csize c' = csize mc5 /\ forall j, (0 <= j <= l1 + l2)%Z -> returned c' j = Ok (symbol64 j l1 l2 m1 m2)).
  { destruct (calc64_out mc5 l1 l2 m1 m2) as [(E & Q)|(c' & E & R)]; auto; try lia; [right; split; auto; exists l1, l2, m1, m2; split; [lia|split; [lia|auto]]|left; eauto]. }
  cbv beta. intros mc6 (Ws6 & Ss6 & R6).
  rewrite rdcol_nb_ok' by (apply Wg; lia). cbn [bind].
  eapply outz_bind with (P := fun h' => same64 h' /\ acc64 (buf fg) h5 h' _ _ _ _).
  2:{ intros h' [S' A]. apply outz_ok. cbn [fst snd]. split; [|exact A]. split; auto. split; auto. congruence. }
  set (lo := Z.max (Z.abs (m1 + m2)) (Z.abs (l1 - l2))). set (hi := Z.min (l1 + l2) ellmax_fg).
  apply (acc64_range _ _ (fun h : heap => h) same64); auto.
  intros l3 h7 H3 S7. rewrite R4, R6 by (unfold lo, hi in *; lia). cbn [bind].
  destruct (addcol64_ok h7 (LM_index l3 (m1 + m2) 0)
    (fun idx => cmul64 (way l1 m1 l2 m2 l3 idx) (cscale64 (factor64 l1 l2 l3 (s_f + s_g) (m1 + m2) (symbol64 l3 l1 l2 s_f s_g) (symbol64 l3 l1 l2 m1 m2))
                               (cscale64 (swsh_norm64 l1) (mem (fst (fst st2)) (buf f) (bidx (lead f) idx) (LM_index l1 m1 ellmin_f)))) 
      (cscale64 (sqrt_odd64 l2) (mem h5 (buf g) (bidx (lead g) idx) (LM_index l2 m2 ellmin_g))))
    (fun idx => Dt idx l1 m1 l2 m2 l3) (fun idx => Nt idx l1 m1 l2 m2 l3) (fun idx => St idx l1 m1 l2 m2 l3) (fun idx => Ut idx l1 m1 l2 m2 l3)) as (h8 & E8 & A8).
  { rewrite Wfg, LM_col. apply col_bound; unfold lo, hi in *; lia. }
  { intros idx x. rewrite (proj1 (S2 _ _)), (proj2 (S5 _ _)), <- fval_at, <- gval_at by lia. destruct (Way l1 m1 l2 m2 l3 idx). apply term_step; auto; unfold lo, hi in *; lia. }
  rewrite E8. apply outz_ok. split. { eapply same64_acc; eauto. }
  exact A8.
Qed.
End Helper64.
