(** The multiplication loops accumulate the product weights. *)
Require Import ZArith Lia List Reals Lra Bool.
From Coquelicot Require Import Complex.
From Verif Require Import Base BaseProofs CBase CSum RSum Fact IndexModel IndexProofs ThreeJSpec ThreeJ ThreeJ2 Wigner3jModel Wigner3jSpec
  Wigner3jWs Wigner3jFwd Wigner3jProofs Wigner3jProps ModesModel ModesProofs ModesProofs3 MultModel MultSpec.
Import ListNotations.
Open Scope Z_scope.

Section Helper.
Variable w : widths.
Variables f g fg : ndarray.
Variables ellmin_f ellmax_f s_f ellmin_g ellmax_g s_g ellmax_fg : Z.
Hypothesis Hf : 0 <= ellmin_f.
Hypothesis Hg : 0 <= ellmin_g.
Hypothesis Wf : forall l m, ellmin_f <= l <= ellmax_f -> - l <= m <= l -> 0 <= LM_index l m ellmin_f < wid f.
Hypothesis Wg : forall l m, ellmin_g <= l <= ellmax_g -> - l <= m <= l -> 0 <= LM_index l m ellmin_g < wid g.
Hypothesis Wfg : wid fg = (ellmax_fg + 1) ^ 2.
Hypothesis Bf : buf f <> buf fg.
Hypothesis Bg : buf g <> buf fg.
Hypothesis Fit : fits (broadcast (lead f) (lead g)) (lead fg) = true.
Hypothesis Hw : forall l1 l2 m n, ellmin_f <= l1 <= ellmax_f -> ellmin_g <= l2 <= ellmax_g -> Z.abs m <= l1 -> Z.abs n <= l2 ->
  ok_widths l1 l2 m n w.

(** A pair of indices for which the calculator cannot finish. *)
Definition blocked : Prop := exists l1 l2 m n, ellmin_f <= l1 <= ellmax_f /\ ellmin_g <= l2 <= ellmax_g
  /\ Z.abs m <= l1 /\ Z.abs n <= l2 /\ late_zero l1 l2 m n.

Definition outc {S} (r : res S) (P : S -> Prop) : Prop :=
  (exists s, r = Ok s /\ P s) \/ (r = Err ZeroDivisionError /\ blocked).

Lemma outc_ok {S} (s : S) (P : S -> Prop) : P s -> outc (Ok s) P.
Proof. left. eauto. Qed.
Lemma outc_bind {S T} (r : res S) (k : S -> res T) P Q : outc r P -> (forall s, P s -> outc (k s) Q) -> outc (bind r k) Q.
Proof.
  intros [(s & -> & HP)|[-> HB]] H.
  - cbn [bind]. auto.
  - right. auto.
Qed.
Lemma outc_impl {S} (r : res S) (P Q : S -> Prop) : outc r P -> (forall s, P s -> Q s) -> outc r Q.
Proof. intros [(s & -> & HP)|[-> HB]] H; [left; eauto|right; auto]. Qed.

(** [h] is [h0] with [D] added to the buffer of [fg]. *)
Definition acc (h0 h : heap) (D : list Z -> Z -> C) : Prop :=
  next h = next h0 /\ (forall x idx k, x <> buf fg -> mem h x idx k = mem h0 x idx k)
  /\ forall idx k, mem h (buf fg) idx k = (mem h0 (buf fg) idx k + D idx k)%C.

Lemma acc_refl h D : (forall idx k, D idx k = RtoC 0) -> acc h h D.
Proof. intros H. split; auto. split; auto. intros. rewrite H. ring. Qed.
Lemma acc_trans h0 h1 h2 D1 D2 D : acc h0 h1 D1 -> acc h1 h2 D2 -> (forall idx k, D idx k = D1 idx k + D2 idx k)%C -> acc h0 h2 D.
Proof.
  intros (N1 & O1 & M1) (N2 & O2 & M2) H. split; [congruence|]. split.
  - intros. rewrite O2, O1; auto.
  - intros. rewrite M2, M1, H. ring.
Qed.
Lemma acc_ext h0 h D D' : acc h0 h D -> (forall idx k, D idx k = D' idx k) -> acc h0 h D'.
Proof. intros (N & O & M) H. split; auto. split; auto. intros. rewrite M, H. reflexivity. Qed.

Lemma acc_loop {S} (hp : S -> heap) (I : S -> Prop) (D : Z -> list Z -> Z -> C) a body : forall n s,
  I s ->
  (forall i s, a <= i < a + Z.of_nat n -> I s -> outc (body i s) (fun s' => I s' /\ acc (hp s) (hp s') (D i))) ->
  outc (for_range a (a + Z.of_nat n) body s) (fun s' => I s' /\ acc (hp s) (hp s') (fun idx k => csum a (a + Z.of_nat n - 1) (fun i => D i idx k))).
Proof.
  intros n. revert a. induction n as [|n IH]; intros a s HI HB.
  - rewrite for_range_empty by lia. apply outc_ok. split; auto. apply acc_refl. intros. apply csum_empty. lia.
  - rewrite for_range_step by lia. eapply outc_bind. { apply HB; auto. lia. }
    intros s1 [I1 A1]. replace (a + Z.of_nat (Datatypes.S n)) with (a + 1 + Z.of_nat n) by lia.
    eapply outc_impl. { apply (IH (a + 1) s1 I1). intros. apply HB; auto. lia. }
    intros s2 [I2 A2]. split; auto. eapply acc_trans; [exact A1|exact A2|].
    intros. cbv beta. rewrite (csum_first a) by lia. reflexivity.
Qed.

Lemma acc_range {S} (hp : S -> heap) (I : S -> Prop) (D : Z -> list Z -> Z -> C) a b body s :
  I s ->
  (forall i s, a <= i < b -> I s -> outc (body i s) (fun s' => I s' /\ acc (hp s) (hp s') (D i))) ->
  outc (for_range a b body s) (fun s' => I s' /\ acc (hp s) (hp s') (fun idx k => csum a (b - 1) (fun i => D i idx k))).
Proof.
  intros HI HB. destruct (Z_le_gt_dec a b) as [H|H].
  - replace b with (a + Z.of_nat (Z.to_nat (b - a))) by lia. apply acc_loop; auto. intros. apply HB; auto. lia.
  - rewrite for_range_empty by lia. apply outc_ok. split; auto. apply acc_refl. intros. apply csum_empty. lia.
Qed.

Lemma rdcol_nb_ok h a i : 0 <= i < wid a -> rdcol_nb h a i = Ok (fun idx => mem h (buf a) idx i).
Proof. intros. unfold rdcol_nb. rewrite rdcol_ok by auto. reflexivity. Qed.

Lemma addcol_ok h i e : 0 <= i < wid fg ->
  exists h', addcol h fg i (lead f) (lead g) e = Ok h' /\ acc h h' (fun idx k => if k =? i then e idx else RtoC 0).
Proof.
  intros Hi. unfold addcol. rewrite Fit, rdcol_nb_ok by auto. cbn [bind]. unfold wrcol_nb. rewrite wrcol_ok by auto.
  eexists. split; [reflexivity|]. split; [reflexivity|]. split.
  - intros. rewrite set_col_other; auto.
  - intros. destruct (Z.eqb_spec k i) as [->|N].
    + rewrite set_col_same. reflexivity.
    + rewrite set_col_other by auto. ring.
Qed.

Lemma calc_out c l1 l2 m n : calc_wf c -> ellmax_f + ellmax_g < csize c -> ellmin_f <= l1 <= ellmax_f -> ellmin_g <= l2 <= ellmax_g ->
  outc (calculate w c l1 l2 m n) (fun c' => calc_wf c' /\ csize c' = csize c
    /\ forall j, 0 <= j < csize c -> returned c' j = Ok (threej l1 l2 j m n (- m - n))).
Proof.
  intros Wc Hs H1 H2. destruct (calculate_total w c l1 l2 m n Wc) as [(c' & E & Wc' & Sc & R)|[E L]].
  - intros. lia.
  - intros. apply Hw; auto.
  - left. exists c'. repeat (split; auto). intros j Hj. rewrite R by auto. rewrite threej_cyc. reflexivity.
  - right. split; auto.
    assert (Z.abs m <= l1 /\ Z.abs n <= l2) as [Hm Hn].
    { destruct (Z_le_gt_dec (Z.abs m) l1), (Z_le_gt_dec (Z.abs n) l2); auto; exfalso; revert E; unfold calculate, calculate_ws; cbv zeta;
      (replace ((Z.abs m >? l1) || (Z.abs n >? l2)) with true by (symmetry; apply orb_true_iff; rewrite !Z.gtb_ltb, !Z.ltb_lt; lia)); cbn [bind]; congruence. }
    exists l1, l2, m, n. auto.
Qed.

Variables F G : list Z -> Z -> C.
Definition same (h : heap) : Prop := forall idx k, mem h (buf f) idx k = F idx k /\ mem h (buf g) idx k = G idx k.
Lemma same_acc h h' D : same h -> acc h h' D -> same h'.
Proof. intros S0 (_ & O & _) idx k. rewrite !O by auto. apply S0. Qed.

(** One innermost step. *)
Definition term (l1 m1 l2 m2 l3 : Z) (idx : list Z) (k : Z) : C :=
  if k =? LM_index l3 (m1 + m2) 0
  then (RtoC (product_coeff s_f s_g l1 m1 l2 m2 l3) * F (bidx (lead f) idx) (LM_index l1 m1 ellmin_f) * G (bidx (lead g) idx) (LM_index l2 m2 ellmin_g))%C
  else RtoC 0.

Lemma step_coeff l1 m1 l2 m2 l3 x y : 0 <= l1 -> 0 <= l2 -> 0 <= l3 ->
  (RtoC (IZR (pm1 (l1 + l2 + l3 + (s_f + s_g) + (m1 + m2))) * sqrt (IZR (2 * l3 + 1)) * threej l1 l2 l3 s_f s_g (- s_f - s_g)
     * threej l1 l2 l3 m1 m2 (- m1 - m2))
   * (RtoC (sqrt (IZR (2 * l1 + 1) / (4 * PI))) * x) * (RtoC (sqrt (IZR (2 * l2 + 1))) * y))%C
  = (RtoC (product_coeff s_f s_g l1 m1 l2 m2 l3) * x * y)%C.
Proof.
  intros. unfold product_coeff. rewrite sqrt4 by (apply odd_nonneg; auto).
  replace (IZR (pm1 (l1 + l2 + l3 + (s_f + s_g) + (m1 + m2)))) with (sgn (l1 + l2 + l3 + (s_f + s_g) + (m1 + m2)))
    by (unfold sgn, pm1; destruct (Z.even _); reflexivity).
  replace (- s_f - s_g) with (- (s_f + s_g)) by lia. replace (- m1 - m2) with (- (m1 + m2)) by lia.
  rewrite !RtoC_mult. ring.
Qed.

Lemma calc_new_ok a b gb : 0 <= a + b -> exists c, calc_new a b gb = Ok c /\ calc_wf c /\ csize c = a + b + 1.
Proof.
  intros H. unfold calc_new. cbv zeta. rewrite np_empty_ok by lia. cbn [bind]. eexists. split; [reflexivity|].
  split; [|reflexivity]. split; cbn [csize workspace alen]; lia.
Qed.

Lemma mult_helper_acc gs gm h : 0 <= ellmax_f + ellmax_g -> same h ->
  outc (mult_helper w gs gm h f ellmin_f ellmax_f s_f g ellmin_g ellmax_g s_g fg 0 ellmax_fg (s_f + s_g))
    (fun h' => acc h h' (fun idx k =>
      csum ellmin_f ellmax_f (fun l1 => csum (- l1) l1 (fun m1 => csum ellmin_g ellmax_g (fun l2 => csum (- l2) l2 (fun m2 =>
        csum (Z.max (Z.abs (m1 + m2)) (Z.abs (l1 - l2))) (Z.min (l1 + l2) ellmax_fg) (fun l3 => term l1 m1 l2 m2 l3 idx k))))))).
Proof.
  intros HL S0. unfold mult_helper.
  destruct (calc_new_ok ellmax_f ellmax_g gs HL) as (sc & Es & Ws & Ss).
  destruct (calc_new_ok ellmax_f ellmax_g gm HL) as (mc & Em & Wm & Sm).
  rewrite Es, Em. cbn [bind].
  set (N := ellmax_f + ellmax_g + 1) in *.
  set (I3 := fun st : heap * calc * calc => same (fst (fst st)) /\ (calc_wf (snd (fst st)) /\ csize (snd (fst st)) = N) /\ (calc_wf (snd st) /\ csize (snd st) = N)).
  eapply outc_bind with (P := fun st => I3 st /\ acc h (fst (fst st)) (fun idx k =>
      csum ellmin_f (ellmax_f + 1 - 1) (fun l1 => csum (- l1) (l1 + 1 - 1) (fun m1 => csum ellmin_g (ellmax_g + 1 - 1) (fun l2 => csum (- l2) (l2 + 1 - 1) (fun m2 =>
        csum (Z.max (Z.abs (m1 + m2)) (Z.abs (l1 - l2))) (Z.min (l1 + l2) ellmax_fg + 1 - 1) (fun l3 => term l1 m1 l2 m2 l3 idx k))))))).
  2:{ intros [[h' sc'] mc'] [_ A]. apply outc_ok. eapply acc_ext; [exact A|]. intros. rewrite Z.add_simpl_r.
      repeat (apply csum_ext; intros; rewrite Z.add_simpl_r). reflexivity. }
  apply (acc_range (fun st : heap * calc * calc => fst (fst st)) I3). { unfold I3. cbn [fst snd]. auto. }
  intros l1 st1 H1 J1. cbv zeta.
  apply (acc_range (fun st : heap * calc * calc => fst (fst st)) I3); auto.
  intros m1 st2 Hm1 J2. cbv beta. rewrite rdcol_nb_ok by (apply Wf; lia). cbn [bind].
  assert (S2 : same (fst (fst st2))) by apply J2.
  apply (acc_range (fun st : heap * calc * calc => fst (fst st)) I3); auto.
  intros l2 [[h3 sc3] mc3] H2 J3. unfold I3 in J3. destruct J3 as (S3 & (Ws3 & Ss3) & (Wm3 & Sm3)). cbn [fst snd] in *.
  eapply outc_bind. { apply (calc_out sc3 l1 l2 s_f s_g); auto; lia. }
  cbv beta. intros sc4 (Ws4 & Ss4 & R4).
  eapply outc_bind with (P := fun st => (same (fst st) /\ calc_wf (snd st) /\ csize (snd st) = N) /\ acc h3 (fst st) (fun idx k =>
      csum (- l2) (l2 + 1 - 1) (fun m2 =>
        csum (Z.max (Z.abs (m1 + m2)) (Z.abs (l1 - l2))) (Z.min (l1 + l2) ellmax_fg + 1 - 1) (fun l3 => term l1 m1 l2 m2 l3 idx k)))).
  2:{ intros [h' mc'] [(S' & W' & C') A]. apply outc_ok. cbn [fst snd] in *. split; [|exact A]. unfold I3. cbn [fst snd]. split; auto. split; split; auto. congruence. }
  apply (acc_range (fun st : heap * calc => fst st) (fun st => same (fst st) /\ calc_wf (snd st) /\ csize (snd st) = N)). { cbn [fst snd]. auto. }
  intros m2 [h5 mc5] Hm2 (S5 & W5 & C5). cbn [fst snd] in *.
  eapply outc_bind. { apply (calc_out mc5 l1 l2 m1 m2); auto; lia. }
  cbv beta. intros mc6 (Ws6 & Ss6 & R6).
  rewrite rdcol_nb_ok by (apply Wg; lia). cbn [bind].
  eapply outc_bind with (P := fun h' => same h' /\ acc h5 h' (fun idx k =>
        csum (Z.max (Z.abs (m1 + m2)) (Z.abs (l1 - l2))) (Z.min (l1 + l2) ellmax_fg + 1 - 1) (fun l3 => term l1 m1 l2 m2 l3 idx k))).
  2:{ intros h' [S' A]. apply outc_ok. cbn [fst snd]. split; auto. split; auto. split; auto. congruence. }
  apply (acc_range (fun h : heap => h) same); auto.
  intros l3 h7 H3 S7. rewrite R4, R6 by lia. cbn [bind].
  destruct (addcol_ok h7 (LM_index l3 (m1 + m2) 0)
    (fun idx => RtoC (IZR (pm1 (l1 + l2 + l3 + (s_f + s_g) + (m1 + m2))) * sqrt (IZR (2 * l3 + 1)) * threej l1 l2 l3 s_f s_g (- s_f - s_g)
     * threej l1 l2 l3 m1 m2 (- m1 - m2))
     * (RtoC (sqrt (IZR (2 * l1 + 1) / (4 * PI))) * mem (fst (fst st2)) (buf f) (bidx (lead f) idx) (LM_index l1 m1 ellmin_f))
     * (RtoC (sqrt (IZR (2 * l2 + 1))) * mem h5 (buf g) (bidx (lead g) idx) (LM_index l2 m2 ellmin_g)))%C) as (h8 & E8 & A8).
  { rewrite Wfg, LM_col. apply col_bound; lia. }
  rewrite E8. apply outc_ok. split. { eapply same_acc; eauto. }
  eapply acc_ext; [exact A8|]. intros idx k. cbv beta. unfold term.
  destruct (k =? _); auto. rewrite step_coeff by lia. rewrite (proj1 (S2 _ _)), (proj2 (S5 _ _)). reflexivity.
Qed.
End Helper.
