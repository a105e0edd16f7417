(** Statements about multiplication of Modes objects. *)
Require Import ZArith Lia List Reals Lra Bool.
From Coquelicot Require Import Complex.
From Verif Require Import Base BaseProofs CBase CSum RSum Fact IndexModel IndexProofs DRep WignerModel WignerSpec WignerProofs WignerProofs3 RotorSpec SWSHModel SWSHProofs
  WignerProps ThreeJSpec ThreeJ ThreeJ2 Wigner3jModel Wigner3jSpec Wigner3jWs Wigner3jFwd Wigner3jProofs Wigner3jProps
  ModesModel ModesSpec ModesProofs ModesProofs2 ModesProofs3 ModesProps2 MultModel MultSpec MultProofs.
Import ListNotations.
Open Scope Z_scope.

(** ** Collapsing the accumulated sum *)

Section Collapse.
Variables f g : ndarray.
Variables s_f s_g ellmin_f ellmin_g : Z.
Variables F G : list Z -> Z -> C.
Notation term := (term f g ellmin_f s_f ellmin_g s_g F G).

Lemma inner_sum l1 m1 l2 m2 L idx l m : 0 <= l1 -> 0 <= l2 -> 0 <= l <= L -> - l <= m <= l ->
  csum (Z.max (Z.abs (m1 + m2)) (Z.abs (l1 - l2))) (Z.min (l1 + l2) L) (fun l3 => term l1 m1 l2 m2 l3 idx (LM_index l m 0))
  = if m2 =? m - m1 then (RtoC (product_coeff s_f s_g l1 m1 l2 m2 l) * F (bidx (lead f) idx) (LM_index l1 m1 ellmin_f) * G (bidx (lead g) idx) (LM_index l2 m2 ellmin_g))%C
    else RtoC 0.
Proof.
  intros H1 H2 Hl Hm.
  assert (T : forall l3, Z.abs (m1 + m2) <= l3 -> (l3 <> l \/ m2 <> m - m1) -> term l1 m1 l2 m2 l3 idx (LM_index l m 0) = RtoC 0).
  { intros l3 H3 N. unfold MultProofs.term. destruct (Z.eqb_spec (LM_index l m 0) (LM_index l3 (m1 + m2) 0)) as [E|E]; auto.
    apply LM_index_inj in E; lia. }
  destruct (Z.eqb_spec m2 (m - m1)) as [E|E].
  - destruct (Z_le_gt_dec (Z.max (Z.abs (m1 + m2)) (Z.abs (l1 - l2))) l) as [A|A].
    + destruct (Z_le_gt_dec l (Z.min (l1 + l2) L)) as [B|B].
      * rewrite (csum_delta _ _ l); try lia.
        -- unfold MultProofs.term. replace (m1 + m2) with m by lia. rewrite Z.eqb_refl. reflexivity.
        -- intros. apply T; lia.
      * rewrite csum_zero by (intros; apply T; lia). rewrite coeff_out by lia. ring.
    + rewrite csum_zero by (intros; apply T; lia). rewrite coeff_out by lia. ring.
  - apply csum_zero. intros. apply T; lia.
Qed.


Lemma collapse ellmax_f ellmax_g L idx l m : 0 <= ellmin_f -> 0 <= ellmin_g -> 0 <= l <= L -> - l <= m <= l ->
  csum ellmin_f ellmax_f (fun l1 => csum (- l1) l1 (fun m1 => csum ellmin_g ellmax_g (fun l2 => csum (- l2) l2 (fun m2 =>
    csum (Z.max (Z.abs (m1 + m2)) (Z.abs (l1 - l2))) (Z.min (l1 + l2) L) (fun l3 => term l1 m1 l2 m2 l3 idx (LM_index l m 0))))))
  = product_weight s_f ellmax_f s_g ellmax_g (arr_mode F ellmin_f (bidx (lead f) idx)) (arr_mode G ellmin_g (bidx (lead g) idx)) l m.
Proof.
  intros Hf Hg Hl Hm. unfold product_weight, dsum.
  rewrite <- (csum_widen ellmin_f ellmax_f 0 ellmax_f).
  2: lia. 2: lia.
  2:{ intros i Hi HH. apply csum_zero. intros. apply csum_zero. intros. unfold arr_mode. replace (i <? ellmin_f) with true by (symmetry; apply Z.ltb_lt; lia).
      destruct (_ <=? _); ring. }
  apply csum_ext. intros l1 H1. apply csum_ext. intros m1 Hm1.
  rewrite <- (csum_widen ellmin_g ellmax_g 0 ellmax_g).
  2: lia. 2: lia.
  2:{ intros i Hi HH. unfold arr_mode at 2. replace (i <? ellmin_g) with true by (symmetry; apply Z.ltb_lt; lia).
      destruct (_ <=? _); ring. }
  apply csum_ext. intros l2 H2. unfold arr_mode.
  replace (l1 <? ellmin_f) with false by (symmetry; apply Z.ltb_ge; lia).
  replace (l2 <? ellmin_g) with false by (symmetry; apply Z.ltb_ge; lia).
  rewrite (csum_ext (- l2) l2 _ (fun m2 => if m2 =? m - m1 then (RtoC (product_coeff s_f s_g l1 m1 l2 m2 l) * F (bidx (lead f) idx) (LM_index l1 m1 ellmin_f) * G (bidx (lead g) idx) (LM_index l2 m2 ellmin_g))%C
    else RtoC 0)) by (intros; apply inner_sum; lia).
  destruct (Z.leb_spec (Z.abs (m - m1)) l2) as [A|A].
  - rewrite (csum_delta _ _ (m - m1)); try lia.
    + rewrite Z.eqb_refl. reflexivity.
    + intros i Hi N. apply Z.eqb_neq in N. rewrite N. reflexivity.
  - apply csum_zero. intros i Hi. destruct (Z.eqb_spec i (m - m1)); [lia|reflexivity].
Qed.
End Collapse.

(** ** The product weights belong to the product function *)

Lemma dsum_swap A B X : dsum A (fun l m => dsum B (fun l' m' => X l m l' m')) = dsum B (fun l' m' => dsum A (fun l m => X l m l' m')).
Proof.
  unfold dsum.
  transitivity (csum 0 A (fun l => csum 0 B (fun l' => csum (- l') l' (fun m' => csum (- l) l (fun m => X l m l' m'))))).
  { apply csum_ext. intros l Hl. rewrite csum_swap. apply csum_ext. intros l' Hl'. apply csum_swap. }
  rewrite csum_swap. apply csum_ext. intros l' Hl'. apply csum_swap.
Qed.

Lemma product_weight_alt s1 L1 s2 L2 u v l m :
  product_weight s1 L1 s2 L2 u v l m
  = dsum L1 (fun l1 m1 => dsum L2 (fun l2 m2 => if m =? m1 + m2 then (RtoC (product_coeff s1 s2 l1 m1 l2 m2 l) * u l1 m1 * v l2 m2)%C else RtoC 0)).
Proof.
  apply dsum_ext. intros l1 m1 H1 Hm1. unfold dsum. apply csum_ext. intros l2 H2.
  destruct (Z.leb_spec (Z.abs (m - m1)) l2) as [A|A].
  - rewrite (csum_delta _ _ (m - m1)); try lia.
    + replace (m =? m1 + (m - m1)) with true by (symmetry; apply Z.eqb_eq; lia). reflexivity.
    + intros i Hi N. destruct (Z.eqb_spec m (m1 + i)); [lia|reflexivity].
  - symmetry. apply csum_zero. intros i Hi. destruct (Z.eqb_spec m (m1 + i)); [lia|reflexivity].
Qed.

Lemma fvalue_product s1 L1 s2 L2 u v L q : rotor q -> L1 + L2 <= L ->
  fvalue (s1 + s2) L (product_weight s1 L1 s2 L2 u v) q = (fvalue s1 L1 u q * fvalue s2 L2 v q)%C.
Proof.
  intros HR HL. unfold fvalue. set (a := qa q). set (b := qb q).
  assert (U : (a * Cconj a + b * Cconj b)%C = RtoC 1) by (apply unit_norm; apply HR).
  transitivity (dsum L1 (fun l1 m1 => dsum L2 (fun l2 m2 => (u l1 m1 * SWSH_value s1 l1 m1 a b) * (v l2 m2 * SWSH_value s2 l2 m2 a b))))%C.
  2:{ rewrite Cmult_comm. rewrite <- dsum_scal. apply dsum_ext. intros l1 m1 _ _. rewrite dsum_scal. ring. }
  rewrite (dsum_ext L _ (fun l m => dsum L1 (fun l1 m1 => dsum L2 (fun l2 m2 =>
    (if m =? m1 + m2 then (RtoC (product_coeff s1 s2 l1 m1 l2 m2 l) * u l1 m1 * v l2 m2) else RtoC 0) * SWSH_value (s1 + s2) l m a b)))%C).
  2:{ intros l m _ _. rewrite product_weight_alt. rewrite Cmult_comm, <- dsum_scal. apply dsum_ext. intros. rewrite <- dsum_scal. apply dsum_ext. intros. ring. }
  rewrite dsum_swap. apply dsum_ext. intros l1 m1 H1 Hm1. rewrite dsum_swap. apply dsum_ext. intros l2 m2 H2 Hm2.
  replace (u l1 m1 * SWSH_value s1 l1 m1 a b * (v l2 m2 * SWSH_value s2 l2 m2 a b))%C
    with (u l1 m1 * v l2 m2 * (SWSH_value s1 l1 m1 a b * SWSH_value s2 l2 m2 a b))%C by ring.
  rewrite SWSH_product by (auto; lia). rewrite <- csum_scal. unfold dsum.
  rewrite (csum_widen 0 (l1 + l2) 0 L) by (try lia; intros; rewrite coeff_out by lia; ring).
  apply csum_ext. intros l Hl. destruct (Z_le_gt_dec (Z.abs (m1 + m2)) l) as [A|A].
  - rewrite (csum_delta _ _ (m1 + m2)); try lia.
    + rewrite Z.eqb_refl. ring.
    + intros i Hi N. apply Z.eqb_neq in N. rewrite N. ring.
  - rewrite coeff_out by lia. rewrite csum_zero; [ring|]. intros i Hi. destruct (Z.eqb_spec i (m1 + m2)); [lia|ring].
Qed.

(** ** The objects *)

Lemma fits_refl sh : fits (Some sh) sh = true.
Proof. unfold fits. rewrite broadcast_refl. destruct (list_eq_dec Z.eq_dec sh sh); congruence. Qed.

Lemma outc_cases a b c d {S} (r : res S) P : outc a b c d r P -> (exists s, r = Ok s /\ P s) \/ (r = Err ZeroDivisionError /\ blocked a b c d).
Proof. auto. Qed.

Lemma arr_mode_0 F idx l m : 0 <= l -> arr_mode F 0 idx l m = F idx (l * l + (l + m)).
Proof. intros. unfold arr_mode. replace (l <? 0) with false by (symmetry; apply Z.ltb_ge; lia). rewrite LM_col. reflexivity. Qed.

Lemma product_weight_ext s1 L1 s2 L2 u v u' v' l m :
  (forall l m, 0 <= l <= L1 -> - l <= m <= l -> u l m = u' l m) -> (forall l m, 0 <= l <= L2 -> - l <= m <= l -> v l m = v' l m) ->
  product_weight s1 L1 s2 L2 u v l m = product_weight s1 L1 s2 L2 u' v' l m.
Proof.
  intros Hu Hv. apply dsum_ext. intros l1 m1 H1 Hm1. apply csum_ext. intros l2 H2. destruct (Z.leb_spec (Z.abs (m - m1)) l2); auto.
  rewrite Hu, Hv by lia. reflexivity.
Qed.

Lemma product_weight_low s1 L1 s2 L2 u v l m : l < Z.abs (s1 + s2) -> product_weight s1 L1 s2 L2 u v l m = RtoC 0.
Proof.
  intros H. apply csum_zero. intros. apply csum_zero. intros. apply csum_zero. intros. rewrite coeff_out by lia. destruct (_ <=? _); ring.
Qed.

Lemma wide_ok w L1 L2 l1 l2 m n : wide_enough w L1 L2 -> l1 <= L1 -> l2 <= L2 -> Z.abs m <= l1 -> Z.abs n <= l2 -> ok_widths l1 l2 m n w.
Proof. intros [->|[-> H]] H1 H2 Hm Hn; [apply exact_ok; auto|apply fixed_ok; auto; lia]. Qed.

Lemma multiply_new w gs gm h f g tr sh : wf h f -> wf h g -> 0 <= ellmax (md f) -> 0 <= ellmax (md g) -> 0 <= product_ell_max f g tr ->
  broadcast (lead (nd f)) (lead (nd g)) = Some sh -> wide_enough w (ellmax (md f)) (ellmax (md g)) ->
  (exists h' r, multiply w gs gm h f g tr = Ok (h', r)
    /\ new_modes h h' r (spin (md f) + spin (md g)) (product_ell_max f g tr) sh (fun idx =>
         product_weight (spin (md f)) (ellmax (md f)) (spin (md g)) (ellmax (md g)) (mode h f (bidx (lead (nd f)) idx)) (mode h g (bidx (lead (nd g)) idx)))
    /\ truncator (md r) = truncator (md f))
  \/ (multiply w gs gm h f g tr = Err ZeroDivisionError /\ blocked 0 (ellmax (md f)) 0 (ellmax (md g))).
Proof.
  intros Wf Wg HF HG HL HB HW. unfold multiply. set (L := product_ell_max f g tr) in *. cbv zeta.
  rewrite (rdcol0 h f), (rdcol0 h g) by auto. cbn [bind]. rewrite HB. rewrite LM_total_sqr. unfold ell_min_of.
  replace ((L + 1) ^ 2 - 0 ^ 2) with ((L + 1) ^ 2) by lia.
  destruct (alloc h sh ((L + 1) ^ 2) (fun _ _ => RtoC 0)) as [h1 new] eqn:EA.
  pose proof EA as EA'. unfold alloc in EA'. injection EA' as E1 E2.
  assert (M1 : forall b idx k, mem h1 b idx k = if Nat.eqb b (next h) then RtoC 0 else mem h b idx k) by (intros; rewrite <- E1; cbn; destruct (Nat.eqb _ _); auto).
  assert (N1 : next h1 = S (next h)) by (rewrite <- E1; reflexivity). clear E1.
  destruct f as [nf mf], g as [ng mg]. cbn [nd md] in *.
  pose proof Wf as (Fb & Fw & Fz). pose proof Wg as (Gb & Gw & Gz). cbn [nd md] in *.
  assert (C0 : forall n k, n <> next h -> 0 <= k -> True) by auto.
  destruct (mult_helper_acc w nf ng new 0 (ellmax mf) (spin mf) 0 (ellmax mg) (spin mg) L
             ltac:(lia) ltac:(lia)
             ltac:(intros l m Hl Hm; rewrite LM_col, Fw; apply col_bound; lia)
             ltac:(intros l m Hl Hm; rewrite LM_col, Gw; apply col_bound; lia)
             ltac:(rewrite <- E2; reflexivity)
             ltac:(rewrite <- E2; cbn [buf]; lia) ltac:(rewrite <- E2; cbn [buf]; lia)
             ltac:(rewrite HB, <- E2; cbn [lead]; apply fits_refl)
             ltac:(intros; eapply wide_ok; eauto; lia)
             (mem h (buf nf)) (mem h (buf ng)) gs gm h1 ltac:(lia)) as [(h2 & EH & (N2 & O2 & D2))|[EH HBad]].
  { intros idx k. rewrite !M1. destruct (Nat.eqb_spec (buf nf) (next h)), (Nat.eqb_spec (buf ng) (next h)); try lia; auto. }
  2:{ right. split; auto. rewrite EH. reflexivity. }
  left. rewrite EH. cbn [bind].
  assert (Wn : wid new = (L + 1) ^ 2) by (rewrite <- E2; reflexivity).
  destruct (construct_ok h2 new (mkmeta (spin mf + spin mg) L (truncator mf)) Wn) as (h3 & E3 & N3 & K3 & D3).
  exists h3. eexists. split; [exact E3|]. split; [|reflexivity]. cbn [nd md spin ellmax] in *.
  assert (Bn : buf new = next h) by (rewrite <- E2; reflexivity).
  assert (V : forall idx ell mm, 0 <= ell <= L -> - ell <= mm <= ell -> mem h3 (buf new) idx (ell * ell + (ell + mm))
     = product_weight (spin mf) (ellmax mf) (spin mg) (ellmax mg) (mode h (mkmodes nf mf) (bidx (lead nf) idx)) (mode h (mkmodes ng mg) (bidx (lead ng) idx)) ell mm).
  { intros idx ell mm He Hm. rewrite D3 by auto. cbn [spin]. destruct (Z.ltb_spec ell (Z.abs (spin mf + spin mg))).
    { rewrite product_weight_low by lia. reflexivity. }
    rewrite D2. rewrite M1, Bn, Nat.eqb_refl. rewrite Cplus_0_l.
    replace (ell * ell + (ell + mm)) with (LM_index ell mm 0) by (rewrite LM_col; lia).
    rewrite collapse by lia. apply product_weight_ext; intros; rewrite arr_mode_0 by lia; reflexivity. }
  unfold new_modes. split; [lia|]. split.
  { intros b Hb idx k. rewrite K3, O2, M1 by lia. destruct (Nat.eqb_spec b (next h)); [lia|reflexivity]. }
  cbn [nd md spin ellmax buf lead]. split; [lia|]. split; auto. split; auto. split; [rewrite <- E2; reflexivity|]. split.
  - split; [cbn [nd]; lia|]. split; [exact Wn|]. cbn [nd md spin ellmax]. intros idx ell mm He Hs Hm. unfold mode. cbn [nd]. rewrite V by auto. apply product_weight_low. auto.
  - intros idx ell mm _ He Hm. unfold mode at 1. cbn [nd]. apply V; auto.
Qed.

(** ** C25 *)

Lemma C25_harmonics :
  forall s1 s2 l1 m1 l2 m2 q, unit_quat q -> Z.abs m1 <= l1 -> Z.abs m2 <= l2 ->
  (SWSH_value s1 l1 m1 (qa q) (qb q) * SWSH_value s2 l2 m2 (qa q) (qb q))%C
  = csum 0 (l1 + l2) (fun l => RtoC (product_coeff s1 s2 l1 m1 l2 m2 l) * SWSH_value (s1 + s2) l (m1 + m2) (qa q) (qb q))%C.
Proof. intros. apply SWSH_product; auto. apply unit_norm. auto. Qed.

Lemma C25_product :
  forall w gs gm Lt tab h f g tr h' r, is_Wigner_table Lt tab -> wf h f -> wf h g ->
  0 <= ellmax (md f) -> 0 <= ellmax (md g) -> wide_enough w (ellmax (md f)) (ellmax (md g)) ->
  ellmax (md f) + ellmax (md g) <= product_ell_max f g tr <= Lt ->
  multiply w gs gm h f g tr = Ok (h', r) ->
  spin (md r) = spin (md f) + spin (md g) /\ ellmax (md r) = product_ell_max f g tr
  /\ broadcast (lead (nd f)) (lead (nd g)) = Some (lead (nd r)) /\ wf h' r
  /\ (forall b, (b < next h)%nat -> forall idx k, mem h' b idx k = mem h b idx k)
  /\ forall q F G, rotor q -> value_at tab h f q F -> value_at tab h g q G ->
       value_at tab h' r q (fun idx => F (bidx (lead (nd f)) idx) * G (bidx (lead (nd g)) idx))%C.
Proof.
  intros w gs gm Lt tab h f g tr h' r Ht Wf Wg HF HG HW HL E.
  destruct (broadcast (lead (nd f)) (lead (nd g))) as [sh|] eqn:HB.
  2:{ exfalso. revert E. unfold multiply. rewrite (rdcol0 h f), (rdcol0 h g) by auto. cbn [bind]. rewrite HB. discriminate. }
  destruct (multiply_new w gs gm h f g tr sh Wf Wg HF HG ltac:(lia) HB HW) as [(h1 & r1 & E1 & NM & T)|[E1 _]]; [|congruence].
  rewrite E in E1. apply Ok_inj in E1. injection E1 as <- <-.
  pose proof NM as (_ & Kp & _ & Es & EL & El & Wr & M). repeat (split; auto; try congruence; try apply Wr).
  intros q F G HR VF VG. pose proof (value_at_new Lt tab h h' r _ _ _ _ q Ht NM ltac:(lia) HR) as V'.
  eapply value_at_ext; [|exact V']. intros idx Hi. rewrite El in Hi. cbv beta.
  assert (Hf : at_index (lead (nd f)) (bidx (lead (nd f)) idx)) by (eapply bidx_in; eauto; eapply broadcast_left; eauto).
  assert (Hg : at_index (lead (nd g)) (bidx (lead (nd g)) idx)) by (eapply bidx_in; eauto; eapply broadcast_right; eauto).
  rewrite (value_at_fun _ _ _ _ _ _ VF (value_at_fvalue Lt tab h f q Ht Wf ltac:(lia) HR) _ Hf).
  rewrite (value_at_fun _ _ _ _ _ _ VG (value_at_fvalue Lt tab h g q Ht Wg ltac:(lia) HR) _ Hg).
  rewrite fvalue_product by (auto; lia). reflexivity.
Qed.

Lemma C25_ell_max :
  forall f g,
  (truncator (md f) = None -> truncator (md g) = None -> product_ell_max f g None = ellmax (md f) + ellmax (md g))
  /\ (forall t, truncator (md f) = Some t -> truncator (md g) = None ->
        product_ell_max f g None = Z.max (t (ellmax (md f)) (ellmax (md g))) (ellmax (md f) + ellmax (md g)))
  /\ (forall t u, truncator (md f) = Some t -> truncator (md g) = Some u ->
        product_ell_max f g None = Z.max (t (ellmax (md f)) (ellmax (md g))) (u (ellmax (md f)) (ellmax (md g))))
  /\ (forall t, product_ell_max f g (Some t) = t (ellmax (md f)) (ellmax (md g))).
Proof.
  intros f g. unfold product_ell_max, trunc_of. split; [intros -> ->; lia|]. split; [intros t -> ->; reflexivity|].
  split; [intros t u -> ->; reflexivity|reflexivity].
Qed.

Lemma C25_entries :
  forall w gs gm h f g tr h' r, wf h f -> wf h g ->
  0 <= ellmax (md f) -> 0 <= ellmax (md g) -> 0 <= product_ell_max f g tr -> wide_enough w (ellmax (md f)) (ellmax (md g)) ->
  multiply w gs gm h f g tr = Ok (h', r) ->
  spin (md r) = spin (md f) + spin (md g) /\ ellmax (md r) = product_ell_max f g tr /\ truncator (md r) = truncator (md f)
  /\ broadcast (lead (nd f)) (lead (nd g)) = Some (lead (nd r)) /\ wf h' r
  /\ (forall b, (b < next h)%nat -> forall idx k, mem h' b idx k = mem h b idx k)
  /\ forall idx l m, at_index (lead (nd r)) idx -> 0 <= l <= ellmax (md r) -> - l <= m <= l ->
     mode h' r idx l m =
     dsum (ellmax (md f)) (fun l1 m1 => csum 0 (ellmax (md g)) (fun l2 =>
       if Z.abs (m - m1) <=? l2
       then RtoC (product_coeff (spin (md f)) (spin (md g)) l1 m1 l2 (m - m1) l)
            * mode h f (bidx (lead (nd f)) idx) l1 m1 * mode h g (bidx (lead (nd g)) idx) l2 (m - m1)%Z
       else RtoC 0))%C.
Proof.
  intros w gs gm h f g tr h' r Wf Wg HF HG HL HW E.
  destruct (broadcast (lead (nd f)) (lead (nd g))) as [sh|] eqn:HB.
  2:{ exfalso. revert E. unfold multiply. rewrite (rdcol0 h f), (rdcol0 h g) by auto. cbn [bind]. rewrite HB. discriminate. }
  destruct (multiply_new w gs gm h f g tr sh Wf Wg HF HG ltac:(lia) HB HW) as [(h1 & r1 & E1 & NM & T)|[E1 _]]; [|congruence].
  rewrite E in E1. apply Ok_inj in E1. injection E1 as <- <-.
  pose proof NM as (_ & Kp & _ & Es & EL & El & Wr & M). repeat (split; auto; try congruence; try apply Wr).
  intros idx l m Hi Hl Hm. rewrite M; [reflexivity| |lia|lia]. congruence.
Qed.

Lemma C25_selection :
  forall s1 s2 l1 m1 l2 m2 l, product_coeff s1 s2 l1 m1 l2 m2 l <> 0%R ->
  Z.abs (l1 - l2) <= l <= l1 + l2 /\ Z.abs m1 <= l1 /\ Z.abs m2 <= l2 /\ Z.abs (m1 + m2) <= l
  /\ Z.abs s1 <= l1 /\ Z.abs s2 <= l2 /\ Z.abs (s1 + s2) <= l.
Proof.
  intros s1 s2 l1 m1 l2 m2 l H. unfold product_coeff in H.
  destruct (tj_allowed_dec l1 l2 l s1 s2 (- (s1 + s2))) as [A|A].
  2:{ exfalso. apply H. rewrite (threej_out l1 l2 l s1 s2) by auto. ring. }
  destruct (tj_allowed_dec l1 l2 l m1 m2 (- (m1 + m2))) as [B|B].
  2:{ exfalso. apply H. rewrite (threej_out l1 l2 l m1 m2) by auto. ring. }
  unfold tj_allowed in A, B. lia.
Qed.

Lemma C25_truncated :
  forall w gs gm gs' gm' h f g tr h1 r1 h2 r2, wf h f -> wf h g ->
  0 <= ellmax (md f) -> 0 <= ellmax (md g) -> 0 <= product_ell_max f g tr -> wide_enough w (ellmax (md f)) (ellmax (md g)) ->
  multiply w gs gm h f g tr = Ok (h1, r1) -> multiply w gs' gm' h f g (Some Z.add) = Ok (h2, r2) ->
  forall idx l m, at_index (lead (nd r1)) idx -> 0 <= l <= product_ell_max f g tr -> - l <= m <= l ->
  mode h1 r1 idx l m = if l <=? ellmax (md f) + ellmax (md g) then mode h2 r2 idx l m else RtoC 0.
Proof.
  intros w gs gm gs' gm' h f g tr h1 r1 h2 r2 Wf Wg HF HG HL HW E1 E2 idx l m Hi Hl Hm.
  destruct (C25_entries _ _ _ _ _ _ _ _ _ Wf Wg HF HG HL HW E1) as (_ & EL1 & _ & B1 & _ & _ & M1).
  assert (HS : 0 <= product_ell_max f g (Some Z.add)) by (cbn [product_ell_max]; lia).
  destruct (C25_entries _ _ _ _ _ _ _ _ _ Wf Wg HF HG HS HW E2) as (_ & EL2 & _ & B2 & _ & _ & M2).
  rewrite M1 by (rewrite ?EL1; auto).
  destruct (Z.leb_spec l (ellmax (md f) + ellmax (md g))).
  - rewrite M2; [reflexivity| |rewrite EL2; cbn [product_ell_max]; lia|lia]. congruence.
  - apply csum_zero. intros. apply csum_zero. intros. apply csum_zero. intros. rewrite coeff_out by lia. destruct (_ <=? _); ring.
Qed.

Lemma C25_returns_partial :
  forall w gs gm h f g tr, wf h f -> wf h g ->
  0 <= ellmax (md f) -> 0 <= ellmax (md g) -> 0 <= product_ell_max f g tr -> wide_enough w (ellmax (md f)) (ellmax (md g)) ->
  (broadcast (lead (nd f)) (lead (nd g)) = None -> multiply w gs gm h f g tr = Err ValueError)
  /\ (broadcast (lead (nd f)) (lead (nd g)) <> None ->
      (ellmax (md f) <= 7 \/ ellmax (md g) <= 7 \/ (ellmax (md f) - 7) * (ellmax (md g) - 7) < 28 -> exists h' r, multiply w gs gm h f g tr = Ok (h', r))
      /\ ((exists h' r, multiply w gs gm h f g tr = Ok (h', r))
          \/ (multiply w gs gm h f g tr = Err ZeroDivisionError
              /\ exists l1 l2 m n, 0 <= l1 <= ellmax (md f) /\ 0 <= l2 <= ellmax (md g) /\ Z.abs m <= l1 /\ Z.abs n <= l2 /\ late_zero l1 l2 m n))).
Proof.
  intros w gs gm h f g tr Wf Wg HF HG HL HW. split.
  { intros HB. unfold multiply. rewrite (rdcol0 h f), (rdcol0 h g) by auto. cbn [bind]. rewrite HB. reflexivity. }
  intros HB. destruct (broadcast (lead (nd f)) (lead (nd g))) as [sh|] eqn:EB; [|contradiction].
  destruct (multiply_new w gs gm h f g tr sh Wf Wg HF HG HL EB HW) as [(h1 & r1 & E1 & _)|[E1 HBad]].
  - split; eauto.
  - split; [|right; auto]. intros H5. exfalso. destruct HBad as (l1 & l2 & m & n & H1 & H2 & Hm & Hn & LZ).
    apply late_zero_min in LZ; auto. assert ((l1 - 7) * (l2 - 7) <= (ellmax (md f) - 7) * (ellmax (md g) - 7)) by (apply Z.mul_le_mono_nonneg; lia). lia.
Qed.

(** multiplication.multiply on plain arrays *)
Lemma C25_arrays :
  forall w gs gm h f lf Lf sf g lg Lg sg sh, (buf f < next h)%nat -> (buf g < next h)%nat ->
  0 <= lf <= Lf -> 0 <= lg <= Lg -> wid f = LM_total_size lf Lf -> wid g = LM_total_size lg Lg ->
  broadcast (lead f) (lead g) = Some sh -> wide_enough w Lf Lg ->
  (exists h' fg, multiply_arrays w gs gm h f lf Lf sf g lg Lg sg = Ok (h', (fg, 0, Lf + Lg, sf + sg))
     /\ lead fg = sh /\ wid fg = LM_total_size 0 (Lf + Lg) /\ (next h <= buf fg)%nat
     /\ (forall b, (b < next h)%nat -> forall idx k, mem h' b idx k = mem h b idx k)
     /\ forall idx l m, 0 <= l <= Lf + Lg -> - l <= m <= l ->
        mem h' (buf fg) idx (LM_index l m 0)
        = product_weight sf Lf sg Lg (arr_mode (mem h (buf f)) lf (bidx (lead f) idx)) (arr_mode (mem h (buf g)) lg (bidx (lead g) idx)) l m)
  \/ (multiply_arrays w gs gm h f lf Lf sf g lg Lg sg = Err ZeroDivisionError
      /\ exists l1 l2 m n, lf <= l1 <= Lf /\ lg <= l2 <= Lg /\ Z.abs m <= l1 /\ Z.abs n <= l2 /\ late_zero l1 l2 m n).
Proof.
  intros w gs gm h nf lf Lf sf ng lg Lg sg sh Fb Gb HF HG Fw Gw HB HW. unfold multiply_arrays. set (L := Lf + Lg) in *. cbv zeta.
  rewrite (rdcol_ok h nf), (rdcol_ok h ng) by (rewrite ?Fw, ?Gw, LM_total_sqr; nia). cbn [bind]. rewrite HB. rewrite LM_total_sqr.
  replace ((L + 1) ^ 2 - 0 ^ 2) with ((L + 1) ^ 2) by lia.
  destruct (alloc h sh ((L + 1) ^ 2) (fun _ _ => RtoC 0)) as [h1 new] eqn:EA.
  unfold alloc in EA. injection EA as E1 E2.
  assert (M1 : forall b idx k, mem h1 b idx k = if Nat.eqb b (next h) then RtoC 0 else mem h b idx k) by (intros; rewrite <- E1; cbn; destruct (Nat.eqb _ _); auto).
  destruct (mult_helper_acc w nf ng new lf Lf sf lg Lg sg L
             ltac:(lia) ltac:(lia)
             ltac:(intros l m Hl Hm; rewrite Fw; apply LM_index_bounds; lia)
             ltac:(intros l m Hl Hm; rewrite Gw; apply LM_index_bounds; lia)
             ltac:(rewrite <- E2; reflexivity)
             ltac:(rewrite <- E2; cbn [buf]; lia) ltac:(rewrite <- E2; cbn [buf]; lia)
             ltac:(rewrite HB, <- E2; cbn [lead]; apply fits_refl)
             ltac:(intros; eapply wide_ok; eauto; lia)
             (mem h (buf nf)) (mem h (buf ng)) gs gm h1 ltac:(lia)) as [(h2 & EH & (N2 & O2 & D2))|[EH HBad]].
  { intros idx k. rewrite !M1. destruct (Nat.eqb_spec (buf nf) (next h)), (Nat.eqb_spec (buf ng) (next h)); try lia; auto. }
  2:{ right. split; auto. rewrite EH. reflexivity. }
  left. rewrite EH. cbn [bind]. exists h2, new. split; [reflexivity|].
  assert (Bn : buf new = next h) by (rewrite <- E2; reflexivity).
  split; [rewrite <- E2; reflexivity|]. split; [rewrite <- E2; cbn [wid]; lia|]. split; [lia|]. split.
  { intros b Hb idx k. rewrite O2, M1 by lia. destruct (Nat.eqb_spec b (next h)); [lia|reflexivity]. }
  intros idx l m Hl Hm. rewrite D2, M1, Bn, Nat.eqb_refl, Cplus_0_l. rewrite collapse by lia. reflexivity.
Qed.
