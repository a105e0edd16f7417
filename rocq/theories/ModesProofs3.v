(** Evaluation of Modes, construction, truncation, copying, addition with out=, norm. *)
Require Import ZArith Lia List Reals Lra Bool.
From Coquelicot Require Import Complex.
From Verif Require Import Base BaseProofs CBase CSum RSum Fact IndexModel IndexProofs PowersModel DRep WignerModel WignerSpec WignerProofs WignerProofs3 RotorSpec SWSHModel
  SWSHProofs ModesModel ModesSpec ModesProofs ModesProofs2.
Import ListNotations.
Open Scope Z_scope.

(** ** Evaluation *)
Lemma csum_to_csum n f : csum_to n f = csum 0 (Z.of_nat n - 1) f.
Proof.
  induction n as [|n IH]; [reflexivity|]. cbn [csum_to]. rewrite IH, Nat2Z.inj_succ. unfold Z.succ.
  replace (Z.of_nat n + 1 - 1) with (Z.of_nat n) by lia. rewrite (csum_last 0 (Z.of_nat n)) by lia. reflexivity.
Qed.

(** Sum over all (ell, m) with ell <= L. *)
Definition dsum (L : Z) (G : Z -> Z -> C) : C := csum 0 L (fun ell => csum (- ell) ell (G ell)).

Lemma csum_cols L f : 0 <= L -> csum 0 ((L + 1) ^ 2 - 1) f = dsum L (fun ell m => f (ell * ell + (ell + m))).
Proof.
  intros HL. revert L HL. apply (natlike_ind (fun L => csum 0 ((L + 1) ^ 2 - 1) f = dsum L (fun ell m => f (ell * ell + (ell + m))))).
  - unfold dsum. rewrite csum_one. cbn [Z.opp]. rewrite csum_one. replace ((0 + 1) ^ 2 - 1) with 0 by lia. rewrite csum_one. f_equal.
  - intros L HL IH. unfold Z.succ in *. unfold dsum. rewrite (csum_last 0 (L + 1)) by lia. replace (L + 1 - 1) with L by lia.
    fold (dsum L (fun ell m => f (ell * ell + (ell + m)))). rewrite <- IH.
    rewrite (csum_split 0 ((L + 1 + 1) ^ 2 - 1) ((L + 1) ^ 2 - 1)) by nia. f_equal.
    rewrite (csum_shift (- (L + 1)) (L + 1) ((L + 1) * (L + 1) + (L + 1))).
    replace (- (L + 1) + ((L + 1) * (L + 1) + (L + 1))) with ((L + 1) ^ 2 - 1 + 1) by lia.
    replace (L + 1 + ((L + 1) * (L + 1) + (L + 1))) with ((L + 1 + 1) ^ 2 - 1) by lia.
    apply csum_ext. intros i Hi. f_equal. lia.
Qed.

Lemma dsum_ext L F G : (forall ell m, 0 <= ell <= L -> - ell <= m <= ell -> F ell m = G ell m) -> dsum L F = dsum L G.
Proof. intros H. apply csum_ext. intros ell He. apply csum_ext. intros m Hm. apply H; auto. Qed.
Lemma dsum_conj L F : Cconj (dsum L F) = dsum L (fun ell m => Cconj (F ell m)).
Proof. unfold dsum. rewrite csum_conj. apply csum_ext. intros. apply csum_conj. Qed.
Lemma dsum_flip L F : dsum L F = dsum L (fun ell m => F ell (- m)).
Proof. apply csum_ext. intros ell He. rewrite csum_rev. rewrite Z.opp_involutive. reflexivity. Qed.
Lemma dsum_plus L F G : dsum L (fun ell m => F ell m + G ell m)%C = (dsum L F + dsum L G)%C.
Proof. unfold dsum. rewrite <- csum_plus. apply csum_ext. intros. apply csum_plus. Qed.
Lemma dsum_minus L F G : dsum L (fun ell m => F ell m - G ell m)%C = (dsum L F - dsum L G)%C.
Proof. unfold dsum. rewrite <- csum_minus. apply csum_ext. intros. apply csum_minus. Qed.
Lemma dsum_scal L c F : dsum L (fun ell m => c * F ell m)%C = (c * dsum L F)%C.
Proof. unfold dsum. rewrite <- csum_scal. apply csum_ext. intros. apply csum_scal. Qed.
Lemma dsum_extend L L' F : L <= L' -> (forall ell m, L < ell <= L' -> F ell m = RtoC 0) -> dsum L' F = dsum L F.
Proof.
  intros H HZ. unfold dsum. symmetry. apply csum_widen; try lia. intros ell He [H1|H1]; [lia|].
  apply csum_zero. intros. apply HZ. lia.
Qed.

(** The value of the function with mode weights [w]. *)
Definition fvalue (s L : Z) (w : Z -> Z -> C) (q : quat) : C :=
  dsum L (fun ell m => w ell m * SWSH_value s ell m (qa q) (qb q))%C.

Lemma evaluate_ok Lt tab g h m Rs : is_Wigner_table Lt tab -> wf h m -> 0 <= ellmax (md m) <= Lt -> 0 < alen Rs ->
  (forall i, 0 <= i < alen Rs -> rotor (aget Rs i)) ->
  exists E, evaluate tab g h m Rs = Ok E
    /\ forall idx i, 0 <= i < alen Rs -> E idx i = fvalue (spin (md m)) (ellmax (md m)) (mode h m idx) (aget Rs i).
Proof.
  intros Ht (Wb & Ww & Wz) HL Hlen HR. unfold evaluate.
  destruct (SWSH_grid_ok Lt tab g Rs (spin (md m)) (ellmax (md m)) Ht HL Hlen HR) as (out & E & Er & Ec & HV).
  rewrite E. cbn [bind]. unfold ell_min_of. rewrite !LM_col. replace (0 * 0 + (0 + - 0)) with 0 by lia.
  set (L := ellmax (md m)) in *. rewrite LM_total_sqr in Ec.
  replace (L * L + (L + L) + 1) with ((L + 1) ^ 2) by lia.
  destruct (slice_full (ncol out) 0 ((L + 1) ^ 2) ltac:(lia) ltac:(nia)) as (Ecl & Esl). rewrite Esl, Ecl, Ww.
  replace ((L + 1) ^ 2 - 0) with ((L + 1) ^ 2) by lia. rewrite Z.eqb_refl. cbn [negb]. eexists. split; [reflexivity|].
  intros idx i Hi. cbv beta. rewrite csum_to_csum, Z2Nat.id by nia. rewrite csum_cols by lia. unfold fvalue.
  apply dsum_ext. intros ell mm He Hm. unfold mode. f_equal. replace (0 + (ell * ell + (ell + mm))) with (LM_index ell mm 0) by (rewrite LM_col; lia).
  apply HV; auto.
Qed.

Lemma value_at_fvalue Lt tab h m q : is_Wigner_table Lt tab -> wf h m -> 0 <= ellmax (md m) <= Lt -> rotor q ->
  value_at tab h m q (fun idx => fvalue (spin (md m)) (ellmax (md m)) (mode h m idx) q).
Proof.
  intros Ht W HL HR g. destruct (evaluate_ok Lt tab g h m (mkarr 1 (fun _ => q)) Ht W HL) as (E & EE & HE); cbn [alen aget]; try lia; auto.
  exists E. split; auto. intros idx _. rewrite HE by (cbn [alen]; lia). reflexivity.
Qed.

Lemma value_at_new Lt tab h0 h r s L ld w q : is_Wigner_table Lt tab -> new_modes h0 h r s L ld w -> 0 <= L <= Lt -> rotor q ->
  value_at tab h r q (fun idx => fvalue s L (w idx) q).
Proof.
  intros Ht (_ & _ & _ & Es & EL & El & Wf & M) HL HR g.
  destruct (value_at_fvalue Lt tab h r q Ht Wf ltac:(lia) HR g) as (E & EE & HE). exists E. split; auto. intros idx Hi.
  rewrite HE by auto. rewrite Es, EL. unfold fvalue. apply dsum_ext. intros ell mm He Hm. rewrite M; auto. rewrite <- El. auto.
Qed.

Lemma value_at_fun tab h m q F G : value_at tab h m q F -> value_at tab h m q G ->
  forall idx, at_index (lead (nd m)) idx -> F idx = G idx.
Proof.
  intros HF HG idx Hi. destruct (HF (fun _ => (0, 0))) as (E & EE & A). destruct (HG (fun _ => (0, 0))) as (E' & EE' & B).
  rewrite EE in EE'. apply Ok_inj in EE'. subst E'. rewrite <- A, <- B by auto. reflexivity.
Qed.
Lemma value_at_ext tab h m q F G : (forall idx, at_index (lead (nd m)) idx -> F idx = G idx) -> value_at tab h m q F -> value_at tab h m q G.
Proof. intros H V g. destruct (V g) as (E & EE & A). exists E. split; auto. intros. rewrite <- H by auto. auto. Qed.

Lemma SWSH_value_conj s ell m a b : Cconj (SWSH_value s ell m a b) = (RtoC (sgn (s + m)) * SWSH_value (- s) ell (- m) a b)%C.
Proof.
  destruct (Z_le_gt_dec (Z.abs m) ell), (Z_le_gt_dec (Z.abs s) ell).
  - rewrite !SWSH_value_in by lia. rewrite !Cconj_mult, !Cconj_RtoC.
    pose proof (Dv_neg a b ell m (- s) ltac:(lia) ltac:(lia)) as H. rewrite H.
    replace (- s + m)%Z with (s + m + 2 * (- s))%Z by lia. rewrite (sgn_add (s + m)), sgn_double, sgn_opp, Rmult_1_r.
    transitivity (RtoC (sgn (s + m) * sgn (s + m)) * (RtoC (sgn s) * RtoC (swsh_norm ell) * Cconj (Dv a b ell m (- s))))%C.
    { rewrite sgn_sqr. ring. } rewrite RtoC_mult. ring.
  - unfold SWSH_value. rewrite !Z.abs_opp. replace (Z.abs s <=? ell)%Z with false by (symmetry; apply Z.leb_gt; lia).
    rewrite !andb_false_r, Cconj_RtoC. ring.
  - unfold SWSH_value. rewrite !Z.abs_opp. replace (Z.abs m <=? ell)%Z with false by (symmetry; apply Z.leb_gt; lia).
    cbn [andb]. rewrite Cconj_RtoC. ring.
  - unfold SWSH_value. rewrite !Z.abs_opp. replace (Z.abs m <=? ell)%Z with false by (symmetry; apply Z.leb_gt; lia).
    cbn [andb]. rewrite Cconj_RtoC. ring.
Qed.

Lemma Csgn_sqr k : (RtoC (sgn k) * RtoC (sgn k))%C = RtoC 1.
Proof. rewrite <- RtoC_mult, sgn_sqr. reflexivity. Qed.

Lemma fvalue_conj s L (w : Z -> Z -> C) q :
  fvalue (- s) L (fun ell mm => RtoC (sgn (s + mm)) * Cconj (w ell (- mm)%Z))%C q = Cconj (fvalue s L w q).
Proof.
  unfold fvalue. rewrite dsum_conj, (dsum_flip L (fun ell m => Cconj _)). apply dsum_ext. intros ell m He Hm.
  rewrite Cconj_mult, SWSH_value_conj, Z.opp_involutive.
  replace (sgn (s + - m)) with (sgn (s + m)) by (rewrite !sgn_add, sgn_opp; reflexivity). ring.
Qed.

Lemma fvalue_ext s L v w q : (forall ell mm, 0 <= ell <= L -> - ell <= mm <= ell -> v ell mm = w ell mm) -> fvalue s L v q = fvalue s L w q.
Proof. intros H. apply dsum_ext. intros. rewrite H by auto. reflexivity. Qed.
Lemma fvalue_lin s L (c d : C) v w q : fvalue s L (fun ell mm => c * v ell mm + d * w ell mm)%C q = (c * fvalue s L v q + d * fvalue s L w q)%C.
Proof. unfold fvalue. rewrite <- !dsum_scal, <- dsum_plus. apply dsum_ext. intros. ring. Qed.
Lemma fvalue_extend s L L' w q : L <= L' -> fvalue s L w q = fvalue s L' (fun ell mm => if ell <=? L then w ell mm else RtoC 0) q.
Proof.
  intros H. unfold fvalue. rewrite (dsum_extend L L') by (auto; intros ell m He; replace (ell <=? L) with false by (symmetry; apply Z.leb_gt; lia); ring).
  apply dsum_ext. intros ell m He Hm. replace (ell <=? L) with true by (symmetry; apply Z.leb_le; lia). reflexivity.
Qed.

Lemma fvalue_real L (w : Z -> Z -> C) q :
  fvalue 0 L (fun ell mm => (w ell mm + RtoC (sgn mm) * Cconj (w ell (- mm)%Z)) / RtoC 2)%C q = RtoC (Re (fvalue 0 L w q)).
Proof.
  rewrite RtoC_half_re, <- fvalue_conj.
  rewrite (fvalue_ext 0 L _ (fun ell mm => / RtoC 2 * w ell mm + / RtoC 2 * (RtoC (sgn (0 + mm)) * Cconj (w ell (- mm)%Z)))%C).
  - rewrite fvalue_lin. cbn [Z.opp]. unfold Cdiv. ring.
  - intros. rewrite Z.add_0_l. unfold Cdiv. ring.
Qed.
Lemma fvalue_imag L (w : Z -> Z -> C) q :
  fvalue 0 L (fun ell mm => - Ci * (w ell mm - RtoC (sgn mm) * Cconj (w ell (- mm)%Z)) / RtoC 2)%C q = RtoC (Im (fvalue 0 L w q)).
Proof.
  rewrite RtoC_half_im, <- fvalue_conj.
  rewrite (fvalue_ext 0 L _ (fun ell mm => (- Ci * / RtoC 2) * w ell mm + (Ci * / RtoC 2) * (RtoC (sgn (0 + mm)) * Cconj (w ell (- mm)%Z)))%C).
  - rewrite fvalue_lin. cbn [Z.opp]. unfold Cdiv. ring.
  - intros. rewrite Z.add_0_l. unfold Cdiv. ring.
Qed.

(** Leading indices of a broadcast. *)
Lemma bidx_in a : forall c idx, broadcast a c = Some c -> at_index c idx -> at_index a (bidx a idx).
Proof.
  induction a as [|x a IH]; intros c idx HB HI; [constructor|]. destruct c as [|y c]; [discriminate|].
  inversion HI as [|? i ? idx' Hi HI']; subst. cbn [broadcast] in HB. destruct (broadcast a c) as [d|] eqn:E; [|discriminate].
  cbn [bidx].
  destruct (Z.eqb_spec x y) as [->|Hn].
  - inversion HB; subst. constructor; [destruct (Z.eqb_spec y 1); lia|]. eapply IH; eauto.
  - destruct (Z.eqb_spec x 1) as [->|H1].
    + inversion HB; subst. constructor; [lia|]. eapply IH; eauto.
    + destruct (y =? 1); [|discriminate]. inversion HB. subst. contradiction.
Qed.

(** ** The constructor *)
Lemma Modes_new_ok h a s l L trunc : (buf a < next h)%nat -> 0 <= l -> wid a = LM_total_size l L ->
  exists h' r, Modes_new h (InArr a) None [s; l; L] (mkkw None None None trunc) = Ok (h', r)
    /\ md r = mkmeta s L trunc /\ lead (nd r) = lead a /\ wf h' r
    /\ (forall idx ell mm, 0 <= ell <= L -> - ell <= mm <= ell ->
         mode h' r idx ell mm = if (l <=? ell) && (Z.abs s <=? ell) then mem h (buf a) idx (LM_index ell mm l) else RtoC 0)
    /\ (0 < l -> (next h <= buf (nd r))%nat /\ (next h <= next h')%nat /\ forall b, (b < next h)%nat -> forall idx k, mem h' b idx k = mem h b idx k)
    /\ (l = 0 -> nd r = a /\ changes_only (buf a) h h').
Proof.
  intros Ha Hl HW. unfold Modes_new. cbn [positional bind kw_spin kw_ell_min kw_ell_max kw_trunc orelse option_map].
  replace (wid a =? LM_total_size l L) with true by (symmetry; apply Z.eqb_eq; auto). cbn [negb]. rewrite LM_total_sqr in HW.
  destruct (Z.eqb_spec l 0) as [->|Hl0].
  - destruct (construct_ok h a (mkmeta s L trunc)) as (h' & E & N & K & D); [cbn [ellmax]; lia|].
    unfold construct, Modes_new, kw_of in E. cbn [positional bind kw_spin kw_ell_min kw_ell_max kw_trunc orelse option_map spin ellmax truncator] in E.
    rewrite HW, LM_total_sqr, Z.eqb_refl in E. cbn [negb] in E. rewrite Z.eqb_refl in E.
    exists h', (mkmodes a (mkmeta s L trunc)). split; [|split; [reflexivity|]; split; [reflexivity|]; split; [|split; [|split]]].
    + apply Ok_inj in E. inversion E. destruct trunc; reflexivity.
    + split; [cbn [nd]; lia|]. split; [cbn [nd md ellmax]; lia|]. cbn [md ellmax spin nd] in *. intros. unfold mode. cbn [nd]. rewrite D by auto.
      replace (ell <? Z.abs s) with true by (symmetry; apply Z.ltb_lt; lia). reflexivity.
    + cbn [md ellmax spin nd] in *. intros idx ell mm He Hm. unfold mode. cbn [nd]. rewrite D by auto.
      replace (0 <=? ell) with true by (symmetry; apply Z.leb_le; lia). cbn [andb]. rewrite LM_col.
      destruct (Z.ltb_spec ell (Z.abs s)); [replace (Z.abs s <=? ell) with false by (symmetry; apply Z.leb_gt; lia)|replace (Z.abs s <=? ell) with true by (symmetry; apply Z.leb_le; lia)]; reflexivity.
    + lia.
    + intros _. split; [reflexivity|]. split; [exact N|intros; apply K; auto].
  - set (k := LM_total_size 0 (l - 1)). assert (Ek : k = l * l) by (unfold k; rewrite LM_total_sqr; lia).
    match goal with |- context [alloc h ?ld ?w ?d] => pose proof (alloc_get_new h ld w d) as Hnew; pose proof (alloc_get_old h ld w d) as Hold;
      destruct (alloc h ld w d) as [h1 o] eqn:EA end. cbn [fst] in *.
    assert (Eo : o = mknd (next h) (lead a) (k + wid a) /\ next h1 = S (next h)) by (inversion EA; split; reflexivity). destruct Eo as [-> Hn].
    set (o := mknd (next h) (lead a) (k + wid a)).
    assert (Wo : wid o = (L + 1) ^ 2) by (cbn [wid o]; lia).
    destruct (construct_ok h1 o (mkmeta s L trunc) Wo) as (h' & E & N & K & D).
    unfold construct, Modes_new, kw_of in E. cbn [positional bind kw_spin kw_ell_min kw_ell_max kw_trunc orelse option_map spin ellmax truncator] in E.
    replace (wid o =? LM_total_size 0 L) with true in E by (symmetry; apply Z.eqb_eq; rewrite LM_total_sqr; lia). cbn [negb] in E. rewrite Z.eqb_refl in E.
    cbn [buf o md ellmax spin nd] in *.
    exists h', (mkmodes o (mkmeta s L trunc)). split; [|split; [reflexivity|]; split; [reflexivity|]; split; [|split; [|split]]].
    + apply Ok_inj in E. inversion E. destruct trunc; reflexivity.
    + split; [cbn [nd buf o]; lia|]. split; [exact Wo|]. cbn [md ellmax spin nd buf o] in *. intros. unfold mode. cbn [nd buf o]. rewrite D by auto.
      replace (ell <? Z.abs s) with true by (symmetry; apply Z.ltb_lt; lia). reflexivity.
    + intros idx ell mm He Hm. unfold mode. cbn [nd buf o]. rewrite D, Hnew by auto. rewrite Ek.
      destruct (Z.ltb_spec ell (Z.abs s)).
      { replace (Z.abs s <=? ell) with false by (symmetry; apply Z.leb_gt; lia). rewrite andb_false_r. reflexivity. }
      replace (Z.abs s <=? ell) with true by (symmetry; apply Z.leb_le; lia). rewrite andb_true_r.
      destruct (Z.leb_spec l ell).
      * replace (ell * ell + (ell + mm) <? l * l) with false by (symmetry; apply Z.ltb_ge; nia). f_equal. unfold LM_index. lia.
      * replace (ell * ell + (ell + mm) <? l * l) with true by (symmetry; apply Z.ltb_lt; nia). reflexivity.
    + intros _. split; [cbn [nd buf o]; lia|]. split; [lia|]. intros b Hb idx k'. rewrite K by lia. rewrite Hold by lia. reflexivity.
    + lia.
Qed.

Lemma Modes_new_bad h a s l L trunc : wid a <> LM_total_size l L ->
  Modes_new h (InArr a) None [s; l; L] (mkkw None None None trunc) = Err ValueError.
Proof.
  intros H. unfold Modes_new. cbn [positional bind kw_spin kw_ell_min kw_ell_max kw_trunc orelse option_map].
  destruct (Z.eqb_spec (wid a) (LM_total_size l L)); [contradiction|reflexivity].
Qed.

(** ** Truncation, copying *)
Lemma truncate_ok h m L' : wf h m -> Z.abs (spin (md m)) <= L' < ellmax (md m) ->
  exists r, truncate_ell m L' = Ok r /\ wf h r /\ spin (md r) = spin (md m) /\ ellmax (md r) = L'
    /\ lead (nd r) = lead (nd m) /\ buf (nd r) = buf (nd m) /\ truncator (md r) = truncator (md m).
Proof.
  intros (Wb & Ww & Wz) HL. unfold truncate_ell.
  replace (L' >=? ellmax (md m)) with false by (symmetry; rewrite Z.geb_leb; apply Z.leb_gt; lia).
  rewrite index_ok by lia. cbn [bind]. eexists. split; [reflexivity|].
  replace (L' * L' + (L' + L') + 1) with ((L' + 1) ^ 2) by lia.
  destruct (slice_full (wid (nd m)) 0 ((L' + 1) ^ 2) ltac:(lia) ltac:(nia)) as (Ec & El).
  split; [|repeat split].
  split; [exact Wb|]. cbn [nd md wid ellmax spin]. split; [rewrite El; lia|].
  intros. unfold mode. cbn [nd buf]. apply Wz; lia.
Qed.

Lemma copy_ok h m : wf h m -> let '(h', r) := copy h m in
  new_modes h h' r (spin (md m)) (ellmax (md m)) (lead (nd m)) (mode h m) /\ md r = md m.
Proof.
  intros (Wb & Ww & Wz). pose proof (copy_facts h m) as CF. destruct (copy h m) as [h1 d].
  destruct CF as (N1 & -> & K1 & D1). split; [|reflexivity]. cbn [md].
  set (a := mknd (next h) (lead (nd m)) (wid (nd m))). change (lead (nd m)) with (lead a).
  apply new_of; unfold a; cbn [buf wid lead]; auto.
  - lia.
  - intros. rewrite K1 by lia. reflexivity.
  - intros. rewrite D1. reflexivity.
  - intros. rewrite D1. split; apply Wz; auto.
Qed.
