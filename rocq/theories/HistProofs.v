(** Every Modes object a program can reach is well formed (proof for P_Hist.v). *)
Require Import ZArith List Reals Bool Lia Lra.
From Coquelicot Require Import Complex.
From Verif Require Import Base BaseProofs CBase IndexModel DRep WignerModel SWSHModel Wigner3jModel Wigner3jProps ModesModel ModesSpec
  ModesProofs ModesProofs2 ModesProofs3 MultModel HistSpec.
Import ListNotations.
Open Scope Z_scope.

(** A whole ell block that is zero stays zero. *)
Definition keeps (h h' : heap) : Prop :=
  (next h <= next h')%nat /\
  forall b idx ell, (b < next h)%nat -> 0 <= ell ->
    (forall mm, - ell <= mm <= ell -> mem h b idx (ell * ell + (ell + mm)) = RtoC 0) ->
    forall mm, - ell <= mm <= ell -> mem h' b idx (ell * ell + (ell + mm)) = RtoC 0.

Lemma keeps_refl h : keeps h h.
Proof. split; [lia|auto]. Qed.
Lemma keeps_trans a b c : keeps a b -> keeps b c -> keeps a c.
Proof.
  intros (N1 & K1) (N2 & K2). split; [lia|]. intros x idx ell Hx He Z0. apply K2; auto. lia.
Qed.
Lemma keeps_wf h h' m : keeps h h' -> wf h m -> wf h' m.
Proof.
  intros (N & K) (Wb & Ww & Wz). split; [lia|]. split; auto. intros idx ell mm He Hs Hm. unfold mode.
  apply K; auto; [lia|]. intros. apply Wz; auto.
Qed.
Lemma keeps_old h h' : (next h <= next h')%nat -> (forall b, (b < next h)%nat -> forall idx k, mem h' b idx k = mem h b idx k) -> keeps h h'.
Proof. intros N H. split; auto. intros b idx ell Hb He Z0 mm Hm. rewrite H; auto. Qed.
Lemma keeps_alloc h ld w d : keeps h (fst (alloc h ld w d)).
Proof. apply keeps_old; [cbn; lia|]. intros. rewrite alloc_get_old; auto. lia. Qed.
Lemma new_keeps h h' r s L ld F : new_modes h h' r s L ld F -> keeps h h' /\ wf h' r.
Proof. intros (N & O & _ & _ & _ & _ & W & _). split; auto. apply keeps_old; auto. Qed.
Lemma keeps_zero h a i j : keeps h (wrslice h a i j (fun _ _ => RtoC 0)).
Proof.
  split; [cbn; lia|]. intros b idx ell Hb He Z0 mm Hm. rewrite wrslice_get. destruct (_ && _); auto.
Qed.
Lemma blocks_keeps c a b G h h' : 0 <= a -> blocks c a b blk (F_at G (mem h c)) h h' -> (forall m, G m (RtoC 0) (RtoC 0) = RtoC 0) -> keeps h h'.
Proof.
  intros Ha (N & B & O) H0. split; [lia|]. intros x idx ell Hx He Z0 mm Hm.
  destruct (Nat.eq_dec x c) as [->|Hc].
  - destruct (Z_le_gt_dec a ell) as [H1|H1]; [destruct (Z_lt_ge_dec ell b) as [H2|H2]|].
    + rewrite (B ell) by (try apply blk_col; lia). rewrite F_at_col. rewrite !Z0 by lia. apply H0.
    + rewrite O; auto. right. intros i Hi Hb. pose proof (blk_inj i ell _ ltac:(lia) He Hb (blk_col ell mm Hm)). lia.
    + rewrite O; auto. right. intros i Hi Hb. pose proof (blk_inj i ell _ ltac:(lia) He Hb (blk_col ell mm Hm)). lia.
  - rewrite O; auto.
Qed.

Lemma zero_below h a s L : wid a = (L + 1) ^ 2 -> forall idx ell mm, 0 <= ell <= L -> ell < Z.abs s -> - ell <= mm <= ell ->
  mem (wrslice h a 0 (LM_total_size 0 (Z.abs s - 1)) (fun _ _ => RtoC 0)) (buf a) idx (ell * ell + (ell + mm)) = RtoC 0.
Proof.
  intros Hw idx ell mm He Hs Hm. destruct (construct_ok h a (mkmeta s L None) Hw) as (h' & E & _ & _ & V).
  specialize (V idx ell mm He Hm). cbn [spin] in V. destruct (Z.ltb_spec ell (Z.abs s)); [|lia].
  unfold construct, Modes_new, kw_of in E. cbn [positional bind kw_spin kw_ell_min kw_ell_max kw_trunc orelse option_map spin ellmax] in E.
  rewrite LM_total_sqr, Hw in E. replace ((L + 1) ^ 2 - 0 ^ 2) with ((L + 1) ^ 2) in E by lia. rewrite Z.eqb_refl in E. cbn [negb] in E. rewrite Z.eqb_refl in E.
  apply Ok_inj in E. injection E as <-. exact V.
Qed.

Lemma Modes_new_keeps h a im args kw h' r : (buf a < next h)%nat -> Modes_new h (InArr a) im args kw = Ok (h', r) ->
  keeps h h' /\ wf h' r.
Proof.
  intros Hb E. unfold Modes_new in E. apply bind_ok in E. destruct E as (k1 & _ & E).
  destruct (orelse (kw_spin k1) (option_map spin im)) as [s|]; [|discriminate].
  apply bind_ok in E. destruct E as (L & _ & E). set (l := match kw_ell_min k1 with Some l => l | None => 0 end) in *.
  destruct (Z.eqb_spec (wid a) (LM_total_size l L)) as [Hw|]; [cbn [negb] in E|discriminate].
  rewrite LM_total_sqr in Hw. destruct (Z.eqb_spec l 0) as [Hl|Hl].
  - apply Ok_inj in E. injection E as <- <-. split; [apply keeps_zero|].
    assert (W : wid a = (L + 1) ^ 2) by (rewrite Hw, Hl; lia).
    split; [cbn; lia|]. split; [exact W|]. intros. unfold mode. cbn [nd buf md spin ellmax] in *. apply (zero_below h a s L W); auto.
  - destruct (alloc h _ _ _) as [h1 obj] eqn:EA. apply Ok_inj in E. injection E as <- <-.
    assert (K : keeps h h1) by (pose proof (keeps_alloc h (lead a) (LM_total_size 0 (l - 1) + wid a)
      (fun idx c => if c <? LM_total_size 0 (l - 1) then RtoC 0 else mem h (buf a) idx (c - LM_total_size 0 (l - 1)))) as K; rewrite EA in K; exact K).
    unfold alloc in EA. injection EA as <- <-.
    split; [eapply keeps_trans; [exact K|apply keeps_zero]|].
    set (o := mknd _ _ _). assert (W : wid o = (L + 1) ^ 2) by (unfold o; cbn [wid]; rewrite LM_total_sqr, Hw; replace (l - 1 + 1) with l by lia; lia).
    split; [cbn; lia|]. split; [exact W|]. intros. unfold mode. cbn [nd md spin ellmax] in *. apply (zero_below _ o s L W); auto.
Qed.
Lemma construct_keeps h a m h' r : (buf a < next h)%nat -> construct h a m = Ok (h', r) -> keeps h h' /\ wf h' r.
Proof. apply Modes_new_keeps. Qed.

(** Operations that write into a buffer allocated after [h0]. *)
Definition above (h0 h h' : heap) : Prop :=
  next h' = next h /\ forall b, (b < next h0)%nat -> forall idx k, mem h' b idx k = mem h b idx k.
Lemma above_refl h0 h : above h0 h h.
Proof. split; auto. Qed.
Lemma above_trans h0 a b c : above h0 a b -> above h0 b c -> above h0 a c.
Proof. intros (N1 & O1) (N2 & O2). split; [congruence|]. intros. rewrite O2, O1; auto. Qed.

Lemma assign_above h0 h r i j bl bw bv op h' : (next h0 <= buf r)%nat -> assign_slice h r i j bl bw bv op = Ok h' -> above h0 h h'.
Proof.
  intros Hr E. unfold assign_slice in E. destruct (broadcasts_to _ _); [|discriminate]. apply Ok_inj in E. subst h'.
  split; [reflexivity|]. intros b Hb idx k. rewrite wrslice_get. destruct (Nat.eqb_spec b (buf r)); [lia|reflexivity].
Qed.
Lemma wrcol_nb_above h0 h r i v h' : (next h0 <= buf r)%nat -> wrcol_nb h r i v = Ok h' -> above h0 h h'.
Proof.
  unfold wrcol_nb, wrcol. intros Hr E. destruct (col_index _ _) as [j|]; cbn [bind] in E; [|discriminate]. apply Ok_inj in E. subst h'.
  split; [reflexivity|]. intros b Hb idx k. cbn [mem]. destruct (Nat.eqb_spec b (buf r)); [lia|reflexivity].
Qed.
Lemma addcol_above h0 h r i lf lg e h' : (next h0 <= buf r)%nat -> addcol h r i lf lg e = Ok h' -> above h0 h h'.
Proof.
  unfold addcol. intros Hr E. destruct (fits _ _); [|discriminate]. apply bind_ok in E. destruct E as (old & _ & E).
  eapply wrcol_nb_above; eauto.
Qed.
Lemma mult_helper_above h0 w gs gm h f a1 a2 a3 g b1 b2 b3 fg c1 c2 c3 h' : (next h0 <= buf fg)%nat ->
  mult_helper w gs gm h f a1 a2 a3 g b1 b2 b3 fg c1 c2 c3 = Ok h' -> above h0 h h'.
Proof.
  intros Hr E. unfold mult_helper in E. apply bind_ok in E. destruct E as (sc & _ & E). apply bind_ok in E. destruct E as (mc & _ & E).
  apply bind_ok in E. destruct E as ([[h1 x] y] & E & E'). apply Ok_inj in E'. subst h1.
  unfold for_range at 1 in E. apply (for_loop_pres (fun st => above h0 h (fst (fst st)))) in E; [exact E| |apply above_refl].
  clear E. intros ell1 st r Hs E. cbv beta zeta in E.
  unfold for_range at 1 in E. apply (for_loop_pres (fun st => above h0 h (fst (fst st)))) in E; [exact E| |exact Hs].
  clear st r Hs E. intros m1 st r Hs E. cbv beta zeta in E. apply bind_ok in E. destruct E as (f1 & _ & E).
  unfold for_range at 1 in E. apply (for_loop_pres (fun st => above h0 h (fst (fst st)))) in E; [exact E| |exact Hs].
  clear st r Hs E. intros ell2 [[h2 sc2] mc2] r Hs E. cbn [fst] in Hs. cbv beta zeta in E. apply bind_ok in E. destruct E as (sc3 & _ & E).
  apply bind_ok in E. destruct E as ([h3 mc3] & E & E'). apply Ok_inj in E'. subst r. cbn [fst].
  change h3 with (fst (h3, mc3)).
  unfold for_range at 1 in E. apply (for_loop_pres (fun st => above h0 h (fst st))) in E; [exact E| |exact Hs].
  clear E h2 h3 Hs mc2 mc3. intros m2 [h2 mc2] r Hs E. cbn [fst] in Hs. cbv beta zeta in E. apply bind_ok in E. destruct E as (mc3 & _ & E).
  apply bind_ok in E. destruct E as (g2 & _ & E). apply bind_ok in E. destruct E as (h3 & E & E'). apply Ok_inj in E'. subst r. cbn [fst].
  unfold for_range at 1 in E. apply (for_loop_pres (fun st => above h0 h st)) in E; [exact E| |exact Hs].
  clear E h2 h3 Hs. intros ell3 h2 r Hs E. cbv beta zeta in E. apply bind_ok in E. destruct E as (ws & _ & E).
  apply bind_ok in E. destruct E as (wm & _ & E). eapply above_trans; [exact Hs|]. eapply addcol_above; eauto.
Qed.
Lemma above_keeps h h1 h2 : keeps h h1 -> (forall b, (b < next h)%nat -> forall idx k, mem h1 b idx k = mem h b idx k) -> above h h1 h2 -> keeps h h2.
Proof. intros (N & _) O (N2 & O2). apply keeps_old; [lia|]. intros. rewrite O2, O; auto. Qed.

Lemma add_keeps h f g sub h' r : add h f g sub = Ok (h', r) -> keeps h h' /\ wf h' r.
Proof.
  unfold add. intros E. destruct (negb _); [discriminate|]. apply bind_ok in E. destruct E as (? & _ & E). apply bind_ok in E. destruct E as (? & _ & E).
  destruct (broadcast _ _) as [sh|]; [|discriminate].
  match type of E with context [alloc h ?l ?w ?d] => pose proof (keeps_alloc h l w d) as K; pose proof (fun b => alloc_get_old h l w d b) as O;
    destruct (alloc h l w d) as [h1 rs] eqn:EA end.
  unfold alloc in EA. apply pair_equal_spec in EA. destruct EA as (EA1 & EA2). cbn [fst] in *.
  apply bind_ok in E. destruct E as (h2 & E1 & E).
  assert (A : above h h1 h2).
  { unfold add_into in E1. apply bind_ok in E1. destruct E1 as (h3 & E1 & E2).
    eapply above_trans; eapply assign_above; [|exact E1| |exact E2]; subst rs; cbn [buf]; lia. }
  apply construct_keeps in E. 2:{ destruct A as (-> & _). subst rs h1. cbn. lia. }
  destruct E as (K2 & W). split; auto. eapply keeps_trans; [|exact K2]. eapply above_keeps; [exact K| |exact A].
  intros. rewrite O; auto. lia.
Qed.
Lemma multiply_keeps w gs gm h f g tr h' r : multiply w gs gm h f g tr = Ok (h', r) -> keeps h h' /\ wf h' r.
Proof.
  unfold multiply. cbv zeta. intros E. apply bind_ok in E. destruct E as (? & _ & E). apply bind_ok in E. destruct E as (? & _ & E).
  destruct (broadcast _ _) as [sh|]; [|discriminate].
  match type of E with context [alloc h ?l ?w ?d] => pose proof (keeps_alloc h l w d) as K; pose proof (fun b => alloc_get_old h l w d b) as O;
    destruct (alloc h l w d) as [h1 rs] eqn:EA end.
  unfold alloc in EA. apply pair_equal_spec in EA. destruct EA as (EA1 & EA2). cbn [fst] in *.
  apply bind_ok in E. destruct E as (h2 & E1 & E).
  assert (A : above h h1 h2) by (eapply mult_helper_above; [|exact E1]; subst rs; cbn [buf]; lia).
  apply construct_keeps in E. 2:{ destruct A as (-> & _). subst rs h1. cbn. lia. }
  destruct E as (K2 & W). split; auto. eapply keeps_trans; [|exact K2]. eapply above_keeps; [exact K| |exact A].
  intros. rewrite O; auto. lia.
Qed.
Lemma scalar_keeps op h f x h' r : scalar_op op h f x = Ok (h', r) -> keeps h h' /\ wf h' r.
Proof.
  unfold scalar_op. intros E. apply bind_ok in E. destruct E as ([] & _ & E); cbn [negb] in E; [|discriminate].
  destruct (broadcast _ _) as [sh|]; [|discriminate].
  match type of E with context [alloc h ?l ?w ?d] => pose proof (keeps_alloc h l w d) as K; destruct (alloc h l w d) as [h1 rs] eqn:EA end.
  unfold alloc in EA. apply pair_equal_spec in EA. destruct EA as (EA1 & EA2). cbn [fst] in *.
  apply construct_keeps in E. 2:{ subst rs h1. cbn. lia. }
  destruct E as (K2 & W). split; auto. eapply keeps_trans; eauto.
Qed.

Lemma scalar_ops_keep op h m x h' r : In op scalar_ops -> op h m x = Ok (h', r) -> keeps h h' /\ wf h' r.
Proof.
  unfold scalar_ops. cbn [In]. intros H E.
  repeat match type of H with _ \/ _ => destruct H as [<-|H] end; try contradiction; cbv beta in E.
  - eapply scalar_keeps; exact E.
  - eapply scalar_keeps; exact E.
  - unfold multiply_scalar in E. apply bind_ok in E. destruct E as ([] & EC & E); [eapply scalar_keeps; exact E|].
    rewrite EC in E. cbn [bind] in E. discriminate.
  - unfold add_scalar in E. destruct (np_any x); [discriminate|]. eapply scalar_keeps; exact E.
  - unfold add_scalar in E. destruct (np_any x); [discriminate|]. eapply scalar_keeps; exact E.
  - unfold add_scalar in E. destruct (np_any x); [discriminate|]. eapply scalar_keeps; exact E.
  - unfold add_method_scalar, add_scalar in E. destruct (np_any x); [discriminate|]. eapply scalar_keeps; exact E.
  - unfold add_method_scalar, add_scalar in E. destruct (np_any x); [discriminate|]. eapply scalar_keeps; exact E.
Qed.

Ltac by_new L := let h1 := fresh in let r1 := fresh in let E1 := fresh in let N := fresh in
  edestruct L as (h1 & r1 & E1 & N & _); [eassumption|]; rewrite E1 in *;
  match goal with E : Ok _ = Ok _ |- _ => apply Ok_inj in E; injection E as <- <- end; eapply new_keeps; exact N.
Lemma unary_ops_keep op h m h' r : In op unary_ops -> wf h m -> op h m = Ok (h', r) -> keeps h h' /\ wf h' r.
Proof.
  unfold unary_ops. cbn [In]. intros H W E.
  repeat match type of H with _ \/ _ => destruct H as [<-|H] end; try contradiction; unfold Rsquared, eth in E.
  - by_new Lsquared_new.
  - by_new Lz_new.
  - by_new Lplus_new.
  - by_new Lminus_new.
  - by_new Lsquared_new.
  - by_new Rz_new.
  - by_new Rplus_new.
  - by_new Rminus_new.
  - by_new Rminus_new.
  - by_new ethbar_new.
  - by_new negative_new.
Qed.

Lemma truncate_wf h m L r : wf h m -> truncate_ell m L = Ok r -> wf h r.
Proof.
  intros W E. destruct (Z_lt_ge_dec L (ellmax (md m))) as [H|H].
  - destruct (Z_le_gt_dec (Z.abs (spin (md m))) L) as [H2|H2].
    + destruct (truncate_ok h m L W ltac:(lia)) as (r' & E' & W' & _). rewrite E' in E. apply Ok_inj in E. now subst.
    + unfold truncate_ell in E. replace (L >=? ellmax (md m)) with false in E by (symmetry; rewrite Z.geb_leb; apply Z.leb_gt; lia).
      unfold index in E. replace (L <? Z.abs (spin (md m))) with true in E by (symmetry; apply Z.ltb_lt; lia). discriminate.
  - unfold truncate_ell in E. replace (L >=? ellmax (md m)) with true in E by (symmetry; rewrite Z.geb_leb; apply Z.leb_le; lia).
    apply Ok_inj in E. now subst.
Qed.

Definition all_wf (s : heap * list modes) : Prop := Forall (wf (fst s)) (snd s).
Lemma grow h ms h' r : all_wf (h, ms) -> keeps h h' /\ wf h' r -> all_wf (h', r :: ms).
Proof.
  unfold all_wf. cbn [fst snd]. intros A (K & W). constructor; auto. eapply Forall_impl; [|exact A].
  intros x Hx. eapply keeps_wf; eauto.
Qed.
Lemma replace_wf h ms1 m ms2 h' r : all_wf (h, ms1 ++ m :: ms2) -> keeps h h' /\ wf h' r -> all_wf (h', ms1 ++ r :: ms2).
Proof.
  unfold all_wf. cbn [fst snd]. rewrite !Forall_app, !Forall_cons_iff. intros (A1 & _ & A2) (K & W).
  split; [|split; [exact W|]]; (eapply Forall_impl; [|eassumption]); intros x Hx; eapply keeps_wf; eauto.
Qed.
Lemma wf_in h ms m : all_wf (h, ms) -> In m ms -> wf h m.
Proof. unfold all_wf. cbn [fst snd]. rewrite Forall_forall. auto. Qed.
Lemma wf_mid h ms1 m ms2 : all_wf (h, ms1 ++ m :: ms2) -> wf h m.
Proof. intros A. eapply wf_in; [exact A|]. apply in_or_app. right. left. reflexivity. Qed.

Lemma step_wf s t : step s t -> all_wf s -> all_wf t.
Proof.
  destruct 1 as [h ms ld w data|h ms a im args kw h' r Hb E|h ms m h' r Hi E|h ms1 m ms2 h' r E|h ms m h' r Hi E|h ms1 m ms2 h' r E
    |h ms m h' r Hi E|h ms1 m ms2 h' r E|op h ms m h' r Ho Hi E|h ms f g sub h' r Hf Hg E|h ms f g sub h' r Hf Hg E|h ms f g h' r Hf Hg E
    |op h ms m x h' r Ho Hi E|w gs gm h ms f g tr h' r Hf Hg E|h ms m L r Hi E|h ms m Hi]; intros A.
  - unfold all_wf in *. cbn [fst snd] in *. eapply Forall_impl; [|exact A]. intros x Hx. eapply keeps_wf; [apply keeps_alloc|exact Hx].
  - eapply grow; [exact A|]. eapply Modes_new_keeps; eauto.
  - eapply grow; [exact A|]. pose proof (wf_in _ _ _ A Hi) as W. by_new conjugate_new.
  - eapply replace_wf; [exact A|]. pose proof (wf_mid _ _ _ _ A) as W.
    destruct (conjugate_inplace h m W) as (h1 & r1 & E1 & _ & _ & _ & W1 & B & _). rewrite E1 in E. apply Ok_inj in E. injection E as <- <-.
    split; auto. eapply blocks_keeps; [|exact B|]; [lia|]. intros. unfold Gconj. rewrite Cconj_RtoC. ring.
  - eapply grow; [exact A|]. pose proof (wf_in _ _ _ A Hi) as W. destruct (Z.eq_dec (spin (md m)) 0) as [S0|S0].
    + destruct (real_new h m W S0) as (h1 & r1 & E1 & N & _). rewrite E1 in E. apply Ok_inj in E. injection E as <- <-. eapply new_keeps; exact N.
    + unfold real_func in E. destruct (Z.eqb_spec (spin (md m)) 0); [contradiction|discriminate].
  - eapply replace_wf; [exact A|]. pose proof (wf_mid _ _ _ _ A) as W. destruct (Z.eq_dec (spin (md m)) 0) as [S0|S0].
    + destruct (real_inplace h m W S0) as (h1 & E1 & _ & W1 & B & _). rewrite E1 in E. apply Ok_inj in E. injection E as <- <-.
      split; auto. eapply blocks_keeps; [|exact B|]; [lia|]. intros. unfold Greal. rewrite Cconj_RtoC. unfold Cdiv. ring.
    + unfold real_func in E. destruct (Z.eqb_spec (spin (md m)) 0); [contradiction|discriminate].
  - eapply grow; [exact A|]. pose proof (wf_in _ _ _ A Hi) as W. destruct (Z.eq_dec (spin (md m)) 0) as [S0|S0].
    + destruct (imag_new h m W S0) as (h1 & r1 & E1 & N & _). rewrite E1 in E. apply Ok_inj in E. injection E as <- <-. eapply new_keeps; exact N.
    + unfold imag_func in E. destruct (Z.eqb_spec (spin (md m)) 0); [contradiction|discriminate].
  - eapply replace_wf; [exact A|]. pose proof (wf_mid _ _ _ _ A) as W. destruct (Z.eq_dec (spin (md m)) 0) as [S0|S0].
    + destruct (imag_inplace h m W S0) as (h1 & E1 & _ & W1 & B & _). rewrite E1 in E. apply Ok_inj in E. injection E as <- <-.
      split; auto. eapply blocks_keeps; [|exact B|]; [lia|]. intros. unfold Gimag. rewrite Cconj_RtoC. unfold Cdiv. ring.
    + unfold imag_func in E. destruct (Z.eqb_spec (spin (md m)) 0); [contradiction|discriminate].
  - eapply grow; [exact A|]. eapply unary_ops_keep; eauto. eapply wf_in; eauto.
  - eapply grow; [exact A|]. eapply add_keeps; eauto.
  - eapply grow; [exact A|]. unfold np_add in E. destruct (add h f g sub) as [p|] eqn:EA; [|discriminate]. apply Ok_inj in E. subst p. eapply add_keeps; eauto.
  - eapply grow; [exact A|]. unfold subtract in E. destruct (negb _); [discriminate|]. eapply add_keeps; eauto.
  - eapply grow; [exact A|]. eapply scalar_ops_keep; eauto.
  - eapply grow; [exact A|]. eapply multiply_keeps; eauto.
  - eapply grow; [exact A|]. split; [apply keeps_refl|]. eapply truncate_wf; eauto. eapply wf_in; eauto.
  - eapply grow; [exact A|]. pose proof (copy_ok h m (wf_in _ _ _ A Hi)) as C. destruct (copy h m) as [h1 r]. cbn [fst snd]. destruct C as (N & _).
    eapply new_keeps; exact N.
Qed.

Lemma reachable_wf s : reachable s -> all_wf s.
Proof. induction 1; [constructor|]. eapply step_wf; eauto. Qed.

Lemma C20_invariant :
  forall h ms m, reachable (h, ms) -> In m ms ->
    wid (nd m) = (ellmax (md m) + 1) ^ 2
    /\ forall idx ell mm, 0 <= ell <= ellmax (md m) -> ell < Z.abs (spin (md m)) -> - ell <= mm <= ell -> mode h m idx ell mm = RtoC 0.
Proof.
  intros h ms m R H. destruct (wf_in _ _ _ (reachable_wf _ R) H) as (_ & W & Z0). split; auto.
Qed.

(** A program that holds no object yet, and memory full of ones. *)
Definition ones : heap := mkheap 2 (fun _ _ _ => RtoC 1).
Lemma C20_out_refuted :
  exists h ms a m t, reachable (h, ms) /\ In a ms /\ In m ms /\ In t ms /\ truncate_ell m 1 = Ok t
    /\ exists h' r, np_add_out h a a (nd m) false = Ok (h', r)
         /\ spin (md t) = 1 /\ ellmax (md t) = 1 /\ mode h' t [] 0 0 <> RtoC 0.
Proof.
  set (na := mknd 0 [] 9). set (nm := mknd 1 [] 9).
  destruct (Modes_new ones (InArr na) None [0; 0; 2] no_kw) as [[h1 a]|] eqn:E1; [|discriminate].
  destruct (Modes_new h1 (InArr nm) None [1; 0; 2] no_kw) as [[h2 m]|] eqn:E2; [|discriminate].
  assert (R1 : reachable (h1, [a])) by (eapply re_step; [apply (re_start ones)|]; eapply st_new; [|exact E1]; cbn; lia).
  pose proof E1 as F1. cbv - [Cplus RtoC] in F1. injection F1 as <- <-.
  assert (R2 : reachable (h2, [m; mkmodes na (mkmeta 0 2 None)])) by (eapply re_step; [apply R1|]; eapply st_new; [|exact E2]; cbn; lia).
  pose proof E2 as F2. cbv - [Cplus RtoC] in F2. injection F2 as <- <-.
  eexists _, _, _, _, _. split; [eapply re_step; [exact R2|]; eapply (st_truncate _ _ _ 1); [left; reflexivity|reflexivity]|].
  split; [right; right; left; reflexivity|]. split; [right; left; reflexivity|]. split; [left; reflexivity|]. split; [reflexivity|].
  eexists _, _. split; [reflexivity|]. split; [reflexivity|]. split; [reflexivity|].
  cbv - [Cplus RtoC C]. intros H. apply (f_equal fst) in H. cbn in H. lra.
Qed.
