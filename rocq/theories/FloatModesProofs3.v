(** The derivatives of Modes, addition and multiplication by numbers in double precision: which entries they return. *)
Require Import ZArith Lia List Reals Lra Bool Permutation.
From Coquelicot Require Import Complex.
From Verif Require Import Base BaseProofs CBase CSum RSum Fact IndexModel IndexProofs PowersModel DRep WignerModel ModesModel ModesSpec ModesProofs ModesProofs2
  FloatIndexModel FloatPowersModel FloatPowersProofs FloatPowersProps FloatConvModel FloatModesModel FloatModesSpec.
Import ListNotations.
Set Bullet Behavior "Strict Subproofs".
Open Scope Z_scope.

Lemma RN64_zero' : RN64 0 = 0%R.
Proof. apply FloatPowersProps.RN64_0. Qed.
Lemma cscale64_0 f : cscale64 f (RtoC 0) = RtoC 0.
Proof. unfold cscale64. cbn [Re Im fst snd RtoC]. rewrite Rmult_0_r, RN64_zero'. reflexivity. Qed.
Lemma cscale64_f0 x : cscale64 0 x = RtoC 0.
Proof. unfold cscale64. rewrite !Rmult_0_l, RN64_zero'. reflexivity. Qed.
Lemma sqrt_product64_0 a b : a * b = 0 -> sqrt_product64 a b = 0%R.
Proof. intros E. unfold sqrt_product64. rewrite E, RN64_zero', sqrt_0. apply RN64_zero'. Qed.

Lemma scale_ell64_ok d m factor ell h :
  Z.abs (spin (md d)) <= ell -> Z.abs (spin (md m)) <= ell -> 0 <= ell <= ellmax (md m) -> ellmax (md d) = ellmax (md m) ->
  wid (nd m) = (ellmax (md m) + 1) ^ 2 -> wid (nd d) = (ellmax (md m) + 1) ^ 2 -> lead (nd d) = lead (nd m) ->
  exists h', scale_ell64 d m factor ell h = Ok h'
    /\ blocks (buf (nd d)) ell (ell + 1) blk
         (fun _ idx k => cscale64 factor (mem h (buf (nd m)) (bidx (lead (nd m)) idx) k)) h h'.
Proof.
  intros Hd Hm He EL Wm Wd Ld. unfold scale_ell64.
  rewrite !index_ok by lia. cbn [bind].
  replace (ell * ell + (ell + - ell)) with (ell * ell) by lia.
  replace (ell * ell + (ell + ell) + 1) with (ell * ell + 2 * ell + 1) by lia.
  pose proof (col_bound ell ell (ellmax (md m)) ltac:(lia) ltac:(lia)).
  unfold assign_slice.
  destruct (slice_full (wid (nd m)) (ell * ell) (ell * ell + 2 * ell + 1) ltac:(nia) ltac:(lia)) as (Ecm & Elm).
  destruct (slice_full (wid (nd d)) (ell * ell) (ell * ell + 2 * ell + 1) ltac:(nia) ltac:(lia)) as (Ecd & Eld).
  rewrite Elm, Eld, Ecm, Ld, broadcasts_to_refl. eexists. split; [reflexivity|]. split; [reflexivity|]. split.
  - intros i idx k Hi Hk. assert (i = ell) by lia. subst i. unfold blk in Hk. rewrite wrslice_get, Nat.eqb_refl, Ecd, Eld. cbn [andb].
    replace ((ell * ell <=? k) && (k <? ell * ell + (ell * ell + 2 * ell + 1 - ell * ell))) with true
      by (symmetry; apply andb_true_iff; split; [apply Z.leb_le|apply Z.ltb_lt]; lia).
    destruct (Z.eqb_spec (ell * ell + 2 * ell + 1 - ell * ell) 1) as [H1|H1]; f_equal; f_equal; lia.
  - intros x idx k Hx. rewrite wrslice_get, Ecd, Eld. destruct (Nat.eqb_spec x (buf (nd d))); [|reflexivity].
    destruct Hx as [Hx|Hx]; [contradiction|]. specialize (Hx ell ltac:(lia)). unfold blk in Hx.
    replace ((ell * ell <=? k) && (k <? ell * ell + (ell * ell + 2 * ell + 1 - ell * ell))) with false; [reflexivity|].
    symmetry. apply andb_false_iff. destruct (Z_lt_ge_dec k (ell * ell)); [left; apply Z.leb_gt; lia|right; apply Z.ltb_ge; lia].
Qed.

Lemma Lsquared64_new h m : wf h m ->
  exists h' r, Lsquared64 h m = Ok (h', r)
    /\ new_modes h h' r (spin (md m)) (ellmax (md m)) (lead (nd m)) (fun idx ell mm => cscale64 (RN64 (IZR (ell * (ell + 1)))) (mode h m idx ell mm))
    /\ truncator (md r) = truncator (md m).
Proof.
  intros W. pose proof W as (Wb & Ww & Wz). unfold Lsquared64. pose proof (copy_facts h m) as CF.
  destruct (copy h m) as [h1 d]. destruct CF as (N1 & Ed & K1 & D1). subst d. cbn [md nd].
  set (a := mknd (next h) (lead (nd m)) (wid (nd m))). set (d := mkmodes a (md m)).
  destruct (blocks_loop_ro (buf (nd m)) (next h) blk (mem h (buf (nd m)))
    (fun ell idx k => cscale64 (RN64 (IZR (ell * (ell + 1)))) (mem h (buf (nd m)) (bidx (lead (nd m)) idx) k))
    (Z.abs (spin (md m))) (ellmax (md m) + 1) (fun ell h => scale_ell64 d m (RN64 (IZR (ell * (ell + 1)))) ell h)) with (h := h1) as (h2 & E2 & N2 & D2 & K2).
  - lia.
  - intros. eapply blk_inj; eauto; lia.
  - intros ell h3 He HS. destruct (scale_ell64_ok d m (RN64 (IZR (ell * (ell + 1)))) ell h3) as (h4 & E4 & N4 & D4 & K4); try (cbn [md nd d]; lia); auto.
    exists h4. split; auto. split; auto. split; auto. intros i idx k Hi Hk. rewrite (D4 i) by auto. rewrite HS. assert (i = ell) by lia. subst i. reflexivity.
  - intros. rewrite K1 by lia. reflexivity.
  - rewrite E2. cbn [bind]. eexists _, _. split; [reflexivity|]. split; [|reflexivity].
    change (lead (nd m)) with (lead a). apply new_of; unfold a; cbn [buf wid lead]; auto.
    + lia.
    + intros b Hb idx k. rewrite K2 by (left; lia). rewrite K1 by lia. reflexivity.
    + intros idx ell mm Hi He Hs Hm. rewrite (D2 ell) by (try lia; apply blk_col; lia). rewrite bidx_at by auto. reflexivity.
    + intros idx ell mm He Hs Hm. rewrite Wz by lia. rewrite K2; [|right; intros; apply (not_blk_low _ _ _ (Z.abs (spin (md m)))); lia].
      rewrite D1. split; [apply Wz; lia|apply cscale64_0].
Qed.

Lemma Lz64_new h m : wf h m ->
  exists h' r, Lz64 h m = Ok (h', r)
    /\ new_modes h h' r (spin (md m)) (ellmax (md m)) (lead (nd m)) (fun idx ell mm => cscale64 (RN64 (IZR mm)) (mode h m idx ell mm))
    /\ truncator (md r) = truncator (md m).
Proof.
  intros W. pose proof W as (Wb & Ww & Wz). unfold Lz64. pose proof (copy_facts h m) as CF.
  destruct (copy h m) as [h1 d]. destruct CF as (N1 & Ed & K1 & D1). subst d. cbn [md nd].
  set (a := mknd (next h) (lead (nd m)) (wid (nd m))). set (d := mkmodes a (md m)).
  set (S0 := mem h (buf (nd m))).
  match goal with |- context [for_range ?x ?y ?f h1] => set (body := f) end.
  destruct (blocks_loop_ro (buf (nd m)) (next h) blk S0
    (fun ell idx k => cscale64 (RN64 (IZR (k - ell * ell - ell))) (S0 idx k))
    (Z.abs (spin (md m))) (ellmax (md m) + 1) body) with (h := h1) as (h2 & E2 & N2 & D2 & K2).
  - lia.
  - intros. eapply blk_inj; eauto; lia.
  - intros ell h3 He HS. unfold body.
    destruct (blocks_loop_ro (buf (nd m)) (next h) (one_col ell) S0 (fun mm idx k => cscale64 (RN64 (IZR mm)) (S0 idx k)) (- ell) (ell + 1)
      (fun mm h4 => do j <- index m ell mm; do v <- rdcol h4 (nd m) j; do i <- index d ell mm;
         wrcol h4 a i (fun idx => cscale64 (RN64 (IZR mm)) (v idx)))) with (h := h3) as (h4 & E4 & B4).
    + lia.
    + intros. eapply one_col_inj; eauto.
    + intros mm h5 Hmm HS5. rewrite !index_ok by (cbn [md d]; lia). cbn [bind].
      pose proof (col_bound ell mm (ellmax (md m)) ltac:(lia) ltac:(lia)).
      rewrite rdcol_ok by lia. cbn [bind]. rewrite wrcol_ok by (cbn [wid a]; lia). eexists. split; [reflexivity|].
      eapply blocks_ext; [|apply set_col_blocks]. intros i idx k Hi Hk. unfold one_col in Hk. subst k. rewrite HS5. replace i with mm by lia. reflexivity.
    + exact HS.
    + exists h4. split; [exact E4|]. apply one_col_blocks in B4. eapply blocks_ext; [|exact B4]. intros i idx k Hi Hk. replace i with ell by lia. reflexivity.
  - intros. rewrite K1 by lia. reflexivity.
  - rewrite E2. cbn [bind]. eexists _, _. split; [reflexivity|]. split; [|reflexivity].
    change (lead (nd m)) with (lead a). apply new_of; unfold a; cbn [buf wid lead]; auto.
    + lia.
    + intros b Hb idx k. rewrite K2 by (left; lia). rewrite K1 by lia. reflexivity.
    + intros idx ell mm Hi He Hs Hm. rewrite (D2 ell) by (try lia; apply blk_col; lia).
      replace (ell * ell + (ell + mm) - ell * ell - ell) with mm by lia. reflexivity.
    + intros idx ell mm He Hs Hm. rewrite Wz by lia. rewrite K2; [|right; intros; apply (not_blk_low _ _ _ (Z.abs (spin (md m)))); lia].
      rewrite D1. split; [apply Wz; lia|apply cscale64_0].
Qed.

Definition up64 (ell m : Z) : R := sqrt_product64 (ell + m) (ell - m + 1).
Definition down64 (ell m : Z) : R := sqrt_product64 (ell - m) (ell + m + 1).

Lemma Lplus64_new h m : wf h m ->
  exists h' r, Lplus64 h m = Ok (h', r)
    /\ new_modes h h' r (spin (md m)) (ellmax (md m)) (lead (nd m))
         (fun idx ell mm => cscale64 (up64 ell mm) (mode h m idx ell (mm - 1)))
    /\ truncator (md r) = truncator (md m).
Proof.
  intros W. pose proof W as (Wb & Ww & Wz). unfold Lplus64. pose proof (zeros_modes_facts h m) as CF.
  destruct (zeros_like_modes h m) as [h1 d]. destruct CF as (N1 & Ed & K1 & D1). subst d. cbn [md nd].
  set (a := mknd (next h) (lead (nd m)) (wid (nd m))). set (d := mkmodes a (md m)).
  set (S0 := mem h (buf (nd m))).
  match goal with |- context [for_range ?x ?y ?f h1] => set (body := f) end.
  destruct (blocks_loop_ro (buf (nd m)) (next h) blk S0
    (fun ell idx k => cscale64 (up64 ell (k - ell * ell - ell)) (S0 idx (k - 1)))
    (Z.abs (spin (md m))) (ellmax (md m) + 1) body) with (h := h1) as (h2 & E2 & N2 & D2 & K2).
  - lia.
  - intros. eapply blk_inj; eauto; lia.
  - intros ell h3 He HS. unfold body. rewrite index_ok by lia. cbn [bind].
    pose proof (col_bound ell (- ell) (ellmax (md m)) ltac:(lia) ltac:(lia)).
    rewrite wrcol_ok by (cbn [wid a]; lia). cbn [bind buf a].
    pose proof (set_col_blocks (next h) ell (- ell) (fun _ => RtoC 0) h3) as B0.
    set (h4 := set_col _ _ _ _) in *.
    destruct (blocks_loop_ro (buf (nd m)) (next h) (one_col ell) S0 (fun mm idx k => cscale64 (up64 ell mm) (S0 idx (k - 1))) (- ell + 1) (ell + 1)
      (fun mm h4 => do j <- index m ell (mm - 1); do v <- rdcol h4 (nd m) j; do i <- index d ell mm;
         wrcol h4 a i (fun idx => cscale64 (sqrt_product64 (ell + mm) (ell - mm + 1)) (v idx)))) with (h := h4) as (h5 & E5 & B5).
    + lia.
    + intros. eapply one_col_inj; eauto.
    + intros mm h6 Hmm HS5. rewrite !index_ok by (cbn [md d]; lia). cbn [bind].
      pose proof (col_bound ell mm (ellmax (md m)) ltac:(lia) ltac:(lia)).
      pose proof (col_bound ell (mm - 1) (ellmax (md m)) ltac:(lia) ltac:(lia)).
      rewrite rdcol_ok by lia. cbn [bind]. rewrite wrcol_ok by (cbn [wid a]; lia). eexists. split; [reflexivity|].
      eapply blocks_ext; [|apply set_col_blocks]. intros i idx k Hi Hk. unfold one_col in Hk. subst k. rewrite HS5.
      replace i with mm by lia. unfold up64. f_equal. f_equal. lia.
    + intros. unfold h4. rewrite set_col_other by (left; lia). apply HS.
    + exists h5. split; [exact E5|].
      assert (B6 : blocks (next h) (- ell) (- ell + 1) (one_col ell) (fun mm idx k => cscale64 (up64 ell mm) (S0 idx (k - 1))) h3 h4).
      { eapply blocks_ext; [|exact B0]. intros i idx k Hi Hk. cbv beta. replace i with (- ell) by lia. unfold up64.
        rewrite sqrt_product64_0 by lia. symmetry. apply cscale64_f0. }
      pose proof (blocks_seq (next h) (- ell) (- ell + 1) (ell + 1) _ _ _ _ _ ltac:(lia) (fun i j k _ _ => one_col_inj ell i j k) B6 B5) as B7.
      apply one_col_blocks in B7. eapply blocks_ext; [|exact B7]. intros i idx k Hi Hk. replace i with ell by lia. reflexivity.
  - intros. rewrite K1 by lia. reflexivity.
  - rewrite E2. cbn [bind]. eexists _, _. split; [reflexivity|]. split; [|reflexivity].
    change (lead (nd m)) with (lead a). apply new_of; unfold a; cbn [buf wid lead]; auto.
    + lia.
    + intros b Hb idx k. rewrite K2 by (left; lia). rewrite K1 by lia. reflexivity.
    + intros idx ell mm Hi He Hs Hm. rewrite (D2 ell) by (try lia; apply blk_col; lia).
      replace (ell * ell + (ell + mm) - ell * ell - ell) with mm by lia. unfold mode, S0. f_equal. f_equal. lia.
    + intros idx ell mm He Hs Hm. split.
      * rewrite K2; [|right; intros; apply (not_blk_low _ _ _ (Z.abs (spin (md m)))); lia]. apply D1.
      * destruct (Z.eq_dec mm (- ell)) as [->|Hne].
        -- unfold up64. rewrite sqrt_product64_0 by lia. apply cscale64_f0.
        -- rewrite Wz by lia. apply cscale64_0.
Qed.

Lemma Lminus64_new h m : wf h m ->
  exists h' r, Lminus64 h m = Ok (h', r)
    /\ new_modes h h' r (spin (md m)) (ellmax (md m)) (lead (nd m))
         (fun idx ell mm => cscale64 (down64 ell mm) (mode h m idx ell (mm + 1)))
    /\ truncator (md r) = truncator (md m).
Proof.
  intros W. pose proof W as (Wb & Ww & Wz). unfold Lminus64. pose proof (zeros_modes_facts h m) as CF.
  destruct (zeros_like_modes h m) as [h1 d]. destruct CF as (N1 & Ed & K1 & D1). subst d. cbn [md nd].
  set (a := mknd (next h) (lead (nd m)) (wid (nd m))). set (d := mkmodes a (md m)).
  set (S0 := mem h (buf (nd m))).
  match goal with |- context [for_range ?x ?y ?f h1] => set (body := f) end.
  destruct (blocks_loop_ro (buf (nd m)) (next h) blk S0
    (fun ell idx k => cscale64 (down64 ell (k - ell * ell - ell)) (S0 idx (k + 1)))
    (Z.abs (spin (md m))) (ellmax (md m) + 1) body) with (h := h1) as (h2 & E2 & N2 & D2 & K2).
  - lia.
  - intros. eapply blk_inj; eauto; lia.
  - intros ell h3 He HS. unfold body.
    destruct (blocks_loop_ro (buf (nd m)) (next h) (one_col ell) S0 (fun mm idx k => cscale64 (down64 ell mm) (S0 idx (k + 1))) (- ell) ell
      (fun mm h4 => do j <- index m ell (mm + 1); do v <- rdcol h4 (nd m) j; do i <- index m ell mm;
         wrcol h4 a i (fun idx => cscale64 (sqrt_product64 (ell - mm) (ell + mm + 1)) (v idx)))) with (h := h3) as (h5 & E5 & B5).
    + lia.
    + intros. eapply one_col_inj; eauto.
    + intros mm h6 Hmm HS5. rewrite !index_ok by (cbn [md d]; lia). cbn [bind].
      pose proof (col_bound ell mm (ellmax (md m)) ltac:(lia) ltac:(lia)).
      pose proof (col_bound ell (mm + 1) (ellmax (md m)) ltac:(lia) ltac:(lia)).
      rewrite rdcol_ok by lia. cbn [bind]. rewrite wrcol_ok by (cbn [wid a]; lia). eexists. split; [reflexivity|].
      eapply blocks_ext; [|apply set_col_blocks]. intros i idx k Hi Hk. unfold one_col in Hk. subst k. rewrite HS5.
      replace i with mm by lia. unfold down64. f_equal. f_equal. lia.
    + exact HS.
    + rewrite E5. cbn [bind]. rewrite index_ok by lia. cbn [bind].
      pose proof (col_bound ell ell (ellmax (md m)) ltac:(lia) ltac:(lia)).
      rewrite wrcol_ok by (cbn [wid a]; lia). eexists. split; [reflexivity|].
      pose proof (set_col_blocks (next h) ell ell (fun _ => RtoC 0) h5) as B0. cbn [buf a].
      set (h6 := set_col _ _ _ _) in *.
      assert (B6 : blocks (next h) ell (ell + 1) (one_col ell) (fun mm idx k => cscale64 (down64 ell mm) (S0 idx (k + 1))) h5 h6).
      { eapply blocks_ext; [|exact B0]. intros i idx k Hi Hk. cbv beta. replace i with ell by lia. unfold down64.
        rewrite sqrt_product64_0 by lia. symmetry. apply cscale64_f0. }
      pose proof (blocks_seq (next h) (- ell) ell (ell + 1) _ _ _ _ _ ltac:(lia) (fun i j k _ _ => one_col_inj ell i j k) B5 B6) as B7.
      apply one_col_blocks in B7. eapply blocks_ext; [|exact B7]. intros i idx k Hi Hk. replace i with ell by lia. reflexivity.
  - intros. rewrite K1 by lia. reflexivity.
  - rewrite E2. cbn [bind]. eexists _, _. split; [reflexivity|]. split; [|reflexivity].
    change (lead (nd m)) with (lead a). apply new_of; unfold a; cbn [buf wid lead]; auto.
    + lia.
    + intros b Hb idx k. rewrite K2 by (left; lia). rewrite K1 by lia. reflexivity.
    + intros idx ell mm Hi He Hs Hm. rewrite (D2 ell) by (try lia; apply blk_col; lia).
      replace (ell * ell + (ell + mm) - ell * ell - ell) with mm by lia. unfold mode, S0. f_equal. f_equal. lia.
    + intros idx ell mm He Hs Hm. split.
      * rewrite K2; [|right; intros; apply (not_blk_low _ _ _ (Z.abs (spin (md m)))); lia]. apply D1.
      * destruct (Z.eq_dec mm ell) as [->|Hne].
        -- unfold down64. rewrite sqrt_product64_0 by lia. apply cscale64_f0.
        -- rewrite Wz by lia. apply cscale64_0.
Qed.

Lemma Rz64_new h m : wf h m ->
  exists h' r, Rz64 h m = Ok (h', r)
    /\ new_modes h h' r (spin (md m)) (ellmax (md m)) (lead (nd m)) (fun idx ell mm => cscale64 (RN64 (IZR (- spin (md m)))) (mode h m idx ell mm))
    /\ truncator (md r) = truncator (md m).
Proof. intros W. apply (map_new (cscale64 (RN64 (IZR (- spin (md m))))) h m W). apply cscale64_0. Qed.

Lemma R_shift64_new ds factor h m : wf h m ->
  (forall ell, 0 <= ell -> Z.abs (spin (md m)) <= ell < Z.abs (spin (md m) + ds) -> factor (spin (md m) + ds) ell = 0%R) ->
  exists h' r, R_shift64 ds factor h m = Ok (h', r)
    /\ new_modes h h' r (spin (md m) + ds) (ellmax (md m)) (lead (nd m))
         (fun idx ell mm => cscale64 (factor (spin (md m) + ds) ell) (mode h m idx ell mm))
    /\ truncator (md r) = truncator (md m).
Proof.
  intros W HF. pose proof W as (Wb & Ww & Wz). unfold R_shift64.
  destruct (zeros_like_facts h (nd m)) as (Zn & Zr & Zo & Zz).
  destruct (zeros_like h (nd m)) as [h1 c] eqn:EZ. cbn [fst snd] in *. subst c. cbn [spin ellmax truncator].
  set (mt := mkmeta (spin (md m) + ds) (ellmax (md m)) (truncator (md m))).
  set (a := mknd (next h) (lead (nd m)) (wid (nd m))).
  assert (EM : Modes_new h1 (InArr a) None [] (mkkw (Some (spin (md m) + ds)) (Some (Z.min (Z.abs (spin (md m) + ds)) (ell_min_of m))) (Some (ellmax (md m))) (truncator (md m)))
               = construct h1 a mt).
  { unfold ell_min_of. replace (Z.min (Z.abs (spin (md m) + ds)) 0) with 0 by lia. reflexivity. }
  rewrite EM. destruct (construct_ok h1 a mt Ww) as (h2 & E2 & N2 & K2 & D2). rewrite E2. cbn [bind md nd spin ellmax mt].
  set (d := mkmodes a mt). set (S0 := mem h (buf (nd m))).
  match goal with |- context [for_range ?x ?y ?f h2] => set (body := f) end.
  destruct (blocks_loop_ro (buf (nd m)) (next h) blk S0
    (fun ell idx k => cscale64 (factor (spin (md m) + ds) ell) (S0 (bidx (lead (nd m)) idx) k))
    (Z.max (Z.abs (spin (md m) + ds)) (Z.abs (spin (md m)))) (ellmax (md m) + 1) body) with (h := h2) as (h3 & E3 & N3 & D3 & K3).
  - lia.
  - intros. eapply blk_inj; eauto; lia.
  - intros ell h4 He HS. unfold body, ell_min_of. replace (ell >=? 0) with true by (symmetry; rewrite Z.geb_leb; apply Z.leb_le; lia).
    destruct (scale_ell64_ok d m (factor (spin (md m) + ds) ell) ell h4) as (h5 & E5 & N5 & D5 & K5); try (cbn [md nd spin ellmax d mt]; lia); auto.
    exists h5. split; auto. split; auto. split; auto. intros i idx k Hi Hk. rewrite (D5 i) by auto. rewrite HS. assert (i = ell) by lia. subst i. reflexivity.
  - intros. rewrite K2 by (cbn [buf a]; lia). rewrite Zo by lia. reflexivity.
  - rewrite E3. cbn [bind]. eexists _, _. split; [reflexivity|]. split; [|reflexivity].
    change (lead (nd m)) with (lead a). change (spin (md m) + ds) with (spin mt). change (ellmax (md m)) with (ellmax mt). unfold d.
    assert (Hlow : forall idx ell mm, 0 <= ell <= ellmax (md m) -> ell < Z.max (Z.abs (spin (md m) + ds)) (Z.abs (spin (md m))) -> - ell <= mm <= ell ->
              mem h3 (next h) idx (ell * ell + (ell + mm)) = RtoC 0).
    { intros idx ell mm He Hs Hm.
      rewrite K3; [|right; intros i Hi; apply (not_blk_low i ell mm (Z.max (Z.abs (spin (md m) + ds)) (Z.abs (spin (md m))))); lia].
      specialize (D2 idx ell mm He Hm). cbn [buf a] in D2. rewrite D2, Zz. destruct (_ <? _); reflexivity. }
    assert (Hf : forall idx ell mm, 0 <= ell <= ellmax (md m) -> ell < Z.max (Z.abs (spin (md m) + ds)) (Z.abs (spin (md m))) -> - ell <= mm <= ell ->
              cscale64 (factor (spin (md m) + ds) ell) (mode h m idx ell mm) = RtoC 0).
    { intros idx ell mm He Hs Hm. destruct (Z_lt_ge_dec ell (Z.abs (spin (md m)))); [rewrite Wz by lia; apply cscale64_0|].
      rewrite HF by lia. apply cscale64_f0. }
    apply new_of; unfold a; cbn [buf wid lead spin ellmax mt]; auto.
    + cbn [buf a] in *. lia.
    + intros b Hb idx k. rewrite K3 by (left; lia). rewrite K2 by (cbn [buf a]; lia). rewrite Zo by lia. reflexivity.
    + intros idx ell mm Hi He Hs Hm. destruct (Z_lt_ge_dec ell (Z.abs (spin (md m)))).
      * rewrite Hlow, Hf by lia. reflexivity.
      * rewrite (D3 ell) by (try lia; apply blk_col; lia). rewrite bidx_at by auto. reflexivity.
    + intros idx ell mm He Hs Hm. split; [apply Hlow|apply Hf]; lia.
Qed.

Definition rup64 (s ell : Z) : R := sqrt_product64 (ell - s + 1) (ell + s).
Definition rdown64 (s ell : Z) : R := sqrt_product64 (ell + s + 1) (ell - s).

Lemma Rplus64_new h m : wf h m ->
  exists h' r, Rplus64 h m = Ok (h', r)
    /\ new_modes h h' r (spin (md m) - 1) (ellmax (md m)) (lead (nd m))
         (fun idx ell mm => cscale64 (rup64 (spin (md m)) ell) (mode h m idx ell mm))
    /\ truncator (md r) = truncator (md m).
Proof.
  intros W. unfold Rplus64. destruct (R_shift64_new (-1) (fun s ell => sqrt_product64 (ell - s) (ell + s + 1)) h m W) as (h' & r & E & N & T).
  - intros ell H0 Hl. apply sqrt_product64_0. assert (E : ell + (spin (md m) + -1) + 1 = 0) by lia. rewrite E. lia.
  - exists h', r. split; [exact E|]. split; [|exact T]. replace (spin (md m) - 1) with (spin (md m) + -1) by lia.
    eapply new_modes_ext; [|exact N]. intros. cbv beta. unfold rup64. do 2 f_equal; lia.
Qed.

Lemma Rminus64_new h m : wf h m ->
  exists h' r, Rminus64 h m = Ok (h', r)
    /\ new_modes h h' r (spin (md m) + 1) (ellmax (md m)) (lead (nd m))
         (fun idx ell mm => cscale64 (rdown64 (spin (md m)) ell) (mode h m idx ell mm))
    /\ truncator (md r) = truncator (md m).
Proof.
  intros W. unfold Rminus64. destruct (R_shift64_new 1 (fun s ell => sqrt_product64 (ell + s) (ell - s + 1)) h m W) as (h' & r & E & N & T).
  - intros ell H0 Hl. apply sqrt_product64_0. assert (E : ell - (spin (md m) + 1) + 1 = 0) by lia. rewrite E. lia.
  - exists h', r. split; [exact E|]. split; [|exact T].
    eapply new_modes_ext; [|exact N]. intros. cbv beta. unfold rdown64. do 2 f_equal; lia.
Qed.

Lemma ethbar64_new h m : wf h m ->
  exists h' r, ethbar64 h m = Ok (h', r)
    /\ new_modes h h' r (spin (md m) - 1) (ellmax (md m)) (lead (nd m))
         (fun idx ell mm => - cscale64 (rup64 (spin (md m)) ell) (mode h m idx ell mm))%C
    /\ truncator (md r) = truncator (md m).
Proof.
  intros W. unfold ethbar64. destruct (Rplus64_new h m W) as (h1 & r1 & E1 & NM1 & T1). rewrite E1. cbn [bind].
  destruct NM1 as (A & B & D & Es & EL & El & Wf1 & M1).
  destruct (negative_new h1 r1 Wf1) as (h2 & r2 & E2 & NM2 & T2). exists h2, r2. split; [exact E2|]. split; [|congruence].
  destruct NM2 as (A2 & B2 & D2 & Es2 & EL2 & El2 & Wf2 & M2).
  split; [lia|]. split; [intros; rewrite B2, B by lia; reflexivity|]. split; [lia|]. split; [congruence|]. split; [congruence|]. split; [congruence|].
  split; [exact Wf2|]. intros. rewrite M2 by (rewrite ?El, ?EL; auto). rewrite M1 by auto. reflexivity.
Qed.

(** ** Addition *)
Definition signed64 (sub : bool) (a b : C) : C := if sub then csub64 a b else cadd64 a b.
Definition add_data64 (h : heap) (f g : modes) (sub : bool) (idx : list Z) (ell mm : Z) : C :=
  let a := if ell <=? ellmax (md f) then mode h f (bidx (lead (nd f)) idx) ell mm else RtoC 0 in
  if ell <=? ellmax (md g) then signed64 sub a (mode h g (bidx (lead (nd g)) idx) ell mm) else a.
Lemma signed64_0 sub : signed64 sub (RtoC 0) (RtoC 0) = RtoC 0.
Proof. destruct sub; unfold signed64, csub64, cadd64; cbn [Re Im fst snd RtoC]; rewrite ?Rminus_0_r, ?Rplus_0_r, RN64_zero'; reflexivity. Qed.

Lemma add_into64_ok h f g r sub : wf h f -> wf h g -> 0 <= ellmax (md f) -> 0 <= ellmax (md g) ->
  buf r <> buf (nd g) ->
  (ellmax (md f) + 1) ^ 2 <= wid r -> (ellmax (md g) + 1) ^ 2 <= wid r ->
  broadcast (lead (nd f)) (lead r) = Some (lead r) -> broadcast (lead (nd g)) (lead r) = Some (lead r) ->
  exists h', add_into64 h f g r sub = Ok h' /\ next h' = next h
    /\ (forall x idx k, x <> buf r -> mem h' x idx k = mem h x idx k)
    /\ (forall idx ell mm, 0 <= ell -> - ell <= mm <= ell ->
         mem h' (buf r) idx (ell * ell + (ell + mm)) =
         let a := if ell <=? ellmax (md f) then mode h f (bidx (lead (nd f)) idx) ell mm else mem h (buf r) idx (ell * ell + (ell + mm)) in
         if ell <=? ellmax (md g) then signed64 sub a (mode h g (bidx (lead (nd g)) idx) ell mm) else a).
Proof.
  intros (Fb & Fw & _) (Gb & Gw & _) HF HG Hne Wf Wg Bf Bg. unfold add_into64, ell_min_of.
  rewrite !LM_total_sqr. replace ((0 - 1 + 1) ^ 2 - 0 ^ 2) with 0 by lia.
  replace (0 + ((ellmax (md f) + 1) ^ 2 - 0 ^ 2)) with ((ellmax (md f) + 1) ^ 2) by lia.
  replace (0 + ((ellmax (md g) + 1) ^ 2 - 0 ^ 2)) with ((ellmax (md g) + 1) ^ 2) by lia.
  destruct (assign_prefix h r ((ellmax (md f) + 1) ^ 2) (lead (nd f)) (wid (nd f)) (mem h (buf (nd f))) (fun _ y => y)) as (h1 & E1 & N1 & D1 & K1); auto; [nia|].
  rewrite E1. cbn [bind].
  destruct (assign_prefix h1 r ((ellmax (md g) + 1) ^ 2) (lead (nd g)) (wid (nd g)) (mem h1 (buf (nd g))) (if sub then csub64 else cadd64)) as (h2 & E2 & N2 & D2 & K2); auto; [nia|].
  exists h2. split; [exact E2|]. split; [congruence|]. split.
  - intros x idx k Hx. rewrite K2, K1 by auto. reflexivity.
  - intros idx ell mm He Hm. set (k := ell * ell + (ell + mm)).
    assert (Hk0 : 0 <= k) by (unfold k; nia).
    assert (Ea : mem h1 (buf r) idx k = if ell <=? ellmax (md f) then mode h f (bidx (lead (nd f)) idx) ell mm else mem h (buf r) idx k).
    { pose proof (col_lt ell mm (ellmax (md f)) He Hm HF) as C1. fold k in C1. destruct (Z.leb_spec ell (ellmax (md f))).
      - rewrite D1 by lia. reflexivity.
      - rewrite K1 by (right; lia). reflexivity. }
    pose proof (col_lt ell mm (ellmax (md g)) He Hm HG) as C2. fold k in C2. cbv zeta. destruct (Z.leb_spec ell (ellmax (md g))).
    + rewrite D2 by lia. rewrite Ea. rewrite K1 by auto. unfold signed64, mode. fold k. destruct sub; reflexivity.
    + rewrite K2 by (right; lia). exact Ea.
Qed.

Lemma add64_new h f g sub sh : wf h f -> wf h g -> 0 <= ellmax (md f) -> 0 <= ellmax (md g) ->
  spin (md f) = spin (md g) -> broadcast (lead (nd f)) (lead (nd g)) = Some sh ->
  exists h' r, add64 h f g sub = Ok (h', r)
    /\ new_modes h h' r (spin (md f)) (Z.max (ellmax (md f)) (ellmax (md g))) sh (add_data64 h f g sub)
    /\ truncator (md r) = truncator (md f).
Proof.
  intros Wf Wg HF HG HS HB. unfold add64. rewrite HS, Z.eqb_refl. cbn [negb].
  rewrite (rdcol0 h f), (rdcol0 h g) by auto. cbn [bind]. rewrite HB.
  set (L := Z.max _ _). destruct (alloc h sh (LM_total_size 0 L) (fun _ _ => RtoC 0)) as [h1 r] eqn:EA.
  assert (Er : r = mknd (next h) sh (LM_total_size 0 L)) by (inversion EA; reflexivity).
  assert (Hnew : forall idx k, mem h1 (next h) idx k = RtoC 0) by (intros; replace h1 with (fst (alloc h sh (LM_total_size 0 L) (fun _ _ => RtoC 0))) by (rewrite EA; reflexivity); apply alloc_get_new).
  assert (Hold : forall b, b <> next h -> mem h1 b = mem h b) by (intros; replace h1 with (fst (alloc h sh (LM_total_size 0 L) (fun _ _ => RtoC 0))) by (rewrite EA; reflexivity); apply alloc_get_old; auto).
  assert (Hn : next h1 = S (next h)) by (inversion EA; reflexivity).
  pose proof Wf as (Fb & Fw & Fz). pose proof Wg as (Gb & Gw & Gz).
  assert (Wt : LM_total_size 0 L = (L + 1) ^ 2) by (rewrite LM_total_sqr; lia).
  assert (Wf1 : wf h1 f) by (split; [lia|]; split; [auto|]; intros; unfold mode; rewrite Hold by lia; apply Fz; auto).
  assert (Wg1 : wf h1 g) by (split; [lia|]; split; [auto|]; intros; unfold mode; rewrite Hold by lia; apply Gz; auto).
  destruct (add_into64_ok h1 f g r sub) as (h2 & E2 & N2 & K2 & D2); subst r; cbn [buf wid lead]; auto.
  - lia.
  - rewrite Wt. unfold L. nia.
  - rewrite Wt. unfold L. nia.
  - eapply broadcast_left; eauto.
  - eapply broadcast_right; eauto.
  - rewrite E2. cbn [bind]. cbn [buf] in *.
    destruct (construct_new h h2 (mknd (next h) sh (LM_total_size 0 L)) (mkmeta (spin (md g)) L (truncator (md f))) (add_data64 h f g sub)) as (h' & E & NM); cbn [buf wid lead spin ellmax].
    + exact Wt.
    + lia.
    + intros b Hb idx k. rewrite K2 by lia. rewrite Hold by lia. reflexivity.
    + intros idx ell mm _ He0 He Hm. rewrite D2 by lia. rewrite Hnew. unfold add_data64, signed64, mode. rewrite !Hold by lia.
      destruct (ell <=? ellmax (md f)), (ell <=? ellmax (md g)); destruct sub; reflexivity.
    + intros idx ell mm _ He He' Hm. unfold add_data64.
      destruct (Z.leb_spec ell (ellmax (md f))), (Z.leb_spec ell (ellmax (md g))); rewrite ?Fz, ?Gz by lia; rewrite ?signed64_0; reflexivity.
    + eexists h', _. split; [exact E|]. split; [exact NM|reflexivity].
Qed.

(** ** Numbers *)

Lemma scalar64_new op h f x sh : wf h f -> 0 <= ellmax (md f) ->
  (length (sc_shape x) <= length (lead (nd f)))%nat ->
  broadcast (lead (nd f)) (sc_shape x) = Some sh ->
  (forall idx k c, op idx k (RtoC 0) c = RtoC 0) ->
  exists h' r, scalar_op64 op h f x = Ok (h', r)
    /\ new_modes h h' r (spin (md f)) (ellmax (md f)) sh
         (fun idx ell mm => op idx (ell * ell + (ell + mm)) (mode h f (bidx (lead (nd f)) idx) ell mm) (sc_val x (bidx (sc_shape x) idx)))
    /\ truncator (md r) = truncator (md f).
Proof.
  intros Wf HL Hlen HB H0. pose proof Wf as (Fb & Fw & Fz). unfold scalar_op64, check_broadcasting.
  replace (length (lead (nd f)) <? length (sc_shape x))%nat with false by (symmetry; apply Nat.ltb_ge; auto).
  rewrite (rdcol0 h f) by auto. cbn [bind]. rewrite HB. cbn [negb].
  match goal with |- context [alloc h sh ?w ?d] => pose proof (alloc_get_new h sh w d) as Hnew; pose proof (alloc_get_old h sh w d) as Hold;
    destruct (alloc h sh w d) as [h1 a] eqn:EA end. cbn [fst] in *.
  assert (Ea : a = mknd (next h) sh (wid (nd f)) /\ next h1 = S (next h)) by (inversion EA; split; reflexivity). destruct Ea as [Ea Hn]. subst a.
  destruct (construct_new h h1 (mknd (next h) sh (wid (nd f))) (md f)
    (fun idx ell mm => op idx (ell * ell + (ell + mm)) (mode h f (bidx (lead (nd f)) idx) ell mm) (sc_val x (bidx (sc_shape x) idx)))) as (h' & E & NM); cbn [buf wid lead]; auto.
  - lia.
  - intros b Hb idx k. rewrite Hold by lia. reflexivity.
  - intros. rewrite Hnew. reflexivity.
  - intros. rewrite Fz by lia. apply H0.
  - eexists h', _. split; [exact E|]. split; [exact NM|reflexivity].
Qed.
