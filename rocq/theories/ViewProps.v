(** C57. *)
Require Import ZArith List Bool Reals Lia Lra.
From Coquelicot Require Import Complex.
From Verif Require Import Base BaseProofs CBase Fact DRep IndexModel IndexProofs WignerModel SWSHModel ModesModel ModesSpec ModesProofs ModesProofs2
  ModesProofs3 HCallModel HCallProps SWSHCallModel SWSHCallProps ViewModel ViewSpec ViewProofs.
Import ListNotations.
Open Scope Z_scope.

Lemma C57_leading :
  forall h f ld key ld' t tail, valid h f ld -> selects key ld ld' t -> tail = [] \/ tail = [KEllipsis] ->
  exists r, getitem h f (key ++ tail) = Ok (Object r) /\ valid h r ld' /\ vmd r = vmd f
    /\ forall p, at_index ld' p -> at_index ld (t p)
       /\ forall k, 0 <= k < (ellmax (vmd f) + 1) ^ 2 -> cell r p k = cell f (t p) k /\ column h r p k = column h f (t p) k.
Proof.
  intros h f ld key ld' t tail (S & Esh & Z0) Hs T.
  destruct (getitem_leading h f ld [(ellmax (vmd f) + 1) ^ 2] key ld' t tail S Esh ltac:(discriminate) Hs T) as (r & E & Sr & Er & Em & Eb & A & I).
  assert (C : forall p, at_index ld' p -> forall k, cell r p k = cell f (t p) k /\ column h r p k = column h f (t p) k).
  { intros p Hp k. destruct (A p Hp) as (_ & Q). unfold cell, column, entry. rewrite Eb, Q. auto. }
  exists r. split; [auto|]. split; [|split; [auto|]].
  - split; [auto|]. rewrite Em. split; [auto|]. intros p ell m Hp He Hl Hm. unfold vmode.
    destruct (C p Hp (ell * ell + (ell + m))) as (_ & ->). apply Z0; auto. apply A. auto.
  - intros p Hp. split; [apply A; auto|]. intros k _. apply C. auto.
Qed.

(** Every key without [...] of at most as many integers and slices as there are leading axes is one of these, or raises. *)
Lemma C57_keys :
  forall h f ld key, valid h f ld -> existsb is_ellipsis key = false -> (consumed key <= length ld)%nat ->
  (exists ld' t, selects key ld ld' t) \/ getitem h f key = Err IndexError \/ getitem h f key = Err ValueError.
Proof.
  intros h f ld key ((_ & Ss & Sn & _) & Esh & _) Ne Hc.
  assert (X : (exists ld' t, selects key ld ld' t)
     \/ exists e, (e = IndexError \/ e = ValueError) /\ forall m, walk (key ++ repeat full m) (vshape (vw f)) (vstrides (vw f)) = Err e).
  { rewrite Esh in *. clear Esh. generalize dependent (vstrides (vw f)). revert ld Hc Sn. induction key as [|k key IH]; intros ld Hc Sn st Ss.
    - left. exists ld, (fun p => p). constructor.
    - cbn [existsb] in Ne. apply orb_false_iff in Ne. destruct Ne as (Nk & Ne). specialize (IH Ne).
      destruct k as [i|a b c| |]; [| |discriminate|].
      + unfold consumed in Hc. cbn [filter consumes length] in Hc. destruct ld as [|n ld]; [cbn in Hc; lia|].
        destruct st as [|s st]; [discriminate|]. cbn [app] in Sn, Ss. inversion Sn as [|? ? N1 N2]; subst. cbn [app walk].
        unfold norm_index, in_bounds.
        destruct (Z_le_gt_dec (- n) i) as [A|A]; [destruct (Z_lt_ge_dec i n) as [B|B]|].
        * destruct (IH ld) with (l := st) as [(ld' & t & Q)|(e & He & Q)]; [unfold consumed; cbn [length] in Hc; lia|auto|cbn [length] in Ss; lia| |].
          { left. exists ld', (fun p => (i mod n) :: t p). constructor; auto. }
          right. exists e. split; auto. intros m. rewrite Q. cbn [bind].
          destruct (Z.ltb_spec i 0); [destruct (Z.leb_spec 0 (i + n)); [|lia]; destruct (Z.ltb_spec (i + n) n); [|lia]
                                     |destruct (Z.leb_spec 0 i); [|lia]; destruct (Z.ltb_spec i n); [|lia]]; reflexivity.
        * right. exists IndexError. split; auto. intros m. destruct (Z.ltb_spec i 0); [lia|]. destruct (Z.ltb_spec i n); [lia|].
          rewrite andb_false_r. reflexivity.
        * right. exists IndexError. split; auto. intros m. destruct (Z.ltb_spec i 0); [|lia]. destruct (Z.leb_spec 0 (i + n)); [lia|]. reflexivity.
      + unfold consumed in Hc. cbn [filter consumes length] in Hc. destruct ld as [|n ld]; [cbn in Hc; lia|].
        destruct st as [|s st]; [discriminate|]. cbn [app] in Sn, Ss. inversion Sn as [|? ? N1 N2]; subst. cbn [app walk].
        destruct (slice_bounds n a b c) as [[[start step] len]|er] eqn:Es.
        * destruct (IH ld) with (l := st) as [(ld' & t & Q)|(e & He & Q)]; [unfold consumed; cbn [length] in Hc; lia|auto|cbn [length] in Ss; lia| |].
          { left. eexists _, _. constructor; [apply (slice_ok _ _ _ _ _ _ _ N1 Es)|exact Q]. }
          right. exists e. split; auto. intros m. cbn [bind]. rewrite Q. reflexivity.
        * right. exists ValueError. split; auto. intros m. cbn [bind]. unfold slice_bounds in Es. cbv zeta in Es.
          destruct (Z.eqb_spec match c with Some s => s | None => 1 end 0); congruence.
      + destruct (IH ld) with (l := st) as [(ld' & t & Q)|(e & He & Q)]; [exact Hc|auto|auto| |].
        * left. exists (1 :: ld'), (fun p => t (tl p)). constructor. auto.
        * right. exists e. split; auto. intros m. cbn [app walk]. rewrite Q. reflexivity. }
  destruct X as [X|(e & He & X)]; [auto|]. right.
  assert (G : getitem h f key = Err e); [|destruct He; subst; auto].
  unfold getitem, index_view, expand. destruct (Nat.ltb_spec (length (vshape (vw f))) (consumed key)) as [L|L].
  { rewrite Esh, app_length in L. lia. }
  assert (Nf : filter is_ellipsis key = []).
  { clear - Ne. induction key as [|k key IH]; [auto|]. cbn [existsb filter] in *. apply orb_false_iff in Ne. destruct Ne as (-> & Ne). auto. }
  rewrite Nf. cbn [length bind]. rewrite X. reflexivity.
Qed.

Lemma C57_evaluate :
  forall h f ld key ld' t tail r, valid h f ld -> selects key ld ld' t -> tail = [] \/ tail = [KEllipsis] ->
  getitem h f (key ++ tail) = Ok (Object r) ->
  forall tab g Rs,
  (forall e, vevaluate tab g h f Rs = Err e -> vevaluate tab g h r Rs = Err e)
  /\ forall F, vevaluate tab g h f Rs = Ok F -> exists F', vevaluate tab g h r Rs = Ok F'
     /\ forall p i, at_index ld' p -> F' (rev p) i = F (rev (t p)) i.
Proof.
  intros h f ld key ld' t tail r V Hs T G tab g Rs.
  destruct (C57_leading h f ld key ld' t tail V Hs T) as (r' & E & Vr & Em & A). rewrite G in E. apply Ok_inj in E. injection E as <-.
  pose proof V as (S & Esh & Z0). pose proof Vr as (Sr & Er & Zr). rewrite Em in Er.
  unfold vevaluate. rewrite (as_modes_ok _ _ _ Esh), (as_modes_ok _ _ _ Er). cbn [bind]. unfold evaluate, ell_min_of. cbn [plain_modes md nd wid buf]. rewrite Em.
  destruct (SWSH_grid tab g Rs (spin (vmd f)) (ellmax (vmd f))) as [out|e]; cbn [bind]; [|split; [auto|discriminate]].
  match goal with |- context [negb (?a =? ?b)] => destruct (Z.eqb_spec a b) as [Ew|Ew] end; cbn [negb]; [|split; [auto|discriminate]].
  split; [discriminate|]. intros F EF. apply Ok_inj in EF. subst F. eexists. split; [reflexivity|]. intros p i Hp. cbv beta.
  destruct (A p Hp) as (Ht & Q). rewrite Ew.
  assert (X : forall n, (n <= Z.to_nat ((ellmax (vmd f) + 1) ^ 2))%nat -> forall F G, (forall k, 0 <= k < (ellmax (vmd f) + 1) ^ 2 -> F k = G k) -> csum_to n F = csum_to n G).
  { induction n as [|n IH]; intros Hn F0 G0 HF; [reflexivity|]. cbn [csum_to]. rewrite (IH ltac:(lia) F0 G0 HF), HF by lia. reflexivity. }
  apply X; [lia|]. intros k Hk. f_equal. unfold plain. cbn [mem]. rewrite !rev_involutive.
  assert (I1 : in_shape (vshape (vw r)) (p ++ [k]) = true) by (apply in_shape_at; rewrite Er; apply at_index_cons_last; auto).
  assert (I2 : in_shape (vshape (vw f)) (t p ++ [k]) = true) by (apply in_shape_at; rewrite Esh; apply at_index_cons_last; auto).
  rewrite I1, I2. destruct (Q k Hk) as (_ & Qc). exact Qc.
Qed.

(** ** The last axis *)
Lemma for_range_keeps {S} (P : S -> Prop) a b body (s s' : S) :
  (forall i x y, P x -> body i x = Ok y -> P y) -> P s -> for_range a b body s = Ok s' -> P s'.
Proof.
  intros K. unfold for_range. generalize (Z.to_nat (b - a)) as n. intros n. revert a s. induction n as [|n IH]; intros a s Ps E; cbn [for_loop] in E.
  - apply Ok_inj in E. subst. auto.
  - destruct (body a s) as [x|] eqn:Eb; [|discriminate]. cbn [bind] in E. eapply IH; [|exact E]. eapply K; eauto.
Qed.

Lemma SWSH_grid_ncol tab g Rs s L out : SWSH_grid tab g Rs s L = Ok out -> PowersModel.ncol out = (L + 1) ^ 2.
Proof.
  unfold SWSH_grid. destruct (LM_range g 0 L) as [indices|] eqn:El; [|discriminate]. cbn [bind].
  destruct (alen Rs =? 0); [discriminate|]. intros E.
  assert (A : alen indices = (L + 1) ^ 2).
  { destruct (Z_le_gt_dec 0 (L + 1)) as [H|H].
    - destruct (LM_range_ok g 0 L ltac:(lia)) as (LM & E1 & E2 & _). rewrite El in E1. apply Ok_inj in E1. subst LM. rewrite E2, LM_total_sqr. lia.
    - unfold LM_range, np_empty in El. destruct (_ <? 0); [discriminate|]. cbn [bind] in El. unfold LM_range_fill in El.
      rewrite for_range_empty in El by lia. cbn [bind] in El. apply Ok_inj in El. subst indices. cbn [alen]. rewrite Z.pow_2_r. lia. }
  rewrite <- A.
  refine (for_range_keeps (fun v => PowersModel.ncol v = alen indices) _ _ _ _ _ _ _ E); [|reflexivity].
  intros i x y Hx Hy. destruct (rd Rs i); [|discriminate]. cbn [bind] in Hy. destruct (SWSH_core _ _ _ _ _ _); [|discriminate]. cbn [bind] in Hy.
  apply Ok_inj in Hy. subst y. exact Hx.
Qed.

Lemma evaluate_width tab g h m Rs F : evaluate tab g h m Rs = Ok F -> wid (nd m) = (ellmax (md m) + 1) ^ 2.
Proof.
  unfold evaluate, ell_min_of. destruct (SWSH_grid tab g Rs (spin (md m)) (ellmax (md m))) as [out|] eqn:Eg; cbn [bind]; [|discriminate].
  rewrite (SWSH_grid_ncol _ _ _ _ _ _ Eg). set (L := ellmax (md m)). rewrite !LM_col.
  replace (slice_len ((L + 1) ^ 2) (0 * 0 + (0 + - 0)) (L * L + (L + L) + 1)) with ((L + 1) ^ 2).
  - destruct (Z.eqb_spec ((L + 1) ^ 2) (wid (nd m))); [auto|discriminate].
  - unfold slice_len, clip. rewrite Z.pow_2_r. cbn [Z.mul Z.add Z.opp]. destruct (Z.ltb_spec 0 0); [lia|]. destruct (Z.ltb_spec (L * L + (L + L) + 1) 0); nia.
Qed.

Lemma C57_columns :
  forall h f ld a b c len e, valid h f ld -> enumerates ((ellmax (vmd f) + 1) ^ 2) a b c len e ->
  exists r, getitem h f [KEllipsis; KSlice a b c] = Ok (Object r) /\ vmd r = vmd f /\ vshape (vw r) = ld ++ [len]
    /\ (forall p j, at_index ld p -> 0 <= j < len -> cell r p j = cell f p (e j) /\ column h r p j = column h f p (e j))
    /\ (len <> (ellmax (vmd f) + 1) ^ 2 ->
        rebuild h r = Err ValueError /\ forall tab g Rs F, vevaluate tab g h r Rs <> Ok F).
Proof.
  intros h f ld a b c len e (S & Esh & Z0) He. set (w := (ellmax (vmd f) + 1) ^ 2) in *.
  assert (Hw : 0 <= w) by (unfold w; rewrite Z.pow_2_r; nia).
  destruct (slice_get w a b c len e Hw He) as (start & step & Es & Ee).
  destruct (index_last h (vw f) ld w (KSlice a b c) start [len] [step] S Esh eq_refl) as (sl & s & Est & Ls & Ei).
  { intros s. cbn [walk]. rewrite Es. cbn [bind map]. rewrite Z.add_0_r. reflexivity. }
  cbn [map] in Ei. set (v := mkview (vbuf (vw f)) (ld ++ [len]) (vstart (vw f) + start * s) (sl ++ [step * s])) in *.
  assert (Er : vshape v = ld ++ [len]) by reflexivity.
  exists (mkvmodes v (vmd f)). split.
  { unfold getitem. rewrite Ei. cbn [bind]. rewrite Er. destruct (ld ++ [len]) eqn:El; [destruct ld; discriminate|reflexivity]. }
  split; [reflexivity|]. split; [reflexivity|]. split.
  - intros p j Hp Hj. pose proof (at_index_length _ _ Hp) as Lp.
    assert (Ea : addr v (p ++ [j]) = addr (vw f) (p ++ [e j])).
    { unfold addr. cbn [v vstart vstrides]. rewrite Est, !dot_app by lia. cbn [dot]. rewrite <- Ee by auto. lia. }
    unfold cell, column, entry. cbn [vw]. rewrite Ea. auto.
  - intros Hn. split.
    + unfold rebuild, inplace. rewrite (as_modes_ok _ ld len) by reflexivity. cbn [bind]. unfold Modes_new.
      cbn [positional bind kw_spin kw_ell_min kw_ell_max kw_trunc no_kw orelse option_map plain_modes md nd wid vmd]. rewrite LM_total_sqr.
      destruct (Z.eqb_spec len ((ellmax (vmd f) + 1) ^ 2 - 0 ^ 2)) as [E0|E0]; [unfold w in Hn; lia|]. reflexivity.
    + intros tab g Rs F. unfold vevaluate. rewrite (as_modes_ok _ ld len) by reflexivity. cbn [bind]. intros E0.
      apply evaluate_width in E0. cbn [plain_modes nd md wid vmd] in E0. contradiction.
Qed.

Lemma C57_mode :
  forall h f ld ell m k, valid h f ld -> vindex f ell m = Ok k ->
  (forall p, at_index ld p -> getitem h f (map KInt p ++ [KInt k]) = Ok (Number (vmode h f p ell m)))
  /\ exists r, getitem h f [KEllipsis; KInt k] = Ok (Object r) /\ vshape (vw r) = ld
     /\ forall p, at_index ld p -> entry h (vw r) p = vmode h f p ell m.
Proof.
  intros h f ld ell m k (S & Esh & Z0) Hk. unfold vindex in Hk. rewrite (as_modes_ok _ _ _ Esh) in Hk. cbn [bind] in Hk.
  unfold index, ell_min_of in Hk. cbn [plain_modes md] in Hk.
  destruct (Z.ltb_spec ell (Z.abs (spin (vmd f)))); cbn [orb] in Hk; [discriminate|].
  destruct (Z.ltb_spec ell (Z.abs m)); [discriminate|].
  destruct (Z.ltb_spec ell 0); cbn [orb] in Hk; [discriminate|]. rewrite Z.gtb_ltb in Hk.
  destruct (Z.ltb_spec (ellmax (vmd f)) ell); [discriminate|]. apply Ok_inj in Hk. rewrite LM_col in Hk.
  set (w := (ellmax (vmd f) + 1) ^ 2) in *.
  assert (Hw : 0 <= k < w) by (subst k; apply sq_col; lia).
  split.
  - intros p Hp.
    pose proof S as (_ & Ss & Sn & _). rewrite Esh in Ss, Sn.
    assert (Q : selects (map KInt (p ++ [k])) (ld ++ [w]) [] (fun q => (p ++ [k]) ++ q)).
    { assert (Hpk : at_index (ld ++ [w]) (p ++ [k])) by (apply at_index_cons_last; auto). revert Hpk. generalize (ld ++ [w]) (p ++ [k]).
      induction 1 as [|n i sh q Hi Hp' IH]; [constructor|]. cbn [map].
      assert (Ei : i mod n = i) by (apply Z.mod_small; auto). pose proof (sel_int i n (map KInt q) sh [] (fun x => q ++ x) ltac:(lia) IH) as X. rewrite Ei in X. exact X. }
    rewrite map_app in Q. cbn [map] in Q. unfold getitem, index_view.
    pose proof (selects_consumed _ _ _ _ Q) as Cq. pose proof (expand_selects _ _ _ _ [] _ Q Cq (or_introl eq_refl)) as Eq. rewrite app_nil_r in Eq.
    rewrite Esh, Eq. cbn [bind].
    destruct (walk_selects _ _ _ _ Q [] (vstrides (vw f))) as (o & st' & E & L' & _ & A & _); [rewrite app_nil_r; auto|rewrite app_nil_r; auto|].
    rewrite app_nil_r in E. rewrite E. cbn [bind app vshape].
    assert (Ne : existsb is_ellipsis (map KInt p ++ [KInt k]) = false).
    { clear. induction p; [reflexivity|]. cbn [map app existsb is_ellipsis orb]. auto. }
    rewrite Ne. do 2 f_equal. unfold vmode, column, entry. rewrite Hk. cbn [vbuf]. f_equal. unfold addr. cbn [vstart vstrides dot].
    destruct (A []) as (_ & A2); [constructor|]. specialize (A2 []). cbn [app dot] in A2. rewrite !app_nil_r in A2. destruct st'; cbn [dot] in *; lia.
  - destruct (index_last h (vw f) ld w (KInt k) k [] [] S Esh eq_refl) as (sl & s & Est & Ls & Ei).
    { intros s. cbn [walk]. unfold norm_index, in_bounds. destruct (Z.ltb_spec k 0); [lia|]. destruct (Z.leb_spec 0 k); [|lia].
      destruct (Z.ltb_spec k w); [|lia]. cbn [andb bind map]. rewrite Z.add_0_r. reflexivity. }
    cbn [map] in Ei. rewrite !app_nil_r in Ei. eexists. split.
    { unfold getitem. rewrite Ei. cbn [bind vshape existsb is_ellipsis orb]. destruct ld; reflexivity. }
    split; [reflexivity|]. intros p Hp. pose proof (at_index_length _ _ Hp) as Lp. unfold vmode, column, entry. cbn [vw vbuf]. f_equal. unfold addr. cbn [vstart vstrides].
    rewrite Est, dot_app by lia. cbn [dot]. rewrite <- Hk. lia.
Qed.

(** ** Copies and pickles *)
Lemma C57_copy :
  forall h f ld, valid h f ld -> exists h' r, vcopy h f = (h', r) /\ separate_twin h h' f r ld.
Proof.
  intros h f ld (S & Esh & Z0). unfold vcopy. destruct (valloc h (vshape (vw f)) (entry h (vw f))) as [h' v] eqn:E.
  exists h', (mkvmodes v (vmd f)). split; [reflexivity|].
  destruct (valloc_ok _ _ _ _ _ (proj1 (proj2 (proj2 S))) E) as (Sv & Ev & Bv & Kv & Dv).
  split; [exact Bv|]. split; [exact Kv|].
  assert (C : forall p k, at_index ld p -> 0 <= k < (ellmax (vmd f) + 1) ^ 2 -> column h' (mkvmodes v (vmd f)) p k = column h f p k).
  { intros p k Hp Hk. unfold column. cbn [vw]. apply Dv. rewrite Esh. apply at_index_cons_last; auto. }
  split; [|split; [reflexivity|exact C]]. split; [exact Sv|]. cbn [vw vmd]. split; [congruence|].
  intros p ell m Hp He Hl Hm. unfold vmode. rewrite C by (auto; apply sq_col; auto). apply Z0; auto.
Qed.

Lemma Forall2_rev_at sh p : at_index sh p -> at_index (rev sh) (rev p).
Proof. induction 1 as [|n i sh p Hi Hp IH]; [constructor|]. cbn [rev]. apply at_index_cons_last; auto. Qed.

Lemma C57_pickle :
  forall h f ld fortran h2, valid h f ld ->
  exists h' r, setstate h2 (reduce h f fortran) = (h', r)
    /\ (vnext h2 <= vbuf (vw r) < vnext h')%nat /\ (forall b, (b < vnext h2)%nat -> forall a, vmem h' b a = vmem h2 b a)
    /\ valid h' r ld /\ vmd r = vmd f
    /\ forall p k, at_index ld p -> 0 <= k < (ellmax (vmd f) + 1) ^ 2 -> column h' r p k = column h f p k.
Proof.
  intros h f ld fo h2 (S & Esh & Z0). unfold setstate, reduce. cbn [p_shape p_fortran p_data p_meta].
  match goal with |- context [valloc h2 ?sh ?F] => destruct (valloc h2 sh F) as [h' v] eqn:E end.
  exists h', (mkvmodes v (vmd f)). split; [reflexivity|].
  destruct (valloc_ok _ _ _ _ _ (proj1 (proj2 (proj2 S))) E) as (Sv & Ev & Bv & Kv & Dv).
  split; [exact Bv|]. split; [exact Kv|].
  assert (C : forall p k, at_index ld p -> 0 <= k < (ellmax (vmd f) + 1) ^ 2 -> column h' (mkvmodes v (vmd f)) p k = column h f p k).
  { intros p k Hp Hk. unfold column. cbn [vw].
    assert (A : at_index (vshape (vw f)) (p ++ [k])) by (rewrite Esh; apply at_index_cons_last; auto).
    rewrite Dv by exact A. destruct fo.
    - pose proof (flatten_at (mknda (rev (vshape (vw f))) (fun q => entry h (vw f) (rev q))) (rev (p ++ [k])) (Forall2_rev_at _ _ A)) as X.
      cbn [nshape nval] in X. rewrite X, rev_involutive. reflexivity.
    - apply (flatten_at (mknda (vshape (vw f)) (entry h (vw f))) (p ++ [k]) A). }
  split; [|split; [reflexivity|exact C]]. split; [exact Sv|]. cbn [vw vmd]. split; [congruence|].
  intros p ell m Hp He Hl Hm. unfold vmode. rewrite C by (auto; apply sq_col; auto). apply Z0; auto.
Qed.

(** ** In-place operations on a view *)
Lemma view_inplace op h f ld key ld' t tail r h1 r1 :
  valid h f ld -> selects key ld ld' t -> tail = [] \/ tail = [KEllipsis] -> getitem h f (key ++ tail) = Ok (Object r) ->
  op (plain h (vw r)) (plain_modes r ld' ((ellmax (vmd f) + 1) ^ 2)) = Ok (h1, r1) ->
  nd r1 = nd (plain_modes r ld' ((ellmax (vmd f) + 1) ^ 2)) -> wf h1 r1 -> ellmax (md r1) = ellmax (vmd f) -> Z.abs (spin (md r1)) = Z.abs (spin (vmd f)) ->
  exists h', inplace op h r = Ok (h', mkvmodes (vw r) (md r1)) /\ valid h' (mkvmodes (vw r) (md r1)) ld' /\ valid h' f ld
    /\ only_cells r ld' h h'
    /\ (forall p ell m, at_index ld' p -> 0 <= ell <= ellmax (vmd f) -> - ell <= m <= ell ->
          vmode h' f (t p) ell m = mode h1 r1 (rev p) ell m /\ vmode h' (mkvmodes (vw r) (md r1)) p ell m = mode h1 r1 (rev p) ell m)
    /\ forall q ell m, at_index ld q -> (forall p, at_index ld' p -> t p <> q) -> 0 <= ell <= ellmax (vmd f) -> - ell <= m <= ell ->
          vmode h' f q ell m = vmode h f q ell m.
Proof.
  intros V Hs T G Eop En W1 EL Es.
  destruct (C57_leading h f ld key ld' t tail V Hs T) as (r' & E & Vr & Em & A). rewrite G in E. apply Ok_inj in E. injection E as <-.
  pose proof V as (S & Esh & Z0). pose proof Vr as (Sr & Er & Zr). rewrite Em in Er.
  destruct (inplace_ok op h r ld' _ h1 r1 Sr Er Eop) as (h' & Ei & Nx & D & K).
  exists h'. split; [exact Ei|]. set (w := (ellmax (vmd f) + 1) ^ 2) in *.
  assert (M1 : forall p ell m, at_index ld' p -> 0 <= ell <= ellmax (vmd f) -> - ell <= m <= ell -> vmode h' r p ell m = mode h1 r1 (rev p) ell m).
  { intros p ell m Hp He Hm. unfold vmode, mode. rewrite En. cbn [plain_modes nd buf]. apply D; auto. apply sq_col; auto. }
  assert (M2 : forall p ell m, at_index ld' p -> 0 <= ell <= ellmax (vmd f) -> - ell <= m <= ell -> vmode h' f (t p) ell m = mode h1 r1 (rev p) ell m).
  { intros p ell m Hp He Hm. rewrite <- M1 by auto. destruct (A p Hp) as (_ & Q). destruct (Q (ell * ell + (ell + m))) as (Q1 & _); [apply sq_col; auto|].
    unfold cell in Q1. injection Q1 as Qa Qb. unfold vmode, column, entry. rewrite Qa, Qb. reflexivity. }
  assert (M3 : forall q ell m, at_index ld q -> (forall p, at_index ld' p -> t p <> q) -> 0 <= ell <= ellmax (vmd f) -> - ell <= m <= ell ->
          vmode h' f q ell m = vmode h f q ell m).
  { intros q ell m Hq Nq He Hm. unfold vmode, column, entry. apply K. intros p k Hp Hk Ec. destruct (A p Hp) as (Ht & Q). destruct (Q k Hk) as (Q1 & _).
    rewrite Q1 in Ec. unfold cell in Ec. injection Ec as Ec. destruct S as (_ & _ & _ & I). apply I in Ec.
    - apply app_inj_tail in Ec. apply (Nq p Hp). symmetry. tauto.
    - rewrite Esh. apply at_index_cons_last; auto. apply sq_col; auto.
    - rewrite Esh. apply at_index_cons_last; auto. }
  assert (So : forall v, sound h v -> sound h' v) by (intros v (B & R); split; [rewrite Nx; exact B|exact R]).
  destruct W1 as (_ & _ & Wz).
  split; [|split; [|split; [|split; [|exact M3]]]].
  - split; [apply So, Sr|]. cbn [vw vmd]. rewrite EL. split; [exact Er|]. intros p ell m Hp He Hl Hm.
    change (vmode h' r p ell m = RtoC 0). rewrite M1 by auto. apply Wz; auto. lia.
  - split; [apply So, S|]. split; [exact Esh|]. intros q ell m Hq He Hl Hm.
    destruct (in_dec (list_eq_dec Z.eq_dec) q (map t (positions ld'))) as [I|I].
    + apply in_map_iff in I. destruct I as (p & <- & Ip). apply in_positions in Ip. rewrite M2 by auto. apply Wz; auto; lia.
    + rewrite M3; auto. intros p Hp Ep. apply I. apply in_map_iff. exists p. split; [auto|]. apply in_positions. auto.
  - split; [exact Nx|]. intros b a Ho. apply K. intros p k Hp Hk. apply Ho. rewrite Em. apply at_index_cons_last; auto.
  - intros p ell m Hp He Hm. split; [auto|]. change (vmode h' r p ell m = mode h1 r1 (rev p) ell m). auto.
Qed.

Lemma C57_conjugate :
  forall h f ld key ld' t tail r, valid h f ld -> selects key ld ld' t -> tail = [] \/ tail = [KEllipsis] ->
  getitem h f (key ++ tail) = Ok (Object r) ->
  exists h' r', inplace (fun h m => conjugate h m true) h r = Ok (h', r')
    /\ vw r' = vw r /\ vmd r' = mkmeta (- spin (vmd f)) (ellmax (vmd f)) (truncator (vmd f)) /\ valid h' r' ld' /\ valid h' f ld
    /\ only_cells r ld' h h'
    /\ (forall p ell m, at_index ld' p -> 0 <= ell <= ellmax (vmd f) -> - ell <= m <= ell ->
          vmode h' f (t p) ell m = vmode h' r' p ell m
          /\ vmode h' r' p ell m = (let x := Cconj (vmode h f (t p) ell (- m)) in if Z.even (spin (vmd f) + m) then x else (- x)%C))
    /\ forall q ell m, at_index ld q -> (forall p, at_index ld' p -> t p <> q) -> 0 <= ell <= ellmax (vmd f) -> - ell <= m <= ell ->
          vmode h' f q ell m = vmode h f q ell m.
Proof.
  intros h f ld key ld' t tail r V Hs T G.
  destruct (C57_leading h f ld key ld' t tail V Hs T) as (r' & E & Vr & Em & A). rewrite G in E. apply Ok_inj in E. injection E as <-.
  pose proof (plain_wf _ _ _ Vr) as W. rewrite Em in W.
  destruct (conjugate_inplace _ _ W) as (h1 & r1 & E1 & En & Emd & _ & W1 & _ & M).
  cbn [plain_modes md] in Emd. rewrite Em in Emd.
  destruct (view_inplace (fun h m => conjugate h m true) h f ld key ld' t tail r h1 r1 V Hs T G E1 En W1) as (h' & Ei & Vi & Vf & Oc & Mi & Mo);
    [rewrite Emd; reflexivity|rewrite Emd; cbn [spin]; lia|].
  exists h', (mkvmodes (vw r) (md r1)). split; [exact Ei|]. split; [reflexivity|]. split; [exact Emd|]. split; [exact Vi|]. split; [exact Vf|]. split; [exact Oc|].
  split; [|exact Mo]. intros p ell m Hp He Hm. destruct (Mi p ell m Hp He Hm) as (M1 & M2). split; [congruence|]. rewrite M2.
  rewrite M by (cbn [plain_modes md]; rewrite ?Em; auto). unfold conj_data. cbn [plain_modes md]. rewrite Em.
  pose proof (plain_mode h r ld' p ell (- m) Vr Hp) as Pm. rewrite Em in Pm. rewrite Pm by lia.
  assert (Q : vmode h r p ell (- m) = vmode h f (t p) ell (- m)).
  { unfold vmode. apply (A p Hp). apply sq_col; lia. }
  rewrite Q. unfold sgn. cbv zeta. destruct (Z.even (spin (vmd f) + m)); [ring|]. replace (RtoC (-1)) with (- RtoC 1)%C by (rewrite <- RtoC_opp; f_equal; lra). ring.
Qed.

Lemma C57_real_imag :
  forall h f ld key ld' t tail r, valid h f ld -> spin (vmd f) = 0 -> selects key ld ld' t -> tail = [] \/ tail = [KEllipsis] ->
  getitem h f (key ++ tail) = Ok (Object r) ->
  forall part : bool,
  exists h', inplace (fun h m => if part then real_func h m true else imag_func h m true) h r = Ok (h', r)
    /\ valid h' r ld' /\ valid h' f ld /\ only_cells r ld' h h'
    /\ (forall p ell m, at_index ld' p -> 0 <= ell <= ellmax (vmd f) -> - ell <= m <= ell ->
          vmode h' f (t p) ell m =
            (let x := vmode h f (t p) ell m in let y := Cconj (vmode h f (t p) ell (- m)) in let y := if Z.even m then y else (- y)%C in
             if part then (x + y) / RtoC 2 else - Ci * (x - y) / RtoC 2)%C)
    /\ forall q ell m, at_index ld q -> (forall p, at_index ld' p -> t p <> q) -> 0 <= ell <= ellmax (vmd f) -> - ell <= m <= ell ->
          vmode h' f q ell m = vmode h f q ell m.
Proof.
  intros h f ld key ld' t tail r V S0 Hs T G part.
  destruct (C57_leading h f ld key ld' t tail V Hs T) as (r' & E & Vr & Em & A). rewrite G in E. apply Ok_inj in E. injection E as <-.
  pose proof (plain_wf _ _ _ Vr) as W. rewrite Em in W. set (op := fun h m => if part then real_func h m true else imag_func h m true).
  assert (X : exists h1, op (plain h (vw r)) (plain_modes r ld' ((ellmax (vmd f) + 1) ^ 2)) = Ok (h1, plain_modes r ld' ((ellmax (vmd f) + 1) ^ 2))
    /\ wf h1 (plain_modes r ld' ((ellmax (vmd f) + 1) ^ 2))
    /\ forall idx ell mm, 0 <= ell <= ellmax (vmd f) -> - ell <= mm <= ell -> mode h1 (plain_modes r ld' ((ellmax (vmd f) + 1) ^ 2)) idx ell mm
         = (if part then real_data else imag_data) (plain h (vw r)) (plain_modes r ld' ((ellmax (vmd f) + 1) ^ 2)) idx ell mm).
  { assert (S1 : spin (md (plain_modes r ld' ((ellmax (vmd f) + 1) ^ 2))) = 0) by (cbn [plain_modes md]; rewrite Em; exact S0).
    unfold op. destruct part.
    - destruct (real_inplace _ _ W S1) as (h1 & E1 & _ & W1 & _ & M). cbn [plain_modes md] in M. rewrite Em in M. eauto.
    - destruct (imag_inplace _ _ W S1) as (h1 & E1 & _ & W1 & _ & M). cbn [plain_modes md] in M. rewrite Em in M. eauto. }
  destruct X as (h1 & E1 & W1 & M).
  destruct (view_inplace op h f ld key ld' t tail r h1 _ V Hs T G E1 eq_refl W1) as (h' & Ei & Vi & Vf & Oc & Mi & Mo);
    [cbn [plain_modes md]; rewrite Em; reflexivity|cbn [plain_modes md]; rewrite Em; reflexivity|].
  cbn [plain_modes md] in Ei, Vi. replace (mkvmodes (vw r) (vmd r)) with r in * by (destruct r; reflexivity).
  exists h'. split; [exact Ei|]. split; [exact Vi|]. split; [exact Vf|]. split; [exact Oc|]. split; [|exact Mo].
  intros p ell m Hp He Hm. destruct (Mi p ell m Hp He Hm) as (-> & _). rewrite M by auto.
  assert (Q : forall m, - ell <= m <= ell -> mode (plain h (vw r)) (plain_modes r ld' ((ellmax (vmd f) + 1) ^ 2)) (rev p) ell m = vmode h f (t p) ell m).
  { intros m' Hm'. pose proof (plain_mode h r ld' p ell m' Vr Hp) as Pm. rewrite Em in Pm. rewrite Pm by auto. unfold vmode. apply (A p Hp). apply sq_col; auto. }
  assert (Sg : forall y, (RtoC (sgn m) * y)%C = if Z.even m then y else (- y)%C).
  { intros y. unfold sgn. destruct (Z.even m); [ring|]. replace (RtoC (-1)) with (- RtoC 1)%C by (rewrite <- RtoC_opp; f_equal; lra). ring. }
  cbv zeta. destruct part; cbv beta iota; unfold real_data, imag_data; rewrite !Q, Sg by lia; reflexivity.
Qed.

(** ** [Modes(f)] *)
Lemma C57_rebuild :
  forall h f ld, valid h f ld -> 0 <= ellmax (vmd f) ->
  exists h', rebuild h f = Ok (h', f) /\ vnext h' = vnext h /\ forall b a, vmem h' b a = vmem h b a.
Proof.
  intros h f ld V HL. pose proof V as (S & Esh & Z0). pose proof (plain_wf _ _ _ V) as W.
  set (w := (ellmax (vmd f) + 1) ^ 2) in *.
  assert (X : exists h1, (fun h m => Modes_new h (InArr (nd m)) (Some (md m)) [] no_kw) (plain h (vw f)) (plain_modes f ld w) = Ok (h1, plain_modes f ld w)
     /\ forall idx k, 0 <= k < w -> mem h1 0 idx k = mem (plain h (vw f)) 0 idx k).
  { destruct (construct_ok (plain h (vw f)) (nd (plain_modes f ld w)) (vmd f) eq_refl) as (h1 & E1 & _ & _ & D).
    exists h1. split.
    - refine (eq_trans _ E1). unfold construct, Modes_new, kw_of.
      cbn [positional bind kw_spin kw_ell_min kw_ell_max kw_trunc no_kw orelse option_map plain_modes md nd wid].
      destruct (truncator (vmd f)); reflexivity.
    - intros idx k Hk. destruct (column_mode (ellmax (vmd f)) k Hk ltac:(lia)) as (ell & m & He & Hm & ->).
      cbn [plain_modes nd buf] in D. rewrite D by auto. destruct (Z.ltb_spec ell (Z.abs (spin (vmd f)))) as [Hl|Hl]; [|reflexivity].
      destruct W as (_ & _ & Wz). cbn [plain_modes md] in Wz. symmetry. apply (Wz idx ell m); auto. }
  destruct X as (h1 & E1 & D). destruct (inplace_ok (fun h m => Modes_new h (InArr (nd m)) (Some (md m)) [] no_kw) h f ld w h1 _ S Esh E1) as (h' & Ei & Nx & C & K).
  cbn [plain_modes md] in Ei. replace (mkvmodes (vw f) (vmd f)) with f in Ei by (destruct f; reflexivity).
  exists h'. split; [exact Ei|]. split; [exact Nx|]. intros b a.
  destruct (Nat.eq_dec b (vbuf (vw f))) as [->|Nb].
  2:{ apply K. intros p k _ _ Ec. unfold cell in Ec. congruence. }
  destruct (find (fun q => addr (vw f) q =? a) (positions (vshape (vw f)))) as [q|] eqn:Ef.
  - apply find_some in Ef. destruct Ef as (E2 & E3). apply Z.eqb_eq in E3. apply in_positions in E2. pose proof E2 as E2'. rewrite Esh in E2.
    destruct (at_index_split _ _ _ E2) as (p & k & -> & Hp & Hk). specialize (C p k Hp Hk). unfold column, entry in C. rewrite E3 in C. rewrite C, D by auto.
    unfold plain. cbn [mem]. rewrite rev_involutive. apply in_shape_at in E2'. rewrite E2'. unfold entry. rewrite E3. reflexivity.
  - apply K. intros p k Hp Hk Ec. unfold cell in Ec. injection Ec as Ec. assert (N := find_none _ _ Ef (p ++ [k])). cbv beta in N.
    rewrite Ec, Z.eqb_refl in N. discriminate N. apply in_positions. rewrite Esh. apply at_index_cons_last; auto.
Qed.

(** ** Refutations *)

(** Two functions of spin weight 1 with ell_max = 1, all modes 1 *)
Definition two_heap : vheap := mkvheap 1 (fun _ a => if a mod 4 =? 0 then RtoC 0 else RtoC 1).
Definition two : vmodes := mkvmodes (mkview 0 [2; 4] 0 [4; 1]) (mkmeta 1 1 None).
Lemma two_valid : valid two_heap two [2].
Proof.
  split.
  - split; [cbn; lia|]. split; [reflexivity|]. split; [repeat constructor; lia|]. cbn [two vw vshape]. intros p q Hp Hq E.
    inversion Hp as [|? i ? p1 Hi Hp1]; subst. inversion Hp1 as [|? k ? p2 Hk Hp2]; subst. inversion Hp2; subst.
    inversion Hq as [|? i' ? q1 Hi' Hq1]; subst. inversion Hq1 as [|? k' ? q2 Hk' Hq2]; subst. inversion Hq2; subst.
    unfold addr in E. cbn [two vw vstart vstrides dot] in E. assert (i = i') by lia. assert (k = k') by lia. subst. reflexivity.
  - split; [reflexivity|]. cbn [two vmd spin ellmax]. intros p ell m Hp He Hl Hm. assert (ell = 0) by lia. assert (m = 0) by lia. subst.
    inversion Hp as [|? i ? p1 Hi Hp1]; subst. inversion Hp1; subst. unfold vmode, column, entry, addr. cbn [two vw vbuf vstart vstrides app dot vmem two_heap].
    replace ((0 + (i * 4 + ((0 * 0 + (0 + 0)) * 1 + 0))) mod 4) with 0; [reflexivity|].
    replace (0 + (i * 4 + ((0 * 0 + (0 + 0)) * 1 + 0))) with (i * 4) by lia. symmetry. apply Z.mod_mul. lia.
Qed.

(** An in-place operation on a part of [f] leaves [f] as it was. *)
Lemma C57_alias_refuted :
  exists h f ld r h' r' ell m, valid h f ld /\ getitem h f [KInt 0] = Ok (Object r)
    /\ inplace (fun h m => conjugate h m true) h r = Ok (h', r')
    /\ vindex f ell m <> Err ValueError /\ vmode h' f [0] ell m <> vmode h f [0] ell m.
Proof.
  pose proof (sel_int 0 2 [] [2] [] (fun p => p)) as X.
  assert (S : selects [KInt 0] [2] [] (fun p => 0 mod 2 :: p)) by (constructor; [lia|constructor]). clear X.
  destruct (C57_leading two_heap two [2] [KInt 0] [] _ [] two_valid S (or_introl eq_refl)) as (r & E & _).
  destruct (C57_conjugate two_heap two [2] [KInt 0] [] _ [] r two_valid S (or_introl eq_refl) E) as (h' & r' & Ei & _ & _ & _ & _ & _ & M & _).
  exists two_heap, two, [2], r, h', r', 1, 0. split; [exact two_valid|]. split; [exact E|]. split; [exact Ei|]. split; [discriminate|].
  destruct (M [] 1 0) as (M1 & M2); [constructor|cbn; lia|lia|]. change (0 mod 2 :: []) with [0] in M1, M2. rewrite M1, M2.
  cbn. intros H. apply (f_equal Re) in H. cbn in H. lra.
Qed.

(** What [f[key]] returns keeps the promises of the class; making a Modes object of it has no effect on [f]. *)
Lemma C57_reversed_refuted :
  exists h f ld r h' r' ell m, valid h f ld
    /\ getitem h f [KEllipsis; KSlice None None (Some (-1))] = Ok (Object r) /\ vshape (vw r) = vshape (vw f) /\ ~ valid h r ld
    /\ rebuild h r = Ok (h', r') /\ vindex f ell m <> Err ValueError /\ vmode h' f [0] ell m <> vmode h f [0] ell m.
Proof.
  exists two_heap, two, [2]. eexists _, _, _, 1, 1. split; [exact two_valid|]. split; [reflexivity|]. split; [reflexivity|]. split.
  - intros (_ & _ & Z0). specialize (Z0 [0] 0 0). cbn [vmd two spin ellmax] in Z0. specialize (Z0 ltac:(constructor; [lia|constructor]) ltac:(lia) ltac:(lia) ltac:(lia)).
    apply (f_equal Re) in Z0. cbn in Z0. lra.
  - split; [reflexivity|]. split; [discriminate|]. unfold vmode, column, entry. cbn [two vw vbuf vshape].
    unfold write_view. cbn [vmem vbuf vshape]. change (Nat.eqb 0 0) with true. cbv iota.
    match goal with |- context [find ?P ?l] => replace (find P l) with (Some [0; 0]) by (vm_compute; reflexivity) end.
    cbn. intros H. apply (f_equal Re) in H. cbn in H. lra.
Qed.
