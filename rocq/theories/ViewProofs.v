(** Slices, keys and memory of views. *)
Require Import ZArith List Bool Reals Lia.
From Coquelicot Require Import Complex.
From Verif Require Import Base CBase DRep WignerModel SWSHModel ModesModel ModesSpec HCallModel HCallProps SWSHCallModel SWSHCallProps
  ViewModel ViewSpec BaseProofs.
Import ListNotations.
Open Scope Z_scope.

(** ** Slices *)

Lemma increasing_unique (e e' : Z -> Z) len len' (P : Z -> Prop) :
  0 <= len -> 0 <= len' ->
  (forall j, 0 <= j < len -> P (e j)) -> (forall x, P x -> exists j, 0 <= j < len /\ e j = x) ->
  (forall j k, 0 <= j < k -> k < len -> e j < e k) ->
  (forall j, 0 <= j < len' -> P (e' j)) -> (forall x, P x -> exists j, 0 <= j < len' /\ e' j = x) ->
  (forall j k, 0 <= j < k -> k < len' -> e' j < e' k) ->
  len = len' /\ forall j, 0 <= j < len -> e j = e' j.
Proof.
  intros N N' A B M A' B' M'.
  assert (S : forall n j, 0 <= j < Z.of_nat n -> j < len -> j < len' -> e j = e' j).
  { induction n as [|n IH]; intros j Hj Hl Hl'; [lia|].
    destruct (B (e' j)) as (k & Hk & Ek); [apply A'; lia|]. destruct (B' (e j)) as (k' & Hk' & Ek'); [apply A; lia|].
    assert (j <= k). { destruct (Z_lt_ge_dec k j); [|lia]. assert (e k = e' k) by (apply IH; lia). assert (e' k < e' j) by (apply M'; lia). lia. }
    assert (j <= k'). { destruct (Z_lt_ge_dec k' j); [|lia]. assert (e k' = e' k') by (apply IH; lia). assert (e k' < e j) by (apply M; lia). lia. }
    assert (e j <= e k). { destruct (Z.eq_dec j k); [subst; lia|]. assert (e j < e k) by (apply M; lia). lia. }
    assert (e' j <= e' k'). { destruct (Z.eq_dec j k'); [subst; lia|]. assert (e' j < e' k') by (apply M'; lia). lia. }
    lia. }
  assert (S' : forall j, 0 <= j -> j < len -> j < len' -> e j = e' j) by (intros j ? ? ?; apply (S (Z.to_nat (j + 1))); lia).
  assert (L : len = len').
  { destruct (Z.lt_trichotomy len len') as [L|[L|L]]; auto; exfalso.
    - destruct (B (e' len)) as (k & Hk & Ek); [apply A'; lia|]. rewrite S' in Ek by lia. assert (e' k < e' len) by (apply M'; lia). lia.
    - destruct (B' (e len')) as (k & Hk & Ek); [apply A; lia|]. rewrite <- S' in Ek by lia. assert (e k < e len') by (apply M; lia). lia. }
  split; auto. intros j Hj. apply S'; lia.
Qed.

Lemma enumerates_unique n a b c len e len' e' : enumerates n a b c len e -> enumerates n a b c len' e' ->
  len = len' /\ forall j, 0 <= j < len -> e j = e' j.
Proof.
  intros (_ & N & A & B & M) (_ & N' & A' & B' & M'). cbv zeta in M, M'.
  destruct (0 <? match c with Some c => c | None => 1 end) eqn:S.
  - apply (increasing_unique e e' len len' (picked n a b c)); auto.
  - destruct (increasing_unique (fun j => - e j) (fun j => - e' j) len len' (fun x => picked n a b c (- x))) as (L & Q); auto.
    + intros j Hj. rewrite Z.opp_involutive. auto.
    + intros x Hx. destruct (B _ Hx) as (j & Hj & E). exists j. split; auto. lia.
    + intros j k Hj Hk. specialize (M j k Hj Hk). lia.
    + intros j Hj. rewrite Z.opp_involutive. auto.
    + intros x Hx. destruct (B' _ Hx) as (j & Hj & E). exists j. split; auto. lia.
    + intros j k Hj Hk. specialize (M' j k Hj Hk). lia.
    + split; auto. intros j Hj. specialize (Q j Hj). lia.
Qed.

Lemma enumerates_range n a b c len e j : enumerates n a b c len e -> 0 <= j < len -> 0 <= e j < n.
Proof. intros (_ & _ & A & _) Hj. destruct (A j Hj) as (R & _). exact R. Qed.

Lemma enumerates_inj n a b c len e j k : enumerates n a b c len e -> 0 <= j < len -> 0 <= k < len -> e j = e k -> j = k.
Proof.
  intros (_ & _ & _ & _ & M) Hj Hk E. cbv zeta in M. destruct (Z.lt_trichotomy j k) as [L|[L|L]]; auto; exfalso.
  - specialize (M j k). destruct (0 <? _); lia.
  - specialize (M k j). destruct (0 <? _); lia.
Qed.

(** The count of CPython *)
Lemma count_up lo hi c : 0 < c -> lo < hi -> forall j, 0 <= j -> (lo + c * j < hi <-> j < (hi - lo - 1) / c + 1).
Proof.
  intros Hc H j Hj. pose proof (Z.div_mod (hi - lo - 1) c ltac:(lia)) as D. pose proof (Z.mod_pos_bound (hi - lo - 1) c Hc) as B.
  set (d := (hi - lo - 1) / c) in *. clearbody d. split; intros; nia.
Qed.

Lemma slice_ok n a b c start step len : 0 <= n -> slice_bounds n a b c = Ok (start, step, len) ->
  enumerates n a b c len (fun j => start + step * j).
Proof.
  intros Hn E. unfold slice_bounds in E. cbv zeta in E.
  set (c' := match c with Some s => s | None => 1 end) in *.
  destruct (Z.eqb_spec c' 0) as [|C0]; [discriminate|]. apply Ok_inj in E. injection E as E1 E2 E3. subst step.
  unfold enumerates, picked. cbv zeta. fold c'.
  destruct (Z.ltb_spec c' 0) as [Neg|Pos].
  - (* downwards *)
    destruct (Z.ltb_spec 0 c') as [|_]; [lia|].
    set (lo := match a with Some a => Z.min (n - 1) (if a <? 0 then a + n else a) | None => n - 1 end).
    set (hi := match b with Some b => if b <? 0 then b + n else b | None => -1 end).
    assert (Hs : start = Z.max (-1) lo).
    { subst start lo. destruct a as [a|]; [destruct (Z.ltb_spec a 0)|]; lia. }
    match type of E3 with (if ?stop <? _ then _ else _) = _ => assert (Ht : stop = Z.max (-1) (Z.min (n - 1) hi)) end.
    { subst hi. destruct b as [b|]; [destruct (Z.ltb_spec b 0)|]; lia. }
    rewrite Ht, E1 in E3. clear E1 Ht. set (stop := Z.max (-1) (Z.min (n - 1) hi)) in *.
    assert (Hlo : lo <= n - 1) by (subst lo; destruct a as [a|]; [destruct (Z.ltb_spec a 0)|]; lia).
    split; [auto|].
    destruct (Z.ltb_spec stop start) as [L|L].
    + pose proof (count_up (- start) (- stop) (- c') ltac:(lia) ltac:(lia)) as K.
      replace (- stop - - start - 1) with (start - stop - 1) in K by lia. rewrite E3 in K.
      assert (P0 : 0 < len) by (apply K; lia).
      split; [lia|]. split; [|split].
      * intros j Hj. assert (- start + - c' * j < - stop) by (apply K; lia).
        assert (start + c' * j <= start) by nia.
        split; [lia|]. split; [lia|]. exists j. lia.
      * intros x (Hx & Hr & (d & Hd)). exists d. assert (start = lo) by lia. split; [|lia].
        assert (0 <= d) by nia. split; [auto|]. apply K; [auto|]. subst stop. nia.
      * intros j k Hj Hk. nia.
    + subst len. split; [lia|]. split; [intros; lia|]. split; [|intros; lia].
      intros x (Hx & Hr & _). subst stop. lia.
  - (* upwards *)
    destruct (Z.ltb_spec 0 c') as [_|]; [|lia].
    set (lo := match a with Some a => Z.max 0 (if a <? 0 then a + n else a) | None => 0 end).
    set (hi := match b with Some b => if b <? 0 then b + n else b | None => n end).
    assert (Hs : start = Z.min n lo).
    { subst start lo. destruct a as [a|]; [destruct (Z.ltb_spec a 0)|]; lia. }
    match type of E3 with (if _ <? ?stop then _ else _) = _ => assert (Ht : stop = Z.max 0 (Z.min n hi)) end.
    { subst hi. destruct b as [b|]; [destruct (Z.ltb_spec b 0)|]; lia. }
    rewrite Ht, E1 in E3. clear E1 Ht. set (stop := Z.max 0 (Z.min n hi)) in *.
    assert (Hlo : 0 <= lo) by (subst lo; destruct a as [a|]; [destruct (Z.ltb_spec a 0)|]; lia).
    split; [auto|].
    destruct (Z.ltb_spec start stop) as [L|L].
    + pose proof (count_up start stop c' ltac:(lia) ltac:(lia)) as K. rewrite E3 in K.
      assert (P0 : 0 < len) by (apply K; lia).
      split; [lia|]. split; [|split].
      * intros j Hj. assert (start + c' * j < stop) by (apply K; lia).
        assert (start <= start + c' * j) by nia.
        split; [lia|]. split; [lia|]. exists j. lia.
      * intros x (Hx & Hr & (d & Hd)). exists d. assert (start = lo) by lia. split; [|lia].
        assert (0 <= d) by nia. split; [auto|]. apply K; [auto|]. subst stop. nia.
      * intros j k Hj Hk. nia.
    + subst len. split; [lia|]. split; [intros; lia|]. split; [|intros; lia].
      intros x (Hx & Hr & _). subst stop. lia.
Qed.

Lemma slice_get n a b c len e : 0 <= n -> enumerates n a b c len e ->
  exists start step, slice_bounds n a b c = Ok (start, step, len) /\ forall j, 0 <= j < len -> start + step * j = e j.
Proof.
  intros Hn H. destruct (slice_bounds n a b c) as [[[start step] len0]|er] eqn:E.
  - pose proof (slice_ok _ _ _ _ _ _ _ Hn E) as H0. destruct (enumerates_unique _ _ _ _ _ _ _ _ H0 H) as (-> & Q).
    exists start, step. auto.
  - exfalso. destruct H as (C0 & _). cbv zeta in C0. unfold slice_bounds in E. cbv zeta in E.
    destruct (Z.eqb_spec match c with Some s => s | None => 1 end 0); [auto|discriminate].
Qed.

Lemma slice_bounds_full n : 0 <= n -> slice_bounds n None None None = Ok (0, 1, n).
Proof.
  intros Hn. unfold slice_bounds. cbv zeta. cbn [Z.eqb Z.ltb Z.compare]. destruct (Z.ltb_spec 0 n); [rewrite Z.div_1_r|];
  replace n with (n - 0 - 1 + 1) at 2 by lia || idtac; f_equal; f_equal; lia.
Qed.

(** ** Keys *)

Lemma walk_full sh st : Forall (fun n => 0 <= n) sh -> length st = length sh -> walk (repeat full (length sh)) sh st = Ok (0, sh, st).
Proof.
  revert st. induction sh as [|n sh IH]; intros st N L; destruct st as [|s st]; try discriminate; [reflexivity|].
  inversion N as [|? ? N1 N2]; subst. cbn [length repeat walk full]. unfold full at 1. rewrite slice_bounds_full by auto. cbn [bind].
  rewrite IH; auto. cbn [bind]. rewrite !Z.mul_1_l. reflexivity.
Qed.

Lemma selects_consumed key ld ld' t : selects key ld ld' t -> (consumed key <= length ld)%nat.
Proof. unfold consumed. induction 1; cbn [filter consumes length] in *; lia. Qed.
Lemma selects_no_ellipsis key ld ld' t : selects key ld ld' t -> filter is_ellipsis key = [].
Proof. induction 1; cbn [filter is_ellipsis]; auto. Qed.

Lemma dot_app p q a b : length p = length a -> dot (p ++ q) (a ++ b) = dot p a + dot q b.
Proof.
  revert a. induction p as [|x p IH]; intros a L; destruct a as [|y a]; try discriminate; [reflexivity|].
  cbn [app dot]. rewrite IH by (injection L; auto). lia.
Qed.

Lemma at_index_length sh p : at_index sh p -> length p = length sh.
Proof. induction 1; cbn [length]; auto. Qed.

Lemma walk_selects key ld ld' t : selects key ld ld' t -> forall rest st,
  Forall (fun n => 0 <= n) (ld ++ rest) -> length st = length (ld ++ rest) ->
  exists o st', walk (key ++ repeat full (length (ld ++ rest) - consumed key)) (ld ++ rest) st = Ok (o, ld' ++ rest, st')
    /\ length st' = length (ld' ++ rest) /\ Forall (fun n => 0 <= n) (ld' ++ rest)
    /\ (forall p, at_index ld' p -> at_index ld (t p) /\ forall q, o + dot (p ++ q) st' = dot (t p ++ q) st)
    /\ forall p p', at_index ld' p -> at_index ld' p' -> t p = t p' -> p = p'.
Proof.
  induction 1 as [ld|key ld ld' t H IH|i n key ld ld' t Hi H IH|a b c len e n key ld ld' t He H IH]; intros rest st N L.
  - exists 0, st. cbn [app consumed filter length]. rewrite Nat.sub_0_r, walk_full by auto.
    split; [reflexivity|]. split; [auto|]. split; [auto|]. split; [|auto]. intros p Hp. split; [auto|]. intros q. lia.
  - destruct (IH rest st N L) as (o & st' & E & L' & N' & Q & I). exists o, (0 :: st').
    replace (consumed (KNew :: key)) with (consumed key) by reflexivity. cbn [app walk]. rewrite E. cbn [bind].
    split; [reflexivity|]. split; [cbn [length]; lia|]. split; [constructor; [lia|auto]|]. split.
    + intros p Hp. inversion Hp as [|? x ? p0 Hx Hp0]; subst. cbn [tl]. destruct (Q p0 Hp0) as (Q1 & Q2). split; [auto|].
      intros q. cbn [app dot]. rewrite <- Q2. lia.
    + intros p p' Hp Hp' Et. inversion Hp as [|? x ? p0 Hx Hp0]; subst. inversion Hp' as [|? x' ? p0' Hx' Hp0']; subst.
      cbn [tl] in Et. f_equal; [lia|auto].
  - destruct st as [|s st]; [discriminate|]. inversion N as [|? ? N1 N2]; subst.
    destruct (IH rest st N2 ltac:(cbn [length app] in L; lia)) as (o & st' & E & L' & N' & Q & I).
    replace (length ((n :: ld) ++ rest) - consumed (KInt i :: key))%nat with (length (ld ++ rest) - consumed key)%nat by reflexivity.
    cbn [app walk]. rewrite E. cbn [bind]. unfold norm_index, in_bounds.
    assert (Ej : (if i <? 0 then i + n else i) = i mod n).
    { destruct (Z.ltb_spec i 0).
      - symmetry. replace i with (i + n + (-1) * n) at 1 by lia. rewrite Z.mod_add by lia. apply Z.mod_small. lia.
      - symmetry. apply Z.mod_small. lia. }
    rewrite Ej. pose proof (Z.mod_pos_bound i n ltac:(lia)) as B.
    destruct (Z.leb_spec 0 (i mod n)); [|lia]. destruct (Z.ltb_spec (i mod n) n); [|lia]. cbn [andb].
    eexists _, st'. split; [reflexivity|]. split; [auto|]. split; [auto|]. split.
    + intros p Hp. destruct (Q p Hp) as (Q1 & Q2). split; [constructor; auto|]. intros q. cbn [app dot]. rewrite <- Q2. lia.
    + intros p p' Hp Hp' Et. injection Et. auto.
  - destruct st as [|s st]; [discriminate|]. inversion N as [|? ? N1 N2]; subst.
    destruct (IH rest st N2 ltac:(cbn [length app] in L; lia)) as (o & st' & E & L' & N' & Q & I).
    replace (length ((n :: ld) ++ rest) - consumed (KSlice a b c :: key))%nat with (length (ld ++ rest) - consumed key)%nat by reflexivity.
    cbn [app walk]. destruct (slice_get n a b c len e N1 He) as (start & step & Es & Ee). rewrite Es. cbn [bind]. rewrite E. cbn [bind].
    assert (Hlen : 0 <= len) by (destruct He as (_ & ? & _); auto).
    eexists _, (step * s :: st'). split; [reflexivity|]. split; [cbn [length]; lia|]. split; [constructor; auto|]. split.
    + intros p Hp. inversion Hp as [|? x ? p0 Hx Hp0]; subst. cbn [tl hd]. destruct (Q p0 Hp0) as (Q1 & Q2).
      split; [constructor; auto; apply (enumerates_range n a b c len); auto|].
      intros q. cbn [app dot]. rewrite <- Q2, <- (Ee x) by auto. lia.
    + intros p p' Hp Hp' Et. inversion Hp as [|? x ? p0 Hx Hp0]; subst. inversion Hp' as [|? x' ? p0' Hx' Hp0']; subst.
      cbn [tl hd] in Et. injection Et as Ex Et. f_equal; [apply (enumerates_inj n a b c len e); auto|auto].
Qed.

Lemma expand_selects key ld ld' t tail ndim : selects key ld ld' t -> (consumed key <= ndim)%nat -> tail = [] \/ tail = [KEllipsis] ->
  expand (key ++ tail) ndim = Ok (key ++ repeat full (ndim - consumed key)).
Proof.
  intros S C T. unfold expand.
  assert (Ec : consumed (key ++ tail) = consumed key).
  { unfold consumed. rewrite filter_app, app_length. destruct T as [->| ->]; cbn [filter consumes length]; lia. }
  rewrite Ec. destruct (Nat.ltb_spec ndim (consumed key)); [lia|].
  rewrite filter_app, (selects_no_ellipsis _ _ _ _ S). cbn [app]. destruct T as [->| ->]; cbn [filter is_ellipsis length].
  - rewrite app_nil_r. reflexivity.
  - f_equal. clear - S. generalize (ndim - consumed key)%nat as mi. induction S; intros mi; cbn [app replace_ellipsis]; [rewrite app_nil_r; reflexivity| | |]; f_equal; auto.
Qed.

Lemma at_index_app a b p q : at_index a p -> at_index b q -> at_index (a ++ b) (p ++ q).
Proof. intros. apply Forall2_app; auto. Qed.
Lemma at_index_split a w x : at_index (a ++ [w]) x -> exists p k, x = p ++ [k] /\ at_index a p /\ 0 <= k < w.
Proof.
  intros H. apply Forall2_app_inv_l in H. destruct H as (p & q & Hp & Hq & ->). inversion Hq as [|? k ? ? Hk Hn]; subst.
  inversion Hn; subst. exists p, k. auto.
Qed.
Lemma at_index_last a w p k : at_index (a ++ [w]) (p ++ [k]) -> at_index a p /\ 0 <= k < w.
Proof. intros H. destruct (at_index_split _ _ _ H) as (p' & k' & E & Hp & Hk). apply app_inj_tail in E. destruct E as (-> & ->). auto. Qed.
Lemma at_index_cons_last a w p k : at_index a p -> 0 <= k < w -> at_index (a ++ [w]) (p ++ [k]).
Proof. intros. apply at_index_app; auto. constructor; auto. Qed.

(** A key that leaves the last axis alone *)
Lemma getitem_leading h f ld rest key ld' t tail :
  sound h (vw f) -> vshape (vw f) = ld ++ rest -> rest <> [] -> selects key ld ld' t -> tail = [] \/ tail = [KEllipsis] ->
  exists r, getitem h f (key ++ tail) = Ok (Object r) /\ sound h (vw r) /\ vshape (vw r) = ld' ++ rest /\ vmd r = vmd f
    /\ vbuf (vw r) = vbuf (vw f)
    /\ (forall p, at_index ld' p -> at_index ld (t p) /\ forall q, addr (vw r) (p ++ q) = addr (vw f) (t p ++ q))
    /\ forall p p', at_index ld' p -> at_index ld' p' -> t p = t p' -> p = p'.
Proof.
  intros (Sb & Ss & Sn & Si) Esh Hr S T. unfold getitem, index_view.
  pose proof (selects_consumed _ _ _ _ S) as C.
  rewrite Esh in *. rewrite (expand_selects _ _ _ _ tail _ S) by (auto; rewrite app_length; lia). cbn [bind].
  destruct (walk_selects _ _ _ _ S rest (vstrides (vw f)) Sn Ss) as (o & st' & E & L' & N' & Q & I). rewrite E. cbn [bind vshape].
  exists (mkvmodes (mkview (vbuf (vw f)) (ld' ++ rest) (vstart (vw f) + o) st') (vmd f)). split.
  { destruct (ld' ++ rest) eqn:El; [|reflexivity]. apply app_eq_nil in El. destruct El. contradiction. }
  cbn [vw vmd vshape vbuf vstrides]. split; [|split; [auto|split; [auto|split; [auto|split; [|auto]]]]].
  - split; [auto|]. split; [auto|]. split; [auto|]. cbn [vshape]. intros p q Hp Hq Ea. unfold addr in Ea. cbn [vstart vstrides] in Ea.
    apply Forall2_app_inv_l in Hp. destruct Hp as (p1 & p2 & Hp1 & Hp2 & ->).
    apply Forall2_app_inv_l in Hq. destruct Hq as (q1 & q2 & Hq1 & Hq2 & ->).
    destruct (Q p1 Hp1) as (T1 & D1). destruct (Q q1 Hq1) as (T2 & D2).
    assert (Et : t p1 ++ p2 = t q1 ++ q2).
    { apply Si; [apply at_index_app; auto|apply at_index_app; auto|]. unfold addr. rewrite <- D1, <- D2. lia. }
    assert (El : length (t p1) = length (t q1)) by (apply at_index_length in T1; apply at_index_length in T2; lia).
    assert (t p1 = t q1 /\ p2 = q2) as (E1 & ->).
    { clear - Et El. revert El Et. generalize (t p1) (t q1). induction l as [|x l IH]; intros [|y m] El Et; try discriminate; [auto|].
      cbn [app] in Et. injection Et as -> Et. destruct (IH m) as (-> & ->); auto. }
    f_equal. apply I; auto.
  - intros p Hp. destruct (Q p Hp) as (Q1 & Q2). split; [auto|]. intros q. unfold addr. cbn [vstart vstrides]. rewrite <- Q2. lia.
Qed.

(** ** Writing *)

Lemma in_shape_at sh p : in_shape sh p = true <-> at_index sh p.
Proof.
  unfold in_shape, in_bounds. revert p. induction sh as [|n sh IH]; intros [|i p]; cbn [length combine forallb].
  - split; [constructor|reflexivity].
  - split; [discriminate|]. intros H. inversion H.
  - split; [discriminate|]. intros H. inversion H.
  - cbn [Nat.eqb]. rewrite andb_true_iff, andb_true_iff, andb_true_iff, Z.leb_le, Z.ltb_lt. split.
    + intros (A & (B & C) & D). constructor; [lia|]. apply IH. rewrite A, D. reflexivity.
    + intros H. inversion H as [|? ? ? ? Hi Hp]; subst. apply IH in Hp. apply andb_true_iff in Hp. destruct Hp. auto.
Qed.

Lemma write_read h v F p : sound h v -> at_index (vshape v) p -> entry (write_view h v F) v p = F p.
Proof.
  intros (_ & _ & _ & I) Hp. unfold entry, write_view. cbn [vmem]. rewrite Nat.eqb_refl.
  destruct (find (fun q => addr v q =? addr v p) (positions (vshape v))) as [q|] eqn:E.
  - apply find_some in E. destruct E as (E1 & E2). apply Z.eqb_eq in E2. apply in_positions in E1. f_equal. apply I; auto.
  - exfalso. assert (X := find_none _ _ E p). cbv beta in X. rewrite Z.eqb_refl in X. discriminate X. apply in_positions. auto.
Qed.
Lemma write_other h v F b a : (forall p, at_index (vshape v) p -> (b, a) <> (vbuf v, addr v p)) -> vmem (write_view h v F) b a = vmem h b a.
Proof.
  intros H. unfold write_view. cbn [vmem]. destruct (Nat.eqb_spec b (vbuf v)) as [->|]; [|auto].
  destruct (find (fun q => addr v q =? a) (positions (vshape v))) as [q|] eqn:E; [|auto].
  apply find_some in E. destruct E as (E1 & E2). apply Z.eqb_eq in E2. apply in_positions in E1. exfalso. apply (H q); auto. congruence.
Qed.

(** ** The object as one of ModesModel.v *)

Definition plain_modes (f : vmodes) (ld : list Z) (w : Z) : modes := mkmodes (mknd 0 (rev ld) w) (vmd f).
Lemma as_modes_ok f ld w : vshape (vw f) = ld ++ [w] -> as_modes f = Ok (plain_modes f ld w).
Proof. intros E. unfold as_modes. rewrite E, rev_app_distr. reflexivity. Qed.

Lemma sq_col ell L m : 0 <= ell <= L -> - ell <= m <= ell -> 0 <= ell * ell + (ell + m) < (L + 1) ^ 2.
Proof. intros. rewrite Z.pow_2_r. nia. Qed.

Lemma plain_mode h f ld p ell m : valid h f ld -> at_index ld p -> 0 <= ell <= ellmax (vmd f) -> - ell <= m <= ell ->
  mode (plain h (vw f)) (plain_modes f ld ((ellmax (vmd f) + 1) ^ 2)) (rev p) ell m = vmode h f p ell m.
Proof.
  intros (_ & Esh & _) Hp He Hm. unfold mode, plain, plain_modes, vmode, column. cbn [mem nd buf]. rewrite rev_involutive.
  assert (A : at_index (vshape (vw f)) (p ++ [ell * ell + (ell + m)])).
  { rewrite Esh. apply at_index_cons_last; auto. apply sq_col; auto. }
  apply in_shape_at in A. rewrite A. reflexivity.
Qed.

Lemma plain_wf h f ld : valid h f ld -> wf (plain h (vw f)) (plain_modes f ld ((ellmax (vmd f) + 1) ^ 2)).
Proof.
  intros (S & Esh & Z0). split; [cbn; lia|]. split; [reflexivity|]. cbn [plain_modes md nd]. intros idx ell m He Hs Hm.
  unfold mode, plain, plain_modes. cbn [mem nd buf].
  destruct (in_shape (vshape (vw f)) (rev idx ++ [ell * ell + (ell + m)])) eqn:I; [|reflexivity].
  apply in_shape_at in I. rewrite Esh in I. apply at_index_last in I. destruct I as (I & _). apply (Z0 (rev idx)); auto.
Qed.

(** The columns of an object of its modes *)
Lemma column_mode L k : 0 <= k < (L + 1) ^ 2 -> -1 <= L -> exists ell m, 0 <= ell <= L /\ - ell <= m <= ell /\ k = ell * ell + (ell + m).
Proof.
  intros Hk HL. exists (Z.sqrt k), (k - Z.sqrt k * Z.sqrt k - Z.sqrt k).
  pose proof (Z.sqrt_spec k ltac:(lia)) as S. pose proof (Z.sqrt_nonneg k). rewrite Z.pow_2_r in Hk.
  assert (Z.sqrt k < L + 1) by (apply Z.sqrt_lt_square; lia). unfold Z.succ in S. split; [lia|]. split; nia.
Qed.

(** ** New arrays *)
Lemma dot_C_strides sh p : at_index sh p -> dot p (C_strides sh) = ravel_index sh p.
Proof. induction 1 as [|n i sh p Hi Hp IH]; [reflexivity|]. cbn [C_strides dot ravel_index]. rewrite IH. reflexivity. Qed.

Lemma valloc_ok h sh F h' v : Forall (fun n => 0 <= n) sh -> valloc h sh F = (h', v) ->
  sound h' v /\ vshape v = sh /\ (vnext h <= vbuf v < vnext h')%nat /\ (forall b, (b < vnext h)%nat -> forall a, vmem h' b a = vmem h b a)
  /\ forall p, at_index sh p -> entry h' v p = F p.
Proof.
  intros N E. unfold valloc in E. injection E as <- <-. cbn [vshape vbuf vnext vstrides].
  assert (A : forall p, at_index sh p -> addr (mkview (vnext h) sh 0 (C_strides sh)) p = ravel_index sh p).
  { intros p Hp. unfold addr. cbn [vstart vstrides]. rewrite dot_C_strides by auto. lia. }
  split; [|split; [auto|split; [lia|split]]].
  - split; [cbn; lia|]. cbn [vshape vstrides]. split; [clear; induction sh; cbn [C_strides length]; auto|]. split; [auto|].
    intros p q Hp Hq Ea. rewrite !A in Ea by auto. rewrite <- (nth_ravel sh p Hp), <- (nth_ravel sh q Hq), Ea. reflexivity.
  - intros b Hb a. cbn [vmem]. destruct (Nat.eqb_spec b (vnext h)); [lia|auto].
  - intros p Hp. unfold entry. cbn [vmem vbuf]. rewrite Nat.eqb_refl, A by auto. rewrite nth_ravel by auto. reflexivity.
Qed.

(** ** In place *)
Lemma inplace_ok op h f ld w h1 r1 : sound h (vw f) -> vshape (vw f) = ld ++ [w] -> op (plain h (vw f)) (plain_modes f ld w) = Ok (h1, r1) ->
  exists h', inplace op h f = Ok (h', mkvmodes (vw f) (md r1)) /\ vnext h' = vnext h
    /\ (forall p k, at_index ld p -> 0 <= k < w -> column h' f p k = mem h1 0 (rev p) k)
    /\ forall b a, (forall p k, at_index ld p -> 0 <= k < w -> (b, a) <> cell f p k) -> vmem h' b a = vmem h b a.
Proof.
  intros S Esh E. unfold inplace. rewrite (as_modes_ok _ _ _ Esh). cbn [bind]. rewrite E. cbn [bind].
  eexists. split; [reflexivity|]. split; [reflexivity|]. split.
  - intros p k Hp Hk. unfold column. rewrite write_read; [|auto|rewrite Esh; apply at_index_cons_last; auto].
    rewrite removelast_last, last_last. reflexivity.
  - intros b a Ho. apply write_other. intros x Hx. rewrite Esh in Hx. destruct (at_index_split _ _ _ Hx) as (p & k & -> & Hp & Hk).
    apply (Ho p k Hp Hk).
Qed.

(** ** Keys for the last axis *)
Lemma walk_full_app key ld sh sl st : Forall (fun n => 0 <= n) ld -> length sl = length ld ->
  walk (repeat full (length ld) ++ key) (ld ++ sh) (sl ++ st) = do ' (o, sh', st') <- walk key sh st; Ok (o, ld ++ sh', sl ++ st').
Proof.
  revert sl. induction ld as [|n ld IH]; intros sl N L; destruct sl as [|s sl]; try discriminate.
  - cbn [length repeat app]. destruct (walk key sh st) as [[[o sh'] st']|]; reflexivity.
  - inversion N; subst. cbn [length repeat app walk]. unfold full at 1. rewrite slice_bounds_full by auto. cbn [bind]. rewrite IH by (auto; injection L; auto).
    destruct (walk key sh st) as [[[o sh'] st']|]; cbn [bind]; [|reflexivity]. rewrite !Z.mul_1_l, Z.add_0_l. reflexivity.
Qed.

Lemma index_last h v ld w k o sh' d : sound h v -> vshape v = ld ++ [w] -> consumes k = true ->
  (forall s, walk [k] [w] [s] = Ok (o * s, sh', map (fun x => x * s) d)) ->
  exists sl s, vstrides v = sl ++ [s] /\ length sl = length ld
    /\ index_view v [KEllipsis; k] = Ok (mkview (vbuf v) (ld ++ sh') (vstart v + o * s) (sl ++ map (fun x => x * s) d)).
Proof.
  intros (_ & Ss & Sn & _) Esh Hk W. rewrite Esh in *.
  destruct (exists_last (l := vstrides v)) as (sl & s & Est).
  { intros E0. rewrite E0, app_length in Ss. cbn in Ss. lia. }
  exists sl, s. split; [auto|]. rewrite Est, !app_length in Ss. cbn [length] in Ss. split; [lia|].
  unfold index_view, expand. rewrite Esh, app_length. cbn [length].
  assert (Ec : consumed [KEllipsis; k] = 1%nat) by (unfold consumed; cbn [filter consumes]; rewrite Hk; reflexivity).
  assert (Ee : filter is_ellipsis [KEllipsis; k] = [KEllipsis]) by (cbn [filter is_ellipsis]; destruct k; try discriminate; reflexivity).
  rewrite Ec, Ee. destruct (Nat.ltb_spec (length ld + 1) 1); [lia|]. cbn [length bind replace_ellipsis].
  replace (length ld + 1 - 1)%nat with (length ld) by lia. rewrite Est.
  apply Forall_app in Sn. rewrite walk_full_app by (tauto || lia). rewrite W. cbn [bind]. reflexivity.
Qed.
