(** Proofs about the Modes container: loops over columns. *)
Require Import ZArith Lia List Reals Lra Bool.
From Coquelicot Require Import Complex.
From Verif Require Import Base BaseProofs CBase CSum RSum Fact IndexModel IndexProofs PowersModel DRep WignerModel SWSHModel SWSHProofs
  ModesModel ModesSpec.
Import ListNotations.
Open Scope Z_scope.

(** [h'] is [h] with the columns satisfying [B i] ([i] in the range) of buffer [c] set to [F i]. *)
Definition blocks (c : nat) (a b : Z) (B : Z -> Z -> Prop) (F : Z -> list Z -> Z -> C) (h h' : heap) : Prop :=
  next h' = next h
  /\ (forall i idx k, a <= i < b -> B i k -> mem h' c idx k = F i idx k)
  /\ (forall x idx k, x <> c \/ (forall i, a <= i < b -> ~ B i k) -> mem h' x idx k = mem h x idx k).

(** The loop reads buffer [s] (possibly the same), at the leading index [rf idx], only where it has not written yet. *)
Lemma blocks_loop_rf (rf : list Z -> list Z) (s c : nat) (B : Z -> Z -> Prop) (S0 : list Z -> Z -> C) (F : Z -> list Z -> Z -> C) a b
    (body : Z -> heap -> res heap) :
  (forall i j k, a <= i < b -> a <= j < b -> B i k -> B j k -> i = j) ->
  (forall i h, a <= i < b -> (forall idx k, B i k -> mem h s (rf idx) k = S0 idx k) ->
     exists h', body i h = Ok h' /\ blocks c i (i + 1) B F h h') ->
  forall h, (forall i idx k, a <= i < b -> B i k -> mem h s (rf idx) k = S0 idx k) ->
  exists h', for_range a b body h = Ok h' /\ blocks c a b B F h h'.
Proof.
  intros Dis Hb h Hs.
  destruct (Z_le_gt_dec a b) as [Hab|Hab].
  2:{ exists h. rewrite for_range_empty by lia. split; auto. split; auto. split; [lia|auto]. }
  destruct (for_range_inv (fun i h' => blocks c a i B F h h') a b body h Hab) as (h' & E & P).
  - split; auto. split; [lia|auto].
  - intros i h1 Hi (N1 & D1 & K1).
    destruct (Hb i h1 Hi) as (h2 & E2 & N2 & D2 & K2).
    { intros idx k Hk. rewrite K1; [apply Hs with i; auto|]. right. intros j Hj Bj.
      assert (i = j) by (apply (Dis i j k); auto; lia). lia. }
    exists h2. split; auto. split; [congruence|]. split.
    + intros j idx k Hj Bk. destruct (Z.eq_dec j i) as [->|Hne].
      * apply D2; auto; lia.
      * rewrite K2. { apply D1; auto; lia. } right. intros j' Hj' Bj'. assert (j' = j) by (apply (Dis j' j k); auto; lia). lia.
    + intros x idx k Hx. rewrite K2. { apply K1. destruct Hx as [Hx|Hx]; [auto|]. right. intros j Hj. apply Hx. lia. }
      destruct Hx as [Hx|Hx]; [auto|]. right. intros j Hj. apply Hx. lia.
  - exists h'. auto.
Qed.

Lemma blocks_loop (s c : nat) (B : Z -> Z -> Prop) (S0 : list Z -> Z -> C) (F : Z -> list Z -> Z -> C) a b
    (body : Z -> heap -> res heap) :
  (forall i j k, a <= i < b -> a <= j < b -> B i k -> B j k -> i = j) ->
  (forall i h, a <= i < b -> (forall idx k, B i k -> mem h s idx k = S0 idx k) ->
     exists h', body i h = Ok h' /\ blocks c i (i + 1) B F h h') ->
  forall h, (forall i idx k, a <= i < b -> B i k -> mem h s idx k = S0 idx k) ->
  exists h', for_range a b body h = Ok h' /\ blocks c a b B F h h'.
Proof. apply (blocks_loop_rf (fun idx => idx)). Qed.

(** Sequencing of two block writes. *)
Lemma col_index_ok w i : 0 <= i < w -> col_index w i = Ok i.
Proof.
  intros. unfold col_index. rewrite norm_index_nonneg by lia.
  replace (in_bounds w i) with true; auto. symmetry. apply in_bounds_true. auto.
Qed.
Lemma rdcol_ok h a i : 0 <= i < wid a -> rdcol h a i = Ok (fun idx => mem h (buf a) idx i).
Proof. intros. unfold rdcol. rewrite col_index_ok by auto. reflexivity. Qed.

Definition set_col (h : heap) (c : nat) (j : Z) (v : list Z -> C) : heap :=
  mkheap (next h) (fun b idx k => if Nat.eqb b c && (k =? j) then v idx else mem h b idx k).
Lemma wrcol_ok h a i v : 0 <= i < wid a -> wrcol h a i v = Ok (set_col h (buf a) i v).
Proof. intros. unfold wrcol. rewrite col_index_ok by auto. reflexivity. Qed.
Lemma set_col_same h c j v idx : mem (set_col h c j v) c idx j = v idx.
Proof. cbn. rewrite Nat.eqb_refl, Z.eqb_refl. reflexivity. Qed.
Lemma set_col_other h c j v x idx k : x <> c \/ k <> j -> mem (set_col h c j v) x idx k = mem h x idx k.
Proof.
  intros H. cbn. destruct (Nat.eqb_spec x c), (Z.eqb_spec k j); cbn; auto. destruct H; contradiction.
Qed.
Lemma set_col_next h c j v : next (set_col h c j v) = next h.
Proof. reflexivity. Qed.

(** Column of (ell, m). *)
Lemma LM_col ell m : LM_index ell m 0 = ell * ell + (ell + m).
Proof. unfold LM_index. lia. Qed.
Definition blk (ell k : Z) : Prop := ell * ell <= k <= ell * ell + 2 * ell.
Lemma blk_inj i j k : 0 <= i -> 0 <= j -> blk i k -> blk j k -> i = j.
Proof. unfold blk. intros. destruct (Z.lt_trichotomy i j) as [H3|[H3|H3]]; auto; nia. Qed.
Lemma blk_col ell m : - ell <= m <= ell -> blk ell (ell * ell + (ell + m)).
Proof. unfold blk. lia. Qed.
Lemma blk_m ell k : blk ell k -> exists m, - ell <= m <= ell /\ k = ell * ell + (ell + m).
Proof. intros H. exists (k - ell * ell - ell). unfold blk in H. lia. Qed.
Lemma col_bound ell m L : 0 <= ell <= L -> - ell <= m <= ell -> 0 <= ell * ell + (ell + m) < (L + 1) ^ 2.
Proof. intros. nia. Qed.
Lemma col_exists L k : 0 <= L -> 0 <= k < (L + 1) ^ 2 -> exists ell, 0 <= ell <= L /\ blk ell k.
Proof.
  intros HL Hk. exists (Z.sqrt k). pose proof (Z.sqrt_spec k ltac:(lia)). pose proof (Z.sqrt_nonneg k).
  set (r := Z.sqrt k) in *. unfold Z.succ in *. split; [|unfold blk; lia]. split; auto.
  destruct (Z_le_gt_dec r L); auto. assert ((L + 1) * (L + 1) <= r * r) by (apply Z.mul_le_mono_nonneg; lia). lia.
Qed.

(** The zeroing slice of the constructor. *)
Lemma clip_in w i : 0 <= i <= w -> clip w i = i.
Proof. intros. unfold clip. destruct (i <? 0) eqn:E; lia. Qed.

Lemma LM_total_sqr a b : LM_total_size a b = (b + 1) ^ 2 - a ^ 2.
Proof. unfold LM_total_size. nia. Qed.

Lemma wrslice_get h a i j f x idx k :
  mem (wrslice h a i j f) x idx k =
  if Nat.eqb x (buf a) && ((clip (wid a) i <=? k) && (k <? clip (wid a) i + slice_len (wid a) i j)) then f idx (k - clip (wid a) i) else mem h x idx k.
Proof. reflexivity. Qed.

Lemma slice_full w i j : 0 <= i -> i <= j <= w -> clip w i = i /\ slice_len w i j = j - i.
Proof. intros. unfold slice_len. rewrite !clip_in by lia. lia. Qed.

(** [construct] on an array of the right size. *)
Lemma construct_ok h a m : wid a = (ellmax m + 1) ^ 2 ->
  exists h', construct h a m = Ok (h', mkmodes a m) /\ next h' = next h
    /\ (forall x idx k, x <> buf a -> mem h' x idx k = mem h x idx k)
    /\ (forall idx ell mm, 0 <= ell <= ellmax m -> - ell <= mm <= ell ->
         mem h' (buf a) idx (ell * ell + (ell + mm))
         = if ell <? Z.abs (spin m) then RtoC 0 else mem h (buf a) idx (ell * ell + (ell + mm))).
Proof.
  intros HW. unfold construct, Modes_new, kw_of. cbn [positional bind kw_spin kw_ell_min kw_ell_max kw_trunc orelse option_map].
  rewrite LM_total_sqr, HW. replace ((ellmax m + 1) ^ 2 - 0 ^ 2) with ((ellmax m + 1) ^ 2) by lia.
  rewrite Z.eqb_refl. cbn [negb]. rewrite Z.eqb_refl.
  eexists. split; [destruct m as [s l [t|]]; reflexivity|]. split; [reflexivity|].
  rewrite LM_total_sqr. split.
  - intros x idx k Hx. rewrite wrslice_get. destruct (Nat.eqb_spec x (buf a)); [contradiction|reflexivity].
  - intros idx ell mm He Hm. rewrite wrslice_get, Nat.eqb_refl. cbn [andb].
    pose proof (col_bound ell mm (ellmax m) He Hm) as Hb.
    unfold slice_len. rewrite (clip_in _ 0) by lia. rewrite HW.
    set (t := (Z.abs (spin m) - 1 + 1) ^ 2 - 0 ^ 2). assert (Ht : t = Z.abs (spin m) * Z.abs (spin m)) by (unfold t; nia).
    unfold clip. replace (t <? 0) with false by (symmetry; apply Z.ltb_ge; nia).
    destruct (Z.ltb_spec ell (Z.abs (spin m))) as [Hl|Hl].
    + replace ((0 <=? ell * ell + (ell + mm)) && (ell * ell + (ell + mm) <? 0 + Z.max 0 (Z.max 0 (Z.min ((ellmax m + 1) ^ 2) t) - 0))) with true; auto.
      symmetry. apply andb_true_iff. split; [apply Z.leb_le; lia|]. apply Z.ltb_lt.
      assert (ell * ell + (ell + mm) < t) by (rewrite Ht; nia). lia.
    + replace (ell * ell + (ell + mm) <? 0 + Z.max 0 (Z.max 0 (Z.min ((ellmax m + 1) ^ 2) t) - 0)) with false; [rewrite andb_false_r; auto|].
      symmetry. apply Z.ltb_ge. assert (t <= ell * ell) by (rewrite Ht; nia). lia.
Qed.

Lemma alloc_get_new h ld w d idx k : mem (fst (alloc h ld w d)) (next h) idx k = d idx k.
Proof. cbn. rewrite Nat.eqb_refl. reflexivity. Qed.
Lemma alloc_get_old h ld w d x : x <> next h -> mem (fst (alloc h ld w d)) x = mem h x.
Proof. intros. cbn. destruct (Nat.eqb_spec x (next h)); [contradiction|reflexivity]. Qed.

Lemma mod2_even x : (x mod 2 =? 0) = Z.even x.
Proof. rewrite Zmod_even. destruct (Z.even x); reflexivity. Qed.
Lemma sgn_even k (x : C) : (if Z.even k then x else - x)%C = (RtoC (sgn k) * x)%C.
Proof. unfold sgn. destruct (Z.even k); ring. Qed.

(** Pairs of columns (m, -m) inside one ell. *)
Definition pair_cols (c0 m k : Z) : Prop := k = c0 + m \/ k = c0 - m.

Lemma pair_inj c0 a b i j k : 1 <= a -> a <= i < b -> a <= j < b -> pair_cols c0 i k -> pair_cols c0 j k -> i = j.
Proof. unfold pair_cols. lia. Qed.

(** The per-ell shape shared by conjugation, real and imaginary part: column c0 first, then the pairs. *)
Definition F_at (G : Z -> C -> C -> C) (S0 : list Z -> Z -> C) (ell : Z) (idx : list Z) (k : Z) : C :=
  let m := k - ell * ell - ell in G m (S0 idx k) (S0 idx (ell * ell + (ell - m))).

Lemma ell_step_rf (rf : list Z -> list Z) (s c : nat) S0 (G : Z -> C -> C -> C) ell h (first : res heap) (inner : Z -> heap -> res heap) :
  0 <= ell ->
  (forall idx k, blk ell k -> mem h s (rf idx) k = S0 idx k) ->
  (first = Ok (set_col h c (ell * ell + ell) (fun idx => G 0 (mem h s (rf idx) (ell * ell + ell)) (mem h s (rf idx) (ell * ell + ell))))) ->
  (forall m h1, 1 <= m <= ell ->
     (forall idx, mem h1 s (rf idx) (ell * ell + (ell + m)) = S0 idx (ell * ell + (ell + m))) ->
     (forall idx, mem h1 s (rf idx) (ell * ell + (ell - m)) = S0 idx (ell * ell + (ell - m))) ->
     exists h2, inner m h1 = Ok h2 /\ next h2 = next h1
       /\ (forall idx, mem h2 c idx (ell * ell + (ell + m)) = G m (S0 idx (ell * ell + (ell + m))) (S0 idx (ell * ell + (ell - m))))
       /\ (forall idx, mem h2 c idx (ell * ell + (ell - m)) = G (- m) (S0 idx (ell * ell + (ell - m))) (S0 idx (ell * ell + (ell + m))))
       /\ (forall x idx k, x <> c \/ (k <> ell * ell + (ell + m) /\ k <> ell * ell + (ell - m)) -> mem h2 x idx k = mem h1 x idx k)) ->
  exists h', (do h <- first; for_range 1 (ell + 1) inner h) = Ok h' /\ blocks c ell (ell + 1) blk (F_at G S0) h h'.
Proof.
  intros He Hs HF HI. rewrite HF. cbn [bind]. set (h0 := set_col _ _ _ _).
  destruct (blocks_loop_rf rf s c (pair_cols (ell * ell + ell)) S0 (fun m => F_at G S0 ell) 1 (ell + 1) inner) with (h := h0) as (h' & E & N & D & K).
  - intros. eapply (pair_inj _ 1); eauto; lia.
  - intros m h1 Hm HS1. destruct (HI m h1 ltac:(lia)) as (h2 & E2 & N2 & A2 & B2 & K2).
    + intros. apply HS1. left. lia.
    + intros. apply HS1. right. lia.
    + exists h2. split; auto. split; auto. split.
      * intros i idx k Hi [->| ->]; assert (i = m) by lia; subst i.
        -- replace (ell * ell + ell + m) with (ell * ell + (ell + m)) by lia. rewrite A2. unfold F_at.
           replace (ell * ell + (ell + m) - ell * ell - ell) with m by lia. reflexivity.
        -- replace (ell * ell + ell - m) with (ell * ell + (ell - m)) by lia. rewrite B2. unfold F_at.
           replace (ell * ell + (ell - m) - ell * ell - ell) with (- m) by lia.
           replace (ell - - m) with (ell + m) by lia. reflexivity.
      * intros x idx k Hx. apply K2. destruct Hx as [Hx|Hx]; auto. right. specialize (Hx m ltac:(lia)). unfold pair_cols in Hx. lia.
  - intros i idx k Hi Hk. unfold h0. rewrite set_col_other; [apply Hs; unfold blk; unfold pair_cols in Hk; lia|].
    right. unfold pair_cols in Hk. lia.
  - exists h'. split; auto. split; [exact N|]. split.
    + intros i idx k Hi Hk. assert (i = ell) by lia; subst i. destruct (blk_m _ _ Hk) as (m & Hm & ->).
      destruct (Z.eq_dec m 0) as [->|Hm0].
      * rewrite K by (right; unfold pair_cols; lia). unfold h0.
        replace (ell * ell + (ell + 0)) with (ell * ell + ell) by lia. rewrite set_col_same. unfold F_at.
        replace (ell * ell + ell - ell * ell - ell) with 0 by lia. replace (ell - 0) with ell by lia.
        rewrite !Hs by (unfold blk; lia). reflexivity.
      * apply (D (Z.abs m)); [lia|]. unfold pair_cols. lia.
    + intros x idx k Hx. rewrite K.
      * unfold h0. apply set_col_other. destruct Hx as [Hx|Hx]; auto. right. intros ->. apply (Hx ell); [lia|]. unfold blk. lia.
      * destruct Hx as [Hx|Hx]; auto. right. intros i Hi Hp. apply (Hx ell); [lia|]. unfold blk; unfold pair_cols in Hp. lia.
Qed.

Lemma ell_step (s c : nat) S0 (G : Z -> C -> C -> C) ell h (first : res heap) (inner : Z -> heap -> res heap) :
  0 <= ell ->
  (forall idx k, blk ell k -> mem h s idx k = S0 idx k) ->
  (first = Ok (set_col h c (ell * ell + ell) (fun idx => G 0 (mem h s idx (ell * ell + ell)) (mem h s idx (ell * ell + ell))))) ->
  (forall m h1, 1 <= m <= ell ->
     (forall idx, mem h1 s idx (ell * ell + (ell + m)) = S0 idx (ell * ell + (ell + m))) ->
     (forall idx, mem h1 s idx (ell * ell + (ell - m)) = S0 idx (ell * ell + (ell - m))) ->
     exists h2, inner m h1 = Ok h2 /\ next h2 = next h1
       /\ (forall idx, mem h2 c idx (ell * ell + (ell + m)) = G m (S0 idx (ell * ell + (ell + m))) (S0 idx (ell * ell + (ell - m))))
       /\ (forall idx, mem h2 c idx (ell * ell + (ell - m)) = G (- m) (S0 idx (ell * ell + (ell - m))) (S0 idx (ell * ell + (ell + m))))
       /\ (forall x idx k, x <> c \/ (k <> ell * ell + (ell + m) /\ k <> ell * ell + (ell - m)) -> mem h2 x idx k = mem h1 x idx k)) ->
  exists h', (do h <- first; for_range 1 (ell + 1) inner h) = Ok h' /\ blocks c ell (ell + 1) blk (F_at G S0) h h'.
Proof. apply (ell_step_rf (fun idx => idx)). Qed.

Definition Gconj (spin m : Z) (x y : C) : C := (RtoC (sgn (spin + m)) * Cconj y)%C.
Definition Greal (m : Z) (x y : C) : C := ((x + RtoC (sgn m) * Cconj y) / RtoC 2)%C.
Definition Gimag (m : Z) (x y : C) : C := (- Ci * (x - RtoC (sgn m) * Cconj y) / RtoC 2)%C.


(** What one pair iteration leaves behind. *)
Ltac pair_done h1 c :=
  split; [reflexivity|]; split; [reflexivity|]; split;
  [intros; rewrite set_col_other by (right; lia); rewrite set_col_same|split;
   [intros; rewrite set_col_same|intros x idx k [Hx|[Hx Hx']]; rewrite !set_col_other by (auto; right; lia); reflexivity]].

Lemma conj_loop_ok s c spin L h : wid s = (L + 1) ^ 2 -> wid c = (L + 1) ^ 2 ->
  exists h', conj_loop s c spin L h = Ok h'
    /\ blocks (buf c) (Z.abs spin) (L + 1) blk (F_at (Gconj spin) (mem h (buf s))) h h'.
Proof.
  intros Ws Wc. unfold conj_loop.
  apply (blocks_loop (buf s) (buf c) blk (mem h (buf s))); [|intros ell h1 He HS|auto].
  { intros i j k Hi Hj. apply blk_inj; lia. }
  rewrite !LM_col. replace (ell * ell + (ell + 0)) with (ell * ell + ell) by lia.
  pose proof (col_bound ell 0 L ltac:(lia) ltac:(lia)).
  rewrite rdcol_ok by lia. cbn [bind].
  apply (ell_step (buf s) (buf c) (mem h (buf s)) (Gconj spin)); [lia|auto| |].
  - rewrite !wrcol_ok by lia. rewrite mod2_even. unfold Gconj. replace (spin + 0) with spin by lia.
    pose proof (sgn_even spin) as SE.
    destruct (Z.even spin); f_equal; unfold set_col; f_equal;
    repeat (let x := fresh in apply FunctionalExtensionality.functional_extensionality; intros x);
    destruct (_ && _); auto; rewrite <- SE; reflexivity.
  - intros m h2 Hm Sp Sn.
    pose proof (col_bound ell m L ltac:(lia) ltac:(lia)). pose proof (col_bound ell (- m) L ltac:(lia) ltac:(lia)).
    rewrite !LM_col. replace (ell * ell + (ell + - m)) with (ell * ell + (ell - m)) in * by lia.
    rewrite !rdcol_ok by lia. cbn [bind]. rewrite mod2_even.
    pose proof (sgn_even (spin + m)) as SE. unfold Gconj.
    replace (sgn (spin + - m)) with (sgn (spin + m)) by (rewrite !sgn_add, sgn_opp; reflexivity).
    destruct (Z.even (spin + m)); rewrite !wrcol_ok by lia; cbn [bind]; rewrite !wrcol_ok by lia;
    (eexists; pair_done h2 c); rewrite <- SE, ?Sp, ?Sn; reflexivity.
Qed.

Lemma RtoC_half_re (x : C) : RtoC (Re x) = ((x + Cconj x) / RtoC 2)%C.
Proof. apply C_eq; unfold Cdiv, Cmult, Cinv, Cplus, Cconj, RtoC; destruct x as [a b]; cbn; field. Qed.
Lemma RtoC_half_im (x : C) : RtoC (Im x) = (- Ci * (x - Cconj x) / RtoC 2)%C.
Proof. apply C_eq; unfold Cdiv, Cmult, Cinv, Cplus, Cminus, Cconj, Copp, Ci, RtoC; destruct x as [a b]; cbn; field. Qed.

Lemma RtoC2_neq0 : RtoC 2 <> RtoC 0.
Proof. apply RtoC_neq0. lra. Qed.
Lemma Cconj_half x : Cconj (x / RtoC 2)%C = (Cconj x / RtoC 2)%C.
Proof. unfold Cdiv. rewrite Cconj_mult, Cconj_inv, Cconj_RtoC. reflexivity. Qed.

Lemma set_col_ext h c j v w : (forall idx, v idx = w idx) -> set_col h c j v = set_col h c j w.
Proof. intros H. f_equal. apply FunctionalExtensionality.functional_extensionality. auto. Qed.

Lemma real_loop_ok s c L h : wid s = (L + 1) ^ 2 -> wid c = (L + 1) ^ 2 ->
  exists h', real_loop s c L h = Ok h' /\ blocks (buf c) 0 (L + 1) blk (F_at Greal (mem h (buf s))) h h'.
Proof.
  intros Ws Wc. unfold real_loop.
  apply (blocks_loop (buf s) (buf c) blk (mem h (buf s))); [|intros ell h1 He HS|auto].
  { intros i j k Hi Hj. apply blk_inj; lia. }
  rewrite !LM_col. replace (ell * ell + (ell + 0)) with (ell * ell + ell) by lia.
  pose proof (col_bound ell 0 L ltac:(lia) ltac:(lia)).
  rewrite rdcol_ok by lia. cbn [bind].
  apply (ell_step (buf s) (buf c) (mem h (buf s)) Greal); [lia|auto| |].
  - rewrite !wrcol_ok by lia. f_equal. apply set_col_ext. intros. unfold Greal. rewrite sgn_0, RtoC_half_re.
    unfold Cdiv. ring.
  - intros m h2 Hm Sp Sn.
    pose proof (col_bound ell m L ltac:(lia) ltac:(lia)). pose proof (col_bound ell (- m) L ltac:(lia) ltac:(lia)).
    rewrite !LM_col. replace (ell * ell + (ell + - m)) with (ell * ell + (ell - m)) in * by lia.
    rewrite !rdcol_ok by lia. cbn [bind]. rewrite mod2_even. unfold Greal. rewrite sgn_opp. unfold sgn.
    destruct (Z.even m); rewrite !wrcol_ok by lia; cbn [bind]; rewrite !rdcol_ok by lia; cbn [bind]; rewrite !wrcol_ok by lia;
    (eexists; pair_done h2 c); rewrite ?set_col_same, ?Sp, ?Sn, ?Cconj_half, ?Cconj_plus, ?Cconj_minus, ?Cconj_conj; unfold Cdiv; ring.
Qed.

Lemma imag_loop_ok s c L h : wid s = (L + 1) ^ 2 -> wid c = (L + 1) ^ 2 ->
  exists h', imag_loop s c L h = Ok h' /\ blocks (buf c) 0 (L + 1) blk (F_at Gimag (mem h (buf s))) h h'.
Proof.
  intros Ws Wc. unfold imag_loop.
  apply (blocks_loop (buf s) (buf c) blk (mem h (buf s))); [|intros ell h1 He HS|auto].
  { intros i j k Hi Hj. apply blk_inj; lia. }
  rewrite !LM_col. replace (ell * ell + (ell + 0)) with (ell * ell + ell) by lia.
  pose proof (col_bound ell 0 L ltac:(lia) ltac:(lia)).
  rewrite rdcol_ok by lia. cbn [bind].
  apply (ell_step (buf s) (buf c) (mem h (buf s)) Gimag); [lia|auto| |].
  - rewrite !wrcol_ok by lia. f_equal. apply set_col_ext. intros. unfold Gimag. rewrite sgn_0, RtoC_half_im.
    unfold Cdiv. ring.
  - intros m h2 Hm Sp Sn.
    pose proof (col_bound ell m L ltac:(lia) ltac:(lia)). pose proof (col_bound ell (- m) L ltac:(lia) ltac:(lia)).
    rewrite !LM_col. replace (ell * ell + (ell + - m)) with (ell * ell + (ell - m)) in * by lia.
    rewrite !rdcol_ok by lia. cbn [bind]. rewrite mod2_even. unfold Gimag. rewrite sgn_opp. unfold sgn.
    destruct (Z.even m); rewrite !wrcol_ok by lia; cbn [bind]; rewrite !rdcol_ok by lia; cbn [bind]; rewrite !wrcol_ok by lia;
    (eexists; pair_done h2 c);
    rewrite ?set_col_same, ?Sp, ?Sn, ?Cconj_half, ?Cconj_mult, ?Cconj_opp, ?Cconj_Ci, ?Cconj_plus, ?Cconj_minus, ?Cconj_conj; unfold Cdiv; ring.
Qed.
