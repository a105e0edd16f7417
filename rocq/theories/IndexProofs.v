(** Proofs about the index arithmetic. *)
Require Import ZArith Lia List Bool.
From Verif Require Import Base BaseProofs IndexModel.
Import ListNotations.
Open Scope Z_scope.

(** ** Filling a buffer row by row *)

Section Fill.
Context {A : Type}.
(** [good n Q a i]: the buffer has [n] rows and the first [i] of them satisfy [Q]. *)
Definition good (n : Z) (Q : Z -> A -> Prop) (a : arr A) (i : Z) : Prop :=
  alen a = n /\ forall k, 0 <= k < i -> Q k (aget a k).

Lemma good_step n Q a i v :
  good n Q a i -> 0 <= i < n -> Q i v ->
  exists a', wr a i v = Ok a' /\ good n Q a' (i + 1).
Proof.
  intros [L G] Hi Hv. exists (mkarr (alen a) (upd (aget a) i v)); split.
  - apply wr_ok; lia.
  - split; simpl; auto. intros k Hk.
    destruct (Z.eq_dec k i) as [->|N].
    + rewrite upd_same; auto.
    + rewrite upd_other by auto. apply G; lia.
Qed.
End Fill.

(** ** (ell, m) *)

Lemma LM_index_bounds ell m ell_min ell_max :
  0 <= ell_min <= ell -> ell <= ell_max -> - ell <= m <= ell ->
  0 <= LM_index ell m ell_min < LM_total_size ell_min ell_max.
Proof. unfold LM_index, LM_total_size; intros; nia. Qed.

Lemma LM_index_lex ell m ell' m' ell_min :
  0 <= ell -> 0 <= ell' -> - ell <= m <= ell -> - ell' <= m' <= ell' ->
  (LM_index ell m ell_min < LM_index ell' m' ell_min <->
   ell < ell' \/ (ell = ell' /\ m < m')).
Proof.
  unfold LM_index; intros.
  destruct (Z.lt_trichotomy ell ell') as [L|[->|L]].
  - split; [lia | intros _]. nia.
  - split; lia.
  - split; [nia | lia].
Qed.

Lemma LM_index_inj ell m ell' m' ell_min :
  0 <= ell -> 0 <= ell' -> - ell <= m <= ell -> - ell' <= m' <= ell' ->
  LM_index ell m ell_min = LM_index ell' m' ell_min -> ell = ell' /\ m = m'.
Proof.
  intros H H' Hm Hm' E.
  pose proof (LM_index_lex ell m ell' m' ell_min H H' Hm Hm') as [_ A].
  pose proof (LM_index_lex ell' m' ell m ell_min H' H Hm' Hm) as [_ B].
  lia.
Qed.

Definition LM_row_ok (ell_min ell_max : Z) (k : Z) (row : Z * Z) : Prop :=
  let '(ell, m) := row in
  ell_min <= ell <= ell_max /\ - ell <= m <= ell /\ LM_index ell m ell_min = k.

Lemma LM_range_ok g ell_min ell_max :
  0 <= ell_min <= ell_max + 1 ->
  exists LM, LM_range g ell_min ell_max = Ok LM
    /\ alen LM = LM_total_size ell_min ell_max
    /\ forall k, 0 <= k < alen LM -> LM_row_ok ell_min ell_max k (aget LM k).
Proof.
  intros H. unfold LM_range.
  rewrite np_empty_ok by nia. cbn [bind]. unfold LM_range_fill.
  set (n := ell_max * (ell_max + 2) - ell_min ^ 2 + 1).
  set (Q := LM_row_ok ell_min ell_max).
  set (P := fun (ell : Z) (s : arr (Z * Z) * Z) =>
              snd s = LM_index ell (- ell) ell_min /\ good n Q (fst s) (snd s)).
  edestruct (for_range_inv P ell_min (ell_max + 1)
    (fun ell '(LM, i) =>
      for_range (- ell) (ell + 1) (fun m '(LM, i) =>
        do LM <- wr LM i (ell, m); Ok (LM, i + 1)) (LM, i))
    (mkarr n g, 0)) as (s' & E & P').
  - lia.
  - subst P; cbn [fst snd]; split; [unfold LM_index; ring|]. split; cbn [alen]; auto; lia.
  - intros ell [a i] He [Ei G]; cbn [fst snd alen aget] in *.
    set (P2 := fun (m : Z) (s : arr (Z * Z) * Z) =>
              snd s = LM_index ell m ell_min /\ good n Q (fst s) (snd s)).
    destruct (for_range_inv P2 (- ell) (ell + 1)
      (fun m '(LM, i) => do LM <- wr LM i (ell, m); Ok (LM, i + 1)) (a, i)) as (s2 & E2 & P2').
    + lia.
    + subst P2; cbn [fst snd]; auto.
    + intros m [b j] Hm [Ej Gb]; cbn [fst snd alen aget] in *.
      destruct (good_step n Q b j (ell, m) Gb) as (b' & Eb & Gb').
      * rewrite Ej. unfold LM_index, n. nia.
      * subst Q; simpl; rewrite Ej; repeat split; lia.
      * rewrite Eb; simpl. eexists; split; [reflexivity|].
        subst P2; cbn [fst snd]; split; auto. rewrite Ej; unfold LM_index; lia.
    + exists s2; split; auto. destruct P2' as [A B]; split; auto.
      rewrite A; unfold LM_index; ring.
  - destruct s' as [a i]; rewrite E; simpl.
    destruct P' as [Ei [L G]]; cbn [fst snd alen aget] in *.
    exists a; split; [reflexivity|]. unfold LM_total_size. split; [exact L|].
    intros k Hk; apply G. rewrite Ei; unfold LM_index, n in *; lia.
Qed.

(** ** deducing ell_max *)

Lemma LM_deduce_sound size ell_min ell_max :
  LM_deduce_ell_max size ell_min = Ok ell_max ->
  -1 <= ell_max /\ size = LM_total_size ell_min ell_max.
Proof.
  unfold LM_deduce_ell_max, LM_deduce_with, exact_isqrt_minus_1.
  destruct (_ <? 0) eqn:E0; [discriminate|].
  destruct (negb _) eqn:E; [discriminate|].
  intros H; apply Ok_inj in H; subst ell_max. apply negb_false_iff, Z.eqb_eq in E.
  pose proof (Z.sqrt_nonneg (size + ell_min ^ 2)).
  split; [lia|]. unfold LM_total_size; lia.
Qed.

Lemma LM_deduce_complete ell_min ell_max :
  -1 <= ell_max ->
  LM_deduce_ell_max (LM_total_size ell_min ell_max) ell_min = Ok ell_max.
Proof.
  intros H. unfold LM_deduce_ell_max, LM_deduce_with, exact_isqrt_minus_1, LM_total_size.
  replace (ell_max * (ell_max + 2) - ell_min ^ 2 + 1 + ell_min ^ 2) with ((ell_max + 1) * (ell_max + 1)) by ring.
  replace (_ <? 0) with false by (symmetry; apply Z.ltb_ge; nia).
  rewrite Z.sqrt_square by lia.
  replace (ell_max + 1 - 1) with ell_max by lia.
  rewrite Z.eqb_refl; reflexivity.
Qed.

(** ** (ell, mp, m) *)

Lemma mod3_cube l : exists q, (4 * l * l - 1) * l = 3 * q.
Proof.
  assert (H : l mod 3 = 0 \/ l mod 3 = 1 \/ l mod 3 = 2)
    by (pose proof (Z.mod_pos_bound l 3); lia).
  pose proof (Z.div_mod l 3 ltac:(lia)) as D.
  set (d := l / 3) in *.
  destruct H as [H|[H|H]]; rewrite H in D; rewrite D.
  - exists ((4 * (3 * d) * (3 * d) - 1) * d); ring.
  - exists (36 * d * d * d + 36 * d * d + 11 * d + 1); ring.
  - exists (36 * d * d * d + 72 * d * d + 47 * d + 10); ring.
Qed.

(** [(4 l^2 - 1) l / 3], the number of (ell, mp, m) with [0 <= ell < l]. *)
Definition cub (l : Z) : Z := (4 * l * l - 1) * l / 3.

Lemma cub3 l : 3 * cub l = (4 * l * l - 1) * l.
Proof.
  unfold cub. destruct (mod3_cube l) as [q E]. rewrite E.
  rewrite (Z.mul_comm 3 q) at 1. rewrite Z.div_mul by lia. ring.
Qed.

Lemma cub_succ l : cub (l + 1) = cub l + (2 * l + 1) * (2 * l + 1).
Proof. pose proof (cub3 l); pose proof (cub3 (l + 1)); nia. Qed.

Lemma cub_nonneg l : 0 <= l -> 0 <= cub l.
Proof. intros; pose proof (cub3 l). nia. Qed.

Lemma cub_mono l l' : 0 <= l -> l <= l' -> cub l <= cub l'.
Proof.
  intros H0 H. pose proof (cub3 l); pose proof (cub3 l').
  assert (0 <= (l' - l) * (4 * (l' * l' + l' * l + l * l) - 1)).
  { destruct (Z.eq_dec l l'); [subst; lia|]. apply Z.mul_nonneg_nonneg; nia. }
  nia.
Qed.

Lemma LMpM_index_eq ell mp m ell_min :
  LMpM_index ell mp m ell_min
  = cub ell - cub ell_min + (2 * ell + 1) * (ell + mp) + (ell + m).
Proof.
  unfold LMpM_index. symmetry; apply Z.div_unique_exact; [lia|].
  pose proof (cub3 ell); pose proof (cub3 ell_min).
  replace (ell_min ^ 2) with (ell_min * ell_min) by ring. lia.
Qed.

Lemma LMpM_total_size_eq ell_min ell_max :
  LMpM_total_size ell_min ell_max = cub (ell_max + 1) - cub ell_min.
Proof.
  unfold LMpM_total_size. symmetry; apply Z.div_unique_exact; [lia|].
  pose proof (cub3 (ell_max + 1)); pose proof (cub3 ell_min).
  replace (ell_min ^ 2) with (ell_min * ell_min) by ring. lia.
Qed.

Lemma LMpM_alloc_eq ell_min ell_max :
  (ell_max * (11 + ell_max * (12 + 4 * ell_max)) + ell_min * (1 - 4 * ell_min ^ 2) + 3) / 3
  = LMpM_total_size ell_min ell_max.
Proof. unfold LMpM_total_size. f_equal. ring. Qed.

Lemma LMpM_index_lex ell mp m ell' mp' m' ell_min :
  0 <= ell -> 0 <= ell' -> - ell <= mp <= ell -> - ell' <= mp' <= ell' ->
  - ell <= m <= ell -> - ell' <= m' <= ell' ->
  (LMpM_index ell mp m ell_min < LMpM_index ell' mp' m' ell_min <->
   ell < ell' \/ (ell = ell' /\ (mp < mp' \/ (mp = mp' /\ m < m')))).
Proof.
  intros. rewrite !LMpM_index_eq.
  assert (forall l l' p p' q q', 0 <= l -> l < l' -> - l <= p <= l -> - l' <= p' <= l' ->
    - l <= q <= l -> - l' <= q' <= l' ->
    cub l - cub ell_min + (2 * l + 1) * (l + p) + (l + q)
    < cub l' - cub ell_min + (2 * l' + 1) * (l' + p') + (l' + q')) as Hlt.
  { intros. pose proof (cub_mono (l + 1) l' ltac:(lia) ltac:(lia)).
    rewrite cub_succ in *. nia. }
  destruct (Z.lt_trichotomy ell ell') as [L|[->|L]].
  - split; [lia | intros _]. apply Hlt; auto.
  - split; [|nia]. intros. right; split; auto.
    destruct (Z.lt_trichotomy mp mp') as [M|[->|M]]; [lia|lia|nia].
  - split; [|lia]. intros. pose proof (Hlt ell' ell mp' mp m' m). lia.
Qed.

Lemma LMpM_index_inj ell mp m ell' mp' m' ell_min :
  0 <= ell -> 0 <= ell' -> - ell <= mp <= ell -> - ell' <= mp' <= ell' ->
  - ell <= m <= ell -> - ell' <= m' <= ell' ->
  LMpM_index ell mp m ell_min = LMpM_index ell' mp' m' ell_min ->
  ell = ell' /\ mp = mp' /\ m = m'.
Proof.
  intros H H' Hmp Hmp' Hm Hm' E.
  pose proof (LMpM_index_lex ell mp m ell' mp' m' ell_min H H' Hmp Hmp' Hm Hm') as [_ A].
  pose proof (LMpM_index_lex ell' mp' m' ell mp m ell_min H' H Hmp' Hmp Hm' Hm) as [_ B].
  lia.
Qed.

Lemma LMpM_index_bounds ell mp m ell_min ell_max :
  0 <= ell_min <= ell -> ell <= ell_max -> - ell <= mp <= ell -> - ell <= m <= ell ->
  0 <= LMpM_index ell mp m ell_min < LMpM_total_size ell_min ell_max.
Proof.
  intros. rewrite LMpM_index_eq, LMpM_total_size_eq.
  pose proof (cub_mono ell_min ell ltac:(lia) ltac:(lia)).
  pose proof (cub_mono (ell + 1) (ell_max + 1) ltac:(lia) ltac:(lia)).
  rewrite (cub_succ ell) in *. nia.
Qed.

Definition LMpM_row_ok (ell_min ell_max : Z) (k : Z) (row : Z * Z * Z) : Prop :=
  let '(ell, mp, m) := row in
  ell_min <= ell <= ell_max /\ - ell <= mp <= ell /\ - ell <= m <= ell
  /\ LMpM_index ell mp m ell_min = k.

Lemma LMpM_range_ok g ell_min ell_max :
  0 <= ell_min <= ell_max + 1 ->
  exists a, LMpM_range g ell_min ell_max = Ok a
    /\ alen a = LMpM_total_size ell_min ell_max
    /\ forall k, 0 <= k < alen a -> LMpM_row_ok ell_min ell_max k (aget a k).
Proof.
  intros H. unfold LMpM_range. rewrite LMpM_alloc_eq.
  set (n := LMpM_total_size ell_min ell_max).
  assert (Hn : 0 <= n).
  { subst n; rewrite LMpM_total_size_eq.
    pose proof (cub_mono ell_min (ell_max + 1) ltac:(lia) ltac:(lia)); lia. }
  rewrite np_empty_ok by auto. cbn [bind]. unfold LMpM_range_fill.
  set (Q := LMpM_row_ok ell_min ell_max).
  set (P := fun (ell : Z) (s : arr (Z * Z * Z) * Z) =>
              snd s = cub ell - cub ell_min /\ good n Q (fst s) (snd s)).
  edestruct (for_range_inv P ell_min (ell_max + 1)
    (fun ell '(a, i) =>
      for_range (- ell) (ell + 1) (fun mp '(a, i) =>
        for_range (- ell) (ell + 1) (fun m '(a, i) =>
          do a <- wr a i (ell, mp, m); Ok (a, i + 1)) (a, i)) (a, i))
    (mkarr n g, 0)) as (s' & E & P').
  - lia.
  - subst P; cbn [fst snd]; split; [lia|]. split; cbn [alen]; auto; lia.
  - intros ell [a i] He [Ei G]; cbn [fst snd alen aget] in *.
    set (P2 := fun (mp : Z) (s : arr (Z * Z * Z) * Z) =>
              snd s = cub ell - cub ell_min + (2 * ell + 1) * (ell + mp) /\ good n Q (fst s) (snd s)).
    edestruct (for_range_inv P2 (- ell) (ell + 1)
      (fun mp '(a, i) => for_range (- ell) (ell + 1) (fun m '(a, i) =>
          do a <- wr a i (ell, mp, m); Ok (a, i + 1)) (a, i)) (a, i)) as (s2 & E2 & P2').
    + lia.
    + subst P2; cbn [fst snd]; split; auto. lia.
    + intros mp [b j] Hmp [Ej Gb]; cbn [fst snd alen aget] in *.
      set (P3 := fun (m : Z) (s : arr (Z * Z * Z) * Z) =>
              snd s = cub ell - cub ell_min + (2 * ell + 1) * (ell + mp) + (ell + m)
              /\ good n Q (fst s) (snd s)).
      edestruct (for_range_inv P3 (- ell) (ell + 1)
        (fun m '(a, i) => do a <- wr a i (ell, mp, m); Ok (a, i + 1)) (b, j)) as (s3 & E3 & P3').
      * lia.
      * subst P3; cbn [fst snd]; split; auto. lia.
      * intros m [c k] Hm [Ek Gc]; cbn [fst snd alen aget] in *.
        pose proof (LMpM_index_bounds ell mp m ell_min ell_max) as B.
        rewrite LMpM_index_eq in B.
        destruct (good_step n Q c k (ell, mp, m) Gc) as (c' & Ec & Gc').
        -- rewrite Ek. apply B; lia.
        -- subst Q; simpl. rewrite LMpM_index_eq, Ek. repeat split; lia.
        -- rewrite Ec; simpl. eexists; split; [reflexivity|].
           subst P3; cbn [fst snd]; split; auto. rewrite Ek; lia.
      * exists s3; split; auto. destruct P3' as [A B]; split; auto. rewrite A; lia.
    + exists s2; split; auto. destruct P2' as [A B]; split; auto.
      rewrite A, cub_succ; lia.
  - destruct s' as [a i]; rewrite E; simpl.
    destruct P' as [Ei [L G]]; cbn [fst snd alen aget] in *.
    exists a; split; [reflexivity|]. split; [exact L|].
    intros k Hk; apply G. rewrite Ei. rewrite L in Hk. subst n.
    rewrite LMpM_total_size_eq in Hk. lia.
Qed.
