(** The statements of [P_Index], assembled from the lemmas. *)
Require Import ZArith Lia List Bool.
From Verif Require Import Base BaseProofs IndexModel IndexProofs IndexProofs2 FloatIndexModel FloatIndexProofs.
Import ListNotations.
Open Scope Z_scope.

Lemma C01 :
  forall (garbage : Z -> Z * Z) (ell_min ell_max : Z),
    0 <= ell_min <= ell_max + 1 ->
    exists LM, LM_range garbage ell_min ell_max = Ok LM
      /\ alen LM = LM_total_size ell_min ell_max
      /\ (forall k, 0 <= k < alen LM ->
            ell_min <= fst (aget LM k) <= ell_max
            /\ - fst (aget LM k) <= snd (aget LM k) <= fst (aget LM k))
      /\ (forall j k, 0 <= j < k -> k < alen LM ->
            fst (aget LM j) < fst (aget LM k)
            \/ (fst (aget LM j) = fst (aget LM k) /\ snd (aget LM j) < snd (aget LM k)))
      /\ (forall ell m, ell_min <= ell <= ell_max -> - ell <= m <= ell ->
            0 <= LM_index ell m ell_min < alen LM
            /\ aget LM (LM_index ell m ell_min) = (ell, m)).
Proof.
  intros g lo hi H. destruct (LM_range_ok g lo hi H) as (a & E & L & R).
  exists a. repeat split; auto.
  - specialize (R k ltac:(lia)). destruct (aget a k); simpl in *; lia.
  - specialize (R k ltac:(lia)). destruct (aget a k); simpl in *; lia.
  - specialize (R k ltac:(lia)). destruct (aget a k); simpl in *; lia.
  - specialize (R k ltac:(lia)). destruct (aget a k); simpl in *; lia.
  - intros j k Hj Hk.
    pose proof (R j ltac:(lia)) as Rj. pose proof (R k ltac:(lia)) as Rk.
    destruct (aget a j) as [e m], (aget a k) as [e' m']; simpl in *.
    apply (LM_index_lex e m e' m' lo); lia.
  - pose proof (LM_index_bounds ell m lo hi). lia.
  - pose proof (LM_index_bounds ell m lo hi). lia.
  - assert (B : 0 <= LM_index ell m lo < alen a)
      by (pose proof (LM_index_bounds ell m lo hi); lia).
    pose proof (R _ B) as Rk. destruct (aget a _) as [e' m']; simpl in Rk.
    destruct Rk as (He & Hm & Ei). apply LM_index_inj in Ei; try lia.
    destruct Ei; subst; auto.
Qed.

Lemma C02 size ell_min ell_max :
  LM_deduce_ell_max size ell_min = Ok ell_max
  <-> -1 <= ell_max /\ size = LM_total_size ell_min ell_max.
Proof.
  split; [apply LM_deduce_sound|]. intros [H ->]. apply LM_deduce_complete; auto.
Qed.

Lemma C02_rejects size ell_min :
  (forall ell_max, -1 <= ell_max -> size <> LM_total_size ell_min ell_max) ->
  LM_deduce_ell_max size ell_min = Err ValueError.
Proof.
  intros H. destruct (LM_deduce_ell_max size ell_min) as [e|e] eqn:E.
  - apply C02 in E. destruct E as [E1 E2]. exfalso; apply (H e); auto.
  - unfold LM_deduce_ell_max, LM_deduce_with in E.
    destruct (_ <? 0); [congruence|]. destruct (negb _); congruence.
Qed.

Definition C02_float := LM_deduce_float_exact.

Lemma C03 :
  forall (garbage : Z -> Z * Z * Z) (ell_min ell_max : Z),
    0 <= ell_min <= ell_max + 1 ->
    exists a, LMpM_range garbage ell_min ell_max = Ok a
      /\ alen a = LMpM_total_size ell_min ell_max
      /\ (forall k, 0 <= k < alen a ->
            let '(ell, mp, m) := aget a k in
            ell_min <= ell <= ell_max /\ - ell <= mp <= ell /\ - ell <= m <= ell)
      /\ (forall j k, 0 <= j < k -> k < alen a ->
            let '(ell, mp, m) := aget a j in
            let '(ell', mp', m') := aget a k in
            ell < ell' \/ (ell = ell' /\ (mp < mp' \/ (mp = mp' /\ m < m'))))
      /\ (forall ell mp m, ell_min <= ell <= ell_max -> - ell <= mp <= ell -> - ell <= m <= ell ->
            0 <= LMpM_index ell mp m ell_min < alen a
            /\ aget a (LMpM_index ell mp m ell_min) = (ell, mp, m)).
Proof.
  intros g lo hi H. destruct (LMpM_range_ok g lo hi H) as (a & E & L & R).
  exists a. split; [auto|]. split; [auto|]. split; [|split].
  - intros k Hk. specialize (R k Hk). destruct (aget a k) as [[e p] m]; simpl in R. lia.
  - intros j k Hj Hk. pose proof (R j ltac:(lia)) as Rj. pose proof (R k ltac:(lia)) as Rk.
    destruct (aget a j) as [[e p] m], (aget a k) as [[e' p'] m']; simpl in *.
    apply (LMpM_index_lex e p m e' p' m' lo); lia.
  - intros e p m He Hp Hm.
    assert (B : 0 <= LMpM_index e p m lo < alen a)
      by (rewrite L; apply LMpM_index_bounds; lia).
    split; auto. pose proof (R _ B) as Rk. destruct (aget a _) as [[e' p'] m']; simpl in Rk.
    destruct Rk as (He' & Hp' & Hm' & Ei). apply LMpM_index_inj in Ei; try lia.
    destruct Ei as (-> & -> & ->); auto.
Qed.

Lemma C03_rejects garbage tmin tmax :
  Z.odd tmin = true \/ Z.odd tmax = true ->
  LMpM_range_half_arg garbage tmin tmax = Err ValueError.
Proof.
  intros H. unfold LMpM_range_half_arg.
  replace (Z.odd tmax || Z.odd tmin) with true; auto.
  symmetry; apply orb_true_iff; tauto.
Qed.

Lemma Wigner_index_start t : 0 <= t -> Wigner_index t (- t) (- t) = sq6 t.
Proof.
  intros. pose proof (Wigner_index_eq t 0 0) as E.
  replace (- t + 2 * 0) with (- t) in E by lia. lia.
Qed.

Lemma C04 :
  forall (garbage : Z -> Z * Z * Z) (tmin tmax : Z),
    0 <= tmin <= tmax + 1 ->
    exists a, LMpM_range_half_integer garbage tmin tmax = Ok a
      /\ (forall k, 0 <= k < alen a ->
            let '(t, mp, m) := aget a k in
            tmin <= t <= tmax /\ - t <= mp <= t /\ - t <= m <= t
            /\ Z.even (t + mp) = true /\ Z.even (t + m) = true)
      /\ (forall j k, 0 <= j < k -> k < alen a ->
            let '(t, mp, m) := aget a j in
            let '(t', mp', m') := aget a k in
            t < t' \/ (t = t' /\ (mp < mp' \/ (mp = mp' /\ m < m'))))
      /\ (forall t mp m, tmin <= t <= tmax -> - t <= mp <= t -> - t <= m <= t ->
            Z.even (t + mp) = true -> Z.even (t + m) = true ->
            let k := Wigner_index t mp m - Wigner_index tmin (- tmin) (- tmin) in
            0 <= k < alen a /\ aget a k = (t, mp, m)).
Proof.
  intros g lo hi H. destruct (half_range_ok g lo hi H) as (a & E & L & R).
  exists a. split; [auto|]. split; [|split].
  - intros k Hk. specialize (R k Hk). destruct (aget a k) as [[e p] m]; simpl in R. tauto.
  - intros j k Hj Hk. pose proof (R j ltac:(lia)) as Rj. pose proof (R k ltac:(lia)) as Rk.
    destruct (aget a j) as [[t mp] m], (aget a k) as [[t' mp'] m']; simpl in *.
    destruct Rj as (Ht & Hmp & Hm & Emp & Em & Ij), Rk as (Ht' & Hmp' & Hm' & Emp' & Em' & Ik).
    destruct (parity_form t mp Hmp Emp) as (p & Hp & ->).
    destruct (parity_form t m Hm Em) as (q & Hq & ->).
    destruct (parity_form t' mp' Hmp' Emp') as (p' & Hp' & ->).
    destruct (parity_form t' m' Hm' Em') as (q' & Hq' & ->).
    rewrite Wigner_index_eq in *.
    destruct (Z.lt_trichotomy t t') as [T|[->|T]]; [left; auto| |].
    + right; split; auto. destruct (Z.lt_trichotomy p p') as [P|[->|P]]; [lia|lia|].
      assert (p' * (t' + 1) + (t' + 1) <= p * (t' + 1)) by nia. lia.
    + pose proof (sq6_lt t' p' q' t p q). lia.
  - intros t mp m Ht Hmp Hm Emp Em. cbv zeta. rewrite Wigner_index_start by lia.
    destruct (parity_form t mp Hmp Emp) as (p & Hp & ->).
    destruct (parity_form t m Hm Em) as (q & Hq & ->).
    assert (B : 0 <= Wigner_index t (- t + 2 * p) (- t + 2 * q) - sq6 lo < alen a).
    { rewrite L, Wigner_index_eq.
      pose proof (sq6_mono lo t ltac:(lia) ltac:(lia)).
      pose proof (sq6_mono (t + 1) (hi + 1) ltac:(lia) ltac:(lia)).
      rewrite (sq6_succ t) in *. nia. }
    split; auto. pose proof (R _ B) as Rk.
    destruct (aget a _) as [[t' mp'] m']; cbn [half_row_ok] in Rk.
    destruct Rk as (Ht' & Hmp' & Hm' & Emp' & Em' & Ik).
    destruct (parity_form t' mp' Hmp' Emp') as (p' & Hp' & ->).
    destruct (parity_form t' m' Hm' Em') as (q' & Hq' & ->).
    rewrite !Wigner_index_eq in Ik.
    destruct (sq6_inj t' p' q' t p q) as (-> & -> & ->); auto; lia.
Qed.

Lemma C04_zero :
  forall garbage tmax, -1 <= tmax ->
    exists a, LMpM_range_half_integer garbage 0 tmax = Ok a
      /\ (forall t mp m, 0 <= t <= tmax -> - t <= mp <= t -> - t <= m <= t ->
            Z.even (t + mp) = true -> Z.even (t + m) = true ->
            0 <= Wigner_index t mp m < alen a /\ aget a (Wigner_index t mp m) = (t, mp, m)).
Proof.
  intros g tmax H. destruct (C04 g 0 tmax ltac:(lia)) as (a & E & _ & _ & R).
  exists a; split; auto. intros t mp m Ht Hmp Hm Emp Em.
  specialize (R t mp m Ht Hmp Hm Emp Em). cbv zeta in R.
  change (Wigner_index 0 (- 0) (- 0)) with 0 in R. rewrite Z.sub_0_r in R. auto.
Qed.

Definition C05_Wigner := @Wigner_table_ok.
Definition C05_binomial := @binomial_table_ok.
Definition C05_ladder := @ladder_table_ok.

Lemma C06_index ell mp m ell_min :
  linear_matrix_offset ell ell_min + linear_matrix_index ell mp m = LMpM_index ell mp m ell_min
  /\ linear_matrix_offset ell ell_min + linear_matrix_diagonal_index ell m
     = LMpM_index ell m m ell_min.
Proof.
  split; [apply linear_matrix_index_ok|].
  rewrite linear_matrix_diagonal_ok. apply linear_matrix_index_ok.
Qed.

Lemma C06_tile ell_min ell_max :
  linear_matrix_offset ell_min ell_min = 0
  /\ linear_matrix_offset (ell_max + 1) ell_min = total_size_D_matrices ell_min ell_max
  /\ total_size_D_matrices ell_min ell_max = LMpM_total_size ell_min ell_max
  /\ forall ell, linear_matrix_offset (ell + 1) ell_min
       = linear_matrix_offset ell ell_min + (2 * ell + 1) ^ 2.
Proof.
  rewrite total_size_D_ok, LMpM_total_size_eq, !linear_matrix_offset_eq.
  repeat split; try lia. intros ell. rewrite !linear_matrix_offset_eq, cub_succ. ring.
Qed.

Lemma C06_bij ell : 0 <= ell ->
  (forall mp m, - ell <= mp <= ell -> - ell <= m <= ell ->
     0 <= linear_matrix_index ell mp m < (2 * ell + 1) ^ 2)
  /\ (forall k, 0 <= k < (2 * ell + 1) ^ 2 ->
        exists mp m, - ell <= mp <= ell /\ - ell <= m <= ell /\ linear_matrix_index ell mp m = k)
  /\ (forall mp m mp' m', - ell <= m <= ell -> - ell <= m' <= ell ->
        linear_matrix_index ell mp m = linear_matrix_index ell mp' m' -> mp = mp' /\ m = m').
Proof.
  intros H. unfold linear_matrix_index. split; [|split].
  - intros. nia.
  - intros k Hk. exists (k / (2 * ell + 1) - ell), (k mod (2 * ell + 1) - ell).
    pose proof (Z.div_mod k (2 * ell + 1) ltac:(lia)) as D.
    pose proof (Z.mod_pos_bound k (2 * ell + 1) ltac:(lia)) as B.
    assert (0 <= k / (2 * ell + 1) < 2 * ell + 1).
    { split; [apply Z.div_pos; lia|]. apply Z.div_lt_upper_bound; lia. }
    repeat split; try lia.
  - intros mp m mp' m' Hm Hm' E. assert (mp = mp') by nia. subst; lia.
Qed.

Lemma C07_wedge :
  forall n_max, 0 <= n_max ->
    let wedge n mp m := 0 <= n <= n_max /\ - n <= mp <= n /\ Z.abs mp <= m <= n in
    (forall n mp m, wedge n mp m -> 0 <= wedge_index n mp m < wedge_size n_max)
    /\ (forall k, 0 <= k < wedge_size n_max ->
          exists n mp m, wedge n mp m /\ wedge_index n mp m = k)
    /\ (forall n mp m n' mp' m', wedge n mp m -> wedge n' mp' m' ->
          (wedge_index n mp m < wedge_index n' mp' m' <->
           n < n' \/ (n = n' /\ (mp < mp' \/ (mp = mp' /\ m < m'))))).
Proof.
  intros N HN wedge. split; [|split].
  - intros n mp m H; apply wedge_index_bounds; exact H.
  - intros k Hk; apply wedge_index_onto; auto.
  - intros n mp m n' mp' m' H H'; apply (wedge_index_lex N); auto.
Qed.

Lemma C07_nm N : 0 <= N ->
  (forall n m, 0 <= n < N -> - n <= m <= n -> 0 <= nm_index n m < N ^ 2)
  /\ (forall k, 0 <= k < N ^ 2 -> exists n m, 0 <= n < N /\ - n <= m <= n /\ nm_index n m = k)
  /\ (forall n m n' m', 0 <= n -> 0 <= n' -> - n <= m <= n -> - n' <= m' <= n' ->
        nm_index n m = nm_index n' m' -> n = n' /\ m = m').
Proof.
  intros H. unfold nm_index. split; [|split].
  - intros; nia.
  - intros k Hk. destruct (find_block (fun n => n ^ 2) 0 N k) as (n & Hn & Hb); try lia.
    exists n, (k - n * (n + 1)). cbv beta in Hb. repeat split; try lia.
  - intros n m n' m' Hn Hn' Hm Hm' E. apply (LM_index_inj n m n' m' 0); auto.
    unfold LM_index. lia.
Qed.

Lemma C07_nabsm N : 0 <= N ->
  (forall n m, 0 <= n < N -> 0 <= m <= n -> 0 <= nabsm_index n m /\ 2 * nabsm_index n m < N * (N + 1))
  /\ (forall k, 0 <= k -> 2 * k < N * (N + 1) ->
        exists n m, 0 <= n < N /\ 0 <= m <= n /\ nabsm_index n m = k)
  /\ (forall n m n' m', 0 <= n -> 0 <= n' -> 0 <= m <= n -> 0 <= m' <= n' ->
        nabsm_index n m = nabsm_index n' m' -> n = n' /\ m = m').
Proof.
  intros H. unfold nabsm_index. split; [|split].
  - intros n m Hn Hm. fold (tri n). pose proof (tri2 n). nia.
  - intros k Hk0 Hk. pose proof (tri2 N). pose proof (tri2 0).
    destruct (find_block tri 0 N k) as (n & Hn & Hb); try lia.
    rewrite tri_succ in Hb. exists n, (k - tri n). fold (tri n). repeat split; lia.
  - intros n m n' m' Hn Hn' Hm Hm' E. apply tri_inj; auto. unfold tri. lia.
Qed.

Lemma C07_nmpm n mp m : nmpm_index n mp m = LMpM_index n mp m 0.
Proof. unfold nmpm_index, LMpM_index. f_equal. lia. Qed.

Definition C08_in := wedgeify_in.

Lemma C08_orbits n mp m mp2 m2 :
  wedgeify_index n mp m = wedgeify_index n mp2 m2
  <-> ((mp2, m2) = (mp, m) \/ (mp2, m2) = (m, mp)
       \/ (mp2, m2) = (- mp, - m) \/ (mp2, m2) = (- m, - mp)).
Proof.
  split.
  - unfold wedgeify_index.
    repeat match goal with |- context [?a <? ?b] => destruct (Z.ltb_spec a b) end;
      intros [= A B];
      first [ left; f_equal; lia | right; left; f_equal; lia
            | right; right; left; f_equal; lia | right; right; right; f_equal; lia ].
  - pose proof (wedgeify_orbit n mp m) as [T N]. pose proof (wedgeify_orbit n m mp) as [T' N'].
    intros [[= -> ->]|[[= -> ->]|[[= -> ->]|[= -> ->]]]]; congruence.
Qed.

Lemma C08_storage n_max n mp m : 0 <= n <= n_max -> - n <= mp <= n -> - n <= m <= n ->
  0 <= (let '(a, b, c) := wedgeify_index n mp m in wedge_index a b c) < wedge_size n_max.
Proof.
  intros Hn Hmp Hm. destruct (wedgeify_in n mp m ltac:(lia) Hmp Hm) as (a & b & -> & H & _).
  apply wedge_index_bounds. red. lia.
Qed.
