(** Proofs about half-integer ranges, coefficient tables, flattened matrices and the H wedge. *)
Require Import ZArith Lia List Bool.
From Verif Require Import Base BaseProofs IndexModel IndexProofs.
Import ListNotations.
Open Scope Z_scope.

(** ** Sums of squares *)

(** [T (T+1) (2T+1) / 6], the number of doubled triples with [twoell < T]. *)
Definition sq6 (T : Z) : Z := T * ((2 * T + 3) * T + 1) / 6.

Lemma mod6_sq T : exists q, T * ((2 * T + 3) * T + 1) = 6 * q.
Proof.
  pose proof (Z.div_mod T 6 ltac:(lia)) as D.
  pose proof (Z.mod_pos_bound T 6 ltac:(lia)) as B.
  set (d := T / 6) in *. set (r := T mod 6) in *. rewrite D.
  assert (H : r = 0 \/ r = 1 \/ r = 2 \/ r = 3 \/ r = 4 \/ r = 5) by lia.
  destruct H as [->|[->|[->|[->|[->| ->]]]]].
  - exists (d * ((2 * (6 * d) + 3) * (6 * d) + 1)); ring.
  - exists (72 * d * d * d + 54 * d * d + 13 * d + 1); ring.
  - exists (72 * d * d * d + 90 * d * d + 37 * d + 5); ring.
  - exists (72 * d * d * d + 126 * d * d + 73 * d + 14); ring.
  - exists (72 * d * d * d + 162 * d * d + 121 * d + 30); ring.
  - exists (72 * d * d * d + 198 * d * d + 181 * d + 55); ring.
Qed.

Lemma sq6_6 T : 6 * sq6 T = T * ((2 * T + 3) * T + 1).
Proof.
  unfold sq6. destruct (mod6_sq T) as [q E]. rewrite E.
  rewrite (Z.mul_comm 6 q) at 1. rewrite Z.div_mul by lia. ring.
Qed.

Lemma sq6_succ T : sq6 (T + 1) = sq6 T + (T + 1) * (T + 1).
Proof. pose proof (sq6_6 T); pose proof (sq6_6 (T + 1)); nia. Qed.

Lemma sq6_mono T T' : 0 <= T -> T <= T' -> sq6 T <= sq6 T'.
Proof.
  intros H H'.
  assert (0 <= (T' - T) * (2 * (T' * T' + T' * T + T * T) + 3 * (T' + T) + 1))
    by (apply Z.mul_nonneg_nonneg; nia).
  assert (6 * (sq6 T' - sq6 T) = (T' - T) * (2 * (T' * T' + T' * T + T * T) + 3 * (T' + T) + 1))
    by (rewrite Z.mul_sub_distr_l, !sq6_6; ring).
  lia.
Qed.

Lemma half_add T p : (T + (- T + 2 * p)) / 2 = p.
Proof. symmetry; apply Z.div_unique_exact; lia. Qed.

Lemma Wigner_index_eq T p q :
  Wigner_index T (- T + 2 * p) (- T + 2 * q) = sq6 T + p * (T + 1) + q.
Proof. unfold Wigner_index. rewrite !half_add. unfold sq6. lia. Qed.

(** A doubled index of the right parity. *)
Lemma parity_form T M : - T <= M <= T -> Z.even (T + M) = true ->
  exists p, 0 <= p <= T /\ M = - T + 2 * p.
Proof.
  intros H E. apply Z.even_spec in E. destruct E as [p E]. exists p. lia.
Qed.

Lemma sq6_lt T p q T' p' q' :
  0 <= T -> T < T' -> 0 <= p <= T -> 0 <= q <= T -> 0 <= p' <= T' -> 0 <= q' <= T' ->
  sq6 T + p * (T + 1) + q < sq6 T' + p' * (T' + 1) + q'.
Proof.
  intros. pose proof (sq6_mono (T + 1) T' ltac:(lia) ltac:(lia)).
  rewrite (sq6_succ T) in *. nia.
Qed.

Lemma sq6_inj T p q T' p' q' :
  0 <= T -> 0 <= T' -> 0 <= p <= T -> 0 <= q <= T -> 0 <= p' <= T' -> 0 <= q' <= T' ->
  sq6 T + p * (T + 1) + q = sq6 T' + p' * (T' + 1) + q' ->
  T = T' /\ p = p' /\ q = q'.
Proof.
  intros H H' Hp Hq Hp' Hq' E.
  destruct (Z.lt_trichotomy T T') as [L|[->|L]].
  - pose proof (sq6_lt T p q T' p' q'); lia.
  - split; auto. assert (p = p') by nia. subst; lia.
  - pose proof (sq6_lt T' p' q' T p q); lia.
Qed.

(** ** The doubled triple loop *)

Lemma half_loop {A} (f : Z -> Z -> Z -> A) n (Q : Z -> A -> Prop) a tmin tmax :
  0 <= tmin <= tmax + 1 ->
  n = sq6 (tmax + 1) - sq6 tmin ->
  good n Q a 0 ->
  (forall t p q, tmin <= t <= tmax -> 0 <= p <= t -> 0 <= q <= t ->
     Q (sq6 t - sq6 tmin + p * (t + 1) + q) (f t (- t + 2 * p) (- t + 2 * q))) ->
  exists a',
    for_range tmin (tmax + 1) (fun twoell '(a, i) =>
      for_step (- twoell) (twoell + 1) 2 (fun twomp '(a, i) =>
        for_step (- twoell) (twoell + 1) 2 (fun twom '(a, i) =>
          do a <- wr a i (f twoell twomp twom); Ok (a, i + 1)) (a, i)) (a, i)) (a, 0)
    = Ok (a', n) /\ good n Q a' n.
Proof.
  intros H Hn G0 HQ.
  set (P := fun (t : Z) (s : arr A * Z) =>
              snd s = sq6 t - sq6 tmin /\ good n Q (fst s) (snd s)).
  edestruct (for_range_inv P tmin (tmax + 1)
    (fun twoell '(a, i) =>
      for_step (- twoell) (twoell + 1) 2 (fun twomp '(a, i) =>
        for_step (- twoell) (twoell + 1) 2 (fun twom '(a, i) =>
          do a <- wr a i (f twoell twomp twom); Ok (a, i + 1)) (a, i)) (a, i)) (a, 0))
    as (s' & E & P').
  - lia.
  - subst P; cbn [fst snd]; split; [lia|auto].
  - intros t [b i] Ht [Ei G]; cbn [fst snd] in *.
    set (P2 := fun (M : Z) (s : arr A * Z) =>
        2 * snd s = 2 * (sq6 t - sq6 tmin) + (t + M) * (t + 1) /\ good n Q (fst s) (snd s)).
    destruct (for_step2_inv P2 t
      (fun twomp '(a, i) =>
        for_step (- t) (t + 1) 2 (fun twom '(a, i) =>
          do a <- wr a i (f t twomp twom); Ok (a, i + 1)) (a, i)) (b, i)) as (s2 & E2 & P2').
    + lia.
    + subst P2; cbn [fst snd]; split; [lia|auto].
    + intros p [c j] Hp [Ej Gc]; cbn [fst snd] in *.
      set (P3 := fun (M : Z) (s : arr A * Z) =>
        2 * snd s = 2 * (sq6 t - sq6 tmin) + 2 * p * (t + 1) + (t + M) /\ good n Q (fst s) (snd s)).
      destruct (for_step2_inv P3 t
        (fun twom '(a, i) =>
          do a <- wr a i (f t (- t + 2 * p) twom); Ok (a, i + 1)) (c, j)) as (s3 & E3 & P3').
      * lia.
      * subst P3; cbn [fst snd]; split; [lia|auto].
      * intros q [e k] Hq [Ek Ge]; cbn [fst snd] in *.
        assert (Hk : k = sq6 t - sq6 tmin + p * (t + 1) + q) by lia.
        destruct (good_step n Q e k (f t (- t + 2 * p) (- t + 2 * q)) Ge) as (e' & Ee & Ge').
        -- rewrite Hk, Hn.
           pose proof (sq6_mono tmin t ltac:(lia) ltac:(lia)).
           pose proof (sq6_mono (t + 1) (tmax + 1) ltac:(lia) ltac:(lia)).
           rewrite (sq6_succ t) in *. nia.
        -- rewrite Hk. apply HQ; lia.
        -- rewrite Ee; cbn [bind]. eexists; split; [reflexivity|].
           subst P3; cbn [fst snd]; split; [lia|auto].
      * exists s3; split; [exact E3|]. destruct P3' as [A1 B1]; split; auto. lia.
    + exists s2; split; [exact E2|]. destruct P2' as [A1 B1]; split; auto.
      rewrite sq6_succ. lia.
  - destruct s' as [a' i]; destruct P' as [Ei G]; cbn [fst snd] in *.
    exists a'. subst i. rewrite <- Hn in *. auto.
Qed.

(** ** Half-integer ranges *)

Lemma half_alloc_eq t T : 0 <= t <= T + 1 ->
  Z.quot (((2 * T + 9) * T + 13) * T + 6 - ((2 * t + 3) * t + 1) * t) 2 / 3
  = sq6 (T + 1) - sq6 t.
Proof.
  intros H. pose proof (sq6_6 (T + 1)); pose proof (sq6_6 t).
  pose proof (sq6_mono t (T + 1) ltac:(lia) ltac:(lia)).
  replace (((2 * T + 9) * T + 13) * T + 6 - ((2 * t + 3) * t + 1) * t)
    with (6 * (sq6 (T + 1) - sq6 t)) by lia.
  rewrite Z.quot_div_nonneg by lia.
  replace (6 * (sq6 (T + 1) - sq6 t)) with ((3 * (sq6 (T + 1) - sq6 t)) * 2) by ring.
  rewrite Z.div_mul by lia. rewrite Z.mul_comm, Z.div_mul by lia. reflexivity.
Qed.

Definition half_row_ok (tmin tmax : Z) (k : Z) (row : Z * Z * Z) : Prop :=
  let '(t, mp, m) := row in
  tmin <= t <= tmax /\ - t <= mp <= t /\ - t <= m <= t
  /\ Z.even (t + mp) = true /\ Z.even (t + m) = true
  /\ Wigner_index t mp m - sq6 tmin = k.

Lemma even_2p t p : Z.even (t + (- t + 2 * p)) = true.
Proof. replace (t + (- t + 2 * p)) with (2 * p) by ring. rewrite Z.even_mul. reflexivity. Qed.

Lemma half_range_ok g tmin tmax :
  0 <= tmin <= tmax + 1 ->
  exists a, LMpM_range_half_integer g tmin tmax = Ok a
    /\ alen a = sq6 (tmax + 1) - sq6 tmin
    /\ forall k, 0 <= k < alen a -> half_row_ok tmin tmax k (aget a k).
Proof.
  intros H. unfold LMpM_range_half_integer. cbv zeta.
  rewrite half_alloc_eq by auto.
  pose proof (sq6_mono tmin (tmax + 1) ltac:(lia) ltac:(lia)).
  rewrite np_empty_ok by lia. cbn [bind]. unfold LMpM_half_fill.
  destruct (half_loop (fun t mp m => (t, mp, m)) (sq6 (tmax + 1) - sq6 tmin)
              (half_row_ok tmin tmax) (mkarr (sq6 (tmax + 1) - sq6 tmin) g) tmin tmax)
    as (a' & E & [L G]); auto.
  - split; cbn [alen]; auto; lia.
  - intros t p q Ht Hp Hq. red. rewrite Wigner_index_eq, !even_2p.
    repeat split; try lia.
  - rewrite E; cbn [bind]. exists a'; repeat split; auto.
    intros k Hk; apply G; lia.
Qed.

(** ** Coefficient tables *)

Lemma Wigner_alloc_eq L : 0 <= L ->
  (8 * L ^ 3 + 18 * L ^ 2 + 13 * L + 3) / 3 = sq6 (2 * L + 1).
Proof.
  intros. symmetry; apply Z.div_unique_exact; [lia|].
  rewrite <- (Z.mul_cancel_l _ _ 2) by lia.
  replace (2 * (3 * sq6 (2 * L + 1))) with (6 * sq6 (2 * L + 1)) by ring.
  rewrite sq6_6. ring.
Qed.

Lemma Wigner_table_ok {A} (f : Z -> Z -> Z -> A) g L :
  0 <= L ->
  exists tab, gen_Wigner f g L = Ok tab /\
    forall t mp m, 0 <= t <= 2 * L -> - t <= mp <= t -> - t <= m <= t ->
      Z.even (t + mp) = true -> Z.even (t + m) = true ->
      Wigner_lookup tab t mp m = Ok (f t mp m).
Proof.
  intros HL. unfold gen_Wigner. rewrite Wigner_alloc_eq by auto.
  pose proof (sq6_6 0) as Z0.
  pose proof (sq6_mono 0 (2 * L + 1) ltac:(lia) ltac:(lia)).
  rewrite np_empty_ok by lia. cbn [bind].
  set (Q := fun k (v : A) => exists t p q, 0 <= t <= 2 * L /\ 0 <= p <= t /\ 0 <= q <= t
              /\ k = sq6 t + p * (t + 1) + q /\ v = f t (- t + 2 * p) (- t + 2 * q)).
  destruct (half_loop f (sq6 (2 * L + 1)) Q (mkarr (sq6 (2 * L + 1)) g) 0 (2 * L))
    as (a' & E & [Ln G]); auto; try lia.
  - split; cbn [alen]; auto; lia.
  - intros t p q Ht Hp Hq. exists t, p, q. repeat split; lia.
  - rewrite E; cbn [bind]. exists a'; split; auto.
    intros t mp m Ht Hmp Hm Emp Em.
    destruct (parity_form t mp Hmp Emp) as (p & Hp & ->).
    destruct (parity_form t m Hm Em) as (q & Hq & ->).
    unfold Wigner_lookup. rewrite Wigner_index_eq.
    assert (B : 0 <= sq6 t + p * (t + 1) + q < sq6 (2 * L + 1)).
    { pose proof (sq6_mono 0 t ltac:(lia) ltac:(lia)).
      pose proof (sq6_mono (t + 1) (2 * L + 1) ltac:(lia) ltac:(lia)).
      rewrite (sq6_succ t) in *. nia. }
    rewrite rd_ok by lia.
    destruct (G _ B) as (t' & p' & q' & Ht' & Hp' & Hq' & Ek & Ev).
    apply sq6_inj in Ek; try lia. destruct Ek as (-> & -> & ->). rewrite Ev; auto.
Qed.

(** triangular numbers *)
Definition tri (n : Z) : Z := (n * (n + 1)) / 2.
Lemma tri2 n : 2 * tri n = n * (n + 1).
Proof.
  unfold tri.
  assert (exists q, n * (n + 1) = 2 * q) as [q E].
  { pose proof (Z.div_mod n 2 ltac:(lia)) as D.
    pose proof (Z.mod_pos_bound n 2 ltac:(lia)) as B.
    set (d := n / 2) in *. set (r := n mod 2) in *. rewrite D.
    assert (r = 0 \/ r = 1) as [-> | ->] by lia.
    - exists (d * (2 * d + 1)); ring.
    - exists ((2 * d + 1) * (d + 1)); ring. }
  rewrite E. rewrite (Z.mul_comm 2 q) at 1. rewrite Z.div_mul by lia. ring.
Qed.
Lemma tri_succ n : tri (n + 1) = tri n + (n + 1).
Proof. pose proof (tri2 n); pose proof (tri2 (n + 1)); nia. Qed.
Lemma tri_mono n n' : 0 <= n -> n <= n' -> tri n <= tri n'.
Proof. intros; pose proof (tri2 n); pose proof (tri2 n'); nia. Qed.
Lemma tri_inj n k n' k' : 0 <= n -> 0 <= n' -> 0 <= k <= n -> 0 <= k' <= n' ->
  tri n + k = tri n' + k' -> n = n' /\ k = k'.
Proof.
  intros. pose proof (tri2 n); pose proof (tri2 n').
  destruct (Z.lt_trichotomy n n') as [L|[->|L]].
  - pose proof (tri_mono (n + 1) n' ltac:(lia) ltac:(lia)). rewrite (tri_succ n) in *. lia.
  - lia.
  - pose proof (tri_mono (n' + 1) n ltac:(lia) ltac:(lia)). rewrite (tri_succ n') in *. lia.
Qed.

Lemma binomial_table_ok {A} (f : Z -> Z -> A) g L :
  0 <= L ->
  exists tab, gen_binomial f g L = Ok tab /\
    forall n k, 0 <= n <= 2 * L -> 0 <= k <= n ->
      binomial_lookup tab n k = Ok (f n k).
Proof.
  intros HL. unfold gen_binomial.
  replace (((2 * L + 1) * (2 * L + 2)) / 2) with (tri (2 * L + 1))
    by (unfold tri; f_equal; ring).
  pose proof (tri2 0) as Z0.
  pose proof (tri_mono 0 (2 * L + 1) ltac:(lia) ltac:(lia)).
  rewrite np_empty_ok by lia. cbn [bind].
  set (N := tri (2 * L + 1)) in *.
  set (Q := fun i (v : A) => exists n k, 0 <= n <= 2 * L /\ 0 <= k <= n
              /\ i = tri n + k /\ v = f n k).
  set (P := fun (n : Z) (s : arr A * Z) => snd s = tri n /\ good N Q (fst s) (snd s)).
  edestruct (for_range_inv P 0 (2 * L + 1) (fun n '(a, i) =>
      for_range 0 (n + 1) (fun k '(a, i) =>
        do a <- wr a i (f n k); Ok (a, i + 1)) (a, i)) (mkarr N g, 0)) as (s' & E & P').
  - lia.
  - subst P; cbn [fst snd]; split; [lia|]. split; cbn [alen]; auto; lia.
  - intros n [a i] Hn [Ei G]; cbn [fst snd] in *.
    set (P2 := fun (k : Z) (s : arr A * Z) => snd s = tri n + k /\ good N Q (fst s) (snd s)).
    destruct (for_range_inv P2 0 (n + 1) (fun k '(a, i) =>
        do a <- wr a i (f n k); Ok (a, i + 1)) (a, i)) as (s2 & E2 & P2').
    + lia.
    + subst P2; cbn [fst snd]; split; [lia|auto].
    + intros k [b j] Hk [Ej Gb]; cbn [fst snd] in *.
      destruct (good_step N Q b j (f n k) Gb) as (b' & Eb & Gb').
      * pose proof (tri_mono 0 n ltac:(lia) ltac:(lia)).
        pose proof (tri_mono (n + 1) (2 * L + 1) ltac:(lia) ltac:(lia)).
        rewrite (tri_succ n) in *. subst N. lia.
      * exists n, k; repeat split; lia.
      * rewrite Eb; cbn [bind]. eexists; split; [reflexivity|].
        subst P2; cbn [fst snd]; split; [lia|auto].
    + exists s2; split; auto. destruct P2' as [A1 B1]; split; auto. rewrite tri_succ; lia.
  - destruct s' as [a i]; destruct P' as [Ei [Ln G]]; cbn [fst snd] in *.
    rewrite E; cbn [bind]. exists a; split; auto.
    intros n k Hn Hk. unfold binomial_lookup, binomial_index. fold (tri n).
    assert (B : 0 <= tri n + k < tri (2 * L + 1)).
    { pose proof (tri_mono 0 n ltac:(lia) ltac:(lia)).
      pose proof (tri_mono (n + 1) (2 * L + 1) ltac:(lia) ltac:(lia)).
      rewrite (tri_succ n) in *. lia. }
    rewrite rd_ok by (rewrite Ln; exact B).
    rewrite Ei in G. destruct (G _ B) as (n' & k' & Hn' & Hk' & Ek & Ev).
    apply tri_inj in Ek; try lia. destruct Ek as (-> & ->). rewrite Ev; auto.
Qed.

Lemma ladder_index_eq T p : ladder_index T (- T + 2 * p) = tri T + p.
Proof.
  unfold ladder_index. symmetry; apply Z.div_unique_exact; [lia|].
  pose proof (tri2 T). nia.
Qed.

Lemma ladder_table_ok {A} (f : Z -> Z -> A) g L :
  0 <= L ->
  exists tab, gen_ladder f g L = Ok tab /\
    forall t m, 0 <= t <= 2 * L -> - t <= m <= t -> Z.even (t + m) = true ->
      ladder_lookup tab t m = Ok (f t m).
Proof.
  intros HL. unfold gen_ladder.
  replace ((2 * L + 3) * L + 1) with (tri (2 * L + 1))
    by (pose proof (tri2 (2 * L + 1)); nia).
  pose proof (tri2 0) as Z0.
  pose proof (tri_mono 0 (2 * L + 1) ltac:(lia) ltac:(lia)).
  rewrite np_empty_ok by lia. cbn [bind].
  set (N := tri (2 * L + 1)) in *.
  set (Q := fun i (v : A) => exists t p, 0 <= t <= 2 * L /\ 0 <= p <= t
              /\ i = tri t + p /\ v = f t (- t + 2 * p)).
  set (P := fun (n : Z) (s : arr A * Z) => snd s = tri n /\ good N Q (fst s) (snd s)).
  edestruct (for_range_inv P 0 (2 * L + 1) (fun twoell '(a, i) =>
      for_step (- twoell) (twoell + 1) 2 (fun twom '(a, i) =>
        do a <- wr a i (f twoell twom); Ok (a, i + 1)) (a, i)) (mkarr N g, 0)) as (s' & E & P').
  - lia.
  - subst P; cbn [fst snd]; split; [lia|]. split; cbn [alen]; auto; lia.
  - intros n [a i] Hn [Ei G]; cbn [fst snd] in *.
    set (P2 := fun (M : Z) (s : arr A * Z) => 2 * snd s = 2 * tri n + n + M /\ good N Q (fst s) (snd s)).
    destruct (for_step2_inv P2 n (fun twom '(a, i) =>
        do a <- wr a i (f n twom); Ok (a, i + 1)) (a, i)) as (s2 & E2 & P2').
    + lia.
    + subst P2; cbn [fst snd]; split; [lia|auto].
    + intros k [b j] Hk [Ej Gb]; cbn [fst snd] in *.
      destruct (good_step N Q b j (f n (- n + 2 * k)) Gb) as (b' & Eb & Gb').
      * pose proof (tri_mono 0 n ltac:(lia) ltac:(lia)).
        pose proof (tri_mono (n + 1) (2 * L + 1) ltac:(lia) ltac:(lia)).
        rewrite (tri_succ n) in *. subst N. lia.
      * exists n, k; repeat split; lia.
      * rewrite Eb; cbn [bind]. eexists; split; [reflexivity|].
        subst P2; cbn [fst snd]; split; [lia|auto].
    + exists s2; split; auto. destruct P2' as [A1 B1]; split; auto. rewrite tri_succ; lia.
  - destruct s' as [a i]; destruct P' as [Ei [Ln G]]; cbn [fst snd] in *.
    rewrite E; cbn [bind]. exists a; split; auto.
    intros t m Ht Hm Em. unfold ladder_lookup.
    destruct (parity_form t m Hm Em) as (p & Hp & ->). rewrite ladder_index_eq.
    assert (B : 0 <= tri t + p < tri (2 * L + 1)).
    { pose proof (tri_mono 0 t ltac:(lia) ltac:(lia)).
      pose proof (tri_mono (t + 1) (2 * L + 1) ltac:(lia) ltac:(lia)).
      rewrite (tri_succ t) in *. lia. }
    rewrite rd_ok by (rewrite Ln; exact B).
    rewrite Ei in G. destruct (G _ B) as (n' & k' & Hn' & Hk' & Ek & Ev).
    apply tri_inj in Ek; try lia. destruct Ek as (-> & ->). rewrite Ev; auto.
Qed.

(** ** Flattened matrices *)

Lemma linear_matrix_offset_eq ell ell_min :
  linear_matrix_offset ell ell_min = cub ell - cub ell_min.
Proof.
  unfold linear_matrix_offset. symmetry; apply Z.div_unique_exact; [lia|].
  pose proof (cub3 ell); pose proof (cub3 ell_min).
  replace (ell_min ^ 2) with (ell_min * ell_min) by ring.
  replace (ell ^ 2) with (ell * ell) by ring. lia.
Qed.

Lemma linear_matrix_index_ok ell mp m ell_min :
  linear_matrix_offset ell ell_min + linear_matrix_index ell mp m
  = LMpM_index ell mp m ell_min.
Proof.
  rewrite linear_matrix_offset_eq, LMpM_index_eq. unfold linear_matrix_index. ring.
Qed.

Lemma linear_matrix_diagonal_ok ell m :
  linear_matrix_diagonal_index ell m = linear_matrix_index ell m m.
Proof. unfold linear_matrix_diagonal_index, linear_matrix_index. ring. Qed.

Lemma total_size_D_ok ell_min ell_max :
  total_size_D_matrices ell_min ell_max = LMpM_total_size ell_min ell_max.
Proof. unfold total_size_D_matrices, LMpM_total_size. f_equal. ring. Qed.

(** ** The wedge *)

(** number of wedge elements below [n]: [n (n+1) (2n+1) / 6 = sq6 n] *)
Lemma wedge_size_eq n : wedge_size n = sq6 (n + 1).
Proof. unfold wedge_size, sq6. f_equal. ring. Qed.

Lemma wedge_index_nonneg ell mp m : 0 <= mp ->
  wedge_index ell mp m = sq6 ell + tri ell + mp * (ell + 1) - tri mp + m.
Proof.
  intros H. unfold wedge_index.
  replace (mp >=? 0) with true by (symmetry; rewrite Z.geb_leb; apply Z.leb_le; lia).
  symmetry; apply Z.div_unique_exact; [lia|].
  pose proof (sq6_6 ell); pose proof (tri2 mp); pose proof (tri2 ell). lia.
Qed.

Lemma wedge_index_neg ell mp m : mp < 0 ->
  wedge_index ell mp m = sq6 ell + tri (ell + mp) + mp + m.
Proof.
  intros H. unfold wedge_index.
  replace (mp >=? 0) with false by (symmetry; rewrite Z.geb_leb; apply Z.leb_gt; lia).
  symmetry; apply Z.div_unique_exact; [lia|].
  pose proof (sq6_6 ell); pose proof (tri2 (ell + mp)). lia.
Qed.

(** wedge elements of one [ell] before column [mp] *)
Definition wcol (ell mp : Z) : Z :=
  if mp <=? 0 then tri (ell + mp) else tri ell + mp * (ell + 1) - tri (mp - 1).

Lemma wedge_index_eq ell mp m :
  wedge_index ell mp m = sq6 ell + wcol ell mp + (m - Z.abs mp).
Proof.
  unfold wcol. destruct (Z_lt_le_dec mp 0).
  - rewrite wedge_index_neg by auto.
    replace (mp <=? 0) with true by (symmetry; apply Z.leb_le; lia). lia.
  - rewrite wedge_index_nonneg by auto.
    destruct (Z.leb_spec mp 0).
    + assert (mp = 0) by lia; subst.
      pose proof (tri2 0). replace (ell + 0) with ell by lia. lia.
    + pose proof (tri_succ (mp - 1)) as E. replace (mp - 1 + 1) with mp in E by lia. lia.
Qed.

Lemma wcol_first ell : wcol ell (- ell) = if ell <? 0 then wcol ell (- ell) else 0.
Proof.
  destruct (Z.ltb_spec ell 0); auto. unfold wcol.
  replace (- ell <=? 0) with true by (symmetry; apply Z.leb_le; lia).
  replace (ell + - ell) with 0 by lia. reflexivity.
Qed.

Lemma wcol_succ ell mp : 0 <= ell -> wcol ell (mp + 1) = wcol ell mp + (ell - Z.abs mp + 1).
Proof.
  intros H. unfold wcol.
  destruct (Z.leb_spec mp 0); destruct (Z.leb_spec (mp + 1) 0); try lia.
  - pose proof (tri_succ (ell + mp)). replace (ell + (mp + 1)) with (ell + mp + 1) by lia. lia.
  - assert (mp = 0) by lia; subst. replace (ell + 0) with ell by lia.
    pose proof (tri2 0). replace (0 + 1 - 1) with 0 by lia. lia.
  - pose proof (tri_succ (mp - 1)) as E. replace (mp - 1 + 1) with mp in E by lia.
    replace (mp + 1 - 1) with mp by lia. lia.
Qed.

Lemma wcol_last ell : 0 <= ell -> wcol ell (ell + 1) = (ell + 1) * (ell + 1).
Proof.
  intros. unfold wcol.
  replace (ell + 1 <=? 0) with false by (symmetry; apply Z.leb_gt; lia).
  replace (ell + 1 - 1) with ell by lia. lia.
Qed.

Lemma wcol_mono ell mp mp' : 0 <= ell -> - ell <= mp -> mp <= mp' -> mp' <= ell + 1 ->
  wcol ell mp <= wcol ell mp'.
Proof.
  intros H H1 H2 H3. remember (Z.to_nat (mp' - mp)) as n eqn:En.
  revert mp' H2 H3 En. induction n; intros.
  - replace mp' with mp by lia; lia.
  - specialize (IHn (mp' - 1) ltac:(lia) ltac:(lia) ltac:(lia)).
    pose proof (wcol_succ ell (mp' - 1) H) as E. replace (mp' - 1 + 1) with mp' in E by lia.
    lia.
Qed.

Definition in_wedge (n_max n mp m : Z) : Prop :=
  0 <= n <= n_max /\ - n <= mp <= n /\ Z.abs mp <= m <= n.

Lemma wedge_index_block n mp m : 0 <= n -> - n <= mp <= n -> Z.abs mp <= m <= n ->
  sq6 n <= wedge_index n mp m < sq6 (n + 1).
Proof.
  intros. rewrite wedge_index_eq, sq6_succ.
  pose proof (wcol_mono n (- n) mp ltac:(lia) ltac:(lia) ltac:(lia) ltac:(lia)).
  pose proof (wcol_mono n (mp + 1) (n + 1) ltac:(lia) ltac:(lia) ltac:(lia) ltac:(lia)).
  rewrite wcol_succ in * by lia. rewrite wcol_last in * by lia.
  rewrite wcol_first in *. replace (n <? 0) with false in * by (symmetry; apply Z.ltb_ge; lia).
  lia.
Qed.

Lemma wedge_index_bounds n_max n mp m : in_wedge n_max n mp m ->
  0 <= wedge_index n mp m < wedge_size n_max.
Proof.
  intros (Hn & Hmp & Hm). pose proof (wedge_index_block n mp m ltac:(lia) Hmp Hm).
  rewrite wedge_size_eq.
  pose proof (sq6_mono 0 n ltac:(lia) ltac:(lia)). pose proof (sq6_6 0).
  pose proof (sq6_mono (n + 1) (n_max + 1) ltac:(lia) ltac:(lia)). lia.
Qed.

Lemma wedge_index_lex n_max n mp m n' mp' m' :
  in_wedge n_max n mp m -> in_wedge n_max n' mp' m' ->
  (wedge_index n mp m < wedge_index n' mp' m' <->
   n < n' \/ (n = n' /\ (mp < mp' \/ (mp = mp' /\ m < m')))).
Proof.
  intros (Hn & Hmp & Hm) (Hn' & Hmp' & Hm').
  pose proof (wedge_index_block n mp m ltac:(lia) Hmp Hm).
  pose proof (wedge_index_block n' mp' m' ltac:(lia) Hmp' Hm').
  destruct (Z.lt_trichotomy n n') as [L|[->|L]].
  - pose proof (sq6_mono (n + 1) n' ltac:(lia) ltac:(lia)). lia.
  - rewrite !wedge_index_eq. clear H H0.
    destruct (Z.lt_trichotomy mp mp') as [M|[->|M]].
    + pose proof (wcol_mono n' (mp + 1) mp' ltac:(lia) ltac:(lia) ltac:(lia) ltac:(lia)).
      rewrite wcol_succ in * by lia. lia.
    + lia.
    + pose proof (wcol_mono n' (mp' + 1) mp ltac:(lia) ltac:(lia) ltac:(lia) ltac:(lia)).
      rewrite wcol_succ in * by lia. lia.
  - pose proof (sq6_mono (n' + 1) n ltac:(lia) ltac:(lia)). lia.
Qed.

(** block search: a position belongs to exactly one block *)
Lemma find_block (off : Z -> Z) lo hi k :
  lo <= hi -> off lo <= k < off hi ->
  exists n, lo <= n < hi /\ off n <= k < off (n + 1).
Proof.
  intros H Hk. remember (Z.to_nat (hi - lo)) as d eqn:Ed.
  revert hi H Hk Ed. induction d; intros.
  - replace hi with lo in * by lia. lia.
  - destruct (Z_lt_le_dec k (off (hi - 1))).
    + destruct (IHd (hi - 1)) as (n & Hn & Hb); try lia. exists n; split; [lia|auto].
    + exists (hi - 1). replace (hi - 1 + 1) with hi by lia. split; lia.
Qed.

Lemma wedge_index_onto n_max k : 0 <= n_max -> 0 <= k < wedge_size n_max ->
  exists n mp m, in_wedge n_max n mp m /\ wedge_index n mp m = k.
Proof.
  intros H Hk. rewrite wedge_size_eq in Hk. pose proof (sq6_6 0).
  destruct (find_block sq6 0 (n_max + 1) k) as (n & Hn & Hb); try lia.
  rewrite sq6_succ in Hb.
  destruct (find_block (wcol n) (- n) (n + 1) (k - sq6 n)) as (mp & Hmp & Hc); try lia.
  { rewrite wcol_first, wcol_last by lia.
    replace (n <? 0) with false by (symmetry; apply Z.ltb_ge; lia). lia. }
  rewrite wcol_succ in Hc by lia.
  exists n, mp, (Z.abs mp + (k - sq6 n - wcol n mp)).
  split; [unfold in_wedge; lia|]. rewrite wedge_index_eq. lia.
Qed.

(** ** wedgeify *)

Lemma wedgeify_in n mp m : 0 <= n -> - n <= mp <= n -> - n <= m <= n ->
  exists mp' m', wedgeify_index n mp m = (n, mp', m') /\ Z.abs mp' <= m' <= n /\
    ((mp', m') = (mp, m) \/ (mp', m') = (m, mp) \/ (mp', m') = (- mp, - m) \/ (mp', m') = (- m, - mp)).
Proof.
  intros. unfold wedgeify_index.
  destruct (Z.ltb_spec m (- mp)); destruct (Z.ltb_spec m mp);
    eexists _, _; (split; [reflexivity|]); (split; [lia|]); auto.
Qed.

Lemma wedgeify_orbit n mp m :
  wedgeify_index n m mp = wedgeify_index n mp m /\
  wedgeify_index n (- mp) (- m) = wedgeify_index n mp m.
Proof.
  unfold wedgeify_index.
  split; repeat match goal with |- context [?a <? ?b] => destruct (Z.ltb_spec a b) end;
    try lia; repeat f_equal; lia.
Qed.
