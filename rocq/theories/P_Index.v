(** Properties C01-C08: index layouts.  Theorems only; models in [IndexModel], proofs in [IndexProofs],
    [IndexProofs2], [FloatIndexProofs]. *)
Require Import ZArith Lia List Bool.
From Verif Require Import Base IndexModel FloatIndexModel.
From Verif Require IndexProps.
Import ListNotations.
Open Scope Z_scope.

(** ** C01 *)

(** [LM_range] succeeds whatever the uninitialised memory held; its rows are valid pairs in strictly increasing
    lexicographic order, and row [LM_index ell m ell_min] of it is [(ell, m)] for every valid
    pair, so it lists every valid pair exactly once. *)
Theorem C01_LM_layout :
  forall (garbage : Z -> Z * Z) (ell_min ell_max : Z),
    0 <= ell_min <= ell_max + 1 ->
    exists LM, LM_range garbage ell_min ell_max = Ok LM
      /\ alen LM = LM_total_size ell_min ell_max
      /\ (forall k, 0 <= k < alen LM ->
            ell_min <= fst (aget LM k) <= ell_max
            /\ - fst (aget LM k) <= snd (aget LM k) <= fst (aget LM k))
      /\ (forall j k, 0 <= j < k -> k < alen LM ->
            fst (aget LM j) < fst (aget LM k)
            \/ (fst (aget LM j) = fst (aget LM k) /\ snd (aget LM j) < snd (aget LM k)))
      /\ (forall ell m, ell_min <= ell <= ell_max -> - ell <= m <= ell ->
            0 <= LM_index ell m ell_min < alen LM
            /\ aget LM (LM_index ell m ell_min) = (ell, m)).
Proof. exact IndexProps.C01. Qed.
Print Assumptions C01_LM_layout.

Example C01_nonvacuous : 0 <= 2 <= 4 + 1
  /\ exists LM, LM_range (fun _ => (0, 0)) 2 4 = Ok LM /\ alen LM = 21 /\ aget LM 9 = (3, 1).
Proof. split; [lia|]. eexists; split; [vm_compute; reflexivity|]. split; reflexivity. Qed.

(** ** C02 *)

Theorem C02_deduce_ell_max :
  forall size ell_min ell_max,
    LM_deduce_ell_max size ell_min = Ok ell_max
    <-> -1 <= ell_max /\ size = LM_total_size ell_min ell_max.
Proof. exact IndexProps.C02. Qed.
Print Assumptions C02_deduce_ell_max.

Theorem C02_deduce_rejects :
  forall size ell_min,
    (forall ell_max, -1 <= ell_max -> size <> LM_total_size ell_min ell_max) ->
    LM_deduce_ell_max size ell_min = Err ValueError.
Proof. exact IndexProps.C02_rejects. Qed.
Print Assumptions C02_deduce_rejects.

(** With IEEE double arithmetic the function is the same function, for every size below 2^53. *)
Theorem C02_deduce_float :
  forall size ell_min, size + ell_min ^ 2 < 2 ^ 53 ->
    LM_deduce_ell_max_float size ell_min = LM_deduce_ell_max size ell_min.
Proof. exact IndexProps.C02_float. Qed.
Print Assumptions C02_deduce_float.

Example C02_nonvacuous :
  LM_deduce_ell_max 21 2 = Ok 4 /\ LM_deduce_ell_max 22 2 = Err ValueError
  /\ (21 + 2 ^ 2 < 2 ^ 53)
  /\ (forall ell_max, -1 <= ell_max -> 22 <> LM_total_size 2 ell_max).
Proof.
  repeat split; try reflexivity.
  intros e H. unfold LM_total_size. intro E.
  assert ((e + 1) * (e + 1) = 26) by lia.
  assert (e + 1 <= 5 \/ 6 <= e + 1) as [A|A] by lia; nia.
Qed.

(** ** C03 *)

Theorem C03_LMpM_layout :
  forall (garbage : Z -> Z * Z * Z) (ell_min ell_max : Z),
    0 <= ell_min <= ell_max + 1 ->
    exists a, LMpM_range garbage ell_min ell_max = Ok a
      /\ alen a = LMpM_total_size ell_min ell_max
      /\ (forall k, 0 <= k < alen a ->
            let '(ell, mp, m) := aget a k in
            ell_min <= ell <= ell_max /\ - ell <= mp <= ell /\ - ell <= m <= ell)
      /\ (forall j k, 0 <= j < k -> k < alen a ->
            let '(ell, mp, m) := aget a j in
            let '(ell', mp', m') := aget a k in
            ell < ell' \/ (ell = ell' /\ (mp < mp' \/ (mp = mp' /\ m < m'))))
      /\ (forall ell mp m, ell_min <= ell <= ell_max -> - ell <= mp <= ell -> - ell <= m <= ell ->
            0 <= LMpM_index ell mp m ell_min < alen a
            /\ aget a (LMpM_index ell mp m ell_min) = (ell, mp, m)).
Proof. exact IndexProps.C03. Qed.
Print Assumptions C03_LMpM_layout.

(** Half-integer arguments are rejected. *)
Theorem C03_rejects_half_integers :
  forall garbage twoell_min twoell_max,
    Z.odd twoell_min = true \/ Z.odd twoell_max = true ->
    LMpM_range_half_arg garbage twoell_min twoell_max = Err ValueError.
Proof. exact IndexProps.C03_rejects. Qed.
Print Assumptions C03_rejects_half_integers.

Example C03_nonvacuous : 0 <= 1 <= 2 + 1
  /\ exists a, LMpM_range (fun _ => (0, 0, 0)) 1 2 = Ok a /\ alen a = 34 /\ aget a 9 = (2, -2, -2).
Proof. split; [lia|]. eexists; split; [vm_compute; reflexivity|]. split; reflexivity. Qed.

(** ** C04 *)

(** Rows are doubled: [(2 ell, 2 mp, 2 m)].  The last clause gives the position of every valid row; for
    [ell_min = 0] it is [Wigner_index]. *)
Theorem C04_half_integer_layout :
  forall (garbage : Z -> Z * Z * Z) (tmin tmax : Z),
    0 <= tmin <= tmax + 1 ->
    exists a, LMpM_range_half_integer garbage tmin tmax = Ok a
      /\ (forall k, 0 <= k < alen a ->
            let '(t, mp, m) := aget a k in
            tmin <= t <= tmax /\ - t <= mp <= t /\ - t <= m <= t
            /\ Z.even (t + mp) = true /\ Z.even (t + m) = true)
      /\ (forall j k, 0 <= j < k -> k < alen a ->
            let '(t, mp, m) := aget a j in
            let '(t', mp', m') := aget a k in
            t < t' \/ (t = t' /\ (mp < mp' \/ (mp = mp' /\ m < m'))))
      /\ (forall t mp m, tmin <= t <= tmax -> - t <= mp <= t -> - t <= m <= t ->
            Z.even (t + mp) = true -> Z.even (t + m) = true ->
            let k := Wigner_index t mp m - Wigner_index tmin (- tmin) (- tmin) in
            0 <= k < alen a /\ aget a k = (t, mp, m)).
Proof. exact IndexProps.C04. Qed.
Print Assumptions C04_half_integer_layout.

Theorem C04_Wigner_index :
  forall garbage tmax, -1 <= tmax ->
    exists a, LMpM_range_half_integer garbage 0 tmax = Ok a
      /\ (forall t mp m, 0 <= t <= tmax -> - t <= mp <= t -> - t <= m <= t ->
            Z.even (t + mp) = true -> Z.even (t + m) = true ->
            0 <= Wigner_index t mp m < alen a /\ aget a (Wigner_index t mp m) = (t, mp, m)).
Proof. exact IndexProps.C04_zero. Qed.
Print Assumptions C04_Wigner_index.

Example C04_nonvacuous :
  exists a, LMpM_range_half_integer (fun _ => (0, 0, 0)) 1 3 = Ok a /\ alen a = 29
    /\ aget a 14 = (3, -3, -1) /\ Wigner_index 3 1 (-1) = 23.
Proof. eexists; split; [vm_compute; reflexivity|]. repeat split; reflexivity. Qed.

(** ** C05 *)

(** Looking a coefficient up in a table generated by the repository's generator gives the value that
    the generator computed for these indices, for any number computed per entry and any [ell_max]. *)
Theorem C05_Wigner_table :
  forall {A} (f : Z -> Z -> Z -> A) (garbage : Z -> A) ell_max, 0 <= ell_max ->
    exists table, gen_Wigner f garbage ell_max = Ok table /\
      forall twoell twomp twom,
        0 <= twoell <= 2 * ell_max -> - twoell <= twomp <= twoell -> - twoell <= twom <= twoell ->
        Z.even (twoell + twomp) = true -> Z.even (twoell + twom) = true ->
        Wigner_lookup table twoell twomp twom = Ok (f twoell twomp twom).
Proof. exact @IndexProps.C05_Wigner. Qed.
Print Assumptions C05_Wigner_table.

Theorem C05_binomial_table :
  forall {A} (f : Z -> Z -> A) (garbage : Z -> A) ell_max, 0 <= ell_max ->
    exists table, gen_binomial f garbage ell_max = Ok table /\
      forall n k, 0 <= n <= 2 * ell_max -> 0 <= k <= n -> binomial_lookup table n k = Ok (f n k).
Proof. exact @IndexProps.C05_binomial. Qed.
Print Assumptions C05_binomial_table.

Theorem C05_ladder_table :
  forall {A} (f : Z -> Z -> A) (garbage : Z -> A) ell_max, 0 <= ell_max ->
    exists table, gen_ladder f garbage ell_max = Ok table /\
      forall twoell twom,
        0 <= twoell <= 2 * ell_max -> - twoell <= twom <= twoell -> Z.even (twoell + twom) = true ->
        ladder_lookup table twoell twom = Ok (f twoell twom).
Proof. exact @IndexProps.C05_ladder. Qed.
Print Assumptions C05_ladder_table.

Example C05_nonvacuous :
  exists tab, gen_Wigner (fun t mp m => 100 * t + 10 * mp + m) (fun _ => 0) 2 = Ok tab
    /\ alen tab = 55 /\ Wigner_lookup tab 3 1 (-1) = Ok 309.
Proof. eexists; split; [vm_compute; reflexivity|]. split; vm_compute; reflexivity. Qed.

(** ** C06 *)

Theorem C06_linear_matrix_index :
  forall ell mp m ell_min,
    linear_matrix_offset ell ell_min + linear_matrix_index ell mp m = LMpM_index ell mp m ell_min
    /\ linear_matrix_offset ell ell_min + linear_matrix_diagonal_index ell m
       = LMpM_index ell m m ell_min.
Proof. exact IndexProps.C06_index. Qed.
Print Assumptions C06_linear_matrix_index.

(** The blocks tile the array: the block of [ell] has [(2 ell + 1)^2] entries, the first starts at 0, each starts
    where the previous one ends, and the last ends at the total size. *)
Theorem C06_blocks_tile :
  forall ell_min ell_max,
    linear_matrix_offset ell_min ell_min = 0
    /\ linear_matrix_offset (ell_max + 1) ell_min = total_size_D_matrices ell_min ell_max
    /\ total_size_D_matrices ell_min ell_max = LMpM_total_size ell_min ell_max
    /\ forall ell, linear_matrix_offset (ell + 1) ell_min
         = linear_matrix_offset ell ell_min + (2 * ell + 1) ^ 2.
Proof. exact IndexProps.C06_tile. Qed.
Print Assumptions C06_blocks_tile.

(** Inside a block the index is a bijection onto [0, (2 ell + 1)^2). *)
Theorem C06_block_bijection :
  forall ell, 0 <= ell ->
    (forall mp m, - ell <= mp <= ell -> - ell <= m <= ell ->
       0 <= linear_matrix_index ell mp m < (2 * ell + 1) ^ 2)
    /\ (forall k, 0 <= k < (2 * ell + 1) ^ 2 ->
          exists mp m, - ell <= mp <= ell /\ - ell <= m <= ell /\ linear_matrix_index ell mp m = k)
    /\ (forall mp m mp' m', - ell <= m <= ell -> - ell <= m' <= ell ->
          linear_matrix_index ell mp m = linear_matrix_index ell mp' m' -> mp = mp' /\ m = m').
Proof. exact IndexProps.C06_bij. Qed.
Print Assumptions C06_block_bijection.

Example C06_nonvacuous :
  linear_matrix_offset 3 2 = 25 /\ linear_matrix_index 3 (-1) 2 = 19 /\ LMpM_index 3 (-1) 2 2 = 44.
Proof. repeat split; reflexivity. Qed.

(** ** C07 *)

Theorem C07_wedge_bijection :
  forall n_max, 0 <= n_max ->
    let wedge n mp m := 0 <= n <= n_max /\ - n <= mp <= n /\ Z.abs mp <= m <= n in
    (forall n mp m, wedge n mp m -> 0 <= wedge_index n mp m < wedge_size n_max)
    /\ (forall k, 0 <= k < wedge_size n_max ->
          exists n mp m, wedge n mp m /\ wedge_index n mp m = k)
    /\ (forall n mp m n' mp' m', wedge n mp m -> wedge n' mp' m' ->
          (wedge_index n mp m < wedge_index n' mp' m' <->
           n < n' \/ (n = n' /\ (mp < mp' \/ (mp = mp' /\ m < m'))))).
Proof. exact IndexProps.C07_wedge. Qed.
Print Assumptions C07_wedge_bijection.

(** The three other storage schemes of the recursion: [(n, m)], [(n, |m|)], [(n, mp, m)]. *)
Theorem C07_nm_bijection :
  forall N, 0 <= N ->
    (forall n m, 0 <= n < N -> - n <= m <= n -> 0 <= nm_index n m < N ^ 2)
    /\ (forall k, 0 <= k < N ^ 2 -> exists n m, 0 <= n < N /\ - n <= m <= n /\ nm_index n m = k)
    /\ (forall n m n' m', 0 <= n -> 0 <= n' -> - n <= m <= n -> - n' <= m' <= n' ->
          nm_index n m = nm_index n' m' -> n = n' /\ m = m').
Proof. exact IndexProps.C07_nm. Qed.
Print Assumptions C07_nm_bijection.

Theorem C07_nabsm_bijection :
  forall N, 0 <= N ->
    (forall n m, 0 <= n < N -> 0 <= m <= n -> 0 <= nabsm_index n m /\ 2 * nabsm_index n m < N * (N + 1))
    /\ (forall k, 0 <= k -> 2 * k < N * (N + 1) ->
          exists n m, 0 <= n < N /\ 0 <= m <= n /\ nabsm_index n m = k)
    /\ (forall n m n' m', 0 <= n -> 0 <= n' -> 0 <= m <= n -> 0 <= m' <= n' ->
          nabsm_index n m = nabsm_index n' m' -> n = n' /\ m = m').
Proof. exact IndexProps.C07_nabsm. Qed.
Print Assumptions C07_nabsm_bijection.

Theorem C07_nmpm_index :
  forall n mp m, nmpm_index n mp m = LMpM_index n mp m 0.
Proof. exact IndexProps.C07_nmpm. Qed.
Print Assumptions C07_nmpm_index.

Example C07_nonvacuous :
  wedge_size 3 = 30 /\ wedge_index 3 (-1) 2 = 18 /\ wedge_index 3 2 3 = 28 /\ nabsm_index 4 2 = 12.
Proof. repeat split; reflexivity. Qed.

(** ** C08 *)

(** Every index triple is sent into the wedge, to one of its four images under the symmetries of H. *)
Theorem C08_wedgeify_in_wedge :
  forall n mp m, 0 <= n -> - n <= mp <= n -> - n <= m <= n ->
    exists mp' m', wedgeify_index n mp m = (n, mp', m') /\ Z.abs mp' <= m' <= n
      /\ ((mp', m') = (mp, m) \/ (mp', m') = (m, mp)
          \/ (mp', m') = (- mp, - m) \/ (mp', m') = (- m, - mp)).
Proof. exact IndexProps.C08_in. Qed.
Print Assumptions C08_wedgeify_in_wedge.

(** Two triples are sent to the same place exactly when they are related by these symmetries. *)
Theorem C08_wedgeify_orbits :
  forall n mp m mp2 m2,
    wedgeify_index n mp m = wedgeify_index n mp2 m2
    <-> ((mp2, m2) = (mp, m) \/ (mp2, m2) = (m, mp)
         \/ (mp2, m2) = (- mp, - m) \/ (mp2, m2) = (- m, - mp)).
Proof. exact IndexProps.C08_orbits. Qed.
Print Assumptions C08_wedgeify_orbits.

(** The composition used by callers stays inside the wedge storage. *)
Theorem C08_wedgeify_storage :
  forall n_max n mp m, 0 <= n <= n_max -> - n <= mp <= n -> - n <= m <= n ->
    0 <= (let '(a, b, c) := wedgeify_index n mp m in wedge_index a b c) < wedge_size n_max.
Proof. exact IndexProps.C08_storage. Qed.
Print Assumptions C08_wedgeify_storage.

Example C08_nonvacuous :
  wedgeify_index 3 2 (-3) = (3, -2, 3) /\ wedgeify_index 3 (-3) 0 = (3, 0, 3) /\ wedgeify_index 3 3 0 = (3, 0, 3).
Proof. repeat split; reflexivity. Qed.
