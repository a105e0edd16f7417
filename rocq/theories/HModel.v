(** Model of the H recursion: spherical_functions/recursions/wignerH.py (storage in a wedge) and
    spherical_functions/WignerD/WignerDRecursion.py (the same steps with full storage, then a symmetry step).

    The steps of the two files are the same text up to the index function and the name of the array, so they are modelled once,
    with the index function [ix] as a parameter.

    Simplification: the arrays are two-dimensional, one row per (n, m', m) and one column per angle.  Every statement of the
    steps is either a whole-row statement or a loop over the columns [j] whose iterations touch only column [j]; both are
    modelled as operations on whole rows, a row being a function of the column.  Arithmetic is exact. *)
Require Import ZArith List Bool Reals.
From Verif Require Import Base IndexModel.
Import ListNotations.
Open Scope R_scope.

Definition row : Type := Z -> R.
(** Storage: an entry is [None] when its contents are not determined by this run. *)
Definition hbuf : Type := arr (option row).
Definition hrd (H : hbuf) (i : Z) : res row :=
  do x <- rd H i; match x with Some r => Ok r | None => Err Undetermined end.
Definition hwr (H : hbuf) (i : Z) (r : row) : res hbuf := wr H i (Some r).
(** Coefficient arrays: [None] is an infinity or a NaN. *)
Definition cbuf : Type := arr (option R).
Definition crd (c : cbuf) (i : Z) : res R :=
  do x <- rd c i; match x with Some r => Ok r | None => Err Undetermined end.

(** The three arrays of a run. *)
Record hst : Type := mkhst { Hw : hbuf; Hv : hbuf; Hx : hbuf }.
Definition wrw (st : hst) (i : Z) (r : row) : res hst := do H <- hwr (Hw st) i r; Ok (mkhst H (Hv st) (Hx st)).
Definition wrv (st : hst) (i : Z) (r : row) : res hst := do H <- hwr (Hv st) i r; Ok (mkhst (Hw st) H (Hx st)).
Definition wrx (st : hst) (i : Z) (r : row) : res hst := do H <- hwr (Hx st) i r; Ok (mkhst (Hw st) (Hv st) H).
(** The local name [H] of _step_2 and [H2] of _step_3, bound to Hwedge ([w = true]) or to Hextra. *)
Definition rdh (w : bool) (st : hst) (i : Z) : res row := if w then hrd (Hw st) i else hrd (Hx st) i.
Definition wrh (w : bool) (st : hst) (i : Z) (r : row) : res hst := if w then wrw st i r else wrx st i r.

(** recursions/wignerH.py:170-173; WignerD/WignerDRecursion.py:144-147 *)
Definition step_1 (st : hst) : res hst := wrw st 0 (fun _ => 1).

(** recursions/wignerH.py:199-235, the body of the loop over n; WignerD/WignerDRecursion.py:177-215 *)
Definition step_2_row (ix : Z -> Z -> Z -> Z) (g h : cbuf) (n_max : Z) (cosb sinb : row) (n : Z) (st : hst) : res hst :=
  let w := (n <=? n_max)%Z in
  let n0n := if w then ix n 0%Z n else n in
  let nm10nm1 := ix (n - 1)%Z 0%Z (n - 1)%Z in
  let nn := nm_index n n in
  let const := sqrt (1 + 1 / 2 / IZR n) in
  do gi <- crd g (nn - 1);
  do x <- hrd (Hw st) nm10nm1;
  do st <- wrh w st n0n (fun j => const * x j);
  do x <- rdh w st n0n;
  do st <- wrh w st (n0n - 1) (fun j => gi * cosb j * x j);
  do st <- for_range 2 n (fun i st =>
    do gi <- crd g (nn - i);
    do hi <- crd h (nn - i);
    do x <- rdh w st (n0n - i + 1);
    do y <- rdh w st (n0n - i + 2);
    wrh w st (n0n - i) (fun j => gi * cosb j * x j - hi * sinb j ^ 2 * y j)) st;
  let const := sqrt (IZR (4 * n + 2)) in
  do gi <- crd g (nn - n);
  do hi <- crd h (nn - n);
  do x <- rdh w st (n0n - n + 1);
  do y <- rdh w st (n0n - n + 2);
  do st <- wrh w st (n0n - n) (fun j => (gi * cosb j * x j - hi * sinb j ^ 2 * y j) / const);
  do ' (_, st) <- for_range 1 n (fun i (s : row * hst) =>
    let (prefactor, st) := s in
    let prefactor := fun j => prefactor j * sinb j in
    do x <- rdh w st (n0n - n + i);
    do st <- wrh w st (n0n - n + i) (fun j => x j * prefactor j);
    Ok (prefactor, st)) ((fun _ => 1 / const), st);
  if (n <=? n_max)%Z then
    do x <- hrd (Hw st) (ix n 0%Z 1%Z);
    do st <- wrv st (nm_index n 1) x;
    do x <- hrd (Hw st) (ix n 0%Z 1%Z);
    wrv st (nm_index n 0) x
  else Ok st.

(** recursions/wignerH.py:176-246; WignerD/WignerDRecursion.py:154-228 *)
Definition step_2 (ix : Z -> Z -> Z -> Z) (g h : cbuf) (n_max : Z) (cosb sinb : row) (st : hst) : res hst :=
  let n0n := ix 1%Z 0%Z 1%Z in
  let nn := nm_index 1 1 in
  do st <- wrw st n0n (fun _ => sqrt 3);
  do gi <- crd g (nn - 1);
  do st <- wrw st (n0n - 1) (fun j => gi * cosb j / sqrt 2);
  do st <- for_range 2 (n_max + 2) (step_2_row ix g h n_max cosb sinb) st;
  do ' (prefactor, st) <- for_range 1 (n_max + 1) (fun n (s : row * hst) =>
    let (prefactor, st) := s in
    let prefactor := fun j => prefactor j * sinb j in
    do x <- hrd (Hw st) (ix n 0%Z n);
    do st <- wrw st (ix n 0%Z n) (fun j => x j * (prefactor j / sqrt (IZR (4 * n + 2))));
    Ok (prefactor, st)) ((fun _ => 1), st);
  let n := (n_max + 1)%Z in
  let prefactor := fun j => prefactor j * sinb j in
  do x <- hrd (Hx st) n;
  do st <- wrx st n (fun j => x j * (prefactor j / sqrt (IZR (4 * n + 2))));
  do x <- hrd (Hw st) (ix 1%Z 0%Z 1%Z);
  do st <- wrv st (nm_index 1 1) x;
  do x <- hrd (Hw st) (ix 1%Z 0%Z 1%Z);
  wrv st (nm_index 1 0) x.

(** recursions/wignerH.py:249-280; WignerD/WignerDRecursion.py:231-262 *)
Definition step_3 (ix : Z -> Z -> Z -> Z) (a b : cbuf) (n_max : Z) (cosb sinb : row) (st : hst) : res hst :=
  for_range 1 (n_max + 1) (fun n st =>
    let i1 := ix n 1%Z 1%Z in
    let w := (n + 1 <=? n_max)%Z in
    let i2 := if w then ix (n + 1)%Z 0%Z 0%Z else 0%Z in
    let i3 := nm_index (n + 1) 0 in
    let i4 := nabsm_index n 1 in
    do b5 <- crd b i3;
    for_range 0 n (fun i st =>
      do b6 <- crd b (- i + i3 - 2);
      do b7 <- crd b (i + i3);
      do a8 <- crd a (i + i4);
      do x2 <- rdh w st (i + i2 + 2);
      do x0 <- rdh w st (i + i2);
      do x1 <- rdh w st (i + i2 + 1);
      wrw st (i + i1) (fun j =>
        (1 / b5) * (1 / 2 * (b6 * (1 - cosb j) * x2 j - b7 * (1 + cosb j) * x0 j) - a8 * sinb j * x1 j))) st) st.

(** recursions/wignerH.py:283-328; WignerD/WignerDRecursion.py:265-310 *)
Definition step_4 (ix : Z -> Z -> Z -> Z) (d : cbuf) (n_max : Z) (st : hst) : res hst :=
  for_range 2 (n_max + 1) (fun n st =>
    for_range 1 n (fun mp st =>
      let i1 := ix n (mp + 1)%Z mp in
      let i2 := ix n (mp - 1)%Z mp in
      let i3 := ix n mp (mp - 1)%Z in
      let i4 := ix n mp (mp + 1)%Z in
      let i5 := nm_index n mp in
      let i6 := nm_index n (mp - 1) in
      do d5 <- crd d i5;
      do d6 <- crd d i6;
      (* for i in [0] *)
      do d7 <- crd d (0 + i6);
      do d8 <- crd d (0 + i5);
      do x <- hrd (Hw st) (0 + i2);
      do y <- hrd (Hv st) (0 + nm_index n mp);
      do z <- hrd (Hw st) (0 + i4);
      do st <- wrv st (0 + nm_index n (mp + 1)) (fun j => (1 / d5) * (d6 * x j - d7 * y j + d8 * z j));
      do st <- for_range 1 (n - mp) (fun i st =>
        do d7 <- crd d (i + i6);
        do d8 <- crd d (i + i5);
        do x <- hrd (Hw st) (i + i2);
        do y <- hrd (Hw st) (i + i3);
        do z <- hrd (Hw st) (i + i4);
        wrw st (i + i1) (fun j => (1 / d5) * (d6 * x j - d7 * y j + d8 * z j))) st;
      (* for i in [n-mp] *)
      let i := (n - mp)%Z in
      do x <- hrd (Hw st) (i + i2);
      do d7 <- crd d (i + i6);
      do y <- hrd (Hw st) (i + i3);
      wrw st (i + i1) (fun j => (1 / d5) * (d6 * x j - d7 * y j))) st) st.

(** recursions/wignerH.py:331-390; WignerD/WignerDRecursion.py:313-372 *)
Definition step_5 (ix : Z -> Z -> Z -> Z) (d : cbuf) (n_max : Z) (st : hst) : res hst :=
  for_range 0 (n_max + 1) (fun n st =>
    for_down 0 (- n) (fun mp st =>
      let i1 := ix n (mp - 1)%Z (- mp)%Z in
      let i2 := ix n (mp + 1)%Z (- mp)%Z in
      let i3 := ix n mp (- mp - 1)%Z in
      let i4 := ix n mp (- mp + 1)%Z in
      let i5 := nm_index n (mp - 1) in
      let i6 := nm_index n mp in
      let i7 := nm_index n (- mp - 1) in
      let i8 := nm_index n (- mp) in
      do d5 <- crd d i5;
      do d6 <- crd d i6;
      (* for i in [0] *)
      do d7 <- crd d (0 + i7);
      do d8 <- crd d (0 + i8);
      do x <- (if (mp =? 0)%Z then hrd (Hv st) (0 + nm_index n (mp + 1)) else hrd (Hw st) (0 + i2));
      do y <- hrd (Hv st) (0 + nm_index n mp);
      do z <- hrd (Hw st) (0 + i4);
      do st <- wrv st (0 + nm_index n (mp - 1)) (fun j => (1 / d5) * (d6 * x j + d7 * y j - d8 * z j));
      do st <- for_range 1 (n + mp) (fun i st =>
        do d7 <- crd d (i + i7);
        do d8 <- crd d (i + i8);
        do x <- hrd (Hw st) (i + i2);
        do y <- hrd (Hw st) (i + i3);
        do z <- hrd (Hw st) (i + i4);
        wrw st (i + i1) (fun j => (1 / d5) * (d6 * x j + d7 * y j - d8 * z j))) st;
      let i := (n + mp)%Z in
      do x <- hrd (Hw st) (i + i2);
      do d7 <- crd d (i + i7);
      do y <- hrd (Hw st) (i + i3);
      wrw st (i + i1) (fun j => (1 / d5) * (d6 * x j + d7 * y j))) st) st.

(** WignerD/WignerDRecursion.py:375-391 *)
Definition step_6 (n_max : Z) (st : hst) : res hst :=
  do st <- for_range 1 (n_max + 1) (fun n st =>
    for_range 1 (n + 1) (fun mp st =>
      for_range (Z.max (- mp) (- n)) mp (fun m st =>
        do x <- hrd (Hw st) (nmpm_index n m mp);
        wrw st (nmpm_index n mp m) x) st) st) st;
  for_range 1 (n_max + 1) (fun n st =>
    for_range (- n) n (fun mp st =>
      for_range (- n) (- mp) (fun m st =>
        do x <- hrd (Hw st) (nmpm_index n (- mp) (- m));
        wrw st (nmpm_index n mp m) x) st) st) st.

(** ** The coefficient arrays and the calculator objects *)

(** range(a, b) as a list *)
Definition zrange (a b : Z) : list Z := map (fun k => (a + Z.of_nat k)%Z) (seq 0 (Z.to_nat (b - a))).
(** recursions/wignerH.py:443-444: [(n, m) for n in range(n_max+2) for m in range(-n, n+1)] *)
Definition pairs_nm (n_max : Z) : list (Z * Z) :=
  flat_map (fun n => map (fun m => (n, m)) (zrange (- n) (n + 1))) (zrange 0 (n_max + 2)).
(** recursions/wignerH.py:445-446: [(n, m) for n in range(n_max+2) for m in range(n+1)] *)
Definition pairs_nabsm (n_max : Z) : list (Z * Z) :=
  flat_map (fun n => map (fun m => (n, m)) (zrange 0 (n + 1))) (zrange 0 (n_max + 2)).
(** np.sqrt(num / den) on integers: non-finite when the quotient is (0/0, x/0 or a negative number). *)
Definition sqrt_quot (num den : Z) : option R :=
  if (den =? 0)%Z then None else if (num * den <? 0)%Z then None else Some (sqrt (IZR num / IZR den)).
Definition sqrt_int (num : Z) : option R := if (num <? 0)%Z then None else Some (sqrt (IZR num)).
(** x[m<0] *= -1 *)
Definition neg_where (m : Z) (x : option R) : option R :=
  if (m <? 0)%Z then option_map (fun v => v * -1) x else x.
Definition coef_a (nm : Z * Z) : option R :=
  let (n, m) := nm in sqrt_quot ((n + 1 + m) * (n + 1 - m)) ((2 * n + 1) * (2 * n + 3)).
Definition coef_b (nm : Z * Z) : option R :=
  let (n, m) := nm in neg_where m (sqrt_quot ((n - m - 1) * (n - m)) ((2 * n - 1) * (2 * n + 1))).
Definition coef_d (nm : Z * Z) : option R :=
  let (n, m) := nm in neg_where m (option_map (fun v => 1 / 2 * v) (sqrt_int ((n - m) * (n + m + 1)))).
(** a vanishing denominator gives an infinity or a NaN *)
Definition coef_g (nm : Z * Z) : option R :=
  let (n, m) := nm in
  if ((n - m) * (n + m + 1) =? 0)%Z then None
  else option_map (fun v => IZR (2 * (m + 1)) / v) (sqrt_int ((n - m) * (n + m + 1))).
Definition coef_h (nm : Z * Z) : option R :=
  let (n, m) := nm in sqrt_quot ((n + m + 2) * (n - m - 1)) ((n - m) * (n + m + 1)).
Definition arr_of {A} (l : list A) (dflt : A) : arr A := mkarr (Z.of_nat (length l)) (fun i => nth (Z.to_nat i) l dflt).
Definition coef_arr (f : Z * Z -> option R) (l : list (Z * Z)) : cbuf := arr_of (map f l) None.
Definition all_finite (c : cbuf) : bool :=
  forallb (fun i => match aget c i with Some _ => true | None => false end) (zrange 0 (alen c)).

Record HCalc : Type := mkHCalc { hc_n_max : Z; hc_a : cbuf; hc_b : cbuf; hc_d : cbuf; hc_g : cbuf; hc_h : cbuf }.
(** recursions/wignerH.py:439-460 (with the parts that matter of WignerD/WignerDRecursion.py:395-423, where the finiteness test
    also covers two arrays that no step uses) *)
Definition HCalculator_init (n_max : Z) : res HCalc :=
  if (n_max <? 0)%Z then Err ValueError else
  let nm := pairs_nm n_max in
  let nabsm := pairs_nabsm n_max in
  let a := coef_arr coef_a nabsm in
  let b := coef_arr coef_b nm in
  let d := coef_arr coef_d nm in
  let g := coef_arr coef_g nm in
  let h := coef_arr coef_h nm in
  if all_finite a && all_finite b && all_finite d then Ok (mkHCalc n_max a b d g h) else Err ValueError.

(** The slice ws[lo:hi] along the first axis, for 0 <= lo <= hi (numpy clips the ends). *)
Definition hslice (ws : hbuf) (lo hi : Z) : hbuf :=
  let lo' := Z.min lo (alen ws) in let hi' := Z.min hi (alen ws) in
  mkarr (hi' - lo') (fun i => aget ws (lo' + i)%Z).
(** np.zeros with [size] rows *)
Definition hzeros (size : Z) : hbuf := mkarr size (fun _ => Some (fun _ => 0)).

(** A one-dimensional array of angles' cosines or sines as a row: column j is its j-th entry. *)
Definition row_of (l : list R) : row := fun j => nth (Z.to_nat j) l 0.
(** np.max(c) > 1.0 or np.min(c) < -1.0; both raise ValueError on an empty array. *)
Definition out_of_range (l : list R) : bool :=
  existsb (fun c => if Rlt_dec 1 c then true else if Rlt_dec c (-1) then true else false) l.
(** recursions/wignerH.py:468-480; WignerD/WignerDRecursion.py:430-445.  Simplification: one-dimensional cosβ and sinβ. *)
Definition check_angles (cosb : list R) (sinb : option (list R)) : res (list R) :=
  if (length cosb =? 0)%nat then Err ValueError else
  if out_of_range cosb then Err ValueError else
  match sinb with
  | None => Ok (map (fun c => sqrt (1 - c ^ 2)) cosb)
  | Some s => if (length s =? length cosb)%nat then Ok s else Err ValueError
  end.

(** recursions/wignerH.py:462-465 *)
Definition workspace_size (n_max : Z) : Z := (wedge_size n_max + (n_max + 1) ^ 2 + n_max + 2)%Z.

(** recursions/wignerH.py:467-491.  The three slices of the workspace do not overlap, so they are separate buffers here.  The
    workspace is taken to have one column per entry of cosβ. *)
Definition HCalculator_call (hc : HCalc) (cosb : list R) (sinb : option (list R)) (workspace : option hbuf) : res hbuf :=
  do s <- check_angles cosb sinb;
  let n_max := hc_n_max hc in
  let ws := match workspace with Some w => w | None => hzeros (workspace_size n_max) end in
  let size := wedge_size n_max in
  let st := mkhst (hslice ws 0 size) (hslice ws size (size + (n_max + 1) ^ 2)%Z)
                  (hslice ws (size + (n_max + 1) ^ 2)%Z (size + (n_max + 1) ^ 2 + n_max + 2)%Z) in
  let cosr := row_of cosb in
  let sinr := row_of s in
  do st <- step_1 st;
  do st <- step_2 wedge_index (hc_g hc) (hc_h hc) n_max cosr sinr st;
  do st <- step_3 wedge_index (hc_a hc) (hc_b hc) n_max cosr sinr st;
  do st <- step_4 wedge_index (hc_d hc) n_max st;
  do st <- step_5 wedge_index (hc_d hc) n_max st;
  Ok (Hw st).

(** WignerD/WignerDRecursion.py:425-456: the same with full storage; Hextra and Hv are fresh zeros. *)
Definition HCalculator_full_call (hc : HCalc) (cosb : list R) (sinb : option (list R)) (workspace : option hbuf) : res hbuf :=
  do s <- check_angles cosb sinb;
  let n_max := hc_n_max hc in
  let size := LMpM_total_size 0 n_max in
  let ws := match workspace with Some w => w | None => hzeros size end in
  let st := mkhst ws (hzeros ((n_max + 1) ^ 2)%Z) (hzeros (n_max + 2)%Z) in
  let cosr := row_of cosb in
  let sinr := row_of s in
  do st <- step_1 st;
  do st <- step_2 nmpm_index (hc_g hc) (hc_h hc) n_max cosr sinr st;
  do st <- step_3 nmpm_index (hc_a hc) (hc_b hc) n_max cosr sinr st;
  do st <- step_4 nmpm_index (hc_d hc) n_max st;
  do st <- step_5 nmpm_index (hc_d hc) n_max st;
  do st <- step_6 n_max st;
  Ok (hslice (Hw st) 0 size).
