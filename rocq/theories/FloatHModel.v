(** Model of the H recursion in floating-point arithmetic: spherical_functions/recursions/wignerH.py and
    spherical_functions/WignerD/WignerDRecursion.py.  [rnd] rounds the result of every operation on floats, and the conversion of an
    integer; [RN64] (FloatIndexModel.v) is that of IEEE doubles.  The structure is that of HModel.v, and so are its simplifications;
    step_1 and step_6 only store and copy numbers and are those of HModel.v.  numba does not fuse operations, [x**2] is one
    multiplication.  Overflow, infinities, NaNs and signed zeros are not part of the model. *)
Require Import ZArith List Bool Reals.
From Verif Require Import Base IndexModel HModel FloatIndexModel.
Import ListNotations.
Open Scope R_scope.

Section Rounded.
Variable rnd : R -> R.

(** recursions/wignerH.py:199-235, the body of the loop over n; WignerD/WignerDRecursion.py:177-215 *)
Definition step_2_row_r (ix : Z -> Z -> Z -> Z) (g h : cbuf) (n_max : Z) (cosb sinb : row) (n : Z) (st : hst) : res hst :=
  let w := (n <=? n_max)%Z in
  let n0n := if w then ix n 0%Z n else n in
  let nm10nm1 := ix (n - 1)%Z 0%Z (n - 1)%Z in
  let nn := nm_index n n in
  let const := rnd (sqrt (rnd (1 + rnd (1 / 2 / rnd (IZR n))))) in
  do gi <- crd g (nn - 1);
  do x <- hrd (Hw st) nm10nm1;
  do st <- wrh w st n0n (fun j => rnd (const * x j));
  do x <- rdh w st n0n;
  do st <- wrh w st (n0n - 1) (fun j => rnd (rnd (gi * cosb j) * x j));
  do st <- for_range 2 n (fun i st =>
    do gi <- crd g (nn - i);
    do hi <- crd h (nn - i);
    do x <- rdh w st (n0n - i + 1);
    do y <- rdh w st (n0n - i + 2);
    wrh w st (n0n - i) (fun j => rnd (rnd (rnd (gi * cosb j) * x j) - rnd (rnd (hi * rnd (sinb j ^ 2)) * y j)))) st;
  let const := rnd (sqrt (rnd (IZR (4 * n + 2)))) in
  do gi <- crd g (nn - n);
  do hi <- crd h (nn - n);
  do x <- rdh w st (n0n - n + 1);
  do y <- rdh w st (n0n - n + 2);
  do st <- wrh w st (n0n - n) (fun j => rnd (rnd (rnd (rnd (gi * cosb j) * x j) - rnd (rnd (hi * rnd (sinb j ^ 2)) * y j)) / const));
  do ' (_, st) <- for_range 1 n (fun i (s : row * hst) =>
    let (prefactor, st) := s in
    let prefactor := fun j => rnd (prefactor j * sinb j) in
    do x <- rdh w st (n0n - n + i);
    do st <- wrh w st (n0n - n + i) (fun j => rnd (x j * prefactor j));
    Ok (prefactor, st)) ((fun _ => rnd (1 / const)), st);
  if (n <=? n_max)%Z then
    do x <- hrd (Hw st) (ix n 0%Z 1%Z);
    do st <- wrv st (nm_index n 1) x;
    do x <- hrd (Hw st) (ix n 0%Z 1%Z);
    wrv st (nm_index n 0) x
  else Ok st.

(** recursions/wignerH.py:176-246; WignerD/WignerDRecursion.py:154-228 *)
Definition step_2_r (ix : Z -> Z -> Z -> Z) (g h : cbuf) (n_max : Z) (cosb sinb : row) (st : hst) : res hst :=
  let n0n := ix 1%Z 0%Z 1%Z in
  let nn := nm_index 1 1 in
  do st <- wrw st n0n (fun _ => rnd (sqrt 3));
  do gi <- crd g (nn - 1);
  do st <- wrw st (n0n - 1) (fun j => rnd (rnd (gi * cosb j) / rnd (sqrt 2)));
  do st <- for_range 2 (n_max + 2) (step_2_row_r ix g h n_max cosb sinb) st;
  do ' (prefactor, st) <- for_range 1 (n_max + 1) (fun n (s : row * hst) =>
    let (prefactor, st) := s in
    let prefactor := fun j => rnd (prefactor j * sinb j) in
    do x <- hrd (Hw st) (ix n 0%Z n);
    do st <- wrw st (ix n 0%Z n) (fun j => rnd (x j * rnd (prefactor j / rnd (sqrt (rnd (IZR (4 * n + 2)))))));
    Ok (prefactor, st)) ((fun _ => 1), st);
  let n := (n_max + 1)%Z in
  let prefactor := fun j => rnd (prefactor j * sinb j) in
  do x <- hrd (Hx st) n;
  do st <- wrx st n (fun j => rnd (x j * rnd (prefactor j / rnd (sqrt (rnd (IZR (4 * n + 2)))))));
  do x <- hrd (Hw st) (ix 1%Z 0%Z 1%Z);
  do st <- wrv st (nm_index 1 1) x;
  do x <- hrd (Hw st) (ix 1%Z 0%Z 1%Z);
  wrv st (nm_index 1 0) x.

(** recursions/wignerH.py:249-280; WignerD/WignerDRecursion.py:231-262 *)
Definition step_3_r (ix : Z -> Z -> Z -> Z) (a b : cbuf) (n_max : Z) (cosb sinb : row) (st : hst) : res hst :=
  for_range 1 (n_max + 1) (fun n st =>
    let i1 := ix n 1%Z 1%Z in
    let w := (n + 1 <=? n_max)%Z in
    let i2 := if w then ix (n + 1)%Z 0%Z 0%Z else 0%Z in
    let i3 := nm_index (n + 1) 0 in
    let i4 := nabsm_index n 1 in
    do b5 <- crd b i3;
    for_range 0 n (fun i st =>
      do b6 <- crd b (- i + i3 - 2);
      do b7 <- crd b (i + i3);
      do a8 <- crd a (i + i4);
      do x2 <- rdh w st (i + i2 + 2);
      do x0 <- rdh w st (i + i2);
      do x1 <- rdh w st (i + i2 + 1);
      wrw st (i + i1) (fun j =>
        rnd (rnd (1 / b5) * rnd (rnd (1 / 2 * rnd (rnd (rnd (b6 * rnd (1 - cosb j)) * x2 j) - rnd (rnd (b7 * rnd (1 + cosb j)) * x0 j)))
          - rnd (rnd (a8 * sinb j) * x1 j))))) st) st.

(** recursions/wignerH.py:283-328; WignerD/WignerDRecursion.py:265-310 *)
Definition step_4_r (ix : Z -> Z -> Z -> Z) (d : cbuf) (n_max : Z) (st : hst) : res hst :=
  for_range 2 (n_max + 1) (fun n st =>
    for_range 1 n (fun mp st =>
      let i1 := ix n (mp + 1)%Z mp in
      let i2 := ix n (mp - 1)%Z mp in
      let i3 := ix n mp (mp - 1)%Z in
      let i4 := ix n mp (mp + 1)%Z in
      let i5 := nm_index n mp in
      let i6 := nm_index n (mp - 1) in
      do d5 <- crd d i5;
      do d6 <- crd d i6;
      (* for i in [0] *)
      do d7 <- crd d (0 + i6);
      do d8 <- crd d (0 + i5);
      do x <- hrd (Hw st) (0 + i2);
      do y <- hrd (Hv st) (0 + nm_index n mp);
      do z <- hrd (Hw st) (0 + i4);
      do st <- wrv st (0 + nm_index n (mp + 1)) (fun j => rnd (rnd (1 / d5) * rnd (rnd (rnd (d6 * x j) - rnd (d7 * y j)) + rnd (d8 * z j))));
      do st <- for_range 1 (n - mp) (fun i st =>
        do d7 <- crd d (i + i6);
        do d8 <- crd d (i + i5);
        do x <- hrd (Hw st) (i + i2);
        do y <- hrd (Hw st) (i + i3);
        do z <- hrd (Hw st) (i + i4);
        wrw st (i + i1) (fun j => rnd (rnd (1 / d5) * rnd (rnd (rnd (d6 * x j) - rnd (d7 * y j)) + rnd (d8 * z j))))) st;
      (* for i in [n-mp] *)
      let i := (n - mp)%Z in
      do x <- hrd (Hw st) (i + i2);
      do d7 <- crd d (i + i6);
      do y <- hrd (Hw st) (i + i3);
      wrw st (i + i1) (fun j => rnd (rnd (1 / d5) * rnd (rnd (d6 * x j) - rnd (d7 * y j))))) st) st.

(** recursions/wignerH.py:331-390; WignerD/WignerDRecursion.py:313-372 *)
Definition step_5_r (ix : Z -> Z -> Z -> Z) (d : cbuf) (n_max : Z) (st : hst) : res hst :=
  for_range 0 (n_max + 1) (fun n st =>
    for_down 0 (- n) (fun mp st =>
      let i1 := ix n (mp - 1)%Z (- mp)%Z in
      let i2 := ix n (mp + 1)%Z (- mp)%Z in
      let i3 := ix n mp (- mp - 1)%Z in
      let i4 := ix n mp (- mp + 1)%Z in
      let i5 := nm_index n (mp - 1) in
      let i6 := nm_index n mp in
      let i7 := nm_index n (- mp - 1) in
      let i8 := nm_index n (- mp) in
      do d5 <- crd d i5;
      do d6 <- crd d i6;
      (* for i in [0] *)
      do d7 <- crd d (0 + i7);
      do d8 <- crd d (0 + i8);
      do x <- (if (mp =? 0)%Z then hrd (Hv st) (0 + nm_index n (mp + 1)) else hrd (Hw st) (0 + i2));
      do y <- hrd (Hv st) (0 + nm_index n mp);
      do z <- hrd (Hw st) (0 + i4);
      do st <- wrv st (0 + nm_index n (mp - 1)) (fun j => rnd (rnd (1 / d5) * rnd (rnd (rnd (d6 * x j) + rnd (d7 * y j)) - rnd (d8 * z j))));
      do st <- for_range 1 (n + mp) (fun i st =>
        do d7 <- crd d (i + i7);
        do d8 <- crd d (i + i8);
        do x <- hrd (Hw st) (i + i2);
        do y <- hrd (Hw st) (i + i3);
        do z <- hrd (Hw st) (i + i4);
        wrw st (i + i1) (fun j => rnd (rnd (1 / d5) * rnd (rnd (rnd (d6 * x j) + rnd (d7 * y j)) - rnd (d8 * z j))))) st;
      let i := (n + mp)%Z in
      do x <- hrd (Hw st) (i + i2);
      do d7 <- crd d (i + i7);
      do y <- hrd (Hw st) (i + i3);
      wrw st (i + i1) (fun j => rnd (rnd (1 / d5) * rnd (rnd (d6 * x j) + rnd (d7 * y j))))) st) st.

(** ** The coefficient arrays (recursions/wignerH.py:447-454, WignerD/WignerDRecursion.py:407-414) and the calculator objects *)
Definition sqrt_quot_r (num den : Z) : option R :=
  if (den =? 0)%Z then None else if (num * den <? 0)%Z then None else Some (rnd (sqrt (rnd (rnd (IZR num) / rnd (IZR den))))).
Definition sqrt_int_r (num : Z) : option R := if (num <? 0)%Z then None else Some (rnd (sqrt (rnd (IZR num)))).
Definition neg_where_r (m : Z) (x : option R) : option R :=
  if (m <? 0)%Z then option_map (fun v => rnd (v * -1)) x else x.
Definition coef_a_r (nm : Z * Z) : option R :=
  let (n, m) := nm in sqrt_quot_r ((n + 1 + m) * (n + 1 - m)) ((2 * n + 1) * (2 * n + 3)).
Definition coef_b_r (nm : Z * Z) : option R :=
  let (n, m) := nm in neg_where_r m (sqrt_quot_r ((n - m - 1) * (n - m)) ((2 * n - 1) * (2 * n + 1))).
Definition coef_d_r (nm : Z * Z) : option R :=
  let (n, m) := nm in neg_where_r m (option_map (fun v => rnd (1 / 2 * v)) (sqrt_int_r ((n - m) * (n + m + 1)))).
Definition coef_g_r (nm : Z * Z) : option R :=
  let (n, m) := nm in
  if ((n - m) * (n + m + 1) =? 0)%Z then None
  else option_map (fun v => rnd (rnd (IZR (2 * (m + 1))) / v)) (sqrt_int_r ((n - m) * (n + m + 1))).
Definition coef_h_r (nm : Z * Z) : option R :=
  let (n, m) := nm in sqrt_quot_r ((n + m + 2) * (n - m - 1)) ((n - m) * (n + m + 1)).

(** recursions/wignerH.py:439-460 (with the parts that matter of WignerD/WignerDRecursion.py:395-423, where the finiteness test
    also covers two arrays that no step uses) *)
Definition HCalculator_init_r (n_max : Z) : res HCalc :=
  if (n_max <? 0)%Z then Err ValueError else
  let nm := pairs_nm n_max in
  let nabsm := pairs_nabsm n_max in
  let a := coef_arr coef_a_r nabsm in
  let b := coef_arr coef_b_r nm in
  let d := coef_arr coef_d_r nm in
  let g := coef_arr coef_g_r nm in
  let h := coef_arr coef_h_r nm in
  if all_finite a && all_finite b && all_finite d then Ok (mkHCalc n_max a b d g h) else Err ValueError.

(** recursions/wignerH.py:468-480; WignerD/WignerDRecursion.py:430-445.  Simplification: one-dimensional cosβ and sinβ. *)
Definition check_angles_r (cosb : list R) (sinb : option (list R)) : res (list R) :=
  if (length cosb =? 0)%nat then Err ValueError else
  if out_of_range cosb then Err ValueError else
  match sinb with
  | None => Ok (map (fun c => rnd (sqrt (rnd (1 - rnd (c ^ 2))))) cosb)
  | Some s => if (length s =? length cosb)%nat then Ok s else Err ValueError
  end.

(** recursions/wignerH.py:467-491.  The three slices of the workspace do not overlap, so they are separate buffers here.  The
    workspace is taken to have one column per entry of cosβ. *)
Definition HCalculator_call_r (hc : HCalc) (cosb : list R) (sinb : option (list R)) (workspace : option hbuf) : res hbuf :=
  do s <- check_angles_r cosb sinb;
  let n_max := hc_n_max hc in
  let ws := match workspace with Some w => w | None => hzeros (workspace_size n_max) end in
  let size := wedge_size n_max in
  let st := mkhst (hslice ws 0 size) (hslice ws size (size + (n_max + 1) ^ 2)%Z)
                  (hslice ws (size + (n_max + 1) ^ 2)%Z (size + (n_max + 1) ^ 2 + n_max + 2)%Z) in
  let cosr := row_of cosb in
  let sinr := row_of s in
  do st <- step_1 st;
  do st <- step_2_r wedge_index (hc_g hc) (hc_h hc) n_max cosr sinr st;
  do st <- step_3_r wedge_index (hc_a hc) (hc_b hc) n_max cosr sinr st;
  do st <- step_4_r wedge_index (hc_d hc) n_max st;
  do st <- step_5_r wedge_index (hc_d hc) n_max st;
  Ok (Hw st).

(** WignerD/WignerDRecursion.py:425-456: the same with full storage; Hextra and Hv are fresh zeros. *)
Definition HCalculator_full_call_r (hc : HCalc) (cosb : list R) (sinb : option (list R)) (workspace : option hbuf) : res hbuf :=
  do s <- check_angles_r cosb sinb;
  let n_max := hc_n_max hc in
  let size := LMpM_total_size 0 n_max in
  let ws := match workspace with Some w => w | None => hzeros size end in
  let st := mkhst ws (hzeros ((n_max + 1) ^ 2)%Z) (hzeros (n_max + 2)%Z) in
  let cosr := row_of cosb in
  let sinr := row_of s in
  do st <- step_1 st;
  do st <- step_2_r nmpm_index (hc_g hc) (hc_h hc) n_max cosr sinr st;
  do st <- step_3_r nmpm_index (hc_a hc) (hc_b hc) n_max cosr sinr st;
  do st <- step_4_r nmpm_index (hc_d hc) n_max st;
  do st <- step_5_r nmpm_index (hc_d hc) n_max st;
  do st <- step_6 n_max st;
  Ok (hslice (Hw st) 0 size).
End Rounded.

(** The calculators in IEEE doubles *)
Definition HCalculator_init64 : Z -> res HCalc := HCalculator_init_r RN64.
Definition HCalculator_call64 : HCalc -> list R -> option (list R) -> option hbuf -> res hbuf := HCalculator_call_r RN64.
Definition HCalculator_full_call64 : HCalc -> list R -> option (list R) -> option hbuf -> res hbuf := HCalculator_full_call_r RN64.
