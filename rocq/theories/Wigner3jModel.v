(** Model of spherical_functions/recursions/wigner3j.py.

    float64 is R and every float operation is exact.  Integers are Z; the two helpers with declared int32 arguments
    and results, [A] and [B], take the integer conversions as parameters ([widths]): [exact] for unbounded integers,
    [fixed] for the declared types.  A float division by a scalar zero raises ZeroDivisionError in numba's default
    error model; an array divided by zero, or the square root of a negative number, gives NaN or infinity, which has no
    counterpart in R and is also reported as an error. *)
Require Import ZArith List Reals Bool.
From Verif Require Import Base Fact.
Open Scope Z_scope.

(** ** Language primitives *)
Definition Rltb (x y : R) : bool := if Rlt_dec x y then true else false.
Definition Rleb (x y : R) : bool := if Rle_dec x y then true else false.
Definition Reqb (x y : R) : bool := if Req_EM_T x y then true else false.

(** [x / y] of floats *)
Definition fdiv (x y : R) : res R := if Reqb y 0 then Err ZeroDivisionError else Ok (x / y)%R.

(** [for i in range(a, b)] and [for i in range(a, b, -1)] with [break]: the body says whether it breaks *)
Fixpoint loop_brk {S} (n : nat) (i step : Z) (body : Z -> S -> res (bool * S)) (s : S) : res S :=
  match n with
  | O => Ok s
  | Datatypes.S n' => do '(stop, s) <- body i s; if stop : bool then Ok s else loop_brk n' (i + step) step body s
  end.
Definition for_range_brk {S} (a b : Z) (body : Z -> S -> res (bool * S)) (s : S) : res S :=
  loop_brk (Z.to_nat (b - a)) a 1 body s.
Definition for_down_brk {S} (a b : Z) (body : Z -> S -> res (bool * S)) (s : S) : res S :=
  loop_brk (Z.to_nat (a - b)) a (-1) body s.

(** A slice [buffer[lo:hi]] of a one-dimensional array: offset and length *)
Record view : Type := mkview { voff : Z; vlen : Z }.
Definition clip1 (n i : Z) : Z := Z.max 0 (Z.min n (if i <? 0 then i + n else i)).
Definition slice1 (n lo hi : Z) : view := mkview (clip1 n lo) (Z.max 0 (clip1 n hi - clip1 n lo)).

(** [v[i]] and [v[i] = x] through a view; an index outside the view is reported, although compiled code would
    silently touch a neighbouring slice *)
Definition rdv (ws : arr R) (v : view) (i : Z) : res R :=
  let j := norm_index (vlen v) i in
  if in_bounds (vlen v) j then rd ws (voff v + j) else Err OutOfBounds.
Definition wrv (ws : arr R) (v : view) (i : Z) (x : R) : res (arr R) :=
  let j := norm_index (vlen v) i in
  if in_bounds (vlen v) j then wr ws (voff v + j) x else Err OutOfBounds.

(** [dst[lo:hi] = e], [e k] the value for position [k] of [dst]; numpy evaluates the right-hand side first *)
Definition wrv_slice (ws : arr R) (dst : view) (lo hi : Z) (e : Z -> R) : res (arr R) :=
  let s := slice1 (vlen dst) lo hi in
  if (0 <=? voff dst) && (voff dst + vlen dst <=? alen ws)
  then Ok (mkarr (alen ws) (fun k => if (voff dst + voff s <=? k) && (k <? voff dst + voff s + vlen s)
                                     then e (k - voff dst) else aget ws k))
  else Err OutOfBounds.
(** the entry of [src] at position [k], for use in [wrv_slice] with equal bounds *)
Definition vget (ws : arr R) (src : view) (k : Z) : R := aget ws (voff src + k).

(** [(-1) ** k] of integers, also for negative [k] *)
Definition pm1 (k : Z) : Z := if Z.even k then 1 else -1.

(** ** Coefficients *)
Record widths : Type := mkwidths { wA : Z -> Z; wB : Z -> Z }.
Definition exact : widths := mkwidths (fun z => z) (fun z => z).
(** two's complement *)
Definition wrap (bits z : Z) : Z := (z + 2 ^ (bits - 1)) mod 2 ^ bits - 2 ^ (bits - 1).
(** numba computes with 64-bit intermediates; [B]'s declared result type is int32 *)
Definition fixed : widths := mkwidths (wrap 64) (wrap 32).

(** recursions/wigner3j.py:7-9 *)
Definition A (w : widths) (j j2 j3 m1 : Z) : res R :=
  let z := wA w ((j ^ 2 - (j2 - j3) ^ 2) * ((j2 + j3 + 1) ^ 2 - j ^ 2) * (j ^ 2 - m1 ^ 2)) in
  if z <? 0 then Err ValueError else Ok (sqrt (IZR z)).
(** recursions/wigner3j.py:12-14, 22 *)
Definition B (w : widths) (j j2 j3 m2 m3 : Z) : Z :=
  wB w ((2 * j + 1) * ((m2 + m3) * (j2 * (j2 + 1) - j3 * (j3 + 1)) - (m2 - m3) * j * (j + 1))).
Definition Yf (w : widths) (j j2 j3 m2 m3 : Z) : R := IZR (B w j j2 j3 m2 m3).
(** recursions/wigner3j.py:17-19 *)
Definition Xf (w : widths) (j j2 j3 m1 : Z) : res R := do a <- A w (j + 1) j2 j3 m1; Ok (IZR j * a)%R.
(** recursions/wigner3j.py:25-27 *)
Definition Zf (w : widths) (j j2 j3 m1 : Z) : res R := do a <- A w j j2 j3 m1; Ok (IZR (j + 1) * a)%R.

(** ** Finishing helpers *)

(** recursions/wigner3j.py:30-35 *)
Definition normalize (ws : arr R) (f : view) (j_min j_max : Z) : res (arr R) :=
  do norm <- for_range j_min (j_max + 1) (fun j norm =>
    do x <- rdv ws f j; Ok (norm + IZR (2 * j + 1) * x ^ 2)%R) 0%R;
  let d := sqrt norm in
  if Reqb d 0 then Err ZeroDivisionError
  else wrv_slice ws f j_min (j_max + 1) (fun k => vget ws f k / d)%R.

(** recursions/wigner3j.py:38-41 *)
Definition determine_signs (ws : arr R) (f : view) (j_min j_max j2 j3 m2 m3 : Z) : res (arr R) :=
  do x <- rdv ws f j_max;
  let s := pm1 (j2 - j3 + m2 + m3) in
  if (Rltb x 0 && (s >? 0)) || (Rltb 0 x && (s <? 0))
  then wrv_slice ws f j_min (j_max + 1) (fun k => vget ws f k * -1)%R
  else Ok ws.

(** ** The calculator *)
Record calc : Type := mkcalc { csize : Z; workspace : arr R }.

(** recursions/wigner3j.py:49-51; [garbage] is what [np.empty] finds in memory *)
Definition calc_new (j2_max j3_max : Z) (garbage : Z -> R) : res calc :=
  let size := j2_max + j3_max + 1 in
  do ws <- np_empty (4 * size) garbage; Ok (mkcalc size ws).

(** recursions/wigner3j.py:105-109: the slices of the workspace ([rf] is [sf]) *)
Definition slot (size : Z) (n b : Z) : view := slice1 n (b * size) ((b + 1) * size).

Section Calculate.
Context (w : widths) (size : Z) (j2 j3 m2 m3 : Z).
Let m1 := - (m2 + m3).
Let j_min := Z.max (Z.abs (j2 - j3)) (Z.abs (m2 + m3)).
Let j_max := j2 + j3.
Let f := slot size (4 * size) 0.
Let sf := slot size (4 * size) 1.
Let rf := sf.
Let F_minus := slot size (4 * size) 2.
Let F_plus := slot size (4 * size) 3.
Let X j := Xf w j j2 j3 m1.
Let Y j := Yf w j j2 j3 m2 m3.
Let Zc j := Zf w j j2 j3 m1.
Let all_zero := (m1 =? 0) && (m2 =? 0) && (m3 =? 0).

(** recursions/wigner3j.py:160-167, body of the first ratio loop *)
Definition forward_body (j : Z) (s : arr R * Z) : res (bool * (arr R * Z)) :=
  let '(ws, j_minus) := s in
  do z <- Zc j; do sfj <- rdv ws sf (j - 1);
  let denominator := (Y j + z * sfj)%R in
  do x <- X j;
  if Rltb (Rabs denominator) (Rabs x) || Rleb 0 (x * denominator) || Reqb denominator 0
  then Ok (true, (ws, j - 1))
  else do q <- fdiv (- x) denominator; do ws <- wrv ws sf j q; Ok (false, (ws, j_minus)).

(** recursions/wigner3j.py:131-174: forward iteration; returns the workspace, [j_minus], [undefined_min] *)
Definition forward (ws : arr R) : res (arr R * Z * bool) :=
  do x0 <- X j_min;
  let y0 := Y j_min in
  if all_zero then
    do ws <- wrv ws F_minus j_min 1%R; do ws <- wrv ws F_minus (j_min + 1) 0%R; Ok (ws, j_min + 1, false)
  else if Reqb y0 0 then
    if Reqb x0 0 then Ok (ws, j_min, true)
    else do ws <- wrv ws F_minus j_min 1%R; do ws <- wrv ws F_minus (j_min + 1) 0%R; Ok (ws, j_min + 1, false)
  else if Rleb 0 (x0 * y0) then
    do ws <- wrv ws F_minus j_min 1%R; do q <- fdiv (- y0) x0; do ws <- wrv ws F_minus (j_min + 1) q;
    Ok (ws, j_min + 1, false)
  else
    do q <- fdiv (- x0) y0; do ws <- wrv ws sf j_min q;
    do '(ws, j_minus) <- for_range_brk (j_min + 1) j_max forward_body (ws, j_max);
    do ws <- wrv ws F_minus j_minus 1%R;
    do ws <- for_range 1 (j_minus - j_min + 1) (fun k ws =>
      do a <- rdv ws F_minus (j_minus - k + 1); do b <- rdv ws sf (j_minus - k);
      wrv ws F_minus (j_minus - k) (a * b)%R) ws;
    if j_minus =? j_min then
      do q <- fdiv (- y0) x0; do ws <- wrv ws F_minus (j_min + 1) q; Ok (ws, j_min + 1, false)
    else Ok (ws, j_minus, false).

(** recursions/wigner3j.py:215-222, body of the second ratio loop *)
Definition reverse_body (j : Z) (s : arr R * Z) : res (bool * (arr R * Z)) :=
  let '(ws, j_plus) := s in
  do x <- X j; do rfj <- rdv ws rf (j + 1);
  let denominator := (Y j + x * rfj)%R in
  do z <- Zc j;
  if Reqb denominator 0 || Rltb (Rabs denominator) (Rabs z) || Rleb 0 (z * denominator)
  then Ok (true, (ws, j + 1))
  else do q <- fdiv (- z) denominator; do ws <- wrv ws rf j q; Ok (false, (ws, j_plus)).

(** recursions/wigner3j.py:186-228: reverse iteration; returns the workspace, [j_plus], [undefined_max] *)
Definition reverse (ws : arr R) (j_minus : Z) : res (arr R * Z * bool) :=
  let y0 := Y j_max in
  do z0 <- Zc j_max;
  if all_zero then
    do ws <- wrv ws F_plus j_max 1%R; do ws <- wrv ws F_plus (j_max - 1) 0%R; Ok (ws, j_max - 1, false)
  else if Reqb y0 0 then
    if Reqb z0 0 then Ok (ws, j_max, true)
    else do ws <- wrv ws F_plus j_max 1%R; do q <- fdiv (- y0) z0; do ws <- wrv ws F_plus (j_max - 1) q;
         Ok (ws, j_max - 1, false)
  else if Rleb 0 (y0 * z0) then
    do ws <- wrv ws F_plus j_max 1%R; do q <- fdiv (- y0) z0; do ws <- wrv ws F_plus (j_max - 1) q;
    Ok (ws, j_max - 1, false)
  else
    do q <- fdiv (- z0) y0; do ws <- wrv ws rf j_max q;
    do '(ws, j_plus) <- for_down_brk (j_max - 1) (j_minus - 1) reverse_body (ws, j_min);
    do ws <- wrv ws F_plus j_plus 1%R;
    do ws <- for_range 1 (j_max - j_plus + 1) (fun k ws =>
      do a <- rdv ws F_plus (j_plus + k - 1); do b <- rdv ws rf (j_plus + k);
      wrv ws F_plus (j_plus + k) (a * b)%R) ws;
    if j_plus =? j_max then
      do q <- fdiv (- y0) z0; do ws <- wrv ws F_plus (j_max - 1) q; Ok (ws, j_max - 1, false)
    else Ok (ws, j_plus, false).

(** recursions/wigner3j.py:240-242 and 270-272 *)
Definition step_up (ws : arr R) (j : Z) : res (arr R) :=
  do a <- rdv ws F_minus j; do z <- Zc j; do b <- rdv ws F_minus (j - 1); do x <- X j;
  do q <- fdiv (- (Y j * a + z * b)) x;
  wrv ws F_minus (j + 1) q.
(** recursions/wigner3j.py:253-255 and 280-282 *)
Definition step_down (ws : arr R) (j : Z) : res (arr R) :=
  do x <- X j; do a <- rdv ws F_plus (j + 1); do b <- rdv ws F_plus j; do z <- Zc j;
  do q <- fdiv (- (x * a + Y j * b)) z;
  wrv ws F_plus (j - 1) q.
(** recursions/wigner3j.py:243-244: [if abs(F_minus[j+1]) > 1.0: F_minus[j_min:j+1+1] /= scale_factor] *)
Definition rescale_up (ws : arr R) (j : Z) : res (arr R) :=
  do a <- rdv ws F_minus (j + 1);
  if Rltb 1 (Rabs a) then wrv_slice ws F_minus j_min (j + 1 + 1) (fun k => vget ws F_minus k / 1000)%R else Ok ws.
(** recursions/wigner3j.py:256-257: [if abs(F_plus[j-1]) > 1.0: F_plus[j-1:j_max+1] /= scale_factor] *)
Definition rescale_down (ws : arr R) (j : Z) : res (arr R) :=
  do a <- rdv ws F_plus (j - 1);
  if Rltb 1 (Rabs a) then wrv_slice ws F_plus (j - 1) (j_max + 1) (fun k => vget ws F_plus k / 1000)%R else Ok ws.

(** recursions/wigner3j.py:239-247 *)
Definition middle_body (j : Z) (s : arr R * Z) : res (bool * (arr R * Z)) :=
  let '(ws, j_mid) := s in
  do ws <- step_up ws j;
  do ws <- rescale_up ws j;
  do a <- rdv ws F_minus (j + 1); do b <- rdv ws F_minus (j - 1);
  do q <- fdiv a b;
  if Rltb (Rabs q) 1 && negb (Reqb a 0) then Ok (true, (ws, j + 1)) else Ok (false, (ws, j_mid)).

(** recursions/wigner3j.py:236-265 *)
Definition meet (ws : arr R) (j_minus j_plus : Z) : res (arr R) :=
  do '(ws, j_mid) <- for_range_brk j_minus ((j_minus + j_plus) / 2) middle_body (ws, (j_minus + j_plus) / 2);
  do Fj <- rdv ws F_minus j_mid;
  do Fp <- rdv ws F_minus (j_mid - 1);
  do '(j_mid, F_minus_j_mid) <-
    (if Reqb Fp 0 then Ok (j_mid, Fj)
     else do q <- fdiv Fj Fp;
          if Rltb (Rabs q) (/ 1000000) then do x <- rdv ws F_minus (j_mid - 1); Ok (j_mid - 1, x) else Ok (j_mid, Fj));
  do ws <- for_down j_plus j_mid (fun j ws => do ws <- step_down ws j; rescale_down ws j) ws;
  do F_plus_j_mid <- rdv ws F_plus j_mid;
  if j_mid =? j_max then wrv_slice ws f j_min (j_max + 1) (fun k => vget ws F_minus k)
  else if j_mid =? j_min then wrv_slice ws f j_min (j_max + 1) (fun k => vget ws F_plus k)
  else if Reqb F_minus_j_mid 0 then Err ZeroDivisionError
  else
    do ws <- wrv_slice ws f j_min (j_mid + 1) (fun k => vget ws F_minus k * F_plus_j_mid / F_minus_j_mid)%R;
    wrv_slice ws f (j_mid + 1) (j_max + 1) (fun k => vget ws F_plus k).

(** recursions/wigner3j.py:267-275 *)
Definition up_only (ws : arr R) (j_minus j_plus : Z) : res (arr R) :=
  do ws <- for_range j_minus j_plus (fun j ws => do ws <- step_up ws j; rescale_up ws j) ws;
  wrv_slice ws f j_min (j_max + 1) (fun k => vget ws F_minus k).
(** recursions/wigner3j.py:277-286 *)
Definition down_only (ws : arr R) (j_plus : Z) : res (arr R) :=
  do ws <- for_down j_plus j_min (fun j ws => do ws <- step_down ws j; rescale_down ws j) ws;
  wrv_slice ws f j_min (j_max + 1) (fun k => vget ws F_plus k).

(** recursions/wigner3j.py:176-181, 290-292 *)
Definition finish (ws : arr R) : res (arr R) :=
  do ws <- normalize ws f j_min j_max;
  determine_signs ws f j_min j_max j2 j3 m2 m3.

(** recursions/wigner3j.py:95-292, on the workspace *)
Definition calculate_ws (ws : arr R) : res (arr R) :=
  let ws := mkarr (alen ws) (fun _ => 0%R) in
  if (Z.abs m2 >? j2) || (Z.abs m3 >? j3) then Ok ws
  else if j_max <? j_min then Ok ws
  else if j_max =? j_min then
    do q <- fdiv 1 (sqrt (2 * IZR j_min + 1));
    do ws <- wrv ws f j_min q;
    do x <- rdv ws f j_min;
    let s := pm1 (j2 - j3 + m2 + m3) in
    if (Rltb x 0 && (s >? 0)) || (Rltb 0 x && (s <? 0)) then do x <- rdv ws f j_min; wrv ws f j_min (x * -1)%R
    else Ok ws
  else
    do '(ws, j_minus, undefined_min) <- forward ws;
    if j_minus =? j_max then
      do ws <- wrv_slice ws f j_min (j_max + 1) (fun k => vget ws F_minus k);
      finish ws
    else
      do '(ws, j_plus, undefined_max) <- reverse ws j_minus;
      if undefined_min && undefined_max then Err ValueError
      else
        do ws <- (if negb undefined_min && negb undefined_max then meet ws j_minus j_plus
                  else if negb undefined_min && undefined_max then up_only ws j_minus j_plus
                  else down_only ws j_plus);
        finish ws.
End Calculate.

(** [calculator.calculate(j2, j3, m2, m3)]: the new state of the object, whose slot [f] is the returned array *)
Definition calculate (w : widths) (c : calc) (j2 j3 m2 m3 : Z) : res calc :=
  do ws <- calculate_ws w (csize c) j2 j3 m2 m3 (workspace c); Ok (mkcalc (csize c) ws).
(** the returned array, a slice of the workspace (valid until the next call) *)
Definition returned (c : calc) (j : Z) : res R := rdv (workspace c) (slot (csize c) (alen (workspace c)) 0) j.

(** recursions/wigner3j.py:295-340 *)
Definition Wigner3j (w : widths) (garbage : Z -> R) (j_1 j_2 j_3 m_1 m_2 m_3 : Z) : res R :=
  if negb (m_1 + m_2 + m_3 =? 0) then Ok 0%R
  else if (Z.abs m_1 >? j_1) || (Z.abs m_2 >? j_2) || (Z.abs m_3 >? j_3) then Ok 0%R
  else
    let jm := Z.max (Z.max j_1 j_2) j_3 in
    let '(j_1, j_2, j_3, m_1, m_2, m_3) :=
      if j_1 =? jm then (j_1, j_2, j_3, m_1, m_2, m_3)
      else if j_2 =? jm then (j_2, j_3, j_1, m_2, m_3, m_1)
      else (j_3, j_1, j_2, m_3, m_1, m_2) in
    if j_1 >? j_2 + j_3 then Ok 0%R
    else
      do c <- calc_new j_2 j_3 garbage;
      do c <- calculate w c j_2 j_3 m_2 m_3;
      returned c j_1.

(** recursions/wigner3j.py:343-353 *)
Definition clebsch_gordan (w : widths) (garbage : Z -> R) (j_1 m_1 j_2 m_2 j_3 m_3 : Z) : res R :=
  do x <- Wigner3j w garbage j_1 j_2 j_3 m_1 m_2 (- m_3);
  if 2 * j_3 + 1 <? 0 then Err ValueError else
  Ok (IZR (pm1 (j_1 - j_2 + m_3)) * sqrt (IZR (2 * j_3 + 1)) * x)%R.
