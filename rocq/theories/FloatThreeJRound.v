(** The model of FloatThreeJModel.v with any rounding function in place of RN64, to compare it with the exact model: with RN64 it is
    FloatThreeJModel.v, without rounding Wigner3jModel.v. *)
Require Import ZArith List Reals Bool FunctionalExtensionality.
From Verif Require Import Base Fact Wigner3jModel FloatIndexModel FloatThreeJModel.
Open Scope Z_scope.

Section Rounded.
Variable rnd : R -> R.
(** [x / y] of floats *)
Definition fdiv_r (x y : R) : res R := if Reqb y 0 then Err ZeroDivisionError else Ok (rnd (x / y)).

(** ** Coefficients *)

(** recursions/wigner3j.py:7-9 *)
Definition A_r (w : widths) (j j2 j3 m1 : Z) : res R :=
  let z := wA w ((j ^ 2 - (j2 - j3) ^ 2) * ((j2 + j3 + 1) ^ 2 - j ^ 2) * (j ^ 2 - m1 ^ 2)) in
  if z <? 0 then Err ValueError else Ok (rnd (sqrt (rnd (IZR z)))).
(** recursions/wigner3j.py:12-14, 22 *)
Definition Yf_r (w : widths) (j j2 j3 m2 m3 : Z) : R := rnd (IZR (B w j j2 j3 m2 m3)).
(** recursions/wigner3j.py:17-19 *)
Definition Xf_r (w : widths) (j j2 j3 m1 : Z) : res R := do a <- A_r w (j + 1) j2 j3 m1; Ok (rnd (rnd (IZR j) * a)).
(** recursions/wigner3j.py:25-27 *)
Definition Zf_r (w : widths) (j j2 j3 m1 : Z) : res R := do a <- A_r w j j2 j3 m1; Ok (rnd (rnd (IZR (j + 1)) * a)).

(** ** Finishing helpers *)

(** recursions/wigner3j.py:30-35 *)
Definition normalize_r (ws : arr R) (f : view) (j_min j_max : Z) : res (arr R) :=
  do norm <- for_range j_min (j_max + 1) (fun j norm =>
    do x <- rdv ws f j; Ok (rnd (norm + rnd (rnd (IZR (2 * j + 1)) * rnd (x * x)))%R)) 0%R;
  let d := rnd (sqrt norm) in
  if Reqb d 0 then Err ZeroDivisionError
  else wrv_slice ws f j_min (j_max + 1) (fun k => rnd (vget ws f k / d)).

(** recursions/wigner3j.py:38-41 is exact: [determine_signs] of Wigner3jModel.v *)

(** ** The calculator *)

Section Calculate.
Context (w : widths) (size : Z) (j2 j3 m2 m3 : Z).
Let m1 := - (m2 + m3).
Let j_min := Z.max (Z.abs (j2 - j3)) (Z.abs (m2 + m3)).
Let j_max := j2 + j3.
Let f := slot size (4 * size) 0.
Let sf := slot size (4 * size) 1.
Let rf := sf.
Let F_minus := slot size (4 * size) 2.
Let F_plus := slot size (4 * size) 3.
Let X j := Xf_r w j j2 j3 m1.
Let Y j := Yf_r w j j2 j3 m2 m3.
Let Zc j := Zf_r w j j2 j3 m1.
Let all_zero := (m1 =? 0) && (m2 =? 0) && (m3 =? 0).

(** recursions/wigner3j.py:160-167, body of the first ratio loop *)
Definition forward_body_r (j : Z) (s : arr R * Z) : res (bool * (arr R * Z)) :=
  let '(ws, j_minus) := s in
  do z <- Zc j; do sfj <- rdv ws sf (j - 1);
  let denominator := rnd (Y j + rnd (z * sfj)) in
  do x <- X j;
  if Rltb (Rabs denominator) (Rabs x) || Rleb 0 (rnd (x * denominator)) || Reqb denominator 0
  then Ok (true, (ws, j - 1))
  else do q <- fdiv_r (- x) denominator; do ws <- wrv ws sf j q; Ok (false, (ws, j_minus)).

(** recursions/wigner3j.py:131-174: forward iteration; returns the workspace, [j_minus], [undefined_min] *)
Definition forward_r (ws : arr R) : res (arr R * Z * bool) :=
  do x0 <- X j_min;
  let y0 := Y j_min in
  if all_zero then
    do ws <- wrv ws F_minus j_min 1%R; do ws <- wrv ws F_minus (j_min + 1) 0%R; Ok (ws, j_min + 1, false)
  else if Reqb y0 0 then
    if Reqb x0 0 then Ok (ws, j_min, true)
    else do ws <- wrv ws F_minus j_min 1%R; do ws <- wrv ws F_minus (j_min + 1) 0%R; Ok (ws, j_min + 1, false)
  else if Rleb 0 (rnd (x0 * y0)) then
    do ws <- wrv ws F_minus j_min 1%R; do q <- fdiv_r (- y0) x0; do ws <- wrv ws F_minus (j_min + 1) q;
    Ok (ws, j_min + 1, false)
  else
    do q <- fdiv_r (- x0) y0; do ws <- wrv ws sf j_min q;
    do '(ws, j_minus) <- for_range_brk (j_min + 1) j_max forward_body_r (ws, j_max);
    do ws <- wrv ws F_minus j_minus 1%R;
    do ws <- for_range 1 (j_minus - j_min + 1) (fun k ws =>
      do a <- rdv ws F_minus (j_minus - k + 1); do b <- rdv ws sf (j_minus - k);
      wrv ws F_minus (j_minus - k) (rnd (a * b))) ws;
    if j_minus =? j_min then
      do q <- fdiv_r (- y0) x0; do ws <- wrv ws F_minus (j_min + 1) q; Ok (ws, j_min + 1, false)
    else Ok (ws, j_minus, false).

(** recursions/wigner3j.py:215-222, body of the second ratio loop *)
Definition reverse_body_r (j : Z) (s : arr R * Z) : res (bool * (arr R * Z)) :=
  let '(ws, j_plus) := s in
  do x <- X j; do rfj <- rdv ws rf (j + 1);
  let denominator := rnd (Y j + rnd (x * rfj)) in
  do z <- Zc j;
  if Reqb denominator 0 || Rltb (Rabs denominator) (Rabs z) || Rleb 0 (rnd (z * denominator))
  then Ok (true, (ws, j + 1))
  else do q <- fdiv_r (- z) denominator; do ws <- wrv ws rf j q; Ok (false, (ws, j_plus)).

(** recursions/wigner3j.py:186-228: reverse iteration; returns the workspace, [j_plus], [undefined_max] *)
Definition reverse_r (ws : arr R) (j_minus : Z) : res (arr R * Z * bool) :=
  let y0 := Y j_max in
  do z0 <- Zc j_max;
  if all_zero then
    do ws <- wrv ws F_plus j_max 1%R; do ws <- wrv ws F_plus (j_max - 1) 0%R; Ok (ws, j_max - 1, false)
  else if Reqb y0 0 then
    if Reqb z0 0 then Ok (ws, j_max, true)
    else do ws <- wrv ws F_plus j_max 1%R; do q <- fdiv_r (- y0) z0; do ws <- wrv ws F_plus (j_max - 1) q;
         Ok (ws, j_max - 1, false)
  else if Rleb 0 (rnd (y0 * z0)) then
    do ws <- wrv ws F_plus j_max 1%R; do q <- fdiv_r (- y0) z0; do ws <- wrv ws F_plus (j_max - 1) q;
    Ok (ws, j_max - 1, false)
  else
    do q <- fdiv_r (- z0) y0; do ws <- wrv ws rf j_max q;
    do '(ws, j_plus) <- for_down_brk (j_max - 1) (j_minus - 1) reverse_body_r (ws, j_min);
    do ws <- wrv ws F_plus j_plus 1%R;
    do ws <- for_range 1 (j_max - j_plus + 1) (fun k ws =>
      do a <- rdv ws F_plus (j_plus + k - 1); do b <- rdv ws rf (j_plus + k);
      wrv ws F_plus (j_plus + k) (rnd (a * b))) ws;
    if j_plus =? j_max then
      do q <- fdiv_r (- y0) z0; do ws <- wrv ws F_plus (j_max - 1) q; Ok (ws, j_max - 1, false)
    else Ok (ws, j_plus, false).

(** recursions/wigner3j.py:240-242 and 270-272 *)
Definition step_up_r (ws : arr R) (j : Z) : res (arr R) :=
  do a <- rdv ws F_minus j; do z <- Zc j; do b <- rdv ws F_minus (j - 1); do x <- X j;
  do q <- fdiv_r (- rnd (rnd (Y j * a) + rnd (z * b))) x;
  wrv ws F_minus (j + 1) q.
(** recursions/wigner3j.py:253-255 and 280-282 *)
Definition step_down_r (ws : arr R) (j : Z) : res (arr R) :=
  do x <- X j; do a <- rdv ws F_plus (j + 1); do b <- rdv ws F_plus j; do z <- Zc j;
  do q <- fdiv_r (- rnd (rnd (x * a) + rnd (Y j * b))) z;
  wrv ws F_plus (j - 1) q.
(** recursions/wigner3j.py:243-244: [if abs(F_minus[j+1]) > 1.0: F_minus[j_min:j+1+1] /= scale_factor] *)
Definition rescale_up_r (ws : arr R) (j : Z) : res (arr R) :=
  do a <- rdv ws F_minus (j + 1);
  if Rltb 1 (Rabs a) then wrv_slice ws F_minus j_min (j + 1 + 1) (fun k => rnd (vget ws F_minus k / 1000)) else Ok ws.
(** recursions/wigner3j.py:256-257: [if abs(F_plus[j-1]) > 1.0: F_plus[j-1:j_max+1] /= scale_factor] *)
Definition rescale_down_r (ws : arr R) (j : Z) : res (arr R) :=
  do a <- rdv ws F_plus (j - 1);
  if Rltb 1 (Rabs a) then wrv_slice ws F_plus (j - 1) (j_max + 1) (fun k => rnd (vget ws F_plus k / 1000)) else Ok ws.

(** recursions/wigner3j.py:239-247 *)
Definition middle_body_r (j : Z) (s : arr R * Z) : res (bool * (arr R * Z)) :=
  let '(ws, j_mid) := s in
  do ws <- step_up_r ws j;
  do ws <- rescale_up_r ws j;
  do a <- rdv ws F_minus (j + 1); do b <- rdv ws F_minus (j - 1);
  do q <- fdiv_r a b;
  if Rltb (Rabs q) 1 && negb (Reqb a 0) then Ok (true, (ws, j + 1)) else Ok (false, (ws, j_mid)).

(** recursions/wigner3j.py:236-265 *)
Definition meet_r (ws : arr R) (j_minus j_plus : Z) : res (arr R) :=
  do '(ws, j_mid) <- for_range_brk j_minus ((j_minus + j_plus) / 2) middle_body_r (ws, (j_minus + j_plus) / 2);
  do Fj <- rdv ws F_minus j_mid;
  do Fp <- rdv ws F_minus (j_mid - 1);
  do '(j_mid, F_minus_j_mid) <-
    (if Reqb Fp 0 then Ok (j_mid, Fj)
     else do q <- fdiv_r Fj Fp;
          if Rltb (Rabs q) (rnd (/ 1000000)) then do x <- rdv ws F_minus (j_mid - 1); Ok (j_mid - 1, x) else Ok (j_mid, Fj));
  do ws <- for_down j_plus j_mid (fun j ws => do ws <- step_down_r ws j; rescale_down_r ws j) ws;
  do F_plus_j_mid <- rdv ws F_plus j_mid;
  if j_mid =? j_max then wrv_slice ws f j_min (j_max + 1) (fun k => vget ws F_minus k)
  else if j_mid =? j_min then wrv_slice ws f j_min (j_max + 1) (fun k => vget ws F_plus k)
  else if Reqb F_minus_j_mid 0 then Err ZeroDivisionError
  else
    do ws <- wrv_slice ws f j_min (j_mid + 1) (fun k => rnd (rnd (vget ws F_minus k * F_plus_j_mid) / F_minus_j_mid));
    wrv_slice ws f (j_mid + 1) (j_max + 1) (fun k => vget ws F_plus k).

(** recursions/wigner3j.py:267-275 *)
Definition up_only_r (ws : arr R) (j_minus j_plus : Z) : res (arr R) :=
  do ws <- for_range j_minus j_plus (fun j ws => do ws <- step_up_r ws j; rescale_up_r ws j) ws;
  wrv_slice ws f j_min (j_max + 1) (fun k => vget ws F_minus k).
(** recursions/wigner3j.py:277-286 *)
Definition down_only_r (ws : arr R) (j_plus : Z) : res (arr R) :=
  do ws <- for_down j_plus j_min (fun j ws => do ws <- step_down_r ws j; rescale_down_r ws j) ws;
  wrv_slice ws f j_min (j_max + 1) (fun k => vget ws F_plus k).

(** recursions/wigner3j.py:176-181, 290-292 *)
Definition finish_r (ws : arr R) : res (arr R) :=
  do ws <- normalize_r ws f j_min j_max;
  determine_signs ws f j_min j_max j2 j3 m2 m3.

(** recursions/wigner3j.py:95-292, on the workspace *)
Definition calculate_ws_r (ws : arr R) : res (arr R) :=
  let ws := mkarr (alen ws) (fun _ => 0%R) in
  if (Z.abs m2 >? j2) || (Z.abs m3 >? j3) then Ok ws
  else if j_max <? j_min then Ok ws
  else if j_max =? j_min then
    do q <- fdiv_r 1 (rnd (sqrt (rnd (rnd (2 * rnd (IZR j_min)) + 1))));
    do ws <- wrv ws f j_min q;
    do x <- rdv ws f j_min;
    let s := pm1 (j2 - j3 + m2 + m3) in
    if (Rltb x 0 && (s >? 0)) || (Rltb 0 x && (s <? 0)) then do x <- rdv ws f j_min; wrv ws f j_min (x * -1)%R
    else Ok ws
  else
    do '(ws, j_minus, undefined_min) <- forward_r ws;
    if j_minus =? j_max then
      do ws <- wrv_slice ws f j_min (j_max + 1) (fun k => vget ws F_minus k);
      finish_r ws
    else
      do '(ws, j_plus, undefined_max) <- reverse_r ws j_minus;
      if undefined_min && undefined_max then Err ValueError
      else
        do ws <- (if negb undefined_min && negb undefined_max then meet_r ws j_minus j_plus
                  else if negb undefined_min && undefined_max then up_only_r ws j_minus j_plus
                  else down_only_r ws j_plus);
        finish_r ws.
End Calculate.

(** [calculator.calculate(j2, j3, m2, m3)]: the new state of the object, whose slot [f] is the returned array *)
Definition calculate_r (w : widths) (c : calc) (j2 j3 m2 m3 : Z) : res calc :=
  do ws <- calculate_ws_r w (csize c) j2 j3 m2 m3 (workspace c); Ok (mkcalc (csize c) ws).
(** recursions/wigner3j.py:295-340 *)
Definition Wigner3j_r (w : widths) (garbage : Z -> R) (j_1 j_2 j_3 m_1 m_2 m_3 : Z) : res R :=
  if negb (m_1 + m_2 + m_3 =? 0) then Ok 0%R
  else if (Z.abs m_1 >? j_1) || (Z.abs m_2 >? j_2) || (Z.abs m_3 >? j_3) then Ok 0%R
  else
    let jm := Z.max (Z.max j_1 j_2) j_3 in
    let '(j_1, j_2, j_3, m_1, m_2, m_3) :=
      if j_1 =? jm then (j_1, j_2, j_3, m_1, m_2, m_3)
      else if j_2 =? jm then (j_2, j_3, j_1, m_2, m_3, m_1)
      else (j_3, j_1, j_2, m_3, m_1, m_2) in
    if j_1 >? j_2 + j_3 then Ok 0%R
    else
      do c <- calc_new j_2 j_3 garbage;
      do c <- calculate_r w c j_2 j_3 m_2 m_3;
      returned c j_1.

(** recursions/wigner3j.py:343-353 *)
Definition clebsch_gordan_r (w : widths) (garbage : Z -> R) (j_1 m_1 j_2 m_2 j_3 m_3 : Z) : res R :=
  do x <- Wigner3j_r w garbage j_1 j_2 j_3 m_1 m_2 (- m_3);
  if 2 * j_3 + 1 <? 0 then Err ValueError else
  Ok (rnd (rnd (IZR (pm1 (j_1 - j_2 + m_3)) * rnd (sqrt (rnd (IZR (2 * j_3 + 1))))) * x)).

End Rounded.

Lemma normalize_exact ws f a b : normalize_r (fun x => x) ws f a b = normalize ws f a b.
Proof.
  unfold normalize_r, normalize. f_equal. f_equal. extensionality j. extensionality norm. f_equal. extensionality x.
  now replace (x ^ 2)%R with (x * x)%R by ring.
Qed.
Lemma finish_exact size j2 j3 m2 m3 ws : finish_r (fun x => x) size j2 j3 m2 m3 ws = finish size j2 j3 m2 m3 ws.
Proof. unfold finish_r, finish. now rewrite normalize_exact. Qed.
Lemma bind_ext {A B} (a : res A) (f g : A -> res B) : (forall x, f x = g x) -> bind a f = bind a g.
Proof. intros H. destruct a; [apply H|reflexivity]. Qed.
Lemma calculate_ws_exact w size j2 j3 m2 m3 ws : calculate_ws_r (fun x => x) w size j2 j3 m2 m3 ws = calculate_ws w size j2 j3 m2 m3 ws.
Proof.
  unfold calculate_ws_r, calculate_ws.
  destruct (_ || _); [reflexivity|]. destruct (_ <? _); [reflexivity|]. destruct (_ =? _); [reflexivity|].
  apply bind_ext. intros ((ws1 & jm) & u). destruct (_ =? _).
  - apply bind_ext. intros. apply finish_exact.
  - apply bind_ext. intros ((ws2 & jp) & u'). destruct (_ && _); [reflexivity|]. apply bind_ext. intros. apply finish_exact.
Qed.
Lemma calculate_exact w c j2 j3 m2 m3 : calculate_r (fun x => x) w c j2 j3 m2 m3 = calculate w c j2 j3 m2 m3.
Proof. unfold calculate_r, calculate. now rewrite calculate_ws_exact. Qed.
Lemma Wigner3j_exact w g j1 j2 j3 m1 m2 m3 : Wigner3j_r (fun x => x) w g j1 j2 j3 m1 m2 m3 = Wigner3j w g j1 j2 j3 m1 m2 m3.
Proof.
  unfold Wigner3j_r, Wigner3j. destruct (negb _); [reflexivity|]. destruct (_ || _ || _); [reflexivity|]. cbv zeta.
  destruct (j1 =? _); [|destruct (j2 =? _)]; (destruct (_ >? _); [reflexivity|]); apply bind_ext; intros c; now rewrite calculate_exact.
Qed.

Lemma C70_exact :
  (forall w c j2 j3 m2 m3, calculate_r RN64 w c j2 j3 m2 m3 = calculate64 w c j2 j3 m2 m3
     /\ calculate_r (fun x => x) w c j2 j3 m2 m3 = calculate w c j2 j3 m2 m3) /\
  (forall w g j1 j2 j3 m1 m2 m3, Wigner3j_r RN64 w g j1 j2 j3 m1 m2 m3 = Wigner3j64 w g j1 j2 j3 m1 m2 m3
     /\ Wigner3j_r (fun x => x) w g j1 j2 j3 m1 m2 m3 = Wigner3j w g j1 j2 j3 m1 m2 m3) /\
  (forall w g j1 m1 j2 m2 j3 m3, clebsch_gordan_r RN64 w g j1 m1 j2 m2 j3 m3 = clebsch_gordan64 w g j1 m1 j2 m2 j3 m3
     /\ clebsch_gordan_r (fun x => x) w g j1 m1 j2 m2 j3 m3 = clebsch_gordan w g j1 m1 j2 m2 j3 m3).
Proof.
  split; [|split]; intros; (split; [reflexivity|]); [apply calculate_exact|apply Wigner3j_exact|].
  unfold clebsch_gordan_r, clebsch_gordan. rewrite Wigner3j_exact. reflexivity.
Qed.
