(** The middle region, the finish and the whole calculation. *)
From Coq Require Import ZArith Reals Lia Lra Bool.
From Verif Require Import Base BaseProofs Fact RSum ThreeJSpec ThreeJ ThreeJ2 ThreeJ3 ThreeJ4 Wigner3jModel Wigner3jWs Wigner3jFwd.
Local Open Scope Z_scope.

Section Main.
Variable w : widths.
Variables size a b m n : Z.
Hypothesis Hw : ok_widths a b m n w.
Hypotheses (Hm : Z.abs m <= a) (Hn : Z.abs n <= b) (Hsz : a + b < size).
Notation jmin := (jlo a b m n).
Notation jmax := (a + b).
Notation G ws blk i := (get size ws blk i).
Notation xx := (xx a b m n).
Notation yy := (yy a b m n).
Notation zz := (zz a b m n).
Notation gg := (gg a b m n).
Notation prop := (prop size a b m n).
Notation zero0 := (zero0 size).

Let Hjn : 0 <= jmin.
Proof. apply Hjn. Qed.
Let Hjle : jmin <= jmax.
Proof. apply Hjle; auto. Qed.

(** [prop] with its constant exposed *)
Definition propc (c : R) (ws : arr R) (blk lo hi : Z) : Prop :=
  c <> 0%R /\ forall k, lo <= k <= hi -> G ws blk k = (c * gg k)%R.

Lemma upstep ws j c : alen ws = 4 * size -> jmin < j < jmax -> propc c ws 2 jmin j ->
  exists ws1 ws2 c', step_up w size a b m n ws j = Ok ws1 /\ rescale_up size a b m n ws1 j = Ok ws2 /\
    alen ws2 = 4 * size /\ propc c' ws2 2 jmin (j + 1) /\
    (forall blk k, blk <> 2 -> 0 <= k < size -> G ws2 blk k = G ws blk k).
Proof.
  intros Hl Hj [Hc Hp].
  pose proof (xx_pos a b m n j ltac:(lia) ltac:(lia)) as Xp. assert (X0 : xx j <> 0%R) by lra.
  set (ws1 := put size ws 2 (j + 1) (c * gg (j + 1))%R).
  assert (E1 : step_up w size a b m n ws j = Ok ws1).
  { unfold step_up. rw. unfold ws1. do 2 f_equal. rewrite !Hp by lia.
    pose proof (gg_rec a b m n Hm Hn j ltac:(lia)) as Rec.
    replace (gg (j + 1)) with (- (yy j * gg j + zz j * gg (j - 1)%Z) / xx j)%R. field; auto.
    apply (Rmult_eq_reg_l (xx j)); auto.
    replace (xx j * (- (yy j * gg j + zz j * gg (j - 1)%Z) / xx j))%R with (- (yy j * gg j + zz j * gg (j - 1)%Z))%R by (field; auto). lra. }
  assert (P1 : propc c ws1 2 jmin (j + 1)).
  { split; auto. intros k Hk. unfold ws1. destruct (Z.eq_dec k (j + 1)) as [->|Ne].
    - now rewrite get_put_same.
    - rewrite get_put_i by auto. apply Hp. lia. }
  assert (F1 : forall blk k, blk <> 2 -> 0 <= k < size -> G ws1 blk k = G ws blk k).
  { intros. unfold ws1. rewrite get_put_b by lia. auto. }
  assert (L1 : alen ws1 = 4 * size) by exact Hl. clearbody ws1.
  exists ws1. unfold rescale_up. cbv zeta. change (Z.max (Z.abs (a - b)) (Z.abs (m + n))) with jmin. rw.
  destruct (Rltb_spec 1 (Rabs (G ws1 2 (j + 1)))) as [_|_].
  - destruct (wrv_slice_ok size ltac:(lia) ws1 2 jmin (j + 1 + 1) (fun k => vget ws1 (slot size (4 * size) 2) k / 1000)%R)
      as (ws2 & E2 & L2 & S2 & T2); try lia; auto.
    exists ws2, (c / 1000)%R. split; auto. split; auto. split; auto. split.
    + split. { apply Rmult_integral_contrapositive_currified; [auto|lra]. }
      intros k Hk. rewrite S2 by lia. destruct (Z.leb_spec jmin k); [|lia]. destruct (Z.ltb_spec k (j + 1 + 1)); [|lia].
      cbn [andb]. rewrite vget_slot by lia. destruct P1 as [_ P1]. rewrite P1 by lia. field.
    + intros. rewrite T2 by auto. auto.
  - exists ws1, c. auto.
Qed.

Lemma downstep ws j c : alen ws = 4 * size -> jmin < j < jmax -> propc c ws 3 j jmax ->
  exists ws1 ws2 c', step_down w size a b m n ws j = Ok ws1 /\ rescale_down size a b ws1 j = Ok ws2 /\
    alen ws2 = 4 * size /\ propc c' ws2 3 (j - 1) jmax /\
    (forall blk k, blk <> 3 -> 0 <= k < size -> G ws2 blk k = G ws blk k).
Proof.
  intros Hl Hj [Hc Hp].
  pose proof (zz_pos a b m n j ltac:(lia)) as Xp. assert (X0 : zz j <> 0%R) by lra.
  set (ws1 := put size ws 3 (j - 1) (c * gg (j - 1)%Z)%R).
  assert (E1 : step_down w size a b m n ws j = Ok ws1).
  { unfold step_down. rw. unfold ws1. do 2 f_equal. rewrite !Hp by lia.
    pose proof (gg_rec a b m n Hm Hn j ltac:(lia)) as Rec.
    replace (gg (j - 1)%Z) with (- (xx j * gg (j + 1)%Z + yy j * gg j) / zz j)%R. field; auto.
    apply (Rmult_eq_reg_l (zz j)); auto.
    replace (zz j * (- (xx j * gg (j + 1)%Z + yy j * gg j) / zz j))%R with (- (xx j * gg (j + 1)%Z + yy j * gg j))%R by (field; auto). lra. }
  assert (P1 : propc c ws1 3 (j - 1) jmax).
  { split; auto. intros k Hk. unfold ws1. destruct (Z.eq_dec k (j - 1)) as [->|Ne].
    - now rewrite get_put_same.
    - rewrite get_put_i by auto. apply Hp. lia. }
  assert (F1 : forall blk k, blk <> 3 -> 0 <= k < size -> G ws1 blk k = G ws blk k).
  { intros. unfold ws1. rewrite get_put_b by lia. auto. }
  assert (L1 : alen ws1 = 4 * size) by exact Hl. clearbody ws1.
  exists ws1. unfold rescale_down. cbv zeta. rw.
  destruct (Rltb_spec 1 (Rabs (G ws1 3 (j - 1)))) as [_|_].
  - destruct (wrv_slice_ok size ltac:(lia) ws1 3 (j - 1) (jmax + 1) (fun k => vget ws1 (slot size (4 * size) 3) k / 1000)%R)
      as (ws2 & E2 & L2 & S2 & T2); try lia; auto.
    exists ws2, (c / 1000)%R. split; auto. split; auto. split; auto. split.
    + split. { apply Rmult_integral_contrapositive_currified; [auto|lra]. }
      intros k Hk. rewrite S2 by lia. destruct (Z.leb_spec (j - 1) k); [|lia]. destruct (Z.ltb_spec k (jmax + 1)); [|lia].
      cbn [andb]. rewrite vget_slot by lia. destruct P1 as [_ P1]. rewrite P1 by lia. field.
    + intros. rewrite T2 by auto. auto.
  - exists ws1, c. auto.
Qed.

Lemma downloop ws jp d : alen ws = 4 * size -> jmin <= d -> d <= jp < jmax -> prop ws 3 jp jmax ->
  exists ws', for_down jp d (fun j ws => do ws <- step_down w size a b m n ws j; rescale_down size a b ws j) ws = Ok ws' /\
    alen ws' = 4 * size /\ prop ws' 3 d jmax /\ (forall blk k, blk <> 3 -> 0 <= k < size -> G ws' blk k = G ws blk k).
Proof.
  intros Hl Hd Hjp [c Hp].
  destruct (for_down_inv (fun j ws' => alen ws' = 4 * size /\ (exists c, propc c ws' 3 j jmax) /\
    (forall blk k, blk <> 3 -> 0 <= k < size -> G ws' blk k = G ws blk k)) jp d
    (fun j ws => do ws <- step_down w size a b m n ws j; rescale_down size a b ws j) ws) as (ws' & E & L & (c' & P) & F).
  - lia.
  - split; auto. split; auto. exists c. auto.
  - intros j t Hj (L & (c' & P) & F). destruct (downstep t j c' L ltac:(lia) P) as (t1 & t2 & c2 & E1 & E2 & L2 & P2 & F2).
    exists t2. rewrite E1. cbn [bind]. split; auto. split; auto. split; [exists c2; auto|]. intros. rewrite F2 by auto. auto.
  - exists ws'. split; auto. split; auto. split; auto. exists c'. auto.
Qed.

(** a zero of the symbols that stops the middle loop *)
Definition rising (jm k : Z) : Prop := forall i, jm <= i <= k -> gg (i + 1) = 0%R \/ (Rabs (gg (i - 1)%Z) <= Rabs (gg (i + 1)%Z))%R.
Definition bad (jm k : Z) : Prop := gg k = 0%R /\ (xx k <= zz k)%R /\ jm <= k /\ rising jm k.

Section Middle.
Variables (ws0 : arr R) (jm d0 : Z).

Definition minv (j : Z) (t : arr R * Z) : Prop :=
  let '(ws, d) := t in
  d = d0 /\ alen ws = 4 * size /\ (exists c, propc c ws 2 jmin j) /\
  (forall blk k, blk <> 2 -> 0 <= k < size -> G ws blk k = G ws0 blk k) /\ (gg (j - 1)%Z <> 0%R \/ bad jm (j - 1)) /\ rising jm (j - 1).
Definition mbrk (t : arr R * Z) : Prop :=
  let '(ws, d) := t in
  jm <= d <= d0 /\ alen ws = 4 * size /\ (exists c, propc c ws 2 jmin d) /\
  (forall blk k, blk <> 2 -> 0 <= k < size -> G ws blk k = G ws0 blk k).
Definition merr (e : err) : Prop := e = ZeroDivisionError /\ exists k, bad jm k /\ k + 1 < d0.

Lemma middle_body_ok j t : jmin < jm -> jm <= j < d0 -> d0 <= jmax -> minv j t ->
  (exists t', middle_body w size a b m n j t = Ok (false, t') /\ minv (j + 1) t') \/
  (exists t', middle_body w size a b m n j t = Ok (true, t') /\ mbrk t') \/
  (exists e, middle_body w size a b m n j t = Err e /\ merr e).
Proof.
  destruct t as [ws d]. intros Hjm Hj Hd0 (E & Hl & (c & Hp) & Hf & Hb & Hr). subst d.
  destruct (upstep ws j c Hl ltac:(lia) Hp) as (ws1 & ws2 & c' & E1 & E2 & L2 & [Hc' P2] & F2).
  unfold middle_body. cbv zeta. rewrite E1. cbn [bind]. rewrite E2. cbn [bind]. rw.
  rewrite !P2 by lia.
  assert (F2' : forall blk k, blk <> 2 -> 0 <= k < size -> G ws2 blk k = G ws0 blk k) by (intros; rewrite F2 by auto; auto).
  destruct (Req_EM_T (gg (j - 1)%Z) 0) as [Gz|Gn].
  { right. right. exists ZeroDivisionError. split.
    - unfold fdiv. rewrite Gz, Rmult_0_r. destruct (Reqb_spec 0 0); [|lra]. reflexivity.
    - split; auto. exists (j - 1). split; [|lia]. destruct Hb as [Hb|Hb]; [tauto|auto]. }
  assert (Rise : gg (j + 1) = 0%R \/ (Rabs (gg (j - 1)%Z) <= Rabs (gg (j + 1)%Z))%R -> rising jm (j + 1 - 1)).
  { intros Q i Hi. destruct (Z.eq_dec i j) as [->|Ne]; auto. apply Hr. lia. }
  rewrite fdiv_ok by (apply Rmult_integral_contrapositive_currified; auto). cbn [bind].
  replace (c' * gg (j + 1) / (c' * gg (j - 1)%Z))%R with (gg (j + 1) / gg (j - 1)%Z)%R by (field; auto).
  destruct (Rltb_spec (Rabs (gg (j + 1) / gg (j - 1)%Z)) 1) as [L|L]; cbn [andb].
  - destruct (Reqb_spec (c' * gg (j + 1)) 0) as [Q|Q]; cbn [negb].
    + left. eexists. split; [reflexivity|]. split; auto. split; auto. split; [exists c'; split; auto|]. split; auto.
      split; [left|apply Rise; left; apply Rmult_integral in Q; tauto].
      replace (j + 1 - 1) with j by lia. intros Z0. apply (gg_consec a b m n Hm Hn j); try lia; auto.
      apply Rmult_integral in Q. tauto.
    + right. left. eexists. split; [reflexivity|]. split; [lia|]. split; auto. split; auto. exists c'; split; auto.
  - left. eexists. split; [reflexivity|]. split; auto. split; auto. split; [exists c'; split; auto|]. split; auto.
    assert (Rj : rising jm (j + 1 - 1)).
    { apply Rise. right. assert (RD : (Rabs (gg (j + 1) / gg (j - 1)%Z) = Rabs (gg (j + 1)) / Rabs (gg (j - 1)%Z))%R)
        by (unfold Rdiv; now rewrite Rabs_mult, Rabs_inv).
      rewrite RD in L. apply Rabs_pos_lt in Gn.
      destruct (Rle_lt_dec (Rabs (gg (j - 1)%Z)) (Rabs (gg (j + 1)))); auto. exfalso. apply L.
      apply (Rmult_lt_reg_r (Rabs (gg (j - 1)%Z))); auto.
      replace (Rabs (gg (j + 1)) / Rabs (gg (j - 1)%Z) * Rabs (gg (j - 1)%Z))%R with (Rabs (gg (j + 1))) by (field; lra). lra. }
    split; auto. replace (j + 1 - 1) with j in * by lia.
    destruct (Req_EM_T (gg j) 0) as [Z0|]; auto. right. split; auto. split; [|split; [lia|auto]].
    pose proof (gg_rec a b m n Hm Hn j ltac:(lia)) as Rec. rewrite Z0 in Rec.
    pose proof (xx_pos a b m n j ltac:(lia) ltac:(lia)) as Xp. pose proof (zz_pos a b m n j ltac:(lia)) as Zp.
    replace (gg (j + 1) / gg (j - 1)%Z)%R with (- (zz j / xx j))%R in L.
    + rewrite Rabs_Ropp, Rabs_right in L by (apply Rle_ge, Rlt_le, Rdiv_lt_0_compat; auto).
      destruct (Rle_lt_dec (xx j) (zz j)); auto. exfalso. apply L.
      apply (Rmult_lt_reg_r (xx j)); auto. replace (zz j / xx j * xx j)%R with (zz j) by (field; lra). lra.
    + apply (Rmult_eq_reg_r (xx j * gg (j - 1)%Z)); [|apply Rmult_integral_contrapositive_currified; auto; lra].
      replace (gg (j + 1) / gg (j - 1)%Z * (xx j * gg (j - 1)%Z))%R with (xx j * gg (j + 1))%R by (field; auto).
      replace (- (zz j / xx j) * (xx j * gg (j - 1)%Z))%R with (- (zz j * gg (j - 1)%Z))%R by (field; lra). lra.
Qed.
End Middle.

Definition fdone (ws : arr R) : Prop :=
  alen ws = 4 * size /\ prop ws 0 jmin jmax /\ (forall k, 0 <= k < size -> k < jmin \/ jmax < k -> G ws 0 k = 0%R).

Lemma fcopy ws blk : blk = 2 \/ blk = 3 -> alen ws = 4 * size -> zero0 ws -> prop ws blk jmin jmax ->
  exists ws', wrv_slice ws (slot size (4 * size) 0) jmin (jmax + 1) (fun k => vget ws (slot size (4 * size) blk) k) = Ok ws' /\ fdone ws'.
Proof.
  intros Hb Hl H0 (c & Hc & Hp).
  destruct (wrv_slice_ok size ltac:(lia) ws 0 jmin (jmax + 1) (fun k => vget ws (slot size (4 * size) blk) k)) as (ws' & E & L & S & _); try lia; auto.
  exists ws'. split; auto. split; auto. split.
  - exists c. split; auto. intros k Hk. rewrite S by lia.
    destruct (Z.leb_spec jmin k); [|lia]. destruct (Z.ltb_spec k (jmax + 1)); [|lia]. cbn [andb]. rewrite vget_slot by lia. auto.
  - intros k Hk Hr. rewrite S by lia.
    destruct (Z.leb_spec jmin k); destruct (Z.ltb_spec k (jmax + 1)); cbn [andb]; try lia; auto.
Qed.

Lemma meet_ok ws jm jp : alen ws = 4 * size -> zero0 ws ->
  (forall k, 0 <= k < size -> k < jmin \/ jm < k -> G ws 2 k = 0%R) ->
  jmin < jm < jmax -> prop ws 2 jmin jm -> gg (jm - 1)%Z <> 0%R ->
  prop ws 3 jp jmax -> (jm <= jp <= jmax - 1 \/ (jp = jmin /\ jm = jmin + 1)) ->
  (exists ws', meet w size a b m n ws jm jp = Ok ws' /\ fdone ws') \/
  (meet w size a b m n ws jm jp = Err ZeroDivisionError /\ jp <= jmax - 1 /\ exists k, bad jm k /\ k + 1 < (jm + jp) / 2).
Proof.
  intros Hl H0 H2 Hjm (c2 & Hp2) Gn Hp3 Hjp. unfold meet. cbv zeta.
  change (Z.max (Z.abs (a - b)) (Z.abs (m + n))) with jmin.
  set (d0 := (jm + jp) / 2).
  assert (Loop : (exists ws1 d, for_range_brk jm d0 (middle_body w size a b m n) (ws, d0) = Ok (ws1, d) /\
      alen ws1 = 4 * size /\ (forall blk k, blk <> 2 -> 0 <= k < size -> G ws1 blk k = G ws blk k) /\
      ((jm <= d /\ d <= jp < jmax /\ exists c, propc c ws1 2 jmin d) \/ (d = jmin /\ jp = jmin /\ jm = jmin + 1 /\ ws1 = ws))) \/
    (for_range_brk jm d0 (middle_body w size a b m n) (ws, d0) = Err ZeroDivisionError /\ jp <= jmax - 1 /\ exists k, bad jm k /\ k + 1 < d0)).
  { destruct Hjp as [Hjp|[-> ->]].
    - assert (Hd0 : jm <= d0 <= jp) by (unfold d0; split; [apply Z.div_le_lower_bound|apply Z.div_le_upper_bound]; lia).
      destruct (for_range_brk_inv (minv ws jm d0) (mbrk ws jm d0) (merr jm d0) jm d0 (middle_body w size a b m n) (ws, d0))
        as [([ws1 d] & E & Post)|(e & E & -> & K)]; try lia.
      + split; auto. split; auto. split; [exists c2; auto|]. split; auto. split; auto. intros i Hi. lia.
      + intros i t Hi It. apply middle_body_ok; auto; lia.
      + left. exists ws1, d. split; auto. destruct Post as [(P1 & P2 & P3 & P4 & _)|(P1 & P2 & P3 & P4)].
        * subst d. split; auto. split; auto. left. split; [lia|]. split; [lia|]. auto.
        * split; auto. split; auto. left. split; [lia|]. split; [lia|]. auto.
      + right. split; auto. split; [lia|auto].
    - assert (Hd0 : d0 = jmin).
      { unfold d0. replace (jmin + 1 + jmin) with (1 + jmin * 2) by lia. rewrite Z.div_add by lia. reflexivity. }
      left. exists ws, d0. rewrite for_range_brk_empty by lia. split; auto. split; auto. split; auto. }
  destruct Loop as [(ws1 & d & E & L1 & F1 & Hd)|(E & Hlim & K)].
  2:{ right. rewrite E. cbn [bind]. auto. }
  left. rewrite E. cbn [bind]. clear E. rewrite rdv_ok by (try lia; auto). cbn [bind].
  assert (H01 : zero0 ws1) by (intros k Hk; rewrite F1 by lia; auto).
  assert (Hp31 : prop ws1 3 jp jmax).
  { destruct Hp3 as (c3 & Hc3 & Hp3). exists c3. split; auto. intros k Hk. rewrite F1 by lia. auto. }
  (* the choice of the matching point *)
  assert (Choice : exists Fp d' x, rdv ws1 (slot size (4 * size) 2) (d - 1) = Ok Fp /\
     (if Reqb Fp 0 then Ok (d, G ws1 2 d)
      else do q <- fdiv (G ws1 2 d) Fp;
           if Rltb (Rabs q) (/ 1000000) then do x <- rdv ws1 (slot size (4 * size) 2) (d - 1); Ok (d - 1, x) else Ok (d, G ws1 2 d))
     = Ok (d', x) /\ jmin <= d' <= jp /\ jp < jmax /\ (d' = jmin \/ (x <> 0%R /\ exists c, propc c ws1 2 jmin d' /\ x = (c * gg d')%R))).
  { destruct Hd as [(D1 & D2 & c & Hc & Hp)|(-> & -> & -> & ->)].
    - exists (G ws1 2 (d - 1)). rewrite rdv_ok by (try lia; auto).
      destruct (Reqb_spec (G ws1 2 (d - 1)) 0) as [Q|Q].
      + exists d, (G ws1 2 d). split; auto. split; auto. split; [lia|]. split; [lia|]. right.
        rewrite Hp in Q by lia. apply Rmult_integral in Q. destruct Q as [Q|Q]; [tauto|].
        rewrite Hp by lia. split.
        * apply Rmult_integral_contrapositive_currified; auto. intros Q'.
          apply (gg_consec a b m n Hm Hn (d - 1)); try lia; auto. now replace (d - 1 + 1) with d by lia.
        * exists c. split; auto. split; auto.
      + rewrite fdiv_ok by auto. cbn [bind].
        destruct (Rltb_spec (Rabs (G ws1 2 d / G ws1 2 (d - 1))) (/ 1000000)) as [L|L].
        * exists (d - 1), (G ws1 2 (d - 1)). split; auto. split; auto. split; [lia|]. split; [lia|]. right. split; auto.
          exists c. split; [split; auto; intros; apply Hp; lia|]. apply Hp. lia.
        * exists d, (G ws1 2 d). split; auto. split; auto. split; [lia|]. split; [lia|]. right. split.
          -- intros Q'. apply L. rewrite Q'. unfold Rdiv. rewrite Rmult_0_l, Rabs_R0. lra.
          -- exists c. split; [split; auto|]. apply Hp. lia.
    - exists 0%R. assert (Rd : rdv ws (slot size (4 * size) 2) (jmin - 1) = Ok 0%R).
      { destruct (Z.eq_dec jmin 0) as [J0|J0].
        - rewrite J0. change (0 - 1) with (-1). rewrite rdv_neg1 by (try lia; auto). f_equal. apply H2; lia.
        - rewrite rdv_ok by (try lia; auto). f_equal. apply H2; lia. }
      rewrite Rd. destruct (Reqb_spec 0 0) as [_|]; [|tauto].
      exists jmin, (G ws 2 jmin). split; auto. split; auto. split; [lia|]. split; [lia|]. auto. }
  destruct Choice as (Fp & d' & x & E1 & E2 & Hd' & Hjp' & Hx). rewrite E1 in E2 |- *. cbn [bind] in E2 |- *. rewrite E2. cbn [bind]. clear E1 E2 Hd.
  destruct (downloop ws1 jp d' L1 ltac:(lia) ltac:(lia) Hp31) as (ws2 & E & L2 & Hp32 & F2).
  rewrite E. cbn [bind]. clear E. rewrite rdv_ok by (try lia; auto). cbn [bind].
  assert (H02 : zero0 ws2) by (intros k Hk; rewrite F2 by lia; auto).
  destruct (Z.eqb_spec d' jmax) as [|_]; [lia|].
  destruct (Z.eqb_spec d' jmin) as [->|Ne].
  { apply fcopy; auto. }
  destruct Hx as [Hx|(Hx & c & [Hc Hpc] & Ex)]; [tauto|].
  destruct (Reqb_spec x 0) as [|_]; [tauto|].
  destruct Hp32 as (c3 & Hc3 & Hp3').
  assert (Gd : gg d' <> 0%R) by (intros Q; apply Hx; rewrite Ex, Q; ring).
  destruct (wrv_slice_ok size ltac:(lia) ws2 0 jmin (d' + 1)
    (fun k => vget ws2 (slot size (4 * size) 2) k * G ws2 3 d' / x)%R) as (ws3 & E & L3 & S3 & F3); try lia; auto.
  rewrite E. cbn [bind]. clear E.
  destruct (wrv_slice_ok size ltac:(lia) ws3 0 (d' + 1) (jmax + 1)
    (fun k => vget ws3 (slot size (4 * size) 3) k)%R) as (ws4 & E & L4 & S4 & F4); try lia; auto.
  exists ws4. split; auto. split; auto. split.
  - exists c3. split; auto. intros k Hk. rewrite S4 by lia.
    destruct (Z.leb_spec (d' + 1) k); destruct (Z.ltb_spec k (jmax + 1)); cbn [andb]; try lia.
    + rewrite vget_slot by lia. rewrite F3 by lia. apply Hp3'. lia.
    + rewrite S3 by lia. destruct (Z.leb_spec jmin k); destruct (Z.ltb_spec k (d' + 1)); cbn [andb]; try lia.
      rewrite vget_slot by lia. rewrite F2 by lia. rewrite Hpc by lia. rewrite Hp3' by lia. rewrite Ex. field. auto.
  - intros k Hk Hr. rewrite S4 by lia.
    destruct (Z.leb_spec (d' + 1) k); destruct (Z.ltb_spec k (jmax + 1)); cbn [andb]; try lia.
    + rewrite S3 by lia. destruct (Z.leb_spec jmin k); destruct (Z.ltb_spec k (d' + 1)); cbn [andb]; try lia. auto.
    + rewrite S3 by lia. destruct (Z.leb_spec jmin k); destruct (Z.ltb_spec k (d' + 1)); cbn [andb]; try lia. auto.
Qed.

(** ** Normalization and sign *)
Lemma pm1_sgn k : IZR (pm1 k) = sgn k.
Proof. unfold pm1, sgn. destruct (Z.even k); reflexivity. Qed.

Definition good (ws : arr R) : Prop := forall k, 0 <= k < size -> G ws 0 k = gg k.

Lemma finish_ok ws : fdone ws -> exists ws', finish size a b m n ws = Ok ws' /\ alen ws' = 4 * size /\ good ws'.
Proof.
  intros (Hl & (c & Hc & Hp) & Ho). unfold finish. cbv zeta.
  change (Z.max (Z.abs (a - b)) (Z.abs (m + n))) with jmin.
  unfold normalize.
  destruct (for_range_inv (fun j x => x = (c * c * rsum jmin (j - 1) (fun i => IZR (2 * i + 1) * (gg i * gg i)))%R) jmin (jmax + 1)
    (fun j norm => do x <- rdv ws (slot size (4 * size) 0) j; Ok (norm + IZR (2 * j + 1) * x ^ 2)%R) 0%R) as (nrm & E & Q); try lia.
  { rewrite rsum_empty by lia. ring. }
  { intros j x Hj ->. rewrite rdv_ok by (try lia; auto). cbn [bind]. eexists. split; [reflexivity|].
    replace (j + 1 - 1) with j by lia. rewrite (rsum_last jmin j) by lia. rewrite Hp by lia. ring. }
  rewrite E. cbn [bind]. clear E. replace (jmax + 1 - 1) with jmax in Q by lia.
  pose proof (cols_norm a b m n Hm Hn) as CN. fold (ThreeJ4.gg a b m n) in CN.
  assert (Q' : nrm = (c * c)%R) by (rewrite Q; unfold ThreeJ4.gg; rewrite CN; ring). clear Q CN. subst nrm.
  assert (Ed : sqrt (c * c) = Rabs c) by (apply sqrt_Rsqr_abs). rewrite Ed.
  assert (Hd : Rabs c <> 0%R) by (now apply Rabs_no_R0).
  destruct (Reqb_spec (Rabs c) 0) as [|_]; [tauto|].
  destruct (wrv_slice_ok size ltac:(lia) ws 0 jmin (jmax + 1) (fun k => vget ws (slot size (4 * size) 0) k / Rabs c)%R)
    as (ws1 & E & L1 & S1 & F1); try lia; auto.
  rewrite E. cbn [bind]. clear E.
  set (s := (c / Rabs c)%R).
  assert (Hs : s = 1%R \/ s = (-1)%R).
  { unfold s. destruct (Rle_lt_dec 0 c) as [Pc|Pc].
    - left. rewrite Rabs_right by lra. field; auto.
    - right. rewrite Rabs_left by auto. field; auto. }
  assert (P1 : forall k, jmin <= k <= jmax -> G ws1 0 k = (s * gg k)%R).
  { intros k Hk. rewrite S1 by lia. destruct (Z.leb_spec jmin k); [|lia]. destruct (Z.ltb_spec k (jmax + 1)); [|lia].
    cbn [andb]. rewrite vget_slot by lia. rewrite Hp by lia. unfold s. field; auto. }
  assert (O1 : forall k, 0 <= k < size -> k < jmin \/ jmax < k -> G ws1 0 k = 0%R).
  { intros k Hk Hr. rewrite S1 by lia. destruct (Z.leb_spec jmin k); destruct (Z.ltb_spec k (jmax + 1)); cbn [andb]; try lia; auto. }
  assert (Oz : forall k, k < jmin \/ jmax < k -> gg k = 0%R) by (intros; apply GG_out; auto).
  unfold determine_signs. rewrite rdv_ok by (try lia; auto). cbn [bind]. rewrite P1 by lia.
  pose proof (GG_top_sign a b m n Hm Hn) as Sg. fold (gg jmax) in Sg. rewrite <- pm1_sgn in Sg.
  assert (Hpm : pm1 (a - b + m + n) = 1 \/ pm1 (a - b + m + n) = -1) by (unfold pm1; destruct (Z.even _); auto).
  assert (Fin : forall r : R, r = 1%R \/ r = (-1)%R -> (0 < r * gg jmax * (s * gg jmax * r))%R -> s = 1%R).
  { intros r Hr Hpos. destruct Hs as [->|Hs]; auto. exfalso. rewrite Hs in Hpos.
    assert (0 <= gg jmax * gg jmax)%R by apply Rle_0_sqr. destruct Hr as [-> | ->]; lra. }
  assert (Same : s = 1%R -> exists ws', Ok ws1 = Ok ws' /\ alen ws' = 4 * size /\ good ws').
  { intros Es. exists ws1. split; auto. split; auto. intros k Hk.
    destruct (Z_lt_le_dec k jmin); [rewrite O1, Oz by lia; auto|]. destruct (Z_lt_le_dec jmax k); [rewrite O1, Oz by lia; auto|].
    rewrite P1 by lia. rewrite Es. ring. }
  assert (Flip : s = (-1)%R -> exists ws', wrv_slice ws1 (slot size (4 * size) 0) jmin (jmax + 1) (fun k => vget ws1 (slot size (4 * size) 0) k * -1)%R = Ok ws'
     /\ alen ws' = 4 * size /\ good ws').
  { intros Es. destruct (wrv_slice_ok size ltac:(lia) ws1 0 jmin (jmax + 1) (fun k => vget ws1 (slot size (4 * size) 0) k * -1)%R)
      as (ws2 & E2 & L2 & S2 & F2); try lia; auto.
    exists ws2. split; auto. split; auto. intros k Hk. rewrite S2 by lia.
    destruct (Z.leb_spec jmin k); destruct (Z.ltb_spec k (jmax + 1)); cbn [andb].
    - rewrite vget_slot by lia. rewrite P1 by lia. rewrite Es. ring.
    - rewrite O1, Oz by lia; auto.
    - rewrite O1, Oz by lia; auto.
    - lia. }
  clear Fin. destruct Hpm as [Hpm|Hpm]; rewrite Hpm in Sg |- *;
    destruct (Rltb_spec (s * gg jmax) 0) as [L1'|L1']; destruct (Rltb_spec 0 (s * gg jmax)) as [L2'|L2']; try lra;
    cbn [Z.gtb Z.ltb Z.compare andb orb]; first [apply Same | apply Flip];
    (destruct Hs as [Es|Es]; auto; exfalso; rewrite Es in *; lra).
Qed.

(** ** The whole calculation *)

Lemma gg_threej k : gg k = threej k a b (- m - n) m n.
Proof. unfold ThreeJ4.gg, GG. symmetry. apply threej_cyc. Qed.

Lemma calculate_main ws : alen ws = 4 * size ->
  (exists ws', calculate_ws w size a b m n ws = Ok ws' /\ alen ws' = 4 * size /\ good ws') \/
  (calculate_ws w size a b m n ws = Err ZeroDivisionError /\ late_zero a b m n).
Proof.
  intros Hl. unfold calculate_ws. cbv zeta.
  change (Z.max (Z.abs (a - b)) (Z.abs (m + n))) with jmin.
  set (ws0 := mkarr (alen ws) (fun _ => 0%R)).
  assert (L0 : alen ws0 = 4 * size) by exact Hl.
  assert (Z0 : forall blk k, 0 <= blk <= 3 -> 0 <= k < size -> G ws0 blk k = 0%R) by reflexivity.
  clearbody ws0.
  destruct (Z.gtb_spec (Z.abs m) a); [lia|]. destruct (Z.gtb_spec (Z.abs n) b); [lia|]. cbn [orb].
  destruct (Z.ltb_spec jmax jmin); [lia|].
  destruct (Z.eqb_spec jmax jmin) as [EJ|EJ].
  { (* a single symbol *)
    left. pose proof (cols_norm a b m n Hm Hn) as CN. rewrite EJ, rsum_one in CN.
    pose proof (GG_top_sign a b m n Hm Hn) as Sg. fold (gg jmax) in Sg. rewrite <- pm1_sgn in Sg. rewrite EJ in Sg.
    change (GG a b m n jmin) with (gg jmin) in *.
    assert (Pp : (0 < 2 * IZR jmin + 1)%R) by (apply IZR_le in Hjn; lra).
    assert (Sp : (0 < sqrt (2 * IZR jmin + 1))%R) by (apply sqrt_lt_R0; auto).
    rewrite fdiv_ok by lra. cbn [bind]. rw. rewrite get_put_same.
    set (q := (1 / sqrt (2 * IZR jmin + 1))%R).
    assert (Hq : (0 < q)%R) by (unfold q; apply Rdiv_lt_0_compat; lra).
    assert (Hqq : (q * q = gg jmin * gg jmin)%R).
    { rewrite plus_IZR, mult_IZR in CN. apply (Rmult_eq_reg_l (2 * IZR jmin + 1)); [|lra]. rewrite CN.
      unfold q. rewrite <- (sqrt_sqrt (2 * IZR jmin + 1)) at 1 by lra. field. lra. }
    assert (Oz : forall k, k <> jmin -> gg k = 0%R) by (intros; apply GG_out; lia).
    assert (Hpm : pm1 (a - b + m + n) = 1 \/ pm1 (a - b + m + n) = -1) by (unfold pm1; destruct (Z.even _); auto).
    destruct (Rltb_spec q 0) as [|_]; [lra|]. destruct (Rltb_spec 0 q) as [_|]; [|lra]. cbn [andb orb].
    assert (Hg : forall u v : R, (0 < u -> 0 < v -> u * u = v * v -> u = v)%R).
    { intros u v Hu Hv E. apply Rsqr_inj; try lra. exact E. }
    destruct Hpm as [Hpm|Hpm]; rewrite Hpm in Sg |- *; cbn [Z.gtb Z.ltb Z.compare].
    - eexists. split; [reflexivity|]. split; [exact L0|]. intros k Hk.
      destruct (Z.eq_dec k jmin) as [->|Ne].
      + rewrite get_put_same. apply Hg; lra.
      + rewrite get_put_i by auto. rewrite Oz by auto. apply Z0; lia.
    - eexists. split; [reflexivity|]. split; [exact L0|]. intros k Hk.
      destruct (Z.eq_dec k jmin) as [->|Ne].
      + rewrite get_put_same.
        assert (q = (- gg jmin)%R) by (apply Hg; lra). lra.
      + rewrite !get_put_i by auto. rewrite Oz by auto. apply Z0; lia. }
  assert (Hlt : jmin < jmax) by lia.
  destruct (forward_ok w size a b m n Hw Hm Hn Hsz Hlt ws0 L0 Z0) as (ws1 & jm & u & E & L1 & H01 & H21 & Hu).
  rewrite E. cbn [bind]. clear E.
  assert (Fin : forall v, (exists ws', v = Ok ws' /\ fdone ws') ->
    exists ws', (do ws <- v; finish size a b m n ws) = Ok ws' /\ alen ws' = 4 * size /\ good ws').
  { intros v (ws' & -> & Hd). cbn [bind]. now apply finish_ok. }
  destruct (Z.eqb_spec jm jmax) as [EJm|NJm].
  { left. apply Fin. destruct Hu as [(-> & J0 & ->)|(-> & Hr & Hp & _)]; [lia|]. subst jm. apply fcopy; auto. }
  assert (Hok : jm_ok a b m n jm).
  { destruct Hu as [(-> & J0 & ->)|(-> & Hr & Hp & _ & [K|(K1 & K2 & K3 & K4)])].
    - split; [lia|]. auto.
    - split; [lia|]. auto.
    - split; [lia|]. right. right. destruct K4 as [K4|[K4 K5]]; [lia|]. auto. }
  destruct (reverse_ok w size a b m n Hw Hm Hn Hsz ws1 jm Hlt L1 Hok) as (ws2 & jp & E & L2 & F0 & F2 & Hp3 & Hjp).
  rewrite E. cbn [bind]. clear E.
  assert (H02 : zero0 ws2) by (intros k Hk; rewrite F0 by auto; auto).
  destruct Hu as [(-> & J0 & J1)|(-> & Hr & Hp & Gn & HK)]; cbn [negb andb].
  { left. apply Fin. unfold down_only. cbv zeta. change (Z.max (Z.abs (a - b)) (Z.abs (m + n))) with jmin.
    destruct (downloop ws2 jp jmin L2 ltac:(lia) ltac:(lia) Hp3) as (ws3 & E & L3 & Hp33 & F3).
    rewrite E. cbn [bind]. apply fcopy; auto. intros k Hk. rewrite F3 by lia. auto. }
  destruct (meet_ok ws2 jm jp) as [K|(E & Hlim & k & (B1 & B2 & B3 & B0) & B4)]; auto; try lia.
  { intros k Hk Hr'. rewrite F2 by auto. auto. }
  { destruct Hp as (c & Hc & Hp). exists c. split; auto. intros k Hk. rewrite F2 by lia. auto. }
  right. rewrite E. cbn [bind]. split; auto.
  assert (B5 : 2 * (k + 2) <= jm + jp) by (pose proof (Z.mul_div_le (jm + jp) 2 ltac:(lia)); lia).
  assert (Kr : jmin < k < jmax) by lia.
  assert (NG : ~ (k + 1) * (k + 1) * A2 k a b (m + n) < k * k * A2 (k + 1) a b (m + n)).
  { intros Q. pose proof (zz_lt_xx a b m n k Kr Q). lra. }
  destruct HK as [HK|(K1 & K2 & K3 & [K4|(K4 & s & K5)])]; [|lia|].
  - exfalso. apply NG. apply A2_growth; lia.
  - assert (k <> jm /\ k <> jm + 1) as [N1 N2].
    { split; intros ->; revert B1; apply (ratios_up_neq0 a b m n Hm Hn jm s); auto; lia. }
    split; [apply lt_IZR; exact K3|]. exists k. split; [lia|]. split; [lia|]. cbv beta zeta. rewrite <- gg_threej. split; auto.
    intros i Hi. rewrite <- !gg_threej.
    destruct (Z_le_gt_dec jm i) as [Hi'|Hi']; [apply B0; lia|].
    right. destruct K5 as [S1 S2].
    assert (St : forall t, jmin < t <= jm -> (Rabs (gg t) <= Rabs (gg (t + 1)))%R).
    { intros t Ht. destruct (S1 t ltac:(lia)) as [P Q]. pose proof (S2 t Ht) as P1. rewrite <- Q, Rabs_mult.
      rewrite (Rabs_right (s t)) by lra. pose proof (Rabs_pos (gg (t + 1))).
      assert (s t * Rabs (gg (t + 1)) <= 1 * Rabs (gg (t + 1)))%R by (apply Rmult_le_compat_r; auto). lra. }
    pose proof (St (i - 1) ltac:(lia)) as U. replace (i - 1 + 1) with i in U by lia. pose proof (St i ltac:(lia)). lra.
Qed.
End Main.
