(** Workspace slots, loops with [break], and the coefficients of wigner3j.py. *)
From Coq Require Import ZArith Reals Lia Lra Bool.
From Verif Require Import Base BaseProofs Fact RSum ThreeJSpec ThreeJ ThreeJ2 ThreeJ3 ThreeJ4 Wigner3jModel.
Local Open Scope Z_scope.

(** ** Comparisons *)
Lemma Rltb_spec x y : reflect (x < y)%R (Rltb x y).
Proof. unfold Rltb. destruct (Rlt_dec x y); constructor; auto. Qed.
Lemma Rleb_spec x y : reflect (x <= y)%R (Rleb x y).
Proof. unfold Rleb. destruct (Rle_dec x y); constructor; auto. Qed.
Lemma Reqb_spec x y : reflect (x = y)%R (Reqb x y).
Proof. unfold Reqb. destruct (Req_EM_T x y); constructor; auto. Qed.

Lemma fdiv_ok x y : y <> 0%R -> fdiv x y = Ok (x / y)%R.
Proof. intros. unfold fdiv. destruct (Reqb_spec y 0); tauto. Qed.

(** ** Loops *)
Lemma loop_brk_inv {S} (P : Z -> S -> Prop) (Q : S -> Prop) (F : err -> Prop) step body : forall n i (s : S),
  P i s ->
  (forall k t, 0 <= k < Z.of_nat n -> P (i + k * step) t ->
     (exists t', body (i + k * step) t = Ok (false, t') /\ P (i + (k + 1) * step) t') \/
     (exists t', body (i + k * step) t = Ok (true, t') /\ Q t') \/
     (exists e, body (i + k * step) t = Err e /\ F e)) ->
  (exists t, loop_brk n i step body s = Ok t /\ (P (i + Z.of_nat n * step) t \/ Q t)) \/
  (exists e, loop_brk n i step body s = Err e /\ F e).
Proof.
  induction n as [|n IH]; intros i s H0 Hs.
  - left. exists s. split; auto. left. now replace (i + Z.of_nat 0 * step) with i by lia.
  - cbn [loop_brk]. destruct (Hs 0 s ltac:(lia)) as [(t & E & Pt)|[(t & E & Qt)|(e & E & Fe)]];
      rewrite Z.mul_0_l, Z.add_0_r in *; auto; rewrite E; cbn [bind].
    + destruct (IH (i + step) t) as [(t' & E' & H')|(e & E' & H')].
      * now replace (i + step) with (i + (0 + 1) * step) by lia.
      * intros k u Hk Pu. specialize (Hs (k + 1) u ltac:(lia)).
        replace (i + step + k * step) with (i + (k + 1) * step) in * by lia.
        replace (i + step + (k + 1) * step) with (i + (k + 1 + 1) * step) by lia. auto.
      * left. exists t'. split; auto. now replace (i + Z.of_nat (Datatypes.S n) * step) with (i + step + Z.of_nat n * step) by lia.
      * right. exists e. auto.
    + left. exists t. auto.
    + right. exists e. auto.
Qed.

Lemma for_range_brk_inv {S} (P : Z -> S -> Prop) (Q : S -> Prop) (F : err -> Prop) a b body (s : S) :
  a <= b -> P a s ->
  (forall i t, a <= i < b -> P i t ->
     (exists t', body i t = Ok (false, t') /\ P (i + 1) t') \/
     (exists t', body i t = Ok (true, t') /\ Q t') \/ (exists e, body i t = Err e /\ F e)) ->
  (exists t, for_range_brk a b body s = Ok t /\ (P b t \/ Q t)) \/ (exists e, for_range_brk a b body s = Err e /\ F e).
Proof.
  intros Hab H0 Hs. unfold for_range_brk.
  destruct (loop_brk_inv P Q F 1 body (Z.to_nat (b - a)) a s H0) as [H|H]; auto.
  - intros k t Hk Pt. specialize (Hs (a + k * 1) t ltac:(lia) Pt).
    now replace (a + (k + 1) * 1) with (a + k * 1 + 1) by lia.
  - left. replace (a + Z.of_nat (Z.to_nat (b - a)) * 1) with b in H by lia. auto.
Qed.

Lemma for_down_brk_inv {S} (P : Z -> S -> Prop) (Q : S -> Prop) (F : err -> Prop) a b body (s : S) :
  b <= a -> P a s ->
  (forall i t, b < i <= a -> P i t ->
     (exists t', body i t = Ok (false, t') /\ P (i - 1) t') \/
     (exists t', body i t = Ok (true, t') /\ Q t') \/ (exists e, body i t = Err e /\ F e)) ->
  (exists t, for_down_brk a b body s = Ok t /\ (P b t \/ Q t)) \/ (exists e, for_down_brk a b body s = Err e /\ F e).
Proof.
  intros Hab H0 Hs. unfold for_down_brk.
  destruct (loop_brk_inv P Q F (-1) body (Z.to_nat (a - b)) a s H0) as [H|H]; auto.
  - intros k t Hk Pt. specialize (Hs (a + k * (-1)) t ltac:(lia) Pt).
    now replace (a + (k + 1) * (-1)) with (a + k * (-1) - 1) by lia.
  - left. replace (a + Z.of_nat (Z.to_nat (a - b)) * (-1)) with b in H by lia. auto.
Qed.

Lemma for_down_empty {S} a b body (s : S) : a <= b -> for_down a b body s = Ok s.
Proof. intros. unfold for_down. replace (Z.to_nat (a - b)) with O by lia. auto. Qed.
Lemma for_range_brk_empty {S} a b body (s : S) : b <= a -> for_range_brk a b body s = Ok s.
Proof. intros. unfold for_range_brk. replace (Z.to_nat (b - a)) with O by lia. auto. Qed.

(** ** Slots *)
Definition get (size : Z) (ws : arr R) (b i : Z) : R := aget ws (b * size + i).
Definition put (size : Z) (ws : arr R) (b i : Z) (x : R) : arr R := mkarr (alen ws) (upd (aget ws) (b * size + i) x).

Section Slots.
Variable size : Z.
Hypothesis Hs : 0 < size.

Lemma slot_eq b : 0 <= b <= 3 -> slot size (4 * size) b = mkview (b * size) size.
Proof.
  intros H. unfold slot, slice1, clip1.
  destruct (Z.ltb_spec (b * size) 0); [nia|]. destruct (Z.ltb_spec ((b + 1) * size) 0); [nia|].
  f_equal; nia.
Qed.

Lemma in_slot b i : 0 <= b <= 3 -> 0 <= i < size -> 0 <= b * size + i < 4 * size.
Proof. intros. nia. Qed.

Lemma rdv_ok ws b i : alen ws = 4 * size -> 0 <= b <= 3 -> 0 <= i < size ->
  rdv ws (slot size (4 * size) b) i = Ok (get size ws b i).
Proof.
  intros Hl Hb Hi. rewrite slot_eq by auto. unfold rdv. cbn [vlen voff]. rewrite norm_index_nonneg by lia.
  replace (in_bounds size i) with true by (symmetry; apply in_bounds_true; auto).
  apply rd_ok. rewrite Hl. apply in_slot; auto.
Qed.
Lemma rdv_neg1 ws b : alen ws = 4 * size -> 0 <= b <= 3 ->
  rdv ws (slot size (4 * size) b) (-1) = Ok (get size ws b (size - 1)).
Proof.
  intros Hl Hb. rewrite slot_eq by auto. unfold rdv. cbn [vlen voff].
  replace (norm_index size (-1)) with (size - 1) by (unfold norm_index; destruct (Z.ltb_spec (-1) 0); lia).
  replace (in_bounds size (size - 1)) with true by (symmetry; apply in_bounds_true; lia).
  apply rd_ok. rewrite Hl. apply in_slot; lia.
Qed.
Lemma wrv_ok ws b i x : alen ws = 4 * size -> 0 <= b <= 3 -> 0 <= i < size ->
  wrv ws (slot size (4 * size) b) i x = Ok (put size ws b i x).
Proof.
  intros Hl Hb Hi. rewrite slot_eq by auto. unfold wrv. cbn [vlen voff]. rewrite norm_index_nonneg by lia.
  replace (in_bounds size i) with true by (symmetry; apply in_bounds_true; auto).
  apply wr_ok. rewrite Hl. apply in_slot; auto.
Qed.

Lemma alen_put ws b i x : alen (put size ws b i x) = alen ws.
Proof. reflexivity. Qed.
Lemma get_put_same ws b i x : get size (put size ws b i x) b i = x.
Proof. unfold get, put. cbn [aget]. apply upd_same. Qed.
Lemma get_put_i ws b i x i' : i' <> i -> get size (put size ws b i x) b i' = get size ws b i'.
Proof. intros. unfold get, put. cbn [aget]. apply upd_other. lia. Qed.
Lemma get_put_b ws b i x b' i' : b' <> b -> 0 <= i < size -> 0 <= i' < size -> get size (put size ws b i x) b' i' = get size ws b' i'.
Proof. intros. unfold get, put. cbn [aget]. apply upd_other. nia. Qed.

Lemma wrv_slice_ok ws b lo hi e : alen ws = 4 * size -> 0 <= b <= 3 -> 0 <= lo <= hi -> hi <= size ->
  exists ws', wrv_slice ws (slot size (4 * size) b) lo hi e = Ok ws' /\ alen ws' = 4 * size /\
    (forall i, 0 <= i < size -> get size ws' b i = if (lo <=? i) && (i <? hi) then e i else get size ws b i) /\
    (forall b' i, b' <> b -> 0 <= i < size -> get size ws' b' i = get size ws b' i).
Proof.
  intros Hl Hb Hlo Hhi. rewrite slot_eq by auto. unfold wrv_slice. cbn [vlen voff].
  replace ((0 <=? b * size) && (b * size + size <=? alen ws)) with true by (rewrite Hl; symmetry; apply andb_true_iff; nia).
  unfold slice1, clip1. destruct (Z.ltb_spec lo 0); [lia|]. destruct (Z.ltb_spec hi 0); [lia|]. cbn [vlen voff].
  eexists. split; [reflexivity|]. split; [exact Hl|]. split.
  - intros i Hi. unfold get. cbn [aget].
    replace (Z.max 0 (Z.min size lo)) with lo by lia. replace (Z.max 0 (Z.min size hi)) with hi by lia.
    replace ((b * size + lo <=? b * size + i) && (b * size + i <? b * size + lo + Z.max 0 (hi - lo))) with ((lo <=? i) && (i <? hi)).
    replace (b * size + i - b * size) with i by lia. reflexivity.
    apply eq_true_iff_eq. rewrite !andb_true_iff, !Z.leb_le, !Z.ltb_lt. lia.
  - intros b' i Hne Hi. unfold get. cbn [aget].
    replace (Z.max 0 (Z.min size lo)) with lo by lia. replace (Z.max 0 (Z.min size hi)) with hi by lia.
    destruct (Z.leb_spec (b * size + lo) (b' * size + i)); destruct (Z.ltb_spec (b' * size + i) (b * size + lo + Z.max 0 (hi - lo))); cbn; auto.
    exfalso. assert (b' = b) by nia. auto.
Qed.

Lemma vget_slot ws b k : 0 <= b <= 3 -> vget ws (slot size (4 * size) b) k = get size ws b k.
Proof. intros. rewrite slot_eq by auto. reflexivity. Qed.
End Slots.

(** ** Coefficients *)
Section Coef.
Variables a b m n : Z.
Hypotheses (Hm : Z.abs m <= a) (Hn : Z.abs n <= b).

(** the coefficient helpers return their mathematical values over the range *)
Definition ok_widths (w : widths) : Prop :=
  (forall j, jlo a b m n <= j <= a + b + 1 -> A w j a b (- (m + n)) = Ok (Aq j a b (m + n))) /\
  (forall j, jlo a b m n <= j <= a + b -> Yf w j a b m n = yy a b m n j).

Lemma exact_ok : ok_widths exact.
Proof.
  split; [|reflexivity]. intros j H. unfold A. cbn [wA exact].
  replace ((j ^ 2 - (a - b) ^ 2) * ((a + b + 1) ^ 2 - j ^ 2) * (j ^ 2 - (- (m + n)) ^ 2)) with (A2 j a b (m + n)) by (unfold A2; ring).
  pose proof (A2_nonneg j a b m n H). destruct (Z.ltb_spec (A2 j a b (m + n)) 0); [lia|]. reflexivity.
Qed.
Lemma X_ok w j : ok_widths w -> jlo a b m n - 1 <= j <= a + b -> Xf w j a b (- (m + n)) = Ok (xx a b m n j).
Proof. intros [Ha _] H. unfold Xf. rewrite Ha by lia. reflexivity. Qed.
Lemma Z_ok w j : ok_widths w -> jlo a b m n <= j <= a + b + 1 -> Zf w j a b (- (m + n)) = Ok (zz a b m n j).
Proof. intros [Ha _] H. unfold Zf. rewrite Ha by lia. reflexivity. Qed.
Lemma Y_ok w j : ok_widths w -> jlo a b m n <= j <= a + b -> Yf w j a b m n = yy a b m n j.
Proof. intros [_ Hb] H. auto. Qed.
End Coef.
