(** The two boundary iterations of the 3-j calculator. *)
From Coq Require Import ZArith Reals Lia Lra Bool.
From Verif Require Import Base BaseProofs Fact RSum ThreeJSpec ThreeJ ThreeJ2 ThreeJ3 ThreeJ4 Wigner3jModel Wigner3jWs.
Local Open Scope Z_scope.

Ltac side := solve [assumption | reflexivity | lia | rewrite ?alen_put; first [assumption|lia]].
Ltac rw := repeat first
  [ rewrite X_ok by side | rewrite Z_ok by side | rewrite Y_ok by side
  | rewrite rdv_ok by side | rewrite wrv_ok by side | rewrite fdiv_ok by assumption | progress cbn [bind] ].

Section Main.
Variable w : widths.
Variables size a b m n : Z.
Hypothesis Hw : ok_widths a b m n w.
Hypotheses (Hm : Z.abs m <= a) (Hn : Z.abs n <= b) (Hsz : a + b < size).
Notation jmin := (jlo a b m n).
Notation jmax := (a + b).
Notation G ws blk i := (get size ws blk i).
Notation xx := (xx a b m n).
Notation yy := (yy a b m n).
Notation zz := (zz a b m n).
Notation gg := (gg a b m n).

Definition prop (ws : arr R) (blk lo hi : Z) : Prop :=
  exists c, c <> 0%R /\ forall k, lo <= k <= hi -> G ws blk k = (c * gg k)%R.
Definition zero0 (ws : arr R) : Prop := forall k, 0 <= k < size -> G ws 0 k = 0%R.

(** what the forward ratio loop knows at its end *)
Definition ratios_up (jm : Z) (s : Z -> R) : Prop :=
  (forall i, jmin <= i <= jm -> (0 < s i /\ s i * gg (i + 1) = gg i)%R) /\ (forall i, jmin < i <= jm -> (s i <= 1)%R).
Definition ratios_down (jp : Z) (s : Z -> R) : Prop :=
  (forall i, jp <= i <= jmax -> (0 < s i /\ s i * gg (i - 1)%Z = gg i)%R) /\ (forall i, jp <= i < jmax -> (s i <= 1)%R).

Lemma Hjn : 0 <= jmin. Proof. apply jmin_nonneg. Qed.
Lemma Hjle : jmin <= jmax. Proof. apply jmin_le; auto. Qed.

Lemma ratios_up_neq0 jm s : jm < jmax -> ratios_up jm s -> forall i, jmin <= i <= jm + 1 -> gg i <> 0%R.
Proof.
  intros Hj [R1 R2] i Hi E. pose proof (gg_bottom a b m n Hm Hn).
  destruct (Z.eq_dec i jmin) as [->|Ne]; auto.
  destruct (R1 (i - 1) ltac:(lia)) as [_ Q]. replace (i - 1 + 1) with i in Q by lia. rewrite E, Rmult_0_r in Q.
  apply (gg_consec a b m n Hm Hn (i - 1)); try lia; auto. now replace (i - 1 + 1) with i by lia.
Qed.
Lemma ratios_down_neq0 jp s : jmin < jp -> ratios_down jp s -> forall i, jp - 1 <= i <= jmax -> gg i <> 0%R.
Proof.
  intros Hj [R1 R2] i Hi E. pose proof (gg_top a b m n Hm Hn).
  destruct (Z.eq_dec i jmax) as [->|Ne]; auto.
  destruct (R1 (i + 1) ltac:(lia)) as [_ Q]. replace (i + 1 - 1) with i in Q by lia. rewrite E, Rmult_0_r in Q.
  apply (gg_consec a b m n Hm Hn i); try lia; auto.
Qed.

Definition fpost (ws : arr R) (jm : Z) (u : bool) : Prop :=
  alen ws = 4 * size /\ zero0 ws /\ (forall k, 0 <= k < size -> k < jmin \/ jm < k -> G ws 2 k = 0%R) /\
  ((u = true /\ jmin = 0 /\ jm = 0) \/
   (u = false /\ jmin < jm <= jmax /\ prop ws 2 jmin jm /\ gg (jm - 1) <> 0%R /\
    (jm = jmin + 1 \/
     (jmin + 2 <= jm /\ 1 <= jmin /\ (yy jmin < 0)%R /\ (jm = jmax \/ jm + 1 < jmax /\ exists s, ratios_up jm s))))).

Section Forward.
Hypothesis Hlt : jmin < jmax.

Lemma fsimple ws v : alen ws = 4 * size ->
  zero0 ws -> (forall k, 0 <= k < size -> k < jmin \/ jmin + 1 < k -> G ws 2 k = 0%R) -> (v * gg jmin = gg (jmin + 1))%R ->
  fpost (put size (put size ws 2 jmin 1%R) 2 (jmin + 1) v) (jmin + 1) false.
Proof.
  intros Hl Hz0 Hz2 Hv. pose proof Hjn. pose proof (gg_bottom a b m n Hm Hn) as Gb.
  split; [exact Hl|]. split; [|split].
  - intros k Hk. rewrite !get_put_b by lia. auto.
  - intros k Hk Hr. rewrite !get_put_i by lia. auto.
  - right. split; auto. split; [lia|]. split; [|split; [|auto]].
    + exists (/ gg jmin)%R. split; [now apply Rinv_neq_0_compat|]. intros k Hk.
      assert (k = jmin \/ k = jmin + 1) as [-> | ->] by lia.
      * rewrite get_put_i, get_put_same by lia. field; auto.
      * rewrite get_put_same. rewrite <- Hv. field; auto.
    + now replace (jmin + 1 - 1) with jmin by lia.
Qed.

Definition finv (j : Z) (t : arr R * Z) : Prop :=
  let '(ws, jm) := t in
  jm = jmax /\ alen ws = 4 * size /\ zero0 ws /\ (forall k, 0 <= k < size -> G ws 2 k = 0%R) /\
  ratios_up (j - 1) (fun i => G ws 1 i).

Lemma forward_body_ok j t : 1 <= jmin -> jmin + 1 <= j < jmax -> finv j t ->
  (exists t', forward_body w size a b m n j t = Ok (false, t') /\ finv (j + 1) t') \/
  (exists ws, forward_body w size a b m n j t = Ok (true, (ws, j - 1)) /\ finv j (ws, jmax)).
Proof.
  destruct t as [ws jm]. intros J1 Hj (E & Hl & Hz0 & Hz2 & R1 & R2). subst jm.
  unfold forward_body. cbv zeta. rw.
  set (d := (yy j + zz j * G ws 1 (j - 1))%R).
  destruct (Rltb_spec (Rabs d) (Rabs (xx j))) as [L1|L1]; cbn [orb].
  { right. exists ws. split; auto. repeat split; auto; intros; apply R1 || apply R2; auto. }
  destruct (Rleb_spec 0 (xx j * d)) as [L2|L2]; cbn [orb].
  { right. exists ws. split; auto. repeat split; auto; intros; apply R1 || apply R2; auto. }
  destruct (Reqb_spec d 0) as [L3|L3]; cbn [orb].
  { right. exists ws. split; auto. repeat split; auto; intros; apply R1 || apply R2; auto. }
  left. pose proof (xx_pos a b m n j ltac:(lia) ltac:(lia)) as Xp.
  assert (Dn : (d < 0)%R).
  { destruct (Rlt_le_dec d 0) as [|Q]; auto. exfalso. apply L2. apply Rmult_le_pos; lra. }
  rw. eexists. split; [reflexivity|]. repeat split; auto.
  - intros k Hk. rewrite get_put_b by lia. auto.
  - intros k Hk. rewrite get_put_b by lia. auto.
  - destruct (Z.eq_dec i j) as [->|Ne].
    + rewrite get_put_same. replace (- xx j / d)%R with (xx j * / (- d))%R by (field; auto).
      apply Rmult_lt_0_compat; auto. apply Rinv_0_lt_compat. lra.
    + rewrite get_put_i by lia. apply R1. lia.
  - destruct (Z.eq_dec i j) as [->|Ne].
    + rewrite get_put_same. pose proof (gg_rec a b m n Hm Hn j ltac:(lia)) as Rec.
      destruct (R1 (j - 1) ltac:(lia)) as [_ Q]. replace (j - 1 + 1) with j in Q by lia. rewrite <- Q in Rec.
      assert (Rec' : (xx j * gg (j + 1) = - (d * gg j))%R) by (unfold d; lra).
      replace (- xx j / d * gg (j + 1))%R with (- (xx j * gg (j + 1)) / d)%R by (field; auto). rewrite Rec'. field; auto.
    + rewrite get_put_i by lia. apply R1. lia.
  - intros i Hi. destruct (Z.eq_dec i j) as [->|Ne].
    + rewrite get_put_same. apply (Rmult_le_reg_r (- d)); [lra|].
      replace (- xx j / d * - d)%R with (xx j) by (field; auto).
      rewrite (Rabs_left d), (Rabs_right (xx j)) in L1 by lra. lra.
    + rewrite get_put_i by lia. apply R2. lia.
Qed.

(** lines 168-171: products of ratios *)
Lemma fprod ws jm : alen ws = 4 * size -> jmin <= jm <= jmax -> gg jm <> 0%R -> G ws 2 jm = 1%R ->
  (forall i, jmin <= i < jm -> (G ws 1 i * gg (i + 1) = gg i)%R) ->
  exists ws', for_range 1 (jm - jmin + 1) (fun k ws =>
      do a <- rdv ws (slot size (4 * size) 2) (jm - k + 1); do b <- rdv ws (slot size (4 * size) 1) (jm - k);
      wrv ws (slot size (4 * size) 2) (jm - k) (a * b)%R) ws = Ok ws' /\
    alen ws' = 4 * size /\ (forall blk k, blk <> 2 -> 0 <= k < size -> G ws' blk k = G ws blk k) /\
    (forall k, jmin <= k <= jm -> G ws' 2 k = (/ gg jm * gg k)%R) /\
    (forall k, 0 <= k < size -> k < jmin \/ jm < k -> G ws' 2 k = G ws 2 k).
Proof.
  intros Hl Hjm Gn H1 Hr. pose proof Hjn.
  destruct (for_range_inv (fun k ws' => alen ws' = 4 * size /\
    (forall blk i, blk <> 2 -> 0 <= i < size -> G ws' blk i = G ws blk i) /\
    (forall i, jm - k + 1 <= i <= jm -> G ws' 2 i = (/ gg jm * gg i)%R) /\
    (forall i, 0 <= i < size -> i < jm - k + 1 \/ jm < i -> G ws' 2 i = G ws 2 i)) 1 (jm - jmin + 1)
    (fun k ws => do a <- rdv ws (slot size (4 * size) 2) (jm - k + 1); do b <- rdv ws (slot size (4 * size) 1) (jm - k);
      wrv ws (slot size (4 * size) 2) (jm - k) (a * b)%R) ws) as (ws' & E & H2 & H3 & H4 & H5); [lia| | |].
  - split; auto. split; auto. split; auto. intros i Hi. replace i with jm by lia. rewrite H1. field; auto.
  - intros k t Hk (T1 & T2 & T3 & T4). rw. eexists. split; [reflexivity|]. split; [exact T1|]. split; [|split].
    + intros blk i Hb Hi. rewrite get_put_b by lia. auto.
    + intros i Hi. destruct (Z.eq_dec i (jm - k)) as [->|Ne].
      * rewrite get_put_same. rewrite T3 by lia. rewrite T2 by lia. rewrite <- (Hr (jm - k)) by lia. ring.
      * rewrite get_put_i by lia. apply T3. lia.
    + intros i Hi Hr'. rewrite get_put_i by lia. apply T4; auto. lia.
  - exists ws'. split; auto. split; auto. split; auto. split; intros; [apply H4|apply H5]; lia.
Qed.

Lemma forward_ok ws : alen ws = 4 * size -> (forall blk k, 0 <= blk <= 3 -> 0 <= k < size -> G ws blk k = 0%R) ->
  exists ws' jm u, forward w size a b m n ws = Ok (ws', jm, u) /\ fpost ws' jm u.
Proof.
  intros Hl Hz. pose proof Hjn as Hn0. unfold forward. cbv zeta.
  change (Z.max (Z.abs (a - b)) (Z.abs (m + n))) with jmin. rw.
  pose proof (gg_bottom a b m n Hm Hn) as Gb.
  pose proof (gg_rec a b m n Hm Hn jmin ltac:(lia)) as Rec. rewrite zz_jmin in Rec.
  assert (Z0 : zero0 ws) by (intros k Hk; apply Hz; lia).
  assert (Z2 : forall lo hi k, 0 <= k < size -> k < lo \/ hi < k -> G ws 2 k = 0%R) by (intros; apply Hz; lia).
  destruct ((- (m + n) =? 0) && (m =? 0) && (n =? 0)) eqn:AZ.
  { apply andb_true_iff in AZ. destruct AZ as [AZ N0]. apply andb_true_iff in AZ. destruct AZ as [_ M0].
    apply Z.eqb_eq in M0, N0. rw. do 3 eexists. split; [reflexivity|]. apply fsimple; auto; try (intros; apply Hz; lia).
    rewrite (gg_zero_min a b m n Hm Hn) by lia. ring. }
  clear AZ.
  destruct (Reqb_spec (yy jmin) 0) as [Y0|Y0].
  { destruct (Reqb_spec (xx jmin) 0) as [X0|X0].
    - do 3 eexists. split; [reflexivity|].
      assert (J0 : jmin = 0). { destruct (Z.eq_dec jmin 0); auto. pose proof (xx_pos a b m n jmin ltac:(lia) ltac:(lia)). lra. }
      split; auto. split; auto. split; [intros; apply Hz; lia|]. left. auto.
    - rw. do 3 eexists. split; [reflexivity|]. apply fsimple; auto; try (intros; apply Hz; lia).
      rewrite Y0 in Rec. apply (Rmult_eq_reg_l (xx jmin)); auto. lra. }
  assert (J1 : 1 <= jmin).
  { destruct (Z.eq_dec jmin 0) as [J0|]; [|lia]. exfalso. apply Y0. rewrite J0 at 1. now apply yy_0. }
  pose proof (xx_pos a b m n jmin ltac:(lia) ltac:(lia)) as Xp.
  assert (X0 : xx jmin <> 0%R) by lra.
  assert (Vv : (- yy jmin / xx jmin * gg jmin = gg (jmin + 1))%R).
  { apply (Rmult_eq_reg_l (xx jmin)); auto.
    replace (xx jmin * (- yy jmin / xx jmin * gg jmin))%R with (- (yy jmin * gg jmin))%R by (field; auto). lra. }
  destruct (Rleb_spec 0 (xx jmin * yy jmin)) as [L|L].
  { rw. do 3 eexists. split; [reflexivity|]. apply fsimple; auto; try (intros; apply Hz; lia). }
  assert (Yn : (yy jmin < 0)%R).
  { destruct (Rlt_le_dec (yy jmin) 0) as [|Q]; auto. exfalso. apply L. apply Rmult_le_pos; lra. }
  rw.
  set (ws1 := put size ws 1 jmin (- xx jmin / yy jmin)%R).
  assert (I1 : finv (jmin + 1) (ws1, jmax)).
  { split; auto. split; [exact Hl|]. unfold ws1. split; [intros k Hk; rewrite get_put_b by lia; apply Hz; lia|].
    split; [intros k Hk; rewrite get_put_b by lia; apply Hz; lia|]. split.
    - intros i Hi. replace i with jmin by lia. rewrite get_put_same. split.
      + replace (- xx jmin / yy jmin)%R with (xx jmin * / (- yy jmin))%R by (field; auto).
        apply Rmult_lt_0_compat; auto. apply Rinv_0_lt_compat. lra.
      + replace (- xx jmin / yy jmin * gg (jmin + 1))%R with (- (xx jmin * gg (jmin + 1)) / yy jmin)%R by (field; auto).
        replace (xx jmin * gg (jmin + 1))%R with (- (yy jmin * gg jmin))%R by lra. field; auto.
    - intros i Hi. lia. }
  destruct (for_range_brk_inv finv (fun t => let '(ws, jm) := t in jmin <= jm /\ jm + 1 < jmax /\ finv (jm + 1) (ws, jmax)) (fun _ => False)
    (jmin + 1) jmax (forward_body w size a b m n) (ws1, jmax)) as [([ws2 jm] & E & Post)|(e & _ & [])]; auto; try lia.
  { intros j t Hj It. destruct (forward_body_ok j t J1 Hj It) as [(t' & E & I')|(ws' & E & I')].
    - left. exists t'. auto.
    - right. left. exists (ws', j - 1). split; auto. split; [lia|]. split; [lia|]. now replace (j - 1 + 1) with j by lia. }
  rewrite E. cbn [bind].
  assert (Hjm : (jm = jmax \/ jm + 1 < jmax) /\ jmin <= jm /\ alen ws2 = 4 * size /\ zero0 ws2 /\
    (forall k, 0 <= k < size -> G ws2 2 k = 0%R) /\ ratios_up (Z.min jm (jmax - 1)) (fun i => G ws2 1 i)).
  { destruct Post as [(P1 & P2 & P3 & P4 & P5)|(P1 & P2 & P3 & P4 & P5 & P6 & P7)].
    - subst jm. split; auto. split; [lia|]. replace (Z.min jmax (jmax - 1)) with (jmax - 1) by lia. tauto.
    - split; auto. split; auto. replace (jm + 1 - 1) with jm in P7 by lia. rewrite Z.min_l by lia. tauto. }
  clear Post E. destruct Hjm as (C & Hge & Hl2 & Hz0 & Hz2 & Rt).
  assert (Gj : gg jm <> 0%R).
  { destruct C as [->|C]; [apply gg_top; auto|]. apply (ratios_up_neq0 (Z.min jm (jmax - 1)) _ ltac:(lia) Rt). lia. }
  rw.
  destruct (fprod (put size ws2 2 jm 1%R) jm) as (ws3 & E & Hl3 & Hb3 & Hp3 & Ho3); auto; try lia.
  { apply get_put_same. }
  { intros i Hi. rewrite get_put_b by lia. destruct Rt as [R1 _]. apply R1. lia. }
  rewrite E. cbn [bind].
  assert (Hz03 : zero0 ws3) by (intros k Hk; rewrite Hb3 by lia; rewrite get_put_b by lia; auto).
  assert (Hz23 : forall k, 0 <= k < size -> k < jmin \/ jm < k -> G ws3 2 k = 0%R).
  { intros k Hk Hr. rewrite Ho3 by auto. rewrite get_put_i by lia. auto. }
  destruct (Z.eqb_spec jm jmin) as [EJ|EJ].
  - rw. do 3 eexists. split; [reflexivity|].
    (* the entry at [jmin] already holds 1 *)
    assert (One : G ws3 2 jmin = 1%R) by (rewrite Hp3 by lia; rewrite EJ; field; auto).
    split; [exact Hl3|]. split; [intros k Hk; rewrite get_put_b by lia; auto|].
    split; [intros k Hk Hr; rewrite get_put_i by lia; apply Hz23; lia|].
    right. split; auto. split; [lia|]. split; [|split; [|auto]].
    + exists (/ gg jmin)%R. split; [now apply Rinv_neq_0_compat|]. intros k Hk.
      assert (k = jmin \/ k = jmin + 1) as [-> | ->] by lia.
      * rewrite get_put_i by lia. rewrite One. field; auto.
      * rewrite get_put_same. rewrite <- Vv. field; auto.
    + now replace (jmin + 1 - 1) with jmin by lia.
  - do 3 eexists. split; [reflexivity|]. split; [exact Hl3|]. split; auto. split; auto.
    right. split; auto. split; [lia|]. split; [|split].
    + exists (/ gg jm)%R. split; [now apply Rinv_neq_0_compat|]. intros; apply Hp3; lia.
    + apply (ratios_up_neq0 (Z.min jm (jmax - 1)) _ ltac:(lia) Rt). lia.
    + destruct (Z.eq_dec jm (jmin + 1)); auto. right. split; [lia|]. split; auto. split; auto.
      destruct C as [C|C]; auto. right. split; auto. exists (fun i => G ws2 1 i). rewrite Z.min_l in Rt by lia. auto.
Qed.
End Forward.

(** what the reverse iteration is given and what it returns *)
Definition jm_ok (jm : Z) : Prop :=
  jm < jmax /\
  ((jmin = 0 /\ jm = 0) \/ jm = jmin + 1 \/
   (jmin + 2 <= jm /\ 1 <= jmin /\ jm + 1 < jmax /\ exists s, ratios_up jm s)).
Definition rpost (ws ws' : arr R) (jm jp : Z) : Prop :=
  alen ws' = 4 * size /\ (forall k, 0 <= k < size -> G ws' 0 k = G ws 0 k) /\ (forall k, 0 <= k < size -> G ws' 2 k = G ws 2 k) /\
  prop ws' 3 jp jmax /\ (jm <= jp <= jmax - 1 \/ (jp = jmin /\ jm = jmin + 1)).

Section Reverse.
Variables (ws0 : arr R) (jm : Z).
Hypotheses (Hlt : jmin < jmax) (Hl0 : alen ws0 = 4 * size) (Hjm : jm_ok jm).

Lemma rsimple ws v : alen ws = 4 * size ->
  (forall k, 0 <= k < size -> G ws 0 k = G ws0 0 k) -> (forall k, 0 <= k < size -> G ws 2 k = G ws0 2 k) ->
  (v * gg jmax = gg (jmax - 1)%Z)%R ->
  rpost ws0 (put size (put size ws 3 jmax 1%R) 3 (jmax - 1) v) jm (jmax - 1).
Proof.
  intros Hl F0 F2 Hv. pose proof Hjn. pose proof (gg_top a b m n Hm Hn) as Gb.
  split; [exact Hl|]. split; [|split; [|split]].
  - intros k Hk. rewrite !get_put_b by lia. auto.
  - intros k Hk. rewrite !get_put_b by lia. auto.
  - exists (/ gg jmax)%R. split; [now apply Rinv_neq_0_compat|]. intros k Hk.
    assert (k = jmax \/ k = jmax - 1) as [-> | ->] by lia.
    + rewrite get_put_i, get_put_same by lia. field; auto.
    + rewrite get_put_same. rewrite <- Hv. field; auto.
  - left. destruct Hjm. lia.
Qed.

Definition rinv (j : Z) (t : arr R * Z) : Prop :=
  let '(ws, jp) := t in
  jp = jmin /\ alen ws = 4 * size /\ (forall k, 0 <= k < size -> G ws 0 k = G ws0 0 k) /\
  (forall k, 0 <= k < size -> G ws 2 k = G ws0 2 k) /\ ratios_down (j + 1) (fun i => G ws 1 i).

Lemma reverse_body_ok j t : jm <= j < jmax -> rinv j t ->
  (exists t', jmin < j /\ reverse_body w size a b m n j t = Ok (false, t') /\ rinv (j - 1) t') \/
  (exists ws, reverse_body w size a b m n j t = Ok (true, (ws, j + 1)) /\ rinv j (ws, jmin)).
Proof.
  destruct t as [ws jp]. intros Hj (E & Hl & F0 & F2 & R1 & R2). subst jp. pose proof Hjn.
  assert (Hj' : jmin <= j) by (destruct Hjm; lia).
  unfold reverse_body. cbv zeta. rw.
  set (d := (yy j + xx j * G ws 1 (j + 1))%R).
  destruct (Reqb_spec d 0) as [L3|L3]; cbn [orb].
  { right. exists ws. split; auto. repeat split; auto; intros; apply R1 || apply R2; auto. }
  destruct (Rltb_spec (Rabs d) (Rabs (zz j))) as [L1|L1]; cbn [orb].
  { right. exists ws. split; auto. repeat split; auto; intros; apply R1 || apply R2; auto. }
  destruct (Rleb_spec 0 (zz j * d)) as [L2|L2]; cbn [orb].
  { right. exists ws. split; auto. repeat split; auto; intros; apply R1 || apply R2; auto. }
  left.
  assert (Ne : j <> jmin).
  { intros ->. apply L2. rewrite zz_jmin, Rmult_0_l. lra. }
  pose proof (zz_pos a b m n j ltac:(lia)) as Xp.
  assert (Dn : (d < 0)%R).
  { destruct (Rlt_le_dec d 0) as [|Q]; auto. exfalso. apply L2. apply Rmult_le_pos; lra. }
  rw. eexists. split; [lia|]. split; [reflexivity|]. repeat split; auto.
  - intros k Hk. rewrite get_put_b by lia. auto.
  - intros k Hk. rewrite get_put_b by lia. auto.
  - destruct (Z.eq_dec i j) as [->|Ne'].
    + rewrite get_put_same. replace (- zz j / d)%R with (zz j * / (- d))%R by (field; auto).
      apply Rmult_lt_0_compat; auto. apply Rinv_0_lt_compat. lra.
    + rewrite get_put_i by lia. apply R1. lia.
  - destruct (Z.eq_dec i j) as [->|Ne'].
    + rewrite get_put_same. pose proof (gg_rec a b m n Hm Hn j ltac:(lia)) as Rec.
      destruct (R1 (j + 1) ltac:(lia)) as [_ Q]. replace (j + 1 - 1) with j in Q by lia. rewrite <- Q in Rec.
      assert (Rec' : (zz j * gg (j - 1)%Z = - (d * gg j))%R) by (unfold d; lra).
      replace (- zz j / d * gg (j - 1)%Z)%R with (- (zz j * gg (j - 1)%Z) / d)%R by (field; auto). rewrite Rec'. field; auto.
    + rewrite get_put_i by lia. apply R1. lia.
  - intros i Hi. destruct (Z.eq_dec i j) as [->|Ne'].
    + rewrite get_put_same. apply (Rmult_le_reg_r (- d)); [lra|].
      replace (- zz j / d * - d)%R with (zz j) by (field; auto).
      rewrite (Rabs_left d), (Rabs_right (zz j)) in L1 by lra. lra.
    + rewrite get_put_i by lia. apply R2. lia.
Qed.

(** lines 223-226: products of ratios *)
Lemma rprod ws jp : alen ws = 4 * size -> jmin <= jp <= jmax -> gg jp <> 0%R -> G ws 3 jp = 1%R ->
  (forall i, jp < i <= jmax -> (G ws 1 i * gg (i - 1)%Z = gg i)%R) ->
  exists ws', for_range 1 (jmax - jp + 1) (fun k ws =>
      do a <- rdv ws (slot size (4 * size) 3) (jp + k - 1); do b <- rdv ws (slot size (4 * size) 1) (jp + k);
      wrv ws (slot size (4 * size) 3) (jp + k) (a * b)%R) ws = Ok ws' /\
    alen ws' = 4 * size /\ (forall blk k, blk <> 3 -> 0 <= k < size -> G ws' blk k = G ws blk k) /\
    (forall k, jp <= k <= jmax -> G ws' 3 k = (/ gg jp * gg k)%R).
Proof.
  intros Hl Hjp Gn H1 Hr. pose proof Hjn.
  destruct (for_range_inv (fun k ws' => alen ws' = 4 * size /\
    (forall blk i, blk <> 3 -> 0 <= i < size -> G ws' blk i = G ws blk i) /\
    (forall i, jp <= i <= jp + k - 1 -> G ws' 3 i = (/ gg jp * gg i)%R)) 1 (jmax - jp + 1)
    (fun k ws => do a <- rdv ws (slot size (4 * size) 3) (jp + k - 1); do b <- rdv ws (slot size (4 * size) 1) (jp + k);
      wrv ws (slot size (4 * size) 3) (jp + k) (a * b)%R) ws) as (ws' & E & H2 & H3 & H4); [lia| | |].
  - split; auto. split; auto. intros i Hi. replace i with jp by lia. rewrite H1. field; auto.
  - intros k t Hk (T1 & T2 & T3). rw. eexists. split; [reflexivity|]. split; [exact T1|]. split.
    + intros blk i Hb Hi. rewrite get_put_b by lia. auto.
    + intros i Hi. destruct (Z.eq_dec i (jp + k)) as [->|Ne].
      * rewrite get_put_same. rewrite T3 by lia. rewrite T2 by lia. rewrite <- (Hr (jp + k)) by lia. ring.
      * rewrite get_put_i by lia. apply T3. lia.
  - exists ws'. split; auto. split; auto. split; auto. intros; apply H4; lia.
Qed.

Lemma reverse_ok : exists ws' jp, reverse w size a b m n ws0 jm = Ok (ws', jp, false) /\ rpost ws0 ws' jm jp.
Proof.
  pose proof Hjn as Hn0. unfold reverse. cbv zeta.
  change (Z.max (Z.abs (a - b)) (Z.abs (m + n))) with jmin. rw.
  pose proof (gg_top a b m n Hm Hn) as Gt.
  pose proof (gg_rec a b m n Hm Hn jmax ltac:(lia)) as Rec. rewrite xx_jmax in Rec.
  pose proof (zz_pos a b m n jmax ltac:(lia)) as Zp. assert (Z0 : zz jmax <> 0%R) by lra.
  assert (Vv : (- yy jmax / zz jmax * gg jmax = gg (jmax - 1)%Z)%R).
  { apply (Rmult_eq_reg_l (zz jmax)); auto.
    replace (zz jmax * (- yy jmax / zz jmax * gg jmax))%R with (- (yy jmax * gg jmax))%R by (field; auto). lra. }
  destruct ((- (m + n) =? 0) && (m =? 0) && (n =? 0)) eqn:AZ.
  { apply andb_true_iff in AZ. destruct AZ as [AZ N0]. apply andb_true_iff in AZ. destruct AZ as [_ M0].
    apply Z.eqb_eq in M0, N0. rw. do 2 eexists. split; [reflexivity|]. apply rsimple; auto.
    assert (Y0 : yy jmax = 0%R) by (unfold ThreeJ4.yy, Bq; rewrite M0, N0; f_equal; ring).
    rewrite <- Vv, Y0. field; auto. }
  clear AZ.
  destruct (Reqb_spec (yy jmax) 0) as [Y0|Y0].
  { destruct (Reqb_spec (zz jmax) 0) as [X0|X0]; [lra|].
    rw. do 2 eexists. split; [reflexivity|]. apply rsimple; auto. }
  destruct (Rleb_spec 0 (yy jmax * zz jmax)) as [L|L].
  { rw. do 2 eexists. split; [reflexivity|]. apply rsimple; auto. }
  assert (Yn : (yy jmax < 0)%R).
  { destruct (Rlt_le_dec (yy jmax) 0) as [|Q]; auto. exfalso. apply L. apply Rmult_le_pos; lra. }
  rw.
  set (ws1 := put size ws0 1 jmax (- zz jmax / yy jmax)%R).
  assert (I1 : rinv (jmax - 1) (ws1, jmin)).
  { split; auto. split; [exact Hl0|]. unfold ws1. split; [intros k Hk; now rewrite get_put_b by lia|].
    split; [intros k Hk; now rewrite get_put_b by lia|]. split.
    - intros i Hi. replace i with jmax by lia. rewrite get_put_same. split.
      + replace (- zz jmax / yy jmax)%R with (zz jmax * / (- yy jmax))%R by (field; auto).
        apply Rmult_lt_0_compat; auto. apply Rinv_0_lt_compat. lra.
      + replace (- zz jmax / yy jmax * gg (jmax - 1)%Z)%R with (- (zz jmax * gg (jmax - 1)%Z) / yy jmax)%R by (field; auto).
        replace (zz jmax * gg (jmax - 1)%Z)%R with (- (yy jmax * gg jmax))%R by lra. field; auto.
    - intros i Hi. lia. }
  pose proof Hjm as [Hjm1 Hjm2].
  assert (Hjm3 : jmin <= jm) by lia.
  destruct (for_down_brk_inv (fun j t => rinv j t /\ (j < jmax - 1 -> jmin <= j))
    (fun t => let '(ws, jp) := t in jm < jp <= jmax /\ rinv (jp - 1) (ws, jmin)) (fun _ => False)
    (jmax - 1) (jm - 1) (reverse_body w size a b m n) (ws1, jmin)) as [([ws2 jp] & E & Post)|(e & _ & [])]; auto; try lia.
  { split; auto; lia. }
  { intros j t Hj [It _]. destruct (reverse_body_ok j t ltac:(lia) It) as [(t' & J & E & I')|(ws' & E & I')].
    - left. exists t'. split; auto. split; auto. lia.
    - right. left. exists (ws', j + 1). split; auto. split; [lia|]. now replace (j + 1 - 1) with j by lia. }
  rewrite E. cbn [bind].
  (* without a break, [jm] is [jmin + 1] *)
  assert (Hjp : (jm < jp <= jmax \/ jp = jmin /\ jm = jmin + 1) /\ alen ws2 = 4 * size /\
    (forall k, 0 <= k < size -> G ws2 0 k = G ws0 0 k) /\
    (forall k, 0 <= k < size -> G ws2 2 k = G ws0 2 k) /\ ratios_down (jp + 1) (fun i => G ws2 1 i) /\
    (jp < jmax -> ratios_down (jp + 1) (fun i => G ws2 1 i))).
  { destruct Post as [[(P1 & P2 & P3 & P4 & P5) P6]|(P1 & P2 & P3 & P4 & P5 & P6)].
    - replace (jm - 1 + 1) with jm in P5 by lia. subst jp.
      assert (jm = jmin + 1).
      { destruct Hjm2 as [[K1 K2]|[K|(K1 & K2 & K3 & s & S1 & S2)]]; auto.
        - exfalso. rewrite K2 in P6. lia.
        - exfalso. destruct P5 as [R1 R2].
          apply (no_overlap a b m n Hm Hn jm s (fun i => G ws2 1 i)); auto. }
      split; auto. subst jm. tauto.
    - replace (jp - 1 + 1) with jp in P6 by lia. split; auto.
      assert (ratios_down (jp + 1) (fun i => G ws2 1 i)) by (destruct P6; split; intros; auto; [apply H|apply H0]; lia).
      tauto. }
  clear Post E. destruct Hjp as (C & Hl2 & F0 & F2 & Rt & _).
  assert (Hjpr : jmin <= jp <= jmax) by lia.
  assert (Gj : gg jp <> 0%R).
  { destruct (Z.eq_dec jp jmax) as [->|Ne]; auto. apply (ratios_down_neq0 (jp + 1) _ ltac:(lia) Rt). lia. }
  rw.
  destruct (rprod (put size ws2 3 jp 1%R) jp) as (ws3 & E & Hl3 & Hb3 & Hp3); auto; try lia.
  { apply get_put_same. }
  { intros i Hi. rewrite get_put_b by lia. destruct Rt as [R1 _]. apply R1. lia. }
  rewrite E. cbn [bind].
  assert (F0' : forall k, 0 <= k < size -> G ws3 0 k = G ws0 0 k) by (intros; rewrite Hb3, get_put_b by lia; auto).
  assert (F2' : forall k, 0 <= k < size -> G ws3 2 k = G ws0 2 k) by (intros; rewrite Hb3, get_put_b by lia; auto).
  destruct (Z.eqb_spec jp jmax) as [EJ|EJ].
  - rw. do 2 eexists. split; [reflexivity|].
    assert (One : G ws3 3 jmax = 1%R) by (rewrite Hp3 by lia; rewrite EJ; field; auto).
    split; [exact Hl3|]. split; [intros k Hk; rewrite get_put_b by lia; auto|].
    split; [intros k Hk; rewrite get_put_b by lia; auto|]. split; [|lia].
    exists (/ gg jmax)%R. split; [now apply Rinv_neq_0_compat|]. intros k Hk.
    assert (k = jmax \/ k = jmax - 1) as [-> | ->] by lia.
    + rewrite get_put_i by lia. rewrite One. field; auto.
    + rewrite get_put_same. rewrite <- Vv. field; auto.
  - do 2 eexists. split; [reflexivity|]. split; [exact Hl3|]. split; auto. split; auto. split; [|lia].
    exists (/ gg jp)%R. split; [now apply Rinv_neq_0_compat|]. intros; apply Hp3; lia.
Qed.
End Reverse.
End Main.
