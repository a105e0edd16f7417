(** Two runs of the 3-j calculator in double precision, in workspaces of any two sizes, go through the same steps. *)
From Coq Require Import ZArith Reals Lia Lra Bool.
From Flocq Require Import Core.
From Verif Require Import Base BaseProofs Fact RSum ThreeJSpec ThreeJ ThreeJ2 ThreeJ3 ThreeJ4 Wigner3jModel Wigner3jSpec Wigner3jWs Wigner3jFwd Wigner3jProofs Wigner3jProps.
From Verif Require Import FloatIndexModel FloatIndexProofs FloatModesModel FloatPowersSpec FloatPowersProofs FloatPowersProps FloatConvProofs FloatConvProps FloatPartsProofs FloatThreeJModel FloatLog FloatThreeJProofs.
Local Open Scope Z_scope.
Set Bullet Behavior "Strict Subproofs".

(** ** Two outcomes with related values, or both a division by zero *)
Definition rel {S T} (Q : S -> T -> Prop) (r : res S) (r' : res T) : Prop :=
  match r, r' with
  | Ok x, Ok y => Q x y
  | Err e, Err e' => e = ZeroDivisionError /\ e' = ZeroDivisionError
  | _, _ => False
  end.

Lemma rel_bind {S T S' T'} (P : S -> T -> Prop) (Q : S' -> T' -> Prop) r r' f g :
  rel P r r' -> (forall x y, P x y -> rel Q (f x) (g y)) -> rel Q (bind r f) (bind r' g).
Proof. destruct r, r'; cbn; intros H K; try tauto. apply K. auto. Qed.

Lemma rel_div x y : rel eq (fdiv64 x y) (fdiv64 x y).
Proof. unfold fdiv64. destruct (Reqb y 0); cbn; auto. Qed.

Lemma rel_loop {S T} (I : S -> T -> Prop) step f g : forall n i s t, I s t ->
  (forall k s t, 0 <= k < Z.of_nat n -> I s t -> rel I (f (i + k * step) s) (g (i + k * step) t)) ->
  rel I (for_loop n i step f s) (for_loop n i step g t).
Proof.
  induction n as [|n IH]; intros i s t H K; cbn [for_loop]; [exact H|].
  apply (rel_bind I).
  - pose proof (K 0 s t ltac:(lia) H) as Q. now rewrite Z.mul_0_l, Z.add_0_r in Q.
  - intros x y Q. apply IH; auto. intros k u v Hk Q'. replace (i + step + k * step) with (i + (k + 1) * step) by ring. apply K; auto. lia.
Qed.
Lemma rel_range {S T} (I : S -> T -> Prop) f g lo hi s t : I s t ->
  (forall j s t, lo <= j < hi -> I s t -> rel I (f j s) (g j t)) -> rel I (for_range lo hi f s) (for_range lo hi g t).
Proof. intros H K. unfold for_range. apply rel_loop; auto. intros k u v Hk Q. apply K; auto. lia. Qed.
Lemma rel_down {S T} (I : S -> T -> Prop) f g hi lo s t : I s t ->
  (forall j s t, lo < j <= hi -> I s t -> rel I (f j s) (g j t)) -> rel I (for_down hi lo f s) (for_down hi lo g t).
Proof. intros H K. unfold for_down. apply rel_loop; auto. intros k u v Hk Q. apply K; auto. lia. Qed.

Definition stops {S T} (I : S -> T -> Prop) (p : bool * S) (q : bool * T) : Prop := fst p = fst q /\ I (snd p) (snd q).
Lemma rel_brk {S T} (I : S -> T -> Prop) step f g : forall n i s t, I s t ->
  (forall k s t, 0 <= k < Z.of_nat n -> I s t -> rel (stops I) (f (i + k * step) s) (g (i + k * step) t)) ->
  rel I (loop_brk n i step f s) (loop_brk n i step g t).
Proof.
  induction n as [|n IH]; intros i s t H K; cbn [loop_brk]; [exact H|].
  apply (rel_bind (stops I)).
  - pose proof (K 0 s t ltac:(lia) H) as Q. now rewrite Z.mul_0_l, Z.add_0_r in Q.
  - intros [p x] [q y] [E Q]. cbn [fst snd] in E, Q. subst q. destruct p; [exact Q|].
    apply IH; auto. intros k u v Hk Q'. replace (i + step + k * step) with (i + (k + 1) * step) by ring. apply K; auto. lia.
Qed.
Lemma rel_range_brk {S T} (I : S -> T -> Prop) f g lo hi s t : I s t ->
  (forall j s t, lo <= j < hi -> I s t -> rel (stops I) (f j s) (g j t)) -> rel I (for_range_brk lo hi f s) (for_range_brk lo hi g t).
Proof. intros H K. unfold for_range_brk. apply rel_brk; auto. intros k u v Hk Q. apply K; auto. lia. Qed.
Lemma rel_down_brk {S T} (I : S -> T -> Prop) f g hi lo s t : I s t ->
  (forall j s t, lo < j <= hi -> I s t -> rel (stops I) (f j s) (g j t)) -> rel I (for_down_brk hi lo f s) (for_down_brk hi lo g t).
Proof. intros H K. unfold for_down_brk. apply rel_brk; auto. intros k u v Hk Q. apply K; auto. lia. Qed.

(** ** The coefficients with 64-bit integers *)
Lemma A64_fixed a b m n j : Z.abs m <= a -> Z.abs n <= b -> a + b <= 1447 -> jlo a b m n <= j <= a + b + 1 ->
  A64 fixed j a b (- (m + n)) = Ok (a64 a b m n j).
Proof.
  intros Hm Hn Hab Hj. change (A64 fixed) with (A64 (mkwidths (wrap 64) (fun z => z))).
  apply A64_ok; auto. split.
  - intros i Hi. change (A (mkwidths (wrap 64) (fun z => z))) with (A fixed).
    rewrite C35_A by (unfold jlo in Hi; lia). apply (exact_ok a b m n); auto.
  - intros i Hi. apply (exact_ok a b m n); auto.
Qed.

(** a sum of squares that was rounded at every step is at least each of its terms *)
Definition sq64 (x : R) : R := RN64 (x * x).
Definition term64 (j : Z) (x : R) : R := RN64 (RN64 (IZR (2 * j + 1)) * sq64 x).

Lemma sq64_nonneg x : (0 <= sq64 x)%R.
Proof. unfold sq64. rewrite <- RN64_0. apply RN64_mono. apply Rle_0_sqr. Qed.
Lemma term64_ge j x : 0 <= j -> (sq64 x <= term64 j x)%R.
Proof.
  intros Hj. unfold term64. assert (E : sq64 x = RN64 (sq64 x)) by (symmetry; apply RN64_idem). rewrite E at 1. apply RN64_mono.
  assert (1 <= RN64 (IZR (2 * j + 1)))%R. { rewrite <- (RN64_int 1) at 1 by lia. apply RN64_mono, IZR_le. lia. }
  pose proof (sq64_nonneg x). assert (1 * sq64 x <= RN64 (IZR (2 * j + 1)) * sq64 x)%R by (apply Rmult_le_compat_r; auto). lra.
Qed.

Lemma double_low x : RN64 x = x -> (0 < x)%R -> (2 * eta <= x)%R.
Proof.
  intros E P. replace (2 * eta)%R with (bpow radix2 (-1074)).
  - apply (generic_format_ge_bpow radix2 (FLT_exp (-1074) 53)); auto.
    + intros e. unfold FLT_exp. lia.
    + rewrite <- E. apply generic_format_round; [apply FLT_exp_valid; reflexivity|apply valid_rnd_N].
  - unfold eta. replace 2%R with (bpow radix2 1) by reflexivity. rewrite <- bpow_plus. reflexivity.
Qed.

Lemma eta_small : (0 < eta <= / 2 ^ 40)%R.
Proof.
  unfold eta. split; [apply bpow_gt_0|]. replace (/ 2 ^ 40)%R with (bpow radix2 (-40)).
  - apply bpow_le. lia.
  - cbn. f_equal. lra.
Qed.

Lemma quotient_bound x nrm : RN64 nrm = nrm -> (sq64 x <= nrm)%R -> (0 <= nrm)%R -> RN64 (sqrt nrm) <> 0%R -> (Rabs (RN64 (x / RN64 (sqrt nrm))) <= 5 / 4)%R.
Proof.
  intros Ed Hx H0 Nz. pose proof u64_small as [U0 U1]. pose proof eta_small as [E0 E1].
  assert (U2 : (/ 2 ^ 40 <= / 1000000)%R) by (apply Rinv_le_contravar; lra).
  assert (P : (0 < nrm)%R). { destruct H0 as [H0|H0]; auto. exfalso. apply Nz. rewrite <- H0, sqrt_0. apply RN64_0. }
  pose proof (double_low nrm Ed P) as Low.
  pose proof (RN64_err (x * x)) as Ex. fold (sq64 x) in Ex. rewrite (Rabs_pos_eq (x * x)) in Ex by apply Rle_0_sqr. apply Rabs_le_inv in Ex.
  assert (X2 : (x * x * (1 - / 1000000) <= 3 / 2 * nrm)%R).
  { assert (u64 * (x * x) <= / 1000000 * (x * x))%R by (apply Rmult_le_compat_r; [apply Rle_0_sqr|lra]). lra. }
  assert (S0 : (0 < sqrt nrm)%R) by (apply sqrt_lt_R0; auto).
  assert (SS : (sqrt nrm * sqrt nrm = nrm)%R) by (apply sqrt_sqrt; lra).
  set (r := sqrt nrm) in *.
  assert (R1 : (1000 * eta <= r)%R).
  { destruct (Rle_dec (1000 * eta) r) as [|N]; auto. exfalso. assert (r <= 1000 * eta)%R by lra.
    assert (r * r <= 1000 * eta * (1000 * eta))%R by (apply Rmult_le_compat; lra).
    assert (1000 * eta * (1000 * eta) <= 1000 * 1000 * / 2 ^ 40 * eta)%R.
    { replace (1000 * eta * (1000 * eta))%R with (1000 * 1000 * eta * eta)%R by ring. apply Rmult_le_compat_r; lra. }
    assert (1000 * 1000 * / 2 ^ 40 * eta <= 1 * eta)%R by (apply Rmult_le_compat_r; lra). lra. }
  pose proof (RN64_err r) as Er. rewrite (Rabs_pos_eq r) in Er by lra. apply Rabs_le_inv in Er.
  set (d := RN64 r) in *.
  assert (D1 : (99 / 100 * r <= d)%R). { assert (u64 * r <= / 1000000 * r)%R by (apply Rmult_le_compat_r; lra). lra. }
  assert (X3 : (Rabs x <= 5 / 4 * (99 / 100) * (99 / 100) * (101 / 100) * r)%R).
  { apply Rsqr_incr_0_var; [|lra]. rewrite <- Rsqr_abs. unfold Rsqr.
    replace (5 / 4 * (99 / 100) * (99 / 100) * (101 / 100) * r * (5 / 4 * (99 / 100) * (99 / 100) * (101 / 100) * r))%R
      with (5 / 4 * (99 / 100) * (99 / 100) * (101 / 100) * (5 / 4 * (99 / 100) * (99 / 100) * (101 / 100)) * (r * r))%R by ring.
    rewrite SS. lra. }
  assert (Q : (Rabs (x / d) <= 5 / 4 * (99 / 100) * (101 / 100))%R).
  { unfold Rdiv at 1. rewrite Rabs_mult, (Rabs_pos_eq (/ d)) by (apply Rlt_le, Rinv_0_lt_compat; lra).
    apply (Rmult_le_reg_r d); [lra|]. rewrite Rmult_assoc, Rinv_l, Rmult_1_r by lra. lra. }
  pose proof (RN64_err (x / d)) as Eq. set (y := (x / d)%R) in *.
  replace (RN64 y) with (y + (RN64 y - y))%R by ring. eapply Rle_trans; [apply Rabs_triang|].
  assert (u64 * Rabs y <= / 1000000 * Rabs y)%R by (apply Rmult_le_compat_r; [apply Rabs_pos|lra]). lra.
Qed.

(** ** Two workspaces *)
Section Same.
Variables (n1 n2 a b m n : Z).
Hypotheses (Hm : Z.abs m <= a) (Hn : Z.abs n <= b) (Hab : a + b <= 1447) (H1 : a + b < n1) (H2 : a + b < n2).
Notation jmin := (jlo a b m n).
Notation jmax := (a + b).
Let M := - (m + n).

Lemma jmin0 : 0 <= jmin.
Proof. unfold jlo. lia. Qed.

Definition sim (ws ws' : arr R) : Prop :=
  alen ws = 4 * n1 /\ alen ws' = 4 * n2
  /\ (forall blk k, 0 <= blk <= 3 -> 0 <= k <= jmax -> get n1 ws blk k = get n2 ws' blk k)
  /\ (forall k, 0 <= k < n1 -> k < jmin \/ jmax < k -> get n1 ws 0 k = 0%R)
  /\ (forall k, 0 <= k < n2 -> k < jmin \/ jmax < k -> get n2 ws' 0 k = 0%R).

Lemma sim_rd ws ws' blk i : sim ws ws' -> 0 <= blk <= 3 -> 0 <= i <= jmax ->
  rel eq (rdv ws (slot n1 (4 * n1) blk) i) (rdv ws' (slot n2 (4 * n2) blk) i).
Proof.
  intros (L1 & L2 & G & _ & _) Hb Hi. rewrite !rdv_ok by (auto; lia). cbn. apply G; auto.
Qed.

Lemma sim_wr ws ws' blk i x : sim ws ws' -> 0 <= blk <= 3 -> 0 <= i <= jmax -> (blk = 0 -> jmin <= i) ->
  rel sim (wrv ws (slot n1 (4 * n1) blk) i x) (wrv ws' (slot n2 (4 * n2) blk) i x).
Proof.
  intros (L1 & L2 & G & O1 & O2) Hb Hi H0. rewrite !wrv_ok by (auto; lia). cbn.
  split; [auto|]. split; [auto|]. split; [|split].
  - intros bk k Hbk Hk. destruct (Z.eq_dec bk blk) as [->|Nb].
    + destruct (Z.eq_dec k i) as [->|Nk]; [now rewrite !get_put_same|]. rewrite !get_put_i by auto. auto.
    + rewrite !get_put_b by (auto; lia). auto.
  - intros k Hk Ho. destruct (Z.eq_dec blk 0) as [->|Nb].
    + rewrite get_put_i by lia. auto.
    + rewrite get_put_b by lia. auto.
  - intros k Hk Ho. destruct (Z.eq_dec blk 0) as [->|Nb].
    + rewrite get_put_i by lia. auto.
    + rewrite get_put_b by lia. auto.
Qed.

Lemma sim_slice ws ws' blk lo hi e e' : sim ws ws' -> 0 <= blk <= 3 -> 0 <= lo -> lo <= hi -> hi <= jmax + 1 -> (blk = 0 -> jmin <= lo) ->
  (forall k, lo <= k < hi -> e k = e' k) ->
  rel sim (wrv_slice ws (slot n1 (4 * n1) blk) lo hi e) (wrv_slice ws' (slot n2 (4 * n2) blk) lo hi e').
Proof.
  intros (L1 & L2 & G & O1 & O2) Hb Hlo Hlh Hhi H0 He.
  destruct (wrv_slice_ok n1 ltac:(lia) ws blk lo hi e) as (w1 & E1 & A1 & S1 & F1); auto; try lia.
  destruct (wrv_slice_ok n2 ltac:(lia) ws' blk lo hi e') as (w2 & E2 & A2 & S2 & F2); auto; try lia.
  rewrite E1, E2. cbn. split; [auto|]. split; [auto|]. split; [|split].
  - intros bk k Hbk Hk. destruct (Z.eq_dec bk blk) as [->|Nb].
    + rewrite S1, S2 by lia. destruct (Z.leb_spec lo k); destruct (Z.ltb_spec k hi); cbn [andb]; auto.
    + rewrite F1, F2 by (auto; lia). auto.
  - intros k Hk Ho. destruct (Z.eq_dec blk 0) as [->|Nb].
    + rewrite S1 by lia. destruct (Z.leb_spec lo k); destruct (Z.ltb_spec k hi); cbn [andb]; auto; lia.
    + rewrite F1 by (auto; lia). auto.
  - intros k Hk Ho. destruct (Z.eq_dec blk 0) as [->|Nb].
    + rewrite S2 by lia. destruct (Z.leb_spec lo k); destruct (Z.ltb_spec k hi); cbn [andb]; auto; lia.
    + rewrite F2 by (auto; lia). auto.
Qed.

Lemma sim_vget ws ws' blk k : sim ws ws' -> 0 <= blk <= 3 -> 0 <= k <= jmax ->
  vget ws (slot n1 (4 * n1) blk) k = vget ws' (slot n2 (4 * n2) blk) k.
Proof. intros (L1 & L2 & G & _ & _) Hb Hk. rewrite !vget_slot by lia. auto. Qed.

Hypothesis Hlt : jmin < jmax.

Lemma X_ok j : jmin <= j <= jmax -> Xf64 fixed j a b M = Ok (x64 a b m n j).
Proof. intros H. unfold Xf64, M. rewrite A64_fixed by (auto; lia). reflexivity. Qed.
Lemma Z_ok j : jmin <= j <= jmax -> Zf64 fixed j a b M = Ok (z64 a b m n j).
Proof. intros H. unfold Zf64, M. rewrite A64_fixed by (auto; lia). reflexivity. Qed.

Ltac rd := apply (rel_bind eq); [apply sim_rd; auto; lia|intros ? ? <-].
Ltac dv := apply (rel_bind eq); [apply rel_div|intros ? ? <-].
Ltac wrt := apply (rel_bind sim); [apply sim_wr; auto; lia|intros ? ? ?].

Ltac fn := cbn; split; [assumption|]; repeat split; auto; try lia; try (intros; discriminate); try (intros; exfalso; auto; fail).

Definition simj (s t : arr R * Z) : Prop := sim (fst s) (fst t) /\ snd s = snd t /\ jmin <= snd s <= jmax.

Lemma forward_body_same j s t : jmin + 1 <= j < jmax -> simj s t ->
  rel (stops simj) (forward_body64 fixed n1 a b m n j s) (forward_body64 fixed n2 a b m n j t).
Proof.
  pose proof jmin0 as J0. intros Hj (S & E & Bd). destruct s as [ws k], t as [ws' k']. cbn [fst snd] in *. subst k'.
  unfold forward_body64. fold M. rewrite Z_ok by lia. cbn [bind]. rd. rewrite X_ok by lia. cbn [bind].
  match goal with |- context [if ?c then _ else _] => destruct c end.
  - cbn. split; [reflexivity|]. split; [exact S|]. cbn. split; [reflexivity|lia].
  - dv. wrt. cbn. split; [reflexivity|]. split; [auto|]. cbn. auto.
Qed.

Definition simf (s t : arr R * Z * bool) : Prop :=
  let '(ws, j, u) := s in let '(ws', j', u') := t in
  sim ws ws' /\ j = j' /\ u = u' /\ jmin <= j <= jmax /\ (u = false -> jmin < j) /\ (u = false -> jmin = 0 -> m = 0 /\ n = 0 /\ j = 1).

Lemma zero_case : jmin = 0 -> Yf64 fixed 0 a b m n = 0%R /\ x64 a b m n 0 = 0%R.
Proof.
  intros J. split.
  - unfold Yf64, B. cbn [wB fixed]. unfold jlo in J. replace (m + n) with 0 by lia.
    replace ((2 * 0 + 1) * (0 * (a * (a + 1) - b * (b + 1)) - (m - n) * 0 * (0 + 1))) with 0 by ring.
    change (wrap 32 0) with 0. apply RN64_0.
  - unfold x64. rewrite RN64_0, Rmult_0_l. apply RN64_0.
Qed.

Lemma forward_same ws ws' : sim ws ws' -> rel simf (forward64 fixed n1 a b m n ws) (forward64 fixed n2 a b m n ws').
Proof.
  pose proof jmin0 as J0. intros S. unfold forward64. fold M.
  change (Z.max (Z.abs (a - b)) (Z.abs (m + n))) with jmin.
  rewrite X_ok by lia. cbn [bind].
  destruct ((M =? 0) && (m =? 0) && (n =? 0)) eqn:EZ.
  { wrt. wrt. cbn. split; [auto|]. split; [auto|]. split; [auto|]. split; [lia|]. split; [lia|]. intros _ J.
    apply andb_prop in EZ. destruct EZ as [EZ En]. apply andb_prop in EZ. destruct EZ as [_ Em]. lia. }
  assert (Nz : forall x : Prop, jmin = 0 -> Reqb (Yf64 fixed jmin a b m n) 0 = true /\ (Reqb (x64 a b m n jmin) 0 = false -> x)).
  { intros x J. rewrite J. destruct (zero_case J) as [-> ->]. split; destruct (Reqb_spec 0 0); try tauto; discriminate. }
  destruct (Reqb (Yf64 fixed jmin a b m n) 0) eqn:EY.
  { destruct (Reqb (x64 a b m n jmin) 0) eqn:EX.
    - fn.
    - wrt. wrt. cbn. split; [auto|]. split; [auto|]. split; [auto|]. split; [lia|]. split; [lia|]. intros _ J.
      destruct (Nz (m = 0 /\ n = 0 /\ jmin + 1 = 1) J); auto. }
  assert (Jp : 0 < jmin). { destruct (Z.eq_dec jmin 0) as [J|]; [|lia]. destruct (Nz False J); discriminate. }
  destruct (Rleb 0 (RN64 (x64 a b m n jmin * Yf64 fixed jmin a b m n))).
  { wrt. dv. wrt. fn. }
  dv. wrt. apply (rel_bind simj).
  { apply rel_range_brk.
    - split; [auto|]. cbn. split; [reflexivity|lia].
    - intros j s t Hj Q. apply forward_body_same; auto. }
  intros [w1 k] [w2 k'] (S1 & E & Bd). cbn [fst snd] in *. subst k'.
  wrt. apply (rel_bind sim).
  { apply rel_range; auto. intros j s t Hj Q. rd. rd. apply sim_wr; auto; lia. }
  intros w3 w4 S2. destruct (Z.eqb_spec k jmin) as [E|Ne].
  - dv. wrt. fn.
  - fn.
Qed.

Lemma reverse_body_same j s t : jmin <= j < jmax -> simj s t ->
  rel (stops simj) (reverse_body64 fixed n1 a b m n j s) (reverse_body64 fixed n2 a b m n j t).
Proof.
  pose proof jmin0 as J0. intros Hj (S & E & Bd). destruct s as [ws k], t as [ws' k']. cbn [fst snd] in *. subst k'.
  unfold reverse_body64. fold M. rewrite X_ok by lia. cbn [bind]. rd. rewrite Z_ok by lia. cbn [bind].
  match goal with |- context [if ?c then _ else _] => destruct c end.
  - cbn. split; [reflexivity|]. split; [exact S|]. cbn. split; [reflexivity|lia].
  - dv. wrt. cbn. split; [reflexivity|]. split; [auto|]. cbn. auto.
Qed.

Definition simr (s t : arr R * Z * bool) : Prop :=
  let '(ws, j, u) := s in let '(ws', j', u') := t in
  sim ws ws' /\ j = j' /\ u = false /\ u' = false /\ jmin <= j < jmax /\ (m = 0 -> n = 0 -> j = jmax - 1).

Lemma top_z : z64 a b m n jmax <> 0%R.
Proof.
  destruct (z64_lg a b m n) with (j := jmax) as [L P]; auto; try lia. apply (lg_neq _ _ _ L). lra.
Qed.

Lemma reverse_same ws ws' jm : sim ws ws' -> jmin <= jm < jmax -> rel simr (reverse64 fixed n1 a b m n ws jm) (reverse64 fixed n2 a b m n ws' jm).
Proof.
  pose proof jmin0 as J0. intros S Hj. unfold reverse64. fold M.
  change (Z.max (Z.abs (a - b)) (Z.abs (m + n))) with jmin.
  rewrite Z_ok by lia. cbn [bind]. pose proof top_z as Tz.
  destruct ((M =? 0) && (m =? 0) && (n =? 0)) eqn:EZ.
  { wrt. wrt. fn. }
  assert (Nz : m = 0 -> n = 0 -> False). { intros -> ->. unfold M in EZ. discriminate. }
  destruct (Reqb (Yf64 fixed jmax a b m n) 0).
  { destruct (Reqb_spec (z64 a b m n jmax) 0) as [E|_]; [tauto|].
    wrt. dv. wrt. fn. }
  destruct (Rleb 0 (RN64 (Yf64 fixed jmax a b m n * z64 a b m n jmax))).
  { wrt. dv. wrt. fn. }
  dv. wrt. apply (rel_bind simj).
  { apply rel_down_brk.
    - split; [auto|]. cbn. split; [reflexivity|lia].
    - intros j s t Hj' Q. apply reverse_body_same; auto. lia. }
  intros [w1 k] [w2 k'] (S1 & E & Bd). cbn [fst snd] in *. subst k'.
  wrt. apply (rel_bind sim).
  { apply rel_range; auto. intros j s t Hj' Q. rd. rd. apply sim_wr; auto; lia. }
  intros w3 w4 S2. destruct (Z.eqb_spec k jmax) as [E|Ne].
  - dv. wrt. fn.
  - fn.
Qed.

Lemma step_up_same ws ws' j : sim ws ws' -> jmin < j < jmax -> rel sim (step_up64 fixed n1 a b m n ws j) (step_up64 fixed n2 a b m n ws' j).
Proof.
  pose proof jmin0 as J0. intros S Hj. unfold step_up64. fold M. rd. rewrite Z_ok by lia. cbn [bind]. rd. rewrite X_ok by lia. cbn [bind].
  dv. apply sim_wr; auto; lia.
Qed.
Lemma step_down_same ws ws' j : sim ws ws' -> jmin <= j < jmax -> 1 <= j -> rel sim (step_down64 fixed n1 a b m n ws j) (step_down64 fixed n2 a b m n ws' j).
Proof.
  pose proof jmin0 as J0. intros S Hj Hj1. unfold step_down64. fold M. rewrite X_ok by lia. cbn [bind]. rd. rd. rewrite Z_ok by lia. cbn [bind].
  dv. apply sim_wr; auto; lia.
Qed.
Lemma rescale_up_same ws ws' j : sim ws ws' -> jmin < j < jmax -> rel sim (rescale_up64 n1 a b m n ws j) (rescale_up64 n2 a b m n ws' j).
Proof.
  pose proof jmin0 as J0. intros S Hj. unfold rescale_up64. change (Z.max (Z.abs (a - b)) (Z.abs (m + n))) with jmin. rd.
  destruct (Rltb _ _); [|exact S]. apply sim_slice; auto; try lia. intros k Hk. rewrite (sim_vget ws ws') by (auto; lia). reflexivity.
Qed.
Lemma rescale_down_same ws ws' j : sim ws ws' -> jmin <= j < jmax -> 1 <= j -> rel sim (rescale_down64 n1 a b ws j) (rescale_down64 n2 a b ws' j).
Proof.
  pose proof jmin0 as J0. intros S Hj Hj1. unfold rescale_down64. rd.
  destruct (Rltb _ _); [|exact S]. apply sim_slice; auto; try lia. intros k Hk. rewrite (sim_vget ws ws') by (auto; lia). reflexivity.
Qed.

Lemma middle_same j s t : jmin < j < jmax -> simj s t -> jmin < jmax ->
  rel (stops simj) (middle_body64 fixed n1 a b m n j s) (middle_body64 fixed n2 a b m n j t).
Proof.
  pose proof jmin0 as J0. intros Hj (S & E & Bd) _. destruct s as [ws k], t as [ws' k']. cbn [fst snd] in *. subst k'.
  unfold middle_body64. apply (rel_bind sim); [apply step_up_same; auto|intros w1 w2 S1].
  apply (rel_bind sim); [apply rescale_up_same; auto|intros w3 w4 S2]. rd. rd. dv.
  match goal with |- context [if ?c then _ else _] => destruct c end.
  - cbn. split; [reflexivity|]. split; [auto|]. cbn. split; [reflexivity|lia].
  - cbn. split; [reflexivity|]. split; [auto|]. cbn. auto.
Qed.

Lemma downs_same jp lo ws ws' : sim ws ws' -> jp < jmax -> jmin - 1 <= lo -> 0 <= lo ->
  rel sim (for_down jp lo (fun j ws => do ws <- step_down64 fixed n1 a b m n ws j; rescale_down64 n1 a b ws j) ws)
          (for_down jp lo (fun j ws => do ws <- step_down64 fixed n2 a b m n ws j; rescale_down64 n2 a b ws j) ws').
Proof.
  intros S Hp Hlo Hlo0. apply rel_down; auto. intros j s t Hj Q.
  apply (rel_bind sim); [apply step_down_same; auto; lia|intros w1 w2 S1]. apply rescale_down_same; auto; lia.
Qed.

Lemma meet_same ws ws' jm jp : sim ws ws' -> jmin < jm < jmax -> jmin <= jp < jmax -> (jmin = 0 -> jm = 1 /\ jp = jmax - 1) ->
  rel sim (meet64 fixed n1 a b m n ws jm jp) (meet64 fixed n2 a b m n ws' jm jp).
Proof.
  pose proof jmin0 as J0. intros S Hjm Hjp Hz. unfold meet64.
  change (Z.max (Z.abs (a - b)) (Z.abs (m + n))) with jmin.
  assert (Hmid : jmin <= (jm + jp) / 2 <= jmax - 1 /\ 1 <= (jm + jp) / 2).
  { assert (jm + jp - 1 <= 2 * ((jm + jp) / 2) <= jm + jp) by (pose proof (Z.div_mod (jm + jp) 2); pose proof (Z.mod_pos_bound (jm + jp) 2); lia). lia. }
  apply (rel_bind (fun s t => simj s t /\ 1 <= snd s)).
  { apply rel_range_brk.
    - split; [split; [auto|]; cbn; split; [reflexivity|lia]|cbn; lia].
    - intros j s t Hj [Q Q1]. pose proof (middle_same j s t ltac:(lia) Q Hlt) as R. revert R.
      unfold middle_body64. destruct s as [ws1 k1], t as [ws2 k2]. cbn [snd] in Q1.
      repeat match goal with |- rel _ (bind ?x _) (bind ?y _) -> _ => destruct x; destruct y; cbn [bind]; try (cbn; tauto) end.
      intros R.
      repeat match goal with |- context [if ?c then _ else _] => destruct c end; cbn in R |- *; unfold stops in *; cbn in *; try tauto;
        destruct R as [R0 R1]; repeat split; auto; try apply R1; try lia. }
  intros [w1 k] [w2 k'] [(S1 & E & Bd) K1]. cbn [fst snd] in *. subst k'.
  rd. rd.
  apply (rel_bind (fun p q : Z * R => p = q /\ jmin - 1 <= fst p <= jmax /\ 0 <= fst p)).
  { destruct (Reqb _ 0); [cbn; repeat split; auto; lia|]. dv. destruct (Rltb _ _); [|cbn; repeat split; auto; lia].
    rd. cbn. repeat split; auto; lia. }
  intros [k1 x1] [k2 x2] (E & Bk & Bk0). injection E as <- <-. cbn [fst] in *.
  apply (rel_bind sim); [apply downs_same; auto; lia|]. intros w3 w4 S3. rd.
  destruct (k1 =? jmax); [apply sim_slice; auto; try lia; intros i Hi; apply sim_vget; auto; lia|].
  destruct (k1 =? jmin); [apply sim_slice; auto; try lia; intros i Hi; apply sim_vget; auto; lia|].
  destruct (Reqb x1 0); [cbn; auto|].
  apply (rel_bind sim).
  { apply sim_slice; auto; try lia. intros i Hi. rewrite (sim_vget w3 w4) by (auto; lia). reflexivity. }
  intros w5 w6 S5. destruct (Z.eq_dec k1 jmax) as [->|].
  - apply sim_slice; auto; try lia.
  - apply sim_slice; auto; try lia. intros i Hi. apply sim_vget; auto; lia.
Qed.

Lemma up_same ws ws' jm jp : sim ws ws' -> jmin < jm -> jp <= jmax -> rel sim (up_only64 fixed n1 a b m n ws jm jp) (up_only64 fixed n2 a b m n ws' jm jp).
Proof.
  pose proof jmin0 as J0. intros S Hjm Hjp. unfold up_only64. change (Z.max (Z.abs (a - b)) (Z.abs (m + n))) with jmin.
  apply (rel_bind sim).
  - apply rel_range; auto. intros j s t Hj Q. apply (rel_bind sim); [apply step_up_same; auto; lia|intros w1 w2 S1]. apply rescale_up_same; auto; lia.
  - intros w1 w2 S1. apply sim_slice; auto; try lia. intros i Hi. apply sim_vget; auto; lia.
Qed.
Lemma down_same ws ws' jp : sim ws ws' -> jp < jmax -> rel sim (down_only64 fixed n1 a b m n ws jp) (down_only64 fixed n2 a b m n ws' jp).
Proof.
  pose proof jmin0 as J0. intros S Hjp. unfold down_only64. change (Z.max (Z.abs (a - b)) (Z.abs (m + n))) with jmin.
  apply (rel_bind sim); [apply downs_same; auto; lia|].
  intros w1 w2 S1. apply sim_slice; auto; try lia. intros i Hi. apply sim_vget; auto; lia.
Qed.

Definition simq (ws ws' : arr R) : Prop :=
  sim ws ws' /\ (0 <= IZR (pm1 (a - b + m + n)) * get n1 ws 0 jmax)%R /\ (forall k, jmin <= k <= jmax -> (Rabs (get n1 ws 0 k) <= 5 / 4)%R).

Lemma norm_same ws ws' : sim ws ws' ->
  rel (fun w w' => sim w w' /\ forall k, jmin <= k <= jmax -> (Rabs (get n1 w 0 k) <= 5 / 4)%R)
    (normalize64 ws (slot n1 (4 * n1) 0) jmin jmax) (normalize64 ws' (slot n2 (4 * n2) 0) jmin jmax).
Proof.
  pose proof jmin0 as J0. intros S. unfold normalize64.
  set (body := fun j norm => do x <- rdv ws (slot n1 (4 * n1) 0) j; Ok (RN64 (norm + RN64 (RN64 (IZR (2 * j + 1)) * RN64 (x * x))))).
  destruct (for_range_inv (fun i nrm => RN64 nrm = nrm /\ (0 <= nrm)%R /\ forall j, jmin <= j < i -> (sq64 (get n1 ws 0 j) <= nrm)%R) jmin (jmax + 1) body 0%R)
    as (nrm & E & Dn & Pn & Tn); try lia.
  { split; [apply RN64_0|]. split; [lra|]. intros; lia. }
  { intros i x Hi (Dx & Px & Tx). destruct S as (L1 & _). unfold body. rewrite rdv_ok by (auto; lia). cbn [bind]. eexists. split; [reflexivity|].
    set (g := get n1 ws 0 i). change (RN64 (RN64 (IZR (2 * i + 1)) * RN64 (g * g))) with (term64 i g).
    pose proof (term64_ge i g ltac:(lia)) as Tg. pose proof (sq64_nonneg g) as Sg.
    assert (Up : (x <= RN64 (x + term64 i g))%R) by (rewrite <- Dx at 1; apply RN64_mono; lra).
    assert (Ut : (term64 i g <= RN64 (x + term64 i g))%R).
    { assert (Ei : RN64 (term64 i g) = term64 i g) by apply RN64_idem. rewrite <- Ei at 1. apply RN64_mono. lra. }
    split; [apply RN64_idem|]. split; [lra|]. intros j Hj. destruct (Z.eq_dec j i) as [->|Nj]; [fold g; lra|].
    eapply Rle_trans; [apply Tx; lia|auto]. }
  match goal with |- rel _ (bind ?x _) (bind ?y _) => assert (Q : rel eq x y) end.
  { apply rel_range; [reflexivity|]. intros j s t Hj <-. apply (rel_bind eq); [apply sim_rd; auto; lia|]. intros x y <-. reflexivity. }
  rewrite E in Q |- *. clear E.
  match type of Q with rel eq _ ?y => destruct y as [nrm'|e]; [|cbn in Q; tauto] end. cbn in Q. subst nrm'. cbn [bind].
  destruct (Reqb_spec (RN64 (sqrt nrm)) 0) as [E|Ne]; [cbn; auto|].
  pose proof S as (L1 & L2 & _).
  match goal with |- rel _ ?x ?y => assert (Q : rel sim x y) end.
  { apply sim_slice; auto; try lia. intros k Hk. rewrite (sim_vget ws ws') by (auto; lia). reflexivity. }
  destruct (wrv_slice_ok n1 ltac:(lia) ws 0 jmin (jmax + 1) (fun k => RN64 (vget ws (slot n1 (4 * n1) 0) k / RN64 (sqrt nrm)))%R)
    as (w1 & E1 & A1 & S1 & F1); auto; try lia.
  rewrite E1 in *. match type of Q with rel sim _ ?y => destruct y as [w2|e]; [|cbn in Q; tauto] end. cbn in Q |- *.
  split; auto. intros k Hk. rewrite S1 by lia. destruct (Z.leb_spec jmin k); [|lia]. destruct (Z.ltb_spec k (jmax + 1)); [|lia]. cbn [andb].
  rewrite vget_slot by lia. apply quotient_bound; auto.
Qed.

Lemma finish_same ws ws' : sim ws ws' -> rel simq (finish64 n1 a b m n ws) (finish64 n2 a b m n ws').
Proof.
  pose proof jmin0 as J0. intros S. unfold finish64. change (Z.max (Z.abs (a - b)) (Z.abs (m + n))) with jmin.
  apply (rel_bind (fun w w' => sim w w' /\ forall k, jmin <= k <= jmax -> (Rabs (get n1 w 0 k) <= 5 / 4)%R)); [apply norm_same; auto|].
  intros w1 w2 [S1 B1]. pose proof S1 as (L1 & L2 & G1 & _). unfold determine_signs. rewrite !rdv_ok by (auto; lia). cbn [bind].
  rewrite <- (G1 0 jmax) by lia. set (x := get n1 w1 0 jmax).
  assert (Hpm : pm1 (a - b + m + n) = 1 \/ pm1 (a - b + m + n) = -1) by (unfold pm1; destruct (Z.even _); auto).
  set (s := pm1 (a - b + m + n)) in *.
  match goal with |- context [if ?c then _ else _] => destruct c eqn:EC end.
  - match goal with |- rel _ ?y ?z => assert (Q : rel sim y z) end.
    { apply sim_slice; auto; try lia. intros k Hk. rewrite (sim_vget w1 w2) by (auto; lia). reflexivity. }
    destruct (wrv_slice_ok n1 ltac:(lia) w1 0 jmin (jmax + 1) (fun k => vget w1 (slot n1 (4 * n1) 0) k * -1)%R) as (w3 & E3 & A3 & S3 & F3); auto; try lia.
    rewrite E3 in *. match type of Q with rel sim _ ?y => destruct y as [w4|e]; [|cbn in Q; tauto] end. cbn in Q |- *.
    assert (V : forall k, jmin <= k <= jmax -> get n1 w3 0 k = (- get n1 w1 0 k)%R).
    { intros k Hk. rewrite S3 by lia. destruct (Z.leb_spec jmin k); [|lia]. destruct (Z.ltb_spec k (jmax + 1)); [|lia]. cbn [andb].
      rewrite vget_slot by lia. ring. }
    split; auto. split.
    + fold s. rewrite V by lia. fold x. apply orb_prop in EC. destruct EC as [EC|EC]; apply andb_prop in EC; destruct EC as [EC1 EC2].
      * destruct (Rltb_spec x 0); [|discriminate]. destruct Hpm as [-> | Hp]; [lra|rewrite Hp in EC2; discriminate].
      * destruct (Rltb_spec 0 x); [|discriminate]. destruct Hpm as [Hp | ->]; [rewrite Hp in EC2; discriminate|lra].
    + intros k Hk. rewrite V, Rabs_Ropp by lia. apply B1; lia.
  - cbn. split; auto. split; auto. fold s x. apply orb_false_elim in EC. destruct EC as [EC1 EC2].
    destruct Hpm as [Hp|Hp]; rewrite Hp in *; cbn in EC1, EC2.
    + rewrite andb_true_r in EC1. destruct (Rltb_spec x 0); [discriminate|lra].
    + rewrite andb_true_r in EC2. destruct (Rltb_spec 0 x); [discriminate|lra].
Qed.
End Same.

(** ** The whole calculation *)
Lemma zeros_sim n1 n2 a b m n : sim n1 n2 a b m n (mkarr (4 * n1) (fun _ => 0%R)) (mkarr (4 * n2) (fun _ => 0%R)).
Proof. repeat split; reflexivity. Qed.

Lemma calculate_same n1 n2 a b m n ws ws' : a + b <= 1447 -> (Z.abs m <= a -> Z.abs n <= b -> a + b < n1 /\ a + b < n2) ->
  alen ws = 4 * n1 -> alen ws' = 4 * n2 ->
  rel (simq n1 n2 a b m n) (calculate_ws64 fixed n1 a b m n ws) (calculate_ws64 fixed n2 a b m n ws')
  \/ (~ tj_allowed (a + b) a b (- m - n) m n /\ calculate_ws64 fixed n1 a b m n ws = Ok (mkarr (4 * n1) (fun _ => 0%R)) /\ calculate_ws64 fixed n2 a b m n ws' = Ok (mkarr (4 * n2) (fun _ => 0%R))).
Proof.
  intros Hab Hsz L1 L2. unfold calculate_ws64. cbv zeta. rewrite L1, L2. clear L1 L2 ws ws'.
  change (Z.max (Z.abs (a - b)) (Z.abs (m + n))) with (jlo a b m n).
  destruct (Z.gtb_spec (Z.abs m) a); [right; cbn [orb]; split; [unfold tj_allowed; lia|auto]|].
  destruct (Z.gtb_spec (Z.abs n) b); [right; cbn [orb]; split; [unfold tj_allowed; lia|auto]|]. cbn [orb].
  destruct Hsz as [H1 H2]; auto. pose proof (zeros_sim n1 n2 a b m n) as S.
  assert (J : 0 <= jlo a b m n <= a + b) by (unfold jlo; lia).
  destruct (Z.ltb_spec (a + b) (jlo a b m n)); [lia|]. left.
  destruct (Z.eqb_spec (a + b) (jlo a b m n)) as [EJ|NJ].
  { rewrite <- EJ. set (d := RN64 (sqrt (RN64 (RN64 (2 * RN64 (IZR (a + b))) + 1)))).
    unfold fdiv64. destruct (Reqb_spec d 0) as [E|Nz]; [cbn; auto|]. cbn [bind].
    set (q := RN64 (1 / d)).
    assert (Q0 : (0 <= q)%R).
    { unfold q. rewrite <- RN64_0. apply RN64_mono. apply Rmult_le_pos; [lra|]. apply Rlt_le, Rinv_0_lt_compat.
      assert (0 <= d)%R by (unfold d; rewrite <- RN64_0; apply RN64_mono, sqrt_pos). lra. }
    assert (Q1 : (Rabs q <= 5 / 4)%R).
    { assert (D1 : (1 <= d)%R).
      { unfold d. rewrite <- (RN64_int 1) at 1 by lia. apply RN64_mono. rewrite <- sqrt_1 at 1. apply sqrt_le_1_alt.
        rewrite <- (RN64_int 1) at 1 by lia. apply RN64_mono.
        assert (0 <= RN64 (2 * RN64 (IZR (a + b))))%R; [|lra]. rewrite <- RN64_0. apply RN64_mono.
        assert (0 <= RN64 (IZR (a + b)))%R; [|lra]. rewrite <- RN64_0. apply RN64_mono, (IZR_le 0). lia. }
      rewrite Rabs_pos_eq by auto. apply Rle_trans with 1%R; [|lra]. unfold q. assert (E1 : RN64 1 = 1%R) by (apply (RN64_int 1); lia). rewrite <- E1 at 2. apply RN64_mono.
      unfold Rdiv. rewrite Rmult_1_l. rewrite <- Rinv_1. apply Rinv_le_contravar; lra. }
    match goal with |- rel _ (bind ?x _) (bind ?y _) => assert (S1 : rel (sim n1 n2 a b m n) x y) end.
    { apply sim_wr; auto; lia. }
    rewrite !wrv_ok in * by (try reflexivity; lia). cbn [bind] in *. cbn [rel] in S1.
    rewrite !rdv_ok by (try reflexivity; lia). cbn [bind]. rewrite !get_put_same.
    assert (Hpm : pm1 (a - b + m + n) = 1 \/ pm1 (a - b + m + n) = -1) by (unfold pm1; destruct (Z.even _); auto).
    assert (Fin : forall v w w', sim n1 n2 a b m n w w' -> get n1 w 0 (a + b) = v -> (0 <= IZR (pm1 (a - b + m + n)) * v)%R -> (Rabs v <= 5 / 4)%R -> simq n1 n2 a b m n w w').
    { intros v w w' Sw Ev Hv Bv. split; auto. split; [rewrite Ev; auto|]. intros k Hk. replace k with (a + b) by lia. rewrite Ev. auto. }
    destruct (Rltb_spec q 0) as [|_]; [lra|]. cbn [andb orb].
    destruct Hpm as [Hp|Hp]; rewrite Hp in Fin |- *; cbn [Z.ltb Z.compare].
    - rewrite andb_false_r. cbn. apply (Fin q); auto; [apply get_put_same|lra].
    - rewrite andb_true_r. destruct (Rltb_spec 0 q) as [Qp|Qn].
      + rewrite !wrv_ok by (try reflexivity; lia). cbn. apply (Fin (q * -1)%R); [|apply get_put_same|lra|].
        * pose proof (sim_wr n1 n2 a b m n H H0 H1 H2 _ _ 0 (a + b) (q * -1)%R S1 ltac:(lia) ltac:(lia) ltac:(lia)) as S2.
          rewrite !wrv_ok in S2 by (try reflexivity; lia). exact S2.
        * replace (q * -1)%R with (- q)%R by ring. rewrite Rabs_Ropp. auto.
      + cbn. apply (Fin q); auto; [apply get_put_same|]. lra. }
  assert (Hlt : jlo a b m n < a + b) by lia.
  apply (rel_bind (simf n1 n2 a b m n)); [apply forward_same; auto|].
  intros [[w1 jm] um] [[w2 jm'] um'] (S1 & <- & <- & Bj & Uj & U0).
  destruct (Z.eqb_spec jm (a + b)) as [Ej|Nj].
  { apply (rel_bind (sim n1 n2 a b m n)).
    - apply sim_slice; auto; try lia. intros k Hk. apply (sim_vget n1 n2 a b m n); auto; lia.
    - intros w3 w4 S3. apply finish_same; auto. }
  apply (rel_bind (simr n1 n2 a b m n)); [apply reverse_same; auto; lia|].
  intros [[w3 jp] ux] [[w4 jp'] ux'] (S3 & <- & -> & -> & Bp & Z0).
  rewrite andb_false_r. cbn [negb]. rewrite andb_true_r, andb_false_r.
  apply (rel_bind (sim n1 n2 a b m n)); [|intros w5 w6 S5; apply finish_same; auto].
  destruct um; cbn [negb].
  - apply down_same; auto; lia.
  - apply meet_same; auto; lia.
Qed.
