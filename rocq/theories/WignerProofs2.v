(** [_Wigner_D_element]: every row of the output is Wigner's formula. *)
Require Import ZArith Lia Reals Lra Bool.
From Coquelicot Require Import Complex.
From Verif Require Import Base BaseProofs CBase CSum RSum Fact SymPow WignerSpec DRep IndexModel IndexProofs IndexProofs2
  WignerModel WignerProofs.
Open Scope R_scope.

Ltac izr := repeat first [rewrite minus_IZR | rewrite plus_IZR | rewrite mult_IZR | rewrite opp_IZR].

Lemma Rleb_true x y : Rleb x y = true <-> x <= y.
Proof. unfold Rleb. destruct (Rle_dec x y); split; auto; congruence. Qed.
Lemma Rltb_true x y : Rltb x y = true <-> x < y.
Proof. unfold Rltb. destruct (Rlt_dec x y); split; auto; congruence. Qed.
Lemma C_is_zero_true z : C_is_zero z = true <-> z = RtoC 0.
Proof.
  unfold C_is_zero. destruct z as [x y]. simpl. destruct (Req_EM_T x 0), (Req_EM_T y 0); split; auto; try congruence.
  all: try (intros H; injection H; intros; congruence). intros _. subst. reflexivity.
Qed.
Lemma R_is_zero_true x : R_is_zero x = true <-> x = 0.
Proof. unfold R_is_zero. destruct (Req_EM_T x 0); split; auto; congruence. Qed.

Lemma table_lookup L tab N p q : is_Wigner_table L tab -> (0 <= N <= 2 * L)%Z -> (0 <= p <= N)%Z -> (0 <= q <= N)%Z ->
  Wigner_lookup tab N (2 * p - N) (2 * q - N) =
  Ok (sqrt (wt N q / wt N p) * bin p (Tlo p q) * bin (N - p) (N - q - Tlo p q))%R.
Proof.
  intros (g & G) HN Hp Hq.
  destruct (Wigner_table_ok Wigner_entry g L ltac:(lia)) as (tab' & G' & H).
  rewrite G in G'. injection G' as <-.
  destruct (D_indices_pq N p q Hp Hq) as (_ & _ & E1 & E2).
  rewrite H by (auto; lia). f_equal. unfold Wigner_entry, wt.
  replace (N + (2 * q - N))%Z with (q * 2)%Z by lia. replace (N - (2 * q - N))%Z with ((N - q) * 2)%Z by lia.
  replace (N + (2 * p - N))%Z with (p * 2)%Z by lia. replace (N - (2 * p - N))%Z with ((N - p) * 2)%Z by lia.
  replace (Z.max 0 (2 * p - N - (2 * q - N)))%Z with (Tlo p q * 2)%Z by (unfold Tlo; lia).
  replace ((N - q) * 2 - Tlo p q * 2)%Z with ((N - q - Tlo p q) * 2)%Z by lia.
  rewrite !Z.div_mul by lia. reflexivity.
Qed.

Lemma mod4_even k : ((2 * k) mod 4 =? 0)%Z = Z.even k.
Proof.
  replace 4%Z with (2 * 2)%Z by lia. rewrite Z.mul_mod_distr_l by lia.
  rewrite Zmod_even. destruct (Z.even k); reflexivity.
Qed.
Lemma mod2_even k : (k mod 2 =? 0)%Z = Z.even k.
Proof. rewrite Zmod_even. destruct (Z.even k); reflexivity. Qed.

Lemma sgn_if (k : Z) (z : C) : (if negb (Z.even k) then (z * RtoC (-1))%C else z) = (RtoC (sgn k) * z)%C.
Proof. unfold sgn. destruct (Z.even k); cbn [negb]; rewrite ?RtoC_opp; ring. Qed.
Lemma sgn_ifR (k : Z) (d : R) : (if negb (Z.even k) then d * -1 else d) = sgn k * d.
Proof. unfold sgn. destruct (Z.even k); cbn [negb]; ring. Qed.

Lemma wt_flip N p : wt N (N - p) = wt N p.
Proof. unfold wt. replace (N - (N - p))%Z with p by lia. ring. Qed.

Section Branches.
Variables (L : Z) (tab : arr R) (N p q : Z) (a b : C).
Hypothesis (Ht : is_Wigner_table L tab).
Hypothesis (HN : (0 <= N <= 2 * L)%Z) (Hp : (0 <= p <= N)%Z) (Hq : (0 <= q <= N)%Z).

Lemma abs_tests : ((Z.abs (2 * p - N) >? N) || (Z.abs (2 * q - N) >? N))%Z = false.
Proof. apply orb_false_intro; [destruct (Z.abs (2 * p - N) >? N)%Z eqn:E|destruct (Z.abs (2 * q - N) >? N)%Z eqn:E]; auto; lia. Qed.

Lemma D_elem_ge_ok : 0 < Cmod a -> 0 < Cmod b ->
  D_elem_ge tab (Cmod a) (Cmod b) (phase a) (phase b) (N, 2 * p - N, 2 * q - N)%Z = Ok (Dm N p q a b).
Proof.
  intros Ha Hb. unfold D_elem_ge. rewrite abs_tests.
  rewrite (table_lookup L) by auto. cbn [bind].
  replace (Z.max 0 (2 * p - N - (2 * q - N)))%Z with (2 * Tlo p q)%Z by (unfold Tlo; lia).
  replace (Z.min (N + (2 * p - N)) (N - (2 * q - N)))%Z with (2 * Thi N p q)%Z by (unfold Thi; lia).
  replace (N + (2 * p - N) + 2)%Z with (2 * (p + 1))%Z by lia.
  replace (N - (2 * q - N) + 2)%Z with (2 * (N - q + 1))%Z by lia.
  replace (2 * q - N - (2 * p - N))%Z with (2 * (q - p))%Z by lia.
  rewrite sum_loop2, mod4_even.
  destruct (Tt_loop N p q (- Cmod b * Cmod b / (Cmod a * Cmod a)) Hp Hq) as (S & ES & HS).
  rewrite ES. cbn [bind]. rewrite sgn_if, (Dm_ge N p q a b S Hp Hq Ha Hb HS).
  replace (IZR N - IZR (2 * q - N) / 2 + IZR (2 * p - N) / 2 - IZR (2 * Tlo p q))
    with (IZR (p + (N - q) - 2 * Tlo p q)).
  2:{ izr. field. }
  replace (IZR (2 * q - N) / 2 - IZR (2 * p - N) / 2 + IZR (2 * Tlo p q))
    with (IZR (q - p + 2 * Tlo p q)).
  2:{ izr. field. }
  rewrite <- !powerRZ_Rpower by auto.
  replace (phase a * IZR (2 * q - N + (2 * p - N)) / 2 + phase b * IZR (2 * (q - p)) / 2)
    with (phase a * IZR (p + q - N) + phase b * IZR (q - p)).
  2:{ izr. field. }
  rewrite crect_cis.
  match goal with |- (if C_is_zero ?z then _ else _) = _ => destruct (C_is_zero z) eqn:EZ end.
  - apply C_is_zero_true in EZ. f_equal.
    match type of EZ with (RtoC ?u * ?v)%C = _ => transitivity (RtoC (sgn (Tlo p q) * S) * (RtoC u * v))%C end.
    + rewrite EZ. ring.
    + rewrite !RtoC_mult. ring.
  - f_equal. rewrite !RtoC_mult. ring.
Qed.

Lemma D_elem_lt_ok : 0 < Cmod a -> 0 < Cmod b ->
  D_elem_lt tab (Cmod a) (Cmod b) (phase a) (phase b) (N, 2 * p - N, 2 * q - N)%Z = Ok (Dm N p q a b).
Proof.
  intros Ha Hb. unfold D_elem_lt. rewrite abs_tests.
  replace (- (2 * p - N))%Z with (2 * (N - p) - N)%Z by lia.
  rewrite (table_lookup L) by (auto; lia). cbn [bind].
  replace (Z.max 0 (2 * (N - p) - N - (2 * q - N)))%Z with (2 * Tlo (N - p) q)%Z by (unfold Tlo; lia).
  replace (Z.min (N - (2 * p - N)) (N - (2 * q - N)))%Z with (2 * Thi N (N - p) q)%Z by (unfold Thi; lia).
  replace (N - (2 * p - N) + 2)%Z with (2 * (N - p + 1))%Z by lia.
  replace (N - (2 * q - N) - 2 * Tlo (N - p) q)%Z with (2 * (N - q - Tlo (N - p) q))%Z by lia.
  replace (N - (2 * q - N) + 2)%Z with (2 * (N - q + 1))%Z by lia.
  replace (2 * q - N + (2 * p - N))%Z with (2 * (q - (N - p)))%Z by lia.
  rewrite sum_loop2, mod4_even.
  destruct (Tt_loop N (N - p) q (- Cmod a * Cmod a / (Cmod b * Cmod b)) ltac:(lia) Hq) as (S & ES & HS).
  rewrite ES. cbn [bind]. rewrite sgn_if, (Dm_lt N p q a b S Hp Hq Ha Hb HS).
  replace (N - (N - p))%Z with p by lia. rewrite wt_flip.
  replace (IZR N - IZR (2 * (q - (N - p))) / 2 - IZR (2 * Tlo (N - p) q))
    with (IZR (N - p + (N - q) - 2 * Tlo (N - p) q)).
  2:{ izr. field. }
  replace (IZR (2 * (q - (N - p))) / 2 + IZR (2 * Tlo (N - p) q))
    with (IZR (q - (N - p) + 2 * Tlo (N - p) q)).
  2:{ izr. field. }
  rewrite <- !powerRZ_Rpower by auto.
  replace (phase b * IZR (2 * q - N - (2 * p - N)) / 2 + phase a * IZR (2 * (q - (N - p))) / 2)
    with (phase a * IZR (p + q - N) + phase b * IZR (q - p)).
  2:{ izr. field. }
  rewrite crect_cis.
  match goal with |- (if C_is_zero ?z then _ else _) = _ => destruct (C_is_zero z) eqn:EZ end.
  - apply C_is_zero_true in EZ. f_equal.
    match type of EZ with (RtoC ?u * ?v)%C = _ => transitivity (RtoC (sgn (N - q - Tlo (N - p) q) * S) * (RtoC u * v))%C end.
    + rewrite EZ. ring.
    + rewrite !RtoC_mult. ring.
  - f_equal. rewrite !RtoC_mult. ring.
Qed.

Lemma D_elem_a0_ok :
  D_elem_a0 b (N, 2 * p - N, 2 * q - N)%Z = if (q =? N - p)%Z then (RtoC (sgn p) * Cpowz b (2 * q - N))%C else RtoC 0.
Proof.
  unfold D_elem_a0.
  replace (N - (2 * q - N))%Z with (2 * (N - q))%Z by lia. rewrite mod4_even.
  rewrite <- orb_assoc, abs_tests, orb_false_r.
  destruct (Z.eqb_spec (2 * p - N) (- (2 * q - N))), (Z.eqb_spec q (N - p)); try lia; cbn [negb]; auto.
  replace (N - q)%Z with p by lia. unfold sgn. destruct (Z.even p); rewrite ?RtoC_opp; ring.
Qed.

Lemma D_elem_b0_ok :
  D_elem_b0 a (N, 2 * p - N, 2 * q - N)%Z = if (p =? q)%Z then Cpowz a (2 * p - N) else RtoC 0.
Proof.
  unfold D_elem_b0.
  rewrite <- orb_assoc, abs_tests, orb_false_r.
  destruct (Z.eqb_spec (2 * p - N) (2 * q - N)), (Z.eqb_spec p q); try lia; cbn [negb]; auto.
  now subst.
Qed.
End Branches.

(** Out-of-range rows. *)
Definition in_range (t : Z * Z * Z) : bool :=
  let '(twoell, twomp, twom) := t in ((Z.abs twomp <=? twoell) && (Z.abs twom <=? twoell))%Z.

Lemma out_tests twoell twomp twom : in_range (twoell, twomp, twom) = false ->
  ((Z.abs twomp >? twoell) || (Z.abs twom >? twoell))%Z = true.
Proof.
  unfold in_range. intros H. apply andb_false_iff in H. apply orb_true_iff.
  destruct H as [H|H]; apply Z.leb_gt in H; [left|right]; lia.
Qed.
Lemma D_elem_out tab ra rb phia phib a b t : in_range t = false ->
  D_elem_a0 b t = RtoC 0 /\ D_elem_b0 a t = RtoC 0
  /\ D_elem_lt tab ra rb phia phib t = Ok (RtoC 0) /\ D_elem_ge tab ra rb phia phib t = Ok (RtoC 0).
Proof.
  destruct t as [[t mp] m]. intros H. apply out_tests in H.
  unfold D_elem_a0, D_elem_b0, D_elem_lt, D_elem_ge.
  rewrite <- !orb_assoc, !H, !orb_true_r. auto.
Qed.

Lemma fill_loop (f : Z -> res C) (v : Z -> C) N (e : arr C) : (0 <= N <= alen e)%Z ->
  (forall i, (0 <= i < N)%Z -> f i = Ok (v i)) ->
  exists out, for_range 0 N (fun i e => bind (f i) (fun x => wr e i x)) e = Ok out
    /\ alen out = alen e /\ (forall i, (0 <= i < N)%Z -> aget out i = v i)
    /\ (forall i, (N <= i)%Z -> aget out i = aget e i).
Proof.
  intros HN Hf.
  destruct (for_range_inv (fun k o => alen o = alen e /\ (forall i, (0 <= i < k)%Z -> aget o i = v i)
      /\ (forall i, (N <= i)%Z -> aget o i = aget e i)) 0 N
     (fun i e => bind (f i) (fun x => wr e i x)) e ltac:(lia)) as (out & E & A & B & D).
  - repeat split; auto. intros; lia.
  - intros i o Hi (A & B & D). rewrite Hf by lia. cbn [bind]. rewrite wr_ok by lia.
    eexists; split; [reflexivity|]. cbn [alen aget]. split; auto. split.
    + intros j Hj. destruct (Z.eq_dec j i) as [->|]; [apply upd_same|]. rewrite upd_other by auto. apply B. lia.
    + intros j Hj. rewrite upd_other by lia. auto.
  - exists out. auto.
Qed.

(** A component the code can tell from zero. *)
Definition resolved (z : C) : Prop := z = RtoC 0 \/ epsilon < Cmod z.
(** The value required of one row. *)
Definition D_value (t : Z * Z * Z) (Ra Rb : C) : C :=
  let '(twoell, twomp, twom) := t in
  if in_range t then Wigner_formula twoell twomp twom Ra Rb else RtoC 0.
(** A row the evaluator accepts: an index triple within the table, or a triple with |m| or |m'| too large. *)
Definition row_ok (L : Z) (t : Z * Z * Z) : Prop :=
  let '(twoell, twomp, twom) := t in
  in_range t = true -> (twoell <= 2 * L)%Z /\ D_indices twoell twomp twom.

Lemma epsilon_pos : 0 < epsilon.
Proof. unfold epsilon. apply Rinv_0_lt_compat, pow_lt. lra. Qed.

(** What the code computes, whatever the quaternion: one antidiagonal or diagonal when a part is at or below the cut-off,
    the formula otherwise. *)
Definition Dc (N p q : Z) (a b : C) : C :=
  if Rleb (Cmod a) epsilon then (if (q =? N - p)%Z then RtoC (sgn p) * Cpowz b (2 * q - N) else RtoC 0)%C
  else if Rleb (Cmod b) epsilon then (if (p =? q)%Z then Cpowz a (2 * p - N) else RtoC 0)
  else Dm N p q a b.
Definition D_code (t : Z * Z * Z) (a b : C) : C :=
  let '(twoell, twomp, twom) := t in
  if in_range t then Dc twoell ((twoell + twomp) / 2) ((twoell + twom) / 2) a b else RtoC 0.

Lemma Dc_resolved N p q a b : (0 <= p <= N)%Z -> (0 <= q <= N)%Z ->
  (a * Cconj a + b * Cconj b)%C = RtoC 1 -> resolved a -> resolved b -> Dc N p q a b = Dm N p q a b.
Proof.
  intros Hp Hq U Ra Rb. unfold Dc.
  destruct (Rleb (Cmod a) epsilon) eqn:E1; [|destruct (Rleb (Cmod b) epsilon) eqn:E2; auto].
  - apply Rleb_true in E1. destruct Ra as [->|Ra]; [|lra]. rewrite Dm_a0; auto. rewrite <- U. ring.
  - apply Rleb_true in E2. destruct Rb as [->|Rb]; [|lra]. rewrite Dm_b0; auto. rewrite <- U. ring.
Qed.
Lemma D_code_value L t a b : row_ok L t ->
  (a * Cconj a + b * Cconj b)%C = RtoC 1 -> resolved a -> resolved b -> D_code t a b = D_value t a b.
Proof.
  destruct t as [[N mp] m]. intros Hr U Ra Rb. unfold D_code, D_value. destruct (in_range (N, mp, m)) eqn:EI; auto.
  destruct (Hr EI) as (HL & HD). destruct (D_indices_half _ _ _ HD) as (p & q & Hp & Hq & -> & ->).
  rewrite Wigner_formula_Dm by auto.
  replace ((N + (2 * p - N)) / 2)%Z with p by (replace (N + (2 * p - N))%Z with (p * 2)%Z by lia; symmetry; apply Z.div_mul; lia).
  replace ((N + (2 * q - N)) / 2)%Z with q by (replace (N + (2 * q - N))%Z with (q * 2)%Z by lia; symmetry; apply Z.div_mul; lia).
  apply Dc_resolved; auto.
Qed.
Lemma Rleb_false_pos a : Rleb (Cmod a) epsilon = false -> 0 < Cmod a.
Proof.
  intros E. pose proof epsilon_pos. destruct (Rlt_dec epsilon (Cmod a)); [lra|].
  assert (X : Cmod a <= epsilon) by lra. apply Rleb_true in X. congruence.
Qed.

Lemma D_branches L tab a b t : is_Wigner_table L tab -> row_ok L t ->
  let ra := Cmod a in let rb := Cmod b in
  if Rleb ra epsilon then D_elem_a0 b t = D_code t a b
  else if Rleb rb epsilon then D_elem_b0 a t = D_code t a b
  else if Rltb ra rb then D_elem_lt tab ra rb (phase a) (phase b) t = Ok (D_code t a b)
  else D_elem_ge tab ra rb (phase a) (phase b) t = Ok (D_code t a b).
Proof.
  intros Ht Hr ra rb. destruct t as [[N mp] m].
  destruct (in_range (N, mp, m)) eqn:EI.
  - destruct (Hr EI) as (HL & HD). unfold D_code. rewrite EI.
    destruct (D_indices_half _ _ _ HD) as (p & q & Hp & Hq & -> & ->).
    replace ((N + (2 * p - N)) / 2)%Z with p by (replace (N + (2 * p - N))%Z with (p * 2)%Z by lia; symmetry; apply Z.div_mul; lia).
    replace ((N + (2 * q - N)) / 2)%Z with q by (replace (N + (2 * q - N))%Z with (q * 2)%Z by lia; symmetry; apply Z.div_mul; lia).
    unfold Dc. fold ra rb.
    destruct (Rleb ra epsilon) eqn:E1; [apply D_elem_a0_ok; auto|].
    destruct (Rleb rb epsilon) eqn:E2; [apply D_elem_b0_ok; auto|].
    apply Rleb_false_pos in E1, E2.
    destruct (Rltb ra rb); [apply (D_elem_lt_ok L)|apply (D_elem_ge_ok L)]; auto; lia.
  - destruct (D_elem_out tab ra rb (phase a) (phase b) a b _ EI) as (A & B & D & E).
    unfold D_code. rewrite EI.
    destruct (Rleb ra epsilon); auto. destruct (Rleb rb epsilon); auto. destruct (Rltb ra rb); auto.
Qed.

Theorem Wigner_D_element_code L tab a b indices elements :
  is_Wigner_table L tab ->
  (0 <= alen indices <= alen elements)%Z ->
  (forall i, (0 <= i < alen indices)%Z -> row_ok L (aget indices i)) ->
  exists out, Wigner_D_element_core tab a b indices elements = Ok out
    /\ alen out = alen elements
    /\ (forall i, (0 <= i < alen indices)%Z -> aget out i = D_code (aget indices i) a b)
    /\ (forall i, (alen indices <= i)%Z -> aget out i = aget elements i).
Proof.
  intros Ht Hlen Hrow. unfold Wigner_D_element_core.
  pose proof (fun t H => D_branches L tab a b t Ht H) as B. cbv zeta in *.
  destruct (Rleb (Cmod a) epsilon) eqn:E1; [|destruct (Rleb (Cmod b) epsilon) eqn:E2; [|destruct (Rltb (Cmod a) (Cmod b)) eqn:E3]].
  - destruct (fill_loop (fun i => do t <- rd indices i; Ok (D_elem_a0 b t)) (fun i => D_code (aget indices i) a b)
      (alen indices) elements Hlen) as (out & E & P).
    + intros i Hi. rewrite rd_ok by auto. cbn [bind]. f_equal. auto.
    + exists out. split; [|exact P]. rewrite <- E. apply for_loop_ext. intros k s Hk.
      destruct (rd indices (0 + k * 1)); auto.
  - destruct (fill_loop (fun i => do t <- rd indices i; Ok (D_elem_b0 a t)) (fun i => D_code (aget indices i) a b)
      (alen indices) elements Hlen) as (out & E & P).
    + intros i Hi. rewrite rd_ok by auto. cbn [bind]. f_equal. auto.
    + exists out. split; [|exact P]. rewrite <- E. apply for_loop_ext. intros k s Hk.
      destruct (rd indices (0 + k * 1)); auto.
  - destruct (fill_loop (fun i => do t <- rd indices i; D_elem_lt tab (Cmod a) (Cmod b) (phase a) (phase b) t) (fun i => D_code (aget indices i) a b)
      (alen indices) elements Hlen) as (out & E & P).
    + intros i Hi. rewrite rd_ok by auto. cbn [bind]. auto.
    + exists out. split; [|exact P]. rewrite <- E. apply for_loop_ext. intros k s Hk.
      destruct (rd indices (0 + k * 1)); auto.
  - destruct (fill_loop (fun i => do t <- rd indices i; D_elem_ge tab (Cmod a) (Cmod b) (phase a) (phase b) t) (fun i => D_code (aget indices i) a b)
      (alen indices) elements Hlen) as (out & E & P).
    + intros i Hi. rewrite rd_ok by auto. cbn [bind]. auto.
    + exists out. split; [|exact P]. rewrite <- E. apply for_loop_ext. intros k s Hk.
      destruct (rd indices (0 + k * 1)); auto.
Qed.

Theorem Wigner_D_element_ok L tab a b indices elements :
  is_Wigner_table L tab ->
  (a * Cconj a + b * Cconj b)%C = RtoC 1 -> resolved a -> resolved b ->
  (0 <= alen indices <= alen elements)%Z ->
  (forall i, (0 <= i < alen indices)%Z -> row_ok L (aget indices i)) ->
  exists out, Wigner_D_element_core tab a b indices elements = Ok out
    /\ alen out = alen elements
    /\ (forall i, (0 <= i < alen indices)%Z -> aget out i = D_value (aget indices i) a b)
    /\ (forall i, (alen indices <= i)%Z -> aget out i = aget elements i).
Proof.
  intros Ht U Ra Rb Hlen Hrow. destruct (Wigner_D_element_code L tab a b indices elements Ht Hlen Hrow) as (out & E & A & B & D).
  exists out. split; auto. split; auto. split; auto. intros i Hi. rewrite B by auto. apply (D_code_value L); auto.
Qed.
