(** [Wigner_D_element] through its call forms; index validation. *)
Require Import ZArith Lia List Reals Lra Bool.
From Coquelicot Require Import Complex.
From Flocq Require Import Core.
From Verif Require Import Base BaseProofs CBase CSum RSum Fact SymPow WignerSpec DRep IndexModel IndexProofs IndexProofs2
  IndexProps WignerModel WignerProofs WignerProofs2 WignerProofs3 WignerCallModel.
Import ListNotations.
Open Scope R_scope.

Lemma round2_half t : round2 (IZR t / 2) = t.
Proof. unfold round2. replace (2 * (IZR t / 2)) with (IZR t) by field. apply Zrnd_IZR. apply valid_rnd_N. Qed.
Lemma round2_int e : round2 (IZR e) = (2 * e)%Z.
Proof. rewrite <- (round2_half (2 * e)). f_equal. rewrite mult_IZR. field. Qed.

Definition half3 (t : Z * Z * Z) : list R := let '(e, mp, m) := t in [IZR e / 2; IZR mp / 2; IZR m / 2].
Definition valid_row (L : Z) (t : Z * Z * Z) : Prop := let '(e, mp, m) := t in (e <= 2 * L)%Z /\ D_indices e mp m.

Lemma check_valid_true L e mp m :
  check_valid_indices L e mp m = true <-> (e <= 2 * L)%Z /\ (Z.abs mp <= e)%Z /\ (Z.abs m <= e)%Z.
Proof.
  unfold check_valid_indices. rewrite negb_true_iff, !orb_false_iff, !Z.gtb_ltb, !Z.ltb_ge. tauto.
Qed.

Lemma check_rows_ok L rows : Forall (valid_row L) rows -> check_rows L (map half3 rows) = Ok rows.
Proof.
  induction rows as [|[[e mp] m] rows IH]; intros H; [reflexivity|]. inversion H as [|x l Hx Hl]; subst.
  cbn [map check_rows half3 row3 bind]. rewrite !round2_half.
  replace (check_valid_indices L e mp m) with true.
  - cbn [negb]. rewrite IH by auto. reflexivity.
  - symmetry. apply check_valid_true. destruct Hx as (A & B & D & _). auto.
Qed.

Lemma arr_of_list_get {A} (d : A) l i : aget (arr_of_list d l) i = nth (Z.to_nat i) l d.
Proof. reflexivity. Qed.
Lemma Forall_nth_arr {A} (P : A -> Prop) d l i : Forall P l -> (0 <= i < Z.of_nat (length l))%Z ->
  P (aget (arr_of_list d l) i).
Proof. intros H Hi. rewrite arr_of_list_get. rewrite Forall_forall in H. apply H, nth_In. lia. Qed.

Lemma D_call_ok L tab g a b rest rows scalar : is_Wigner_table L tab ->
  (a * Cconj a + b * Cconj b)%C = RtoC 1 -> resolved a -> resolved b ->
  find_indices L true rest = Ok (rows, scalar) -> Forall (valid_row L) rows ->
  exists out, D_call tab L true g a b rest = Ok (out, scalar)
    /\ alen out = Z.of_nat (length rows)
    /\ forall i e mp m, nth_error rows i = Some (e, mp, m) ->
         aget out (Z.of_nat i) = Wigner_formula e mp m a b.
Proof.
  intros Ht U Ra Rb EF HV. unfold D_call. rewrite EF. cbn [bind]. rewrite np_empty_ok by lia. cbn [bind].
  destruct (Wigner_D_element_ok L tab a b (arr_of_list (0, 0, 0)%Z rows) (mkarr (Z.of_nat (length rows)) g) Ht U Ra Rb)
    as (out & E & A & B & _).
  - cbn [alen arr_of_list]. lia.
  - intros i Hi. apply (Forall_nth_arr (row_ok L)); auto.
    eapply Forall_impl; [|exact HV]. intros [[e mp] m] (H1 & H2).
    unfold row_ok. auto.
  - exists out. split; [rewrite E; reflexivity|]. split; [exact A|].
    intros i e mp m Hn. assert (Hi : (i < length rows)%nat) by (apply nth_error_Some; congruence).
    rewrite B by (cbn [alen arr_of_list]; lia). rewrite arr_of_list_get, Nat2Z.id.
    rewrite (nth_error_nth rows i (0, 0, 0)%Z Hn). unfold D_value.
    assert (V : valid_row L (e, mp, m)). { rewrite Forall_forall in HV. apply HV. eapply nth_error_In; eauto. }
    destruct V as (_ & H1 & H2 & _). replace (in_range (e, mp, m)) with true; auto.
    symmetry. unfold in_range. apply andb_true_iff. split; apply Z.leb_le; lia.
Qed.

Lemma twom_range_in t x : In x (twom_range t) <-> (- t <= x <= t)%Z /\ Z.even (t + x) = true.
Proof.
  unfold twom_range. rewrite in_map_iff. split.
  - intros (i & <- & Hi). apply in_seq in Hi. split; [lia|]. replace (t + (- t + 2 * Z.of_nat i))%Z with (2 * Z.of_nat i)%Z by lia.
    apply Z.even_mul.
  - intros (H & E). apply parity_form in E; [|lia]. destruct E as (p & Hp & ->).
    exists (Z.to_nat p). split; [lia|]. apply in_seq. lia.
Qed.
Lemma all_rows_in t e mp m : In (e, mp, m) (all_rows t) <-> e = t /\ D_indices t mp m.
Proof.
  unfold all_rows, D_indices. rewrite in_flat_map. split.
  - intros (x & Hx & Hi). apply in_map_iff in Hi. destruct Hi as (y & E & Hy). injection E as <- <- <-.
    apply twom_range_in in Hx, Hy. intuition lia.
  - intros (-> & H1 & H2 & H3 & H4). exists mp. split; [apply twom_range_in; split; auto; lia|].
    apply in_map_iff. exists m. split; auto. apply twom_range_in; split; auto; lia.
Qed.

(** The rows listed for one ell, in order: row (l+m')(2l+1) + (l+m) is (l, m', m). *)
Lemma twom_range_nth t i : (i < Z.to_nat (t + 1))%nat -> nth_error (twom_range t) i = Some (- t + 2 * Z.of_nat i)%Z.
Proof.
  intros H. unfold twom_range. rewrite nth_error_map.
  assert (E : nth_error (seq 0 (Z.to_nat (t + 1))) i = Some i).
  { rewrite (nth_error_nth' _ 0%nat) by (rewrite seq_length; lia). rewrite seq_nth by lia. reflexivity. }
  rewrite E. reflexivity.
Qed.
Lemma twom_range_length t : length (twom_range t) = Z.to_nat (t + 1).
Proof. unfold twom_range. rewrite map_length, seq_length. auto. Qed.

Lemma flat_map_block {A B} (f : A -> list B) n (l : list A) i j x :
  (forall y, length (f y) = n) -> nth_error l i = Some x -> (j < n)%nat ->
  nth_error (flat_map f l) (i * n + j) = nth_error (f x) j.
Proof.
  intros Hf. revert i. induction l as [|y l IH]; intros i Hi Hj; [destruct i; discriminate|].
  cbn [flat_map]. destruct i as [|i].
  - injection Hi as ->. rewrite nth_error_app1; auto. rewrite Hf. auto.
  - rewrite nth_error_app2 by (rewrite Hf; lia). rewrite Hf. rewrite <- (IH i) by auto. f_equal. lia.
Qed.
Lemma all_rows_nth t i j : (i < Z.to_nat (t + 1))%nat -> (j < Z.to_nat (t + 1))%nat ->
  nth_error (all_rows t) (i * Z.to_nat (t + 1) + j) = Some (t, - t + 2 * Z.of_nat i, - t + 2 * Z.of_nat j)%Z.
Proof.
  intros Hi Hj. unfold all_rows.
  rewrite (flat_map_block _ (Z.to_nat (t + 1)) _ _ _ (- t + 2 * Z.of_nat i)%Z).
  - rewrite nth_error_map, twom_range_nth by auto. reflexivity.
  - intros y. rewrite map_length. apply twom_range_length.
  - apply twom_range_nth; auto.
  - auto.
Qed.
Lemma all_rows_length t : (0 <= t)%Z -> Z.of_nat (length (all_rows t)) = ((t + 1) * (t + 1))%Z.
Proof.
  intros Ht. unfold all_rows.
  assert (H : forall l : list Z, length (flat_map (fun twomp : Z => map (fun twom : Z => (t, twomp, twom)) (twom_range t)) l)
                 = (length l * Z.to_nat (t + 1))%nat).
  { induction l as [|x l IH]; [reflexivity|]. cbn [flat_map length]. rewrite app_length, IH, map_length, twom_range_length. reflexivity. }
  rewrite H, twom_range_length. rewrite Nat2Z.inj_mul, Z2Nat.id by lia. auto.
Qed.

(** ** No out-of-bounds read after validation *)

Lemma table_length L tab : (0 <= L)%Z -> is_Wigner_table L tab -> alen tab = sq6 (2 * L + 1).
Proof.
  intros HL (g & G). unfold gen_Wigner in G. rewrite Wigner_alloc_eq in G by auto.
  pose proof (sq6_6 0) as Z0. pose proof (sq6_mono 0 (2 * L + 1) ltac:(lia) ltac:(lia)).
  rewrite np_empty_ok in G by lia. cbn [bind] in G.
  destruct (half_loop Wigner_entry (sq6 (2 * L + 1)) (fun _ _ => True) (mkarr (sq6 (2 * L + 1)) g) 0 (2 * L))
    as (a' & E & [Ln _]); auto; try lia.
  - split; cbn [alen]; auto.
  - rewrite E in G. cbn [bind] in G. apply Ok_inj in G. subst. auto.
Qed.

Lemma Wigner_index_bounds L e mp m : (0 <= L)%Z -> (e <= 2 * L)%Z -> (Z.abs mp <= e)%Z -> (Z.abs m <= e)%Z ->
  (0 <= Wigner_index e mp m < sq6 (2 * L + 1))%Z.
Proof.
  intros HL He Hmp Hm. unfold Wigner_index. fold (sq6 e).
  pose proof (sq6_6 0) as Z0. pose proof (sq6_mono 0 e ltac:(lia) ltac:(lia)).
  pose proof (sq6_mono (e + 1) (2 * L + 1) ltac:(lia) ltac:(lia)). rewrite (sq6_succ e) in *.
  assert (0 <= (e + mp) / 2 <= e)%Z by (split; [apply Z.div_pos; lia|apply Z.div_le_upper_bound; lia]).
  assert (0 <= (e + m) / 2 <= e)%Z by (split; [apply Z.div_pos; lia|apply Z.div_le_upper_bound; lia]).
  nia.
Qed.

Lemma sum_step_total x N1 N2 M rho s : (0 < rho)%Z -> (0 < M + rho)%Z -> exists s', sum_step x N1 N2 M rho s = Ok s'.
Proof.
  intros. unfold sum_step. destruct (Z.eqb_spec (rho * (M + rho)) 0); [nia|eauto].
Qed.

Lemma for_loop_total {S} (P : Z -> Prop) body : (forall i (s : S), P i -> exists s', body i s = Ok s') ->
  forall n a step s, (forall k, (0 <= k < Z.of_nat n)%Z -> P (a + k * step)%Z) ->
  exists s', for_loop n a step body s = Ok s'.
Proof.
  intros HB. induction n as [|n IH]; intros a step s H; [eexists; reflexivity|].
  cbn [for_loop]. destruct (HB a s) as (s1 & E).
  { specialize (H 0%Z ltac:(lia)). replace (a + 0 * step)%Z with a in H by lia. exact H. }
  rewrite E. cbn [bind]. apply IH. intros k Hk. specialize (H (k + 1)%Z ltac:(lia)).
  replace (a + step + k * step)%Z with (a + (k + 1) * step)%Z by lia. exact H.
Qed.

Lemma sum2_total x N1 N2 M hi lo : (0 <= lo)%Z -> (0 <= M + lo)%Z -> exists s, for_down2 hi lo (sum_step x N1 N2 M) 1 = Ok s.
Proof.
  intros H H'. unfold for_down2.
  apply (for_loop_total (fun i => 0 < i /\ 0 < M + i)%Z).
  - intros i s (A & B). apply sum_step_total; auto.
  - intros k Hk. assert (k < (hi - lo + 1) / 2)%Z by lia.
    pose proof (Z.mul_div_le (hi - lo + 1) 2 ltac:(lia)). lia.
Qed.

Lemma lookup_total L tab e mp m : (0 <= L)%Z -> is_Wigner_table L tab ->
  (e <= 2 * L)%Z -> (Z.abs mp <= e)%Z -> (Z.abs m <= e)%Z -> exists c, Wigner_lookup tab e mp m = Ok c.
Proof.
  intros HL Ht He Hmp Hm. unfold Wigner_lookup. rewrite rd_ok; [eauto|].
  rewrite (table_length L) by auto. apply Wigner_index_bounds; auto.
Qed.

Lemma D_elem_lt_total L tab ra rb pa pb e mp m : (0 <= L)%Z -> is_Wigner_table L tab -> (e <= 2 * L)%Z ->
  exists v, D_elem_lt tab ra rb pa pb (e, mp, m) = Ok v.
Proof.
  intros HL Ht He. unfold D_elem_lt.
  destruct ((Z.abs mp >? e) || (Z.abs m >? e))%Z eqn:E; [eauto|].
  apply orb_false_iff in E. destruct E as [E1 E2]. rewrite Z.gtb_ltb, Z.ltb_ge in *.
  destruct (lookup_total L tab e (- mp) m HL Ht ltac:(lia) ltac:(lia) ltac:(lia)) as (c & ->). cbn [bind].
  match goal with |- context [C_is_zero ?z] => destruct (C_is_zero z); [eauto|] end.
  match goal with |- context [for_down2 ?hi ?lo (sum_step ?x ?a ?b ?d) _] => destruct (sum2_total x a b d hi lo ltac:(lia) ltac:(lia)) as (s & ->) end.
  cbn [bind]. eauto.
Qed.
Lemma D_elem_ge_total L tab ra rb pa pb e mp m : (0 <= L)%Z -> is_Wigner_table L tab -> (e <= 2 * L)%Z ->
  exists v, D_elem_ge tab ra rb pa pb (e, mp, m) = Ok v.
Proof.
  intros HL Ht He. unfold D_elem_ge.
  destruct ((Z.abs mp >? e) || (Z.abs m >? e))%Z eqn:E; [eauto|].
  apply orb_false_iff in E. destruct E as [E1 E2]. rewrite Z.gtb_ltb, Z.ltb_ge in *.
  destruct (lookup_total L tab e mp m HL Ht ltac:(lia) ltac:(lia) ltac:(lia)) as (c & ->). cbn [bind].
  match goal with |- context [C_is_zero ?z] => destruct (C_is_zero z); [eauto|] end.
  match goal with |- context [for_down2 ?hi ?lo (sum_step ?x ?a ?b ?d) _] => destruct (sum2_total x a b d hi lo ltac:(lia) ltac:(lia)) as (s & ->) end.
  cbn [bind]. eauto.
Qed.

(** The loops succeed for any rotor, unit or not, as soon as no row has ell above the table size. *)
Lemma element_core_total L tab a b indices elements : (0 <= L)%Z -> is_Wigner_table L tab ->
  (0 <= alen indices <= alen elements)%Z ->
  (forall i, (0 <= i < alen indices)%Z -> (fst (fst (aget indices i)) <= 2 * L)%Z) ->
  exists out, Wigner_D_element_core tab a b indices elements = Ok out /\ alen out = alen elements.
Proof.
  intros HL Ht Hlen H. unfold Wigner_D_element_core.
  assert (G : forall f : Z * Z * Z -> res C, (forall t, (fst (fst t) <= 2 * L)%Z -> exists v, f t = Ok v) ->
     exists out, for_range 0 (alen indices) (fun i elements => do t <- rd indices i; do v <- f t; wr elements i v) elements = Ok out
       /\ alen out = alen elements).
  { intros f Hf.
    destruct (for_range_inv (fun _ o => alen o = alen elements) 0 (alen indices)
      (fun i elements => do t <- rd indices i; do v <- f t; wr elements i v) elements ltac:(lia) eq_refl) as (out & E & A).
    - intros i o Hi Ho. rewrite rd_ok by auto. cbn [bind]. destruct (Hf (aget indices i) (H i Hi)) as (v & ->). cbn [bind].
      rewrite wr_ok by lia. eexists. split; [reflexivity|]. auto.
    - eauto. }
  destruct (Rleb (Cmod a) epsilon); [|destruct (Rleb (Cmod b) epsilon); [|destruct (Rltb (Cmod a) (Cmod b))]].
  - apply (G (fun t => Ok (D_elem_a0 b t))). eauto.
  - apply (G (fun t => Ok (D_elem_b0 a t))). eauto.
  - apply G. intros [[e mp] m] X. apply (D_elem_lt_total L); auto.
  - apply G. intros [[e mp] m] X. apply (D_elem_ge_total L); auto.
Qed.

Lemma check_rows_sound L l rows : check_rows L l = Ok rows ->
  Forall (fun t => fst (fst t) <= 2 * L)%Z rows.
Proof.
  revert rows. induction l as [|r l IH]; intros rows H; cbn [check_rows] in H.
  - apply Ok_inj in H. subst. constructor.
  - destruct (row3 r) as [[[e mp] m]|]; cbn [bind] in H; [|discriminate].
    destruct (check_valid_indices L e mp m) eqn:E; cbn [negb] in H; [|discriminate].
    destruct (check_rows L l) as [l'|]; cbn [bind] in H; [|discriminate]. apply Ok_inj in H. subst.
    apply check_valid_true in E. constructor; [cbn [fst]; lia|auto].
Qed.
Lemma check_rows_err L l e : check_rows L l = Err e -> e = ValueError.
Proof.
  revert e. induction l as [|r l IH]; intros x H; cbn [check_rows] in H; [discriminate|].
  destruct (row3 r) as [[[e mp] m]|e0] eqn:ER; cbn [bind] in H.
  - destruct (check_valid_indices L e mp m); cbn [negb] in H; [|congruence].
    destruct (check_rows L l) as [l'|]; cbn [bind] in H; [discriminate|]. injection H as <-. auto.
  - injection H as <-. unfold row3 in ER. destruct r as [|? [|? [|? [|? ?]]]]; congruence.
Qed.

Definition validated (rest : list arg) : Prop :=
  (exists e mp m, rest = [AReal e; AReal mp; AReal m]) \/ (exists n l, rest = [AIndices2 n l]).

Lemma D_call_safe L tab g a b rest : (0 <= L)%Z -> is_Wigner_table L tab -> validated rest ->
  D_call tab L true g a b rest = Err ValueError
  \/ exists out scalar, D_call tab L true g a b rest = Ok (out, scalar).
Proof.
  intros HL Ht HV. unfold D_call.
  assert (G : find_indices L true rest = Err ValueError \/ exists rows s, find_indices L true rest = Ok (rows, s)
                /\ Forall (fun t => fst (fst t) <= 2 * L)%Z rows).
  { destruct HV as [(e & mp & m & ->)|(n & l & ->)]; cbn [find_indices].
    - destruct (check_valid_indices L (round2 e) (round2 mp) (round2 m)) eqn:E; cbn [andb negb]; [|auto].
      right. eexists _, _. split; [reflexivity|]. apply check_valid_true in E. constructor; [cbn [fst]; lia|constructor].
    - destruct (check_rows L l) as [rows|e] eqn:E; cbn [bind].
      + right. eexists _, _. split; [reflexivity|]. eapply check_rows_sound; eauto.
      + left. f_equal. eapply check_rows_err; eauto. }
  destruct G as [->|(rows & s & -> & HF)]; [left; reflexivity|]. right. cbn [bind].
  rewrite np_empty_ok by lia. cbn [bind].
  destruct (element_core_total L tab a b (arr_of_list (0, 0, 0)%Z rows) (mkarr (Z.of_nat (length rows)) g) HL Ht) as (out & -> & _).
  - cbn [alen arr_of_list]. lia.
  - intros i Hi. apply (Forall_nth_arr (fun t => fst (fst t) <= 2 * L)%Z); auto.
  - cbn [bind]. eauto.
Qed.

(** ** Reads outside the table *)
Lemma lookup_oob L tab e mp m : (0 <= L)%Z -> is_Wigner_table L tab -> (2 * L < e)%Z -> (Z.abs mp <= e)%Z -> (Z.abs m <= e)%Z ->
  Wigner_lookup tab e mp m = Err OutOfBounds.
Proof.
  intros HL Ht He Hmp Hm. unfold Wigner_lookup.
  unfold Wigner_index. fold (sq6 e).
  pose proof (sq6_mono (2 * L + 1) e ltac:(lia) ltac:(lia)).
  assert (0 <= (e + mp) / 2)%Z by (apply Z.div_pos; lia). assert (0 <= (e + m) / 2)%Z by (apply Z.div_pos; lia).
  pose proof (sq6_6 0) as Z0. pose proof (sq6_mono 0 (2 * L + 1) ltac:(lia) ltac:(lia)).
  apply rd_oob; [rewrite (table_length L) by auto|]; nia.
Qed.

Lemma element_core_oob L tab a b indices elements : (0 <= L)%Z -> is_Wigner_table L tab ->
  epsilon < Cmod a -> epsilon < Cmod b ->
  (0 < alen indices)%Z -> (2 * L < fst (fst (aget indices 0)))%Z ->
  (Z.abs (snd (fst (aget indices 0))) <= fst (fst (aget indices 0)))%Z ->
  (Z.abs (snd (aget indices 0)) <= fst (fst (aget indices 0)))%Z ->
  Wigner_D_element_core tab a b indices elements = Err OutOfBounds.
Proof.
  intros HL Ht Ha Hb Hlen He Hmp Hm. unfold Wigner_D_element_core.
  assert (F : forall x, epsilon < x -> Rleb x epsilon = false). { intros. destruct (Rleb x epsilon) eqn:E; auto. apply Rleb_true in E. lra. }
  rewrite !F by auto. destruct (aget indices 0) as [[e mp] m] eqn:EI. cbn [fst snd] in *.
  assert (EO : ((Z.abs mp >? e) || (Z.abs m >? e))%Z = false) by (apply orb_false_iff; split; rewrite Z.gtb_ltb; apply Z.ltb_ge; lia).
  destruct (Rltb (Cmod a) (Cmod b)).
  - rewrite for_range_step by lia. rewrite rd_ok by lia. cbn [bind]. rewrite EI. unfold D_elem_lt at 1. rewrite EO.
    rewrite (lookup_oob L) by (auto; lia). reflexivity.
  - rewrite for_range_step by lia. rewrite rd_ok by lia. cbn [bind]. rewrite EI. unfold D_elem_ge at 1. rewrite EO.
    rewrite (lookup_oob L) by (auto; lia). reflexivity.
Qed.

Lemma all_rows_head t : (0 <= t)%Z -> exists l, all_rows t = (t, - t, - t)%Z :: l.
Proof.
  intros Ht. pose proof (all_rows_nth t 0 0 ltac:(lia) ltac:(lia)) as H. cbn [Nat.mul Nat.add] in H.
  destruct (all_rows t) as [|x l]; [discriminate|]. exists l. cbn in H. injection H as ->.
  f_equal. f_equal; [f_equal|]; lia.
Qed.

(** A list of ell values is never validated. *)
Lemma ell_list_oob L tab g q t l : (0 <= L)%Z -> is_Wigner_table L tab ->
  epsilon < Cmod (qa q) -> epsilon < Cmod (qb q) -> (2 * L < t)%Z ->
  Wigner_D_element tab L g [AQuat q; AIndices1 (IZR t / 2 :: l)] = Err OutOfBounds.
Proof.
  intros HL Ht Ha Hb He. cbn [Wigner_D_element]. unfold D_call. cbn [find_indices flat_map].
  rewrite round2_half. destruct (all_rows_head t ltac:(lia)) as (r & ->). cbn [app].
  cbn [bind]. rewrite np_empty_ok by lia. cbn [bind].
  rewrite (element_core_oob L); auto; cbn [alen arr_of_list aget nth Z.to_nat length fst snd]; lia.
Qed.

Lemma quats_oob L tab g Rs e mp m : (0 <= L)%Z -> is_Wigner_table L tab -> (0 <= alen Rs)%Z ->
  (L < e)%Z -> (Z.abs mp <= e)%Z -> (Z.abs m <= e)%Z ->
  Wigner_D_element tab L g [AQuats Rs; AReal (IZR e); AReal (IZR mp); AReal (IZR m)] = Err OutOfBounds.
Proof.
  intros HL Ht Hlen He Hmp Hm. cbn [Wigner_D_element to_i8 bind]. rewrite !Ztrunc_IZR.
  rewrite np_empty_ok by lia. cbn [bind]. unfold Wigner_D_elements_core.
  replace ((Z.abs m >? e) || (Z.abs mp >? e))%Z with false
    by (symmetry; apply orb_false_iff; split; rewrite Z.gtb_ltb; apply Z.ltb_ge; lia).
  unfold Wigner_coefficient at 1. rewrite (lookup_oob L) by (auto; lia). reflexivity.
Qed.

Lemma two_parts_form tab L g za zb e mp m : exists x,
  Wigner_D_element tab L g [AComplex za; AComplex zb; AReal e; AReal mp; AReal m] = Err x.
Proof. eexists. reflexivity. Qed.
