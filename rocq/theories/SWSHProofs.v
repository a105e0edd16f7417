(** SWSH values are (-1)^s sqrt((2l+1)/4pi) D^l_{m,-s}. *)
Require Import ZArith Lia Reals Lra Bool.
From Coquelicot Require Import Complex.
From Verif Require Import Base BaseProofs CBase CSum RSum Fact SymPow WignerSpec DRep IndexModel IndexProofs IndexProofs2
  IndexProps WignerModel WignerProofs WignerProofs2 WignerProofs3 PowersModel RotorSpec SWSHModel.
Open Scope R_scope.

(** The value required of one entry. *)
Definition SWSH_value (s ell m : Z) (Ra Rb : C) : C :=
  if ((Z.abs m <=? ell) && (Z.abs s <=? ell))%Z
  then (RtoC (sgn s) * RtoC (sqrt (IZR (2 * ell + 1) / (4 * PI))) * Wigner_formula (2 * ell) (2 * m) (2 * (- s)) Ra Rb)%C
  else RtoC 0.

Lemma SWSH_value_in s ell m a b : (- ell <= m <= ell)%Z -> (- ell <= s <= ell)%Z ->
  SWSH_value s ell m a b = (RtoC (sgn s) * RtoC (swsh_norm ell) * Dv a b ell m (- s))%C.
Proof.
  intros Hm Hs. unfold SWSH_value.
  replace ((Z.abs m <=? ell) && (Z.abs s <=? ell))%Z with true by (symmetry; apply andb_true_iff; split; apply Z.leb_le; lia).
  rewrite Dv_formula by lia. reflexivity.
Qed.

(** What the code computes, whatever the quaternion. *)
Definition SWSH_code (s ell m : Z) (a b : C) : C :=
  if ((Z.abs m <=? ell) && (Z.abs s <=? ell))%Z
  then (RtoC (sgn s) * RtoC (swsh_norm ell) * Dcv a b ell m (- s))%C
  else RtoC 0.
Lemma SWSH_code_in s ell m a b : (- ell <= m <= ell)%Z -> (- ell <= s <= ell)%Z ->
  SWSH_code s ell m a b = (RtoC (sgn s) * RtoC (swsh_norm ell) * Dcv a b ell m (- s))%C.
Proof.
  intros Hm Hs. unfold SWSH_code.
  replace ((Z.abs m <=? ell) && (Z.abs s <=? ell))%Z with true by (symmetry; apply andb_true_iff; split; apply Z.leb_le; lia).
  reflexivity.
Qed.
Lemma SWSH_code_value s ell m a b : (a * Cconj a + b * Cconj b)%C = RtoC 1 -> resolved a -> resolved b ->
  SWSH_code s ell m a b = SWSH_value s ell m a b.
Proof.
  intros U Ra Rb. destruct ((Z.abs m <=? ell) && (Z.abs s <=? ell))%Z eqn:E.
  - apply andb_true_iff in E. destruct E as [E1 E2]. apply Z.leb_le in E1, E2.
    rewrite SWSH_code_in, SWSH_value_in by lia. f_equal. apply Dc_resolved; auto; lia.
  - unfold SWSH_code, SWSH_value. rewrite E. auto.
Qed.

Lemma S_out_tests s ell m : ((Z.abs m >? ell) || (Z.abs s >? ell))%Z = negb ((Z.abs m <=? ell) && (Z.abs s <=? ell))%Z.
Proof.
  rewrite !Z.gtb_ltb. rewrite negb_andb. rewrite !Z.leb_antisym, !negb_involutive. reflexivity.
Qed.

Section Elem.
Variables (L : Z) (tab : arr R) (s ell m : Z) (a b : C).
Hypothesis (Ht : is_Wigner_table L tab) (HL : (ell <= L)%Z).

Lemma S_elem_ok :
  let ra := Cmod a in let rb := Cmod b in
  if Rleb ra epsilon then S_elem_a0 b s (ell, m) = SWSH_code s ell m a b
  else if Rleb rb epsilon then S_elem_b0 a s (ell, m) = SWSH_code s ell m a b
  else if Rltb ra rb then S_elem_lt tab ra rb (phase a) (phase b) s (ell, m) = Ok (SWSH_code s ell m a b)
  else S_elem_ge tab ra rb (phase a) (phase b) s (ell, m) = Ok (SWSH_code s ell m a b).
Proof.
  intros ra rb.
  unfold S_elem_a0, S_elem_b0, S_elem_lt, S_elem_ge.
  rewrite <- !orb_assoc. rewrite !S_out_tests.
  destruct ((Z.abs m <=? ell) && (Z.abs s <=? ell))%Z eqn:EI; cbn [negb].
  2:{ unfold SWSH_code. rewrite EI, !orb_true_r.
      destruct (Rleb ra epsilon); auto. destruct (Rleb rb epsilon); auto. destruct (Rltb ra rb); auto. }
  apply andb_true_iff in EI. destruct EI as [E1 E2]. apply Z.leb_le in E1, E2.
  assert (Hm : (- ell <= m <= ell)%Z) by lia. assert (Hs : (- ell <= s <= ell)%Z) by lia.
  rewrite SWSH_code_in by auto. rewrite !orb_false_r, !mod2_even.
  destruct (Rleb ra epsilon) eqn:EA; [|destruct (Rleb rb epsilon) eqn:EB].
  - unfold Dcv, Dc. fold ra. rewrite EA.
    destruct (Z.eqb_spec m s), (Z.eqb_spec (ell + - s) (2 * ell - (ell + m))); try lia; cbn [negb]; [|ring].
    subst m. replace (2 * (ell + - s) - 2 * ell)%Z with (-2 * s)%Z by lia.
    rewrite sgn_add. unfold sgn. destruct (Z.even ell), (Z.even s); rewrite ?RtoC_mult, ?RtoC_opp; ring.
  - unfold Dcv, Dc. fold ra rb. rewrite EA, EB.
    destruct (Z.eqb_spec m (- s)), (Z.eqb_spec (ell + m) (ell + - s)); try lia; cbn [negb]; [|ring].
    replace (2 * (ell + m) - 2 * ell)%Z with (-2 * s)%Z by lia.
    unfold sgn. destruct (Z.even s); rewrite ?RtoC_opp; ring.
  - replace (Dcv a b ell m (- s)) with (Dv a b ell m (- s)) by (unfold Dcv, Dc; fold ra rb; rewrite EA, EB; auto).
    apply Rleb_false_pos in EA, EB. rename EA into H. rename EB into H'.
    unfold ra, rb. destruct (Rltb (Cmod a) (Cmod b)).
    + destruct (int_lt L tab a b ell m (- s) Ht ltac:(lia) Hm ltac:(lia) H H') as (c & S & EC & ES & EV).
      rewrite EC. cbn [bind].
      replace (- m - - s)%Z with (- m + s)%Z in * by lia. replace (ell - - s)%Z with (ell + s)%Z in * by lia.
      rewrite ES. cbn [bind].
      destruct (EV _ eq_refl) as (X1 & _). clear EV. rewrite <- X1. rewrite sgn_if, !crect_cis.
      replace (2 * ell - - s - m)%Z with (2 * ell + s - m)%Z by lia.
      replace (ell + - s + Z.max 0 (- m + s))%Z with (ell + Z.max 0 (- m + s) - s)%Z by lia.
      rewrite (sgn_sub _ s).
      match goal with |- context [C_is_zero ?z] => destruct (C_is_zero z) eqn:EZ; [apply C_is_zero_true in EZ; set (Z0 := z) in EZ|] end.
      * f_equal. transitivity (RtoC (swsh_norm ell) * RtoC (sgn (ell + Z.max 0 (- m + s))) * RtoC (sgn s * sgn s) * Z0 * RtoC S)%C.
        { rewrite EZ. ring. }
        unfold Z0. rewrite !RtoC_mult. ring.
      * f_equal. transitivity (RtoC (swsh_norm ell) * RtoC (sgn (ell + Z.max 0 (- m + s))) * RtoC (sgn s * sgn s) *
           (RtoC (c * powerRZ (Cmod b) (2 * ell + s - m - 2 * Z.max 0 (- m + s)) * powerRZ (Cmod a) (- s + m + 2 * Z.max 0 (- m + s))) *
           cis (phase b * IZR (- s - m) + phase a * IZR (- s + m))) * RtoC S)%C.
        { rewrite sgn_sqr. ring. }
        rewrite !RtoC_mult. ring.
    + destruct (int_ge L tab a b ell m (- s) Ht ltac:(lia) Hm ltac:(lia) H H') as (c & S & EC & ES & EV).
      rewrite EC. cbn [bind].
      replace (m - - s)%Z with (m + s)%Z in * by lia. replace (ell - - s)%Z with (ell + s)%Z in * by lia.
      rewrite ES. cbn [bind].
      destruct (EV _ eq_refl) as (X1 & _). clear EV. rewrite <- X1. rewrite sgn_if, !crect_cis.
      replace (2 * ell - - s + m)%Z with (2 * ell + s + m)%Z by lia.
      rewrite (sgn_add (Z.max 0 (m + s)) s).
      match goal with |- context [C_is_zero ?z] => destruct (C_is_zero z) eqn:EZ; [apply C_is_zero_true in EZ; set (Z0 := z) in EZ|] end.
      * f_equal. transitivity (RtoC (swsh_norm ell) * RtoC (sgn (Z.max 0 (m + s))) * RtoC (sgn s) * Z0 * RtoC S)%C.
        { rewrite EZ. ring. }
        unfold Z0. rewrite !RtoC_mult. ring.
      * f_equal. rewrite !RtoC_mult. ring.
Qed.
End Elem.

Lemma SWSH_core_code L tab a b s indices values :
  is_Wigner_table L tab ->
  (0 <= alen indices <= alen values)%Z ->
  (forall i, (0 <= i < alen indices)%Z -> (fst (aget indices i) <= L)%Z) ->
  exists out, SWSH_core tab a b s indices values = Ok out
    /\ alen out = alen values
    /\ (forall i, (0 <= i < alen indices)%Z ->
          aget out i = SWSH_code s (fst (aget indices i)) (snd (aget indices i)) a b)
    /\ (forall i, (alen indices <= i)%Z -> aget out i = aget values i).
Proof.
  intros Ht Hlen Hrow. unfold SWSH_core.
  pose proof (fun ell m HL => S_elem_ok L tab s ell m a b Ht HL) as B. cbv zeta in *.
  destruct (Rleb (Cmod a) epsilon) eqn:E1; [|destruct (Rleb (Cmod b) epsilon) eqn:E2; [|destruct (Rltb (Cmod a) (Cmod b)) eqn:E3]].
  - destruct (fill_loop (fun i => do t <- rd indices i; Ok (S_elem_a0 b s t)) (fun i => SWSH_code s (fst (aget indices i)) (snd (aget indices i)) a b)
      (alen indices) values Hlen) as (out & E & P).
    + intros i Hi. rewrite rd_ok by auto. cbn [bind]. f_equal. specialize (Hrow i Hi). destruct (aget indices i); cbn [fst snd] in *; auto.
    + exists out. split; [|exact P]. rewrite <- E. apply for_loop_ext. intros k st Hk.
      destruct (rd indices (0 + k * 1)); auto.
  - destruct (fill_loop (fun i => do t <- rd indices i; Ok (S_elem_b0 a s t)) (fun i => SWSH_code s (fst (aget indices i)) (snd (aget indices i)) a b)
      (alen indices) values Hlen) as (out & E & P).
    + intros i Hi. rewrite rd_ok by auto. cbn [bind]. f_equal. specialize (Hrow i Hi). destruct (aget indices i); cbn [fst snd] in *; auto.
    + exists out. split; [|exact P]. rewrite <- E. apply for_loop_ext. intros k st Hk.
      destruct (rd indices (0 + k * 1)); auto.
  - destruct (fill_loop (fun i => do t <- rd indices i; S_elem_lt tab (Cmod a) (Cmod b) (phase a) (phase b) s t) (fun i => SWSH_code s (fst (aget indices i)) (snd (aget indices i)) a b)
      (alen indices) values Hlen) as (out & E & P).
    + intros i Hi. rewrite rd_ok by auto. cbn [bind]. specialize (Hrow i Hi). destruct (aget indices i); cbn [fst snd] in *; auto.
    + exists out. split; [|exact P]. rewrite <- E. apply for_loop_ext. intros k st Hk.
      destruct (rd indices (0 + k * 1)); auto.
  - destruct (fill_loop (fun i => do t <- rd indices i; S_elem_ge tab (Cmod a) (Cmod b) (phase a) (phase b) s t) (fun i => SWSH_code s (fst (aget indices i)) (snd (aget indices i)) a b)
      (alen indices) values Hlen) as (out & E & P).
    + intros i Hi. rewrite rd_ok by auto. cbn [bind]. specialize (Hrow i Hi). destruct (aget indices i); cbn [fst snd] in *; auto.
    + exists out. split; [|exact P]. rewrite <- E. apply for_loop_ext. intros k st Hk.
      destruct (rd indices (0 + k * 1)); auto.
Qed.

Theorem SWSHs_core_code L tab Rs s ell m values :
  is_Wigner_table L tab -> (ell <= L)%Z -> (0 <= alen Rs <= alen values)%Z ->
  exists out, SWSHs_core tab Rs s ell m values = Ok out
    /\ alen out = alen values
    /\ (forall i, (0 <= i < alen Rs)%Z -> aget out i = SWSH_code s ell m (qa (aget Rs i)) (qb (aget Rs i)))
    /\ (forall i, (alen Rs <= i)%Z -> aget out i = aget values i).
Proof.
  intros Ht HL Hlen. unfold SWSHs_core.
  rewrite S_out_tests.
  destruct ((Z.abs m <=? ell) && (Z.abs s <=? ell))%Z eqn:EI; cbn [negb].
  2:{ destruct (fill_loop (fun i => Ok (RtoC 0)) (fun _ => RtoC 0) (alen Rs) values Hlen ltac:(auto)) as (out & E & A & B & D).
      exists out. split; [exact E|]. split; auto. split; auto. intros i Hi. rewrite B by auto.
      unfold SWSH_code. rewrite EI. auto. }
  apply andb_true_iff in EI. destruct EI as [E1 E2]. apply Z.leb_le in E1, E2.
  assert (Hm : (- ell <= m <= ell)%Z) by lia. assert (Hs : (- ell <= s <= ell)%Z) by lia.
  rewrite (coefficient_ok L tab ell m (- s)) by (auto; lia). cbn [bind].
  rewrite (coefficient_ok L tab ell (- m) (- s)) by (auto; lia). cbn [bind].
  match goal with |- context [for_range 0 (alen Rs) ?f values] => set (body := f) end.
  destruct (for_range_inv (fun k o => alen o = alen values
      /\ (forall i, (0 <= i < k)%Z -> aget o i = SWSH_code s ell m (qa (aget Rs i)) (qb (aget Rs i)))
      /\ (forall i, (alen Rs <= i)%Z -> aget o i = aget values i)) 0 (alen Rs) body values ltac:(lia)) as (out & E & A & B & D).
  - repeat split; auto. intros; lia.
  - intros i o Hi (A & B & D). 
    set (q := aget Rs i) in *.
    assert (HW : exists v, v = SWSH_code s ell m (qa q) (qb q) /\ body i o = wr o i v).
    { rewrite SWSH_code_in by auto.
      unfold body. rewrite rd_ok by lia. cbn [bind]. fold q. fold (qa q). fold (qb q).
      rewrite !mod2_even.
      destruct (Rleb (Cmod (qa q)) epsilon) eqn:EA; [|destruct (Rleb (Cmod (qb q)) epsilon) eqn:EB].
      - eexists. split; [|reflexivity]. unfold Dcv, Dc. rewrite EA.
        destruct (Z.eqb_spec m s), (Z.eqb_spec (ell + - s) (2 * ell - (ell + m))); try lia; cbn [negb]; [|ring].
        subst m. replace (2 * (ell + - s) - 2 * ell)%Z with (-2 * s)%Z by lia.
        rewrite sgn_add. unfold sgn. destruct (Z.even ell), (Z.even s); rewrite ?RtoC_mult, ?RtoC_opp; ring.
      - eexists. split; [|reflexivity]. unfold Dcv, Dc. rewrite EA, EB.
        destruct (Z.eqb_spec m (- s)), (Z.eqb_spec (ell + m) (ell + - s)); try lia; cbn [negb]; [|ring].
        replace (2 * (ell + m) - 2 * ell)%Z with (-2 * s)%Z by lia.
        unfold sgn. destruct (Z.even s); rewrite ?RtoC_opp; ring.
      - replace (Dcv (qa q) (qb q) ell m (- s)) with (Dv (qa q) (qb q) ell m (- s)) by (unfold Dcv, Dc; rewrite EA, EB; auto).
        apply Rleb_false_pos in EA, EB. rename EA into H. rename EB into H'.
        destruct (Rltb (Cmod (qa q)) (Cmod (qb q))).
        + destruct (int_lt L tab (qa q) (qb q) ell m (- s) Ht ltac:(lia) Hm ltac:(lia) H H') as (c & S & EC & ES & EV).
          rewrite (coefficient_ok L tab ell (- m) (- s)) in EC by (auto; lia). apply Ok_inj in EC; subst c.
          rewrite !sgn_ifR.
          replace (- m - - s)%Z with (- m + s)%Z in * by lia. replace (ell - - s)%Z with (ell + s)%Z in * by lia.
          rewrite ES. cbn [bind].
          destruct (EV _ eq_refl) as (X1 & _). clear EV. rewrite <- X1. rewrite !crect_cis.
          replace (2 * ell - - s - m)%Z with (2 * ell + s - m)%Z by lia.
          replace (ell + - s + Z.max 0 (- m + s))%Z with (ell + Z.max 0 (- m + s) - s)%Z by lia.
          rewrite (sgn_sub _ s).
          match goal with |- context [R_is_zero (_ * ?z)] => set (c := z); destruct (R_is_zero (sgn (ell + Z.max 0 (- m + s)) * c)) eqn:EZ end.
          * apply R_is_zero_true in EZ. eexists. split; [|reflexivity].
            symmetry. transitivity (RtoC (swsh_norm ell) * (RtoC (sgn (ell + Z.max 0 (- m + s)) * c * (sgn s * sgn s *
               powerRZ (Cmod (qb q)) (2 * ell + s - m - 2 * Z.max 0 (- m + s)) * powerRZ (Cmod (qa q)) (- s + m + 2 * Z.max 0 (- m + s)))) *
               cis (phase (qb q) * IZR (- s - m) + phase (qa q) * IZR (- s + m))) * RtoC S)%C.
            { rewrite !RtoC_mult. ring. }
            rewrite EZ. rewrite Rmult_0_l. ring.
          * eexists. split; [|reflexivity].
            transitivity (RtoC (swsh_norm ell) * (RtoC (sgn s * sgn s * (sgn (ell + Z.max 0 (- m + s)) * c *
               powerRZ (Cmod (qb q)) (2 * ell + s - m - 2 * Z.max 0 (- m + s)) * powerRZ (Cmod (qa q)) (- s + m + 2 * Z.max 0 (- m + s)))) *
               cis (phase (qb q) * IZR (- s - m) + phase (qa q) * IZR (- s + m))) * RtoC S)%C.
            { rewrite sgn_sqr, Rmult_1_l. ring. }
            rewrite !RtoC_mult. ring.
        + destruct (int_ge L tab (qa q) (qb q) ell m (- s) Ht ltac:(lia) Hm ltac:(lia) H H') as (c & S & EC & ES & EV).
          rewrite (coefficient_ok L tab ell m (- s)) in EC by (auto; lia). apply Ok_inj in EC; subst c.
          rewrite !sgn_ifR.
          replace (m - - s)%Z with (m + s)%Z in * by lia. replace (ell - - s)%Z with (ell + s)%Z in * by lia.
          rewrite ES. cbn [bind].
          destruct (EV _ eq_refl) as (X1 & _). clear EV. rewrite <- X1. rewrite !crect_cis.
          replace (2 * ell - - s + m)%Z with (2 * ell + s + m)%Z by lia.
          rewrite (sgn_add (Z.max 0 (m + s)) s).
          match goal with |- context [R_is_zero (_ * ?z)] => set (c := z); destruct (R_is_zero (sgn (Z.max 0 (m + s)) * sgn s * c)) eqn:EZ end.
          * apply R_is_zero_true in EZ. eexists. split; [|reflexivity].
            symmetry. transitivity (RtoC (swsh_norm ell) * (RtoC (sgn (Z.max 0 (m + s)) * sgn s * c * (
               powerRZ (Cmod (qa q)) (2 * ell + s + m - 2 * Z.max 0 (m + s)) * powerRZ (Cmod (qb q)) (- s - m + 2 * Z.max 0 (m + s)))) *
               cis (phase (qa q) * IZR (- s + m) + phase (qb q) * IZR (- s - m))) * RtoC S)%C.
            { rewrite !RtoC_mult. ring. }
            rewrite EZ. rewrite Rmult_0_l. ring.
          * eexists. split; [|reflexivity]. rewrite !RtoC_mult. ring. }
    destruct HW as (v & Ev & Eb). rewrite Eb, wr_ok by lia. eexists; split; [reflexivity|].
    cbn [alen aget]. split; auto. split.
    + intros j Hj. destruct (Z.eq_dec j i) as [->|]; [rewrite upd_same, Ev; auto|]. rewrite upd_other by auto. apply B. lia.
    + intros j Hj. rewrite upd_other by lia. auto.
  - exists out. auto.
Qed.




Lemma SWSH_core_ok L tab a b s indices values :
  is_Wigner_table L tab ->
  (a * Cconj a + b * Cconj b)%C = RtoC 1 -> resolved a -> resolved b ->
  (0 <= alen indices <= alen values)%Z ->
  (forall i, (0 <= i < alen indices)%Z -> (fst (aget indices i) <= L)%Z) ->
  exists out, SWSH_core tab a b s indices values = Ok out
    /\ alen out = alen values
    /\ (forall i, (0 <= i < alen indices)%Z ->
          aget out i = SWSH_value s (fst (aget indices i)) (snd (aget indices i)) a b)
    /\ (forall i, (alen indices <= i)%Z -> aget out i = aget values i).
Proof.
  intros Ht U Ra Rb Hlen Hrow. destruct (SWSH_core_code L tab a b s indices values Ht Hlen Hrow) as (out & E & A & B & D).
  exists out. split; auto. split; auto. split; auto. intros i Hi. rewrite B by auto. apply SWSH_code_value; auto.
Qed.

Theorem SWSHs_core_ok L tab Rs s ell m values :
  is_Wigner_table L tab -> (ell <= L)%Z -> (0 <= alen Rs <= alen values)%Z ->
  (forall i, (0 <= i < alen Rs)%Z -> unit_quat (aget Rs i) /\ resolved (qa (aget Rs i)) /\ resolved (qb (aget Rs i))) ->
  exists out, SWSHs_core tab Rs s ell m values = Ok out
    /\ alen out = alen values
    /\ (forall i, (0 <= i < alen Rs)%Z -> aget out i = SWSH_value s ell m (qa (aget Rs i)) (qb (aget Rs i)))
    /\ (forall i, (alen Rs <= i)%Z -> aget out i = aget values i).
Proof.
  intros Ht HL Hlen HR. destruct (SWSHs_core_code L tab Rs s ell m values Ht HL Hlen) as (out & E & A & B & D).
  exists out. split; auto. split; auto. split; auto. intros i Hi. rewrite B by auto. destruct (HR i Hi) as (Uq & Ra & Rb).
  apply SWSH_code_value; auto using unit_norm.
Qed.

Theorem SWSH_grid_code L tab g Rs s ell_max :
  is_Wigner_table L tab -> (0 <= ell_max <= L)%Z -> (0 < alen Rs)%Z ->
  exists out, SWSH_grid tab g Rs s ell_max = Ok out
    /\ nrow out = alen Rs /\ ncol out = LM_total_size 0 ell_max
    /\ forall i ell m, (0 <= i < alen Rs)%Z -> (0 <= ell <= ell_max)%Z -> (- ell <= m <= ell)%Z ->
         get2 out i (LM_index ell m 0) = SWSH_code s ell m (qa (aget Rs i)) (qb (aget Rs i)).
Proof.
  intros Ht HL Hlen. unfold SWSH_grid.
  destruct (C01 g 0 ell_max ltac:(lia)) as (LM & E & EL & Hrow & _ & Hidx). rewrite E. cbn [bind].
  destruct (Z.eqb_spec (alen Rs) 0); [lia|].
  match goal with |- context [for_range 0 (alen Rs) ?f ?v] => set (body := f); set (v0 := v) end.
  destruct (for_range_inv (fun k o => nrow o = alen Rs /\ ncol o = alen LM
     /\ (forall i j, (0 <= i < k)%Z -> (0 <= j < alen LM)%Z ->
         get2 o i j = SWSH_code s (fst (aget LM j)) (snd (aget LM j)) (qa (aget Rs i)) (qb (aget Rs i))))
     0 (alen Rs) body v0 ltac:(lia)) as (out & EO & A & B & D).
  - unfold v0; cbn. repeat split; auto. intros; lia.
  - intros i o Hi (A & B & D).
    assert (0 <= alen LM)%Z by (rewrite EL; unfold LM_total_size; nia).
    destruct (SWSH_core_code L tab (qa (aget Rs i)) (qb (aget Rs i)) s LM (mkarr (ncol o) (get2 o i)) Ht)
      as (row & ER & _ & HV & _).
    { cbn [alen]. rewrite B. lia. }
    { intros j Hj. specialize (Hrow j Hj). lia. }
    unfold body. rewrite rd_ok by lia. cbn [bind]. rewrite ER. cbn [bind]. eexists. split; [reflexivity|].
    cbn [nrow ncol get2]. repeat split; auto. intros i' j Hi' Hj.
    destruct (Z.eqb_spec i' i) as [->|]; [auto|]. apply D; lia.
  - exists out. split; [auto|]. split; [auto|]. split; [congruence|].
    intros i ell m Hi Hell Hm. destruct (Hidx ell m Hell Hm) as [X Y].
    rewrite D by auto. rewrite Y. reflexivity.
Qed.

Theorem SWSH_grid_ok L tab g Rs s ell_max :
  is_Wigner_table L tab -> (0 <= ell_max <= L)%Z -> (0 < alen Rs)%Z ->
  (forall i, (0 <= i < alen Rs)%Z -> rotor (aget Rs i)) ->
  exists out, SWSH_grid tab g Rs s ell_max = Ok out
    /\ nrow out = alen Rs /\ ncol out = LM_total_size 0 ell_max
    /\ forall i ell m, (0 <= i < alen Rs)%Z -> (0 <= ell <= ell_max)%Z -> (- ell <= m <= ell)%Z ->
         get2 out i (LM_index ell m 0) = SWSH_value s ell m (qa (aget Rs i)) (qb (aget Rs i)).
Proof.
  intros Ht HL Hlen HR. destruct (SWSH_grid_code L tab g Rs s ell_max Ht HL Hlen) as (out & E & A & B & D).
  exists out. split; auto. split; auto. split; auto. intros i ell m Hi He Hm. rewrite D by auto. destruct (HR i Hi) as (U & Ra & Rb).
  apply SWSH_code_value; auto using unit_norm.
Qed.
