(** The statements about Modes objects, as exported by P_Modes.v. *)
Require Import ZArith Lia List Reals Lra Bool.
From Coquelicot Require Import Complex.
From Verif Require Import Base BaseProofs CBase CSum RSum Fact IndexModel IndexProofs IndexProps PowersModel ConvModel ConvProps DRep WignerModel WignerSpec
  WignerProofs WignerProofs3 RotorSpec SWSHModel SWSHProofs WignerProps ModesModel ModesSpec ModesProofs ModesProofs2 ModesProofs3.
Import ListNotations.
Open Scope Z_scope.

(** ** C21 *)
Lemma C21_constructor :
  forall h a s l L trunc, (buf a < next h)%nat -> 0 <= l ->
  let call := Modes_new h (InArr a) None [s; l; L] (mkkw None None None trunc) in
  (wid a <> LM_total_size l L -> call = Err ValueError)
  /\ (wid a = LM_total_size l L ->
      exists h' r, call = Ok (h', r)
        /\ spin (md r) = s /\ ellmax (md r) = L /\ lead (nd r) = lead a /\ wid (nd r) = (L + 1) ^ 2
        /\ (forall idx ell m, 0 <= ell <= L -> - ell <= m <= ell ->
             mode h' r idx ell m
             = if (l <=? ell) && (Z.abs s <=? ell) then mem h (buf a) idx (LM_index ell m l) else RtoC 0)
        /\ (0 < l -> forall b, (b < next h)%nat -> forall idx k, mem h' b idx k = mem h b idx k)
        /\ (l = 0 -> s = 0 -> forall b, (b < next h)%nat -> forall idx k, 0 <= k < wid a -> mem h' b idx k = mem h b idx k)).
Proof.
  intros h a s l L trunc Ha Hl call. split.
  - intros H. apply Modes_new_bad. auto.
  - intros HW. destruct (Modes_new_ok h a s l L trunc Ha Hl HW) as (h' & r & E & EM & El & (Wb & Ww & Wz) & M & K & K0).
    exists h', r. rewrite EM in Ww. cbn [ellmax] in Ww. rewrite EM. repeat (split; auto). { intros H0. apply K. auto. }
    intros H0 Hs b Hb idx k Hk. destruct (K0 H0) as [En (_ & Ko)].
    destruct (Nat.eq_dec b (buf a)) as [->|Hne]; [|apply Ko; auto]. subst l s. rewrite LM_total_sqr in HW.
    destruct (Z_lt_ge_dec L 0) as [HLn|HLp].
    + (* no modes: the zeroed slice is empty *)
      unfold call, Modes_new in E. cbn [positional bind kw_spin kw_ell_min kw_ell_max kw_trunc orelse option_map] in E.
      replace (wid a =? LM_total_size 0 L) with true in E by (symmetry; apply Z.eqb_eq; rewrite LM_total_sqr; lia). cbn [negb] in E. rewrite Z.eqb_refl in E.
      apply Ok_inj in E. inversion E; subst h'. rewrite wrslice_get. rewrite Nat.eqb_refl. unfold slice_len. cbn [andb].
      replace (LM_total_size 0 (Z.abs 0 - 1)) with 0 by reflexivity. rewrite Z.sub_diag, Z.max_id, Z.add_0_r.
      destruct (Z.leb_spec (clip (wid a) 0) k), (Z.ltb_spec k (clip (wid a) 0)); try reflexivity; lia.
    + destruct (col_exists L k ltac:(lia) ltac:(lia)) as (ell & He & Bk). destruct (blk_m _ _ Bk) as (m & Hm & ->).
      specialize (M idx ell m He Hm). unfold mode in M. rewrite En in M. rewrite M.
      replace (0 <=? ell) with true by (symmetry; apply Z.leb_le; lia). replace (Z.abs 0 <=? ell) with true by (symmetry; apply Z.leb_le; lia).
      cbn [andb]. rewrite LM_col. reflexivity.
Qed.

Lemma C21_call_forms :
  forall h a im s l L ko lo mo trunc,
  Modes_new h a im [s; l; L] (mkkw ko lo mo trunc) = Modes_new h a im [] (mkkw (Some s) (Some l) (Some L) trunc)
  /\ Modes_new h a im [s] (mkkw ko lo mo trunc) = Modes_new h a im [] (mkkw (Some s) lo mo trunc)
  /\ Modes_new h a im [s; l] (mkkw ko lo mo trunc) = Err ValueError
  /\ Modes_new h a None [] (mkkw None lo mo trunc) = Err ValueError.
Proof. intros. repeat split; reflexivity. Qed.

Lemma C21_deduced_ell_max :
  forall h a s l trunc,
  (forall L, -1 <= L -> wid a = LM_total_size l L ->
     Modes_new h (InArr a) None [s] (mkkw None (Some l) None trunc) = Modes_new h (InArr a) None [s; l; L] (mkkw None None None trunc))
  /\ ((forall L, -1 <= L -> wid a <> LM_total_size l L) ->
     Modes_new h (InArr a) None [s] (mkkw None (Some l) None trunc) = Err ValueError).
Proof.
  intros. split.
  - intros L HL HW. unfold Modes_new. cbn [positional bind kw_spin kw_ell_min kw_ell_max kw_trunc orelse option_map].
    destruct (C02 (wid a) l L) as [_ H]. rewrite H by auto. reflexivity.
  - intros H. unfold Modes_new. cbn [positional bind kw_spin kw_ell_min kw_ell_max kw_trunc orelse option_map].
    rewrite (C02_rejects (wid a) l H). reflexivity.
Qed.

Lemma C21_caller_array_refuted :
  exists h a s l L h' r idx k,
    (buf a < next h)%nat /\ 0 <= k < wid a
    /\ Modes_new h (InArr a) None [s; l; L] no_kw = Ok (h', r)
    /\ mem h' (buf a) idx k <> mem h (buf a) idx k.
Proof.
  exists (mkheap 1 (fun _ _ _ => RtoC 1)), (mknd 0 [] 4), 1, 0, 1. eexists _, _, [], 0.
  split; [cbn; lia|]. split; [cbn; lia|]. split; [reflexivity|]. cbn. intros H. apply (f_equal Re) in H. cbn in H. lra.
Qed.

(** ** C22 *)
Lemma C22_conjugate :
  forall Lt tab h f, is_Wigner_table Lt tab -> wf h f -> 0 <= ellmax (md f) <= Lt ->
  exists h' r, conjugate h f false = Ok (h', r)
    /\ spin (md r) = - spin (md f) /\ ellmax (md r) = ellmax (md f) /\ lead (nd r) = lead (nd f) /\ wf h' r
    /\ (forall b, (b < next h)%nat -> forall idx k, mem h' b idx k = mem h b idx k)
    /\ forall q F, rotor q -> value_at tab h f q F -> value_at tab h' r q (fun idx => Cconj (F idx)).
Proof.
  intros Lt tab h f Ht W HL. destruct (conjugate_new h f W) as (h' & r & E & NM & T). exists h', r. split; [exact E|].
  pose proof NM as (_ & Kp & _ & Es & EL & El & Wr & M). repeat (split; auto; try apply Wr).
  intros q F HR V. pose proof (value_at_new Lt tab h h' r _ _ _ _ q Ht NM HL HR) as V'.
  eapply value_at_ext; [|exact V']. intros idx Hi. rewrite El in Hi. cbv beta.
  rewrite (value_at_fun _ _ _ _ _ _ V (value_at_fvalue Lt tab h f q Ht W HL HR) idx Hi). apply fvalue_conj.
Qed.

Lemma C22_twice :
  forall h f, wf h f ->
  exists h1 r1 h2 r2, conjugate h f false = Ok (h1, r1) /\ conjugate h1 r1 false = Ok (h2, r2)
    /\ md r2 = md f /\ lead (nd r2) = lead (nd f) /\ wid (nd r2) = wid (nd f)
    /\ same_modes f (mode h2 r2) (mode h f).
Proof.
  intros h f W. destruct (conjugate_new h f W) as (h1 & r1 & E1 & (_ & K1 & _ & Es & EL & El & W1 & M1) & T1).
  destruct (conjugate_new h1 r1 W1) as (h2 & r2 & E2 & (_ & K2 & _ & Es2 & EL2 & El2 & W2 & M2) & T2).
  exists h1, r1, h2, r2. split; [exact E1|]. split; [exact E2|]. split.
  { destruct (md r2) as [s2 l2 t2], (md f) as [s0 l0 t0]. cbn [spin ellmax truncator] in *. f_equal; try congruence; lia. }
  split; [congruence|]. split. { destruct W2 as (_ & -> & _). destruct W as (_ & -> & _). rewrite EL2, EL. reflexivity. }
  intros idx ell mm Hi He Hm. rewrite M2 by (rewrite ?El, ?EL; auto). unfold conj_data. rewrite M1 by (auto; lia). unfold conj_data.
  rewrite Es, Z.opp_involutive, Cconj_mult, Cconj_RtoC, Cconj_conj.
  replace (sgn (spin (md f) + - mm)) with (sgn (- spin (md f) + mm)) by (rewrite !sgn_add, !sgn_opp; reflexivity).
  rewrite Cmult_assoc, Csgn_sqr. ring.
Qed.

Lemma C22_inplace :
  forall h f, wf h f ->
  exists h1 r1 h2 r2, conjugate h f false = Ok (h1, r1) /\ conjugate h f true = Ok (h2, r2)
    /\ md r2 = md r1 /\ nd r2 = nd f /\ same_modes f (mode h2 r2) (mode h1 r1) /\ changes_only (buf (nd f)) h h2.
Proof.
  intros h f W. destruct (conjugate_new h f W) as (h1 & r1 & E1 & (_ & K1 & _ & Es & EL & El & W1 & M1) & T1).
  destruct (conjugate_inplace h f W) as (h2 & r2 & E2 & En & Em & Co & W2 & _ & M2).
  exists h1, r1, h2, r2. split; [exact E1|]. split; [exact E2|]. split.
  { rewrite Em. destruct (md r1) as [s1 l1 t1]. cbn [spin ellmax truncator] in *. congruence. }
  split; [exact En|]. split; [|exact Co]. intros idx ell mm Hi He Hm. rewrite M1, M2 by auto. reflexivity.
Qed.

(** ** C23 *)
Lemma C23_real_imag :
  forall Lt tab h f, is_Wigner_table Lt tab -> wf h f -> 0 <= ellmax (md f) <= Lt -> spin (md f) = 0 ->
  exists h1 re h2 im, real_func h f false = Ok (h1, re) /\ imag_func h f false = Ok (h2, im)
    /\ spin (md re) = 0 /\ ellmax (md re) = ellmax (md f) /\ lead (nd re) = lead (nd f) /\ wf h1 re
    /\ spin (md im) = 0 /\ ellmax (md im) = ellmax (md f) /\ lead (nd im) = lead (nd f) /\ wf h2 im
    /\ (forall b, (b < next h)%nat -> forall idx k, mem h1 b idx k = mem h b idx k /\ mem h2 b idx k = mem h b idx k)
    /\ (forall q F, rotor q -> value_at tab h f q F ->
          value_at tab h1 re q (fun idx => RtoC (Re (F idx))) /\ value_at tab h2 im q (fun idx => RtoC (Im (F idx))))
    /\ same_modes f (mode h f) (fun idx ell m => mode h1 re idx ell m + Ci * mode h2 im idx ell m)%C.
Proof.
  intros Lt tab h f Ht W HL S0. destruct (real_new h f W S0) as (h1 & re & E1 & NM1 & T1). destruct (imag_new h f W S0) as (h2 & im & E2 & NM2 & T2).
  pose proof NM1 as (_ & K1 & _ & Es1 & EL1 & El1 & W1 & M1). pose proof NM2 as (_ & K2 & _ & Es2 & EL2 & El2 & W2 & M2).
  exists h1, re, h2, im. split; [exact E1|]. split; [exact E2|].
  do 4 (split; [first [assumption|apply W1|apply W2]|]). do 4 (split; [first [assumption|apply W1|apply W2]|]).
  split; [split; auto|]. split.
  - intros q F HR V. split.
    + eapply value_at_ext; [|exact (value_at_new Lt tab h h1 re _ _ _ _ q Ht NM1 HL HR)]. intros idx Hi. rewrite El1 in Hi. cbv beta.
      rewrite (value_at_fun _ _ _ _ _ _ V (value_at_fvalue Lt tab h f q Ht W HL HR) idx Hi). rewrite S0. apply fvalue_real.
    + eapply value_at_ext; [|exact (value_at_new Lt tab h h2 im _ _ _ _ q Ht NM2 HL HR)]. intros idx Hi. rewrite El2 in Hi. cbv beta.
      rewrite (value_at_fun _ _ _ _ _ _ V (value_at_fvalue Lt tab h f q Ht W HL HR) idx Hi). rewrite S0. apply fvalue_imag.
  - intros idx ell mm Hi He Hm. rewrite M1, M2 by auto. unfold real_data, imag_data.
    set (x := mode h f idx ell mm). set (y := (RtoC (sgn mm) * Cconj (mode h f idx ell (- mm)))%C).
    transitivity ((x + y) / RtoC 2 + (- (Ci * Ci)) * ((x - y) / RtoC 2))%C; [|unfold Cdiv; ring]. rewrite Ci2. field. apply RtoC2_neq0.
Qed.

Lemma C23_real_idempotent :
  forall h f, wf h f -> spin (md f) = 0 ->
  exists h1 r1 h2 r2, real_func h f false = Ok (h1, r1) /\ real_func h1 r1 false = Ok (h2, r2)
    /\ md r2 = md r1 /\ lead (nd r2) = lead (nd r1) /\ same_modes f (mode h2 r2) (mode h1 r1).
Proof.
  intros h f W S0. destruct (real_new h f W S0) as (h1 & r1 & E1 & (_ & K1 & _ & Es1 & EL1 & El1 & W1 & M1) & T1).
  destruct (real_new h1 r1 W1 Es1) as (h2 & r2 & E2 & (_ & K2 & _ & Es2 & EL2 & El2 & W2 & M2) & T2).
  exists h1, r1, h2, r2. split; [exact E1|]. split; [exact E2|]. split.
  { destruct (md r2) as [s2 l2 t2], (md r1) as [s0 l0 t0]. cbn [spin ellmax truncator] in *. congruence. }
  split; [congruence|]. intros idx ell mm Hi He Hm. rewrite M2 by (rewrite ?El1, ?EL1; auto). unfold real_data. rewrite !M1 by (auto; lia). unfold real_data.
  rewrite Z.opp_involutive, sgn_opp, Cconj_half, Cconj_plus, Cconj_mult, Cconj_RtoC, Cconj_conj.
  set (x := mode h f idx ell mm). set (y := Cconj (mode h f idx ell (- mm))).
  transitivity ((x * (RtoC 1 + RtoC (sgn mm) * RtoC (sgn mm)) + RtoC (sgn mm) * y * RtoC 2) / RtoC 2 / RtoC 2)%C; [|rewrite Csgn_sqr]; field; try apply RtoC2_neq0.
Qed.

Lemma C23_inplace :
  forall h f, wf h f -> spin (md f) = 0 ->
  exists h1 r1 h2 i1 h3 h4, real_func h f false = Ok (h1, r1) /\ imag_func h f false = Ok (h2, i1)
    /\ real_func h f true = Ok (h3, f) /\ imag_func h f true = Ok (h4, f)
    /\ same_modes f (mode h3 f) (mode h1 r1) /\ same_modes f (mode h4 f) (mode h2 i1)
    /\ changes_only (buf (nd f)) h h3 /\ changes_only (buf (nd f)) h h4.
Proof.
  intros h f W S0. destruct (real_new h f W S0) as (h1 & r1 & E1 & (_ & _ & _ & _ & _ & _ & _ & M1) & _).
  destruct (imag_new h f W S0) as (h2 & i1 & E2 & (_ & _ & _ & _ & _ & _ & _ & M2) & _).
  destruct (real_inplace h f W S0) as (h3 & E3 & Co3 & _ & _ & M3). destruct (imag_inplace h f W S0) as (h4 & E4 & Co4 & _ & _ & M4).
  exists h1, r1, h2, i1, h3, h4. split; [exact E1|]. split; [exact E2|]. split; [exact E3|]. split; [exact E4|].
  split; [intros idx ell mm Hi He Hm; rewrite M1, M3 by auto; reflexivity|].
  split; [intros idx ell mm Hi He Hm; rewrite M2, M4 by auto; reflexivity|]. split; [exact Co3|exact Co4].
Qed.

Lemma C23_nonzero_spin :
  forall h f inplace, spin (md f) <> 0 ->
  real_func h f inplace = Err ValueError /\ imag_func h f inplace = Err ValueError.
Proof. intros h f inplace H. unfold real_func, imag_func. destruct (Z.eqb_spec (spin (md f)) 0); [contradiction|]. auto. Qed.
