(** Proofs about universal functions on Modes objects. *)
Require Import ZArith Lia List Reals Lra Bool.
From Coquelicot Require Import Complex.
From Verif Require Import Base BaseProofs CBase CSum Fact IndexModel IndexProofs Wigner3jModel ModesModel ModesSpec ModesProofs ModesProofs2 ModesProofs3
  ModesProps2 MultModel MultSpec MultProofs MultProps UfuncModel UfuncSpec.
From Verif Require GridModel.
Import ListNotations.
Import GridModel (ufunc(..), umethod(..)).
Open Scope Z_scope.

(** ** Shapes *)
Lemma broadcasts_to_spec a b : broadcasts_to a b = true -> broadcast a b = Some b.
Proof.
  unfold broadcasts_to. destruct (broadcast a b) as [c|]; [|discriminate]. intros H. apply andb_true_iff in H. destruct H as [Hl Hf].
  apply Nat.eqb_eq in Hl. f_equal. revert b Hl Hf. induction c as [|x c IH]; intros [|y b] Hl Hf; try discriminate; auto.
  cbn in Hf. apply andb_true_iff in Hf. destruct Hf as [H1 H2]. apply Z.eqb_eq in H1. subst. f_equal. apply IH; auto.
Qed.
Lemma broadcast_cons_inv x a y b : broadcast (x :: a) (y :: b) = Some (y :: b) -> broadcast a b = Some b /\ (x = y \/ x = 1).
Proof.
  cbn. destruct (broadcast a b) as [c|]; [|discriminate].
  destruct (Z.eqb_spec x y). { intros E. injection E as ? ?. subst. split; auto. }
  destruct (Z.eqb_spec x 1). { intros E. injection E as ?. subst. split; auto. }
  destruct (Z.eqb_spec y 1); [|discriminate]. intros E. injection E as ? ?. subst. split; auto.
Qed.
Lemma broadcast_trans a b c : broadcast a b = Some b -> broadcast b c = Some c -> broadcast a c = Some c.
Proof.
  revert b c. induction a as [|x a IH]; intros b c H1 H2. { destruct c; reflexivity. }
  destruct b as [|y b]; [discriminate|]. destruct c as [|z c]; [discriminate|].
  destruct (broadcast_cons_inv _ _ _ _ H1) as [A1 B1]. destruct (broadcast_cons_inv _ _ _ _ H2) as [A2 B2].
  cbn. rewrite (IH b c A1 A2). destruct (Z.eqb_spec x z); [subst; auto|]. replace (x =? 1) with true; auto. symmetry. apply Z.eqb_eq. lia.
Qed.
Lemma bidx_bidx a c : forall idx, broadcast a c = Some c -> bidx a (bidx c idx) = bidx a idx.
Proof.
  revert c. induction a as [|x a IH]; intros c idx H. { destruct (bidx c idx), idx; reflexivity. }
  destruct c as [|z c]; [discriminate|]. destruct (broadcast_cons_inv _ _ _ _ H) as [A B].
  destruct idx as [|i idx]; [reflexivity|]. cbn [bidx]. rewrite IH by auto. f_equal.
  destruct (Z.eqb_spec x 1), (Z.eqb_spec z 1); auto. lia.
Qed.

Lemma broadcast_lub x : forall sh y z, broadcast x y = Some sh -> broadcast x z = Some z -> broadcast y z = Some z -> broadcast sh z = Some z.
Proof.
  induction x as [|p x IH]; intros sh y z H1 H2 H3.
  { cbn in H1. injection H1 as <-. auto. }
  destruct z as [|s z]; [discriminate|]. destruct (broadcast_cons_inv _ _ _ _ H2) as [A B].
  destruct y as [|q y]. { cbn in H1. injection H1 as <-. auto. }
  destruct (broadcast_cons_inv _ _ _ _ H3) as [A' B']. cbn in H1. destruct (broadcast x y) as [c|] eqn:Ec; [|discriminate].
  pose proof (IH c y z Ec A A') as HI.
  assert (exists t, sh = t :: c /\ (t = s \/ t = 1)) as (t & -> & Ht).
  { destruct (Z.eqb_spec p q); [|destruct (Z.eqb_spec p 1); [|destruct (Z.eqb_spec q 1); [|discriminate]]]; injection H1 as <-; eauto. }
  cbn. rewrite HI. destruct (Z.eqb_spec t s); [subst; auto|]. replace (t =? 1) with true; auto. symmetry. apply Z.eqb_eq. lia.
Qed.

(** ** The constructor *)
Lemma Modes_new_width h a im m h' r : Modes_new h (InArr a) im [] (kw_of m) = Ok (h', r) -> wid a = (ellmax m + 1) ^ 2.
Proof.
  unfold Modes_new, kw_of. cbn [positional bind kw_spin kw_ell_min kw_ell_max kw_trunc orelse option_map].
  rewrite LM_total_sqr. destruct (Z.eqb_spec (wid a) ((ellmax m + 1) ^ 2 - 0 ^ 2)) as [E|E]; cbn [negb]; [|discriminate]. intros _. lia.
Qed.
Lemma construct_width h a m h' r : construct h a m = Ok (h', r) -> wid a = (ellmax m + 1) ^ 2.
Proof. apply Modes_new_width. Qed.

(** Constructing in place, after the loop or ufunc has written [F] into [a]. *)
Lemma construct_out h h1 a m h' r F :
  construct h1 a m = Ok (h', r) -> (buf a < next h)%nat -> changes_only (buf a) h h1 ->
  (forall idx ell mm, at_index (lead a) idx -> 0 <= ell -> Z.abs (spin m) <= ell <= ellmax m -> - ell <= mm <= ell ->
     mem h1 (buf a) idx (ell * ell + (ell + mm)) = F idx ell mm) ->
  (forall idx ell mm, at_index (lead a) idx -> 0 <= ell <= ellmax m -> ell < Z.abs (spin m) -> - ell <= mm <= ell -> F idx ell mm = RtoC 0) ->
  r = mkmodes a m /\ wf h' r /\ changes_only (buf a) h h'
  /\ forall idx ell mm, at_index (lead a) idx -> 0 <= ell <= ellmax m -> - ell <= mm <= ell -> mode h' r idx ell mm = F idx ell mm.
Proof.
  intros E Hb [N K] HF HZ. pose proof (construct_width _ _ _ _ _ E) as HW. destruct (construct_ok h1 a m HW) as (h2 & E2 & N2 & K2 & D2).
  rewrite E in E2. apply Ok_inj in E2. injection E2 as <- ->. split; [reflexivity|]. split; [|split].
  - split; [cbn [nd]; lia|]. split; [exact HW|]. cbn [nd md]. intros idx ell mm He Hs Hm. unfold mode. cbn [nd]. rewrite D2 by auto.
    replace (ell <? Z.abs (spin m)) with true; auto. symmetry. apply Z.ltb_lt. lia.
  - split; [congruence|]. intros b Hne idx k. rewrite K2, K by auto. reflexivity.
  - intros idx ell mm Hi He Hm. unfold mode. cbn [nd]. rewrite D2 by auto. destruct (Z.ltb_spec ell (Z.abs (spin m))).
    + symmetry. apply HZ; auto.
    + apply HF; auto; lia.
Qed.

Lemma into_ok h a ld w v h1 : into h a ld w v = Ok h1 -> wid a = w -> 0 <= w ->
  broadcast ld (lead a) = Some (lead a) /\ changes_only (buf a) h h1
  /\ forall idx k, 0 <= k < w -> mem h1 (buf a) idx k = v (bidx ld idx) k.
Proof.
  unfold into. intros E HW Hw. assert (HB : broadcast ld (lead a) = Some (lead a)).
  { unfold assign_slice in E. destruct (slice_full (wid a) 0 (wid a) ltac:(lia) ltac:(lia)) as (Ec & El). rewrite El in E.
    destruct (broadcasts_to _ _) eqn:Eb; [|discriminate]. apply broadcasts_to_spec in Eb. apply broadcast_cons_inv in Eb. apply Eb. }
  split; auto. destruct (assign_prefix h a (wid a) ld w v (fun _ y => y)) as (h2 & E2 & N2 & D2 & K2); auto; [lia|].
  rewrite E in E2. apply Ok_inj in E2. subst h2. split.
  - split; auto.
  - intros. apply D2. lia.
Qed.

(** From new_modes to [placed] *)
Lemma placed_new h h' r s L t sh F G : new_modes h h' r s L sh F -> truncator (md r) = t ->
  (forall idx ell mm, at_index sh idx -> 0 <= ell <= L -> - ell <= mm <= ell -> F idx ell mm = G idx ell mm) ->
  placed h None h' r s L t sh G.
Proof.
  intros (_ & K & B & Es & EL & El & W & M) T HFG. split; [exact Es|]. split; [exact EL|]. split; [exact T|]. split; [exact W|]. split.
  - intros idx ell mm Hi He Hm. rewrite El in Hi. rewrite M by auto. auto.
  - split; auto. split; [lia|auto].
Qed.

Lemma bmode_in h f idx ell mm : ell <= ellmax (md f) -> bmode h f idx ell mm = mode h f (bidx (lead (nd f)) idx) ell mm.
Proof. intros H. unfold bmode. replace (ell <=? ellmax (md f)) with true; auto. symmetry. apply Z.leb_le. auto. Qed.
Lemma bmode_low h f idx ell mm : wf h f -> 0 <= ell < Z.abs (spin (md f)) -> - ell <= mm <= ell -> bmode h f idx ell mm = RtoC 0.
Proof.
  intros (_ & _ & Z0) He Hm. unfold bmode. destruct (Z.leb_spec ell (ellmax (md f))); auto. apply Z0; lia.
Qed.

Definition out_in (h : heap) (out : option outarg) : Prop := match out with None => True | Some o => (buf (out_nd o) < next h)%nat end.

(** ** Positive and negative *)
Lemma unary_ok op h f out h' r : wf h f -> 0 <= ellmax (md f) -> op (RtoC 0) = RtoC 0 -> out_in h out ->
  unary op h f out = Ok (h', r) ->
  exists m, r = RModes m
    /\ placed h out h' m (spin (md f)) (ellmax (md f)) (truncator (md f)) (lead (nd f)) (fun idx ell mm => op (bmode h f idx ell mm)).
Proof.
  intros W HL H0 HO E. unfold unary in E. pose proof W as (Wb & Ww & Wz). destruct out as [o|].
  - destruct (into h (out_nd o) _ _ _) as [h1|e] eqn:EI; [|discriminate]. cbn [bind] in E.
    destruct (construct h1 (out_nd o) (md f)) as [[h2 m]|e] eqn:EC; [|discriminate]. cbn [bind] in E. apply Ok_inj in E. injection E as <- <-.
    pose proof (construct_width _ _ _ _ _ EC) as HW. destruct (into_ok _ _ _ _ _ _ EI) as (HB & HC & D); [congruence|rewrite Ww; nia|].
    exists m. split; auto.
    destruct (construct_out h h1 (out_nd o) (md f) h2 m (fun idx ell mm => op (bmode h f idx ell mm)) EC HO HC) as (-> & Wr & C & M).
    + intros idx ell mm Hi He0 He Hm. rewrite bmode_in by lia. rewrite D. reflexivity. rewrite Ww. apply col_bound; lia.
    + intros. rewrite bmode_low by (auto; lia). auto.
    + split; [reflexivity|]. split; [reflexivity|]. split; [reflexivity|]. split; [exact Wr|]. split; [exact M|]. split; [reflexivity|]. split; auto.
  - cbn [bind] in E. destruct (map_new op h f W H0) as (h2 & m & E2 & NM & T).
    destruct (alloc h (lead (nd f)) (wid (nd f)) _) as [h1 a]. rewrite E2 in E. cbn [bind] in E. apply Ok_inj in E. injection E as <- <-.
    exists m. split; auto. eapply placed_new; eauto. intros idx ell mm Hi He Hm. cbv beta. rewrite bmode_in by lia. rewrite bidx_at by auto. reflexivity.
Qed.
Lemma unary_accepts op h f : wf h f -> op (RtoC 0) = RtoC 0 -> exists h' m, unary op h f None = Ok (h', RModes m).
Proof.
  intros W H0. unfold unary. cbn [bind]. destruct (map_new op h f W H0) as (h2 & m & E2 & _).
  destruct (alloc h (lead (nd f)) (wid (nd f)) _) as [h1 a]. rewrite E2. cbn [bind]. eauto.
Qed.

(** ** Scalars *)
Lemma check_ok h f sh : wf h f -> 0 <= ellmax (md f) ->
  check_broadcasting h f sh = if (length (lead (nd f)) <? length sh)%nat then Err ValueError
    else Ok (match broadcast (lead (nd f)) sh with Some _ => true | None => false end).
Proof. intros W HL. unfold check_broadcasting. rewrite (rdcol0 h f) by auto. destruct (_ <? _)%nat; reflexivity. Qed.

Lemma scalar_ok op h f x out h' r : wf h f -> 0 <= ellmax (md f) ->
  (forall idx, at_index (sc_shape x) idx -> op (RtoC 0) (sc_val x idx) = RtoC 0) -> out_in h out ->
  scalar op h f f x out = Ok (h', r) -> r <> RDecline ->
  exists m sh, r = RModes m /\ over_functions f x sh
    /\ placed h out h' m (spin (md f)) (ellmax (md f)) (truncator (md f)) sh (fun idx ell mm => op (bmode h f idx ell mm) (bscalar x idx)).
Proof.
  intros W HL H0 HO E HD. unfold scalar in E. pose proof W as (Wb & Ww & Wz). rewrite check_ok in E by auto.
  destruct (Nat.ltb_spec (length (lead (nd f))) (length (sc_shape x))); [discriminate|]. cbn [bind] in E.
  destruct (broadcast (lead (nd f)) (sc_shape x)) as [sh|] eqn:EB; cbn [negb] in E; [|apply Ok_inj in E; congruence].
  assert (HOv : over_functions f x sh) by (split; auto).
  assert (HZ : forall idx sh', broadcast sh sh' = Some sh' -> at_index sh' idx -> op (RtoC 0) (bscalar x idx) = RtoC 0).
  { intros idx sh' Hb Hi. apply H0. eapply bidx_in; [|exact Hi]. eapply broadcast_trans; [|exact Hb]. eapply broadcast_right; eauto. }
  destruct out as [[o|o]|]; [| cbn [bind] in E; discriminate |].
  - destruct (into h o sh _ _) as [h1|e] eqn:EI; [|discriminate]. cbn [bind] in E.
    destruct (construct h1 o (md f)) as [[h2 m]|e] eqn:EC; [|discriminate]. cbn [bind] in E. apply Ok_inj in E. injection E as <- <-.
    pose proof (construct_width _ _ _ _ _ EC) as HW. destruct (into_ok _ _ _ _ _ _ EI) as (HB & HC & D); [congruence|rewrite Ww; nia|].
    exists m, sh. split; auto. split; auto.
    destruct (construct_out h h1 o (md f) h2 m (fun idx ell mm => op (bmode h f idx ell mm) (bscalar x idx)) EC HO HC) as (-> & Wr & C & M).
    + intros idx ell mm Hi He0 He Hm. rewrite bmode_in by lia. rewrite D by (rewrite Ww; apply col_bound; lia).
      unfold bscalar, mode. rewrite !bidx_bidx by (eapply broadcast_left + eapply broadcast_right; eauto). reflexivity.
    + intros. rewrite bmode_low by (auto; lia). eauto.
    + split; [reflexivity|]. split; [reflexivity|]. split; [reflexivity|]. split; [exact Wr|]. split; [exact M|]. split; [reflexivity|]. split; auto.
  - cbn [bind] in E. match type of E with context [alloc h sh ?w ?d] => pose proof (alloc_get_new h sh w d) as Hnew; pose proof (alloc_get_old h sh w d) as Hold;
      destruct (alloc h sh w d) as [h1 a] eqn:EA end. cbn [fst] in *.
    assert (Ea : a = mknd (next h) sh (wid (nd f)) /\ next h1 = S (next h)) by (inversion EA; split; reflexivity). destruct Ea as [Ea Hn]. subst a.
    destruct (construct_new h h1 (mknd (next h) sh (wid (nd f))) (md f) (fun idx ell mm => op (bmode h f idx ell mm) (bscalar x idx))) as (h2 & E2 & NM); cbn [buf wid lead]; auto.
    + lia.
    + intros b Hb idx k. rewrite Hold by lia. reflexivity.
    + intros idx ell mm Hi He0 He Hm. rewrite Hnew, bmode_in by lia. reflexivity.
    + intros. rewrite bmode_low by (auto; lia). eapply HZ; eauto. apply broadcast_refl.
    + rewrite E2 in E. cbn [bind] in E. apply Ok_inj in E. injection E as <- <-. eexists _, sh. split; [reflexivity|]. split; auto.
      eapply placed_new; eauto.
Qed.
Lemma scalar_accepts op h f x sh : wf h f -> 0 <= ellmax (md f) -> over_functions f x sh -> exists h' m, scalar op h f f x None = Ok (h', RModes m).
Proof.
  intros W HL [Hl HB]. unfold scalar. rewrite check_ok by auto. replace (_ <? _)%nat with false by (symmetry; apply Nat.ltb_ge; auto).
  cbn [bind]. rewrite HB. cbn [negb bind]. destruct (alloc h sh (wid (nd f)) _) as [h1 a] eqn:EA.
  assert (Ea : a = mknd (next h) sh (wid (nd f))) by (inversion EA; reflexivity). subst a.
  destruct (construct_ok h1 (mknd (next h) sh (wid (nd f))) (md f)) as (h2 & E2 & _); [apply W|]. rewrite E2. cbn [bind]. eauto.
Qed.
Lemma scalar_rejects op h f x : wf h f -> 0 <= ellmax (md f) -> ~ (exists sh, over_functions f x sh) ->
  scalar op h f f x None = Ok (h, RDecline) \/ scalar op h f f x None = Err ValueError.
Proof.
  intros W HL HN. unfold scalar. rewrite check_ok by auto. destruct (Nat.ltb_spec (length (lead (nd f))) (length (sc_shape x))); [right; reflexivity|].
  cbn [bind]. destruct (broadcast (lead (nd f)) (sc_shape x)) as [sh|] eqn:EB; [|left; reflexivity].
  exfalso. apply HN. exists sh. split; auto.
Qed.

(** ** Addition *)
Lemma assign_slice_lead h r n bl bw bv op h1 : assign_slice h r 0 n bl bw bv op = Ok h1 -> 0 <= n <= wid r -> broadcast bl (lead r) = Some (lead r).
Proof.
  intros E Hn. unfold assign_slice in E. destruct (slice_full (wid r) 0 n ltac:(lia) ltac:(lia)) as (Ec & El). rewrite El in E.
  destruct (broadcasts_to _ _) eqn:Eb; [|discriminate]. apply broadcasts_to_spec in Eb. apply broadcast_cons_inv in Eb. apply Eb.
Qed.

Lemma np_add_ok h f g sub out h' r : wf h f -> wf h g -> 0 <= ellmax (md f) -> 0 <= ellmax (md g) -> spin (md f) = spin (md g) ->
  out_in h out ->
  (match out with None => True | Some o => buf (out_nd o) <> buf (nd g)
     /\ forall idx k, at_index (lead (out_nd o)) idx -> (ellmax (md f) + 1) ^ 2 <= k < wid (out_nd o) -> mem h (buf (out_nd o)) idx k = RtoC 0 end) ->
  match out with None => np_add h f g sub | Some o => np_add_out h f g (out_nd o) sub end = Ok (h', r) ->
  exists sh, broadcast (lead (nd f)) (lead (nd g)) = Some sh
    /\ placed h out h' r (spin (md f)) (Z.max (ellmax (md f)) (ellmax (md g))) (truncator (md f)) sh
         (fun idx ell mm => signed sub (bmode h f idx ell mm) (bmode h g idx ell mm)).
Proof.
  intros Wf Wg HF HG HS HO HC E. pose proof Wf as (Fb & Fw & Fz). pose proof Wg as (Gb & Gw & Gz). destruct out as [o|].
  - set (a := out_nd o) in *. destruct HC as [Hne HZ]. unfold np_add_out in E. rewrite <- HS, Z.eqb_refl in E. cbn [negb] in E.
    rewrite (rdcol0 h f), (rdcol0 h g) in E by auto. cbn [bind] in E.
    destruct (broadcast (lead (nd f)) (lead (nd g))) as [sh|] eqn:EB; [|discriminate]. exists sh. split; auto.
    destruct (add_into h f g a sub) as [h1|e] eqn:EI; [|discriminate]. cbn [bind] in E.
    set (L := Z.max (ellmax (md f)) (ellmax (md g))) in *. set (mt := mkmeta _ _ _) in E.
    pose proof (construct_width _ _ _ _ _ E) as HW. cbn [ellmax mt] in HW.
    assert (B1 : broadcast (lead (nd f)) (lead a) = Some (lead a) /\ broadcast (lead (nd g)) (lead a) = Some (lead a)).
    { clear E. unfold add_into, ell_min_of in EI. rewrite !LM_total_sqr in EI. replace ((0 - 1 + 1) ^ 2 - 0 ^ 2) with 0 in EI by lia.
      destruct (assign_slice h a _ _ _ _ _ _) as [h2|e] eqn:E1; [|discriminate]. cbn [bind] in EI.
      split; eapply assign_slice_lead; eauto; rewrite HW; unfold L; nia. }
    destruct B1 as [B1 B2].
    destruct (add_into_ok h f g a sub Wf Wg HF HG Hne) as (h2 & E2 & N2 & K2 & D2); auto; [rewrite HW; unfold L; nia|rewrite HW; unfold L; nia|].
    rewrite EI in E2. apply Ok_inj in E2. subst h2.
    destruct (construct_out h h1 a mt h' r (fun idx ell mm => signed sub (bmode h f idx ell mm) (bmode h g idx ell mm)) E HO) as (-> & Wr & C & M).
    + split; auto.
    + cbn [spin ellmax mt]. intros idx ell mm Hi He0 He Hm. rewrite D2 by lia. cbv zeta. unfold bmode.
      assert (Eout : ellmax (md f) < ell -> mem h (buf a) idx (ell * ell + (ell + mm)) = RtoC 0).
      { intros Hlt. apply HZ; auto. rewrite HW. pose proof (col_bound ell mm L ltac:(lia) Hm). split; [nia|lia]. }
      destruct (Z.leb_spec ell (ellmax (md f))), (Z.leb_spec ell (ellmax (md g))); rewrite ?Eout by lia; auto; unfold signed; destruct sub; ring.
    + cbn [spin ellmax mt]. intros. rewrite !bmode_low by (auto; lia). unfold signed. destruct sub; ring.
    + split; [reflexivity|]. split; [reflexivity|]. split; [reflexivity|]. split; [exact Wr|]. split; [exact M|].
      split; [reflexivity|]. split; auto. cbn [nd]. eapply broadcast_lub; eauto.
  - destruct (broadcast (lead (nd f)) (lead (nd g))) as [sh|] eqn:EB.
    2:{ exfalso. unfold np_add, add in E. rewrite HS, Z.eqb_refl in E. cbn [negb] in E. rewrite (rdcol0 h f), (rdcol0 h g) in E by auto. cbn [bind] in E. rewrite EB in E. discriminate. }
    exists sh. split; auto. destruct (add_new h f g sub sh Wf Wg HF HG HS EB) as (h1 & r1 & E1 & NM & T).
    unfold np_add in E. rewrite E1 in E. apply Ok_inj in E. injection E as <- <-. eapply placed_new; eauto.
Qed.
Lemma np_add_accepts h f g sub sh : wf h f -> wf h g -> 0 <= ellmax (md f) -> 0 <= ellmax (md g) -> spin (md f) = spin (md g) ->
  broadcast (lead (nd f)) (lead (nd g)) = Some sh -> exists h' r, np_add h f g sub = Ok (h', r).
Proof.
  intros. destruct (add_new h f g sub sh) as (h1 & r1 & E1 & _); auto. unfold np_add. rewrite E1. eauto.
Qed.

(** ** Products *)
Lemma for_range_first {S} a b (f : Z -> S -> res S) s s' : a < b -> for_range a b f s = Ok s' -> exists s1, f a s = Ok s1.
Proof. intros H E. rewrite for_range_step in E by auto. destruct (f a s) as [s1|e]; [eauto|discriminate]. Qed.

Lemma mult_helper_fits w gs gm h f Lf sf g Lg sg fg Lfg sfg h' : 0 <= Lf -> 0 <= Lg -> 0 <= Lfg ->
  mult_helper w gs gm h f 0 Lf sf g 0 Lg sg fg 0 Lfg sfg = Ok h' -> fits (broadcast (lead f) (lead g)) (lead fg) = true.
Proof.
  intros HF HG HL E. unfold mult_helper in E.
  destruct (calc_new Lf Lg gs) as [sc|e]; [|discriminate]. cbn [bind] in E. destruct (calc_new Lf Lg gm) as [mc|e]; [|discriminate]. cbn [bind] in E.
  match type of E with bind ?x _ = _ => destruct x as [st|e] eqn:E1; [|discriminate] end. clear E.
  apply for_range_first in E1; [|lia]. destruct E1 as (st1 & E1). cbv beta zeta in E1.
  apply for_range_first in E1; [|lia]. destruct E1 as (st2 & E1). cbn [fst] in E1.
  destruct (rdcol_nb h f _) as [f1|e]; [|discriminate]. cbn [bind] in E1. cbv beta zeta in E1.
  apply for_range_first in E1; [|lia]. destruct E1 as (st3 & E1).
  destruct (calculate w sc _ _ _ _) as [sc1|e]; [|discriminate]. cbn [bind] in E1.
  match type of E1 with bind ?x _ = _ => destruct x as [st4|e] eqn:E2; [|discriminate] end. clear E1.
  apply for_range_first in E2; [|lia]. destruct E2 as (st5 & E2). cbv beta zeta in E2.
  destruct (calculate w mc _ _ _ _) as [mc1|e]; [|discriminate]. cbn [bind] in E2.
  destruct (rdcol_nb h g _) as [g1|e]; [|discriminate]. cbn [bind] in E2.
  match type of E2 with bind ?x _ = _ => destruct x as [h6|e] eqn:E3; [|discriminate] end. clear E2.
  apply for_range_first in E3; [|lia]. destruct E3 as (st7 & E3). cbv beta in E3.
  destruct (returned sc1 _) as [ws|e]; [|discriminate]. cbn [bind] in E3. destruct (returned mc1 _) as [wm|e]; [|discriminate]. cbn [bind] in E3.
  unfold addcol in E3. destruct (fits _ _); [reflexivity|discriminate].
Qed.
Lemma fits_spec sh ld : fits (Some sh) ld = true -> broadcast sh ld = Some ld.
Proof.
  unfold fits. destruct (broadcast sh ld) as [r|]; [|discriminate]. destruct (list_eq_dec Z.eq_dec r ld); [|discriminate]. congruence.
Qed.

Lemma np_multiply_ok w gs gm h f g out h' r : wf h f -> wf h g -> 0 <= ellmax (md f) -> 0 <= ellmax (md g) ->
  0 <= product_ell_max f g None -> wide_enough w (ellmax (md f)) (ellmax (md g)) ->
  out_in h out ->
  (match out with None => True | Some o => buf (out_nd o) <> buf (nd f) /\ buf (out_nd o) <> buf (nd g)
     /\ forall idx k, at_index (lead (out_nd o)) idx -> 0 <= k < wid (out_nd o) -> mem h (buf (out_nd o)) idx k = RtoC 0 end) ->
  match out with None => multiply w gs gm h f g None | Some o => np_multiply_out w gs gm h f g (out_nd o) end = Ok (h', r) ->
  exists sh, broadcast (lead (nd f)) (lead (nd g)) = Some sh
    /\ placed h out h' r (spin (md f) + spin (md g)) (product_ell_max f g None) (truncator (md f)) sh
         (fun idx => product_weight (spin (md f)) (ellmax (md f)) (spin (md g)) (ellmax (md g)) (bmode h f idx) (bmode h g idx)).
Proof.
  intros Wf Wg HF HG HL HW HO HC E. destruct (broadcast (lead (nd f)) (lead (nd g))) as [sh|] eqn:EB.
  2:{ exfalso. destruct out as [o|]; [unfold np_multiply_out in E|unfold multiply in E]; cbv zeta in E; rewrite (rdcol0 h f), (rdcol0 h g) in E by auto; cbn [bind] in E; rewrite EB in E; discriminate. }
  exists sh. split; auto. destruct out as [o|].
  - set (a := out_nd o) in *. destruct HC as (Hf & Hg & HZ). unfold np_multiply_out in E. cbv zeta in E.
    rewrite (rdcol0 h f), (rdcol0 h g) in E by auto. cbn [bind] in E. rewrite EB in E.
    set (L := product_ell_max f g None) in *. unfold ell_min_of in E.
    destruct (mult_helper _ _ _ _ _ _ _ _ _ _ _ _ _ _ _ _) as [h1|e] eqn:EH; [|discriminate]. cbn [bind] in E.
    pose proof (construct_width _ _ _ _ _ E) as Wd. cbn [ellmax] in Wd.
    pose proof (mult_helper_fits _ _ _ _ _ _ _ _ _ _ _ _ _ _ HF HG HL EH) as Fit.
    pose proof Wf as (Fb & Fw & Fz). pose proof Wg as (Gb & Gw & Gz).
    destruct (mult_helper_acc w (nd f) (nd g) a 0 (ellmax (md f)) (spin (md f)) 0 (ellmax (md g)) (spin (md g)) L
             ltac:(lia) ltac:(lia)
             ltac:(intros l m Hl Hm; rewrite LM_col, Fw; apply col_bound; lia)
             ltac:(intros l m Hl Hm; rewrite LM_col, Gw; apply col_bound; lia)
             Wd ltac:(auto) ltac:(auto) Fit
             ltac:(intros; eapply wide_ok; eauto; lia)
             (mem h (buf (nd f))) (mem h (buf (nd g))) gs gm h ltac:(lia)) as [(h2 & EH2 & (N2 & O2 & D2))|[EH2 _]].
    { intros idx k. auto. }
    2:{ rewrite EH in EH2. discriminate. }
    rewrite EH in EH2. apply Ok_inj in EH2. subst h2. set (mt := mkmeta _ _ _) in E.
    destruct (construct_out h h1 a mt h' r (fun idx => product_weight (spin (md f)) (ellmax (md f)) (spin (md g)) (ellmax (md g)) (bmode h f idx) (bmode h g idx)) E HO) as (-> & Wr & C & M).
    + split; auto.
    + cbn [spin ellmax mt]. intros idx ell mm Hi He0 He Hm. rewrite D2. rewrite HZ; auto.
      2:{ rewrite Wd. apply col_bound; lia. }
      rewrite Cplus_0_l. replace (ell * ell + (ell + mm)) with (LM_index ell mm 0) by (rewrite LM_col; lia).
      rewrite collapse by lia. apply product_weight_ext; intros; rewrite arr_mode_0 by lia; rewrite bmode_in by lia; reflexivity.
    + cbn [spin ellmax mt]. intros. apply product_weight_low. lia.
    + split; [reflexivity|]. split; [reflexivity|]. split; [reflexivity|]. split; [exact Wr|]. split; [exact M|].
      split; [reflexivity|]. split; auto. cbn [nd]. apply fits_spec. rewrite <- EB. exact Fit.
  - destruct (multiply_new w gs gm h f g None sh Wf Wg HF HG HL EB HW) as [(h1 & r1 & E1 & NM & T)|[E1 _]]; [|congruence].
    rewrite E in E1. apply Ok_inj in E1. injection E1 as <- <-. eapply placed_new; eauto.
    intros idx ell mm Hi He Hm. apply product_weight_ext; intros; rewrite bmode_in by lia; reflexivity.
Qed.

(** ** Conjugation *)
Lemma conj_out_same s c spin L h : lead s = lead c -> conj_out_loop s c spin L h = conj_loop s c spin L h.
Proof.
  intros E. unfold conj_out_loop, conj_loop, wrcolb. destruct (list_eq_dec Z.eq_dec (lead s) (lead c)); [reflexivity|contradiction].
Qed.
Lemma conj_out_loop_ok s c spin L h : wid s = (L + 1) ^ 2 -> wid c = (L + 1) ^ 2 -> lead s <> lead c -> broadcast (lead s) (lead c) = Some (lead c) ->
  exists h', conj_out_loop s c spin L h = Ok h'
    /\ blocks (buf c) (Z.abs spin) (L + 1) blk (F_at (Gconj spin) (fun idx => mem h (buf s) (bidx (lead s) idx))) h h'.
Proof.
  intros Ws Wc Hne HB. unfold conj_out_loop, wrcolb. destruct (list_eq_dec Z.eq_dec (lead s) (lead c)); [contradiction|].
  rewrite (broadcasts_to_of _ _ HB). set (rf := bidx (lead s)).
  apply (blocks_loop_rf rf (buf s) (buf c) blk (fun idx => mem h (buf s) (rf idx))); [|intros ell h1 He HS|auto].
  { intros i j k Hi Hj. apply blk_inj; lia. }
  rewrite !LM_col. replace (ell * ell + (ell + 0)) with (ell * ell + ell) by lia.
  pose proof (col_bound ell 0 L ltac:(lia) ltac:(lia)).
  rewrite rdcol_ok by lia. cbn [bind].
  apply (ell_step_rf rf (buf s) (buf c) (fun idx => mem h (buf s) (rf idx)) (Gconj spin)); [lia|auto| |].
  - rewrite !wrcol_ok by lia. rewrite mod2_even. unfold Gconj. replace (spin + 0) with spin by lia.
    pose proof (sgn_even spin) as SE.
    destruct (Z.even spin); f_equal; apply set_col_ext; intros; rewrite <- SE; reflexivity.
  - intros m h2 Hm Sp Sn.
    pose proof (col_bound ell m L ltac:(lia) ltac:(lia)). pose proof (col_bound ell (- m) L ltac:(lia) ltac:(lia)).
    rewrite !LM_col. replace (ell * ell + (ell + - m)) with (ell * ell + (ell - m)) in * by lia.
    rewrite !rdcol_ok by lia. cbn [bind]. rewrite mod2_even.
    pose proof (sgn_even (spin + m)) as SE. unfold Gconj.
    replace (sgn (spin + - m)) with (sgn (spin + m)) by (rewrite !sgn_add, sgn_opp; reflexivity).
    destruct (Z.even (spin + m)); rewrite !wrcol_ok by lia; cbn [bind]; rewrite !wrcol_ok by lia;
    (eexists; pair_done h2 c); rewrite <- SE, ?Sp, ?Sn; reflexivity.
Qed.
(** The loop looks at the shape of [c] as soon as there is a mode to write. *)
Lemma conj_out_lead s c spin L h h' : wid s = (L + 1) ^ 2 -> Z.abs spin <= L -> conj_out_loop s c spin L h = Ok h' -> broadcast (lead s) (lead c) = Some (lead c).
Proof.
  intros Ws HL E. unfold conj_out_loop in E. apply for_range_first in E; [|lia]. destruct E as (h1 & E). cbv beta zeta in E.
  destruct (rdcol h s _) as [v|e]; [|discriminate]. cbn [bind] in E.
  match type of E with bind ?x _ = _ => destruct x as [h2|e] eqn:E1; [|discriminate] end. clear E.
  unfold wrcolb in E1. destruct (list_eq_dec Z.eq_dec (lead s) (lead c)) as [->|Hne]; [apply broadcast_refl|].
  destruct (broadcasts_to (lead s) (lead c)) eqn:EB; [apply broadcasts_to_spec; auto|destruct (spin mod 2 =? 0); discriminate].
Qed.

(** The constructor applied to the [out] array *)
Lemma Modes_new_out h a im m : Modes_new h (InArr a) im [] (kw_of m)
  = match construct h a m with
    | Ok (h', r) => Ok (h', mkmodes (nd r) (mkmeta (spin (md r)) (ellmax (md r)) (orelse (truncator m) (match im with Some i => truncator i | None => None end))))
    | Err e => Err e
    end.
Proof.
  unfold construct, Modes_new, kw_of. cbn [positional bind kw_spin kw_ell_min kw_ell_max kw_trunc orelse option_map].
  destruct (negb _); [reflexivity|]. rewrite Z.eqb_refl. reflexivity.
Qed.

Lemma conj_ok h f out h' r : wf h f -> 0 <= ellmax (md f) -> out_in h out ->
  (match out with None => True | Some o => Z.abs (spin (md f)) <= ellmax (md f) end) ->
  conj_branch h f out = Ok (h', r) ->
  exists m, r = RModes m /\ placed h out h' m (- spin (md f)) (ellmax (md f))
        (match out with Some (OutModes o) => orelse (truncator (md f)) (truncator (md o)) | _ => truncator (md f) end) (lead (nd f))
        (fun idx ell mm => RtoC (sgn (spin (md f) + mm)) * Cconj (bmode h f idx ell (- mm)))%C.
Proof.
  intros W HL HO HC E. pose proof W as (Wb & Ww & Wz). unfold conj_branch in E. set (mt := mkmeta _ _ _) in E. destruct out as [o|].
  - destruct (conj_out_loop _ _ _ _ h) as [h1|e] eqn:EL; [|discriminate]. cbn [bind] in E. rewrite Modes_new_out in E.
    destruct (construct h1 (out_nd o) mt) as [[h2 m]|e] eqn:EC; [|discriminate]. cbn [bind] in E. apply Ok_inj in E. injection E as <- <-.
    pose proof (construct_width _ _ _ _ _ EC) as HW. cbn [ellmax mt] in HW.
    pose proof (conj_out_lead _ _ _ _ _ _ Ww HC EL) as HB.
    assert (HD : changes_only (buf (out_nd o)) h h1 /\ forall idx ell mm, at_index (lead (out_nd o)) idx -> Z.abs (spin (md f)) <= ell <= ellmax (md f) -> - ell <= mm <= ell ->
       mem h1 (buf (out_nd o)) idx (ell * ell + (ell + mm)) = (RtoC (sgn (spin (md f) + mm)) * Cconj (bmode h f idx ell (- mm)))%C).
    { destruct (list_eq_dec Z.eq_dec (lead (nd f)) (lead (out_nd o))) as [Hl|Hl].
      - rewrite conj_out_same in EL by auto. destruct (conj_loop_ok (nd f) (out_nd o) (spin (md f)) (ellmax (md f)) h Ww HW) as (h3 & E3 & N3 & D3 & K3).
        rewrite EL in E3. apply Ok_inj in E3. subst h3. split; [split; auto|]. intros idx ell mm Hi He Hm.
        rewrite (D3 ell) by (try lia; apply blk_col; lia). rewrite F_at_col. unfold Gconj. rewrite bmode_in by lia. rewrite bidx_at by (rewrite Hl; auto). reflexivity.
      - destruct (conj_out_loop_ok (nd f) (out_nd o) (spin (md f)) (ellmax (md f)) h Ww HW Hl HB) as (h3 & E3 & N3 & D3 & K3).
        rewrite EL in E3. apply Ok_inj in E3. subst h3. split; [split; auto|]. intros idx ell mm Hi He Hm.
        rewrite (D3 ell) by (try lia; apply blk_col; lia). rewrite F_at_col. unfold Gconj. rewrite bmode_in by lia. reflexivity. }
    destruct HD as [Hch HD].
    destruct (construct_out h h1 (out_nd o) mt h2 m (fun idx ell mm => RtoC (sgn (spin (md f) + mm)) * Cconj (bmode h f idx ell (- mm)))%C EC HO Hch) as (-> & Wr & C & M).
    + cbn [spin ellmax mt]. intros. rewrite Z.abs_opp in *. apply HD; auto.
    + cbn [spin ellmax mt]. intros. rewrite Z.abs_opp in *. rewrite bmode_low by (auto; lia). rewrite Cconj_RtoC. ring.
    + eexists. split; [reflexivity|]. split; [reflexivity|]. split; [reflexivity|]. split.
      { cbn [md truncator mt]. destruct o; [destruct (truncator (md f)); reflexivity|reflexivity]. }
      split; [exact Wr|]. split; [exact M|]. split; [reflexivity|]. split; auto.
  - destruct (zeros_like h (nd f)) as [h1 c] eqn:EZ. destruct (conjugate_new h f W) as (h3 & m & E3 & NM & T).
    unfold conjugate in E3. rewrite EZ in E3. fold mt in E3.
    rewrite conj_out_same in E by (inversion EZ; reflexivity). rewrite E3 in E. cbn [bind] in E. apply Ok_inj in E. injection E as <- <-.
    exists m. split; auto. eapply placed_new; eauto. intros idx ell mm Hi He Hm. unfold conj_data. rewrite bmode_in by lia. rewrite bidx_at by auto. reflexivity.
Qed.
Lemma conj_accepts h f : wf h f -> exists h' m, conj_branch h f None = Ok (h', RModes m).
Proof.
  intros W. unfold conj_branch. destruct (zeros_like h (nd f)) as [h1 c] eqn:EZ. destruct (conjugate_new h f W) as (h3 & m & E3 & _).
  unfold conjugate in E3. rewrite EZ in E3. rewrite conj_out_same by (inversion EZ; reflexivity). rewrite E3. cbn [bind]. eauto.
Qed.

(** ** Comparisons *)
Lemma finish_bool_ok h out sh b h' r (P : list Z -> Prop) : (forall idx, b idx = true <-> P idx) ->
  (match out with None => True | Some o => 0 <= wid (out_nd o) end) ->
  finish_bool h out sh b = Ok (h', r) ->
  match out with
  | None => h' = h /\ exists b, r = RBool sh b /\ forall idx, b idx = true <-> P idx
  | Some o => r = RArr (out_nd o) /\ changes_only (buf (out_nd o)) h h'
             /\ broadcast sh (wid (out_nd o) :: lead (out_nd o)) = Some (wid (out_nd o) :: lead (out_nd o))
             /\ forall idx k, 0 <= k < wid (out_nd o) ->
                  (P (bidx sh (k :: idx)) -> mem h' (buf (out_nd o)) idx k = RtoC 1)
                  /\ (~ P (bidx sh (k :: idx)) -> mem h' (buf (out_nd o)) idx k = RtoC 0)
  end.
Proof.
  intros HP HO E. unfold finish_bool in E. destruct out as [o|].
  2:{ apply Ok_inj in E. injection E as <- <-. eauto. }
  set (a := out_nd o) in *. destruct (into h a _ _ _) as [h1|e] eqn:EI; [|discriminate]. cbn [bind] in E. apply Ok_inj in E. injection E as <- <-.
  split; auto. unfold into, assign_slice in EI.
  destruct (slice_full (wid a) 0 (wid a) ltac:(lia) ltac:(lia)) as (Hcl & Hsl).
  rewrite Hsl in EI. replace (wid a - 0) with (wid a) in EI by lia. destruct (broadcasts_to _ _) eqn:EB; [|discriminate]. apply Ok_inj in EI. subst h1.
  apply broadcasts_to_spec in EB.
  split. { split; [reflexivity|]. intros x Hx idx k. rewrite wrslice_get. destruct (Nat.eqb_spec x (buf a)); [contradiction|reflexivity]. }
  split. { destruct sh as [|w0 ld]; [reflexivity|exact EB]. }
  intros idx k Hk. rewrite wrslice_get, Nat.eqb_refl, Hcl, Hsl. cbn [andb].
  replace ((0 <=? k) && (k <? 0 + (wid a - 0))) with true by (symmetry; apply andb_true_iff; split; [apply Z.leb_le|apply Z.ltb_lt]; lia).
  replace (k - 0) with k by lia.
  assert (Ei : match sh with [] => [] | _ :: _ => (if hd 1 sh =? 1 then 0 else k) :: bidx (tl sh) idx end = bidx sh (k :: idx)).
  { destruct sh as [|w0 ld]; reflexivity. }
  rewrite Ei. specialize (HP (bidx sh (k :: idx))). destruct (b _); split; intros HH; auto; exfalso; [apply HH, HP; auto|].
  apply HP in HH. discriminate.
Qed.

Lemma truthy_spec z : GridModel.truthy z = true <-> z <> RtoC 0.
Proof. unfold GridModel.truthy. rewrite negb_true_iff, <- not_true_iff_false, Ceqb_spec. reflexivity. Qed.
Lemma view_shape h x : sc_shape (view h x) = shape_of x.
Proof. destruct x; reflexivity. Qed.
Lemma view_val h x idx : sc_val (view h x) idx = entry h x idx.
Proof. destruct x; reflexivity. Qed.

Lemma comparison_iff u : comparison u = true <-> (relation u <> None \/ predicate u <> None).
Proof. destruct u; cbn; split; intros H; try discriminate; try (left; discriminate); try (right; discriminate); auto; destruct H; congruence. Qed.
