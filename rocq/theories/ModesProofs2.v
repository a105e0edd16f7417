(** Proofs about the Modes container: the operations, one by one. *)
Require Import ZArith Lia List Reals Lra Bool.
From Coquelicot Require Import Complex.
From Verif Require Import Base BaseProofs CBase CSum RSum Fact IndexModel IndexProofs PowersModel DRep WignerModel RotorSpec SWSHModel SWSHProofs
  ModesModel ModesSpec ModesProofs.
Import ListNotations.
Open Scope Z_scope.

(** ** Conjugate, real and imaginary part *)

(** What [construct] on a freshly filled buffer gives. *)
Lemma construct_new h0 h a m (F : list Z -> Z -> Z -> C) :
  wid a = (ellmax m + 1) ^ 2 -> (next h0 <= buf a < next h)%nat ->
  (forall b, (b < next h0)%nat -> forall idx k, mem h b idx k = mem h0 b idx k) ->
  (forall idx ell mm, at_index (lead a) idx -> 0 <= ell -> Z.abs (spin m) <= ell <= ellmax m -> - ell <= mm <= ell ->
     mem h (buf a) idx (ell * ell + (ell + mm)) = F idx ell mm) ->
  (forall idx ell mm, at_index (lead a) idx -> 0 <= ell <= ellmax m -> ell < Z.abs (spin m) -> - ell <= mm <= ell -> F idx ell mm = RtoC 0) ->
  exists h', construct h a m = Ok (h', mkmodes a m) /\ new_modes h0 h' (mkmodes a m) (spin m) (ellmax m) (lead a) F.
Proof.
  intros HW HB HP HF HZ. destruct (construct_ok h a m HW) as (h' & E & N & K & D).
  exists h'. split; [exact E|]. unfold new_modes, wf, mode. cbn [nd md spin ellmax].
  rewrite N. split; [lia|]. split.
  { intros b Hb idx k. rewrite K by (intros ->; lia). apply HP. auto. }
  split; [lia|]. split; [reflexivity|]. split; [reflexivity|]. split; [reflexivity|]. split.
  - split; [lia|]. split; [exact HW|]. intros. rewrite D by auto. replace (ell <? Z.abs (spin m)) with true; auto. symmetry. apply Z.ltb_lt. lia.
  - intros idx ell mm Hi He Hm. rewrite D by auto. destruct (Z.ltb_spec ell (Z.abs (spin m))).
    + symmetry. apply HZ; auto; lia.
    + apply HF; auto; lia.
Qed.

Lemma zeros_like_facts h a : next (fst (zeros_like h a)) = S (next h) /\ snd (zeros_like h a) = mknd (next h) (lead a) (wid a)
  /\ (forall b, b <> next h -> mem (fst (zeros_like h a)) b = mem h b)
  /\ forall idx k, mem (fst (zeros_like h a)) (next h) idx k = RtoC 0.
Proof.
  unfold zeros_like. split; [reflexivity|]. split; [reflexivity|]. split.
  - intros. apply alloc_get_old. auto.
  - intros. apply alloc_get_new.
Qed.

(** Data of the result of conjugation of [m]. *)
Definition conj_data (h : heap) (m : modes) (idx : list Z) (ell mm : Z) : C :=
  (RtoC (sgn (spin (md m) + mm)) * Cconj (mode h m idx ell (- mm)))%C.
Definition real_data (h : heap) (m : modes) (idx : list Z) (ell mm : Z) : C :=
  ((mode h m idx ell mm + RtoC (sgn mm) * Cconj (mode h m idx ell (- mm))) / RtoC 2)%C.
Definition imag_data (h : heap) (m : modes) (idx : list Z) (ell mm : Z) : C :=
  (- Ci * (mode h m idx ell mm - RtoC (sgn mm) * Cconj (mode h m idx ell (- mm))) / RtoC 2)%C.

Lemma F_at_col G S0 ell idx mm :
  F_at G S0 ell idx (ell * ell + (ell + mm)) = G mm (S0 idx (ell * ell + (ell + mm))) (S0 idx (ell * ell + (ell + - mm))).
Proof.
  unfold F_at. replace (ell * ell + (ell + mm) - ell * ell - ell) with mm by lia.
  replace (ell - mm) with (ell + - mm) by lia. reflexivity.
Qed.

Lemma conj_data_low h m idx ell mm : wf h m -> 0 <= ell < Z.abs (spin (md m)) -> ell <= ellmax (md m) -> - ell <= mm <= ell ->
  conj_data h m idx ell mm = RtoC 0.
Proof. intros (_ & _ & Z0) ? ? ?. unfold conj_data. rewrite Z0 by lia. rewrite Cconj_RtoC. ring. Qed.

Lemma conjugate_new h m : wf h m ->
  exists h' r, conjugate h m false = Ok (h', r)
    /\ new_modes h h' r (- spin (md m)) (ellmax (md m)) (lead (nd m)) (conj_data h m) /\ truncator (md r) = truncator (md m).
Proof.
  intros W. pose proof W as (Wb & Ww & _). unfold conjugate.
  destruct (zeros_like_facts h (nd m)) as (Zn & Zr & Zo & _).
  destruct (zeros_like h (nd m)) as [h1 c] eqn:EZ. cbn [fst snd] in *. subst c.
  destruct (conj_loop_ok (nd m) (mknd (next h) (lead (nd m)) (wid (nd m))) (spin (md m)) (ellmax (md m)) h1 Ww Ww) as (h2 & E2 & N2 & D2 & K2).
  cbn [buf] in *. rewrite E2. cbn [bind].
  set (mt := mkmeta _ _ _).
  destruct (construct_new h h2 (mknd (next h) (lead (nd m)) (wid (nd m))) mt (conj_data h m)) as (h' & E & NM).
  - exact Ww.
  - cbn [buf]. lia.
  - intros b Hb idx k. rewrite K2 by (left; lia). rewrite Zo by lia. reflexivity.
  - cbn [lead buf spin ellmax mt]. intros idx ell mm _ He0 He Hm. rewrite Z.abs_opp in He.
    rewrite (D2 ell) by (try lia; apply blk_col; lia). rewrite F_at_col. unfold Gconj, conj_data, mode.
    rewrite !Zo by lia. reflexivity.
  - cbn [spin ellmax mt]. intros idx ell mm _ He He' Hm. rewrite Z.abs_opp in He'. apply conj_data_low; auto; lia.
  - eexists h', _. split; [exact E|]. split; [exact NM|reflexivity].
Qed.

Lemma real_new h m : wf h m -> spin (md m) = 0 ->
  exists h' r, real_func h m false = Ok (h', r)
    /\ new_modes h h' r 0 (ellmax (md m)) (lead (nd m)) (real_data h m) /\ truncator (md r) = truncator (md m).
Proof.
  intros W S0. pose proof W as (Wb & Ww & _). unfold real_func. rewrite S0. cbn [Z.eqb negb].
  destruct (zeros_like_facts h (nd m)) as (Zn & Zr & Zo & _).
  destruct (zeros_like h (nd m)) as [h1 c] eqn:EZ. cbn [fst snd] in *. subst c.
  destruct (real_loop_ok (nd m) (mknd (next h) (lead (nd m)) (wid (nd m))) (ellmax (md m)) h1 Ww Ww) as (h2 & E2 & N2 & D2 & K2).
  cbn [buf] in *. rewrite E2. cbn [bind].
  destruct (construct_new h h2 (mknd (next h) (lead (nd m)) (wid (nd m))) (md m) (real_data h m)) as (h' & E & NM).
  - exact Ww.
  - cbn [buf]. lia.
  - intros b Hb idx k. rewrite K2 by (left; lia). rewrite Zo by lia. reflexivity.
  - cbn [lead buf]. intros idx ell mm _ He0 He Hm.
    rewrite (D2 ell) by (try lia; apply blk_col; lia). rewrite F_at_col. unfold Greal, real_data, mode.
    rewrite !Zo by lia. reflexivity.
  - lia.
  - eexists h', _. split; [exact E|]. rewrite S0 in NM. split; [exact NM|reflexivity].
Qed.

Lemma imag_new h m : wf h m -> spin (md m) = 0 ->
  exists h' r, imag_func h m false = Ok (h', r)
    /\ new_modes h h' r 0 (ellmax (md m)) (lead (nd m)) (imag_data h m) /\ truncator (md r) = truncator (md m).
Proof.
  intros W S0. pose proof W as (Wb & Ww & _). unfold imag_func. rewrite S0. cbn [Z.eqb negb].
  destruct (zeros_like_facts h (nd m)) as (Zn & Zr & Zo & _).
  destruct (zeros_like h (nd m)) as [h1 c] eqn:EZ. cbn [fst snd] in *. subst c.
  destruct (imag_loop_ok (nd m) (mknd (next h) (lead (nd m)) (wid (nd m))) (ellmax (md m)) h1 Ww Ww) as (h2 & E2 & N2 & D2 & K2).
  cbn [buf] in *. rewrite E2. cbn [bind].
  destruct (construct_new h h2 (mknd (next h) (lead (nd m)) (wid (nd m))) (md m) (imag_data h m)) as (h' & E & NM).
  - exact Ww.
  - cbn [buf]. lia.
  - intros b Hb idx k. rewrite K2 by (left; lia). rewrite Zo by lia. reflexivity.
  - cbn [lead buf]. intros idx ell mm _ He0 He Hm.
    rewrite (D2 ell) by (try lia; apply blk_col; lia). rewrite F_at_col. unfold Gimag, imag_data, mode.
    rewrite !Zo by lia. reflexivity.
  - lia.
  - eexists h', _. split; [exact E|]. rewrite S0 in NM. split; [exact NM|reflexivity].
Qed.

(** In place. *)
Lemma conjugate_inplace h m : wf h m ->
  exists h' r, conjugate h m true = Ok (h', r)
    /\ nd r = nd m /\ md r = mkmeta (- spin (md m)) (ellmax (md m)) (truncator (md m))
    /\ changes_only (buf (nd m)) h h' /\ wf h' r
    /\ blocks (buf (nd m)) (Z.abs (spin (md m))) (ellmax (md m) + 1) blk (F_at (Gconj (spin (md m))) (mem h (buf (nd m)))) h h'
    /\ forall idx ell mm, 0 <= ell <= ellmax (md m) -> - ell <= mm <= ell -> mode h' r idx ell mm = conj_data h m idx ell mm.
Proof.
  intros W. pose proof W as (Wb & Ww & Wz). unfold conjugate.
  destruct (conj_loop_ok (nd m) (nd m) (spin (md m)) (ellmax (md m)) h Ww Ww) as (h2 & E2 & B). pose proof B as (N2 & D2 & K2).
  rewrite E2. cbn [bind]. eexists _, _. split; [reflexivity|]. cbn [nd md].
  assert (HD : forall idx ell mm, 0 <= ell <= ellmax (md m) -> - ell <= mm <= ell ->
     mem h2 (buf (nd m)) idx (ell * ell + (ell + mm)) = conj_data h m idx ell mm).
  { intros idx ell mm He Hm. destruct (Z_lt_ge_dec ell (Z.abs (spin (md m)))) as [Hl|Hl].
    - rewrite conj_data_low by (auto; lia). rewrite K2; [apply Wz; lia|]. right. intros i Hi Bi.
      assert (i = ell) by (apply (blk_inj i ell (ell * ell + (ell + mm))); auto; try lia; apply blk_col; lia). lia.
    - rewrite (D2 ell) by (try lia; apply blk_col; lia). rewrite F_at_col. reflexivity. }
  split; [reflexivity|]. split; [reflexivity|]. split; [split; [exact N2|intros; apply K2; auto]|]. split; [|split; [exact B|exact HD]].
  split; [cbn [nd]; lia|]. split; [exact Ww|]. unfold mode. cbn [nd md spin ellmax]. intros idx ell mm He Hs Hm.
  rewrite Z.abs_opp in Hs. rewrite HD by auto. apply conj_data_low; auto; lia.
Qed.

Lemma real_inplace h m : wf h m -> spin (md m) = 0 ->
  exists h', real_func h m true = Ok (h', m)
    /\ changes_only (buf (nd m)) h h' /\ wf h' m
    /\ blocks (buf (nd m)) 0 (ellmax (md m) + 1) blk (F_at Greal (mem h (buf (nd m)))) h h'
    /\ forall idx ell mm, 0 <= ell <= ellmax (md m) -> - ell <= mm <= ell -> mode h' m idx ell mm = real_data h m idx ell mm.
Proof.
  intros W S0. pose proof W as (Wb & Ww & Wz). unfold real_func. rewrite S0. cbn [Z.eqb negb].
  destruct (real_loop_ok (nd m) (nd m) (ellmax (md m)) h Ww Ww) as (h2 & E2 & B). pose proof B as (N2 & D2 & K2).
  rewrite E2. cbn [bind]. eexists. split; [reflexivity|].
  split; [split; [exact N2|intros; apply K2; auto]|]. split; [|split; [exact B|]].
  - split; [lia|]. split; [exact Ww|]. lia.
  - intros idx ell mm He Hm. unfold mode. rewrite (D2 ell) by (try lia; apply blk_col; lia). rewrite F_at_col. reflexivity.
Qed.

Lemma imag_inplace h m : wf h m -> spin (md m) = 0 ->
  exists h', imag_func h m true = Ok (h', m)
    /\ changes_only (buf (nd m)) h h' /\ wf h' m
    /\ blocks (buf (nd m)) 0 (ellmax (md m) + 1) blk (F_at Gimag (mem h (buf (nd m)))) h h'
    /\ forall idx ell mm, 0 <= ell <= ellmax (md m) -> - ell <= mm <= ell -> mode h' m idx ell mm = imag_data h m idx ell mm.
Proof.
  intros W S0. pose proof W as (Wb & Ww & Wz). unfold imag_func. rewrite S0. cbn [Z.eqb negb].
  destruct (imag_loop_ok (nd m) (nd m) (ellmax (md m)) h Ww Ww) as (h2 & E2 & B). pose proof B as (N2 & D2 & K2).
  rewrite E2. cbn [bind]. eexists. split; [reflexivity|].
  split; [split; [exact N2|intros; apply K2; auto]|]. split; [|split; [exact B|]].
  - split; [lia|]. split; [exact Ww|]. lia.
  - intros idx ell mm He Hm. unfold mode. rewrite (D2 ell) by (try lia; apply blk_col; lia). rewrite F_at_col. reflexivity.
Qed.

(** ** Shapes *)
Lemma bidx_at sh idx : at_index sh idx -> bidx sh idx = idx.
Proof.
  intros H. induction H as [|n i sh idx Hn H IH]; [reflexivity|]. cbn [bidx]. rewrite IH.
  destruct (Z.eqb_spec n 1); [f_equal; lia|reflexivity].
Qed.
Lemma broadcast_refl a : broadcast a a = Some a.
Proof. induction a as [|x a IH]; [reflexivity|]. cbn [broadcast]. rewrite IH, Z.eqb_refl. reflexivity. Qed.
Lemma combine_self_eq c : forallb (fun '(x, y) => x =? y) (combine c c) = true.
Proof. induction c as [|x c IH]; [reflexivity|]. cbn. rewrite Z.eqb_refl, IH. reflexivity. Qed.
Lemma broadcasts_to_of a c : broadcast a c = Some c -> broadcasts_to a c = true.
Proof. intros H. unfold broadcasts_to. rewrite H, Nat.eqb_refl, combine_self_eq. reflexivity. Qed.
Lemma broadcasts_to_refl a : broadcasts_to a a = true.
Proof. apply broadcasts_to_of, broadcast_refl. Qed.
Lemma broadcast_left a : forall b c, broadcast a b = Some c -> broadcast a c = Some c.
Proof.
  induction a as [|x a IH]; intros b c H; [reflexivity|]. destruct b as [|y b]; cbn [broadcast] in H.
  - inversion H; subst. apply broadcast_refl.
  - destruct (broadcast a b) as [d|] eqn:E; [|discriminate]. specialize (IH _ _ E).
    destruct (Z.eqb_spec x y) as [->|Hn]; [inversion H; subst; cbn [broadcast]; rewrite IH, Z.eqb_refl; reflexivity|].
    destruct (Z.eqb_spec x 1) as [->|H1]; [inversion H; subst; cbn [broadcast]; rewrite IH|].
    + destruct (Z.eqb_spec 1 y); [subst; contradiction|]. cbn. reflexivity.
    + destruct (y =? 1); [|discriminate]. inversion H; subst; cbn [broadcast]. rewrite IH, Z.eqb_refl. reflexivity.
Qed.
Lemma broadcast_right a : forall b c, broadcast a b = Some c -> broadcast b c = Some c.
Proof.
  induction a as [|x a IH]; intros b c H; cbn [broadcast] in H; [inversion H; subst; apply broadcast_refl|].
  destruct b as [|y b]; [inversion H; subst; reflexivity|].
  destruct (broadcast a b) as [d|] eqn:E; [|discriminate]. specialize (IH _ _ E).
  destruct (Z.eqb_spec x y) as [->|Hn]; [inversion H; subst; cbn [broadcast]; rewrite IH, Z.eqb_refl; reflexivity|].
  destruct (Z.eqb_spec x 1) as [->|H1]; [inversion H; subst; cbn [broadcast]; rewrite IH, Z.eqb_refl; reflexivity|].
  destruct (Z.eqb_spec y 1) as [->|H2]; [|discriminate]. inversion H; subst; cbn [broadcast]. rewrite IH.
  destruct (Z.eqb_spec 1 x); [subst; contradiction|]. cbn. reflexivity.
Qed.
Lemma broadcasts_cons x a c : broadcast a c = Some c -> broadcasts_to (x :: a) (x :: c) = true.
Proof. intros H. apply broadcasts_to_of. cbn [broadcast]. rewrite H, Z.eqb_refl. reflexivity. Qed.

(** ** Addition *)
Definition add_data (h : heap) (f g : modes) (subtraction : bool) (idx : list Z) (ell mm : Z) : C :=
  let a := if ell <=? ellmax (md f) then mode h f (bidx (lead (nd f)) idx) ell mm else RtoC 0 in
  let b := if ell <=? ellmax (md g) then mode h g (bidx (lead (nd g)) idx) ell mm else RtoC 0 in
  if subtraction then (a - b)%C else (a + b)%C.

Lemma assign_prefix h r n bl bw bv op : 0 <= n <= wid r -> bw = n -> broadcast bl (lead r) = Some (lead r) ->
  exists h', assign_slice h r 0 n bl bw bv op = Ok h' /\ next h' = next h
    /\ (forall idx k, 0 <= k < n -> mem h' (buf r) idx k = op (mem h (buf r) idx k) (bv (bidx bl idx) k))
    /\ (forall x idx k, x <> buf r \/ n <= k -> mem h' x idx k = mem h x idx k).
Proof.
  intros Hn -> HB. unfold assign_slice. destruct (slice_full (wid r) 0 n ltac:(lia) ltac:(lia)) as (Ec & El).
  rewrite El, Ec. replace (n - 0) with n by lia. rewrite broadcasts_cons by auto. eexists. split; [reflexivity|]. split; [reflexivity|].
  split.
  - intros idx k Hk. rewrite wrslice_get, Nat.eqb_refl, Ec, El. cbn [andb].
    replace ((0 <=? k) && (k <? 0 + (n - 0))) with true by (symmetry; apply andb_true_iff; split; [apply Z.leb_le|apply Z.ltb_lt]; lia).
    replace (0 + (k - 0)) with k by lia. replace (k - 0) with k by lia.
    destruct (Z.eqb_spec n 1) as [H1|H1]; [replace k with 0 by lia; reflexivity|reflexivity].
  - intros x idx k Hx. rewrite wrslice_get, Ec, El. destruct (Nat.eqb_spec x (buf r)); [|reflexivity].
    destruct Hx; [contradiction|]. replace (k <? 0 + (n - 0)) with false by (symmetry; apply Z.ltb_ge; lia). rewrite andb_false_r. reflexivity.
Qed.

Definition signed (subtraction : bool) (x y : C) : C := if subtraction then (x - y)%C else (x + y)%C.

Lemma col_lt ell mm L : 0 <= ell -> - ell <= mm <= ell -> 0 <= L -> (ell * ell + (ell + mm) < (L + 1) ^ 2 <-> ell <= L).
Proof. intros. split; intros; nia. Qed.

Lemma add_into_ok h f g r sub : wf h f -> wf h g -> 0 <= ellmax (md f) -> 0 <= ellmax (md g) ->
  buf r <> buf (nd g) ->
  (ellmax (md f) + 1) ^ 2 <= wid r -> (ellmax (md g) + 1) ^ 2 <= wid r ->
  broadcast (lead (nd f)) (lead r) = Some (lead r) -> broadcast (lead (nd g)) (lead r) = Some (lead r) ->
  exists h', add_into h f g r sub = Ok h' /\ next h' = next h
    /\ (forall x idx k, x <> buf r -> mem h' x idx k = mem h x idx k)
    /\ (forall idx ell mm, 0 <= ell -> - ell <= mm <= ell ->
         mem h' (buf r) idx (ell * ell + (ell + mm)) =
         let a := if ell <=? ellmax (md f) then mode h f (bidx (lead (nd f)) idx) ell mm else mem h (buf r) idx (ell * ell + (ell + mm)) in
         if ell <=? ellmax (md g) then signed sub a (mode h g (bidx (lead (nd g)) idx) ell mm) else a).
Proof.
  intros (Fb & Fw & _) (Gb & Gw & _) HF HG Hne Wf Wg Bf Bg. unfold add_into, ell_min_of.
  rewrite !LM_total_sqr. replace ((0 - 1 + 1) ^ 2 - 0 ^ 2) with 0 by lia.
  replace (0 + ((ellmax (md f) + 1) ^ 2 - 0 ^ 2)) with ((ellmax (md f) + 1) ^ 2) by lia.
  replace (0 + ((ellmax (md g) + 1) ^ 2 - 0 ^ 2)) with ((ellmax (md g) + 1) ^ 2) by lia.
  destruct (assign_prefix h r ((ellmax (md f) + 1) ^ 2) (lead (nd f)) (wid (nd f)) (mem h (buf (nd f))) (fun _ y => y)) as (h1 & E1 & N1 & D1 & K1); auto; [nia|].
  rewrite E1. cbn [bind].
  destruct (assign_prefix h1 r ((ellmax (md g) + 1) ^ 2) (lead (nd g)) (wid (nd g)) (mem h1 (buf (nd g))) (if sub then Cminus else Cplus)) as (h2 & E2 & N2 & D2 & K2); auto; [nia|].
  exists h2. split; [exact E2|]. split; [congruence|]. split.
  - intros x idx k Hx. rewrite K2, K1 by auto. reflexivity.
  - intros idx ell mm He Hm. set (k := ell * ell + (ell + mm)).
    assert (Hk0 : 0 <= k) by (unfold k; nia).
    assert (Ea : mem h1 (buf r) idx k = if ell <=? ellmax (md f) then mode h f (bidx (lead (nd f)) idx) ell mm else mem h (buf r) idx k).
    { pose proof (col_lt ell mm (ellmax (md f)) He Hm HF) as C1. fold k in C1. destruct (Z.leb_spec ell (ellmax (md f))).
      - rewrite D1 by lia. reflexivity.
      - rewrite K1 by (right; lia). reflexivity. }
    pose proof (col_lt ell mm (ellmax (md g)) He Hm HG) as C2. fold k in C2. cbv zeta. destruct (Z.leb_spec ell (ellmax (md g))).
    + rewrite D2 by lia. rewrite Ea. rewrite K1 by auto. unfold signed, mode. fold k. destruct sub; reflexivity.
    + rewrite K2 by (right; lia). exact Ea.
Qed.

Lemma rdcol0 h m : wf h m -> 0 <= ellmax (md m) -> rdcol h (nd m) 0 = Ok (fun idx => mem h (buf (nd m)) idx 0).
Proof. intros (_ & W & _) H. apply rdcol_ok. rewrite W. nia. Qed.

Lemma add_new h f g sub sh : wf h f -> wf h g -> 0 <= ellmax (md f) -> 0 <= ellmax (md g) ->
  spin (md f) = spin (md g) -> broadcast (lead (nd f)) (lead (nd g)) = Some sh ->
  exists h' r, add h f g sub = Ok (h', r)
    /\ new_modes h h' r (spin (md f)) (Z.max (ellmax (md f)) (ellmax (md g))) sh (add_data h f g sub)
    /\ truncator (md r) = truncator (md f).
Proof.
  intros Wf Wg HF HG HS HB. unfold add. rewrite HS, Z.eqb_refl. cbn [negb].
  rewrite (rdcol0 h f), (rdcol0 h g) by auto. cbn [bind]. rewrite HB.
  set (L := Z.max _ _). destruct (alloc h sh (LM_total_size 0 L) (fun _ _ => RtoC 0)) as [h1 r] eqn:EA.
  assert (Er : r = mknd (next h) sh (LM_total_size 0 L)) by (inversion EA; reflexivity).
  assert (Hnew : forall idx k, mem h1 (next h) idx k = RtoC 0) by (intros; replace h1 with (fst (alloc h sh (LM_total_size 0 L) (fun _ _ => RtoC 0))) by (rewrite EA; reflexivity); apply alloc_get_new).
  assert (Hold : forall b, b <> next h -> mem h1 b = mem h b) by (intros; replace h1 with (fst (alloc h sh (LM_total_size 0 L) (fun _ _ => RtoC 0))) by (rewrite EA; reflexivity); apply alloc_get_old; auto).
  assert (Hn : next h1 = S (next h)) by (inversion EA; reflexivity).
  pose proof Wf as (Fb & Fw & Fz). pose proof Wg as (Gb & Gw & Gz).
  assert (Wt : LM_total_size 0 L = (L + 1) ^ 2) by (rewrite LM_total_sqr; lia).
  assert (Wf1 : wf h1 f) by (split; [lia|]; split; [auto|]; intros; unfold mode; rewrite Hold by lia; apply Fz; auto).
  assert (Wg1 : wf h1 g) by (split; [lia|]; split; [auto|]; intros; unfold mode; rewrite Hold by lia; apply Gz; auto).
  destruct (add_into_ok h1 f g r sub) as (h2 & E2 & N2 & K2 & D2); subst r; cbn [buf wid lead]; auto.
  - lia.
  - rewrite Wt. unfold L. nia.
  - rewrite Wt. unfold L. nia.
  - eapply broadcast_left; eauto.
  - eapply broadcast_right; eauto.
  - rewrite E2. cbn [bind]. cbn [buf] in *.
    destruct (construct_new h h2 (mknd (next h) sh (LM_total_size 0 L)) (mkmeta (spin (md g)) L (truncator (md f))) (add_data h f g sub)) as (h' & E & NM); cbn [buf wid lead spin ellmax].
    + exact Wt.
    + lia.
    + intros b Hb idx k. rewrite K2 by lia. rewrite Hold by lia. reflexivity.
    + intros idx ell mm _ He0 He Hm. rewrite D2 by lia. rewrite Hnew. unfold add_data, signed, mode. rewrite !Hold by lia.
      destruct (ell <=? ellmax (md f)), (ell <=? ellmax (md g)); destruct sub; try reflexivity; ring.
    + intros idx ell mm _ He He' Hm. unfold add_data.
      destruct (Z.leb_spec ell (ellmax (md f))), (Z.leb_spec ell (ellmax (md g))); rewrite ?Fz, ?Gz by lia; destruct sub; ring.
    + eexists h', _. split; [exact E|]. split; [exact NM|reflexivity].
Qed.

(** ** Scalars *)
Lemma scalar_new op h f x sh : wf h f -> 0 <= ellmax (md f) ->
  (length (sc_shape x) <= length (lead (nd f)))%nat ->
  broadcast (lead (nd f)) (sc_shape x) = Some sh ->
  (forall c, op (RtoC 0) c = RtoC 0) ->
  exists h' r, scalar_op op h f x = Ok (h', r)
    /\ new_modes h h' r (spin (md f)) (ellmax (md f)) sh
         (fun idx ell mm => op (mode h f (bidx (lead (nd f)) idx) ell mm) (sc_val x (bidx (sc_shape x) idx)))
    /\ truncator (md r) = truncator (md f).
Proof.
  intros Wf HL Hlen HB H0. pose proof Wf as (Fb & Fw & Fz). unfold scalar_op, check_broadcasting.
  replace (length (lead (nd f)) <? length (sc_shape x))%nat with false by (symmetry; apply Nat.ltb_ge; auto).
  rewrite (rdcol0 h f) by auto. cbn [bind]. rewrite HB. cbn [negb].
  match goal with |- context [alloc h sh ?w ?d] => pose proof (alloc_get_new h sh w d) as Hnew; pose proof (alloc_get_old h sh w d) as Hold;
    destruct (alloc h sh w d) as [h1 a] eqn:EA end. cbn [fst] in *.
  assert (Ea : a = mknd (next h) sh (wid (nd f)) /\ next h1 = S (next h)) by (inversion EA; split; reflexivity). destruct Ea as [Ea Hn]. subst a.
  destruct (construct_new h h1 (mknd (next h) sh (wid (nd f))) (md f)
    (fun idx ell mm => op (mode h f (bidx (lead (nd f)) idx) ell mm) (sc_val x (bidx (sc_shape x) idx)))) as (h' & E & NM); cbn [buf wid lead]; auto.
  - lia.
  - intros b Hb idx k. rewrite Hold by lia. reflexivity.
  - intros. rewrite Hnew. reflexivity.
  - intros. rewrite Fz by lia. apply H0.
  - eexists h', _. split; [exact E|]. split; [exact NM|reflexivity].
Qed.

(** ** Derivatives *)

(** Loops that write into buffer [c] while reading from another, unchanged, buffer. *)
Lemma blocks_loop_ro (s c : nat) (B : Z -> Z -> Prop) (S0 : list Z -> Z -> C) (F : Z -> list Z -> Z -> C) a b
    (body : Z -> heap -> res heap) :
  s <> c ->
  (forall i j k, a <= i < b -> a <= j < b -> B i k -> B j k -> i = j) ->
  (forall i h, a <= i < b -> (forall idx k, mem h s idx k = S0 idx k) ->
     exists h', body i h = Ok h' /\ blocks c i (i + 1) B F h h') ->
  forall h, (forall idx k, mem h s idx k = S0 idx k) ->
  exists h', for_range a b body h = Ok h' /\ blocks c a b B F h h'.
Proof.
  intros Hne Dis Hb h Hs.
  destruct (Z_le_gt_dec a b) as [Hab|Hab].
  2:{ exists h. rewrite for_range_empty by lia. split; auto. split; auto. split; [lia|auto]. }
  destruct (for_range_inv (fun i h' => blocks c a i B F h h') a b body h Hab) as (h' & E & P).
  - split; auto. split; [lia|auto].
  - intros i h1 Hi (N1 & D1 & K1).
    destruct (Hb i h1 Hi) as (h2 & E2 & N2 & D2 & K2).
    { intros idx k. rewrite K1; auto. }
    exists h2. split; auto. split; [congruence|]. split.
    + intros j idx k Hj Bk. destruct (Z.eq_dec j i) as [->|Hne'].
      * apply D2; auto; lia.
      * rewrite K2. { apply D1; auto; lia. } right. intros j' Hj' Bj'. assert (j' = j) by (apply (Dis j' j k); auto; lia). lia.
    + intros x idx k Hx. rewrite K2. { apply K1. destruct Hx as [Hx|Hx]; [auto|]. right. intros j Hj. apply Hx. lia. }
      destruct Hx as [Hx|Hx]; [auto|]. right. intros j Hj. apply Hx. lia.
  - exists h'. auto.
Qed.

Lemma index_ok m ell mm : Z.abs (spin (md m)) <= ell -> - ell <= mm <= ell -> 0 <= ell <= ellmax (md m) ->
  index m ell mm = Ok (ell * ell + (ell + mm)).
Proof.
  intros. unfold index, ell_min_of.
  replace (ell <? Z.abs (spin (md m))) with false by (symmetry; apply Z.ltb_ge; lia).
  replace (ell <? Z.abs mm) with false by (symmetry; apply Z.ltb_ge; lia).
  replace (ell <? 0) with false by (symmetry; apply Z.ltb_ge; lia).
  replace (ell >? ellmax (md m)) with false by (symmetry; rewrite Z.gtb_ltb; apply Z.ltb_ge; lia).
  cbn [orb]. rewrite LM_col. reflexivity.
Qed.

Lemma scale_ell_ok d m factor ell h :
  Z.abs (spin (md d)) <= ell -> Z.abs (spin (md m)) <= ell -> 0 <= ell <= ellmax (md m) -> ellmax (md d) = ellmax (md m) ->
  wid (nd m) = (ellmax (md m) + 1) ^ 2 -> wid (nd d) = (ellmax (md m) + 1) ^ 2 -> lead (nd d) = lead (nd m) ->
  exists h', scale_ell d m factor ell h = Ok h'
    /\ blocks (buf (nd d)) ell (ell + 1) blk
         (fun _ idx k => RtoC factor * mem h (buf (nd m)) (bidx (lead (nd m)) idx) k)%C h h'.
Proof.
  intros Hd Hm He EL Wm Wd Ld. unfold scale_ell.
  rewrite !index_ok by lia. cbn [bind].
  replace (ell * ell + (ell + - ell)) with (ell * ell) by lia.
  replace (ell * ell + (ell + ell) + 1) with (ell * ell + 2 * ell + 1) by lia.
  pose proof (col_bound ell ell (ellmax (md m)) ltac:(lia) ltac:(lia)).
  unfold assign_slice.
  destruct (slice_full (wid (nd m)) (ell * ell) (ell * ell + 2 * ell + 1) ltac:(nia) ltac:(lia)) as (Ecm & Elm).
  destruct (slice_full (wid (nd d)) (ell * ell) (ell * ell + 2 * ell + 1) ltac:(nia) ltac:(lia)) as (Ecd & Eld).
  rewrite Elm, Eld, Ecm, Ld, broadcasts_to_refl. eexists. split; [reflexivity|]. split; [reflexivity|]. split.
  - intros i idx k Hi Hk. assert (i = ell) by lia. subst i. unfold blk in Hk. rewrite wrslice_get, Nat.eqb_refl, Ecd, Eld. cbn [andb].
    replace ((ell * ell <=? k) && (k <? ell * ell + (ell * ell + 2 * ell + 1 - ell * ell))) with true
      by (symmetry; apply andb_true_iff; split; [apply Z.leb_le|apply Z.ltb_lt]; lia).
    destruct (Z.eqb_spec (ell * ell + 2 * ell + 1 - ell * ell) 1) as [H1|H1]; f_equal; f_equal; lia.
  - intros x idx k Hx. rewrite wrslice_get, Ecd, Eld. destruct (Nat.eqb_spec x (buf (nd d))); [|reflexivity].
    destruct Hx as [Hx|Hx]; [contradiction|]. specialize (Hx ell ltac:(lia)). unfold blk in Hx.
    replace ((ell * ell <=? k) && (k <? ell * ell + (ell * ell + 2 * ell + 1 - ell * ell))) with false; [reflexivity|].
    symmetry. apply andb_false_iff. destruct (Z_lt_ge_dec k (ell * ell)); [left; apply Z.leb_gt; lia|right; apply Z.ltb_ge; lia].
Qed.

Lemma new_of h0 h2 a m (F : list Z -> Z -> Z -> C) :
  wid a = (ellmax m + 1) ^ 2 -> (next h0 <= buf a < next h2)%nat ->
  (forall b, (b < next h0)%nat -> forall idx k, mem h2 b idx k = mem h0 b idx k) ->
  (forall idx ell mm, at_index (lead a) idx -> 0 <= ell <= ellmax m -> Z.abs (spin m) <= ell -> - ell <= mm <= ell ->
     mem h2 (buf a) idx (ell * ell + (ell + mm)) = F idx ell mm) ->
  (forall idx ell mm, 0 <= ell <= ellmax m -> ell < Z.abs (spin m) -> - ell <= mm <= ell ->
     mem h2 (buf a) idx (ell * ell + (ell + mm)) = RtoC 0 /\ F idx ell mm = RtoC 0) ->
  new_modes h0 h2 (mkmodes a m) (spin m) (ellmax m) (lead a) F.
Proof.
  intros HW HB HP HF HZ. unfold new_modes, wf, mode. cbn [nd md].
  split; [lia|]. split; [auto|]. split; [lia|]. split; [reflexivity|]. split; [reflexivity|]. split; [reflexivity|].
  split.
  - split; [lia|]. split; [auto|]. intros. apply HZ; auto.
  - intros idx ell mm Hi He Hm. destruct (Z_lt_ge_dec ell (Z.abs (spin m))).
    + destruct (HZ idx ell mm He l Hm) as [-> ->]. reflexivity.
    + apply HF; auto; lia.
Qed.

Lemma copy_facts h m : let '(h1, d) := copy h m in
  next h1 = S (next h) /\ d = mkmodes (mknd (next h) (lead (nd m)) (wid (nd m))) (md m)
  /\ (forall b, b <> next h -> mem h1 b = mem h b) /\ mem h1 (next h) = mem h (buf (nd m)).
Proof.
  unfold copy, alloc. cbn [fst snd next mem]. split; [reflexivity|]. split; [reflexivity|]. split.
  - intros b Hb. destruct (Nat.eqb_spec b (next h)); [contradiction|reflexivity].
  - rewrite Nat.eqb_refl. reflexivity.
Qed.

Lemma not_blk_low i ell mm s : 0 <= ell < s -> - ell <= mm <= ell -> s <= i -> ~ blk i (ell * ell + (ell + mm)).
Proof. intros He Hm Hi B. assert (i = ell) by (apply (blk_inj i ell (ell * ell + (ell + mm))); auto; try lia; apply blk_col; lia). lia. Qed.

Lemma Lsquared_new h m : wf h m ->
  exists h' r, Lsquared h m = Ok (h', r)
    /\ new_modes h h' r (spin (md m)) (ellmax (md m)) (lead (nd m)) (fun idx ell mm => RtoC (IZR (ell * (ell + 1))) * mode h m idx ell mm)%C
    /\ truncator (md r) = truncator (md m).
Proof.
  intros W. pose proof W as (Wb & Ww & Wz). unfold Lsquared. pose proof (copy_facts h m) as CF.
  destruct (copy h m) as [h1 d]. destruct CF as (N1 & Ed & K1 & D1). subst d. cbn [md nd].
  set (a := mknd (next h) (lead (nd m)) (wid (nd m))). set (d := mkmodes a (md m)).
  destruct (blocks_loop_ro (buf (nd m)) (next h) blk (mem h (buf (nd m)))
    (fun ell idx k => RtoC (IZR (ell * (ell + 1))) * mem h (buf (nd m)) (bidx (lead (nd m)) idx) k)%C
    (Z.abs (spin (md m))) (ellmax (md m) + 1) (fun ell h => scale_ell d m (IZR (ell * (ell + 1))) ell h)) with (h := h1) as (h2 & E2 & N2 & D2 & K2).
  - lia.
  - intros. eapply blk_inj; eauto; lia.
  - intros ell h3 He HS. destruct (scale_ell_ok d m (IZR (ell * (ell + 1))) ell h3) as (h4 & E4 & N4 & D4 & K4); try (cbn [md nd d]; lia); auto.
    exists h4. split; auto. split; auto. split; auto. intros i idx k Hi Hk. rewrite (D4 i) by auto. rewrite HS. assert (i = ell) by lia. subst i. reflexivity.
  - intros. rewrite K1 by lia. reflexivity.
  - rewrite E2. cbn [bind]. eexists _, _. split; [reflexivity|]. split; [|reflexivity].
    change (lead (nd m)) with (lead a). apply new_of; unfold a; cbn [buf wid lead]; auto.
    + lia.
    + intros b Hb idx k. rewrite K2 by (left; lia). rewrite K1 by lia. reflexivity.
    + intros idx ell mm Hi He Hs Hm. rewrite (D2 ell) by (try lia; apply blk_col; lia). rewrite bidx_at by auto. reflexivity.
    + intros idx ell mm He Hs Hm. rewrite Wz by lia. rewrite K2; [|right; intros; apply (not_blk_low _ _ _ (Z.abs (spin (md m)))); lia].
      rewrite D1. split; [apply Wz; lia|ring].
Qed.

(** Loops over m writing one column each. *)
Definition one_col (ell m k : Z) : Prop := k = ell * ell + (ell + m).
Lemma one_col_blocks c ell F h h' : 
  blocks c (- ell) (ell + 1) (one_col ell) F h h' ->
  blocks c ell (ell + 1) blk (fun _ idx k => F (k - ell * ell - ell) idx k) h h'.
Proof.
  intros (N & D & K). split; auto. split.
  - intros i idx k Hi Hk. assert (i = ell) by lia. subst i. destruct (blk_m _ _ Hk) as (m & Hm & E).
    replace (k - ell * ell - ell) with m by lia. apply D; [lia|exact E].
  - intros x idx k Hx. apply K. destruct Hx as [Hx|Hx]; [auto|right]. intros m Hm E. apply (Hx ell); [lia|]. unfold one_col in E. rewrite E. apply blk_col. lia.
Qed.
Lemma one_col_inj ell i j k : one_col ell i k -> one_col ell j k -> i = j.
Proof. unfold one_col. lia. Qed.

Lemma set_col_blocks c ell m v h : blocks c m (m + 1) (one_col ell) (fun _ idx _ => v idx) h (set_col h c (ell * ell + (ell + m)) v).
Proof.
  split; [reflexivity|]. split.
  - intros i idx k Hi Hk. assert (i = m) by lia. subst i. unfold one_col in Hk. subst k. apply set_col_same.
  - intros x idx k Hx. apply set_col_other. destruct Hx as [Hx|Hx]; [auto|right]. specialize (Hx m ltac:(lia)). unfold one_col in Hx. auto.
Qed.

Lemma blocks_ext c a b (B : Z -> Z -> Prop) (F G : Z -> list Z -> Z -> C) h h' : (forall i idx k, a <= i < b -> B i k -> F i idx k = G i idx k) ->
  blocks c a b B F h h' -> blocks c a b B G h h'.
Proof. intros H (N & D & K). split; auto. split; auto. intros. rewrite <- H by auto. apply D; auto. Qed.

Lemma Lz_new h m : wf h m ->
  exists h' r, Lz h m = Ok (h', r)
    /\ new_modes h h' r (spin (md m)) (ellmax (md m)) (lead (nd m)) (fun idx ell mm => RtoC (IZR mm) * mode h m idx ell mm)%C
    /\ truncator (md r) = truncator (md m).
Proof.
  intros W. pose proof W as (Wb & Ww & Wz). unfold Lz. pose proof (copy_facts h m) as CF.
  destruct (copy h m) as [h1 d]. destruct CF as (N1 & Ed & K1 & D1). subst d. cbn [md nd].
  set (a := mknd (next h) (lead (nd m)) (wid (nd m))). set (d := mkmodes a (md m)).
  set (S0 := mem h (buf (nd m))).
  match goal with |- context [for_range ?x ?y ?f h1] => set (body := f) end.
  destruct (blocks_loop_ro (buf (nd m)) (next h) blk S0
    (fun ell idx k => RtoC (IZR (k - ell * ell - ell)) * S0 idx k)%C
    (Z.abs (spin (md m))) (ellmax (md m) + 1) body) with (h := h1) as (h2 & E2 & N2 & D2 & K2).
  - lia.
  - intros. eapply blk_inj; eauto; lia.
  - intros ell h3 He HS. unfold body.
    destruct (blocks_loop_ro (buf (nd m)) (next h) (one_col ell) S0 (fun mm idx k => RtoC (IZR mm) * S0 idx k)%C (- ell) (ell + 1)
      (fun mm h4 => do j <- index m ell mm; do v <- rdcol h4 (nd m) j; do i <- index d ell mm;
         wrcol h4 a i (fun idx => RtoC (IZR mm) * v idx)%C)) with (h := h3) as (h4 & E4 & B4).
    + lia.
    + intros. eapply one_col_inj; eauto.
    + intros mm h5 Hmm HS5. rewrite !index_ok by (cbn [md d]; lia). cbn [bind].
      pose proof (col_bound ell mm (ellmax (md m)) ltac:(lia) ltac:(lia)).
      rewrite rdcol_ok by lia. cbn [bind]. rewrite wrcol_ok by (cbn [wid a]; lia). eexists. split; [reflexivity|].
      eapply blocks_ext; [|apply set_col_blocks]. intros i idx k Hi Hk. unfold one_col in Hk. subst k. rewrite HS5. replace i with mm by lia. reflexivity.
    + exact HS.
    + exists h4. split; [exact E4|]. apply one_col_blocks in B4. eapply blocks_ext; [|exact B4]. intros i idx k Hi Hk. replace i with ell by lia. reflexivity.
  - intros. rewrite K1 by lia. reflexivity.
  - rewrite E2. cbn [bind]. eexists _, _. split; [reflexivity|]. split; [|reflexivity].
    change (lead (nd m)) with (lead a). apply new_of; unfold a; cbn [buf wid lead]; auto.
    + lia.
    + intros b Hb idx k. rewrite K2 by (left; lia). rewrite K1 by lia. reflexivity.
    + intros idx ell mm Hi He Hs Hm. rewrite (D2 ell) by (try lia; apply blk_col; lia).
      replace (ell * ell + (ell + mm) - ell * ell - ell) with mm by lia. reflexivity.
    + intros idx ell mm He Hs Hm. rewrite Wz by lia. rewrite K2; [|right; intros; apply (not_blk_low _ _ _ (Z.abs (spin (md m)))); lia].
      rewrite D1. split; [apply Wz; lia|ring].
Qed.

Lemma blocks_seq c a b d (B : Z -> Z -> Prop) F h h1 h2 : a <= b <= d ->
  (forall i j k, a <= i < d -> a <= j < d -> B i k -> B j k -> i = j) ->
  blocks c a b B F h h1 -> blocks c b d B F h1 h2 -> blocks c a d B F h h2.
Proof.
  intros Hr Dis (N1 & D1 & K1) (N2 & D2 & K2). split; [congruence|]. split.
  - intros i idx k Hi Hk. destruct (Z_lt_ge_dec i b).
    + rewrite K2; [apply D1; auto; lia|]. right. intros j Hj Bj. assert (i = j) by (apply (Dis i j k); auto; lia). lia.
    + apply D2; auto; lia.
  - intros x idx k Hx. rewrite K2, K1; auto.
    + destruct Hx as [Hx|Hx]; [auto|right]. intros j Hj. apply Hx. lia.
    + destruct Hx as [Hx|Hx]; [auto|right]. intros j Hj. apply Hx. lia.
Qed.

Lemma zeros_modes_facts h m : let '(h1, d) := zeros_like_modes h m in
  next h1 = S (next h) /\ d = mkmodes (mknd (next h) (lead (nd m)) (wid (nd m))) (md m)
  /\ (forall b, b <> next h -> mem h1 b = mem h b) /\ (forall idx k, mem h1 (next h) idx k = RtoC 0).
Proof.
  unfold zeros_like_modes, zeros_like, alloc. cbn [fst snd next mem]. split; [reflexivity|]. split; [reflexivity|]. split.
  - intros b Hb. destruct (Nat.eqb_spec b (next h)); [contradiction|reflexivity].
  - intros. rewrite Nat.eqb_refl. reflexivity.
Qed.

Definition up (ell m : Z) : R := sqrt (IZR ((ell + m) * (ell - m + 1))).
Definition down (ell m : Z) : R := sqrt (IZR ((ell - m) * (ell + m + 1))).

Lemma Lplus_new h m : wf h m ->
  exists h' r, Lplus h m = Ok (h', r)
    /\ new_modes h h' r (spin (md m)) (ellmax (md m)) (lead (nd m))
         (fun idx ell mm => RtoC (up ell mm) * mode h m idx ell (mm - 1)%Z)%C
    /\ truncator (md r) = truncator (md m).
Proof.
  intros W. pose proof W as (Wb & Ww & Wz). unfold Lplus. pose proof (zeros_modes_facts h m) as CF.
  destruct (zeros_like_modes h m) as [h1 d]. destruct CF as (N1 & Ed & K1 & D1). subst d. cbn [md nd].
  set (a := mknd (next h) (lead (nd m)) (wid (nd m))). set (d := mkmodes a (md m)).
  set (S0 := mem h (buf (nd m))).
  match goal with |- context [for_range ?x ?y ?f h1] => set (body := f) end.
  destruct (blocks_loop_ro (buf (nd m)) (next h) blk S0
    (fun ell idx k => RtoC (up ell (k - ell * ell - ell)%Z) * S0 idx (k - 1)%Z)%C
    (Z.abs (spin (md m))) (ellmax (md m) + 1) body) with (h := h1) as (h2 & E2 & N2 & D2 & K2).
  - lia.
  - intros. eapply blk_inj; eauto; lia.
  - intros ell h3 He HS. unfold body. rewrite index_ok by lia. cbn [bind].
    pose proof (col_bound ell (- ell) (ellmax (md m)) ltac:(lia) ltac:(lia)).
    rewrite wrcol_ok by (cbn [wid a]; lia). cbn [bind buf a].
    pose proof (set_col_blocks (next h) ell (- ell) (fun _ => RtoC 0) h3) as B0.
    set (h4 := set_col _ _ _ _) in *.
    destruct (blocks_loop_ro (buf (nd m)) (next h) (one_col ell) S0 (fun mm idx k => RtoC (up ell mm) * S0 idx (k - 1)%Z)%C (- ell + 1) (ell + 1)
      (fun mm h4 => do j <- index m ell (mm - 1); do v <- rdcol h4 (nd m) j; do i <- index d ell mm;
         wrcol h4 a i (fun idx => RtoC (sqrt (IZR ((ell + mm) * (ell - mm + 1)))) * v idx)%C)) with (h := h4) as (h5 & E5 & B5).
    + lia.
    + intros. eapply one_col_inj; eauto.
    + intros mm h6 Hmm HS5. rewrite !index_ok by (cbn [md d]; lia). cbn [bind].
      pose proof (col_bound ell mm (ellmax (md m)) ltac:(lia) ltac:(lia)).
      pose proof (col_bound ell (mm - 1) (ellmax (md m)) ltac:(lia) ltac:(lia)).
      rewrite rdcol_ok by lia. cbn [bind]. rewrite wrcol_ok by (cbn [wid a]; lia). eexists. split; [reflexivity|].
      eapply blocks_ext; [|apply set_col_blocks]. intros i idx k Hi Hk. unfold one_col in Hk. subst k. rewrite HS5.
      replace i with mm by lia. unfold up. f_equal. f_equal. lia.
    + intros. unfold h4. rewrite set_col_other by (left; lia). apply HS.
    + exists h5. split; [exact E5|].
      assert (B6 : blocks (next h) (- ell) (- ell + 1) (one_col ell) (fun mm idx k => RtoC (up ell mm) * S0 idx (k - 1)%Z)%C h3 h4).
      { eapply blocks_ext; [|exact B0]. intros i idx k Hi Hk. cbv beta. replace i with (- ell) by lia. unfold up.
        replace (ell + - ell) with 0 by lia. rewrite Z.mul_0_l, sqrt_0. ring. }
      pose proof (blocks_seq (next h) (- ell) (- ell + 1) (ell + 1) _ _ _ _ _ ltac:(lia) (fun i j k _ _ => one_col_inj ell i j k) B6 B5) as B7.
      apply one_col_blocks in B7. eapply blocks_ext; [|exact B7]. intros i idx k Hi Hk. replace i with ell by lia. reflexivity.
  - intros. rewrite K1 by lia. reflexivity.
  - rewrite E2. cbn [bind]. eexists _, _. split; [reflexivity|]. split; [|reflexivity].
    change (lead (nd m)) with (lead a). apply new_of; unfold a; cbn [buf wid lead]; auto.
    + lia.
    + intros b Hb idx k. rewrite K2 by (left; lia). rewrite K1 by lia. reflexivity.
    + intros idx ell mm Hi He Hs Hm. rewrite (D2 ell) by (try lia; apply blk_col; lia).
      replace (ell * ell + (ell + mm) - ell * ell - ell) with mm by lia. unfold mode, S0. f_equal. f_equal. lia.
    + intros idx ell mm He Hs Hm. split.
      * rewrite K2; [|right; intros; apply (not_blk_low _ _ _ (Z.abs (spin (md m)))); lia]. apply D1.
      * destruct (Z.eq_dec mm (- ell)) as [->|Hne].
        -- unfold up. replace (ell + - ell) with 0 by lia. rewrite Z.mul_0_l, sqrt_0. ring.
        -- rewrite Wz by lia. ring.
Qed.

Lemma Lminus_new h m : wf h m ->
  exists h' r, Lminus h m = Ok (h', r)
    /\ new_modes h h' r (spin (md m)) (ellmax (md m)) (lead (nd m))
         (fun idx ell mm => RtoC (down ell mm) * mode h m idx ell (mm + 1)%Z)%C
    /\ truncator (md r) = truncator (md m).
Proof.
  intros W. pose proof W as (Wb & Ww & Wz). unfold Lminus. pose proof (zeros_modes_facts h m) as CF.
  destruct (zeros_like_modes h m) as [h1 d]. destruct CF as (N1 & Ed & K1 & D1). subst d. cbn [md nd].
  set (a := mknd (next h) (lead (nd m)) (wid (nd m))). set (d := mkmodes a (md m)).
  set (S0 := mem h (buf (nd m))).
  match goal with |- context [for_range ?x ?y ?f h1] => set (body := f) end.
  destruct (blocks_loop_ro (buf (nd m)) (next h) blk S0
    (fun ell idx k => RtoC (down ell (k - ell * ell - ell)%Z) * S0 idx (k + 1)%Z)%C
    (Z.abs (spin (md m))) (ellmax (md m) + 1) body) with (h := h1) as (h2 & E2 & N2 & D2 & K2).
  - lia.
  - intros. eapply blk_inj; eauto; lia.
  - intros ell h3 He HS. unfold body.
    destruct (blocks_loop_ro (buf (nd m)) (next h) (one_col ell) S0 (fun mm idx k => RtoC (down ell mm) * S0 idx (k + 1)%Z)%C (- ell) ell
      (fun mm h4 => do j <- index m ell (mm + 1); do v <- rdcol h4 (nd m) j; do i <- index m ell mm;
         wrcol h4 a i (fun idx => RtoC (sqrt (IZR ((ell - mm) * (ell + mm + 1)))) * v idx)%C)) with (h := h3) as (h5 & E5 & B5).
    + lia.
    + intros. eapply one_col_inj; eauto.
    + intros mm h6 Hmm HS5. rewrite !index_ok by (cbn [md d]; lia). cbn [bind].
      pose proof (col_bound ell mm (ellmax (md m)) ltac:(lia) ltac:(lia)).
      pose proof (col_bound ell (mm + 1) (ellmax (md m)) ltac:(lia) ltac:(lia)).
      rewrite rdcol_ok by lia. cbn [bind]. rewrite wrcol_ok by (cbn [wid a]; lia). eexists. split; [reflexivity|].
      eapply blocks_ext; [|apply set_col_blocks]. intros i idx k Hi Hk. unfold one_col in Hk. subst k. rewrite HS5.
      replace i with mm by lia. unfold down. f_equal. f_equal. lia.
    + exact HS.
    + rewrite E5. cbn [bind]. rewrite index_ok by lia. cbn [bind].
      pose proof (col_bound ell ell (ellmax (md m)) ltac:(lia) ltac:(lia)).
      rewrite wrcol_ok by (cbn [wid a]; lia). eexists. split; [reflexivity|].
      pose proof (set_col_blocks (next h) ell ell (fun _ => RtoC 0) h5) as B0. cbn [buf a].
      set (h6 := set_col _ _ _ _) in *.
      assert (B6 : blocks (next h) ell (ell + 1) (one_col ell) (fun mm idx k => RtoC (down ell mm) * S0 idx (k + 1)%Z)%C h5 h6).
      { eapply blocks_ext; [|exact B0]. intros i idx k Hi Hk. cbv beta. replace i with ell by lia. unfold down.
        replace (ell - ell) with 0 by lia. rewrite Z.mul_0_l, sqrt_0. ring. }
      pose proof (blocks_seq (next h) (- ell) ell (ell + 1) _ _ _ _ _ ltac:(lia) (fun i j k _ _ => one_col_inj ell i j k) B5 B6) as B7.
      apply one_col_blocks in B7. eapply blocks_ext; [|exact B7]. intros i idx k Hi Hk. replace i with ell by lia. reflexivity.
  - intros. rewrite K1 by lia. reflexivity.
  - rewrite E2. cbn [bind]. eexists _, _. split; [reflexivity|]. split; [|reflexivity].
    change (lead (nd m)) with (lead a). apply new_of; unfold a; cbn [buf wid lead]; auto.
    + lia.
    + intros b Hb idx k. rewrite K2 by (left; lia). rewrite K1 by lia. reflexivity.
    + intros idx ell mm Hi He Hs Hm. rewrite (D2 ell) by (try lia; apply blk_col; lia).
      replace (ell * ell + (ell + mm) - ell * ell - ell) with mm by lia. unfold mode, S0. f_equal. f_equal. lia.
    + intros idx ell mm He Hs Hm. split.
      * rewrite K2; [|right; intros; apply (not_blk_low _ _ _ (Z.abs (spin (md m)))); lia]. apply D1.
      * destruct (Z.eq_dec mm ell) as [->|Hne].
        -- unfold down. replace (ell - ell) with 0 by lia. rewrite Z.mul_0_l, sqrt_0. ring.
        -- rewrite Wz by lia. ring.
Qed.

(** Elementwise operations followed by the constructor. *)
Lemma map_new (op : C -> C) h m : wf h m -> op (RtoC 0) = RtoC 0 ->
  exists h' r,
    (let '(h', a) := alloc h (lead (nd m)) (wid (nd m)) (fun idx k => op (mem h (buf (nd m)) idx k)) in construct h' a (md m)) = Ok (h', r)
    /\ new_modes h h' r (spin (md m)) (ellmax (md m)) (lead (nd m)) (fun idx ell mm => op (mode h m idx ell mm))
    /\ truncator (md r) = truncator (md m).
Proof.
  intros W H0. pose proof W as (Wb & Ww & Wz).
  match goal with |- context [alloc h ?l ?w ?d] => pose proof (alloc_get_new h l w d) as Hnew; pose proof (alloc_get_old h l w d) as Hold;
    destruct (alloc h l w d) as [h1 a] eqn:EA end. cbn [fst] in *.
  assert (Ea : a = mknd (next h) (lead (nd m)) (wid (nd m)) /\ next h1 = S (next h)) by (inversion EA; split; reflexivity). destruct Ea as [Ea Hn]. subst a.
  destruct (construct_new h h1 (mknd (next h) (lead (nd m)) (wid (nd m))) (md m) (fun idx ell mm => op (mode h m idx ell mm))) as (h' & E & NM); cbn [buf wid lead]; auto.
  - lia.
  - intros b Hb idx k. rewrite Hold by lia. reflexivity.
  - intros. rewrite Hnew. reflexivity.
  - intros. rewrite Wz by lia. apply H0.
  - eexists h', _. split; [exact E|]. split; [exact NM|reflexivity].
Qed.

Lemma Rz_new h m : wf h m ->
  exists h' r, Rz h m = Ok (h', r)
    /\ new_modes h h' r (spin (md m)) (ellmax (md m)) (lead (nd m)) (fun idx ell mm => RtoC (IZR (- spin (md m))) * mode h m idx ell mm)%C
    /\ truncator (md r) = truncator (md m).
Proof. intros W. apply (map_new (fun x => RtoC (IZR (- spin (md m))) * x)%C h m W). ring. Qed.
Lemma negative_new h m : wf h m ->
  exists h' r, negative h m = Ok (h', r)
    /\ new_modes h h' r (spin (md m)) (ellmax (md m)) (lead (nd m)) (fun idx ell mm => - mode h m idx ell mm)%C
    /\ truncator (md r) = truncator (md m).
Proof. intros W. apply (map_new Copp h m W). ring. Qed.

Lemma R_shift_new ds factor h m : wf h m ->
  (forall ell, 0 <= ell -> Z.abs (spin (md m)) <= ell < Z.abs (spin (md m) + ds) -> factor (spin (md m) + ds) ell = 0%R) ->
  exists h' r, R_shift ds factor h m = Ok (h', r)
    /\ new_modes h h' r (spin (md m) + ds) (ellmax (md m)) (lead (nd m))
         (fun idx ell mm => RtoC (factor (spin (md m) + ds)%Z ell) * mode h m idx ell mm)%C
    /\ truncator (md r) = truncator (md m).
Proof.
  intros W HF. pose proof W as (Wb & Ww & Wz). unfold R_shift.
  destruct (zeros_like_facts h (nd m)) as (Zn & Zr & Zo & Zz).
  destruct (zeros_like h (nd m)) as [h1 c] eqn:EZ. cbn [fst snd] in *. subst c. cbn [spin ellmax truncator].
  set (mt := mkmeta (spin (md m) + ds) (ellmax (md m)) (truncator (md m))).
  set (a := mknd (next h) (lead (nd m)) (wid (nd m))).
  assert (EM : Modes_new h1 (InArr a) None [] (mkkw (Some (spin (md m) + ds)) (Some (Z.min (Z.abs (spin (md m) + ds)) (ell_min_of m))) (Some (ellmax (md m))) (truncator (md m)))
               = construct h1 a mt).
  { unfold ell_min_of. replace (Z.min (Z.abs (spin (md m) + ds)) 0) with 0 by lia. reflexivity. }
  rewrite EM. destruct (construct_ok h1 a mt Ww) as (h2 & E2 & N2 & K2 & D2). rewrite E2. cbn [bind md nd spin ellmax mt].
  set (d := mkmodes a mt). set (S0 := mem h (buf (nd m))).
  match goal with |- context [for_range ?x ?y ?f h2] => set (body := f) end.
  destruct (blocks_loop_ro (buf (nd m)) (next h) blk S0
    (fun ell idx k => RtoC (factor (spin (md m) + ds)%Z ell) * S0 (bidx (lead (nd m)) idx) k)%C
    (Z.max (Z.abs (spin (md m) + ds)) (Z.abs (spin (md m)))) (ellmax (md m) + 1) body) with (h := h2) as (h3 & E3 & N3 & D3 & K3).
  - lia.
  - intros. eapply blk_inj; eauto; lia.
  - intros ell h4 He HS. unfold body, ell_min_of. replace (ell >=? 0) with true by (symmetry; rewrite Z.geb_leb; apply Z.leb_le; lia).
    destruct (scale_ell_ok d m (factor (spin (md m) + ds) ell) ell h4) as (h5 & E5 & N5 & D5 & K5); try (cbn [md nd spin ellmax d mt]; lia); auto.
    exists h5. split; auto. split; auto. split; auto. intros i idx k Hi Hk. rewrite (D5 i) by auto. rewrite HS. assert (i = ell) by lia. subst i. reflexivity.
  - intros. rewrite K2 by (cbn [buf a]; lia). rewrite Zo by lia. reflexivity.
  - rewrite E3. cbn [bind]. eexists _, _. split; [reflexivity|]. split; [|reflexivity].
    change (lead (nd m)) with (lead a). change (spin (md m) + ds) with (spin mt). change (ellmax (md m)) with (ellmax mt). unfold d.
    assert (Hlow : forall idx ell mm, 0 <= ell <= ellmax (md m) -> ell < Z.max (Z.abs (spin (md m) + ds)) (Z.abs (spin (md m))) -> - ell <= mm <= ell ->
              mem h3 (next h) idx (ell * ell + (ell + mm)) = RtoC 0).
    { intros idx ell mm He Hs Hm.
      rewrite K3; [|right; intros i Hi; apply (not_blk_low i ell mm (Z.max (Z.abs (spin (md m) + ds)) (Z.abs (spin (md m))))); lia].
      specialize (D2 idx ell mm He Hm). cbn [buf a] in D2. rewrite D2, Zz. destruct (_ <? _); reflexivity. }
    assert (Hf : forall idx ell mm, 0 <= ell <= ellmax (md m) -> ell < Z.max (Z.abs (spin (md m) + ds)) (Z.abs (spin (md m))) -> - ell <= mm <= ell ->
              (RtoC (factor (spin (md m) + ds)%Z ell) * mode h m idx ell mm)%C = RtoC 0).
    { intros idx ell mm He Hs Hm. destruct (Z_lt_ge_dec ell (Z.abs (spin (md m)))); [rewrite Wz by lia; ring|].
      rewrite HF by lia. ring. }
    apply new_of; unfold a; cbn [buf wid lead spin ellmax mt]; auto.
    + cbn [buf a] in *. lia.
    + intros b Hb idx k. rewrite K3 by (left; lia). rewrite K2 by (cbn [buf a]; lia). rewrite Zo by lia. reflexivity.
    + intros idx ell mm Hi He Hs Hm. destruct (Z_lt_ge_dec ell (Z.abs (spin (md m)))).
      * rewrite Hlow, Hf by lia. reflexivity.
      * rewrite (D3 ell) by (try lia; apply blk_col; lia). rewrite bidx_at by auto. reflexivity.
    + intros idx ell mm He Hs Hm. split; [apply Hlow|apply Hf]; lia.
Qed.

Definition rup (s ell : Z) : R := sqrt (IZR ((ell + s) * (ell - s + 1))).
Definition rdown (s ell : Z) : R := sqrt (IZR ((ell - s) * (ell + s + 1))).

Lemma new_modes_ext h h' r s L ld F G : (forall idx ell mm, 0 <= ell <= L -> - ell <= mm <= ell -> F idx ell mm = G idx ell mm) ->
  new_modes h h' r s L ld F -> new_modes h h' r s L ld G.
Proof. unfold new_modes. intros H (A & B & D & E & I & J & K & M). repeat (split; auto); try lia. intros. rewrite M, H; auto. Qed.

Lemma Rplus_new h m : wf h m ->
  exists h' r, Rplus h m = Ok (h', r)
    /\ new_modes h h' r (spin (md m) - 1) (ellmax (md m)) (lead (nd m))
         (fun idx ell mm => RtoC (rup (spin (md m)) ell) * mode h m idx ell mm)%C
    /\ truncator (md r) = truncator (md m).
Proof.
  intros W. unfold Rplus. destruct (R_shift_new (-1) (fun s ell => sqrt (IZR ((ell - s) * (ell + s + 1)))) h m W) as (h' & r & E & N & T).
  - intros ell H0 Hl. assert (E : ell + (spin (md m) + -1) + 1 = 0) by lia. rewrite E, Z.mul_0_r. apply sqrt_0.
  - exists h', r. split; [exact E|]. split; [|exact T]. replace (spin (md m) - 1) with (spin (md m) + -1) by lia.
    eapply new_modes_ext; [|exact N]. intros. cbv beta. unfold rup. do 4 f_equal. lia.
Qed.
Lemma Rminus_new h m : wf h m ->
  exists h' r, Rminus h m = Ok (h', r)
    /\ new_modes h h' r (spin (md m) + 1) (ellmax (md m)) (lead (nd m))
         (fun idx ell mm => RtoC (rdown (spin (md m)) ell) * mode h m idx ell mm)%C
    /\ truncator (md r) = truncator (md m).
Proof.
  intros W. unfold Rminus. destruct (R_shift_new 1 (fun s ell => sqrt (IZR ((ell + s) * (ell - s + 1)))) h m W) as (h' & r & E & N & T).
  - intros ell H0 Hl. assert (E : ell - (spin (md m) + 1) + 1 = 0) by lia. rewrite E, Z.mul_0_r. apply sqrt_0.
  - exists h', r. split; [exact E|]. split; [|exact T].
    eapply new_modes_ext; [|exact N]. intros. cbv beta. unfold rdown. do 4 f_equal. lia.
Qed.

Lemma ethbar_new h m : wf h m ->
  exists h' r, ethbar h m = Ok (h', r)
    /\ new_modes h h' r (spin (md m) - 1) (ellmax (md m)) (lead (nd m))
         (fun idx ell mm => - (RtoC (rup (spin (md m)) ell) * mode h m idx ell mm))%C
    /\ truncator (md r) = truncator (md m).
Proof.
  intros W. unfold ethbar. destruct (Rplus_new h m W) as (h1 & r1 & E1 & NM1 & T1). rewrite E1. cbn [bind].
  destruct NM1 as (A & B & D & Es & EL & El & Wf1 & M1).
  destruct (negative_new h1 r1 Wf1) as (h2 & r2 & E2 & NM2 & T2). exists h2, r2. split; [exact E2|]. split; [|congruence].
  destruct NM2 as (A2 & B2 & D2 & Es2 & EL2 & El2 & Wf2 & M2).
  split; [lia|]. split; [intros; rewrite B2, B by lia; reflexivity|]. split; [lia|]. split; [congruence|]. split; [congruence|]. split; [congruence|].
  split; [exact Wf2|]. intros. rewrite M2 by (rewrite ?El, ?EL; auto). rewrite M1 by auto. reflexivity.
Qed.
