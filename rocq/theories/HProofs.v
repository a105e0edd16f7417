(** Correctness of the steps of the H recursion, for any index function that is injective on the wedge. *)
Require Import ZArith Lia Reals Lra Bool List.
From Verif Require Import Base BaseProofs IndexModel IndexProps Fact HSpec HMath HModel.
Open Scope R_scope.

Section Steps.
Variable ix : Z -> Z -> Z -> Z.
Variables n_max size : Z.
Variable cols : Z -> Prop.
Variables al be cosb sinb : Z -> R.
Variables ca cb cd cg ch : cbuf.

Definition T (n mp m : Z) : Prop := (0 <= n <= n_max /\ Z.abs mp <= m <= n)%Z.

Hypothesis n_pos : (1 <= n_max)%Z.
Hypothesis ix_bnd : forall n mp m, T n mp m -> (0 <= ix n mp m < size)%Z.
Hypothesis ix_inj : forall n mp m n' mp' m', T n mp m -> T n' mp' m' ->
  ix n mp m = ix n' mp' m' -> n = n' /\ mp = mp' /\ m = m'.
Hypothesis ix_lin : forall n mp m k, ix n mp (m + k)%Z = (ix n mp m + k)%Z.
Hypothesis ix_0 : ix 0 0 0 = 0%Z.
Hypothesis unit_ab : forall j, cols j -> al j * al j + be j * be j = 1.
Hypothesis cos_ab : forall j, cols j -> cosb j = al j * al j - be j * be j.
Hypothesis sin_ab : forall j, cols j -> sinb j = 2 * (al j * be j).
Hypothesis cg_ok : forall n m, (1 <= n <= n_max + 1)%Z -> (0 <= m < n)%Z -> crd cg (nm_index n m) = Ok (gco n m).
Hypothesis ch_ok : forall n m, (1 <= n <= n_max + 1)%Z -> (0 <= m < n)%Z -> crd ch (nm_index n m) = Ok (hco n m).
Hypothesis ca_ok : forall n m, (0 <= n <= n_max + 1)%Z -> (0 <= m <= n)%Z -> crd ca (nabsm_index n m) = Ok (aco n m).
Hypothesis cb_ok : forall n m, (1 <= n <= n_max + 1)%Z -> (- n <= m <= n)%Z -> crd cb (nm_index n m) = Ok (bco n m).
Hypothesis cd_ok : forall n m, (0 <= n <= n_max + 1)%Z -> (- n <= m <= n)%Z -> crd cd (nm_index n m) = Ok (dco n m).

Definition is (o : option row) (f : Z -> R) : Prop := exists r, o = Some r /\ forall j, cols j -> r j = f j.
Definition HH (n mp m : Z) : row := fun j => Hd (al j) (be j) n mp m.
Definition PP (n m : Z) : row := fun j => Praw (al j) (be j) n m.
Definition VV (n k : Z) : row := if (1 <=? k)%Z then HH n k (k - 1) else HH n k (- k - 1).
Definition lens (st : hst) : Prop :=
  alen (Hw st) = size /\ alen (Hv st) = ((n_max + 1) ^ 2)%Z /\ alen (Hx st) = (n_max + 2)%Z.
Definition gw (st : hst) (n mp m : Z) := aget (Hw st) (ix n mp m).
Definition gv (st : hst) (n k : Z) := aget (Hv st) (nm_index n k).
Definition gx (st : hst) (m : Z) := aget (Hx st) m.

Lemma is_ext o f g : is o f -> (forall j, cols j -> f j = g j) -> is o g.
Proof. intros (r & E & A) H. exists r. split; auto. intros j Hj. rewrite A; auto. Qed.
Lemma hrd_is H i f : (0 <= i < alen H)%Z -> is (aget H i) f -> exists r, hrd H i = Ok r /\ forall j, cols j -> r j = f j.
Proof. intros B (r & E & A). exists r. split; auto. unfold hrd. rewrite rd_ok by auto. cbn [bind]. now rewrite E. Qed.

Lemma rdw st n mp m f i : lens st -> T n mp m -> i = ix n mp m -> is (gw st n mp m) f ->
  exists r, hrd (Hw st) i = Ok r /\ forall j, cols j -> r j = f j.
Proof. intros (L & _) HT -> H. apply hrd_is; auto. rewrite L. auto. Qed.
Lemma nm_bnd n k : (0 <= n <= n_max)%Z -> (- n <= k <= n)%Z -> (0 <= nm_index n k < (n_max + 1) ^ 2)%Z.
Proof. intros. destruct (C07_nm (n_max + 1)) as (A & _); [lia|]. apply A; lia. Qed.
Lemma nm_inj n k n' k' : (0 <= n)%Z -> (0 <= n')%Z -> (- n <= k <= n)%Z -> (- n' <= k' <= n')%Z ->
  nm_index n k = nm_index n' k' -> n = n' /\ k = k'.
Proof. destruct (C07_nm (n_max + 1)) as (_ & _ & A); [lia|]. apply A. Qed.
Lemma rdv st n k f i : lens st -> (0 <= n <= n_max)%Z -> (- n <= k <= n)%Z -> i = nm_index n k -> is (gv st n k) f ->
  exists r, hrd (Hv st) i = Ok r /\ forall j, cols j -> r j = f j.
Proof. intros (_ & L & _) Hn Hk -> H. apply hrd_is; auto. rewrite L. now apply nm_bnd. Qed.
Lemma rdx st m f : lens st -> (0 <= m <= n_max + 1)%Z -> is (gx st m) f ->
  exists r, hrd (Hx st) m = Ok r /\ forall j, cols j -> r j = f j.
Proof. intros (_ & _ & L) Hm H. apply hrd_is; auto. rewrite L. lia. Qed.

Lemma wrw_ok st n mp m i r : lens st -> T n mp m -> i = ix n mp m ->
  exists st', wrw st i r = Ok st' /\ lens st' /\ gw st' n mp m = Some r
    /\ (forall n' mp' m', T n' mp' m' -> (n' <> n \/ mp' <> mp \/ m' <> m)%Z -> gw st' n' mp' m' = gw st n' mp' m')
    /\ Hv st' = Hv st /\ Hx st' = Hx st.
Proof.
  intros (L1 & L2 & L3) HT ->. pose proof (ix_bnd _ _ _ HT) as B. unfold wrw, hwr. rewrite wr_ok by lia. cbn [bind].
  eexists. split; [reflexivity|]. unfold lens, gw. cbn [Hw Hv Hx alen aget].
  split; [auto|]. split; [apply upd_same|]. split; [|auto].
  intros n' mp' m' HT' D. apply upd_other. intros E. destruct (ix_inj _ _ _ _ _ _ HT' HT E) as (? & ? & ?). lia.
Qed.
Lemma wrv_ok st n k i r : lens st -> (0 <= n <= n_max)%Z -> (- n <= k <= n)%Z -> i = nm_index n k ->
  exists st', wrv st i r = Ok st' /\ lens st' /\ gv st' n k = Some r
    /\ (forall n' k', (0 <= n' <= n_max)%Z -> (- n' <= k' <= n')%Z -> (n' <> n \/ k' <> k)%Z -> gv st' n' k' = gv st n' k')
    /\ Hw st' = Hw st /\ Hx st' = Hx st.
Proof.
  intros (L1 & L2 & L3) Hn Hk ->. pose proof (nm_bnd n k Hn Hk) as B. unfold wrv, hwr. rewrite wr_ok by lia. cbn [bind].
  eexists. split; [reflexivity|]. unfold lens, gv. cbn [Hw Hv Hx alen aget].
  split; [auto|]. split; [apply upd_same|]. split; [|auto].
  intros n' k' Hn' Hk' D. apply upd_other. intros E. destruct (nm_inj n' k' n k ltac:(lia) ltac:(lia) Hk' Hk E) as (? & ?). lia.
Qed.
Lemma wrx_ok st m r : lens st -> (0 <= m <= n_max + 1)%Z ->
  exists st', wrx st m r = Ok st' /\ lens st' /\ gx st' m = Some r
    /\ (forall m', (m' <> m)%Z -> gx st' m' = gx st m') /\ Hw st' = Hw st /\ Hv st' = Hv st.
Proof.
  intros (L1 & L2 & L3) Hm. unfold wrx, hwr. rewrite wr_ok by lia. cbn [bind].
  eexists. split; [reflexivity|]. unfold lens, gx. cbn [Hw Hv Hx alen aget].
  split; [auto|]. split; [apply upd_same|]. split; [|auto]. intros m' D. now apply upd_other.
Qed.

(** A row m' = 0, in the wedge or (for n = n_max + 1) in the extra storage. *)
Definition rix (n m : Z) : Z := if (n <=? n_max)%Z then ix n 0 m else m.
Definition gr (st : hst) (n m : Z) := if (n <=? n_max)%Z then gw st n 0 m else gx st m.
Definition frame (n : Z) (st st' : hst) : Prop :=
  Hv st' = Hv st
  /\ (forall n' mp' m', T n' mp' m' -> (n' <> n \/ mp' <> 0)%Z -> gw st' n' mp' m' = gw st n' mp' m')
  /\ ((n <= n_max)%Z -> Hx st' = Hx st).
Lemma frame_refl n st : frame n st st.
Proof. split; [|split]; auto. Qed.
Lemma frame_trans n st st' st'' : frame n st st' -> frame n st' st'' -> frame n st st''.
Proof.
  intros (A & B & D) (A' & B' & D'). split; [congruence|]. split.
  - intros. rewrite B' by auto. auto.
  - intros. rewrite D' by auto. auto.
Qed.
Lemma rdr st n m f i : lens st -> (0 <= n <= n_max + 1)%Z -> (0 <= m <= n)%Z -> i = rix n m -> is (gr st n m) f ->
  exists r, rdh (n <=? n_max)%Z st i = Ok r /\ forall j, cols j -> r j = f j.
Proof.
  intros L Hn Hm -> H. unfold rdh, rix, gr in *. destruct (Z.leb_spec n n_max).
  - apply (rdw st n 0 m); auto. unfold T. lia.
  - apply rdx; auto. lia.
Qed.
Lemma wrr st n m i r : lens st -> (0 <= n <= n_max + 1)%Z -> (0 <= m <= n)%Z -> i = rix n m ->
  exists st', wrh (n <=? n_max)%Z st i r = Ok st' /\ lens st' /\ gr st' n m = Some r
    /\ (forall m', (0 <= m' <= n)%Z -> (m' <> m)%Z -> gr st' n m' = gr st n m') /\ frame n st st'.
Proof.
  intros L Hn Hm ->. unfold wrh, rix, gr. destruct (Z.leb_spec n n_max) as [Hl|Hl].
  - destruct (wrw_ok st n 0 m (ix n 0 m) r L) as (st' & E & L' & G & O & V & X); [unfold T; lia|auto|].
    exists st'. split; [auto|]. split; [auto|]. split; [auto|]. split.
    + intros m' Hm' D. apply O; [unfold T; lia|lia].
    + split; [auto|]. split; [|auto]. intros n' mp' m' HT D. apply O; auto. lia.
  - destruct (wrx_ok st m r L) as (st' & E & L' & G & O & V & X); [lia|].
    exists st'. split; [auto|]. split; [auto|]. split; [auto|]. split.
    + intros m' Hm' D. apply O; lia.
    + split; [auto|]. split; [|lia]. intros n' mp' m' HT D. unfold gw. now rewrite V.
Qed.

Lemma rix_sub n i : rix n (n - i) = ((if (n <=? n_max)%Z then ix n 0 n else n) - i)%Z.
Proof. unfold rix. destruct (n <=? n_max)%Z; [|auto]. rewrite <- Z.add_opp_r, ix_lin. lia. Qed.
Lemma rix_at n i m : (m = n - i)%Z -> ((if (n <=? n_max)%Z then ix n 0 n else n) - i)%Z = rix n m.
Proof. intros ->. now rewrite rix_sub. Qed.
Lemma nm_sub n i m : (m = n - i)%Z -> (nm_index n n - i)%Z = nm_index n m.
Proof. intros ->. unfold nm_index. lia. Qed.

Lemma T_row n m : (0 <= n <= n_max)%Z -> (0 <= m <= n)%Z -> T n 0 m.
Proof. unfold T. lia. Qed.

Ltac step H := rewrite H; cbn [bind].

Lemma HH_row n m j : cols j -> (0 <= m <= n)%Z -> HH n 0 m j = sinb j ^ Z.to_nat m / sqrt (IZR (4 * n + 2)) * PP n m j.
Proof. intros Hj Hm. unfold HH, PP. rewrite Hd_row, dd_Praw, sin_ab by auto. reflexivity. Qed.
Lemma PP_out n m j : (0 <= n < m)%Z -> PP n m j = 0.
Proof. intros. unfold PP, Praw. rewrite Y_out by auto. ring. Qed.
Lemma sqrt_norm_neq0 n : (0 <= n)%Z -> sqrt (IZR (4 * n + 2)) <> 0.
Proof. intros. assert (0 < sqrt (IZR (4 * n + 2))); [apply sqrt_lt_R0, IZR_lt; lia|lra]. Qed.

Lemma step_2_row_ok n st : (2 <= n <= n_max + 1)%Z -> lens st -> is (gw st (n - 1) 0 (n - 1)) (PP (n - 1) (n - 1)) ->
  exists st', step_2_row ix cg ch n_max cosb sinb n st = Ok st' /\ lens st'
    /\ is (gr st' n n) (PP n n) /\ (forall m, (0 <= m < n)%Z -> is (gr st' n m) (HH n 0 m))
    /\ (forall n' mp' m', T n' mp' m' -> (n' <> n \/ mp' <> 0)%Z -> gw st' n' mp' m' = gw st n' mp' m')
    /\ ((n <= n_max)%Z -> Hx st' = Hx st)
    /\ ((n <= n_max)%Z -> is (gv st' n 1) (VV n 1) /\ is (gv st' n 0) (VV n 0))
    /\ (forall n' k', (0 <= n' <= n_max)%Z -> (- n' <= k' <= n')%Z -> (n' <> n \/ (k' <> 0 /\ k' <> 1))%Z -> gv st' n' k' = gv st n' k').
Proof.
  intros Hn L I. unfold step_2_row. cbv zeta.
  assert (Hrow : forall m, (0 <= m < n)%Z -> forall j, cols j ->
    PP n m j = gco n m * cosb j * PP n (m + 1) j - hco n m * sinb j ^ 2 * PP n (m + 2) j).
  { intros m Hm j Hj. unfold PP. rewrite cos_ab, sin_ab by auto. now apply Praw_rec. }
  (* m = n and m = n - 1 *)
  rewrite (nm_sub n 1 (n - 1)) by lia. step (cg_ok n (n - 1) ltac:(lia) ltac:(lia)).
  destruct (rdw st (n - 1) 0 (n - 1) _ _ L ltac:(unfold T; lia) eq_refl I) as (x & Ex & Vx). step Ex.
  destruct (wrr st n n (if (n <=? n_max)%Z then ix n 0 n else n) (fun j => sqrt (1 + 1 / 2 / IZR n) * x j) L ltac:(lia) ltac:(lia))
    as (st1 & E1 & L1 & G1 & O1 & F1).
  { rewrite <- (rix_at n 0 n) by lia. lia. }
  step E1.
  assert (I1 : is (gr st1 n n) (PP n n)).
  { eexists. split; [exact G1|]. intros j Hj. cbv beta. rewrite Vx by auto. symmetry. apply Praw_top. lia. }
  destruct (rdr st1 n n _ (if (n <=? n_max)%Z then ix n 0 n else n) L1 ltac:(lia) ltac:(lia) ltac:(rewrite <- (rix_at n 0 n) by lia; lia) I1)
    as (y & Ey & Vy). step Ey.
  destruct (wrr st1 n (n - 1) _ (fun j => gco n (n - 1) * cosb j * y j) L1 ltac:(lia) ltac:(lia) (rix_at n 1 (n - 1) ltac:(lia)))
    as (st2 & E2 & L2 & G2 & O2 & F2). step E2.
  assert (I2 : forall m, (n - 2 < m <= n)%Z -> is (gr st2 n m) (PP n m)).
  { intros m Hm. assert (m = n \/ m = (n - 1)%Z) as [->| ->] by lia.
    - rewrite O2 by lia. auto.
    - eexists. split; [exact G2|]. intros j Hj. cbv beta. rewrite Vy by auto. rewrite (Hrow (n - 1)%Z) by lia || auto.
      replace (n - 1 + 1)%Z with n by lia. rewrite (PP_out n (n - 1 + 2)) by lia. ring. }
  (* m = n - 2 .. 1 *)
  pose (P := fun i s => lens s /\ (forall m, (n - i < m <= n)%Z -> is (gr s n m) (PP n m)) /\ frame n st2 s).
  match goal with |- exists st', bind (for_range 2 n ?body st2) _ = Ok st' /\ _ =>
    destruct (for_range_inv P 2 n body st2) as (st3 & E3 & L3 & I3 & F3); [lia| | |step E3] end.
  { unfold P. split; [auto|]. split; [auto|]. apply frame_refl. }
  { intros i s Hi (Ls & Is & Fs). cbv beta.
    rewrite (nm_sub n i (n - i)) by lia. step (cg_ok n (n - i) ltac:(lia) ltac:(lia)). step (ch_ok n (n - i) ltac:(lia) ltac:(lia)).
    replace ((if (n <=? n_max)%Z then ix n 0 n else n) - i + 1)%Z with (rix n (n - i + 1))
      by (rewrite <- (rix_at n (i - 1)) by lia; lia).
    destruct (rdr s n (n - i + 1) _ _ Ls ltac:(lia) ltac:(lia) eq_refl (Is (n - i + 1)%Z ltac:(lia))) as (u & Eu & Vu). step Eu.
    replace ((if (n <=? n_max)%Z then ix n 0 n else n) - i + 2)%Z with (rix n (n - i + 2))
      by (rewrite <- (rix_at n (i - 2)) by lia; lia).
    destruct (rdr s n (n - i + 2) _ _ Ls ltac:(lia) ltac:(lia) eq_refl (Is (n - i + 2)%Z ltac:(lia))) as (v & Ev & Vv). step Ev.
    match goal with |- exists s', wrh _ s _ ?r = _ /\ _ =>
      destruct (wrr s n (n - i) _ r Ls ltac:(lia) ltac:(lia) (rix_at n i (n - i) ltac:(lia))) as (s' & E' & L' & G' & O' & F') end.
    exists s'. split; [exact E'|]. unfold P. split; [auto|]. split; [|eapply frame_trans; eauto].
    intros m Hm. destruct (Z.eq_dec m (n - i)) as [->|D].
    - eexists. split; [exact G'|]. intros j Hj. cbv beta. rewrite Vu, Vv by auto. symmetry. apply Hrow; lia || auto.
    - rewrite O' by lia. apply Is. lia. }
  (* m = 0 *)
  rewrite (nm_sub n n 0) by lia. step (cg_ok n 0 ltac:(lia) ltac:(lia)). step (ch_ok n 0 ltac:(lia) ltac:(lia)).
  assert (Ri : forall i, ((if (n <=? n_max)%Z then ix n 0 n else n) - n + i)%Z = rix n i).
  { intros i. rewrite <- (rix_at n (n - i) i) by lia. lia. }
  rewrite (Ri 1%Z), (Ri 2%Z).
  destruct (rdr st3 n 1 _ _ L3 ltac:(lia) ltac:(lia) eq_refl (I3 1%Z ltac:(lia))) as (u & Eu & Vu). step Eu.
  destruct (rdr st3 n 2 _ _ L3 ltac:(lia) ltac:(lia) eq_refl (I3 2%Z ltac:(lia))) as (v & Ev & Vv). step Ev.
  match goal with |- exists s', bind (wrh _ st3 _ ?r) _ = _ /\ _ =>
    destruct (wrr st3 n 0 _ r L3 ltac:(lia) ltac:(lia) (rix_at n n 0 ltac:(lia))) as (st4 & E4 & L4 & G4 & O4 & F4) end.
  step E4.
  assert (I4 : is (gr st4 n 0) (HH n 0 0)).
  { eexists. split; [exact G4|]. intros j Hj. cbv beta. rewrite Vu, Vv, HH_row by lia || auto. rewrite (Hrow 0%Z) by lia || auto.
    simpl Z.add. simpl pow. field. apply sqrt_norm_neq0. lia. }
  assert (I4' : forall m, (1 <= m <= n)%Z -> is (gr st4 n m) (PP n m)).
  { intros m Hm. rewrite O4 by lia. apply I3. lia. }
  (* normalisation *)
  pose (Q := fun i (s : row * hst) => lens (snd s)
     /\ (forall j, cols j -> fst s j = sinb j ^ Z.to_nat (i - 1) / sqrt (IZR (4 * n + 2)))
     /\ (forall m, (0 <= m < i)%Z -> is (gr (snd s) n m) (HH n 0 m))
     /\ (forall m, (i <= m <= n)%Z -> is (gr (snd s) n m) (PP n m)) /\ frame n st4 (snd s)).
  match goal with |- exists st', bind (for_range 1 n ?body ?s0) _ = Ok st' /\ _ =>
    destruct (for_range_inv Q 1 n body s0) as ([pf st5] & E5 & L5 & _ & I5 & J5 & F5); [lia| | |step E5] end.
  { unfold Q. cbn [fst snd]. split; [auto|]. split; [intros; simpl; field; apply sqrt_norm_neq0; lia|].
    split; [intros m Hm; assert (m = 0%Z) as -> by lia; auto|]. split; [auto|]. apply frame_refl. }
  { intros i (p, s) Hi (Ls & Vp & Is & Js & Fs). cbn [fst snd] in *. cbv zeta. rewrite (Ri i).
    destruct (rdr s n i _ _ Ls ltac:(lia) ltac:(lia) eq_refl (Js i ltac:(lia))) as (t & Et & Vt). step Et.
    match goal with |- exists s', bind (wrh _ s _ ?r) _ = _ /\ _ =>
      destruct (wrr s n i _ r Ls ltac:(lia) ltac:(lia) eq_refl) as (s' & E' & L' & G' & O' & F') end.
    step E'. eexists. split; [reflexivity|]. unfold Q. cbn [fst snd].
    assert (Vp' : forall j, cols j -> p j * sinb j = sinb j ^ Z.to_nat i / sqrt (IZR (4 * n + 2))).
    { intros j Hj. rewrite Vp by auto. replace (Z.to_nat i) with (S (Z.to_nat (i - 1))) by lia. simpl pow. field. apply sqrt_norm_neq0. lia. }
    split; [auto|]. split; [replace (i + 1 - 1)%Z with i by lia; auto|].
    split; [|split; [|eapply frame_trans; eauto]].
    - intros m Hm. destruct (Z.eq_dec m i) as [->|D].
      + eexists. split; [exact G'|]. intros j Hj. cbv beta. rewrite Vp', Vt, HH_row by lia || auto. ring.
      + rewrite O' by lia. apply Is. lia.
    - intros m Hm. rewrite O' by lia. apply Js. lia. }
  cbn [snd] in *.
  assert (F : frame n st st5) by (eapply frame_trans; [exact F1|]; eapply frame_trans; [exact F2|]; eapply frame_trans; [exact F3|];
    eapply frame_trans; [exact F4|exact F5]).
  destruct F as (FV & FW & FX).
  destruct (Z.leb_spec n n_max) as [Hl|Hl].
  2:{ exists st5. split; [auto|]. split; [auto|]. split; [apply J5; lia|]. split; [auto|]. split; [auto|]. split; [auto|].
      split; [lia|]. intros. unfold gv. now rewrite FV. }
  assert (V1 : forall j, cols j -> HH n 0 1 j = VV n 1 j /\ HH n 0 1 j = VV n 0 j).
  { intros j Hj. unfold VV. simpl Z.leb. cbv iota. simpl Z.sub. unfold HH. split; symmetry.
    - apply Hd_transpose; lia.
    - apply Hd_zero_neg; lia. }
  assert (R : forall s, lens s -> Hw s = Hw st5 -> exists r, hrd (Hw s) (ix n 0 1) = Ok r /\ forall j, cols j -> r j = HH n 0 1 j).
  { intros s Ls Es. apply (rdw s n 0 1); auto; [unfold T; lia|].
    specialize (I5 1%Z ltac:(lia)). unfold gr in I5. destruct (Z.leb_spec n n_max); [|lia]. unfold gw in *. now rewrite Es. }
  destruct (R st5 L5 eq_refl) as (r & Er & Vr). step Er.
  destruct (wrv_ok st5 n 1 _ r L5 ltac:(lia) ltac:(lia) eq_refl) as (st6 & E6 & L6 & G6 & O6 & W6 & X6). step E6.
  destruct (R st6 L6 W6) as (r' & Er' & Vr'). step Er'.
  destruct (wrv_ok st6 n 0 _ r' L6 ltac:(lia) ltac:(lia) eq_refl) as (st7 & E7 & L7 & G7 & O7 & W7 & X7). rewrite E7.
  exists st7. split; [auto|]. split; [auto|].
  assert (GR : forall m, gr st7 n m = gr st5 n m).
  { intros m. unfold gr, gw, gx. rewrite W7, W6, X7, X6. auto. }
  split; [rewrite GR; apply J5; lia|]. split; [intros; rewrite GR; auto|].
  split; [intros; unfold gw; rewrite W7, W6; apply FW; auto|]. split; [intros; rewrite X7, X6; auto|].
  split; [intros _; split|].
  - rewrite O7 by lia. exists r. split; [auto|]. intros j Hj. rewrite Vr by auto. apply (V1 j Hj).
  - exists r'. split; [auto|]. intros j Hj. rewrite Vr' by auto. apply (V1 j Hj).
  - intros n' k' Hn' Hk' D. rewrite O7, O6 by lia. unfold gv. now rewrite FV.
Qed.

Definition fillw (st : hst) (Q : Z -> Z -> Z -> Prop) : Prop :=
  forall n mp m, T n mp m -> Q n mp m -> is (gw st n mp m) (HH n mp m).
Definition fillv (st : hst) (Q : Z -> Z -> Prop) : Prop :=
  forall n k, (1 <= n <= n_max)%Z -> (- n <= k <= n)%Z -> Q n k -> is (gv st n k) (VV n k).
Definition fillx (st : hst) : Prop := forall m, (0 <= m <= n_max + 1)%Z -> is (gx st m) (HH (n_max + 1) 0 m).

Lemma step_1_ok st : lens st -> exists st', step_1 st = Ok st' /\ lens st' /\ fillw st' (fun n _ _ => n = 0%Z).
Proof.
  intros L. unfold step_1. destruct (wrw_ok st 0 0 0 0 (fun _ => 1) L) as (st' & E & L' & G & _); [unfold T; lia|auto|].
  exists st'. split; [auto|]. split; [auto|]. intros n mp m HT ->. assert (mp = 0%Z /\ m = 0%Z) as [-> ->] by (unfold T in HT; lia).
  eexists. split; [exact G|]. intros j _. unfold HH. now rewrite Hd_000.
Qed.

Lemma step_2_ok st : lens st -> fillw st (fun n _ _ => n = 0%Z) ->
  exists st', step_2 ix cg ch n_max cosb sinb st = Ok st' /\ lens st'
    /\ fillw st' (fun n mp _ => n = 0%Z \/ mp = 0%Z) /\ fillv st' (fun _ k => k = 0%Z \/ k = 1%Z) /\ fillx st'.
Proof.
  intros L I. unfold step_2. cbv zeta.
  destruct (wrw_ok st 1 0 1 _ (fun _ => sqrt 3) L ltac:(unfold T; lia) eq_refl) as (st1 & E1 & L1 & G1 & O1 & _). step E1.
  rewrite (nm_sub 1 1 0) by lia. step (cg_ok 1 0 ltac:(lia) ltac:(lia)).
  assert (D0 : (ix 1 0 1 - 1)%Z = ix 1 0 0) by (change 1%Z with (0 + 1)%Z at 2; rewrite ix_lin; lia). rewrite D0.
  destruct (wrw_ok st1 1 0 0 _ (fun j => gco 1 0 * cosb j / sqrt 2) L1 ltac:(unfold T; lia) eq_refl) as (st2 & E2 & L2 & G2 & O2 & _).
  step E2.
  pose (P := fun n s => lens s /\ fillw s (fun n _ _ => n = 0%Z)
    /\ (forall k m, (1 <= k < n)%Z -> (k <= n_max)%Z -> (0 <= m < k)%Z -> is (gw s k 0 m) (HH k 0 m))
    /\ (forall k, (1 <= k < n)%Z -> (k <= n_max)%Z -> is (gw s k 0 k) (PP k k))
    /\ (forall k, (2 <= k < n)%Z -> (k <= n_max)%Z -> is (gv s k 1) (VV k 1) /\ is (gv s k 0) (VV k 0))
    /\ (n = (n_max + 2)%Z -> is (gx s (n_max + 1)) (PP (n_max + 1) (n_max + 1))
          /\ forall m, (0 <= m < n_max + 1)%Z -> is (gx s m) (HH (n_max + 1) 0 m))).
  destruct (for_range_inv P 2 (n_max + 2) (step_2_row ix cg ch n_max cosb sinb) st2)
    as (st3 & E3 & L3 & Z3 & W3 & R3 & V3 & X3); [lia| | |step E3].
  { unfold P. split; [auto|]. split.
    { intros n mp m HT ->. rewrite O2 by (auto; lia). rewrite O1 by (auto; lia). now apply I. }
    split; [|split; [|split; [lia|lia]]].
    - intros k m Hk _ Hm. assert (k = 1%Z) as -> by lia. assert (m = 0%Z) as -> by lia.
      eexists. split; [exact G2|]. intros j Hj. cbv beta. rewrite HH_row by lia || auto.
      assert (E : PP 1 0 j = gco 1 0 * cosb j * sqrt 3).
      { unfold PP. rewrite Praw_rec by lia. simpl Z.add. rewrite Praw_11. fold (PP 1 2 j). rewrite PP_out by lia.
        rewrite <- cos_ab by auto. ring. }
      rewrite E. simpl pow.
      replace (IZR (4 * 1 + 2)) with (3 * 2) by (simpl; lra). rewrite sqrt_mult by lra.
      assert (0 < sqrt 3) by (apply sqrt_lt_R0; lra). assert (0 < sqrt 2) by (apply sqrt_lt_R0; lra). field. lra.
    - intros k Hk _. assert (k = 1%Z) as -> by lia. rewrite O2 by (unfold T; lia).
      eexists. split; [exact G1|]. intros j Hj. unfold PP. now rewrite Praw_11. }
  { intros n s Hn (Ls & Zs & Ws & Rs & Vs & Xs).
    destruct (step_2_row_ok n s ltac:(lia) Ls (Rs (n - 1)%Z ltac:(lia) ltac:(lia))) as (s' & E' & L' & R' & W' & O' & X' & V' & OV').
    exists s'. split; [auto|]. unfold P. split; [auto|]. split.
    { intros k mp m HT ->. rewrite O' by (auto; lia). now apply Zs. }
    split; [|split; [|split]].
    - intros k m Hk Hk' Hm. destruct (Z.eq_dec k n) as [->|D].
      + specialize (W' m Hm). unfold gr in W'. destruct (Z.leb_spec n n_max); [auto|lia].
      + rewrite O' by (unfold T; lia). apply Ws; lia.
    - intros k Hk Hk'. destruct (Z.eq_dec k n) as [->|D].
      + unfold gr in R'. destruct (Z.leb_spec n n_max); [auto|lia].
      + rewrite O' by (unfold T; lia). apply Rs; lia.
    - intros k Hk Hk'. destruct (Z.eq_dec k n) as [->|D]; [auto|]. rewrite !OV' by lia. apply Vs; lia.
    - intros En. assert (n = (n_max + 1)%Z) as -> by lia. unfold gr in R', W'. destruct (Z.leb_spec (n_max + 1) n_max); [lia|]. auto. }
  (* the m = n elements *)
  destruct (X3 eq_refl) as (X3a & X3b). clear X3.
  pose (Q := fun n (s : row * hst) => lens (snd s)
    /\ (forall j, cols j -> fst s j = sinb j ^ Z.to_nat (n - 1))
    /\ fillw (snd s) (fun k mp m => k = 0%Z \/ (mp = 0%Z /\ (m < k \/ k < n)%Z))
    /\ (forall k, (n <= k <= n_max)%Z -> is (gw (snd s) k 0 k) (PP k k))
    /\ Hv (snd s) = Hv st3 /\ Hx (snd s) = Hx st3).
  match goal with |- exists st', bind (for_range 1 (n_max + 1) ?body ?s0) _ = Ok st' /\ _ =>
    destruct (for_range_inv Q 1 (n_max + 1) body s0) as ([pf st4] & E4 & L4 & P4 & W4 & _ & V4 & X4); [lia| | |step E4] end.
  { unfold Q. cbn [fst snd]. split; [auto|]. split; [intros; reflexivity|]. split; [|split; [|auto]].
    - intros k mp m HT [->|(-> & D)]; [now apply Z3|]. destruct D as [D|D]; [|unfold T in HT; lia || (assert (k = 0%Z) as -> by lia; now apply Z3)].
      apply W3; unfold T in HT; lia.
    - intros k Hk. apply R3; lia. }
  { intros n (p, s) Hn (Ls & Ps & Ws & Rs & Vs & Xs). cbn [fst snd] in *. cbv zeta.
    destruct (rdw s n 0 n _ _ Ls ltac:(unfold T; lia) eq_refl (Rs n ltac:(lia))) as (t & Et & Vt). step Et.
    match goal with |- exists s', bind (wrw s _ ?r) _ = _ /\ _ =>
      destruct (wrw_ok s n 0 n _ r Ls ltac:(unfold T; lia) eq_refl) as (s' & E' & L' & G' & O' & OV & OX) end.
    step E'. eexists. split; [reflexivity|]. unfold Q. cbn [fst snd].
    assert (Ps' : forall j, cols j -> p j * sinb j = sinb j ^ Z.to_nat n).
    { intros j Hj. rewrite Ps by auto. replace (Z.to_nat n) with (S (Z.to_nat (n - 1))) by lia. simpl pow. ring. }
    split; [auto|]. split; [replace (n + 1 - 1)%Z with n by lia; auto|]. split; [|split; [|split; congruence]].
    - intros k mp m HT D. destruct (Z.eq_dec k n) as [->|Dk]; [destruct (Z.eq_dec mp 0) as [->|Dp]; [destruct (Z.eq_dec m n) as [->|Dm]|]|].
      + eexists. split; [exact G'|]. intros j Hj. cbv beta. rewrite Ps', Vt, HH_row by lia || auto. field. apply sqrt_norm_neq0. lia.
      + rewrite O' by (auto; lia). apply Ws; auto. unfold T in HT. lia.
      + lia.
      + rewrite O' by (auto; lia). apply Ws; auto. lia.
    - intros k Hk. rewrite O' by (unfold T; lia). apply Rs. lia. }
  cbn [fst snd] in *.
  destruct (rdx st4 (n_max + 1) (PP (n_max + 1) (n_max + 1)) L4 ltac:(lia)) as (t & Et & Vt).
  { unfold gx. rewrite X4. exact X3a. }
  step Et.
  match goal with |- exists s', bind (wrx st4 _ ?r) _ = _ /\ _ =>
    destruct (wrx_ok st4 (n_max + 1) r L4 ltac:(lia)) as (st5 & E5 & L5 & G5 & O5 & W5 & V5) end.
  step E5.
  assert (F5 : fillw st5 (fun n mp _ => n = 0%Z \/ mp = 0%Z)).
  { intros n mp m HT D. unfold gw. rewrite W5. apply W4; auto. unfold T in HT. lia. }
  assert (R : forall s, lens s -> Hw s = Hw st5 -> exists r, hrd (Hw s) (ix 1 0 1) = Ok r /\ forall j, cols j -> r j = HH 1 0 1 j).
  { intros s Ls Es. apply (rdw s 1 0 1); auto; [unfold T; lia|]. unfold gw. rewrite Es. apply F5; [unfold T; lia|auto]. }
  assert (V1 : forall j, cols j -> HH 1 0 1 j = VV 1 1 j /\ HH 1 0 1 j = VV 1 0 j).
  { intros j Hj. unfold VV. simpl Z.leb. cbv iota. simpl Z.sub. unfold HH. split; symmetry.
    - apply Hd_transpose; lia.
    - apply Hd_zero_neg; lia. }
  destruct (R st5 L5 eq_refl) as (r & Er & Vr). step Er.
  destruct (wrv_ok st5 1 1 _ r L5 ltac:(lia) ltac:(lia) eq_refl) as (st6 & E6 & L6 & G6 & O6 & W6 & X6). step E6.
  destruct (R st6 L6 W6) as (r' & Er' & Vr'). step Er'.
  destruct (wrv_ok st6 1 0 _ r' L6 ltac:(lia) ltac:(lia) eq_refl) as (st7 & E7 & L7 & G7 & O7 & W7 & X7). rewrite E7.
  exists st7. split; [auto|]. split; [auto|]. split; [|split].
  - intros n mp m HT D. unfold gw. rewrite W7, W6. apply F5; auto.
  - intros n k Hn Hk D. destruct (Z.eq_dec n 1) as [->|Dn].
    + destruct D as [->| ->].
      * exists r'. split; [auto|]. intros j Hj. rewrite Vr' by auto. apply (V1 j Hj).
      * rewrite O7 by lia. exists r. split; [auto|]. intros j Hj. rewrite Vr by auto. apply (V1 j Hj).
    + rewrite O7, O6 by lia. unfold gv. rewrite V5, V4. destruct (V3 n ltac:(lia) ltac:(lia)). destruct D as [->| ->]; auto.
  - intros m Hm. unfold gx. rewrite X7, X6. destruct (Z.eq_dec m (n_max + 1)) as [->|D].
    + eexists. split; [exact G5|]. intros j Hj. cbv beta. rewrite P4, Vt, HH_row by lia || auto.
      replace (n_max + 1 - 1)%Z with n_max by lia. replace (Z.to_nat (n_max + 1)) with (S (Z.to_nat n_max)) by lia. simpl pow.
      field. apply sqrt_norm_neq0. lia.
    + fold (gx st5 m). rewrite O5 by lia. unfold gx. rewrite X4. apply X3b. lia.
Qed.

Lemma wrw_fill st n mp m i r (Q Q' : Z -> Z -> Z -> Prop) : lens st -> fillw st Q -> T n mp m -> i = ix n mp m ->
  (forall j, cols j -> r j = HH n mp m j) ->
  (forall n' mp' m', T n' mp' m' -> Q' n' mp' m' -> Q n' mp' m' \/ (n' = n /\ mp' = mp /\ m' = m)) ->
  exists st', wrw st i r = Ok st' /\ lens st' /\ fillw st' Q' /\ Hv st' = Hv st /\ Hx st' = Hx st.
Proof.
  intros L F HT Ei V HQ. destruct (wrw_ok st n mp m i r L HT Ei) as (st' & E & L' & G & O & OV & OX).
  exists st'. split; [auto|]. split; [auto|]. split; [|auto]. intros n' mp' m' HT' HQ'.
  destruct (Z.eq_dec n' n) as [->|D]; [destruct (Z.eq_dec mp' mp) as [->|D]; [destruct (Z.eq_dec m' m) as [->|D]|]|].
  - exists r. auto.
  - rewrite O by (auto; lia). apply F; auto. destruct (HQ _ _ _ HT' HQ'); auto. lia.
  - rewrite O by (auto; lia). apply F; auto. destruct (HQ _ _ _ HT' HQ'); auto. lia.
  - rewrite O by (auto; lia). apply F; auto. destruct (HQ _ _ _ HT' HQ'); auto. lia.
Qed.
Lemma wrv_fill st n k i r (Q Q' : Z -> Z -> Prop) : lens st -> fillv st Q -> (1 <= n <= n_max)%Z -> (- n <= k <= n)%Z -> i = nm_index n k ->
  (forall j, cols j -> r j = VV n k j) ->
  (forall n' k', (1 <= n' <= n_max)%Z -> (- n' <= k' <= n')%Z -> Q' n' k' -> Q n' k' \/ (n' = n /\ k' = k)) ->
  exists st', wrv st i r = Ok st' /\ lens st' /\ fillv st' Q' /\ Hw st' = Hw st /\ Hx st' = Hx st.
Proof.
  intros L F Hn Hk Ei V HQ. destruct (wrv_ok st n k i r L ltac:(lia) Hk Ei) as (st' & E & L' & G & O & OV & OX).
  exists st'. split; [auto|]. split; [auto|]. split; [|auto]. intros n' k' Hn' Hk' HQ'.
  destruct (Z.eq_dec n' n) as [->|D]; [destruct (Z.eq_dec k' k) as [->|D]|].
  - exists r. auto.
  - rewrite O by (auto; lia). apply F; auto. destruct (HQ _ _ Hn' Hk' HQ'); auto. lia.
  - rewrite O by (auto; lia). apply F; auto. destruct (HQ _ _ Hn' Hk' HQ'); auto. lia.
Qed.
Lemma rdw_fill st Q n mp m i : lens st -> fillw st Q -> T n mp m -> Q n mp m -> i = ix n mp m ->
  exists r, hrd (Hw st) i = Ok r /\ forall j, cols j -> r j = HH n mp m j.
Proof. intros L F HT HQ Ei. apply (rdw st n mp m); auto. Qed.
Lemma rdv_fill st Q n k i : lens st -> fillv st Q -> (1 <= n <= n_max)%Z -> (- n <= k <= n)%Z -> Q n k -> i = nm_index n k ->
  exists r, hrd (Hv st) i = Ok r /\ forall j, cols j -> r j = VV n k j.
Proof. intros L F Hn Hk HQ Ei. apply (rdv st n k); auto. lia. Qed.
Lemma fillw_Hw st st' Q : Hw st' = Hw st -> fillw st Q -> fillw st' Q.
Proof. intros E F n mp m HT HQ. unfold gw. rewrite E. now apply F. Qed.
Lemma fillv_Hv st st' Q : Hv st' = Hv st -> fillv st Q -> fillv st' Q.
Proof. intros E F n k Hn Hk HQ. unfold gv. rewrite E. now apply F. Qed.
Lemma fillx_Hx st st' : Hx st' = Hx st -> fillx st -> fillx st'.
Proof. intros E F m Hm. unfold gx. rewrite E. now apply F. Qed.
Lemma fillw_sub st (Q Q' : Z -> Z -> Z -> Prop) : fillw st Q -> (forall n mp m, T n mp m -> Q' n mp m -> Q n mp m) -> fillw st Q'.
Proof. intros F H n mp m HT HQ. apply F; auto. Qed.
Lemma fillv_sub st (Q Q' : Z -> Z -> Prop) : fillv st Q ->
  (forall n k, (1 <= n <= n_max)%Z -> (- n <= k <= n)%Z -> Q' n k -> Q n k) -> fillv st Q'.
Proof. intros F H n k Hn Hk HQ. apply F; auto. Qed.

Lemma HH_up n mp m j : cols j -> (- n <= mp < n)%Z -> (- n <= m <= n)%Z ->
  HH n (mp + 1) m j = (1 / dco n mp) * (dco n (mp - 1) * HH n (mp - 1) m j - dco n (m - 1) * HH n mp (m - 1) j + dco n m * HH n mp (m + 1) j).
Proof.
  intros Hj Hp Hm. unfold HH. pose proof (Hd_50 (al j) (be j) n mp m ltac:(lia) Hm) as E.
  assert (D := dco_neq0 n mp ltac:(lia)).
  apply (Rmult_eq_reg_l (dco n mp)); auto.
  match goal with |- _ = dco n mp * (1 / dco n mp * ?x) => transitivity x; [lra|field; auto] end.
Qed.
Lemma HH_down n mp m j : cols j -> (- n < mp <= n)%Z -> (- n <= m <= n)%Z ->
  HH n (mp - 1) m j = (1 / dco n (mp - 1)) * (dco n mp * HH n (mp + 1) m j + dco n (m - 1) * HH n mp (m - 1) j - dco n m * HH n mp (m + 1) j).
Proof.
  intros Hj Hp Hm. unfold HH. pose proof (Hd_50 (al j) (be j) n mp m ltac:(lia) Hm) as E.
  assert (D := dco_neq0 n (mp - 1) ltac:(lia)).
  apply (Rmult_eq_reg_l (dco n (mp - 1))); auto.
  match goal with |- _ = dco n (mp - 1) * (1 / dco n (mp - 1) * ?x) => transitivity x; [lra|field; auto] end.
Qed.
Lemma ix_at n mp m i m' : m' = (m + i)%Z -> (i + ix n mp m)%Z = ix n mp m'.
Proof. intros ->. rewrite ix_lin. lia. Qed.
Lemma nm_at n m i m' : m' = (m + i)%Z -> (i + nm_index n m)%Z = nm_index n m'.
Proof. intros ->. unfold nm_index. lia. Qed.

Lemma step_3_ok st : lens st -> fillw st (fun n mp _ => n = 0%Z \/ mp = 0%Z) -> fillx st ->
  exists st', step_3 ix ca cb n_max cosb sinb st = Ok st' /\ lens st'
    /\ fillw st' (fun n mp _ => n = 0 \/ mp = 0 \/ mp = 1)%Z /\ Hv st' = Hv st.
Proof.
  intros L F X. unfold step_3.
  pose (P := fun n s => lens s /\ fillw s (fun k mp _ => k = 0 \/ mp = 0 \/ (mp = 1 /\ k < n))%Z /\ Hv s = Hv st /\ Hx s = Hx st).
  match goal with |- exists st', for_range 1 _ ?body st = Ok st' /\ _ =>
    destruct (for_range_inv P 1 (n_max + 1) body st) as (st1 & E1 & L1 & F1 & V1 & _) end; [lia| | |].
  { unfold P. split; [auto|]. split; [|auto]. eapply fillw_sub; [exact F|]. unfold T. cbv beta. lia. }
  2:{ exists st1. split; [exact E1|]. split; [auto|]. split; [|auto]. eapply fillw_sub; [exact F1|]. unfold T. cbv beta. lia. }
  intros n s Hn (Ls & Fs & Vs & Xs). cbv beta zeta. step (cb_ok (n + 1) 0 ltac:(lia) ltac:(lia)).
  pose (P2 := fun i s => lens s /\ fillw s (fun k mp m => k = 0 \/ mp = 0 \/ (mp = 1 /\ (k < n \/ (k = n /\ m < i + 1))))%Z
     /\ Hv s = Hv st /\ Hx s = Hx st).
  match goal with |- exists st', for_range 0 _ ?body s = Ok st' /\ _ =>
    destruct (for_range_inv P2 0 n body s) as (s1 & E2 & L2 & F2 & V2 & X2) end; [lia| | |].
  { unfold P2. split; [auto|]. split; [|auto]. eapply fillw_sub; [exact Fs|]. unfold T. cbv beta. lia. }
  2:{ exists s1. split; [exact E2|]. unfold P. split; [auto|]. split; [|auto]. eapply fillw_sub; [exact F2|]. unfold T. cbv beta. lia. }
  clear dependent s. intros i s Hi (Ls & Fs & Vs & Xs).
  replace (- i + nm_index (n + 1) 0 - 2)%Z with (nm_index (n + 1) (- (i + 1) - 1)) by (unfold nm_index; lia).
  step (cb_ok (n + 1) (- (i + 1) - 1) ltac:(lia) ltac:(lia)).
  rewrite (nm_at (n + 1) 0 i (i + 1 - 1)) by lia. step (cb_ok (n + 1) (i + 1 - 1) ltac:(lia) ltac:(lia)).
  replace (i + nabsm_index n 1)%Z with (nabsm_index n (i + 1)) by (unfold nabsm_index; lia).
  step (ca_ok n (i + 1) ltac:(lia) ltac:(lia)).
  assert (R : forall k k', (k' = i + k)%Z -> (0 <= k <= 2)%Z ->
     exists r, rdh (n + 1 <=? n_max)%Z s (i + (if (n + 1 <=? n_max)%Z then ix (n + 1) 0 0 else 0) + k) = Ok r
       /\ forall j, cols j -> r j = HH (n + 1) 0 k' j).
  { intros k k' -> Hk. apply (rdr s (n + 1) (i + k)); auto; [lia|lia| |].
    - unfold rix. destruct (n + 1 <=? n_max)%Z; [|lia]. rewrite <- (ix_at (n + 1) 0 0 (i + k) (i + k)) by lia. lia.
    - unfold gr. destruct (Z.leb_spec (n + 1) n_max).
      + apply Fs; [unfold T; lia|lia].
      + unfold gx. rewrite Xs. assert (n = n_max) as -> by lia. apply X. lia. }
  destruct (R 2%Z (i + 1 + 1)%Z ltac:(lia) ltac:(lia)) as (x2 & R2 & V2). step R2.
  destruct (R 0%Z (i + 1 - 1)%Z ltac:(lia) ltac:(lia)) as (x0 & R0 & V0). rewrite Z.add_0_r in R0. step R0.
  destruct (R 1%Z (i + 1)%Z ltac:(lia) ltac:(lia)) as (x1 & R1 & V1). step R1.
  match goal with |- exists st', wrw s _ ?r = Ok st' /\ _ =>
    destruct (wrw_fill s n 1 (i + 1) (i + ix n 1 1) r _ (fun k mp m => k = 0 \/ mp = 0 \/ (mp = 1 /\ (k < n \/ (k = n /\ m < i + 1 + 1))))%Z Ls Fs)
      as (s' & E' & L' & F' & V' & X') end; [unfold T; lia|apply ix_at; lia| |unfold T; cbv beta; lia|].
  { intros j Hj. cbv beta. rewrite V0, V1, V2 by auto.
    pose proof (Hd_41 (al j) (be j) n (i + 1) (unit_ab j Hj) ltac:(lia) ltac:(lia)) as E.
    rewrite <- cos_ab, <- sin_ab in E by auto. unfold HH.
    pose proof (bco_neq0 n ltac:(lia)) as B.
    apply (Rmult_eq_reg_l (bco (n + 1) 0)); auto. rewrite E. field. auto. }
  exists s'. split; [exact E'|]. unfold P2. split; [auto|]. split; [exact F'|]. split; congruence.
Qed.

Lemma step_4_ok st : lens st -> fillw st (fun n mp _ => n = 0 \/ mp = 0 \/ mp = 1)%Z -> fillv st (fun _ k => k = 0 \/ k = 1)%Z ->
  exists st', step_4 ix cd n_max st = Ok st' /\ lens st'
    /\ fillw st' (fun _ mp _ => 0 <= mp)%Z /\ fillv st' (fun _ k => 0 <= k)%Z.
Proof.
  intros L F V. unfold step_4.
  pose (P := fun n s => lens s /\ fillw s (fun k mp _ => k = 0 \/ mp = 0 \/ mp = 1 \/ (0 <= mp /\ k < n))%Z
    /\ fillv s (fun k q => q = 0 \/ q = 1 \/ (0 <= q /\ k < n))%Z).
  match goal with |- exists st', for_range 2 _ ?body st = Ok st' /\ _ =>
    destruct (for_range_inv P 2 (n_max + 1) body st) as (st1 & E1 & L1 & F1 & V1) end; [lia| | |].
  { unfold P. split; [auto|]. split; [eapply fillw_sub; [exact F|]|eapply fillv_sub; [exact V|]]; unfold T; cbv beta; lia. }
  2:{ exists st1. split; [exact E1|]. split; [auto|]. split; [eapply fillw_sub; [exact F1|]|eapply fillv_sub; [exact V1|]]; unfold T; cbv beta; lia. }
  intros n s Hn (Ls & Fs & Vs). cbv beta zeta.
  pose (P2 := fun p s => lens s /\ fillw s (fun k mp _ => k = 0 \/ mp = 0 \/ mp = 1 \/ (0 <= mp /\ (k < n \/ (k = n /\ mp <= p))))%Z
    /\ fillv s (fun k q => q = 0 \/ q = 1 \/ (0 <= q /\ (k < n \/ (k = n /\ q <= p))))%Z).
  match goal with |- exists st', for_range 1 _ ?body s = Ok st' /\ _ =>
    destruct (for_range_inv P2 1 n body s) as (s1 & E2 & L2 & F2 & V2) end; [lia| | |].
  { unfold P2. split; [auto|]. split; [eapply fillw_sub; [exact Fs|]|eapply fillv_sub; [exact Vs|]]; unfold T; cbv beta; lia. }
  2:{ exists s1. split; [exact E2|]. unfold P. split; [auto|].
      split; [eapply fillw_sub; [exact F2|]|eapply fillv_sub; [exact V2|]]; unfold T; cbv beta; lia. }
  clear dependent s. intros p s Hp (Ls & Fs & Vs). rewrite !Z.add_0_l.
  step (cd_ok n p ltac:(lia) ltac:(lia)). step (cd_ok n (p - 1) ltac:(lia) ltac:(lia)).
  (* m = mp *)
  destruct (rdw_fill s _ n (p - 1) p _ Ls Fs ltac:(unfold T; lia) ltac:(cbv beta; lia) eq_refl) as (x & Ex & Vx). step Ex.
  destruct (rdv_fill s _ n p _ Ls Vs ltac:(lia) ltac:(lia) ltac:(cbv beta; lia) eq_refl) as (y & Ey & Vy). step Ey.
  destruct (rdw_fill s _ n p (p + 1) _ Ls Fs ltac:(unfold T; lia) ltac:(cbv beta; lia) eq_refl) as (z & Ez & Vz). step Ez.
  match goal with |- exists st', bind (wrv s ?ii ?r) _ = Ok st' /\ _ =>
    destruct (wrv_fill s n (p + 1) ii r _ (fun k q => q = 0 \/ q = 1 \/ (0 <= q /\ (k < n \/ (k = n /\ q <= p + 1))))%Z Ls Vs)
      as (s2 & E2 & L2 & V2 & W2 & _) end; [lia|lia|reflexivity| |cbv beta; lia|].
  { intros j Hj. cbv beta. rewrite Vx, Vy, Vz by auto. unfold VV.
    destruct (Z.leb_spec 1 p); [|lia]. destruct (Z.leb_spec 1 (p + 1)); [|lia].
    replace (p + 1 - 1)%Z with p by lia. symmetry. apply HH_up; auto; lia. }
  step E2.
  assert (F2 := fillw_Hw s s2 _ W2 Fs). clear Fs.
  (* m = mp + 1 .. n - 1 *)
  pose (P3 := fun i s => lens s /\ fillw s (fun k mp m => k = 0 \/ mp = 0 \/ mp = 1 \/
      (0 <= mp /\ (k < n \/ (k = n /\ (mp <= p \/ (mp = p + 1 /\ m < p + i))))))%Z /\ Hv s = Hv s2).
  match goal with |- exists st', bind (for_range 1 _ ?body s2) _ = Ok st' /\ _ =>
    destruct (for_range_inv P3 1 (n - p) body s2) as (s3 & E3 & L3 & F3 & V3); [lia| | |step E3] end.
  { unfold P3. split; [auto|]. split; [|auto]. eapply fillw_sub; [exact F2|]. unfold T. cbv beta. lia. }
  { intros i t Hi (Lt & Ft & Vt). rewrite (nm_at n (p - 1) i (p + i - 1)), (nm_at n p i (p + i)) by lia.
    rewrite (cd_ok n (p + i - 1) ltac:(lia) ltac:(lia)), (cd_ok n (p + i) ltac:(lia) ltac:(lia)). cbn [bind].
    rewrite (ix_at n (p - 1) p i (p + i)), (ix_at n p (p - 1) i (p + i - 1)), (ix_at n p (p + 1) i (p + i + 1)), (ix_at n (p + 1) p i (p + i)) by lia.
    destruct (rdw_fill t _ n (p - 1) (p + i) _ Lt Ft ltac:(unfold T; lia) ltac:(cbv beta; lia) eq_refl) as (x' & Ex' & Vx'). step Ex'.
    destruct (rdw_fill t _ n p (p + i - 1) _ Lt Ft ltac:(unfold T; lia) ltac:(cbv beta; lia) eq_refl) as (y' & Ey' & Vy'). step Ey'.
    destruct (rdw_fill t _ n p (p + i + 1) _ Lt Ft ltac:(unfold T; lia) ltac:(cbv beta; lia) eq_refl) as (z' & Ez' & Vz'). step Ez'.
    match goal with |- exists st', wrw t ?ii ?r = Ok st' /\ _ =>
      destruct (wrw_fill t n (p + 1) (p + i) ii r _ (fun k mp m => k = 0 \/ mp = 0 \/ mp = 1 \/
        (0 <= mp /\ (k < n \/ (k = n /\ (mp <= p \/ (mp = p + 1 /\ m < p + (i + 1)))))))%Z Lt Ft)
        as (t' & E' & L' & F' & V' & X') end; [unfold T; lia|reflexivity| |unfold T; cbv beta; lia|].
    { intros j Hj. cbv beta. rewrite Vx', Vy', Vz' by auto. symmetry. apply HH_up; auto; lia. }
    exists t'. split; [exact E'|]. unfold P3. split; [auto|]. split; [exact F'|congruence]. }
  (* m = n *)
  rewrite (ix_at n (p - 1) p (n - p) n) by lia.
  destruct (rdw_fill s3 _ n (p - 1) n _ L3 F3 ltac:(unfold T; lia) ltac:(cbv beta; lia) eq_refl) as (x' & Ex' & Vx'). step Ex'.
  rewrite (nm_at n (p - 1) (n - p) (n - 1)) by lia. step (cd_ok n (n - 1) ltac:(lia) ltac:(lia)).
  rewrite (ix_at n p (p - 1) (n - p) (n - 1)) by lia.
  destruct (rdw_fill s3 _ n p (n - 1) _ L3 F3 ltac:(unfold T; lia) ltac:(cbv beta; lia) eq_refl) as (y' & Ey' & Vy'). step Ey'.
  match goal with |- exists st', wrw s3 _ ?r = Ok st' /\ _ =>
    destruct (wrw_fill s3 n (p + 1) n (n - p + ix n (p + 1) p) r _ (fun k mp m => k = 0 \/ mp = 0 \/ mp = 1 \/
      (0 <= mp /\ (k < n \/ (k = n /\ mp <= p + 1))))%Z L3 F3)
      as (s4 & E4 & L4 & F4 & V4 & X4) end; [unfold T; lia|apply ix_at; lia| |unfold T; cbv beta; lia|].
  { intros j Hj. cbv beta. rewrite Vx', Vy' by auto. rewrite (HH_up n p n j) by (auto; lia). rewrite dco_top. ring. }
  exists s4. split; [exact E4|]. unfold P2. split; [auto|]. split; [exact F4|].
  eapply fillv_Hv; [|exact V2]. congruence.
Qed.

Lemma step_5_ok st : lens st -> fillw st (fun _ mp _ => 0 <= mp)%Z -> fillv st (fun _ k => 0 <= k)%Z ->
  exists st', step_5 ix cd n_max st = Ok st' /\ lens st' /\ fillw st' (fun _ _ _ => True).
Proof.
  intros L F V. unfold step_5.
  pose (P := fun n s => lens s /\ fillw s (fun k mp _ => 0 <= mp \/ k < n)%Z /\ fillv s (fun k q => 0 <= q \/ k < n)%Z).
  match goal with |- exists st', for_range 0 _ ?body st = Ok st' /\ _ =>
    destruct (for_range_inv P 0 (n_max + 1) body st) as (st1 & E1 & L1 & F1 & V1) end; [lia| | |].
  { unfold P. split; [auto|]. split; [eapply fillw_sub; [exact F|]|eapply fillv_sub; [exact V|]]; unfold T; cbv beta; lia. }
  2:{ exists st1. split; [exact E1|]. split; [auto|]. eapply fillw_sub; [exact F1|]. unfold T. cbv beta. lia. }
  intros n s Hn (Ls & Fs & Vs). cbv beta zeta.
  pose (P2 := fun p s => lens s /\ fillw s (fun k mp _ => 0 <= mp \/ k < n \/ (k = n /\ p <= mp))%Z
    /\ fillv s (fun k q => 0 <= q \/ k < n \/ (k = n /\ p <= q))%Z).
  match goal with |- exists st', for_down 0 _ ?body s = Ok st' /\ _ =>
    destruct (for_down_inv P2 0 (- n) body s) as (s1 & E2 & L2 & F2 & V2) end; [lia| | |].
  { unfold P2. split; [auto|]. split; [eapply fillw_sub; [exact Fs|]|eapply fillv_sub; [exact Vs|]]; unfold T; cbv beta; lia. }
  2:{ exists s1. split; [exact E2|]. unfold P. split; [auto|].
      split; [eapply fillw_sub; [exact F2|]|eapply fillv_sub; [exact V2|]]; unfold T; cbv beta; lia. }
  clear dependent s. intros p s Hp (Ls & Fs & Vs). rewrite !Z.add_0_l.
  step (cd_ok n (p - 1) ltac:(lia) ltac:(lia)). step (cd_ok n p ltac:(lia) ltac:(lia)).
  step (cd_ok n (- p - 1) ltac:(lia) ltac:(lia)). step (cd_ok n (- p) ltac:(lia) ltac:(lia)).
  (* m = - mp *)
  assert (Rx : exists x, (if (p =? 0)%Z then hrd (Hv s) (nm_index n (p + 1)) else hrd (Hw s) (ix n (p + 1) (- p))) = Ok x
     /\ forall j, cols j -> x j = HH n (p + 1) (- p) j).
  { destruct (Z.eqb_spec p 0) as [->|D].
    - destruct (rdv_fill s _ n 1 _ Ls Vs ltac:(lia) ltac:(lia) ltac:(cbv beta; lia) eq_refl) as (x & Ex & Vx).
      exists x. split; [exact Ex|]. exact Vx.
    - apply (rdw_fill s _ n (p + 1) (- p) _ Ls Fs); [unfold T; lia|cbv beta; lia|reflexivity]. }
  destruct Rx as (x & Ex & Vx). step Ex.
  destruct (rdv_fill s _ n p _ Ls Vs ltac:(lia) ltac:(lia) ltac:(cbv beta; lia) eq_refl) as (y & Ey & Vy). step Ey.
  destruct (rdw_fill s _ n p (- p + 1) _ Ls Fs ltac:(unfold T; lia) ltac:(cbv beta; lia) eq_refl) as (z & Ez & Vz). step Ez.
  match goal with |- exists st', bind (wrv s ?ii ?r) _ = Ok st' /\ _ =>
    destruct (wrv_fill s n (p - 1) ii r _ (fun k q => 0 <= q \/ k < n \/ (k = n /\ p - 1 <= q))%Z Ls Vs)
      as (s2 & E2 & L2 & V2 & W2 & _) end; [lia|lia|reflexivity| |cbv beta; lia|].
  { intros j Hj. cbv beta. rewrite Vx, Vy, Vz by auto. unfold VV.
    destruct (Z.leb_spec 1 p); [lia|]. destruct (Z.leb_spec 1 (p - 1)); [lia|].
    replace (- (p - 1) - 1)%Z with (- p)%Z by lia. symmetry. apply HH_down; auto; lia. }
  step E2.
  assert (F2 := fillw_Hw s s2 _ W2 Fs). clear Fs.
  (* m = - mp + 1 .. n - 1 *)
  pose (P3 := fun i s => lens s /\ fillw s (fun k mp m => 0 <= mp \/ k < n \/ (k = n /\ (p <= mp \/ (mp = p - 1 /\ m < - p + i))))%Z
      /\ Hv s = Hv s2).
  match goal with |- exists st', bind (for_range 1 _ ?body s2) _ = Ok st' /\ _ =>
    destruct (for_range_inv P3 1 (n + p) body s2) as (s3 & E3 & L3 & F3 & V3); [lia| | |step E3] end.
  { unfold P3. split; [auto|]. split; [|auto]. eapply fillw_sub; [exact F2|]. unfold T. cbv beta. lia. }
  { intros i t Hi (Lt & Ft & Vt). rewrite (nm_at n (- p - 1) i (- p + i - 1)), (nm_at n (- p) i (- p + i)) by lia.
    step (cd_ok n (- p + i - 1) ltac:(lia) ltac:(lia)). step (cd_ok n (- p + i) ltac:(lia) ltac:(lia)).
    rewrite (ix_at n (p + 1) (- p) i (- p + i)), (ix_at n p (- p - 1) i (- p + i - 1)), (ix_at n p (- p + 1) i (- p + i + 1)), (ix_at n (p - 1) (- p) i (- p + i)) by lia.
    destruct (rdw_fill t _ n (p + 1) (- p + i) _ Lt Ft ltac:(unfold T; lia) ltac:(cbv beta; lia) eq_refl) as (x' & Ex' & Vx'). step Ex'.
    destruct (rdw_fill t _ n p (- p + i - 1) _ Lt Ft ltac:(unfold T; lia) ltac:(cbv beta; lia) eq_refl) as (y' & Ey' & Vy'). step Ey'.
    destruct (rdw_fill t _ n p (- p + i + 1) _ Lt Ft ltac:(unfold T; lia) ltac:(cbv beta; lia) eq_refl) as (z' & Ez' & Vz'). step Ez'.
    match goal with |- exists st', wrw t ?ii ?r = Ok st' /\ _ =>
      destruct (wrw_fill t n (p - 1) (- p + i) ii r _ (fun k mp m => 0 <= mp \/ k < n \/ (k = n /\ (p <= mp \/ (mp = p - 1 /\ m < - p + (i + 1)))))%Z Lt Ft)
        as (t' & E' & L' & F' & V' & X') end; [unfold T; lia|reflexivity| |unfold T; cbv beta; lia|].
    { intros j Hj. cbv beta. rewrite Vx', Vy', Vz' by auto. symmetry. apply HH_down; auto; lia. }
    exists t'. split; [exact E'|]. unfold P3. split; [auto|]. split; [exact F'|congruence]. }
  (* m = n *)
  rewrite (ix_at n (p + 1) (- p) (n + p) n) by lia.
  destruct (rdw_fill s3 _ n (p + 1) n _ L3 F3 ltac:(unfold T; lia) ltac:(cbv beta; lia) eq_refl) as (x' & Ex' & Vx'). step Ex'.
  rewrite (nm_at n (- p - 1) (n + p) (n - 1)) by lia. step (cd_ok n (n - 1) ltac:(lia) ltac:(lia)).
  rewrite (ix_at n p (- p - 1) (n + p) (n - 1)) by lia.
  destruct (rdw_fill s3 _ n p (n - 1) _ L3 F3 ltac:(unfold T; lia) ltac:(cbv beta; lia) eq_refl) as (y' & Ey' & Vy'). step Ey'.
  match goal with |- exists st', wrw s3 _ ?r = Ok st' /\ _ =>
    destruct (wrw_fill s3 n (p - 1) n (n + p + ix n (p - 1) (- p)) r _ (fun k mp m => 0 <= mp \/ k < n \/ (k = n /\ p - 1 <= mp))%Z L3 F3)
      as (s4 & E4 & L4 & F4 & V4 & X4) end; [unfold T; lia|apply ix_at; lia| |unfold T; cbv beta; lia|].
  { intros j Hj. cbv beta. rewrite Vx', Vy' by auto. rewrite (HH_down n p n j) by (auto; lia). rewrite dco_top. ring. }
  exists s4. split; [exact E4|]. unfold P2. split; [auto|]. split; [exact F4|].
  eapply fillv_Hv; [|exact V2]. congruence.
Qed.

Lemma steps_ok st : lens st -> exists st',
  (do st <- step_1 st;
   do st <- step_2 ix cg ch n_max cosb sinb st;
   do st <- step_3 ix ca cb n_max cosb sinb st;
   do st <- step_4 ix cd n_max st;
   step_5 ix cd n_max st) = Ok st' /\ lens st' /\ fillw st' (fun _ _ _ => True).
Proof.
  intros L. destruct (step_1_ok st L) as (s1 & E1 & L1 & F1). step E1.
  destruct (step_2_ok s1 L1 F1) as (s2 & E2 & L2 & F2 & V2 & X2). step E2.
  destruct (step_3_ok s2 L2 F2 X2) as (s3 & E3 & L3 & F3 & V3). step E3.
  destruct (step_4_ok s3 L3 F3 (fillv_Hv _ _ _ V3 V2)) as (s4 & E4 & L4 & F4 & V4). step E4.
  exact (step_5_ok s4 L4 F4 V4).
Qed.
End Steps.
