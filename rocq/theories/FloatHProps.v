(** Theorems about the H calculators in double precision. *)
Require Import ZArith Lia Reals Lra Bool List.
From Verif Require Import Base BaseProofs IndexModel IndexProofs IndexProofs2 IndexProps HModel HCoef HProps FloatIndexModel
  FloatPowersProps FloatHSpec FloatHModel FloatHProofs FloatHParity.
Import ListNotations.
Open Scope R_scope.
Set Bullet Behavior "Strict Subproofs".

(** The number at any index, by the symmetries that wedgeify uses. *)
Definition Hall (rnd : R -> R) (c s : R) (n mp m : Z) : R :=
  if (mp + m <? 0)%Z then Hflt rnd c s n (- Z.max mp m) (- Z.min mp m) else Hflt rnd c s n (Z.min mp m) (Z.max mp m).
Lemma Hall_wedge rnd c s n mp m : (Z.abs mp <= m)%Z -> Hall rnd c s n mp m = Hflt rnd c s n mp m.
Proof. intros H. unfold Hall. destruct (Z.ltb_spec (mp + m) 0); [lia|]. now rewrite Z.min_l, Z.max_r by lia. Qed.
Lemma Hall_transpose rnd c s n mp m : Hall rnd c s n m mp = Hall rnd c s n mp m.
Proof. unfold Hall. now rewrite (Z.add_comm m mp), (Z.min_comm m mp), (Z.max_comm m mp). Qed.
Lemma Hall_negate rnd c s n mp m : Hall rnd c s n (- mp) (- m) = Hall rnd c s n mp m.
Proof.
  unfold Hall. destruct (Z.ltb_spec (- mp + - m) 0); destruct (Z.ltb_spec (mp + m) 0); try lia; f_equal; lia.
Qed.

(** ** The coefficients *)
Section Any.
Variable rnd : R -> R.
Lemma coef_a_r_ok n m : (0 <= m <= n)%Z -> coef_a_r rnd (n, m) = Some (aflt rnd n m).
Proof.
  intros H. pose proof (coef_a_ok n m H) as E. unfold coef_a, sqrt_quot in E. unfold coef_a_r, sqrt_quot_r, aflt.
  destruct (_ =? 0)%Z; [discriminate|]. destruct (_ <? 0)%Z; [discriminate|reflexivity].
Qed.
Lemma coef_b_r_ok n m : (0 <= n)%Z -> (- n <= m <= n)%Z -> coef_b_r rnd (n, m) = Some (bflt rnd n m).
Proof.
  intros H0 H. pose proof (coef_b_ok n m H0 H) as E. unfold coef_b, sqrt_quot, neg_where in E. unfold coef_b_r, sqrt_quot_r, neg_where_r, bflt.
  destruct ((2 * n - 1) * (2 * n + 1) =? 0)%Z; [destruct (m <? 0)%Z; discriminate|].
  destruct (_ * (_ * _) <? 0)%Z; [destruct (m <? 0)%Z; discriminate|]. destruct (m <? 0)%Z; reflexivity.
Qed.
Lemma coef_d_r_ok n m : (0 <= n)%Z -> (- n <= m <= n)%Z -> coef_d_r rnd (n, m) = Some (dflt rnd n m).
Proof.
  intros H0 H. unfold coef_d_r, sqrt_int_r, neg_where_r, dflt. destruct (Z.ltb_spec ((n - m) * (n + m + 1)) 0); [nia|].
  destruct (m <? 0)%Z; reflexivity.
Qed.
Lemma coef_g_r_ok n m : (0 <= m < n)%Z -> coef_g_r rnd (n, m) = Some (gflt rnd n m).
Proof.
  intros H. unfold coef_g_r, sqrt_int_r, gflt. destruct (Z.eqb_spec ((n - m) * (n + m + 1)) 0); [nia|].
  destruct (Z.ltb_spec ((n - m) * (n + m + 1)) 0); [nia|]. reflexivity.
Qed.
Lemma coef_h_r_ok n m : (0 <= m < n)%Z -> coef_h_r rnd (n, m) = Some (hflt rnd n m).
Proof.
  intros H. pose proof (coef_h_ok n m H) as E. unfold coef_h, sqrt_quot in E. unfold coef_h_r, sqrt_quot_r, hflt.
  destruct (_ =? 0)%Z; [discriminate|]. destruct (_ <? 0)%Z; [discriminate|reflexivity].
Qed.
Lemma init_r_ok n_max : (0 <= n_max)%Z ->
  HCalculator_init_r rnd n_max = Ok (mkHCalc n_max (coef_arr (coef_a_r rnd) (pairs_nabsm n_max)) (coef_arr (coef_b_r rnd) (pairs_nm n_max))
    (coef_arr (coef_d_r rnd) (pairs_nm n_max)) (coef_arr (coef_g_r rnd) (pairs_nm n_max)) (coef_arr (coef_h_r rnd) (pairs_nm n_max))).
Proof.
  intros H. unfold HCalculator_init_r. destruct (Z.ltb_spec n_max 0); [lia|]. cbv zeta.
  rewrite (all_finite_nabsm (coef_a_r rnd)), (all_finite_nm (coef_b_r rnd)), (all_finite_nm (coef_d_r rnd)); auto.
  - intros n m Hn Hm. exists (dflt rnd n m). apply coef_d_r_ok; lia.
  - intros n m Hn Hm. exists (bflt rnd n m). apply coef_b_r_ok; lia.
  - intros n m Hn Hm. exists (aflt rnd n m). apply coef_a_r_ok; lia.
Qed.
Lemma init_r_inv n_max hc : HCalculator_init_r rnd n_max = Ok hc -> (0 <= n_max)%Z /\
  hc = mkHCalc n_max (coef_arr (coef_a_r rnd) (pairs_nabsm n_max)) (coef_arr (coef_b_r rnd) (pairs_nm n_max))
    (coef_arr (coef_d_r rnd) (pairs_nm n_max)) (coef_arr (coef_g_r rnd) (pairs_nm n_max)) (coef_arr (coef_h_r rnd) (pairs_nm n_max)).
Proof.
  intros H. destruct (Z_lt_le_dec n_max 0) as [N|N].
  - unfold HCalculator_init_r in H. destruct (Z.ltb_spec n_max 0); [discriminate|lia].
  - rewrite init_r_ok in H by auto. apply Ok_inj in H. auto.
Qed.

Lemma wedge_steps_r n_max (cols : Z -> Prop) cosb sinb st : (1 <= n_max)%Z -> lens n_max (wedge_size n_max) st -> exists st',
  (do st <- step_1 st;
   do st <- step_2_r rnd wedge_index (coef_arr (coef_g_r rnd) (pairs_nm n_max)) (coef_arr (coef_h_r rnd) (pairs_nm n_max)) n_max cosb sinb st;
   do st <- step_3_r rnd wedge_index (coef_arr (coef_a_r rnd) (pairs_nabsm n_max)) (coef_arr (coef_b_r rnd) (pairs_nm n_max)) n_max cosb sinb st;
   do st <- step_4_r rnd wedge_index (coef_arr (coef_d_r rnd) (pairs_nm n_max)) n_max st;
   step_5_r rnd wedge_index (coef_arr (coef_d_r rnd) (pairs_nm n_max)) n_max st) = Ok st'
  /\ lens n_max (wedge_size n_max) st' /\ fillw wedge_index n_max cols rnd cosb sinb st' (fun _ _ _ => True).
Proof.
  intros Hn L. apply steps_ok; auto.
  - apply wedge_bnd.
  - apply wedge_inj.
  - apply wedge_lin.
  - intros. apply crd_nm; [lia|lia|lia|]. apply coef_g_r_ok; lia.
  - intros. apply crd_nm; [lia|lia|lia|]. apply coef_h_r_ok; lia.
  - intros. apply crd_nabsm; [lia|lia|lia|]. apply coef_a_r_ok; lia.
  - intros. apply crd_nm; [lia|lia|lia|]. apply coef_b_r_ok; lia.
  - intros. apply crd_nm; [lia|lia|lia|]. apply coef_d_r_ok; lia.
Qed.

Lemma full_steps_r n_max size (cols : Z -> Prop) cosb sinb st : (1 <= n_max)%Z -> (LMpM_total_size 0 n_max <= size)%Z -> lens n_max size st -> exists st',
  (do st <- step_1 st;
   do st <- step_2_r rnd nmpm_index (coef_arr (coef_g_r rnd) (pairs_nm n_max)) (coef_arr (coef_h_r rnd) (pairs_nm n_max)) n_max cosb sinb st;
   do st <- step_3_r rnd nmpm_index (coef_arr (coef_a_r rnd) (pairs_nabsm n_max)) (coef_arr (coef_b_r rnd) (pairs_nm n_max)) n_max cosb sinb st;
   do st <- step_4_r rnd nmpm_index (coef_arr (coef_d_r rnd) (pairs_nm n_max)) n_max st;
   step_5_r rnd nmpm_index (coef_arr (coef_d_r rnd) (pairs_nm n_max)) n_max st) = Ok st'
  /\ lens n_max size st' /\ fillw nmpm_index n_max cols rnd cosb sinb st' (fun _ _ _ => True).
Proof.
  intros Hn Hs L. apply steps_ok; auto.
  - intros n mp m H. pose proof (nmpm_bnd n_max n mp m (T_F _ _ _ _ H)). lia.
  - intros n mp m n' mp' m' H H'. apply (nmpm_inj n_max); now apply T_F.
  - apply nmpm_lin.
  - intros. apply crd_nm; [lia|lia|lia|]. apply coef_g_r_ok; lia.
  - intros. apply crd_nm; [lia|lia|lia|]. apply coef_h_r_ok; lia.
  - intros. apply crd_nabsm; [lia|lia|lia|]. apply coef_a_r_ok; lia.
  - intros. apply crd_nm; [lia|lia|lia|]. apply coef_b_r_ok; lia.
  - intros. apply crd_nm; [lia|lia|lia|]. apply coef_d_r_ok; lia.
Qed.
(** ** Step 6 *)
Section Step6.
Variables (n_max size : Z) (cols : Z -> Prop) (cosb sinb : Z -> R).
Hypothesis Hn : (1 <= n_max)%Z.
Hypothesis Hs : (LMpM_total_size 0 n_max <= size)%Z.
Definition HA (n mp m : Z) : row := fun j => Hall rnd (cosb j) (sinb j) n mp m.
Definition fillf (st : hst) (Q : Z -> Z -> Z -> Prop) : Prop :=
  forall n mp m, F n_max n mp m -> Q n mp m -> is cols (aget (Hw st) (nmpm_index n mp m)) (HA n mp m).
Lemma wrf_fill st n mp m r (Q Q' : Z -> Z -> Z -> Prop) : alen (Hw st) = size -> fillf st Q -> F n_max n mp m ->
  (forall j, cols j -> r j = HA n mp m j) ->
  (forall n' mp' m', F n_max n' mp' m' -> Q' n' mp' m' -> Q n' mp' m' \/ (n' = n /\ mp' = mp /\ m' = m)) ->
  exists st', wrw st (nmpm_index n mp m) r = Ok st' /\ alen (Hw st') = size /\ fillf st' Q'.
Proof.
  intros L Hf HF V HQ. pose proof (nmpm_bnd _ _ _ _ HF) as B. unfold wrw, hwr. rewrite wr_ok by lia. cbn [bind].
  eexists. split; [reflexivity|]. cbn [Hw alen aget]. split; [exact L|].
  intros n' mp' m' HF' HQ'. cbn [Hw aget].
  destruct (HQ _ _ _ HF' HQ') as [q|(-> & -> & ->)].
  - destruct (Z.eq_dec (nmpm_index n' mp' m') (nmpm_index n mp m)) as [E|D].
    + destruct (nmpm_inj _ _ _ _ _ _ _ HF' HF E) as (-> & -> & ->). unfold upd. rewrite Z.eqb_refl. exists r. auto.
    + rewrite upd_other by auto. now apply Hf.
  - rewrite upd_same. exists r. auto.
Qed.
Lemma fillf_sub st (Q Q' : Z -> Z -> Z -> Prop) : fillf st Q -> (forall n mp m, F n_max n mp m -> Q' n mp m -> Q n mp m) -> fillf st Q'.
Proof. intros Hf H n mp m HF HQ. apply Hf; auto. Qed.
Lemma rdf_fill st (Q : Z -> Z -> Z -> Prop) n mp m : alen (Hw st) = size -> fillf st Q -> F n_max n mp m -> Q n mp m ->
  exists r, hrd (Hw st) (nmpm_index n mp m) = Ok r /\ forall j, cols j -> r j = HA n mp m j.
Proof. intros L Hf HF HQ. apply hrd_is; [pose proof (nmpm_bnd _ _ _ _ HF); lia|]. now apply Hf. Qed.

Lemma step_6_ok st : alen (Hw st) = size -> fillf st (fun _ mp m => Z.abs mp <= m)%Z ->
  exists st', step_6 n_max st = Ok st' /\ alen (Hw st') = size /\ fillf st' (fun _ _ _ => True).
Proof.
  intros L Hf. unfold step_6.
  assert (A : exists s1, for_range 1 (n_max + 1) (fun n st =>
    for_range 1 (n + 1) (fun mp st =>
      for_range (Z.max (- mp) (- n)) mp (fun m st =>
        do x <- hrd (Hw st) (nmpm_index n m mp);
        wrw st (nmpm_index n mp m) x) st) st) st = Ok s1 /\ alen (Hw s1) = size /\ fillf s1 (fun _ mp m => 0 <= mp + m)%Z).
  { pose (P := fun (n : Z) s => alen (Hw s) = size /\ fillf s (fun k mp m => Z.abs mp <= m \/ (Z.abs m <= mp /\ k < n))%Z).
    destruct (for_range_inv P 1 (n_max + 1) (fun n st =>
      for_range 1 (n + 1) (fun mp st =>
        for_range (Z.max (- mp) (- n)) mp (fun m st =>
          do x <- hrd (Hw st) (nmpm_index n m mp);
          wrw st (nmpm_index n mp m) x) st) st) st) as (s1 & E1 & L1 & F1); [lia| | |].
    { split; [auto|]. eapply fillf_sub; [exact Hf|]. unfold F. cbv beta. lia. }
    2:{ exists s1. split; [exact E1|]. split; [auto|]. eapply fillf_sub; [exact F1|]. unfold F. cbv beta. lia. }
    intros n s Hn' (Ls & Fs).
    pose (P2 := fun (p : Z) s => alen (Hw s) = size /\
       fillf s (fun k mp m => Z.abs mp <= m \/ (Z.abs m <= mp /\ (k < n \/ (k = n /\ mp < p))))%Z).
    destruct (for_range_inv P2 1 (n + 1) (fun mp st =>
        for_range (Z.max (- mp) (- n)) mp (fun m st =>
          do x <- hrd (Hw st) (nmpm_index n m mp);
          wrw st (nmpm_index n mp m) x) st) s) as (s2 & E2 & L2 & F2); [lia| | |].
    { split; [auto|]. eapply fillf_sub; [exact Fs|]. unfold F. cbv beta. lia. }
    2:{ exists s2. split; [exact E2|]. split; [auto|]. eapply fillf_sub; [exact F2|]. unfold F. cbv beta. lia. }
    clear dependent s. intros p s Hp (Ls & Fs).
    pose (P3 := fun (q : Z) s => alen (Hw s) = size /\
       fillf s (fun k mp m => Z.abs mp <= m \/ (Z.abs m <= mp /\ (k < n \/ (k = n /\ (mp < p \/ (mp = p /\ m < q))))))%Z).
    destruct (for_range_inv P3 (Z.max (- p) (- n)) p (fun m st =>
          do x <- hrd (Hw st) (nmpm_index n m p);
          wrw st (nmpm_index n p m) x) s) as (s2 & E2 & L2 & F2); [lia| | |].
    { split; [auto|]. eapply fillf_sub; [exact Fs|]. unfold F. cbv beta. lia. }
    2:{ exists s2. split; [exact E2|]. split; [auto|]. eapply fillf_sub; [exact F2|]. unfold F. cbv beta. lia. }
    clear dependent s. intros q s Hq (Ls & Fs).
    destruct (rdf_fill s _ n q p Ls Fs) as (x & Ex & Vx); [unfold F; lia|cbv beta; lia|]. rewrite Ex. cbn [bind].
    destruct (wrf_fill s n p q x _
      (fun k mp m => Z.abs mp <= m \/ (Z.abs m <= mp /\ (k < n \/ (k = n /\ (mp < p \/ (mp = p /\ m < q + 1))))))%Z Ls Fs)
      as (s' & E' & L' & F'); [unfold F; lia| |unfold F; cbv beta; lia|].
    { intros j Hj. rewrite Vx by auto. apply Hall_transpose. }
    exists s'. split; [exact E'|]. split; auto. }
  destruct A as (s1 & -> & L1 & F1). cbn [bind]. clear dependent st.
  pose (P := fun (n : Z) s => alen (Hw s) = size /\ fillf s (fun k mp m => 0 <= mp + m \/ k < n)%Z).
  match goal with |- exists st', for_range _ _ ?body _ = Ok st' /\ _ =>
    destruct (for_range_inv P 1 (n_max + 1) body s1) as (s' & E' & L' & F') end; [lia| | |].
  { split; [auto|]. eapply fillf_sub; [exact F1|]. unfold F. cbv beta. lia. }
  2:{ exists s'. split; [exact E'|]. split; [auto|]. eapply fillf_sub; [exact F'|]. unfold F. cbv beta. lia. }
  clear dependent s1. intros n s Hn' (Ls & Fs).
  pose (P2 := fun (p : Z) s => alen (Hw s) = size /\ fillf s (fun k mp m => 0 <= mp + m \/ k < n \/ (k = n /\ mp < p))%Z).
  match goal with |- exists st', for_range _ _ ?body _ = Ok st' /\ _ =>
    destruct (for_range_inv P2 (- n) n body s) as (s2 & E2 & L2 & F2) end; [lia| | |].
  { split; [auto|]. eapply fillf_sub; [exact Fs|]. unfold F. cbv beta. lia. }
  2:{ exists s2. split; [exact E2|]. split; [auto|]. eapply fillf_sub; [exact F2|]. unfold F. cbv beta. lia. }
  clear dependent s. intros p s Hp (Ls & Fs).
  pose (P3 := fun (q : Z) s => alen (Hw s) = size /\
     fillf s (fun k mp m => 0 <= mp + m \/ k < n \/ (k = n /\ (mp < p \/ (mp = p /\ m < q))))%Z).
  match goal with |- exists st', for_range _ _ ?body _ = Ok st' /\ _ =>
    destruct (for_range_inv P3 (- n) (- p) body s) as (s2 & E2 & L2 & F2) end; [lia| | |].
  { split; [auto|]. eapply fillf_sub; [exact Fs|]. unfold F. cbv beta. lia. }
  2:{ exists s2. split; [exact E2|]. split; [auto|]. eapply fillf_sub; [exact F2|]. unfold F. cbv beta. lia. }
  clear dependent s. intros q s Hq (Ls & Fs).
  destruct (rdf_fill s _ n (- p) (- q) Ls Fs) as (x & Ex & Vx); [unfold F; lia|cbv beta; lia|]. rewrite Ex. cbn [bind].
  destruct (wrf_fill s n p q x _ (fun k mp m => 0 <= mp + m \/ k < n \/ (k = n /\ (mp < p \/ (mp = p /\ m < q + 1))))%Z Ls Fs)
    as (s' & E' & L' & F'); [unfold F; lia| |unfold F; cbv beta; lia|].
  { intros j Hj. rewrite Vx by auto. apply Hall_negate. }
  exists s'. split; [exact E'|]. split; auto.
Qed.
End Step6.

(** ** The calls *)
(** the sines a call works with *)
Definition sines_r (cosb : list R) (sinb : option (list R)) : list R :=
  match sinb with Some s => s | None => map (fun c => rnd (sqrt (rnd (1 - rnd (c ^ 2))))) cosb end.
Lemma check_angles_r_ok cosb sinb : angles_ok cosb sinb -> check_angles_r rnd cosb sinb = Ok (sines_r cosb sinb).
Proof.
  intros (A & B & C). unfold check_angles_r. destruct cosb as [|c l]; [congruence|].
  replace (out_of_range (c :: l)) with false by (symmetry; now apply out_of_range_false).
  cbn [length Nat.eqb]. destruct sinb as [s|]; [|reflexivity]. cbn [length] in C.
  replace (length s =? S (length l))%nat with true by (symmetry; now apply Nat.eqb_eq). reflexivity.
Qed.
Lemma call_r_unfold n_max hc cosb sinb ws : HCalculator_init_r rnd n_max = Ok hc -> angles_ok cosb sinb ->
  HCalculator_call_r rnd hc cosb sinb ws =
  let w := match ws with Some w => w | None => hzeros (workspace_size n_max) end in
  bind (do st <- step_1 (mkhst (hslice w 0 (wedge_size n_max))
      (hslice w (wedge_size n_max) (wedge_size n_max + (n_max + 1) ^ 2)%Z)
      (hslice w (wedge_size n_max + (n_max + 1) ^ 2)%Z (wedge_size n_max + (n_max + 1) ^ 2 + n_max + 2)%Z));
   do st <- step_2_r rnd wedge_index (coef_arr (coef_g_r rnd) (pairs_nm n_max)) (coef_arr (coef_h_r rnd) (pairs_nm n_max)) n_max (row_of cosb) (row_of (sines_r cosb sinb)) st;
   do st <- step_3_r rnd wedge_index (coef_arr (coef_a_r rnd) (pairs_nabsm n_max)) (coef_arr (coef_b_r rnd) (pairs_nm n_max)) n_max (row_of cosb) (row_of (sines_r cosb sinb)) st;
   do st <- step_4_r rnd wedge_index (coef_arr (coef_d_r rnd) (pairs_nm n_max)) n_max st;
   step_5_r rnd wedge_index (coef_arr (coef_d_r rnd) (pairs_nm n_max)) n_max st) (fun st => Ok (Hw st)).
Proof.
  intros E A. apply init_r_inv in E. destruct E as (_ & ->). unfold HCalculator_call_r. rewrite check_angles_r_ok by auto. cbn [bind].
  cbv zeta. cbn [hc_n_max hc_a hc_b hc_d hc_g hc_h].
  rewrite !bind_assoc. destruct (step_1 _); [|reflexivity]. cbn [bind].
  rewrite !bind_assoc. destruct (step_2_r _ _ _ _ _ _ _ _); [|reflexivity]. cbn [bind].
  rewrite !bind_assoc. destruct (step_3_r _ _ _ _ _ _ _ _); [|reflexivity]. cbn [bind].
  rewrite !bind_assoc. destruct (step_4_r _ _ _ _ _); reflexivity.
Qed.
Lemma full_call_r_unfold n_max hc cosb sinb ws : HCalculator_init_r rnd n_max = Ok hc -> angles_ok cosb sinb ->
  HCalculator_full_call_r rnd hc cosb sinb ws =
  let w := match ws with Some w => w | None => hzeros (LMpM_total_size 0 n_max) end in
  bind (do st <- step_1 (mkhst w (hzeros ((n_max + 1) ^ 2)%Z) (hzeros (n_max + 2)%Z));
   do st <- step_2_r rnd nmpm_index (coef_arr (coef_g_r rnd) (pairs_nm n_max)) (coef_arr (coef_h_r rnd) (pairs_nm n_max)) n_max (row_of cosb) (row_of (sines_r cosb sinb)) st;
   do st <- step_3_r rnd nmpm_index (coef_arr (coef_a_r rnd) (pairs_nabsm n_max)) (coef_arr (coef_b_r rnd) (pairs_nm n_max)) n_max (row_of cosb) (row_of (sines_r cosb sinb)) st;
   do st <- step_4_r rnd nmpm_index (coef_arr (coef_d_r rnd) (pairs_nm n_max)) n_max st;
   step_5_r rnd nmpm_index (coef_arr (coef_d_r rnd) (pairs_nm n_max)) n_max st)
   (fun st => do st <- step_6 n_max st; Ok (hslice (Hw st) 0 (LMpM_total_size 0 n_max))).
Proof.
  intros E A. apply init_r_inv in E. destruct E as (_ & ->). unfold HCalculator_full_call_r. rewrite check_angles_r_ok by auto. cbn [bind].
  cbv zeta. cbn [hc_n_max hc_a hc_b hc_d hc_g hc_h].
  rewrite !bind_assoc. destruct (step_1 _); [|reflexivity]. cbn [bind].
  rewrite !bind_assoc. destruct (step_2_r _ _ _ _ _ _ _ _); [|reflexivity]. cbn [bind].
  rewrite !bind_assoc. destruct (step_3_r _ _ _ _ _ _ _ _); [|reflexivity]. cbn [bind].
  rewrite !bind_assoc. destruct (step_4_r _ _ _ _ _); reflexivity.
Qed.

Lemma call_r_run n_max hc cosb sinb ws : (1 <= n_max)%Z -> HCalculator_init_r rnd n_max = Ok hc -> angles_ok cosb sinb ->
  workspace_ok (workspace_size n_max) ws ->
  exists H, HCalculator_call_r rnd hc cosb sinb ws = Ok H /\ alen H = wedge_size n_max /\
    forall n mp m, (0 <= n <= n_max)%Z -> (Z.abs mp <= m <= n)%Z ->
      exists r, aget H (wedge_index n mp m) = Some r /\ forall j, r j = Hall rnd (row_of cosb j) (row_of (sines_r cosb sinb) j) n mp m.
Proof.
  intros Hn E A W. rewrite (call_r_unfold n_max) by auto. cbv zeta.
  match goal with |- context [step_1 ?st0] => set (st := st0) end.
  destruct (wedge_steps_r n_max (fun _ => True) (row_of cosb) (row_of (sines_r cosb sinb)) st Hn) as (st' & E' & L' & F').
  { apply slices_lens; [lia|]. now apply hzeros_workspace. }
  rewrite E'. cbn [bind]. eexists. split; [reflexivity|]. split; [apply L'|].
  intros n mp m H1 H2. destruct (F' n mp m (conj H1 H2) I) as (r & Er & V). exists r. split; [exact Er|].
  intros j. rewrite V by auto. symmetry. apply Hall_wedge. lia.
Qed.
Lemma full_call_r_run n_max hc cosb sinb ws : (1 <= n_max)%Z -> HCalculator_init_r rnd n_max = Ok hc -> angles_ok cosb sinb ->
  workspace_ok (LMpM_total_size 0 n_max) ws ->
  exists H, HCalculator_full_call_r rnd hc cosb sinb ws = Ok H /\ alen H = LMpM_total_size 0 n_max /\
    forall n mp m, (0 <= n <= n_max)%Z -> (- n <= mp <= n)%Z -> (- n <= m <= n)%Z ->
      exists r, aget H (nmpm_index n mp m) = Some r /\ forall j, r j = Hall rnd (row_of cosb j) (row_of (sines_r cosb sinb) j) n mp m.
Proof.
  intros Hn E A W. rewrite (full_call_r_unfold n_max) by auto. cbv zeta.
  set (w := match ws with Some w => w | None => hzeros (LMpM_total_size 0 n_max) end).
  assert (Lw : (LMpM_total_size 0 n_max <= alen w)%Z) by (unfold w; destruct ws; cbn [workspace_ok] in W; cbn [hzeros alen]; lia).
  match goal with |- context [step_1 ?st0] => set (st := st0) end.
  destruct (full_steps_r n_max (alen w) (fun _ => True) (row_of cosb) (row_of (sines_r cosb sinb)) st Hn Lw) as (st' & E' & L' & F').
  { unfold lens, st. cbn [Hw Hv Hx hzeros alen]. auto. }
  rewrite E'. cbn [bind].
  destruct (step_6_ok n_max (alen w) (fun _ => True) (row_of cosb) (row_of (sines_r cosb sinb)) Hn Lw st') as (s6 & E6 & L6 & F6).
  { apply L'. }
  { intros n mp m (B1 & B2 & B3) Q. destruct (F' n mp m) as (r & Er & V); [unfold T; lia|auto|]. exists r. split; [exact Er|].
    intros j Hj. rewrite V by auto. symmetry. apply Hall_wedge. lia. }
  rewrite E6. cbn [bind]. eexists. split; [reflexivity|]. cbn [hslice alen]. rewrite L6.
  pose proof (nmpm_bnd n_max 0 0 0 ltac:(unfold F; lia)).
  split; [lia|]. intros n mp m B1 B2 B3. destruct (F6 n mp m (conj B1 (conj B2 B3)) I) as (r & Er & Vr).
  exists r. split; [|intros j; now apply Vr]. unfold hslice. cbn [aget]. rewrite Z.min_l by lia. exact Er.
Qed.
End Any.

(** ** The theorems *)
Lemma even_abs m : Z.even (Z.abs m) = Z.even m.
Proof. destruct m; reflexivity. Qed.
Lemma C71_one_function :
  exists f : Z -> Z -> Z -> R -> R -> R,
  (* both calculators return f, whatever n_max, the workspace and the other angles are *)
  (forall n_max hc cosb sinb ws, (1 <= n_max)%Z -> HCalculator_init64 n_max = Ok hc ->
     cosb <> [] -> (forall c, In c cosb -> -1 <= c <= 1) -> match sinb with Some s => length s = length cosb | None => True end ->
     let sinr := match sinb with Some s => s | None => map (fun c => RN64 (sqrt (RN64 (1 - RN64 (c ^ 2))))) cosb end in
     (match ws with Some w => (workspace_size n_max <= alen w)%Z | None => True end ->
      exists H, HCalculator_call64 hc cosb sinb ws = Ok H /\ alen H = wedge_size n_max /\
        forall n mp m, (0 <= n <= n_max)%Z -> (Z.abs mp <= m <= n)%Z ->
          exists r, aget H (wedge_index n mp m) = Some r /\
            forall j, (j < length cosb)%nat -> r (Z.of_nat j) = f n mp m (nth j cosb 0) (nth j sinr 0)) /\
     (match ws with Some w => (LMpM_total_size 0 n_max <= alen w)%Z | None => True end ->
      exists H, HCalculator_full_call64 hc cosb sinb ws = Ok H /\ alen H = LMpM_total_size 0 n_max /\
        forall n mp m, (0 <= n <= n_max)%Z -> (- n <= mp <= n)%Z -> (- n <= m <= n)%Z ->
          exists r, aget H (nmpm_index n mp m) = Some r /\
            forall j, (j < length cosb)%nat -> r (Z.of_nat j) = f n mp m (nth j cosb 0) (nth j sinr 0))) /\
  (* the symmetries of H hold exactly *)
  (forall n mp m c s, f n m mp c s = f n mp m c s /\ f n (- mp)%Z (- m)%Z c s = f n mp m c s) /\
  (forall c s, f 0%Z 0%Z 0%Z c s = 1) /\
  (forall n mp m c s, (- n <= mp <= n)%Z -> (- n <= m <= n)%Z ->
     f n mp m c (- s) = if Z.even (mp + m) then f n mp m c s else - f n mp m c s) /\
  (forall n m c s, (- n <= m <= n)%Z ->
     f n 0%Z m (- c) s = if Z.even (n + m) then f n 0%Z m c s else - f n 0%Z m c s).
Proof.
  exists (fun n mp m c s => Hall RN64 c s n mp m). split; [|split; [|split; [|split]]].
  - intros n_max hc cosb sinb ws Hn E N B S sinr.
    assert (A : angles_ok cosb sinb) by (split; [auto|]; split; [now apply Forall_forall|auto]).
    assert (Q : forall (r : row) n mp m, (forall j, r j = Hall RN64 (row_of cosb j) (row_of (sines_r RN64 cosb sinb) j) n mp m) ->
      forall j, (j < length cosb)%nat -> r (Z.of_nat j) = Hall RN64 (nth j cosb 0) (nth j sinr 0) n mp m).
    { intros r n mp m V j _. rewrite V. unfold row_of. rewrite Nat2Z.id. reflexivity. }
    split; intros W.
    + destruct (call_r_run RN64 n_max hc cosb sinb ws Hn E A W) as (H & EH & LH & V). exists H. split; [exact EH|]. split; [exact LH|].
      intros n mp m H1 H2. destruct (V n mp m H1 H2) as (r & Er & Vr). exists r. split; [exact Er|]. now apply Q.
    + destruct (full_call_r_run RN64 n_max hc cosb sinb ws Hn E A W) as (H & EH & LH & V). exists H. split; [exact EH|]. split; [exact LH|].
      intros n mp m H1 H2 H3. destruct (V n mp m H1 H2 H3) as (r & Er & Vr). exists r. split; [exact Er|]. now apply Q.
  - intros n mp m c s. split; [apply Hall_transpose|apply Hall_negate].
  - reflexivity.
  - intros n mp m c s Hp Hm. unfold Hall. destruct (Z.ltb_spec (mp + m) 0).
    + rewrite (Hflt_sin RN64 RN64_opp) by lia. unfold par.
      replace (- Z.max mp m + - Z.min mp m)%Z with (- (mp + m))%Z by lia. rewrite Z.even_opp. reflexivity.
    + rewrite (Hflt_sin RN64 RN64_opp) by lia. unfold par. replace (Z.min mp m + Z.max mp m)%Z with (mp + m)%Z by lia. reflexivity.
  - intros n m c s Hm.
    assert (E : forall c, Hall RN64 c s n 0 m = Hflt RN64 c s n 0 (Z.abs m))
      by (intros c'; unfold Hall; destruct (Z.ltb_spec (0 + m) 0); f_equal; lia).
    rewrite !E, (Hflt_cos RN64 RN64_opp) by lia. unfold par. rewrite !Z.even_add, even_abs. reflexivity.
Qed.

Lemma C71_exact :
  HCalculator_init_r (fun x => x) = HCalculator_init /\ HCalculator_call_r (fun x => x) = HCalculator_call /\
  HCalculator_full_call_r (fun x => x) = HCalculator_full_call.
Proof. split; [|split]; reflexivity. Qed.

Lemma C71_init :
  forall n_max, ((0 <= n_max)%Z -> exists hc, HCalculator_init64 n_max = Ok hc /\ hc_n_max hc = n_max) /\
  ((n_max < 0)%Z -> HCalculator_init64 n_max = Err ValueError).
Proof.
  intros n_max. split; intros H.
  - eexists. split; [apply init_r_ok; auto|reflexivity].
  - unfold HCalculator_init64, HCalculator_init_r. destruct (Z.ltb_spec n_max 0); [auto|lia].
Qed.

(** The entry (2, -1, 2) at cos = 3/5, from a wedge of n_max = 2 and from full storage with n_max = 5 and another angle *)
Lemma C71_example :
  exists hc hc' H H' r r', HCalculator_init64 2 = Ok hc /\ HCalculator_init64 5 = Ok hc' /\
    HCalculator_call64 hc [3/5] (Some [4/5]) None = Ok H /\ HCalculator_full_call64 hc' [1/2; 3/5] (Some [1; 4/5]) None = Ok H' /\
    aget H (wedge_index 2 (-1) 2) = Some r /\ aget H' (nmpm_index 2 2 (-1)) = Some r' /\ r 0%Z = r' 1%Z.
Proof.
  destruct C71_one_function as (f & A & B & _).
  destruct (proj1 (C71_init 2) ltac:(lia)) as (hc & E & _). destruct (proj1 (C71_init 5) ltac:(lia)) as (hc' & E' & _).
  destruct (A 2%Z hc [3/5] (Some [4/5]) None) as (W & _); [lia|auto|discriminate|intros c [<-|[]]; lra|auto|].
  destruct (A 5%Z hc' [1/2; 3/5] (Some [1; 4/5]) None) as (_ & W'); [lia|auto|discriminate|intros c [<-|[<-|[]]]; lra|auto|].
  destruct (W I) as (H & EH & _ & V). destruct (W' I) as (H' & EH' & _ & V').
  destruct (V 2%Z (-1)%Z 2%Z) as (r & Er & Vr); [lia|lia|]. destruct (V' 2%Z 2%Z (-1)%Z) as (r' & Er' & Vr'); [lia|lia|lia|].
  exists hc, hc', H, H', r, r'. repeat (split; [assumption|]).
  change 0%Z with (Z.of_nat 0). change 1%Z with (Z.of_nat 1). rewrite Vr, Vr' by (cbn; lia). cbn [nth]. symmetry. apply B.
Qed.
