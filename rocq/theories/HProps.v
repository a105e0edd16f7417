(** Theorems about the H calculators, from the correctness of their steps. *)
Require Import ZArith Lia Reals Lra Bool List.
From Verif Require Import Base BaseProofs IndexModel IndexProofs IndexProofs2 IndexProps Fact HSpec HMath HModel HProofs HCoef HMono.
Import ListNotations.
Open Scope R_scope.

(** ** The two storages *)
Lemma wedge_T n_max n mp m : T n_max n mp m -> in_wedge n_max n mp m.
Proof. unfold T, in_wedge. lia. Qed.
Lemma wedge_bnd n_max n mp m : T n_max n mp m -> (0 <= wedge_index n mp m < wedge_size n_max)%Z.
Proof. intros. now apply wedge_index_bounds, wedge_T. Qed.
Lemma wedge_inj n_max n mp m n' mp' m' : T n_max n mp m -> T n_max n' mp' m' ->
  wedge_index n mp m = wedge_index n' mp' m' -> n = n' /\ mp = mp' /\ m = m'.
Proof.
  intros H H' E. pose proof (wedge_index_lex n_max n mp m n' mp' m' (wedge_T _ _ _ _ H) (wedge_T _ _ _ _ H')) as (_ & A).
  pose proof (wedge_index_lex n_max n' mp' m' n mp m (wedge_T _ _ _ _ H') (wedge_T _ _ _ _ H)) as (_ & B). lia.
Qed.
Lemma wedge_lin n mp m k : (wedge_index n mp (m + k) = wedge_index n mp m + k)%Z.
Proof. rewrite !wedge_index_eq. lia. Qed.
Lemma nmpm_lin n mp m k : (nmpm_index n mp (m + k) = nmpm_index n mp m + k)%Z.
Proof. rewrite !C07_nmpm, !LMpM_index_eq. lia. Qed.
Definition F (n_max n mp m : Z) : Prop := (0 <= n <= n_max /\ - n <= mp <= n /\ - n <= m <= n)%Z.
Lemma T_F n_max n mp m : T n_max n mp m -> F n_max n mp m.
Proof. unfold T, F. lia. Qed.
Lemma nmpm_bnd n_max n mp m : F n_max n mp m -> (0 <= nmpm_index n mp m < LMpM_total_size 0 n_max)%Z.
Proof. unfold F. intros. rewrite C07_nmpm. apply LMpM_index_bounds; lia. Qed.
Lemma nmpm_inj n_max n mp m n' mp' m' : F n_max n mp m -> F n_max n' mp' m' ->
  nmpm_index n mp m = nmpm_index n' mp' m' -> n = n' /\ mp = mp' /\ m = m'.
Proof. unfold F. rewrite !C07_nmpm. intros H H' E. apply (LMpM_index_inj _ _ _ _ _ _ 0); auto; lia. Qed.

(** ** The steps, with the coefficients the constructor stores *)
Lemma wedge_steps n_max (cols : Z -> Prop) al be cosb sinb st : (1 <= n_max)%Z ->
  (forall j, cols j -> al j * al j + be j * be j = 1) ->
  (forall j, cols j -> cosb j = al j * al j - be j * be j) ->
  (forall j, cols j -> sinb j = 2 * (al j * be j)) ->
  lens n_max (wedge_size n_max) st -> exists st',
  (do st <- step_1 st;
   do st <- step_2 wedge_index (coef_arr coef_g (pairs_nm n_max)) (coef_arr coef_h (pairs_nm n_max)) n_max cosb sinb st;
   do st <- step_3 wedge_index (coef_arr coef_a (pairs_nabsm n_max)) (coef_arr coef_b (pairs_nm n_max)) n_max cosb sinb st;
   do st <- step_4 wedge_index (coef_arr coef_d (pairs_nm n_max)) n_max st;
   step_5 wedge_index (coef_arr coef_d (pairs_nm n_max)) n_max st) = Ok st'
  /\ lens n_max (wedge_size n_max) st' /\ fillw wedge_index n_max cols al be st' (fun _ _ _ => True).
Proof.
  intros Hn U C S L. apply steps_ok; auto.
  - apply wedge_bnd.
  - apply wedge_inj.
  - apply wedge_lin.
  - intros. apply crd_nm; [lia|lia|lia|]. apply coef_g_ok; lia.
  - intros. apply crd_nm; [lia|lia|lia|]. apply coef_h_ok; lia.
  - intros. apply crd_nabsm; [lia|lia|lia|]. apply coef_a_ok; lia.
  - intros. apply crd_nm; [lia|lia|lia|]. apply coef_b_ok; lia.
  - intros. apply crd_nm; [lia|lia|lia|]. apply coef_d_ok; lia.
Qed.
Lemma full_steps n_max size (cols : Z -> Prop) al be cosb sinb st : (1 <= n_max)%Z -> (LMpM_total_size 0 n_max <= size)%Z ->
  (forall j, cols j -> al j * al j + be j * be j = 1) ->
  (forall j, cols j -> cosb j = al j * al j - be j * be j) ->
  (forall j, cols j -> sinb j = 2 * (al j * be j)) ->
  lens n_max size st -> exists st',
  (do st <- step_1 st;
   do st <- step_2 nmpm_index (coef_arr coef_g (pairs_nm n_max)) (coef_arr coef_h (pairs_nm n_max)) n_max cosb sinb st;
   do st <- step_3 nmpm_index (coef_arr coef_a (pairs_nabsm n_max)) (coef_arr coef_b (pairs_nm n_max)) n_max cosb sinb st;
   do st <- step_4 nmpm_index (coef_arr coef_d (pairs_nm n_max)) n_max st;
   step_5 nmpm_index (coef_arr coef_d (pairs_nm n_max)) n_max st) = Ok st'
  /\ lens n_max size st' /\ fillw nmpm_index n_max cols al be st' (fun _ _ _ => True).
Proof.
  intros Hn Hs U C S L. apply steps_ok; auto.
  - intros n mp m H. pose proof (nmpm_bnd n_max n mp m (T_F _ _ _ _ H)). lia.
  - intros n mp m n' mp' m' H H'. apply (nmpm_inj n_max); now apply T_F.
  - apply nmpm_lin.
  - intros. apply crd_nm; [lia|lia|lia|]. apply coef_g_ok; lia.
  - intros. apply crd_nm; [lia|lia|lia|]. apply coef_h_ok; lia.
  - intros. apply crd_nabsm; [lia|lia|lia|]. apply coef_a_ok; lia.
  - intros. apply crd_nm; [lia|lia|lia|]. apply coef_b_ok; lia.
  - intros. apply crd_nm; [lia|lia|lia|]. apply coef_d_ok; lia.
Qed.

(** ** Step 6 *)
Section Step6.
Variables (n_max size : Z) (cols : Z -> Prop) (al be : Z -> R).
Hypothesis Hn : (1 <= n_max)%Z.
Hypothesis Hs : (LMpM_total_size 0 n_max <= size)%Z.
Definition fillf (st : hst) (Q : Z -> Z -> Z -> Prop) : Prop :=
  forall n mp m, F n_max n mp m -> Q n mp m -> is cols (aget (Hw st) (nmpm_index n mp m)) (HH al be n mp m).
Lemma wrf_fill st n mp m r (Q Q' : Z -> Z -> Z -> Prop) : alen (Hw st) = size -> fillf st Q -> F n_max n mp m ->
  (forall j, cols j -> r j = HH al be n mp m j) ->
  (forall n' mp' m', F n_max n' mp' m' -> Q' n' mp' m' -> Q n' mp' m' \/ (n' = n /\ mp' = mp /\ m' = m)) ->
  exists st', wrw st (nmpm_index n mp m) r = Ok st' /\ alen (Hw st') = size /\ fillf st' Q'.
Proof.
  intros L Hf HF V HQ. pose proof (nmpm_bnd _ _ _ _ HF) as B. unfold wrw, hwr. rewrite wr_ok by lia. cbn [bind].
  eexists. split; [reflexivity|]. cbn [Hw alen aget]. split; [exact L|].
  intros n' mp' m' HF' HQ'. cbn [Hw aget].
  destruct (HQ _ _ _ HF' HQ') as [q|(-> & -> & ->)].
  - destruct (Z.eq_dec (nmpm_index n' mp' m') (nmpm_index n mp m)) as [E|D].
    + destruct (nmpm_inj _ _ _ _ _ _ _ HF' HF E) as (-> & -> & ->). unfold upd. rewrite Z.eqb_refl. exists r. auto.
    + rewrite upd_other by auto. now apply Hf.
  - rewrite upd_same. exists r. auto.
Qed.
Lemma fillf_sub st (Q Q' : Z -> Z -> Z -> Prop) : fillf st Q -> (forall n mp m, F n_max n mp m -> Q' n mp m -> Q n mp m) -> fillf st Q'.
Proof. intros Hf H n mp m HF HQ. apply Hf; auto. Qed.
Lemma rdf_fill st (Q : Z -> Z -> Z -> Prop) n mp m : alen (Hw st) = size -> fillf st Q -> F n_max n mp m -> Q n mp m ->
  exists r, hrd (Hw st) (nmpm_index n mp m) = Ok r /\ forall j, cols j -> r j = HH al be n mp m j.
Proof. intros L Hf HF HQ. apply hrd_is; [pose proof (nmpm_bnd _ _ _ _ HF); lia|]. now apply Hf. Qed.

Lemma step_6_ok st : alen (Hw st) = size -> fillf st (fun _ mp m => Z.abs mp <= m)%Z ->
  exists st', step_6 n_max st = Ok st' /\ alen (Hw st') = size /\ fillf st' (fun _ _ _ => True).
Proof.
  intros L Hf. unfold step_6.
  assert (A : exists s1, for_range 1 (n_max + 1) (fun n st =>
    for_range 1 (n + 1) (fun mp st =>
      for_range (Z.max (- mp) (- n)) mp (fun m st =>
        do x <- hrd (Hw st) (nmpm_index n m mp);
        wrw st (nmpm_index n mp m) x) st) st) st = Ok s1 /\ alen (Hw s1) = size /\ fillf s1 (fun _ mp m => 0 <= mp + m)%Z).
  { pose (P := fun (n : Z) s => alen (Hw s) = size /\ fillf s (fun k mp m => Z.abs mp <= m \/ (Z.abs m <= mp /\ k < n))%Z).
    destruct (for_range_inv P 1 (n_max + 1) (fun n st =>
      for_range 1 (n + 1) (fun mp st =>
        for_range (Z.max (- mp) (- n)) mp (fun m st =>
          do x <- hrd (Hw st) (nmpm_index n m mp);
          wrw st (nmpm_index n mp m) x) st) st) st) as (s1 & E1 & L1 & F1); [lia| | |].
    { split; [auto|]. eapply fillf_sub; [exact Hf|]. unfold F. cbv beta. lia. }
    2:{ exists s1. split; [exact E1|]. split; [auto|]. eapply fillf_sub; [exact F1|]. unfold F. cbv beta. lia. }
    intros n s Hn' (Ls & Fs).
    pose (P2 := fun (p : Z) s => alen (Hw s) = size /\
       fillf s (fun k mp m => Z.abs mp <= m \/ (Z.abs m <= mp /\ (k < n \/ (k = n /\ mp < p))))%Z).
    destruct (for_range_inv P2 1 (n + 1) (fun mp st =>
        for_range (Z.max (- mp) (- n)) mp (fun m st =>
          do x <- hrd (Hw st) (nmpm_index n m mp);
          wrw st (nmpm_index n mp m) x) st) s) as (s2 & E2 & L2 & F2); [lia| | |].
    { split; [auto|]. eapply fillf_sub; [exact Fs|]. unfold F. cbv beta. lia. }
    2:{ exists s2. split; [exact E2|]. split; [auto|]. eapply fillf_sub; [exact F2|]. unfold F. cbv beta. lia. }
    clear dependent s. intros p s Hp (Ls & Fs).
    pose (P3 := fun (q : Z) s => alen (Hw s) = size /\
       fillf s (fun k mp m => Z.abs mp <= m \/ (Z.abs m <= mp /\ (k < n \/ (k = n /\ (mp < p \/ (mp = p /\ m < q))))))%Z).
    destruct (for_range_inv P3 (Z.max (- p) (- n)) p (fun m st =>
          do x <- hrd (Hw st) (nmpm_index n m p);
          wrw st (nmpm_index n p m) x) s) as (s2 & E2 & L2 & F2); [lia| | |].
    { split; [auto|]. eapply fillf_sub; [exact Fs|]. unfold F. cbv beta. lia. }
    2:{ exists s2. split; [exact E2|]. split; [auto|]. eapply fillf_sub; [exact F2|]. unfold F. cbv beta. lia. }
    clear dependent s. intros q s Hq (Ls & Fs).
    destruct (rdf_fill s _ n q p Ls Fs) as (x & Ex & Vx); [unfold F; lia|cbv beta; lia|]. rewrite Ex. cbn [bind].
    destruct (wrf_fill s n p q x _
      (fun k mp m => Z.abs mp <= m \/ (Z.abs m <= mp /\ (k < n \/ (k = n /\ (mp < p \/ (mp = p /\ m < q + 1))))))%Z Ls Fs)
      as (s' & E' & L' & F'); [unfold F; lia| |unfold F; cbv beta; lia|].
    { intros j Hj. rewrite Vx by auto. unfold HH. apply Hd_transpose; lia. }
    exists s'. split; [exact E'|]. split; auto. }
  destruct A as (s1 & -> & L1 & F1). cbn [bind]. clear dependent st.
  pose (P := fun (n : Z) s => alen (Hw s) = size /\ fillf s (fun k mp m => 0 <= mp + m \/ k < n)%Z).
  match goal with |- exists st', for_range _ _ ?body _ = Ok st' /\ _ =>
    destruct (for_range_inv P 1 (n_max + 1) body s1) as (s' & E' & L' & F') end; [lia| | |].
  { split; [auto|]. eapply fillf_sub; [exact F1|]. unfold F. cbv beta. lia. }
  2:{ exists s'. split; [exact E'|]. split; [auto|]. eapply fillf_sub; [exact F'|]. unfold F. cbv beta. lia. }
  clear dependent s1. intros n s Hn' (Ls & Fs).
  pose (P2 := fun (p : Z) s => alen (Hw s) = size /\ fillf s (fun k mp m => 0 <= mp + m \/ k < n \/ (k = n /\ mp < p))%Z).
  match goal with |- exists st', for_range _ _ ?body _ = Ok st' /\ _ =>
    destruct (for_range_inv P2 (- n) n body s) as (s2 & E2 & L2 & F2) end; [lia| | |].
  { split; [auto|]. eapply fillf_sub; [exact Fs|]. unfold F. cbv beta. lia. }
  2:{ exists s2. split; [exact E2|]. split; [auto|]. eapply fillf_sub; [exact F2|]. unfold F. cbv beta. lia. }
  clear dependent s. intros p s Hp (Ls & Fs).
  pose (P3 := fun (q : Z) s => alen (Hw s) = size /\
     fillf s (fun k mp m => 0 <= mp + m \/ k < n \/ (k = n /\ (mp < p \/ (mp = p /\ m < q))))%Z).
  match goal with |- exists st', for_range _ _ ?body _ = Ok st' /\ _ =>
    destruct (for_range_inv P3 (- n) (- p) body s) as (s2 & E2 & L2 & F2) end; [lia| | |].
  { split; [auto|]. eapply fillf_sub; [exact Fs|]. unfold F. cbv beta. lia. }
  2:{ exists s2. split; [exact E2|]. split; [auto|]. eapply fillf_sub; [exact F2|]. unfold F. cbv beta. lia. }
  clear dependent s. intros q s Hq (Ls & Fs).
  destruct (rdf_fill s _ n (- p) (- q) Ls Fs) as (x & Ex & Vx); [unfold F; lia|cbv beta; lia|]. rewrite Ex. cbn [bind].
  destruct (wrf_fill s n p q x _ (fun k mp m => 0 <= mp + m \/ k < n \/ (k = n /\ (mp < p \/ (mp = p /\ m < q + 1))))%Z Ls Fs)
    as (s' & E' & L' & F'); [unfold F; lia| |unfold F; cbv beta; lia|].
  { intros j Hj. rewrite Vx by auto. unfold HH. apply Hd_negate; lia. }
  exists s'. split; [exact E'|]. split; auto.
Qed.
End Step6.

(** ** The arguments *)
Definition in_range (c : R) : Prop := -1 <= c <= 1.
(** The angles a call accepts: at least one, cosines between -1 and 1, and as many sines as cosines when sines are given. *)
Definition angles_ok (cosb : list R) (sinb : option (list R)) : Prop :=
  cosb <> [] /\ Forall in_range cosb /\ match sinb with Some s => length s = length cosb | None => True end.
Definition sines (cosb : list R) (sinb : option (list R)) : list R :=
  match sinb with Some s => s | None => map (fun c => sqrt (1 - c ^ 2)) cosb end.

Lemma out_of_range_false l : out_of_range l = false <-> Forall in_range l.
Proof.
  unfold out_of_range, in_range. induction l as [|c l IH]; cbn [existsb]; [split; auto|].
  rewrite orb_false_iff, IH, Forall_cons_iff. split; intros (A & B); split; auto.
  - destruct (Rlt_dec 1 c); [discriminate|]. destruct (Rlt_dec c (-1)); [discriminate|]. lra.
  - destruct (Rlt_dec 1 c); [lra|]. destruct (Rlt_dec c (-1)); [lra|auto].
Qed.
Lemma check_angles_ok cosb sinb : angles_ok cosb sinb -> check_angles cosb sinb = Ok (sines cosb sinb).
Proof.
  intros (A & B & C). unfold check_angles. destruct cosb as [|c l]; [congruence|].
  replace (out_of_range (c :: l)) with false by (symmetry; now apply out_of_range_false).
  cbn [length Nat.eqb]. destruct sinb as [s|]; [|reflexivity]. cbn [length] in C.
  replace (length s =? S (length l))%nat with true by (symmetry; now apply Nat.eqb_eq). reflexivity.
Qed.
Lemma check_angles_bad cosb sinb : ~ angles_ok cosb sinb -> check_angles cosb sinb = Err ValueError.
Proof.
  intros N. unfold check_angles. destruct cosb as [|c l]; [reflexivity|].
  cbn [length Nat.eqb]. destruct (out_of_range (c :: l)) eqn:E; [reflexivity|].
  apply out_of_range_false in E. destruct sinb as [s|].
  - destruct (Nat.eqb_spec (length s) (S (length l))); [|reflexivity]. exfalso. apply N. split; [discriminate|]. auto.
  - exfalso. apply N. split; [discriminate|]. auto.
Qed.

Definition workspace_ok (size : Z) (ws : option hbuf) : Prop :=
  match ws with Some w => (size <= alen w)%Z | None => True end.

Lemma wedge_size_pos n_max : (0 <= n_max)%Z -> (0 <= wedge_size n_max)%Z.
Proof. intros. unfold wedge_size. apply Z.div_pos; [|lia]. apply Z.mul_nonneg_nonneg; lia. Qed.
Lemma slices_lens n_max ws : (0 <= n_max)%Z -> (workspace_size n_max <= alen ws)%Z ->
  lens n_max (wedge_size n_max) (mkhst (hslice ws 0 (wedge_size n_max))
    (hslice ws (wedge_size n_max) (wedge_size n_max + (n_max + 1) ^ 2)%Z)
    (hslice ws (wedge_size n_max + (n_max + 1) ^ 2)%Z (wedge_size n_max + (n_max + 1) ^ 2 + n_max + 2)%Z)).
Proof.
  intros Hn H. unfold workspace_size in H. pose proof (wedge_size_pos n_max Hn).
  assert (0 <= (n_max + 1) ^ 2)%Z by nia.
  unfold lens, hslice. cbn [Hw Hv Hx alen]. lia.
Qed.
Lemma hzeros_workspace n_max ws : workspace_ok (workspace_size n_max) ws ->
  (workspace_size n_max <= alen (match ws with Some w => w | None => hzeros (workspace_size n_max) end))%Z.
Proof. destruct ws; cbn [workspace_ok]; [auto|]. unfold hzeros. cbn [alen]. lia. Qed.

Lemma init_inv n_max hc : HCalculator_init n_max = Ok hc -> (0 <= n_max)%Z /\
  hc = mkHCalc n_max (coef_arr coef_a (pairs_nabsm n_max)) (coef_arr coef_b (pairs_nm n_max))
    (coef_arr coef_d (pairs_nm n_max)) (coef_arr coef_g (pairs_nm n_max)) (coef_arr coef_h (pairs_nm n_max)).
Proof.
  intros H. destruct (Z_lt_le_dec n_max 0) as [N|N].
  - unfold HCalculator_init in H. destruct (Z.ltb_spec n_max 0); [discriminate|lia].
  - rewrite HCalculator_init_ok in H by auto. apply Ok_inj in H. auto.
Qed.

Lemma bind_assoc {A B C} (a : res A) (f : A -> res B) (g : B -> res C) :
  bind (bind a f) g = bind a (fun x => bind (f x) g).
Proof. destruct a; reflexivity. Qed.

(** The run of a call, after its arguments have been checked. *)
Lemma call_unfold n_max hc cosb sinb ws : HCalculator_init n_max = Ok hc -> angles_ok cosb sinb ->
  HCalculator_call hc cosb sinb ws =
  let w := match ws with Some w => w | None => hzeros (workspace_size n_max) end in
  bind (do st <- step_1 (mkhst (hslice w 0 (wedge_size n_max))
      (hslice w (wedge_size n_max) (wedge_size n_max + (n_max + 1) ^ 2)%Z)
      (hslice w (wedge_size n_max + (n_max + 1) ^ 2)%Z (wedge_size n_max + (n_max + 1) ^ 2 + n_max + 2)%Z));
   do st <- step_2 wedge_index (coef_arr coef_g (pairs_nm n_max)) (coef_arr coef_h (pairs_nm n_max)) n_max (row_of cosb) (row_of (sines cosb sinb)) st;
   do st <- step_3 wedge_index (coef_arr coef_a (pairs_nabsm n_max)) (coef_arr coef_b (pairs_nm n_max)) n_max (row_of cosb) (row_of (sines cosb sinb)) st;
   do st <- step_4 wedge_index (coef_arr coef_d (pairs_nm n_max)) n_max st;
   step_5 wedge_index (coef_arr coef_d (pairs_nm n_max)) n_max st) (fun st => Ok (Hw st)).
Proof.
  intros E A. apply init_inv in E. destruct E as (_ & ->). unfold HCalculator_call. rewrite check_angles_ok by auto. cbn [bind].
  cbv zeta. cbn [hc_n_max hc_a hc_b hc_d hc_g hc_h].
  rewrite !bind_assoc. destruct (step_1 _); [|reflexivity]. cbn [bind].
  rewrite !bind_assoc. destruct (step_2 _ _ _ _ _ _ _); [|reflexivity]. cbn [bind].
  rewrite !bind_assoc. destruct (step_3 _ _ _ _ _ _ _); [|reflexivity]. cbn [bind].
  rewrite !bind_assoc. destruct (step_4 _ _ _ _); reflexivity.
Qed.
Lemma full_call_unfold n_max hc cosb sinb ws : HCalculator_init n_max = Ok hc -> angles_ok cosb sinb ->
  HCalculator_full_call hc cosb sinb ws =
  let w := match ws with Some w => w | None => hzeros (LMpM_total_size 0 n_max) end in
  bind (do st <- step_1 (mkhst w (hzeros ((n_max + 1) ^ 2)%Z) (hzeros (n_max + 2)%Z));
   do st <- step_2 nmpm_index (coef_arr coef_g (pairs_nm n_max)) (coef_arr coef_h (pairs_nm n_max)) n_max (row_of cosb) (row_of (sines cosb sinb)) st;
   do st <- step_3 nmpm_index (coef_arr coef_a (pairs_nabsm n_max)) (coef_arr coef_b (pairs_nm n_max)) n_max (row_of cosb) (row_of (sines cosb sinb)) st;
   do st <- step_4 nmpm_index (coef_arr coef_d (pairs_nm n_max)) n_max st;
   step_5 nmpm_index (coef_arr coef_d (pairs_nm n_max)) n_max st)
   (fun st => do st <- step_6 n_max st; Ok (hslice (Hw st) 0 (LMpM_total_size 0 n_max))).
Proof.
  intros E A. apply init_inv in E. destruct E as (_ & ->). unfold HCalculator_full_call. rewrite check_angles_ok by auto. cbn [bind].
  cbv zeta. cbn [hc_n_max hc_a hc_b hc_d hc_g hc_h].
  rewrite !bind_assoc. destruct (step_1 _); [|reflexivity]. cbn [bind].
  rewrite !bind_assoc. destruct (step_2 _ _ _ _ _ _ _); [|reflexivity]. cbn [bind].
  rewrite !bind_assoc. destruct (step_3 _ _ _ _ _ _ _); [|reflexivity]. cbn [bind].
  rewrite !bind_assoc. destruct (step_4 _ _ _ _); reflexivity.
Qed.

Lemma call_run n_max hc cosb sinb ws (cols : Z -> Prop) al be : (1 <= n_max)%Z -> HCalculator_init n_max = Ok hc -> angles_ok cosb sinb ->
  workspace_ok (workspace_size n_max) ws ->
  (forall j, cols j -> al j * al j + be j * be j = 1) ->
  (forall j, cols j -> row_of cosb j = al j * al j - be j * be j) ->
  (forall j, cols j -> row_of (sines cosb sinb) j = 2 * (al j * be j)) ->
  exists H, HCalculator_call hc cosb sinb ws = Ok H /\ alen H = wedge_size n_max /\
    forall n mp m, (0 <= n <= n_max)%Z -> (Z.abs mp <= m <= n)%Z ->
      exists r, aget H (wedge_index n mp m) = Some r /\ forall j, cols j -> r j = Hd (al j) (be j) n mp m.
Proof.
  intros Hn E A W U C S. rewrite (call_unfold n_max) by auto. cbv zeta.
  match goal with |- context [step_1 ?st0] => set (st := st0) end.
  destruct (wedge_steps n_max cols al be (row_of cosb) (row_of (sines cosb sinb)) st Hn U C S) as (st' & E' & L' & F').
  { apply slices_lens; [lia|]. now apply hzeros_workspace. }
  rewrite E'. cbn [bind]. eexists. split; [reflexivity|]. split; [apply L'|].
  intros n mp m H1 H2. exact (F' n mp m (conj H1 H2) I).
Qed.

Lemma C39_run :
  forall n_max hc cosb sinb, (1 <= n_max)%Z -> HCalculator_init n_max = Ok hc -> angles_ok cosb sinb ->
  exists rows : Z -> row, forall ws, workspace_ok (workspace_size n_max) ws ->
    exists H, HCalculator_call hc cosb sinb ws = Ok H /\ alen H = wedge_size n_max /\
      forall i, (0 <= i < wedge_size n_max)%Z -> aget H i = Some (rows i).
Proof.
  intros n_max hc cosb sinb Hn E A.
  assert (R : forall ws, workspace_ok (workspace_size n_max) ws ->
    exists H, HCalculator_call hc cosb sinb ws = Ok H /\ alen H = wedge_size n_max /\
      forall i, (0 <= i < wedge_size n_max)%Z -> exists r, aget H i = Some r).
  { intros ws W. destruct (call_run n_max hc cosb sinb ws (fun _ => False) (fun _ => 0) (fun _ => 0)) as (H & EH & LH & V); auto; try tauto.
    exists H. split; [exact EH|]. split; [exact LH|]. intros i Hi.
    destruct (wedge_index_onto n_max i ltac:(lia) Hi) as (n & mp & m & (B1 & _ & B3) & <-).
    destruct (V n mp m B1 B3) as (r & Er & _). eauto. }
  pose (blank := fun n => mkarr n (fun _ => None) : hbuf).
  destruct (R (Some (blank (workspace_size n_max)))) as (H0 & E0 & L0 & V0); [cbn; lia|].
  exists (fun i => match aget H0 i with Some r => r | None => fun _ => 0 end).
  intros ws W. destruct (R ws W) as (H & EH & LH & V). exists H. split; [exact EH|]. split; [exact LH|].
  intros i Hi. destruct (V0 i Hi) as (r & Er). rewrite Er.
  rewrite (call_unfold n_max) in E0, EH by auto. cbv zeta in E0, EH.
  set (w := match ws with Some w => w | None => hzeros (workspace_size n_max) end) in *.
  assert (Lw : (workspace_size n_max <= alen w)%Z) by (apply hzeros_workspace; auto).
  match type of E0 with bind (bind (step_1 ?s) _) _ = _ => match type of EH with bind (bind (step_1 ?s') _) _ = _ =>
    assert (P : sle s s') end end.
  { pose proof (slices_lens n_max w ltac:(lia) Lw) as (A1 & A2 & A3).
    pose proof (slices_lens n_max (blank (workspace_size n_max)) ltac:(lia) ltac:(cbn; lia)) as (B1 & B2 & B3).
    split; [|split]; (split; [congruence|]); intros k; left; reflexivity. }
  match type of E0 with ?a = _ => match type of EH with ?b = _ => assert (Q : Rres ble a b) end end.
  { apply Rbind with (R := sle); [|intros ? ? Q; apply Rret; apply Q].
    apply Rbind with (R := sle); [now apply R_step_1|intros ? ? ?].
    apply Rbind with (R := sle); [now apply R_step_2|intros ? ? ?].
    apply Rbind with (R := sle); [now apply R_step_3|intros ? ? ?].
    apply Rbind with (R := sle); [now apply R_step_4|intros ? ? ?].
    now apply R_step_5. }
  destruct (Q _ E0) as (H' & EH' & (_ & P')). rewrite EH in EH'. apply Ok_inj in EH'. subst H'.
  destruct (P' i) as [X|X]; congruence.
Qed.

Lemma row_of_map f l j : (0 <= j < Z.of_nat (length l))%Z -> row_of (map f l) j = f (nth (Z.to_nat j) l 0).
Proof.
  intros H. unfold row_of. rewrite (nth_indep _ 0 (f 0)) by (rewrite map_length; lia). apply map_nth.
Qed.
Lemma angles_cos betas sinb : betas <> [] -> match sinb with Some s => length s = length betas | None => True end ->
  angles_ok (map cos betas) sinb.
Proof.
  intros N S. split; [destruct betas; [congruence|discriminate]|]. split.
  - apply Forall_forall. intros c Hc. apply in_map_iff in Hc. destruct Hc as (b & <- & _). apply COS_bound.
  - destruct sinb; [now rewrite map_length|auto].
Qed.

Lemma C40_wedge :
  forall n_max hc betas ws, (1 <= n_max)%Z -> HCalculator_init n_max = Ok hc -> betas <> [] ->
  workspace_ok (workspace_size n_max) ws ->
  exists H, HCalculator_call hc (map cos betas) (Some (map sin betas)) ws = Ok H /\ alen H = wedge_size n_max /\
    forall n mp m, (0 <= n <= n_max)%Z -> (Z.abs mp <= m <= n)%Z ->
      exists r, aget H (wedge_index n mp m) = Some r /\
        forall j, (0 <= j < Z.of_nat (length betas))%Z -> r j = H_function n mp m (nth (Z.to_nat j) betas 0).
Proof.
  intros n_max hc betas ws Hn E N W.
  destruct (call_run n_max hc (map cos betas) (Some (map sin betas)) ws (fun j => 0 <= j < Z.of_nat (length betas))%Z
    (fun j => cos (nth (Z.to_nat j) betas 0 / 2)) (fun j => sin (nth (Z.to_nat j) betas 0 / 2))) as (H & EH & LH & V); auto.
  - apply angles_cos; [auto|now rewrite map_length].
  - intros j Hj. apply half_angle.
  - intros j Hj. rewrite row_of_map by auto. symmetry. apply half_angle.
  - intros j Hj. cbn [sines]. rewrite row_of_map by auto. symmetry. apply half_angle.
  - exists H. split; [exact EH|]. split; [exact LH|]. intros n mp m H1 H2. destruct (V n mp m H1 H2) as (r & Er & Vr).
    exists r. split; [exact Er|]. intros j Hj. rewrite Vr by auto. symmetry. apply H_function_Hd; lia.
Qed.

Lemma C40_wedge_any :
  forall n_max hc betas ws, (1 <= n_max)%Z -> HCalculator_init n_max = Ok hc -> betas <> [] ->
  workspace_ok (workspace_size n_max) ws ->
  exists H, HCalculator_call hc (map cos betas) (Some (map sin betas)) ws = Ok H /\
    forall n mp m, (0 <= n <= n_max)%Z -> (- n <= mp <= n)%Z -> (- n <= m <= n)%Z ->
      exists r, (let '(n', mp', m') := wedgeify_index n mp m in aget H (wedge_index n' mp' m')) = Some r /\
        forall j, (0 <= j < Z.of_nat (length betas))%Z -> r j = H_function n mp m (nth (Z.to_nat j) betas 0).
Proof.
  intros n_max hc betas ws Hn E N W. destruct (C40_wedge n_max hc betas ws Hn E N W) as (H & EH & _ & V).
  exists H. split; [exact EH|]. intros n mp m H1 H2 H3.
  destruct (wedgeify_in n mp m ltac:(lia) H2 H3) as (mp' & m' & Ew & B & O). rewrite Ew.
  destruct (V n mp' m' H1 B) as (r & Er & Vr). exists r. split; [exact Er|]. intros j Hj. rewrite Vr by auto.
  assert (- n <= mp' <= n)%Z by lia. rewrite !H_function_Hd by lia.
  destruct O as [[= -> ->]|[[= -> ->]|[[= -> ->]|[= -> ->]]]]; auto.
  - apply Hd_transpose; lia.
  - apply Hd_negate; lia.
  - rewrite Hd_negate by lia. apply Hd_transpose; lia.
Qed.

Lemma sines_acos cosb : Forall in_range cosb ->
  sines cosb None = map sin (map acos cosb) /\ cosb = map cos (map acos cosb).
Proof.
  intros H. rewrite !map_map. cbn [sines]. split.
  - apply map_ext_in. intros c Hc. rewrite Forall_forall in H. specialize (H c Hc). unfold in_range in H.
    rewrite sin_acos by lra. f_equal. unfold Rsqr. ring.
  - rewrite <- (map_id cosb) at 1. apply map_ext_in. intros c Hc. rewrite Forall_forall in H. specialize (H c Hc).
    unfold in_range in H. symmetry. apply cos_acos. lra.
Qed.
Lemma call_None n_max hc cosb ws : HCalculator_init n_max = Ok hc -> cosb <> [] -> Forall in_range cosb ->
  HCalculator_call hc cosb None ws = HCalculator_call hc (map cos (map acos cosb)) (Some (map sin (map acos cosb))) ws.
Proof.
  intros E N H. destruct (sines_acos cosb H) as (S & C).
  rewrite !(call_unfold n_max); auto.
  - rewrite <- C. cbn [sines] in *. now rewrite <- S.
  - rewrite <- C. split; [auto|]. split; [auto|]. rewrite <- S. cbn [sines]. now rewrite map_length.
  - split; [auto|]. split; auto.
Qed.

Lemma C40_wedge_default_sine :
  forall n_max hc cosb ws, (1 <= n_max)%Z -> HCalculator_init n_max = Ok hc -> cosb <> [] ->
  (forall c, In c cosb -> -1 <= c <= 1) -> workspace_ok (workspace_size n_max) ws ->
  exists H, HCalculator_call hc cosb None ws = Ok H /\ alen H = wedge_size n_max /\
    forall n mp m, (0 <= n <= n_max)%Z -> (Z.abs mp <= m <= n)%Z ->
      exists r, aget H (wedge_index n mp m) = Some r /\
        forall j, (0 <= j < Z.of_nat (length cosb))%Z -> r j = H_function n mp m (acos (nth (Z.to_nat j) cosb 0)).
Proof.
  intros n_max hc cosb ws Hn E N B W.
  assert (H : Forall in_range cosb) by (apply Forall_forall; exact B).
  rewrite (call_None n_max) by auto.
  destruct (C40_wedge n_max hc (map acos cosb) ws Hn E) as (H' & EH & LH & V); auto.
  { destruct cosb; [congruence|discriminate]. }
  exists H'. split; [exact EH|]. split; [exact LH|]. intros n mp m H1 H2. destruct (V n mp m H1 H2) as (r & Er & Vr).
  exists r. split; [exact Er|]. intros j Hj. rewrite Vr by (now rewrite map_length). f_equal.
  rewrite (nth_indep _ 0 (acos 0)) by (rewrite map_length; lia). apply map_nth.
Qed.

(** ** The full-storage calculator *)
Lemma full_call_run n_max hc cosb sinb ws (cols : Z -> Prop) al be : (1 <= n_max)%Z -> HCalculator_init n_max = Ok hc -> angles_ok cosb sinb ->
  workspace_ok (LMpM_total_size 0 n_max) ws ->
  (forall j, cols j -> al j * al j + be j * be j = 1) ->
  (forall j, cols j -> row_of cosb j = al j * al j - be j * be j) ->
  (forall j, cols j -> row_of (sines cosb sinb) j = 2 * (al j * be j)) ->
  exists H, HCalculator_full_call hc cosb sinb ws = Ok H /\ alen H = LMpM_total_size 0 n_max /\
    forall n mp m, (0 <= n <= n_max)%Z -> (- n <= mp <= n)%Z -> (- n <= m <= n)%Z ->
      exists r, aget H (nmpm_index n mp m) = Some r /\ forall j, cols j -> r j = Hd (al j) (be j) n mp m.
Proof.
  intros Hn E A W U C S. rewrite (full_call_unfold n_max) by auto. cbv zeta.
  set (w := match ws with Some w => w | None => hzeros (LMpM_total_size 0 n_max) end).
  assert (Lw : (LMpM_total_size 0 n_max <= alen w)%Z) by (unfold w; destruct ws; cbn [workspace_ok] in W; cbn [hzeros alen]; lia).
  match goal with |- context [step_1 ?st0] => set (st := st0) end.
  destruct (full_steps n_max (alen w) cols al be (row_of cosb) (row_of (sines cosb sinb)) st Hn Lw U C S) as (st' & E' & L' & F').
  { unfold lens, st. cbn [Hw Hv Hx hzeros alen]. auto. }
  rewrite E'. cbn [bind].
  destruct (step_6_ok n_max (alen w) cols al be Hn Lw st') as (s6 & E6 & L6 & F6).
  { apply L'. }
  { intros n mp m (B1 & B2 & B3) Q. apply (F' n mp m); [unfold T; lia|auto]. }
  rewrite E6. cbn [bind]. eexists. split; [reflexivity|]. cbn [hslice alen]. rewrite L6.
  pose proof (nmpm_bnd n_max 0 0 0 ltac:(unfold F; lia)).
  split; [lia|]. intros n mp m B1 B2 B3. destruct (F6 n mp m (conj B1 (conj B2 B3)) I) as (r & Er & Vr).
  exists r. split; [|exact Vr]. unfold hslice. cbn [aget]. rewrite Z.min_l by lia. exact Er.
Qed.

Lemma C40_full :
  forall n_max hc betas ws, (1 <= n_max)%Z -> HCalculator_init n_max = Ok hc -> betas <> [] ->
  workspace_ok (LMpM_total_size 0 n_max) ws ->
  exists H, HCalculator_full_call hc (map cos betas) (Some (map sin betas)) ws = Ok H /\ alen H = LMpM_total_size 0 n_max /\
    forall n mp m, (0 <= n <= n_max)%Z -> (- n <= mp <= n)%Z -> (- n <= m <= n)%Z ->
      exists r, aget H (nmpm_index n mp m) = Some r /\
        forall j, (0 <= j < Z.of_nat (length betas))%Z -> r j = H_function n mp m (nth (Z.to_nat j) betas 0).
Proof.
  intros n_max hc betas ws Hn E N W.
  destruct (full_call_run n_max hc (map cos betas) (Some (map sin betas)) ws (fun j => 0 <= j < Z.of_nat (length betas))%Z
    (fun j => cos (nth (Z.to_nat j) betas 0 / 2)) (fun j => sin (nth (Z.to_nat j) betas 0 / 2))) as (H & EH & LH & V); auto.
  - apply angles_cos; [auto|now rewrite map_length].
  - intros j Hj. apply half_angle.
  - intros j Hj. rewrite row_of_map by auto. symmetry. apply half_angle.
  - intros j Hj. cbn [sines]. rewrite row_of_map by auto. symmetry. apply half_angle.
  - exists H. split; [exact EH|]. split; [exact LH|]. intros n mp m H1 H2 H3. destruct (V n mp m H1 H2 H3) as (r & Er & Vr).
    exists r. split; [exact Er|]. intros j Hj. rewrite Vr by auto. symmetry. apply H_function_Hd; lia.
Qed.

Lemma C39_full_run :
  forall n_max hc cosb sinb, (1 <= n_max)%Z -> HCalculator_init n_max = Ok hc -> angles_ok cosb sinb ->
  exists rows : Z -> Z -> Z -> row, forall ws,
    match ws with Some w => alen w = LMpM_total_size 0 n_max | None => True end ->
    exists H, HCalculator_full_call hc cosb sinb ws = Ok H /\ alen H = LMpM_total_size 0 n_max /\
      forall n mp m, (0 <= n <= n_max)%Z -> (- n <= mp <= n)%Z -> (- n <= m <= n)%Z ->
        aget H (nmpm_index n mp m) = Some (rows n mp m).
Proof.
  intros n_max hc cosb sinb Hn E A.
  set (size := LMpM_total_size 0 n_max).
  assert (R : forall ws, match ws with Some w => alen w = size | None => True end ->
    exists H, HCalculator_full_call hc cosb sinb ws = Ok H /\ alen H = size /\
      forall n mp m, F n_max n mp m -> exists r, aget H (nmpm_index n mp m) = Some r).
  { intros ws W. destruct (full_call_run n_max hc cosb sinb ws (fun _ => False) (fun _ => 0) (fun _ => 0)) as (H & EH & LH & V); auto; try tauto.
    { destruct ws; cbn [workspace_ok]; [fold size; lia|auto]. }
    exists H. split; [exact EH|]. split; [exact LH|]. intros n mp m (B1 & B2 & B3).
    destruct (V n mp m B1 B2 B3) as (r & Er & _). eauto. }
  pose (blank := mkarr size (fun _ => None) : hbuf).
  destruct (R (Some blank)) as (H0 & E0 & L0 & V0); [reflexivity|].
  exists (fun n mp m => match aget H0 (nmpm_index n mp m) with Some r => r | None => fun _ => 0 end).
  intros ws W. destruct (R ws W) as (H & EH & LH & V). exists H. split; [exact EH|]. split; [exact LH|].
  intros n mp m B1 B2 B3. assert (HF : F n_max n mp m) by (split; [|split]; auto).
  destruct (V0 n mp m HF) as (r & Er). rewrite Er.
  rewrite (full_call_unfold n_max) in E0, EH by auto. cbv zeta in E0, EH. fold size in E0, EH.
  set (w := match ws with Some w => w | None => hzeros size end) in *.
  assert (Lw : alen w = size) by (unfold w; destruct ws; auto).
  match type of E0 with bind (bind (step_1 ?s) _) _ = _ => match type of EH with bind (bind (step_1 ?s') _) _ = _ =>
    assert (P : sle s s') end end.
  { split; [|split]; (split; [auto|]); intros k; [left|right|right]; reflexivity. }
  match type of E0 with ?a = _ => match type of EH with ?b = _ => assert (Q : Rres ble a b) end end.
  { apply Rbind with (R := sle).
    - apply Rbind with (R := sle); [now apply R_step_1|intros ? ? ?].
      apply Rbind with (R := sle); [now apply R_step_2|intros ? ? ?].
      apply Rbind with (R := sle); [now apply R_step_3|intros ? ? ?].
      apply Rbind with (R := sle); [now apply R_step_4|intros ? ? ?].
      now apply R_step_5.
    - intros s s' Hss. apply Rbind with (R := sle); [now apply R_step_6|]. intros t t' ((Lt & At) & _). apply Rret.
      unfold hslice. split; cbn [alen aget]; [now rewrite Lt|]. intros k. rewrite Lt. apply At. }
  destruct (Q _ E0) as (H' & EH' & (_ & P')). rewrite EH in EH'. apply Ok_inj in EH'. subst H'.
  destruct (P' (nmpm_index n mp m)) as [X|X]; congruence.
Qed.

(** ** Arguments that are rejected *)
Lemma C39_rejects :
  forall n_max cosb sinb ws,
  (HCalculator_init n_max = Err ValueError <-> (n_max < 0)%Z) /\
  (forall hc, HCalculator_init n_max = Ok hc ->
     cosb = [] \/ (exists c, In c cosb /\ (c < -1 \/ 1 < c)) \/ (exists s, sinb = Some s /\ length s <> length cosb) ->
     HCalculator_call hc cosb sinb ws = Err ValueError /\ HCalculator_full_call hc cosb sinb ws = Err ValueError).
Proof.
  intros n_max cosb sinb ws. split.
  - split; intros H.
    + destruct (Z_lt_le_dec n_max 0); [auto|]. rewrite HCalculator_init_ok in H by auto. discriminate.
    + unfold HCalculator_init. destruct (Z.ltb_spec n_max 0); [auto|lia].
  - intros hc E H. assert (N : ~ angles_ok cosb sinb).
    { intros (A & B & C). destruct H as [H|[(c & Hc & H)|(s & -> & H)]]; [auto| |auto].
      rewrite Forall_forall in B. specialize (B c Hc). unfold in_range in B. lra. }
    unfold HCalculator_call, HCalculator_full_call. rewrite check_angles_bad by auto. auto.
Qed.

(** ** n_max = 0 *)
Lemma C46_n_max_0 :
  exists hc, HCalculator_init 0 = Ok hc /\
  forall cosb sinb ws, cosb <> [] -> (forall c, In c cosb -> -1 <= c <= 1) ->
  match sinb with Some s => length s = length cosb | None => True end ->
  (match ws with Some w => (1 <= alen w)%Z | None => True end -> HCalculator_call hc cosb sinb ws = Err OutOfBounds) /\
  (match ws with Some w => alen w = 1%Z | None => True end -> HCalculator_full_call hc cosb sinb ws = Err OutOfBounds).
Proof.
  eexists. split; [apply HCalculator_init_ok; lia|]. intros cosb sinb ws N B S.
  assert (A : angles_ok cosb sinb) by (split; [auto|]; split; [now apply Forall_forall|auto]).
  assert (O : forall ix (g h : cbuf) c sn st r, alen (Hw st) = 1%Z -> (2 <= ix 1 0 1)%Z -> step_1 st = Ok r -> step_2 ix g h 0 c sn r = Err OutOfBounds).
  { intros ix g h c sn st r L Hi H. unfold step_1, wrw, hwr in H. rewrite wr_ok in H by lia. cbn [bind] in H. apply Ok_inj in H. subst r.
    unfold step_2, wrw, hwr. cbv zeta. rewrite wr_oob by (cbn [Hw alen]; lia). reflexivity. }
  assert (P : forall st, alen (Hw st) = 1%Z -> exists r, step_1 st = Ok r)
    by (intros st L; unfold step_1, wrw, hwr; rewrite wr_ok by lia; cbn [bind]; eauto).
  split; intros W.
  - rewrite (call_unfold 0) by (auto; apply HCalculator_init_ok; lia). cbv zeta.
    match goal with |- context [step_1 ?st0] => set (st := st0) end.
    assert (L : alen (Hw st) = 1%Z).
    { unfold st, hslice. cbn [Hw alen]. change (wedge_size 0) with 1%Z. destruct ws as [w|]; [lia|]. reflexivity. }
    destruct (P st L) as (r & E). rewrite E. cbn [bind]. rewrite (O wedge_index _ _ _ _ st r L) by (auto; reflexivity || (vm_compute; discriminate)).
    reflexivity.
  - rewrite (full_call_unfold 0) by (auto; apply HCalculator_init_ok; lia). cbv zeta.
    match goal with |- context [step_1 ?st0] => set (st := st0) end.
    assert (L : alen (Hw st) = 1%Z).
    { unfold st. cbn [Hw]. destruct ws as [w|]; [lia|]. reflexivity. }
    destruct (P st L) as (r & E). rewrite E. cbn [bind]. rewrite (O nmpm_index _ _ _ _ st r L) by (auto; vm_compute; discriminate).
    reflexivity.
Qed.
