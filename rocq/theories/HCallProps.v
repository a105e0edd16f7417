(** C53: the H calculators called with arrays of any shape and memory layout. *)
Require Import ZArith Lia List Reals Lra Bool Permutation.
From Verif Require Import Base IndexModel Fact HSpec HMath HModel HCoef HProps HCallModel HCallSpec.
Import ListNotations.
Open Scope R_scope.

(** ** Orders of the elements. *)
Lemma in_positions sh p : In p (positions sh) <-> Forall2 (fun n i => 0 <= i < n)%Z sh p.
Proof.
  revert p. induction sh as [|n sh IH]; intros p; cbn [positions].
  - split; [intros [<-|[]]; constructor|]. intros H. inversion H. left. auto.
  - rewrite in_flat_map. split.
    + intros (i & Hi & Hp). apply in_map_iff in Hp. destruct Hp as (q & <- & Hq). constructor; [apply in_zrange; auto|apply IH; auto].
    + intros H. inversion H as [|? i ? q Hi Hq]; subst. exists i. split; [apply in_zrange; auto|]. apply in_map. apply IH. auto.
Qed.

Lemma NoDup_zrange a b : NoDup (zrange a b).
Proof.
  apply (NoDup_nth _ 0%Z). intros i j Hi Hj E. rewrite zrange_length in Hi, Hj.
  rewrite <- (Nat2Z.id i), <- (Nat2Z.id j) in E. rewrite !zrange_nth in E by lia. lia.
Qed.

Lemma NoDup_join {A} (l m : list A) : NoDup l -> NoDup m -> (forall x, In x l -> ~ In x m) -> NoDup (l ++ m).
Proof.
  induction l as [|a l IH]; intros Hl Hm D; [exact Hm|]. inversion Hl; subst. cbn [app]. constructor.
  - rewrite in_app_iff. intros [X|X]; [auto|]. apply (D a); [left|]; auto.
  - apply IH; auto. intros x Hx. apply D. right. auto.
Qed.
Lemma NoDup_map_in {A B} (f : A -> B) l : NoDup l -> (forall x y, In x l -> In y l -> f x = f y -> x = y) -> NoDup (map f l).
Proof.
  induction l as [|a l IH]; intros N I; [constructor|]. inversion N; subst. cbn [map]. constructor.
  - intros X. apply in_map_iff in X. destruct X as (y & E & Hy). assert (y = a) by (apply I; cbn; auto). subst. auto.
  - apply IH; auto. intros x y Hx Hy. apply I; cbn; auto.
Qed.

Lemma NoDup_positions sh : NoDup (positions sh).
Proof.
  induction sh as [|n sh IH]; cbn [positions]; [constructor; [intros []|constructor]|].
  generalize (NoDup_zrange 0 n). induction (zrange 0 n) as [|i l IHl]; intros N; [constructor|]. cbn [flat_map].
  inversion N as [|? ? N1 N2]; subst. apply NoDup_join.
  - apply FinFun.Injective_map_NoDup; auto. intros x y E. congruence.
  - apply IHl; auto.
  - intros p Hp Hq. apply in_map_iff in Hp. destruct Hp as (q & <- & _). apply in_flat_map in Hq. destruct Hq as (j & Hj & Hq).
    apply in_map_iff in Hq. destruct Hq as (q' & E & _). congruence.
Qed.

Lemma pos_nth l k : NoDup l -> (k < length l)%nat -> pos (nth k l O) l = k.
Proof.
  revert k. induction l as [|b l IH]; intros k N H; [cbn in H; lia|]. inversion N; subst. destruct k as [|k]; cbn [nth pos].
  - now rewrite Nat.eqb_refl.
  - destruct (Nat.eqb_spec (nth k l O) b) as [E|E].
    + exfalso. subst b. cbn in H. apply H2. apply nth_In. lia.
    + f_equal. apply IH; auto. cbn in H. lia.
Qed.
Lemma nth_pos l a : In a l -> nth (pos a l) l O = a /\ (pos a l < length l)%nat.
Proof.
  induction l as [|b l IH]; intros H; [destruct H|]. cbn [pos]. destruct (Nat.eqb_spec a b) as [->|E].
  - split; [reflexivity|cbn; lia].
  - destruct H as [->|H]; [congruence|]. destruct (IH H) as (A & B). split; [exact A|cbn; lia].
Qed.

Lemma Forall2_nth sh p : Forall2 (fun n i => 0 <= i < n)%Z sh p <->
  length p = length sh /\ forall k, (k < length sh)%nat -> (0 <= nth k p 0 < nth k sh 0)%Z.
Proof.
  revert p. induction sh as [|n sh IH]; intros p.
  - split; [intros H; inversion H; split; [auto|cbn; lia]|]. intros (H & _). destruct p; [constructor|discriminate].
  - split.
    + intros H. inversion H as [|? i ? q Hi Hq]; subst. apply IH in Hq. destruct Hq as (A & B). split; [cbn; lia|].
      intros [|k] Hk; [exact Hi|]. apply B. cbn in Hk. lia.
    + intros (A & B). destruct p as [|i q]; [discriminate|]. constructor; [apply (B O); cbn; lia|]. apply IH. split; [cbn in A; lia|].
      intros k Hk. apply (B (S k)). cbn. lia.
Qed.

Section Layout.
Variables (sh : list Z) (axes : list nat).
Hypothesis Hp : Permutation axes (seq 0 (length sh)).

Lemma axes_length : length axes = length sh.
Proof. rewrite (Permutation_length Hp). apply seq_length. Qed.
Lemma axes_NoDup : NoDup axes.
Proof. eapply Permutation_NoDup; [apply Permutation_sym; exact Hp|apply seq_NoDup]. Qed.
Lemma axes_in a : In a axes <-> (a < length sh)%nat.
Proof.
  split; intros H.
  - apply (Permutation_in _ Hp) in H. apply in_seq in H. lia.
  - apply (Permutation_in _ (Permutation_sym Hp)). apply in_seq. lia.
Qed.
Lemma unperm_length p : length (unperm axes p) = length sh.
Proof. unfold unperm. rewrite map_length, seq_length. apply axes_length. Qed.
Lemma unperm_nth p a : (a < length sh)%nat -> nth a (unperm axes p) 0%Z = nth (pos a axes) p 0%Z.
Proof.
  intros H. unfold unperm. rewrite axes_length.
  rewrite (nth_indep _ 0%Z ((fun b => nth (pos b axes) p 0%Z) O)) by (rewrite map_length, seq_length; auto).
  rewrite (map_nth (fun b => nth (pos b axes) p 0%Z)). rewrite seq_nth by auto. reflexivity.
Qed.
Definition perm (idx : list Z) : list Z := map (fun a => nth a idx 0%Z) axes.
Lemma perm_nth idx k : (k < length sh)%nat -> nth k (perm idx) 0%Z = nth (nth k axes O) idx 0%Z.
Proof.
  intros H. unfold perm.
  destruct (le_lt_dec (length idx) 0) as [Z0|Z0].
  { destruct idx; [|cbn in Z0; lia]. rewrite (nth_indep _ 0%Z ((fun a => nth a [] 0%Z) O)) by (rewrite map_length, axes_length; auto).
    rewrite (map_nth (fun a => nth a [] 0%Z)). reflexivity. }
  rewrite (nth_indep _ 0%Z ((fun a => nth a idx 0%Z) O)) by (rewrite map_length, axes_length; auto).
  rewrite (map_nth (fun a => nth a idx 0%Z)). reflexivity.
Qed.
Lemma perm_length idx : length (perm idx) = length sh.
Proof. unfold perm. rewrite map_length. apply axes_length. Qed.

Lemma unperm_perm idx : length idx = length sh -> unperm axes (perm idx) = idx.
Proof.
  intros L. apply (nth_ext _ _ 0%Z 0%Z); [rewrite unperm_length; auto|]. intros a Ha. rewrite unperm_length in Ha.
  rewrite unperm_nth by auto. destruct (nth_pos axes a) as (A & B); [apply axes_in; auto|]. rewrite axes_length in B.
  rewrite perm_nth by auto. now rewrite A.
Qed.
Lemma perm_unperm p : length p = length sh -> perm (unperm axes p) = p.
Proof.
  intros L. apply (nth_ext _ _ 0%Z 0%Z); [rewrite perm_length; auto|]. intros k Hk. rewrite perm_length in Hk.
  rewrite perm_nth by auto. assert (nth k axes O < length sh)%nat.
  { apply axes_in. apply nth_In. rewrite axes_length. auto. }
  rewrite unperm_nth by auto. rewrite pos_nth; [auto|apply axes_NoDup|rewrite axes_length; auto].
Qed.

Lemma memory_order_permutation : Permutation (memory_order sh axes) (positions sh).
Proof.
  unfold memory_order. change (map (fun a => nth a sh 0%Z) axes) with (perm sh). apply NoDup_Permutation.
  - apply NoDup_map_in; [apply NoDup_positions|]. intros x y Hx Hy E.
    apply in_positions, Forall2_nth in Hx, Hy. destruct Hx as (Lx & _), Hy as (Ly & _). rewrite perm_length in Lx, Ly.
    rewrite <- (perm_unperm x), <- (perm_unperm y) by auto. now rewrite E.
  - apply NoDup_positions.
  - intros idx. split; intros H.
    + apply in_map_iff in H. destruct H as (p & <- & H). apply in_positions, Forall2_nth in H. destruct H as (L & B).
      rewrite perm_length in L, B. apply in_positions, Forall2_nth. split; [apply unperm_length|]. intros a Ha.
      rewrite unperm_nth by auto. destruct (nth_pos axes a) as (P1 & P2); [apply axes_in; auto|]. rewrite axes_length in P2.
      specialize (B (pos a axes) P2). rewrite perm_nth, P1 in B by auto. exact B.
    + apply in_positions, Forall2_nth in H. destruct H as (L & B). apply in_map_iff. exists (perm idx).
      split; [apply unperm_perm; auto|]. apply in_positions, Forall2_nth. rewrite !perm_length. split; auto.
      intros k Hk. rewrite !perm_nth by auto. apply B. apply axes_in. apply nth_In. rewrite axes_length. auto.
Qed.
End Layout.

Lemma map_seq_nth (l : list Z) : map (fun a => nth a l 0%Z) (seq 0 (length l)) = l.
Proof.
  apply (nth_ext _ _ 0%Z 0%Z); [rewrite map_length, seq_length; auto|]. intros k Hk. rewrite map_length, seq_length in Hk.
  rewrite (nth_indep _ 0%Z ((fun a => nth a l 0%Z) O)) by (rewrite map_length, seq_length; auto).
  rewrite (map_nth (fun a => nth a l 0%Z)). rewrite seq_nth by auto. reflexivity.
Qed.
Lemma memory_order_C sh : memory_order sh (seq 0 (length sh)) = positions sh.
Proof.
  unfold memory_order. rewrite map_seq_nth. rewrite <- (map_id (positions sh)) at 2. apply map_ext_in. intros p Hp.
  apply in_positions, Forall2_nth in Hp. destruct Hp as (L & _).
  replace p with (perm (seq 0 (length sh)) p) at 1 by (unfold perm; rewrite <- L; apply map_seq_nth).
  apply (unperm_perm sh); auto.
Qed.

(** ** The call. *)
Lemma eq_shape_spec l m : eq_shape l m = true <-> l = m.
Proof.
  revert m. induction l as [|x l IH]; intros [|y m]; cbn [eq_shape]; try (split; [discriminate|intros E; discriminate]); [tauto|].
  rewrite andb_true_iff, IH, Z.eqb_eq. split; [intros (-> & ->); auto|intros E; injection E; auto].
Qed.

Lemma positions_length sh : Forall (fun n => 0 <= n)%Z sh -> Z.of_nat (length (positions sh)) = fold_right Z.mul 1%Z sh.
Proof.
  induction sh as [|n sh IH]; intros H; [reflexivity|]. inversion H; subst. cbn [positions fold_right]. rewrite <- IH by auto.
  assert (E : forall l, length (flat_map (fun i => map (cons i) (positions sh)) l) = (length l * length (positions sh))%nat).
  { induction l as [|i l IHl]; [reflexivity|]. cbn [flat_map length]. rewrite app_length, map_length, IHl. lia. }
  rewrite E, zrange_length, Nat2Z.inj_mul, Z2Nat.id by lia. f_equal. lia.
Qed.

Lemma order_nonempty c : layout_ok (fshape c) (faxes c) -> Forall (fun n => 1 <= n)%Z (fshape c) -> memory_order (fshape c) (faxes c) <> [].
Proof.
  intros (P & Z0) H E. pose proof (memory_order_permutation _ _ P) as Q. rewrite E in Q. apply Permutation_nil in Q.
  assert (X : Z.of_nat (length (positions (fshape c))) = 0%Z) by (rewrite Q; reflexivity). rewrite positions_length in X by auto.
  clear - X H. assert (1 <= fold_right Z.mul 1%Z (fshape c))%Z; [|lia]. clear X. induction H; cbn [fold_right]; [lia|nia].
Qed.

Lemma ravel_map c f : layout_ok (fshape c) (faxes c) -> (forall idx, In idx (positions (fshape c)) -> fval c idx = f idx) ->
  ravel_K c = map f (memory_order (fshape c) (faxes c)).
Proof.
  intros (P & _) H. unfold ravel_K. apply map_ext_in. intros idx Hi. apply H.
  apply (Permutation_in _ (memory_order_permutation _ _ P) Hi).
Qed.

Lemma sqrt_sin b : 0 <= b <= PI -> sqrt (1 - cos b ^ 2) = sin b.
Proof.
  intros H. pose proof (sin2_cos2 b) as S. unfold Rsqr in S. replace (1 - cos b ^ 2) with (sin b * sin b) by (simpl; lra).
  rewrite sqrt_square; auto. apply sin_ge_0; lra.
Qed.

Lemma angles_list_ok l : l <> [] -> Forall in_range (map cos l) /\ (length (map cos l) =? 0)%nat = false.
Proof.
  intros N. split.
  - apply Forall_map. apply Forall_forall. intros b _. unfold in_range. apply COS_bound.
  - destruct l; [congruence|reflexivity].
Qed.

(** After [ravel] the call is one on the lists of cosines and sines. *)
Lemma nd_reduce betas gammas c s : angle_arrays betas c s ->
  (forall axes, match s with SArr a => faxes a = axes | _ => faxes c = axes end ->
     map (fun idx => sin (betas idx)) (memory_order (fshape c) axes) = map sin gammas) ->
  map (fun idx => cos (betas idx)) (memory_order (fshape c) (faxes c)) = map cos gammas ->
  ravel_K c = map cos gammas /\ gammas <> [] /\
  exists sl, check_nd c s = Ok sl /\ forall A (k : list R -> res A),
    (do x <- check_angles (map cos gammas) sl; k x) = (do x <- check_angles (map cos gammas) (Some (map sin gammas)); k x).
Proof.
  intros (Lc & Nc & Vc & Vs) Hs Hc. pose proof (ravel_map c _ Lc Vc) as Rc. rewrite Hc in Rc.
  assert (G : gammas <> []).
  { intros E. rewrite E in Hc. pose proof (order_nonempty c Lc Nc) as N. destruct (memory_order (fshape c) (faxes c)); [congruence|discriminate]. }
  split; auto. split; auto. destruct (angles_list_ok gammas G) as (A1 & A2).
  unfold check_nd. rewrite Rc, A2. rewrite (proj2 (out_of_range_false _) A1). destruct s as [|x|a].
  - exists None. split; auto. intros A k. unfold check_angles. rewrite A2, (proj2 (out_of_range_false _) A1).
    rewrite !map_length, Nat.eqb_refl. cbn [bind]. f_equal. rewrite <- Hc, map_map. rewrite <- (Hs _ eq_refl).
    apply map_ext_in. intros idx Hi. apply sqrt_sin. apply Vs.
    apply (Permutation_in _ (memory_order_permutation _ _ (proj1 Lc)) Hi).
  - destruct Vs.
  - destruct Vs as (E & La & Va). rewrite (proj2 (eq_shape_spec _ _) E). exists (Some (ravel_K a)). split; auto.
    rewrite <- E in Va. rewrite (ravel_map a _ La Va), E, (Hs _ eq_refl). auto.
Qed.

Lemma call_nd hc betas gammas c s ws : angle_arrays betas c s ->
  (forall axes, match s with SArr a => faxes a = axes | _ => faxes c = axes end ->
     map (fun idx => sin (betas idx)) (memory_order (fshape c) axes) = map sin gammas) ->
  map (fun idx => cos (betas idx)) (memory_order (fshape c) (faxes c)) = map cos gammas ->
  gammas <> [] /\
  (ws <> W1 -> HCalculator_nd hc c s ws = do H <- HCalculator_call hc (map cos gammas) (Some (map sin gammas)) (match ws with W2 w => Some w | _ => None end);
                              Ok ([alen H; Z.of_nat (length gammas)], H)) /\
  forall w, HCalculator_full_nd hc c s w = do H <- HCalculator_full_call hc (map cos gammas) (Some (map sin gammas)) w;
                              Ok ([alen H; Z.of_nat (length gammas)], H).
Proof.
  intros HA Hs Hc. destruct (nd_reduce betas gammas c s HA Hs Hc) as (Rc & G & sl & E & K). split; auto. split.
  - intros HW. unfold HCalculator_nd. rewrite E, Rc. cbn [bind]. rewrite map_length.
    destruct ws as [| |w]; [|congruence|]; cbn [bind]; unfold HCalculator_call; rewrite K; reflexivity.
  - intros w. unfold HCalculator_full_nd. rewrite E, Rc. cbn [bind]. rewrite map_length. unfold HCalculator_full_call. rewrite K. reflexivity.
Qed.

Lemma same_layout_angles betas c s : angle_arrays betas c s -> same_layout c s ->
  let gammas := map betas (memory_order (fshape c) (faxes c)) in
  (forall axes, match s with SArr a => faxes a = axes | _ => faxes c = axes end ->
     map (fun idx => sin (betas idx)) (memory_order (fshape c) axes) = map sin gammas) /\
  map (fun idx => cos (betas idx)) (memory_order (fshape c) (faxes c)) = map cos gammas.
Proof.
  intros HA HS. cbv zeta. rewrite !map_map. split; auto. intros axes Ha. destruct s; cbn in HS; subst; auto. rewrite HS. auto.
Qed.

Lemma wedge_gen n_max hc betas gammas c s ws : (1 <= n_max)%Z -> HCalculator_init n_max = Ok hc -> angle_arrays betas c s ->
  (forall axes, match s with SArr a => faxes a = axes | _ => faxes c = axes end ->
     map (fun idx => sin (betas idx)) (memory_order (fshape c) axes) = map sin gammas) ->
  map (fun idx => cos (betas idx)) (memory_order (fshape c) (faxes c)) = map cos gammas ->
  ws_ok (workspace_size n_max) ws ->
  exists H, HCalculator_nd hc c s ws = Ok ([wedge_size n_max; Z.of_nat (length gammas)], H)
    /\ forall n mp m, (0 <= n <= n_max)%Z -> (- n <= mp <= n)%Z -> (- n <= m <= n)%Z ->
       exists r, (let '(n', mp', m') := wedgeify_index n mp m in aget H (wedge_index n' mp' m')) = Some r /\
         forall j, (0 <= j < Z.of_nat (length gammas))%Z -> r j = H_function n mp m (nth (Z.to_nat j) gammas 0).
Proof.
  intros Hn Hi HA Es Ec HW. destruct (call_nd hc betas gammas c s ws HA Es Ec) as (G & E & _).
  destruct (C40_wedge_any n_max hc gammas (match ws with W2 w => Some w | _ => None end) Hn Hi G) as (H & EH & V).
  { destruct ws; cbn in *; auto. }
  destruct (C40_wedge n_max hc gammas (match ws with W2 w => Some w | _ => None end) Hn Hi G) as (H' & EH' & Al & _).
  { destruct ws; cbn in *; auto. }
  rewrite EH in EH'. injection EH' as <-.
  exists H. split; auto. rewrite E by (intros ->; destruct HW). rewrite EH. cbn [bind]. rewrite Al. reflexivity.
Qed.

Lemma C53_wedge_partial :
  forall n_max hc betas c s ws, (1 <= n_max)%Z -> HCalculator_init n_max = Ok hc -> angle_arrays betas c s -> same_layout c s ->
  ws_ok (workspace_size n_max) ws ->
  exists H order, HCalculator_nd hc c s ws = Ok ([wedge_size n_max; fold_right Z.mul 1%Z (fshape c)], H)
    /\ Permutation order (positions (fshape c))
    /\ (faxes c = seq 0 (length (fshape c)) -> order = positions (fshape c))
    /\ forall n mp m, (0 <= n <= n_max)%Z -> (- n <= mp <= n)%Z -> (- n <= m <= n)%Z ->
       exists r, (let '(n', mp', m') := wedgeify_index n mp m in aget H (wedge_index n' mp' m')) = Some r /\
         forall j, (0 <= j < fold_right Z.mul 1%Z (fshape c))%Z -> r j = H_function n mp m (betas (nth (Z.to_nat j) order [])).
Proof.
  intros n_max hc betas c s ws Hn Hi HA HS HW. destruct (same_layout_angles betas c s HA HS) as (Es & Ec).
  set (order := memory_order (fshape c) (faxes c)) in *.
  destruct (wedge_gen n_max hc betas (map betas order) c s ws Hn Hi HA Es Ec HW) as (H & EH & V).
  destruct HA as ((P & Z0) & _). pose proof (memory_order_permutation _ _ P) as Pm. fold order in Pm.
  assert (Lo : Z.of_nat (length order) = fold_right Z.mul 1%Z (fshape c)).
  { rewrite <- positions_length by auto. f_equal. apply Permutation_length. auto. }
  rewrite map_length, Lo in EH, V. exists H, order. split; auto. split; auto.
  split; [intros Ea; unfold order; rewrite Ea; apply memory_order_C|].
  intros n mp m H1 H2 H3. destruct (V n mp m H1 H2 H3) as (r & Er & Vr). exists r. split; auto. intros j Hj.
  rewrite Vr by auto. f_equal.
  rewrite (nth_indep _ 0 (betas [])) by (rewrite map_length; lia). apply map_nth.
Qed.

Lemma C53_full_partial :
  forall n_max hc betas c s ws, (1 <= n_max)%Z -> HCalculator_init n_max = Ok hc -> angle_arrays betas c s -> same_layout c s ->
  workspace_ok (LMpM_total_size 0 n_max) ws ->
  exists H order, HCalculator_full_nd hc c s ws = Ok ([LMpM_total_size 0 n_max; fold_right Z.mul 1%Z (fshape c)], H)
    /\ Permutation order (positions (fshape c))
    /\ (faxes c = seq 0 (length (fshape c)) -> order = positions (fshape c))
    /\ forall n mp m, (0 <= n <= n_max)%Z -> (- n <= mp <= n)%Z -> (- n <= m <= n)%Z ->
       exists r, aget H (nmpm_index n mp m) = Some r /\
         forall j, (0 <= j < fold_right Z.mul 1%Z (fshape c))%Z -> r j = H_function n mp m (betas (nth (Z.to_nat j) order [])).
Proof.
  intros n_max hc betas c s ws Hn Hi HA HS HW. destruct (same_layout_angles betas c s HA HS) as (Es & Ec).
  set (order := memory_order (fshape c) (faxes c)) in *. destruct (call_nd hc betas (map betas order) c s WNone HA Es Ec) as (G & _ & E).
  destruct HA as ((P & Z0) & _). pose proof (memory_order_permutation _ _ P) as Pm. fold order in Pm.
  assert (Lo : Z.of_nat (length order) = fold_right Z.mul 1%Z (fshape c)).
  { rewrite <- positions_length by auto. f_equal. apply Permutation_length. auto. }
  destruct (C40_full n_max hc (map betas order) ws Hn Hi G HW) as (H & EH & Al & V).
  exists H, order. split.
  - rewrite E, EH. cbn [bind]. rewrite map_length, Lo, Al. reflexivity.
  - split; auto. split; [intros Ea; unfold order; rewrite Ea; apply memory_order_C|].
    intros n mp m H1 H2 H3. destruct (V n mp m H1 H2 H3) as (r & Er & Vr). exists r. split; auto. intros j Hj.
    rewrite Vr by (rewrite map_length; lia). f_equal.
    rewrite (nth_indep _ 0 (betas [])) by (rewrite map_length; lia). apply map_nth.
Qed.

(** ** What is not as documented. *)
Lemma bind_Ok {A B} (x : res A) (f : A -> res B) y : bind x f = Ok y -> exists a, x = Ok a /\ f a = Ok y.
Proof. destruct x; [eauto|discriminate]. Qed.

(** The result has the documented shape exactly for one-dimensional arrays of angles. *)
Lemma C53_shape :
  forall hc c s ws sh H, layout_ok (fshape c) (faxes c) -> HCalculator_nd hc c s ws = Ok (sh, H) ->
  (sh = alen H :: fshape c <-> exists k, fshape c = [k]).
Proof.
  intros hc c s ws sh H (P & Z0) E. unfold HCalculator_nd in E. apply bind_Ok in E. destruct E as (sl & _ & E).
  apply bind_Ok in E. destruct E as (w & _ & E). apply bind_Ok in E. destruct E as (H' & _ & E). injection E as <- <-. split.
  - intros E. injection E as E. exists (Z.of_nat (length (ravel_K c))). auto.
  - intros (k & E). rewrite E. f_equal. f_equal. unfold ravel_K. rewrite map_length.
    rewrite (Permutation_length (memory_order_permutation _ _ P)), positions_length by auto. rewrite E. cbn [fold_right]. lia.
Qed.

Lemma H_100 beta : H_function 1 0 0 beta = cos beta.
Proof.
  rewrite H_function_Hd by lia. destruct (half_angle beta) as (U & C & _). cbv zeta in *.
  set (a := cos (beta / 2)) in *. set (b := sin (beta / 2)) in *.
  unfold Hd, dd, S2, eps. simpl. unfold sgn. simpl. pose proof (W_neq0 1 0). pose proof (W_neq0 1 1).
  rewrite <- C. field_simplify; auto; nra.
Qed.
Lemma H_101 : exists k, k <> 0 /\ forall beta, H_function 1 0 1 beta = k * sin beta.
Proof.
  exists (W 1 1 / W 1 0 * / 2). split.
  { pose proof (W_neq0 1 0). pose proof (W_pos 1 1). pose proof (W_pos 1 0). pose proof (Rinv_0_lt_compat _ H1).
    assert (0 < W 1 1 / W 1 0) by (apply Rmult_lt_0_compat; auto). lra. }
  intros beta. rewrite H_function_Hd by lia. destruct (half_angle beta) as (U & C & S). cbv zeta in *.
  set (a := cos (beta / 2)) in *. set (b := sin (beta / 2)) in *.
  unfold Hd, dd, S2, eps. simpl. rewrite <- S. field. apply W_neq0.
Qed.

Lemma layout_F : layout_ok [2; 2]%Z [1; 0]%nat.
Proof. split; [apply perm_swap|repeat constructor; lia]. Qed.
Lemma layout_C : layout_ok [2; 2]%Z [0; 1]%nat.
Proof. split; [apply Permutation_refl|repeat constructor; lia]. Qed.
Lemma positions_22 : positions [2; 2]%Z = [[0; 0]; [0; 1]; [1; 0]; [1; 1]]%Z.
Proof. reflexivity. Qed.
Lemma order_F : memory_order [2; 2]%Z [1; 0]%nat = [[0; 0]; [1; 0]; [0; 1]; [1; 1]]%Z.
Proof. reflexivity. Qed.
Lemma order_C : memory_order [2; 2]%Z [0; 1]%nat = [[0; 0]; [0; 1]; [1; 0]; [1; 1]]%Z.
Proof. reflexivity. Qed.
(** Four angles at the positions of a 2 by 2 array. *)
Definition angles4 (x y z w : R) (idx : list Z) : R :=
  match idx with
  | [i; j] => if (i =? 0)%Z then if (j =? 0)%Z then x else y else if (j =? 0)%Z then z else w
  | _ => 0
  end.

(** Fortran order: the columns do not follow the order that [reshape] to the shape of the angles assumes. *)
Lemma C53_order_refuted :
  exists hc betas c H j r, HCalculator_init 1 = Ok hc /\ angle_arrays betas c SNone
    /\ HCalculator_nd hc c SNone WNone = Ok ([wedge_size 1; 4%Z], H)
    /\ aget H (wedge_index 1 0 0) = Some r /\ (0 <= j < 4)%Z
    /\ r j <> H_function 1 0 0 (betas (nth (Z.to_nat j) (positions (fshape c)) [])).
Proof.
  pose (betas := angles4 0 (PI / 2) 0 0). pose (c := mkfarr [2; 2]%Z [1; 0]%nat (fun idx => cos (betas idx))).
  pose proof PI_RGT_0 as Pp.
  assert (HA : angle_arrays betas c SNone).
  { split; [exact layout_F|]. split; [repeat constructor; lia|]. split; [reflexivity|]. cbn [fshape c]. rewrite positions_22.
    intros idx [<-|[<-|[<-|[<-|[]]]]]; cbn; lra. }
  destruct (wedge_gen 1 _ betas (map betas (memory_order (fshape c) (faxes c))) c SNone WNone ltac:(lia) (HCoef.HCalculator_init_ok 1 ltac:(lia)) HA) as (H & E & V).
  { intros axes <-. rewrite map_map. reflexivity. }
  { rewrite map_map. reflexivity. }
  { exact I. }
  destruct (V 1%Z 0%Z 0%Z ltac:(lia) ltac:(lia) ltac:(lia)) as (r & Er & Vr).
  eexists. exists betas, c, H, 1%Z, r. split; [reflexivity|]. split; [exact HA|]. split; [exact E|]. split; [exact Er|].
  split; [lia|]. rewrite Vr by (split; [lia|reflexivity]). cbn [fshape faxes c]. rewrite order_F, positions_22, !H_100. change (cos 0 <> cos (PI / 2)).
  rewrite cos_0, cos_PI2. lra.
Qed.

(** Cosines in Fortran order, sines in C order: a column belongs to none of the angles. *)
Lemma C53_mixed_refuted :
  exists hc betas c a H j r0 r1, HCalculator_init 1 = Ok hc /\ angle_arrays betas c (SArr a)
    /\ HCalculator_nd hc c (SArr a) WNone = Ok ([wedge_size 1; 4%Z], H)
    /\ aget H (wedge_index 1 0 0) = Some r0 /\ aget H (wedge_index 1 0 1) = Some r1 /\ (0 <= j < 4)%Z
    /\ forall idx, In idx (positions (fshape c)) ->
         ~ (r0 j = H_function 1 0 0 (betas idx) /\ r1 j = H_function 1 0 1 (betas idx)).
Proof.
  pose (betas := angles4 0 (PI / 3) (PI / 3 + PI) 0). pose (c := mkfarr [2; 2]%Z [1; 0]%nat (fun idx => cos (betas idx))).
  pose (a := mkfarr [2; 2]%Z [0; 1]%nat (fun idx => sin (betas idx))).
  pose (gammas := [0; PI - PI / 3; - (PI / 3); 0]).
  assert (HA : angle_arrays betas c (SArr a)).
  { split; [exact layout_F|]. split; [repeat constructor; lia|]. split; [reflexivity|]. split; [reflexivity|]. split; [exact layout_C|]. reflexivity. }
  destruct (wedge_gen 1 _ betas gammas c (SArr a) WNone ltac:(lia) (HCoef.HCalculator_init_ok 1 ltac:(lia)) HA) as (H & E & V).
  { intros axes <-. cbn [fshape faxes a c]. rewrite order_C. cbn. rewrite neg_sin, sin_neg, sin_PI_x. reflexivity. }
  { cbn [fshape faxes a c]. rewrite order_F. cbn. rewrite neg_cos, cos_neg, Rtrigo_facts.cos_pi_minus. reflexivity. }
  { exact I. }
  destruct (V 1%Z 0%Z 0%Z ltac:(lia) ltac:(lia) ltac:(lia)) as (r0 & E0 & V0).
  destruct (V 1%Z 0%Z 1%Z ltac:(lia) ltac:(lia) ltac:(lia)) as (r1 & E1 & V1).
  eexists. exists betas, c, a, H, 1%Z, r0, r1. split; [apply HCoef.HCalculator_init_ok; lia|]. split; [exact HA|]. split; [exact E|]. split; [exact E0|].
  split; [exact E1|]. split; [lia|]. rewrite V0, V1 by (split; [lia|reflexivity]). cbn [fshape faxes c]. rewrite positions_22.
  destruct H_101 as (k & K & H1). rewrite !H_100, !H1. replace (nth (Z.to_nat 1) gammas 0) with (PI - PI / 3) by reflexivity.
  rewrite Rtrigo_facts.cos_pi_minus, sin_PI_x.
  assert (C3 : cos (PI / 3) = 1 / 2) by apply cos_PI3. assert (S3 : 0 < sin (PI / 3)).
  { pose proof PI_RGT_0. apply sin_gt_0; lra. }
  intros idx Hi (Q0 & Q1). rewrite H_100 in Q0. rewrite H1 in Q1. apply Rmult_eq_reg_l in Q1; [|exact K].
  destruct Hi as [<-|[<-|[<-|[<-|[]]]]]; unfold betas in Q0, Q1; cbn in Q0, Q1; rewrite ?cos_0, ?sin_0, ?neg_cos, ?neg_sin in *; lra.
Qed.

(** A single angle given as a number: the workspace that [workspace] makes for it is refused, and so is a sine that is a
    Python float. *)
Lemma C53_scalar :
  forall n_max hc beta, (1 <= n_max)%Z -> HCalculator_init n_max = Ok hc ->
  let c := mkfarr [] [] (fun _ => cos beta) in
  angle_arrays (fun _ => beta) c (SArr (mkfarr [] [] (fun _ => sin beta)))
  /\ (exists H, HCalculator_nd hc c (SArr (mkfarr [] [] (fun _ => sin beta))) WNone = Ok ([wedge_size n_max; 1%Z], H))
  /\ HCalculator_nd hc c (SArr (mkfarr [] [] (fun _ => sin beta))) (workspace_for n_max c) = Err TypeError
  /\ HCalculator_nd hc c (SFloat (sin beta)) WNone = Err AttributeError.
Proof.
  intros n_max hc beta Hn Hi c.
  assert (HA : angle_arrays (fun _ => beta) c (SArr (mkfarr [] [] (fun _ => sin beta)))).
  { split; [split; constructor|]. split; [constructor|]. split; [reflexivity|]. split; [reflexivity|]. split; [split; constructor|]. reflexivity. }
  split; [exact HA|]. split.
  - destruct (C53_wedge_partial n_max hc _ _ _ WNone Hn Hi HA eq_refl I) as (H & o & E & _). exists H. exact E.
  - assert (Q : out_of_range (ravel_K c) = false).
    { apply out_of_range_false. cbn. constructor; [apply COS_bound|constructor]. }
    unfold HCalculator_nd, check_nd. rewrite Q. cbn. auto.
Qed.

Lemma C53_scalar_refuted :
  exists n_max hc beta, (1 <= n_max)%Z /\ HCalculator_init n_max = Ok hc
  /\ HCalculator_nd hc (mkfarr [] [] (fun _ => cos beta)) (SArr (mkfarr [] [] (fun _ => sin beta)))
       (workspace_for n_max (mkfarr [] [] (fun _ => cos beta))) = Err TypeError
  /\ HCalculator_nd hc (mkfarr [] [] (fun _ => cos beta)) (SFloat (sin beta)) WNone = Err AttributeError.
Proof.
  exists 1%Z. eexists. exists 1. split; [lia|]. split; [apply HCoef.HCalculator_init_ok; lia|].
  destruct (C53_scalar 1 _ 1 ltac:(lia) (HCoef.HCalculator_init_ok 1 ltac:(lia))) as (_ & _ & A & B). split; [exact A|exact B].
Qed.

Lemma C53_shape_refuted :
  exists hc betas c H sh, HCalculator_init 1 = Ok hc /\ angle_arrays betas c SNone
  /\ HCalculator_nd hc c SNone WNone = Ok (sh, H) /\ fshape c = [2; 2]%Z /\ sh = [alen H; 4]%Z.
Proof.
  pose (c := mkfarr [2; 2]%Z [0; 1]%nat (fun _ => cos 0)). pose proof PI_RGT_0 as Pp.
  assert (HA : angle_arrays (fun _ => 0) c SNone).
  { split; [exact layout_C|]. split; [repeat constructor; lia|]. split; [reflexivity|]. intros idx _. lra. }
  destruct (C53_wedge_partial 1 _ _ c SNone WNone ltac:(lia) (HCoef.HCalculator_init_ok 1 ltac:(lia)) HA I I) as (H & o & E & _).
  eexists. exists (fun _ => 0), c, H. eexists. split; [apply HCoef.HCalculator_init_ok; lia|]. split; [exact HA|]. split; [exact E|].
  split; [reflexivity|]. unfold HCalculator_nd in E. apply bind_Ok in E. destruct E as (sl & _ & E).
  apply bind_Ok in E. destruct E as (w & _ & E). apply bind_Ok in E. destruct E as (H' & _ & E). injection E as E1 E2. subst H'.
  rewrite E1. reflexivity.
Qed.

(** An empty array, a cosine outside [-1, 1], or sines of another shape: ValueError. *)
Lemma C53_rejects :
  forall hc c s ws w, layout_ok (fshape c) (faxes c) ->
  (In 0%Z (fshape c) \/ (exists idx, In idx (positions (fshape c)) /\ ~ -1 <= fval c idx <= 1)
   \/ exists a, s = SArr a /\ fshape a <> fshape c) ->
  HCalculator_nd hc c s ws = Err ValueError /\ HCalculator_full_nd hc c s w = Err ValueError.
Proof.
  intros hc c s ws w L H. unfold HCalculator_nd, HCalculator_full_nd.
  assert (E : check_nd c s = Err ValueError); [|rewrite E; split; reflexivity].
  unfold check_nd. destruct (Nat.eqb_spec (length (ravel_K c)) 0) as [E0|E0]; [reflexivity|].
  destruct (out_of_range (ravel_K c)) eqn:ER; [reflexivity|]. apply out_of_range_false in ER.
  pose proof (memory_order_permutation _ _ (proj1 L)) as HP. destruct H as [H|[(idx & Hi & Hn)|(a & -> & Hn)]].
  - exfalso. apply E0. unfold ravel_K. rewrite map_length, (Permutation_length HP).
    pose proof (positions_length _ (proj2 L)) as PL. apply Nat2Z.inj. rewrite PL. clear -H.
    induction (fshape c) as [|n l IH]; [destruct H|]. cbn [fold_right]. destruct H as [-> |H]; [reflexivity|]. rewrite (IH H). apply Z.mul_0_r.
  - exfalso. apply Hn. rewrite Forall_forall in ER. apply ER. unfold ravel_K. apply in_map.
    apply (Permutation_in _ (Permutation_sym HP)). exact Hi.
  - destruct (eq_shape (fshape a) (fshape c)) eqn:EE; [|reflexivity]. apply eq_shape_spec in EE. contradiction.
Qed.
