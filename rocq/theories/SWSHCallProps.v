(** C54: SWSH, SWSH_grid and evaluate called with rotors and indices of any shape. *)
Require Import ZArith Lia List Reals Lra Bool.
From Coquelicot Require Import Complex.
From Verif Require Import Base BaseProofs CBase CSum Fact DRep IndexModel IndexProofs IndexProps PowersModel WignerModel WignerProofs WignerProofs2 WignerProofs3 RotorSpec
  SWSHModel SWSHProofs WignerCallModel WignerCallProofs WignerProps ModesModel ModesSpec ModesProofs ModesProofs2 ModesProofs3 NearProps HCallModel HCoef HCallProps
  SWSHCallModel.
Import ListNotations.
Open Scope Z_scope.

Lemma nsize_nonneg sh : Forall (fun n => 0 <= n) sh -> 0 <= nsize sh.
Proof. induction 1; cbn [nsize fold_right]; [lia|]. fold (nsize l). nia. Qed.
Lemma nsize_pos sh p : at_index sh p -> 0 < nsize sh.
Proof. induction 1; cbn [nsize fold_right]; [lia|]. fold (nsize l). nia. Qed.
Lemma ravel_range sh p : at_index sh p -> 0 <= ravel_index sh p < nsize sh.
Proof.
  induction 1 as [|n i sh p Hi Hp IH]; [cbn; lia|]. cbn [ravel_index nsize fold_right]. fold (nsize sh). nia.
Qed.

Lemma flat_map_nth (f : Z -> list (list Z)) n k l i j d : (forall x, In x l -> length (f x) = k) -> (i < length l)%nat -> (j < k)%nat ->
  nth (i * k + j) (flat_map f l) d = nth j (f (nth i l n)) d.
Proof.
  revert i. induction l as [|x l IH]; intros i Hk Hi Hj; [cbn in Hi; lia|]. cbn [flat_map].
  destruct i as [|i].
  - cbn [Nat.mul Nat.add nth]. rewrite app_nth1; auto. rewrite Hk; [auto|left; auto].
  - rewrite app_nth2; rewrite (Hk x (or_introl eq_refl)); [|lia]. replace (S i * k + j - k)%nat with (i * k + j)%nat by lia.
    cbn [nth]. apply IH; auto; [|cbn in Hi; lia]. intros y Hy. apply Hk. right. auto.
Qed.

Lemma nth_ravel sh p : at_index sh p -> nth (Z.to_nat (ravel_index sh p)) (positions sh) [] = p.
Proof.
  induction 1 as [|n i sh p Hi Hp IH]; [reflexivity|]. cbn [ravel_index positions].
  pose proof (ravel_range sh p Hp) as Hr.
  assert (NN : Forall (fun n => 0 <= n) sh). { clear - Hp. induction Hp; constructor; auto; lia. }
  pose proof (positions_length sh NN) as PL. fold (nsize sh) in PL.
  assert (EK : length (positions sh) = Z.to_nat (nsize sh)) by lia.
  replace (Z.to_nat (i * nsize sh + ravel_index sh p)) with (Z.to_nat i * Z.to_nat (nsize sh) + Z.to_nat (ravel_index sh p))%nat by nia.
  rewrite (flat_map_nth _ 0).
  - rewrite zrange_nth by lia. replace (0 + i) with i by lia.
    rewrite (nth_indep _ [] (i :: [])) by (rewrite map_length; lia). rewrite (map_nth (cons i)). f_equal. auto.
  - intros x _. rewrite map_length. auto.
  - rewrite zrange_length. lia.
  - lia.
Qed.

(** Reading a flattened and then reshaped array. *)
Lemma flatten_at {A} (a : nda A) p : at_index (nshape a) p -> aget (flatten a) (ravel_index (nshape a) p) = nval a p.
Proof. intros H. unfold flatten; cbn [aget]. rewrite nth_ravel by auto. auto. Qed.
Lemma flatten_all {A} (P : A -> Prop) (a : nda A) : Forall (fun n => 0 <= n) (nshape a) ->
  (forall p, at_index (nshape a) p -> P (nval a p)) -> forall i, 0 <= i < alen (flatten a) -> P (aget (flatten a) i).
Proof.
  intros N H i Hi. cbn [flatten alen aget] in *. apply H. apply in_positions. apply nth_In.
  pose proof (positions_length (nshape a) N) as PL. fold (nsize (nshape a)) in PL. lia.
Qed.

(** ** The two documented forms *)
Lemma C54_rotors :
  forall L tab, is_Wigner_table L tab ->
  forall (a : nda quat) s indices ell m, Forall (fun n => 0 <= n) (nshape a) ->
  (forall p, at_index (nshape a) p -> (epsilon < Cmod (qa (nval a p)))%R \/ qb (nval a p) <> RtoC 0) ->
  nshape indices = [2] -> nval indices [0] = ell -> nval indices [1] = m -> ell <= L ->
  forall g, exists out, SWSH_call tab g (RArr a) s indices = Ok out /\ nshape out = nshape a
    /\ forall p, at_index (nshape a) p -> SWSH_returns tab (nval a p) s ell m (nval out p).
Proof.
  intros L tab Ht a s indices ell m N HR Hi He Hm HL g. pose proof (nsize_nonneg _ N) as NS.
  unfold SWSH_call. rewrite Hi. cbn [nsize fold_right]. change (2 <? 2 * 1) with false. cbv iota.
  rewrite np_empty_ok by auto. cbn [bind]. unfold first_axis. rewrite Hi. cbn [Z.leb Z.compare bind]. rewrite He, Hm. cbn [Z.leb Z.compare Pos.compare Pos.compare_cont bind].
  destruct (C52_SWSH_arrays L tab (flatten a) Ht NS) as (HA & _).
  { apply (flatten_all (fun q => (epsilon < Cmod (qa q))%R \/ qb q <> RtoC 0)); auto. }
  destruct (HA s ell m g HL) as (out & E & El & HV). unfold SWSH_rotors in E. cbn [flatten alen] in E.
  rewrite np_empty_ok in E by auto. cbn [bind] in E. fold (flatten a) in E. rewrite E. cbn [bind]. eexists. split; [reflexivity|].
  split; [reflexivity|]. intros p Hp. cbn [reshape nval]. specialize (HV _ (ravel_range _ p Hp)). rewrite flatten_at in HV by auto. exact HV.
Qed.

Lemma C54_indices :
  forall L tab, is_Wigner_table L tab ->
  forall q s indices N k, (epsilon < Cmod (qa q))%R \/ qb q <> RtoC 0 ->
  0 <= N -> 2 <= k -> nshape indices = [N; k] -> (forall i, 0 <= i < N -> nval indices [i; 0] <= L) ->
  forall g, exists out, SWSH_call tab g (RQuat q) s indices = Ok out /\ nshape out = [N]
    /\ forall i, 0 <= i < N -> SWSH_returns tab q s (nval indices [i; 0]) (nval indices [i; 1]) (nval out [i]).
Proof.
  intros L tab Ht q s indices N k HR HN Hk Hi HL g. unfold SWSH_call. rewrite Hi. rewrite np_empty_ok by auto. cbn [bind].
  unfold SWSH_compiled. rewrite Hi. replace (k <? 2) with false by (symmetry; apply Z.ltb_ge; auto). cbn [andb].
  destruct (SWSH_core_code L tab (qa q) (qb q) s (mkarr N (fun i => (nval indices [i; 0], nval indices [i; 1]))) (mkarr N g) Ht)
    as (out & E & A & B & _).
  - cbn [alen]. lia.
  - intros i H. cbn [alen aget fst] in *. auto.
  - rewrite E. cbn [bind]. eexists. split; [reflexivity|]. split; [reflexivity|]. intros i H. cbn [nval nth].
    rewrite B by (cbn [alen]; auto). cbn [aget fst snd]. apply (SWSH_returns_code L); auto.
Qed.

Lemma C54_grid :
  forall L tab, is_Wigner_table L tab ->
  forall (a : nda quat) s ell_max, Forall (fun n => 1 <= n) (nshape a) ->
  (forall p, at_index (nshape a) p -> (epsilon < Cmod (qa (nval a p)))%R \/ qb (nval a p) <> RtoC 0) ->
  0 <= ell_max <= L ->
  forall g, exists out, SWSH_grid_call tab g a s ell_max = Ok out /\ nshape out = nshape a ++ [(ell_max + 1) ^ 2]
    /\ forall p ell m, at_index (nshape a) p -> 0 <= ell <= ell_max -> - ell <= m <= ell ->
         SWSH_returns tab (nval a p) s ell m (nval out (p ++ [ell ^ 2 + ell + m])).
Proof.
  intros L tab Ht a s ell_max N HR HL g.
  assert (N0 : Forall (fun n => 0 <= n) (nshape a)) by (eapply Forall_impl; [|exact N]; cbv beta; lia).
  pose proof (nsize_nonneg _ N0) as NS.
  assert (NP : 0 < nsize (nshape a)). { clear - N. induction N; cbn [nsize fold_right]; [lia|]. fold (nsize l). nia. }
  destruct (C52_SWSH_arrays L tab (flatten a) Ht NS) as (_ & HA).
  { apply (flatten_all (fun q => (epsilon < Cmod (qa q))%R \/ qb q <> RtoC 0)); auto. }
  destruct (HA s ell_max g HL NP) as (out & E & Er & Ec & HV). unfold SWSH_grid_call. rewrite E. cbn [bind].
  eexists. split; [reflexivity|]. cbn [nshape nval]. assert (EC : ncol out = (ell_max + 1) ^ 2) by (rewrite Ec; unfold LM_total_size; lia). rewrite EC. split; [reflexivity|].
  intros p ell m Hp He Hm. rewrite removelast_last, last_last.
  specialize (HV _ ell m (ravel_range _ p Hp) He Hm). rewrite flatten_at in HV by auto.
  replace (ell ^ 2 + ell + m) with (LM_index ell m 0) by (rewrite LM_col; lia). exact HV.
Qed.

Lemma C54_evaluate :
  forall Lt tab h f, is_Wigner_table Lt tab -> wf h f -> 0 <= ellmax (md f) <= Lt ->
  forall a : nda quat, Forall (fun n => 1 <= n) (nshape a) -> (forall p, at_index (nshape a) p -> rotor (nval a p)) ->
  forall g, exists E, evaluate_call tab g h f a = Ok (rev (lead (nd f)) ++ nshape a, E)
    /\ forall p F, at_index (nshape a) p -> value_at tab h f (nval a p) F ->
         forall idx, at_index (lead (nd f)) idx -> E idx p = F idx.
Proof.
  intros Lt tab h f Ht W HL a N HR g.
  assert (N0 : Forall (fun n => 0 <= n) (nshape a)) by (eapply Forall_impl; [|exact N]; cbv beta; lia).
  assert (NP : 0 < nsize (nshape a)). { clear - N. induction N; cbn [nsize fold_right]; [lia|]. fold (nsize l). nia. }
  destruct (evaluate_ok Lt tab g h f (flatten a) Ht W HL NP) as (E & EE & HE).
  { apply (flatten_all rotor); auto. }
  unfold evaluate_call. rewrite EE. cbn [bind]. eexists. split; [reflexivity|]. intros p F Hp HF idx Hidx. cbv beta.
  rewrite HE by (apply ravel_range; auto). rewrite flatten_at by auto.
  apply (value_at_fun tab h f (nval a p) _ _ (value_at_fvalue Lt tab h f (nval a p) Ht W HL (HR p Hp)) HF idx Hidx).
Qed.

(** ** Every other form raises *)
Lemma C54_other_calls :
  forall tab g R s indices, Forall (fun n => 0 <= n) (nshape indices) ->
  (match R with
   | RQuat _ => forall N k, nshape indices = [N; k] -> k < 2 /\ 0 < N
   | RArr a => Forall (fun n => 0 <= n) (nshape a) /\ nshape indices <> [2]
   end) ->
  exists e, SWSH_call tab g R s indices = Err e /\ In e [IndexError; TypeError; AttributeError; ValueError].
Proof.
  intros tab g R s indices NI HX. unfold SWSH_call. destruct R as [q|a].
  - destruct (nshape indices) as [|N sh] eqn:EI; [eexists; split; [reflexivity|]; cbn; auto|].
    inversion NI; subst. rewrite np_empty_ok by auto. cbn [bind]. unfold SWSH_compiled. rewrite EI.
    destruct sh as [|k [|]]; try (eexists; split; [reflexivity|]; cbn; auto; fail).
    destruct (HX N k eq_refl) as (A & B). replace ((k <? 2) && (0 <? N)) with true
      by (symmetry; apply andb_true_iff; split; apply Z.ltb_lt; auto). eexists. split; [reflexivity|]. cbn. auto.
  - destruct HX as (NA & HX). destruct (2 <? nsize (nshape indices)) eqn:ES.
    + destruct (nshape indices) as [|N sh] eqn:EI; [eexists; split; [reflexivity|]; cbn; auto|].
      inversion NI; subst. rewrite np_empty_ok by auto. eexists. split; [reflexivity|]. cbn. auto.
    + rewrite np_empty_ok by (apply nsize_nonneg; auto). cbn [bind]. unfold first_axis.
      destruct (nshape indices) as [|n sh] eqn:EI; [eexists; split; [reflexivity|]; cbn; auto|].
      destruct (Z.leb_spec n 0); [eexists; split; [reflexivity|]; cbn; auto|].
      destruct (Z.leb_spec n 1); [destruct sh; eexists; (split; [reflexivity|]); cbn; auto|].
      destruct sh as [|k sh]; [|eexists; split; [reflexivity|]; cbn; auto].
      exfalso. apply HX. cbn [nsize fold_right] in ES. apply Z.ltb_ge in ES. f_equal. lia.
Qed.

(** One rotor with a plain pair is such a form. *)
Lemma C54_pair_raises :
  forall tab g q s ell m, SWSH_call tab g (RQuat q) s (mknda [2] (fun p => if nth 0 p 0 =? 0 then ell else m)) = Err TypeError.
Proof. intros. reflexivity. Qed.

(** ** What is not rejected *)
Lemma C54_columns_refuted :
  exists indices, (nshape indices = [1; 3]) /\
  forall L tab g, 0 <= L -> is_Wigner_table L tab ->
  exists q out, rotor q /\ SWSH_call tab g (RQuat q) 0 indices = Ok out.
Proof.
  exists (mknda [1; 3] (fun _ => 0)). split; [reflexivity|]. intros L tab g HL Ht. exists q345.
  destruct (C54_indices L tab Ht q345 0 (mknda [1; 3] (fun _ => 0)) 1 3) with (g := g) as (out & E & _); try lia; auto.
  - left. apply q345_parts.
  - exists out. split; [apply q345_rotor|]. exact E.
Qed.

Lemma C54_empty_grid :
  forall tab (a : nda quat) s ell_max, 0 <= ell_max -> In 0 (nshape a) ->
  forall g, SWSH_grid_call tab g a s ell_max = Err ValueError
    /\ forall h f, ellmax (md f) = ell_max -> evaluate_call tab g h f a = Err ValueError.
Proof.
  intros tab a s ell_max HL HZ g.
  assert (E : nsize (nshape a) = 0).
  { induction (nshape a) as [|n l IH]; [destruct HZ|]. cbn [nsize fold_right]. fold (nsize l). destruct HZ as [->|HZ]; [lia|]. rewrite IH by auto. lia. }
  assert (G : forall s', SWSH_grid tab g (flatten a) s' ell_max = Err ValueError).
  { intros s'. unfold SWSH_grid. destruct (C01 g 0 ell_max ltac:(lia)) as (LM & EL & _). rewrite EL. cbn [bind flatten alen]. rewrite E. reflexivity. }
  split.
  - unfold SWSH_grid_call. rewrite G. reflexivity.
  - intros h f Hf. unfold evaluate_call, evaluate. rewrite Hf, G. reflexivity.
Qed.

Lemma C54_large_ell :
  forall L tab, 0 <= L -> is_Wigner_table L tab ->
  forall g q s indices, (epsilon < Cmod (qa q))%R -> (epsilon < Cmod (qb q))%R ->
  nshape indices = [1; 2] -> L < nval indices [0; 0] ->
  Z.abs (nval indices [0; 1]) <= nval indices [0; 0] -> Z.abs s <= nval indices [0; 0] ->
  SWSH_call tab g (RQuat q) s indices = Err OutOfBounds.
Proof.
  intros L tab HL Ht g q s indices Ha Hb Hi He Hm Hs. unfold SWSH_call. rewrite Hi. rewrite np_empty_ok by lia. cbn [bind].
  unfold SWSH_compiled. rewrite Hi. cbn [Z.ltb Z.compare andb]. unfold SWSH_core. cbn [alen].
  assert (F : forall x, (epsilon < x)%R -> Rleb x epsilon = false). { intros x Hx. destruct (Rleb x epsilon) eqn:E; auto. apply Rleb_true in E. lra. }
  rewrite !F by auto. set (ell := nval indices [0; 0]) in *. set (m := nval indices [0; 1]) in *.
  assert (EO : ((Z.abs m >? ell) || (Z.abs s >? ell)) = false) by (apply orb_false_iff; split; rewrite Z.gtb_ltb; apply Z.ltb_ge; lia).
  destruct (Rltb (Cmod (qa q)) (Cmod (qb q))); rewrite for_range_step by lia; rewrite rd_ok by (cbn [alen]; lia); cbn [bind aget];
    fold ell m; [unfold S_elem_lt at 1|unfold S_elem_ge at 1]; rewrite EO; unfold Wigner_coefficient at 1;
    rewrite (lookup_oob L) by (auto; lia); reflexivity.
Qed.

Lemma C54_empty_grid_refuted :
  exists a : nda quat, Forall (fun n => 0 <= n) (nshape a) /\
  forall tab g s ell_max, 0 <= ell_max -> SWSH_grid_call tab g a s ell_max = Err ValueError.
Proof.
  exists (mknda [3; 0] (fun _ => qone)). split; [repeat constructor; lia|]. intros tab g s ell_max HL.
  apply C54_empty_grid; auto. cbn. auto.
Qed.

Lemma C54_large_ell_refuted :
  forall L tab, 0 <= L -> is_Wigner_table L tab ->
  exists q indices, rotor q /\ nshape indices = [1; 2] /\ forall g, SWSH_call tab g (RQuat q) 0 indices = Err OutOfBounds.
Proof.
  intros L tab HL Ht. exists q345, (mknda [1; 2] (fun p => if nth 1 p 0 =? 0 then L + 1 else 0)).
  split; [apply q345_rotor|]. split; [reflexivity|]. intros g.
  apply (C54_large_ell L); auto; try apply q345_parts; cbn [nval nth Z.eqb]; lia.
Qed.
