(** Property C65: how accurate the derivatives and the arithmetic of Modes are in double precision. *)
Require Import ZArith Lia List Reals Lra Bool Permutation.
From Flocq Require Import Core.
From Coquelicot Require Import Complex.
From Verif Require Import Base BaseProofs CBase CSum RSum Fact IndexModel IndexProofs PowersModel DRep WignerModel ModesModel ModesSpec ModesProofs ModesProofs2
  FloatIndexModel FloatIndexProofs FloatPowersModel FloatPowersSpec FloatPowersProofs FloatPowersProps FloatConvModel FloatConvSpec FloatConvProofs FloatConvProps
  FloatModesModel FloatModesSpec FloatModesProofs3 FloatModesProofs4.
Import ListNotations.
Set Bullet Behavior "Strict Subproofs".
Open Scope Z_scope.

Lemma gives_of n A h f s v w :
  (exists h' r, A h f = Ok (h', r) /\ new_modes h h' r s (ellmax (md f)) (lead (nd f)) v /\ truncator (md r) = truncator (md f)) ->
  (forall idx ell m, 0 <= ell <= ellmax (md f) -> - ell <= m <= ell -> cclose n (v idx ell m) (w idx ell m)) ->
  gives_close n A h f s w.
Proof. intros (h' & r & E & N & _) H. exists h', r, v. split; auto. Qed.
Lemma by_int n x : cclose (21 / 10) (cscale64 (RN64 (IZR n)) x) (RtoC (IZR n) * x)%C.
Proof. apply cclose_weaken with (1002 / 1000 + 101 / 100)%R; [lra|]. apply factor_cclose; [lra|apply int_factor]. Qed.
Lemma by_sqrt a b x : 0 <= a * b -> cclose (31 / 10) (cscale64 (sqrt_product64 a b) x) (RtoC (sqrt (IZR (a * b))) * x)%C.
Proof. intros H. apply cclose_weaken with (201 / 100 + 101 / 100)%R; [lra|]. apply factor_cclose; [lra|apply sqrt_factor; auto]. Qed.
Lemma zero_close n x y : (0 <= n)%R -> x = RtoC 0 -> y = RtoC 0 -> cclose n x y.
Proof. intros H -> ->. split; apply close_refl; auto. Qed.

Lemma C65_L :
  forall h f, wf h f ->
  let s := spin (md f) in
  gives_close (21 / 10) Lsquared64 h f s (fun idx ell m => RtoC (IZR (ell * (ell + 1))) * mode h f idx ell m)%C
  /\ gives_close (21 / 10) Lz64 h f s (fun idx ell m => RtoC (IZR m) * mode h f idx ell m)%C
  /\ gives_close (31 / 10) Lplus64 h f s (fun idx ell m => RtoC (sqrt (IZR ((ell + m) * (ell - m + 1)))) * mode h f idx ell (m - 1)%Z)%C
  /\ gives_close (31 / 10) Lminus64 h f s (fun idx ell m => RtoC (sqrt (IZR ((ell - m) * (ell + m + 1)))) * mode h f idx ell (m + 1)%Z)%C.
Proof.
  intros h f W s. split; [|split; [|split]].
  - eapply gives_of; [apply Lsquared64_new; auto|]. intros. apply by_int.
  - eapply gives_of; [apply Lz64_new; auto|]. intros. apply by_int.
  - eapply gives_of; [apply Lplus64_new; auto|]. intros. apply by_sqrt. apply Z.mul_nonneg_nonneg; lia.
  - eapply gives_of; [apply Lminus64_new; auto|]. intros. apply by_sqrt. apply Z.mul_nonneg_nonneg; lia.
Qed.

Lemma rup_close h f idx ell m : wf h f -> 0 <= ell <= ellmax (md f) -> - ell <= m <= ell ->
  cclose (31 / 10) (cscale64 (rup64 (spin (md f)) ell) (mode h f idx ell m)) (RtoC (sqrt (IZR ((ell + spin (md f)) * (ell - spin (md f) + 1)))) * mode h f idx ell m)%C.
Proof.
  intros W He Hm. destruct (Z_lt_ge_dec ell (Z.abs (spin (md f)))) as [Hs|Hs].
  - destruct W as (_ & _ & Wz). rewrite Wz by auto. apply zero_close; [lra|apply cscale64_0|ring].
  - unfold rup64. rewrite (Z.mul_comm (ell + _)). apply by_sqrt. apply Z.mul_nonneg_nonneg; lia.
Qed.
Lemma rdown_close h f idx ell m : wf h f -> 0 <= ell <= ellmax (md f) -> - ell <= m <= ell ->
  cclose (31 / 10) (cscale64 (rdown64 (spin (md f)) ell) (mode h f idx ell m)) (RtoC (sqrt (IZR ((ell - spin (md f)) * (ell + spin (md f) + 1)))) * mode h f idx ell m)%C.
Proof.
  intros W He Hm. destruct (Z_lt_ge_dec ell (Z.abs (spin (md f)))) as [Hs|Hs].
  - destruct W as (_ & _ & Wz). rewrite Wz by auto. apply zero_close; [lra|apply cscale64_0|ring].
  - unfold rdown64. rewrite (Z.mul_comm (ell - _)). apply by_sqrt. apply Z.mul_nonneg_nonneg; lia.
Qed.

Lemma C65_R :
  forall h f, wf h f ->
  let s := spin (md f) in
  gives_close (21 / 10) Rsquared64 h f s (fun idx ell m => RtoC (IZR (ell * (ell + 1))) * mode h f idx ell m)%C
  /\ gives_close (21 / 10) Rz64 h f s (fun idx ell m => RtoC (IZR (- s)) * mode h f idx ell m)%C
  /\ gives_close (31 / 10) Rplus64 h f (s - 1) (fun idx ell m => RtoC (sqrt (IZR ((ell + s) * (ell - s + 1)))) * mode h f idx ell m)%C
  /\ gives_close (31 / 10) Rminus64 h f (s + 1) (fun idx ell m => RtoC (sqrt (IZR ((ell - s) * (ell + s + 1)))) * mode h f idx ell m)%C.
Proof.
  intros h f W s. split; [|split; [|split]].
  - eapply gives_of; [apply Lsquared64_new; auto|]. intros. apply by_int.
  - eapply gives_of; [apply Rz64_new; auto|]. intros. apply by_int.
  - eapply gives_of; [apply Rplus64_new; auto|]. intros. apply rup_close; auto.
  - eapply gives_of; [apply Rminus64_new; auto|]. intros. apply rdown_close; auto.
Qed.

Lemma C65_eth :
  forall h f, wf h f ->
  let s := spin (md f) in
  gives_close (31 / 10) eth64 h f (s + 1) (fun idx ell m => RtoC (sqrt (IZR ((ell - s) * (ell + s + 1)))) * mode h f idx ell m)%C
  /\ gives_close (31 / 10) ethbar64 h f (s - 1) (fun idx ell m => - (RtoC (sqrt (IZR ((ell + s) * (ell - s + 1)))) * mode h f idx ell m))%C.
Proof.
  intros h f W s. split.
  - eapply gives_of; [apply Rminus64_new; auto|]. intros. apply rdown_close; auto.
  - eapply gives_of; [apply ethbar64_new; auto|]. intros. apply cclose_opp, rup_close; auto.
Qed.

(** ** Addition and subtraction *)
Lemma rounded_stored z : is_double (Re z) -> is_double (Im z) -> rounded z = z.
Proof. intros H1 H2. unfold rounded. rewrite H1, H2. destruct z. reflexivity. Qed.

Lemma C65_add :
  forall h f g subtraction sh, wf h f -> wf h g -> stored h f -> 0 <= ellmax (md f) -> 0 <= ellmax (md g) ->
  spin (md f) = spin (md g) -> broadcast (lead (nd f)) (lead (nd g)) = Some sh ->
  let entry k idx ell m := if ell <=? ellmax (md k) then mode h k (bidx (lead (nd k)) idx) ell m else RtoC 0 in
  exists h' r, add64 h f g subtraction = Ok (h', r)
    /\ new_modes h h' r (spin (md f)) (Z.max (ellmax (md f)) (ellmax (md g))) sh
         (fun idx ell m => rounded (if subtraction then entry f idx ell m - entry g idx ell m else entry f idx ell m + entry g idx ell m)%C).
Proof.
  intros h f g sub sh Wf Wg Sf HF HG HS HB entry.
  destruct (add64_new h f g sub sh Wf Wg HF HG HS HB) as (h' & r & E & N & _). exists h', r. split; auto.
  eapply new_modes_ext; [|exact N]. intros idx ell m He Hm. unfold add_data64, entry.
  destruct (ell <=? ellmax (md g)).
  - destruct sub; reflexivity.
  - destruct (ell <=? ellmax (md f)).
    + replace (if sub then (_ - RtoC 0)%C else _) with (mode h f (bidx (lead (nd f)) idx) ell m) by (destruct sub; ring).
      symmetry. apply rounded_stored; apply Sf.
    + replace (if sub then (RtoC 0 - RtoC 0)%C else _) with (RtoC 0) by (destruct sub; ring).
      unfold rounded. cbn [Re Im fst snd RtoC]. rewrite RN64_zero'. reflexivity.
Qed.

(** ** Multiplication and division by numbers *)
Lemma C65_multiply :
  forall ord h f x sh, wf h f -> 0 <= ellmax (md f) -> (length (sc_shape x) <= length (lead (nd f)))%nat ->
  broadcast (lead (nd f)) (sc_shape x) = Some sh ->
  (forall idx k, adds_all 2 2 (fst (ord idx k)) /\ adds_all 2 2 (snd (ord idx k))) ->
  exists h' r v, mul_scalar64 ord h f x = Ok (h', r) /\ new_modes h h' r (spin (md f)) (ellmax (md f)) sh v
    /\ forall idx ell m, at_index sh idx -> 0 <= ell <= ellmax (md f) -> - ell <= m <= ell ->
         let a := mode h f (bidx (lead (nd f)) idx) ell m in let b := sc_val x (bidx (sc_shape x) idx) in
         (Cmod (v idx ell m - a * b)%C <= 3 * u64 * (Cmod a * Cmod b) + 4 * tiny64)%R.
Proof.
  intros ord h f x sh W HL Hlen HB Ho.
  destruct (scalar64_new (fun idx k => cmul64 (ord idx k)) h f x sh W HL Hlen HB) as (h' & r & E & N & _).
  { intros. apply cmul64_zero. }
  eexists h', r, _. split; [exact E|]. split; [exact N|]. intros idx ell m Hi He Hm a b. destruct (Ho idx (ell * ell + (ell + m))). apply cmul64_err; auto.
Qed.

Lemma muladd64_0 fu r : muladd64 fu 0 r 0 = 0%R.
Proof. unfold muladd64. destruct fu; rewrite Rmult_0_l, ?RN64_zero', Rplus_0_r, RN64_zero'; reflexivity. Qed.
Lemma cdiv64_zero t c : cdiv64 t (RtoC 0) c = RtoC 0.
Proof.
  destruct t as [[f1 f2] f3]. unfold cdiv64. cbn [Re Im fst snd RtoC]. rewrite Ropp_0.
  destruct (Rle_dec _ _); rewrite !muladd64_0, !Rmult_0_l, RN64_zero'; reflexivity.
Qed.
Lemma C65_divide :
  forall ord h f x sh, wf h f -> 0 <= ellmax (md f) -> (length (sc_shape x) <= length (lead (nd f)))%nat ->
  broadcast (lead (nd f)) (sc_shape x) = Some sh ->
  (forall idx, at_index sh idx -> (/ 2 ^ 900 <= Cmod (sc_val x (bidx (sc_shape x) idx)) <= 2 ^ 900)%R) ->
  exists h' r v, div_scalar64 ord h f x = Ok (h', r) /\ new_modes h h' r (spin (md f)) (ellmax (md f)) sh v
    /\ forall idx ell m, at_index sh idx -> 0 <= ell <= ellmax (md f) -> - ell <= m <= ell ->
         let a := mode h f (bidx (lead (nd f)) idx) ell m in let b := sc_val x (bidx (sc_shape x) idx) in
         (Cmod (v idx ell m - a / b)%C <= 18 * u64 * (Cmod a / Cmod b) + 3 * tiny64 * (1 + / Cmod b))%R.
Proof.
  intros ord h f x sh W HL Hlen HB Hx.
  destruct (scalar64_new (fun idx k => cdiv64 (ord idx k)) h f x sh W HL Hlen HB) as (h' & r & E & N & _).
  { intros. apply cdiv64_zero. }
  eexists h', r, _. split; [exact E|]. split; [exact N|]. intros idx ell m Hi He Hm a b. apply cdiv64_err. apply Hx; auto.
Qed.

(** Two arrays of modes of spin weight -1, of shapes (2,) and (), up to l = 3 and l = 2 *)
Definition example_heap : heap := mkheap 2 (fun b _ k => if (k <? 1)%Z then RtoC 0 else match b with O => (1, 2)%R | _ => (-3, 5)%R end).
Definition example_f : modes := mkmodes (mknd 0 [2] 16) (mkmeta (-1) 3 None).
Definition example_g : modes := mkmodes (mknd 1 [] 9) (mkmeta (-1) 2 None).
Lemma low_zero h b L idx ell m ld w : h = example_heap -> 0 <= ell <= L -> ell < 1 -> - ell <= m <= ell ->
  mode h (mkmodes (mknd b ld w) (mkmeta (-1) L None)) idx ell m = RtoC 0.
Proof. intros -> H1 H2 H3. unfold mode. cbn. replace (ell * ell + (ell + m)) with 0 by (assert (ell = 0) by lia; subst; lia). reflexivity. Qed.
Lemma double_int n : Z.abs n < 2 ^ 53 -> is_double (IZR n).
Proof. intros H. apply RN64_int. lia. Qed.
Lemma C65_example :
  wf example_heap example_f /\ wf example_heap example_g /\ stored example_heap example_f
  /\ spin (md example_f) = spin (md example_g) /\ broadcast (lead (nd example_f)) (lead (nd example_g)) = Some [2]
  /\ adds_all 2 2 (Plus (Prod 0) (Prod 1)) /\ adds_all 2 2 (Fused 1 (Prod 0))
  /\ (let x := mkscalars [] (fun _ => (3, 4)%R) in
        broadcast (lead (nd example_f)) (sc_shape x) = Some [2]
        /\ forall idx, at_index [2] idx -> (/ 2 ^ 900 <= Cmod (sc_val x (bidx (sc_shape x) idx)) <= 2 ^ 900)%R).
Proof.
  split; [|split; [|split; [|split; [|split; [|split; [|split; [|split]]]]]]].
  - split; [cbn; lia|]. split; [reflexivity|]. cbn [example_f md ellmax spin]. intros idx ell mm H1 H2 H3. apply low_zero; auto.
  - split; [cbn; lia|]. split; [reflexivity|]. cbn [example_g md ellmax spin]. intros idx ell mm H1 H2 H3. apply low_zero; auto.
  - intros idx k. cbn. destruct (k <? 1)%Z; cbn; split; apply double_int; lia.
  - reflexivity.
  - reflexivity.
  - split; [apply Permutation_refl|cbn; lia].
  - split; [apply perm_swap|cbn; lia].
  - reflexivity.
  - intros idx _. cbn [sc_val]. assert (E : Cmod (3, 4)%R = 5%R).
    { unfold Cmod. cbn [fst snd]. replace (3 ^ 2 + 4 ^ 2)%R with (5 * 5)%R by ring. apply sqrt_square. lra. }
    rewrite E. assert (1 <= 2 ^ 900)%R by (apply pow_R1_Rle; lra). split.
    + apply Rle_trans with (/ 1)%R; [apply Rinv_le_contravar; lra|lra].
    + apply Rle_trans with (2 ^ 3)%R; [simpl; lra|]. apply Rle_pow; [lra|lia].
Qed.
