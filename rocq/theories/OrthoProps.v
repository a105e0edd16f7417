(** Integrals over the sphere and the rotation group: orthonormality, Parseval, recovery of the modes. *)
Require Import ZArith Lia Reals Lra Bool List.
From Coquelicot Require Import Hierarchy RInt Complex.
From Verif Require Import Base BaseProofs CBase CSum RSum Fact DRep WignerSpec WignerModel WignerProofs2 WignerCallModel IndexModel RotorSpec WignerProps
  SWSHModel SWSHProofs ModesModel ModesSpec ModesProofs3 ModesProps2 OrthoSpec OrthoProofs OrthoProofs2.
Import ListNotations.
Open Scope R_scope.

Lemma sphere_function_fvalue h f idx theta phi :
  sphere_function h f idx theta phi = fvalue (spin (md f)) (ellmax (md f)) (mode h f idx) (direction_rotor theta phi).
Proof. reflexivity. Qed.

Lemma harmonic_low s l m theta phi : (l < Z.abs s)%Z -> harmonic s l m theta phi = RtoC 0.
Proof.
  intros H. unfold harmonic, SWSH_value. replace (Z.abs s <=? l)%Z with false by (symmetry; apply Z.leb_gt; auto). rewrite andb_false_r. reflexivity.
Qed.

(** The coefficient of a harmonic in a finite sum. *)
Lemma recover s L w l m : (Z.abs s <= l)%Z -> (Z.abs m <= l)%Z ->
  sphere_integral (fun theta phi => csum 0 L (fun ell => csum (- ell) ell (fun mm => w ell mm * harmonic s ell mm theta phi)) * Cconj (harmonic s l m theta phi))%C
    (if (l <=? L)%Z then w l m else RtoC 0).
Proof.
  intros Hs Hm.
  apply (SInt_ext (fun theta phi => csum 0 L (fun ell => csum (- ell) ell (fun mm => w ell mm * (harmonic s ell mm theta phi * Cconj (harmonic s l m theta phi))))%C)).
  { intros. rewrite <- csum_scal_r. apply csum_ext. intros. rewrite <- csum_scal_r. apply csum_ext. intros. ring. }
  assert (X : forall ell mm, (- ell <= mm <= ell)%Z -> sphere_integral (fun theta phi => harmonic s ell mm theta phi * Cconj (harmonic s l m theta phi))%C
    (if ((ell =? l) && (mm =? m))%Z then RtoC 1 else RtoC 0)).
  { intros ell mm Hmm. destruct (Z_lt_ge_dec ell (Z.abs s)) as [Lo|Hi]; [|apply orthonormal; lia].
    replace (ell =? l)%Z with false by (symmetry; apply Z.eqb_neq; lia). cbn [andb].
    apply (SInt_ext (fun _ _ => RtoC 0)); [|apply SInt_0]. intros. rewrite (harmonic_low s ell) by auto. ring. }
  eapply SInt_eq; [|apply (SInt_csum _ _ (fun ell theta phi => csum (- ell) ell (fun mm => w ell mm * (harmonic s ell mm theta phi * Cconj (harmonic s l m theta phi))))%C
    (fun ell => csum (- ell) ell (fun mm => w ell mm * (if ((ell =? l) && (mm =? m))%Z then RtoC 1 else RtoC 0)))%C);
    intros ell He; apply (SInt_csum _ _ (fun mm theta phi => w ell mm * (harmonic s ell mm theta phi * Cconj (harmonic s l m theta phi)))%C);
    intros mm Hmm; apply SInt_scal, X; auto].
  cbv beta. destruct (Z.leb_spec l L) as [HL|HL].
  - rewrite (csum_delta 0 L l) by (try lia; intros ell He N; apply csum_zero; intros; replace (ell =? l)%Z with false by (symmetry; apply Z.eqb_neq; lia); cbn [andb]; ring).
    rewrite (csum_delta (- l) l m) by (try lia; intros mm He N; replace (mm =? m)%Z with false by (symmetry; apply Z.eqb_neq; lia); rewrite andb_false_r; ring).
    rewrite !Z.eqb_refl. cbn [andb]. ring.
  - apply csum_zero. intros ell He. apply csum_zero. intros mm Hmm. replace (ell =? l)%Z with false by (symmetry; apply Z.eqb_neq; lia). cbn [andb]. ring.
Qed.

Lemma inner_sum_modes s L L' w w' : (forall ell m, (ell < Z.abs s)%Z -> (0 <= ell <= L')%Z -> (- ell <= m <= ell)%Z -> w' ell m = RtoC 0) ->
  sphere_integral (fun theta phi => csum 0 L (fun ell => csum (- ell) ell (fun m => w ell m * harmonic s ell m theta phi))
      * Cconj (csum 0 L' (fun ell => csum (- ell) ell (fun m => w' ell m * harmonic s ell m theta phi))))%C
    (csum 0 L' (fun ell => csum (- ell) ell (fun m => (if (ell <=? L)%Z then w ell m else RtoC 0) * Cconj (w' ell m))))%C.
Proof.
  intros Lo.
  apply (SInt_ext (fun theta phi => csum 0 L' (fun l => csum (- l) l (fun m => Cconj (w' l m) *
    (csum 0 L (fun ell => csum (- ell) ell (fun m => w ell m * harmonic s ell m theta phi)) * Cconj (harmonic s l m theta phi)))))%C).
  { intros. rewrite csum_conj, <- csum_scal. apply csum_ext. intros l Hl. rewrite csum_conj, <- csum_scal. apply csum_ext. intros m Hm. rewrite Cconj_mult. ring. }
  apply SInt_csum. intros l Hl. apply SInt_csum. intros m Hm.
  destruct (Z_lt_ge_dec l (Z.abs s)) as [HL|HL].
  - rewrite Lo by auto. rewrite Cconj_RtoC. eapply SInt_ext; [|eapply SInt_eq; [|apply SInt_0]]; intros; cbv beta; ring.
  - eapply SInt_eq; [|apply SInt_scal, recover; lia]. cbv beta. ring.
Qed.

(** ** C48 *)
Lemma C48_orthonormal :
  forall Lt tab s ell m ell' m', is_Wigner_table Lt tab ->
  (Z.abs s <= ell <= Lt)%Z -> (Z.abs m <= ell)%Z -> (Z.abs s <= ell' <= Lt)%Z -> (Z.abs m' <= ell')%Z ->
  exists Y Y' : R -> R -> C,
    (forall theta phi, Y theta phi = harmonic s ell m theta phi /\ Y' theta phi = harmonic s ell' m' theta phi)
    /\ (forall theta phi, rotor (direction_rotor theta phi) ->
          SWSH_returns tab (direction_rotor theta phi) s ell m (Y theta phi)
          /\ SWSH_returns tab (direction_rotor theta phi) s ell' m' (Y' theta phi))
    /\ sphere_integral (fun theta phi => Y theta phi * Cconj (Y' theta phi))%C
         (if ((ell =? ell') && (m =? m'))%Z then RtoC 1 else RtoC 0).
Proof.
  intros Lt tab s l m l' m' Ht Hl Hm Hl' Hm'. exists (harmonic s l m), (harmonic s l' m'). split; [auto|split].
  - intros theta phi Hr. split; apply (SWSH_returns_value Lt); auto; lia.
  - apply orthonormal; lia.
Qed.

Lemma C48_function :
  forall Lt tab h f, is_Wigner_table Lt tab -> wf h f -> (0 <= ellmax (md f) <= Lt)%Z ->
  forall theta phi, rotor (direction_rotor theta phi) ->
  value_at tab h f (direction_rotor theta phi) (fun idx => sphere_function h f idx theta phi).
Proof. intros Lt tab h f Ht W HL theta phi Hr. apply (value_at_fvalue Lt); auto. Qed.

Lemma recovery h f idx ell m : wf h f -> (0 <= ell)%Z -> (Z.abs m <= ell)%Z ->
  sphere_integral (fun theta phi => sphere_function h f idx theta phi * Cconj (harmonic (spin (md f)) ell m theta phi))%C
    (if (ell <=? ellmax (md f))%Z then mode h f idx ell m else RtoC 0).
Proof.
  intros (_ & _ & Lo) He Hm. destruct (Z_lt_ge_dec ell (Z.abs (spin (md f)))) as [HL|HL].
  - replace (if (ell <=? ellmax (md f))%Z then mode h f idx ell m else RtoC 0) with (RtoC 0).
    + eapply SInt_ext; [|apply SInt_0]. intros. cbv beta. rewrite harmonic_low by auto. rewrite Cconj_RtoC. ring.
    + destruct (Z.leb_spec ell (ellmax (md f))); auto. rewrite Lo by lia. reflexivity.
  - apply recover; lia.
Qed.

Lemma inner_modes h f h' g idx idx' : wf h f -> wf h' g -> spin (md f) = spin (md g) ->
  sphere_integral (fun theta phi => sphere_function h f idx theta phi * Cconj (sphere_function h' g idx' theta phi))%C
    (csum 0 (Z.min (ellmax (md f)) (ellmax (md g))) (fun ell => csum (- ell) ell (fun m => mode h f idx ell m * Cconj (mode h' g idx' ell m))))%C.
Proof.
  intros _ (_ & _ & Lo) Es. unfold sphere_function. rewrite <- Es.
  eapply SInt_eq; [|apply inner_sum_modes].
  - destruct (Z_lt_ge_dec (Z.min (ellmax (md f)) (ellmax (md g))) 0) as [N|N].
    + transitivity (RtoC 0); [|symmetry; apply csum_zero; intros; lia].
      apply csum_zero. intros ell He. apply csum_zero. intros m Hm. replace (ell <=? ellmax (md f))%Z with false by (symmetry; apply Z.leb_gt; lia). ring.
    + rewrite <- (csum_widen 0 (Z.min (ellmax (md f)) (ellmax (md g))) 0 (ellmax (md g))); try lia.
      * apply csum_ext. intros ell He. apply csum_ext. intros m Hm. replace (ell <=? ellmax (md f))%Z with true by (symmetry; apply Z.leb_le; lia). reflexivity.
      * intros ell He Ho. apply csum_zero. intros m Hm. replace (ell <=? ellmax (md f))%Z with false by (symmetry; apply Z.leb_gt; lia). ring.
  - intros ell m H1 H2 H3. apply Lo; lia.
Qed.

Lemma C48_recovery :
  forall Lt tab h f ell m, is_Wigner_table Lt tab -> wf h f -> (0 <= ellmax (md f) <= Lt)%Z -> (0 <= ell <= Lt)%Z -> (Z.abs m <= ell)%Z ->
  exists (F : list Z -> R -> R -> C) (Y : R -> R -> C),
    (forall theta phi, Y theta phi = harmonic (spin (md f)) ell m theta phi
       /\ forall idx, F idx theta phi = sphere_function h f idx theta phi)
    /\ (forall theta phi, rotor (direction_rotor theta phi) ->
          value_at tab h f (direction_rotor theta phi) (fun idx => F idx theta phi)
          /\ SWSH_returns tab (direction_rotor theta phi) (spin (md f)) ell m (Y theta phi))
    /\ forall idx, sphere_integral (fun theta phi => F idx theta phi * Cconj (Y theta phi))%C
         (if (ell <=? ellmax (md f))%Z then mode h f idx ell m else RtoC 0).
Proof.
  intros Lt tab h f ell m Ht W HL He Hm. exists (sphere_function h f), (harmonic (spin (md f)) ell m). split; [auto|split].
  - intros theta phi Hr. split; [apply (C48_function Lt); auto|apply (SWSH_returns_value Lt); auto; lia].
  - intros idx. apply recovery; auto; lia.
Qed.

Lemma C48_inner :
  forall Lt tab h f h' g, is_Wigner_table Lt tab -> wf h f -> wf h' g -> spin (md f) = spin (md g) ->
  (0 <= ellmax (md f) <= Lt)%Z -> (0 <= ellmax (md g) <= Lt)%Z ->
  exists F G : list Z -> R -> R -> C,
    (forall theta phi idx, F idx theta phi = sphere_function h f idx theta phi /\ G idx theta phi = sphere_function h' g idx theta phi)
    /\ (forall theta phi, rotor (direction_rotor theta phi) ->
          value_at tab h f (direction_rotor theta phi) (fun idx => F idx theta phi)
          /\ value_at tab h' g (direction_rotor theta phi) (fun idx => G idx theta phi))
    /\ forall idx idx', sphere_integral (fun theta phi => F idx theta phi * Cconj (G idx' theta phi))%C
         (csum 0 (Z.min (ellmax (md f)) (ellmax (md g))) (fun ell => csum (- ell) ell (fun m => mode h f idx ell m * Cconj (mode h' g idx' ell m))))%C.
Proof.
  intros Lt tab h f h' g Ht W W' Es HL HL'. exists (sphere_function h f), (sphere_function h' g). split; [auto|split].
  - intros theta phi Hr. split; apply (C48_function Lt); auto.
  - intros idx idx'. apply inner_modes; auto.
Qed.

(** ** C42 *)
Lemma C42_parseval :
  forall Lt tab h f idx, is_Wigner_table Lt tab -> wf h f -> (0 <= ellmax (md f) <= Lt)%Z ->
  (forall theta phi, rotor (direction_rotor theta phi) ->
     value_at tab h f (direction_rotor theta phi) (fun idx => sphere_function h f idx theta phi))
  /\ sphere_integral (fun theta phi => RtoC (Cmod (sphere_function h f idx theta phi) ^ 2)) (RtoC (norm h f idx ^ 2)).
Proof.
  intros Lt tab h f idx Ht W HL. split; [apply (C48_function Lt); auto|].
  rewrite (proj2 (C42_norm h f idx W ltac:(lia))).
  pose proof (inner_modes h f h f idx idx W W eq_refl) as I. rewrite Z.min_id in I.
  eapply SInt_ext; [|exact I].
  intros theta phi. cbv beta. rewrite Cconj_mod. f_equal. ring.
Qed.

(** ** C49 *)
Lemma C49_orthogonal :
  forall L tab twoell twomp twom twoell' twomp' twom', is_Wigner_table L tab ->
  D_indices twoell twomp twom -> (twoell <= 2 * L)%Z -> D_indices twoell' twomp' twom' -> (twoell' <= 2 * L)%Z ->
  exists D D' : R -> R -> R -> C,
    (forall alpha beta gamma, D alpha beta gamma = D_function twoell twomp twom alpha beta gamma
       /\ D' alpha beta gamma = D_function twoell' twomp' twom' alpha beta gamma)
    /\ (forall alpha beta gamma garbage, rotor (from_euler_angles alpha beta gamma) ->
          (exists out, Wigner_D_element tab L garbage [AReal alpha; AReal beta; AReal gamma; AReal (IZR twoell / 2); AReal (IZR twomp / 2); AReal (IZR twom / 2)]
             = Ok (out, true) /\ aget out 0 = D alpha beta gamma)
          /\ (exists out, Wigner_D_element tab L garbage [AReal alpha; AReal beta; AReal gamma; AReal (IZR twoell' / 2); AReal (IZR twomp' / 2); AReal (IZR twom' / 2)]
             = Ok (out, true) /\ aget out 0 = D' alpha beta gamma))
    /\ group_integral (fun alpha beta gamma => D alpha beta gamma * Cconj (D' alpha beta gamma))%C
         (if ((twoell =? twoell') && (twomp =? twomp') && (twom =? twom'))%Z then RtoC (16 * PI ^ 2 / IZR (twoell + 1)) else RtoC 0).
Proof.
  intros L tab t mp m t' mp' m' Ht HD HL HD' HL'. exists (D_function t mp m), (D_function t' mp' m'). split; [auto|split].
  - intros alpha beta gamma g (U & Ra & Rb).
    assert (X : forall t mp m, D_indices t mp m -> (t <= 2 * L)%Z -> exists out, Wigner_D_element tab L g [AReal alpha; AReal beta; AReal gamma; AReal (IZR t / 2); AReal (IZR mp / 2); AReal (IZR m / 2)]
             = Ok (out, true) /\ aget out 0 = D_function t mp m alpha beta gamma).
    { intros u up um Hu Hl. destruct (C13_single L tab g [AReal alpha; AReal beta; AReal gamma] _ _ u up um Ht
        (or_intror (ex_intro _ alpha (ex_intro _ beta (ex_intro _ gamma (conj eq_refl (conj eq_refl eq_refl))))))) as (out & E & _ & V); auto.
      - split; [apply unit_norm; exact U|auto].
      - exists out. auto. }
    split; apply X; auto.
  - destruct HD as (A1 & A2 & A3 & A4). destruct HD' as (B1 & B2 & B3 & B4).
    pose proof (half_even _ A3) as E1. pose proof (half_even _ A4) as E2. pose proof (half_even _ B3) as E3. pose proof (half_even _ B4) as E4.
    pose proof (D_ortho_pq t ((t + mp) / 2) ((t + m) / 2) t' ((t' + mp') / 2) ((t' + m') / 2) ltac:(lia) ltac:(lia) ltac:(lia) ltac:(lia)) as P.
    replace (2 * ((t + mp) / 2) - t)%Z with mp in P by lia. replace (2 * ((t + m) / 2) - t)%Z with m in P by lia.
    replace (2 * ((t' + mp') / 2) - t')%Z with mp' in P by lia. replace (2 * ((t' + m') / 2) - t')%Z with m' in P by lia.
    replace ((t =? t') && ((t + mp) / 2 =? (t' + mp') / 2) && ((t + m) / 2 =? (t' + m') / 2))%Z with ((t =? t') && (mp =? mp') && (m =? m'))%Z in P; [exact P|].
    destruct (Z.eqb_spec t t') as [Et|Et]; cbn [andb]; auto. f_equal; apply eq_true_iff_eq; rewrite !Z.eqb_eq; lia.
Qed.
