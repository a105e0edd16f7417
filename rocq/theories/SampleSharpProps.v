(** C56: the number of sample points that determine the modes. *)
Require Import ZArith Lia Reals Lra Bool List.
From Coquelicot Require Import Hierarchy Complex.
From Verif Require Import Base BaseProofs CBase CSum Fact DRep WignerModel RotorSpec WignerProps SWSHModel SWSHProofs ModesModel ModesSpec ModesProofs3
  GridModel GridProps OrthoSpec OrthoProofs OrthoProps SampleProofs SampleProps SampleSharp.
Import ListNotations.
Open Scope Z_scope.

Lemma C56_enough :
  forall Lt tab h f h' g idx idx' nt np shape points M,
  is_Wigner_table Lt tab -> wf h f -> wf h' g -> spin (md f) = spin (md g) ->
  at_index (lead (nd f)) idx -> at_index (lead (nd g)) idx' ->
  0 <= ellmax (md f) <= Lt -> 0 <= ellmax (md g) <= Lt ->
  theta_phi nt np = Ok (shape, points) -> 2 <= nt <= 10 ^ 12 ->
  M = Z.max (ellmax (md f)) (ellmax (md g)) ->
  (if spin (md f) =? 0 then M + 2 else M - Z.abs (spin (md f)) + 3) <= nt -> 2 * M + 1 <= np ->
  (forall j k, 0 <= j < nt -> 0 <= k < np -> exists v v',
     value_at tab h f (direction_rotor (points j k 0) (points j k 1)) v
     /\ value_at tab h' g (direction_rotor (points j k 0) (points j k 1)) v'
     /\ v idx = v' idx') ->
  forall ell m, 0 <= ell -> - ell <= m <= ell ->
    (if ell <=? ellmax (md f) then mode h f idx ell m else RtoC 0)
    = (if ell <=? ellmax (md g) then mode h' g idx' ell m else RtoC 0).
Proof.
  intros Lt tab h f h' g idx idx' nt np shape points M Ht Wf Wg Es Hi Hi' Lf Lg TP Hnt EM Mt Mp HV ell m He Hm.
  destruct (C38_theta_phi nt np ltac:(lia) ltac:(lia)) as (e & TP' & PT & _). rewrite TP' in TP. apply Ok_inj in TP. injection TP as <- ->.
  fold (padded h f idx ell m). fold (padded h' g idx' ell m).
  destruct (Z_lt_ge_dec M ell) as [Hb|Hb].
  { unfold padded. replace (ell <=? ellmax (md f)) with false by (symmetry; apply Z.leb_gt; lia). replace (ell <=? ellmax (md g)) with false by (symmetry; apply Z.leb_gt; lia). reflexivity. }
  destruct (Z_lt_ge_dec ell (Z.abs (spin (md f)))) as [Hs|Hs].
  { destruct Wf as (_ & _ & Zf), Wg as (_ & _ & Zg). unfold padded.
    transitivity (RtoC 0); [|symmetry]; (destruct (Z.leb_spec ell (ellmax (md f))); destruct (Z.leb_spec ell (ellmax (md g))); auto; try (apply Zf; lia); apply Zg; lia). }
  enough (X : (padded h f idx ell m - padded h' g idx' ell m)%C = RtoC 0).
  { transitivity (padded h f idx ell m - padded h' g idx' ell m + padded h' g idx' ell m)%C; [ring|]. rewrite X. ring. }
  apply (samples_modes_sharp (spin (md f)) M (fun ell m => padded h f idx ell m - padded h' g idx' ell m)%C nt np); try lia.
  { unfold theta_needed. exact Mt. }
  intros j k Hj Hk. destruct (PT j k Hj Hk) as (P0 & P1). destruct (HV j k Hj Hk) as (v & v' & V & V' & E).
  rewrite P0, P1 in V, V'. fold (th_ nt j) (ph_ np k) in V, V'.
  pose proof (grid_rotor nt j (ph_ np k) Hnt Hj) as Rr.
  pose proof (value_at_fun _ _ _ _ _ _ V (C48_function Lt tab h f Ht Wf Lf _ _ Rr) idx Hi) as A. cbv beta in A.
  pose proof (value_at_fun _ _ _ _ _ _ V' (C48_function Lt tab h' g Ht Wg Lg _ _ Rr) idx' Hi') as B. cbv beta in B.
  rewrite A, B in E. rewrite (fvalue_padded h f idx M), (fvalue_padded h' g idx' M) in E by lia. rewrite <- Es in E.
  rewrite (csum_ext 0 M _ (fun ell => csum (- ell) ell (fun m => padded h f idx ell m * harmonic (spin (md f)) ell m (th_ nt j) (ph_ np k))
    - csum (- ell) ell (fun m => padded h' g idx' ell m * harmonic (spin (md f)) ell m (th_ nt j) (ph_ np k)))%C).
  - rewrite csum_minus, E. ring.
  - intros l Hl. rewrite <- csum_minus. apply csum_ext. intros. ring.
Qed.

(** A Modes object with given modes. *)
Definition a_heap (W : Z -> Z -> C) : heap := mkheap 1 (fun _ _ k => let l := Z.sqrt k in W l (k - l * l - l)).
Definition a_modes (s L : Z) : modes := mkmodes (mknd 0 [] ((L + 1) ^ 2)) (mkmeta s L None).
Lemma a_mode W s L idx l m : 0 <= l -> - l <= m <= l -> mode (a_heap W) (a_modes s L) idx l m = W l m.
Proof.
  intros Hl Hm. unfold mode. cbn [mem a_heap]. cbv zeta. replace (Z.sqrt (l * l + (l + m))) with l; [f_equal; lia|]. symmetry. apply Z.sqrt_unique. lia.
Qed.
Lemma a_wf W s L : (forall l m, 0 <= l < Z.abs s -> - l <= m <= l -> W l m = RtoC 0) -> wf (a_heap W) (a_modes s L).
Proof.
  intros H. split; [cbn; lia|]. split; [reflexivity|]. intros idx l m Hl Hs Hm. cbn [a_modes md spin ellmax] in Hl, Hs. rewrite a_mode by lia. apply H; lia.
Qed.

Lemma C56_theta_too_few :
  forall Lt tab s L nt np shape points, is_Wigner_table Lt tab -> Z.abs s <= L -> 1 <= L <= Lt ->
  theta_phi nt np = Ok (shape, points) -> 1 <= np ->
  2 <= nt <= 10 ^ 12 -> nt < (if s =? 0 then L + 2 else L - Z.abs s + 3) ->
  exists h f, wf h f /\ spin (md f) = s /\ ellmax (md f) = L /\ lead (nd f) = []
    /\ (exists ell m, Z.abs s <= ell <= L /\ - ell <= m <= ell /\ mode h f [] ell m <> RtoC 0)
    /\ forall j k, 0 <= j < nt -> 0 <= k < np ->
         value_at tab h f (direction_rotor (points j k 0) (points j k 1)) (fun _ => RtoC 0).
Proof.
  intros Lt tab s L nt np shape points Ht Hs HL TP Hnp Hnt Hn.
  destruct (C38_theta_phi nt np ltac:(lia) ltac:(lia)) as (e & TP' & PT & _). rewrite TP' in TP. apply Ok_inj in TP. injection TP as <- ->.
  destruct (theta_alias s L nt Hs ltac:(lia)) as (m & w & (l & Hl & Nw) & Zw); [unfold theta_needed; lia|].
  set (mx := Z.max (Z.abs m) (Z.abs s)) in *.
  set (W := fun ell mm => if (mx <=? ell) && (mm =? m) then w ell else RtoC 0).
  assert (Wf : wf (a_heap W) (a_modes s L)).
  { apply a_wf. intros l' m' H1 H2. unfold W. replace (mx <=? l') with false by (symmetry; apply Z.leb_gt; unfold mx; lia). reflexivity. }
  exists (a_heap W), (a_modes s L). split; [exact Wf|]. do 3 (split; [reflexivity|]). split.
  - exists l, m. split; [unfold mx in Hl; lia|]. split; [unfold mx in Hl; lia|]. rewrite a_mode by (unfold mx in Hl; lia). unfold W.
    replace (mx <=? l) with true by (symmetry; apply Z.leb_le; lia). rewrite Z.eqb_refl. exact Nw.
  - intros j k Hj Hk. destruct (PT j k Hj Hk) as (-> & ->). fold (th_ nt j) (ph_ np k).
    eapply value_at_ext; [|apply (C48_function Lt tab (a_heap W) (a_modes s L) Ht Wf); [cbn; lia|apply grid_rotor; lia]].
    intros idx _. cbv beta. unfold sphere_function. cbn [a_modes md spin ellmax].
    rewrite <- (Zw j (ph_ np k) Hj). rewrite <- (csum_widen mx L 0 L); try (unfold mx; lia).
    + apply csum_ext. intros l' Hl'. rewrite (csum_delta (- l') l' m); [|unfold mx in Hl'; lia|].
      * rewrite a_mode by (unfold mx in Hl'; lia). unfold W. replace (mx <=? l') with true by (symmetry; apply Z.leb_le; lia). rewrite Z.eqb_refl. reflexivity.
      * intros m' Hm' N. rewrite a_mode by (unfold mx in Hl'; lia). unfold W. replace (m' =? m) with false by (symmetry; apply Z.eqb_neq; lia). rewrite andb_false_r. ring.
    + intros l' Hl' Ho. apply csum_zero. intros m' Hm'. rewrite a_mode by lia. unfold W. replace (mx <=? l') with false by (symmetry; apply Z.leb_gt; unfold mx in *; lia). cbn [andb]. ring.
Qed.

Lemma C56_phi_too_few :
  forall Lt tab L nt M shape points, is_Wigner_table Lt tab -> 1 <= M <= L -> L <= Lt -> 2 <= nt <= 10 ^ 12 ->
  theta_phi nt (2 * M) = Ok (shape, points) ->
  exists h f, wf h f /\ spin (md f) = 0 /\ ellmax (md f) = L /\ lead (nd f) = []
    /\ mode h f [] M M = RtoC 1
    /\ forall j k, 0 <= j < nt -> 0 <= k < 2 * M ->
         value_at tab h f (direction_rotor (points j k 0) (points j k 1)) (fun _ => RtoC 0).
Proof.
  intros Lt tab L nt M shape points Ht HM HL Hnt TP.
  destruct (C38_theta_phi nt (2 * M) ltac:(lia) ltac:(lia)) as (e & TP' & PT & _). rewrite TP' in TP. apply Ok_inj in TP. injection TP as <- ->.
  set (W := fun ell mm => if ell =? M then if mm =? M then RtoC 1 else if mm =? - M then RtoC (- sgn M) else RtoC 0 else RtoC 0).
  assert (Wf : wf (a_heap W) (a_modes 0 L)) by (apply a_wf; intros; cbn in *; lia).
  exists (a_heap W), (a_modes 0 L). split; [exact Wf|]. do 3 (split; [reflexivity|]). split.
  - rewrite a_mode by lia. unfold W. rewrite !Z.eqb_refl. reflexivity.
  - intros j k Hj Hk. destruct (PT j k Hj Hk) as (-> & ->). fold (th_ nt j) (ph_ (2 * M) k).
    eapply value_at_ext; [|apply (C48_function Lt tab (a_heap W) (a_modes 0 L) Ht Wf); [cbn; lia|apply grid_rotor; lia]].
    intros idx _. cbv beta. unfold sphere_function. cbn [a_modes md spin ellmax].
    rewrite (csum_delta 0 L M); [|lia|].
    + transitivity (harmonic 0 M M (th_ nt j) (ph_ (2 * M) k) - RtoC (sgn M) * harmonic 0 M (- M) (th_ nt j) (ph_ (2 * M) k))%C; [|apply phi_alias; lia].
      rewrite csum_last, csum_first by lia. rewrite !a_mode by lia. rewrite csum_zero.
      * unfold W. rewrite !Z.eqb_refl. replace (- M =? M) with false by (symmetry; apply Z.eqb_neq; lia). rewrite RtoC_opp. ring.
      * intros m Hm. rewrite a_mode by lia. unfold W. rewrite Z.eqb_refl. replace (m =? M) with false by (symmetry; apply Z.eqb_neq; lia). replace (m =? - M) with false by (symmetry; apply Z.eqb_neq; lia). ring.
    + intros l Hl N. apply csum_zero. intros m Hm. rewrite a_mode by lia. unfold W. replace (l =? M) with false by (symmetry; apply Z.eqb_neq; lia). ring.
Qed.

Lemma C56_minimum_refuted :
  forall L, 2 <= L <= 10 ^ 11 -> exists nt, nt < 2 * L + 1 /\
  forall Lt tab h f h' g np shape points,
  is_Wigner_table Lt tab -> wf h f -> wf h' g -> spin (md f) = spin (md g) -> lead (nd f) = [] -> lead (nd g) = [] ->
  ellmax (md f) = L -> ellmax (md g) = L -> L <= Lt ->
  theta_phi nt np = Ok (shape, points) -> 2 * L + 1 <= np ->
  (forall j k, 0 <= j < nt -> 0 <= k < np -> exists v v',
     value_at tab h f (direction_rotor (points j k 0) (points j k 1)) v
     /\ value_at tab h' g (direction_rotor (points j k 0) (points j k 1)) v'
     /\ v [] = v' []) ->
  forall ell m, 0 <= ell <= L -> - ell <= m <= ell -> mode h f [] ell m = mode h' g [] ell m.
Proof.
  intros L HL. exists (L + 2). split; [lia|]. intros Lt tab h f h' g np shape points Ht Wf Wg Es If Ig Lf Lg Lt' TP Hp HV ell m He Hm.
  assert (X : (if ell <=? ellmax (md f) then mode h f [] ell m else RtoC 0) = (if ell <=? ellmax (md g) then mode h' g [] ell m else RtoC 0)).
  { apply (C56_enough Lt tab h f h' g [] [] (L + 2) np shape points L); auto; try lia.
    - rewrite If. constructor.
    - rewrite Ig. constructor.
    - destruct (Z.eqb_spec (spin (md f)) 0); lia. }
  rewrite Lf, Lg in X. replace (ell <=? L) with true in X by (symmetry; apply Z.leb_le; lia). exact X.
Qed.
