(** C50: the values at the points of theta_phi determine the modes. *)
Require Import ZArith Lia Reals Lra Bool List.
From Coquelicot Require Import Hierarchy Complex.
From Verif Require Import Base BaseProofs CBase CSum DRep WignerModel RotorSpec SWSHModel SWSHProofs ModesModel ModesSpec ModesProofs3
  GridModel GridProps OrthoSpec OrthoProofs OrthoProps SampleProofs.
Import ListNotations.
Open Scope Z_scope.

Definition padded (h : heap) (f : modes) (idx : list Z) (ell m : Z) : C :=
  if ell <=? ellmax (md f) then mode h f idx ell m else RtoC 0.
Lemma fvalue_padded h f idx M theta phi : 0 <= ellmax (md f) <= M ->
  sphere_function h f idx theta phi = csum 0 M (fun ell => csum (- ell) ell (fun m => padded h f idx ell m * harmonic (spin (md f)) ell m theta phi))%C.
Proof.
  intros H. unfold sphere_function. rewrite <- (csum_widen 0 (ellmax (md f)) 0 M); try lia.
  - apply csum_ext. intros ell He. apply csum_ext. intros m Hm. unfold padded. replace (ell <=? ellmax (md f)) with true by (symmetry; apply Z.leb_le; lia). reflexivity.
  - intros ell He Ho. apply csum_zero. intros m Hm. unfold padded. replace (ell <=? ellmax (md f)) with false by (symmetry; apply Z.leb_gt; lia). ring.
Qed.

Lemma C50_samples :
  forall Lt tab h f h' g idx idx' nt np shape points,
  is_Wigner_table Lt tab -> wf h f -> wf h' g -> spin (md f) = spin (md g) ->
  at_index (lead (nd f)) idx -> at_index (lead (nd g)) idx' ->
  0 <= ellmax (md f) <= Lt -> 0 <= ellmax (md g) <= Lt ->
  theta_phi nt np = Ok (shape, points) -> 2 <= nt <= 10 ^ 12 ->
  2 * Z.max (ellmax (md f)) (ellmax (md g)) + 1 <= nt -> 2 * Z.max (ellmax (md f)) (ellmax (md g)) + 1 <= np ->
  (forall j k, 0 <= j < nt -> 0 <= k < np -> exists v v',
     value_at tab h f (direction_rotor (points j k 0) (points j k 1)) v
     /\ value_at tab h' g (direction_rotor (points j k 0) (points j k 1)) v'
     /\ v idx = v' idx') ->
  forall ell m, 0 <= ell -> - ell <= m <= ell ->
    (if ell <=? ellmax (md f) then mode h f idx ell m else RtoC 0)
    = (if ell <=? ellmax (md g) then mode h' g idx' ell m else RtoC 0).
Proof.
  intros Lt tab h f h' g idx idx' nt np shape points Ht Wf Wg Es Hi Hi' Lf Lg TP Hnt Mt Mp HV ell m He Hm.
  set (M := Z.max (ellmax (md f)) (ellmax (md g))) in *.
  destruct (C38_theta_phi nt np ltac:(lia) ltac:(lia)) as (e & TP' & PT & _). rewrite TP' in TP. apply Ok_inj in TP. injection TP as <- ->.
  fold (padded h f idx ell m). fold (padded h' g idx' ell m).
  destruct (Z_lt_ge_dec M ell) as [Hb|Hb].
  { unfold padded. replace (ell <=? ellmax (md f)) with false by (symmetry; apply Z.leb_gt; lia). replace (ell <=? ellmax (md g)) with false by (symmetry; apply Z.leb_gt; lia). reflexivity. }
  destruct (Z_lt_ge_dec ell (Z.abs (spin (md f)))) as [Hs|Hs].
  { destruct Wf as (_ & _ & Zf), Wg as (_ & _ & Zg). unfold padded.
    transitivity (RtoC 0); [|symmetry]; (destruct (Z.leb_spec ell (ellmax (md f))); destruct (Z.leb_spec ell (ellmax (md g))); auto; try (apply Zf; lia); apply Zg; lia). }
  enough (X : (padded h f idx ell m - padded h' g idx' ell m)%C = RtoC 0).
  { transitivity (padded h f idx ell m - padded h' g idx' ell m + padded h' g idx' ell m)%C; [ring|]. rewrite X. ring. }
  apply (samples_modes (spin (md f)) M (fun ell m => padded h f idx ell m - padded h' g idx' ell m)%C nt np); try lia.
  intros j k Hj Hk. destruct (PT j k Hj Hk) as (P0 & P1). destruct (HV j k Hj Hk) as (v & v' & V & V' & E).
  rewrite P0, P1 in V, V'. fold (th_ nt j) (ph_ np k) in V, V'.
  pose proof (grid_rotor nt j (ph_ np k) Hnt Hj) as Rr.
  pose proof (value_at_fun _ _ _ _ _ _ V (C48_function Lt tab h f Ht Wf Lf _ _ Rr) idx Hi) as A. cbv beta in A.
  pose proof (value_at_fun _ _ _ _ _ _ V' (C48_function Lt tab h' g Ht Wg Lg _ _ Rr) idx' Hi') as B. cbv beta in B.
  rewrite A, B in E. rewrite (fvalue_padded h f idx M), (fvalue_padded h' g idx' M) in E by lia. rewrite <- Es in E.
  rewrite (csum_ext 0 M _ (fun ell => csum (- ell) ell (fun m => padded h f idx ell m * harmonic (spin (md f)) ell m (th_ nt j) (ph_ np k))
    - csum (- ell) ell (fun m => padded h' g idx' ell m * harmonic (spin (md f)) ell m (th_ nt j) (ph_ np k)))%C).
  - rewrite csum_minus, E. ring.
  - intros l Hl. rewrite <- csum_minus. apply csum_ext. intros. ring.
Qed.
