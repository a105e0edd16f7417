(** C55: [Modes.grid] samples the function, and the algebra of Grid objects agrees with that of Modes objects. *)
Require Import ZArith Lia Reals Lra Bool List.
From Coquelicot Require Import Hierarchy Complex.
From Verif Require Import Base BaseProofs CBase CSum DRep WignerModel RotorSpec SWSHModel SWSHProofs ModesModel ModesSpec ModesProofs2 ModesProofs3
  ModesProps ModesProps2 MultModel MultSpec MultProps GridModel GridSpec GridProps OrthoSpec OrthoProofs OrthoProps SampleProofs SampleProps
  ModesGridModel ModesGridSpec.
Import ListNotations.
Open Scope Z_scope.

Lemma C55_grid :
  forall F, salm2map_right F ->
  forall Lt tab h f nt np, is_Wigner_table Lt tab -> wf h f -> 1 <= ellmax (md f) <= Lt -> Z.abs (spin (md f)) <= ellmax (md f) ->
  2 * ellmax (md f) + 1 <= nt <= 10 ^ 12 -> 2 * ellmax (md f) + 1 <= np ->
  exists g, Modes_grid F h f (Some nt) (Some np) None = Ok g /\ gwf g /\ samples tab h f g nt np.
Proof.
  intros F HF Lt tab h f nt np Ht Wf HL Hs Hnt Hnp. pose proof Wf as (Hb & Hw & Zf).
  destruct (HF (entries h (nd f)) (spin (md f)) (ellmax (md f)) nt np (lead (nd f))) as (r & Er & Sr & Vr); try lia.
  { cbn [entries gshape]. rewrite Hw. reflexivity. }
  exists (mkgrid r (spin (md f))).
  assert (En : enough (spin (md f)) nt np) by (unfold enough; lia).
  split; [|split].
  - unfold Modes_grid, py_or. destruct (Z.eqb_spec nt 0) as [?|_]; [lia|]. destruct (Z.eqb_spec np 0) as [?|_]; [lia|].
    rewrite Er. cbn [bind orelse]. unfold Grid_new. cbn [bind]. rewrite Sr. cbn [orelse].
    replace (nt <? 2 * Z.abs (spin (md f)) + 1) with false by (symmetry; apply Z.ltb_ge; lia).
    replace (np <? 2 * Z.abs (spin (md f)) + 1) with false by (symmetry; apply Z.ltb_ge; lia). reflexivity.
  - unfold gwf, n_theta, n_phi. cbn [gdata gspin]. rewrite Sr. split; [cbn [length]; lia|exact En].
  - split; [split; [reflexivity|exact Sr]|].
    destruct (C38_theta_phi nt np ltac:(lia) ltac:(lia)) as (e & TP & PT & _). exists [nt; np; 2], e. split; [exact TP|].
    intros j k Hj Hk. destruct (PT j k Hj Hk) as (-> & ->). fold (th_ nt j) (ph_ np k).
    eapply value_at_ext; [|apply (C48_function Lt tab h f Ht Wf); [lia|apply grid_rotor; lia]].
    intros idx Hi. cbv beta. unfold value. cbn [gdata]. rewrite Vr by auto. fold (th_ nt j) (ph_ np k). symmetry. unfold sphere_function.
    rewrite <- (csum_widen (Z.abs (spin (md f))) (ellmax (md f)) 0 (ellmax (md f))); try lia.
    + reflexivity.
    + intros l Hl Ho. apply csum_zero. intros m Hm. rewrite Zf by lia. ring.
Qed.

Lemma C55_defaults :
  forall F h f n np kw,
  Modes_grid F h f None None kw = Modes_grid F h f (Some (2 * ellmax (md f) + 1)) (Some (2 * ellmax (md f) + 1)) kw
  /\ (n <> 0 -> Modes_grid F h f (Some n) None kw = Modes_grid F h f (Some n) (Some n) kw)
  /\ (n <> 0 -> Modes_grid F h f None (Some n) kw = Modes_grid F h f (Some (2 * ellmax (md f) + 1)) (Some n) kw)
  /\ Modes_grid F h f (Some 0) np kw = Modes_grid F h f None np kw
  /\ Modes_grid F h f (Some n) (Some 0) kw = Modes_grid F h f (Some n) None kw.
Proof.
  intros F h f n np kw. unfold Modes_grid, py_or. destruct (Z.eqb_spec (2 * ellmax (md f) + 1) 0); [lia|].
  repeat split; intros; auto; destruct (Z.eqb_spec n 0); auto; lia.
Qed.

(** The points are those of theta_phi, so a Grid that samples [f] has one value at each of them. *)
Lemma samples_sphere Lt tab h f g nt np : is_Wigner_table Lt tab -> wf h f -> 0 <= ellmax (md f) <= Lt -> 2 <= nt <= 10 ^ 12 -> 1 <= np ->
  samples tab h f g nt np -> forall l j k, at_index (lead (nd f)) l -> 0 <= j < nt -> 0 <= k < np ->
  value g l j k = sphere_function h f l (th_ nt j) (ph_ np k).
Proof.
  intros Ht Wf HL Hnt Hnp (_ & shape & points & TP & V) l j k Hl Hj Hk.
  destruct (C38_theta_phi nt np ltac:(lia) ltac:(lia)) as (e & TP' & PT & _). rewrite TP' in TP. apply Ok_inj in TP. injection TP as <- ->.
  specialize (V j k Hj Hk). destruct (PT j k Hj Hk) as (P0 & P1). rewrite P0, P1 in V. fold (th_ nt j) (ph_ np k) in V.
  exact (value_at_fun _ _ _ _ _ _ V (C48_function Lt tab h f Ht Wf HL _ _ (grid_rotor nt j (ph_ np k) Hnt Hj)) l Hl).
Qed.

Lemma same_of_values Lt tab h r R R' nt np G : is_Wigner_table Lt tab -> wf h r -> 0 <= ellmax (md r) <= Lt -> 2 <= nt <= 10 ^ 12 -> 1 <= np ->
  samples tab h r R nt np -> is_grid R' (spin (md r)) nt np (lead (nd r)) G ->
  (forall l j k, at_index (lead (nd r)) l -> 0 <= j < nt -> 0 <= k < np -> sphere_function h r l (th_ nt j) (ph_ np k) = G l j k) ->
  same_grid_value R' R.
Proof.
  intros Ht Wf HL Hnt Hnp S ((E1 & E2) & V) H. pose proof S as ((S1 & S2) & _). split; [congruence|]. split; [congruence|].
  intros idx Hi. rewrite S2 in Hi. inversion Hi as [|? k ? i2 Hk Hi2]; subst. inversion Hi2 as [|? j ? l Hj Hl]; subst.
  change (value R' l j k = value R l j k). rewrite V by auto. rewrite (samples_sphere Lt tab h r R nt np Ht Wf HL Hnt Hnp S) by auto. symmetry. auto.
Qed.

Lemma value_sphere Lt tab h r theta phi G : is_Wigner_table Lt tab -> wf h r -> 0 <= ellmax (md r) <= Lt -> rotor (direction_rotor theta phi) ->
  value_at tab h r (direction_rotor theta phi) G -> forall idx, at_index (lead (nd r)) idx -> sphere_function h r idx theta phi = G idx.
Proof. intros Ht Wf HL Rr V idx Hi. exact (value_at_fun _ _ _ _ _ _ (C48_function Lt tab h r Ht Wf HL theta phi Rr) V idx Hi). Qed.

Lemma samples_parts tab h f g nt np : samples tab h f g nt np -> gspin g = spin (md f) /\ n_theta g = nt /\ n_phi g = np /\ glead g = lead (nd f).
Proof. intros ((E1 & E2) & _). unfold n_theta, n_phi, glead. rewrite E2. auto. Qed.

Lemma C55_sum :
  forall F, salm2map_right F ->
  forall Lt tab h f g sh nt np (subtraction : bool), is_Wigner_table Lt tab -> wf h f -> wf h g ->
  1 <= ellmax (md f) <= Lt -> 1 <= ellmax (md g) <= Lt -> spin (md f) = spin (md g) ->
  Z.abs (spin (md f)) <= ellmax (md f) -> Z.abs (spin (md g)) <= ellmax (md g) ->
  broadcast (lead (nd f)) (lead (nd g)) = Some sh ->
  2 * Z.max (ellmax (md f)) (ellmax (md g)) + 1 <= nt <= 10 ^ 12 -> 2 * Z.max (ellmax (md f)) (ellmax (md g)) + 1 <= np ->
  exists h' r R A B S, np_add h f g subtraction = Ok (h', r) /\ Modes_grid F h' r (Some nt) (Some np) None = Ok R
    /\ Modes_grid F h f (Some nt) (Some np) None = Ok A /\ Modes_grid F h g (Some nt) (Some np) None = Ok B
    /\ grid_ufunc (if subtraction then u_subtract else u_add) m_call [OG A; OG B] None false = Ok (RGrid S)
    /\ same_grid_value S R.
Proof.
  intros F HF Lt tab h f g sh nt np b Ht Wf Wg Lf Lg Es Sf Sg Hsh Hnt Hnp.
  destruct (C24_add Lt tab h f g sh b Ht Wf Wg ltac:(lia) ltac:(lia) Es Hsh) as (h' & r & _ & Er & _ & Sr & ELr & lr & Wr & _ & V).
  destruct (C55_grid F HF Lt tab h' r nt np Ht Wr) as (R & GR & _ & SR); try lia.
  destruct (C55_grid F HF Lt tab h f nt np Ht Wf) as (A & GA & WA & SA); try lia.
  destruct (C55_grid F HF Lt tab h g nt np Ht Wg) as (B & GB & WB & SB); try lia.
  destruct (samples_parts _ _ _ _ _ _ SA) as (A1 & A2 & A3 & A4). destruct (samples_parts _ _ _ _ _ _ SB) as (B1 & B2 & B3 & B4).
  destruct (C36_add_subtract A B sh WA WB ltac:(congruence)) as ((S1 & _ & U1 & _ & V1) & (S2 & _ & U2 & _ & V2)).
  { split; congruence. }
  { rewrite A4, B4. exact Hsh. }
  assert (Pt : forall l j k, at_index sh l -> 0 <= j < nt -> 0 <= k < np -> sphere_function h' r l (th_ nt j) (ph_ np k)
    = if b then (value A (bidx (glead A) l) j k - value B (bidx (glead B) l) j k)%C else (value A (bidx (glead A) l) j k + value B (bidx (glead B) l) j k)%C).
  { intros l j k Hl Hj Hk. pose proof (grid_rotor nt j (ph_ np k) ltac:(lia) Hj) as Rr.
    rewrite (value_sphere Lt tab h' r (th_ nt j) (ph_ np k) _ Ht Wr ltac:(lia) Rr
      (V _ _ _ Rr (C48_function Lt tab h f Ht Wf ltac:(lia) _ _ Rr) (C48_function Lt tab h g Ht Wg ltac:(lia) _ _ Rr)) l) by (rewrite lr; exact Hl).
    cbv beta zeta. rewrite A4, B4.
    rewrite (samples_sphere Lt tab h f A nt np Ht Wf ltac:(lia) ltac:(lia) ltac:(lia) SA) by (auto; eapply bidx_in; eauto; eapply broadcast_left; eauto).
    rewrite (samples_sphere Lt tab h g B nt np Ht Wg ltac:(lia) ltac:(lia) ltac:(lia) SB) by (auto; eapply bidx_in; eauto; eapply broadcast_right; eauto).
    reflexivity. }
  rewrite A1, A2, A3 in V1, V2. rewrite <- Sr, <- lr in V1, V2. rewrite <- lr in Pt.
  destruct b.
  - exists h', r, R, A, B, S2. do 5 (split; [assumption|]). eapply (same_of_values Lt tab h' r R S2 nt np); eauto; lia.
  - exists h', r, R, A, B, S1. do 5 (split; [assumption|]). eapply (same_of_values Lt tab h' r R S1 nt np); eauto; lia.
Qed.

Lemma C55_product :
  forall F, salm2map_right F ->
  forall w gs gm Lt tab h f g tr h' r nt np, is_Wigner_table Lt tab -> wf h f -> wf h g ->
  1 <= ellmax (md f) -> 1 <= ellmax (md g) -> Z.abs (spin (md f)) <= ellmax (md f) -> Z.abs (spin (md g)) <= ellmax (md g) ->
  wide_enough w (ellmax (md f)) (ellmax (md g)) ->
  ellmax (md f) + ellmax (md g) <= product_ell_max f g tr <= Lt ->
  multiply w gs gm h f g tr = Ok (h', r) ->
  2 * product_ell_max f g tr + 1 <= nt <= 10 ^ 12 -> 2 * product_ell_max f g tr + 1 <= np ->
  exists R A B P, Modes_grid F h' r (Some nt) (Some np) None = Ok R
    /\ Modes_grid F h f (Some nt) (Some np) None = Ok A /\ Modes_grid F h g (Some nt) (Some np) None = Ok B
    /\ gmultiply A (OG B) = Ok P /\ grid_ufunc u_multiply m_call [OG A; OG B] None false = Ok (RGrid P)
    /\ same_grid_value P R.
Proof.
  intros F HF w gs gm Lt tab h f g tr h' r nt np Ht Wf Wg Lf Lg Sf Sg Hw HL E Hnt Hnp.
  destruct (C25_product w gs gm Lt tab h f g tr h' r Ht Wf Wg ltac:(lia) ltac:(lia) Hw HL E) as (Sr & ELr & Hsh & Wr & _ & V).
  destruct (C55_grid F HF Lt tab h' r nt np Ht Wr) as (R & GR & _ & SR); try lia.
  destruct (C55_grid F HF Lt tab h f nt np Ht Wf) as (A & GA & WA & SA); try lia.
  destruct (C55_grid F HF Lt tab h g nt np Ht Wg) as (B & GB & WB & SB); try lia.
  destruct (samples_parts _ _ _ _ _ _ SA) as (A1 & A2 & A3 & A4). destruct (samples_parts _ _ _ _ _ _ SB) as (B1 & B2 & B3 & B4).
  destruct (C36_multiply_divide A B (lead (nd r)) WA WB) as (HM & _).
  { split; congruence. }
  { rewrite A4, B4. exact Hsh. }
  destruct HM as (P & M1 & M2 & _ & V1). { unfold enough. rewrite A1, A2, A3, B1. lia. }
  exists R, A, B, P. do 5 (split; [assumption|]). rewrite A1, A2, A3, B1 in V1. rewrite <- Sr in V1.
  eapply (same_of_values Lt tab h' r R P nt np); eauto; try lia.
  intros l j k Hl Hj Hk. pose proof (grid_rotor nt j (ph_ np k) ltac:(lia) Hj) as Rr.
  rewrite (value_sphere Lt tab h' r (th_ nt j) (ph_ np k) _ Ht Wr ltac:(lia) Rr
    (V _ _ _ Rr (C48_function Lt tab h f Ht Wf ltac:(lia) _ _ Rr) (C48_function Lt tab h g Ht Wg ltac:(lia) _ _ Rr)) l Hl).
  cbv beta zeta. rewrite A4, B4.
  rewrite (samples_sphere Lt tab h f A nt np Ht Wf ltac:(lia) ltac:(lia) ltac:(lia) SA) by (auto; eapply bidx_in; eauto; eapply broadcast_left; eauto).
  rewrite (samples_sphere Lt tab h g B nt np Ht Wg ltac:(lia) ltac:(lia) ltac:(lia) SB) by (auto; eapply bidx_in; eauto; eapply broadcast_right; eauto).
  reflexivity.
Qed.

Lemma C55_conjugate :
  forall F, salm2map_right F ->
  forall Lt tab h f nt np, is_Wigner_table Lt tab -> wf h f -> 1 <= ellmax (md f) <= Lt -> Z.abs (spin (md f)) <= ellmax (md f) ->
  2 * ellmax (md f) + 1 <= nt <= 10 ^ 12 -> 2 * ellmax (md f) + 1 <= np ->
  exists h' r R A B, conjugate h f false = Ok (h', r) /\ Modes_grid F h' r (Some nt) (Some np) None = Ok R
    /\ Modes_grid F h f (Some nt) (Some np) None = Ok A /\ gconjugate A false = Ok B /\ same_grid_value B R.
Proof.
  intros F HF Lt tab h f nt np Ht Wf HL Hs Hnt Hnp.
  destruct (C22_conjugate Lt tab h f Ht Wf ltac:(lia)) as (h' & r & E & Sr & ELr & lr & Wr & _ & V).
  destruct (C55_grid F HF Lt tab h' r nt np Ht Wr) as (R & GR & _ & SR); try lia.
  destruct (C55_grid F HF Lt tab h f nt np Ht Wf) as (A & GA & WA & SA); try lia.
  destruct (samples_parts _ _ _ _ _ _ SA) as (A1 & A2 & A3 & A4).
  destruct (C36_conjugate_absolute A WA) as ((B & EB & _ & _ & _ & VB) & _).
  exists h', r, R, A, B. do 4 (split; [assumption|]). rewrite A1, A2, A3, A4 in VB. rewrite <- Sr, <- lr in VB.
  eapply (same_of_values Lt tab h' r R B nt np); eauto; try lia.
  intros l j k Hl Hj Hk. pose proof (grid_rotor nt j (ph_ np k) ltac:(lia) Hj) as Rr.
  rewrite (value_sphere Lt tab h' r (th_ nt j) (ph_ np k) _ Ht Wr ltac:(lia) Rr (V _ _ Rr (C48_function Lt tab h f Ht Wf ltac:(lia) _ _ Rr)) l Hl).
  cbv beta. f_equal. symmetry. apply (samples_sphere Lt tab h f A nt np Ht Wf); auto; try lia. congruence.
Qed.

Lemma C55_real_imag :
  forall F, salm2map_right F ->
  forall Lt tab h f nt np, is_Wigner_table Lt tab -> wf h f -> 1 <= ellmax (md f) <= Lt -> spin (md f) = 0 ->
  2 * ellmax (md f) + 1 <= nt <= 10 ^ 12 -> 2 * ellmax (md f) + 1 <= np ->
  exists h1 re h2 im Re Im A GRe GIm, real_func h f false = Ok (h1, re) /\ imag_func h f false = Ok (h2, im)
    /\ Modes_grid F h1 re (Some nt) (Some np) None = Ok Re /\ Modes_grid F h2 im (Some nt) (Some np) None = Ok Im
    /\ Modes_grid F h f (Some nt) (Some np) None = Ok A /\ greal A = Ok GRe /\ gimag A = Ok GIm
    /\ same_grid_value GRe Re /\ same_grid_value GIm Im.
Proof.
  intros F HF Lt tab h f nt np Ht Wf HL Hs Hnt Hnp.
  destruct (C23_real_imag Lt tab h f Ht Wf ltac:(lia) Hs) as (h1 & re & h2 & im & E1 & E2 & Sr & ELr & lr & Wr & Si & ELi & li & Wi & _ & V & _).
  destruct (C55_grid F HF Lt tab h1 re nt np Ht Wr) as (R & GR & _ & SR); try lia.
  destruct (C55_grid F HF Lt tab h2 im nt np Ht Wi) as (I & GI & _ & SI); try lia.
  destruct (C55_grid F HF Lt tab h f nt np Ht Wf) as (A & GA & WA & SA); try lia.
  destruct (samples_parts _ _ _ _ _ _ SA) as (A1 & A2 & A3 & A4).
  destruct (C36_conjugate_absolute A WA) as (_ & _ & _ & _ & HRI & _). destruct HRI as (gre & gim & Q1 & Q2 & V1 & V2); [congruence|].
  exists h1, re, h2, im, R, I, A, gre, gim. do 7 (split; [assumption|]). rewrite A2, A3, A4 in V1, V2. rewrite <- lr, <- Sr in V1. rewrite <- li, <- Si in V2.
  assert (X : forall l j k, at_index (lead (nd f)) l -> 0 <= j < nt -> 0 <= k < np -> value A l j k = sphere_function h f l (th_ nt j) (ph_ np k)).
  { intros. apply (samples_sphere Lt tab h f A nt np Ht Wf); auto; lia. }
  split.
  - eapply (same_of_values Lt tab h1 re R gre nt np); eauto; try lia.
    intros l j k Hl Hj Hk. pose proof (grid_rotor nt j (ph_ np k) ltac:(lia) Hj) as Rr.
    destruct (V _ _ Rr (C48_function Lt tab h f Ht Wf ltac:(lia) _ _ Rr)) as (Va & _).
    rewrite (value_sphere Lt tab h1 re (th_ nt j) (ph_ np k) _ Ht Wr ltac:(lia) Rr Va l Hl). cbv beta. rewrite X; auto. congruence.
  - eapply (same_of_values Lt tab h2 im I gim nt np); eauto; try lia.
    intros l j k Hl Hj Hk. pose proof (grid_rotor nt j (ph_ np k) ltac:(lia) Hj) as Rr.
    destruct (V _ _ Rr (C48_function Lt tab h f Ht Wf ltac:(lia) _ _ Rr)) as (_ & Va).
    rewrite (value_sphere Lt tab h2 im (th_ nt j) (ph_ np k) _ Ht Wi ltac:(lia) Rr Va l Hl). cbv beta. rewrite X; auto. congruence.
Qed.

Lemma C55_scalar :
  forall F, salm2map_right F ->
  forall Lt tab h f x sh nt np, is_Wigner_table Lt tab -> wf h f -> 1 <= ellmax (md f) <= Lt -> Z.abs (spin (md f)) <= ellmax (md f) ->
  (length (sc_shape x) <= length (lead (nd f)))%nat -> broadcast (lead (nd f)) (sc_shape x) = Some sh ->
  2 * ellmax (md f) + 1 <= nt <= 10 ^ 12 -> 2 * ellmax (md f) + 1 <= np ->
  exists h' r R A P, mul_scalar h f x = Ok (h', r) /\ Modes_grid F h' r (Some nt) (Some np) None = Ok R
    /\ Modes_grid F h f (Some nt) (Some np) None = Ok A
    /\ grid_ufunc u_multiply m_call [OG A; OS x] None false = Ok (RGrid P) /\ same_grid_value P R.
Proof.
  intros F HF Lt tab h f x sh nt np Ht Wf HL Hs Hlen Hsh Hnt Hnp.
  destruct (C30_modes_scalar h f x Wf ltac:(lia)) as (HM & _). destruct (HM Hlen sh Hsh) as ((h' & r & E & _ & NM) & _).
  destruct NM as (_ & _ & _ & Sr & ELr & lr & Wr & Mr).
  destruct (C55_grid F HF Lt tab h' r nt np Ht Wr) as (R & GR & _ & SR); try lia.
  destruct (C55_grid F HF Lt tab h f nt np Ht Wf) as (A & GA & WA & SA); try lia.
  destruct (samples_parts _ _ _ _ _ _ SA) as (A1 & A2 & A3 & A4).
  destruct (C30_grid_operators A x WA) as (HG & _). rewrite A4 in HG. destruct (HG sh Hlen Hsh) as ((P & EP & _ & VP) & _).
  exists h', r, R, A, P. do 4 (split; [assumption|]). rewrite A1, A2, A3 in VP. rewrite <- Sr, <- lr in VP.
  eapply (same_of_values Lt tab h' r R P nt np); eauto; try lia.
  intros l j k Hl Hj Hk. cbv beta. rewrite lr in Hl.
  rewrite (samples_sphere Lt tab h f A nt np Ht Wf ltac:(lia) ltac:(lia) ltac:(lia) SA) by (auto; eapply bidx_in; eauto; eapply broadcast_left; eauto).
  unfold sphere_function. rewrite ELr, Sr. rewrite <- csum_scal_r. apply csum_ext. intros ell He. rewrite <- csum_scal_r. apply csum_ext. intros m Hm.
  rewrite Mr by (auto; lia). ring.
Qed.

Lemma C55_determined :
  forall Lt tab h f h' g A B nt np, is_Wigner_table Lt tab -> wf h f -> wf h' g ->
  0 <= ellmax (md f) <= Lt -> 0 <= ellmax (md g) <= Lt ->
  samples tab h f A nt np -> samples tab h' g B nt np -> same_grid_value A B ->
  2 <= nt <= 10 ^ 12 ->
  2 * Z.max (ellmax (md f)) (ellmax (md g)) + 1 <= nt -> 2 * Z.max (ellmax (md f)) (ellmax (md g)) + 1 <= np ->
  spin (md f) = spin (md g) /\ lead (nd f) = lead (nd g)
  /\ forall idx ell m, at_index (lead (nd f)) idx -> 0 <= ell -> - ell <= m <= ell ->
    (if ell <=? ellmax (md f) then mode h f idx ell m else RtoC 0)
    = (if ell <=? ellmax (md g) then mode h' g idx ell m else RtoC 0).
Proof.
  intros Lt tab h f h' g A B nt np Ht Wf Wg Lf Lg SA SB (E1 & E2 & E3) Hnt Mt Mp.
  pose proof SA as ((A1 & A2) & shape & points & TP & VA). pose proof SB as ((B1 & B2) & shape' & points' & TP' & VB).
  rewrite TP in TP'. apply Ok_inj in TP'. injection TP' as <- <-.
  assert (Es : spin (md f) = spin (md g)) by congruence. assert (El : lead (nd f) = lead (nd g)) by congruence.
  split; [exact Es|]. split; [exact El|]. intros idx ell m Hi He Hm.
  apply (C50_samples Lt tab h f h' g idx idx nt np shape points); auto; [congruence|].
  intros j k Hj Hk. exists (fun idx => value A idx j k), (fun idx => value B idx j k). split; [auto|]. split; [auto|]. cbv beta.
  unfold value. apply E3. rewrite B2. constructor; [exact Hk|]. constructor; [exact Hj|]. rewrite <- El. exact Hi.
Qed.

Lemma C55_no_aliasing :
  forall F, salm2map_right F ->
  forall w gs gm Lt tab h f g h' r nt np A B P h2 t, is_Wigner_table Lt tab -> wf h f -> wf h g ->
  1 <= ellmax (md f) -> 1 <= ellmax (md g) -> Z.abs (spin (md f)) <= ellmax (md f) -> Z.abs (spin (md g)) <= ellmax (md g) ->
  wide_enough w (ellmax (md f)) (ellmax (md g)) -> ellmax (md f) + ellmax (md g) <= Lt ->
  2 * (ellmax (md f) + ellmax (md g)) + 1 <= nt <= 10 ^ 12 -> 2 * (ellmax (md f) + ellmax (md g)) + 1 <= np ->
  Modes_grid F h f (Some nt) (Some np) None = Ok A -> Modes_grid F h g (Some nt) (Some np) None = Ok B -> gmultiply A (OG B) = Ok P ->
  wf h2 t -> 0 <= ellmax (md t) <= ellmax (md f) + ellmax (md g) -> samples tab h2 t P nt np ->
  multiply w gs gm h f g (Some Z.add) = Ok (h', r) ->
  spin (md t) = spin (md f) + spin (md g) /\ lead (nd t) = lead (nd r)
  /\ forall idx ell m, at_index (lead (nd r)) idx -> 0 <= ell <= ellmax (md r) -> - ell <= m <= ell ->
     mode h' r idx ell m = if ell <=? ellmax (md t) then mode h2 t idx ell m else RtoC 0.
Proof.
  intros F HF w gs gm Lt tab h f g h' r nt np A B P h2 t Ht Wf Wg Lf Lg Sf Sg Hw HL Hnt Hnp EA EB EP Wt Lt' St E.
  assert (PE : product_ell_max f g (Some Z.add) = ellmax (md f) + ellmax (md g)) by reflexivity.
  destruct (C55_product F HF w gs gm Lt tab h f g (Some Z.add) h' r nt np) as (R & A' & B' & P' & ER & EA' & EB' & EP' & _ & SP); auto; try lia.
  rewrite EA in EA'. apply Ok_inj in EA'. subst A'. rewrite EB in EB'. apply Ok_inj in EB'. subst B'. rewrite EP in EP'. apply Ok_inj in EP'. subst P'.
  destruct (C25_product w gs gm Lt tab h f g (Some Z.add) h' r Ht Wf Wg ltac:(lia) ltac:(lia) Hw ltac:(lia) E) as (Sr & ELr & _ & Wr & _ & _).
  destruct (C55_grid F HF Lt tab h' r nt np Ht Wr) as (R' & ER' & _ & SR); try lia. rewrite ER in ER'. apply Ok_inj in ER'. subst R'.
  destruct (C55_determined Lt tab h2 t h' r P R nt np Ht Wt Wr ltac:(lia) ltac:(lia) St SR SP ltac:(lia) ltac:(lia) ltac:(lia)) as (D1 & D2 & D3).
  split; [congruence|]. split; [exact D2|]. intros idx ell m Hi He Hm. rewrite D3 by (try rewrite D2; auto; lia).
  replace (ell <=? ellmax (md r)) with true by (symmetry; apply Z.leb_le; lia). reflexivity.
Qed.

Lemma C55_keyword :
  forall F, salm2map_right F ->
  forall h f nt np s, wf h f -> 1 <= ellmax (md f) -> Z.abs (spin (md f)) <= ellmax (md f) ->
  2 * ellmax (md f) + 1 <= nt -> 2 * ellmax (md f) + 1 <= np ->
  exists g, Modes_grid F h f (Some nt) (Some np) None = Ok g
    /\ (enough s nt np -> Modes_grid F h f (Some nt) (Some np) (Some s) = Ok (mkgrid (gdata g) s))
    /\ (~ enough s nt np -> Modes_grid F h f (Some nt) (Some np) (Some s) = Err NameError).
Proof.
  intros F HF h f nt np s Wf HL Hs Hnt Hnp. pose proof Wf as (Hb & Hw & Zf).
  destruct (HF (entries h (nd f)) (spin (md f)) (ellmax (md f)) nt np (lead (nd f))) as (r & Er & Sr & Vr); try lia.
  { cbn [entries gshape]. rewrite Hw. reflexivity. }
  exists (mkgrid r (spin (md f))). unfold Modes_grid, py_or. destruct (Z.eqb_spec nt 0) as [?|_]; [lia|]. destruct (Z.eqb_spec np 0) as [?|_]; [lia|].
  rewrite Er. cbn [bind orelse]. unfold Grid_new. cbn [bind]. rewrite Sr. cbn [orelse gdata]. unfold enough.
  replace (nt <? 2 * Z.abs (spin (md f)) + 1) with false by (symmetry; apply Z.ltb_ge; lia).
  replace (np <? 2 * Z.abs (spin (md f)) + 1) with false by (symmetry; apply Z.ltb_ge; lia). split; [reflexivity|].
  destruct (Z.ltb_spec nt (2 * Z.abs s + 1)), (Z.ltb_spec np (2 * Z.abs s + 1)); split; intros; cbn [orb]; try reflexivity; lia.
Qed.

(** A function of this kind exists. *)
Definition a_salm2map (a : garr) (s L nt np : Z) : res garr :=
  Ok (mkgarr (np :: nt :: tl (gshape a)) (fun idx =>
    csum (Z.abs s) L (fun ell => csum (- ell) ell (fun m =>
      gval a ((ell * ell + (ell + m))%Z :: tl (tl idx))
      * harmonic s ell m (IZR (nth 1 idx 0%Z) * PI / (IZR nt - 1)) (2 * PI * IZR (nth 0 idx 0%Z) / IZR np)))%C)).
Lemma a_salm2map_right : salm2map_right a_salm2map.
Proof. intros a s L nt np ld Ha _ _ _ _. eexists. split; [reflexivity|]. cbn [gshape]. rewrite Ha. split; [reflexivity|]. intros. reflexivity. Qed.
