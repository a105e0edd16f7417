(** More statements about Modes objects: addition, derivatives, indexing, scalars, evaluation, norm. *)
Require Import ZArith Lia List Reals Lra Bool.
From Coquelicot Require Import Complex.
From Verif Require Import Base BaseProofs CBase CSum RSum Fact IndexModel IndexProofs IndexProps PowersModel ConvModel ConvProps DRep WignerModel WignerSpec
  WignerProofs WignerProofs3 RotorSpec SWSHModel SWSHProofs WignerProps ModesModel ModesSpec ModesProofs ModesProofs2 ModesProofs3.
Import ListNotations.
Open Scope Z_scope.

(** ** C24 *)
Lemma C24_add :
  forall Lt tab h f g sh subtraction, is_Wigner_table Lt tab -> wf h f -> wf h g ->
  0 <= ellmax (md f) <= Lt -> 0 <= ellmax (md g) <= Lt -> spin (md f) = spin (md g) ->
  broadcast (lead (nd f)) (lead (nd g)) = Some sh ->
  exists h' r, add h f g subtraction = Ok (h', r) /\ np_add h f g subtraction = Ok (h', r)
    /\ (subtraction = true -> subtract h f g = Ok (h', r))
    /\ spin (md r) = spin (md f) /\ ellmax (md r) = Z.max (ellmax (md f)) (ellmax (md g)) /\ lead (nd r) = sh /\ wf h' r
    /\ (forall b, (b < next h)%nat -> forall idx k, mem h' b idx k = mem h b idx k)
    /\ forall q F G, rotor q -> value_at tab h f q F -> value_at tab h g q G ->
         value_at tab h' r q (fun idx =>
           let x := F (bidx (lead (nd f)) idx) in let y := G (bidx (lead (nd g)) idx) in
           if subtraction then (x - y)%C else (x + y)%C).
Proof.
  intros Lt tab h f g sh sub Ht Wf Wg HF HG HS HB.
  destruct (add_new h f g sub sh Wf Wg ltac:(lia) ltac:(lia) HS HB) as (h' & r & E & NM & T). exists h', r.
  split; [exact E|]. split; [unfold np_add; rewrite E; reflexivity|].
  split; [intros ->; unfold subtract; rewrite HS, Z.eqb_refl; exact E|].
  pose proof NM as (_ & Kp & _ & Es & EL & El & Wr & M). repeat (split; auto; try apply Wr).
  intros q F G HR VF VG. pose proof (value_at_new Lt tab h h' r _ _ _ _ q Ht NM ltac:(lia) HR) as V'.
  eapply value_at_ext; [|exact V']. intros idx Hi. rewrite El in Hi. cbv beta zeta.
  assert (Hf : at_index (lead (nd f)) (bidx (lead (nd f)) idx)) by (eapply bidx_in; eauto; eapply broadcast_left; eauto).
  assert (Hg : at_index (lead (nd g)) (bidx (lead (nd g)) idx)) by (eapply bidx_in; eauto; eapply broadcast_right; eauto).
  rewrite (value_at_fun _ _ _ _ _ _ VF (value_at_fvalue Lt tab h f q Ht Wf HF HR) _ Hf).
  rewrite (value_at_fun _ _ _ _ _ _ VG (value_at_fvalue Lt tab h g q Ht Wg HG HR) _ Hg).
  set (L := Z.max (ellmax (md f)) (ellmax (md g))).
  rewrite (fvalue_extend _ (ellmax (md f)) L), (fvalue_extend _ (ellmax (md g)) L) by (unfold L; lia). rewrite <- HS.
  destruct sub.
  - rewrite (fvalue_ext _ L _ (fun ell mm => RtoC 1 * (if ell <=? ellmax (md f) then mode h f (bidx (lead (nd f)) idx) ell mm else RtoC 0)
      + (- RtoC 1) * (if ell <=? ellmax (md g) then mode h g (bidx (lead (nd g)) idx) ell mm else RtoC 0))%C).
    + rewrite fvalue_lin. ring.
    + intros. unfold add_data. ring.
  - rewrite (fvalue_ext _ L _ (fun ell mm => RtoC 1 * (if ell <=? ellmax (md f) then mode h f (bidx (lead (nd f)) idx) ell mm else RtoC 0)
      + RtoC 1 * (if ell <=? ellmax (md g) then mode h g (bidx (lead (nd g)) idx) ell mm else RtoC 0))%C).
    + rewrite fvalue_lin. ring.
    + intros. unfold add_data. ring.
Qed.

Lemma C24_spin_mismatch :
  forall h f g subtraction out, spin (md f) <> spin (md g) ->
  add h f g subtraction = Err ValueError /\ subtract h f g = Err ValueError
  /\ np_add h f g subtraction = Err TypeError /\ np_add_out h f g out subtraction = Err TypeError.
Proof.
  intros h f g sub out H. unfold np_add, subtract, add, np_add_out. destruct (Z.eqb_spec (spin (md f)) (spin (md g))); [contradiction|].
  repeat split; reflexivity.
Qed.

Lemma all_idx_spec sh idx : In idx (all_idx sh) <-> at_index sh idx.
Proof.
  revert idx. induction sh as [|n sh IH]; intros idx; cbn [all_idx].
  - split; [intros [<-|[]]; constructor|intros H; inversion H; left; reflexivity].
  - rewrite in_flat_map. split.
    + intros (i & Hi & Hx). apply in_map_iff in Hx. destruct Hx as (x & <- & Hx). apply in_seq in Hi. constructor; [lia|]. apply IH. exact Hx.
    + intros H. inversion H as [|? i ? idx' Hi H']; subst. exists (Z.to_nat i). split; [apply in_seq; lia|].
      apply in_map_iff. exists idx'. split; [f_equal; lia|]. apply IH. exact H'.
Qed.
Lemma Ceqb_spec x y : Ceqb x y = true <-> x = y.
Proof.
  unfold Ceqb. destruct x as [a b], y as [c d]. cbn [Re Im fst snd]. destruct (Req_EM_T a c), (Req_EM_T b d); split; intros H; try discriminate; try congruence; inversion H; contradiction.
Qed.
Lemma np_any_spec x : np_any x = true <-> exists idx, at_index (sc_shape x) idx /\ sc_val x idx <> RtoC 0.
Proof.
  unfold np_any. rewrite existsb_exists. split.
  - intros (idx & Hi & H). exists idx. split; [apply all_idx_spec; auto|]. intros E. apply Ceqb_spec in E. rewrite E in H. discriminate.
  - intros (idx & Hi & H). exists idx. split; [apply all_idx_spec; auto|]. destruct (Ceqb (sc_val x idx) (RtoC 0)) eqn:E; [|reflexivity].
    apply Ceqb_spec in E. contradiction.
Qed.

Lemma C24_nonzero_scalar :
  forall op h f x idx, at_index (sc_shape x) idx -> sc_val x idx <> RtoC 0 ->
  add_scalar op h f x = Err TypeError /\ add_method_scalar op h f x = Err ValueError.
Proof.
  intros op h f x idx Hi Hx. assert (E : np_any x = true) by (apply np_any_spec; eauto).
  unfold add_method_scalar, add_scalar. rewrite E. auto.
Qed.

(** With [out=]: an array of the right shape, in other memory than the second operand, whose modes between the two
    ell_max are already zero. *)
Lemma C24_out_partial :
  forall h f g out subtraction sh, wf h f -> wf h g -> 0 <= ellmax (md f) -> 0 <= ellmax (md g) ->
  spin (md f) = spin (md g) -> broadcast (lead (nd f)) (lead (nd g)) = Some sh ->
  lead out = sh -> wid out = (Z.max (ellmax (md f)) (ellmax (md g)) + 1) ^ 2 ->
  (buf out < next h)%nat -> buf out <> buf (nd g) ->
  (forall idx k, at_index sh idx -> (ellmax (md f) + 1) ^ 2 <= k < wid out -> mem h (buf out) idx k = RtoC 0) ->
  exists h1 r1 h2 r2, np_add h f g subtraction = Ok (h1, r1) /\ np_add_out h f g out subtraction = Ok (h2, r2)
    /\ nd r2 = out /\ md r2 = md r1 /\ changes_only (buf out) h h2 /\ same_modes r1 (mode h2 r2) (mode h1 r1).
Proof.
  intros h f g out sub sh Wf Wg HF HG HS HB Hl Hw Hb Hne HZ.
  destruct (add_new h f g sub sh Wf Wg HF HG HS HB) as (h1 & r1 & E1 & NM & T1).
  set (L := Z.max (ellmax (md f)) (ellmax (md g))) in *.
  destruct (add_into_ok h f g out sub Wf Wg HF HG Hne) as (h2 & E2 & N2 & K2 & D2).
  { rewrite Hw. unfold L. nia. } { rewrite Hw. unfold L. nia. }
  { rewrite Hl. eapply broadcast_left; eauto. } { rewrite Hl. eapply broadcast_right; eauto. }
  destruct (construct_ok h2 out (mkmeta (spin (md f)) L (truncator (md f))) Hw) as (h3 & E3 & N3 & K3 & D3).
  exists h1, r1, h3. eexists. split; [unfold np_add; rewrite E1; reflexivity|]. split.
  { unfold np_add_out. rewrite HS, Z.eqb_refl. cbn [negb]. rewrite (rdcol0 h f), (rdcol0 h g) by auto. cbn [bind]. rewrite HB, E2. cbn [bind]. rewrite <- HS. exact E3. }
  destruct NM as (_ & Kp & _ & Es & EL & El & Wr & M). cbn [nd md]. split; [reflexivity|]. split.
  { destruct (md r1) as [a b c]. cbn [spin ellmax truncator] in *. congruence. }
  split. { split; [congruence|]. intros b Hbb idx k. rewrite K3, K2 by auto. reflexivity. }
  intros idx ell mm Hi He Hm. rewrite El in Hi. rewrite EL in He. rewrite M by auto. unfold mode at 1. cbn [nd]. rewrite D3 by auto. cbn [spin].
  rewrite D2 by lia. cbv zeta. unfold add_data, signed.
  pose proof Wf as (_ & _ & Fz). pose proof Wg as (_ & _ & Gz).
  destruct (Z.ltb_spec ell (Z.abs (spin (md f)))).
  { destruct (Z.leb_spec ell (ellmax (md f))), (Z.leb_spec ell (ellmax (md g))); rewrite ?Fz, ?Gz by lia; destruct sub; ring. }
  assert (Eout : ellmax (md f) < ell -> mem h (buf out) idx (ell * ell + (ell + mm)) = RtoC 0).
  { intros Hlt. apply HZ; auto. rewrite Hw. pose proof (col_bound ell mm L He Hm). split; [nia|lia]. }
  destruct (Z.leb_spec ell (ellmax (md f))), (Z.leb_spec ell (ellmax (md g))); rewrite ?Eout by lia; destruct sub; try ring; reflexivity.
Qed.

(** np.add(f, g, out=o) adds onto what was in [o] for ell between the two ell_max. *)
Lemma C24_out_stale_refuted :
  exists h f g out h1 r1 h2 r2, wf h f /\ wf h g /\ spin (md f) = spin (md g)
    /\ lead out = [] /\ wid out = 4 /\ (buf out < next h)%nat /\ buf out <> buf (nd f) /\ buf out <> buf (nd g)
    /\ np_add h f g false = Ok (h1, r1) /\ np_add_out h f g out false = Ok (h2, r2)
    /\ ellmax (md r1) = 1 /\ ellmax (md r2) = 1
    /\ mode h2 r2 [] 1 0 <> mode h1 r1 [] 1 0.
Proof.
  set (h := mkheap 3 (fun _ _ _ => RtoC 1)). set (f := mkmodes (mknd 0 [] 1) (mkmeta 0 0 None)). set (g := mkmodes (mknd 1 [] 4) (mkmeta 0 1 None)).
  exists h, f, g, (mknd 2 [] 4). eexists _, _, _, _.
  split. { split; [cbn; lia|]. split; [reflexivity|]. cbn. lia. } split. { split; [cbn; lia|]. split; [reflexivity|]. cbn. lia. }
  split; [reflexivity|]. split; [reflexivity|]. split; [reflexivity|]. split; [cbn; lia|]. split; [discriminate|]. split; [discriminate|].
  split; [reflexivity|]. split; [reflexivity|]. split; [reflexivity|]. split; [reflexivity|].
  unfold mode. cbn. intros H. apply (f_equal Re) in H. cbn in H. lra.
Qed.

(** np.add(f, g, out=g) is 2 f, not f + g. *)
Lemma C24_out_alias_refuted :
  exists h f g h1 r1 h2 r2, wf h f /\ wf h g /\ spin (md f) = spin (md g) /\ buf (nd f) <> buf (nd g)
    /\ np_add h f g false = Ok (h1, r1) /\ np_add_out h f g (nd g) false = Ok (h2, r2)
    /\ mode h1 r1 [] 0 0 = (mode h f [] 0 0 + mode h g [] 0 0)%C
    /\ mode h2 r2 [] 0 0 = (mode h f [] 0 0 + mode h f [] 0 0)%C
    /\ mode h2 r2 [] 0 0 <> mode h1 r1 [] 0 0.
Proof.
  set (h := mkheap 2 (fun b _ _ => if Nat.eqb b 0 then RtoC 1 else RtoC 0)). set (f := mkmodes (mknd 0 [] 1) (mkmeta 0 0 None)). set (g := mkmodes (mknd 1 [] 1) (mkmeta 0 0 None)).
  exists h, f, g. eexists _, _, _, _.
  split. { split; [cbn; lia|]. split; [reflexivity|]. cbn. lia. } split. { split; [cbn; lia|]. split; [reflexivity|]. cbn. lia. }
  split; [reflexivity|]. split; [discriminate|]. split; [reflexivity|]. split; [reflexivity|].
  unfold mode. cbn. split; [ring|]. split; [ring|]. intros H. apply (f_equal Re) in H. cbn in H. lra.
Qed.

(** ** C26 *)
Lemma gives_after A B h f s1 s2 (v w : list Z -> Z -> Z -> C) :
  (exists h1 r1, B h f = Ok (h1, r1) /\ new_modes h h1 r1 s1 (ellmax (md f)) (lead (nd f)) v
     /\ exists h2 r2, A h1 r1 = Ok (h2, r2) /\ new_modes h1 h2 r2 s2 (ellmax (md f)) (lead (nd f)) w) ->
  gives (after A B) h f s2 w.
Proof.
  intros (h1 & r1 & E1 & N1 & h2 & r2 & E2 & N2). exists h2, r2. split; [unfold after; rewrite E1; exact E2|].
  destruct N1 as (A1 & B1 & D1 & Es1 & EL1 & El1 & W1 & M1). destruct N2 as (A2 & B2 & D2 & Es2 & EL2 & El2 & W2 & M2).
  split; [lia|]. split; [intros; rewrite B2, B1 by lia; reflexivity|]. split; [lia|]. auto.
Qed.

Lemma gives_ext A h f s v w : gives A h f s v -> same_modes f v w -> gives A h f s w.
Proof.
  intros (h' & r & E & N) H. exists h', r. split; auto. destruct N as (A1 & B1 & D1 & Es1 & EL1 & El1 & W1 & M1).
  split; [lia|]. split; [exact B1|]. split; [lia|]. split; [exact Es1|]. split; [exact EL1|]. split; [exact El1|]. split; [exact W1|].
  intros. rewrite M1 by auto. apply H; auto.
Qed.

(** Each operator as a map on modes. *)
Definition op_spec (A : heap -> modes -> res (heap * modes)) (ds : Z) (W : Z -> (Z -> Z -> C) -> Z -> Z -> C) : Prop :=
  (forall h f, wf h f -> gives A h f (spin (md f) + ds) (fun idx => W (spin (md f)) (mode h f idx)))
  /\ (forall s v w L, (forall ell mm, 0 <= ell <= L -> - ell <= mm <= ell -> v ell mm = w ell mm) ->
        forall ell mm, 0 <= ell <= L -> - ell <= mm <= ell -> W s v ell mm = W s w ell mm).

Lemma op_after A ds W B es V : op_spec A ds W -> op_spec B es V ->
  op_spec (after A B) (es + ds) (fun s w => W (s + es) (V s w)).
Proof.
  intros (HA & LA) (HB & LB). split.
  - intros h f Wf. destruct (HB h f Wf) as (h1 & r1 & E1 & N1). pose proof N1 as (_ & _ & _ & Es1 & EL1 & El1 & W1 & M1).
    destruct (HA h1 r1 W1) as (h2 & r2 & E2 & N2). rewrite Es1, EL1, El1 in N2.
    replace (spin (md f) + (es + ds)) with (spin (md f) + es + ds) by lia.
    eapply gives_ext.
    + eapply gives_after. exists h1, r1. split; [exact E1|]. split; [exact N1|]. exists h2, r2. split; [exact E2|exact N2].
    + intros idx ell mm Hi He Hm. apply (LA _ _ _ (ellmax (md f))); auto.
  - intros s v w L H ell mm He Hm. apply (LA _ _ _ L); auto. intros. apply (LB _ _ _ L); auto.
Qed.

Lemma spec_Lz : op_spec Lz 0 (fun s w ell mm => RtoC (IZR mm) * w ell mm)%C.
Proof.
  split.
  - intros h f W. rewrite Z.add_0_r. destruct (Lz_new h f W) as (h' & r & E & N & _). exists h', r. split; [exact E|exact N].
  - intros. f_equal. auto.
Qed.
Lemma spec_L2 : op_spec Lsquared 0 (fun s w ell mm => RtoC (IZR (ell * (ell + 1))) * w ell mm)%C.
Proof.
  split.
  - intros h f W. rewrite Z.add_0_r. destruct (Lsquared_new h f W) as (h' & r & E & N & _). exists h', r. split; [exact E|exact N].
  - intros. f_equal. auto.
Qed.
Lemma spec_Lp : op_spec Lplus 0 (fun s w ell mm => RtoC (up ell mm) * w ell (mm - 1)%Z)%C.
Proof.
  split.
  - intros h f W. rewrite Z.add_0_r. destruct (Lplus_new h f W) as (h' & r & E & N & _). exists h', r. split; [exact E|exact N].
  - intros s v w L H ell mm He Hm. destruct (Z.eq_dec mm (- ell)) as [->|Hn].
    + unfold up. replace (ell + - ell) with 0 by lia. rewrite Z.mul_0_l, sqrt_0. ring.
    + f_equal. apply H; lia.
Qed.
Lemma spec_Lm : op_spec Lminus 0 (fun s w ell mm => RtoC (down ell mm) * w ell (mm + 1)%Z)%C.
Proof.
  split.
  - intros h f W. rewrite Z.add_0_r. destruct (Lminus_new h f W) as (h' & r & E & N & _). exists h', r. split; [exact E|exact N].
  - intros s v w L H ell mm He Hm. destruct (Z.eq_dec mm ell) as [->|Hn].
    + unfold down. replace (ell - ell) with 0 by lia. rewrite Z.mul_0_l, sqrt_0. ring.
    + f_equal. apply H; lia.
Qed.
Lemma spec_Rz : op_spec Rz 0 (fun s w ell mm => RtoC (IZR (- s)) * w ell mm)%C.
Proof.
  split.
  - intros h f W. rewrite Z.add_0_r. destruct (Rz_new h f W) as (h' & r & E & N & _). exists h', r. split; [exact E|exact N].
  - intros. f_equal. auto.
Qed.
Lemma spec_Rp : op_spec Rplus (-1) (fun s w ell mm => RtoC (rup s ell) * w ell mm)%C.
Proof.
  split.
  - intros h f W. destruct (Rplus_new h f W) as (h' & r & E & N & _). exists h', r. split; [exact E|exact N].
  - intros. f_equal. auto.
Qed.
Lemma spec_Rm : op_spec Rminus 1 (fun s w ell mm => RtoC (rdown s ell) * w ell mm)%C.
Proof.
  split.
  - intros h f W. destruct (Rminus_new h f W) as (h' & r & E & N & _). exists h', r. split; [exact E|exact N].
  - intros. f_equal. auto.
Qed.
Lemma spec_ethbar : op_spec ethbar (-1) (fun s w ell mm => - (RtoC (rup s ell) * w ell mm))%C.
Proof.
  split.
  - intros h f W. destruct (ethbar_new h f W) as (h' & r & E & N & _). exists h', r. split; [exact E|exact N].
  - intros. do 2 f_equal. auto.
Qed.

Lemma sqrt_IZR_sq z : 0 <= z -> (sqrt (IZR z) * sqrt (IZR z) = IZR z)%R.
Proof. intros. apply sqrt_sqrt. apply IZR_le. auto. Qed.

Lemma C_sqrt_sq z : 0 <= z -> (RtoC (sqrt (IZR z)) * RtoC (sqrt (IZR z)))%C = RtoC (IZR z).
Proof. intros. rewrite <- RtoC_mult, sqrt_IZR_sq by auto. reflexivity. Qed.

Lemma op_run A ds W h f : op_spec A ds W -> wf h f -> gives A h f (spin (md f) + ds) (fun idx => W (spin (md f)) (mode h f idx)).
Proof. intros (H & _) Wf. apply H. auto. Qed.

(** [L+, L-] = 2 Lz, [Lz, L+-] = +- L+-, the Casimir operator. *)
Lemma C26_L_algebra :
  forall h f, wf h f -> let s := spin (md f) in
  exists zp pz p zm mz m pm mp z zz l2,
    gives (after Lz Lplus) h f s zp /\ gives (after Lplus Lz) h f s pz /\ gives Lplus h f s p
    /\ gives (after Lz Lminus) h f s zm /\ gives (after Lminus Lz) h f s mz /\ gives Lminus h f s m
    /\ gives (after Lplus Lminus) h f s pm /\ gives (after Lminus Lplus) h f s mp
    /\ gives Lz h f s z /\ gives (after Lz Lz) h f s zz /\ gives Lsquared h f s l2
    /\ same_modes f (fun i l k => zp i l k - pz i l k)%C p
    /\ same_modes f (fun i l k => zm i l k - mz i l k)%C (fun i l k => - m i l k)%C
    /\ same_modes f (fun i l k => pm i l k - mp i l k)%C (fun i l k => RtoC 2 * z i l k)%C
    /\ same_modes f l2 (fun i l k => (pm i l k + mp i l k) / RtoC 2 + zz i l k)%C.
Proof.
  intros h f W s. eexists _, _, _, _, _, _, _, _, _, _, _.
  split; [rewrite <- (Z.add_0_r s); exact (op_run _ _ _ h f (op_after _ _ _ _ _ _ spec_Lz spec_Lp) W)|].
  split; [rewrite <- (Z.add_0_r s); exact (op_run _ _ _ h f (op_after _ _ _ _ _ _ spec_Lp spec_Lz) W)|].
  split; [rewrite <- (Z.add_0_r s); exact (op_run _ _ _ h f spec_Lp W)|].
  split; [rewrite <- (Z.add_0_r s); exact (op_run _ _ _ h f (op_after _ _ _ _ _ _ spec_Lz spec_Lm) W)|].
  split; [rewrite <- (Z.add_0_r s); exact (op_run _ _ _ h f (op_after _ _ _ _ _ _ spec_Lm spec_Lz) W)|].
  split; [rewrite <- (Z.add_0_r s); exact (op_run _ _ _ h f spec_Lm W)|].
  split; [rewrite <- (Z.add_0_r s); exact (op_run _ _ _ h f (op_after _ _ _ _ _ _ spec_Lp spec_Lm) W)|].
  split; [rewrite <- (Z.add_0_r s); exact (op_run _ _ _ h f (op_after _ _ _ _ _ _ spec_Lm spec_Lp) W)|].
  split; [rewrite <- (Z.add_0_r s); exact (op_run _ _ _ h f spec_Lz W)|].
  split; [rewrite <- (Z.add_0_r s); exact (op_run _ _ _ h f (op_after _ _ _ _ _ _ spec_Lz spec_Lz) W)|].
  split; [rewrite <- (Z.add_0_r s); exact (op_run _ _ _ h f spec_L2 W)|].
  assert (PM : forall idx ell mm, - ell <= mm <= ell ->
     (RtoC (up ell mm) * (RtoC (down ell (mm - 1)%Z) * mode h f idx ell (mm - 1 + 1)%Z))%C = (RtoC (IZR ((ell + mm) * (ell - mm + 1))) * mode h f idx ell mm)%C).
  { intros idx ell mm Hm. replace (mm - 1 + 1) with mm by lia. unfold up, down. replace ((ell - (mm - 1)) * (ell + (mm - 1) + 1)) with ((ell + mm) * (ell - mm + 1)) by ring.
    rewrite Cmult_assoc, C_sqrt_sq by nia. reflexivity. }
  assert (MP : forall idx ell mm, - ell <= mm <= ell ->
     (RtoC (down ell mm) * (RtoC (up ell (mm + 1)%Z) * mode h f idx ell (mm + 1 - 1)%Z))%C = (RtoC (IZR ((ell - mm) * (ell + mm + 1))) * mode h f idx ell mm)%C).
  { intros idx ell mm Hm. replace (mm + 1 - 1) with mm by lia. unfold up, down. replace ((ell + (mm + 1)) * (ell - (mm + 1) + 1)) with ((ell - mm) * (ell + mm + 1)) by ring.
    rewrite Cmult_assoc, C_sqrt_sq by nia. reflexivity. }
  repeat split; intros idx ell mm Hi He Hm; cbv beta.
  - rewrite minus_IZR, RtoC_minus. ring.
  - rewrite plus_IZR, RtoC_plus. ring.
  - rewrite PM, MP by auto. replace (IZR ((ell + mm) * (ell - mm + 1))) with (IZR ((ell - mm) * (ell + mm + 1)) + 2 * IZR mm)%R
      by (rewrite <- mult_IZR, <- plus_IZR; f_equal; ring). rewrite RtoC_plus, RtoC_mult. ring.
  - rewrite PM, MP by auto. replace (IZR ((ell + mm) * (ell - mm + 1))) with (2 * IZR (ell * (ell + 1)) - 2 * IZR mm * IZR mm - IZR ((ell - mm) * (ell + mm + 1)))%R
      by (rewrite <- !mult_IZR, <- !minus_IZR; f_equal; ring).
    rewrite !RtoC_minus, !RtoC_mult. field. apply RtoC2_neq0.
Qed.

Lemma C26_R_algebra :
  forall h f, wf h f -> let s := spin (md f) in
  exists zp pz p zm mz m pm mp z zz r2 l2,
    gives (after Rz Rplus) h f (s - 1) zp /\ gives (after Rplus Rz) h f (s - 1) pz /\ gives Rplus h f (s - 1) p
    /\ gives (after Rz Rminus) h f (s + 1) zm /\ gives (after Rminus Rz) h f (s + 1) mz /\ gives Rminus h f (s + 1) m
    /\ gives (after Rplus Rminus) h f s pm /\ gives (after Rminus Rplus) h f s mp
    /\ gives Rz h f s z /\ gives (after Rz Rz) h f s zz /\ gives Rsquared h f s r2 /\ gives Lsquared h f s l2
    /\ same_modes f (fun i l k => zp i l k - pz i l k)%C p
    /\ same_modes f (fun i l k => zm i l k - mz i l k)%C (fun i l k => - m i l k)%C
    /\ same_modes f (fun i l k => pm i l k - mp i l k)%C (fun i l k => RtoC 2 * z i l k)%C
    /\ same_modes f r2 (fun i l k => (pm i l k + mp i l k) / RtoC 2 + zz i l k)%C
    /\ same_modes f r2 l2.
Proof.
  intros h f W s. eexists _, _, _, _, _, _, _, _, _, _, _, _.
  split; [exact (op_run _ _ _ h f (op_after _ _ _ _ _ _ spec_Rz spec_Rp) W)|].
  split; [exact (op_run _ _ _ h f (op_after _ _ _ _ _ _ spec_Rp spec_Rz) W)|].
  split; [exact (op_run _ _ _ h f spec_Rp W)|].
  split; [exact (op_run _ _ _ h f (op_after _ _ _ _ _ _ spec_Rz spec_Rm) W)|].
  split; [exact (op_run _ _ _ h f (op_after _ _ _ _ _ _ spec_Rm spec_Rz) W)|].
  split; [exact (op_run _ _ _ h f spec_Rm W)|].
  split; [rewrite <- (Z.add_0_r s); exact (op_run _ _ _ h f (op_after _ _ _ _ _ _ spec_Rp spec_Rm) W)|].
  split; [rewrite <- (Z.add_0_r s); exact (op_run _ _ _ h f (op_after _ _ _ _ _ _ spec_Rm spec_Rp) W)|].
  split; [rewrite <- (Z.add_0_r s); exact (op_run _ _ _ h f spec_Rz W)|].
  split; [rewrite <- (Z.add_0_r s); exact (op_run _ _ _ h f (op_after _ _ _ _ _ _ spec_Rz spec_Rz) W)|].
  split; [rewrite <- (Z.add_0_r s); exact (op_run _ _ _ h f spec_L2 W)|].
  split; [rewrite <- (Z.add_0_r s); exact (op_run _ _ _ h f spec_L2 W)|].
  fold s. pose proof W as (_ & _ & Wz).
  assert (PM : forall idx ell mm, 0 <= ell <= ellmax (md f) -> - ell <= mm <= ell ->
     (RtoC (rup (s + 1) ell) * (RtoC (rdown s ell) * mode h f idx ell mm))%C = (RtoC (IZR ((ell - s) * (ell + s + 1))) * mode h f idx ell mm)%C).
  { intros idx ell mm He Hm. destruct (Z_lt_ge_dec ell (Z.abs s)); [rewrite Wz by (fold s; lia); ring|].
    unfold rup, rdown. replace ((ell + (s + 1)) * (ell - (s + 1) + 1)) with ((ell - s) * (ell + s + 1)) by ring.
    rewrite Cmult_assoc, C_sqrt_sq by nia. reflexivity. }
  assert (MP : forall idx ell mm, 0 <= ell <= ellmax (md f) -> - ell <= mm <= ell ->
     (RtoC (rdown (s + -1) ell) * (RtoC (rup s ell) * mode h f idx ell mm))%C = (RtoC (IZR ((ell + s) * (ell - s + 1))) * mode h f idx ell mm)%C).
  { intros idx ell mm He Hm. destruct (Z_lt_ge_dec ell (Z.abs s)); [rewrite Wz by (fold s; lia); ring|].
    unfold rup, rdown. replace ((ell - (s + -1)) * (ell + (s + -1) + 1)) with ((ell + s) * (ell - s + 1)) by ring.
    rewrite Cmult_assoc, C_sqrt_sq by nia. reflexivity. }
  repeat split; intros idx ell mm Hi He Hm; cbv beta; rewrite ?Z.add_0_r.
  - rewrite !opp_IZR, plus_IZR, !RtoC_opp, RtoC_plus. ring.
  - rewrite !opp_IZR, plus_IZR, !RtoC_opp, RtoC_plus. ring.
  - rewrite PM, MP by auto. replace (IZR ((ell - s) * (ell + s + 1))) with (IZR ((ell + s) * (ell - s + 1)) + 2 * IZR (- s))%R
      by (rewrite <- mult_IZR, <- plus_IZR; f_equal; ring). rewrite RtoC_plus, RtoC_mult. ring.
  - rewrite PM, MP by auto. replace (IZR ((ell - s) * (ell + s + 1))) with (2 * IZR (ell * (ell + 1)) - 2 * IZR (- s) * IZR (- s) - IZR ((ell + s) * (ell - s + 1)))%R
      by (rewrite <- !mult_IZR, <- !minus_IZR; f_equal; ring).
    rewrite !RtoC_minus, !RtoC_mult. field. apply RtoC2_neq0.
Qed.

Lemma commute_scal A ds W B es V h f : op_spec A ds W -> op_spec B es V -> wf h f ->
  (forall w ell mm, W (spin (md f) + es) (V (spin (md f)) w) ell mm = V (spin (md f) + ds) (W (spin (md f)) w) ell mm) ->
  exists ab ba, gives (after A B) h f (spin (md f) + (ds + es)) ab /\ gives (after B A) h f (spin (md f) + (ds + es)) ba /\ same_modes f ab ba.
Proof.
  intros HA HB Wf Hc. eexists _, _. split; [rewrite (Z.add_comm ds es); exact (op_run _ _ _ h f (op_after _ _ _ _ _ _ HA HB) Wf)|].
  split; [exact (op_run _ _ _ h f (op_after _ _ _ _ _ _ HB HA) Wf)|].
  intros idx ell mm Hi He Hm. apply Hc.
Qed.

(** Every L operator commutes with every R operator. *)
Lemma C26_L_R_commute :
  forall A B ds, In A [Lz; Lplus; Lminus; Lsquared] -> In (B, ds) [(Rz, 0); (Rplus, -1); (Rminus, 1); (Rsquared, 0); (eth, 1); (ethbar, -1)] ->
  forall h f, wf h f ->
  exists ab ba, gives (after A B) h f (spin (md f) + ds) ab /\ gives (after B A) h f (spin (md f) + ds) ba /\ same_modes f ab ba.
Proof.
  intros A B ds HA HB h f W. cbn [In] in HA, HB.
  destruct HA as [<-|[<-|[<-|[<-|[]]]]]; destruct HB as [E|[E|[E|[E|[E|[E|[]]]]]]]; inversion E; subst; clear E;
  rewrite <- (Z.add_0_l ds) || idtac.
  all: match goal with
  | |- context [after Lz ?B] => pose proof spec_Lz as SA
  | |- context [after Lplus ?B] => pose proof spec_Lp as SA
  | |- context [after Lminus ?B] => pose proof spec_Lm as SA
  | |- context [after Lsquared ?B] => pose proof spec_L2 as SA end.
  all: match goal with
  | |- context [after Rz _] => refine (commute_scal _ _ _ _ _ _ h f SA spec_Rz W _)
  | |- context [after Rplus _] => refine (commute_scal _ _ _ _ _ _ h f SA spec_Rp W _)
  | |- context [after Rminus _] => refine (commute_scal _ _ _ _ _ _ h f SA spec_Rm W _)
  | |- context [after Rsquared _] => refine (commute_scal _ _ _ _ _ _ h f SA spec_L2 W _)
  | |- context [after eth _] => refine (commute_scal _ _ _ _ _ _ h f SA spec_Rm W _)
  | |- context [after ethbar _] => refine (commute_scal _ _ _ _ _ _ h f SA spec_ethbar W _) end.
  all: intros w ell mm; rewrite ?Z.add_0_r; ring.
Qed.

(** [S, eth] = eth and [S, ethbar] = -ethbar, with S the spin weight; eth is R- and ethbar is -R+. *)
Lemma C26_eth :
  forall h f, wf h f -> let s := spin (md f) in
  exists e eb m p, gives eth h f (s + 1) e /\ gives ethbar h f (s - 1) eb /\ gives Rminus h f (s + 1) m /\ gives Rplus h f (s - 1) p
    /\ same_modes f e m /\ same_modes f eb (fun i l k => - p i l k)%C.
Proof.
  intros h f W s. eexists _, _, _, _. split; [exact (op_run _ _ _ h f spec_Rm W)|]. split; [exact (op_run _ _ _ h f spec_ethbar W)|].
  split; [exact (op_run _ _ _ h f spec_Rm W)|]. split; [exact (op_run _ _ _ h f spec_Rp W)|]. split; intros idx ell mm Hi He Hm; reflexivity.
Qed.

(** ** C28 *)
Lemma C28_index :
  forall h m ell mm, wf h m ->
  (Z.abs (spin (md m)) <= ell <= ellmax (md m) /\ - ell <= mm <= ell ->
     exists i, index m ell mm = Ok i /\ 0 <= i < wid (nd m)
       /\ forall idx, mem h (buf (nd m)) idx i = mode h m idx ell mm)
  /\ (~ (Z.abs (spin (md m)) <= ell <= ellmax (md m) /\ - ell <= mm <= ell) -> index m ell mm = Err ValueError).
Proof.
  intros h m ell mm W. split.
  - intros (H & H'). exists (ell * ell + (ell + mm)). rewrite index_ok by lia. split; [reflexivity|]. split.
    + destruct W as (_ & Ww & _). rewrite Ww. pose proof (col_bound ell mm (ellmax (md m)) ltac:(lia) ltac:(lia)). nia.
    + intros. reflexivity.
  - intros H. unfold index, ell_min_of.
    destruct (Z.ltb_spec ell (Z.abs (spin (md m)))); [reflexivity|]. cbn [orb].
    destruct (Z.ltb_spec ell (Z.abs mm)); [reflexivity|]. cbn [orb].
    destruct (Z.ltb_spec ell 0); [reflexivity|]. cbn [orb]. rewrite Z.gtb_ltb.
    destruct (Z.ltb_spec (ellmax (md m)) ell); [reflexivity|]. exfalso. apply H. lia.
Qed.

Lemma C28_truncate :
  forall h m L', wf h m ->
  (Z.abs (spin (md m)) <= L' < ellmax (md m) ->
     exists r, truncate_ell m L' = Ok r /\ wf h r /\ spin (md r) = spin (md m) /\ ellmax (md r) = L' /\ wid (nd r) = (L' + 1) ^ 2
       /\ lead (nd r) = lead (nd m)
       /\ forall idx ell mm, 0 <= ell <= L' -> - ell <= mm <= ell -> mode h r idx ell mm = mode h m idx ell mm)
  /\ (L' = ellmax (md m) -> truncate_ell m L' = Ok m)
  /\ (L' < ellmax (md m) -> L' < Z.abs (spin (md m)) -> truncate_ell m L' = Err ValueError).
Proof.
  intros h m L' W. split; [|split].
  - intros H. destruct (truncate_ok h m L' W H) as (r & E & Wr & Es & EL & El & Eb & _). exists r.
    pose proof Wr as (_ & Ew & _). rewrite EL in Ew. repeat (split; [auto|]). intros. unfold mode. rewrite Eb. reflexivity.
  - intros ->. unfold truncate_ell. rewrite Z.geb_leb, Z.leb_refl. reflexivity.
  - intros H H'. unfold truncate_ell. replace (L' >=? ellmax (md m)) with false by (symmetry; rewrite Z.geb_leb; apply Z.leb_gt; lia).
    destruct (C28_index h m L' L' W) as (_ & E). rewrite E by lia. reflexivity.
Qed.

(** Asking for more modes than there are is not an error: the object itself is returned. *)
Lemma C28_larger_refuted : exists h m L', wf h m /\ ellmax (md m) < L' /\ truncate_ell m L' = Ok m.
Proof.
  exists (mkheap 1 (fun _ _ _ => RtoC 0)), (mkmodes (mknd 0 [] 9) (mkmeta (-2) 2 None)), 5.
  split; [split; [cbn; lia|split; reflexivity]|]. split; [cbn; lia|reflexivity].
Qed.

(** ** C30 (Modes) *)
Lemma C30_modes_scalar :
  forall h f x, wf h f -> 0 <= ellmax (md f) ->
  ((length (sc_shape x) <= length (lead (nd f)))%nat -> forall sh, broadcast (lead (nd f)) (sc_shape x) = Some sh ->
     (exists h' r, mul_scalar h f x = Ok (h', r) /\ multiply_scalar h f x = Ok (h', r)
       /\ new_modes h h' r (spin (md f)) (ellmax (md f)) sh
            (fun idx ell mm => mode h f (bidx (lead (nd f)) idx) ell mm * sc_val x (bidx (sc_shape x) idx))%C)
     /\ (exists h' r, div_scalar h f x = Ok (h', r)
       /\ new_modes h h' r (spin (md f)) (ellmax (md f)) sh
            (fun idx ell mm => mode h f (bidx (lead (nd f)) idx) ell mm / sc_val x (bidx (sc_shape x) idx))%C))
  /\ (~ (length (sc_shape x) <= length (lead (nd f)))%nat ->
        mul_scalar h f x = Err ValueError /\ div_scalar h f x = Err ValueError /\ multiply_scalar h f x = Err ValueError)
  /\ ((length (sc_shape x) <= length (lead (nd f)))%nat -> broadcast (lead (nd f)) (sc_shape x) = None ->
        mul_scalar h f x = Err TypeError /\ div_scalar h f x = Err TypeError /\ multiply_scalar h f x = Err ValueError).
Proof.
  intros h f x W HL. split; [|split].
  - intros Hl sh HB. split.
    + destruct (scalar_new Cmult h f x sh W HL Hl HB ltac:(intros; ring)) as (h' & r & E & N & _). exists h', r.
      split; [exact E|]. split; [|exact N]. unfold multiply_scalar, check_broadcasting.
      replace (length (lead (nd f)) <? length (sc_shape x))%nat with false by (symmetry; apply Nat.ltb_ge; lia).
      rewrite rdcol0 by auto. cbn [bind]. rewrite HB. exact E.
    + destruct (scalar_new Cdiv h f x sh W HL Hl HB ltac:(intros; unfold Cdiv; ring)) as (h' & r & E & N & _). exists h', r. split; [exact E|exact N].
  - intros Hl. unfold mul_scalar, div_scalar, multiply_scalar, scalar_op, check_broadcasting.
    replace (length (lead (nd f)) <? length (sc_shape x))%nat with true by (symmetry; apply Nat.ltb_lt; lia). repeat split; reflexivity.
  - intros Hl HB. unfold mul_scalar, div_scalar, multiply_scalar, scalar_op, check_broadcasting.
    replace (length (lead (nd f)) <? length (sc_shape x))%nat with false by (symmetry; apply Nat.ltb_ge; lia).
    rewrite rdcol0 by auto. cbn [bind]. rewrite HB. repeat split; reflexivity.
Qed.

(** ** C41 *)
Lemma fvalue_SWSH Lt tab s L w q (y : Z -> Z -> C) : is_Wigner_table Lt tab -> 0 <= L <= Lt -> rotor q ->
  (forall ell mm, 0 <= ell <= L -> - ell <= mm <= ell -> SWSH_returns tab q s ell mm (y ell mm)) ->
  fvalue s L w q = csum 0 L (fun ell => csum (- ell) ell (fun mm => w ell mm * y ell mm)%C).
Proof.
  intros Ht HL HR HY. unfold fvalue. apply dsum_ext. intros ell mm He Hm. f_equal.
  eapply SWSH_returns_fun; [|apply HY; auto]. eapply SWSH_returns_value; eauto. lia.
Qed.

Lemma C41_evaluate :
  forall Lt tab h f, is_Wigner_table Lt tab -> wf h f -> 0 <= ellmax (md f) <= Lt ->
  forall Rs, 0 < alen Rs -> (forall i, 0 <= i < alen Rs -> rotor (aget Rs i)) ->
  forall g, exists E, evaluate tab g h f Rs = Ok E
    /\ forall idx i (y : Z -> Z -> C), 0 <= i < alen Rs ->
         (forall ell mm, 0 <= ell <= ellmax (md f) -> - ell <= mm <= ell ->
            SWSH_returns tab (aget Rs i) (spin (md f)) ell mm (y ell mm)) ->
         E idx i = csum 0 (ellmax (md f)) (fun ell => csum (- ell) ell (fun mm => mode h f idx ell mm * y ell mm)%C).
Proof.
  intros Lt tab h f Ht W HL Rs Hn HR g. destruct (evaluate_ok Lt tab g h f Rs Ht W HL Hn HR) as (E & EE & HE).
  exists E. split; [exact EE|]. intros idx i y Hi HY. rewrite HE by auto. eapply fvalue_SWSH; eauto.
Qed.

Lemma C41_linear :
  forall Lt tab h f g k, is_Wigner_table Lt tab -> wf h f -> wf h g -> wf h k -> 0 <= ellmax (md f) <= Lt ->
  spin (md g) = spin (md f) -> ellmax (md g) = ellmax (md f) -> lead (nd g) = lead (nd f) ->
  spin (md k) = spin (md f) -> ellmax (md k) = ellmax (md f) -> lead (nd k) = lead (nd f) ->
  forall c d, same_modes f (mode h k) (fun idx ell mm => c * mode h f idx ell mm + d * mode h g idx ell mm)%C ->
  forall q F G, rotor q -> value_at tab h f q F -> value_at tab h g q G ->
    value_at tab h k q (fun idx => c * F idx + d * G idx)%C.
Proof.
  intros Lt tab h f g k Ht Wf Wg Wk HL S1 L1 D1 S2 L2 D2 c d HM q F G HR VF VG.
  eapply value_at_ext; [|apply (value_at_fvalue Lt tab h k q Ht Wk ltac:(lia) HR)]. intros idx Hi. rewrite D2 in Hi.
  rewrite (value_at_fun _ _ _ _ _ _ VF (value_at_fvalue Lt tab h f q Ht Wf HL HR) _ Hi).
  rewrite (value_at_fun _ _ _ _ _ _ VG (value_at_fvalue Lt tab h g q Ht Wg ltac:(lia) HR) idx ltac:(rewrite D1; auto)).
  rewrite S1, S2, L1, L2, <- fvalue_lin. apply fvalue_ext. intros. apply HM; auto.
Qed.

(** Evaluating the truncated object is evaluating the object whose higher modes are set to zero. *)
Lemma C41_truncate :
  forall Lt tab h f L' r k, is_Wigner_table Lt tab -> wf h f -> wf h k -> ellmax (md f) <= Lt ->
  Z.abs (spin (md f)) <= L' < ellmax (md f) -> truncate_ell f L' = Ok r ->
  spin (md k) = spin (md f) -> ellmax (md k) = ellmax (md f) -> lead (nd k) = lead (nd f) ->
  same_modes f (mode h k) (fun idx ell mm => if ell <=? L' then mode h f idx ell mm else RtoC 0) ->
  forall q F, rotor q -> (value_at tab h r q F <-> value_at tab h k q F).
Proof.
  intros Lt tab h f L' r k Ht Wf Wk HL HL' ET S2 L2 D2 HM q F HR.
  destruct (truncate_ok h f L' Wf HL') as (r' & E & Wr & Es & EL & El & Eb & _). rewrite ET in E. apply Ok_inj in E. subst r'.
  assert (EQ : forall idx, at_index (lead (nd f)) idx ->
     fvalue (spin (md r)) (ellmax (md r)) (mode h r idx) q = fvalue (spin (md k)) (ellmax (md k)) (mode h k idx) q).
  { intros idx Hi. rewrite Es, EL, S2, L2, (fvalue_extend _ L' (ellmax (md f))) by lia. apply fvalue_ext. intros ell mm He Hm.
    rewrite HM by auto. cbv beta. unfold mode. rewrite Eb. reflexivity. }
  pose proof (value_at_fvalue Lt tab h r q Ht Wr ltac:(lia) HR) as Vr.
  pose proof (value_at_fvalue Lt tab h k q Ht Wk ltac:(lia) HR) as Vk.
  split; intros V.
  - eapply value_at_ext; [|exact Vk]. intros idx Hi. rewrite D2 in Hi. cbv beta. rewrite <- EQ by auto.
    symmetry. apply (value_at_fun _ _ _ _ _ _ V Vr). rewrite El. auto.
  - eapply value_at_ext; [|exact Vr]. intros idx Hi. rewrite El in Hi. cbv beta. rewrite EQ by auto.
    symmetry. apply (value_at_fun _ _ _ _ _ _ V Vk). rewrite D2. auto.
Qed.

Lemma C41_scalar :
  forall Lt tab h f x sh, is_Wigner_table Lt tab -> wf h f -> 0 <= ellmax (md f) <= Lt ->
  (length (sc_shape x) <= length (lead (nd f)))%nat -> broadcast (lead (nd f)) (sc_shape x) = Some sh ->
  exists h' r, mul_scalar h f x = Ok (h', r) /\ lead (nd r) = sh
    /\ forall q F, rotor q -> value_at tab h f q F ->
         value_at tab h' r q (fun idx => F (bidx (lead (nd f)) idx) * sc_val x (bidx (sc_shape x) idx))%C.
Proof.
  intros Lt tab h f x sh Ht W HL Hl HB.
  destruct (scalar_new Cmult h f x sh W ltac:(lia) Hl HB ltac:(intros; ring)) as (h' & r & E & N & _). exists h', r. split; [exact E|].
  pose proof N as (_ & _ & _ & _ & _ & El & _ & _). split; [exact El|]. intros q F HR VF.
  pose proof (value_at_new Lt tab h h' r _ _ _ _ q Ht N HL HR) as V'. eapply value_at_ext; [|exact V']. intros idx Hi. cbv beta. rewrite El in Hi.
  assert (Hf : at_index (lead (nd f)) (bidx (lead (nd f)) idx)) by (eapply bidx_in; eauto; eapply broadcast_left; eauto).
  rewrite (value_at_fun _ _ _ _ _ _ VF (value_at_fvalue Lt tab h f q Ht W HL HR) _ Hf).
  set (c := sc_val x _). transitivity (fvalue (spin (md f)) (ellmax (md f))
    (fun ell mm => c * mode h f (bidx (lead (nd f)) idx) ell mm + RtoC 0 * RtoC 0)%C q).
  - apply fvalue_ext. intros. ring.
  - rewrite (fvalue_lin _ _ c (RtoC 0) _ (fun _ _ => RtoC 0)). ring.
Qed.

(** ** C42 *)
Lemma rsum_to_C n f : RtoC (rsum_to n f) = csum 0 (Z.of_nat n - 1) (fun k => RtoC (f k)).
Proof.
  rewrite <- csum_to_csum. induction n; cbn [rsum_to csum_to]; [reflexivity|]. rewrite RtoC_plus, IHn. reflexivity.
Qed.

Lemma C42_norm :
  forall h m idx, wf h m -> 0 <= ellmax (md m) ->
  (0 <= norm h m idx)%R
  /\ RtoC (norm h m idx ^ 2) = csum 0 (ellmax (md m)) (fun ell => csum (- ell) ell (fun mm =>
       mode h m idx ell mm * Cconj (mode h m idx ell mm))%C).
Proof.
  intros h m idx (_ & Ww & _) HL. unfold norm. split; [apply sqrt_pos|].
  rewrite <- Rsqr_pow2, Rsqr_sqrt.
  - rewrite rsum_to_C, Z2Nat.id by nia. rewrite Ww, csum_cols by lia. apply dsum_ext. intros ell mm He Hm.
    rewrite Cconj_mod. unfold mode. f_equal. ring.
  - induction (Z.to_nat (wid (nd m))); cbn [rsum_to]; [lra|]. pose proof (pow2_ge_0 (Cmod (mem h (buf (nd m)) idx (Z.of_nat n)))). lra.
Qed.

(** np.absolute(f) is the array of moduli of the modes, not the norm of the function. *)
Lemma C42_absolute_refuted :
  exists h m, wf h m /\ wid (nd m) = 4 /\ norm h m [] = 2%R
    /\ forall k, np_absolute h m [] k = 1%R.
Proof.
  exists (mkheap 1 (fun _ _ _ => RtoC 1)), (mkmodes (mknd 0 [] 4) (mkmeta 0 1 None)).
  split; [split; [cbn; lia|split; [reflexivity|cbn; lia]]|]. split; [reflexivity|]. split.
  - unfold norm. cbn. rewrite Cmod_1. change (Pos.to_nat 4) with 4%nat. cbn [rsum_to]. transitivity (sqrt (2 * 2)); [f_equal; ring|]. apply sqrt_square. lra.
  - intros k. unfold np_absolute. cbn. apply Cmod_1.
Qed.

(** ** C11: the array functions and the Modes methods agree *)
Lemma C11_modes_agree :
  forall h f, wf h f -> 0 <= ellmax (md f) ->
  forall idx, at_index (lead (nd f)) idx ->
  let a := mkarr (wid (nd f)) (mem h (buf (nd f)) idx) in
  exists e eb h1 r1 h2 r2,
    eth_NP a (spin (md f)) 0 = Ok e /\ ethbar_NP a (spin (md f)) 0 = Ok eb
    /\ eth h f = Ok (h1, r1) /\ ethbar h f = Ok (h2, r2)
    /\ alen e = wid (nd r1) /\ alen eb = wid (nd r2)
    /\ forall k, 0 <= k < wid (nd f) -> aget e k = mem h1 (buf (nd r1)) idx k /\ aget eb k = mem h2 (buf (nd r2)) idx k.
Proof.
  intros h f W HL idx Hi a. pose proof W as (_ & Ww & Wz).
  destruct (C11_factors a (spin (md f)) 0 (ellmax (md f)) ltac:(lia)) as (e & eb & eG & ebG & E1 & E2 & _ & _ & A1 & A2 & _ & _ & HV).
  { cbn [alen a]. rewrite Ww, LM_total_sqr. lia. }
  destruct (op_run _ _ _ h f spec_Rm W) as (h1 & r1 & E3 & N1). destruct (op_run _ _ _ h f spec_ethbar W) as (h2 & r2 & E4 & N2).
  exists e, eb, h1, r1, h2, r2. split; [exact E1|]. split; [exact E2|]. split; [exact E3|]. split; [exact E4|].
  destruct N1 as (_ & _ & _ & Es1 & EL1 & El1 & W1 & M1). destruct N2 as (_ & _ & _ & Es2 & EL2 & El2 & W2 & M2).
  destruct W1 as (_ & Ww1 & _). destruct W2 as (_ & Ww2 & _).
  split; [rewrite A1, Ww1, EL1; exact Ww|]. split; [rewrite A2, Ww2, EL2; exact Ww|].
  intros k Hk. rewrite Ww in Hk. destruct (col_exists (ellmax (md f)) k HL Hk) as (ell & He & Bk). destruct (blk_m _ _ Bk) as (mm & Hm & ->).
  specialize (M1 idx ell mm Hi He Hm). specialize (M2 idx ell mm Hi He Hm). unfold mode at 1 in M1. unfold mode at 1 in M2. rewrite M1, M2.
  specialize (HV ell mm ltac:(lia) Hm). cbv zeta in HV. rewrite LM_col in HV. destruct HV as (V1 & V2 & V3 & V4 & _).
  cbn [a aget] in V1, V3. set (s := spin (md f)) in *. unfold rdown, rup, mode. split.
  - destruct (Z_lt_ge_dec ell (Z.abs (s + 1))) as [Hs|Hs].
    + rewrite V2 by auto. destruct (Z_lt_ge_dec ell (Z.abs s)) as [Hs'|Hs'].
      * fold (mode h f idx ell mm). rewrite Wz by auto. ring.
      * replace ((ell - s) * (ell + s + 1)) with 0 by nia. rewrite sqrt_0. ring.
    + rewrite V1 by lia. rewrite mult_IZR, minus_IZR, !plus_IZR. reflexivity.
  - destruct (Z_lt_ge_dec ell (Z.abs (s - 1))) as [Hs|Hs].
    + rewrite V4 by auto. destruct (Z_lt_ge_dec ell (Z.abs s)) as [Hs'|Hs'].
      * fold (mode h f idx ell mm). rewrite Wz by auto. ring.
      * replace ((ell + s) * (ell - s + 1)) with 0 by nia. rewrite sqrt_0. ring.
    + rewrite V3 by lia. rewrite mult_IZR, !plus_IZR, minus_IZR. reflexivity.
Qed.
