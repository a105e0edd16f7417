(** Grid objects: proofs. *)
Require Import ZArith Lia List Reals Lra Bool.
From Coquelicot Require Import Complex.
From Verif Require Import Base BaseProofs CBase ModesModel ModesSpec ModesProofs ModesProofs2 ModesProofs3 GridModel GridSpec.
Import ListNotations.
Open Scope Z_scope.

Lemma gwf_shape g : gwf g -> gshape (gdata g) = n_phi g :: n_theta g :: glead g.
Proof.
  intros (H & _). unfold n_phi, n_theta, glead. destruct (gshape (gdata g)) as [|a [|b l]]; cbn in *; try lia. reflexivity.
Qed.
Lemma gconstruct_ok a s nt np ld : gshape a = np :: nt :: ld -> enough s nt np -> gconstruct a s = Ok (mkgrid a s).
Proof.
  intros E (H1 & H2). unfold gconstruct, Grid_new. cbn [bind orelse]. rewrite E.
  replace (nt <? 2 * Z.abs s + 1) with false by (symmetry; apply Z.ltb_ge; lia).
  replace (np <? 2 * Z.abs s + 1) with false by (symmetry; apply Z.ltb_ge; lia). reflexivity.
Qed.
Lemma gconstruct_small a s nt np ld : gshape a = np :: nt :: ld -> ~ enough s nt np -> gconstruct a s = Err NameError.
Proof.
  intros E H. unfold gconstruct, Grid_new. cbn [bind orelse]. rewrite E. unfold enough in H.
  destruct (Z.ltb_spec nt (2 * Z.abs s + 1)), (Z.ltb_spec np (2 * Z.abs s + 1)); try reflexivity. lia.
Qed.
Lemma is_grid_mk a s nt np ld F : gshape a = np :: nt :: ld ->
  (forall l i j, at_index ld l -> 0 <= i < nt -> 0 <= j < np -> gval a (j :: i :: l) = F l i j) -> is_grid (mkgrid a s) s nt np ld F.
Proof. intros E H. split; [split; [reflexivity|exact E]|]. exact H. Qed.

Lemma bc_points np nt A B ld : broadcast A B = Some ld -> broadcast (np :: nt :: A) (np :: nt :: B) = Some (np :: nt :: ld).
Proof. intros H. cbn [broadcast]. rewrite H, !Z.eqb_refl. reflexivity. Qed.
Lemma bc_new np nt A B ld : broadcast A B = Some ld -> broadcast (np :: nt :: A) (1 :: 1 :: B) = Some (np :: nt :: ld).
Proof.
  intros H. cbn [broadcast]. rewrite H. destruct (Z.eqb_spec nt 1), (Z.eqb_spec np 1); subst; rewrite ?Z.eqb_refl; cbn; reflexivity.
Qed.
Lemma broadcast_comm A : forall B, broadcast A B = broadcast B A.
Proof.
  induction A as [|a A IH]; intros [|b B]; auto. cbn [broadcast]. rewrite (IH B). destruct (broadcast B A); auto.
  rewrite (Z.eqb_sym a b). destruct (Z.eqb_spec b a); [subst; auto|]. destruct (Z.eqb_spec a 1), (Z.eqb_spec b 1); subst; auto.
Qed.
Lemma bidx_pts np nt A i j l : 0 <= i < nt -> 0 <= j < np -> bidx (np :: nt :: A) (j :: i :: l) = j :: i :: bidx A l.
Proof. intros. cbn [bidx]. destruct (Z.eqb_spec np 1), (Z.eqb_spec nt 1); f_equal; try lia; f_equal; lia. Qed.
Lemma bidx_new B i j l : bidx (1 :: 1 :: B) (j :: i :: l) = 0 :: 0 :: bidx B l.
Proof. reflexivity. Qed.

Lemma op_grids op f g nt np ld s : gwf f -> gwf g -> n_theta f = nt -> n_phi f = np -> same_points f g -> broadcast (glead f) (glead g) = Some ld ->
  enough s nt np ->
  exists a, nd_op op (gdata f) (gdata g) = Ok a /\ gconstruct a s = Ok (mkgrid a s)
    /\ is_grid (mkgrid a s) s nt np ld (fun l i j => op (value f (bidx (glead f) l) i j) (value g (bidx (glead g) l) i j)).
Proof.
  intros Wf Wg <- <- (E1 & E2) HB HS. unfold nd_op. rewrite (gwf_shape f Wf), (gwf_shape g Wg), <- E1, <- E2, (bc_points _ _ _ _ _ HB).
  eexists. split; [reflexivity|]. split; [eapply gconstruct_ok; [reflexivity|exact HS]|]. apply is_grid_mk; [reflexivity|].
  intros l i j Hl Hi Hj. cbn [gval]. rewrite !bidx_pts by auto. reflexivity.
Qed.
Lemma op_grids_bad op f g : gwf f -> gwf g -> same_points f g -> broadcast (glead f) (glead g) = None ->
  nd_op op (gdata f) (gdata g) = Err ValueError.
Proof.
  intros Wf Wg (E1 & E2) HB. unfold nd_op. rewrite (gwf_shape f Wf), (gwf_shape g Wg), <- E1, <- E2. cbn [broadcast]. rewrite HB. reflexivity.
Qed.
Lemma same_grid_yes f g : same_points f g -> same_grid f g = true.
Proof. intros (E1 & E2). unfold same_grid. rewrite E1, E2, !Z.eqb_refl. reflexivity. Qed.
Lemma same_grid_no f g : ~ same_points f g -> same_grid f g = false.
Proof. intros H. unfold same_grid. destruct (Z.eqb_spec (n_theta f) (n_theta g)), (Z.eqb_spec (n_phi f) (n_phi g)); auto. exfalso. apply H. split; auto. Qed.

(** ** C36 *)
Lemma C36_add_subtract :
  forall f g ld, gwf f -> gwf g -> gspin f = gspin g -> same_points f g -> broadcast (glead f) (glead g) = Some ld ->
  (exists r, gadd f (OG g) = Ok r /\ grid_ufunc u_add m_call [OG f; OG g] None false = Ok (RGrid r)
     /\ gwf r /\ is_grid r (gspin f) (n_theta f) (n_phi f) ld
          (fun l i j => value f (bidx (glead f) l) i j + value g (bidx (glead g) l) i j)%C)
  /\ (exists r, gsubtract f (OG g) = Ok r /\ grid_ufunc u_subtract m_call [OG f; OG g] None false = Ok (RGrid r)
     /\ gwf r /\ is_grid r (gspin f) (n_theta f) (n_phi f) ld
          (fun l i j => value f (bidx (glead f) l) i j - value g (bidx (glead g) l) i j)%C).
Proof.
  intros f g ld Wf Wg Es Ep HB. pose proof (proj2 Wf) as HS. split.
  - destruct (op_grids Cplus f g _ _ ld (gspin f) Wf Wg eq_refl eq_refl Ep HB HS) as (a & E & Ec & HG). exists (mkgrid a (gspin f)).
    split; [|split; [|split; [|exact HG]]].
    + unfold gadd. rewrite Es, Z.eqb_refl, same_grid_yes by auto. cbn [negb]. rewrite E. cbn [bind]. rewrite <- Es. exact Ec.
    + unfold grid_ufunc, grid_array_ufunc, finish, into. cbn [find relation predicate arg nth_error bind]. rewrite Es, Z.eqb_refl, same_grid_yes by auto. cbn [negb].
      rewrite E. cbn [bind]. rewrite <- Es, Ec. reflexivity.
    + destruct HG as ((_ & Sh) & _). unfold gwf, n_theta, n_phi. cbn [gdata gspin] in *. rewrite Sh. cbn [length nth]. split; [lia|exact HS].
  - destruct (op_grids Cminus f g _ _ ld (gspin f) Wf Wg eq_refl eq_refl Ep HB HS) as (a & E & Ec & HG). exists (mkgrid a (gspin f)).
    split; [|split; [|split; [|exact HG]]].
    + unfold gsubtract. rewrite Es, Z.eqb_refl, same_grid_yes by auto. cbn [negb]. rewrite E. cbn [bind]. rewrite <- Es. exact Ec.
    + unfold grid_ufunc, grid_array_ufunc, finish, into. cbn [find relation predicate arg nth_error bind]. rewrite Es, Z.eqb_refl, same_grid_yes by auto. cbn [negb].
      rewrite E. cbn [bind]. rewrite <- Es, Ec. reflexivity.
    + destruct HG as ((_ & Sh) & _). unfold gwf, n_theta, n_phi. cbn [gdata gspin] in *. rewrite Sh. cbn [length nth]. split; [lia|exact HS].
Qed.

Lemma C36_multiply_divide :
  forall f g ld, gwf f -> gwf g -> same_points f g -> broadcast (glead f) (glead g) = Some ld ->
  (enough (gspin f + gspin g) (n_theta f) (n_phi f) ->
   exists r, gmultiply f (OG g) = Ok r /\ grid_ufunc u_multiply m_call [OG f; OG g] None false = Ok (RGrid r)
     /\ gwf r /\ is_grid r (gspin f + gspin g) (n_theta f) (n_phi f) ld
          (fun l i j => value f (bidx (glead f) l) i j * value g (bidx (glead g) l) i j)%C)
  /\ (enough (gspin f - gspin g) (n_theta f) (n_phi f) ->
   exists r, gdivide f (OG g) = Ok r /\ grid_ufunc u_divide m_call [OG f; OG g] None false = Ok (RGrid r)
     /\ gwf r /\ has_shape r (gspin f - gspin g) (n_theta f) (n_phi f) ld
     /\ forall l i j, at_index ld l -> 0 <= i < n_theta f -> 0 <= j < n_phi f ->
          value g (bidx (glead g) l) i j <> RtoC 0 ->
          (value r l i j * value g (bidx (glead g) l) i j)%C = value f (bidx (glead f) l) i j)
  /\ (~ enough (gspin f + gspin g) (n_theta f) (n_phi f) ->
        gmultiply f (OG g) = Err NameError /\ grid_ufunc u_multiply m_call [OG f; OG g] None false = Err NameError)
  /\ (~ enough (gspin f - gspin g) (n_theta f) (n_phi f) ->
        gdivide f (OG g) = Err NameError /\ grid_ufunc u_divide m_call [OG f; OG g] None false = Err NameError).
Proof.
  intros f g ld Wf Wg Ep HB.
  assert (Sh : forall op, exists a, nd_op op (gdata f) (gdata g) = Ok a /\ gshape a = n_phi f :: n_theta f :: ld).
  { intros op. unfold nd_op. rewrite (gwf_shape f Wf), (gwf_shape g Wg), <- (proj1 Ep), <- (proj2 Ep), (bc_points _ _ _ _ _ HB). eexists. split; reflexivity. }
  assert (GW : forall a s, gshape a = n_phi f :: n_theta f :: ld -> enough s (n_theta f) (n_phi f) -> gwf (mkgrid a s)).
  { intros a s E HS. unfold gwf, n_theta, n_phi. cbn [gdata gspin]. rewrite E. cbn [length nth]. split; [lia|exact HS]. }
  split; [|split; [|split]]; intros HS.
  - destruct (op_grids Cmult f g _ _ ld _ Wf Wg eq_refl eq_refl Ep HB HS) as (a & E & Ec & HG). eexists. split; [|split; [|split; [|exact HG]]].
    + unfold gmultiply. rewrite same_grid_yes by auto. cbn [negb]. rewrite E. exact Ec.
    + unfold grid_ufunc, grid_array_ufunc, finish, into. cbn [find relation predicate arg nth_error bind]. rewrite same_grid_yes by auto. cbn [negb].
      rewrite E. cbn [bind]. rewrite Ec. reflexivity.
    + apply GW; [exact (proj2 (proj1 HG))|exact HS].
  - destruct (op_grids Cdiv f g _ _ ld _ Wf Wg eq_refl eq_refl Ep HB HS) as (a & E & Ec & HG). eexists. split; [|split; [|split; [|split; [exact (proj1 HG)|]]]].
    + unfold gdivide. rewrite same_grid_yes by auto. cbn [negb]. rewrite E. exact Ec.
    + unfold grid_ufunc, grid_array_ufunc, finish, into. cbn [find relation predicate arg nth_error bind]. rewrite same_grid_yes by auto. cbn [negb].
      rewrite E. cbn [bind]. rewrite Ec. reflexivity.
    + apply GW; [exact (proj2 (proj1 HG))|exact HS].
    + intros l i j Hl Hi Hj Hn. rewrite (proj2 HG) by auto. field. exact Hn.
  - destruct (Sh Cmult) as (a & E & Es). pose proof (gconstruct_small a _ _ _ _ Es HS) as Ec. split.
    + unfold gmultiply. rewrite same_grid_yes by auto. cbn [negb]. rewrite E. exact Ec.
    + unfold grid_ufunc, grid_array_ufunc, finish, into. cbn [find relation predicate arg nth_error bind]. rewrite same_grid_yes by auto. cbn [negb].
      rewrite E. cbn [bind]. rewrite Ec. reflexivity.
  - destruct (Sh Cdiv) as (a & E & Es). pose proof (gconstruct_small a _ _ _ _ Es HS) as Ec. split.
    + unfold gdivide. rewrite same_grid_yes by auto. cbn [negb]. rewrite E. exact Ec.
    + unfold grid_ufunc, grid_array_ufunc, finish, into. cbn [find relation predicate arg nth_error bind]. rewrite same_grid_yes by auto. cbn [negb].
      rewrite E. cbn [bind]. rewrite Ec. reflexivity.
Qed.

Lemma map_grid F g s : gwf g -> enough s (n_theta g) (n_phi g) ->
  gconstruct (nd_map F (gdata g)) s = Ok (mkgrid (nd_map F (gdata g)) s)
  /\ gwf (mkgrid (nd_map F (gdata g)) s)
  /\ is_grid (mkgrid (nd_map F (gdata g)) s) s (n_theta g) (n_phi g) (glead g) (fun l i j => F (value g l i j)).
Proof.
  intros W HS. pose proof (gwf_shape g W) as E. split; [eapply gconstruct_ok; [exact E|exact HS]|]. split.
  - split; [exact (proj1 W)|exact HS].
  - apply is_grid_mk; [exact E|]. reflexivity.
Qed.
Lemma enough_opp s nt np : enough s nt np -> enough (- s) nt np.
Proof. unfold enough. rewrite Z.abs_opp. auto. Qed.
Lemma enough_0 s nt np : enough s nt np -> enough 0 nt np.
Proof. unfold enough. cbn [Z.abs]. lia. Qed.

Lemma C36_conjugate_absolute :
  forall g, gwf g ->
  (exists r, gconjugate g false = Ok r /\ gconjugate g true = Ok r /\ grid_ufunc u_conjugate m_call [OG g] None false = Ok (RGrid r)
     /\ gwf r /\ is_grid r (- gspin g) (n_theta g) (n_phi g) (glead g) (fun l i j => Cconj (value g l i j)))
  /\ (exists r, gabsolute g = Ok r /\ grid_ufunc u_absolute m_call [OG g] None false = Ok (RGrid r)
     /\ gwf r /\ is_grid r 0 (n_theta g) (n_phi g) (glead g) (fun l i j => RtoC (Cmod (value g l i j))))
  /\ (exists r, grid_ufunc u_negative m_call [OG g] None false = Ok (RGrid r)
     /\ gwf r /\ is_grid r (gspin g) (n_theta g) (n_phi g) (glead g) (fun l i j => - value g l i j)%C)
  /\ (exists r, grid_ufunc u_positive m_call [OG g] None false = Ok (RGrid r)
     /\ gwf r /\ is_grid r (gspin g) (n_theta g) (n_phi g) (glead g) (value g))
  /\ (gspin g = 0 -> exists re im, greal g = Ok re /\ gimag g = Ok im
     /\ is_grid re 0 (n_theta g) (n_phi g) (glead g) (fun l i j => RtoC (Re (value g l i j)))
     /\ is_grid im 0 (n_theta g) (n_phi g) (glead g) (fun l i j => RtoC (Im (value g l i j))))
  /\ (gspin g <> 0 -> greal g = Err ValueError /\ gimag g = Err ValueError).
Proof.
  intros g W. pose proof (proj2 W) as HS. split; [|split; [|split; [|split; [|split]]]].
  - destruct (map_grid Cconj g (- gspin g) W (enough_opp _ _ _ HS)) as (E & Wr & HG). eexists. split; [exact E|]. split; [reflexivity|].
    split; [unfold grid_ufunc, grid_array_ufunc, finish, into; cbn [find relation predicate arg nth_error bind]; rewrite E; reflexivity|]. split; auto.
  - destruct (map_grid (fun z => RtoC (Cmod z)) g 0 W (enough_0 _ _ _ HS)) as (E & Wr & HG). eexists. split; [exact E|].
    split; [unfold grid_ufunc, grid_array_ufunc, finish, into; cbn [find relation predicate arg nth_error bind]; rewrite E; reflexivity|]. split; auto.
  - destruct (map_grid Copp g (gspin g) W HS) as (E & Wr & HG). eexists.
    split; [unfold grid_ufunc, grid_array_ufunc, finish, into; cbn [find relation predicate arg nth_error bind]; rewrite E; reflexivity|]. split; auto.
  - exists g. pose proof (gconstruct_ok (gdata g) (gspin g) _ _ _ (gwf_shape g W) HS) as E. 
    split; [unfold grid_ufunc, grid_array_ufunc, finish, into; cbn [find relation predicate arg nth_error bind]; rewrite E; destruct g; reflexivity|].
    split; [exact W|]. split; [split; [reflexivity|exact (gwf_shape g W)]|]. reflexivity.
  - intros S0. unfold greal, gimag. rewrite S0. cbn [Z.eqb negb]. rewrite <- S0.
    destruct (map_grid (fun z => RtoC (Re z)) g (gspin g) W HS) as (E & _ & HG). destruct (map_grid (fun z => RtoC (Im z)) g (gspin g) W HS) as (E' & _ & HG').
    eexists _, _. split; [exact E|]. split; [exact E'|]. split; auto.
  - intros S0. unfold greal, gimag. destruct (Z.eqb_spec (gspin g) 0); [contradiction|]. split; reflexivity.
Qed.

Lemma C36_errors :
  forall f g, gwf f -> gwf g ->
  (~ same_points f g \/ broadcast (glead f) (glead g) = None -> gspin f = gspin g ->
     gadd f (OG g) = Err ValueError /\ gsubtract f (OG g) = Err ValueError
     /\ grid_ufunc u_add m_call [OG f; OG g] None false = Err ValueError
     /\ grid_ufunc u_subtract m_call [OG f; OG g] None false = Err ValueError)
  /\ (~ same_points f g \/ broadcast (glead f) (glead g) = None ->
     gmultiply f (OG g) = Err ValueError /\ gdivide f (OG g) = Err ValueError
     /\ grid_ufunc u_multiply m_call [OG f; OG g] None false = Err ValueError
     /\ grid_ufunc u_divide m_call [OG f; OG g] None false = Err ValueError)
  /\ (gspin f <> gspin g ->
     gadd f (OG g) = Err ValueError
     /\ grid_ufunc u_add m_call [OG f; OG g] None false = Err ValueError
     /\ grid_ufunc u_subtract m_call [OG f; OG g] None false = Err ValueError).
Proof.
  intros f g Wf Wg. split; [|split].
  - intros H Es. destruct (same_grid f g) eqn:SG.
    + assert (HB : broadcast (glead f) (glead g) = None).
      { destruct H as [H|H]; auto. rewrite same_grid_no in SG by auto. discriminate. }
      assert (SP : same_points f g).
      { unfold same_grid in SG. apply andb_true_iff in SG. destruct SG as (A & B). apply Z.eqb_eq in A, B. split; auto. }
      unfold gadd, gsubtract, grid_ufunc, grid_array_ufunc, finish. cbn [find relation predicate arg nth_error bind].
      rewrite Es, Z.eqb_refl, SG, !(op_grids_bad _ f g Wf Wg SP HB). cbn [negb bind]. auto.
    + unfold gadd, gsubtract, grid_ufunc, grid_array_ufunc, finish. cbn [find relation predicate arg nth_error bind].
      rewrite Es, Z.eqb_refl, SG. cbn [negb bind]. auto.
  - intros H. destruct (same_grid f g) eqn:SG.
    + assert (HB : broadcast (glead f) (glead g) = None).
      { destruct H as [H|H]; auto. rewrite same_grid_no in SG by auto. discriminate. }
      assert (SP : same_points f g).
      { unfold same_grid in SG. apply andb_true_iff in SG. destruct SG as (A & B). apply Z.eqb_eq in A, B. split; auto. }
      unfold gmultiply, gdivide, grid_ufunc, grid_array_ufunc, finish. cbn [find relation predicate arg nth_error bind].
      rewrite SG, !(op_grids_bad _ f g Wf Wg SP HB). cbn [negb bind]. auto.
    + unfold gmultiply, gdivide, grid_ufunc, grid_array_ufunc, finish. cbn [find relation predicate arg nth_error bind]. rewrite SG. cbn [negb bind]. auto.
  - intros H. unfold gadd, grid_ufunc, grid_array_ufunc. cbn [find relation predicate arg nth_error bind].
    destruct (Z.eqb_spec (gspin f) (gspin g)); [contradiction|]. cbn [negb bind]. auto.
Qed.

(** The method [subtract] raises NameError for different spin weights, always. *)
Lemma C36_subtract_spin_refuted :
  forall f g, gspin f <> gspin g -> gsubtract f (OG g) = Err NameError.
Proof. intros f g H. unfold gsubtract. destruct (Z.eqb_spec (gspin f) (gspin g)); [contradiction|reflexivity]. Qed.

(** ** The [out=] argument *)

Lemma bidx_self sh : forall idx, at_index sh idx -> bidx sh idx = idx.
Proof.
  induction sh as [|n sh IH]; intros idx H; inversion H; subst; cbn [bidx]; auto. rewrite IH by auto. destruct (Z.eqb_spec n 1); f_equal; lia.
Qed.
Lemma finish_out ra s r o : finish ra None s = Ok (RGrid r) -> gshape (out_view o) = gshape (gdata r) ->
  exists r', finish ra (Some o) s = Ok (RGrid r') /\ same_grid_value r' r.
Proof.
  unfold finish, into. destruct ra as [a|e]; cbn [bind]; [|discriminate]. intros H E.
  destruct (gconstruct a s) as [g|] eqn:Ec; cbn [bind] in H; [|discriminate]. injection H as <-.
  assert (Eg : g = mkgrid a s /\ exists np nt ld, gshape a = np :: nt :: ld /\ ((nt <? 2 * Z.abs s + 1) || (np <? 2 * Z.abs s + 1)) = false).
  { unfold gconstruct, Grid_new in Ec. cbn [bind orelse] in Ec. destruct (gshape a) as [|np [|nt ld]]; try discriminate.
    destruct ((nt <? 2 * Z.abs s + 1) || (np <? 2 * Z.abs s + 1)) eqn:B; [discriminate|]. injection Ec as <-. split; [reflexivity|]. exists np, nt, ld. split; auto. }
  destruct Eg as (-> & np & nt & ld & Sh & B). cbn [gdata] in *. rewrite E, broadcasts_to_refl. cbn [bind].
  unfold gconstruct, Grid_new. cbn [bind orelse gshape]. rewrite Sh, B. cbn [bind]. eexists. split; [reflexivity|].
  split; [reflexivity|]. split; [cbn [gdata gshape]; auto|]. intros idx Hi. cbn [gdata gval] in *. rewrite <- Sh, bidx_self by auto. reflexivity.
Qed.

Lemma array_ufunc_out self u args r o : grid_array_ufunc self u m_call args None false = Ok (RGrid r) -> gshape (out_view o) = gshape (gdata r) ->
  exists r', grid_array_ufunc self u m_call args (Some o) false = Ok (RGrid r') /\ same_grid_value r' r.
Proof.
  intros H Sh.
  assert (G : forall ra s, (do x <- finish ra None s; match x with RDecline => Ok RDecline | _ => Ok x end) = Ok (RGrid r) ->
     exists r', (do x <- finish ra (Some o) s; match x with RDecline => Ok RDecline | _ => Ok x end) = Ok (RGrid r') /\ same_grid_value r' r).
  { intros ra s H'. destruct (finish ra None s) as [x|] eqn:F; cbn [bind] in H'; [|discriminate].
    assert (x = RGrid r) by (destruct x; congruence). subst x. destruct (finish_out _ _ _ _ F Sh) as (r' & E & S'). exists r'. rewrite E. cbn [bind]. auto. }
  unfold grid_array_ufunc in *.
  destruct u; cbn [relation predicate] in *; try discriminate;
    try (destruct (arg args 0) as [a|]; cbn [bind] in *; [|discriminate];
         destruct (arg args 1) as [b|]; cbn [bind] in *; [|discriminate];
         destruct (broadcast _ _); discriminate);
    try (destruct (arg args 0) as [a|]; cbn [bind finish_bool] in *; discriminate);
    try (apply G; exact H);
    (destruct (arg args 0) as [a|]; cbn [bind] in *; [|discriminate]);
    try (destruct a as [a|a]; cbn [bind] in *; [|discriminate]; try (apply G; exact H));
    try (destruct (arg args 1) as [b|]; cbn [bind] in *; [|discriminate]);
    try (destruct a as [a|a]);
    try (destruct b as [b|b]); cbn [bind] in *; try discriminate;
    repeat (match type of H with
    | context [if ?c then _ else _] => destruct c; cbn [bind] in *; try discriminate
    | context [match ?c with Some _ => _ | None => _ end] => destruct c; cbn [bind] in *; try discriminate
    | context [do _ <- gcheck_broadcasting ?x ?y; _] => destruct (gcheck_broadcasting x y); cbn [bind] in *; try discriminate
    end); try (apply G; exact H).
Qed.

Lemma C36_out :
  forall u args r o, grid_ufunc u m_call args None false = Ok (RGrid r) -> gshape (out_view o) = gshape (gdata r) ->
  exists r', grid_ufunc u m_call args (Some o) false = Ok (RGrid r') /\ same_grid_value r' r.
Proof.
  intros u args r o H Sh. unfold grid_ufunc in *. destruct (find _ args) as [[g|x]|]; try discriminate.
  destruct (grid_array_ufunc g u m_call args None false) as [y|] eqn:E; cbn [bind] in H; [|discriminate].
  assert (y = RGrid r) by (destruct y; congruence). subst y. destruct (array_ufunc_out _ _ _ _ _ E Sh) as (r' & E' & S'). exists r'. rewrite E'. cbn [bind]. auto.
Qed.

(** ** Powers *)
Lemma Int_part_spec r z : (IZR z <= r < IZR z + 1)%R -> z = Int_part r.
Proof. intros H. unfold Int_part. rewrite <- (tech_up r (z + 1)); [lia| |]; rewrite plus_IZR; lra. Qed.
Lemma trunc_IZR e : trunc (IZR e) = e.
Proof.
  unfold trunc. destruct (Rlt_dec (IZR e) 0).
  - rewrite <- (Int_part_spec (- IZR e) (- e)); [lia|]. rewrite opp_IZR. lra.
  - symmetry. apply Int_part_spec. lra.
Qed.
Lemma int_of_scalar x : int_of (OS (mkscalars [] (fun _ => RtoC x))) = Some (trunc x).
Proof. unfold int_of. cbn. unfold Creal_eq. destruct (Req_EM_T 0 0); [reflexivity|congruence]. Qed.

Lemma Cmod_Re_le z : (- Cmod z <= Re z <= Cmod z)%R.
Proof.
  pose proof (Rmax_Cmod z) as H. pose proof (Rmax_l (Rabs (fst z)) (Rabs (snd z))). unfold Re.
  pose proof (Rle_abs (fst z)). pose proof (Rle_abs (- fst z)). rewrite Rabs_Ropp in *. lra.
Qed.
Lemma Csqrt_sqr z : (Csqrt z * Csqrt z)%C = z.
Proof.
  pose proof (Cmod_Re_le z) as B. pose proof (Cmod_ge_0 z) as P.
  assert (Q : (Cmod z * Cmod z = Re z * Re z + Im z * Im z)%R).
  { unfold Cmod. rewrite sqrt_sqrt; [unfold Re, Im; ring|]. pose proof (Rle_0_sqr (fst z)). pose proof (Rle_0_sqr (snd z)). unfold Rsqr in *. nra. }
  unfold Csqrt, Cmult. cbn [fst snd]. set (a := sqrt ((Cmod z + Re z) / 2)). set (b := sqrt ((Cmod z - Re z) / 2)).
  assert (A : (a * a = (Cmod z + Re z) / 2)%R) by (apply sqrt_sqrt; lra). assert (Bb : (b * b = (Cmod z - Re z) / 2)%R) by (apply sqrt_sqrt; lra).
  assert (AB : (2 * (a * b) = Rabs (Im z))%R).
  { unfold a, b. rewrite <- sqrt_mult by lra. replace 2%R with (sqrt (2 * 2)) at 1 by (rewrite sqrt_square; lra). rewrite <- sqrt_mult by nra.
    replace (2 * 2 * ((Cmod z + Re z) / 2 * ((Cmod z - Re z) / 2)))%R with (Rsqr (Im z)) by (unfold Rsqr; lra). apply sqrt_Rsqr_abs. }
  assert (S : ((if Rlt_dec (Im z) 0 then -1 else 1) * Rabs (Im z) = Im z)%R).
  { destruct (Rlt_dec (Im z) 0); [rewrite Rabs_left|rewrite Rabs_right]; lra. }
  set (s := if Rlt_dec (Im z) 0 then (-1)%R else 1%R) in *.
  assert (SS : (s * s = 1)%R) by (unfold s; destruct (Rlt_dec (Im z) 0); lra).
  rewrite (surjective_pairing z) at 1. f_equal.
  - change (fst z) with (Re z). nra.
  - change (snd z) with (Im z). rewrite <- S, <- AB. ring.
Qed.

Lemma C45_powers :
  forall g, gwf g ->
  (forall e, enough (e * gspin g) (n_theta g) (n_phi g) ->
   exists r, grid_ufunc u_power m_call [OG g; OS (mkscalars [] (fun _ => RtoC (IZR e)))] None false = Ok (RGrid r)
     /\ gwf r /\ has_shape r (e * gspin g) (n_theta g) (n_phi g) (glead g)
     /\ forall l i j, at_index (glead g) l -> 0 <= i < n_theta g -> 0 <= j < n_phi g ->
          (0 <= e -> value r l i j = Cpow (value g l i j) (Z.to_nat e))
          /\ (e < 0 -> value g l i j <> RtoC 0 -> (value r l i j * Cpow (value g l i j) (Z.to_nat (- e)))%C = RtoC 1))
  /\ (enough (2 * gspin g) (n_theta g) (n_phi g) ->
   exists r, grid_ufunc u_square m_call [OG g] None false = Ok (RGrid r)
     /\ gwf r /\ is_grid r (2 * gspin g) (n_theta g) (n_phi g) (glead g) (fun l i j => value g l i j * value g l i j)%C)
  /\ (exists r, grid_ufunc u_reciprocal m_call [OG g] None false = Ok (RGrid r)
     /\ gwf r /\ has_shape r (- gspin g) (n_theta g) (n_phi g) (glead g)
     /\ forall l i j, at_index (glead g) l -> 0 <= i < n_theta g -> 0 <= j < n_phi g ->
          value g l i j <> RtoC 0 -> (value r l i j * value g l i j)%C = RtoC 1)
  /\ (forall s, gspin g = 2 * s ->
   exists r, grid_ufunc u_sqrt m_call [OG g] None false = Ok (RGrid r)
     /\ gwf r /\ has_shape r s (n_theta g) (n_phi g) (glead g)
     /\ forall l i j, at_index (glead g) l -> 0 <= i < n_theta g -> 0 <= j < n_phi g ->
          (value r l i j * value r l i j)%C = value g l i j /\ (0 <= Re (value r l i j))%R)
  /\ (forall s, gspin g = 2 * s + 1 -> grid_ufunc u_sqrt m_call [OG g] None false = Err TypeError).
Proof.
  intros g W. pose proof (proj2 W) as HS. split; [|split; [|split; [|split]]].
  - intros e He. destruct (map_grid (fun z => Cpowz z e) g (e * gspin g) W He) as (E & Wr & HG). eexists.
    split; [unfold grid_ufunc, grid_array_ufunc, finish, into; cbn [find relation predicate arg nth_error bind]; rewrite int_of_scalar, trunc_IZR; cbn [bind]; rewrite E; reflexivity|].
    split; [exact Wr|]. split; [exact (proj1 HG)|]. intros l i j Hl Hi Hj. rewrite (proj2 HG) by auto. split.
    + intros H0. apply Cpowz_nat. exact H0.
    + intros H0 Hz. rewrite <- Cpowz_nat by lia. rewrite <- Cpowz_add by auto. rewrite Z.add_opp_diag_r. apply Cpowz_0.
  - intros He. destruct (map_grid (fun z => z * z)%C g (2 * gspin g) W He) as (E & Wr & HG). eexists.
    split; [unfold grid_ufunc, grid_array_ufunc, finish, into; cbn [find relation predicate arg nth_error bind]; rewrite (Z.mul_comm (gspin g) 2), E; reflexivity|]. split; auto.
  - destruct (map_grid Cinv g (- gspin g) W (enough_opp _ _ _ HS)) as (E & Wr & HG). eexists.
    split; [unfold grid_ufunc, grid_array_ufunc, finish, into; cbn [find relation predicate arg nth_error bind]; rewrite E; reflexivity|].
    split; [exact Wr|]. split; [exact (proj1 HG)|]. intros l i j Hl Hi Hj Hz. rewrite (proj2 HG) by auto. field. exact Hz.
  - intros s Es. assert (He : enough s (n_theta g) (n_phi g)) by (unfold enough in *; lia).
    destruct (map_grid Csqrt g s W He) as (E & Wr & HG). eexists.
    split.
    { unfold grid_ufunc, grid_array_ufunc, finish, into. cbn [find relation predicate arg nth_error bind].
      replace (gspin g mod 2 =? 0) with true by (rewrite Es, Z.mul_comm, Z.mod_mul by lia; reflexivity).
      replace (gspin g / 2) with s by (rewrite Es, Z.mul_comm, Z.div_mul by lia; reflexivity). cbn [negb bind]. rewrite E. reflexivity. }
    split; [exact Wr|]. split; [exact (proj1 HG)|]. intros l i j Hl Hi Hj. rewrite (proj2 HG) by auto. split; [apply Csqrt_sqr|].
    unfold Csqrt. cbn [Re fst]. apply sqrt_pos.
  - intros s Es. unfold grid_ufunc, grid_array_ufunc. cbn [find relation predicate arg nth_error bind].
    replace (gspin g mod 2 =? 0) with false; [reflexivity|]. rewrite Es, Z.add_comm, Z.mul_comm, Z.mod_add by lia. reflexivity.
Qed.

Definition four : grid := mkgrid (mkgarr [3; 3] (fun _ => RtoC 4)) 0.
(** [np.power(g, 1.5)] returns [g]. *)
Lemma C45_power_refuted :
  exists g r, gwf g /\ grid_ufunc u_power m_call [OG g; OS (mkscalars [] (fun _ => RtoC (3 / 2)))] None false = Ok (RGrid r)
    /\ value g [] 0 0 = RtoC 4 /\ value r [] 0 0 = RtoC 4 /\ Rpower 4 (3 / 2) = 8%R.
Proof.
  exists four. eexists. split; [split; [cbn; lia|split; cbn; lia]|].
  assert (T : trunc (3 / 2) = 1). { unfold trunc. destruct (Rlt_dec (3 / 2) 0); [lra|]. symmetry. apply Int_part_spec. lra. }
  split; [unfold grid_ufunc, grid_array_ufunc; cbn [find relation predicate arg nth_error bind]; rewrite int_of_scalar, T; cbn; reflexivity|].
  split; [reflexivity|]. split; [exact (Cpowz_1 (RtoC 4))|].
  replace (3 / 2)%R with (1 + / 2)%R by lra. rewrite Rpower_plus, Rpower_1, Rpower_sqrt by lra.
  replace (sqrt 4) with 2%R; [lra|]. symmetry. replace 4%R with (2 * 2)%R by lra. apply sqrt_square. lra.
Qed.

(** ** C30 *)
Lemma gcheck_spec g sh : gwf g ->
  gcheck_broadcasting g sh = if (length (glead g) <? length sh)%nat then Err ValueError
                             else Ok (match broadcast (glead g) sh with Some _ => true | None => false end).
Proof.
  intros W. pose proof (proj2 W) as (H1 & H2). unfold gcheck_broadcasting.
  replace (length (gshape (gdata g))) with (length (glead g) + 2)%nat by (rewrite (gwf_shape g W); cbn [length]; lia).
  replace (n_theta g <=? 0) with false by (symmetry; apply Z.leb_gt; lia). replace (n_phi g <=? 0) with false by (symmetry; apply Z.leb_gt; lia).
  destruct (Nat.ltb_spec (length (glead g) + 2) (length sh + 2)), (Nat.ltb_spec (length (glead g)) (length sh)); try lia; reflexivity.
Qed.
Lemma op_scal op g x s ld : gwf g -> enough s (n_theta g) (n_phi g) -> broadcast (glead g) (sc_shape x) = Some ld ->
  exists a, nd_op op (gdata g) (newaxis2 x) = Ok a /\ gconstruct a s = Ok (mkgrid a s) /\ gwf (mkgrid a s)
    /\ is_grid (mkgrid a s) s (n_theta g) (n_phi g) ld (fun l i j => op (value g (bidx (glead g) l) i j) (sc_val x (bidx (sc_shape x) l))).
Proof.
  intros W HS HB. unfold nd_op. cbn [newaxis2 gshape]. rewrite (gwf_shape g W), (bc_new _ _ _ _ _ HB).
  eexists. split; [reflexivity|]. split; [eapply gconstruct_ok; [reflexivity|exact HS]|]. split.
  - unfold gwf, n_theta, n_phi. cbn [gdata gspin gshape length nth]. split; [lia|exact HS].
  - apply is_grid_mk; [reflexivity|]. intros l i j Hl Hi Hj. cbn [gval]. rewrite bidx_pts, bidx_new by auto. reflexivity.
Qed.
Lemma op_scal' op g x s ld : gwf g -> enough s (n_theta g) (n_phi g) -> broadcast (glead g) (sc_shape x) = Some ld ->
  exists a, nd_op op (newaxis2 x) (gdata g) = Ok a /\ gconstruct a s = Ok (mkgrid a s) /\ gwf (mkgrid a s)
    /\ is_grid (mkgrid a s) s (n_theta g) (n_phi g) ld (fun l i j => op (sc_val x (bidx (sc_shape x) l)) (value g (bidx (glead g) l) i j)).
Proof.
  intros W HS HB. unfold nd_op. cbn [newaxis2 gshape]. rewrite (gwf_shape g W), broadcast_comm, (bc_new _ _ _ _ _ HB).
  eexists. split; [reflexivity|]. split; [eapply gconstruct_ok; [reflexivity|exact HS]|]. split.
  - unfold gwf, n_theta, n_phi. cbn [gdata gspin gshape length nth]. split; [lia|exact HS].
  - apply is_grid_mk; [reflexivity|]. intros l i j Hl Hi Hj. cbn [gval]. rewrite bidx_new, bidx_pts by auto. reflexivity.
Qed.

(** With the operators (the ufuncs), an array is accepted exactly when it broadcasts against the leading axes. *)
Lemma C30_grid_operators :
  forall g x, gwf g ->
  (forall ld, (length (sc_shape x) <= length (glead g))%nat -> broadcast (glead g) (sc_shape x) = Some ld ->
   let F l := sc_val x (bidx (sc_shape x) l) in
   (exists r, grid_ufunc u_multiply m_call [OG g; OS x] None false = Ok (RGrid r)
      /\ gwf r /\ is_grid r (gspin g) (n_theta g) (n_phi g) ld (fun l i j => value g (bidx (glead g) l) i j * F l)%C)
   /\ (exists r, grid_ufunc u_multiply m_call [OS x; OG g] None false = Ok (RGrid r)
      /\ gwf r /\ is_grid r (gspin g) (n_theta g) (n_phi g) ld (fun l i j => F l * value g (bidx (glead g) l) i j)%C)
   /\ (exists r, grid_ufunc u_divide m_call [OG g; OS x] None false = Ok (RGrid r)
      /\ gwf r /\ has_shape r (gspin g) (n_theta g) (n_phi g) ld
      /\ forall l i j, at_index ld l -> 0 <= i < n_theta g -> 0 <= j < n_phi g -> F l <> RtoC 0 ->
           (value r l i j * F l)%C = value g (bidx (glead g) l) i j)
   /\ (exists r, grid_ufunc u_divide m_call [OS x; OG g] None false = Ok (RGrid r)
      /\ gwf r /\ has_shape r (- gspin g) (n_theta g) (n_phi g) ld
      /\ forall l i j, at_index ld l -> 0 <= i < n_theta g -> 0 <= j < n_phi g -> value g (bidx (glead g) l) i j <> RtoC 0 ->
           (value r l i j * value g (bidx (glead g) l) i j)%C = F l)
   /\ (gspin g = 0 ->
        (exists r, grid_ufunc u_add m_call [OG g; OS x] None false = Ok (RGrid r)
          /\ gwf r /\ is_grid r 0 (n_theta g) (n_phi g) ld (fun l i j => value g (bidx (glead g) l) i j + F l)%C)
        /\ (exists r, grid_ufunc u_subtract m_call [OS x; OG g] None false = Ok (RGrid r)
          /\ gwf r /\ is_grid r 0 (n_theta g) (n_phi g) ld (fun l i j => F l - value g (bidx (glead g) l) i j)%C)))
  /\ ((length (sc_shape x) > length (glead g))%nat \/ broadcast (glead g) (sc_shape x) = None ->
      exists e, forall u args, In u [u_multiply; u_divide] -> args = [OG g; OS x] \/ args = [OS x; OG g] ->
        grid_ufunc u m_call args None false = Err e /\ (e = ValueError \/ e = TypeError)).
Proof.
  intros g x W. pose proof (proj2 W) as HS. split.
  - intros ld Hl HB F.
    assert (CK : gcheck_broadcasting g (sc_shape x) = Ok true).
    { rewrite gcheck_spec by auto. rewrite HB. destruct (Nat.ltb_spec (length (glead g)) (length (sc_shape x))); [lia|reflexivity]. }
    split; [|split; [|split; [|split]]].
    + destruct (op_scal Cmult g x _ ld W HS HB) as (a & E & Ec & Wr & HG). eexists. split; [|split; [exact Wr|exact HG]].
      unfold grid_ufunc, grid_array_ufunc, finish, into; cbn [find relation predicate arg nth_error bind]; rewrite CK; cbn [bind negb]; rewrite E; cbn [bind]; rewrite Ec; reflexivity.
    + destruct (op_scal' Cmult g x _ ld W HS HB) as (a & E & Ec & Wr & HG). eexists. split; [|split; [exact Wr|exact HG]].
      unfold grid_ufunc, grid_array_ufunc, finish, into; cbn [find relation predicate arg nth_error bind]; rewrite CK; cbn [bind negb]; rewrite E; cbn [bind]; rewrite Ec; reflexivity.
    + destruct (op_scal Cdiv g x _ ld W HS HB) as (a & E & Ec & Wr & HG). eexists. split; [|split; [exact Wr|split; [exact (proj1 HG)|]]].
      * unfold grid_ufunc, grid_array_ufunc, finish, into; cbn [find relation predicate arg nth_error bind]; rewrite CK; cbn [bind negb]; rewrite E; cbn [bind]; rewrite Ec; reflexivity.
      * intros l i j Hl' Hi Hj Hz. rewrite (proj2 HG) by auto. fold (F l). field. exact Hz.
    + destruct (op_scal' Cdiv g x _ ld W (enough_opp _ _ _ HS) HB) as (a & E & Ec & Wr & HG). eexists. split; [|split; [exact Wr|split; [exact (proj1 HG)|]]].
      * unfold grid_ufunc, grid_array_ufunc, finish, into; cbn [find relation predicate arg nth_error bind]; rewrite CK; cbn [bind negb]; rewrite E; cbn [bind]; rewrite Ec; reflexivity.
      * intros l i j Hl' Hi Hj Hz. rewrite (proj2 HG) by auto. fold (F l). field. exact Hz.
    + intros S0. split.
      * destruct (op_scal Cplus g x _ ld W HS HB) as (a & E & Ec & Wr & HG). rewrite <- S0. eexists. split; [|split; [exact Wr|exact HG]].
        unfold grid_ufunc, grid_array_ufunc, finish, into; cbn [find relation predicate arg nth_error bind]; rewrite CK; cbn [bind negb]; rewrite E; cbn [bind]; rewrite Ec, S0; reflexivity.
      * destruct (op_scal' Cminus g x _ ld W HS HB) as (a & E & Ec & Wr & HG). rewrite <- S0. eexists. split; [|split; [exact Wr|exact HG]].
        unfold grid_ufunc, grid_array_ufunc, finish, into; cbn [find relation predicate arg nth_error bind]; rewrite CK; cbn [bind negb]; rewrite E; cbn [bind]; rewrite Ec, S0; reflexivity.
  - intros H.
    assert (CK : gcheck_broadcasting g (sc_shape x) = Err ValueError \/ gcheck_broadcasting g (sc_shape x) = Ok false).
    { rewrite gcheck_spec by auto. destruct (Nat.ltb_spec (length (glead g)) (length (sc_shape x))); [left; reflexivity|]. right.
      destruct H as [H|H]; [lia|]. rewrite H. reflexivity. }
    destruct CK as [CK|CK].
    + exists ValueError. intros u args Hu Ha. split; [|auto]. destruct Hu as [<-|[<-|[]]]; destruct Ha as [-> | ->];
        unfold grid_ufunc, grid_array_ufunc; cbn [find relation predicate arg nth_error bind]; rewrite CK; reflexivity.
    + exists TypeError. intros u args Hu Ha. split; [|auto]. destruct Hu as [<-|[<-|[]]]; destruct Ha as [-> | ->];
        unfold grid_ufunc, grid_array_ufunc; cbn [find relation predicate arg nth_error bind]; rewrite CK; reflexivity.
Qed.

(** The methods multiply along the last axes: a factor per function becomes a factor per phi. *)
Definition ones333 : grid := mkgrid (mkgarr [3; 3; 3] (fun _ => RtoC 1)) 0.
Definition col3 : scalars := mkscalars [3] (fun idx => RtoC (IZR (nth 0 idx 0))).
Lemma C30_grid_method_refuted :
  exists g x r, gwf g /\ broadcast (glead g) (sc_shape x) = Some (glead g)
    /\ gmultiply g (OS x) = Ok r
    /\ (forall l i j, value g l i j = RtoC 1)
    /\ value r [0] 0 1 <> value r [0] 0 2
    /\ value r [1] 0 1 <> (value g [1] 0 1 * sc_val x [2])%C.
Proof.
  exists ones333, col3. eexists. split; [split; [cbn; lia|split; cbn; lia]|]. split; [reflexivity|]. split; [reflexivity|]. split; [reflexivity|].
  split; intros H; apply (f_equal Re) in H; cbn in H; lra.
Qed.
(** They are right for a single number. *)
Lemma C30_grid_method_partial :
  forall g c, gwf g ->
  let x := mkscalars [] (fun _ => c) in
  (exists r, gmultiply g (OS x) = Ok r /\ gwf r /\ is_grid r (gspin g) (n_theta g) (n_phi g) (glead g) (fun l i j => value g l i j * c)%C)
  /\ (c <> RtoC 0 -> exists r, gdivide g (OS x) = Ok r /\ gwf r /\ is_grid r (gspin g) (n_theta g) (n_phi g) (glead g) (fun l i j => value g l i j / c)%C)
  /\ (gspin g = 0 -> exists r, gadd g (OS x) = Ok r /\ gwf r /\ is_grid r 0 (n_theta g) (n_phi g) (glead g) (fun l i j => value g l i j + c)%C)
  /\ (gspin g = 0 -> exists r, gsubtract g (OS x) = Ok r /\ gwf r /\ is_grid r 0 (n_theta g) (n_phi g) (glead g) (fun l i j => value g l i j - c)%C)
  /\ (gspin g <> 0 -> c <> RtoC 0 -> gadd g (OS x) = Err ValueError /\ gsubtract g (OS x) = Err ValueError).
Proof.
  intros g c W x. pose proof (proj2 W) as HS.
  assert (CK : gcheck_broadcasting g (sc_shape x) = Ok true).
  { rewrite gcheck_spec by auto. cbn. destruct (glead g); reflexivity. }
  assert (K : forall op, exists a, nd_op op (gdata g) (of_scalars x) = Ok a /\ gconstruct a (gspin g) = Ok (mkgrid a (gspin g)) /\ gwf (mkgrid a (gspin g))
     /\ is_grid (mkgrid a (gspin g)) (gspin g) (n_theta g) (n_phi g) (glead g) (fun l i j => op (value g l i j) c)).
  { intros op. unfold nd_op. cbn [of_scalars x gshape sc_shape]. rewrite (gwf_shape g W).
    replace (broadcast (n_phi g :: n_theta g :: glead g) []) with (Some (n_phi g :: n_theta g :: glead g)) by reflexivity.
    eexists. split; [reflexivity|]. split; [eapply gconstruct_ok; [reflexivity|exact HS]|]. split.
    - unfold gwf, n_theta, n_phi. cbn [gdata gspin gshape length nth]. split; [lia|exact HS].
    - apply is_grid_mk; [reflexivity|]. intros l i j Hl Hi Hj. cbn [gval of_scalars sc_val x]. rewrite bidx_pts, bidx_self by auto. reflexivity. }
  split; [|split; [|split; [|split]]].
  - destruct (K Cmult) as (a & E & Ec & Wr & HG). eexists. split; [|split; [exact Wr|exact HG]]. unfold gmultiply. rewrite CK. cbn [bind]. rewrite E. exact Ec.
  - intros _. destruct (K Cdiv) as (a & E & Ec & Wr & HG). eexists. split; [|split; [exact Wr|exact HG]]. unfold gdivide. rewrite CK. cbn [bind]. rewrite E. exact Ec.
  - intros S0. destruct (K Cplus) as (a & E & Ec & Wr & HG). rewrite <- S0. eexists. split; [|split; [exact Wr|exact HG]]. unfold gadd. rewrite S0. cbn [Z.eqb negb andb]. rewrite E, <- S0. exact Ec.
  - intros S0. destruct (K Cminus) as (a & E & Ec & Wr & HG). rewrite <- S0. eexists. split; [|split; [exact Wr|exact HG]]. unfold gsubtract. rewrite S0. cbn [Z.eqb negb andb]. rewrite E, <- S0. exact Ec.
  - intros S0 Hc. unfold gadd, gsubtract. destruct (Z.eqb_spec (gspin g) 0); [contradiction|]. cbn [negb andb].
    replace (np_any x) with true; [split; reflexivity|]. unfold np_any, x. cbn. unfold Ceqb. 
    destruct (Req_EM_T _ _); [|reflexivity]. destruct (Req_EM_T _ _); [|reflexivity]. exfalso. apply Hc. destruct c; cbn in *; subst; reflexivity.
Qed.

(** ** C37 *)
Lemma C37_modes_refuted :
  forall map2salm g L, Grid_modes map2salm g L = Err (match L with None | Some 0 => NameError | _ => TypeError end).
Proof. intros f g [[| |]|]; reflexivity. Qed.
Lemma C37_pickle_refuted :
  forall g, gpickle g = Err NameError.
Proof. reflexivity. Qed.
(** The constructor: what it accepts, and which error it raises otherwise. *)
Lemma C37_construct :
  forall a im kw,
  match gshape a, kw, im with
  | np :: nt :: ld, Some s, _ | np :: nt :: ld, None, Some s =>
      (enough s nt np -> exists g, Grid_new a im [] kw = Ok g /\ Grid_new a im [s] None = Ok g /\ gdata g = a /\ gspin g = s)
      /\ (~ enough s nt np -> Grid_new a im [] kw = Err NameError)
  | _, _, _ => Grid_new a im [] kw = Err ValueError
  end.
Proof.
  intros a im kw. unfold Grid_new, enough. destruct (gshape a) as [|np [|nt ld]]; cbn [bind]; try (destruct kw, im; reflexivity).
  destruct kw as [s|]; [|destruct im as [s|]]; cbn [orelse]; try reflexivity;
  (split; intros H; destruct (Z.ltb_spec nt (2 * Z.abs s + 1)), (Z.ltb_spec np (2 * Z.abs s + 1)); cbn [orb]; try lia; try reflexivity;
   eexists; split; [reflexivity|]; split; [reflexivity|]; split; reflexivity).
Qed.

Lemma C37_positional :
  forall a im args kw, (2 <= length args)%nat -> Grid_new a im args kw = Err ValueError.
Proof. intros a im [|x [|y l]] kw H; cbn in H; try lia. reflexivity. Qed.

(** ** C38 *)
Lemma C38_theta_phi :
  forall nt np, 2 <= nt -> 1 <= np ->
  exists e, theta_phi nt np = Ok ([nt; np; 2], e)
    /\ (forall i j, 0 <= i < nt -> 0 <= j < np ->
          e i j 0 = (IZR i * PI / (IZR nt - 1))%R /\ e i j 1 = (2 * PI * IZR j / IZR np)%R)
    /\ (forall i j, 0 <= i < nt -> 0 <= j < np -> (0 <= e i j 0%Z <= PI)%R /\ (0 <= e i j 1%Z < 2 * PI)%R)
    /\ (forall j, 0 <= j < np -> e 0 j 0 = 0%R /\ e (nt - 1) j 0 = PI)
    /\ (forall i, 0 <= i < nt -> e i 0 1 = 0%R)
    /\ (forall i j i' j', 0 <= i < i' -> i' < nt -> 0 <= j < np -> 0 <= j' < np -> (e i j 0%Z < e i' j' 0%Z)%R)
    /\ (forall i j i' j', 0 <= j < j' -> j' < np -> 0 <= i < nt -> 0 <= i' < nt -> (e i j 1%Z < e i' j' 1%Z)%R).
Proof.
  intros nt np Ht Hp. pose proof PI_RGT_0 as Pi.
  assert (N1 : (1 <= IZR nt - 1)%R) by (rewrite <- minus_IZR; apply (IZR_le 1); lia). assert (N2 : (1 <= IZR np)%R) by (apply (IZR_le 1); lia).
  assert (K : exists e, theta_phi nt np = Ok ([nt; np; 2], e) /\ forall i j, 0 <= i < nt -> 0 <= j < np ->
          e i j 0 = (IZR i * PI / (IZR nt - 1))%R /\ e i j 1 = (2 * PI * IZR j / IZR np)%R).
  { eexists. split.
    { unfold theta_phi, linspace. replace (nt <? 0) with false by (symmetry; apply Z.ltb_ge; lia). replace (np <? 0) with false by (symmetry; apply Z.ltb_ge; lia).
      replace (nt =? 0) with false by (symmetry; apply Z.eqb_neq; lia). cbn [bind alen].
      replace (nt =? 0) with false by (symmetry; apply Z.eqb_neq; lia). replace (np =? 0) with false by (symmetry; apply Z.eqb_neq; lia). reflexivity. }
    intros i j Hi Hj. cbv beta iota. cbn [aget andb Z.eqb].
    replace (1 <? nt) with true by (symmetry; apply Z.ltb_lt; lia). replace (0 <? nt - 1) with true by (symmetry; apply Z.ltb_lt; lia).
    replace (0 <? np) with true by (symmetry; apply Z.ltb_lt; lia). cbn [andb]. split.
    - destruct (Z.eqb_spec i (nt - 1)) as [-> |_]; rewrite minus_IZR; field; lra.
    - field. lra. }
  destruct K as (e & E & K). exists e. split; [exact E|]. split; [exact K|].
  assert (T' : forall x : R, (x * PI / (IZR nt - 1))%R = (x * (PI / (IZR nt - 1)))%R) by (intros; field; lra).
  assert (P' : forall x : R, (2 * PI * x / IZR np)%R = (x * (2 * PI / IZR np))%R) by (intros; field; lra).
  assert (tp : (0 < PI / (IZR nt - 1))%R) by (apply Rdiv_lt_0_compat; lra). assert (pp : (0 < 2 * PI / IZR np)%R) by (apply Rdiv_lt_0_compat; lra).
  assert (TE : ((IZR nt - 1) * (PI / (IZR nt - 1)) = PI)%R) by (field; lra). assert (PE : (IZR np * (2 * PI / IZR np) = 2 * PI)%R) by (field; lra).
  split; [|split; [|split; [|split]]].
  - intros i j Hi Hj. destruct (K i j Hi Hj) as (-> & ->). rewrite T', P'.
    assert (0 <= IZR i <= IZR nt - 1)%R by (split; [apply (IZR_le 0); lia|rewrite <- minus_IZR; apply IZR_le; lia]).
    assert (0 <= IZR j < IZR np)%R by (split; [apply (IZR_le 0); lia|apply IZR_lt; lia]).
    split; split; try (apply Rmult_le_pos; lra).
    + apply Rle_trans with ((IZR nt - 1) * (PI / (IZR nt - 1)))%R; [|lra]. apply Rmult_le_compat_r; lra.
    + apply Rlt_le_trans with (IZR np * (2 * PI / IZR np))%R; [|lra]. apply Rmult_lt_compat_r; lra.
  - intros j Hj. rewrite (proj1 (K 0 j ltac:(lia) Hj)), (proj1 (K (nt - 1) j ltac:(lia) Hj)). split; [field; lra|]. rewrite minus_IZR. field. lra.
  - intros i Hi. rewrite (proj2 (K i 0 Hi ltac:(lia))). field. lra.
  - intros i j i' j' Hi Hi' Hj Hj'. rewrite (proj1 (K i j ltac:(lia) Hj)), (proj1 (K i' j' ltac:(lia) Hj')), !T'. apply Rmult_lt_compat_r; auto. apply IZR_lt. lia.
  - intros i j i' j' Hj Hj' Hi Hi'. rewrite (proj2 (K i j Hi ltac:(lia))), (proj2 (K i' j' Hi' ltac:(lia))), !P'. apply Rmult_lt_compat_r; auto. apply IZR_lt. lia.
Qed.

(** ** More witnesses *)
Definition ones5 (s : Z) : grid := mkgrid (mkgarr [5; 5] (fun _ => RtoC 1)) s.
Lemma C36_too_small_refuted :
  exists f g, gwf f /\ gwf g /\ same_points f g /\ glead f = [] /\ glead g = [] /\ gmultiply f (OG g) = Err NameError
    /\ grid_ufunc u_multiply m_call [OG f; OG g] None false = Err NameError.
Proof.
  exists (ones5 2), (ones5 2). assert (W : gwf (ones5 2)) by (split; [cbn; lia|split; cbn; lia]).
  split; [exact W|]. split; [exact W|]. split; [split; reflexivity|]. split; [reflexivity|]. split; [reflexivity|]. split; reflexivity.
Qed.
(** [np.negative(x, out=g)] negates [g], whatever [x] is. *)
Lemma C36_negative_out_refuted :
  exists x g r, gwf g /\ grid_ufunc u_negative m_call [OS x] (Some (OutGrid g)) false = Ok (RGrid r)
    /\ sc_shape x = gshape (gdata g) /\ sc_val x [0; 0] = RtoC 7 /\ value g [] 0 0 = RtoC 1 /\ value r [] 0 0 = RtoC (-1).
Proof.
  exists (mkscalars [5; 5] (fun _ => RtoC 7)), (ones5 0). eexists. split; [split; [cbn; lia|split; cbn; lia]|]. split; [reflexivity|].
  split; [reflexivity|]. split; [reflexivity|]. split; [reflexivity|]. unfold value. cbn. unfold Copp, RtoC. cbn. f_equal; ring.
Qed.
