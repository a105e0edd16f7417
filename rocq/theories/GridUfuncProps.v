(** Universal functions on Grid objects: proofs. *)
Require Import ZArith Lia List Reals Lra Bool.
From Coquelicot Require Import Complex.
From Verif Require Import Base BaseProofs CBase ModesModel ModesSpec ModesProofs ModesProofs2 ModesProofs3 ModesProps2 UfuncProofs GridModel GridSpec GridProps GridUfuncSpec.
Import ListNotations.
Open Scope Z_scope.
Set Bullet Behavior "Strict Subproofs".

(** ** Truth values *)
Lemma Ceqb_iff x y : Ceqb x y = true <-> x = y.
Proof.
  unfold Ceqb. destruct x as [a b], y as [c d]. cbn [Re Im fst snd].
  destruct (Req_EM_T a c), (Req_EM_T b d); cbn; split; intros H; try discriminate; try congruence.
Qed.
Lemma Clt_iff x y : Clt x y = true <-> before x y.
Proof.
  unfold Clt, Creal_lt, Creal_eq, before. destruct (Rlt_dec (Re x) (Re y)), (Req_EM_T (Re x) (Re y)), (Rlt_dec (Im x) (Im y)); cbn [orb andb];
    split; intros H; try discriminate; try reflexivity; auto; destruct H as [H|[H1 H2]]; contradiction.
Qed.
Lemma truthy_iff x : truthy x = true <-> x <> RtoC 0.
Proof. unfold truthy. rewrite negb_true_iff. rewrite <- Ceqb_iff. destruct (Ceqb x (RtoC 0)); split; congruence. Qed.
Lemma not_Ceqb_iff x y : negb (Ceqb x y) = true <-> x <> y.
Proof. rewrite negb_true_iff. rewrite <- Ceqb_iff. destruct (Ceqb x y); split; congruence. Qed.

Lemma view_shape x : gshape (view x) = shape_of x.
Proof. destruct x; reflexivity. Qed.
Lemma view_entry x idx : gval (view x) idx = entry x idx.
Proof. destruct x; reflexivity. Qed.

Lemma relation_truth u rel a b idx : relation u = Some rel -> rel (bentry a idx) (bentry b idx) = true <-> truth u [a; b] idx.
Proof.
  intros H. destruct u; cbn [relation] in H; try discriminate; injection H as <-; cbn [truth];
    rewrite ?orb_true_iff, ?andb_true_iff, ?Clt_iff, ?Ceqb_iff, ?truthy_iff, ?not_Ceqb_iff; reflexivity.
Qed.
Lemma predicate_truth u p a idx x : predicate u = Some p -> p x = true <-> truth u [a] idx.
Proof. intros H. destruct u; cbn [predicate] in H; try discriminate; injection H as <-; cbn [truth]; split; auto; try discriminate; contradiction. Qed.

(** ** Exponents *)
Lemma exponent_unique x e e' : exponent x e -> exponent x e' -> e = e'.
Proof.
  intros (_ & r & E & H) (_ & r' & E' & H'). rewrite E in E'. injection E' as <-.
  destruct H as [[H0 [H1 H2]]|[H0 [H1 H2]]], H' as [[K0 [K1 K2]]|[K0 [K1 K2]]].
  - assert (e < e' + 1) by (apply lt_IZR; rewrite plus_IZR; lra). assert (e' < e + 1) by (apply lt_IZR; rewrite plus_IZR; lra). lia.
  - assert (r = 0)%R by lra. subst r.
    assert (e < 0 + 1) by (apply lt_IZR; rewrite plus_IZR; lra). assert (0 < e + 1) by (apply lt_IZR; rewrite plus_IZR; lra).
    assert (e' - 1 < 0) by (apply lt_IZR; rewrite minus_IZR; lra). assert (0 - 1 < e') by (apply lt_IZR; rewrite minus_IZR; lra). lia.
  - assert (r = 0)%R by lra. subst r.
    assert (e' < 0 + 1) by (apply lt_IZR; rewrite plus_IZR; lra). assert (0 < e' + 1) by (apply lt_IZR; rewrite plus_IZR; lra).
    assert (e - 1 < 0) by (apply lt_IZR; rewrite minus_IZR; lra). assert (0 - 1 < e) by (apply lt_IZR; rewrite minus_IZR; lra). lia.
  - assert (e - 1 < e') by (apply lt_IZR; rewrite minus_IZR; lra). assert (e' - 1 < e) by (apply lt_IZR; rewrite minus_IZR; lra). lia.
Qed.
Lemma trunc_spec r e : ((0 <= r)%R /\ (IZR e <= r < IZR e + 1)%R \/ (r <= 0)%R /\ (IZR e - 1 < r <= IZR e)%R) -> trunc r = e.
Proof.
  unfold trunc. intros [(H0 & H)|(H0 & H)]; destruct (Rlt_dec r 0); try lra.
  - symmetry. apply Int_part_spec. exact H.
  - rewrite <- (Int_part_spec (- r) (- e)); [lia|]. rewrite opp_IZR. lra.
  - assert (r = 0)%R by lra. subst r. rewrite <- (Int_part_spec 0 0) by lra.
    assert (e - 1 < 0) by (apply lt_IZR; rewrite minus_IZR; lra). assert (0 - 1 < e) by (apply lt_IZR; rewrite minus_IZR; lra). lia.
Qed.
Lemma Int_part_bounds r : (IZR (Int_part r) <= r < IZR (Int_part r) + 1)%R.
Proof. destruct (base_Int_part r). lra. Qed.
Lemma trunc_bounds r : (0 <= r)%R /\ (IZR (trunc r) <= r < IZR (trunc r) + 1)%R \/ (r <= 0)%R /\ (IZR (trunc r) - 1 < r <= IZR (trunc r))%R.
Proof.
  unfold trunc. destruct (Rlt_dec r 0).
  - right. split; [lra|]. rewrite opp_IZR. pose proof (Int_part_bounds (- r)). lra.
  - left. split; [lra|]. apply Int_part_bounds.
Qed.
Lemma map_zeros (l : list Z) : map (fun _ => 0) l = repeat 0 (length l).
Proof. induction l; cbn; congruence. Qed.
Lemma int_of_iff x e : int_of x = Some e <-> exponent x e.
Proof.
  unfold int_of, exponent. rewrite view_shape, view_entry, map_zeros.
  destruct (forallb (fun n => n =? 1) (shape_of x)) eqn:F.
  - assert (FA : Forall (fun n => n = 1) (shape_of x)).
    { apply Forall_forall. rewrite forallb_forall in F. intros n Hn. apply Z.eqb_eq. apply F. exact Hn. }
    set (z := entry x (repeat 0 (length (shape_of x)))). unfold Creal_eq. destruct (Req_EM_T (Im z) 0) as [HI|HI].
    + split.
      * intros H. injection H as <-. split; [exact FA|]. exists (Re z). split; [destruct z; cbn in *; subst; reflexivity|]. apply trunc_bounds.
      * intros (_ & r & E & H). rewrite E. cbn [Re RtoC fst]. f_equal. apply trunc_spec. exact H.
    + split; [discriminate|]. intros (_ & r & E & H). exfalso. apply HI. rewrite E. reflexivity.
  - split; [discriminate|]. intros (FA & _). exfalso. assert (forallb (fun n => n =? 1) (shape_of x) = true); [|congruence].
    apply forallb_forall. rewrite Forall_forall in FA. intros n Hn. apply Z.eqb_eq. auto.
Qed.
Lemma int_of_none x : int_of x = None -> forall e, ~ exponent x e.
Proof. intros H e He. apply int_of_iff in He. congruence. Qed.

Lemma np_any_false x : np_any x = false -> all_zero x.
Proof.
  intros H idx Hi. destruct (Ceqb (sc_val x idx) (RtoC 0)) eqn:E; [apply Ceqb_iff; exact E|].
  assert (np_any x = true); [|congruence]. apply np_any_spec. exists idx. split; auto. intros HH. apply Ceqb_iff in HH. congruence.
Qed.
Lemma np_any_zero x : all_zero x -> np_any x = false.
Proof. intros H. apply not_true_iff_false. rewrite np_any_spec. intros (idx & Hi & Hn). auto. Qed.
Lemma np_any_not_zero x : np_any x = true -> ~ all_zero x.
Proof. intros H Hz. rewrite np_any_zero in H by auto. discriminate. Qed.

(** ** Calls *)
Definition small (g : grid) (a : garr) (s : Z) : Prop := gconstruct a s = Err NameError.

Lemma finish_map F g s : gwf g -> enough s (n_theta g) (n_phi g) ->
  exists r, finish (Ok (nd_map F (gdata g))) None s = Ok (RGrid r) /\ gwf r /\ has_shape r s (n_theta g) (n_phi g) (glead g)
    /\ forall l i j, value r l i j = F (value g l i j).
Proof.
  intros W HS. destruct (map_grid F g s W HS) as (E & Wr & HG). unfold finish, into. cbn [bind]. rewrite E. cbn [bind].
  eexists. split; [reflexivity|]. split; [exact Wr|]. split; [exact (proj1 HG)|]. reflexivity.
Qed.
Lemma finish_map_small F g s : gwf g -> ~ enough s (n_theta g) (n_phi g) -> finish (Ok (nd_map F (gdata g))) None s = Err NameError.
Proof.
  intros W HS. unfold finish, into. cbn [bind]. rewrite (gconstruct_small (nd_map F (gdata g)) s _ _ _ (gwf_shape g W) HS). reflexivity.
Qed.
Lemma nd_map_id g : gdata g = nd_map (fun z => z) (gdata g).
Proof. destruct g as [[sh v] s]. reflexivity. Qed.
Lemma finish_op op a b s nt np ld (P : list Z -> Z -> Z -> C) :
  broadcast (gshape a) (gshape b) = Some (np :: nt :: ld) ->
  (forall l i j, at_index ld l -> 0 <= i < nt -> 0 <= j < np ->
     P l i j = op (gval a (bidx (gshape a) (j :: i :: l))) (gval b (bidx (gshape b) (j :: i :: l)))) ->
  (enough s nt np -> exists r, finish (nd_op op a b) None s = Ok (RGrid r) /\ gwf r /\ has_shape r s nt np ld
     /\ forall l i j, at_index ld l -> 0 <= i < nt -> 0 <= j < np -> value r l i j = P l i j)
  /\ (~ enough s nt np -> finish (nd_op op a b) None s = Err NameError).
Proof.
  intros HB HP. unfold finish, into, nd_op. rewrite HB. cbn [bind]. split; intros HS.
  - erewrite gconstruct_ok; [|reflexivity|exact HS]. cbn [bind]. eexists. split; [reflexivity|]. split; [|split].
    + unfold gwf, n_theta, n_phi. cbn [gdata gspin gshape length nth]. split; [lia|exact HS].
    + split; reflexivity.
    + intros l i j Hl Hi Hj. rewrite HP by auto. reflexivity.
  - erewrite gconstruct_small; [|reflexivity|exact HS]. reflexivity.
Qed.
Lemma finish_two op f g s ld : gwf f -> gwf g -> same_points f g -> broadcast (glead f) (glead g) = Some ld ->
  (enough s (n_theta f) (n_phi f) -> exists r, finish (nd_op op (gdata f) (gdata g)) None s = Ok (RGrid r) /\ gwf r /\ has_shape r s (n_theta f) (n_phi f) ld
     /\ forall l i j, at_index ld l -> 0 <= i < n_theta f -> 0 <= j < n_phi f ->
          value r l i j = op (at_point (OG f) l i j) (at_point (OG g) l i j))
  /\ (~ enough s (n_theta f) (n_phi f) -> finish (nd_op op (gdata f) (gdata g)) None s = Err NameError).
Proof.
  intros Wf Wg (E1 & E2) HB. apply finish_op.
  - rewrite (gwf_shape f Wf), (gwf_shape g Wg), <- E1, <- E2. apply bc_points. exact HB.
  - intros l i j Hl Hi Hj. rewrite (gwf_shape f Wf), (gwf_shape g Wg), !bidx_pts by (rewrite <- ?E1, <- ?E2; auto). reflexivity.
Qed.
Lemma finish_scal op g x s ld : gwf g -> broadcast (glead g) (sc_shape x) = Some ld ->
  (enough s (n_theta g) (n_phi g) -> exists r, finish (nd_op op (gdata g) (newaxis2 x)) None s = Ok (RGrid r) /\ gwf r /\ has_shape r s (n_theta g) (n_phi g) ld
     /\ forall l i j, at_index ld l -> 0 <= i < n_theta g -> 0 <= j < n_phi g ->
          value r l i j = op (at_point (OG g) l i j) (at_point (OS x) l i j))
  /\ (~ enough s (n_theta g) (n_phi g) -> finish (nd_op op (gdata g) (newaxis2 x)) None s = Err NameError).
Proof.
  intros W HB. apply finish_op.
  - cbn [newaxis2 gshape]. rewrite (gwf_shape g W). apply bc_new. exact HB.
  - intros l i j Hl Hi Hj. cbn [newaxis2 gshape gval]. rewrite (gwf_shape g W), bidx_new, bidx_pts by auto. reflexivity.
Qed.
Lemma finish_scal' op g x s ld : gwf g -> broadcast (glead g) (sc_shape x) = Some ld ->
  (enough s (n_theta g) (n_phi g) -> exists r, finish (nd_op op (newaxis2 x) (gdata g)) None s = Ok (RGrid r) /\ gwf r /\ has_shape r s (n_theta g) (n_phi g) ld
     /\ forall l i j, at_index ld l -> 0 <= i < n_theta g -> 0 <= j < n_phi g ->
          value r l i j = op (at_point (OS x) l i j) (at_point (OG g) l i j))
  /\ (~ enough s (n_theta g) (n_phi g) -> finish (nd_op op (newaxis2 x) (gdata g)) None s = Err NameError).
Proof.
  intros W HB. apply finish_op.
  - cbn [newaxis2 gshape]. rewrite (gwf_shape g W), broadcast_comm. apply bc_new. exact HB.
  - intros l i j Hl Hi Hj. cbn [newaxis2 gshape gval]. rewrite (gwf_shape g W), bidx_new, bidx_pts by auto. reflexivity.
Qed.

Lemma found args : some_grid args -> exists g, find (fun x => match x with OG _ => true | OS _ => false end) args = Some (OG g).
Proof.
  intros (g & H). induction args as [|[a|x] l IH]; [destruct H| |].
  - cbn. eauto.
  - cbn. apply IH. destruct H as [H|H]; [discriminate|exact H].
Qed.
Lemma csqrt_principal z : let w := Csqrt z in ((0 < Re w)%R \/ Re w = 0%R /\ (0 <= Im w)%R).
Proof.
  cbv zeta. pose proof (Cmod_Re_le z) as B. unfold Csqrt. cbn [Re Im fst snd].
  destruct (Rtotal_order ((Cmod z + Re z) / 2) 0) as [H|[H|H]]; [lra| |].
  - right. rewrite H, sqrt_0. split; [reflexivity|].
    assert (HI : (Im z = 0)%R).
    { assert (Q : (Cmod z * Cmod z = Re z * Re z + Im z * Im z)%R).
      { unfold Cmod. rewrite sqrt_sqrt; [unfold Re, Im; ring|]. pose proof (Rle_0_sqr (fst z)). pose proof (Rle_0_sqr (snd z)). unfold Rsqr in *. nra. }
      replace (Cmod z) with (- Re z)%R in Q by lra. assert (Im z * Im z = 0)%R by lra. apply Rmult_integral in H0. tauto. }
    rewrite HI. destruct (Rlt_dec 0 0); [lra|]. rewrite Rmult_1_l. apply sqrt_pos.
  - left. apply sqrt_lt_R0. lra.
Qed.
Lemma gcheck_ok g x ld : gwf g -> (length (sc_shape x) <= length (glead g))%nat -> broadcast (glead g) (sc_shape x) = Some ld ->
  gcheck_broadcasting g (sc_shape x) = Ok true.
Proof. intros W Hl HB. rewrite gcheck_spec by auto. rewrite HB. destruct (Nat.ltb_spec (length (glead g)) (length (sc_shape x))); [lia|reflexivity]. Qed.

Ltac open_ufunc := unfold grid_ufunc, grid_array_ufunc; cbn [find relation predicate arg nth_error bind].

Lemma C58_accepts :
  forall u args, inputs_ok u args -> some_grid args -> grids_wf args -> has_result u args ->
  exists r, grid_ufunc u m_call args None false = Ok r /\ is_result u args r.
Proof.
  intros u args HI SG W HR. unfold is_result, has_result in *. destruct (truth_valued u) eqn:TV.
  - destruct HR as (sh & HB). destruct (found args SG) as (g & F). unfold grid_ufunc, grid_array_ufunc. rewrite F.
    destruct (relation u) as [rel|] eqn:ER; [|destruct (predicate u) as [p|] eqn:EP].
    + destruct args as [|a [|b [|c l]]]; try (destruct u; discriminate). cbn [arg nth_error bind finish_bool].
      cbn [bshape] in HB. rewrite !view_shape, HB. cbn [bind].
      eexists. split; [reflexivity|]. eexists _, _. split; [exact HB|]. split; [reflexivity|].
      intros idx Hi. cbv beta. rewrite !view_entry. exact (relation_truth u rel a b idx ER).
    + destruct args as [|a [|b l]]; try (destruct u; discriminate). cbn [arg nth_error bind finish_bool].
      cbn [bshape] in HB. injection HB as <-. rewrite !view_shape.
      eexists. split; [reflexivity|]. eexists _, _. split; [reflexivity|]. split; [reflexivity|].
      intros idx Hi. cbv beta. rewrite !view_entry. apply predicate_truth. exact EP.
    + destruct u; discriminate.
  - destruct HR as (s & nt & np & ld & HC & HE).
    assert (K : forall r, grid_ufunc u m_call args None false = Ok (RGrid r) -> gwf r -> has_shape r s nt np ld ->
       (forall l i j, at_index ld l -> 0 <= i < nt -> 0 <= j < np -> pointwise u args l i j (value r l i j)) ->
       exists r, grid_ufunc u m_call args None false = Ok r
         /\ (exists g s nt np ld, r = RGrid g /\ combines u args s nt np ld /\ gwf g /\ has_shape g s nt np ld
              /\ forall l i j, at_index ld l -> 0 <= i < nt -> 0 <= j < np -> pointwise u args l i j (value g l i j))).
    { intros r E Wr Hs HP. exists (RGrid r). split; [exact E|]. exists r, s, nt, np, ld. auto. }
    destruct args as [|a [|b [|c l]]]; [destruct u; cbn in HC; contradiction| | |exfalso; destruct u, a; cbn in HC; try contradiction; destruct b; contradiction].
    + destruct a as [g|x]; [|destruct u; cbn in HC; contradiction]. assert (Wg : gwf g) by (apply W; cbn; auto).
      destruct u; cbn [combines] in HC; try contradiction; destruct HC as (ES & -> & -> & ->).
      all: match goal with |- context [grid_ufunc ?u m_call] =>
        let F := match u with u_positive => constr:(fun z : C => z) | u_negative => constr:(Copp) | u_conjugate => constr:(Cconj)
                 | u_absolute => constr:(fun z => RtoC (Cmod z)) | u_square => constr:(fun z => (z * z)%C) | u_reciprocal => constr:(Cinv) | u_sqrt => constr:(Csqrt) end in
        destruct (finish_map F g s Wg HE) as (r & E & Wr & Hs & HV) end.
      all: apply (K r); [|exact Wr|exact Hs|intros l i j Hl Hi Hj; rewrite HV; cbn [pointwise at_point]; rewrite ?(bidx_self _ l Hl)].
      all: try (open_ufunc; rewrite <- ?nd_map_id in E; subst s; rewrite E; reflexivity).
      all: try reflexivity.
      * rewrite Cplus_comm. apply Cplus_opp_r.
      * open_ufunc. replace (gspin g mod 2 =? 0) with true by (rewrite <- ES, Z.mul_comm, Z.mod_mul by lia; reflexivity).
        replace (gspin g / 2) with s by (rewrite <- ES, Z.mul_comm, Z.div_mul by lia; reflexivity). cbn [negb]. rewrite E. reflexivity.
      * split; [apply Csqrt_sqr|apply csqrt_principal].
      * open_ufunc. rewrite (Z.mul_comm (gspin g) 2), <- ES, E. reflexivity.
      * intros Hz. field. exact Hz.
    + destruct a as [f|x], b as [g|y]; try (destruct u; cbn in HC; contradiction).
      * assert (Wf : gwf f) by (apply W; cbn; auto). assert (Wg : gwf g) by (apply W; cbn; auto).
        destruct u; cbn [combines] in HC; try contradiction.
        5:{ destruct HC as ((e & He & ->) & -> & -> & ->). destruct (finish_map (fun z => Cpowz z e) f (e * gspin f) Wf HE) as (r & E & Wr & Hs & HV).
            apply (K r); [|exact Wr|exact Hs|].
            - open_ufunc. rewrite (proj2 (int_of_iff _ _) He), E. reflexivity.
            - intros l i j Hl Hi Hj. rewrite HV. cbn [pointwise at_point]. rewrite (bidx_self _ l Hl). intros e' He'. rewrite (exponent_unique _ _ _ He' He). split.
              + intros H0. apply Cpowz_nat. exact H0.
              + intros H0 Hz. rewrite <- Cpowz_nat by lia. rewrite <- Cpowz_add by auto. rewrite Z.add_opp_diag_r. apply Cpowz_0. }
        all: destruct HC as (SP & -> & -> & HB & ES).
        all: match goal with |- context [grid_ufunc ?u m_call] =>
          let F := match u with u_add => constr:(Cplus) | u_subtract => constr:(Cminus) | u_multiply => constr:(Cmult) | u_divide => constr:(Cdiv) end in
          destruct (proj1 (finish_two F f g s ld Wf Wg SP HB) HE) as (r & E & Wr & Hs & HV) end.
        all: apply (K r); [|exact Wr|exact Hs|intros l i j Hl Hi Hj; rewrite HV by auto; cbn [pointwise]].
        all: try reflexivity.
        -- open_ufunc. destruct ES as [-> ES]. rewrite <- ES, Z.eqb_refl, same_grid_yes by auto. cbn [negb]. rewrite E. reflexivity.
        -- open_ufunc. destruct ES as [-> ES]. rewrite <- ES, Z.eqb_refl, same_grid_yes by auto. cbn [negb]. rewrite E. reflexivity.
        -- ring.
        -- open_ufunc. rewrite same_grid_yes by auto. cbn [negb]. rewrite <- ES, E. reflexivity.
        -- open_ufunc. rewrite same_grid_yes by auto. cbn [negb]. rewrite <- ES, E. reflexivity.
        -- intros Hz. field. exact Hz.
      * rename f into g. assert (Wg : gwf g) by (apply W; cbn; auto).
        destruct u; cbn [combines] in HC; try contradiction.
        5:{ destruct HC as ((e & He & ->) & -> & -> & ->). destruct (finish_map (fun z => Cpowz z e) g (e * gspin g) Wg HE) as (r & E & Wr & Hs & HV).
            apply (K r); [|exact Wr|exact Hs|].
            - open_ufunc. rewrite (proj2 (int_of_iff _ _) He), E. reflexivity.
            - intros l i j Hl Hi Hj. rewrite HV. cbn [pointwise at_point]. rewrite (bidx_self _ l Hl). intros e' He'. rewrite (exponent_unique _ _ _ He' He). split.
              + intros H0. apply Cpowz_nat. exact H0.
              + intros H0 Hz. rewrite <- Cpowz_nat by lia. rewrite <- Cpowz_add by auto. rewrite Z.add_opp_diag_r. apply Cpowz_0. }
        all: destruct HC as (-> & -> & Hl & HB & ES).
        all: pose proof (gcheck_ok g y ld Wg Hl HB) as CK.
        all: match goal with |- context [grid_ufunc ?u m_call] =>
          let F := match u with u_add => constr:(Cplus) | u_subtract => constr:(Cminus) | u_multiply => constr:(Cmult) | u_divide => constr:(Cdiv) end in
          destruct (proj1 (finish_scal F g y s ld Wg HB) HE) as (r & E & Wr & Hs & HV) end.
        all: apply (K r); [|exact Wr|exact Hs|intros l i j Hl' Hi Hj; rewrite HV by auto; cbn [pointwise]].
        all: try reflexivity.
        -- open_ufunc. destruct ES as [-> ES].
           replace (negb (gspin g =? 0) && np_any y) with false by (destruct ES as [-> |ES]; [reflexivity|rewrite (np_any_zero _ ES), andb_false_r; reflexivity]).
           rewrite CK. cbn [negb bind]. rewrite E. reflexivity.
        -- open_ufunc. destruct ES as [-> ES].
           replace (negb (gspin g =? 0) && np_any y) with false by (destruct ES as [-> |ES]; [reflexivity|rewrite (np_any_zero _ ES), andb_false_r; reflexivity]).
           rewrite CK. cbn [negb bind]. rewrite E. reflexivity.
        -- ring.
        -- open_ufunc. rewrite CK. cbn [negb bind]. subst s. rewrite E. reflexivity.
        -- open_ufunc. rewrite CK. cbn [negb bind]. subst s. rewrite E. reflexivity.
        -- intros Hz. field. exact Hz.
      * assert (Wg : gwf g) by (apply W; cbn; auto).
        destruct u; cbn [combines] in HC; try contradiction.
        all: destruct HC as (-> & -> & Hl & HB & ES).
        all: pose proof (gcheck_ok g x ld Wg Hl HB) as CK.
        all: match goal with |- context [grid_ufunc ?u m_call] =>
          let F := match u with u_add => constr:(Cplus) | u_subtract => constr:(Cminus) | u_multiply => constr:(Cmult) | u_divide => constr:(Cdiv) end in
          destruct (proj1 (finish_scal' F g x s ld Wg HB) HE) as (r & E & Wr & Hs & HV) end.
        all: apply (K r); [|exact Wr|exact Hs|intros l i j Hl' Hi Hj; rewrite HV by auto; cbn [pointwise]].
        all: try reflexivity.
        -- open_ufunc. destruct ES as [-> ES].
           replace (negb (gspin g =? 0) && np_any x) with false by (destruct ES as [-> |ES]; [reflexivity|rewrite (np_any_zero _ ES), andb_false_r; reflexivity]).
           rewrite CK. cbn [negb bind]. rewrite E. reflexivity.
        -- open_ufunc. destruct ES as [-> ES].
           replace (negb (gspin g =? 0) && np_any x) with false by (destruct ES as [-> |ES]; [reflexivity|rewrite (np_any_zero _ ES), andb_false_r; reflexivity]).
           rewrite CK. cbn [negb bind]. rewrite E. reflexivity.
        -- ring.
        -- open_ufunc. rewrite CK. cbn [negb bind]. subst s. rewrite E. reflexivity.
        -- open_ufunc. rewrite CK. cbn [negb bind]. subst s. rewrite E. reflexivity.
        -- intros Hz. field. exact Hz.
Qed.

Lemma C58_too_small :
  forall u args s nt np ld, grids_wf args -> combines u args s nt np ld -> ~ enough s nt np ->
  grid_ufunc u m_call args None false = Err NameError.
Proof.
  intros u args s nt np ld W HC HE.
  destruct args as [|a [|b [|c l]]]; [destruct u; cbn in HC; contradiction| | |exfalso; destruct u, a; cbn in HC; try contradiction; destruct b; contradiction].
  - destruct a as [g|x]; [|destruct u; cbn in HC; contradiction]. assert (Wg : gwf g) by (apply W; cbn; auto).
    destruct u; cbn [combines] in HC; try contradiction; destruct HC as (ES & -> & -> & ->).
    all: match goal with |- context [grid_ufunc ?u m_call] =>
        let F := match u with u_positive => constr:(fun z : C => z) | u_negative => constr:(Copp) | u_conjugate => constr:(Cconj)
                 | u_absolute => constr:(fun z => RtoC (Cmod z)) | u_square => constr:(fun z => (z * z)%C) | u_reciprocal => constr:(Cinv) | u_sqrt => constr:(Csqrt) end in
        pose proof (finish_map_small F g s Wg HE) as E end.
    all: try (open_ufunc; rewrite <- ?nd_map_id in E; subst s; rewrite E; reflexivity).
    + open_ufunc. replace (gspin g mod 2 =? 0) with true by (rewrite <- ES, Z.mul_comm, Z.mod_mul by lia; reflexivity).
      replace (gspin g / 2) with s by (rewrite <- ES, Z.mul_comm, Z.div_mul by lia; reflexivity). cbn [negb]. rewrite E. reflexivity.
    + open_ufunc. rewrite (Z.mul_comm (gspin g) 2), <- ES, E. reflexivity.
  - destruct a as [f|x], b as [g|y]; try (destruct u; cbn in HC; contradiction).
    + assert (Wf : gwf f) by (apply W; cbn; auto). assert (Wg : gwf g) by (apply W; cbn; auto).
      destruct u; cbn [combines] in HC; try contradiction.
      5:{ destruct HC as ((e & He & ->) & -> & -> & ->). pose proof (finish_map_small (fun z => Cpowz z e) f (e * gspin f) Wf HE) as E.
          open_ufunc. rewrite (proj2 (int_of_iff _ _) He), E. reflexivity. }
      all: destruct HC as (SP & -> & -> & HB & ES).
      all: match goal with |- context [grid_ufunc ?u m_call] =>
          let F := match u with u_add => constr:(Cplus) | u_subtract => constr:(Cminus) | u_multiply => constr:(Cmult) | u_divide => constr:(Cdiv) end in
          pose proof (proj2 (finish_two F f g s ld Wf Wg SP HB) HE) as E end.
      * open_ufunc. destruct ES as [-> ES]. rewrite <- ES, Z.eqb_refl, same_grid_yes by auto. cbn [negb]. rewrite E. reflexivity.
      * open_ufunc. destruct ES as [-> ES]. rewrite <- ES, Z.eqb_refl, same_grid_yes by auto. cbn [negb]. rewrite E. reflexivity.
      * open_ufunc. rewrite same_grid_yes by auto. cbn [negb]. rewrite <- ES, E. reflexivity.
      * open_ufunc. rewrite same_grid_yes by auto. cbn [negb]. rewrite <- ES, E. reflexivity.
    + rename f into g. assert (Wg : gwf g) by (apply W; cbn; auto).
      destruct u; cbn [combines] in HC; try contradiction.
      5:{ destruct HC as ((e & He & ->) & -> & -> & ->). pose proof (finish_map_small (fun z => Cpowz z e) g (e * gspin g) Wg HE) as E.
          open_ufunc. rewrite (proj2 (int_of_iff _ _) He), E. reflexivity. }
      all: destruct HC as (-> & -> & Hl & HB & ES).
      all: exfalso; apply HE.
      1,2: destruct ES as [-> _]; exact (proj2 Wg).
      all: subst s; exact (proj2 Wg).
    + assert (Wg : gwf g) by (apply W; cbn; auto).
      destruct u; cbn [combines] in HC; try contradiction.
      all: destruct HC as (-> & -> & Hl & HB & ES).
      all: exfalso; apply HE.
      1,2: destruct ES as [-> _]; exact (proj2 Wg).
      all: subst s; try apply enough_opp; exact (proj2 Wg).
Qed.

Lemma C58_rejects :
  forall u args, inputs_ok u args -> some_grid args -> grids_wf args ->
  (if truth_valued u then bshape args = None else forall s nt np ld, ~ combines u args s nt np ld) ->
  exists e, grid_ufunc u m_call args None false = Err e /\ (e = TypeError \/ e = ValueError).
Proof.
  intros u args HI SG W HN. destruct (truth_valued u) eqn:TV.
  - destruct (found args SG) as (g & F). exists ValueError. split; [|auto]. unfold grid_ufunc, grid_array_ufunc. rewrite F.
    destruct (relation u) as [rel|] eqn:ER; [|destruct (predicate u) as [p|] eqn:EP].
    + destruct args as [|a [|b [|c l]]]; try (destruct u; discriminate). cbn [arg nth_error bind].
      cbn [bshape] in HN. rewrite !view_shape, HN. reflexivity.
    + destruct args as [|a [|b l]]; try (destruct u; discriminate).
    + destruct u; discriminate.
  - assert (O : u = u_other \/ exists n, inputs u = Some n) by (destruct u; first [left; reflexivity|right; eexists; reflexivity]). destruct O as [-> |[n En]].
    { exists TypeError. split; [|auto]. destruct (found args SG) as (g & F). unfold grid_ufunc, grid_array_ufunc. rewrite F. reflexivity. }
    unfold inputs_ok in HI. rewrite En in HI.
    destruct args as [|a [|b [|c l]]]; try (exfalso; destruct SG as (g & []); fail);
      try (exfalso; destruct u; cbn in En; try discriminate; injection En as <-; discriminate).
    + destruct a as [g|x]; [|exfalso; destruct SG as (g & [SG|[]]); discriminate].
      destruct u; cbn [inputs truth_valued] in *; try discriminate; try (injection En as <-; discriminate);
        try (exfalso; eapply HN; cbn [combines]; repeat split; fail).
      exists TypeError. split; [|auto]. open_ufunc.
      destruct (Z.eqb_spec (gspin g mod 2) 0) as [E|E]; [|reflexivity]. exfalso. eapply (HN (gspin g / 2)). cbn [combines]. repeat split.
      pose proof (Z.div_mod (gspin g) 2). lia.
    + destruct u; cbn [inputs truth_valued] in *; try discriminate; try (injection En as <-; discriminate); clear En HI.
      all: destruct a as [f|x], b as [g|y]; try (exfalso; destruct SG as (g & [SG|[SG|[]]]); discriminate).
      all: cbn [combines] in HN.
      all: try (assert (Wf : gwf f) by (apply W; cbn; auto)); try (assert (Wg : gwf g) by (apply W; cbn; auto)); clear W SG TV.
      all: open_ufunc.
      all: match goal with
        | |- context [int_of ?y] => destruct (int_of y) as [e|] eqn:EI; [|exists TypeError; cbn [bind]; auto];
            exfalso; eapply HN; split; [exists e; split; [apply int_of_iff; exact EI|reflexivity]|]; repeat split
        | |- context [same_grid ?f ?g] =>
            try (destruct (Z.eqb_spec (gspin f) (gspin g)) as [Es|Es]; [|exists ValueError; cbn [negb bind]; auto; fail]; cbn [negb]);
            (destruct (same_grid f g) eqn:SG; [|exists ValueError; cbn [negb bind]; auto]); cbn [negb];
            assert (SP : same_points f g) by (unfold same_grid in SG; apply andb_true_iff in SG; destruct SG as (A & B); apply Z.eqb_eq in A, B; split; auto);
            destruct (broadcast (glead f) (glead g)) as [ld|] eqn:HB;
            [exfalso; eapply HN; split; [exact SP|]; split; [reflexivity|]; split; [reflexivity|]; split; [reflexivity|]; eauto
            |exists ValueError; split; [|auto]; unfold finish; rewrite (op_grids_bad _ f g Wf Wg SP HB); reflexivity]
        | |- context [gcheck_broadcasting ?gg (sc_shape ?xx)] =>
            assert (CK : gcheck_broadcasting gg (sc_shape xx) = Err ValueError \/ gcheck_broadcasting gg (sc_shape xx) = Ok false
                   \/ exists ld, (length (sc_shape xx) <= length (glead gg))%nat /\ broadcast (glead gg) (sc_shape xx) = Some ld)
            by (rewrite gcheck_spec by auto; destruct (Nat.ltb_spec (length (glead gg)) (length (sc_shape xx))); [left; reflexivity|]; right;
                destruct (broadcast (glead gg) (sc_shape xx)) as [ld|]; [right; eauto|left; reflexivity]);
            try (destruct (negb (gspin gg =? 0) && np_any xx) eqn:AN; [exists TypeError; cbn [bind]; auto; fail|]);
            destruct CK as [CK|[CK|(ld & Hl & HB)]]; [rewrite CK; exists ValueError; cbn [bind]; auto|rewrite CK; exists TypeError; cbn [bind negb]; auto|exfalso];
            eapply HN; split; [reflexivity|]; split; [reflexivity|]; split; [exact Hl|]; split; [exact HB|]; 
            first [reflexivity|split; [reflexivity|]; destruct (Z.eqb_spec (gspin gg) 0) as [E0|E0]; [left; exact E0|right; apply np_any_false; exact AN]]
        | _ => exists TypeError; cbn [bind]; auto
        end.
Qed.

(** ** The [out=] argument *)
Lemma into_cases r o :
  (broadcast (gshape r) (gshape (out_view o)) = Some (gshape (out_view o)) ->
     exists a, into r (Some o) = Ok a /\ gshape a = gshape (out_view o) /\ holds (gshape r) (gval r) a)
  /\ (broadcast (gshape r) (gshape (out_view o)) <> Some (gshape (out_view o)) -> into r (Some o) = Err ValueError).
Proof.
  unfold into. split; intros H.
  - rewrite (broadcasts_to_of _ _ H). eexists. split; [reflexivity|]. split; [reflexivity|]. split; [exact H|]. reflexivity.
  - destruct (broadcasts_to (gshape r) (gshape (out_view o))) eqn:E; [|reflexivity]. exfalso. apply H. apply broadcasts_to_spec. exact E.
Qed.

(** The array that is computed has points in both directions, and spin weight zero if there is only one in either. *)
Definition thin_ok (ra : res garr) (s : Z) : Prop :=
  forall a, ra = Ok a -> exists np nt ld, gshape a = np :: nt :: ld /\ 1 <= nt /\ 1 <= np /\ (nt = 1 \/ np = 1 -> s = 0).
Lemma finish_wrap (ra : res garr) out s :
  (do r <- (do r <- finish ra out s; match r with RDecline => Ok RDecline | _ => Ok r end); match r with RDecline => Err TypeError | r => Ok r end)
  = finish ra out s.
Proof.
  unfold finish. destruct ra as [a|]; cbn [bind]; [|reflexivity]. destruct (into a out) as [a'|]; cbn [bind]; [|reflexivity].
  destruct (gconstruct a' s); reflexivity.
Qed.
Lemma thin_map F g k : gwf g -> thin_ok (Ok (nd_map F (gdata g))) (k * gspin g).
Proof.
  intros W a E. apply Ok_inj in E. subst a. exists (n_phi g), (n_theta g), (glead g). split; [exact (gwf_shape g W)|].
  destruct W as (_ & H1 & H2). split; [lia|]. split; [lia|]. intros H. assert (gspin g = 0) by lia. rewrite H0. apply Z.mul_0_r.
Qed.
Lemma thin_two op f g k k' : gwf f -> gwf g -> same_points f g -> thin_ok (nd_op op (gdata f) (gdata g)) (k * gspin f + k' * gspin g).
Proof.
  intros Wf Wg (E1 & E2) a E. unfold nd_op in E. rewrite (gwf_shape f Wf), (gwf_shape g Wg), <- E1, <- E2 in E. cbn [broadcast] in E.
  destruct (broadcast (glead f) (glead g)) as [ld|]; [|discriminate]. rewrite !Z.eqb_refl in E. apply Ok_inj in E. subst a.
  exists (n_phi f), (n_theta f), ld. split; [reflexivity|]. destruct Wf as (_ & H1 & H2), Wg as (_ & H3 & H4). split; [lia|]. split; [lia|].
  intros H. assert (gspin f = 0) by lia. assert (gspin g = 0) by lia. rewrite H0, H5. lia.
Qed.
Lemma thin_scal op g x k : gwf g -> thin_ok (nd_op op (gdata g) (newaxis2 x)) (k * gspin g) /\ thin_ok (nd_op op (newaxis2 x) (gdata g)) (k * gspin g).
Proof.
  intros W. pose proof W as (_ & H1 & H2).
  split; intros a E; unfold nd_op in E; rewrite ?(broadcast_comm (gshape (newaxis2 x))) in E; cbn [newaxis2 gshape] in E; rewrite (gwf_shape g W) in E;
    (destruct (broadcast (glead g) (sc_shape x)) as [ld|] eqn:HB;
     [rewrite (bc_new _ _ _ _ _ HB) in E|cbn [broadcast] in E; rewrite HB in E; discriminate]); apply Ok_inj in E; subst a;
    exists (n_phi g), (n_theta g), ld; (split; [reflexivity|]); (split; [lia|]); (split; [lia|]);
    intros H; assert (E0 : gspin g = 0) by lia; rewrite E0; apply Z.mul_0_r.
Qed.
Lemma thin_spin ra s s' : thin_ok ra s -> s = s' -> thin_ok ra s'.
Proof. intros H <-. exact H. Qed.

Lemma call_form u args : truth_valued u = false -> inputs_ok u args -> some_grid args -> grids_wf args ->
  (exists e, forall out, grid_ufunc u m_call args out false = Err e)
  \/ exists ra s, thin_ok ra s /\ forall out, grid_ufunc u m_call args out false = finish ra out s.
Proof.
  intros TV HI SG W.
  assert (O : u = u_other \/ exists n, inputs u = Some n) by (destruct u; first [left; reflexivity|right; eexists; reflexivity]). destruct O as [-> |[n En]].
  { left. exists TypeError. intros out. destruct (found args SG) as (g & F). unfold grid_ufunc, grid_array_ufunc. rewrite F. reflexivity. }
  unfold inputs_ok in HI. rewrite En in HI.
  destruct args as [|a [|b [|c l]]]; try (exfalso; destruct SG as (g & []); fail);
    try (exfalso; destruct u; cbn in En; try discriminate; injection En as <-; discriminate).
  - destruct a as [g|x]; [|exfalso; destruct SG as (g & [SG|[]]); discriminate]. assert (Wg : gwf g) by (apply W; cbn; auto).
    destruct u; cbn [inputs truth_valued] in *; try discriminate; try (injection En as <-; discriminate); clear En HI.
    + right. exists (Ok (gdata g)), (gspin g). split; [|intros out; open_ufunc; apply finish_wrap]. rewrite nd_map_id. eapply thin_spin; [exact (thin_map _ g 1 Wg)|lia].
    + right. eexists _, _. split; [|intros out; open_ufunc; apply finish_wrap]. eapply thin_spin; [exact (thin_map _ g 1 Wg)|lia].
    + right. eexists _, _. split; [|intros out; open_ufunc; apply finish_wrap]. eapply thin_spin; [exact (thin_map _ g (-1) Wg)|lia].
    + right. eexists _, _. split; [|intros out; open_ufunc; apply finish_wrap]. eapply thin_spin; [exact (thin_map _ g 0 Wg)|lia].
    + destruct (Z.eqb_spec (gspin g mod 2) 0) as [E|E].
      * right. exists (Ok (nd_map Csqrt (gdata g))), (gspin g / 2). split.
        -- intros a Ea. destruct (thin_map Csqrt g 1 Wg a Ea) as (np & nt & ld & H1 & H2 & H3 & H4). exists np, nt, ld. repeat split; auto.
           intros H. specialize (H4 H). replace (gspin g) with 0 by lia. reflexivity.
        -- intros out. open_ufunc. rewrite E. cbn [Z.eqb negb]. apply finish_wrap.
      * left. exists TypeError. intros out. open_ufunc. destruct (Z.eqb_spec (gspin g mod 2) 0); [contradiction|]. reflexivity.
    + right. eexists _, _. split; [|intros out; open_ufunc; apply finish_wrap]. eapply thin_spin; [exact (thin_map _ g 2 Wg)|lia].
    + right. eexists _, _. split; [|intros out; open_ufunc; apply finish_wrap]. eapply thin_spin; [exact (thin_map _ g (-1) Wg)|lia].
  - destruct u; cbn [inputs truth_valued] in *; try discriminate; try (injection En as <-; discriminate); clear En HI.
    all: destruct a as [f|x], b as [g|y]; try (exfalso; destruct SG as (g & [SG|[SG|[]]]); discriminate).
    all: try (assert (Wf : gwf f) by (apply W; cbn; auto)); try (assert (Wg : gwf g) by (apply W; cbn; auto)); clear W SG TV.
    all: open_ufunc.
    all: match goal with
        | |- context [int_of ?y] => destruct (int_of y) as [e|] eqn:EI; [|left; exists TypeError; cbn [bind]; auto];
            right; eexists _, _; (split; [|intros out; apply finish_wrap]); apply thin_map; assumption
        | |- context [same_grid ?f ?g] =>
            try (destruct (Z.eqb_spec (gspin f) (gspin g)) as [Es|Es]; [|left; exists ValueError; cbn [negb bind]; auto; fail]; cbn [negb]);
            (destruct (same_grid f g) eqn:SG; [|left; exists ValueError; cbn [negb bind]; auto]); cbn [negb];
            assert (SP : same_points f g) by (unfold same_grid in SG; apply andb_true_iff in SG; destruct SG as (A & B); apply Z.eqb_eq in A, B; split; auto);
            right; eexists _, _; (split; [|intros out; apply finish_wrap]);
            first [eapply thin_spin; [exact (thin_two _ f g 1 1 Wf Wg SP)|lia]|eapply thin_spin; [exact (thin_two _ f g 1 (-1) Wf Wg SP)|lia]
                  |eapply thin_spin; [exact (thin_two _ f g 1 0 Wf Wg SP)|lia]]
        | |- context [gcheck_broadcasting ?gg (sc_shape ?xx)] =>
            try (destruct (negb (gspin gg =? 0) && np_any xx) eqn:AN; [left; exists TypeError; cbn [bind]; auto; fail|]);
            destruct (gcheck_broadcasting gg (sc_shape xx)) as [[|]|e]; cbn [bind negb];
            [right|left; exists TypeError; auto|left; exists e; auto];
            eexists _, _; (split; [|intros out; apply finish_wrap]);
            first [eapply thin_spin; [exact (proj1 (thin_scal _ gg xx 1 ltac:(assumption)))|lia]|eapply thin_spin; [exact (proj2 (thin_scal _ gg xx 1 ltac:(assumption)))|lia]
                  |eapply thin_spin; [exact (proj2 (thin_scal _ gg xx (-1) ltac:(assumption)))|lia]]
        | _ => left; exists TypeError; cbn [bind]; auto
        end.
Qed.

Lemma construct_cases a s : (exists np nt ld, gshape a = np :: nt :: ld /\ enough s nt np /\ gconstruct a s = Ok (mkgrid a s))
  \/ (exists np nt ld, gshape a = np :: nt :: ld /\ ~ enough s nt np /\ gconstruct a s = Err NameError) \/ (length (gshape a) < 2)%nat /\ gconstruct a s = Err ValueError.
Proof.
  destruct (gshape a) as [|np [|nt ld]] eqn:E.
  - right. right. split; [cbn; lia|]. unfold gconstruct, Grid_new. rewrite E. reflexivity.
  - right. right. split; [cbn; lia|]. unfold gconstruct, Grid_new. rewrite E. reflexivity.
  - assert (D : enough s nt np \/ ~ enough s nt np) by (unfold enough; lia). destruct D as [D|D].
    + left. exists np, nt, ld. split; [reflexivity|]. split; [exact D|]. eapply gconstruct_ok; eauto.
    + right. left. exists np, nt, ld. split; [reflexivity|]. split; [exact D|]. eapply gconstruct_small; eauto.
Qed.

Lemma fits_dec sh o : fits sh o \/ ~ fits sh o.
Proof. unfold fits. destruct (broadcast sh (gshape (out_view o))) as [c|]; [|right; discriminate]. destruct (list_eq_dec Z.eq_dec c (gshape (out_view o))) as [->|N]; [left; reflexivity|right; congruence]. Qed.
Lemma out_enough np nt ld sh s : broadcast (np :: nt :: ld) sh = Some sh -> Forall (fun n => 0 < n) sh -> 1 <= nt -> 1 <= np -> (nt = 1 \/ np = 1 -> s = 0) ->
  exists np' nt' ld', sh = np' :: nt' :: ld' /\ (enough s nt np <-> enough s nt' np').
Proof.
  intros HB HP H1 H2 HT. destruct sh as [|np' [|nt' ld']]; try (cbn in HB; discriminate).
  { cbn [broadcast] in HB. destruct (np =? np'); [discriminate|]. destruct (np =? 1); [discriminate|]. destruct (np' =? 1); discriminate. }
  destruct (broadcast_cons_inv _ _ _ _ HB) as [HB' D]. destruct (broadcast_cons_inv _ _ _ _ HB') as [_ D'].
  inversion HP as [|? ? P1 HP']; subst. inversion HP' as [|? ? P2 _]; subst. exists np', nt', ld'. split; [reflexivity|].
  unfold enough. destruct (Z.eq_dec np np'), (Z.eq_dec nt nt'); subst; [reflexivity| | |]; rewrite HT by lia; cbn [Z.abs]; lia.
Qed.

Lemma C58_out :
  forall u args o, inputs_ok u args -> some_grid args -> grids_wf args -> Forall (fun n => 0 < n) (gshape (out_view o)) ->
  match grid_ufunc u m_call args None false with
  | Ok (RGrid r) =>
      (fits (gshape (gdata r)) o ->
         exists r', grid_ufunc u m_call args (Some o) false = Ok (RGrid r') /\ gwf r' /\ gspin r' = gspin r
           /\ gshape (gdata r') = gshape (out_view o) /\ holds (gshape (gdata r)) (gval (gdata r)) (gdata r'))
      /\ (~ fits (gshape (gdata r)) o -> grid_ufunc u m_call args (Some o) false = Err ValueError)
  | Ok (RBool sh b) =>
      (fits sh o ->
         exists a, grid_ufunc u m_call args (Some o) false = Ok (RArr a)
           /\ gshape a = gshape (out_view o) /\ holds sh (fun idx => if b idx then RtoC 1 else RtoC 0) a)
      /\ (~ fits sh o -> grid_ufunc u m_call args (Some o) false = Err ValueError)
  | Ok _ => False
  | Err _ => exists e, grid_ufunc u m_call args (Some o) false = Err e
  end.
Proof.
  intros u args o HI SG W HP. destruct (truth_valued u) eqn:TV.
  - destruct (found args SG) as (g & F). unfold grid_ufunc, grid_array_ufunc. rewrite F.
    assert (K : forall sh b, match (do r <- finish_bool None sh b; match r with RDecline => Err TypeError | r => Ok r end) with
      | Ok (RBool sh b) =>
      (fits sh o ->
         exists a, (do r <- finish_bool (Some o) sh b; match r with RDecline => Err TypeError | r => Ok r end) = Ok (RArr a)
           /\ gshape a = gshape (out_view o) /\ holds sh (fun idx => if b idx then RtoC 1 else RtoC 0) a)
      /\ (~ fits sh o -> (do r <- finish_bool (Some o) sh b; match r with RDecline => Err TypeError | r => Ok r end) = Err ValueError)
      | _ => False end).
    { intros sh b. cbn [finish_bool bind]. destruct (into_cases (mkgarr sh (fun idx => if b idx then RtoC 1 else RtoC 0)) o) as (Y & N). cbn [gshape gval] in *. split.
      - intros Hf. destruct (Y Hf) as (a & -> & E & H). cbn [bind]. eauto.
      - intros Hf. rewrite (N Hf). reflexivity. }
    destruct (relation u) as [rel|] eqn:ER; [|destruct (predicate u) as [p|] eqn:EP].
    + destruct args as [|a [|b [|c l]]]; try (destruct u; discriminate). cbn [arg nth_error bind].
      destruct (broadcast (gshape (view a)) (gshape (view b))) as [sh|]; [apply K|]. exists ValueError. reflexivity.
    + destruct args as [|a [|b l]]; try (destruct u; discriminate). cbn [arg nth_error bind]. apply K.
    + destruct u; discriminate.
  - destruct (call_form u args TV HI SG W) as [(e & E)|(ra & s & T & E)]; rewrite !E; [exists e; reflexivity|].
    unfold finish. destruct ra as [a|e]; cbn [bind into]; [|exists e; reflexivity].
    destruct (T a eq_refl) as (np & nt & ld & Ea & P1 & P2 & HT). destruct (into_cases a o) as (Y & N).
    destruct (construct_cases a s) as [(np' & nt' & ld' & Ea' & HE & Ec)|[(np' & nt' & ld' & Ea' & HE & Ec)|(HL & Ec)]]; rewrite Ec; cbn [bind].
    + cbn [gdata]. split.
      * intros Hf. destruct (Y Hf) as (a' & Ei & Es & H). unfold into in Ei. rewrite Ei. cbn [bind].
        rewrite Ea in Ea'. injection Ea' as <- <- <-. unfold fits in Hf. rewrite Ea in Hf.
        destruct (out_enough np nt ld _ s Hf HP P1 P2 HT) as (np' & nt' & ld' & Eo & HEE).
        rewrite Eo in Es. erewrite gconstruct_ok; [|exact Es|apply HEE; exact HE]. cbn [bind]. eexists. split; [reflexivity|]. split.
        { unfold gwf, n_theta, n_phi. cbn [gdata gspin]. rewrite Es. cbn [length nth]. split; [lia|]. apply HEE. exact HE. }
        split; [reflexivity|]. cbn [gdata]. split; [congruence|]. rewrite <- Ea in *. exact H.
      * intros Hf. specialize (N Hf). unfold into in N. rewrite N. reflexivity.
    + destruct (fits_dec (gshape a) o) as [Hf|Hf].
      * destruct (Y Hf) as (a' & Ei & Es & H). unfold into in Ei. rewrite Ei. cbn [bind].
        rewrite Ea in Ea'. injection Ea' as <- <- <-. unfold fits in Hf. rewrite Ea in Hf.
        destruct (out_enough np nt ld _ s Hf HP P1 P2 HT) as (np' & nt' & ld' & Eo & HEE).
        rewrite Eo in Es. erewrite gconstruct_small; [|exact Es|rewrite <- HEE; exact HE]. eexists. reflexivity.
      * specialize (N Hf). unfold into in N. rewrite N. exists ValueError. reflexivity.
    + rewrite Ea in HL. cbn in HL. lia.
Qed.

(** A Grid as [out] does not make other inputs acceptable. *)
Lemma C58_out_only :
  forall u args g, inputs_ok u args -> ~ some_grid args -> truth_valued u = false -> u <> u_positive -> u <> u_negative ->
  grid_ufunc u m_call args (Some (OutGrid g)) false = Err TypeError.
Proof.
  intros u args g HI NG TV N1 N2. unfold grid_ufunc.
  assert (F : find (fun x => match x with OG _ => true | OS _ => false end) args = None).
  { clear HI. induction args as [|[a|x] l IH]; [reflexivity| |].
    - exfalso. apply NG. exists a. left. reflexivity.
    - cbn. apply IH. intros (a & H). apply NG. exists a. right. exact H. }
  rewrite F. unfold inputs_ok in HI.
  assert (O : forall a, In a args -> exists x, a = OS x).
  { intros [a|x] H; [exfalso; apply NG; exists a; exact H|eauto]. }
  destruct u; cbn [truth_valued inputs] in *; try discriminate; try congruence; try reflexivity.
  all: destruct args as [|a [|b [|c l]]]; try discriminate.
  all: destruct (O a ltac:(cbn; auto)) as (x & ->); try (destruct (O b ltac:(cbn; auto)) as (y & ->)); reflexivity.
Qed.

(** ** Methods and keywords *)
Lemma C58_methods :
  forall u args out, truth_valued u = false ->
  (inputs u = Some 1%nat -> grid_ufunc u m_rest args out false = Err ValueError)
  /\ (inputs u <> Some 1%nat -> grid_ufunc u m_rest args out false = grid_ufunc u m_call args out false)
  /\ (forall g, inputs u = Some 2%nat -> exists e, grid_ufunc u m_rest [OG g] out false = Err e)
  /\ match grid_ufunc u m_call args out false with
     | Ok _ => grid_ufunc u m_at args out false = Ok RNone
     | Err e => grid_ufunc u m_at args out false = Err e
     end.
Proof.
  intros u args out TV. split; [|split; [|split]].
  - intros H. destruct u; try discriminate; reflexivity.
  - intros H. destruct u; try discriminate; try (exfalso; apply H; reflexivity); reflexivity.
  - intros g H. destruct u; try discriminate; open_ufunc; eexists; reflexivity.
  - unfold grid_ufunc. cbn [andb].
    destruct (match find _ args with Some (OG g) => Some g | _ => match out with Some (OutGrid g) => Some g | _ => None end end) as [self|]; [|reflexivity].
    unfold grid_array_ufunc. destruct u; try discriminate; cbn [relation predicate bind];
    match goal with |- match (do r <- (do r <- ?x; _); _) with Ok _ => _ | Err _ => _ end => destruct x as [[| | | | |]|]; cbn [bind]; reflexivity | _ => reflexivity end.
Qed.
Lemma C58_keywords :
  forall u m args out, truth_valued u = false ->
  exists e, grid_ufunc u m args out true = Err e
    /\ (e = NotImplementedError \/ e = TypeError \/ e = ValueError /\ m = m_rest /\ inputs u = Some 1%nat).
Proof.
  intros u m args out TV. unfold grid_ufunc.
  destruct (match m with m_rest => one_input u | _ => false end) eqn:HO.
  { exists ValueError. split; [reflexivity|]. right. right. destruct m; try discriminate. destruct u; try discriminate; auto. }
  destruct (match find _ args with Some (OG g) => Some g | _ => match out with Some (OutGrid g) => Some g | _ => None end end) as [self|]; [|eauto].
  unfold grid_array_ufunc. destruct u; try discriminate; cbn [relation predicate bind]; eauto.
Qed.

(** np.multiply.outer(f, g) is the product at the same points, np.add.reduceat(g, [0, 1]) adds the indices. *)
Definition ramp (s : Z) (n : Z) : grid := mkgrid (mkgarr [3; 3; n] (fun idx => RtoC (IZR (1 + nth 2 idx 0)))) s.
Lemma C58_outer_refuted :
  exists f g r, gwf f /\ gwf g /\ grid_ufunc u_multiply m_rest [OG f; OG g] None false = Ok (RGrid r)
    /\ gshape (gdata r) <> gshape (gdata g) ++ gshape (gdata f).
Proof.
  exists (ramp 0 2), (ramp 0 2). eexists. assert (W : gwf (ramp 0 2)) by (split; [cbn; lia|split; cbn; lia]).
  split; [exact W|]. split; [exact W|]. split; [reflexivity|]. cbn. discriminate.
Qed.
Lemma C58_reduceat_refuted :
  exists g r, gwf g /\ grid_ufunc u_add m_rest [OG g; OS (mkscalars [2] (fun idx => RtoC (IZR (nth 0 idx 0))))] None false = Ok (RGrid r)
    /\ (forall i j, value g [1] i j = RtoC 2 /\ value r [1] i j = RtoC 3).
Proof.
  exists (ramp 0 2). eexists. split; [split; [cbn; lia|split; cbn; lia]|]. split; [reflexivity|].
  intros i j. split; [reflexivity|]. unfold value. cbn. unfold Cplus, RtoC. cbn. f_equal; ring.
Qed.
