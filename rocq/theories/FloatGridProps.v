(** Grid objects in double precision: proofs. *)
Require Import ZArith Lia List Reals Lra Bool Permutation.
From Coquelicot Require Import Complex.
From Verif Require Import Base BaseProofs CBase ModesModel ModesSpec ModesProofs ModesProofs2 ModesProofs3 ModesProps2 UfuncProofs GridModel GridSpec GridProps GridUfuncSpec
  GridUfuncProps FloatIndexModel FloatPowersModel FloatPowersSpec FloatConvModel FloatConvSpec FloatModesModel FloatModesSpec FloatModesProofs4 FloatGridModel FloatGridSpec FloatGridProofs.
Import ListNotations.
Open Scope Z_scope.
Set Bullet Behavior "Strict Subproofs".

(** ** The same outcome *)
Definition same_arr (ra rb : res garr) : Prop :=
  match ra, rb with Err e, Err e' => e' = e | Ok a, Ok b => gshape b = gshape a | _, _ => False end.
Lemma same_outcome_refl r : same_outcome r r.
Proof. destruct r as [[]|]; cbn; auto. Qed.
Lemma same_map f F a : same_arr (Ok (nd_map f a)) (Ok (nd_map64 F a)).
Proof. reflexivity. Qed.
Lemma same_op op op' a b : same_arr (nd_op op a b) (nd_op64 op' a b).
Proof. unfold nd_op, nd_op64. destruct (broadcast _ _); reflexivity. Qed.
Lemma into_same a b out : gshape b = gshape a -> same_arr (into a out) (into b out).
Proof. intros H. unfold into. destruct out as [o|]; [|exact H]. rewrite H. destruct (broadcasts_to _ _); reflexivity. Qed.
Lemma construct_same a b s : gshape b = gshape a ->
  match gconstruct a s, gconstruct b s with
  | Err e, Err e' => e' = e
  | Ok g, Ok g' => g = mkgrid a s /\ g' = mkgrid b s
  | _, _ => False
  end.
Proof.
  intros H. unfold gconstruct, Grid_new. cbn [bind]. rewrite H. destruct (gshape a) as [|x [|y l]]; try reflexivity. cbn [orelse].
  destruct ((y <? 2 * Z.abs s + 1) || (x <? 2 * Z.abs s + 1)); [reflexivity|split; reflexivity].
Qed.
Lemma finish_same ra rb out s : same_arr ra rb -> same_outcome (finish ra out s) (finish rb out s).
Proof.
  unfold finish. destruct ra as [a|e], rb as [b|e']; cbn [same_arr bind]; try contradiction; intros H; [|exact H].
  pose proof (into_same a b out H) as HI. destruct (into a out) as [a'|e], (into b out) as [b'|e']; cbn [same_arr bind] in *; try contradiction; [|exact HI].
  pose proof (construct_same a' b' s HI) as HC. destruct (gconstruct a' s) as [g|e], (gconstruct b' s) as [g'|e']; cbn [bind]; try contradiction; [|exact HC].
  destruct HC as (-> & ->). cbn. split; [reflexivity|exact HI].
Qed.
(** What [grid_array_ufunc] and [grid_ufunc] do with the result *)
Lemma same_method m r r' : same_outcome r r' ->
  same_outcome (do r <- r; match r with RDecline => Ok RDecline | _ => match m with m_at => Ok RNone | _ => Ok r end end)
               (do r <- r'; match r with RDecline => Ok RDecline | _ => match m with m_at => Ok RNone | _ => Ok r end end).
Proof.
  destruct r as [x|e], r' as [x'|e']; cbn [same_outcome bind]; try (destruct x; contradiction); try contradiction; [|auto].
  destruct x; try (intros ->; apply same_outcome_refl). destruct x'; try discriminate. intros H. destruct m; cbn; auto.
Qed.
Lemma same_declined r r' : same_outcome r r' ->
  same_outcome (do r <- r; match r with RDecline => Err TypeError | r => Ok r end) (do r <- r'; match r with RDecline => Err TypeError | r => Ok r end).
Proof.
  destruct r as [x|e], r' as [x'|e']; cbn [same_outcome bind]; try (destruct x; contradiction); try contradiction; [|auto].
  destruct x; try (intros ->; apply same_outcome_refl). destruct x'; try discriminate. intros H. exact H.
Qed.
Lemma array_ufunc_same lib w self u m args out kwargs :
  same_outcome (grid_array_ufunc self u m args out kwargs) (grid_array_ufunc64 lib w self u m args out kwargs).
Proof.
  unfold grid_array_ufunc, grid_array_ufunc64.
  destruct (relation u) as [rel|] eqn:ER; [apply same_outcome_refl|]. destruct (predicate u) as [p|] eqn:EP; [apply same_outcome_refl|].
  destruct u; try discriminate; try apply same_outcome_refl.
  all: destruct kwargs; [apply same_outcome_refl|]; apply same_method.
  all: unfold arg; try apply same_outcome_refl.
  all: try (destruct (nth_error args 0) as [a|]; cbn [bind]; [|reflexivity]).
  all: try (destruct a as [g|x]; [|reflexivity]; first [apply finish_same; reflexivity|idtac]).
  all: try (destruct (negb (gspin g mod 2 =? 0)); [reflexivity|]; apply finish_same; reflexivity).
  all: try (destruct (nth_error args 1) as [b|]; cbn [bind]; [|reflexivity]).
  all: try (destruct (int_of b) as [e|]; [|reflexivity]; apply finish_same; reflexivity).
  all: destruct a as [f|x], b as [g|y]; try reflexivity.
  all: repeat match goal with
       | |- context [if ?b then _ else _] => destruct b; try reflexivity
       | |- context [do ok <- gcheck_broadcasting ?g ?s; _] => destruct (gcheck_broadcasting g s) as [[|]|]; cbn [bind negb]; try reflexivity
       end.
  all: apply finish_same, same_op.
Qed.
Lemma C67_outcome :
  forall lib w u m args out kwargs, same_outcome (grid_ufunc u m args out kwargs) (grid_ufunc64 lib w u m args out kwargs).
Proof.
  intros lib w u m args out kwargs. unfold grid_ufunc, grid_ufunc64.
  destruct (match m with m_rest => one_input u | _ => false end); [reflexivity|].
  destruct (match find _ args with Some (OG g) => Some g | _ => _ end) as [self|]; [|reflexivity].
  apply same_declined, array_ufunc_same.
Qed.

(** ** Accuracy *)
Lemma finish_map64 F g s : gwf g -> enough s (n_theta g) (n_phi g) ->
  exists r, finish (Ok (nd_map64 F (gdata g))) None s = Ok (RGrid r) /\ gwf r /\ has_shape r s (n_theta g) (n_phi g) (glead g)
    /\ forall l i j, value r l i j = F (j :: i :: l) (value g l i j).
Proof.
  intros W HS. unfold finish, into. cbn [bind]. rewrite (gconstruct_ok (nd_map64 F (gdata g)) s (n_theta g) (n_phi g) (glead g) (gwf_shape g W) HS). cbn [bind].
  eexists. split; [reflexivity|]. split; [|split; [split|]].
  - destruct W as (L & _). split; [exact L|exact HS].
  - reflexivity.
  - exact (gwf_shape g W).
  - reflexivity.
Qed.
Lemma finish_op64 op a b s nt np ld (P : list Z -> Z -> Z -> C) :
  broadcast (gshape a) (gshape b) = Some (np :: nt :: ld) ->
  (forall l i j, at_index ld l -> 0 <= i < nt -> 0 <= j < np ->
     P l i j = op (j :: i :: l) (gval a (bidx (gshape a) (j :: i :: l))) (gval b (bidx (gshape b) (j :: i :: l)))) ->
  enough s nt np -> exists r, finish (nd_op64 op a b) None s = Ok (RGrid r) /\ gwf r /\ has_shape r s nt np ld
     /\ forall l i j, at_index ld l -> 0 <= i < nt -> 0 <= j < np -> value r l i j = P l i j.
Proof.
  intros HB HP HS. unfold finish, into, nd_op64. rewrite HB. cbn [bind].
  erewrite gconstruct_ok; [|reflexivity|exact HS]. cbn [bind]. eexists. split; [reflexivity|]. split; [|split].
  - unfold gwf, n_theta, n_phi. cbn [gdata gspin gshape length nth]. split; [lia|exact HS].
  - split; reflexivity.
  - intros l i j Hl Hi Hj. rewrite HP by auto. reflexivity.
Qed.
Lemma finish_two64 op f g s ld : gwf f -> gwf g -> same_points f g -> broadcast (glead f) (glead g) = Some ld ->
  enough s (n_theta f) (n_phi f) -> exists r, finish (nd_op64 op (gdata f) (gdata g)) None s = Ok (RGrid r) /\ gwf r /\ has_shape r s (n_theta f) (n_phi f) ld
     /\ forall l i j, at_index ld l -> 0 <= i < n_theta f -> 0 <= j < n_phi f ->
          value r l i j = op (j :: i :: l) (at_point (OG f) l i j) (at_point (OG g) l i j).
Proof.
  intros Wf Wg (E1 & E2) HB. apply finish_op64.
  - rewrite (gwf_shape f Wf), (gwf_shape g Wg), <- E1, <- E2. apply bc_points. exact HB.
  - intros l i j Hl Hi Hj. rewrite (gwf_shape f Wf), (gwf_shape g Wg), !bidx_pts by (rewrite <- ?E1, <- ?E2; auto). reflexivity.
Qed.
Lemma finish_scal64 op g x s ld : gwf g -> broadcast (glead g) (sc_shape x) = Some ld ->
  enough s (n_theta g) (n_phi g) -> exists r, finish (nd_op64 op (gdata g) (newaxis2 x)) None s = Ok (RGrid r) /\ gwf r /\ has_shape r s (n_theta g) (n_phi g) ld
     /\ forall l i j, at_index ld l -> 0 <= i < n_theta g -> 0 <= j < n_phi g ->
          value r l i j = op (j :: i :: l) (at_point (OG g) l i j) (at_point (OS x) l i j).
Proof.
  intros W HB. apply finish_op64.
  - cbn [newaxis2 gshape]. rewrite (gwf_shape g W). apply bc_new. exact HB.
  - intros l i j Hl Hi Hj. cbn [newaxis2 gshape gval]. rewrite (gwf_shape g W), bidx_new, bidx_pts by auto. reflexivity.
Qed.
Lemma finish_scal64' op g x s ld : gwf g -> broadcast (glead g) (sc_shape x) = Some ld ->
  enough s (n_theta g) (n_phi g) -> exists r, finish (nd_op64 op (newaxis2 x) (gdata g)) None s = Ok (RGrid r) /\ gwf r /\ has_shape r s (n_theta g) (n_phi g) ld
     /\ forall l i j, at_index ld l -> 0 <= i < n_theta g -> 0 <= j < n_phi g ->
          value r l i j = op (j :: i :: l) (at_point (OS x) l i j) (at_point (OG g) l i j).
Proof.
  intros W HB. apply finish_op64.
  - cbn [newaxis2 gshape]. rewrite (gwf_shape g W), broadcast_comm. apply bc_new. exact HB.
  - intros l i j Hl Hi Hj. cbn [newaxis2 gshape gval]. rewrite (gwf_shape g W), bidx_new, bidx_pts by auto. reflexivity.
Qed.

Ltac open_ufunc64 := unfold grid_ufunc64, grid_array_ufunc64; cbn [find relation predicate arg nth_error bind].
Lemma C67_accurate :
  forall lib w u args s nt np ld, good_hypot (l_hypot lib) -> good_csqrt (l_csqrt lib) -> good_way w ->
  grids_wf args -> combines u args s nt np ld -> enough s nt np ->
  exists r, grid_ufunc64 lib w u m_call args None false = Ok (RGrid r) /\ gwf r /\ has_shape r s nt np ld
    /\ forall l i j, at_index ld l -> 0 <= i < nt -> 0 <= j < np -> near u args l i j (value r l i j).
Proof.
  intros lib w u args s nt np ld GH GS (GM & GP) W HC HE.
  assert (K : forall r, grid_ufunc64 lib w u m_call args None false = Ok (RGrid r) -> gwf r -> has_shape r s nt np ld ->
     (forall l i j, at_index ld l -> 0 <= i < nt -> 0 <= j < np -> near u args l i j (value r l i j)) ->
     exists r, grid_ufunc64 lib w u m_call args None false = Ok (RGrid r) /\ gwf r /\ has_shape r s nt np ld
       /\ forall l i j, at_index ld l -> 0 <= i < nt -> 0 <= j < np -> near u args l i j (value r l i j)).
  { intros r E Wr Hs HP. exists r. auto. }
  destruct args as [|a [|b [|c l]]]; [destruct u; cbn in HC; contradiction| | |exfalso; destruct u, a; cbn in HC; try contradiction; destruct b; contradiction].
  + destruct a as [g|x]; [|destruct u; cbn in HC; contradiction]. assert (Wg : gwf g) by (apply W; cbn; auto).
    destruct u; cbn [combines] in HC; try contradiction; destruct HC as (ES & -> & -> & ->).
    all: match goal with |- context [grid_ufunc64 ?lib ?w ?u m_call] =>
      let F := match u with u_positive => constr:(fun (_ : list Z) (z : C) => z) | u_negative => constr:(fun _ : list Z => Copp) | u_conjugate => constr:(fun _ : list Z => Cconj)
               | u_absolute => constr:(fun _ : list Z => cabs64 lib) | u_square => constr:(fun idx z => cmul64 (w_mul w idx) z z) | u_reciprocal => constr:(fun idx => creciprocal64 (w_rec w idx)) | u_sqrt => constr:(fun _ : list Z => l_csqrt lib) end in
      destruct (finish_map64 F g s Wg HE) as (r & E & Wr & Hs & HV) end.
    all: apply (K r); [|exact Wr|exact Hs|intros l i j Hl Hi Hj; rewrite HV; cbn [near at_point]; rewrite ?(bidx_self _ l Hl)].
    all: try (open_ufunc64; subst s; first [rewrite E|rewrite nd_map_id; exact (f_equal (fun r => do r <- (do r <- r; match r with RDecline => Ok RDecline | _ => Ok r end); match r with RDecline => Err TypeError | r => Ok r end) E)|exact (f_equal (fun r => do r <- (do r <- r; match r with RDecline => Ok RDecline | _ => Ok r end); match r with RDecline => Err TypeError | r => Ok r end) E)]; reflexivity).
    all: try reflexivity; try (apply cmul64_err; apply GM); try (intros HR; apply cdiv64_err; exact HR).
    * rewrite Cplus_comm. apply Cplus_opp_r.
    * split; [reflexivity|apply GH].
    * open_ufunc64. replace (gspin g mod 2 =? 0) with true by (rewrite <- ES, Z.mul_comm, Z.mod_mul by lia; reflexivity).
      replace (gspin g / 2) with s by (rewrite <- ES, Z.mul_comm, Z.div_mul by lia; reflexivity). cbn [negb]. rewrite E. reflexivity.
    * assert (PR : principal_root (value g l i j) (Csqrt (value g l i j))) by (split; [apply Csqrt_sqr|apply csqrt_principal]).
      exists (Csqrt (value g l i j)). split; [exact PR|]. apply GS. exact PR.
    * open_ufunc64. rewrite (Z.mul_comm (gspin g) 2), <- ES, E. reflexivity.
    * apply creciprocal64_err.
  + destruct a as [f|x], b as [g|y]; try (destruct u; cbn in HC; contradiction).
    * assert (Wf : gwf f) by (apply W; cbn; auto). assert (Wg : gwf g) by (apply W; cbn; auto).
      destruct u; cbn [combines] in HC; try contradiction.
      5:{ destruct HC as ((e & He & ->) & -> & -> & ->). destruct (finish_map64 (fun idx z => cpow64 lib (w_pow w idx) (w_div w idx) z e) f (e * gspin f) Wf HE) as (r & E & Wr & Hs & HV).
          apply (K r); [|exact Wr|exact Hs|].
          - open_ufunc64. rewrite (proj2 (int_of_iff _ _) He), E. reflexivity.
          - intros l i j Hl Hi Hj. rewrite HV. cbn [near at_point]. rewrite (bidx_self _ l Hl). intros e' He'. rewrite (exponent_unique _ _ _ He' He). apply cpow64_err. apply GP. }
      all: destruct HC as (SP & -> & -> & HB & ES).
      all: match goal with |- context [grid_ufunc64 ?lib ?w ?u m_call] =>
        let F := match u with u_add => constr:(fun _ : list Z => cadd64) | u_subtract => constr:(fun _ : list Z => csub64) | u_multiply => constr:(fun idx => cmul64 (w_mul w idx)) | u_divide => constr:(fun idx => cdiv64 (w_div w idx)) end in
        destruct ((finish_two64 F f g s ld Wf Wg SP HB HE)) as (r & E & Wr & Hs & HV) end.
      all: apply (K r); [|exact Wr|exact Hs|intros l i j Hl Hi Hj; rewrite HV by auto; cbn [near]].
      all: try reflexivity; try (apply cmul64_err; apply GM); try (intros HR; apply cdiv64_err; exact HR).
      -- open_ufunc64. destruct ES as [-> ES]. rewrite <- ES, Z.eqb_refl, same_grid_yes by auto. cbn [negb]. rewrite E. reflexivity.
      -- open_ufunc64. destruct ES as [-> ES]. rewrite <- ES, Z.eqb_refl, same_grid_yes by auto. cbn [negb]. rewrite E. reflexivity.
      -- open_ufunc64. rewrite same_grid_yes by auto. cbn [negb]. rewrite <- ES, E. reflexivity.
      -- open_ufunc64. rewrite same_grid_yes by auto. cbn [negb]. rewrite <- ES, E. reflexivity.
    * rename f into g. assert (Wg : gwf g) by (apply W; cbn; auto).
      destruct u; cbn [combines] in HC; try contradiction.
      5:{ destruct HC as ((e & He & ->) & -> & -> & ->). destruct (finish_map64 (fun idx z => cpow64 lib (w_pow w idx) (w_div w idx) z e) g (e * gspin g) Wg HE) as (r & E & Wr & Hs & HV).
          apply (K r); [|exact Wr|exact Hs|].
          - open_ufunc64. rewrite (proj2 (int_of_iff _ _) He), E. reflexivity.
          - intros l i j Hl Hi Hj. rewrite HV. cbn [near at_point]. rewrite (bidx_self _ l Hl). intros e' He'. rewrite (exponent_unique _ _ _ He' He). apply cpow64_err. apply GP. }
      all: destruct HC as (-> & -> & Hl & HB & ES).
      all: pose proof (gcheck_ok g y ld Wg Hl HB) as CK.
      all: match goal with |- context [grid_ufunc64 ?lib ?w ?u m_call] =>
        let F := match u with u_add => constr:(fun _ : list Z => cadd64) | u_subtract => constr:(fun _ : list Z => csub64) | u_multiply => constr:(fun idx => cmul64 (w_mul w idx)) | u_divide => constr:(fun idx => cdiv64 (w_div w idx)) end in
        destruct ((finish_scal64 F g y s ld Wg HB HE)) as (r & E & Wr & Hs & HV) end.
      all: apply (K r); [|exact Wr|exact Hs|intros l i j Hl' Hi Hj; rewrite HV by auto; cbn [near]].
      all: try reflexivity; try (apply cmul64_err; apply GM); try (intros HR; apply cdiv64_err; exact HR).
      -- open_ufunc64. destruct ES as [-> ES].
         replace (negb (gspin g =? 0) && np_any y) with false by (destruct ES as [-> |ES]; [reflexivity|rewrite (np_any_zero _ ES), andb_false_r; reflexivity]).
         rewrite CK. cbn [negb bind]. rewrite E. reflexivity.
      -- open_ufunc64. destruct ES as [-> ES].
         replace (negb (gspin g =? 0) && np_any y) with false by (destruct ES as [-> |ES]; [reflexivity|rewrite (np_any_zero _ ES), andb_false_r; reflexivity]).
         rewrite CK. cbn [negb bind]. rewrite E. reflexivity.
      -- open_ufunc64. rewrite CK. cbn [negb bind]. subst s. rewrite E. reflexivity.
      -- open_ufunc64. rewrite CK. cbn [negb bind]. subst s. rewrite E. reflexivity.
    * assert (Wg : gwf g) by (apply W; cbn; auto).
      destruct u; cbn [combines] in HC; try contradiction.
      all: destruct HC as (-> & -> & Hl & HB & ES).
      all: pose proof (gcheck_ok g x ld Wg Hl HB) as CK.
      all: match goal with |- context [grid_ufunc64 ?lib ?w ?u m_call] =>
        let F := match u with u_add => constr:(fun _ : list Z => cadd64) | u_subtract => constr:(fun _ : list Z => csub64) | u_multiply => constr:(fun idx => cmul64 (w_mul w idx)) | u_divide => constr:(fun idx => cdiv64 (w_div w idx)) end in
        destruct ((finish_scal64' F g x s ld Wg HB HE)) as (r & E & Wr & Hs & HV) end.
      all: apply (K r); [|exact Wr|exact Hs|intros l i j Hl' Hi Hj; rewrite HV by auto; cbn [near]].
      all: try reflexivity; try (apply cmul64_err; apply GM); try (intros HR; apply cdiv64_err; exact HR).
      -- open_ufunc64. destruct ES as [-> ES].
         replace (negb (gspin g =? 0) && np_any x) with false by (destruct ES as [-> |ES]; [reflexivity|rewrite (np_any_zero _ ES), andb_false_r; reflexivity]).
         rewrite CK. cbn [negb bind]. rewrite E. reflexivity.
      -- open_ufunc64. destruct ES as [-> ES].
         replace (negb (gspin g =? 0) && np_any x) with false by (destruct ES as [-> |ES]; [reflexivity|rewrite (np_any_zero _ ES), andb_false_r; reflexivity]).
         rewrite CK. cbn [negb bind]. rewrite E. reflexivity.
      -- open_ufunc64. rewrite CK. cbn [negb bind]. subst s. rewrite E. reflexivity.
      -- open_ufunc64. rewrite CK. cbn [negb bind]. subst s. rewrite E. reflexivity.
Qed.


(** ** [out=] *)
Lemma finish_out ra s r o r' : finish ra None s = Ok (RGrid r) -> finish ra (Some o) s = Ok (RGrid r') ->
  gspin r' = gspin r /\ gshape (gdata r') = gshape (out_view o) /\ holds (gshape (gdata r)) (gval (gdata r)) (gdata r').
Proof.
  unfold finish. destruct ra as [a|]; cbn [bind into]; [|discriminate]. intros H1 H2.
  destruct (gconstruct a s) as [g|] eqn:E1; [|discriminate]. apply Ok_inj in H1. injection H1 as <-.
  destruct (broadcasts_to (gshape a) (gshape (out_view o))) eqn:EB; [|discriminate]. cbn [bind] in H2.
  match type of H2 with context [gconstruct ?x s] => destruct (gconstruct x s) as [g'|] eqn:E2; [|discriminate] end.
  apply Ok_inj in H2. injection H2 as <-.
  assert (S1 := construct_same a a s eq_refl). rewrite E1 in S1. destruct S1 as (-> & _).
  match type of E2 with gconstruct ?x s = _ => assert (S2 := construct_same x x s eq_refl); rewrite E2 in S2; destruct S2 as (-> & _) end.
  cbn [gspin gdata gshape]. split; [reflexivity|]. split; [reflexivity|]. split; [apply broadcasts_to_spec; exact EB|]. reflexivity.
Qed.
Lemma call_form64 lib w u args : truth_valued u = false -> some_grid args ->
  (exists e, forall out, grid_ufunc64 lib w u m_call args out false = Err e)
  \/ exists ra s, forall out, grid_ufunc64 lib w u m_call args out false = finish ra out s.
Proof.
  intros TV SG. destruct (found args SG) as (self & F). unfold grid_ufunc64, grid_array_ufunc64. rewrite F.
  destruct u; try discriminate; cbn [relation predicate]; cbv iota; clear TV.
  all: try (left; exists TypeError; reflexivity).
  all: unfold arg.
  all: try (right; eexists _, _; intros out; apply finish_wrap).
  all: try (destruct (nth_error args 0) as [a|]; cbn [bind]; [|left; eexists; reflexivity]).
  all: try (destruct a as [g|x]; [|left; eexists; reflexivity]; first [right; eexists _, _; intros out; apply finish_wrap|idtac]).
  all: try (destruct (negb (gspin g mod 2 =? 0)); [left; eexists; reflexivity|right; eexists _, _; intros out; apply finish_wrap]).
  all: try (destruct (nth_error args 1) as [b|]; cbn [bind]; [|left; eexists; reflexivity]).
  all: try (destruct (int_of b) as [e|]; [|left; eexists; reflexivity]; right; eexists _, _; intros out; apply finish_wrap).
  all: destruct a as [f|x], b as [g|y]; try (left; eexists; reflexivity).
  all: repeat match goal with
       | |- context [if ?b then _ else _] => destruct b; cbn [negb]; try (left; eexists; reflexivity)
       | |- context [do ok <- gcheck_broadcasting ?g ?s; _] => destruct (gcheck_broadcasting g s) as [[|]|]; cbn [bind negb]; try (left; eexists; reflexivity)
       end.
  all: right; eexists _, _; intros out; apply finish_wrap.
Qed.
Lemma C67_out :
  forall lib w u args o r r', truth_valued u = false -> some_grid args ->
  grid_ufunc64 lib w u m_call args None false = Ok (RGrid r) -> grid_ufunc64 lib w u m_call args (Some o) false = Ok (RGrid r') ->
  gspin r' = gspin r /\ gshape (gdata r') = gshape (out_view o) /\ holds (gshape (gdata r)) (gval (gdata r)) (gdata r').
Proof.
  intros lib w u args o r r' TV SG H1 H2. destruct (call_form64 lib w u args TV SG) as [(e & E)|(ra & s & E)]; rewrite E in H1, H2; [discriminate|].
  exact (finish_out ra s r o r' H1 H2).
Qed.

(** ** The methods of algebra.py *)
Definition op_near (P : C -> C -> Prop) (op : C -> C -> C) (op64 : list Z -> C -> C -> C) (a b : garr) : Prop :=
  forall sh idx, broadcast (gshape a) (gshape b) = Some sh -> at_index sh idx ->
    let x := gval a (bidx (gshape a) idx) in let y := gval b (bidx (gshape b) idx) in P (op x y) (op64 idx x y).
Lemma grids_op P op op64 a b s : op_near P op op64 a b ->
  same_grids P (do r <- nd_op op a b; gconstruct r s) (do r <- nd_op64 op64 a b; gconstruct r s).
Proof.
  intros H. unfold nd_op, nd_op64. destruct (broadcast (gshape a) (gshape b)) as [sh|] eqn:EB; cbn [bind]; [|reflexivity].
  match goal with |- same_grids _ (gconstruct ?x s) (gconstruct ?y s) => pose proof (construct_same x y s eq_refl) as HC; destruct (gconstruct x s), (gconstruct y s); try contradiction; [|exact HC] end.
  destruct HC as (-> & ->). cbn [same_grids gspin gdata gshape gval]. split; [reflexivity|]. split; [reflexivity|]. intros idx Hi. apply (H sh idx EB Hi).
Qed.
Lemma C67_add :
  forall self other, same_grids (fun v z => z = rounded v) (gadd self other) (gadd64 self other)
    /\ same_grids (fun v z => z = rounded v) (gsubtract self other) (gsubtract64 self other).
Proof.
  intros self other. split; unfold gadd, gadd64, gsubtract, gsubtract64; destruct other as [other|x];
    repeat match goal with |- context [if ?b then _ else _] => destruct b; [reflexivity|] end; apply grids_op; intros sh idx _ _; reflexivity.
Qed.
Lemma C67_multiply :
  forall w self other, good_way w ->
  same_grids (fun v z => (Cmod (z - v)%C <= 3 * u64 * Cmod v + 4 * tiny64)%R) (gmultiply self other) (gmultiply64 w self other).
Proof.
  intros w self other (GM & _).
  assert (N : forall a b, op_near (fun v z => (Cmod (z - v)%C <= 3 * u64 * Cmod v + 4 * tiny64)%R) Cmult (fun idx => cmul64 (w_mul w idx)) a b).
  { intros a b sh idx _ _ x y. rewrite Cmod_mult. apply cmul64_err; apply GM. }
  unfold gmultiply, gmultiply64. destruct other as [other|x].
  - destruct (negb (same_grid self other)); [reflexivity|]. apply grids_op, N.
  - destruct (gcheck_broadcasting self (sc_shape x)) as [[|]|]; cbn [bind]; try reflexivity. apply grids_op, N.
Qed.
Lemma C67_divide :
  forall w self other m, (/ 2 ^ 900 <= m)%R ->
  (forall idx, at_index (shape_of other) idx -> (m <= Cmod (entry other idx) <= 2 ^ 900)%R) ->
  same_grids (fun v z => (Cmod (z - v)%C <= 18 * u64 * Cmod v + 3 * tiny64 * (1 + / m))%R) (gdivide self other) (gdivide64 w self other).
Proof.
  intros w self other m Hm Ho.
  assert (P9 : (0 < / 2 ^ 900)%R) by (apply Rinv_0_lt_compat, pow_lt; lra).
  assert (N : op_near (fun v z => (Cmod (z - v)%C <= 18 * u64 * Cmod v + 3 * tiny64 * (1 + / m))%R) Cdiv (fun idx => cdiv64 (w_div w idx)) (gdata self) (view other)).
  { intros sh idx EB Hi x y. assert (HY : (m <= Cmod y <= 2 ^ 900)%R).
    { unfold y. rewrite view_entry, view_shape. apply Ho. rewrite view_shape in EB. eapply bidx_in; [eapply broadcast_right; exact EB|exact Hi]. }
    assert (NY : y <> RtoC 0) by (intros ->; rewrite Cmod_0 in HY; lra).
    rewrite Cmod_div by exact NY. eapply Rle_trans; [apply cdiv64_err; lra|]. apply Rplus_le_compat_l. apply Rmult_le_compat_l.
    - unfold tiny64. pose proof (Flocq.Core.Raux.bpow_gt_0 Flocq.Core.Zaux.radix2 (-1074)). lra.
    - apply Rplus_le_compat_l. apply Rinv_le_contravar; lra. }
  unfold gdivide, gdivide64. destruct other as [other|x].
  - destruct (negb (same_grid self other)); [reflexivity|]. apply grids_op, N.
  - destruct (gcheck_broadcasting self (sc_shape x)) as [[|]|]; cbn [bind]; try reflexivity. apply grids_op, N.
Qed.
Lemma C67_absolute :
  forall lib self, good_hypot (l_hypot lib) ->
  same_grids (fun v z => Im z = 0%R /\ Im v = 0%R /\ (Rabs (Re z - Re v) <= 2 * u64 * Re v + tiny64)%R) (gabsolute self) (gabsolute64 lib self).
Proof.
  intros lib self GH. unfold gabsolute, gabsolute64.
  match goal with |- same_grids _ (gconstruct ?x ?s) (gconstruct ?y ?s) => pose proof (construct_same x y s eq_refl) as HC; destruct (gconstruct x s), (gconstruct y s); try contradiction; [|exact HC] end.
  destruct HC as (-> & ->). cbn [same_grids gspin gdata gshape gval nd_map nd_map64]. split; [reflexivity|]. split; [reflexivity|]. intros idx Hi.
  split; [reflexivity|]. split; [reflexivity|]. apply GH.
Qed.

(** ** Example *)
Definition example_lib : grid_lib := mkgridlib (fun x y => Cmod (x, y)) Csqrt (fun z _ => z).
Definition example_way : grid_way :=
  mkgridway (fun idx => if nth 0 idx 0 =? 0 then (Plus (Prod 0) (Prod 1), Fused 1 (Prod 0)) else (Fused 0 (Prod 1), Plus (Prod 1) (Prod 0)))
    (fun _ => (true, false, true)) (fun _ => false) (fun _ _ => (Plus (Prod 0) (Prod 1), Plus (Prod 0) (Prod 1))).
Lemma root_unique z w w' : principal_root z w -> principal_root z w' -> w = w'.
Proof.
  intros (E & P) (E' & P').
  assert (H : ((w - w') * (w + w'))%C = RtoC 0) by (replace ((w - w') * (w + w'))%C with (w * w - w' * w')%C by ring; rewrite E, E'; ring).
  destruct (Ceq_dec (w - w')%C (RtoC 0)) as [Z|Z].
  - replace w with ((w - w') + w')%C by ring. rewrite Z. ring.
  - assert (S : (w + w')%C = RtoC 0).
    { replace (w + w')%C with (/ (w - w') * ((w - w') * (w + w')))%C by (field; exact Z). rewrite H. ring. }
    assert (SR : (Re w + Re w' = 0)%R) by exact (f_equal Re S). assert (SI : (Im w + Im w' = 0)%R) by exact (f_equal Im S).
    destruct w as [x y], w' as [x' y']. cbn [Re Im fst snd] in *. assert (x = 0 /\ x' = 0 /\ y = 0 /\ y' = 0)%R as (-> & -> & -> & ->) by lra. reflexivity.
Qed.
Lemma adds_01 t : terms t = [0; 1] \/ terms t = [1; 0] -> (depth t <= 2)%nat -> adds_all 2 2 t.
Proof. intros [E|E] D; (split; [|exact D]); rewrite E; [apply Permutation_refl|apply perm_swap]. Qed.
Lemma C67_example :
  good_hypot (l_hypot example_lib) /\ good_csqrt (l_csqrt example_lib) /\ good_way example_way.
Proof.
  assert (T : (0 < tiny64)%R) by apply Flocq.Core.Raux.bpow_gt_0. pose proof FloatPowersProofs.u64_pos as U. split; [|split].
  - intros [x y]. cbn [example_lib l_hypot Re Im fst snd]. replace (Cmod (x, y) - Cmod (x, y))%R with 0%R by ring. rewrite Rabs_R0.
    pose proof (Cmod_ge_0 (x, y)). assert (0 <= u64 * Cmod (x, y))%R by (apply Rmult_le_pos; lra). lra.
  - intros z r HR. cbn [example_lib l_csqrt]. replace r with (Csqrt z).
    + replace (Csqrt z - Csqrt z)%C with (RtoC 0) by ring. rewrite Cmod_0. pose proof (Cmod_ge_0 (Csqrt z)). assert (0 <= u64 * Cmod (Csqrt z))%R by (apply Rmult_le_pos; lra). lra.
    + apply (root_unique z); [|exact HR]. split; [apply Csqrt_sqr|apply csqrt_principal].
  - split.
    + intros idx. cbn [example_way w_mul]. destruct (nth 0 idx 0 =? 0); cbn [fst snd]; split; apply adds_01; cbn; auto.
    + intros idx k. split; apply adds_01; cbn; auto.
Qed.
