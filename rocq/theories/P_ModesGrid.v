(** Property C55: [Modes.grid], and the algebra of Grid objects against that of Modes objects. *)
Require Import ZArith Lia List Reals Lra Bool.
From Coquelicot Require Import Hierarchy Complex.
From Verif Require Import Base CBase DRep WignerModel RotorSpec SWSHModel ModesModel ModesSpec Wigner3jModel MultModel MultSpec GridModel GridSpec
  ModesGridModel ModesGridSpec.
From Verif Require ModesGridProps.
From Verif Require Import P_Modes P_Mult.
Import ListNotations.
Open Scope Z_scope.

(** ** C55.  [F] stands for [spinsfast.salm2map]; [salm2map_right] says what is assumed of it. *)

(** The Grid holds the values that [evaluate] returns at the points of theta_phi. *)
Theorem C55_grid :
  forall F, salm2map_right F ->
  forall Lt tab h f nt np, is_Wigner_table Lt tab -> wf h f -> 1 <= ellmax (md f) <= Lt -> Z.abs (spin (md f)) <= ellmax (md f) ->
  2 * ellmax (md f) + 1 <= nt <= 10 ^ 12 -> 2 * ellmax (md f) + 1 <= np ->
  exists g, Modes_grid F h f (Some nt) (Some np) None = Ok g /\ gwf g /\ samples tab h f g nt np.
Proof. exact ModesGridProps.C55_grid. Qed.
Print Assumptions C55_grid.

(** The default is 2 ell_max + 1 points in theta, and as many in phi as in theta; zero counts as not given. *)
Theorem C55_defaults :
  forall F h f n np kw,
  Modes_grid F h f None None kw = Modes_grid F h f (Some (2 * ellmax (md f) + 1)) (Some (2 * ellmax (md f) + 1)) kw
  /\ (n <> 0 -> Modes_grid F h f (Some n) None kw = Modes_grid F h f (Some n) (Some n) kw)
  /\ (n <> 0 -> Modes_grid F h f None (Some n) kw = Modes_grid F h f (Some (2 * ellmax (md f) + 1)) (Some n) kw)
  /\ Modes_grid F h f (Some 0) np kw = Modes_grid F h f None np kw
  /\ Modes_grid F h f (Some n) (Some 0) kw = Modes_grid F h f (Some n) None kw.
Proof. exact ModesGridProps.C55_defaults. Qed.
Print Assumptions C55_defaults.

(** A keyword argument spin_weight changes the label of the result, not the values. *)
Theorem C55_keyword :
  forall F, salm2map_right F ->
  forall h f nt np s, wf h f -> 1 <= ellmax (md f) -> Z.abs (spin (md f)) <= ellmax (md f) ->
  2 * ellmax (md f) + 1 <= nt -> 2 * ellmax (md f) + 1 <= np ->
  exists g, Modes_grid F h f (Some nt) (Some np) None = Ok g
    /\ (enough s nt np -> Modes_grid F h f (Some nt) (Some np) (Some s) = Ok (mkgrid (gdata g) s))
    /\ (~ enough s nt np -> Modes_grid F h f (Some nt) (Some np) (Some s) = Err NameError).
Proof. exact ModesGridProps.C55_keyword. Qed.
Print Assumptions C55_keyword.

(** Adding, subtracting, multiplying, conjugating, taking real and imaginary parts and scaling commute with [grid]. *)
Theorem C55_sum :
  forall F, salm2map_right F ->
  forall Lt tab h f g sh nt np (subtraction : bool), is_Wigner_table Lt tab -> wf h f -> wf h g ->
  1 <= ellmax (md f) <= Lt -> 1 <= ellmax (md g) <= Lt -> spin (md f) = spin (md g) ->
  Z.abs (spin (md f)) <= ellmax (md f) -> Z.abs (spin (md g)) <= ellmax (md g) ->
  broadcast (lead (nd f)) (lead (nd g)) = Some sh ->
  2 * Z.max (ellmax (md f)) (ellmax (md g)) + 1 <= nt <= 10 ^ 12 -> 2 * Z.max (ellmax (md f)) (ellmax (md g)) + 1 <= np ->
  exists h' r R A B S, np_add h f g subtraction = Ok (h', r) /\ Modes_grid F h' r (Some nt) (Some np) None = Ok R
    /\ Modes_grid F h f (Some nt) (Some np) None = Ok A /\ Modes_grid F h g (Some nt) (Some np) None = Ok B
    /\ grid_ufunc (if subtraction then u_subtract else u_add) m_call [OG A; OG B] None false = Ok (RGrid S)
    /\ same_grid_value S R.
Proof. exact ModesGridProps.C55_sum. Qed.
Print Assumptions C55_sum.
Theorem C55_product :
  forall F, salm2map_right F ->
  forall w gs gm Lt tab h f g tr h' r nt np, is_Wigner_table Lt tab -> wf h f -> wf h g ->
  1 <= ellmax (md f) -> 1 <= ellmax (md g) -> Z.abs (spin (md f)) <= ellmax (md f) -> Z.abs (spin (md g)) <= ellmax (md g) ->
  wide_enough w (ellmax (md f)) (ellmax (md g)) ->
  ellmax (md f) + ellmax (md g) <= product_ell_max f g tr <= Lt ->
  multiply w gs gm h f g tr = Ok (h', r) ->
  2 * product_ell_max f g tr + 1 <= nt <= 10 ^ 12 -> 2 * product_ell_max f g tr + 1 <= np ->
  exists R A B P, Modes_grid F h' r (Some nt) (Some np) None = Ok R
    /\ Modes_grid F h f (Some nt) (Some np) None = Ok A /\ Modes_grid F h g (Some nt) (Some np) None = Ok B
    /\ gmultiply A (OG B) = Ok P /\ grid_ufunc u_multiply m_call [OG A; OG B] None false = Ok (RGrid P)
    /\ same_grid_value P R.
Proof. exact ModesGridProps.C55_product. Qed.
Print Assumptions C55_product.
Theorem C55_conjugate :
  forall F, salm2map_right F ->
  forall Lt tab h f nt np, is_Wigner_table Lt tab -> wf h f -> 1 <= ellmax (md f) <= Lt -> Z.abs (spin (md f)) <= ellmax (md f) ->
  2 * ellmax (md f) + 1 <= nt <= 10 ^ 12 -> 2 * ellmax (md f) + 1 <= np ->
  exists h' r R A B, conjugate h f false = Ok (h', r) /\ Modes_grid F h' r (Some nt) (Some np) None = Ok R
    /\ Modes_grid F h f (Some nt) (Some np) None = Ok A /\ gconjugate A false = Ok B /\ same_grid_value B R.
Proof. exact ModesGridProps.C55_conjugate. Qed.
Print Assumptions C55_conjugate.
Theorem C55_real_imag :
  forall F, salm2map_right F ->
  forall Lt tab h f nt np, is_Wigner_table Lt tab -> wf h f -> 1 <= ellmax (md f) <= Lt -> spin (md f) = 0 ->
  2 * ellmax (md f) + 1 <= nt <= 10 ^ 12 -> 2 * ellmax (md f) + 1 <= np ->
  exists h1 re h2 im Re Im A GRe GIm, real_func h f false = Ok (h1, re) /\ imag_func h f false = Ok (h2, im)
    /\ Modes_grid F h1 re (Some nt) (Some np) None = Ok Re /\ Modes_grid F h2 im (Some nt) (Some np) None = Ok Im
    /\ Modes_grid F h f (Some nt) (Some np) None = Ok A /\ greal A = Ok GRe /\ gimag A = Ok GIm
    /\ same_grid_value GRe Re /\ same_grid_value GIm Im.
Proof. exact ModesGridProps.C55_real_imag. Qed.
Print Assumptions C55_real_imag.
Theorem C55_scalar :
  forall F, salm2map_right F ->
  forall Lt tab h f x sh nt np, is_Wigner_table Lt tab -> wf h f -> 1 <= ellmax (md f) <= Lt -> Z.abs (spin (md f)) <= ellmax (md f) ->
  (length (sc_shape x) <= length (lead (nd f)))%nat -> broadcast (lead (nd f)) (sc_shape x) = Some sh ->
  2 * ellmax (md f) + 1 <= nt <= 10 ^ 12 -> 2 * ellmax (md f) + 1 <= np ->
  exists h' r R A P, mul_scalar h f x = Ok (h', r) /\ Modes_grid F h' r (Some nt) (Some np) None = Ok R
    /\ Modes_grid F h f (Some nt) (Some np) None = Ok A
    /\ grid_ufunc u_multiply m_call [OG A; OS x] None false = Ok (RGrid P) /\ same_grid_value P R.
Proof. exact ModesGridProps.C55_scalar. Qed.
Print Assumptions C55_scalar.

(** Two objects with the same Grid have the same modes. *)
Theorem C55_determined :
  forall Lt tab h f h' g A B nt np, is_Wigner_table Lt tab -> wf h f -> wf h' g ->
  0 <= ellmax (md f) <= Lt -> 0 <= ellmax (md g) <= Lt ->
  samples tab h f A nt np -> samples tab h' g B nt np -> same_grid_value A B ->
  2 <= nt <= 10 ^ 12 ->
  2 * Z.max (ellmax (md f)) (ellmax (md g)) + 1 <= nt -> 2 * Z.max (ellmax (md f)) (ellmax (md g)) + 1 <= np ->
  spin (md f) = spin (md g) /\ lead (nd f) = lead (nd g)
  /\ forall idx ell m, at_index (lead (nd f)) idx -> 0 <= ell -> - ell <= m <= ell ->
    (if ell <=? ellmax (md f) then mode h f idx ell m else RtoC 0)
    = (if ell <=? ellmax (md g) then mode h' g idx ell m else RtoC 0).
Proof. exact ModesGridProps.C55_determined. Qed.
Print Assumptions C55_determined.

(** With the number of points the documentation asks for, 2 (ell_max_f + ell_max_g) + 1, the product of two Grids is not
    aliased: whatever Modes object up to ell_max_f + ell_max_g has the product as its Grid, its modes are those of
    [f.multiply(g)]. *)
Theorem C55_no_aliasing :
  forall F, salm2map_right F ->
  forall w gs gm Lt tab h f g h' r nt np A B P h2 t, is_Wigner_table Lt tab -> wf h f -> wf h g ->
  1 <= ellmax (md f) -> 1 <= ellmax (md g) -> Z.abs (spin (md f)) <= ellmax (md f) -> Z.abs (spin (md g)) <= ellmax (md g) ->
  wide_enough w (ellmax (md f)) (ellmax (md g)) -> ellmax (md f) + ellmax (md g) <= Lt ->
  2 * (ellmax (md f) + ellmax (md g)) + 1 <= nt <= 10 ^ 12 -> 2 * (ellmax (md f) + ellmax (md g)) + 1 <= np ->
  Modes_grid F h f (Some nt) (Some np) None = Ok A -> Modes_grid F h g (Some nt) (Some np) None = Ok B -> gmultiply A (OG B) = Ok P ->
  wf h2 t -> 0 <= ellmax (md t) <= ellmax (md f) + ellmax (md g) -> samples tab h2 t P nt np ->
  multiply w gs gm h f g (Some Z.add) = Ok (h', r) ->
  spin (md t) = spin (md f) + spin (md g) /\ lead (nd t) = lead (nd r)
  /\ forall idx ell m, at_index (lead (nd r)) idx -> 0 <= ell <= ellmax (md r) -> - ell <= m <= ell ->
     mode h' r idx ell m = if ell <=? ellmax (md t) then mode h2 t idx ell m else RtoC 0.
Proof. exact ModesGridProps.C55_no_aliasing. Qed.
Print Assumptions C55_no_aliasing.

(** Such a transform exists, and [demo_f], [demo_g] (spin weight -2, ell_max 3 and 2) meet the other hypotheses with 11
    points; their product exists. *)
Example C55_nonvacuous : salm2map_right ModesGridProps.a_salm2map /\ (exists tab, is_Wigner_table 32 tab)
  /\ wf demo_heap demo_f /\ wf demo_heap demo_g /\ spin (md demo_f) = spin (md demo_g)
  /\ Z.abs (spin (md demo_f)) <= ellmax (md demo_f) /\ Z.abs (spin (md demo_g)) <= ellmax (md demo_g)
  /\ 2 * (ellmax (md demo_f) + ellmax (md demo_g)) + 1 <= 11 /\ 1 <= ellmax (md demo_0) /\ spin (md demo_0) = 0
  /\ exists h' r, multiply fixed (fun _ => 7%R) (fun _ => 8%R) demo_heap demo_f demo_g (Some Z.add) = Ok (h', r).
Proof.
  split; [exact ModesGridProps.a_salm2map_right|]. split; [exact demo_table|]. split; [exact demo_f_wf|]. split; [exact demo_g_wf|].
  do 6 (split; [cbn; lia|]).
  assert (HW : wide_enough fixed (ellmax (md demo_f)) (ellmax (md demo_g))) by (right; split; [reflexivity|cbn; lia]).
  destruct (C25_returns_partial fixed (fun _ => 7%R) (fun _ => 8%R) demo_heap demo_f demo_g (Some Z.add) demo_f_wf demo_g_wf) as [_ H]; try (cbn; lia); auto.
  destruct H as [H _]; [discriminate|]. apply H. left. cbn. lia.
Qed.
