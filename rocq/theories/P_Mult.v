(** Property C25: multiplication of Modes objects. *)
Require Import ZArith Lia List Reals Lra Bool.
From Coquelicot Require Import Complex.
From Verif Require Import Base CBase CSum DRep IndexModel WignerModel WignerSpec RotorSpec SWSHModel SWSHProofs ThreeJSpec Wigner3jModel ModesModel ModesSpec ModesProofs3 MultModel MultSpec.
From Verif Require WignerProps MultProps.
From Verif Require Import P_Modes.
Import ListNotations.
Open Scope Z_scope.

(** ** C25 *)

(** The product of two spin-weighted harmonics, at every rotor. *)
Theorem C25_harmonics :
  forall s1 s2 l1 m1 l2 m2 q, unit_quat q -> Z.abs m1 <= l1 -> Z.abs m2 <= l2 ->
  (SWSH_value s1 l1 m1 (qa q) (qb q) * SWSH_value s2 l2 m2 (qa q) (qb q))%C
  = csum 0 (l1 + l2) (fun l => RtoC (product_coeff s1 s2 l1 m1 l2 m2 l) * SWSH_value (s1 + s2) l (m1 + m2) (qa q) (qb q))%C.
Proof. exact MultProps.C25_harmonics. Qed.
Print Assumptions C25_harmonics.

(** Whenever multiplication returns and the result is not truncated, it evaluates to the product of the values.
    [w] is exact integer arithmetic, or the compiled code's fixed widths with ell_max_f + ell_max_g <= 151. *)
Theorem C25_product :
  forall w gs gm Lt tab h f g tr h' r, is_Wigner_table Lt tab -> wf h f -> wf h g ->
  0 <= ellmax (md f) -> 0 <= ellmax (md g) -> wide_enough w (ellmax (md f)) (ellmax (md g)) ->
  ellmax (md f) + ellmax (md g) <= product_ell_max f g tr <= Lt ->
  multiply w gs gm h f g tr = Ok (h', r) ->
  spin (md r) = spin (md f) + spin (md g) /\ ellmax (md r) = product_ell_max f g tr
  /\ broadcast (lead (nd f)) (lead (nd g)) = Some (lead (nd r)) /\ wf h' r
  /\ (forall b, (b < next h)%nat -> forall idx k, mem h' b idx k = mem h b idx k)
  /\ forall q F G, rotor q -> value_at tab h f q F -> value_at tab h g q G ->
       value_at tab h' r q (fun idx => F (bidx (lead (nd f)) idx) * G (bidx (lead (nd g)) idx))%C.
Proof. exact MultProps.C25_product. Qed.
Print Assumptions C25_product.

Theorem C25_ell_max :
  forall f g,
  (truncator (md f) = None -> truncator (md g) = None -> product_ell_max f g None = ellmax (md f) + ellmax (md g))
  /\ (forall t, truncator (md f) = Some t -> truncator (md g) = None ->
        product_ell_max f g None = Z.max (t (ellmax (md f)) (ellmax (md g))) (ellmax (md f) + ellmax (md g)))
  /\ (forall t u, truncator (md f) = Some t -> truncator (md g) = Some u ->
        product_ell_max f g None = Z.max (t (ellmax (md f)) (ellmax (md g))) (u (ellmax (md f)) (ellmax (md g))))
  /\ (forall t, product_ell_max f g (Some t) = t (ellmax (md f)) (ellmax (md g))).
Proof. exact MultProps.C25_ell_max. Qed.
Print Assumptions C25_ell_max.

Theorem C25_entries :
  forall w gs gm h f g tr h' r, wf h f -> wf h g ->
  0 <= ellmax (md f) -> 0 <= ellmax (md g) -> 0 <= product_ell_max f g tr -> wide_enough w (ellmax (md f)) (ellmax (md g)) ->
  multiply w gs gm h f g tr = Ok (h', r) ->
  spin (md r) = spin (md f) + spin (md g) /\ ellmax (md r) = product_ell_max f g tr /\ truncator (md r) = truncator (md f)
  /\ broadcast (lead (nd f)) (lead (nd g)) = Some (lead (nd r)) /\ wf h' r
  /\ (forall b, (b < next h)%nat -> forall idx k, mem h' b idx k = mem h b idx k)
  /\ forall idx l m, at_index (lead (nd r)) idx -> 0 <= l <= ellmax (md r) -> - l <= m <= l ->
     mode h' r idx l m =
     dsum (ellmax (md f)) (fun l1 m1 => csum 0 (ellmax (md g)) (fun l2 =>
       if Z.abs (m - m1) <=? l2
       then RtoC (product_coeff (spin (md f)) (spin (md g)) l1 m1 l2 (m - m1) l)
            * mode h f (bidx (lead (nd f)) idx) l1 m1 * mode h g (bidx (lead (nd g)) idx) l2 (m - m1)%Z
       else RtoC 0))%C.
Proof. exact MultProps.C25_entries. Qed.
Print Assumptions C25_entries.

(** Only index pairs allowed by the selection rules contribute. *)
Theorem C25_selection :
  forall s1 s2 l1 m1 l2 m2 l, product_coeff s1 s2 l1 m1 l2 m2 l <> 0%R ->
  Z.abs (l1 - l2) <= l <= l1 + l2 /\ Z.abs m1 <= l1 /\ Z.abs m2 <= l2 /\ Z.abs (m1 + m2) <= l
  /\ Z.abs s1 <= l1 /\ Z.abs s2 <= l2 /\ Z.abs (s1 + s2) <= l.
Proof. exact MultProps.C25_selection. Qed.
Print Assumptions C25_selection.

Theorem C25_truncated :
  forall w gs gm gs' gm' h f g tr h1 r1 h2 r2, wf h f -> wf h g ->
  0 <= ellmax (md f) -> 0 <= ellmax (md g) -> 0 <= product_ell_max f g tr -> wide_enough w (ellmax (md f)) (ellmax (md g)) ->
  multiply w gs gm h f g tr = Ok (h1, r1) -> multiply w gs' gm' h f g (Some Z.add) = Ok (h2, r2) ->
  forall idx l m, at_index (lead (nd r1)) idx -> 0 <= l <= product_ell_max f g tr -> - l <= m <= l ->
  mode h1 r1 idx l m = if l <=? ellmax (md f) + ellmax (md g) then mode h2 r2 idx l m else RtoC 0.
Proof. exact MultProps.C25_truncated. Qed.
Print Assumptions C25_truncated.

(** It returns unless the leading axes do not broadcast; what is missing is a proof that no [late_zero] exists, in which
    case the calculator would divide by zero (see C32). *)
Theorem C25_returns_partial :
  forall w gs gm h f g tr, wf h f -> wf h g ->
  0 <= ellmax (md f) -> 0 <= ellmax (md g) -> 0 <= product_ell_max f g tr -> wide_enough w (ellmax (md f)) (ellmax (md g)) ->
  (broadcast (lead (nd f)) (lead (nd g)) = None -> multiply w gs gm h f g tr = Err ValueError)
  /\ (broadcast (lead (nd f)) (lead (nd g)) <> None ->
      (ellmax (md f) <= 7 \/ ellmax (md g) <= 7 \/ (ellmax (md f) - 7) * (ellmax (md g) - 7) < 28 -> exists h' r, multiply w gs gm h f g tr = Ok (h', r))
      /\ ((exists h' r, multiply w gs gm h f g tr = Ok (h', r))
          \/ (multiply w gs gm h f g tr = Err ZeroDivisionError
              /\ exists l1 l2 m n, 0 <= l1 <= ellmax (md f) /\ 0 <= l2 <= ellmax (md g) /\ Z.abs m <= l1 /\ Z.abs n <= l2 /\ late_zero l1 l2 m n))).
Proof. exact MultProps.C25_returns_partial. Qed.
Print Assumptions C25_returns_partial.

Theorem C25_arrays :
  forall w gs gm h f lf Lf sf g lg Lg sg sh, (buf f < next h)%nat -> (buf g < next h)%nat ->
  0 <= lf <= Lf -> 0 <= lg <= Lg -> wid f = LM_total_size lf Lf -> wid g = LM_total_size lg Lg ->
  broadcast (lead f) (lead g) = Some sh -> wide_enough w Lf Lg ->
  (exists h' fg, multiply_arrays w gs gm h f lf Lf sf g lg Lg sg = Ok (h', (fg, 0, Lf + Lg, sf + sg))
     /\ lead fg = sh /\ wid fg = LM_total_size 0 (Lf + Lg) /\ (next h <= buf fg)%nat
     /\ (forall b, (b < next h)%nat -> forall idx k, mem h' b idx k = mem h b idx k)
     /\ forall idx l m, 0 <= l <= Lf + Lg -> - l <= m <= l ->
        mem h' (buf fg) idx (LM_index l m 0)
        = product_weight sf Lf sg Lg (arr_mode (mem h (buf f)) lf (bidx (lead f) idx)) (arr_mode (mem h (buf g)) lg (bidx (lead g) idx)) l m)
  \/ (multiply_arrays w gs gm h f lf Lf sf g lg Lg sg = Err ZeroDivisionError
      /\ exists l1 l2 m n, lf <= l1 <= Lf /\ lg <= l2 <= Lg /\ Z.abs m <= l1 /\ Z.abs n <= l2 /\ late_zero l1 l2 m n).
Proof. exact MultProps.C25_arrays. Qed.
Print Assumptions C25_arrays.

(** Two functions of spin weight -2 with all modes different from zero: the product is defined, has spin weight -4 and
    ell_max 5. *)
Example C25_nonvacuous :
  wf demo_heap demo_f /\ wf demo_heap demo_g /\ product_ell_max demo_f demo_g None = 5
  /\ exists h' r, multiply fixed (fun _ => 7%R) (fun _ => 8%R) demo_heap demo_f demo_g None = Ok (h', r)
       /\ spin (md r) = -4 /\ ellmax (md r) = 5.
Proof.
  split; [exact demo_f_wf|]. split; [exact demo_g_wf|]. split; [reflexivity|].
  assert (HW : wide_enough fixed (ellmax (md demo_f)) (ellmax (md demo_g))) by (right; split; [reflexivity|cbn; lia]).
  destruct (C25_returns_partial fixed (fun _ => 7%R) (fun _ => 8%R) demo_heap demo_f demo_g None demo_f_wf demo_g_wf) as [_ H]; try (cbn; lia); auto.
  destruct H as [H _]; [discriminate|]. destruct H as (h' & r & E); [left; cbn; lia|]. exists h', r. split; auto.
  destruct (C25_entries fixed (fun _ => 7%R) (fun _ => 8%R) demo_heap demo_f demo_g None h' r demo_f_wf demo_g_wf) as (Es & EL & _); [cbn; lia|cbn; lia|cbn; lia|exact HW|exact E|].
  rewrite Es, EL. split; reflexivity.
Qed.
Example C25_coefficient : product_coeff 0 0 0 0 0 0 0 = sqrt (1 / (4 * PI)).
Proof.
  unfold product_coeff. cbn [Z.add Z.mul Z.opp Pos.add Pos.mul].
  assert (E : threej 0 0 0 0 0 0 = 1%R).
  { unfold threej, tri2, racah_sum. cbn [Z.add Z.sub Z.opp tj_allowedb Z.abs Z.leb Z.eqb Z.compare andb Z.mul Pos.add]. rewrite RSum.rsum_one. rewrite !Fact.fct_0, Fact.fct_1. cbn [Z.add Z.sub Z.opp]. rewrite !Fact.ifct_0. unfold Fact.sgn. cbn [Z.even]. replace (1 * 1 * 1 / 1)%R with 1%R by field. rewrite !Rmult_1_r, sqrt_1. lra. }
  rewrite E. unfold Fact.sgn. cbn [Z.even]. rewrite !Rmult_1_r, Rmult_1_l. reflexivity.
Qed.
