(** Properties C36, C37, C38, C45 and the Grid part of C30. *)
Require Import ZArith Lia List Reals Lra Bool.
From Coquelicot Require Import Complex.
From Verif Require Import Base CBase ModesModel ModesSpec GridModel GridSpec.
From Verif Require GridProps.
Import ListNotations.
Open Scope Z_scope.

(** Concrete objects: two stacks of functions on a 5 by 6 grid (theta by phi), of leading shapes (2, 1) and (3,). *)
Definition demo_a : grid := mkgrid (mkgarr [6; 5; 1; 2] (fun idx => RtoC (IZR (1 + nth 0 idx 0 + 10 * nth 3 idx 0)))) 2.
Definition demo_b : grid := mkgrid (mkgarr [6; 5; 3] (fun idx => (IZR (nth 1 idx 0%Z), 1%R))) (-1).
Example demo_a_wf : gwf demo_a.
Proof. split; [cbn; lia|split; cbn; lia]. Qed.
Example demo_b_wf : gwf demo_b.
Proof. split; [cbn; lia|split; cbn; lia]. Qed.

(** ** C36 *)
(** Sums and differences are pointwise, by the method and by the operator. *)
Theorem C36_add_subtract :
  forall f g ld, gwf f -> gwf g -> gspin f = gspin g -> same_points f g -> broadcast (glead f) (glead g) = Some ld ->
  (exists r, gadd f (OG g) = Ok r /\ grid_ufunc u_add m_call [OG f; OG g] None false = Ok (RGrid r)
     /\ gwf r /\ is_grid r (gspin f) (n_theta f) (n_phi f) ld
          (fun l i j => value f (bidx (glead f) l) i j + value g (bidx (glead g) l) i j)%C)
  /\ (exists r, gsubtract f (OG g) = Ok r /\ grid_ufunc u_subtract m_call [OG f; OG g] None false = Ok (RGrid r)
     /\ gwf r /\ is_grid r (gspin f) (n_theta f) (n_phi f) ld
          (fun l i j => value f (bidx (glead f) l) i j - value g (bidx (glead g) l) i j)%C).
Proof. exact GridProps.C36_add_subtract. Qed.
Print Assumptions C36_add_subtract.
(** Products add, quotients subtract the spin weights; NameError when the grid is too small for the new spin weight. *)
Theorem C36_multiply_divide :
  forall f g ld, gwf f -> gwf g -> same_points f g -> broadcast (glead f) (glead g) = Some ld ->
  (enough (gspin f + gspin g) (n_theta f) (n_phi f) ->
   exists r, gmultiply f (OG g) = Ok r /\ grid_ufunc u_multiply m_call [OG f; OG g] None false = Ok (RGrid r)
     /\ gwf r /\ is_grid r (gspin f + gspin g) (n_theta f) (n_phi f) ld
          (fun l i j => value f (bidx (glead f) l) i j * value g (bidx (glead g) l) i j)%C)
  /\ (enough (gspin f - gspin g) (n_theta f) (n_phi f) ->
   exists r, gdivide f (OG g) = Ok r /\ grid_ufunc u_divide m_call [OG f; OG g] None false = Ok (RGrid r)
     /\ gwf r /\ has_shape r (gspin f - gspin g) (n_theta f) (n_phi f) ld
     /\ forall l i j, at_index ld l -> 0 <= i < n_theta f -> 0 <= j < n_phi f ->
          value g (bidx (glead g) l) i j <> RtoC 0 ->
          (value r l i j * value g (bidx (glead g) l) i j)%C = value f (bidx (glead f) l) i j)
  /\ (~ enough (gspin f + gspin g) (n_theta f) (n_phi f) ->
        gmultiply f (OG g) = Err NameError /\ grid_ufunc u_multiply m_call [OG f; OG g] None false = Err NameError)
  /\ (~ enough (gspin f - gspin g) (n_theta f) (n_phi f) ->
        gdivide f (OG g) = Err NameError /\ grid_ufunc u_divide m_call [OG f; OG g] None false = Err NameError).
Proof. exact GridProps.C36_multiply_divide. Qed.
Print Assumptions C36_multiply_divide.
Theorem C36_conjugate_absolute :
  forall g, gwf g ->
  (exists r, gconjugate g false = Ok r /\ gconjugate g true = Ok r /\ grid_ufunc u_conjugate m_call [OG g] None false = Ok (RGrid r)
     /\ gwf r /\ is_grid r (- gspin g) (n_theta g) (n_phi g) (glead g) (fun l i j => Cconj (value g l i j)))
  /\ (exists r, gabsolute g = Ok r /\ grid_ufunc u_absolute m_call [OG g] None false = Ok (RGrid r)
     /\ gwf r /\ is_grid r 0 (n_theta g) (n_phi g) (glead g) (fun l i j => RtoC (Cmod (value g l i j))))
  /\ (exists r, grid_ufunc u_negative m_call [OG g] None false = Ok (RGrid r)
     /\ gwf r /\ is_grid r (gspin g) (n_theta g) (n_phi g) (glead g) (fun l i j => - value g l i j)%C)
  /\ (exists r, grid_ufunc u_positive m_call [OG g] None false = Ok (RGrid r)
     /\ gwf r /\ is_grid r (gspin g) (n_theta g) (n_phi g) (glead g) (value g))
  /\ (gspin g = 0 -> exists re im, greal g = Ok re /\ gimag g = Ok im
     /\ is_grid re 0 (n_theta g) (n_phi g) (glead g) (fun l i j => RtoC (Re (value g l i j)))
     /\ is_grid im 0 (n_theta g) (n_phi g) (glead g) (fun l i j => RtoC (Im (value g l i j))))
  /\ (gspin g <> 0 -> greal g = Err ValueError /\ gimag g = Err ValueError).
Proof. exact GridProps.C36_conjugate_absolute. Qed.
Print Assumptions C36_conjugate_absolute.
(** Mismatches raise ValueError, ... *)
Theorem C36_errors :
  forall f g, gwf f -> gwf g ->
  (~ same_points f g \/ broadcast (glead f) (glead g) = None -> gspin f = gspin g ->
     gadd f (OG g) = Err ValueError /\ gsubtract f (OG g) = Err ValueError
     /\ grid_ufunc u_add m_call [OG f; OG g] None false = Err ValueError
     /\ grid_ufunc u_subtract m_call [OG f; OG g] None false = Err ValueError)
  /\ (~ same_points f g \/ broadcast (glead f) (glead g) = None ->
     gmultiply f (OG g) = Err ValueError /\ gdivide f (OG g) = Err ValueError
     /\ grid_ufunc u_multiply m_call [OG f; OG g] None false = Err ValueError
     /\ grid_ufunc u_divide m_call [OG f; OG g] None false = Err ValueError)
  /\ (gspin f <> gspin g ->
     gadd f (OG g) = Err ValueError
     /\ grid_ufunc u_add m_call [OG f; OG g] None false = Err ValueError
     /\ grid_ufunc u_subtract m_call [OG f; OG g] None false = Err ValueError).
Proof. exact GridProps.C36_errors. Qed.
Print Assumptions C36_errors.
(** ... except that the method [subtract] raises NameError, ... *)
Theorem C36_subtract_spin_refuted :
  forall f g, gspin f <> gspin g -> gsubtract f (OG g) = Err NameError.
Proof. exact GridProps.C36_subtract_spin_refuted. Qed.
Print Assumptions C36_subtract_spin_refuted.
(** ... and a product for which the grid is too small, too. *)
Theorem C36_too_small_refuted :
  exists f g, gwf f /\ gwf g /\ same_points f g /\ glead f = [] /\ glead g = [] /\ gmultiply f (OG g) = Err NameError
    /\ grid_ufunc u_multiply m_call [OG f; OG g] None false = Err NameError.
Proof. exact GridProps.C36_too_small_refuted. Qed.
Print Assumptions C36_too_small_refuted.
(** Passing [out=] of the shape of the result changes nothing in the result, ... *)
Theorem C36_out :
  forall u args r o, grid_ufunc u m_call args None false = Ok (RGrid r) -> gshape (out_view o) = gshape (gdata r) ->
  exists r', grid_ufunc u m_call args (Some o) false = Ok (RGrid r') /\ same_grid_value r' r.
Proof. exact GridProps.C36_out. Qed.
Print Assumptions C36_out.
(** ... except when [out] is the only Grid. *)
Theorem C36_negative_out_refuted :
  exists x g r, gwf g /\ grid_ufunc u_negative m_call [OS x] (Some (OutGrid g)) false = Ok (RGrid r)
    /\ sc_shape x = gshape (gdata g) /\ sc_val x [0; 0] = RtoC 7 /\ value g [] 0 0 = RtoC 1 /\ value r [] 0 0 = RtoC (-1).
Proof. exact GridProps.C36_negative_out_refuted. Qed.
Print Assumptions C36_negative_out_refuted.

Example C36_nonvacuous : gwf demo_a /\ gwf demo_b /\ same_points demo_a demo_b /\ broadcast (glead demo_a) (glead demo_b) = Some [3; 2]
  /\ enough (gspin demo_a + gspin demo_b) (n_theta demo_a) (n_phi demo_a) /\ ~ enough (gspin demo_a - gspin demo_b) (n_theta demo_a) (n_phi demo_a)
  /\ gspin demo_a <> gspin demo_b
  /\ (exists r, gmultiply demo_a (OG demo_b) = Ok r /\ value r [2; 1] 3 4 = (45, 15)%R).
Proof.
  split; [exact demo_a_wf|]. split; [exact demo_b_wf|]. split; [split; reflexivity|]. split; [reflexivity|].
  split; [split; cbn; lia|]. split; [intros (H & _); cbn in H; lia|]. split; [cbn; lia|].
  eexists. split; [reflexivity|]. unfold value. cbn. unfold Cmult. cbn. f_equal; ring.
Qed.
Example C36_sum_nonvacuous : exists r, gadd demo_a (OG demo_a) = Ok r /\ value r [0; 1] 3 4 = RtoC 30.
Proof. eexists. split; [reflexivity|]. unfold value. cbn. rewrite <- RtoC_plus. f_equal. ring. Qed.
Example C36_out_nonvacuous : exists r, grid_ufunc u_multiply m_call [OG demo_a; OG demo_b] None false = Ok (RGrid r)
  /\ gshape (out_view (OutArr (mkgarr [6; 5; 3; 2] (fun _ => RtoC 0)))) = gshape (gdata r).
Proof. eexists. split; reflexivity. Qed.

(** ** C45 *)
Theorem C45_powers :
  forall g, gwf g ->
  (forall e, enough (e * gspin g) (n_theta g) (n_phi g) ->
   exists r, grid_ufunc u_power m_call [OG g; OS (mkscalars [] (fun _ => RtoC (IZR e)))] None false = Ok (RGrid r)
     /\ gwf r /\ has_shape r (e * gspin g) (n_theta g) (n_phi g) (glead g)
     /\ forall l i j, at_index (glead g) l -> 0 <= i < n_theta g -> 0 <= j < n_phi g ->
          (0 <= e -> value r l i j = Cpow (value g l i j) (Z.to_nat e))
          /\ (e < 0 -> value g l i j <> RtoC 0 -> (value r l i j * Cpow (value g l i j) (Z.to_nat (- e)))%C = RtoC 1))
  /\ (enough (2 * gspin g) (n_theta g) (n_phi g) ->
   exists r, grid_ufunc u_square m_call [OG g] None false = Ok (RGrid r)
     /\ gwf r /\ is_grid r (2 * gspin g) (n_theta g) (n_phi g) (glead g) (fun l i j => value g l i j * value g l i j)%C)
  /\ (exists r, grid_ufunc u_reciprocal m_call [OG g] None false = Ok (RGrid r)
     /\ gwf r /\ has_shape r (- gspin g) (n_theta g) (n_phi g) (glead g)
     /\ forall l i j, at_index (glead g) l -> 0 <= i < n_theta g -> 0 <= j < n_phi g ->
          value g l i j <> RtoC 0 -> (value r l i j * value g l i j)%C = RtoC 1)
  /\ (forall s, gspin g = 2 * s ->
   exists r, grid_ufunc u_sqrt m_call [OG g] None false = Ok (RGrid r)
     /\ gwf r /\ has_shape r s (n_theta g) (n_phi g) (glead g)
     /\ forall l i j, at_index (glead g) l -> 0 <= i < n_theta g -> 0 <= j < n_phi g ->
          (value r l i j * value r l i j)%C = value g l i j /\ (0 <= Re (value r l i j))%R)
  /\ (forall s, gspin g = 2 * s + 1 -> grid_ufunc u_sqrt m_call [OG g] None false = Err TypeError).
Proof. exact GridProps.C45_powers. Qed.
Print Assumptions C45_powers.
(** A fractional exponent is truncated. *)
Theorem C45_power_refuted :
  exists g r, gwf g /\ grid_ufunc u_power m_call [OG g; OS (mkscalars [] (fun _ => RtoC (3 / 2)))] None false = Ok (RGrid r)
    /\ value g [] 0 0 = RtoC 4 /\ value r [] 0 0 = RtoC 4 /\ Rpower 4 (3 / 2) = 8%R.
Proof. exact GridProps.C45_power_refuted. Qed.
Print Assumptions C45_power_refuted.
Example C45_nonvacuous : gwf demo_a /\ enough (-1 * gspin demo_a) (n_theta demo_a) (n_phi demo_a) /\ gspin demo_a = 2 * 1
  /\ ~ enough (2 * gspin demo_a) (n_theta demo_a) (n_phi demo_a) /\ gspin demo_b = 2 * (-1) + 1
  /\ enough (2 * gspin demo_b) (n_theta demo_b) (n_phi demo_b).
Proof.
  split; [exact demo_a_wf|]. split; [split; cbn; lia|]. split; [reflexivity|]. split; [intros (H & _); cbn in H; lia|]. split; [reflexivity|].
  split; cbn; lia.
Qed.

(** ** C30 *)
Theorem C30_grid_operators :
  forall g x, gwf g ->
  (forall ld, (length (sc_shape x) <= length (glead g))%nat -> broadcast (glead g) (sc_shape x) = Some ld ->
   let F l := sc_val x (bidx (sc_shape x) l) in
   (exists r, grid_ufunc u_multiply m_call [OG g; OS x] None false = Ok (RGrid r)
      /\ gwf r /\ is_grid r (gspin g) (n_theta g) (n_phi g) ld (fun l i j => value g (bidx (glead g) l) i j * F l)%C)
   /\ (exists r, grid_ufunc u_multiply m_call [OS x; OG g] None false = Ok (RGrid r)
      /\ gwf r /\ is_grid r (gspin g) (n_theta g) (n_phi g) ld (fun l i j => F l * value g (bidx (glead g) l) i j)%C)
   /\ (exists r, grid_ufunc u_divide m_call [OG g; OS x] None false = Ok (RGrid r)
      /\ gwf r /\ has_shape r (gspin g) (n_theta g) (n_phi g) ld
      /\ forall l i j, at_index ld l -> 0 <= i < n_theta g -> 0 <= j < n_phi g -> F l <> RtoC 0 ->
           (value r l i j * F l)%C = value g (bidx (glead g) l) i j)
   /\ (exists r, grid_ufunc u_divide m_call [OS x; OG g] None false = Ok (RGrid r)
      /\ gwf r /\ has_shape r (- gspin g) (n_theta g) (n_phi g) ld
      /\ forall l i j, at_index ld l -> 0 <= i < n_theta g -> 0 <= j < n_phi g -> value g (bidx (glead g) l) i j <> RtoC 0 ->
           (value r l i j * value g (bidx (glead g) l) i j)%C = F l)
   /\ (gspin g = 0 ->
        (exists r, grid_ufunc u_add m_call [OG g; OS x] None false = Ok (RGrid r)
          /\ gwf r /\ is_grid r 0 (n_theta g) (n_phi g) ld (fun l i j => value g (bidx (glead g) l) i j + F l)%C)
        /\ (exists r, grid_ufunc u_subtract m_call [OS x; OG g] None false = Ok (RGrid r)
          /\ gwf r /\ is_grid r 0 (n_theta g) (n_phi g) ld (fun l i j => F l - value g (bidx (glead g) l) i j)%C)))
  /\ ((length (sc_shape x) > length (glead g))%nat \/ broadcast (glead g) (sc_shape x) = None ->
      exists e, forall u args, In u [u_multiply; u_divide] -> args = [OG g; OS x] \/ args = [OS x; OG g] ->
        grid_ufunc u m_call args None false = Err e /\ (e = ValueError \/ e = TypeError)).
Proof. exact GridProps.C30_grid_operators. Qed.
Print Assumptions C30_grid_operators.
(** The methods [multiply], [divide] scale different grid points of one function differently, ... *)
Theorem C30_grid_method_refuted :
  exists g x r, gwf g /\ broadcast (glead g) (sc_shape x) = Some (glead g)
    /\ gmultiply g (OS x) = Ok r
    /\ (forall l i j, value g l i j = RtoC 1)
    /\ value r [0] 0 1 <> value r [0] 0 2
    /\ value r [1] 0 1 <> (value g [1] 0 1 * sc_val x [2])%C.
Proof. exact GridProps.C30_grid_method_refuted. Qed.
Print Assumptions C30_grid_method_refuted.
(** ... but are right for a number. *)
Theorem C30_grid_method_partial :
  forall g c, gwf g ->
  let x := mkscalars [] (fun _ => c) in
  (exists r, gmultiply g (OS x) = Ok r /\ gwf r /\ is_grid r (gspin g) (n_theta g) (n_phi g) (glead g) (fun l i j => value g l i j * c)%C)
  /\ (c <> RtoC 0 -> exists r, gdivide g (OS x) = Ok r /\ gwf r /\ is_grid r (gspin g) (n_theta g) (n_phi g) (glead g) (fun l i j => value g l i j / c)%C)
  /\ (gspin g = 0 -> exists r, gadd g (OS x) = Ok r /\ gwf r /\ is_grid r 0 (n_theta g) (n_phi g) (glead g) (fun l i j => value g l i j + c)%C)
  /\ (gspin g = 0 -> exists r, gsubtract g (OS x) = Ok r /\ gwf r /\ is_grid r 0 (n_theta g) (n_phi g) (glead g) (fun l i j => value g l i j - c)%C)
  /\ (gspin g <> 0 -> c <> RtoC 0 -> gadd g (OS x) = Err ValueError /\ gsubtract g (OS x) = Err ValueError).
Proof. exact GridProps.C30_grid_method_partial. Qed.
Print Assumptions C30_grid_method_partial.
Example C30_nonvacuous : gwf demo_a /\ (length [3; 2] <= length (glead demo_a))%nat /\ broadcast (glead demo_a) [3; 2] = Some [3; 2]
  /\ broadcast (glead demo_a) [4; 3] = None.
Proof. split; [exact demo_a_wf|]. split; [cbn; lia|]. split; reflexivity. Qed.

(** ** C37 *)
(** What the constructor accepts; a grid too small raises NameError instead of ValueError. *)
Theorem C37_construct_partial :
  forall a im kw,
  match gshape a, kw, im with
  | np :: nt :: ld, Some s, _ | np :: nt :: ld, None, Some s =>
      (enough s nt np -> exists g, Grid_new a im [] kw = Ok g /\ Grid_new a im [s] None = Ok g /\ gdata g = a /\ gspin g = s)
      /\ (~ enough s nt np -> Grid_new a im [] kw = Err NameError)
  | _, _, _ => Grid_new a im [] kw = Err ValueError
  end.
Proof. exact GridProps.C37_construct. Qed.
Print Assumptions C37_construct_partial.
Theorem C37_positional :
  forall a im args kw, (2 <= length args)%nat -> Grid_new a im args kw = Err ValueError.
Proof. exact GridProps.C37_positional. Qed.
Print Assumptions C37_positional.
(** [Grid.modes] never returns. *)
Theorem C37_modes_refuted :
  forall map2salm g L, Grid_modes map2salm g L = Err (match L with None | Some 0 => NameError | _ => TypeError end).
Proof. exact GridProps.C37_modes_refuted. Qed.
Print Assumptions C37_modes_refuted.
Theorem C37_pickle_refuted :
  forall g, gpickle g = Err NameError.
Proof. exact GridProps.C37_pickle_refuted. Qed.
Print Assumptions C37_pickle_refuted.
Example C37_nonvacuous : ~ enough 3 5 6 /\ enough 2 5 6.
Proof. unfold enough. cbn. lia. Qed.

(** ** C38 *)
Theorem C38_theta_phi :
  forall nt np, 2 <= nt -> 1 <= np ->
  exists e, theta_phi nt np = Ok ([nt; np; 2], e)
    /\ (forall i j, 0 <= i < nt -> 0 <= j < np ->
          e i j 0 = (IZR i * PI / (IZR nt - 1))%R /\ e i j 1 = (2 * PI * IZR j / IZR np)%R)
    /\ (forall i j, 0 <= i < nt -> 0 <= j < np -> (0 <= e i j 0%Z <= PI)%R /\ (0 <= e i j 1%Z < 2 * PI)%R)
    /\ (forall j, 0 <= j < np -> e 0 j 0 = 0%R /\ e (nt - 1) j 0 = PI)
    /\ (forall i, 0 <= i < nt -> e i 0 1 = 0%R)
    /\ (forall i j i' j', 0 <= i < i' -> i' < nt -> 0 <= j < np -> 0 <= j' < np -> (e i j 0%Z < e i' j' 0%Z)%R)
    /\ (forall i j i' j', 0 <= j < j' -> j' < np -> 0 <= i < nt -> 0 <= i' < nt -> (e i j 1%Z < e i' j' 1%Z)%R).
Proof. exact GridProps.C38_theta_phi. Qed.
Print Assumptions C38_theta_phi.
Example C38_nonvacuous : 2 <= 5 /\ 1 <= 6 /\ (exists e, theta_phi 5 6 = Ok ([5; 6; 2], e)).
Proof. split; [lia|]. split; [lia|]. eexists. reflexivity. Qed.
