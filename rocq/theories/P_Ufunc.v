(** Property C29: universal functions on Modes objects. *)
Require Import ZArith Lia List Reals Lra Bool.
From Coquelicot Require Import Complex.
From Verif Require Import Base CBase Fact IndexModel Wigner3jModel ModesModel ModesSpec MultModel MultSpec UfuncModel UfuncSpec.
From Verif Require GridModel UfuncProps.
From Verif Require Import P_Modes.
Import ListNotations.
Import GridModel (ufunc(..), umethod(..)).
Open Scope Z_scope.

(** ** C29 *)

(** A call without [out] that returns gives the documented result: for every ufunc, operand kinds and shapes. *)
Theorem C29_documented :
  forall w gs gm h u args h' r, inputs_ok u args -> inputs_wf w h args ->
  modes_ufunc w gs gm h u m_call args None false = Ok (h', r) -> documented h u args None h' r.
Proof. exact UfuncProps.C29_documented. Qed.
Print Assumptions C29_documented.

(** It returns for every supported combination (product of two Modes objects: see C25 about the division by zero). *)
Theorem C29_accepts :
  forall w gs gm h u args, inputs_wf w h args -> supported u args -> (exists f, In (OM f) args) ->
  (exists h' r, modes_ufunc w gs gm h u m_call args None false = Ok (h', r))
  \/ (u = u_multiply /\ modes_ufunc w gs gm h u m_call args None false = Err ZeroDivisionError
      /\ exists f g, args = [OM f; OM g] /\ 7 < ellmax (md f) /\ 7 < ellmax (md g) /\ 28 <= (ellmax (md f) - 7) * (ellmax (md g) - 7)).
Proof. exact UfuncProps.C29_accepts. Qed.
Print Assumptions C29_accepts.

(** Everything else is declined. *)
Theorem C29_rejects :
  forall w gs gm h u args, inputs_ok u args -> inputs_wf w h args -> ~ supported u args ->
  exists e, modes_ufunc w gs gm h u m_call args None false = Err e /\ (e = TypeError \/ e = ValueError).
Proof. exact UfuncProps.C29_rejects. Qed.
Print Assumptions C29_rejects.

(** With [out=]: the documented result is put there, under the conditions [out_ok].  What is missing is the rest of the
    [out] arguments, for which the claim is false: C29_multiply_out_refuted, C29_negative_out_refuted,
    C29_absolute_out_refuted, C24_out_stale_refuted, C24_out_alias_refuted. *)
Theorem C29_out_partial :
  forall w gs gm h u args out h' r, inputs_ok u args -> inputs_wf w h args -> out_ok h u args out ->
  modes_ufunc w gs gm h u m_call args out false = Ok (h', r) -> documented h u args out h' r.
Proof. exact UfuncProps.C29_out_partial. Qed.
Print Assumptions C29_out_partial.

(** Different modes of one function are never scaled differently. *)
Theorem C29_one_factor :
  forall w gs gm h u f x args out h' r, wf h f -> 0 <= ellmax (md f) -> out_ok h u args out ->
  (u = u_multiply /\ (args = [OM f; OS x] \/ args = [OS x; OM f]) \/ u = u_divide /\ args = [OM f; OS x]) ->
  modes_ufunc w gs gm h u m_call args out false = Ok (h', r) ->
  exists m, r = RModes m /\ forall idx, at_index (lead (nd m)) idx ->
    exists c, forall ell mm, 0 <= ell <= ellmax (md m) -> - ell <= mm <= ell -> mode h' m idx ell mm = (c * mode h f (bidx (lead (nd f)) idx) ell mm)%C.
Proof. exact UfuncProps.C29_one_factor. Qed.
Print Assumptions C29_one_factor.

(** Further keyword arguments are refused. *)
Theorem C29_keywords :
  forall w gs gm h u meth args out, comparison u = false ->
  exists e, modes_ufunc w gs gm h u meth args out true = Err e
    /\ (e = TypeError \/ e = NotImplementedError \/ e = ValueError /\ meth = m_rest /\ arity u = Some 1%nat).
Proof. exact UfuncProps.C29_keywords. Qed.
Print Assumptions C29_keywords.

(** [m *= x], [m /= x], [m += x] and [m -= x] with a scalar or plain array always raise. *)
Theorem C29_in_place :
  forall w gs gm h f x u, wf h f -> 0 <= ellmax (md f) -> (u = u_multiply \/ u = u_divide \/ u = u_add \/ u = u_subtract) ->
  exists e, modes_ufunc w gs gm h u m_call [OM f; OS x] (Some (OutModes f)) false = Err e /\ (e = TypeError \/ e = ValueError).
Proof. exact UfuncProps.C29_in_place. Qed.
Print Assumptions C29_in_place.

(** [reduce], [accumulate], [reduceat] and [outer] do what a plain call does (numpy refuses them for functions of one
    argument); [at] does too but returns None. *)
Theorem C29_other_methods :
  forall w gs gm h u args out, comparison u = false ->
  (arity u = Some 1%nat -> modes_ufunc w gs gm h u m_rest args out false = Err ValueError)
  /\ (arity u <> Some 1%nat -> modes_ufunc w gs gm h u m_rest args out false = modes_ufunc w gs gm h u m_call args out false)
  /\ (u <> u_absolute -> forall h' r, modes_ufunc w gs gm h u m_at args out false = Ok (h', r) ->
        r = RNone /\ exists r', modes_ufunc w gs gm h u m_call args out false = Ok (h', r')).
Proof. exact UfuncProps.C29_other_methods. Qed.
Print Assumptions C29_other_methods.

Theorem C29_multiply_out_refuted :
  exists h f a, wf h f /\ 0 <= ellmax (md f) /\ (buf a < next h)%nat /\ buf a <> buf (nd f) /\ ~ out_ok h u_multiply [OM f; OM f] (Some (OutArr a))
  /\ forall gs gm, exists h1 r1 h2 r2,
    modes_ufunc exact gs gm h u_multiply m_call [OM f; OM f] None false = Ok (h1, RModes r1)
    /\ modes_ufunc exact gs gm h u_multiply m_call [OM f; OM f] (Some (OutArr a)) false = Ok (h2, RModes r2)
    /\ mode h1 r1 [] 0 0 = RtoC 0 /\ mode h2 r2 [] 0 0 = RtoC 1.
Proof. exact UfuncProps.C29_multiply_out_refuted. Qed.
Print Assumptions C29_multiply_out_refuted.

Theorem C29_negative_out_refuted :
  exists h m x, wf h m /\ 0 <= ellmax (md m) /\ sc_shape x = [1] /\ sc_val x [0] = RtoC 5
  /\ forall w gs gm, exists h' r, modes_ufunc w gs gm h u_negative m_call [OS x] (Some (OutModes m)) false = Ok (h', RModes r)
     /\ nd r = nd m /\ mode h m [] 0 0 = RtoC 1 /\ mode h' r [] 0 0 = (- RtoC 1)%C.
Proof. exact UfuncProps.C29_negative_out_refuted. Qed.
Print Assumptions C29_negative_out_refuted.

Theorem C29_absolute_out_refuted :
  exists h m a, wf h m /\ 0 <= ellmax (md m) /\ wid a = wid (nd m) /\ lead a = lead (nd m) /\ (buf a < next h)%nat
  /\ forall w gs gm, exists sh v, modes_ufunc w gs gm h u_absolute m_call [OM m] (Some (OutArr a)) false = Ok (h, RReal sh v)
     /\ v [0] = 1%R /\ mem h (buf a) [] 0 = RtoC 0.
Proof. exact UfuncProps.C29_absolute_out_refuted. Qed.
Print Assumptions C29_absolute_out_refuted.

Theorem C29_at_refuted :
  exists h m, wf h m /\ 0 <= ellmax (md m) /\ mode h m [] 0 0 = RtoC 1
  /\ forall w gs gm x, exists h', modes_ufunc w gs gm h u_negative m_at [OM m; OS x] None false = Ok (h', RNone) /\ mode h' m [] 0 0 = RtoC 1.
Proof. exact UfuncProps.C29_at_refuted. Qed.
Print Assumptions C29_at_refuted.

(** Two functions of ell_max 3 scaled by two different numbers; the sum with a function of smaller ell_max; and a pair of
    operands that is not supported. *)
Definition demo_x : scalars := mkscalars [2] (fun idx => RtoC (IZR (nth 0 idx 0 + 2))).
Example C29_scalar_nonvacuous :
  inputs_ok u_multiply [OS demo_x; OM demo_f] /\ inputs_wf fixed demo_heap [OS demo_x; OM demo_f] /\ supported u_multiply [OS demo_x; OM demo_f]
  /\ bscalar demo_x [0] = RtoC 2 /\ bscalar demo_x [1] = RtoC 3
  /\ forall gs gm, exists h' r, modes_ufunc fixed gs gm demo_heap u_multiply m_call [OS demo_x; OM demo_f] None false = Ok (h', RModes r)
       /\ mode h' r [1] 3 2 = (RtoC 3 * mode demo_heap demo_f [1] 3 2)%C.
Proof.
  assert (IW : inputs_wf fixed demo_heap [OS demo_x; OM demo_f]).
  { split; [|intros f g Q; discriminate]. intros f [Q|[Q|[]]]; [discriminate|]. injection Q as <-. split; [exact demo_f_wf|cbn; lia]. }
  assert (SU : supported u_multiply [OS demo_x; OM demo_f]) by (exists [2]; split; [cbn; lia|reflexivity]).
  split; [reflexivity|]. split; [exact IW|]. split; [exact SU|]. split; [reflexivity|]. split; [reflexivity|].
  intros gs gm. destruct (C29_accepts fixed gs gm demo_heap u_multiply _ IW SU) as [(h' & r & E)|(_ & _ & f & g & Q & _)]; [exists demo_f; cbn; auto| |discriminate].
  pose proof (C29_documented fixed gs gm demo_heap u_multiply [OS demo_x; OM demo_f] h' r eq_refl IW E) as D. unfold documented in D. cbn [comparison] in D.
  destruct r as [r| | | | | |]; try (destruct D; fail). destruct D as (sh & (_ & EB) & _ & _ & _ & _ & M & El & _).
  exists h', r. split; [exact E|]. cbn in EB. injection EB as <-. rewrite M; [reflexivity|rewrite El; repeat constructor; lia|cbn; lia|lia].
Qed.
Example C29_sum_nonvacuous :
  inputs_ok u_subtract [OM demo_f; OM demo_g] /\ inputs_wf fixed demo_heap [OM demo_f; OM demo_g] /\ supported u_subtract [OM demo_f; OM demo_g]
  /\ ~ supported u_divide [OS demo_x; OM demo_f] /\ ~ supported u_add [OM demo_f; OS demo_x].
Proof.
  split; [reflexivity|]. split.
  { split. - intros f [Q|[Q|[]]]; injection Q as <-; (split; [first [exact demo_f_wf|exact demo_g_wf]|cbn; lia]).
    - intros f g Q. injection Q as <- <-. split; [right; split; [reflexivity|cbn; lia]|vm_compute; discriminate]. }
  split; [split; [reflexivity|exists [2]; reflexivity]|]. split; [intros []|].
  intros (Z & _). specialize (Z [1] ltac:(repeat constructor; lia)). cbn in Z. apply (f_equal Re) in Z. cbn in Z. lra.
Qed.
(** A place for the sum and for the product: an array of the right size holding zeros. *)
Example C29_out_nonvacuous :
  let h := mkheap 4 (fun b idx k => if Nat.eqb b 3 then RtoC 0 else mem demo_heap b idx k) in
  out_ok h u_add [OM demo_f; OM demo_g] (Some (OutArr (mknd 3 [2] 16)))
  /\ out_ok h u_multiply [OM demo_f; OM demo_g] (Some (OutArr (mknd 3 [2] 36)))
  /\ out_ok h u_conjugate [OM demo_f] (Some (OutModes demo_f))
  /\ exists h' r, modes_ufunc fixed (fun _ => 7%R) (fun _ => 8%R) h u_conjugate m_call [OM demo_f] (Some (OutModes demo_f)) false = Ok (h', RModes r)
       /\ spin (md r) = 2.
Proof.
  cbv zeta. split. { split; [cbn; lia|]. split; [cbn; lia|]. split; [discriminate|]. reflexivity. }
  split. { split; [cbn; lia|]. split; [cbn; lia|]. split; [discriminate|]. split; [discriminate|]. reflexivity. }
  split. { split; [cbn; lia|]. split; cbn; lia. }
  eexists _, _. split; [vm_compute; reflexivity|reflexivity].
Qed.
