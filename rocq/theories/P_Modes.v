(** Properties C11 (Modes part), C21-C24, C26, C28, C30 (Modes part), C41 and C42: the Modes container. *)
Require Import ZArith Lia List Reals Lra Bool.
From Coquelicot Require Import Complex.
From Verif Require Import Base CBase CSum DRep IndexModel ConvModel WignerModel WignerSpec RotorSpec SWSHModel ModesModel ModesSpec.
From Verif Require WignerProps ModesProps ModesProps2.
Import ListNotations.
Open Scope Z_scope.

(** Concrete objects for the examples below: spin weight -2, ell up to 3, two functions (leading shape (2,)), every mode
    with ell >= 2 different from zero; and the same with ell up to 2 and one function. *)
Definition demo_heap : heap :=
  mkheap 3 (fun b idx k => if k <? 4 then RtoC 0 else (RtoC (IZR (k + 1)) + Ci * RtoC (IZR (nth 0 idx 0)))%C).
Definition demo_f : modes := mkmodes (mknd 0 [2] 16) (mkmeta (-2) 3 None).
Definition demo_g : modes := mkmodes (mknd 1 [1] 9) (mkmeta (-2) 2 None).
Lemma demo_low : forall ell mm, 0 <= ell < 2 -> - ell <= mm <= ell -> (ell * ell + (ell + mm) <? 4) = true.
Proof. intros ell mm H H'. apply Z.ltb_lt. nia. Qed.
Example demo_f_wf : wf demo_heap demo_f.
Proof. split; [cbn; lia|]. split; [reflexivity|]. cbn. intros. rewrite demo_low; auto. lia. Qed.
Example demo_g_wf : wf demo_heap demo_g.
Proof. split; [cbn; lia|]. split; [reflexivity|]. cbn. intros. rewrite demo_low; auto. lia. Qed.
Definition demo_0 : modes := mkmodes (mknd 2 [] 9) (mkmeta 0 2 None).
Example demo_0_wf : wf demo_heap demo_0.
Proof. split; [cbn; lia|]. split; [reflexivity|]. cbn. lia. Qed.
Example demo_table : exists tab, is_Wigner_table 32 tab.
Proof. apply WignerProps.table_exists. lia. Qed.
Example demo_nonzero : mode demo_heap demo_f [1] 3 2 <> RtoC 0.
Proof. unfold mode. cbn. intros H. apply (f_equal Im) in H. cbn in H. lra. Qed.

(** ** C21 *)
Theorem C21_constructor :
  forall h a s l L trunc, (buf a < next h)%nat -> 0 <= l ->
  let call := Modes_new h (InArr a) None [s; l; L] (mkkw None None None trunc) in
  (wid a <> LM_total_size l L -> call = Err ValueError)
  /\ (wid a = LM_total_size l L ->
      exists h' r, call = Ok (h', r)
        /\ spin (md r) = s /\ ellmax (md r) = L /\ lead (nd r) = lead a /\ wid (nd r) = (L + 1) ^ 2
        /\ (forall idx ell m, 0 <= ell <= L -> - ell <= m <= ell ->
             mode h' r idx ell m
             = if (l <=? ell) && (Z.abs s <=? ell) then mem h (buf a) idx (LM_index ell m l) else RtoC 0)
        /\ (0 < l -> forall b, (b < next h)%nat -> forall idx k, mem h' b idx k = mem h b idx k)
        /\ (l = 0 -> s = 0 -> forall b, (b < next h)%nat -> forall idx k, 0 <= k < wid a -> mem h' b idx k = mem h b idx k)).
Proof. exact ModesProps.C21_constructor. Qed.
Print Assumptions C21_constructor.

Theorem C21_call_forms :
  forall h a im s l L ko lo mo trunc,
  Modes_new h a im [s; l; L] (mkkw ko lo mo trunc) = Modes_new h a im [] (mkkw (Some s) (Some l) (Some L) trunc)
  /\ Modes_new h a im [s] (mkkw ko lo mo trunc) = Modes_new h a im [] (mkkw (Some s) lo mo trunc)
  /\ Modes_new h a im [s; l] (mkkw ko lo mo trunc) = Err ValueError
  /\ Modes_new h a None [] (mkkw None lo mo trunc) = Err ValueError.
Proof. exact ModesProps.C21_call_forms. Qed.
Print Assumptions C21_call_forms.

Theorem C21_deduced_ell_max :
  forall h a s l trunc,
  (forall L, -1 <= L -> wid a = LM_total_size l L ->
     Modes_new h (InArr a) None [s] (mkkw None (Some l) None trunc) = Modes_new h (InArr a) None [s; l; L] (mkkw None None None trunc))
  /\ ((forall L, -1 <= L -> wid a <> LM_total_size l L) ->
     Modes_new h (InArr a) None [s] (mkkw None (Some l) None trunc) = Err ValueError).
Proof. exact ModesProps.C21_deduced_ell_max. Qed.
Print Assumptions C21_deduced_ell_max.

(** The last part of C21 is false: with ell_min = 0 the constructor writes zeros into the caller's array. *)
Theorem C21_caller_array_refuted :
  exists h a s l L h' r idx k,
    (buf a < next h)%nat /\ 0 <= k < wid a
    /\ Modes_new h (InArr a) None [s; l; L] no_kw = Ok (h', r)
    /\ mem h' (buf a) idx k <> mem h (buf a) idx k.
Proof. exact ModesProps.C21_caller_array_refuted. Qed.
Print Assumptions C21_caller_array_refuted.

Example C21_nonvacuous : 0 <= 2 /\ wid (mknd 0 [2] 12) = LM_total_size 2 3 /\ Nat.lt (buf (mknd 0 [2] 12)) (next demo_heap).
Proof. split; [lia|]. split; [reflexivity|]. cbn. lia. Qed.

(** ** C22 *)
Theorem C22_conjugate :
  forall Lt tab h f, is_Wigner_table Lt tab -> wf h f -> 0 <= ellmax (md f) <= Lt ->
  exists h' r, conjugate h f false = Ok (h', r)
    /\ spin (md r) = - spin (md f) /\ ellmax (md r) = ellmax (md f) /\ lead (nd r) = lead (nd f) /\ wf h' r
    /\ (forall b, (b < next h)%nat -> forall idx k, mem h' b idx k = mem h b idx k)
    /\ forall q F, rotor q -> value_at tab h f q F -> value_at tab h' r q (fun idx => Cconj (F idx)).
Proof. exact ModesProps.C22_conjugate. Qed.
Print Assumptions C22_conjugate.

Theorem C22_twice :
  forall h f, wf h f ->
  exists h1 r1 h2 r2, conjugate h f false = Ok (h1, r1) /\ conjugate h1 r1 false = Ok (h2, r2)
    /\ md r2 = md f /\ lead (nd r2) = lead (nd f) /\ wid (nd r2) = wid (nd f)
    /\ same_modes f (mode h2 r2) (mode h f).
Proof. exact ModesProps.C22_twice. Qed.
Print Assumptions C22_twice.

Theorem C22_inplace :
  forall h f, wf h f ->
  exists h1 r1 h2 r2, conjugate h f false = Ok (h1, r1) /\ conjugate h f true = Ok (h2, r2)
    /\ md r2 = md r1 /\ nd r2 = nd f /\ same_modes f (mode h2 r2) (mode h1 r1) /\ changes_only (buf (nd f)) h h2.
Proof. exact ModesProps.C22_inplace. Qed.
Print Assumptions C22_inplace.

Example C22_nonvacuous : wf demo_heap demo_f /\ 0 <= ellmax (md demo_f) <= 32 /\ spin (md demo_f) = -2
  /\ rotor (mkquat (3 / 5) 0 (4 / 5) 0).
Proof. split; [exact demo_f_wf|]. split; [cbn; lia|]. split; [reflexivity|]. exact WignerProps.q345_rotor. Qed.

(** ** C23 *)
Theorem C23_real_imag :
  forall Lt tab h f, is_Wigner_table Lt tab -> wf h f -> 0 <= ellmax (md f) <= Lt -> spin (md f) = 0 ->
  exists h1 re h2 im, real_func h f false = Ok (h1, re) /\ imag_func h f false = Ok (h2, im)
    /\ spin (md re) = 0 /\ ellmax (md re) = ellmax (md f) /\ lead (nd re) = lead (nd f) /\ wf h1 re
    /\ spin (md im) = 0 /\ ellmax (md im) = ellmax (md f) /\ lead (nd im) = lead (nd f) /\ wf h2 im
    /\ (forall b, (b < next h)%nat -> forall idx k, mem h1 b idx k = mem h b idx k /\ mem h2 b idx k = mem h b idx k)
    /\ (forall q F, rotor q -> value_at tab h f q F ->
          value_at tab h1 re q (fun idx => RtoC (Re (F idx))) /\ value_at tab h2 im q (fun idx => RtoC (Im (F idx))))
    /\ same_modes f (mode h f) (fun idx ell m => mode h1 re idx ell m + Ci * mode h2 im idx ell m)%C.
Proof. exact ModesProps.C23_real_imag. Qed.
Print Assumptions C23_real_imag.

Theorem C23_real_idempotent :
  forall h f, wf h f -> spin (md f) = 0 ->
  exists h1 r1 h2 r2, real_func h f false = Ok (h1, r1) /\ real_func h1 r1 false = Ok (h2, r2)
    /\ md r2 = md r1 /\ lead (nd r2) = lead (nd r1) /\ same_modes f (mode h2 r2) (mode h1 r1).
Proof. exact ModesProps.C23_real_idempotent. Qed.
Print Assumptions C23_real_idempotent.

Theorem C23_inplace :
  forall h f, wf h f -> spin (md f) = 0 ->
  exists h1 r1 h2 i1 h3 h4, real_func h f false = Ok (h1, r1) /\ imag_func h f false = Ok (h2, i1)
    /\ real_func h f true = Ok (h3, f) /\ imag_func h f true = Ok (h4, f)
    /\ same_modes f (mode h3 f) (mode h1 r1) /\ same_modes f (mode h4 f) (mode h2 i1)
    /\ changes_only (buf (nd f)) h h3 /\ changes_only (buf (nd f)) h h4.
Proof. exact ModesProps.C23_inplace. Qed.
Print Assumptions C23_inplace.

Theorem C23_nonzero_spin :
  forall h f inplace, spin (md f) <> 0 ->
  real_func h f inplace = Err ValueError /\ imag_func h f inplace = Err ValueError.
Proof. exact ModesProps.C23_nonzero_spin. Qed.
Print Assumptions C23_nonzero_spin.

Example C23_nonvacuous : wf demo_heap demo_0 /\ spin (md demo_0) = 0 /\ 0 <= ellmax (md demo_0) <= 32 /\ spin (md demo_f) <> 0.
Proof. split; [exact demo_0_wf|]. split; [reflexivity|]. split; [cbn; lia|]. cbn. lia. Qed.

(** ** C24 *)
Theorem C24_add :
  forall Lt tab h f g sh subtraction, is_Wigner_table Lt tab -> wf h f -> wf h g ->
  0 <= ellmax (md f) <= Lt -> 0 <= ellmax (md g) <= Lt -> spin (md f) = spin (md g) ->
  broadcast (lead (nd f)) (lead (nd g)) = Some sh ->
  exists h' r, add h f g subtraction = Ok (h', r) /\ np_add h f g subtraction = Ok (h', r)
    /\ (subtraction = true -> subtract h f g = Ok (h', r))
    /\ spin (md r) = spin (md f) /\ ellmax (md r) = Z.max (ellmax (md f)) (ellmax (md g)) /\ lead (nd r) = sh /\ wf h' r
    /\ (forall b, (b < next h)%nat -> forall idx k, mem h' b idx k = mem h b idx k)
    /\ forall q F G, rotor q -> value_at tab h f q F -> value_at tab h g q G ->
         value_at tab h' r q (fun idx =>
           let x := F (bidx (lead (nd f)) idx) in let y := G (bidx (lead (nd g)) idx) in
           if subtraction then (x - y)%C else (x + y)%C).
Proof. exact ModesProps2.C24_add. Qed.
Print Assumptions C24_add.

Theorem C24_spin_mismatch :
  forall h f g subtraction out, spin (md f) <> spin (md g) ->
  add h f g subtraction = Err ValueError /\ subtract h f g = Err ValueError
  /\ np_add h f g subtraction = Err TypeError /\ np_add_out h f g out subtraction = Err TypeError.
Proof. exact ModesProps2.C24_spin_mismatch. Qed.
Print Assumptions C24_spin_mismatch.

Theorem C24_nonzero_scalar :
  forall op h f x idx, at_index (sc_shape x) idx -> sc_val x idx <> RtoC 0 ->
  add_scalar op h f x = Err TypeError /\ add_method_scalar op h f x = Err ValueError.
Proof. exact ModesProps2.C24_nonzero_scalar. Qed.
Print Assumptions C24_nonzero_scalar.

(** The [out=] claim for every out array is false (the two refutations below); it holds for an array in memory of its own
    whose entries beyond the modes of the first operand are zero. *)
Theorem C24_out_partial :
  forall h f g out subtraction sh, wf h f -> wf h g -> 0 <= ellmax (md f) -> 0 <= ellmax (md g) ->
  spin (md f) = spin (md g) -> broadcast (lead (nd f)) (lead (nd g)) = Some sh ->
  lead out = sh -> wid out = (Z.max (ellmax (md f)) (ellmax (md g)) + 1) ^ 2 ->
  (buf out < next h)%nat -> buf out <> buf (nd g) ->
  (forall idx k, at_index sh idx -> (ellmax (md f) + 1) ^ 2 <= k < wid out -> mem h (buf out) idx k = RtoC 0) ->
  exists h1 r1 h2 r2, np_add h f g subtraction = Ok (h1, r1) /\ np_add_out h f g out subtraction = Ok (h2, r2)
    /\ nd r2 = out /\ md r2 = md r1 /\ changes_only (buf out) h h2 /\ same_modes r1 (mode h2 r2) (mode h1 r1).
Proof. exact ModesProps2.C24_out_partial. Qed.
Print Assumptions C24_out_partial.

Theorem C24_out_stale_refuted :
  exists h f g out h1 r1 h2 r2, wf h f /\ wf h g /\ spin (md f) = spin (md g)
    /\ lead out = [] /\ wid out = 4 /\ (buf out < next h)%nat /\ buf out <> buf (nd f) /\ buf out <> buf (nd g)
    /\ np_add h f g false = Ok (h1, r1) /\ np_add_out h f g out false = Ok (h2, r2)
    /\ ellmax (md r1) = 1 /\ ellmax (md r2) = 1
    /\ mode h2 r2 [] 1 0 <> mode h1 r1 [] 1 0.
Proof. exact ModesProps2.C24_out_stale_refuted. Qed.
Print Assumptions C24_out_stale_refuted.

Theorem C24_out_alias_refuted :
  exists h f g h1 r1 h2 r2, wf h f /\ wf h g /\ spin (md f) = spin (md g) /\ buf (nd f) <> buf (nd g)
    /\ np_add h f g false = Ok (h1, r1) /\ np_add_out h f g (nd g) false = Ok (h2, r2)
    /\ mode h1 r1 [] 0 0 = (mode h f [] 0 0 + mode h g [] 0 0)%C
    /\ mode h2 r2 [] 0 0 = (mode h f [] 0 0 + mode h f [] 0 0)%C
    /\ mode h2 r2 [] 0 0 <> mode h1 r1 [] 0 0.
Proof. exact ModesProps2.C24_out_alias_refuted. Qed.
Print Assumptions C24_out_alias_refuted.

Example C24_nonvacuous : wf demo_heap demo_f /\ wf demo_heap demo_g /\ spin (md demo_f) = spin (md demo_g)
  /\ ellmax (md demo_f) <> ellmax (md demo_g) /\ broadcast (lead (nd demo_f)) (lead (nd demo_g)) = Some [2]
  /\ spin (md demo_0) <> spin (md demo_g)
  /\ at_index (sc_shape (mkscalars [2] (fun _ => RtoC 1))) [1].
Proof.
  split; [exact demo_f_wf|]. split; [exact demo_g_wf|]. split; [reflexivity|]. split; [cbn; lia|]. split; [reflexivity|].
  split; [cbn; lia|]. repeat constructor; cbn; lia.
Qed.
Example C24_out_nonvacuous :
  let h := mkheap 4 (fun b idx k => if Nat.eqb b 3 then RtoC 0 else mem demo_heap b idx k) in
  lead (mknd 3 [2] 16) = [2] /\ wid (mknd 3 [2] 16) = (Z.max 3 2 + 1) ^ 2 /\ Nat.lt (buf (mknd 3 [2] 16)) (next h)
  /\ forall idx k, mem h (buf (mknd 3 [2] 16)) idx k = RtoC 0.
Proof. repeat split; cbn; lia. Qed.

(** ** C26 *)
Theorem C26_L_algebra :
  forall h f, wf h f -> let s := spin (md f) in
  exists zp pz p zm mz m pm mp z zz l2,
    gives (after Lz Lplus) h f s zp /\ gives (after Lplus Lz) h f s pz /\ gives Lplus h f s p
    /\ gives (after Lz Lminus) h f s zm /\ gives (after Lminus Lz) h f s mz /\ gives Lminus h f s m
    /\ gives (after Lplus Lminus) h f s pm /\ gives (after Lminus Lplus) h f s mp
    /\ gives Lz h f s z /\ gives (after Lz Lz) h f s zz /\ gives Lsquared h f s l2
    /\ same_modes f (fun i l k => zp i l k - pz i l k)%C p
    /\ same_modes f (fun i l k => zm i l k - mz i l k)%C (fun i l k => - m i l k)%C
    /\ same_modes f (fun i l k => pm i l k - mp i l k)%C (fun i l k => RtoC 2 * z i l k)%C
    /\ same_modes f l2 (fun i l k => (pm i l k + mp i l k) / RtoC 2 + zz i l k)%C.
Proof. exact ModesProps2.C26_L_algebra. Qed.
Print Assumptions C26_L_algebra.

Theorem C26_R_algebra :
  forall h f, wf h f -> let s := spin (md f) in
  exists zp pz p zm mz m pm mp z zz r2 l2,
    gives (after Rz Rplus) h f (s - 1) zp /\ gives (after Rplus Rz) h f (s - 1) pz /\ gives Rplus h f (s - 1) p
    /\ gives (after Rz Rminus) h f (s + 1) zm /\ gives (after Rminus Rz) h f (s + 1) mz /\ gives Rminus h f (s + 1) m
    /\ gives (after Rplus Rminus) h f s pm /\ gives (after Rminus Rplus) h f s mp
    /\ gives Rz h f s z /\ gives (after Rz Rz) h f s zz /\ gives Rsquared h f s r2 /\ gives Lsquared h f s l2
    /\ same_modes f (fun i l k => zp i l k - pz i l k)%C p
    /\ same_modes f (fun i l k => zm i l k - mz i l k)%C (fun i l k => - m i l k)%C
    /\ same_modes f (fun i l k => pm i l k - mp i l k)%C (fun i l k => RtoC 2 * z i l k)%C
    /\ same_modes f r2 (fun i l k => (pm i l k + mp i l k) / RtoC 2 + zz i l k)%C
    /\ same_modes f r2 l2.
Proof. exact ModesProps2.C26_R_algebra. Qed.
Print Assumptions C26_R_algebra.

Theorem C26_L_R_commute :
  forall A B ds, In A [Lz; Lplus; Lminus; Lsquared] -> In (B, ds) [(Rz, 0); (Rplus, -1); (Rminus, 1); (Rsquared, 0); (eth, 1); (ethbar, -1)] ->
  forall h f, wf h f ->
  exists ab ba, gives (after A B) h f (spin (md f) + ds) ab /\ gives (after B A) h f (spin (md f) + ds) ba /\ same_modes f ab ba.
Proof. exact ModesProps2.C26_L_R_commute. Qed.
Print Assumptions C26_L_R_commute.

Theorem C26_eth :
  forall h f, wf h f -> let s := spin (md f) in
  exists e eb m p, gives eth h f (s + 1) e /\ gives ethbar h f (s - 1) eb /\ gives Rminus h f (s + 1) m /\ gives Rplus h f (s - 1) p
    /\ same_modes f e m /\ same_modes f eb (fun i l k => - p i l k)%C.
Proof. exact ModesProps2.C26_eth. Qed.
Print Assumptions C26_eth.

(** The hypothesis is [wf], met by [demo_f]; on it [Lz] is not zero. *)
Example C26_nonvacuous : wf demo_heap demo_f /\ exists h r, Lz demo_heap demo_f = Ok (h, r) /\ ellmax (md r) = 3.
Proof. split; [exact demo_f_wf|]. eexists _, _. split; [vm_compute; reflexivity|reflexivity]. Qed.

(** ** C28 *)
Theorem C28_index :
  forall h m ell mm, wf h m ->
  (Z.abs (spin (md m)) <= ell <= ellmax (md m) /\ - ell <= mm <= ell ->
     exists i, index m ell mm = Ok i /\ 0 <= i < wid (nd m)
       /\ forall idx, mem h (buf (nd m)) idx i = mode h m idx ell mm)
  /\ (~ (Z.abs (spin (md m)) <= ell <= ellmax (md m) /\ - ell <= mm <= ell) -> index m ell mm = Err ValueError).
Proof. exact ModesProps2.C28_index. Qed.
Print Assumptions C28_index.

Theorem C28_truncate :
  forall h m L', wf h m ->
  (Z.abs (spin (md m)) <= L' < ellmax (md m) ->
     exists r, truncate_ell m L' = Ok r /\ wf h r /\ spin (md r) = spin (md m) /\ ellmax (md r) = L' /\ wid (nd r) = (L' + 1) ^ 2
       /\ lead (nd r) = lead (nd m)
       /\ forall idx ell mm, 0 <= ell <= L' -> - ell <= mm <= ell -> mode h r idx ell mm = mode h m idx ell mm)
  /\ (L' = ellmax (md m) -> truncate_ell m L' = Ok m)
  /\ (L' < ellmax (md m) -> L' < Z.abs (spin (md m)) -> truncate_ell m L' = Err ValueError).
Proof. exact ModesProps2.C28_truncate. Qed.
Print Assumptions C28_truncate.

(** "truncating to a larger ell_max raises" is false. *)
Theorem C28_larger_refuted : exists h m L', wf h m /\ ellmax (md m) < L' /\ truncate_ell m L' = Ok m.
Proof. exact ModesProps2.C28_larger_refuted. Qed.
Print Assumptions C28_larger_refuted.

Example C28_nonvacuous : wf demo_heap demo_f /\ index demo_f 3 (-1) = Ok 11 /\ index demo_f 1 0 = Err ValueError
  /\ index demo_f 4 0 = Err ValueError /\ Z.abs (spin (md demo_f)) <= 2 < ellmax (md demo_f).
Proof. split; [exact demo_f_wf|]. repeat split; cbn; lia. Qed.

(** ** C30, Modes *)
Theorem C30_modes_scalar :
  forall h f x, wf h f -> 0 <= ellmax (md f) ->
  ((length (sc_shape x) <= length (lead (nd f)))%nat -> forall sh, broadcast (lead (nd f)) (sc_shape x) = Some sh ->
     (exists h' r, mul_scalar h f x = Ok (h', r) /\ multiply_scalar h f x = Ok (h', r)
       /\ new_modes h h' r (spin (md f)) (ellmax (md f)) sh
            (fun idx ell mm => mode h f (bidx (lead (nd f)) idx) ell mm * sc_val x (bidx (sc_shape x) idx))%C)
     /\ (exists h' r, div_scalar h f x = Ok (h', r)
       /\ new_modes h h' r (spin (md f)) (ellmax (md f)) sh
            (fun idx ell mm => mode h f (bidx (lead (nd f)) idx) ell mm / sc_val x (bidx (sc_shape x) idx))%C))
  /\ (~ (length (sc_shape x) <= length (lead (nd f)))%nat ->
        mul_scalar h f x = Err ValueError /\ div_scalar h f x = Err ValueError /\ multiply_scalar h f x = Err ValueError)
  /\ ((length (sc_shape x) <= length (lead (nd f)))%nat -> broadcast (lead (nd f)) (sc_shape x) = None ->
        mul_scalar h f x = Err TypeError /\ div_scalar h f x = Err TypeError /\ multiply_scalar h f x = Err ValueError).
Proof. exact ModesProps2.C30_modes_scalar. Qed.
Print Assumptions C30_modes_scalar.

Example C30_modes_nonvacuous :
  broadcast [2] [2] = Some [2] /\ broadcast [2] [1] = Some [2] /\ broadcast [2] [] = Some [2] /\ broadcast [2] [3] = None
  /\ lead (nd demo_f) = [2] /\ Nat.lt (length (lead (nd demo_f))) (length [2; 2]).
Proof. repeat split; cbn; lia. Qed.

(** ** C41 *)
Theorem C41_evaluate :
  forall Lt tab h f, is_Wigner_table Lt tab -> wf h f -> 0 <= ellmax (md f) <= Lt ->
  forall Rs, 0 < alen Rs -> (forall i, 0 <= i < alen Rs -> rotor (aget Rs i)) ->
  forall g, exists E, evaluate tab g h f Rs = Ok E
    /\ forall idx i (y : Z -> Z -> C), 0 <= i < alen Rs ->
         (forall ell mm, 0 <= ell <= ellmax (md f) -> - ell <= mm <= ell ->
            SWSH_returns tab (aget Rs i) (spin (md f)) ell mm (y ell mm)) ->
         E idx i = csum 0 (ellmax (md f)) (fun ell => csum (- ell) ell (fun mm => mode h f idx ell mm * y ell mm)%C).
Proof. exact ModesProps2.C41_evaluate. Qed.
Print Assumptions C41_evaluate.

Theorem C41_linear :
  forall Lt tab h f g k, is_Wigner_table Lt tab -> wf h f -> wf h g -> wf h k -> 0 <= ellmax (md f) <= Lt ->
  spin (md g) = spin (md f) -> ellmax (md g) = ellmax (md f) -> lead (nd g) = lead (nd f) ->
  spin (md k) = spin (md f) -> ellmax (md k) = ellmax (md f) -> lead (nd k) = lead (nd f) ->
  forall c d, same_modes f (mode h k) (fun idx ell mm => c * mode h f idx ell mm + d * mode h g idx ell mm)%C ->
  forall q F G, rotor q -> value_at tab h f q F -> value_at tab h g q G ->
    value_at tab h k q (fun idx => c * F idx + d * G idx)%C.
Proof. exact ModesProps2.C41_linear. Qed.
Print Assumptions C41_linear.

Theorem C41_truncate :
  forall Lt tab h f L' r k, is_Wigner_table Lt tab -> wf h f -> wf h k -> ellmax (md f) <= Lt ->
  Z.abs (spin (md f)) <= L' < ellmax (md f) -> truncate_ell f L' = Ok r ->
  spin (md k) = spin (md f) -> ellmax (md k) = ellmax (md f) -> lead (nd k) = lead (nd f) ->
  same_modes f (mode h k) (fun idx ell mm => if ell <=? L' then mode h f idx ell mm else RtoC 0) ->
  forall q F, rotor q -> (value_at tab h r q F <-> value_at tab h k q F).
Proof. exact ModesProps2.C41_truncate. Qed.
Print Assumptions C41_truncate.

Theorem C41_scalar :
  forall Lt tab h f x sh, is_Wigner_table Lt tab -> wf h f -> 0 <= ellmax (md f) <= Lt ->
  (length (sc_shape x) <= length (lead (nd f)))%nat -> broadcast (lead (nd f)) (sc_shape x) = Some sh ->
  exists h' r, mul_scalar h f x = Ok (h', r) /\ lead (nd r) = sh
    /\ forall q F, rotor q -> value_at tab h f q F ->
         value_at tab h' r q (fun idx => F (bidx (lead (nd f)) idx) * sc_val x (bidx (sc_shape x) idx))%C.
Proof. exact ModesProps2.C41_scalar. Qed.
Print Assumptions C41_scalar.

Example C41_nonvacuous : (exists tab, is_Wigner_table 32 tab) /\ wf demo_heap demo_f /\ 0 <= ellmax (md demo_f) <= 32
  /\ (forall i, 0 <= i < alen (mkarr 2 (fun _ => qone)) -> rotor (aget (mkarr 2 (fun _ => qone)) i)).
Proof. split; [exact demo_table|]. split; [exact demo_f_wf|]. split; [cbn; lia|]. intros. exact WignerProps.qone_rotor. Qed.

(** ** C42 *)
Theorem C42_norm :
  forall h m idx, wf h m -> 0 <= ellmax (md m) ->
  (0 <= norm h m idx)%R
  /\ RtoC (norm h m idx ^ 2) = csum 0 (ellmax (md m)) (fun ell => csum (- ell) ell (fun mm =>
       mode h m idx ell mm * Cconj (mode h m idx ell mm))%C).
Proof. exact ModesProps2.C42_norm. Qed.
Print Assumptions C42_norm.

(** "np.absolute(f) returns the same quantity" is false. *)
Theorem C42_absolute_refuted :
  exists h m, wf h m /\ wid (nd m) = 4 /\ norm h m [] = 2%R
    /\ forall k, np_absolute h m [] k = 1%R.
Proof. exact ModesProps2.C42_absolute_refuted. Qed.
Print Assumptions C42_absolute_refuted.

Example C42_nonvacuous : wf demo_heap demo_f /\ 0 <= ellmax (md demo_f).
Proof. split; [exact demo_f_wf|]. cbn. lia. Qed.

(** ** C11 *)
Theorem C11_modes_agree :
  forall h f, wf h f -> 0 <= ellmax (md f) ->
  forall idx, at_index (lead (nd f)) idx ->
  let a := mkarr (wid (nd f)) (mem h (buf (nd f)) idx) in
  exists e eb h1 r1 h2 r2,
    eth_NP a (spin (md f)) 0 = Ok e /\ ethbar_NP a (spin (md f)) 0 = Ok eb
    /\ eth h f = Ok (h1, r1) /\ ethbar h f = Ok (h2, r2)
    /\ alen e = wid (nd r1) /\ alen eb = wid (nd r2)
    /\ forall k, 0 <= k < wid (nd f) -> aget e k = mem h1 (buf (nd r1)) idx k /\ aget eb k = mem h2 (buf (nd r2)) idx k.
Proof. exact ModesProps2.C11_modes_agree. Qed.
Print Assumptions C11_modes_agree.

Example C11_modes_nonvacuous : wf demo_heap demo_f /\ at_index (lead (nd demo_f)) [1].
Proof. split; [exact demo_f_wf|]. repeat constructor; cbn; lia. Qed.
