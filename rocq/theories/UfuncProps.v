(** Property C29: universal functions on Modes objects. *)
Require Import ZArith Lia List Reals Lra Bool.
From Coquelicot Require Import Complex.
From Verif Require Import Base BaseProofs CBase CSum Fact IndexModel IndexProofs Wigner3jModel ModesModel ModesSpec ModesProofs ModesProofs2 ModesProofs3
  ModesProps2 MultModel MultSpec MultProofs MultProps UfuncModel UfuncSpec UfuncProofs.
From Verif Require GridModel.
Import ListNotations.
Import GridModel (ufunc(..), umethod(..)).
Open Scope Z_scope.

Definition first_modes (args : list operand) (out : option outarg) : option modes :=
  match find (fun x => match x with OM _ => true | OS _ => false end) args with
  | Some (OM m) => Some m
  | _ => match out with Some (OutModes m) => Some m | _ => None end
  end.
Lemma modes_ufunc_alt w gs gm h u meth args out kw : modes_ufunc w gs gm h u meth args out kw =
  if match meth with m_rest => GridModel.one_input u | _ => false end then Err ValueError else
  match first_modes args out with
  | None => Err TypeError
  | Some self => do '(h, r) <- array_ufunc w gs gm h self u meth args out kw; match r with RDecline => Err TypeError | _ => Ok (h, r) end
  end.
Proof. reflexivity. Qed.
Lemma ufunc_inv w gs gm h u meth args out kw h' r : modes_ufunc w gs gm h u meth args out kw = Ok (h', r) ->
  exists self, first_modes args out = Some self /\ array_ufunc w gs gm h self u meth args out kw = Ok (h', r) /\ r <> RDecline.
Proof.
  rewrite modes_ufunc_alt. destruct (match meth with m_rest => _ | _ => _ end); [discriminate|].
  destruct (first_modes args out) as [self|]; [|discriminate]. intros E. exists self. split; auto.
  destruct (array_ufunc _ _ _ _ _ _ _ _ _ _) as [[h1 r1]|e]; [|discriminate]. cbn [bind] in E.
  destruct r1; try discriminate; apply Ok_inj in E; injection E as <- <-; split; auto; discriminate.
Qed.
Lemma final_inv (x : res (heap * mresult)) h' r :
  (do '(h, r) <- x; match r with RDecline => Ok (h, RDecline) | _ => Ok (h, r) end) = Ok (h', r) -> x = Ok (h', r).
Proof. destruct x as [[h1 r1]|e]; [|discriminate]. cbn [bind]. destruct r1; auto. Qed.

Lemma placed_ext h out h' r s L t sh F G : 
  (forall idx ell mm, at_index (lead (nd r)) idx -> 0 <= ell <= L -> - ell <= mm <= ell -> F idx ell mm = G idx ell mm) ->
  placed h out h' r s L t sh F -> placed h out h' r s L t sh G.
Proof. intros H (A & B & T & W & M & R). split; auto. split; auto. split; auto. split; auto. split; auto. intros. rewrite M by auto. auto. Qed.
Lemma placed_lead h out h' r s L t sh F : placed h out h' r s L t sh F -> broadcast sh (lead (nd r)) = Some (lead (nd r)).
Proof. intros (_ & _ & _ & _ & _ & R). destruct out; [apply R|]. destruct R as (-> & _). apply broadcast_refl. Qed.

Lemma relation_case w gs gm h u a b out h' r rel self : relation u = Some rel -> 
  (forall x y, rel x y = true <-> (match u with u_equal => x = y | u_not_equal => x <> y | u_logical_and => x <> RtoC 0 /\ y <> RtoC 0 | _ => x <> RtoC 0 \/ y <> RtoC 0 end)) ->
  comparison u = true -> (forall idx, truth h u [a; b] idx <-> (let x := bentry h a idx in let y := bentry h b idx in
     match u with u_equal => x = y | u_not_equal => x <> y | u_logical_and => x <> RtoC 0 /\ y <> RtoC 0 | _ => x <> RtoC 0 \/ y <> RtoC 0 end)) ->
  (match out with None => True | Some o => 0 <= wid (out_nd o) end) ->
  array_ufunc w gs gm h self u m_call [a; b] out false = Ok (h', r) -> documented h u [a; b] out h' r.
Proof.
  intros ER HR HC HT HO E. unfold array_ufunc in E. rewrite ER in E. cbn [arg nth_error bind] in E. unfold documented. rewrite HC.
  rewrite !view_shape in E. cbn [bshape]. destruct (broadcast (shape_of a) (shape_of b)) as [sh|] eqn:EB; [|discriminate]. exists sh. split; auto.
  set (P := fun idx => truth h u [a; b] idx).
  eapply (finish_bool_ok h out sh _ h' r P) in E; auto.
  2:{ intros idx. rewrite !view_val, HR. unfold P. rewrite HT. reflexivity. }
  assert (HPb : forall idx, P (bidx sh idx) <-> P idx).
  { intros idx. unfold P. rewrite !HT. unfold bentry. rewrite !bidx_bidx by (eapply broadcast_left + eapply broadcast_right; eauto). reflexivity. }
  destruct out as [o|].
  - destruct E as (-> & C & B & D). split; auto. split; auto. split; auto. intros idx k Hi Hk. destruct (D idx k Hk) as [D1 D2].
    split; intros HH; [apply D1|apply D2]; rewrite HPb; auto.
  - destruct E as (-> & b' & -> & D). split; auto. exists b'. split; auto.
Qed.

Lemma predicate_case w gs gm h u a out h' r self (b : bool) : relation u = None -> predicate u = Some (fun _ => b) ->
  comparison u = true -> (forall idx, truth h u [a] idx <-> b = true) ->
  (match out with None => True | Some o => 0 <= wid (out_nd o) end) ->
  array_ufunc w gs gm h self u m_call [a] out false = Ok (h', r) -> documented h u [a] out h' r.
Proof.
  intros ER EP HC HT HO E. unfold array_ufunc in E. rewrite ER, EP in E. cbn [arg nth_error bind] in E. unfold documented. rewrite HC.
  rewrite !view_shape in E. cbn [bshape]. exists (shape_of a). split; auto.
  eapply (finish_bool_ok h out _ _ h' r (fun _ => b = true)) in E; auto.
  2:{ intros idx. reflexivity. }
  destruct out as [o|].
  - destruct E as (-> & C & B & D). split; auto. split; auto. split; auto. intros idx k Hi Hk. destruct (D idx k Hk) as [D1 D2].
    split; intros HH; [apply D1|apply D2]; rewrite HT in HH; auto.
  - destruct E as (-> & b' & -> & D). split; auto. exists b'. split; auto. intros idx _. rewrite D, HT. reflexivity.
Qed.

Lemma np_any_false x : np_any x = false -> all_zero x.
Proof.
  intros H idx Hi. destruct (Ceqb (sc_val x idx) (RtoC 0)) eqn:E; [apply Ceqb_spec; auto|].
  assert (np_any x = true); [|congruence]. apply np_any_spec. exists idx. split; auto. intros HH. apply Ceqb_spec in HH. congruence.
Qed.
Lemma np_any_true x : all_zero x -> np_any x = false.
Proof. intros H. apply not_true_iff_false. rewrite np_any_spec. intros (idx & Hi & Hn). auto. Qed.

(** A scalar that is zero everywhere: the operation leaves (or negates) the modes. *)
Lemma zero_scalar x f sh h out h' m F idx : all_zero x -> over_functions f x sh ->
  placed h out h' m (spin (md f)) (ellmax (md f)) (truncator (md f)) sh F ->
  at_index (lead (nd m)) idx -> bscalar x idx = RtoC 0.
Proof.
  intros H0 [_ HB] HP Hi. apply H0. eapply bidx_in; [|exact Hi]. eapply broadcast_trans; [|eapply placed_lead; eauto]. eapply broadcast_right; eauto.
Qed.

Lemma unary_ok' op h f out h' r : unary op h f out = Ok (h', r) -> op (RtoC 0) = RtoC 0 -> wf h f -> 0 <= ellmax (md f) -> out_in h out ->
  exists m, r = RModes m
    /\ placed h out h' m (spin (md f)) (ellmax (md f)) (truncator (md f)) (lead (nd f)) (fun idx ell mm => op (bmode h f idx ell mm)).
Proof. intros; apply unary_ok; auto. Qed.
Lemma scalar_ok' op h f x out h' r : scalar op h f f x out = Ok (h', r) -> wf h f -> 0 <= ellmax (md f) -> out_in h out -> r <> RDecline ->
  (forall idx, at_index (sc_shape x) idx -> op (RtoC 0) (sc_val x idx) = RtoC 0) -> 
  exists m sh, r = RModes m /\ over_functions f x sh
    /\ placed h out h' m (spin (md f)) (ellmax (md f)) (truncator (md f)) sh (fun idx ell mm => op (bmode h f idx ell mm) (bscalar x idx)).
Proof. intros; apply scalar_ok; auto. Qed.

Lemma call_documented w gs gm h u args out h' r : inputs_ok u args -> inputs_wf w h args -> out_ok h u args out ->
  modes_ufunc w gs gm h u m_call args out false = Ok (h', r) -> documented h u args out h' r.
Proof.
  intros HA [HWf HWw] HO E. apply ufunc_inv in E. destruct E as (self & ES & E & HD).
  assert (HIn : out_in h out) by (destruct out; [apply HO|exact I]).
  assert (HWd : match out with None => True | Some o => 0 <= wid (out_nd o) end) by (destruct out; [apply HO|exact I]).
  assert (HO2 : match out with None => True | Some o => let a := out_nd o in
     match u, args with
       | (u_positive | u_negative), [OS _] => False
       | u_absolute, _ => False
       | (u_add | u_subtract), [OM f; OM g] =>
           buf a <> buf (nd g)
           /\ forall idx k, at_index (lead a) idx -> (ellmax (md f) + 1) ^ 2 <= k < wid a -> mem h (buf a) idx k = RtoC 0
       | u_multiply, [OM f; OM g] =>
           buf a <> buf (nd f) /\ buf a <> buf (nd g)
           /\ forall idx k, at_index (lead a) idx -> 0 <= k < wid a -> mem h (buf a) idx k = RtoC 0
       | u_conjugate, [OM f] => Z.abs (spin (md f)) <= ellmax (md f)
       | _, _ => True
       end end) by (destruct out; [apply HO|exact I]).
  clear HO. unfold inputs_ok in HA.
  destruct u; cbn [arity] in HA;
  try (destruct args as [|a [|b [|? ?]]]; try discriminate HA; clear HA);
  try (unfold array_ufunc in E; cbn [relation predicate] in E; apply Ok_inj in E; congruence).
  (* comparisons *)
  all: try (eapply relation_case; [reflexivity| |reflexivity|intros idx; cbn; reflexivity|exact HWd|exact E]; intros x y; cbn;
            rewrite ?negb_true_iff, ?andb_true_iff, ?orb_true_iff, ?truthy_spec, <- ?not_true_iff_false, ?Ceqb_spec; reflexivity).
  all: try (eapply predicate_case; [reflexivity|reflexivity|reflexivity|intros idx; cbn; intuition congruence|exact HWd|exact E]).
  all: unfold array_ufunc in E; cbn [relation predicate arg nth_error bind] in E; unfold documented; cbn [comparison].
  - (* positive *)
    apply final_inv in E. destruct a as [f|x].
    2:{ exfalso. destruct out; [exact HO2|]. cbn in ES. discriminate. }
    cbn in ES. injection ES as <-. destruct (HWf f (or_introl eq_refl)) as [W HL].
    destruct (unary_ok' _ h f out h' r E eq_refl W HL HIn) as (m & -> & P). exact P.
  - apply final_inv in E. destruct a as [f|x].
    2:{ exfalso. destruct out; [exact HO2|]. cbn in ES. discriminate. }
    cbn in ES. injection ES as <-. destruct (HWf f (or_introl eq_refl)) as [W HL].
    destruct (unary_ok' _ h f out h' r E ltac:(ring) W HL HIn) as (m & -> & P). exact P.
  - (* add *)
    apply final_inv in E. destruct a as [f|x], b as [g|y]; try (cbn in ES; injection ES as <-).
    + destruct (HWf f ltac:(cbn; auto)) as [Wf HF]. destruct (HWf g ltac:(cbn; auto)) as [Wg HG].
      destruct (Z.eqb_spec (spin (md f)) (spin (md g))) as [HS|HS]; cbn [negb] in E; [|apply Ok_inj in E; congruence].
      destruct (match out with None => _ | Some o => _ end) as [[h1 m]|e] eqn:E1 in E; [|discriminate]. cbn [bind] in E. apply Ok_inj in E. injection E as <- <-.
      split; auto. apply (np_add_ok h f g false out h1 m Wf Wg HF HG HS HIn); auto.
    + destruct (HWf f ltac:(cbn; auto)) as [Wf HF]. destruct (np_any y) eqn:EN; [apply Ok_inj in E; congruence|]. apply np_any_false in EN.
      destruct (scalar_ok' _ h f y out h' r E Wf HF HIn HD ltac:(intros; rewrite EN by auto; ring)) as (m & sh & -> & HOv & P).
      split; auto. exists sh. split; auto. eapply placed_ext; [|exact P]. intros idx ell mm Hi He Hm. cbv beta. rewrite (zero_scalar y f sh h out h' m _ idx EN HOv P Hi). ring.
    + destruct (HWf g ltac:(cbn; auto)) as [Wf HF]. destruct (np_any x) eqn:EN; [apply Ok_inj in E; congruence|]. apply np_any_false in EN.
      destruct (scalar_ok' _ h g x out h' r E Wf HF HIn HD ltac:(intros; cbv beta; rewrite EN by auto; ring)) as (m & sh & -> & HOv & P).
      split; auto. exists sh. split; auto. eapply placed_ext; [|exact P]. intros idx ell mm Hi He Hm. cbv beta. rewrite (zero_scalar x g sh h out h' m _ idx EN HOv P Hi). ring.
    + apply Ok_inj in E. congruence.
  - (* subtract *)
    apply final_inv in E. destruct a as [f|x], b as [g|y]; try (cbn in ES; injection ES as <-).
    + destruct (HWf f ltac:(cbn; auto)) as [Wf HF]. destruct (HWf g ltac:(cbn; auto)) as [Wg HG].
      destruct (Z.eqb_spec (spin (md f)) (spin (md g))) as [HS|HS]; cbn [negb] in E; [|apply Ok_inj in E; congruence].
      destruct (match out with None => _ | Some o => _ end) as [[h1 m]|e] eqn:E1 in E; [|discriminate]. cbn [bind] in E. apply Ok_inj in E. injection E as <- <-.
      split; auto. apply (np_add_ok h f g true out h1 m Wf Wg HF HG HS HIn); auto.
    + destruct (HWf f ltac:(cbn; auto)) as [Wf HF]. destruct (np_any y) eqn:EN; [apply Ok_inj in E; congruence|]. apply np_any_false in EN.
      destruct (scalar_ok' _ h f y out h' r E Wf HF HIn HD ltac:(intros; rewrite EN by auto; ring)) as (m & sh & -> & HOv & P).
      split; auto. exists sh. split; auto. eapply placed_ext; [|exact P]. intros idx ell mm Hi He Hm. cbv beta. rewrite (zero_scalar y f sh h out h' m _ idx EN HOv P Hi). ring.
    + destruct (HWf g ltac:(cbn; auto)) as [Wf HF]. destruct (np_any x) eqn:EN; [apply Ok_inj in E; congruence|]. apply np_any_false in EN.
      destruct (scalar_ok' _ h g x out h' r E Wf HF HIn HD ltac:(intros; cbv beta; rewrite EN by auto; ring)) as (m & sh & -> & HOv & P).
      split; auto. exists sh. split; auto. eapply placed_ext; [|exact P]. intros idx ell mm Hi He Hm. cbv beta. rewrite (zero_scalar x g sh h out h' m _ idx EN HOv P Hi). ring.
    + apply Ok_inj in E. congruence.
  - (* multiply *)
    apply final_inv in E. destruct a as [f|x], b as [g|y]; try (cbn in ES; injection ES as <-).
    + destruct (HWf f ltac:(cbn; auto)) as [Wf HF]. destruct (HWf g ltac:(cbn; auto)) as [Wg HG]. destruct (HWw f g eq_refl) as [Ww Wp].
      destruct (match out with None => _ | Some o => _ end) as [[h1 m]|e] eqn:E1 in E; [|discriminate]. cbn [bind] in E. apply Ok_inj in E. injection E as <- <-.
      apply (np_multiply_ok w gs gm h f g out h1 m Wf Wg HF HG Wp Ww HIn); auto.
    + destruct (HWf f ltac:(cbn; auto)) as [Wf HF].
      destruct (scalar_ok' _ h f y out h' r E Wf HF HIn HD ltac:(intros; ring)) as (m & sh & -> & HOv & P).
      exists sh. split; auto. eapply placed_ext; [|exact P]. intros. cbv beta. ring.
    + destruct (HWf g ltac:(cbn; auto)) as [Wf HF].
      destruct (scalar_ok' _ h g x out h' r E Wf HF HIn HD ltac:(intros; cbv beta; ring)) as (m & sh & -> & HOv & P).
      exists sh. split; auto.
    + apply Ok_inj in E. congruence.
  - (* divide *)
    apply final_inv in E. destruct a as [f|x], b as [g|y]; try (cbn in ES; injection ES as <-); try (apply Ok_inj in E; congruence).
    destruct (HWf f ltac:(cbn; auto)) as [Wf HF].
    destruct (scalar_ok' _ h f y out h' r E Wf HF HIn HD ltac:(intros; unfold Cdiv; ring)) as (m & sh & -> & HOv & P).
    exists sh. split; auto.
  - (* conjugate *)
    apply final_inv in E. destruct a as [f|x]; [|apply Ok_inj in E; congruence].
    destruct (HWf f (or_introl eq_refl)) as [W HL].
    destruct (conj_ok h f out h' r W HL HIn) as (m & -> & P); auto.
  - (* absolute *)
    destruct a as [f|x]; [|discriminate]. apply Ok_inj in E. injection E as <- <-. split; auto. split; [destruct out; [destruct HO2|reflexivity]|]. split; auto.
Qed.

Lemma final_ok (x : res (heap * mresult)) h' r : r <> RDecline -> x = Ok (h', r) ->
  (do '(h, r) <- (do '(h, r) <- x; match r with RDecline => Ok (h, RDecline) | _ => Ok (h, r) end);
   match r with RDecline => Err TypeError | _ => Ok (h, r) end) = Ok (h', r).
Proof. intros H ->. cbn [bind]. destruct r; auto; congruence. Qed.
Lemma final_err (x : res (heap * mresult)) : (exists h', x = Ok (h', RDecline)) \/ x = Err ValueError ->
  exists e, (do '(h, r) <- (do '(h, r) <- x; match r with RDecline => Ok (h, RDecline) | _ => Ok (h, r) end);
   match r with RDecline => Err TypeError | _ => Ok (h, r) end) = Err e /\ (e = TypeError \/ e = ValueError).
Proof. intros [(h' & ->)| ->]; cbn [bind]; eauto. Qed.

Definition arithmetic (u : ufunc) : bool :=
  match u with u_positive | u_negative | u_add | u_subtract | u_multiply | u_divide | u_conjugate => true | _ => false end.
(** The branch taken for the ufuncs that give Modes objects *)
Definition branch w gs gm h (self : modes) (u : ufunc) (args : list operand) (out : option outarg) : res (heap * mresult) :=
          match u with
          | u_positive => unary (fun z => z) h self out
          | u_negative => unary Copp h self out
          | u_add | u_subtract =>
            let sub := match u with u_subtract => true | _ => false end in
            let op := if sub then Cminus else Cplus in
            do a <- arg args 0; do b <- arg args 1;
            match a, b with
            | OM m1, OM m2 =>
              if negb (spin (md m1) =? spin (md m2)) then Ok (h, RDecline) else
              do '(h, r) <- match out with None => np_add h m1 m2 sub | Some o => np_add_out h m1 m2 (out_nd o) sub end;
              Ok (h, RModes r)
            | OM m, OS x => if np_any x then Ok (h, RDecline) else scalar op h self m x out
            | OS x, OM m => if np_any x then Ok (h, RDecline) else scalar (fun a b => op b a) h self m x out
            | OS _, OS _ => Ok (h, RDecline)
            end
          | u_multiply =>
            do a <- arg args 0; do b <- arg args 1;
            match a, b with
            | OM m1, OM m2 =>
              do '(h, r) <- match out with
                            | None => multiply w gs gm h m1 m2 None
                            | Some o => np_multiply_out w gs gm h m1 m2 (out_nd o)
                            end;
              Ok (h, RModes r)
            | OM m, OS x => scalar Cmult h self m x out
            | OS x, OM m => scalar (fun a b => b * a)%C h self m x out
            | OS _, OS _ => Ok (h, RDecline)
            end
          | u_divide =>
            do b <- arg args 1; do a <- arg args 0;
            match a, b with
            | OM m, OS x => scalar Cdiv h self m x out
            | _, _ => Ok (h, RDecline)
            end
          | _ => (* u_conjugate *)
            do a <- arg args 0;
            match a with OM m => conj_branch h m out | OS _ => Ok (h, RDecline) end
          end.
Lemma branch_eq w gs gm h self u args out : arithmetic u = true -> array_ufunc w gs gm h self u m_call args out false =
  (do '(h, r) <- branch w gs gm h self u args out; match r with RDecline => Ok (h, RDecline) | _ => Ok (h, r) end).
Proof. intros H. destruct u; try discriminate; reflexivity. Qed.
Lemma branch_call w gs gm h u args out self : arithmetic u = true -> first_modes args out = Some self ->
  modes_ufunc w gs gm h u m_call args out false =
  (do '(h, r) <- (do '(h, r) <- branch w gs gm h self u args out; match r with RDecline => Ok (h, RDecline) | _ => Ok (h, r) end);
   match r with RDecline => Err TypeError | _ => Ok (h, r) end).
Proof. intros H F. rewrite modes_ufunc_alt, F, branch_eq by auto. reflexivity. Qed.
Ltac accept h1 m := erewrite branch_call by reflexivity; exists h1, (RModes m); apply final_ok; [discriminate|]; unfold branch; cbn [arg nth_error bind].

Lemma call_accepts w gs gm h u args : inputs_wf w h args -> supported u args -> (exists f, In (OM f) args) ->
  (exists h' r, modes_ufunc w gs gm h u m_call args None false = Ok (h', r))
  \/ (u = u_multiply /\ modes_ufunc w gs gm h u m_call args None false = Err ZeroDivisionError
      /\ exists f g, args = [OM f; OM g] /\ 7 < ellmax (md f) /\ 7 < ellmax (md g) /\ 28 <= (ellmax (md f) - 7) * (ellmax (md g) - 7)).
Proof.
  intros [HWf HWw] HS [f0 Hf0]. unfold supported in HS.
  destruct u; try (destruct HS; fail); destruct args as [|a [|b [|? ?]]]; try (destruct HS; fail);
    try (destruct a as [f|x]; try (destruct HS; fail)); try (destruct b as [g|y]; try (destruct HS; fail)).
  all: try (exfalso; destruct Hf0 as [Q|[Q|[]]]; discriminate Q).
  (* comparisons *)
  all: try (destruct HS as [sh EB]; left; rewrite modes_ufunc_alt; 
    match goal with |- context [first_modes ?l ?o] => let F := fresh in destruct (first_modes l o) as [self|] eqn:F;
      [|destruct Hf0 as [Q|[Q|[]]]; subst; discriminate F] end;
    unfold array_ufunc; cbn [relation predicate arg nth_error bind]; rewrite !view_shape, EB; cbn [finish_bool bind]; eauto; fail).
  all: try (left; rewrite modes_ufunc_alt; cbn [first_modes find]; unfold array_ufunc; cbn [relation predicate arg nth_error bind finish_bool]; eauto; fail).
  all: try (destruct (HWf f ltac:(cbn; auto)) as [Wf HF]); try (destruct (HWf g ltac:(cbn; auto)) as [Wg HG]).
  - destruct (unary_accepts (fun z => z) h f Wf eq_refl) as (h1 & m & E). left. accept h1 m. exact E.
  - destruct (unary_accepts Copp h f Wf ltac:(ring)) as (h1 & m & E). left. accept h1 m. exact E.
  - destruct HS as (Hs & sh & HB). destruct (np_add_accepts h f g false sh Wf Wg HF HG Hs HB) as (h1 & m & E). left. accept h1 m.
    replace (spin (md f) =? spin (md g)) with true by (symmetry; apply Z.eqb_eq; auto). cbn [negb]. rewrite E. reflexivity.
  - destruct HS as (Hz & sh & HB). destruct (scalar_accepts Cplus h f y sh Wf HF HB) as (h1 & m & E). left. accept h1 m. rewrite (np_any_true y Hz). exact E.
  - destruct HS as (Hz & sh & HB). destruct (scalar_accepts (fun a b => b + a)%C h g x sh Wg HG HB) as (h1 & m & E). left. accept h1 m. rewrite (np_any_true x Hz). exact E.
  - destruct HS as (Hs & sh & HB). destruct (np_add_accepts h f g true sh Wf Wg HF HG Hs HB) as (h1 & m & E). left. accept h1 m.
    replace (spin (md f) =? spin (md g)) with true by (symmetry; apply Z.eqb_eq; auto). cbn [negb]. rewrite E. reflexivity.
  - destruct HS as (Hz & sh & HB). destruct (scalar_accepts Cminus h f y sh Wf HF HB) as (h1 & m & E). left. accept h1 m. rewrite (np_any_true y Hz). exact E.
  - destruct HS as (Hz & sh & HB). destruct (scalar_accepts (fun a b => b - a)%C h g x sh Wg HG HB) as (h1 & m & E). left. accept h1 m. rewrite (np_any_true x Hz). exact E.
  - destruct HS as (sh & HB). destruct (HWw f g eq_refl) as [Ww Wp].
    destruct (C25_returns_partial w gs gm h f g None Wf Wg HF HG Wp Ww) as [_ [H5 HE]]; [congruence|].
    destruct HE as [(h1 & r1 & E)|[E _]].
    + left. accept h1 r1. rewrite E. reflexivity.
    + right. split; auto. split.
      * erewrite branch_call by reflexivity. unfold branch. cbn [arg nth_error bind]. rewrite E. reflexivity.
      * exists f, g. split; auto. destruct (Z_le_gt_dec (ellmax (md f)) 7); [destruct (H5 ltac:(auto)) as (? & ? & ?); congruence|].
        destruct (Z_le_gt_dec (ellmax (md g)) 7); [destruct (H5 ltac:(auto)) as (? & ? & ?); congruence|].
        destruct (Z_lt_ge_dec ((ellmax (md f) - 7) * (ellmax (md g) - 7)) 28); [destruct (H5 ltac:(auto)) as (? & ? & ?); congruence|]. lia.
  - destruct HS as (sh & HB). destruct (scalar_accepts Cmult h f y sh Wf HF HB) as (h1 & m & E). left. accept h1 m. exact E.
  - destruct HS as (sh & HB). destruct (scalar_accepts (fun a b => b * a)%C h g x sh Wg HG HB) as (h1 & m & E). left. accept h1 m. exact E.
  - destruct HS as (sh & HB). destruct (scalar_accepts Cdiv h f y sh Wf HF HB) as (h1 & m & E). left. accept h1 m. exact E.
  - destruct (conj_accepts h f Wf) as (h1 & m & E). left. accept h1 m. exact E.
Qed.

Ltac decline := apply final_err; unfold branch; cbn [arg nth_error bind].
Lemma call_rejects w gs gm h u args : inputs_ok u args -> inputs_wf w h args -> ~ supported u args ->
  exists e, modes_ufunc w gs gm h u m_call args None false = Err e /\ (e = TypeError \/ e = ValueError).
Proof.
  intros HA [HWf HWw] HS. destruct (first_modes args None) as [self|] eqn:ES.
  2:{ exists TypeError. rewrite modes_ufunc_alt, ES. auto. }
  unfold inputs_ok in HA.
  destruct u; cbn [arity] in HA; try (destruct args as [|a [|b [|? ?]]]; try discriminate HA; clear HA).
  (* not handled at all *)
  all: try (exists TypeError; rewrite modes_ufunc_alt, ES; unfold array_ufunc; cbn [relation predicate bind]; split; [reflexivity|auto]; fail).
  (* comparisons of shapes that do not match *)
  all: try (exists ValueError; split; [|auto]; rewrite modes_ufunc_alt, ES; unfold array_ufunc; cbn [relation predicate arg nth_error bind];
    rewrite !view_shape; destruct (broadcast (shape_of a) (shape_of b)) as [sh|] eqn:EB; [exfalso; apply HS; cbn; eauto|reflexivity]).
  (* the unary ones are always supported *)
  all: try (destruct a as [f|x]; [|cbn in ES; discriminate]; exfalso; apply HS; exact I).
  all: rewrite (fun H => branch_call w gs gm h _ _ _ self H ES) by reflexivity; destruct a as [f|x], b as [g|y]; cbn in ES; try discriminate; injection ES as <-; decline.
  all: try (left; eauto; fail).
  all: try (destruct (HWf f ltac:(cbn; auto)) as [Wf HF]); try (destruct (HWf g ltac:(cbn; auto)) as [Wg HG]).
  - destruct (Z.eqb_spec (spin (md f)) (spin (md g))) as [Hs|Hs]; cbn [negb]; [|left; eauto]. right.
    destruct (broadcast (lead (nd f)) (lead (nd g))) as [sh|] eqn:EB; [exfalso; apply HS; cbn; eauto|].
    unfold np_add, add. rewrite (proj2 (Z.eqb_eq _ _) Hs). cbn [negb]. rewrite (rdcol0 h f), (rdcol0 h g) by auto. cbn [bind]. rewrite EB. reflexivity.
  - destruct (np_any y) eqn:EN; [left; eauto|]. apply np_any_false in EN.
    destruct (scalar_rejects Cplus h f y Wf HF) as [E|E]; [intros HX; apply HS; cbn; auto|left; eauto|right; auto].
  - destruct (np_any x) eqn:EN; [left; eauto|]. apply np_any_false in EN.
    destruct (scalar_rejects (fun a b => b + a)%C h g x Wg HG) as [E|E]; [intros HX; apply HS; cbn; auto|left; eauto|right; auto].
  - destruct (Z.eqb_spec (spin (md f)) (spin (md g))) as [Hs|Hs]; cbn [negb]; [|left; eauto]. right.
    destruct (broadcast (lead (nd f)) (lead (nd g))) as [sh|] eqn:EB; [exfalso; apply HS; cbn; eauto|].
    unfold np_add, add. rewrite (proj2 (Z.eqb_eq _ _) Hs). cbn [negb]. rewrite (rdcol0 h f), (rdcol0 h g) by auto. cbn [bind]. rewrite EB. reflexivity.
  - destruct (np_any y) eqn:EN; [left; eauto|]. apply np_any_false in EN.
    destruct (scalar_rejects Cminus h f y Wf HF) as [E|E]; [intros HX; apply HS; cbn; auto|left; eauto|right; auto].
  - destruct (np_any x) eqn:EN; [left; eauto|]. apply np_any_false in EN.
    destruct (scalar_rejects (fun a b => b - a)%C h g x Wg HG) as [E|E]; [intros HX; apply HS; cbn; auto|left; eauto|right; auto].
  - right. destruct (HWw f g eq_refl) as [Ww Wp].
    destruct (broadcast (lead (nd f)) (lead (nd g))) as [sh|] eqn:EB; [exfalso; apply HS; cbn; eauto|].
    destruct (C25_returns_partial w gs gm h f g None Wf Wg HF HG Wp Ww) as [HE _]. rewrite (HE EB). reflexivity.
  - destruct (scalar_rejects Cmult h f y Wf HF) as [E|E]; [intros HX; apply HS; cbn; auto|left; eauto|right; auto].
  - destruct (scalar_rejects (fun a b => b * a)%C h g x Wg HG) as [E|E]; [intros HX; apply HS; cbn; auto|left; eauto|right; auto].
  - destruct (scalar_rejects Cdiv h f y Wf HF) as [E|E]; [intros HX; apply HS; cbn; auto|left; eauto|right; auto].
Qed.

(** [np.multiply(f, g, out=a)] adds the product onto what is in [a]. *)
Lemma multiply_out_adds w gs gm h f g a sh : wf h f -> wf h g -> 0 <= ellmax (md f) -> 0 <= ellmax (md g) ->
  0 <= product_ell_max f g None -> wide_enough w (ellmax (md f)) (ellmax (md g)) -> (buf a < next h)%nat ->
  buf a <> buf (nd f) -> buf a <> buf (nd g) -> wid a = (product_ell_max f g None + 1) ^ 2 ->
  broadcast (lead (nd f)) (lead (nd g)) = Some sh -> broadcast sh (lead a) = Some (lead a) ->
  (exists h' r, np_multiply_out w gs gm h f g a = Ok (h', r) /\ nd r = a /\ spin (md r) = spin (md f) + spin (md g) /\ changes_only (buf a) h h'
    /\ forall idx ell mm, at_index (lead a) idx -> Z.abs (spin (md r)) <= ell <= product_ell_max f g None -> - ell <= mm <= ell ->
       mode h' r idx ell mm = (mem h (buf a) idx (ell * ell + (ell + mm))
         + product_weight (spin (md f)) (ellmax (md f)) (spin (md g)) (ellmax (md g)) (bmode h f idx) (bmode h g idx) ell mm)%C)
  \/ (np_multiply_out w gs gm h f g a = Err ZeroDivisionError /\ 7 < ellmax (md f) /\ 7 < ellmax (md g) /\ 28 <= (ellmax (md f) - 7) * (ellmax (md g) - 7)).
Proof.
  intros Wf Wg HF HG HL HW Ha Hf Hg Wd EB EF. unfold np_multiply_out. cbv zeta.
  rewrite (rdcol0 h f), (rdcol0 h g) by auto. cbn [bind]. rewrite EB.
  set (L := product_ell_max f g None) in *. unfold ell_min_of.
  pose proof Wf as (Fb & Fw & Fz). pose proof Wg as (Gb & Gw & Gz).
  assert (Fit : fits (broadcast (lead (nd f)) (lead (nd g))) (lead a) = true).
  { rewrite EB. unfold fits. rewrite EF. destruct (list_eq_dec Z.eq_dec (lead a) (lead a)); congruence. }
  destruct (mult_helper_acc w (nd f) (nd g) a 0 (ellmax (md f)) (spin (md f)) 0 (ellmax (md g)) (spin (md g)) L
             ltac:(lia) ltac:(lia)
             ltac:(intros l m Hl Hm; rewrite LM_col, Fw; apply col_bound; lia)
             ltac:(intros l m Hl Hm; rewrite LM_col, Gw; apply col_bound; lia)
             Wd ltac:(auto) ltac:(auto) Fit
             ltac:(intros; eapply wide_ok; eauto; lia)
             (mem h (buf (nd f))) (mem h (buf (nd g))) gs gm h ltac:(lia)) as [(h1 & EH & (N2 & O2 & D2))|[EH HBad]].
  { intros idx k. auto. }
  - left. rewrite EH. cbn [bind]. set (mt := mkmeta _ _ _).
    destruct (construct_ok h1 a mt Wd) as (h2 & E2 & N3 & K3 & D3). rewrite E2. exists h2. eexists. split; [reflexivity|].
    split; [reflexivity|]. split; [reflexivity|]. split.
    { split; [congruence|]. intros b Hb idx k. rewrite K3, O2 by auto. reflexivity. }
    cbn [md mt spin]. intros idx ell mm Hi He Hm. unfold mode. cbn [nd]. rewrite D3 by (unfold mt; cbn [ellmax]; lia). cbn [spin mt].
    destruct (Z.ltb_spec ell (Z.abs (spin (md f) + spin (md g)))); [lia|]. rewrite D2. f_equal.
    replace (ell * ell + (ell + mm)) with (LM_index ell mm 0) by (rewrite LM_col; lia).
    rewrite collapse by lia. apply product_weight_ext; intros; rewrite arr_mode_0 by lia; rewrite bmode_in by lia; reflexivity.
  - right. rewrite EH. split; [reflexivity|]. destruct HBad as (l1 & l2 & m & n & H1 & H2 & Hm & Hn & LZ).
    apply Wigner3jProps.late_zero_min in LZ; auto.
    assert ((l1 - 7) * (l2 - 7) <= (ellmax (md f) - 7) * (ellmax (md g) - 7)) by (apply Z.mul_le_mono_nonneg; lia). lia.
Qed.

(** ** C29 *)
Lemma C29_documented :
  forall w gs gm h u args h' r, inputs_ok u args -> inputs_wf w h args ->
  modes_ufunc w gs gm h u m_call args None false = Ok (h', r) -> documented h u args None h' r.
Proof. intros. eapply call_documented; eauto. exact I. Qed.

Lemma C29_accepts :
  forall w gs gm h u args, inputs_wf w h args -> supported u args -> (exists f, In (OM f) args) ->
  (exists h' r, modes_ufunc w gs gm h u m_call args None false = Ok (h', r))
  \/ (u = u_multiply /\ modes_ufunc w gs gm h u m_call args None false = Err ZeroDivisionError
      /\ exists f g, args = [OM f; OM g] /\ 7 < ellmax (md f) /\ 7 < ellmax (md g) /\ 28 <= (ellmax (md f) - 7) * (ellmax (md g) - 7)).
Proof. intros; apply call_accepts; auto. Qed.

Lemma C29_rejects :
  forall w gs gm h u args, inputs_ok u args -> inputs_wf w h args -> ~ supported u args ->
  exists e, modes_ufunc w gs gm h u m_call args None false = Err e /\ (e = TypeError \/ e = ValueError).
Proof. intros; apply call_rejects; auto. Qed.

Lemma C29_out_partial :
  forall w gs gm h u args out h' r, inputs_ok u args -> inputs_wf w h args -> out_ok h u args out ->
  modes_ufunc w gs gm h u m_call args out false = Ok (h', r) -> documented h u args out h' r.
Proof. intros; eapply call_documented; eauto. Qed.

Lemma C29_keywords :
  forall w gs gm h u meth args out, comparison u = false ->
  exists e, modes_ufunc w gs gm h u meth args out true = Err e
    /\ (e = TypeError \/ e = NotImplementedError \/ e = ValueError /\ meth = m_rest /\ arity u = Some 1%nat).
Proof.
  intros w gs gm h u meth args out H. rewrite modes_ufunc_alt.
  destruct (match meth with m_rest => GridModel.one_input u | _ => false end) eqn:HO.
  { exists ValueError. split; [reflexivity|]. right. right. destruct meth; try discriminate. destruct u; try discriminate; auto. }
  destruct (first_modes args out) as [self|]; [|eauto].
  destruct u; try discriminate; unfold array_ufunc; cbn [relation predicate bind]; eauto.
Qed.

Lemma C29_in_place :
  forall w gs gm h f x u, wf h f -> 0 <= ellmax (md f) -> (u = u_multiply \/ u = u_divide \/ u = u_add \/ u = u_subtract) ->
  exists e, modes_ufunc w gs gm h u m_call [OM f; OS x] (Some (OutModes f)) false = Err e /\ (e = TypeError \/ e = ValueError).
Proof.
  intros w gs gm h f x u W HL Hu.
  assert (HS : forall op, (exists h', scalar op h f f x (Some (OutModes f)) = Ok (h', RDecline)) \/ scalar op h f f x (Some (OutModes f)) = Err TypeError
     \/ scalar op h f f x (Some (OutModes f)) = Err ValueError).
  { intros op. unfold scalar. rewrite check_ok by auto. destruct (_ <? _)%nat; [auto|]. cbn [bind].
    destruct (broadcast (lead (nd f)) (sc_shape x)); cbn [negb bind]; eauto. }
  erewrite branch_call by (first [reflexivity|destruct Hu as [->|[->|[->| ->]]]; reflexivity]).
  assert (H : (exists h', branch w gs gm h f u [OM f; OS x] (Some (OutModes f)) = Ok (h', RDecline)) \/ branch w gs gm h f u [OM f; OS x] (Some (OutModes f)) = Err TypeError
     \/ branch w gs gm h f u [OM f; OS x] (Some (OutModes f)) = Err ValueError).
  { destruct Hu as [->|[->|[->| ->]]]; unfold branch; cbn [arg nth_error bind]; try apply HS; (destruct (np_any x); [eauto|apply HS]). }
  destruct H as [(h' & ->)|[->| ->]]; cbn [bind]; eauto.
Qed.

Lemma C29_other_methods :
  forall w gs gm h u args out, comparison u = false ->
  (arity u = Some 1%nat -> modes_ufunc w gs gm h u m_rest args out false = Err ValueError)
  /\ (arity u <> Some 1%nat -> modes_ufunc w gs gm h u m_rest args out false = modes_ufunc w gs gm h u m_call args out false)
  /\ (u <> u_absolute -> forall h' r, modes_ufunc w gs gm h u m_at args out false = Ok (h', r) ->
        r = RNone /\ exists r', modes_ufunc w gs gm h u m_call args out false = Ok (h', r')).
Proof.
  intros w gs gm h u args out H. split; [destruct u; try discriminate; reflexivity|].
  assert (G : forall meth, match meth with m_rest => arity u <> Some 1%nat | _ => True end ->
     modes_ufunc w gs gm h u meth args out false = match first_modes args out with
       | None => Err TypeError
       | Some self => do '(h, r) <- array_ufunc w gs gm h self u meth args out false; match r with RDecline => Err TypeError | _ => Ok (h, r) end
       end).
  { intros meth Hm. rewrite modes_ufunc_alt. destruct meth; try reflexivity. destruct u; try reflexivity; exfalso; apply Hm; reflexivity. }
  rewrite (G m_call I), (G m_at I). destruct (first_modes args out) as [self|]; [|split; [intros Hm; rewrite (G m_rest Hm); reflexivity|discriminate]].
  destruct (arithmetic u) eqn:HA.
  - assert (E : forall meth, array_ufunc w gs gm h self u meth args out false =
      (do '(h, r) <- branch w gs gm h self u args out; match r with RDecline => Ok (h, RDecline) | _ => match meth with m_at => Ok (h, RNone) | _ => Ok (h, r) end end))
      by (intros meth; destruct u; try discriminate; reflexivity).
    split; [intros Hm; rewrite (G m_rest Hm), !E; reflexivity|]. rewrite !E. intros _ h' r E1. destruct (branch _ _ _ _ _ _ _ _) as [[h1 r1]|e]; [|discriminate]. cbn [bind] in E1 |- *.
    destruct r1; try discriminate; cbn [bind] in *; apply Ok_inj in E1; injection E1 as <- <-; eauto.
  - split; [intros Hm; rewrite (G m_rest Hm); destruct u; try discriminate; reflexivity|].
    destruct u; try discriminate; intros HN h' r E1; try congruence; discriminate.
Qed.

(** np.multiply(f, g, out=a) adds the product onto what was in [a]: here the zero function times itself gives 1. *)
Lemma C29_multiply_out_refuted :
  exists h f a, wf h f /\ 0 <= ellmax (md f) /\ (buf a < next h)%nat /\ buf a <> buf (nd f) /\ ~ out_ok h u_multiply [OM f; OM f] (Some (OutArr a))
  /\ forall gs gm, exists h1 r1 h2 r2,
    modes_ufunc exact gs gm h u_multiply m_call [OM f; OM f] None false = Ok (h1, RModes r1)
    /\ modes_ufunc exact gs gm h u_multiply m_call [OM f; OM f] (Some (OutArr a)) false = Ok (h2, RModes r2)
    /\ mode h1 r1 [] 0 0 = RtoC 0 /\ mode h2 r2 [] 0 0 = RtoC 1.
Proof.
  set (h := mkheap 2 (fun b _ _ => if Nat.eqb b 0 then RtoC 0 else RtoC 1)). set (f := mkmodes (mknd 0 [] 1) (mkmeta 0 0 None)). set (a := mknd 1 [] 1).
  assert (W : wf h f). { split; [cbn; lia|]. split; [reflexivity|]. cbn. lia. }
  exists h, f, a. split; [exact W|]. split; [cbn; lia|]. split; [cbn; lia|]. split; [discriminate|]. split.
  { intros (_ & _ & _ & _ & Z). specialize (Z [] 0 ltac:(constructor) ltac:(cbn; lia)). cbn in Z. apply (f_equal Re) in Z. cbn in Z. lra. }
  intros gs gm.
  assert (IW : inputs_wf exact h [OM f; OM f]).
  { split. - intros g [E|[E|[]]]; injection E as <-; split; auto; cbn; lia. - intros g g' E. injection E as <- <-. split; [left; reflexivity|vm_compute; discriminate]. }
  assert (PW : product_weight 0 0 0 0 (bmode h f []) (bmode h f []) 0 0 = RtoC 0).
  { rewrite (product_weight_ext _ _ _ _ _ _ (fun _ _ => RtoC 0) (fun _ _ => RtoC 0)).
    - unfold product_weight. do 3 (apply csum_zero; intros). destruct (_ <=? _); ring.
    - intros l m _ _. unfold bmode, mode, f, h. cbn. destruct (_ <=? _); reflexivity.
    - intros l m _ _. unfold bmode, mode, f, h. cbn. destruct (_ <=? _); reflexivity. }
  destruct (call_accepts exact gs gm h u_multiply [OM f; OM f] IW) as [(h1 & r1 & E1)|(_ & _ & f' & g' & Q & H5 & _)].
  { exists []. reflexivity. } { exists f. cbn. auto. }
  2:{ exfalso. injection Q as <- <-. cbn in H5. lia. }
  pose proof (C29_documented exact gs gm h u_multiply [OM f; OM f] h1 r1 eq_refl IW E1) as D1.
  unfold documented in D1. cbn [comparison] in D1. destruct r1 as [r1| | | | | |]; try destruct D1.
  destruct H as (D1 & D2 & D3 & D4 & D5 & D6 & D7 & _). injection D1 as <-.
  destruct (multiply_out_adds exact gs gm h f f a [] W W) as [(h2 & r2 & E2 & Er & Es & _ & M2)|[_ [H5 _]]]; try reflexivity; try (cbn; lia); try discriminate.
  { left. reflexivity. }
  exists h1, r1, h2, r2. split; [exact E1|]. split.
  { erewrite branch_call by reflexivity. unfold branch. cbn [arg nth_error bind out_nd]. rewrite E2. reflexivity. }
  split.
  - rewrite D6; [exact PW|rewrite D7; constructor|cbn; lia|lia].
  - rewrite M2; [|constructor|rewrite Es; cbn; lia|lia]. change (spin (md f)) with 0. change (ellmax (md f)) with 0. rewrite PW. cbn. ring.
Qed.

(** np.negative(x, out=m) with a plain array x negates the contents of m and never looks at x. *)
Lemma C29_negative_out_refuted :
  exists h m x, wf h m /\ 0 <= ellmax (md m) /\ sc_shape x = [1] /\ sc_val x [0] = RtoC 5
  /\ forall w gs gm, exists h' r, modes_ufunc w gs gm h u_negative m_call [OS x] (Some (OutModes m)) false = Ok (h', RModes r)
     /\ nd r = nd m /\ mode h m [] 0 0 = RtoC 1 /\ mode h' r [] 0 0 = (- RtoC 1)%C.
Proof.
  exists (mkheap 1 (fun _ _ _ => RtoC 1)), (mkmodes (mknd 0 [] 1) (mkmeta 0 0 None)), (mkscalars [1] (fun _ => RtoC 5)).
  split. { split; [cbn; lia|]. split; [reflexivity|]. cbn. lia. } split; [cbn; lia|]. split; [reflexivity|]. split; [reflexivity|].
  intros w gs gm. eexists _, _. split; [reflexivity|]. split; [reflexivity|]. split; reflexivity.
Qed.

(** np.absolute(m, out=a) returns a new array and leaves [a] alone. *)
Lemma C29_absolute_out_refuted :
  exists h m a, wf h m /\ 0 <= ellmax (md m) /\ wid a = wid (nd m) /\ lead a = lead (nd m) /\ (buf a < next h)%nat
  /\ forall w gs gm, exists sh v, modes_ufunc w gs gm h u_absolute m_call [OM m] (Some (OutArr a)) false = Ok (h, RReal sh v)
     /\ v [0] = 1%R /\ mem h (buf a) [] 0 = RtoC 0.
Proof.
  exists (mkheap 2 (fun b _ _ => if Nat.eqb b 0 then RtoC 1 else RtoC 0)), (mkmodes (mknd 0 [] 1) (mkmeta 0 0 None)), (mknd 1 [] 1).
  split. { split; [cbn; lia|]. split; [reflexivity|]. cbn. lia. } split; [cbn; lia|]. split; [reflexivity|]. split; [reflexivity|]. split; [cbn; lia|].
  intros w gs gm. eexists _, _. split; [reflexivity|]. split; [|reflexivity]. cbn. rewrite Cmod_R. apply Rabs_R1.
Qed.

(** np.negative.at(m, ...) succeeds and changes nothing that existed. *)
Lemma C29_at_refuted :
  exists h m, wf h m /\ 0 <= ellmax (md m) /\ mode h m [] 0 0 = RtoC 1
  /\ forall w gs gm x, exists h', modes_ufunc w gs gm h u_negative m_at [OM m; OS x] None false = Ok (h', RNone) /\ mode h' m [] 0 0 = RtoC 1.
Proof.
  exists (mkheap 1 (fun _ _ _ => RtoC 1)), (mkmodes (mknd 0 [] 1) (mkmeta 0 0 None)).
  split. { split; [cbn; lia|]. split; [reflexivity|]. cbn. lia. } split; [cbn; lia|]. split; [reflexivity|].
  intros w gs gm x. eexists _. split; reflexivity.
Qed.

Lemma C29_one_factor :
  forall w gs gm h u f x args out h' r, wf h f -> 0 <= ellmax (md f) -> out_ok h u args out ->
  (u = u_multiply /\ (args = [OM f; OS x] \/ args = [OS x; OM f]) \/ u = u_divide /\ args = [OM f; OS x]) ->
  modes_ufunc w gs gm h u m_call args out false = Ok (h', r) ->
  exists m, r = RModes m /\ forall idx, at_index (lead (nd m)) idx ->
    exists c, forall ell mm, 0 <= ell <= ellmax (md m) -> - ell <= mm <= ell -> mode h' m idx ell mm = (c * mode h f (bidx (lead (nd f)) idx) ell mm)%C.
Proof.
  intros w gs gm h u f x args out h' r W HL HO HU E.
  assert (IO : inputs_ok u args) by (destruct HU as [[-> [->| ->]]|[-> ->]]; reflexivity).
  assert (IW : inputs_wf w h args).
  { split; [|intros f1 g1 Q; destruct HU as [[-> [->| ->]]|[-> ->]]; discriminate].
    intros f1 Q. assert (f1 = f) by (destruct HU as [[-> [->| ->]]|[-> ->]]; destruct Q as [Q|[Q|[]]]; congruence). subst. auto. }
  pose proof (call_documented w gs gm h u args out h' r IO IW HO E) as D.
  destruct HU as [[-> [->| ->]]|[-> ->]]; unfold documented in D; cbn [comparison] in D; destruct r as [m| | | | | |]; try (destruct D; fail);
    destruct D as (sh & HOv & Ds & DL & Dt & Dw & DM & _); exists m; (split; [reflexivity|]); intros idx Hi.
  - exists (bscalar x idx). intros ell mm He Hm. rewrite DM by (auto; lia). rewrite bmode_in by lia. reflexivity.
  - exists (bscalar x idx). intros ell mm He Hm. rewrite DM by (auto; lia). rewrite bmode_in by lia. reflexivity.
  - exists (/ bscalar x idx)%C. intros ell mm He Hm. rewrite DM by (auto; lia). rewrite bmode_in by lia. unfold Cdiv. ring.
Qed.
