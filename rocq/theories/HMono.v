(** A run of the H recursion that succeeds on storage with undetermined entries gives the same result whatever those entries
    hold: every operation is monotone in the order "undetermined or equal". *)
Require Import ZArith Lia Reals Bool List.
From Verif Require Import Base BaseProofs IndexModel HModel.
Open Scope Z_scope.

Definition ole (o o' : option row) : Prop := o = None \/ o = o'.
Definition ble (H H' : hbuf) : Prop := alen H = alen H' /\ forall i, ole (aget H i) (aget H' i).
Definition sle (s s' : hst) : Prop := ble (Hw s) (Hw s') /\ ble (Hv s) (Hv s') /\ ble (Hx s) (Hx s').
Definition Rres {A B} (R : A -> B -> Prop) (a : res A) (b : res B) : Prop := forall x, a = Ok x -> exists y, b = Ok y /\ R x y.

Lemma Rret {A B} (R : A -> B -> Prop) x y : R x y -> Rres R (Ok x) (Ok y).
Proof. intros H z E. apply Ok_inj in E. subst. eauto. Qed.
Lemma Rrefl {A} (a : res A) : Rres eq a a.
Proof. intros x E. eauto. Qed.
Lemma Rbind {A B A' B'} (R : A -> B -> Prop) (R' : A' -> B' -> Prop) a b f g :
  Rres R a b -> (forall x y, R x y -> Rres R' (f x) (g y)) -> Rres R' (bind a f) (bind b g).
Proof.
  intros H F z E. destruct a as [x|]; [|discriminate]. destruct (H x eq_refl) as (y & -> & Rxy). exact (F x y Rxy z E).
Qed.
Lemma Rfor {S S'} (R : S -> S' -> Prop) f g n : (forall i s s', R s s' -> Rres R (f i s) (g i s')) ->
  forall a d s s', R s s' -> Rres R (for_loop n a d f s) (for_loop n a d g s').
Proof.
  intros H. induction n as [|n IH]; intros a d s s' Rs; cbn [for_loop]; [now apply Rret|].
  apply Rbind with (R := R); auto.
Qed.
Lemma R_hrd H H' i : ble H H' -> Rres eq (hrd H i) (hrd H' i).
Proof.
  intros (L & A) x. unfold hrd, rd. rewrite <- L. cbv zeta.
  destruct (in_bounds _ _); [|discriminate]; cbn [bind].
  destruct (A (norm_index (alen H) i)) as [E|E]; rewrite E; [discriminate|eauto].
Qed.
Lemma R_hwr H H' i r : ble H H' -> Rres ble (hwr H i r) (hwr H' i r).
Proof.
  intros (L & A) x. unfold hwr, wr. rewrite <- L. cbv zeta.
  destruct (in_bounds _ _); [|discriminate]. intros E; apply Ok_inj in E; subst.
  eexists. split; [reflexivity|]. split; [reflexivity|]. intros k. cbn [aget]. destruct (_ =? _); [right; reflexivity|apply A].
Qed.
Lemma R_wrw s s' i r : sle s s' -> Rres sle (wrw s i r) (wrw s' i r).
Proof.
  intros (A & B & D). unfold wrw. apply Rbind with (R := ble); [now apply R_hwr|]. intros x y E. apply Rret. split; [|split]; auto.
Qed.
Lemma R_wrv s s' i r : sle s s' -> Rres sle (wrv s i r) (wrv s' i r).
Proof.
  intros (A & B & D). unfold wrv. apply Rbind with (R := ble); [now apply R_hwr|]. intros x y E. apply Rret. split; [|split]; auto.
Qed.
Lemma R_wrx s s' i r : sle s s' -> Rres sle (wrx s i r) (wrx s' i r).
Proof.
  intros (A & B & D). unfold wrx. apply Rbind with (R := ble); [now apply R_hwr|]. intros x y E. apply Rret. split; [|split]; auto.
Qed.
Lemma R_rdh w s s' i : sle s s' -> Rres eq (rdh w s i) (rdh w s' i).
Proof. intros (A & B & D). unfold rdh. destruct w; now apply R_hrd. Qed.
Lemma R_wrh w s s' i r : sle s s' -> Rres sle (wrh w s i r) (wrh w s' i r).
Proof. intros H. unfold wrh. destruct w; [now apply R_wrw|now apply R_wrx]. Qed.
Lemma R_w s s' i : sle s s' -> Rres eq (hrd (Hw s) i) (hrd (Hw s') i).
Proof. intros (A & B & D). now apply R_hrd. Qed.
Lemma R_v s s' i : sle s s' -> Rres eq (hrd (Hv s) i) (hrd (Hv s') i).
Proof. intros (A & B & D). now apply R_hrd. Qed.
Lemma R_x s s' i : sle s s' -> Rres eq (hrd (Hx s) i) (hrd (Hx s') i).
Proof. intros (A & B & D). now apply R_hrd. Qed.

Definition ple (p p' : row * hst) : Prop := fst p = fst p' /\ sle (snd p) (snd p').

Ltac rbind :=
  match goal with
  | |- Rres _ (bind (crd _ _) _) _ => apply Rbind with (R := eq); [apply Rrefl|intros ? ? <-]
  | |- Rres _ (bind (hrd _ _) _) _ => apply Rbind with (R := eq); [solve [apply R_w; assumption | apply R_v; assumption | apply R_x; assumption]|intros ? ? <-]
  | |- Rres _ (bind (rdh _ _ _) _) _ => apply Rbind with (R := eq); [apply R_rdh; assumption|intros ? ? <-]
  | |- Rres _ (bind (wrw _ _ _) _) _ => apply Rbind with (R := sle); [apply R_wrw; assumption|intros ? ? ?]
  | |- Rres _ (bind (wrv _ _ _) _) _ => apply Rbind with (R := sle); [apply R_wrv; assumption|intros ? ? ?]
  | |- Rres _ (bind (wrx _ _ _) _) _ => apply Rbind with (R := sle); [apply R_wrx; assumption|intros ? ? ?]
  | |- Rres _ (bind (wrh _ _ _ _) _) _ => apply Rbind with (R := sle); [apply R_wrh; assumption|intros ? ? ?]
  | |- Rres _ (wrw _ _ _) _ => apply R_wrw; assumption
  | |- Rres _ (wrv _ _ _) _ => apply R_wrv; assumption
  | |- Rres _ (wrx _ _ _) _ => apply R_wrx; assumption
  | |- Rres _ (wrh _ _ _ _) _ => apply R_wrh; assumption
  | |- Rres _ (Ok _) (Ok _) => apply Rret
  end.

Lemma R_step_1 s s' : sle s s' -> Rres sle (step_1 s) (step_1 s').
Proof. intros. unfold step_1. rbind. Qed.
Lemma R_step_2_row ix g h n_max c sn n s s' : sle s s' ->
  Rres sle (step_2_row ix g h n_max c sn n s) (step_2_row ix g h n_max c sn n s').
Proof.
  intros H. unfold step_2_row. cbv zeta. repeat rbind.
  apply Rbind with (R := sle).
  { apply Rfor; [|assumption]. intros i t t' Ht. repeat rbind. }
  intros t t' Ht. repeat rbind.
  match goal with |- Rres _ (bind (for_range _ _ _ ?p) _) (bind (for_range _ _ _ ?p') _) => assert (P0 : ple p p') by (split; [reflexivity|assumption]) end.
  apply Rbind with (R := ple).
  { apply Rfor; [|assumption]. intros i (p, u) (p', u') (Hp & Hu). cbn [fst snd] in *. subst p'. repeat rbind. split; [reflexivity|assumption]. }
  intros (p, u) (p', u') (Hp & Hu). cbn [fst snd] in *. subst p'. destruct (n <=? n_max); repeat rbind. assumption.
Qed.
Lemma R_step_2 ix g h n_max c sn s s' : sle s s' ->
  Rres sle (step_2 ix g h n_max c sn s) (step_2 ix g h n_max c sn s').
Proof.
  intros H. unfold step_2. cbv zeta. repeat rbind.
  apply Rbind with (R := sle).
  { apply Rfor; [|assumption]. intros i t t' Ht. now apply R_step_2_row. }
  intros t t' Ht.
  match goal with |- Rres _ (bind (for_range _ _ _ ?p) _) (bind (for_range _ _ _ ?p') _) => assert (P0 : ple p p') by (split; [reflexivity|assumption]) end.
  apply Rbind with (R := ple).
  { apply Rfor; [|assumption]. intros i (p, u) (p', u') (Hp & Hu). cbn [fst snd] in *. subst p'. repeat rbind. split; [reflexivity|assumption]. }
  intros (p, u) (p', u') (Hp & Hu). cbn [fst snd] in *. subst p'. repeat rbind.
Qed.
Lemma R_step_3 ix a b n_max c sn s s' : sle s s' -> Rres sle (step_3 ix a b n_max c sn s) (step_3 ix a b n_max c sn s').
Proof.
  intros H. unfold step_3. cbv zeta. apply Rfor; [|assumption]. intros n t t' Ht. rbind.
  apply Rfor; [|assumption]. intros i u u' Hu. repeat rbind.
Qed.
Lemma R_step_4 ix d n_max s s' : sle s s' -> Rres sle (step_4 ix d n_max s) (step_4 ix d n_max s').
Proof.
  intros H. unfold step_4. cbv zeta. apply Rfor; [|assumption]. intros n t t' Ht.
  apply Rfor; [|assumption]. intros mp u u' Hu. repeat rbind.
  apply Rbind with (R := sle).
  { apply Rfor; [|assumption]. intros i v v' Hv'. repeat rbind. }
  intros v v' Hv'. repeat rbind.
Qed.
Lemma R_step_5 ix d n_max s s' : sle s s' -> Rres sle (step_5 ix d n_max s) (step_5 ix d n_max s').
Proof.
  intros H. unfold step_5. cbv zeta. apply Rfor; [|assumption]. intros n t t' Ht.
  apply Rfor; [|assumption]. intros mp u u' Hu. repeat rbind.
  apply Rbind with (R := eq). { destruct (mp =? 0); [now apply R_v|now apply R_w]. }
  intros ? ? <-. repeat rbind.
  apply Rbind with (R := sle).
  { apply Rfor; [|assumption]. intros i v v' Hv'. repeat rbind. }
  intros v v' Hv'. repeat rbind.
Qed.
Lemma R_step_6 n_max s s' : sle s s' -> Rres sle (step_6 n_max s) (step_6 n_max s').
Proof.
  intros H. unfold step_6. apply Rbind with (R := sle).
  - apply Rfor; [|assumption]. intros n t t' Ht. apply Rfor; [|assumption]. intros mp u u' Hu.
    apply Rfor; [|assumption]. intros m v v' Hv'. repeat rbind.
  - intros t0 t0' Ht0. apply Rfor; [|assumption]. intros n t t' Ht. apply Rfor; [|assumption]. intros mp u u' Hu.
    apply Rfor; [|assumption]. intros m v v' Hv'. repeat rbind.
Qed.
