(** Statement-level definitions for the theorems about Modes objects. *)
Require Import ZArith List Reals.
From Coquelicot Require Import Complex.
From Verif Require Import Base CBase IndexModel DRep WignerModel SWSHModel ModesModel.
Open Scope Z_scope.

(** The (ell, mm) mode of the function with leading index [idx]: entry [ell^2 + (ell + mm)] of the last axis. *)
Definition mode (h : heap) (m : modes) (idx : list Z) (ell mm : Z) : C :=
  mem h (buf (nd m)) idx (ell * ell + (ell + mm)).

(** What the class promises about every object: the last axis has (ell_max+1)^2 entries and every mode with ell below
    |spin weight| is zero.  [buf < next] says the buffer is allocated. *)
Definition wf (h : heap) (m : modes) : Prop :=
  (buf (nd m) < next h)%nat
  /\ wid (nd m) = (ellmax (md m) + 1) ^ 2
  /\ forall idx ell mm, 0 <= ell <= ellmax (md m) -> ell < Z.abs (spin (md m)) -> - ell <= mm <= ell ->
       mode h m idx ell mm = RtoC 0.

(** A leading index in range for the shape [sh]. *)
Definition at_index (sh idx : list Z) : Prop := Forall2 (fun n i => 0 <= i < n) sh idx.

(** [r] is a new object, in memory of its own, with spin weight [s], maximum ell [L], the leading shape [ld] and the
    modes [F]; everything that existed before is untouched. *)
Definition new_modes (h h' : heap) (r : modes) (s L : Z) (ld : list Z) (F : list Z -> Z -> Z -> C) : Prop :=
  (next h <= next h')%nat /\ (forall b, (b < next h)%nat -> forall idx k, mem h' b idx k = mem h b idx k)
  /\ (next h <= buf (nd r) < next h')%nat
  /\ spin (md r) = s /\ ellmax (md r) = L /\ lead (nd r) = ld /\ wf h' r
  /\ forall idx ell mm, at_index ld idx -> 0 <= ell <= L -> - ell <= mm <= ell -> mode h' r idx ell mm = F idx ell mm.

(** [m.evaluate(q)] returns the values [F idx], one for each leading index. *)
Definition value_at (tab : arr R) (h : heap) (m : modes) (q : quat) (F : list Z -> C) : Prop :=
  forall g, exists E, evaluate tab g h m (mkarr 1 (fun _ => q)) = Ok E
    /\ forall idx, at_index (lead (nd m)) idx -> E idx 0 = F idx.

(** Running [A] on the object [f] returns a new object with spin weight [s], the ell range and leading shape of [f], and
    the modes [w]. *)
Definition gives (A : heap -> modes -> res (heap * modes)) (h : heap) (f : modes) (s : Z) (w : list Z -> Z -> Z -> C) : Prop :=
  exists h' r, A h f = Ok (h', r) /\ new_modes h h' r s (ellmax (md f)) (lead (nd f)) w.
(** First [B], then [A] on its result: the operator product A B. *)
Definition after (A B : heap -> modes -> res (heap * modes)) (h : heap) (f : modes) : res (heap * modes) :=
  bind (B h f) (fun '(h1, x) => A h1 x).
(** Two sets of modes agree for every leading index of [f], every ell up to its ell_max and every m. *)
Definition same_modes (f : modes) (v w : list Z -> Z -> Z -> C) : Prop :=
  forall idx ell mm, at_index (lead (nd f)) idx -> 0 <= ell <= ellmax (md f) -> - ell <= mm <= ell ->
    v idx ell mm = w idx ell mm.

(** Only buffer [c] changed. *)
Definition changes_only (c : nat) (h h' : heap) : Prop :=
  next h' = next h /\ forall b, b <> c -> forall idx k, mem h' b idx k = mem h b idx k.
