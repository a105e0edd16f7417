(** Property C57: parts, copies and pickles of Modes objects. *)
Require Import ZArith Lia List Reals Lra Bool.
From Coquelicot Require Import Hierarchy Complex.
From Verif Require Import Base CBase DRep WignerModel SWSHModel ModesModel ModesSpec ViewModel ViewSpec.
From Verif Require ViewProofs ViewProps.
Import ListNotations.
Open Scope Z_scope.

(** ** C57 *)

(** A key of integers, slices and new axes that leaves the last axis alone gives a valid object of the same spin weight and
    ell_max, with the modes of [f] at the leading indices the key picks, in the memory of [f]. *)
Theorem C57_leading :
  forall h f ld key ld' t tail, valid h f ld -> selects key ld ld' t -> tail = [] \/ tail = [KEllipsis] ->
  exists r, getitem h f (key ++ tail) = Ok (Object r) /\ valid h r ld' /\ vmd r = vmd f
    /\ forall p, at_index ld' p -> at_index ld (t p)
       /\ forall k, 0 <= k < (ellmax (vmd f) + 1) ^ 2 -> cell r p k = cell f (t p) k /\ column h r p k = column h f (t p) k.
Proof. exact ViewProps.C57_leading. Qed.
Print Assumptions C57_leading.

(** Every other key for the leading axes raises. *)
Theorem C57_keys :
  forall h f ld key, valid h f ld -> existsb is_ellipsis key = false -> (consumed key <= length ld)%nat ->
  (exists ld' t, selects key ld ld' t) \/ getitem h f key = Err IndexError \/ getitem h f key = Err ValueError.
Proof. exact ViewProps.C57_keys. Qed.
Print Assumptions C57_keys.

(** Evaluating a part is taking the part of the values. *)
Theorem C57_evaluate :
  forall h f ld key ld' t tail r, valid h f ld -> selects key ld ld' t -> tail = [] \/ tail = [KEllipsis] ->
  getitem h f (key ++ tail) = Ok (Object r) ->
  forall tab g Rs,
  (forall e, vevaluate tab g h f Rs = Err e -> vevaluate tab g h r Rs = Err e)
  /\ forall F, vevaluate tab g h f Rs = Ok F -> exists F', vevaluate tab g h r Rs = Ok F'
     /\ forall p i, at_index ld' p -> F' (rev p) i = F (rev (t p)) i.
Proof. exact ViewProps.C57_evaluate. Qed.
Print Assumptions C57_evaluate.

(** A slice of the last axis keeps spin weight and ell_max of [f]; unless it has the same length, it cannot be evaluated or
    made into a Modes object. *)
Theorem C57_columns :
  forall h f ld a b c len e, valid h f ld -> enumerates ((ellmax (vmd f) + 1) ^ 2) a b c len e ->
  exists r, getitem h f [KEllipsis; KSlice a b c] = Ok (Object r) /\ vmd r = vmd f /\ vshape (vw r) = ld ++ [len]
    /\ (forall p j, at_index ld p -> 0 <= j < len -> cell r p j = cell f p (e j) /\ column h r p j = column h f p (e j))
    /\ (len <> (ellmax (vmd f) + 1) ^ 2 ->
        rebuild h r = Err ValueError /\ forall tab g Rs F, vevaluate tab g h r Rs <> Ok F).
Proof. exact ViewProps.C57_columns. Qed.
Print Assumptions C57_columns.

(** [f[..., f.index(ell, m)]] is the mode. *)
Theorem C57_mode :
  forall h f ld ell m k, valid h f ld -> vindex f ell m = Ok k ->
  (forall p, at_index ld p -> getitem h f (map KInt p ++ [KInt k]) = Ok (Number (vmode h f p ell m)))
  /\ exists r, getitem h f [KEllipsis; KInt k] = Ok (Object r) /\ vshape (vw r) = ld
     /\ forall p, at_index ld p -> entry h (vw r) p = vmode h f p ell m.
Proof. exact ViewProps.C57_mode. Qed.
Print Assumptions C57_mode.

(** Copies and unpickled objects are equal to [f] and share nothing with it. *)
Theorem C57_copy :
  forall h f ld, valid h f ld -> exists h' r, vcopy h f = (h', r) /\ separate_twin h h' f r ld.
Proof. exact ViewProps.C57_copy. Qed.
Print Assumptions C57_copy.
Theorem C57_pickle :
  forall h f ld fortran h2, valid h f ld ->
  exists h' r, setstate h2 (reduce h f fortran) = (h', r)
    /\ (vnext h2 <= vbuf (vw r) < vnext h')%nat /\ (forall b, (b < vnext h2)%nat -> forall a, vmem h' b a = vmem h2 b a)
    /\ valid h' r ld /\ vmd r = vmd f
    /\ forall p k, at_index ld p -> 0 <= k < (ellmax (vmd f) + 1) ^ 2 -> column h' r p k = column h f p k.
Proof. exact ViewProps.C57_pickle. Qed.
Print Assumptions C57_pickle.

(** An operation in place on a part of [f] changes the metadata of the part, the modes of [f] at the leading indices of the
    part, and nothing else. *)
Theorem C57_conjugate :
  forall h f ld key ld' t tail r, valid h f ld -> selects key ld ld' t -> tail = [] \/ tail = [KEllipsis] ->
  getitem h f (key ++ tail) = Ok (Object r) ->
  exists h' r', inplace (fun h m => conjugate h m true) h r = Ok (h', r')
    /\ vw r' = vw r /\ vmd r' = mkmeta (- spin (vmd f)) (ellmax (vmd f)) (truncator (vmd f)) /\ valid h' r' ld' /\ valid h' f ld
    /\ only_cells r ld' h h'
    /\ (forall p ell m, at_index ld' p -> 0 <= ell <= ellmax (vmd f) -> - ell <= m <= ell ->
          vmode h' f (t p) ell m = vmode h' r' p ell m
          /\ vmode h' r' p ell m = (let x := Cconj (vmode h f (t p) ell (- m)) in if Z.even (spin (vmd f) + m) then x else (- x)%C))
    /\ forall q ell m, at_index ld q -> (forall p, at_index ld' p -> t p <> q) -> 0 <= ell <= ellmax (vmd f) -> - ell <= m <= ell ->
          vmode h' f q ell m = vmode h f q ell m.
Proof. exact ViewProps.C57_conjugate. Qed.
Print Assumptions C57_conjugate.
Theorem C57_real_imag :
  forall h f ld key ld' t tail r, valid h f ld -> spin (vmd f) = 0 -> selects key ld ld' t -> tail = [] \/ tail = [KEllipsis] ->
  getitem h f (key ++ tail) = Ok (Object r) ->
  forall part : bool,
  exists h', inplace (fun h m => if part then real_func h m true else imag_func h m true) h r = Ok (h', r)
    /\ valid h' r ld' /\ valid h' f ld /\ only_cells r ld' h h'
    /\ (forall p ell m, at_index ld' p -> 0 <= ell <= ellmax (vmd f) -> - ell <= m <= ell ->
          vmode h' f (t p) ell m =
            (let x := vmode h f (t p) ell m in let y := Cconj (vmode h f (t p) ell (- m)) in let y := if Z.even m then y else (- y)%C in
             if part then (x + y) / RtoC 2 else - Ci * (x - y) / RtoC 2)%C)
    /\ forall q ell m, at_index ld q -> (forall p, at_index ld' p -> t p <> q) -> 0 <= ell <= ellmax (vmd f) -> - ell <= m <= ell ->
          vmode h' f q ell m = vmode h f q ell m.
Proof. exact ViewProps.C57_real_imag. Qed.
Print Assumptions C57_real_imag.

(** [Modes(f)] is [f]. *)
Theorem C57_rebuild :
  forall h f ld, valid h f ld -> 0 <= ellmax (vmd f) ->
  exists h', rebuild h f = Ok (h', f) /\ vnext h' = vnext h /\ forall b a, vmem h' b a = vmem h b a.
Proof. exact ViewProps.C57_rebuild. Qed.
Print Assumptions C57_rebuild.

(** "Working in place on [f[0]] has no effect on [f]" is false. *)
Theorem C57_alias_refuted :
  exists h f ld r h' r' ell m, valid h f ld /\ getitem h f [KInt 0] = Ok (Object r)
    /\ inplace (fun h m => conjugate h m true) h r = Ok (h', r')
    /\ vindex f ell m <> Err ValueError /\ vmode h' f [0] ell m <> vmode h f [0] ell m.
Proof. exact ViewProps.C57_alias_refuted. Qed.
Print Assumptions C57_alias_refuted.

(** "Indexing returns a valid object" is false for the last axis, and making it valid writes to [f]. *)
Theorem C57_reversed_refuted :
  exists h f ld r h' r' ell m, valid h f ld
    /\ getitem h f [KEllipsis; KSlice None None (Some (-1))] = Ok (Object r) /\ vshape (vw r) = vshape (vw f) /\ ~ valid h r ld
    /\ rebuild h r = Ok (h', r') /\ vindex f ell m <> Err ValueError /\ vmode h' f [0] ell m <> vmode h f [0] ell m.
Proof. exact ViewProps.C57_reversed_refuted. Qed.
Print Assumptions C57_reversed_refuted.

(** [f[-1, None, 4:0:-2]] on leading shape (3, 5) picks [f[2, 4]] and [f[2, 2]]. *)
Example C57_key : exists t, selects [KInt (-1); KNew; KSlice (Some 4) (Some 0) (Some (-2))] [3; 5] [1; 2] t
  /\ t [0; 0] = [2; 4] /\ t [0; 1] = [2; 2].
Proof.
  eexists. split.
  - apply (sel_int (-1) 3); [lia|]. apply sel_new. eapply sel_slice; [|apply sel_end].
    apply (ViewProofs.slice_ok 5 (Some 4) (Some 0) (Some (-2)) 4 (-2) 2); [lia|reflexivity].
  - split; reflexivity.
Qed.
(** Two functions of spin weight 1 and ell_max 1 with non-zero modes; the key [0], a slice of three of their four columns, and
    the mode (1, -1). *)
Example C57_nonvacuous : valid ViewProps.two_heap ViewProps.two [2] /\ (exists t, selects [KInt 0] [2] [] t)
  /\ (exists e, enumerates ((ellmax (vmd ViewProps.two) + 1) ^ 2) (Some 1) None None 3 e)
  /\ vindex ViewProps.two 1 (-1) = Ok 1 /\ vmode ViewProps.two_heap ViewProps.two [1] 1 (-1) = RtoC 1.
Proof.
  split; [exact ViewProps.two_valid|]. split; [eexists; apply (sel_int 0 2); [lia|apply sel_end]|]. split.
  - eexists. apply (ViewProofs.slice_ok 4 (Some 1) None None 1 1 3); [lia|reflexivity].
  - split; reflexivity.
Qed.
(** For real and imaginary parts: the same memory read as functions of spin weight 0 *)
Example C57_spin0 : valid ViewProps.two_heap (mkvmodes (vw ViewProps.two) (mkmeta 0 1 None)) [2].
Proof. destruct ViewProps.two_valid as (S & E & _). split; [exact S|]. split; [exact E|]. cbn [vmd spin]. lia. Qed.
