(** Rounding errors of Wigner_D_matrices: the loops, for any predicate on the values written. *)
Require Import ZArith Lia Reals Lra Bool.
From Flocq Require Import Core.
From Coquelicot Require Import Complex.
From Verif Require Import Base BaseProofs CBase Fact RSum CSum SymPow WignerSpec DRep IndexModel FloatIndexModel FloatIndexProofs FloatPowersModel
  FloatPowersSpec FloatPowersProofs FloatPowersProps FloatConvModel FloatConvSpec FloatConvProofs WignerModel WignerProofs WignerProofs2 WignerProofs3
  SWSHModel SWSHProofs FloatWignerModel FloatWignerSpec FloatWignerProofs FloatWignerProofs2 FloatWignerProofs3 FloatWignerProofs4 FloatWignerProofs5
  FloatMatrixModel FloatMatrixProofs FloatMatrixProofs2.
Set Bullet Behavior "Strict Subproofs".
Open Scope R_scope.

Section Loops.
Variables (Q : Z -> Z -> Z -> C -> Prop) (ell_min ell_max : Z).
Hypothesis (Hmin : (0 <= ell_min)%Z).
Notation valid := (valid ell_min ell_max).
Notation slot := (slot ell_min).
Notation sized := (sized ell_min ell_max).
Definition good_at (s : Z * Z * Z) (v : C) : Prop := let '(ell, mp, m) := s in Q ell mp m v.
Definition correctQ (mat : arr C) (s : Z * Z * Z) : Prop := good_at s (aget mat (slot s)).

Lemma wrQ mat s v : sized mat -> valid s -> good_at s v ->
  exists mat', wr mat (slot s) v = Ok mat' /\ sized mat'
    /\ correctQ mat' s /\ forall s', valid s' -> correctQ mat s' -> correctQ mat' s'.
Proof.
  intros Hs Hv Hg. pose proof (slot_bounds ell_min ell_max Hmin s Hv). unfold WignerProofs3.sized in *. rewrite wr_ok by lia.
  eexists; split; [reflexivity|]. split; [exact Hs|]. unfold correctQ. cbn [aget]. split.
  - rewrite upd_same. exact Hg.
  - intros s' Hv' E. destruct (Z.eq_dec (slot s') (slot s)) as [E'|E'].
    + rewrite E', upd_same. replace s' with s; auto. symmetry. now apply (slot_inj ell_min ell_max).
    + rewrite upd_other by auto. auto.
Qed.
Definition stepQ (ell mp m : Z) (mat mat' : arr C) : Prop :=
  sized mat' /\ (forall s, images ell mp m s -> correctQ mat' s)
  /\ (forall s, valid s -> correctQ mat s -> correctQ mat' s).

Lemma symmetric_writesQ ell mp m P1 P2 Sum mat : sized mat -> valid (ell, mp, m) ->
  Q ell mp m (cscale64 Sum P1) ->
  Q ell (- mp) (- m) (cscale64 Sum (if Z.even (m + mp) then Cconj P1 else - Cconj P1))%C ->
  Q ell (- m) (- mp) (cscale64 Sum (if Z.even (m + mp) then P2 else - P2))%C ->
  Q ell m mp (cscale64 Sum (Cconj P2)) ->
  exists mat', D_symmetric_writes64 (linear_matrix_offset ell ell_min) ell mp m P1 P2 Sum mat = Ok mat'
    /\ stepQ ell mp m mat mat'.
Proof.
  intros Hs Hv E1 E2 E3 E4. pose proof Hv as (V1 & V2 & V3).
  assert (Vn : valid (ell, - mp, - m)%Z) by (unfold WignerProofs3.valid; lia).
  assert (Vt : valid (ell, m, mp)) by (unfold WignerProofs3.valid; lia).
  assert (Vnt : valid (ell, - m, - mp)%Z) by (unfold WignerProofs3.valid; lia).
  unfold D_symmetric_writes64. rewrite !linear_slot.
  destruct (wrQ mat (ell, mp, m) _ Hs Hv E1) as (m1 & W1 & S1 & K1 & Q1).
  rewrite W1. cbn [bind]. rewrite mod2_even.
  destruct (wrQ m1 (ell, - mp, - m)%Z _ S1 Vn E2) as (m2 & W2 & S2 & K2 & Q2).
  destruct (Z.eqb_spec (Z.abs m) (Z.abs mp)) as [Eabs|Nabs]; cbn [negb].
  - destruct (Z.eqb_spec m 0) as [E0|N0]; cbn [negb].
    + subst m. exists m1. split; auto. split; auto. split; [|auto].
      assert (mp = 0%Z) as -> by lia. intros s [->|[->|[->| ->]]]; exact K1.
    + exists m2. split. { destruct (Z.even (m + mp)); exact W2. }
      split; auto. split; [|auto].
      assert (D : m = mp \/ m = (- mp)%Z) by lia.
      destruct D as [-> | ->].
      * intros s [->|[->|[->| ->]]]; auto.
      * rewrite ?Z.opp_involutive in *. intros s [->|[->|[->| ->]]]; rewrite ?Z.opp_involutive; auto.
  - destruct (wrQ m2 (ell, - m, - mp)%Z _ S2 Vnt E3) as (m3 & W3 & S3 & K3 & Q3).
    destruct (wrQ m3 (ell, m, mp) _ S3 Vt E4) as (m4 & W4 & S4 & K4 & Q4).
    exists m4. split. { destruct (Z.even (m + mp)); rewrite W2; cbn [bind]; rewrite W3; cbn [bind]; exact W4. }
    split; auto. split; [|auto].
    intros s [->|[->|[->| ->]]]; auto.
Qed.

Lemma zero_writesQ ell mp m mat : sized mat -> valid (ell, mp, m) ->
  Q ell mp m (RtoC 0) -> Q ell (- mp) (- m) (RtoC 0) -> Q ell (- m) (- mp) (RtoC 0) -> Q ell m mp (RtoC 0) ->
  exists mat', D_zero_writes (linear_matrix_offset ell ell_min) ell mp m mat = Ok mat'
    /\ stepQ ell mp m mat mat'.
Proof.
  intros Hs Hv E1 E2 E3 E4. pose proof Hv as (V1 & V2 & V3).
  assert (Vn : valid (ell, - mp, - m)%Z) by (unfold WignerProofs3.valid; lia).
  assert (Vt : valid (ell, m, mp)) by (unfold WignerProofs3.valid; lia).
  assert (Vnt : valid (ell, - m, - mp)%Z) by (unfold WignerProofs3.valid; lia).
  unfold D_zero_writes. rewrite !linear_slot.
  destruct (wrQ mat (ell, mp, m) _ Hs Hv E1) as (m1 & W1 & S1 & K1 & Q1).
  rewrite W1. cbn [bind].
  destruct (wrQ m1 (ell, - mp, - m)%Z _ S1 Vn E2) as (m2 & W2 & S2 & K2 & Q2).
  destruct (Z.eqb_spec (Z.abs m) (Z.abs mp)) as [Eabs|Nabs]; cbn [negb].
  - destruct (Z.eqb_spec m 0) as [E0|N0]; cbn [negb].
    + subst m. exists m1. split; auto. split; auto. split; [|auto].
      assert (mp = 0%Z) as -> by lia. intros s [->|[->|[->| ->]]]; exact K1.
    + exists m2. split; auto. split; auto. split; [|auto].
      assert (D : m = mp \/ m = (- mp)%Z) by lia.
      destruct D as [-> | ->].
      * intros s [->|[->|[->| ->]]]; auto.
      * rewrite ?Z.opp_involutive in *. intros s [->|[->|[->| ->]]]; rewrite ?Z.opp_involutive; auto.
  - rewrite W2. cbn [bind].
    destruct (wrQ m2 (ell, m, mp) _ S2 Vt E4) as (m3 & W3 & S3 & K3 & Q3).
    destruct (wrQ m3 (ell, - m, - mp)%Z _ S3 Vnt E3) as (m4 & W4 & S4 & K4 & Q4).
    rewrite W3. cbn [bind]. exists m4. split; auto. split; auto. split; [|auto].
    intros s [->|[->|[->| ->]]]; auto.
Qed.

Definition invQ (ell mp m : Z) (mat : arr C) : Prop :=
  sized mat /\ forall s, valid s -> visited ell mp m s -> correctQ mat s.

Lemma wedgeQ body mat :
  (forall ell mp m mat, sized mat -> valid (ell, mp, m) -> exists mat', body ell mp m mat = Ok mat' /\ stepQ ell mp m mat mat') ->
  sized mat -> (ell_min <= ell_max + 1)%Z ->
  exists out, for_range ell_min (ell_max + 1) (fun ell mat =>
      for_range (- ell) 1 (fun mp mat => for_range mp (- mp + 1) (fun m mat => body ell mp m mat) mat) mat) mat = Ok out
    /\ sized out /\ forall s, valid s -> correctQ out s.
Proof.
  intros Hb Hs Hle.
  destruct (for_range_inv (fun ell mat => invQ ell (- ell) (- ell) mat) ell_min (ell_max + 1)
    (fun ell mat => for_range (- ell) 1 (fun mp mat => for_range mp (- mp + 1) (fun m mat => body ell mp m mat) mat) mat) mat Hle)
    as (out & E & I).
  - split; auto. intros [[ell mp] m] (V1 & V2 & V3) [Hlt|(mp' & m' & H & Him)]; [lia|].
    exfalso. destruct Him as [X|[X|[X|X]]]; injection X; intros; lia.
  - intros ell mat0 Hell I0.
    destruct (for_range_inv (fun mp mat => invQ ell mp mp mat) (- ell) 1
      (fun mp mat => for_range mp (- mp + 1) (fun m mat => body ell mp m mat) mat) mat0 ltac:(lia) I0)
      as (mat1 & E1 & I1).
    + intros mp mat1 Hmp I1.
      destruct (for_range_inv (fun m mat => invQ ell mp m mat) mp (- mp + 1) (fun m mat => body ell mp m mat) mat1 ltac:(lia) I1)
        as (mat2 & E2 & I2).
      * intros m mat2 Hm (S2 & I2).
        destruct (Hb ell mp m mat2 S2) as (mat3 & E3 & S3 & Im3 & P3); [unfold WignerProofs3.valid; lia|].
        exists mat3. split; auto. split; auto. intros s Hv [Hlt|(mp' & m' & H & Him)].
        -- apply P3; auto. apply I2; auto. left; auto.
        -- destruct (Z.eq_dec mp' mp) as [->|]; [destruct (Z.eq_dec m' m) as [->|]|].
           ++ apply Im3; auto.
           ++ apply P3; auto. apply I2; auto. right. exists mp, m'. split; auto. lia.
           ++ apply P3; auto. apply I2; auto. right. exists mp', m'. split; auto. lia.
      * exists mat2. split; auto. destruct I2 as (S2 & I2). split; auto.
        intros s Hv [Hlt|(mp' & m' & H & Him)]; apply I2; auto.
        -- left; auto.
        -- right. exists mp', m'. split; auto. lia.
    + exists mat1. split; auto. destruct I1 as (S1 & I1). split; auto.
      intros s Hv [Hlt|(mp' & m' & H & Him)].
      * destruct s as [[ell' mp'] m']. destruct (Z.eq_dec ell' ell) as [->|].
        -- apply I1; auto. right. destruct Hv as (V1 & V2 & V3).
           destruct (wedge_covers ell mp' m' V2 V3) as (u & w & Hu & Him). exists u, w. split; auto. lia.
        -- apply I1; auto. left. lia.
      * exfalso. destruct s as [[ell' mp''] m'']. destruct Hv as (V1 & V2 & V3).
        destruct Him as [X|[X|[X|X]]]; injection X; intros; lia.
  - exists out. split; auto. destruct I as (S & I). split; auto.
    intros s Hv. apply I; auto. left. destruct s as [[ell' mp'] m']. destruct Hv. lia.
Qed.

Lemma degenerateQ (mps : Z -> Z) (v : Z -> Z -> C) mat :
  (forall k ell, (- ell <= k <= ell)%Z -> (- ell <= mps k <= ell)%Z) ->
  (forall ell k, (ell_min <= ell <= ell_max)%Z -> (- ell <= k <= ell)%Z -> Q ell k (mps k) (v ell k)) ->
  (forall ell k m, (ell_min <= ell <= ell_max)%Z -> (- ell <= k <= ell)%Z -> (- ell <= m <= ell)%Z -> m <> mps k -> Q ell k m (RtoC 0)) ->
  sized mat -> (ell_min <= ell_max + 1)%Z ->
  exists out, for_range ell_min (ell_max + 1) (fun ell mat =>
      do mat <- for_range 0 ((2 * ell + 1) ^ 2) (fun i mat => wr mat (linear_matrix_offset ell ell_min + i) (RtoC 0)) mat;
      for_range (- ell) (ell + 1) (fun k mat => wr mat (slot (ell, k, mps k)) (v ell k)) mat) mat = Ok out
    /\ sized out /\ forall s, valid s -> correctQ out s.
Proof.
  intros Hmps Hv H0 Hs Hle.
  destruct (for_range_inv (fun ell mat => sized mat /\ forall ell' mp m, valid (ell', mp, m) -> (ell' < ell)%Z -> correctQ mat (ell', mp, m))
    ell_min (ell_max + 1) (fun ell mat =>
      do mat <- for_range 0 ((2 * ell + 1) ^ 2) (fun i mat => wr mat (linear_matrix_offset ell ell_min + i) (RtoC 0)) mat;
      for_range (- ell) (ell + 1) (fun k mat => wr mat (slot (ell, k, mps k)) (v ell k)) mat) mat Hle) as (out & E & S & I).
  - split; auto. intros ell' mp m (V1 & _) H. lia.
  - intros ell mat0 Hell (S0 & I0).
    destruct (block_loop_zero ell_min ell_max Hmin ell mat0 S0 ltac:(lia)) as (m1 & E1 & S1 & Z1 & K1). rewrite E1. cbn [bind].
    destruct (for_range_inv (fun k mat => sized mat
        /\ (forall ell' mp m, valid (ell', mp, m) -> (ell' < ell)%Z \/ (ell' = ell /\ (mp < k \/ m <> mps mp))%Z -> correctQ mat (ell', mp, m)))
      (- ell) (ell + 1) (fun k mat => wr mat (slot (ell, k, mps k)) (v ell k)) m1 ltac:(lia)) as (m2 & E2 & S2 & I2).
    + split; auto. intros ell' mp m V [H|(-> & H)].
      * unfold correctQ, good_at. rewrite K1 by (auto; lia). apply I0; auto.
      * destruct V as (V1 & V2 & V3). unfold correctQ, good_at. rewrite Z1 by (unfold WignerProofs3.valid; lia).
        apply H0; lia.
    + intros k m2 Hk (S2 & I2).
      destruct (wrQ m2 (ell, k, mps k) (v ell k) S2) as (m3 & E3 & S3 & C3 & P3).
      { unfold WignerProofs3.valid. specialize (Hmps k ell ltac:(lia)). lia. }
      { apply Hv; lia. }
      exists m3. split; auto. split; auto. intros ell' mp m V [H|(-> & H)].
      * apply P3; auto.
      * destruct (Z.eq_dec mp k) as [->|]; [destruct (Z.eq_dec m (mps k)) as [->|]|].
        -- exact C3.
        -- apply P3; auto.
        -- apply P3; auto. apply I2; auto. right. split; auto. lia.
    + exists m2. split; auto. split; auto. intros ell' mp m V H. apply I2; auto.
      destruct (Z.eq_dec ell' ell) as [->|]; [|left; lia]. right. split; auto. left. destruct V as (V1 & V2 & V3). lia.
  - exists out. split; auto. split; auto. intros [[ell' mp] m] V. apply I; auto. destruct V. lia.
Qed.
End Loops.
