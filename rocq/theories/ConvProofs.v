Require Import ZArith Lia Reals Lra Bool.
From Coquelicot Require Import Complex.
From Verif Require Import Base BaseProofs CBase IndexModel IndexProofs ConvModel.
Open Scope Z_scope.

Lemma sqrt_nz x : (0 < x)%R -> sqrt x <> 0%R.
Proof. intros H E. pose proof (sqrt_lt_R0 x H). lra. Qed.

Lemma Ci_neq0 : Ci <> RtoC 0.
Proof. intro H. apply (f_equal snd) in H. simpl in H. lra. Qed.

Ltac conv_nz :=
  repeat split;
  first [ apply Ci_neq0 | apply RtoC_neq0;
    first [apply sqrt_nz; pose proof PI_RGT_0; lra | lra ] | idtac ].

Lemma constant_inv1 c : constant_from_ell_0_mode (constant_as_ell_0_mode c) = c.
Proof. unfold constant_as_ell_0_mode, constant_from_ell_0_mode. field. conv_nz. Qed.
Lemma constant_inv2 c : constant_as_ell_0_mode (constant_from_ell_0_mode c) = c.
Proof. unfold constant_as_ell_0_mode, constant_from_ell_0_mode. field. conv_nz. Qed.

Lemma vector_inv1 v : vector_from_ell_1_modes (vector_as_ell_1_modes v) = v.
Proof.
  destruct v as [[x y] z]. unfold vector_as_ell_1_modes, vector_from_ell_1_modes.
  f_equal; [f_equal|]; field; conv_nz.
Qed.
Lemma vector_inv2 v : vector_as_ell_1_modes (vector_from_ell_1_modes v) = v.
Proof.
  destruct v as [[x y] z]. unfold vector_as_ell_1_modes, vector_from_ell_1_modes.
  f_equal; [f_equal|]; field; conv_nz.
Qed.

(** ** Loops *)
Definition map_block (g : C -> C) (i n : Z) (a b : arr C) : Prop :=
  alen b = alen a /\
  forall k, aget b k = if (i <=? k) && (k <? i + n) then g (aget a k) else aget a k.

Lemma block_loop (g : C -> C) ell a i :
  0 <= ell -> 0 <= i -> i + 2 * ell + 1 <= alen a ->
  exists b, for_range (- ell) (ell + 1) (fun m st =>
    let '(a, i_mode) := st in
    do x <- rd a i_mode;
    do a <- wr a i_mode (g x);
    Ok (a, i_mode + 1)) (a, i) = Ok (b, i + 2 * ell + 1)
    /\ map_block g i (2 * ell + 1) a b.
Proof.
  intros Hl Hi Ha.
  set (P := fun (m : Z) (st : arr C * Z) =>
    snd st = i + (m + ell) /\ map_block g i (m + ell) a (fst st)).
  destruct (for_range_inv P (- ell) (ell + 1) (fun m st =>
    let '(a, i_mode) := st in
    do x <- rd a i_mode;
    do a <- wr a i_mode (g x);
    Ok (a, i_mode + 1)) (a, i)) as ([b j] & E & Hj & Hb).
  - lia.
  - split; [simpl; lia|]. split; [reflexivity|]. intros k. cbn [fst].
    destruct (Z.leb_spec i k); simpl; auto. destruct (Z.ltb_spec k (i + (- ell + ell))); auto; lia.
  - intros m [b j] Hm [Hj [Hlen Hb]]. cbn [fst snd] in *. subst j.
    rewrite rd_ok by lia. cbn [bind]. rewrite wr_ok by lia. cbn [bind].
    eexists; split; [reflexivity|]. split; [simpl; lia|]. split; [auto|].
    intros k. cbn [fst aget]. unfold upd. rewrite !Hb.
    destruct (Z.eqb_spec k (i + (m + ell))) as [->|Hne].
    + destruct (Z.leb_spec i (i + (m + ell))); [|lia].
      destruct (Z.ltb_spec (i + (m + ell)) (i + (m + ell))); [lia|].
      destruct (Z.ltb_spec (i + (m + ell)) (i + (m + 1 + ell))); [|lia]. auto.
    + destruct (Z.leb_spec i k); simpl; auto.
      destruct (Z.ltb_spec k (i + (m + ell))), (Z.ltb_spec k (i + (m + 1 + ell))); auto; lia.
  - cbn [fst snd] in *. exists b. subst j.
    replace (i + (ell + 1 + ell)) with (i + 2 * ell + 1) in E by lia. split; auto.
    replace (ell + 1 + ell) with (2 * ell + 1) in Hb by lia. auto.
Qed.

Lemma conv_ell_max_ok ell_min ell_max : 0 <= ell_min <= ell_max + 1 ->
  conv_ell_max (LM_total_size ell_min ell_max) ell_min = ell_max.
Proof.
  intros H. unfold conv_ell_max, LM_total_size.
  replace (ell_max * (ell_max + 2) - ell_min ^ 2 + 1
    + ((ell_min - 1) * (ell_min - 1 + 2) - 0 ^ 2 + 1)) with ((ell_max + 1) * (ell_max + 1)) by ring.
  rewrite Z.sqrt_square by lia. lia.
Qed.

(** Every mode [(ell, m)] of the array is replaced by [g ell] of itself. *)
Lemma ell_loop_ok (g : Z -> C -> C) step ell_min ell_max modes :
  0 <= ell_min <= ell_max + 1 -> alen modes = LM_total_size ell_min ell_max ->
  (forall ell a i, ell_min <= ell <= ell_max -> 0 <= i -> i + 2 * ell + 1 <= alen a ->
     exists b, step ell (a, i) = Ok (b, i + 2 * ell + 1) /\ map_block (g ell) i (2 * ell + 1) a b) ->
  exists out, ell_loop step ell_min modes = Ok out /\ alen out = alen modes
    /\ forall ell m, ell_min <= ell <= ell_max -> - ell <= m <= ell ->
         aget out (LM_index ell m ell_min) = g ell (aget modes (LM_index ell m ell_min)).
Proof.
  intros H Hlen Hs. unfold ell_loop. rewrite Hlen, conv_ell_max_ok by auto.
  set (P := fun (l : Z) (st : arr C * Z) =>
    snd st = l ^ 2 - ell_min ^ 2 /\ alen (fst st) = alen modes /\
    (forall k, l ^ 2 - ell_min ^ 2 <= k -> aget (fst st) k = aget modes k) /\
    forall ell m, ell_min <= ell < l -> - ell <= m <= ell ->
         aget (fst st) (LM_index ell m ell_min) = g ell (aget modes (LM_index ell m ell_min))).
  destruct (for_range_inv P ell_min (ell_max + 1) step (modes, 0)) as ([out j] & E & HP).
  - lia.
  - split; [simpl; lia|]. repeat split; auto. intros; lia.
  - intros l [a i] Hl (Hi & La & Hun & Hd). cbn [fst snd] in *. subst i.
    destruct (Hs l a (l ^ 2 - ell_min ^ 2)) as (b & Eb & Lb & Hb); [lia| nia | |].
    { rewrite La, Hlen. unfold LM_total_size. nia. }
    eexists; split; [exact Eb|]. unfold P; cbn [fst snd].
    split; [ring_simplify; lia|]. split; [congruence|]. split.
    + intros k Hk. rewrite Hb. destruct (Z.ltb_spec k (l ^ 2 - ell_min ^ 2 + (2 * l + 1))).
      * replace ((l + 1) ^ 2) with (l ^ 2 + 2 * l + 1) in Hk by ring. lia.
      * rewrite andb_false_r. apply Hun. replace ((l + 1) ^ 2) with (l ^ 2 + 2 * l + 1) in Hk by ring. lia.
    + intros ell m He Hm. rewrite Hb. unfold LM_index in *.
      destruct (Z.eq_dec ell l) as [->|Hne].
      * destruct (Z.leb_spec (l ^ 2 - ell_min ^ 2) (l * (l + 1) - ell_min ^ 2 + m)); [|nia].
        destruct (Z.ltb_spec (l * (l + 1) - ell_min ^ 2 + m) (l ^ 2 - ell_min ^ 2 + (2 * l + 1))); [|nia].
        simpl. rewrite Hun by nia. auto.
      * destruct (Z.leb_spec (l ^ 2 - ell_min ^ 2) (ell * (ell + 1) - ell_min ^ 2 + m)).
        -- assert ((ell + 1) ^ 2 <= l ^ 2) by (apply Z.pow_le_mono_l; lia). nia.
        -- simpl. apply Hd; lia.
  - rewrite E. cbn [bind]. destruct HP as (_ & L & _ & Hd). exists out. cbn [fst] in *.
    repeat split; [congruence|]. intros; apply Hd; lia.
Qed.

Lemma scale_loop_ok (f : Z -> R) ell_min ell_max modes :
  0 <= ell_min <= ell_max + 1 -> alen modes = LM_total_size ell_min ell_max ->
  exists out, ell_loop (fun ell => scale_block (f ell) ell) ell_min modes = Ok out
    /\ alen out = alen modes
    /\ forall ell m, ell_min <= ell <= ell_max -> - ell <= m <= ell ->
         aget out (LM_index ell m ell_min) = (aget modes (LM_index ell m ell_min) * RtoC (f ell))%C.
Proof.
  intros. apply (ell_loop_ok (fun ell x => (x * RtoC (f ell))%C) _ ell_min ell_max); auto.
  intros ell a i He Hi Hl. apply (block_loop (fun x => (x * RtoC (f ell))%C)); lia.
Qed.

Lemma inverse_loop_ok s ell_min ell_max modes :
  0 <= ell_min <= ell_max + 1 -> alen modes = LM_total_size ell_min ell_max ->
  exists out, ethbar_inverse_NP modes s ell_min = Ok out
    /\ alen out = alen modes
    /\ forall ell m, ell_min <= ell <= ell_max -> - ell <= m <= ell ->
         aget out (LM_index ell m ell_min)
         = if Rlt_dec 0 (IZR (ell + s + 1) * IZR (ell - s))
           then (aget modes (LM_index ell m ell_min) / RtoC (- sqrt (IZR (ell + s + 1) * IZR (ell - s))))%C
           else aget modes (LM_index ell m ell_min).
Proof.
  intros. unfold ethbar_inverse_NP.
  apply (ell_loop_ok (fun ell x => if Rlt_dec 0 (IZR (ell + s + 1) * IZR (ell - s))
     then (x / RtoC (- sqrt (IZR (ell + s + 1) * IZR (ell - s))))%C else x) _ ell_min ell_max); auto.
  intros ell a i He Hi Hl. cbv zeta.
  destruct (Rlt_dec _ _).
  - apply (block_loop (fun x => (x / RtoC _)%C)); lia.
  - exists a. cbn [fst snd]. split; auto. split; auto. intros k. destruct (_ && _); auto.
Qed.

(** ** Factors *)
Lemma eth_factor_GHP s ell : (eth_GHP_factor s ell = eth_NP_factor s ell / sqrt 2)%R.
Proof.
  unfold eth_GHP_factor, eth_NP_factor. destruct (Z.ltb_spec ell (Z.abs (s + 1))).
  - unfold Rdiv; ring.
  - apply sqrt_div; [|lra]. apply Rmult_le_pos; apply IZR_le; lia.
Qed.
Lemma ethbar_factor_GHP s ell : (ethbar_GHP_factor s ell = ethbar_NP_factor s ell / sqrt 2)%R.
Proof.
  unfold ethbar_GHP_factor, ethbar_NP_factor. destruct (Z.ltb_spec ell (Z.abs (s - 1))).
  - unfold Rdiv; ring.
  - rewrite sqrt_div; [field; apply sqrt_nz; lra | | lra]. apply Rmult_le_pos; apply IZR_le; lia.
Qed.

Lemma ethbar_eth_factor s ell : Z.abs s <= ell ->
  (eth_NP_factor s ell * ethbar_NP_factor (s + 1) ell = - (IZR ell - IZR s) * (IZR ell + IZR s + 1))%R.
Proof.
  intros H. unfold eth_NP_factor, ethbar_NP_factor. replace (s + 1 - 1) with s by lia.
  destruct (Z.ltb_spec ell (Z.abs s)); [lia|].
  replace (ell - (s + 1) + 1) with (ell - s) by lia. replace (ell + (s + 1)) with (ell + s + 1) by lia.
  rewrite (Rmult_comm (IZR (ell + s + 1))).
  assert (Hp : (0 <= IZR (ell - s) * IZR (ell + s + 1))%R) by (apply Rmult_le_pos; apply IZR_le; lia).
  destruct (Z.ltb_spec ell (Z.abs (s + 1))).
  - assert (E : ell = s \/ ell + s + 1 = 0) by lia.
    rewrite <- minus_IZR, <- plus_IZR, <- (plus_IZR _ 1).
    destruct E as [E|E]; [replace (ell - s) with 0 by lia | rewrite E]; simpl; ring.
  - replace (sqrt (IZR (ell - s) * IZR (ell + s + 1)) * - sqrt (IZR (ell - s) * IZR (ell + s + 1)))%R
      with (- (sqrt (IZR (ell - s) * IZR (ell + s + 1)) * sqrt (IZR (ell - s) * IZR (ell + s + 1))))%R by ring.
    rewrite sqrt_sqrt by auto. rewrite minus_IZR, !plus_IZR. ring.
Qed.

Lemma eth_ethbar_factor s ell : Z.abs s <= ell ->
  (ethbar_NP_factor s ell * eth_NP_factor (s - 1) ell = - (IZR ell + IZR s) * (IZR ell - IZR s + 1))%R.
Proof.
  intros H. unfold eth_NP_factor, ethbar_NP_factor. replace (s - 1 + 1) with s by lia.
  destruct (Z.ltb_spec ell (Z.abs s)); [lia|].
  replace (ell - (s - 1)) with (ell - s + 1) by lia. replace (ell + (s - 1) + 1) with (ell + s) by lia.
  rewrite (Rmult_comm (IZR (ell - s + 1))).
  assert (Hp : (0 <= IZR (ell + s) * IZR (ell - s + 1))%R) by (apply Rmult_le_pos; apply IZR_le; lia).
  destruct (Z.ltb_spec ell (Z.abs (s - 1))).
  - assert (E : ell = - s \/ ell - s + 1 = 0) by lia.
    rewrite <- plus_IZR, <- minus_IZR, <- (plus_IZR _ 1).
    destruct E as [E|E]; [replace (ell + s) with 0 by lia | rewrite E]; simpl; ring.
  - replace (- sqrt (IZR (ell + s) * IZR (ell - s + 1)) * sqrt (IZR (ell + s) * IZR (ell - s + 1)))%R
      with (- (sqrt (IZR (ell + s) * IZR (ell - s + 1)) * sqrt (IZR (ell + s) * IZR (ell - s + 1))))%R by ring.
    rewrite sqrt_sqrt by auto. rewrite plus_IZR, plus_IZR, minus_IZR. ring.
Qed.
