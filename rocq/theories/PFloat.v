(** Binary32 facts for the grid (C05, C06): monotonicity of the rounded
    division and the exact criterion for a resolution to be safe. *)
From Verif Require Import Base PBase Arith MUtils MXyz PXyz Arith32.
From Flocq Require Import Core IEEE754.BinarySingleNaN.
From Coq Require Import Reals Lra Floats.SpecFloat.
From Verif Require Export SpecSingle.
Open Scope Z_scope.

Lemma sf_b2r (x : f32) sf : B2SF x = sf -> B2R x = SF2R radix2 sf.
Proof. intros <-. symmetry. apply SF2R_B2SF. Qed.

Lemma one32_val : B2R one32 = 1%R /\ is_finite one32 = true.
Proof.
  split; [|reflexivity].
  rewrite (sf_b2r one32 (S754_finite false 8388608 (-23))) by (vm_compute; reflexivity).
  unfold SF2R, F2R. simpl. lra.
Qed.
Lemma zero32_val : B2R zero32 = 0%R /\ is_finite zero32 = true.
Proof. split; reflexivity. Qed.
Lemma pred_one32_val : B2R pred_one32 = (1 - / 16777216)%R /\ is_finite pred_one32 = true.
Proof.
  split; [|reflexivity].
  rewrite (sf_b2r pred_one32 (S754_finite false 16777215 (-24))) by (vm_compute; reflexivity).
  unfold SF2R, F2R. simpl. lra.
Qed.

(** floats below one are at most 1 - 2^-24 *)
Lemma below_one (x : f32) : (B2R x < 1)%R -> (B2R x <= B2R pred_one32)%R.
Proof.
  intros H. rewrite (proj1 pred_one32_val).
  assert (V : Valid_exp (FLT_exp (-149) 24)) by (apply FLT_exp_valid; reflexivity).
  assert (P : (B2R x <= pred radix2 (FLT_exp (-149) 24) (bpow radix2 0))%R).
  { apply pred_ge_gt.
    - apply V.
    - apply (generic_format_B2R 24 128 x).
    - apply generic_format_bpow. unfold FLT_exp. simpl. lia.
    - simpl. exact H. }
  rewrite pred_bpow in P. simpl in P. unfold Rminus. lra.
Qed.

Lemma f32_floor_spec (a : f32) : is_finite a = true -> f32_floor a = Some (Zfloor (B2R a)).
Proof.
  destruct a as [s|s| |s m e Hb]; simpl; try discriminate; intros _.
  - f_equal. symmetry. now rewrite (Zfloor_IZR 0).
  - f_equal. unfold F2R. simpl.
    replace (cond_Zopp s (Zpos m)) with (if s then Zneg m else Zpos m) by now destruct s.
    set (z := if s then Zneg m else Zpos m). destruct (0 <=? e) eqn:E.
    + rewrite <- IZR_Zpower by lia. rewrite <- mult_IZR, Zfloor_IZR. reflexivity.
    + replace e with (- (- e)) at 2 by lia. rewrite bpow_opp, <- IZR_Zpower by lia.
      symmetry. apply Zfloor_div. simpl. apply Z.pow_nonzero; lia.
Qed.

Notation rnd := (round radix2 (SpecFloat.fexp 24 128) (round_mode mode_NE)).
Notation div32 := (@Bdiv 24 128 f32_prec f32_emax mode_NE).

Lemma div32_finite (x y : f32) : B2R y <> 0%R -> is_finite (div32 x y) = true ->
  B2R (div32 x y) = rnd (B2R x / B2R y) /\ (Rabs (rnd (B2R x / B2R y)) < bpow radix2 128)%R.
Proof.
  intros Hy Hf. pose proof (Bdiv_correct 24 128 f32_prec f32_emax mode_NE x y Hy) as H.
  destruct (Rlt_bool_spec (Rabs (rnd (B2R x / B2R y))) (bpow radix2 128)) as [L|L].
  - now destruct H as [H _].
  - exfalso. destruct (div32 x y); simpl in *; try discriminate.
Qed.

Lemma div32_small (x y : f32) : B2R y <> 0%R -> is_finite x = true ->
  (Rabs (rnd (B2R x / B2R y)) < bpow radix2 128)%R ->
  B2R (div32 x y) = rnd (B2R x / B2R y) /\ is_finite (div32 x y) = true.
Proof.
  intros Hy Hf L. pose proof (Bdiv_correct 24 128 f32_prec f32_emax mode_NE x y Hy) as H.
  rewrite Rlt_bool_true in H by exact L. destruct H as (H1 & H2 & _). rewrite Hf in H2. auto.
Qed.

Lemma pos_finite_val x : pos_finite x = true -> (0 < B2R x)%R.
Proof.
  destruct x as [s|s| |[] m e Hb]; try discriminate. intros _. simpl. unfold F2R. simpl.
  apply Rmult_lt_0_compat; [apply IZR_lt; lia|apply bpow_gt_0].
Qed.

Lemma rnd_mono x y : (x <= y)%R -> (rnd x <= rnd y)%R.
Proof. apply round_le; [apply FLT_exp_valid; reflexivity|apply valid_rnd_round_mode]. Qed.
Lemma rnd_0 : rnd 0 = 0%R.
Proof. apply round_0. apply valid_rnd_round_mode. Qed.

Lemma cell_coord32 gr (x : f32) : 0 < gr <= int_max -> safe_res gr = true ->
  is_finite x = true -> (0 <= B2R x < 1)%R ->
  exists c, cell_coord arith32 (grid_len arith32 gr) x = Ok c /\ 0 <= c < gr.
Proof.
  intros Hg Hs Fx Hx. unfold safe_res in Hs. rewrite !andb_true_iff in Hs.
  destruct Hs as ((H1 & H2) & H3). set (gl := grid_len arith32 gr) in *.
  apply pos_finite_val in H1. assert (Hy : B2R gl <> 0%R) by lra.
  destruct (div32_finite _ _ Hy H2) as [V L].
  assert (M : (0 <= B2R x / B2R gl <= B2R pred_one32 / B2R gl)%R).
  { assert (0 < / B2R gl)%R by now apply Rinv_0_lt_compat.
    pose proof (below_one x (proj2 Hx)). unfold Rdiv. split; nra. }
  assert (Mr : (0 <= rnd (B2R x / B2R gl) <= rnd (B2R pred_one32 / B2R gl))%R).
  { split; [rewrite <- rnd_0|]; apply rnd_mono; apply M. }
  assert (Lx : (Rabs (rnd (B2R x / B2R gl)) < bpow radix2 128)%R).
  { rewrite Rabs_pos_eq by apply Mr. rewrite Rabs_pos_eq in L by lra. lra. }
  destruct (div32_small x gl Hy Fx Lx) as [Vx Fq].
  unfold cell_coord. simpl ffloor. simpl fdiv. rewrite (f32_floor_spec _ Fq), Vx.
  rewrite (f32_floor_spec _ H2), V in H3.
  set (c := Zfloor (rnd (B2R x / B2R gl))).
  assert (0 <= c <= Zfloor (rnd (B2R pred_one32 / B2R gl))).
  { split; [rewrite <- (Zfloor_IZR 0)|]; apply Zfloor_le; apply Mr. }
  exists c. unfold Base.in_int, int_min. replace (-2147483648 <=? c) with true by lia.
  replace (c <=? int_max) with true by lia. split; [reflexivity|lia].
Qed.

Lemma cell_id_parts N gr gl x y z a b c : 
  0 < gr -> gr * gr * gr <= int_max ->
  cell_coord N gl x = Ok a -> cell_coord N gl y = Ok b -> cell_coord N gl z = Ok c ->
  0 <= a < gr -> 0 <= b < gr -> 0 <= c < gr ->
  exists i, cell_id N gr gl (x, y, z) = Ok i /\ 0 <= i < gr * gr * gr.
Proof.
  intros Hg Hm Ea Eb Ec Ra Rb Rc. unfold cell_id. rewrite Ea, Eb, Ec. cbn [rbind].
  assert (0 <= b * gr <= gr * gr - gr) by nia.
  assert (0 <= c * gr <= gr * gr - gr) by nia.
  assert (0 <= c * gr * gr <= gr * gr * gr - gr * gr) by nia.
  assert (gr * gr <= int_max) by nia.
  unfold int_max in *.
  rewrite (chk_ok (b * gr)) by (unfold int_min, int_max; lia). cbn [rbind].
  rewrite (chk_ok (a + b * gr)) by (unfold int_min, int_max; lia). cbn [rbind].
  rewrite (chk_ok (c * gr)) by (unfold int_min, int_max; lia). cbn [rbind].
  rewrite (chk_ok (c * gr * gr)) by (unfold int_min, int_max; lia). cbn [rbind].
  rewrite chk_ok by (unfold int_min, int_max; lia). eexists; split; [reflexivity|lia].
Qed.

Lemma in_range32 gr pts : 0 < gr -> gr * gr * gr <= int_max -> safe_res gr = true ->
  Forall open01p pts -> in_range_ids arith32 gr pts.
Proof.
  intros Hg Hm Hs HF p Hp. rewrite Forall_forall in HF. specialize (HF p Hp).
  destruct p as [[x y] z]. destruct HF as ((Fx & Rx) & (Fy & Ry) & (Fz & Rz)).
  assert (0 < gr <= int_max) by nia.
  destruct (cell_coord32 gr x) as (a & Ea & Ra); auto; try lra.
  destruct (cell_coord32 gr y) as (b & Eb & Rb); auto; try lra.
  destruct (cell_coord32 gr z) as (c & Ec & Rc); auto; try lra.
  eapply cell_id_parts; eauto.
Qed.

(** ** validate_xyzset on floats *)
Lemma coord_ok32 (x : f32) : coord_ok arith32 x = true <-> x = B754_nan \/ open01 x.
Proof.
  change (coord_ok arith32 x) with (negb (Bleb one32 x || Bleb x zero32)).
  destruct (is_finite x) eqn:Fx.
  - rewrite !Bleb_correct by (auto; reflexivity).
    rewrite (proj1 one32_val), (proj1 zero32_val).
    rewrite negb_true_iff, orb_false_iff.
    split.
    + intros [H1 H2]. right. split; [assumption|].
      destruct (Rle_bool_spec 1 (B2R x)); [discriminate|].
      destruct (Rle_bool_spec (B2R x) 0); [discriminate|]. lra.
    + intros [->|[_ H]]; [discriminate|]. split; apply Rle_bool_false; lra.
  - destruct x as [s|s| |s m e Hb]; try discriminate.
    + split.
      * destruct s; vm_compute; discriminate.
      * intros [H|[H _]]; discriminate.
    + split; [now left|reflexivity].
Qed.

Lemma validate32 pts : validate_xyzset arith32 pts = true <->
  forall p, In p pts -> let '(x, y, z) := p in
    (x = B754_nan \/ open01 x) /\ (y = B754_nan \/ open01 y) /\ (z = B754_nan \/ open01 z).
Proof.
  unfold validate_xyzset. rewrite forallb_forall. split; intros H p Hp; specialize (H p Hp);
  destruct p as [[x y] z]; rewrite !andb_true_iff, !coord_ok32 in *; tauto.
Qed.

Lemma validate32_nan : validate_xyzset arith32 [(B754_nan, B754_nan, B754_nan)] = true.
Proof. reflexivity. Qed.

Lemma pred_one_open : open01 pred_one32.
Proof. split; [reflexivity|]. rewrite (proj1 pred_one32_val). lra. Qed.

Lemma sort32_ub_witness : exists gr pts,
  0 < gr /\ gr * gr * gr <= int_max /\ Forall open01p pts /\
  validate_xyzset arith32 pts = true /\ xyz_sort arith32 gr pts = Err EUB.
Proof.
  exists 25, [(pred_one32, pred_one32, pred_one32) : point arith32].
  split; [lia|]. split; [unfold int_max; lia|]. split.
  { constructor; [|constructor]. repeat split; apply pred_one_open. }
  split; vm_compute; reflexivity.
Qed.
