(** Binary32: how far the k-NN search can be from the truth. *)
From Verif Require Import Base PBase Arith MUtils MXyz MKnn SpecHeap SpecAny PXyz Arith32 PFloat POrder PKnn PKnnAny PDist32.
From Flocq Require Import Core Relative IEEE754.BinarySingleNaN.
From Coq Require Import Reals Lra Lia Floats.SpecFloat Psatz.
From Verif Require Export SpecSingle.
Import SpecGeom.
Open Scope Z_scope.

Notation u := (/ 16777216)%R.
Definition tiny : R := bpow radix2 (-150).
Lemma tiny_pos : (0 < tiny)%R.
Proof. apply bpow_gt_0. Qed.
Lemma tiny_small : (tiny <= u * u * u * u)%R.
Proof.
  replace u with (bpow radix2 (-24)) by (simpl; lra). unfold tiny. rewrite <- !bpow_plus. apply bpow_le. lia.
Qed.
Opaque tiny.

Lemma rnd_rel x : (Rabs (rnd x - x) <= u * Rabs x + tiny)%R.
Proof.
  destruct (error_N_FLT radix2 (-149) 24 eq_refl (fun t => negb (Z.even t)) x) as (eps & eta & H1 & H2 & _ & H3).
  change (round radix2 (FLT_exp (-149) 24) ZnearestE x) with (rnd x) in H3. rewrite H3.
  assert (E1 : (Rabs eps <= u)%R) by (eapply Rle_trans; [exact H1|]; simpl; lra).
  assert (E2 : (Rabs eta <= tiny)%R).
  { eapply Rle_trans; [exact H2|]. Transparent tiny. unfold tiny. replace (-150) with (-1 + -149) by lia. rewrite bpow_plus. simpl (bpow radix2 (-1)). lra. }
  replace (x * (1 + eps) + eta - x)%R with (x * eps + eta)%R by ring.
  eapply Rle_trans; [apply Rabs_triang|]. rewrite Rabs_mult. pose proof (Rabs_pos x). nra.
Qed.
Opaque tiny.
Lemma rnd_err x b : (Rabs x <= b)%R -> (Rabs (rnd x - x) <= u * b + tiny)%R.
Proof. intros H. pose proof (rnd_rel x). lra. Qed.

Lemma rnd_finite x : (Rabs x <= bpow radix2 100)%R -> (Rabs (rnd x) < bpow radix2 128)%R.
Proof. intros H. apply (rnd_bound x 100); [lia|exact H]. Qed.
Lemma minus32 x y : fin x -> fin y -> (Rabs (B2R x - B2R y) <= bpow radix2 100)%R -> fin (fsub arith32 x y) /\ B2R (fsub arith32 x y) = rnd (B2R x - B2R y).
Proof.
  intros Fx Fy B. pose proof (Bminus_correct 24 128 f32_prec f32_emax mode_NE x y Fx Fy) as H. rewrite Rlt_bool_true in H by now apply rnd_finite.
  destruct H as (H1 & H2 & _). split; [exact H2|exact H1].
Qed.
Lemma plus32 x y : fin x -> fin y -> (Rabs (B2R x + B2R y) <= bpow radix2 100)%R -> fin (fadd arith32 x y) /\ B2R (fadd arith32 x y) = rnd (B2R x + B2R y).
Proof.
  intros Fx Fy B. pose proof (Bplus_correct 24 128 f32_prec f32_emax mode_NE x y Fx Fy) as H. rewrite Rlt_bool_true in H by now apply rnd_finite.
  destruct H as (H1 & H2 & _). split; [exact H2|exact H1].
Qed.
Lemma mult32 x y : fin x -> fin y -> (Rabs (B2R x * B2R y) <= bpow radix2 100)%R -> fin (fmul arith32 x y) /\ B2R (fmul arith32 x y) = rnd (B2R x * B2R y).
Proof.
  intros Fx Fy B. pose proof (Bmult_correct 24 128 f32_prec f32_emax mode_NE x y) as H. rewrite Rlt_bool_true in H by now apply rnd_finite.
  destruct H as (H1 & H2 & _). split; [change (is_finite (@Bmult 24 128 f32_prec f32_emax mode_NE x y) = true); rewrite H2; now rewrite Fx, Fy|exact H1].
Qed.
Lemma big100 x : (Rabs x <= 1000)%R -> (Rabs x <= bpow radix2 100)%R.
Proof. intros H. eapply Rle_trans; [exact H|]. apply Rle_trans with (bpow radix2 10); [simpl; lra|]. apply bpow_le. lia. Qed.
Lemma rnd_id (x : f32) : rnd (B2R x) = B2R x.
Proof. apply round_generic; [apply valid_rnd_round_mode|apply generic_format_B2R]. Qed.

Lemma norm_val m e : Z.abs m < 16777216 -> -149 <= e <= 104 -> B2R (f32_norm m e) = (IZR m * bpow radix2 e)%R /\ fin (f32_norm m e).
Proof.
  intros Hm He. pose proof (binary_normalize_correct 24 128 f32_prec f32_emax mode_NE m e false) as H. cbv zeta in H.
  assert (E : F2R (Float radix2 m e) = (IZR m * bpow radix2 e)%R) by reflexivity.
  assert (G : generic_format radix2 (SpecFloat.fexp 24 128) (F2R (Float radix2 m e))).
  { destruct (Z.eq_dec m 0) as [->|Nm]; [rewrite F2R_0; apply generic_format_0|].
    apply generic_format_F2R. intros _. unfold cexp. rewrite mag_F2R by assumption.
    assert (M : (mag radix2 (IZR m) <= 24)%Z).
    { apply mag_le_bpow; [now apply IZR_neq|]. rewrite <- abs_IZR. simpl. apply IZR_lt. lia. }
    unfold SpecFloat.fexp, SpecFloat.emin. lia. }
  assert (RE : rnd (F2R (Float radix2 m e)) = (IZR m * bpow radix2 e)%R) by (rewrite round_generic; [exact E|apply valid_rnd_round_mode|exact G]).
  change (round radix2 _ _ (F2R _)) with (rnd (F2R (Float radix2 m e))) in H. rewrite RE in H. rewrite Rlt_bool_true in H.
  - destruct H as (H1 & H2 & _). split; assumption.
  - rewrite Rabs_mult, (Rabs_pos_eq (bpow _ _)) by apply bpow_ge_0. rewrite <- abs_IZR.
    apply Rlt_le_trans with (bpow radix2 24 * bpow radix2 e)%R.
    + apply Rmult_lt_compat_r; [apply bpow_gt_0|]. simpl. apply IZR_lt. lia.
    + rewrite <- bpow_plus. apply bpow_le. lia.
Qed.
Lemma ofZ32 z : Z.abs z < 16777216 -> B2R (fofZ arith32 z) = IZR z /\ fin (fofZ arith32 z).
Proof. intros H. destruct (norm_val z 0 H ltac:(lia)) as [A B]. split; [|exact B]. change (B2R (f32_norm z 0) = IZR z). rewrite A. simpl. lra. Qed.

(** ** distances *)
Lemma sub_bound a b : open01 a -> open01 b -> (Rabs (B2R a - B2R b) <= 1)%R.
Proof. intros (_ & A) (_ & B). apply Rabs_le. lra. Qed.
Lemma square_err a A : (Rabs a <= 1)%R -> (Rabs (A - a) <= u * Rabs a + tiny)%R -> (Rabs (A * A - a * a) <= 21 / 10 * u * (a * a) + 3 * tiny)%R.
Proof.
  intros Ha H. pose proof tiny_pos. pose proof tiny_small. set (t := (A - a)%R) in *. replace (A * A - a * a)%R with (2 * a * t + t * t)%R by (unfold t; ring).
  assert (Q1 : (Rabs (2 * a * t) <= 2 * u * (a * a) + 2 * tiny)%R).
  { rewrite !Rabs_mult, (Rabs_pos_eq 2) by lra. assert (a * a = Rabs a * Rabs a)%R as -> by (rewrite <- Rabs_mult; symmetry; apply Rabs_pos_eq; nra).
    pose proof (Rabs_pos a). pose proof (Rabs_pos t). nra. }
  assert (Q2 : (Rabs (t * t) <= 1 / 10 * u * (a * a) + tiny)%R).
  { rewrite Rabs_mult. assert (a * a = Rabs a * Rabs a)%R as -> by (rewrite <- Rabs_mult; symmetry; apply Rabs_pos_eq; nra).
    pose proof (Rabs_pos a) as Pa. pose proof (Rabs_pos t). assert (Rabs t * Rabs t <= (u * Rabs a + tiny) * (u * Rabs a + tiny))%R by (apply Rmult_le_compat; lra).
    assert ((u * Rabs a + tiny) * (u * Rabs a + tiny) = u * u * (Rabs a * Rabs a) + 2 * u * Rabs a * tiny + tiny * tiny)%R by ring.
    assert (0 <= Rabs a * Rabs a)%R by nra. assert (Rabs a * tiny <= tiny)%R by nra. assert (tiny * tiny <= u * tiny)%R by nra. nra. }
  eapply Rle_trans; [apply Rabs_triang|]. lra.
Qed.

Lemma term_err a b : open01 a -> open01 b -> let x := (B2R a - B2R b)%R in
  fin (square arith32 (fsub arith32 a b)) /\ (Rabs (B2R (square arith32 (fsub arith32 a b)) - x ^ 2) <= 32 / 10 * u * x ^ 2 + 5 * tiny)%R.
Proof.
  intros Ha Hb x. pose proof (sub_bound a b Ha Hb) as Bx. fold x in Bx. pose proof tiny_pos as TP. pose proof tiny_small as TS.
  destruct (minus32 a b (proj1 Ha) (proj1 Hb)) as [F1 V1]; [apply big100; fold x; lra|]. fold x in V1.
  set (A := fsub arith32 a b) in *. pose proof (rnd_rel x) as R1. rewrite <- V1 in R1. pose proof (square_err x (B2R A) Bx R1) as SQ.
  assert (X1 : (0 <= x * x <= 1)%R). { split; [nra|]. apply Rabs_le_inv in Bx. nra. }
  assert (BA : (0 <= B2R A * B2R A <= 2)%R). { split; [nra|]. apply Rabs_le_inv in SQ. lra. }
  unfold square. destruct (mult32 A A F1 F1) as [F2 V2]; [apply big100; rewrite Rabs_pos_eq; lra|]. split; [exact F2|]. rewrite V2.
  pose proof (rnd_rel (B2R A * B2R A)) as R2. rewrite (Rabs_pos_eq (B2R A * B2R A)) in R2 by lra. replace (x ^ 2)%R with (x * x)%R by ring.
  apply Rabs_le_inv in SQ. apply Rabs_le_inv in R2. apply Rabs_le. split; nra.
Qed.

Lemma dist_err p q : open01p p -> open01p q -> fin (get_distance arith32 p q) /\
  (Rabs (B2R (get_distance arith32 p q) - d2 (real_pt p) (real_pt q)) <= 6 * u * d2 (real_pt p) (real_pt q) + 20 * tiny)%R.
Proof.
  destruct p as [[a b] c], q as [[a' b'] c']. intros (A & B & C) (A' & B' & C'). pose proof tiny_pos as TP. pose proof tiny_small as TS.
  destruct (term_err a a' A A') as [F1 E1]. destruct (term_err b b' B B') as [F2 E2]. destruct (term_err c c' C C') as [F3 E3].
  pose proof (sub_bound _ _ A A') as B1. pose proof (sub_bound _ _ B B') as B2. pose proof (sub_bound _ _ C C') as B3.
  unfold get_distance. cbn [real_pt d2].
  set (x := (B2R a - B2R a')%R) in *. set (y := (B2R b - B2R b')%R) in *. set (z := (B2R c - B2R c')%R) in *.
  assert (SQ : forall t, (Rabs t <= 1)%R -> (0 <= t ^ 2 <= 1)%R) by (intros t Ht; apply Rabs_le_inv in Ht; nra).
  apply SQ in B1, B2, B3. set (X := (x ^ 2)%R) in *. set (Y := (y ^ 2)%R) in *. set (Z := (z ^ 2)%R) in *.
  set (sx := square arith32 (fsub arith32 a a')) in *. set (sy := square arith32 (fsub arith32 b b')) in *. set (sz := square arith32 (fsub arith32 c c')) in *.
  apply Rabs_le_inv in E1, E2, E3.
  destruct (plus32 sx sy F1 F2) as [F4 V4]; [apply big100; apply Rabs_le; lra|].
  pose proof (rnd_rel (B2R sx + B2R sy)) as R4. rewrite <- V4 in R4.
  assert (Q4 : (Rabs (B2R sx + B2R sy) <= (1 + 1 / 100) * (X + Y) + 10 * tiny)%R) by (apply Rabs_le; lra).
  assert (R4' : (Rabs (B2R (fadd arith32 sx sy) - (B2R sx + B2R sy)) <= u * ((1 + 1 / 100) * (X + Y) + 10 * tiny) + tiny)%R) by lra. apply Rabs_le_inv in R4'.
  destruct (plus32 (fadd arith32 sx sy) sz F4 F3) as [F5 V5]; [apply big100; apply Rabs_le; lra|]. split; [exact F5|].
  pose proof (rnd_rel (B2R (fadd arith32 sx sy) + B2R sz)) as R5. rewrite <- V5 in R5.
  assert (Q5 : (Rabs (B2R (fadd arith32 sx sy) + B2R sz) <= (1 + 1 / 100) * (X + Y + Z) + 20 * tiny)%R) by (apply Rabs_le; lra).
  assert (R5' : (Rabs (B2R (fadd arith32 (fadd arith32 sx sy) sz) - (B2R (fadd arith32 sx sy) + B2R sz)) <= u * ((1 + 1 / 100) * (X + Y + Z) + 20 * tiny) + tiny)%R) by lra.
  apply Rabs_le_inv in R5'. apply Rabs_le. lra.
Qed.

(** ** fmod *)
Lemma bounded_small m e : SpecFloat.bounded 24 128 m e = true -> Z.pos m < 16777216 /\ -149 <= e <= 104.
Proof.
  intros H. apply andb_true_iff in H. destruct H as [H1 H2]. apply Z.leb_le in H2. apply Zeq_bool_eq in H1.
  rewrite Digits.Zpos_digits2_pos in H1. unfold SpecFloat.fexp, SpecFloat.emin in H1.
  assert (D : Digits.Zdigits radix2 (Z.pos m) <= 24) by lia. apply (Digits.Zpower_gt_Zdigits radix2) in D. change (radix2 ^ 24) with 16777216 in D.
  split; [exact D|lia].
Qed.
Lemma fmod32 (a b : f32) : fin a -> fin b -> (0 < B2R a)%R -> (0 < B2R b)%R -> exists z,
  0 <= z /\ fin (ffmod arith32 a b) /\ B2R (ffmod arith32 a b) = (B2R a - IZR z * B2R b)%R /\ (0 <= B2R (ffmod arith32 a b) < B2R b)%R.
Proof.
  destruct a as [sa| |  |sa ma ea Ba]; try discriminate; [intros _ _ H; simpl in H; lra|].
  destruct b as [sb| |  |sb mb eb Bb]; try discriminate; [intros _ _ _ H; simpl in H; lra|]. intros _ _ Pa Pb.
  assert (sa = false) as ->. { destruct sa; [|reflexivity]. exfalso. revert Pa. apply Rle_not_lt. simpl. apply F2R_le_0. simpl. lia. }
  assert (sb = false) as ->. { destruct sb; [|reflexivity]. exfalso. revert Pb. apply Rle_not_lt. simpl. apply F2R_le_0. simpl. lia. }
  clear Pa Pb. cbn [ffmod arith32 f32_fmod]. set (e := Z.min ea eb).
  assert (Xa : B2R (B754_finite false ma ea Ba) = (IZR (Zpos ma * 2 ^ (ea - e)) * bpow radix2 e)%R).
  { cbn [B2R]. unfold F2R. cbn [Fnum Fexp cond_Zopp]. rewrite mult_IZR, (IZR_Zpower radix2) by lia. rewrite Rmult_assoc, <- bpow_plus. do 2 f_equal. lia. }
  assert (Xb : B2R (B754_finite false mb eb Bb) = (IZR (Zpos mb * 2 ^ (eb - e)) * bpow radix2 e)%R).
  { cbn [B2R]. unfold F2R. cbn [Fnum Fexp cond_Zopp]. rewrite mult_IZR, (IZR_Zpower radix2) by lia. rewrite Rmult_assoc, <- bpow_plus. do 2 f_equal. lia. }
  rewrite Xa, Xb. pose proof (bounded_small _ _ Ba) as Ma. pose proof (bounded_small _ _ Bb) as Mb.
  set (x := Z.pos ma * 2 ^ (ea - e)). set (y := Z.pos mb * 2 ^ (eb - e)).
  assert (Px : 0 < x) by (apply Z.mul_pos_pos; [lia|apply Z.pow_pos_nonneg; lia]). assert (Py : 0 < y) by (apply Z.mul_pos_pos; [lia|apply Z.pow_pos_nonneg; lia]).
  pose proof (Z.rem_bound_pos x y ltac:(lia) Py) as Br. pose proof (Z.quot_rem' x y) as Q. pose proof (Z.quot_pos x y ltac:(lia) Py) as Pq.
  assert (Sm : Z.abs (Z.rem x y) < 16777216).
  { destruct (Z.le_ge_cases ea eb) as [L|L].
    - assert (x = Z.pos ma) by (unfold x; replace (ea - e) with 0 by lia; lia). assert (Z.rem x y <= x) by (apply Z.rem_le; lia). lia.
    - assert (y = Z.pos mb) by (unfold y; replace (eb - e) with 0 by lia; lia). lia. }
  destruct (norm_val (Z.rem x y) e Sm ltac:(lia)) as [V Fn]. exists (Z.quot x y). split; [lia|]. split; [exact Fn|]. rewrite V.
  pose proof (bpow_gt_0 radix2 e) as Pe. split.
  - rewrite Q at 2. rewrite plus_IZR, mult_IZR. ring.
  - split; [apply Rmult_le_pos; [apply IZR_le; lia|lra]|]. apply Rmult_lt_compat_r; [assumption|]. apply IZR_lt. lia.
Qed.

(** ** the distance to the walls of the cell *)
Lemma lt32 (x y : f32) : fin x -> fin y -> flt arith32 x y = Rlt_bool (B2R x) (B2R y).
Proof. intros. apply Bltb_correct; assumption. Qed.
Lemma le32 (x y : f32) : fin x -> fin y -> fle arith32 x y = Rle_bool (B2R x) (B2R y).
Proof. intros. apply Bleb_correct; assumption. Qed.
Lemma div32_ok (x y : f32) : fin x -> B2R y <> 0%R -> (Rabs (B2R x / B2R y) <= bpow radix2 100)%R -> fin (fdiv arith32 x y) /\ B2R (fdiv arith32 x y) = rnd (B2R x / B2R y).
Proof. intros F1 H B. destruct (div32_small x y H F1 (rnd_finite _ B)) as [V Fq]. split; assumption. Qed.

Lemma face32 gl q : fin gl -> (0 < B2R gl <= 1)%R -> open01 q -> exists j,
  let dx := (B2R q - IZR j * B2R gl)%R in 0 <= j /\ (0 <= dx < B2R gl)%R /\ fin (face_dist arith32 gl q) /\
  (0 <= B2R (face_dist arith32 gl q) <= 3)%R /\ (B2R (face_dist arith32 gl q) <= dx + 21 / 10 * u)%R /\ (B2R (face_dist arith32 gl q) <= B2R gl - dx + 21 / 10 * u)%R.
Proof.
  intros Fg Pg (Fq & Hq). destruct (fmod32 q gl Fq Fg ltac:(lra) ltac:(lra)) as (j & Pj & Fd & Vd & Bd). exists j. cbv zeta. rewrite <- Vd.
  split; [assumption|]. split; [assumption|]. pose proof tiny_pos as TP. pose proof tiny_small as TS.
  destruct (ofZ32 2 ltac:(lia)) as [V2 F2]. destruct (ofZ32 1 ltac:(lia)) as [V1 F1]. destruct (ofZ32 0 ltac:(lia)) as [V0 F0].
  unfold face_dist. set (dx := ffmod arith32 q gl) in *.
  destruct (div32_ok gl (fofZ arith32 2) Fg) as [Fh Vh]; [rewrite V2; lra|rewrite V2; apply big100; apply Rabs_le; lra|].
  rewrite V2 in Vh. set (gl2 := fdiv arith32 gl (fofZ arith32 2)) in *.
  pose proof (rnd_err (B2R gl / 2) (1 / 2) ltac:(apply Rabs_le; lra)) as Eh. rewrite <- Vh in Eh. apply Rabs_le_inv in Eh.
  destruct (minus32 gl dx Fg Fd) as [Fs Vs]; [apply big100; apply Rabs_le; lra|]. set (g := fsub arith32 gl dx) in *.
  pose proof (rnd_err (B2R gl - B2R dx) 1 ltac:(apply Rabs_le; lra)) as Es. rewrite <- Vs in Es. apply Rabs_le_inv in Es.
  assert (Ps : (0 <= B2R g)%R) by (rewrite Vs, <- rnd_0; apply rnd_mono; lra).
  rewrite le32, lt32 by assumption. unfold fbool.
  assert (M0 : forall x, fin x -> fin (fmul arith32 x (fofZ arith32 0)) /\ B2R (fmul arith32 x (fofZ arith32 0)) = 0%R).
  { intros x Fx. destruct (mult32 x (fofZ arith32 0) Fx F0) as [A B]; [rewrite V0; apply big100; apply Rabs_le; lra|]. split; [exact A|]. rewrite B, V0, Rmult_0_r. apply rnd_0. }
  assert (M1 : forall x, fin x -> (0 <= B2R x <= 3)%R -> fin (fmul arith32 x (fofZ arith32 1)) /\ B2R (fmul arith32 x (fofZ arith32 1)) = B2R x).
  { intros x Fx Bx. destruct (mult32 x (fofZ arith32 1) Fx F1) as [A B]; [rewrite V1; apply big100; apply Rabs_le; lra|]. split; [exact A|]. rewrite B, V1, Rmult_1_r. apply rnd_id. }
  destruct (M0 dx Fd) as [A1 A2]. destruct (M1 dx Fd ltac:(lra)) as [B1 B2]. destruct (M0 g Fs) as [C1 C2]. destruct (M1 g Fs ltac:(lra)) as [D1 D2].
  destruct (Rle_bool_spec (B2R dx) (B2R gl2)) as [L|L]; (destruct (Rlt_bool_spec (B2R gl2) (B2R dx)) as [L'|L']; [|]); try lra; cbn [b2z].
  - destruct (plus32 _ _ B1 C1) as [Fe Ve]; [rewrite B2, C2; apply big100; apply Rabs_le; lra|]. rewrite B2, C2, Rplus_0_r, rnd_id in Ve. rewrite Ve. split; [exact Fe|]. lra.
  - destruct (plus32 _ _ A1 D1) as [Fe Ve]; [rewrite A2, D2; apply big100; apply Rabs_le; lra|]. rewrite A2, D2, Rplus_0_l, rnd_id in Ve. rewrite Ve. split; [exact Fe|]. lra.
Qed.

(** ** cells *)
Lemma small_res gr : 0 < gr -> gr * gr * gr <= int_max -> gr <= 1290.
Proof. intros H1 H2. unfold int_max in H2. nia. Qed.
Lemma grid32 gr : 0 < gr -> gr * gr * gr <= int_max -> safe_res gr = true -> fin (grid_len arith32 gr) /\ (0 < B2R (grid_len arith32 gr) <= 1)%R.
Proof.
  intros Hg H3 Hs. pose proof (small_res gr Hg H3) as Sm. unfold safe_res in Hs. rewrite !andb_true_iff in Hs. destruct Hs as ((H1 & _) & _).
  assert (Fg : fin (grid_len arith32 gr)) by (destruct (grid_len arith32 gr) as [| | |[]]; try discriminate; reflexivity).
  apply pos_finite_val in H1. split; [assumption|]. split; [assumption|].
  destruct (ofZ32 1 ltac:(lia)) as [V1 F1]. destruct (ofZ32 gr ltac:(lia)) as [Vg Fg'].
  assert (G1 : (1 <= IZR gr)%R) by (apply IZR_le; lia).
  unfold grid_len in *. destruct (div32_finite (fofZ arith32 1) (fofZ arith32 gr)) as [V _]; [rewrite Vg; lra|exact Fg|].
  change (B2R (div32 (fofZ arith32 1) (fofZ arith32 gr)) <= 1)%R. rewrite V, V1, Vg. rewrite <- V1 at 2. rewrite <- (rnd_id (fofZ arith32 1)), V1. apply rnd_mono.
  apply (Rmult_le_reg_r (IZR gr)); [lra|]. unfold Rdiv. rewrite Rmult_assoc, Rinv_l by lra. lra.
Qed.
Lemma coord32 gl x c : fin gl -> (0 < B2R gl <= 1)%R -> open01 x -> cell_coord arith32 gl x = Ok c ->
  (IZR c * B2R gl <= B2R x + 11 / 10 * u)%R /\ (B2R x - 11 / 10 * u < (IZR c + 1) * B2R gl)%R.
Proof.
  intros Fg Pg (Fx & Hx) H. pose proof tiny_pos as TP. pose proof tiny_small as TS. unfold cell_coord in H.
  destruct (ffloor arith32 (fdiv arith32 x gl)) as [z|] eqn:Ef; [|discriminate]. destruct (Base.in_int z); [|discriminate]. injection H as ->.
  change (f32_floor (div32 x gl) = Some c) in Ef. assert (Fq : fin (div32 x gl)) by (destruct (div32 x gl); try discriminate Ef; reflexivity).
  rewrite (f32_floor_spec _ Fq) in Ef. injection Ef as Ef. destruct (div32_finite x gl ltac:(lra) Fq) as [V _]. rewrite V in Ef.
  set (y := (B2R x / B2R gl)%R) in *. assert (Ey : (y * B2R gl = B2R x)%R) by (unfold y; field; lra).
  assert (Py : (0 < y)%R) by (apply Rdiv_lt_0_compat; lra). pose proof (rnd_rel y) as R. rewrite (Rabs_pos_eq y) in R by lra. apply Rabs_le_inv in R.
  pose proof (Zfloor_lb (rnd y)) as L1. pose proof (Zfloor_ub (rnd y)) as L2. rewrite Ef in L1, L2.
  set (w := rnd y) in *. set (g := B2R gl) in *.
  assert (A1 : (w * g <= B2R x + u * B2R x + tiny * g)%R) by (rewrite <- Ey; nra).
  assert (A2 : (B2R x - u * B2R x - tiny * g <= w * g)%R) by (rewrite <- Ey; nra).
  assert (A3 : (0 <= tiny * g <= tiny)%R) by nra.
  split; [apply Rle_trans with (w * g)%R; [nra|lra]|apply Rle_lt_trans with (w * g)%R; [lra|nra]].
Qed.

(** a cell r + 1 away along one axis is at least r cells and the wall away *)
Lemma gap_right (g x q r j cx cq fd : R) : (0 < g <= 1)%R -> (0 <= q - j * g < g)%R -> (cx * g <= x + 11 / 10 * u)%R -> (q - 11 / 10 * u < (cq + 1) * g)%R -> (cq * g <= q + 11 / 10 * u)%R ->
  (cq + r + 1 <= cx)%R -> (cq <= j - 1 \/ j <= cq)%R -> (fd <= q - j * g + 21 / 10 * u)%R -> (fd <= g - (q - j * g) + 21 / 10 * u)%R -> (r * g + fd - 55 / 10 * u <= x - q)%R.
Proof.
  intros G D H1 H2 H3 Hc Hj F1 F2. assert (M : ((cq + r + 1) * g <= cx * g)%R) by (apply Rmult_le_compat_r; lra).
  destruct Hj as [Hj|Hj].
  - assert (((cq + 1) * g <= j * g)%R) by (apply Rmult_le_compat_r; lra). lra.
  - assert ((j * g <= cq * g)%R) by (apply Rmult_le_compat_r; lra). lra.
Qed.
Lemma gap_left (g x q r j cx cq fd : R) : (0 < g <= 1)%R -> (0 <= q - j * g < g)%R -> (x - 11 / 10 * u < (cx + 1) * g)%R -> (q - 11 / 10 * u < (cq + 1) * g)%R -> (cq * g <= q + 11 / 10 * u)%R ->
  (cx + r + 1 <= cq)%R -> (cq <= j \/ j + 1 <= cq)%R -> (fd <= q - j * g + 21 / 10 * u)%R -> (fd <= g - (q - j * g) + 21 / 10 * u)%R -> (r * g + fd - 55 / 10 * u <= q - x)%R.
Proof.
  intros G D H1 H2 H3 Hc Hj F1 F2. assert (M : ((cx + r + 1) * g <= cq * g)%R) by (apply Rmult_le_compat_r; lra).
  destruct Hj as [Hj|Hj].
  - assert ((cq * g <= j * g)%R) by (apply Rmult_le_compat_r; lra). lra.
  - assert (((j + 1) * g <= cq * g)%R) by (apply Rmult_le_compat_r; lra). lra.
Qed.
Lemma gap32 gl x q cx cq r : fin gl -> (0 < B2R gl <= 1)%R -> open01 x -> open01 q -> cell_coord arith32 gl x = Ok cx -> cell_coord arith32 gl q = Ok cq -> 
  r < Z.abs (cx - cq) -> (IZR r * B2R gl + B2R (face_dist arith32 gl q) - 55 / 10 * u <= Rabs (B2R x - B2R q))%R.
Proof.
  intros Fg Pg Ox Oq Hx Hq Hr. destruct (coord32 gl x cx Fg Pg Ox Hx) as [X1 X2]. destruct (coord32 gl q cq Fg Pg Oq Hq) as [Q1 Q2].
  destruct (face32 gl q Fg Pg Oq) as (j & Pj & Dj & _ & _ & F1 & F2). cbv zeta in *.
  destruct (Z.le_gt_cases cx cq) as [L|L].
  - rewrite Rabs_minus_sym. eapply Rle_trans; [|apply Rle_abs].
    apply (gap_left (B2R gl) (B2R x) (B2R q) (IZR r) (IZR j) (IZR cx) (IZR cq)); try assumption.
    + rewrite <- plus_IZR, <- plus_IZR. apply IZR_le. lia.
    + destruct (Z.le_gt_cases cq j); [left; apply IZR_le; lia|right]. rewrite <- plus_IZR. apply IZR_le. lia.
  - eapply Rle_trans; [|apply Rle_abs].
    apply (gap_right (B2R gl) (B2R x) (B2R q) (IZR r) (IZR j) (IZR cx) (IZR cq)); try assumption.
    + rewrite <- plus_IZR, <- plus_IZR. apply IZR_le. lia.
    + destruct (Z.le_gt_cases j cq); [right; apply IZR_le; lia|left]. rewrite <- minus_IZR. apply IZR_le. lia.
Qed.

(** ** the bound at the end of a shell *)
Lemma min32 a b : fin a -> fin b -> (0 <= B2R a <= 3)%R -> (0 <= B2R b <= 3)%R -> fin (stdmin2 arith32 a b) /\ (0 <= B2R (stdmin2 arith32 a b) <= 3)%R /\ (B2R (stdmin2 arith32 a b) <= B2R a)%R /\ (B2R (stdmin2 arith32 a b) <= B2R b)%R.
Proof.
  intros Fa Fb Ha Hb. unfold stdmin2. rewrite lt32 by assumption. destruct (Rlt_bool_spec (B2R b) (B2R a)); repeat split; auto; lra.
Qed.
Lemma thr32 gr r (q : point arith32) m : 0 < gr -> gr * gr * gr <= int_max -> safe_res gr = true -> 0 <= r < gr -> open01p q -> (0 <= m <= 1)%R ->
  (IZR r * B2R (grid_len arith32 gr) + B2R (face_min arith32 false (grid_len arith32 gr) q) - 55 / 10 * u <= m)%R ->
  fin (shell_bound arith32 gr q r) /\ (B2R (shell_bound arith32 gr q r) <= (m + 8 * u) * (m + 8 * u) * (1 + u) + tiny)%R.
Proof.
  intros Hg H3 Hs Hr Oq Hm HT. pose proof tiny_pos as TP. pose proof tiny_small as TS. destruct (grid32 gr Hg H3 Hs) as [Fg Pg]. pose proof (small_res gr Hg H3) as Sm.
  unfold shell_bound. set (gl := grid_len arith32 gr) in *.
  destruct (ofZ32 r ltac:(lia)) as [Vr Fr].
  assert (FM : fin (face_min arith32 false gl q) /\ (0 <= B2R (face_min arith32 false gl q) <= 3)%R).
  { destruct q as [[q0 q1] q2]. destruct Oq as (O0 & O1 & O2). destruct (face32 gl q0 Fg Pg O0) as (_ & _ & _ & A1 & A2 & _). destruct (face32 gl q1 Fg Pg O1) as (_ & _ & _ & B1 & B2 & _).
    destruct (face32 gl q2 Fg Pg O2) as (_ & _ & _ & C1 & C2 & _). unfold face_min, stdmin3.
    destruct (min32 _ _ A1 B1 A2 B2) as (D1 & D2 & _). destruct (min32 _ _ D1 C1 D2 C2) as (E1 & E2 & _). split; assumption. }
  destruct FM as [Fm Pm]. set (fm := face_min arith32 false gl q) in *.
  assert (PT : (0 <= IZR r)%R) by (apply IZR_le; lia). assert (PG : (0 <= IZR r * B2R gl)%R) by (apply Rmult_le_pos; lra).
  destruct (mult32 gl (fofZ arith32 r) Fg Fr) as [F1 V1]; [rewrite Vr; apply big100; apply Rabs_le; lra|]. rewrite Vr, Rmult_comm in V1.
  pose proof (rnd_rel (IZR r * B2R gl)) as R1. rewrite <- V1, (Rabs_pos_eq (IZR r * B2R gl)) in R1 by lra. apply Rabs_le_inv in R1.
  set (a := fmul arith32 gl (fofZ arith32 r)) in *. assert (Pa : (0 <= B2R a)%R) by (rewrite V1, <- rnd_0; apply rnd_mono; lra).
  destruct (plus32 a fm F1 Fm) as [F2 V2]; [apply big100; apply Rabs_le; lra|]. pose proof (rnd_rel (B2R a + B2R fm)) as R2. rewrite <- V2, (Rabs_pos_eq (B2R a + B2R fm)) in R2 by lra.
  apply Rabs_le_inv in R2. set (s := fadd arith32 a fm) in *. assert (Ps : (0 <= B2R s)%R) by (rewrite V2, <- rnd_0; apply rnd_mono; lra).
  assert (Us : (B2R s <= m + 8 * u)%R) by lra.
  assert (SS : (0 <= B2R s * B2R s <= (m + 8 * u) * (m + 8 * u))%R) by (split; [apply Rmult_le_pos; lra|apply Rmult_le_compat; lra]).
  assert (BB : ((m + 8 * u) * (m + 8 * u) <= 2)%R) by nra.
  unfold square. destruct (mult32 s s F2 F2) as [F4 V4]; [apply big100; apply Rabs_le; lra|]. split; [exact F4|]. rewrite V4.
  pose proof (rnd_rel (B2R s * B2R s)) as R4. rewrite (Rabs_pos_eq (B2R s * B2R s)) in R4 by lra. apply Rabs_le_inv in R4. lra.
Qed.

(** ** the two reasons why a point is not listed *)
Lemma root_le A b : (0 <= b)%R -> (A <= b * b)%R -> (sqrt A <= b)%R.
Proof. intros Hb H. rewrite <- (sqrt_square b) by assumption. now apply sqrt_le_1_alt. Qed.
Lemma far_bound A D m t : (0 <= m <= 1)%R -> (0 <= A)%R -> (Rabs (D - A) <= 6 * u * A + 20 * tiny)%R -> (D <= t)%R -> (t <= (m + 8 * u) * (m + 8 * u) * (1 + u) + tiny)%R -> (sqrt A <= m + 16 * u)%R.
Proof.
  intros Hm PA HD H1 H2. pose proof tiny_pos as TP. pose proof tiny_small as TS. apply Rabs_le_inv in HD. apply root_le; [lra|].
  set (M := (m + 8 * u)%R) in *. assert (BM : (8 * u <= M <= 1 + 8 * u)%R) by (unfold M; lra).
  replace (m + 16 * u)%R with (M + 8 * u)%R by (unfold M; lra).
  assert (L : (A * (1 - 6 * u) <= M * M * (1 + u) + 21 * tiny)%R) by lra.
  assert (Q : (M * M <= 11 / 10 * M)%R) by nra.
  apply (Rmult_le_reg_r (1 - 6 * u)); [lra|]. eapply Rle_trans; [exact L|].
  replace ((M + 8 * u) * (M + 8 * u))%R with (M * M + 16 * u * M + 64 * u * u)%R by ring. lra.
Qed.
Lemma near_bound A B D D' : (0 <= A)%R -> (0 <= B <= 3)%R -> (Rabs (D - A) <= 6 * u * A + 20 * tiny)%R -> (Rabs (D' - B) <= 6 * u * B + 20 * tiny)%R -> (D <= D')%R -> (sqrt A <= sqrt B + 16 * u)%R.
Proof.
  intros PA PB HD HD' H. pose proof tiny_pos as TP. pose proof tiny_small as TS. apply Rabs_le_inv in HD, HD'. pose proof (sqrt_pos B) as Pb. apply root_le; [lra|].
  pose proof (sqrt_sqrt B ltac:(lra)) as Sb. set (b := sqrt B) in *. assert (Ub : (b <= 175 / 100)%R) by (destruct (Rle_or_lt b (175 / 100)); [assumption|exfalso; nra]).
  assert (L : (A * (1 - 6 * u) <= b * b * (1 + 6 * u) + 40 * tiny)%R) by lra. assert (Q : (b * b <= 175 / 100 * b)%R) by nra.
  apply (Rmult_le_reg_r (1 - 6 * u)); [lra|]. eapply Rle_trans; [exact L|].
  replace ((b + 16 * u) * (b + 16 * u))%R with (b * b + 32 * u * b + 256 * u * u)%R by ring. lra.
Qed.
Lemma d2_bound p q : open01p p -> open01p q -> (0 <= d2 (real_pt p) (real_pt q) <= 3)%R.
Proof.
  destruct p as [[a b] c], q as [[a' b'] c']. intros (A & B & C) (A' & B' & C'). cbn [real_pt d2].
  pose proof (sub_bound _ _ A A') as B1. pose proof (sub_bound _ _ B B') as B2. pose proof (sub_bound _ _ C C') as B3.
  assert (SQ : forall t, (Rabs t <= 1)%R -> (0 <= t ^ 2 <= 1)%R) by (intros t Ht; apply Rabs_le_inv in Ht; nra).
  apply SQ in B1, B2, B3. lra.
Qed.
Lemma axis_dist a b c A : (0 <= a)%R -> (0 <= b)%R -> (0 <= c)%R -> (A * A <= a \/ A * A <= b \/ A * A <= c)%R -> (0 <= A)%R -> (A <= sqrt (a + b + c))%R.
Proof. intros Ha Hb Hc H PA. rewrite <- (sqrt_square A) by assumption. apply sqrt_le_1_alt. lra. Qed.

Lemma shown_lt x y t : not_nan x -> fin y -> fin t -> flt arith32 x y = false -> flt arith32 x t = true -> (B2R y <= B2R t)%R.
Proof.
  intros Nx Fy Ft H1 H2. assert (Fx : fin x).
  { destruct x as [|[]| |]; try reflexivity.
    - exfalso. clear -H1 Fy. destruct y as [|[]| |]; try discriminate.
    - exfalso. clear -H2 Ft. destruct t as [|[]| |]; try discriminate.
    - exfalso. now apply Nx. }
  rewrite lt32 in H1, H2 by assumption. destruct (Rlt_bool_spec (B2R x) (B2R y)); [discriminate|]. destruct (Rlt_bool_spec (B2R x) (B2R t)); [lra|discriminate].
Qed.

(** cells of two points, more than r apart *)
Lemma apart32 gr r (p q : point arith32) c c' : 0 < gr -> gr * gr * gr <= int_max -> safe_res gr = true -> open01p p -> open01p q -> 0 <= r ->
  cell_id arith32 gr (grid_len arith32 gr) p = Ok c' -> cell_id arith32 gr (grid_len arith32 gr) q = Ok c ->
  (let '(px, py, pz) := decode gr c in r < cheb px py pz (decode gr c')) ->
  exists m, (0 <= m <= 1)%R /\ (m <= sqrt (d2 (real_pt p) (real_pt q)))%R /\ (IZR r * B2R (grid_len arith32 gr) + B2R (face_min arith32 false (grid_len arith32 gr) q) - 55 / 10 * u <= m)%R.
Proof.
  intros Hg H3 Hs Op Oq Hr Hp Hq Ha. destruct (grid32 gr Hg H3 Hs) as [Fg Pg]. pose proof (small_res gr Hg H3) as Sm. 
  assert (CC : forall x, open01 x -> exists c, cell_coord arith32 (grid_len arith32 gr) x = Ok c /\ 0 <= c < gr).
  { intros x (Fx & Hx). apply cell_coord32; [unfold int_max; lia|assumption|assumption|lra]. }
  set (gl := grid_len arith32 gr) in *.
  assert (ID : forall p c, open01p p -> cell_id arith32 gr gl p = Ok c -> exists a b d, decode gr c = (a, b, d) /\ let '(x, y, z) := p in cell_coord arith32 gl x = Ok a /\ cell_coord arith32 gl y = Ok b /\ cell_coord arith32 gl z = Ok d).
  { intros [[x y] z] i (O0 & O1 & O2) Hi. destruct (CC x O0) as (a & Ea & Ra). destruct (CC y O1) as (b & Eb & Rb). destruct (CC z O2) as (d & Ed & Rd). exists a, b, d.
    split; [|auto]. unfold cell_id in Hi. rewrite Ea, Eb, Ed in Hi. cbn [rbind] in Hi.
    assert (0 <= b * gr <= gr * gr - gr) by nia. assert (0 <= d * gr <= gr * gr - gr) by nia. assert (0 <= d * gr * gr <= gr * gr * gr - gr * gr) by nia. assert (gr * gr <= int_max) by nia. unfold int_max in *.
    rewrite (chk_ok (b * gr)) in Hi by (unfold int_min, int_max; lia). cbn [rbind] in Hi.
    rewrite (chk_ok (a + b * gr)) in Hi by (unfold int_min, int_max; lia). cbn [rbind] in Hi.
    rewrite (chk_ok (d * gr)) in Hi by (unfold int_min, int_max; lia). cbn [rbind] in Hi.
    rewrite (chk_ok (d * gr * gr)) in Hi by (unfold int_min, int_max; lia). cbn [rbind] in Hi.
    rewrite chk_ok in Hi by (unfold int_min, int_max; lia). injection Hi as <-.
    replace (a + b * gr + d * gr * gr) with (cidx gr (a, b, d)) by (unfold cidx; ring). unfold decode. destruct (cidx_decode gr a b d) as (-> & -> & ->); [repeat split; lia|reflexivity]. }
  destruct (ID p c' Op Hp) as (x & y & z & D1 & E1). destruct (ID q c Oq Hq) as (x' & y' & z' & D2 & E2). rewrite D1, D2 in Ha. clear ID CC Hp Hq.
  destruct p as [[p0 p1] p2], q as [[q0 q1] q2]. destruct E1 as (E10 & E11 & E12). destruct E2 as (E20 & E21 & E22). destruct Op as (P0 & P1 & P2). destruct Oq as (Q0 & Q1 & Q2).
  assert (FM : (B2R (face_min arith32 false gl (q0, q1, q2)) <= B2R (face_dist arith32 gl q0) /\ B2R (face_min arith32 false gl (q0, q1, q2)) <= B2R (face_dist arith32 gl q1) /\ B2R (face_min arith32 false gl (q0, q1, q2)) <= B2R (face_dist arith32 gl q2))%R).
  { destruct (face32 gl q0 Fg Pg Q0) as (_ & _ & _ & A1 & A2 & _). destruct (face32 gl q1 Fg Pg Q1) as (_ & _ & _ & B1 & B2 & _).
    destruct (face32 gl q2 Fg Pg Q2) as (_ & _ & _ & C1 & C2 & _). unfold face_min, stdmin3.
    destruct (min32 _ _ A1 B1 A2 B2) as (F1 & F2 & F3 & F4). destruct (min32 _ _ F1 C1 F2 C2) as (G1 & G2 & G3 & G4). lra. }
  cbn [real_pt d2]. cbv beta iota delta [cheb] in Ha.
  assert (AX : forall a b, (Rabs (a - b) * Rabs (a - b) = (a - b) ^ 2)%R). { intros a b. rewrite <- Rabs_mult, Rabs_pos_eq by apply Rle_0_sqr. ring. }
  assert (SQ : forall a, (0 <= a ^ 2)%R) by (intros; apply pow2_ge_0).
  assert (Hc : r < Z.abs (x - x') \/ r < Z.abs (y - y') \/ r < Z.abs (z - z')) by lia.
  destruct Hc as [Hc|[Hc|Hc]].
  - exists (Rabs (B2R p0 - B2R q0)). split; [split; [apply Rabs_pos|now apply sub_bound]|]. split.
    + apply axis_dist; auto using Rabs_pos. left. rewrite AX. lra.
    + pose proof (gap32 gl p0 q0 x x' r Fg Pg P0 Q0 E10 E20 Hc). lra.
  - exists (Rabs (B2R p1 - B2R q1)). split; [split; [apply Rabs_pos|now apply sub_bound]|]. split.
    + apply axis_dist; auto using Rabs_pos. right; left. rewrite AX. lra.
    + pose proof (gap32 gl p1 q1 y y' r Fg Pg P1 Q1 E11 E21 Hc). lra.
  - exists (Rabs (B2R p2 - B2R q2)). split; [split; [apply Rabs_pos|now apply sub_bound]|]. split.
    + apply axis_dist; auto using Rabs_pos. right; right. rewrite AX. lra.
    + pose proof (gap32 gl p2 q2 z z' r Fg Pg P2 Q2 E12 E22 Hc). lra.
Qed.

(** ** the candidates of one point *)
Lemma dist_order p p' q : open01p p -> open01p p' -> open01p q -> flt arith32 (get_distance arith32 p' q) (get_distance arith32 p q) = false ->
  (sqrt (d2 (real_pt p) (real_pt q)) <= sqrt (d2 (real_pt p') (real_pt q)) + 16 * u)%R.
Proof.
  intros Op Op' Oq H. destruct (dist_err p q Op Oq) as [F1 E1]. destruct (dist_err p' q Op' Oq) as [F2 E2]. pose proof (d2_bound p q Op Oq). pose proof (d2_bound p' q Op' Oq).
  apply (near_bound _ _ (B2R (get_distance arith32 p q)) (B2R (get_distance arith32 p' q))); auto; [lra|].
  rewrite lt32 in H by assumption. destruct (Rlt_bool_spec (B2R (get_distance arith32 p' q)) (B2R (get_distance arith32 p q))); [discriminate|lra].
Qed.
Lemma dist_exit gr r x (p p' q : point arith32) c c' : 0 < gr -> gr * gr * gr <= int_max -> safe_res gr = true -> open01p p -> open01p p' -> open01p q -> 0 <= r < gr ->
  cell_id arith32 gr (grid_len arith32 gr) p' = Ok c' -> cell_id arith32 gr (grid_len arith32 gr) q = Ok c ->
  (let '(px, py, pz) := decode gr c in r < cheb px py pz (decode gr c')) -> not_nan x -> flt arith32 x (get_distance arith32 p q) = false -> flt arith32 x (shell_bound arith32 gr q r) = true ->
  (sqrt (d2 (real_pt p) (real_pt q)) <= sqrt (d2 (real_pt p') (real_pt q)) + 16 * u)%R.
Proof.
  intros Hg H3 Hs Op Op' Oq Hr Hp Hq Ha Nx L1 L2. destruct (apart32 gr r p' q c c' Hg H3 Hs Op' Oq ltac:(lia) Hp Hq Ha) as (m & Bm & Lm & Tm).
  destruct (thr32 gr r q m Hg H3 Hs Hr Oq Bm Tm) as [Ft Bt]. destruct (dist_err p q Op Oq) as [Fd Ed]. pose proof (d2_bound p q Op Oq) as Bd.
  pose proof (shown_lt _ _ _ Nx Fd Ft L1 L2) as L. pose proof (far_bound _ _ m _ Bm (proj1 Bd) Ed L Bt). lra.
Qed.
