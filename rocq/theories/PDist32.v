(** Binary32: squared distances of points of the open unit cube are finite. *)
From Verif Require Import Base PBase Arith MUtils MXyz SpecHeap PXyz Arith32 PFloat POrder PKnnAny.
From Flocq Require Import Core IEEE754.BinarySingleNaN.
From Coq Require Import Reals Lra Floats.SpecFloat.
From Verif Require Export SpecSingle.
Open Scope Z_scope.

Notation fin x := (is_finite (prec := 24) (emax := 128) x = true).

Lemma rnd_bound x e : (-149 <= e <= 120)%Z -> (Rabs x <= bpow radix2 e)%R -> (Rabs (rnd x) <= bpow radix2 e)%R /\ (Rabs (rnd x) < bpow radix2 128)%R.
Proof.
  intros He H. assert (A : (Rabs (rnd x) <= bpow radix2 e)%R).
  { apply abs_round_le_generic; [apply FLT_exp_valid; reflexivity|apply valid_rnd_round_mode| |exact H].
    apply generic_format_bpow. unfold SpecFloat.fexp, SpecFloat.emin. lia. }
  split; [exact A|]. eapply Rle_lt_trans; [exact A|]. apply bpow_lt. lia.
Qed.

Definition within (e : Z) (x : f32) : Prop := fin x /\ (Rabs (B2R x) <= bpow radix2 e)%R.

Lemma minus_within x y : open01 x -> open01 y -> within 0 (fsub arith32 x y).
Proof.
  intros (Fx & Rx) (Fy & Ry). change (fsub arith32 x y) with (@Bminus 24 128 f32_prec f32_emax mode_NE x y).
  assert (B : (Rabs (B2R x - B2R y) <= bpow radix2 0)%R) by (simpl; apply Rabs_le; lra).
  destruct (rnd_bound _ 0 ltac:(lia) B) as [B1 B2].
  pose proof (Bminus_correct 24 128 f32_prec f32_emax mode_NE x y Fx Fy) as H. rewrite Rlt_bool_true in H by exact B2.
  destruct H as (H1 & H2 & _). split; [exact H2|]. rewrite H1. exact B1.
Qed.
Lemma mult_within e x y : (-70 <= e <= 50)%Z -> within e x -> within e y -> within (e + e) (fmul arith32 x y).
Proof.
  intros He (Fx & Rx) (Fy & Ry). change (fmul arith32 x y) with (@Bmult 24 128 f32_prec f32_emax mode_NE x y).
  assert (B : (Rabs (B2R x * B2R y) <= bpow radix2 (e + e))%R).
  { rewrite Rabs_mult, bpow_plus. apply Rmult_le_compat; auto using Rabs_pos. }
  destruct (rnd_bound _ (e + e) ltac:(lia) B) as [B1 B2].
  pose proof (Bmult_correct 24 128 f32_prec f32_emax mode_NE x y) as H. rewrite Rlt_bool_true in H by exact B2.
  destruct H as (H1 & H2 & _). split; [rewrite H2, Fx, Fy; reflexivity|]. rewrite H1. exact B1.
Qed.
Lemma plus_within e x y : (-149 <= e <= 100)%Z -> within e x -> within e y -> within (e + 1) (fadd arith32 x y).
Proof.
  intros He (Fx & Rx) (Fy & Ry). change (fadd arith32 x y) with (@Bplus 24 128 f32_prec f32_emax mode_NE x y).
  assert (B : (Rabs (B2R x + B2R y) <= bpow radix2 (e + 1))%R).
  { eapply Rle_trans; [apply Rabs_triang|]. rewrite bpow_plus. simpl. lra. }
  destruct (rnd_bound _ (e + 1) ltac:(lia) B) as [B1 B2].
  pose proof (Bplus_correct 24 128 f32_prec f32_emax mode_NE x y Fx Fy) as H. rewrite Rlt_bool_true in H by exact B2.
  destruct H as (H1 & H2 & _). split; [exact H2|]. rewrite H1. exact B1.
Qed.
Lemma within_up e e' x : (e <= e')%Z -> within e x -> within e' x.
Proof. intros He (A & B). split; [assumption|]. eapply Rle_trans; [exact B|]. now apply bpow_le. Qed.

Lemma dist_within p q : open01p p -> open01p q -> within 2 (get_distance arith32 p q).
Proof.
  destruct p as [[a b] c], q as [[a' b'] c']. intros (A & B & C) (A' & B' & C'). unfold get_distance, square.
  pose proof (mult_within 0 _ _ ltac:(lia) (minus_within _ _ A A') (minus_within _ _ A A')) as X.
  pose proof (mult_within 0 _ _ ltac:(lia) (minus_within _ _ B B') (minus_within _ _ B B')) as Y.
  pose proof (mult_within 0 _ _ ltac:(lia) (minus_within _ _ C C') (minus_within _ _ C C')) as Z.
  pose proof (plus_within 0 _ _ ltac:(lia) X Y) as XY.
  exact (plus_within 1 _ _ ltac:(lia) XY (within_up 0 1 _ ltac:(lia) Z)).
Qed.

Lemma fin_below_inf (x : f32) : fin x -> x <> B754_nan /\ f32_lt x (B754_infinity false) = true.
Proof. destruct x as [s|s| |s m e H]; simpl; try discriminate; intros _; split; try discriminate; reflexivity. Qed.

Lemma ordered32 P : Forall open01p P -> ordered_dists arith32 not_nan P.
Proof.
  intros HF. split; [exact f32_weak_order|]. split; [discriminate|]. split.
  - intros x. change (f32_lt (B754_infinity false) x = false). destruct x as [s|[]| |s m e H]; reflexivity.
  - intros p q Hp Hq. rewrite Forall_forall in HF. apply fin_below_inf. apply dist_within; auto.
Qed.

Lemma q24_val a : (-16777216 <= a <= 16777216)%Z -> B2R (q24 a) = (IZR a / 16777216)%R /\ fin (q24 a).
Proof.
  intros Ha. pose proof (binary_normalize_correct 24 128 f32_prec f32_emax mode_NE a (-24) false) as H.
  assert (E : F2R (Float radix2 a (-24)) = (IZR a / 16777216)%R) by (unfold F2R; simpl; lra).
  assert (G : generic_format radix2 (SpecFloat.fexp 24 128) (F2R (Float radix2 a (-24)))).
  { destruct (Z.eq_dec a 0) as [->|Na]; [rewrite F2R_0; apply generic_format_0|].
    destruct (Z.eq_dec (Z.abs a) 16777216) as [Ea|Ea].
    - assert (X : Rabs (F2R (Float radix2 a (-24))) = bpow radix2 0).
      { rewrite E. unfold Rdiv. rewrite Rabs_mult, <- abs_IZR, Ea, (Rabs_pos_eq (/ _)) by lra. simpl. lra. }
      apply generic_format_abs_inv. rewrite X. apply generic_format_bpow. unfold SpecFloat.fexp, SpecFloat.emin. lia.
    - apply generic_format_F2R. intros _. unfold cexp. rewrite mag_F2R by assumption.
      assert (M : (mag radix2 (IZR a) <= 24)%Z).
      { apply mag_le_bpow; [now apply IZR_neq|]. rewrite <- abs_IZR. simpl. apply IZR_lt. lia. }
      unfold SpecFloat.fexp, SpecFloat.emin. lia. }
  assert (RE : rnd (F2R (Float radix2 a (-24))) = (IZR a / 16777216)%R).
  { rewrite round_generic; [exact E|apply valid_rnd_round_mode|exact G]. }
  cbv zeta in H. change (round radix2 _ _ (F2R _)) with (rnd (F2R (Float radix2 a (-24)))) in H. rewrite RE in H. rewrite Rlt_bool_true in H.
  - destruct H as (H1 & H2 & _). split; assumption.
  - apply Rle_lt_trans with 1%R.
    + apply Rabs_le. assert (IZR (-16777216) <= IZR a <= IZR 16777216)%R by (split; apply IZR_le; lia). lra.
    + change 1%R with (bpow radix2 0). apply bpow_lt. lia.
Qed.
Lemma q24_open a : (0 < a < 16777216)%Z -> open01 (q24 a).
Proof.
  intros Ha. destruct (q24_val a ltac:(lia)) as [V Fa]. split; [exact Fa|]. rewrite V.
  assert (IZR 0 < IZR a < IZR 16777216)%R by (split; apply IZR_lt; lia). lra.
Qed.
