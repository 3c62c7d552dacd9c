(** Nearest floats, and lines of a file. *)
From Verif Require Import Base PBase MArgs MXyz MMain SpecMain Arith Arith32 MRead SpecRead PFloat PGetopt PConsole PMain PRead.
From Flocq Require Import Core IEEE754.BinarySingleNaN.
From Coq Require Import String Ascii Reals Lra Lia.
From Verif Require Export SpecRead.
Local Open Scope string_scope.
Local Open Scope Z_scope.

#[local] Instance fexp32_valid : Valid_exp fexp32.
Proof. apply (fexp_correct 24 128 eq_refl). Qed.
#[local] Instance fexp32_mono : Monotone_exp fexp32.
Proof. apply (fexp_monotone 24 128). Qed.

Lemma format32 (y : f32) : generic_format radix2 fexp32 (B2R y).
Proof. apply generic_format_B2R. Qed.

Lemma nearest_best v (y : f32) : (Rabs (nearest v - v) <= Rabs (B2R y - v))%R.
Proof. unfold nearest. destruct (round_N_pt radix2 fexp32 (fun x => negb (Z.even x)) v) as [_ H]. apply H, format32. Qed.

Lemma fmt_pow e : -149 <= e -> generic_format radix2 fexp32 (bpow radix2 e).
Proof. intros He. apply generic_format_bpow. unfold SpecFloat.fexp, SpecFloat.emin. lia. Qed.

Lemma nearest_le v e : -149 <= e -> (Rabs v <= bpow radix2 e)%R -> (Rabs (nearest v) <= bpow radix2 e)%R.
Proof. intros He H. unfold nearest. apply abs_round_le_generic; [typeclasses eauto..| |assumption]. now apply fmt_pow. Qed.

Lemma read_best w n rest : blanks w -> well_written n -> stops rest -> (Rabs (value n) <= bpow radix2 127)%R ->
  exists x, read_float (w ++ write n ++ rest) = Some (x, rest) /\ is_finite x = true /\ forall y : f32, (Rabs (B2R x - value n) <= Rabs (B2R y - value n))%R.
Proof.
  intros Hw Hn Hr Hv. destruct (proj1 (read_nearest w n rest Hw Hn Hr)) as (x & E & Fx & Bx).
  { eapply Rle_lt_trans; [apply (nearest_le _ 127); [lia|assumption]|]. apply bpow_lt. lia. }
  exists x. split; [assumption|]. split; [assumption|]. intros y. rewrite Bx. apply nearest_best.
Qed.

(** between the smallest float and the largest float below 1 *)
Lemma read_open w n rest : blanks w -> well_written n -> stops rest -> (bpow radix2 (-149) <= value n <= 1 - bpow radix2 (-24))%R ->
  exists x, read_float (w ++ write n ++ rest) = Some (x, rest) /\ open01 x /\ B2R x = nearest (value n).
Proof.
  intros Hw Hn Hr [V1 V2]. pose proof (bpow_gt_0 radix2 (-149)) as P1. pose proof (bpow_gt_0 radix2 (-24)) as P2.
  assert (L : (bpow radix2 (-149) <= nearest (value n))%R).
  { unfold nearest. apply round_ge_generic; [typeclasses eauto..| |assumption]. apply fmt_pow. lia. }
  assert (U : (nearest (value n) <= 1 - bpow radix2 (-24))%R).
  { unfold nearest. pose proof (format32 pred_one32) as GF. replace (B2R pred_one32) with (1 - bpow radix2 (-24))%R in GF; [now apply round_le_generic; try typeclasses eauto|]. destruct pred_one32_val as [E _].
    rewrite E. replace (bpow radix2 (-24)) with (/ 16777216)%R by (simpl; lra). lra. }
  destruct (proj1 (read_nearest w n rest Hw Hn Hr)) as (x & E & Fx & Bx).
  { assert (B : (bpow radix2 0 < bpow radix2 128)%R) by (apply bpow_lt; lia). change (bpow radix2 0) with 1%R in B. rewrite Rabs_pos_eq by lra. lra. }
  exists x. split; [assumption|]. split; [|assumption]. split; [assumption|]. rewrite Bx. lra.
Qed.

(** ** nine digits *)
Lemma gap_up (x : f32) : (0 < B2R x)%R -> (B2R x + B2R x * bpow radix2 (-24) <= succ radix2 fexp32 (B2R x))%R.
Proof.
  intros H. rewrite succ_eq_pos by lra. apply Rplus_le_compat_l. rewrite ulp_neq_0 by lra.
  unfold cexp. set (e := mag radix2 (B2R x)).
  assert (U : (B2R x < bpow radix2 e)%R) by (rewrite <- (Rabs_pos_eq (B2R x)) at 1 by lra; apply bpow_mag_gt).
  apply Rle_trans with (bpow radix2 e * bpow radix2 (-24))%R.
  - apply Rmult_le_compat_r; [apply bpow_ge_0|lra].
  - rewrite <- bpow_plus. apply bpow_le. unfold SpecFloat.fexp, SpecFloat.emin. lia.
Qed.
Lemma gap_down (x : f32) : (0 < B2R x)%R -> (pred radix2 fexp32 (B2R x) <= B2R x - B2R x * bpow radix2 (-24))%R.
Proof.
  intros H. rewrite pred_eq_pos by lra. unfold pred_pos. set (e := mag radix2 (B2R x)).
  destruct (Req_bool_spec (B2R x) (bpow radix2 (e - 1))) as [E|E].
  - apply Rplus_le_compat_l, Ropp_le_contravar. rewrite E at 1. rewrite <- bpow_plus. apply bpow_le. unfold SpecFloat.fexp, SpecFloat.emin. lia.
  - apply Rplus_le_compat_l, Ropp_le_contravar. rewrite ulp_neq_0 by lra. unfold cexp. fold e.
    assert (U : (B2R x < bpow radix2 e)%R) by (rewrite <- (Rabs_pos_eq (B2R x)) at 1 by lra; apply bpow_mag_gt).
    apply Rle_trans with (bpow radix2 e * bpow radix2 (-24))%R.
    + apply Rmult_le_compat_r; [apply bpow_ge_0|lra].
    + rewrite <- bpow_plus. apply bpow_le. unfold SpecFloat.fexp, SpecFloat.emin. lia.
Qed.

Lemma nearest_close (x : f32) v : (0 < B2R x)%R -> (Rabs (v - B2R x) <= B2R x * (5 / 1000000000))%R -> nearest v = B2R x.
Proof.
  intros H C. apply Rabs_le_inv in C. pose proof (gap_up x H) as U. pose proof (gap_down x H) as D.
  replace (bpow radix2 (-24)) with (/ 16777216)%R in U, D by (simpl; lra).
  assert (S : (B2R x * (5 / 1000000000) < B2R x * / 16777216 / 2)%R) by (unfold Rdiv; rewrite Rmult_assoc; apply Rmult_lt_compat_l; lra).
  apply Rle_antisym; unfold nearest.
  - apply round_N_le_midp; [typeclasses eauto|apply format32|lra].
  - apply round_N_ge_midp; [typeclasses eauto|apply format32|lra].
Qed.

Lemma read_back w n rest (x : f32) : blanks w -> well_written n -> stops rest -> is_finite x = true -> (0 < B2R x)%R ->
  (Rabs (value n - B2R x) <= B2R x * (5 / 1000000000))%R -> read_float (w ++ write n ++ rest) = Some (x, rest).
Proof.
  intros Hw Hn Hr Fx Px C. pose proof (nearest_close x _ Px C) as E.
  destruct (proj1 (read_nearest w n rest Hw Hn Hr)) as (y & Ey & Fy & By). { rewrite E. apply abs_B2R_lt_emax. }
  rewrite Ey. do 2 f_equal. rewrite E in By. apply B2R_inj; [| |assumption].
  - destruct y; try discriminate; [|reflexivity]. simpl in By. lra.
  - destruct x; try discriminate; [|reflexivity]. simpl in Px. lra.
Qed.
Lemma read_back9 w n rest (x : f32) k : blanks w -> well_written n -> stops rest -> is_finite x = true -> (0 < B2R x)%R ->
  (powerRZ 10 k <= B2R x)%R -> (Rabs (value n - B2R x) <= powerRZ 10 (k - 8) / 2)%R -> read_float (w ++ write n ++ rest) = Some (x, rest).
Proof.
  intros Hw Hn Hr Fx Px K C. apply read_back; auto. eapply Rle_trans; [exact C|]. replace (k - 8) with (k + -8) by lia. rewrite powerRZ_add by lra.
  replace (powerRZ 10 (-8)) with (/ 100000000)%R by (simpl; lra). lra.
Qed.

(** ** lines *)
Lemma stops_blanks w s : blanks w -> w <> "" -> stops (w ++ s).
Proof. destruct w as [|c w]; [congruence|]. intros [H _] _. exact H. Qed.

Lemma read_three a b c line : three (a, b, c) line ->
  (forall n, n = a \/ n = b \/ n = c -> (bpow radix2 (-149) <= value n <= 1 - bpow radix2 (-24))%R) ->
  exists x y z r1 r2 r3, read_float line = Some (x, r1) /\ read_float r1 = Some (y, r2) /\ read_float r2 = Some (z, r3) /\
    open01p (x, y, z) /\ B2R x = nearest (value a) /\ B2R y = nearest (value b) /\ B2R z = nearest (value c).
Proof.
  intros T V. inversion T as [a' b' c' w1 w2 w3 rest Ha Hb Hc W1 W2 N2 W3 N3 Hr]; subst.
  destruct (read_open w1 a (w2 ++ write b ++ w3 ++ write c ++ rest) W1 Ha ltac:(now apply stops_blanks) (V a (or_introl eq_refl))) as (x & Ex & Ox & Bx).
  destruct (read_open w2 b (w3 ++ write c ++ rest) W2 Hb ltac:(now apply stops_blanks) (V b (or_intror (or_introl eq_refl)))) as (y & Ey & Oy & By).
  destruct (read_open w3 c rest W3 Hc Hr (V c (or_intror (or_intror eq_refl)))) as (z & Ez & Oz & Bz).
  exists x, y, z. do 3 eexists. split; [exact Ex|]. split; [exact Ey|]. split; [exact Ez|]. split; [repeat split; apply Ox || apply Oy || apply Oz|auto].
Qed.

Lemma getlines_line l s : one_line l -> getlines (l ++ String (ascii_of_nat 10) s) = l :: getlines s.
Proof.
  induction l as [|c l IH]; [reflexivity|]. intros [Hc Hl]. cbn [append getlines]. destruct (Ascii.eqb_spec c (ascii_of_nat 10)); [contradiction|]. now rewrite IH.
Qed.
Lemma getlines_last l : one_line l -> l <> "" -> getlines l = [l].
Proof.
  induction l as [|c l IH]; [congruence|]. intros [Hc Hl] _. cbn [getlines]. destruct (Ascii.eqb_spec c (ascii_of_nat 10)); [contradiction|]. destruct l as [|d l]; [reflexivity|].
  now rewrite IH.
Qed.
