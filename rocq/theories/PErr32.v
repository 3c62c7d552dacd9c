(** Binary32: corners of three planes, their test against a fourth, and the security
    radius, compared with the exact values. *)
From Verif Require Import Base PBase Arith MUtils MXyz Arith32 PFloat PDist32 PErrReal PNear32.
From Flocq Require Import Core IEEE754.BinarySingleNaN.
From Coq Require Import Reals Lra Psatz.
Import SpecGeom.
Local Open Scope R_scope.

Lemma tiny_e0 : tiny <= e0 * e0.
Proof. replace e0 with (bpow radix2 (-72)) by (simpl; lra). Transparent tiny. unfold tiny. rewrite <- bpow_plus. apply bpow_le. lia. Qed.
Opaque tiny.
(** the float x is s times v *)
Definition rp (x : f32) (s v : R) : Prop := fin x /\ B2R x = s * v.

Lemma rnd_fl y s v : e0 <= s -> y = s * v -> exists r, rnd y = s * r /\ fl r v.
Proof.
  intros Hs ->. exists (rnd (s * v) / s). assert (0 < s) by lra. split; [field; lra|]. unfold fl.
  replace (rnd (s * v) / s - v) with ((rnd (s * v) - s * v) * / s) by (field; lra). rewrite Rabs_mult, Rabs_inv, (Rabs_pos_eq s) by lra.
  apply Rmult_le_reg_r with s; [lra|]. rewrite Rmult_assoc, Rinv_l, Rmult_1_r by lra. pose proof (rnd_rel (s * v)) as H1. rewrite Rabs_mult, (Rabs_pos_eq s) in H1 by lra.
  pose proof tiny_e0. assert (e0 * e0 <= s * e0) by nra. nra.
Qed.
Lemma rp_mul x y s t v w : rp x s v -> rp y t w -> e0 <= s * t -> Rabs (s * t * (v * w)) <= 1000 -> exists r, rp (fmul arith32 x y) (s * t) r /\ fl r (v * w).
Proof.
  intros [Fx Vx] [Fy Vy] Hs B. assert (E : B2R x * B2R y = s * t * (v * w)) by (rewrite Vx, Vy; ring).
  destruct (mult32 x y Fx Fy) as [F1 V1]; [apply big100; rewrite E; exact B|]. destruct (rnd_fl _ (s * t) (v * w) Hs E) as (r & E1 & H1). exists r. split; [|exact H1].
  split; [exact F1|]. now rewrite V1.
Qed.
Lemma rp_add x y s v w : rp x s v -> rp y s w -> e0 <= s -> Rabs (s * (v + w)) <= 1000 -> exists r, rp (fadd arith32 x y) s r /\ fl r (v + w).
Proof.
  intros [Fx Vx] [Fy Vy] Hs B. assert (E : B2R x + B2R y = s * (v + w)) by (rewrite Vx, Vy; ring).
  destruct (plus32 x y Fx Fy) as [F1 V1]; [apply big100; rewrite E; exact B|]. destruct (rnd_fl _ s (v + w) Hs E) as (r & E1 & H1). exists r. split; [|exact H1].
  split; [exact F1|]. now rewrite V1.
Qed.
Lemma rp_sub x y s v w : rp x s v -> rp y s w -> e0 <= s -> Rabs (s * (v - w)) <= 1000 -> exists r, rp (fsub arith32 x y) s r /\ fl r (v - w).
Proof.
  intros [Fx Vx] [Fy Vy] Hs B. assert (E : B2R x - B2R y = s * (v - w)) by (rewrite Vx, Vy; ring).
  destruct (minus32 x y Fx Fy) as [F1 V1]; [apply big100; rewrite E; exact B|]. destruct (rnd_fl _ s (v - w) Hs E) as (r & E1 & H1). exists r. split; [|exact H1].
  split; [exact F1|]. now rewrite V1.
Qed.
Lemma rp_opp x s v : rp x s v -> rp (fneg arith32 x) s (- v).
Proof.
  intros [Fx Vx]. change (fneg arith32 x) with (Bopp x). split; [rewrite is_finite_Bopp; exact Fx|]. rewrite B2R_Bopp, Vx. ring.
Qed.
Lemma rp_scale x s t v : s = t -> rp x s v -> rp x t v.
Proof. now intros ->. Qed.
Lemma rp_bound s v M : 0 <= s <= 8 -> Rabs v <= M -> M <= 100 -> Rabs (s * v) <= 1000.
Proof. intros Hs Hv HM. rewrite Rabs_mult, (Rabs_pos_eq s) by lra. pose proof (Rabs_pos v). nra. Qed.
Lemma rp_inv x s t : rp x s t -> / 2 ^ 60 <= s <= 8 -> / 2 ^ 30 <= Rabs t -> exists r, rp (fdiv arith32 (fofZ arith32 1) x) (/ s) r /\ fl r (/ t).
Proof.
  intros [Fx Vx] Hs Ht. assert (Hs0 : 0 < s) by (pose proof (Rinv_0_lt_compat (2 ^ 60) ltac:(simpl; lra)); lra).
  assert (H30 : 0 < / 2 ^ 30) by (apply Rinv_0_lt_compat; simpl; lra).
  destruct (ofZ32 1 ltac:(lia)) as [V1 F1]. assert (T0 : t <> 0) by (intros ->; rewrite Rabs_R0 in Ht; lra).
  assert (N0 : B2R x <> 0) by (rewrite Vx; apply Rmult_integral_contrapositive_currified; lra).
  assert (E : B2R (fofZ arith32 1) / B2R x = / s * / t) by (rewrite V1, Vx; field; split; lra).
  assert (I : Rabs (/ t) <= 2 ^ 30).
  { rewrite Rabs_inv, <- (Rinv_inv (2 ^ 30)). apply Rinv_le_contravar; assumption. }
  assert (J : / s <= 2 ^ 60). { rewrite <- (Rinv_inv (2 ^ 60)). apply Rinv_le_contravar; [apply Rinv_0_lt_compat; simpl; lra|lra]. }
  assert (IS : 0 < / s) by (now apply Rinv_0_lt_compat).
  destruct (div32_ok (fofZ arith32 1) x F1 N0) as [F2 V2].
  { rewrite E, Rabs_mult, (Rabs_pos_eq (/ s)) by lra.
    apply Rle_trans with (2 ^ 60 * 2 ^ 30); [apply Rmult_le_compat; auto using Rabs_pos; lra|].
    replace (2 ^ 60) with (bpow radix2 60) by (simpl; lra). replace (2 ^ 30) with (bpow radix2 30) by (simpl; lra). rewrite <- bpow_plus. apply bpow_le. lia. }
  assert (S8 : e0 <= / s). { apply Rle_trans with (/ 8); [lra|]. apply Rinv_le_contravar; lra. }
  destruct (rnd_fl _ (/ s) (/ t) S8 E) as (r & E1 & H1). exists r. split; [|exact H1]. split; [exact F2|]. now rewrite V2.
Qed.

Lemma fl_bound r v M : fl r v -> Rabs v <= M -> Rabs r <= 1001 / 1000 * M + e0.
Proof. intros H B. unfold fl in H. pose proof (abs_shift _ _ _ H). pose proof (Rabs_pos v). lra. Qed.
Lemma near_bound1 r v e M : Rabs (r - v) <= e -> Rabs v <= M -> Rabs r <= M + e.
Proof. intros H B. pose proof (abs_shift _ _ _ H). lra. Qed.
Lemma mul_bound a b A B : Rabs a <= A -> Rabs b <= B -> Rabs (a * b) <= A * B.
Proof. intros Ha Hb. rewrite Rabs_mult. apply Rmult_le_compat; auto using Rabs_pos. Qed.
Lemma add_bound a b A B : Rabs a <= A -> Rabs b <= B -> Rabs (a + b) <= A + B.
Proof. intros. eapply Rle_trans; [apply Rabs_triang|lra]. Qed.
Lemma minus_bound a b A B : Rabs a <= A -> Rabs b <= B -> Rabs (a - b) <= A + B.
Proof. intros. unfold Rminus. apply add_bound; [assumption|]. now rewrite Rabs_Ropp. Qed.

Section Cross.
Variables (x1 y1 z1 w1 : f32) (s t x' y' z' w' x y z w : R).
Hypothesis Hx : rp x1 s x'. Hypothesis Hy : rp y1 t y'. Hypothesis Hz : rp z1 t z'. Hypothesis Hw : rp w1 s w'.
Hypothesis Fx : fl x' x. Hypothesis Fy : fl y' y. Hypothesis Fz : fl z' z. Hypothesis Fw : fl w' w.
Hypothesis Bx : Rabs x <= 1. Hypothesis By : Rabs y <= 1. Hypothesis Bz : Rabs z <= 1. Hypothesis Bw : Rabs w <= 1.
Hypothesis B : Rabs (x * y) + Rabs (z * w) <= 1.
Hypothesis S : e0 <= s * t <= 8.

Let P1 : exists m1, rp (fmul arith32 x1 y1) (s * t) m1 /\ fl m1 (x' * y') /\ Rabs m1 <= 2.
Proof.
  pose proof (mul_bound _ _ _ _ (fl_bound _ _ _ Fx Bx) (fl_bound _ _ _ Fy By)) as M.
  destruct (rp_mul x1 y1 s t x' y' Hx Hy ltac:(lra)) as (m & R & Q); [eapply rp_bound; [lra|exact M|lra]|].
  exists m. split; [assumption|]. split; [assumption|]. pose proof (fl_bound _ _ _ Q M). lra.
Qed.
Let P2 : exists m1, rp (fmul arith32 z1 w1) (s * t) m1 /\ fl m1 (z' * w') /\ Rabs m1 <= 2.
Proof.
  pose proof (mul_bound _ _ _ _ (fl_bound _ _ _ Fz Bz) (fl_bound _ _ _ Fw Bw)) as M.
  destruct (rp_mul z1 w1 t s z' w' Hz Hw ltac:(lra)) as (m & R & Q); [eapply rp_bound; [lra|exact M|lra]|].
  exists m. split; [apply (rp_scale _ (t * s)); [ring|assumption]|]. split; [assumption|]. pose proof (fl_bound _ _ _ Q M). lra.
Qed.
Lemma cross32_minus : exists r, rp (fsub arith32 (fmul arith32 x1 y1) (fmul arith32 z1 w1)) (s * t) r /\ Rabs (r - (x * y - z * w)) <= 401 / 100 * u.
Proof.
  destruct P1 as (m1 & R1 & Q1 & N1). destruct P2 as (m2 & R2 & Q2 & N2).
  destruct (rp_sub _ _ _ _ _ R1 R2 ltac:(lra)) as (r & R & Q); [eapply rp_bound; [lra|apply minus_bound; eassumption|lra]|].
  exists r. split; [assumption|]. exact (cross_minus r m1 m2 x' x y' y z' z w' w Bx By Bz Bw B Fx Fy Fz Fw Q1 Q2 Q).
Qed.
Lemma cross32_plus : exists r, rp (fadd arith32 (fmul arith32 x1 y1) (fmul arith32 z1 w1)) (s * t) r /\ Rabs (r - (x * y + z * w)) <= 401 / 100 * u.
Proof.
  destruct P1 as (m1 & R1 & Q1 & N1). destruct P2 as (m2 & R2 & Q2 & N2).
  destruct (rp_add _ _ _ _ _ R1 R2 ltac:(lra)) as (r & R & Q); [eapply rp_bound; [lra|apply add_bound; eassumption|lra]|].
  exists r. split; [assumption|]. exact (cross_plus r m1 m2 x' x y' y z' z w' w Bx By Bz Bw B Fx Fy Fz Fw Q1 Q2 Q).
Qed.
End Cross.

(** the float plane h is s times the plane n with unit normal, up to rounding *)
Definition near_plane (rho : R) (h : plane arith32) (s : R) (n : pl) : Prop :=
  let '(a1, b1, c1, d1) := h in let '(a, b, c, d) := n in
  / 131072 <= s <= 2 /\ unit3 a b c /\ Rabs d <= 17321 / 10000 /\
  exists a' b' c' d', (rp a1 s a' /\ fl a' a) /\ (rp b1 s b' /\ fl b' b) /\ (rp c1 s c' /\ fl c' c) /\ (rp d1 s d' /\ Rabs (d' - d) <= 376 / 100 * u / rho).

Lemma fl_opp r v : fl r v -> fl (- r) (- v).
Proof. unfold fl. rewrite Rabs_Ropp. replace (- r - - v) with (- (r - v)) by ring. now rewrite Rabs_Ropp. Qed.

(** the cross product of two planes *)
Lemma cross32 rho (h2 h3 : plane arith32) s2 s3 n2 n3 : near_plane rho h2 s2 n2 -> near_plane rho h3 s3 n3 ->
  let '(a2, b2, c2, d2) := h2 in let '(a3, b3, c3, d3) := h3 in let '(p2, q2, r2, o2) := n2 in let '(p3, q3, r3, o3) := n3 in
  (exists r, rp (fsub arith32 (fmul arith32 b2 c3) (fmul arith32 b3 c2)) (s2 * s3) r /\ Rabs (r - (q2 * r3 - q3 * r2)) <= 401 / 100 * u) /\
  (exists r, rp (fadd arith32 (fmul arith32 (fneg arith32 a2) c3) (fmul arith32 a3 c2)) (s2 * s3) r /\ Rabs (r - (p3 * r2 - p2 * r3)) <= 401 / 100 * u) /\
  (exists r, rp (fsub arith32 (fmul arith32 a2 b3) (fmul arith32 a3 b2)) (s2 * s3) r /\ Rabs (r - (p2 * q3 - p3 * q2)) <= 401 / 100 * u) /\
  short3 (q2 * r3 - q3 * r2) (p3 * r2 - p2 * r3) (p2 * q3 - p3 * q2).
Proof.
  destruct h2 as [[[a2 b2] c2] d2], h3 as [[[a3 b3] c3] d3], n2 as [[[p2 q2] r2] o2], n3 as [[[p3 q3] r3] o3].
  intros (S2 & U2 & _ & a2' & b2' & c2' & d2' & (A2 & A2') & (B2 & B2') & (C2 & C2') & _) (S3 & U3 & _ & a3' & b3' & c3' & d3' & (A3 & A3') & (B3 & B3') & (C3 & C3') & _).
  destruct (unit_le _ _ _ U2) as (G1 & G2 & G3). destruct (unit_le _ _ _ U3) as (I1 & I2 & I3).
  destruct (cauchy2 _ _ _ _ _ _ (unit_short _ _ _ U2) (unit_short _ _ _ U3)) as (K1 & K2 & K3).
  assert (SS : e0 <= s2 * s3 <= 8) by nra.
  split; [|split; [|split]].
  - apply (cross32_minus b2 c3 b3 c2 s2 s3 b2' c3' b3' c2' q2 r3 q3 r2); auto. rewrite (Rmult_comm q3 r2). exact K2.
  - replace (p3 * r2 - p2 * r3) with ((- p2) * r3 + p3 * r2) by ring.
    apply (cross32_plus (fneg arith32 a2) c3 a3 c2 s2 s3 (- a2') c3' a3' c2'); auto using rp_opp, fl_opp.
    + now rewrite Rabs_Ropp.
    + rewrite <- Ropp_mult_distr_l, Rabs_Ropp, (Rmult_comm p3 r2). exact K3.
  - apply (cross32_minus a2 b3 a3 b2 s2 s3 a2' b3' a3' b2' p2 q3 p3 q2); auto. rewrite (Rmult_comm p3 q2). exact K1.
  - now apply cross_short; apply unit_short.
Qed.

(** determinant and numerator *)
Lemma row32 a1 b1 c1 n1 n2 n3 s S a' b' c' a b c x y z :
  unit3 a b c -> short3 x y z -> / 131072 <= s <= 2 -> / 17179869184 <= S <= 4 -> rp a1 s a' -> fl a' a -> rp b1 s b' -> fl b' b -> rp c1 s c' -> fl c' c ->
  (exists r, rp n1 S r /\ Rabs (r - x) <= 401 / 100 * u) -> (exists r, rp n2 S r /\ Rabs (r - y) <= 401 / 100 * u) -> (exists r, rp n3 S r /\ Rabs (r - z) <= 401 / 100 * u) ->
  exists t, rp (fadd arith32 (fadd arith32 (fmul arith32 a1 n1) (fmul arith32 b1 n2)) (fmul arith32 c1 n3)) (s * S) t /\ Rabs (t - (a * x + b * y + c * z)) <= 111 / 10 * u.
Proof.
  intros U X Hs HS A A' B B' C C' (x' & Rx & Ex) (y' & Ry & Ey) (z' & Rz & Ez).
  destruct (unit_le _ _ _ U) as (G1 & G2 & G3). destruct (short_le _ _ _ X) as (I1 & I2 & I3).
  assert (SS : e0 <= s * S <= 8) by nra.
  assert (M : forall p q p' q' v w, rp p s p' -> fl p' v -> rp q S q' -> Rabs v <= 1 -> Rabs (q' - w) <= 401 / 100 * u -> Rabs w <= 1 ->
    exists m, rp (fmul arith32 p q) (s * S) m /\ fl m (p' * q') /\ Rabs m <= 2).
  { intros p q p' q' v w Hp Fp Hq Bv Hw Bw. pose proof (mul_bound _ _ _ _ (fl_bound _ _ _ Fp Bv) (near_bound1 _ _ _ _ Hw Bw)) as M.
    destruct (rp_mul p q s S p' q' Hp Hq ltac:(lra)) as (m & R & Q); [eapply rp_bound; [lra|exact M|lra]|].
    exists m. split; [assumption|]. split; [assumption|]. pose proof (fl_bound _ _ _ Q M). lra. }
  destruct (M a1 n1 a' x' a x A A' Rx G1 Ex I1) as (m1 & R1 & Q1 & N1). destruct (M b1 n2 b' y' b y B B' Ry G2 Ey I2) as (m2 & R2 & Q2 & N2).
  destruct (M c1 n3 c' z' c z C C' Rz G3 Ez I3) as (m3 & R3 & Q3 & N3).
  destruct (rp_add _ _ _ _ _ R1 R2 ltac:(lra)) as (r & R & Q); [eapply rp_bound; [lra|apply add_bound; eassumption|lra]|].
  pose proof (fl_bound _ _ _ Q (add_bound _ _ _ _ N1 N2)) as Nr.
  destruct (rp_add _ _ _ _ _ R R3 ltac:(lra)) as (t & Rt & Qt); [eapply rp_bound; [lra|apply add_bound; eassumption|lra]|].
  exists t. split; [assumption|]. exact (det_near t r m1 m2 m3 a' a b' b c' c x' x y' y z' z U X A' B' C' Ex Ey Ez Q1 Q2 Q3 Q Qt).
Qed.
Lemma num32 rho d1 d2 d3 n1 n2 n3 S d1' d2' d3' o1 o2 o3 s1 s2 s3 S1 S2 S3 x y z : 0 < rho -> 376 / 100 * u / rho <= 1 / 10 ->
  rp d1 s1 d1' -> rp d2 s2 d2' -> rp d3 s3 d3' -> s1 * S1 = S -> s2 * S2 = S -> s3 * S3 = S -> e0 <= S <= 8 ->
  Rabs o1 <= 17321 / 10000 -> Rabs o2 <= 17321 / 10000 -> Rabs o3 <= 17321 / 10000 ->
  Rabs (d1' - o1) <= 376 / 100 * u / rho -> Rabs (d2' - o2) <= 376 / 100 * u / rho -> Rabs (d3' - o3) <= 376 / 100 * u / rho ->
  (exists r, rp n1 S1 r /\ Rabs (r - x) <= 401 / 100 * u) -> (exists r, rp n2 S2 r /\ Rabs (r - y) <= 401 / 100 * u) -> (exists r, rp n3 S3 r /\ Rabs (r - z) <= 401 / 100 * u) ->
  Rabs x <= 1 -> Rabs y <= 1 -> Rabs z <= 1 -> Rabs ((- o1) * x - o2 * y - o3 * z) <= 1 ->
  exists e, rp (fsub arith32 (fsub arith32 (fmul arith32 (fneg arith32 d1) n1) (fmul arith32 d2 n2)) (fmul arith32 d3 n3)) S e /\
    Rabs (e - ((- o1) * x - o2 * y - o3 * z)) <= 301 / 100 * (376 / 100 * u / rho) + 307 / 10 * u /\ Rabs e <= 2.
Proof.
  intros Hr Hk D1 D2 D3 T1 T2 T3 SS B1 B2 B3 E1 E2 E3 (x' & Rx & Ex) (y' & Ry & Ey) (z' & Rz & Ez) Bx By Bz B.
  set (k := 376 / 100 * u / rho) in *. assert (K0 : 0 <= k) by (unfold k; apply Rlt_le, Rdiv_lt_0_compat; lra).
  assert (M : forall p q p' q' v w s0 S0, rp p s0 p' -> Rabs (p' - v) <= k -> rp q S0 q' -> s0 * S0 = S -> Rabs v <= 17321 / 10000 -> Rabs (q' - w) <= 401 / 100 * u -> Rabs w <= 1 ->
    exists m, rp (fmul arith32 p q) S m /\ fl m (p' * q') /\ Rabs m <= 3).
  { intros p q p' q' v w s0 S0 Hp Fp Hq ES Bv Hw Bw. pose proof (mul_bound _ _ _ _ (near_bound1 _ _ _ _ Fp Bv) (near_bound1 _ _ _ _ Hw Bw)) as M.
    assert (M3 : Rabs (p' * q') <= 29 / 10) by (eapply Rle_trans; [exact M|]; clear - Hk K0; nra).
    destruct (rp_mul p q s0 S0 p' q' Hp Hq ltac:(lra)) as (m & R & Q); [eapply rp_bound; [lra|exact M3|lra]|].
    exists m. split; [rewrite <- ES; assumption|]. split; [assumption|]. pose proof (fl_bound _ _ _ Q M3). lra. }
  destruct (M (fneg arith32 d1) n1 (- d1') x' (- o1) x s1 S1 (rp_opp _ _ _ D1) ltac:(revert E1; rewrite !abs_bnd; lra) Rx T1 ltac:(now rewrite Rabs_Ropp) Ex Bx) as (m1 & R1 & Q1 & N1).
  destruct (M d2 n2 d2' y' o2 y s2 S2 D2 E2 Ry T2 B2 Ey By) as (m2 & R2 & Q2 & N2).
  destruct (M d3 n3 d3' z' o3 z s3 S3 D3 E3 Rz T3 B3 Ez Bz) as (m3 & R3 & Q3 & N3).
  destruct (rp_sub _ _ _ _ _ R1 R2 ltac:(lra)) as (r & R & Q); [eapply rp_bound; [lra|apply minus_bound; eassumption|lra]|].
  pose proof (fl_bound _ _ _ Q (minus_bound _ _ _ _ N1 N2)) as Nr.
  destruct (rp_sub _ _ _ _ _ R R3 ltac:(lra)) as (t & Rt & Qt); [eapply rp_bound; [lra|apply minus_bound; eassumption|lra]|].
  exists t. split; [assumption|].
  pose proof (num_near t r m1 m2 m3 d1' o1 d2' o2 d3' o3 x' x y' y z' z k B1 B2 B3 ltac:(lra) E1 E2 E3 Bx By Bz Ex Ey Ez Q1 Q2 Q3 Q Qt B) as H.
  split; [exact H|]. pose proof (abs_shift _ _ _ H). lra.
Qed.

Lemma eq32_false (x : f32) s v : rp x s v -> s <> 0 -> v <> 0 -> feq arith32 x (fofZ arith32 0) = false.
Proof.
  intros [Fx Vx] Hs Hv. destruct (ofZ32 0 ltac:(lia)) as [V0 F0]. change (Beqb x (fofZ arith32 0) = false).
  rewrite Beqb_correct, V0, Vx by assumption. apply Req_bool_false. now apply Rmult_integral_contrapositive_currified.
Qed.

Lemma part_le v d : Rabs v <= 1 -> Rabs (v * d) <= Rabs d.
Proof. intros H. rewrite Rabs_mult. pose proof (Rabs_pos d). pose proof (Rabs_pos v). nra. Qed.
Lemma margin_rd L m : L * m = 1 -> u * L <= 677 / 100000 -> 0 < m -> u <= 677 / 100000 * m.
Proof. intros H1 H2 H3. assert ((u * L) * m <= 677 / 100000 * m) by (apply Rmult_le_compat_r; lra). replace (u * L * m) with u in H by (rewrite Rmult_assoc, H1; ring). exact H. Qed.
Lemma factor_ge r d m a b : 0 < r <= a -> 0 < d -> m <= r * d -> b * a <= m -> 0 <= b -> b <= d.
Proof. intros Hr Hd H1 H2 Hb. destruct (Rle_lt_dec b d); [assumption|exfalso]. assert (r * d <= a * d) by nra. nra. Qed.

(** the corner of three planes *)
Lemma corner32 rho (h1 h2 h3 : plane arith32) s1 s2 s3 n1 n2 n3 (x : pt) L : near_plane rho h1 s1 n1 -> near_plane rho h2 s2 n2 -> near_plane rho h3 s3 n3 ->
  0 < rho <= 17321 / 10000 -> det3 n1 n2 n3 <> 0 -> L = / (rho * Rabs (det3 n1 n2 n3)) -> u * L <= 677 / 100000 ->
  ev n1 x = 0 -> ev n2 x = 0 -> ev n3 x = 0 -> in_cube x ->
  exists v1 v2 v3 y1 y2 y3, intersect arith32 h1 h2 h3 = (v1, v2, v3, fofZ arith32 1) /\ rp v1 1 y1 /\ rp v2 1 y2 /\ rp v3 1 y3 /\
    let '(x1, x2, x3) := x in Rabs (y1 - x1) <= 103 * (u * L) /\ Rabs (y2 - x2) <= 103 * (u * L) /\ Rabs (y3 - x3) <= 103 * (u * L).
Proof.
  intros H1 H2 H3 Hr HD EL HL Z1 Z2 Z3 IC.
  pose proof (cross32 rho h1 h2 s1 s2 n1 n2 H1 H2) as C12. pose proof (cross32 rho h2 h3 s2 s3 n2 n3 H2 H3) as C23. pose proof (cross32 rho h3 h1 s3 s1 n3 n1 H3 H1) as C31.
  destruct h1 as [[[a1 b1] c1] d1], h2 as [[[a2 b2] c2] d2], h3 as [[[a3 b3] c3] d3], n1 as [[[p1 q1] r1] o1], n2 as [[[p2 q2] r2] o2], n3 as [[[p3 q3] r3] o3], x as [[x1 x2] x3].
  destruct C12 as (X12 & Y12 & W12 & S12). destruct C23 as (X23 & Y23 & W23 & S23). destruct C31 as (X31 & Y31 & W31 & S31).
  destruct H1 as (SB1 & U1 & O1 & a1' & b1' & c1' & d1' & (A1 & A1') & (B1 & B1') & (C1 & C1') & (D1 & D1')).
  destruct H2 as (SB2 & U2 & O2 & a2' & b2' & c2' & d2' & _ & _ & _ & (D2 & D2')).
  destruct H3 as (SB3 & U3 & O3 & a3' & b3' & c3' & d3' & _ & _ & _ & (D3 & D3')).
  set (D := det3 (p1, q1, r1, o1) (p2, q2, r2, o2) (p3, q3, r3, o3)) in *.
  assert (ED : D = p1 * (q2 * r3 - q3 * r2) + q1 * (p3 * r2 - p2 * r3) + r1 * (p2 * q3 - p3 * q2)) by (unfold D, det3; ring).
  assert (BD : Rabs D <= 1).
  { rewrite ED. pose proof (cauchy3 _ _ _ _ _ _ (unit_short _ _ _ U1) S23). pose proof (Rabs_triang (p1 * (q2 * r3 - q3 * r2) + q1 * (p3 * r2 - p2 * r3)) (r1 * (p2 * q3 - p3 * q2))).
    pose proof (Rabs_triang (p1 * (q2 * r3 - q3 * r2)) (q1 * (p3 * r2 - p2 * r3))). lra. }
  assert (PD : 0 < Rabs D) by (now apply Rabs_pos_lt).
  assert (LD : L * (rho * Rabs D) = 1) by (rewrite EL; field; split; lra).
  assert (RD : 88 / 10000000 <= rho * Rabs D). { pose proof (margin_rd L (rho * Rabs D) LD HL ltac:(apply Rmult_lt_0_compat; lra)). lra. }
  assert (D5 : 5 / 1000000 <= Rabs D) by (apply (factor_ge rho _ (88 / 10000000) (17321 / 10000)); lra).
  assert (R5 : 88 / 10000000 <= rho) by (apply (factor_ge (Rabs D) _ (88 / 10000000) 1); try lra; rewrite Rmult_comm; lra).
  assert (K : 376 / 100 * u / rho <= 1 / 10).
  { apply Rmult_le_reg_r with rho; [lra|]. replace (376 / 100 * u / rho * rho) with (376 / 100 * u) by (field; lra). lra. }
  set (S := s1 * (s2 * s3)).
  assert (S23b : / 17179869184 <= s2 * s3 <= 4) by (clear - SB2 SB3; nra).
  assert (SS : / 2 ^ 60 <= S <= 8). { clear - SB1 S23b. unfold S. split; [|nra]. apply Rle_trans with (/ 131072 * / 17179869184); [simpl; lra|nra]. }
  assert (SE : e0 <= S) by (assert (e0 <= / 2 ^ 60) by (simpl; lra); lra).
  assert (SP : 0 < S) by lra.
  (* determinant *)
  destruct (row32 a1 b1 c1 _ _ _ s1 (s2 * s3) a1' b1' c1' p1 q1 r1 _ _ _ U1 S23 SB1 S23b A1 A1' B1 B1' C1 C1' X23 Y23 W23) as (t & Rt & Et). fold S in Rt. rewrite <- ED in Et.
  assert (T5 : 1 / 1000000 <= Rabs t).
  { assert (Rabs D <= Rabs t + 111 / 10 * u); [|lra]. apply abs_shift. rewrite Rabs_minus_sym. exact Et. }
  assert (T0 : t <> 0) by (intros ->; rewrite Rabs_R0 in T5; lra).
  destruct (rp_inv _ S t Rt SS ltac:(simpl; lra)) as (i & Ri & Ei).
  assert (NZ := eq32_false _ S t Rt ltac:(lra) T0).
  destruct (short_le _ _ _ S12) as (G1 & G2 & G3). destruct (short_le _ _ _ S23) as (I1 & I2 & I3). destruct (short_le _ _ _ S31) as (J1 & J2 & J3).
  simpl in Z1, Z2, Z3, IC.
  assert (ABS : forall v, 0 <= v <= 1 -> Rabs v <= 1) by (intros; apply abs_bnd; lra).
  assert (VD : forall v, 0 <= v <= 1 -> Rabs (v * D) <= 1) by (intros v Hv; eapply Rle_trans; [apply part_le, ABS, Hv|exact BD]).
  assert (SUM1 : s2 * (s3 * s1) = S) by (unfold S; ring). assert (SUM2 : s3 * (s1 * s2) = S) by (unfold S; ring).
  (* one component *)
  assert (CO : forall m1 m2 m3 y1 y2 y3 v, (exists r, rp m1 (s2 * s3) r /\ Rabs (r - y1) <= 401 / 100 * u) -> (exists r, rp m2 (s3 * s1) r /\ Rabs (r - y2) <= 401 / 100 * u) ->
    (exists r, rp m3 (s1 * s2) r /\ Rabs (r - y3) <= 401 / 100 * u) -> Rabs y1 <= 1 -> Rabs y2 <= 1 -> Rabs y3 <= 1 -> 0 <= v <= 1 -> v * D = (- o1) * y1 - o2 * y2 - o3 * y3 ->
    exists w, rp (fmul arith32 (fsub arith32 (fsub arith32 (fmul arith32 (fneg arith32 d1) m1) (fmul arith32 d2 m2)) (fmul arith32 d3 m3))
      (fdiv arith32 (fofZ arith32 1) (fadd arith32 (fadd arith32 (fmul arith32 a1 (fsub arith32 (fmul arith32 b2 c3) (fmul arith32 b3 c2))) (fmul arith32 b1 (fadd arith32 (fmul arith32 (fneg arith32 a2) c3) (fmul arith32 a3 c2))))
        (fmul arith32 c1 (fsub arith32 (fmul arith32 a2 b3) (fmul arith32 a3 b2)))))) 1 w /\ Rabs (w - v) <= 103 * (u * L)).
  { intros m1 m2 m3 y1 y2 y3 v M1 M2 M3 B1y B2y B3y Hv EV.
    destruct (num32 rho d1 d2 d3 m1 m2 m3 S d1' d2' d3' o1 o2 o3 s1 s2 s3 (s2 * s3) (s3 * s1) (s1 * s2) y1 y2 y3) as (e & Re & Ee & Be); auto; try lra.
    { rewrite <- EV. auto. }
    rewrite <- EV in Ee.
    assert (BI : Rabs i <= 2000000).
    { assert (Rabs (/ t) <= 1000000). { rewrite Rabs_inv. replace 1000000 with (/ (1 / 1000000)) by lra. apply Rinv_le_contravar; lra. }
      pose proof (fl_bound _ _ _ Ei H). lra. }
    assert (EI : Rabs (e * i) <= 100).
    { assert (Q : Rabs (e * / t) <= 90).
      { rewrite Rabs_mult, Rabs_inv. apply Rmult_le_reg_r with (Rabs t); [lra|]. rewrite Rmult_assoc, Rinv_l by lra.
        assert (Rabs e <= Rabs (v * D) + (301 / 100 * (376 / 100 * u / rho) + 307 / 10 * u)) by (now apply abs_shift).
        assert (Rabs (v * D) <= Rabs D). { apply part_le, ABS, Hv. }
        assert (u / rho <= 677 / 100000 * Rabs D). { apply Rmult_le_reg_r with rho; [lra|]. replace (u / rho * rho) with u by (field; lra).
          pose proof (margin_rd L (rho * Rabs D) LD HL ltac:(apply Rmult_lt_0_compat; lra)). lra. }
        replace (376 / 100 * u / rho) with (376 / 100 * (u / rho)) in H by (field; lra).
        assert (Rabs D <= Rabs t + 111 / 10 * u) by (apply abs_shift; rewrite Rabs_minus_sym; exact Et). lra. }
      replace (e * i) with (e * / t + e * (i - / t)) by ring. eapply Rle_trans; [apply Rabs_triang|]. rewrite (Rabs_mult e (i - / t)). unfold fl in Ei.
      assert (Rabs e * Rabs (i - / t) <= Rabs e * (u * Rabs (/ t) + e0)) by (apply Rmult_le_compat_l; [apply Rabs_pos|exact Ei]).
      replace (Rabs e * (u * Rabs (/ t) + e0)) with (u * Rabs (e * / t) + Rabs e * e0) in H by (rewrite Rabs_mult; ring). lra. }
    assert (S1E : S * / S = 1) by (apply Rinv_r; lra).
    destruct (rp_mul _ _ S (/ S) e i Re Ri ltac:(lra)) as (w & Rw & Ew); [rewrite S1E, Rmult_1_l; lra|].
    exists w. split; [rewrite <- S1E; exact Rw|].
    apply (quot_near w v e t i D L rho); auto. }
  destruct (CO _ _ _ _ _ _ x1 X23 X31 X12 I1 J1 G1 ltac:(lra)) as (w1 & Rw1 & Ew1).
  { rewrite ED. replace o1 with (- (p1 * x1 + q1 * x2 + r1 * x3)) by lra. replace o2 with (- (p2 * x1 + q2 * x2 + r2 * x3)) by lra. replace o3 with (- (p3 * x1 + q3 * x2 + r3 * x3)) by lra. ring. }
  destruct (CO _ _ _ _ _ _ x2 Y23 Y31 Y12 I2 J2 G2 ltac:(lra)) as (w2 & Rw2 & Ew2).
  { rewrite ED. replace o1 with (- (p1 * x1 + q1 * x2 + r1 * x3)) by lra. replace o2 with (- (p2 * x1 + q2 * x2 + r2 * x3)) by lra. replace o3 with (- (p3 * x1 + q3 * x2 + r3 * x3)) by lra. ring. }
  destruct (CO _ _ _ _ _ _ x3 W23 W31 W12 I3 J3 G3 ltac:(lra)) as (w3 & Rw3 & Ew3).
  { rewrite ED. replace o1 with (- (p1 * x1 + q1 * x2 + r1 * x3)) by lra. replace o2 with (- (p2 * x1 + q2 * x2 + r2 * x3)) by lra. replace o3 with (- (p3 * x1 + q3 * x2 + r3 * x3)) by lra. ring. }
  unfold intersect. cbv zeta. rewrite NZ. do 3 eexists. exists w1, w2, w3. split; [reflexivity|]. auto 10.
Qed.

(** the test of a corner against a plane *)
Lemma test32 rho v1 v2 v3 y1 y2 y3 (x : pt) (h : plane arith32) s n L : near_plane rho h s n -> 0 < rho <= 17321 / 10000 -> / rho <= L -> u * L <= 677 / 100000 ->
  in_cube x -> rp v1 1 y1 -> rp v2 1 y2 -> rp v3 1 y3 ->
  (let '(x1, x2, x3) := x in Rabs (y1 - x1) <= 103 * (u * L) /\ Rabs (y2 - x2) <= 103 * (u * L) /\ Rabs (y3 - x3) <= 103 * (u * L)) ->
  exists r, rp (dot arith32 (v1, v2, v3, fofZ arith32 1) h) s r /\ Rabs (r - ev n x) <= 230 * (u * L).
Proof.
  intros H Hr IL HL IC R1 R2 R3 EX. destruct x as [[x1 x2] x3], h as [[[a1 b1] c1] d1], n as [[[a b] c] d]. simpl in IC. destruct EX as (E1 & E2 & E3).
  destruct H as (SB & U & O & a' & b' & c' & d' & (A & A') & (B & B') & (C & C') & (D & D')). destruct (unit_le _ _ _ U) as (G1 & G2 & G3).
  assert (ABS : forall v, 0 <= v <= 1 -> Rabs v <= 1) by (intros; apply abs_bnd; lra).
  assert (X1 : Rabs x1 <= 1) by (apply ABS; lra). assert (X2 : Rabs x2 <= 1) by (apply ABS; lra). assert (X3 : Rabs x3 <= 1) by (apply ABS; lra).
  assert (K : 376 / 100 * u / rho <= 1 / 10). { replace (376 / 100 * u / rho) with (376 / 100 * (u * / rho)) by (field; lra). assert (u * / rho <= u * L) by nra. lra. }
  assert (SE : e0 <= s) by lra.
  assert (M : forall p q p' q' v w, rp p 1 p' -> Rabs (p' - v) <= 103 * (u * L) -> Rabs v <= 1 -> rp q s q' -> fl q' w -> Rabs w <= 1 -> exists m, rp (fmul arith32 p q) s m /\ fl m (p' * q') /\ Rabs m <= 2).
  { intros p q p' q' v w Hp Ep Bv Hq Fq Bw. pose proof (mul_bound _ _ _ _ (near_bound1 _ _ _ _ Ep Bv) (fl_bound _ _ _ Fq Bw)) as M.
    assert (M2 : Rabs (p' * q') <= 19 / 10) by (eapply Rle_trans; [exact M|]; lra).
    destruct (rp_mul p q 1 s p' q' Hp Hq ltac:(lra)) as (m & R & Q); [eapply rp_bound; [lra|exact M2|lra]|].
    exists m. split; [apply (rp_scale _ (1 * s)); [ring|assumption]|]. split; [assumption|]. pose proof (fl_bound _ _ _ Q M2). lra. }
  destruct (M v1 a1 y1 a' x1 a R1 E1 X1 A A' G1) as (m1 & N1 & Q1 & Y1). destruct (M v2 b1 y2 b' x2 b R2 E2 X2 B B' G2) as (m2 & N2 & Q2 & Y2).
  destruct (M v3 c1 y3 c' x3 c R3 E3 X3 C C' G3) as (m3 & N3 & Q3 & Y3).
  destruct (rp_add _ _ _ _ _ N1 N2 ltac:(lra)) as (r1 & Z1 & W1); [eapply rp_bound; [lra|apply add_bound; eassumption|lra]|].
  pose proof (fl_bound _ _ _ W1 (add_bound _ _ _ _ Y1 Y2)) as V1.
  destruct (rp_add _ _ _ _ _ Z1 N3 ltac:(lra)) as (r2 & Z2 & W2); [eapply rp_bound; [lra|apply add_bound; eassumption|lra]|].
  pose proof (fl_bound _ _ _ W2 (add_bound _ _ _ _ V1 Y3)) as V2.
  assert (D1 : rp (fmul arith32 (fofZ arith32 1) d1) s d').
  { destruct (ofZ32 1 ltac:(lia)) as [O1 F1]. destruct D as [FD VD]. pose proof (near_bound1 _ _ _ _ D' O) as BD.
    destruct (mult32 (fofZ arith32 1) d1 F1 FD) as [F2 E]. { apply big100. rewrite O1, Rmult_1_l, VD. eapply rp_bound; [lra|exact BD|lra]. }
    split; [exact F2|]. rewrite E, O1, Rmult_1_l, rnd_id. exact VD. }
  destruct (rp_add _ _ _ _ _ Z2 D1 ltac:(lra)) as (r & Z & W); [eapply rp_bound; [lra|apply add_bound; [exact V2|exact (near_bound1 _ _ _ _ D' O)]|lra]|].
  exists r. split; [exact Z|]. simpl ev.
  exact (test_near r r1 r2 m1 m2 m3 a' a b' b c' c d' d y1 x1 y2 x2 y3 x3 L rho U A' B' C' Hr IL HL O D' X1 X2 X3 E1 E2 E3 Q1 Q2 Q3 W1 W2 W).
Qed.
