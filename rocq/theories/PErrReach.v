(** Binary32: the security radius. *)
From Verif Require Import Base PBase Arith MUtils MXyz Arith32 PFloat PDist32 PErrReal PNear32 PErr32 PErrBis PCellRun SpecRobust SpecSingle.
From Flocq Require Import Core IEEE754.BinarySingleNaN.
From Coq Require Import Reals Lra Psatz.
Import SpecGeom.
Local Open Scope R_scope.

Lemma rnd_e0 x : Rabs (rnd x - x) <= u * Rabs x + e0.
Proof. pose proof (rnd_rel x). pose proof tiny_e0. assert (e0 * e0 <= e0) by lra. lra. Qed.
Lemma sq_step x r m : Rabs x <= 3 -> Rabs (r - x) <= u * Rabs x + e0 -> Rabs (m - r * r) <= u * Rabs (r * r) + e0 -> Rabs (m - x * x) <= 32 / 10 * u * (x * x) + 9 * e0.
Proof.
  intros Hx Hr Hm. rewrite (Rabs_pos_eq (r * r)) in Hm by exact (Rle_0_sqr r). pose proof (Rabs_pos x) as Px. assert (Sx : Rabs x * Rabs x = x * x) by apply abs2. set (a := Rabs x) in *.
  assert (Q : Rabs (r * r - x * x) <= 2 * a * (u * a + e0) + (u * a + e0) * (u * a + e0)).
  { replace (r * r - x * x) with (2 * x * (r - x) + (r - x) * (r - x)) by ring. eapply Rle_trans; [apply Rabs_triang|]. rewrite !Rabs_mult, (Rabs_pos_eq 2) by lra. fold a.
    pose proof (Rabs_pos (r - x)). apply Rplus_le_compat; [apply Rmult_le_compat_l; lra|apply Rmult_le_compat; lra]. }
  assert (T : 2 * a * (u * a + e0) + (u * a + e0) * (u * a + e0) <= 21 / 10 * u * (x * x) + 7 * e0).
  { rewrite <- Sx. assert (B : 0 <= a * a <= 9) by nra. set (a2 := a * a) in *. replace (2 * a * (u * a + e0) + (u * a + e0) * (u * a + e0)) with (2 * u * a2 + 2 * a * e0 + u * u * a2 + 2 * u * a * e0 + e0 * e0) by (unfold a2; ring). lra. }
  assert (P : 0 <= x * x <= 9) by (rewrite <- Sx; nra). clear - Hm Q T P. set (w := x * x) in *. set (v := r * r) in *. revert Hm Q. rewrite !abs_bnd. intros. lra.
Qed.

(** the squared distance as both functions of sradius compute it *)
Definition sq32 (p v : point arith32) : f32 :=
  let '(x1, y1, z1) := p in let '(x2, y2, z2) := v in
  fadd arith32 (fadd arith32 (square arith32 (fsub arith32 x1 x2)) (square arith32 (fsub arith32 y1 y2))) (square arith32 (fsub arith32 z1 z2)).
Definition closep (p v : point arith32) : Prop :=
  let '(x1, y1, z1) := p in let '(x2, y2, z2) := v in
  (fin x1 /\ fin y1 /\ fin z1) /\ (fin x2 /\ fin y2 /\ fin z2) /\ Rabs (B2R x1 - B2R x2) <= 3 /\ Rabs (B2R y1 - B2R y2) <= 3 /\ Rabs (B2R z1 - B2R z2) <= 3.
Lemma term32 a b : fin a -> fin b -> Rabs (B2R a - B2R b) <= 3 -> let x := B2R a - B2R b in
  fin (square arith32 (fsub arith32 a b)) /\ Rabs (B2R (square arith32 (fsub arith32 a b)) - x * x) <= 32 / 10 * u * (x * x) + 9 * e0 /\ 0 <= x * x <= 9.
Proof.
  intros Fa Fb B x. fold x in B. destruct (minus32 a b Fa Fb) as [F1 V1]; [apply big100; fold x; lra|]. fold x in V1. pose proof (rnd_e0 x) as E1. rewrite <- V1 in E1.
  set (r := fsub arith32 a b) in *. assert (Br : Rabs (B2R r) <= 4) by (pose proof (abs_shift _ _ _ E1); lra).
  assert (Bq : Rabs (B2R r * B2R r) <= 16) by (pose proof (mul_bound _ _ _ _ Br Br); lra).
  destruct (mult32 r r F1 F1) as [F2 V2]; [apply big100; lra|]. pose proof (rnd_e0 (B2R r * B2R r)) as E2. rewrite <- V2 in E2.
  split; [exact F2|]. split; [exact (sq_step x (B2R r) _ B E1 E2)|]. pose proof (abs2 x). pose proof (Rabs_pos x). split; nra.
Qed.
Lemma dist_sum a b c A B C s t : 0 <= a <= 9 -> 0 <= b <= 9 -> 0 <= c <= 9 -> Rabs (A - a) <= 32 / 10 * u * a + 9 * e0 -> Rabs (B - b) <= 32 / 10 * u * b + 9 * e0 -> Rabs (C - c) <= 32 / 10 * u * c + 9 * e0 ->
  Rabs (s - (A + B)) <= u * Rabs (A + B) + e0 -> Rabs (t - (s + C)) <= u * Rabs (s + C) + e0 -> Rabs (t - (a + b + c)) <= 54 / 10 * u * (a + b + c) + 40 * e0.
Proof.
  intros Ha Hb Hc HA HB HC Hs Ht.
  assert (E1 : Rabs (A + B - (a + b)) <= 32 / 10 * u * (a + b) + 18 * e0) by (revert HA HB; rewrite !abs_bnd; lra).
  assert (B1 : Rabs (A + B) <= 1001 / 1000 * (a + b) + 18 * e0) by (pose proof (abs_shift _ _ _ E1) as Q; rewrite (Rabs_pos_eq (a + b)) in Q by lra; lra).
  assert (E2 : Rabs (s - (a + b)) <= 421 / 100 * u * (a + b) + 20 * e0) by (pose proof (tri _ _ _ _ _ Hs E1); lra).
  assert (E3 : Rabs (s + C - (a + b + c)) <= 421 / 100 * u * (a + b + c) + 29 * e0) by (revert E2 HC; rewrite !abs_bnd; lra).
  assert (B2 : Rabs (s + C) <= 1001 / 1000 * (a + b + c) + 29 * e0) by (pose proof (abs_shift _ _ _ E3) as Q; rewrite (Rabs_pos_eq (a + b + c)) in Q by lra; lra).
  pose proof (tri _ _ _ _ _ Ht E3). lra.
Qed.
Lemma sq32_err p v : closep p v -> fin (sq32 p v) /\ Rabs (B2R (sq32 p v) - d2 (real_pt p) (real_pt v)) <= 54 / 10 * u * d2 (real_pt p) (real_pt v) + 40 * e0 /\ 0 <= B2R (sq32 p v) <= 100 /\ 0 <= d2 (real_pt p) (real_pt v) <= 27.
Proof.
  destruct p as [[x1 y1] z1], v as [[x2 y2] z2]. intros ((F1 & F2 & F3) & (G1 & G2 & G3) & B1 & B2 & B3). unfold sq32.
  destruct (term32 x1 x2 F1 G1 B1) as (T1 & E1 & P1). destruct (term32 y1 y2 F2 G2 B2) as (T2 & E2 & P2). destruct (term32 z1 z2 F3 G3 B3) as (T3 & E3 & P3).
  set (A := square arith32 (fsub arith32 x1 x2)) in *. set (B := square arith32 (fsub arith32 y1 y2)) in *. set (C := square arith32 (fsub arith32 z1 z2)) in *.
  replace (d2 (real_pt (x1, y1, z1)) (real_pt (x2, y2, z2))) with ((B2R x1 - B2R x2) * (B2R x1 - B2R x2) + (B2R y1 - B2R y2) * (B2R y1 - B2R y2) + (B2R z1 - B2R z2) * (B2R z1 - B2R z2)) by (unfold d2, real_pt; ring).
  set (a := (B2R x1 - B2R x2) * (B2R x1 - B2R x2)) in *. set (b := (B2R y1 - B2R y2) * (B2R y1 - B2R y2)) in *. set (c := (B2R z1 - B2R z2) * (B2R z1 - B2R z2)) in *.
  assert (Z : forall f : f32, 0 <= B2R f -> True) by auto. clear Z.
  assert (PA : 0 <= B2R A). { unfold A, square. destruct (minus32 x1 x2 F1 G1) as [Fx Vx]; [apply big100; lra|]. destruct (mult32 _ _ Fx Fx) as [_ V]; [apply big100; rewrite Vx; pose proof (rnd_e0 (B2R x1 - B2R x2)) as Q; assert (Rabs (rnd (B2R x1 - B2R x2)) <= 4) by (pose proof (abs_shift _ _ _ Q); lra); pose proof (mul_bound _ _ _ _ H H); lra|].
    rewrite V. apply round_ge_generic; [apply FLT_exp_valid; reflexivity|apply valid_rnd_round_mode|apply generic_format_0|apply Rle_0_sqr]. }
  assert (PB : 0 <= B2R B). { unfold B, square. destruct (minus32 y1 y2 F2 G2) as [Fx Vx]; [apply big100; lra|]. destruct (mult32 _ _ Fx Fx) as [_ V]; [apply big100; rewrite Vx; pose proof (rnd_e0 (B2R y1 - B2R y2)) as Q; assert (Rabs (rnd (B2R y1 - B2R y2)) <= 4) by (pose proof (abs_shift _ _ _ Q); lra); pose proof (mul_bound _ _ _ _ H H); lra|].
    rewrite V. apply round_ge_generic; [apply FLT_exp_valid; reflexivity|apply valid_rnd_round_mode|apply generic_format_0|apply Rle_0_sqr]. }
  assert (PC : 0 <= B2R C). { unfold C, square. destruct (minus32 z1 z2 F3 G3) as [Fx Vx]; [apply big100; lra|]. destruct (mult32 _ _ Fx Fx) as [_ V]; [apply big100; rewrite Vx; pose proof (rnd_e0 (B2R z1 - B2R z2)) as Q; assert (Rabs (rnd (B2R z1 - B2R z2)) <= 4) by (pose proof (abs_shift _ _ _ Q); lra); pose proof (mul_bound _ _ _ _ H H); lra|].
    rewrite V. apply round_ge_generic; [apply FLT_exp_valid; reflexivity|apply valid_rnd_round_mode|apply generic_format_0|apply Rle_0_sqr]. }
  assert (UA : B2R A <= 10) by (apply abs_bnd in E1; lra). assert (UB : B2R B <= 10) by (apply abs_bnd in E2; lra). assert (UC : B2R C <= 10) by (apply abs_bnd in E3; lra).
  destruct (plus32 A B T1 T2) as [F4 V4]; [apply big100; rewrite abs_bnd; lra|]. pose proof (rnd_e0 (B2R A + B2R B)) as E4. rewrite <- V4 in E4.
  assert (P4 : 0 <= B2R (fadd arith32 A B) <= 21).
  { split; [rewrite V4; apply round_ge_generic; [apply FLT_exp_valid; reflexivity|apply valid_rnd_round_mode|apply generic_format_0|lra]|].
    rewrite (Rabs_pos_eq (B2R A + B2R B)) in E4 by lra. apply abs_bnd in E4. lra. }
  destruct (plus32 (fadd arith32 A B) C F4 T3) as [F5 V5]; [apply big100; rewrite abs_bnd; lra|]. pose proof (rnd_e0 (B2R (fadd arith32 A B) + B2R C)) as E5. rewrite <- V5 in E5.
  split; [exact F5|]. split; [exact (dist_sum a b c (B2R A) (B2R B) (B2R C) _ _ P1 P2 P3 E1 E2 E3 E4 E5)|]. split; [|lra].
  split; [rewrite V5; apply round_ge_generic; [apply FLT_exp_valid; reflexivity|apply valid_rnd_round_mode|apply generic_format_0|lra]|].
  rewrite (Rabs_pos_eq (_ + _)) in E5 by lra. apply abs_bnd in E5. lra.
Qed.

Lemma bit32 b : fin (fbool arith32 b) /\ B2R (fbool arith32 b) = if b then 1 else 0.
Proof. destruct b; [destruct (ofZ32 1 ltac:(lia))|destruct (ofZ32 0 ltac:(lia))]; split; assumption. Qed.
(** update takes the larger value *)
Lemma update32 p v r : closep p v -> fin r -> 0 <= B2R r <= 100 -> fin (sr_update arith32 p v r) /\ B2R (sr_update arith32 p v r) = Rmax (B2R r) (B2R (sq32 p v)).
Proof.
  intros Hc Fr Br. destruct (sq32_err p v Hc) as (Fs & _ & Bs & _). unfold sr_update. destruct p as [[x1 y1] z1], v as [[x2 y2] z2]. cbv zeta.
  change (fadd arith32 (fadd arith32 (square arith32 (fsub arith32 x1 x2)) (square arith32 (fsub arith32 y1 y2))) (square arith32 (fsub arith32 z1 z2))) with (sq32 (x1, y1, z1) (x2, y2, z2)).
  set (t := sq32 (x1, y1, z1) (x2, y2, z2)) in *. rewrite lt32 by assumption.
  destruct (bit32 (negb (Rlt_bool (B2R r) (B2R t)))) as [F1 V1]. destruct (bit32 (Rlt_bool (B2R r) (B2R t))) as [F2 V2].
  destruct (mult32 _ r F1 Fr) as [F3 V3]; [apply big100; rewrite V1, abs_bnd; destruct (negb _); lra|].
  destruct (mult32 _ t F2 Fs) as [F4 V4]; [apply big100; rewrite V2, abs_bnd; destruct (Rlt_bool _ _); lra|].
  rewrite V1 in V3. rewrite V2 in V4.
  assert (Z0 : rnd 0 = 0) by (apply round_0, valid_rnd_round_mode).
  destruct (Rlt_bool_spec (B2R r) (B2R t)) as [Hl|Hl]; cbn [negb] in *.
  - rewrite Rmult_0_l, Z0 in V3. rewrite Rmult_1_l, rnd_id in V4.
    destruct (plus32 _ _ F3 F4) as [F5 V5]; [apply big100; rewrite V3, V4, abs_bnd; lra|]. split; [exact F5|]. rewrite V5, V3, V4, Rplus_0_l, rnd_id, Rmax_right by lra. reflexivity.
  - rewrite Rmult_0_l, Z0 in V4. rewrite Rmult_1_l, rnd_id in V3.
    destruct (plus32 _ _ F3 F4) as [F5 V5]; [apply big100; rewrite V3, V4, abs_bnd; lra|]. split; [exact F5|]. rewrite V5, V3, V4, Rplus_0_r, rnd_id, Rmax_left by lra. reflexivity.
Qed.
Lemma radius32 Pl p V : (forall t, In t V -> closep p (vpt arith32 (vtx arith32 Pl t))) -> forall r, fin r -> 0 <= B2R r <= 100 ->
  fin (radius arith32 Pl p V r) /\ B2R r <= B2R (radius arith32 Pl p V r) <= 100 /\
  forall t, In t V -> B2R (sq32 p (vpt arith32 (vtx arith32 Pl t))) <= B2R (radius arith32 Pl p V r).
Proof.
  induction V as [|t V IH]; intros HV r Fr Br.
  - split; [assumption|]. split; [simpl; lra|]. intros t [].
  - unfold radius. cbn [fold_left]. fold (radius arith32 Pl p V (sr_update arith32 p (vpt arith32 (vtx arith32 Pl t)) r)).
    destruct (update32 p _ r (HV t ltac:(now left)) Fr Br) as [F1 V1]. destruct (sq32_err p _ (HV t ltac:(now left))) as (_ & _ & Bs & _).
    set (m := sr_update arith32 p (vpt arith32 (vtx arith32 Pl t)) r) in *. pose proof (Rmax_l (B2R r) (B2R (sq32 p (vpt arith32 (vtx arith32 Pl t))))) as M1. pose proof (Rmax_r (B2R r) (B2R (sq32 p (vpt arith32 (vtx arith32 Pl t))))) as M2.
    assert (M3 : B2R m <= 100) by (rewrite V1; apply Rmax_lub; lra). rewrite <- V1 in M1, M2.
    destruct (IH ltac:(intros a Ha; apply HV; now right) m F1 ltac:(lra)) as (F2 & B2 & H2). split; [exact F2|]. split; [lra|]. intros t' [<-|I]; [lra|now apply H2].
Qed.

Lemma rnd_four (x : f32) : rnd (4 * B2R x) = 4 * B2R x.
Proof.
  assert (PG : Prec_gt_0 24) by reflexivity. pose proof (generic_format_B2R 24 128 x) as G. apply (FLT_format_generic radix2 (-149) 24) in G. destruct G as [[m e] V Hm He]. simpl in Hm, He.
  apply round_generic; [apply valid_rnd_round_mode|]. apply (generic_format_FLT radix2 (-149) 24). exists (Float radix2 m (e + 2)); simpl; [|exact Hm|lia].
  rewrite V. unfold F2R. simpl (Fnum _). simpl (Fexp _). rewrite bpow_plus. simpl (bpow radix2 2). lra.
Qed.
Lemma half_root A B D D' : 0 <= A -> 0 <= B <= 3 -> Rabs (D - A) <= 54 / 10 * u * A + 40 * e0 -> Rabs (D' - B) <= 54 / 10 * u * B + 40 * e0 -> 4 * D <= D' -> 2 * sqrt A <= sqrt B + 12 * u.
Proof.
  intros PA PB HD HD' H. apply abs_bnd in HD, HD'. pose proof (sqrt_pos B) as Pb. replace (2 * sqrt A) with (sqrt (4 * A)) by (rewrite sqrt_mult by lra; replace 4 with (2 * 2) by lra; rewrite sqrt_square by lra; reflexivity).
  apply root_le; [lra|]. pose proof (sqrt_sqrt B ltac:(lra)) as Sb. set (b := sqrt B) in *. assert (Ub : b <= 175 / 100) by (destruct (Rle_or_lt b (175 / 100)); [assumption|exfalso; nra]).
  assert (Q : b * b <= 175 / 100 * b) by nra. rewrite <- Sb in *. set (w := b * b) in *. replace ((b + 12 * u) * (b + 12 * u)) with (w + 24 * u * b + 144 * u * u) by (unfold w; ring). lra.
Qed.
Lemma open_close p q : open01p p -> open01p q -> closep p q.
Proof.
  destruct p as [[x1 y1] z1], q as [[x2 y2] z2]. intros ((A & A') & (B & B') & (C & C')) ((D & D') & (G & G') & (H & H')). unfold closep. rewrite !abs_bnd. repeat split; auto; lra.
Qed.
Lemma reach32 p q v r : open01p p -> open01p q -> closep p v -> fin r -> 0 <= B2R r <= 100 -> B2R (sq32 p v) <= B2R r -> sr_is_reached arith32 p q r = true ->
  2 * sqrt (d2 (real_pt p) (real_pt v)) <= sqrt (d2 (real_pt p) (real_pt q)) + 12 * u.
Proof.
  intros Op Oq Cv Fr Br Hr H. pose proof (open_close p q Op Oq) as Cq. destruct (sq32_err p v Cv) as (F1 & E1 & B1 & D1). destruct (sq32_err p q Cq) as (F2 & E2 & B2 & _). pose proof (d2_bound p q Op Oq) as D2.
  unfold sr_is_reached in H. destruct p as [[x1 y1] z1], q as [[x2 y2] z2]. cbv zeta in H.
  change (fadd arith32 (fadd arith32 (square arith32 (fsub arith32 x1 x2)) (square arith32 (fsub arith32 y1 y2))) (square arith32 (fsub arith32 z1 z2))) with (sq32 (x1, y1, z1) (x2, y2, z2)) in H.
  destruct (ofZ32 4 ltac:(lia)) as [V4 F4]. destruct (mult32 (fofZ arith32 4) r F4 Fr) as [F5 V5]; [apply big100; rewrite V4, abs_bnd; lra|].
  rewrite lt32 in H by assumption. rewrite V5, V4, rnd_four in H. destruct (Rlt_bool_spec (4 * B2R r) (B2R (sq32 (x1, y1, z1) (x2, y2, z2)))) as [Hl|]; [|discriminate].
  apply (half_root _ _ (B2R (sq32 (x1, y1, z1) v)) (B2R (sq32 (x1, y1, z1) (x2, y2, z2)))); auto; lra.
Qed.
