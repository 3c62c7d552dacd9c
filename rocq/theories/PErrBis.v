(** Binary32: the planes that bound a cell are near the exact planes. *)
From Verif Require Import Base PBase Arith MUtils MXyz Arith32 PFloat PDist32 PErrReal PNear32 PErr32 SpecRobust SpecSingle.
From Flocq Require Import Core IEEE754.BinarySingleNaN.
From Coq Require Import Reals Lra Psatz.
Import SpecGeom.
Local Open Scope R_scope.
(** ** bisector planes *)
Lemma rnd_half x e : (-120 <= e <= 100)%Z -> Rabs x <= bpow radix2 e -> Rabs (rnd x - x) <= bpow radix2 (e - 25).
Proof.
  intros He H. assert (VE : Valid_exp (SpecFloat.fexp 24 128)) by (apply FLT_exp_valid; reflexivity). destruct (Rle_lt_or_eq_dec _ _ H) as [Hl|Hq].
  - destruct (Req_dec x 0) as [->|Nx]. { rewrite round_0 by apply valid_rnd_round_mode. rewrite Rminus_0_r, Rabs_R0. apply bpow_ge_0. }
    pose proof (@error_le_half_ulp radix2 (SpecFloat.fexp 24 128) VE (fun t => negb (Z.even t)) x) as Q. eapply Rle_trans; [exact Q|].
    rewrite ulp_neq_0 by assumption. replace (e - 25)%Z with (-1 + (e - 24))%Z by lia. rewrite bpow_plus. simpl (bpow radix2 (-1)).
    apply Rmult_le_compat_l; [lra|]. apply bpow_le. unfold cexp, SpecFloat.fexp, SpecFloat.emin. pose proof (mag_le_bpow radix2 x e Nx Hl). lia.
  - assert (G : generic_format radix2 (SpecFloat.fexp 24 128) x).
    { apply generic_format_abs_inv. rewrite Hq. apply generic_format_bpow. unfold SpecFloat.fexp, SpecFloat.emin. lia. }
    rewrite round_generic by (auto; apply valid_rnd_round_mode). rewrite Rminus_diag_eq, Rabs_R0 by reflexivity. apply bpow_ge_0.
Qed.
Lemma half0 x : Rabs x <= 1 -> Rabs (rnd x - x) <= u / 2 /\ Rabs (rnd x) <= 1.
Proof. intros H. split; [pose proof (rnd_half x 0 ltac:(lia) H) as Q; change (bpow radix2 (0 - 25)) with (/ 33554432) in Q; lra|exact (proj1 (rnd_bound x 0 ltac:(lia) H))]. Qed.
Lemma half1 x : Rabs x <= 2 -> Rabs (rnd x - x) <= u /\ Rabs (rnd x) <= 2.
Proof. intros H. split; [exact (rnd_half x 1 ltac:(lia) H)|exact (proj1 (rnd_bound x 1 ltac:(lia) H))]. Qed.
Lemma half2 x : Rabs x <= 4 -> Rabs (rnd x - x) <= 2 * u /\ Rabs (rnd x) <= 4.
Proof. intros H. split; [pose proof (rnd_half x 2 ltac:(lia) H) as Q; change (bpow radix2 (2 - 25)) with (/ 8388608) in Q; lra|exact (proj1 (rnd_bound x 2 ltac:(lia) H))]. Qed.
Lemma square_half a : open01 a -> fin (square arith32 a) /\ Rabs (B2R (square arith32 a) - B2R a * B2R a) <= u / 2 /\ 0 <= B2R (square arith32 a) <= 1.
Proof.
  intros (Fa & Ha). assert (B : 0 <= B2R a * B2R a <= 1) by (clear - Ha; nra). assert (B' : Rabs (B2R a * B2R a) <= 1) by (rewrite Rabs_pos_eq; lra).
  destruct (mult32 a a Fa Fa) as [F1 V1]; [apply big100; lra|]. split; [exact F1|]. unfold square. rewrite V1. destruct (half0 _ B') as [E Q]. split; [exact E|].
  split; [apply round_ge_generic; [apply FLT_exp_valid; reflexivity|apply valid_rnd_round_mode|apply generic_format_0|lra]|].
  apply abs_bnd in Q. lra.
Qed.
Lemma rnd_halve (x : f32) : Rabs (rnd (- B2R x / 2) - - B2R x / 2) <= e0.
Proof.
  assert (VE : Valid_exp (SpecFloat.fexp 24 128)) by (apply FLT_exp_valid; reflexivity).
  assert (PG : Prec_gt_0 24) by reflexivity. pose proof (generic_format_B2R 24 128 x) as G. apply (FLT_format_generic radix2 (-149) 24) in G. destruct G as [[m e] V Hm He]. simpl in Hm, He.
  destruct (Z.eq_dec e (-149)) as [->|Ne].
  - assert (B : Rabs (- B2R x / 2) <= bpow radix2 (-120)).
    { rewrite V. unfold F2R. simpl (Fnum _). simpl (Fexp _). replace (- (IZR m * bpow radix2 (-149)) / 2) with (- (IZR m * bpow radix2 (-150))) by (change (-149)%Z with (-150 + 1)%Z; rewrite bpow_plus; simpl (bpow radix2 1); lra).
      rewrite Rabs_Ropp, Rabs_mult, (Rabs_pos_eq (bpow _ _)) by apply bpow_ge_0. rewrite <- abs_IZR.
      apply Rle_trans with (bpow radix2 24 * bpow radix2 (-150)); [|rewrite <- bpow_plus; apply bpow_le; lia].
      apply Rmult_le_compat_r; [apply bpow_ge_0|]. change (bpow radix2 24) with (IZR (2 ^ 24)). apply IZR_le. simpl in Hm. lia. }
    eapply Rle_trans; [apply (rnd_half _ (-120)); [lia|exact B]|]. change e0 with (bpow radix2 (-72)). apply bpow_le. lia.
  - rewrite round_generic; [rewrite Rminus_diag_eq, Rabs_R0 by reflexivity; lra|apply valid_rnd_round_mode|].
    apply (generic_format_FLT radix2 (-149) 24). exists (Float radix2 (- m) (e - 1)); simpl; [|rewrite Z.abs_opp; exact Hm|lia].
    rewrite V. unfold F2R. simpl (Fnum _). simpl (Fexp _). replace e with (e - 1 + 1)%Z at 1 by lia. rewrite bpow_plus, opp_IZR. simpl (bpow radix2 1). lra.
Qed.
Lemma off32 (p q : point arith32) : open01p p -> open01p q -> let '(_, _, _, d) := bisect arith32 q p in let '(_, _, _, o) := bisector (real_pt p) (real_pt q) in
  fin d /\ Rabs (B2R d - o) <= 3751 / 1000 * u.
Proof.
  destruct p as [[p1 p2] p3], q as [[q1 q2] q3]. intros (P1 & P2 & P3) (Q1 & Q2 & Q3). unfold bisect, bisector, real_pt. pose proof tiny_e0 as TE.
  destruct (square_half p1 P1) as (F1 & E1 & B1). destruct (square_half p2 P2) as (F2 & E2 & B2). destruct (square_half p3 P3) as (F3 & E3 & B3).
  destruct (square_half q1 Q1) as (G1 & H1 & C1). destruct (square_half q2 Q2) as (G2 & H2 & C2). destruct (square_half q3 Q3) as (G3 & H3 & C3).
  assert (D : forall a b : f32, fin a -> fin b -> 0 <= B2R a <= 1 -> 0 <= B2R b <= 1 -> fin (fsub arith32 a b) /\ Rabs (B2R (fsub arith32 a b) - (B2R a - B2R b)) <= u / 2 /\ Rabs (B2R (fsub arith32 a b)) <= 1).
  { intros a b Fa Fb Ha Hb. assert (B : Rabs (B2R a - B2R b) <= 1) by (apply abs_bnd; lra).
    destruct (minus32 a b Fa Fb) as [F V]; [apply big100; lra|]. split; [exact F|]. rewrite V. exact (half0 _ B). }
  destruct (D _ _ G1 F1 C1 B1) as (X1 & X2 & X3). destruct (D _ _ G2 F2 C2 B2) as (Y1 & Y2 & Y3). destruct (D _ _ G3 F3 C3 B3) as (Z1 & Z2 & Z3). clear D.
  set (xs := fsub arith32 (square arith32 q1) (square arith32 p1)) in *. set (ys := fsub arith32 (square arith32 q2) (square arith32 p2)) in *. set (zs := fsub arith32 (square arith32 q3) (square arith32 p3)) in *.
  assert (A : Rabs (B2R xs + B2R ys) <= 2) by (revert X3 Y3; rewrite !abs_bnd; lra).
  destruct (plus32 xs ys X1 Y1) as [F4 V4]; [apply big100; lra|]. destruct (half1 _ A) as [E4 A1]. rewrite <- V4 in E4, A1.
  assert (A2 : Rabs (B2R (fadd arith32 xs ys) + B2R zs) <= 4) by (revert A1 Z3; rewrite !abs_bnd; lra).
  destruct (plus32 (fadd arith32 xs ys) zs F4 Z1) as [F5 V5]; [apply big100; lra|]. destruct (half2 _ A2) as [E5 A3]. rewrite <- V5 in E5, A3.
  set (sm := fadd arith32 (fadd arith32 xs ys) zs) in *.
  destruct (ofZ32 2 ltac:(lia)) as [W2 FW].
  assert (NF : fin (fneg arith32 sm)) by (change (fneg arith32 sm) with (Bopp sm); rewrite is_finite_Bopp; exact F5).
  assert (NV : B2R (fneg arith32 sm) = - B2R sm) by (change (fneg arith32 sm) with (Bopp sm); apply B2R_Bopp).
  destruct (div32_ok (fneg arith32 sm) (fofZ arith32 2) NF) as [F6 V6]; [rewrite W2; lra|rewrite NV, W2; apply big100; revert A3; rewrite !abs_bnd; lra|].
  split; [exact F6|]. rewrite V6, NV, W2.
  (* halving *)
  assert (HV : Rabs (rnd (- B2R sm / 2) - - B2R sm / 2) <= e0).
  { exact (rnd_halve sm). }
  revert E1 E2 E3 H1 H2 H3 X2 Y2 Z2 E4 E5 HV. rewrite !abs_bnd. intros. lra.
Qed.

(** ** planes with unit normal *)
Definition unitp (h : pl) : pl := let '(a, b, c, d) := h in (a / len h, b / len h, c / len h, d / len h).
Lemma unitp_ev h x : 0 < len h -> ev (unitp h) x = ev h x / len h.
Proof. destruct h as [[[a b] c] d], x as [[x1 x2] x3]. unfold unitp, ev. set (l := len (a, b, c, d)). intros H. field. lra. Qed.
Lemma unitp_det h1 h2 h3 : 0 < len h1 -> 0 < len h2 -> 0 < len h3 -> det3 (unitp h1) (unitp h2) (unitp h3) = det3 h1 h2 h3 / (len h1 * len h2 * len h3).
Proof.
  destruct h1 as [[[a1 b1] c1] d1], h2 as [[[a2 b2] c2] d2], h3 as [[[a3 b3] c3] d3]. unfold unitp, det3.
  set (l1 := len (a1, b1, c1, d1)). set (l2 := len (a2, b2, c2, d2)). set (l3 := len (a3, b3, c3, d3)). intros. field. lra.
Qed.
Lemma unitp_unit a b c d : 0 < len (a, b, c, d) -> unit3 (a / len (a, b, c, d)) (b / len (a, b, c, d)) (c / len (a, b, c, d)).
Proof.
  intros H. unfold unit3. assert (E : len (a, b, c, d) * len (a, b, c, d) = a * a + b * b + c * c) by (unfold len; apply sqrt_sqrt; nra).
  set (l := len (a, b, c, d)) in *. replace (a / l * (a / l) + b / l * (b / l) + c / l * (c / l)) with ((a * a + b * b + c * c) / (l * l)) by (field; lra).
  rewrite <- E. field. lra.
Qed.
Lemma len_bisector p q : len (bisector p q) = sqrt (d2 p q).
Proof. destruct p as [[p1 p2] p3], q as [[q1 q2] q3]. unfold len, bisector, d2. f_equal. ring. Qed.
Lemma d2_le3 p q : in_cube p -> in_cube q -> sqrt (d2 p q) <= 17321 / 10000.
Proof.
  destruct p as [[p1 p2] p3], q as [[q1 q2] q3]. unfold in_cube, d2. intros (A1 & A2 & A3) (B1 & B2 & B3).
  assert (T : forall a b, 0 <= a <= 1 -> 0 <= b <= 1 -> (a - b) ^ 2 <= 1) by (intros; nra).
  pose proof (T _ _ A1 B1). pose proof (T _ _ A2 B2). pose proof (T _ _ A3 B3).
  apply Rle_trans with (sqrt (17321 / 10000 * (17321 / 10000))); [apply sqrt_le_1_alt; lra|]. rewrite sqrt_square; lra.
Qed.
(** a wall through the cube has an offset of at most sqrt 3 *)
Lemma offset_le a b c d (m : pt) : unit3 a b c -> in_cube m -> ev (a, b, c, d) m = 0 -> Rabs d <= 17321 / 10000.
Proof.
  destruct m as [[m1 m2] m3]. unfold in_cube, ev. intros U (A1 & A2 & A3) E. pose proof (sum3 a b c (unit_short _ _ _ U)) as S.
  assert (T : forall x y, 0 <= y <= 1 -> - Rabs x <= x * y <= Rabs x). { intros x y Hy. pose proof (proj1 (abs_bnd x (Rabs x)) (Rle_refl _)). nra. }
  pose proof (T a m1 A1). pose proof (T b m2 A2). pose proof (T c m3 A3). apply abs_bnd. lra.
Qed.
Definition mid (p q : pt) : pt := let '(p1, p2, p3) := p in let '(q1, q2, q3) := q in ((p1 + q1) / 2, (p2 + q2) / 2, (p3 + q3) / 2).
Lemma bisector_mid p q : ev (bisector p q) (mid p q) = 0.
Proof. destruct p as [[p1 p2] p3], q as [[q1 q2] q3]. unfold ev, bisector, mid. field. Qed.
Lemma mid_cube p q : in_cube p -> in_cube q -> in_cube (mid p q).
Proof. destruct p as [[p1 p2] p3], q as [[q1 q2] q3]. unfold in_cube, mid. lra. Qed.
Lemma real_cube p : open01p p -> in_cube (real_pt p).
Proof. destruct p as [[x y] z]. intros ((_ & ?) & (_ & ?) & (_ & ?)). unfold in_cube, real_pt. lra. Qed.

Lemma near_bisect rho (p q : point arith32) : open01p p -> open01p q -> / 131072 <= rho <= sqrt (d2 (real_pt p) (real_pt q)) ->
  let h := bisector (real_pt p) (real_pt q) in near_plane rho (bisect arith32 q p) (len h) (unitp h).
Proof.
  intros Hp Hq Hr h. pose proof (off32 p q Hp Hq) as O. pose proof (d2_le3 _ _ (real_cube p Hp) (real_cube q Hq)) as L3. rewrite <- len_bisector in L3, Hr. fold h in L3, Hr.
  pose proof (bisector_mid (real_pt p) (real_pt q)) as EM. pose proof (mid_cube _ _ (real_cube p Hp) (real_cube q Hq)) as IM. fold h in EM.
  assert (L0 : 0 < len h) by lra. pose proof (unitp_ev h (mid (real_pt p) (real_pt q)) L0) as EU. rewrite EM in EU. unfold Rdiv in EU. rewrite Rmult_0_l in EU.
  destruct p as [[p1 p2] p3], q as [[q1 q2] q3]. destruct Hp as (P1 & P2 & P3), Hq as (Q1 & Q2 & Q3).
  subst h. unfold bisect, real_pt, bisector in *.
  set (x := (- ((B2R q1 * B2R q1 - B2R p1 * B2R p1) + (B2R q2 * B2R q2 - B2R p2 * B2R p2) + (B2R q3 * B2R q3 - B2R p3 * B2R p3)) / 2)) in *.
  pose proof (unitp_unit (B2R q1 - B2R p1) (B2R q2 - B2R p2) (B2R q3 - B2R p3) x L0) as U.
  unfold unitp in *. set (l := len (B2R q1 - B2R p1, B2R q2 - B2R p2, B2R q3 - B2R p3, x)) in *. clearbody l.
  unfold near_plane. destruct O as [FO EO].
  split; [lra|]. split; [exact U|]. split; [exact (offset_le _ _ _ _ _ U IM EU)|].
  assert (S : forall a b : f32, open01 a -> open01 b -> exists r, rp (fsub arith32 a b) l r /\ fl r ((B2R a - B2R b) / l)).
  { intros a b (Fa & Ha) (Fb & Hb). destruct (minus32 a b Fa Fb) as [F V]; [apply big100; apply abs_bnd; lra|].
    destruct (rnd_fl (B2R a - B2R b) l ((B2R a - B2R b) / l)) as (r & E & Q); [lra|field; lra|]. exists r. split; [split; [exact F|rewrite V; exact E]|exact Q]. }
  destruct (S q1 p1 Q1 P1) as (a' & A1 & A2). destruct (S q2 p2 Q2 P2) as (b' & B1 & B2). destruct (S q3 p3 Q3 P3) as (c' & C1 & C2).
  match type of FO with is_finite ?t = true => set (d := t) in * end.
  exists a', b', c', (B2R d / l). split; [split; assumption|]. split; [split; assumption|]. split; [split; assumption|]. split; [split; [exact FO|field; lra]|].
  replace (B2R d / l - x / l) with ((B2R d - x) * / l) by (field; lra). rewrite Rabs_mult, (Rabs_pos_eq (/ l)) by (apply Rlt_le, Rinv_0_lt_compat; lra).
  assert (I : / l <= / rho) by (apply Rinv_le_contravar; lra). assert (I0 : 0 < / l) by (apply Rinv_0_lt_compat; lra).
  apply Rle_trans with (3751 / 1000 * u * / rho); [apply Rmult_le_compat; auto using Rabs_pos; lra|]. unfold Rdiv. apply Rmult_le_compat_r; lra.
Qed.

(** the planes of the cube *)
Lemma near_ints rho a b c d : 0 < rho -> (Z.abs a <= 1)%Z -> (Z.abs b <= 1)%Z -> (Z.abs c <= 1)%Z -> (Z.abs d <= 1)%Z -> (a * a + b * b + c * c = 1)%Z ->
  let h := (IZR a, IZR b, IZR c, IZR d) in near_plane rho (fofZ arith32 a, fofZ arith32 b, fofZ arith32 c, fofZ arith32 d) (len h) (unitp h).
Proof.
  intros Hr Ha Hb Hc Hd HS h. assert (U : IZR a * IZR a + IZR b * IZR b + IZR c * IZR c = 1) by (rewrite <- !mult_IZR, <- !plus_IZR, HS; reflexivity).
  assert (EL : len h = 1) by (unfold h, len; rewrite U; apply sqrt_1). unfold unitp. subst h. rewrite EL. unfold near_plane.
  assert (Q : forall x, x / 1 = x) by (intros; field). rewrite !Q. split; [lra|]. split; [exact U|].
  split; [rewrite <- abs_IZR; apply Rle_trans with 1; [apply IZR_le; assumption|lra]|].
  assert (T : forall z, (Z.abs z <= 1)%Z -> rp (fofZ arith32 z) 1 (IZR z)) by (intros z Hz; destruct (ofZ32 z ltac:(lia)) as [V F]; split; [exact F|rewrite V; ring]).
  assert (Z0 : forall x, fl x x) by (intros x; unfold fl; rewrite Rminus_diag_eq, Rabs_R0 by reflexivity; pose proof (Rabs_pos x); lra).
  exists (IZR a), (IZR b), (IZR c), (IZR d). do 3 (split; [split; [now apply T|apply Z0]|]). split; [now apply T|].
  rewrite Rminus_diag_eq, Rabs_R0 by reflexivity. pose proof (Rinv_0_lt_compat rho Hr). unfold Rdiv. nra.
Qed.
Lemma det_le1 a b : unit3 (fst (fst (fst a))) (snd (fst (fst a))) (snd (fst a)) -> unit3 (fst (fst (fst b))) (snd (fst (fst b))) (snd (fst b)) ->
  forall c, unit3 (fst (fst (fst c))) (snd (fst (fst c))) (snd (fst c)) -> Rabs (det3 a b c) <= 1.
Proof.
  destruct a as [[[a1 b1] c1] d1], b as [[[a2 b2] c2] d2]. intros U1 U2 [[[a3 b3] c3] d3] U3. cbn [fst snd] in *. unfold det3.
  pose proof (cross_short _ _ _ _ _ _ (unit_short _ _ _ U2) (unit_short _ _ _ U3)) as C. pose proof (cauchy3 _ _ _ _ _ _ (unit_short _ _ _ U1) C) as Q.
  replace (a1 * (b2 * c3 - b3 * c2) - b1 * (a2 * c3 - a3 * c2) + c1 * (a2 * b3 - a3 * b2)) with (a1 * (b2 * c3 - b3 * c2) + b1 * (a3 * c2 - a2 * c3) + c1 * (a2 * b3 - a3 * b2)) by ring.
  eapply Rle_trans; [apply Rabs_triang|]. eapply Rle_trans; [apply Rplus_le_compat_r, Rabs_triang|]. lra.
Qed.
(** a plane through the cube keeps within sqrt 3 of the points of the cube *)
Lemma ev_le h (m x : pt) : 0 < len h -> in_cube m -> ev h m = 0 -> in_cube x -> Rabs (ev (unitp h) x) <= 17321 / 10000.
Proof.
  intros HL Im Em Ix. pose proof (unitp_ev h m HL) as EU. rewrite Em in EU. unfold Rdiv in EU. rewrite Rmult_0_l in EU.
  destruct h as [[[a b] c] d], m as [[m1 m2] m3], x as [[x1 x2] x3]. pose proof (unitp_unit a b c d HL) as U. unfold unitp in *. set (l := len (a, b, c, d)) in *.
  pose proof (sum3 _ _ _ (unit_short _ _ _ U)) as S. unfold ev, in_cube in *. set (a' := a / l) in *. set (b' := b / l) in *. set (c' := c / l) in *. set (d' := d / l) in *.
  assert (T : forall x y, - 1 <= y <= 1 -> - Rabs x <= x * y <= Rabs x). { intros x y Hy. pose proof (proj1 (abs_bnd x (Rabs x)) (Rle_refl _)). nra. }
  pose proof (T a' (x1 - m1) ltac:(lra)). pose proof (T b' (x2 - m2) ltac:(lra)). pose proof (T c' (x3 - m3) ltac:(lra)). apply abs_bnd. lra.
Qed.
