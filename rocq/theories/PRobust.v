(** Points in robust position: the single-precision walk takes the decisions of the
    exact walk. *)
From Verif Require Import Base Arith PBase Prog PProg MUtils MBoundary MCell Exact PExact SpecGeom SpecBnd PHeap PBnd PBndLoop PCellSim PCellRun PCell PCellRow
  PWalk PGeomCone PGeomPoly PGeomWalk PNoFail ArithR Arith32 PFloat PDist32 PErrReal PNear32 PErr32 PErrBis PErrReach SpecNear SpecRobust SpecSingle PKnnSel.
From Flocq Require Import Core IEEE754.BinarySingleNaN.
From Coq Require Import Reals Lra Psatz.
Import SpecGeom.
Local Open Scope R_scope.

Notation ER := arithR_exact.
Definition toR (p : point arith32) : point arithR := let '(x, y, z) := p in (RFin (B2R x), RFin (B2R y), RFin (B2R z)).
Lemma toR_val p : valp arithR ER (toR p) = real_pt p.
Proof. destruct p as [[x y] z]. reflexivity. Qed.
Lemma toR_fin p : finp arithR ER (toR p).
Proof. destruct p as [[x y] z]. repeat split; discriminate. Qed.
Lemma bisR q p : valh arithR ER (bisect arithR (toR q) (toR p)) = bisector (real_pt p) (real_pt q).
Proof.
  destruct p as [[p1 p2] p3], q as [[q1 q2] q3]. unfold bisect, toR, bisector, real_pt, valh. simpl. destruct (Req_EM_T 2 0); [lra|]. reflexivity.
Qed.

Lemma ev_self p q : 0 < len (bisector p q) -> ev (unitp (bisector p q)) p = - len (bisector p q) / 2.
Proof.
  intros H. rewrite unitp_ev by assumption. assert (E : ev (bisector p q) p = - (d2 p q) / 2).
  { destruct p as [[p1 p2] p3], q as [[q1 q2] q3]. unfold ev, bisector, d2. field. }
  rewrite E. rewrite len_bisector in *. assert (Q : d2 p q = sqrt (d2 p q) * sqrt (d2 p q)) by (symmetry; apply sqrt_sqrt, d2_nonneg).
  set (l := sqrt (d2 p q)) in *. rewrite Q. field. lra.
Qed.
Lemma bisector_d2 p q y : ev (bisector p q) y = (d2 y p - d2 y q) / 2.
Proof. destruct p as [[p1 p2] p3], q as [[q1 q2] q3], y as [[y1 y2] y3]. unfold ev, bisector, d2. field. Qed.
(** along a unit normal *)
Lemma along (h : pl) (p x y : pt) (w : R) : (let '(a, b, c, _) := h in unit3 a b c) -> 0 <= w ->
  (let '(x1, x2, x3) := x in let '(y1, y2, y3) := y in Rabs (y1 - x1) <= w /\ Rabs (y2 - x2) <= w /\ Rabs (y3 - x3) <= w) ->
  ev h x <= ev h p + sqrt (d2 p y) + 17321 / 10000 * w.
Proof.
  destruct h as [[[a b] c] d], p as [[p1 p2] p3], x as [[x1 x2] x3], y as [[y1 y2] y3]. intros U Hw (B1 & B2 & B3).
  pose proof (sum3 _ _ _ (unit_short _ _ _ U)) as S3. unfold ev.
  assert (T : forall m e, Rabs e <= w -> - (m * e) <= Rabs m * w).
  { intros m e He. apply Rle_trans with (Rabs (- (m * e))); [apply Rle_abs|]. rewrite Rabs_Ropp, Rabs_mult. apply Rmult_le_compat_l; [apply Rabs_pos|assumption]. }
  pose proof (T a _ B1) as T1. pose proof (T b _ B2) as T2. pose proof (T c _ B3) as T3.
  assert (T4 : (Rabs a + Rabs b + Rabs c) * w <= 17321 / 10000 * w) by (apply Rmult_le_compat_r; assumption).
  set (t := a * (y1 - p1) + b * (y2 - p2) + c * (y3 - p3)).
  assert (Q : t <= sqrt (d2 (p1, p2, p3) (y1, y2, y3))).
  { apply Rle_trans with (sqrt (t * t)); [|apply sqrt_le_1_alt].
    - destruct (Rle_lt_dec 0 t); [rewrite sqrt_square by assumption; lra|]. pose proof (sqrt_pos (t * t)). lra.
    - unfold d2, t. set (m1 := y1 - p1). set (m2 := y2 - p2). set (m3 := y3 - p3). replace ((p1 - y1) ^ 2 + (p2 - y2) ^ 2 + (p3 - y3) ^ 2) with ((a * a + b * b + c * c) * (m1 * m1 + m2 * m2 + m3 * m3)) by (rewrite U; unfold m1, m2, m3; ring).
      replace ((a * a + b * b + c * c) * (m1 * m1 + m2 * m2 + m3 * m3)) with ((a * m1 + b * m2 + c * m3) * (a * m1 + b * m2 + c * m3) + ((a * m2 - b * m1) ^ 2 + (a * m3 - c * m1) ^ 2 + (b * m3 - c * m2) ^ 2)) by ring.
      pose proof (pow2_ge_0 (a * m2 - b * m1)). pose proof (pow2_ge_0 (a * m3 - c * m1)). pose proof (pow2_ge_0 (b * m3 - c * m2)). lra. }
  unfold t in Q. lra.
Qed.
Lemma unitp_unit' h : 0 < len h -> let '(a, b, c, _) := unitp h in unit3 a b c.
Proof. destruct h as [[[a b] c] d]. intros H. cbn [unitp]. now apply unitp_unit. Qed.

Section Rob.
Variables (pts : list (point arith32)) (index : Z) (p : point arith32) (rho : R).
Notation S := (map real_pt pts).
Notation P := (real_pt p).
Hypothesis Hop : forall q, In q pts -> open01p q.
Hypothesis Hp : znth pts index = Some p.
Hypothesis Hrob : robust S index rho.

Let Op : open01p p. Proof. apply Hop. eapply znth_in; eauto. Qed.
Let HS i q : znth pts i = Some q -> znth S i = Some (real_pt q).
Proof. intros H. now rewrite znth_map, H. Qed.
Let HS' i q : znth S i = Some q -> exists qf, znth pts i = Some qf /\ q = real_pt qf.
Proof. rewrite znth_map. destruct (znth pts i) as [qf|]; [|discriminate]. intros [= <-]. eauto. Qed.
Let cubeS i q : znth S i = Some q -> in_cube q.
Proof. intros H. destruct (HS' i q H) as (qf & Eq & ->). apply real_cube, Hop. eapply znth_in; eauto. Qed.
Let cubeP0 : in_cube P. Proof. now apply real_cube. Qed.
Let Si : znth S index = Some P. Proof. now apply HS. Qed.

Lemma rob_len j q : others (zlen S) index j -> znth S j = Some q -> 0 < rho <= len (bisector P q) /\ len (bisector P q) <= 17321 / 10000.
Proof.
  intros Hj Eq. destruct Hrob as (R0 & R1 & _). pose proof (R1 j P q Hj Si Eq) as H. rewrite len_bisector. pose proof (d2_le3 P q cubeP0 (cubeS j q Eq)). lra.
Qed.
(** the margin in terms of unit normals *)
Lemma rob_margin A j q h1 h2 h3 x : nearest_set eps20 S index A -> others (zlen S) index j -> ~ A j -> znth S j = Some q -> corner S A P h1 h2 h3 x -> 0 < len h1 -> 0 < len h2 -> 0 < len h3 ->
  exists L, L = / (rho * Rabs (det3 (unitp h1) (unitp h2) (unitp h3))) /\ / 65536 * L <= Rabs (ev (unitp (bisector P q)) x) /\ u * L <= 677 / 100000 /\ / rho <= L /\ det3 (unitp h1) (unitp h2) (unitp h3) <> 0.
Proof.
  intros HA Hj NA Eq HC L1 L2 L3. destruct (rob_len j q Hj Eq) as (Hr & H3). destruct Hrob as (R0 & _ & R2). specialize (R2 A j P q h1 h2 h3 x HA Hj NA Si Eq HC).
  destruct HC as (_ & D0 & _ & IC & _). set (b := bisector P q) in *. assert (Lb : 0 < len b) by lra.
  pose proof (ev_le b (mid P q) x Lb (mid_cube _ _ cubeP0 (cubeS j q Eq)) (bisector_mid P q) IC) as B.
  assert (D1 : Rabs (det3 (unitp h1) (unitp h2) (unitp h3)) <= 1).
  { destruct h1 as [[[a1 b1] c1] d1], h2 as [[[a2 b2] c2] d2], h3 as [[[a3 b3] c3] d3]. apply det_le1; cbn [fst snd unitp]; now apply unitp_unit. }
  rewrite unitp_det in * by assumption. rewrite unitp_ev in * by assumption. set (LL := len h1 * len h2 * len h3) in *. assert (PL : 0 < LL) by (unfold LL; repeat apply Rmult_lt_0_compat; assumption).
  assert (ND : det3 h1 h2 h3 / LL <> 0). { unfold Rdiv. apply Rmult_integral_contrapositive_currified; [assumption|]. apply Rinv_neq_0_compat. lra. }
  assert (PD : 0 < Rabs (det3 h1 h2 h3 / LL)) by now apply Rabs_pos_lt.
  assert (EA : Rabs (det3 h1 h2 h3 / LL) = Rabs (det3 h1 h2 h3) / LL) by (unfold Rdiv; rewrite Rabs_mult, (Rabs_pos_eq (/ LL)) by (apply Rlt_le, Rinv_0_lt_compat; assumption); reflexivity).
  assert (EB : Rabs (ev b x / len b) = Rabs (ev b x) / len b) by (unfold Rdiv; rewrite Rabs_mult, (Rabs_pos_eq (/ len b)) by (apply Rlt_le, Rinv_0_lt_compat; assumption); reflexivity).
  set (d := Rabs (det3 h1 h2 h3 / LL)) in *. set (e := Rabs (ev b x / len b)) in *.
  assert (M : / 65536 <= e * (rho * d)).
  { apply Rmult_le_reg_r with (LL * len b); [now apply Rmult_lt_0_compat|]. rewrite EA, EB. replace (Rabs (ev b x) / len b * (rho * (Rabs (det3 h1 h2 h3) / LL)) * (LL * len b)) with (Rabs (ev b x) * rho * Rabs (det3 h1 h2 h3)) by (field; lra). lra. }
  assert (PR : 0 < rho * d) by (apply Rmult_lt_0_compat; lra). exists (/ (rho * d)). split; [reflexivity|].
  assert (M1 : / 65536 * / (rho * d) <= e).
  { apply Rmult_le_reg_r with (rho * d); [assumption|]. rewrite Rmult_assoc, Rinv_l by lra. lra. }
  split; [exact M1|]. split; [lra|]. split; [|exact ND]. apply Rinv_le_contravar; [assumption|]. clear - R0 D1 PD. fold d in D1. nra.
Qed.
Lemma rob_rho j q : others (zlen S) index j -> znth S j = Some q -> / 131072 <= rho <= 17321 / 10000.
Proof.
  intros Hj Eq. destruct (rob_len j q Hj Eq) as (Hr & H3). split; [|lra].
  assert (HA : nearest_set eps20 S index (fun _ => False)) by (split; intros; contradiction).
  assert (L1 : forall a b c d, a * a + b * b + c * c = 1 -> len (a, b, c, d) = 1) by (intros a b c d H; unfold len; rewrite H; apply sqrt_1).
  assert (HC : corner S (fun _ => False) P (1, 0, 0, 0) (0, 1, 0, 0) (0, 0, 1, 0) (0, 0, 0)).
  { split; [repeat split; left; simpl; tauto|]. split; [simpl; lra|]. split; [simpl; lra|]. split; [simpl; lra|]. intros ? ? []. }
  destruct (rob_margin _ j q _ _ _ _ HA Hj ltac:(tauto) Eq HC) as (L & _ & _ & H1 & H2 & _); try (rewrite L1; lra).
  assert (H : / rho <= 131072) by lra. rewrite <- (Rinv_inv rho). apply Rinv_le_contravar; [apply Rinv_0_lt_compat; lra|exact H].
Qed.

(** ** one float state and the exact state it stands for *)
Definition plr (A : Z -> Prop) (hf : plane arith32) (hr : plane arithR) : Prop :=
  let h := valh arithR ER hr in wall S A P h /\ near_plane rho hf (len h) (unitp h).
Record lock (A : Z -> Prop) (s : cst arith32) (s' : cst arithR) : Prop := {
  lk_T : cT arithR s' = cT arith32 s;
  lk_D : cD arithR s' = cD arith32 s;
  lk_P : Forall2 (plr A) (cP arith32 s) (cP arithR s') }.
Definition within (A : Z -> Prop) (s' : cst arithR) : Prop :=
  forall y, region arithR ER s' y -> in_cube y /\ forall j q, A j -> znth S j = Some q -> d2 y P <= d2 y q.

Lemma plr_at A s s' l : lock A s s' -> (0 <= l < zlen (cP arithR s'))%Z -> plr A (pl_at arith32 (cP arith32 s) l) (pl_at arithR (cP arithR s') l).
Proof.
  intros LK Hl. unfold pl_at. destruct (znth_in_range _ _ Hl) as [h Eh]. destruct (proj2 (Forall2_znth _ _ _ l (lk_P _ _ _ LK)) h Eh) as (hf & Ef & R). now rewrite Eh, Ef.
Qed.
Lemma plr_len A hf hr : plr A hf hr -> 0 < len (valh arithR ER hr).
Proof. intros (_ & H). destruct hf as [[[a b] c] d]. destruct (unitp _) as [[[a' b'] c'] d'] in H. destruct H as (H & _). lra. Qed.

Lemma corner_float A s s' t x j q : lock A s s' -> clipped arithR ER P s' -> within A s' -> nearest_set eps20 S index A -> others (zlen S) index j -> ~ A j -> znth S j = Some q ->
  In t (cT arithR s') -> is_vertex (side arithR ER (cP arithR s')) t x -> region arithR ER s' x ->
  exists L v1 v2 v3 y1 y2 y3, / 65536 * L <= Rabs (ev (unitp (bisector P q)) x) /\ u * L <= 677 / 100000 /\ / rho <= L /\ in_cube x /\
    vtx arith32 (cP arith32 s) t = (v1, v2, v3, fofZ arith32 1) /\ rp v1 1 y1 /\ rp v2 1 y2 /\ rp v3 1 y3 /\
    let '(x1, x2, x3) := x in Rabs (y1 - x1) <= 103 * (u * L) /\ Rabs (y2 - x2) <= 103 * (u * L) /\ Rabs (y3 - x3) <= 103 * (u * L).
Proof.
  intros LK C W HA Hj NA Eq It Vx Rx. destruct (rob_rho j q Hj Eq) as [Rh1 Rh2]. destruct t as [[a b] c].
  pose proof (sf_ok _ _ _ _ (cl_surf _ _ _ _ C) _ It) as OK. simpl in OK.
  pose proof (plr_at A s s' a LK ltac:(lia)) as Pa. pose proof (plr_at A s s' b LK ltac:(lia)) as Pb. pose proof (plr_at A s s' c LK ltac:(lia)) as Pc.
  pose proof (plr_len _ _ _ Pa) as La. pose proof (plr_len _ _ _ Pb) as Lb. pose proof (plr_len _ _ _ Pc) as Lc.
  assert (D3 : det3 (valh arithR ER (pl_at arithR (cP arithR s') a)) (valh arithR ER (pl_at arithR (cP arithR s') b)) (valh arithR ER (pl_at arithR (cP arithR s') c)) <> 0).
  { apply side_det. pose proof (sf_pos _ _ _ _ (cl_surf _ _ _ _ C) _ It). lra. }
  assert (Ea : ev (valh arithR ER (pl_at arithR (cP arithR s') a)) x = 0) by (apply side_0, Vx; simpl; auto).
  assert (Eb : ev (valh arithR ER (pl_at arithR (cP arithR s') b)) x = 0) by (apply side_0, Vx; simpl; auto).
  assert (Ec : ev (valh arithR ER (pl_at arithR (cP arithR s') c)) x = 0) by (apply side_0, Vx; simpl; auto).
  destruct (W x Rx) as [IC HN]. destruct Pa as [Wa Na], Pb as [Wb Nb], Pc as [Wc Nc].
  set (ha := valh arithR ER (pl_at arithR (cP arithR s') a)) in *. set (hb := valh arithR ER (pl_at arithR (cP arithR s') b)) in *. set (hc := valh arithR ER (pl_at arithR (cP arithR s') c)) in *.
  assert (HC : corner S A P ha hb hc x) by (repeat split; auto).
  destruct (rob_margin A j q ha hb hc x HA Hj NA Eq HC La Lb Lc) as (L & EL & M1 & M2 & M3 & ND).
  destruct (corner32 rho _ _ _ _ _ _ _ _ _ x L Na Nb Nc ltac:(lra) ND EL M2) as (v1 & v2 & v3 & y1 & y2 & y3 & EI & V1 & V2 & V3 & B); auto; try (rewrite unitp_ev by assumption; rewrite ?Ea, ?Eb, ?Ec; unfold Rdiv; ring).
  exists L, v1, v2, v3, y1, y2, y3. repeat (split; [assumption|]). exact B.
Qed.

Lemma sign_same s r e m : 0 < s -> Rabs (r - e) <= 230 * m -> 256 * m <= Rabs e -> 0 < m -> (0 < s * r <-> 0 < e).
Proof.
  intros Hs Hr He Hm. apply abs_bnd in Hr. destruct (Rcase_abs e) as [Ne|Ne]; [rewrite Rabs_left in He by assumption|rewrite Rabs_right in He by assumption].
  - split; intros H; [exfalso|lra]. assert (r < 0) by lra. nra.
  - split; intros H; [lra|]. apply Rmult_lt_0_compat; lra.
Qed.

(** the float walk removes the triangles the exact walk removes *)
Lemma removed_same A s s' t j qf : lock A s s' -> clipped arithR ER P s' -> within A s' -> nearest_set eps20 S index A -> others (zlen S) index j -> ~ A j -> znth pts j = Some qf ->
  In t (cT arithR s') -> removed arith32 (cP arith32 s) (bisect arith32 qf p) t = removed arithR (cP arithR s') (bisect arithR (toR qf) (toR p)) t.
Proof.
  intros LK C W HA Hj NA Eq It. pose proof (HS _ _ Eq) as EqS. destruct (sf_feas _ _ _ _ (cl_surf _ _ _ _ C) t It) as (x & Vx & Fx).
  destruct (corner_float A s s' t x j (real_pt qf) LK C W HA Hj NA EqS It Vx Fx) as (L & v1 & v2 & v3 & y1 & y2 & y3 & M1 & M2 & M3 & IC & EI & V1 & V2 & V3 & B).
  destruct (rob_rho j _ Hj EqS) as [Rh1 Rh2]. destruct (rob_len j _ Hj EqS) as ((_ & Hl) & _).
  pose proof (near_bisect rho p qf Op (Hop qf (znth_in _ _ _ Eq))) as NB. rewrite <- len_bisector in NB. specialize (NB ltac:(lra)). cbv zeta in NB.
  destruct (test32 rho v1 v2 v3 y1 y2 y3 x _ _ _ L NB ltac:(lra) M3 M2 IC V1 V2 V3 B) as (r & [Fr Vr] & Er).
  set (h := bisector P (real_pt qf)) in *. assert (Lh : 0 < len h) by lra.
  assert (PL : 0 < L) by (pose proof (Rinv_0_lt_compat rho ltac:(lra)); lra).
  pose proof (sign_same (len h) r (ev (unitp h) x) (u * L) Lh Er ltac:(lra) ltac:(lra)) as SG.
  destruct (removed_exact arithR ER (toR p) s' t x (bisect arithR (toR qf) (toR p))) as [X1 X2]; auto; [rewrite toR_val; exact C|apply bisect_fin; apply toR_fin|].
  rewrite bisR in X1, X2. fold h in X1, X2.
  assert (EE : 0 < ev (unitp h) x <-> 0 < ev h x).
  { rewrite unitp_ev by assumption. split; intros H; [|apply Rdiv_lt_0_compat; assumption]. replace (ev h x) with (ev h x / len h * len h) by (field; lra). now apply Rmult_lt_0_compat. }
  assert (RF : removed arith32 (cP arith32 s) (bisect arith32 qf p) t = true <-> 0 < ev h x).
  { unfold removed. rewrite EI. destruct (ofZ32 0 ltac:(lia)) as [Z0 Z1]. pose proof (lt32 (fofZ arith32 0) _ Z1 Fr) as LT. rewrite Z0, Vr in LT. rewrite <- EE, <- SG.
    destruct (Rlt_bool_spec 0 (len h * r)) as [Q|Q]; split; intros H; [exact Q|exact LT| |lra]. pose proof (eq_trans (eq_sym LT) H). discriminate. }
  destruct (removed arithR (cP arithR s') (bisect arithR (toR qf) (toR p)) t) eqn:E1.
  - apply RF, X1. reflexivity.
  - apply not_true_iff_false. intros H. apply RF in H. destruct X2 as [X2 _]. specialize (X2 eq_refl). lra.
Qed.

(** ** the float security radius keeps the exact region away from all other points *)
Lemma corner_close A s s' t x j q : lock A s s' -> clipped arithR ER P s' -> within A s' -> nearest_set eps20 S index A -> others (zlen S) index j -> ~ A j -> znth S j = Some q ->
  In t (cT arithR s') -> is_vertex (side arithR ER (cP arithR s')) t x -> region arithR ER s' x ->
  exists L, / 65536 * L <= Rabs (ev (unitp (bisector P q)) x) /\ / rho <= L /\
    let v := vpt arith32 (vtx arith32 (cP arith32 s) t) in closep p v /\
    let '(x1, x2, x3) := x in let '(y1, y2, y3) := real_pt v in Rabs (y1 - x1) <= 103 * (u * L) /\ Rabs (y2 - x2) <= 103 * (u * L) /\ Rabs (y3 - x3) <= 103 * (u * L).
Proof.
  intros LK C W HA Hj NA Eq It Vx Rx.
  destruct (corner_float A s s' t x j q LK C W HA Hj NA Eq It Vx Rx) as (L & v1 & v2 & v3 & y1 & y2 & y3 & M1 & M2 & M3 & IC & EI & [F1 V1] & [F2 V2] & [F3 V3] & B).
  exists L. split; [exact M1|]. split; [exact M3|]. cbv zeta. rewrite EI. cbn [vpt]. destruct x as [[x1 x2] x3]. destruct B as (B1 & B2 & B3).
  pose proof cubeP0 as CP. destruct p as [[p1 p2] p3]. destruct Op as ((G1 & _) & (G2 & _) & (G3 & _)). unfold real_pt, in_cube in *. rewrite V1, V2, V3, !Rmult_1_l.
  split; [|split; [exact B1|split; [exact B2|exact B3]]]. unfold closep. rewrite V1, V2, V3, !Rmult_1_l. split; [auto|]. split; [auto|].
  revert B1 B2 B3. rewrite !abs_bnd. lra.
Qed.
Lemma reach_far A s s' V j qf z q : lock A s s' -> clipped arithR ER P s' -> within A s' -> nearest_set eps20 S index A -> others (zlen S) index j -> ~ A j -> znth pts j = Some qf ->
  Permutation V (cT arith32 s) -> sr_is_reached arith32 p qf (radius arith32 (cP arith32 s) p V (fofZ arith32 0)) = true ->
  others (zlen S) index z -> ~ A z -> znth S z = Some q -> sqrt (d2 P (real_pt qf)) <= sqrt (d2 P q) + eps20 ->
  forall y, region arithR ER s' y -> d2 y P <= d2 y q.
Proof.
  intros LK C W HA Hj NA Eq PV HR Hz NAz Ez Hd y Ry. destruct (rob_rho z q Hz Ez) as [Rh1 Rh2]. destruct (rob_len z q Hz Ez) as ((_ & Hl) & _). set (h := bisector P q) in *. assert (Lh : 0 < len h) by lra.
  pose proof (cl_surf _ _ _ _ C) as SF.
  assert (CV : forall t, In t V -> closep p (vpt arith32 (vtx arith32 (cP arith32 s) t))).
  { intros t It. assert (It' : In t (cT arithR s')) by (rewrite (lk_T _ _ _ LK); eapply Permutation_in; eauto).
    destruct (sf_feas _ _ _ _ SF t It') as (x & Vx & Fx). destruct (corner_close A s s' t x z q LK C W HA Hz NAz Ez It' Vx Fx) as (L & _ & _ & H & _). exact H. }
  destruct (ofZ32 0 ltac:(lia)) as [Z0 Z1]. destruct (radius32 (cP arith32 s) p V CV (fofZ arith32 0) Z1 ltac:(rewrite Z0; lra)) as (F1 & B1 & H1). rewrite Z0 in B1.
  set (r := radius arith32 (cP arith32 s) p V (fofZ arith32 0)) in *.
  assert (NEG : forall t x, In t (cT arithR s') -> is_vertex (side arithR ER (cP arithR s')) t x -> region arithR ER s' x -> ev h x <= 0).
  { intros t x It Vx Rx. destruct (corner_close A s s' t x z q LK C W HA Hz NAz Ez It Vx Rx) as (L & M1 & M3 & Cv & B). cbv zeta in B. fold h in M1.
    assert (ItV : In t V) by (eapply Permutation_in; [apply Permutation_sym; exact PV|rewrite <- (lk_T _ _ _ LK); exact It]).
    pose proof (reach32 p qf _ r Op (Hop qf (znth_in _ _ _ Eq)) Cv F1 B1 (H1 t ItV) HR) as RR. set (v := real_pt (vpt arith32 (vtx arith32 (cP arith32 s) t))) in *.
    assert (PL : 10000 / 17321 <= L). { apply Rle_trans with (/ rho); [|exact M3]. replace (10000 / 17321) with (/ (17321 / 10000)) by (rewrite Rinv_div; reflexivity). apply Rinv_le_contravar; lra. }
    assert (AL : ev (unitp h) x <= ev (unitp h) P + sqrt (d2 P v) + 17321 / 10000 * (103 * (u * L))).
    { apply along; [now apply unitp_unit'|lra|]. destruct x as [[x1 x2] x3], v as [[w1 w2] w3]. exact B. }
    unfold h in AL at 2. rewrite ev_self in AL by assumption. fold h in AL. rewrite <- (len_bisector P q) in Hd. fold h in Hd. unfold eps20 in Hd.
    assert (NG : ev (unitp h) x < 0).
    { destruct (Rcase_abs (ev (unitp h) x)) as [|Ge]; [assumption|exfalso]. rewrite Rabs_right in M1 by assumption. lra. }
    rewrite unitp_ev in NG by assumption. destruct (Rle_lt_dec (ev h x) 0) as [|Gt]; [assumption|exfalso]. pose proof (Rdiv_lt_0_compat _ _ Gt Lh). lra. }
  destruct (surface_support (side arithR ER (cP arithR s')) (zlen (cP arithR s')) P (cT arithR s') y (normal h) SF) as (t & x & It & Vx & Fx & SX).
  { intros t l It Hl'. apply Ry. eapply label_lt; [apply (sf_ok _ _ _ _ SF t It)|assumption]. }
  pose proof (NEG t x It Vx Fx) as NG. pose proof (ev_normal h y x) as EN. pose proof (bisector_d2 P q y) as BD. fold h in BD. lra.
Qed.

(** ** one candidate *)
Lemma wall_mono (A B : Z -> Prop) h : (forall a, A a -> B a) -> wall S A P h -> wall S B P h.
Proof. intros H [W|(j & q & Aj & R)]; [now left|]. right. exists j, q. auto. Qed.
Lemma lock_mono (A B : Z -> Prop) s s' : (forall a, A a -> B a) -> lock A s s' -> lock B s s'.
Proof.
  intros H [L1 L2 L3]. constructor; auto. clear - H L3. induction L3 as [|a b l l' (W & R) L3 IH]; constructor; [|assumption]. split; [eapply wall_mono; eauto|exact R].
Qed.
Lemma step_lock pmax tmax A s s' j qf nb o s1 : lock A s s' -> clipped arithR ER P s' -> within A s' -> nearest_set eps20 S index A -> others (zlen S) index j -> ~ A j -> znth pts j = Some qf ->
  nb_rel arith32 pmax tmax p qf nb s o s1 ->
  exists o' s1', nb_rel arithR pmax tmax (toR p) (toR qf) nb s' o' s1' /\ ok_out o' = ok_out o /\ (ok_out o = false -> o' = o) /\ lock (fun a => A a \/ a = j) s1 s1' /\
    (o = Reach -> exists V, Permutation V (cT arith32 s) /\ sr_is_reached arith32 p qf (radius arith32 (cP arith32 s) p V (fofZ arith32 0)) = true).
Proof.
  intros LK C W HA Hj NA Eq R. set (bf := bisect arith32 qf p). set (br := bisect arithR (toR qf) (toR p)).
  assert (SP : forall Kp R0, PCell.split arith32 (cP arith32 s) bf (cT arith32 s) Kp R0 -> PCell.split arithR (cP arithR s') br (cT arithR s') Kp R0).
  { intros Kp R0 (P1 & F1 & F2). rewrite (lk_T _ _ _ LK). split; [assumption|].
    assert (I : forall t, In t (Kp ++ R0) -> In t (cT arithR s')) by (intros t It; rewrite (lk_T _ _ _ LK); eapply Permutation_in; eauto).
    rewrite Forall_forall in F1, F2. split; apply Forall_forall; intros t It; [specialize (F1 t It)|specialize (F2 t It)]; unfold br; rewrite <- (removed_same A s s' t j qf); auto; apply I, in_or_app; auto. }
  pose proof (Forall2_zlen _ _ _ (lk_P _ _ _ LK)) as ZL.
  assert (VO : forall N q p r, ok_out (verdict N p q r) = true) by (intros; unfold verdict; destruct (sr_is_reached _ _ _ _); reflexivity).
  assert (VR : forall V, Permutation V (cT arith32 s) -> verdict arith32 p qf (radius arith32 (cP arith32 s) p V (fofZ arith32 0)) = Reach ->
    exists V, Permutation V (cT arith32 s) /\ sr_is_reached arith32 p qf (radius arith32 (cP arith32 s) p V (fofZ arith32 0)) = true).
  { intros V PV E. exists V. split; [assumption|]. unfold verdict in E. destruct (sr_is_reached arith32 p qf _); [reflexivity|discriminate]. }
  assert (LM : lock (fun a => A a \/ a = j) s s') by (eapply lock_mono; [|exact LK]; auto).
  inversion R as [Kp V Sp PV E1 E2|Kp R0 V CC h rest Sp PV NE Lp LC OC LR EI Lt E1 E2|Kp R0 Sp NE Lp E1 E2|Kp R0 CC Sp NE Lp LC ST E1 E2|Kp R0 CC h rest Sp NE Lp LC OC LR EI Lt E1 E2]; subst.
  - exists (verdict arithR (toR p) (toR qf) (radius arithR (cP arithR s') (toR p) V (fofZ arithR 0))), (mkC arithR (cP arithR s') Kp (cD arithR s')).
    split; [apply nr_none; [now apply SP|now rewrite (lk_T _ _ _ LK)]|]. rewrite !VO. split; [reflexivity|]. split; [discriminate|]. split; [|now apply VR].
    destruct LM as [L1 L2 L3]. constructor; simpl; auto.
  - exists (verdict arithR (toR p) (toR qf) (radius arithR (cP arithR s') (toR p) V (fofZ arithR 0))), (mkC arithR (cP arithR s' ++ [br]) (Kp ++ fan h rest h (zlen (cP arithR s'))) (zupd (cD arithR s') nb (zlen (cP arithR s')))).
    split; [apply (nr_cut arithR pmax tmax (toR p) (toR qf) nb s' Kp R0 V CC h rest); auto; try lia; now rewrite (lk_T _ _ _ LK)|]. rewrite !VO. split; [reflexivity|]. split; [discriminate|]. split; [|now apply VR].
    destruct LM as [L1 L2 L3]. constructor; simpl; [now rewrite ZL|now rewrite L2, ZL|]. apply Forall2_app; [exact L3|]. constructor; [|constructor].
    pose proof (HS _ _ Eq) as EqS. destruct (rob_rho j _ Hj EqS) as [Rh1 Rh2]. destruct (rob_len j _ Hj EqS) as ((_ & Hl) & _). unfold plr. unfold br. rewrite bisR. split.
    + right. exists j, (real_pt qf). auto.
    + apply near_bisect; [exact Op|apply Hop; eapply znth_in; eauto|]. rewrite <- len_bisector. lra.
  - exists FailP, s'. split; [apply (nr_p arithR _ tmax (toR p) (toR qf) nb s' Kp R0); auto; lia|]. split; [reflexivity|]. split; [reflexivity|]. split; [exact LM|discriminate].
  - exists FailB, s'. split; [apply (nr_b arithR pmax tmax (toR p) (toR qf) nb s' Kp R0 CC); auto; lia|]. split; [reflexivity|]. split; [reflexivity|]. split; [exact LM|discriminate].
  - exists FailT, s'. split; [apply (nr_t arithR pmax tmax (toR p) (toR qf) nb s' Kp R0 CC h rest); auto; lia|]. split; [reflexivity|]. split; [reflexivity|]. split; [exact LM|discriminate].
Qed.

(** ** the whole walk *)
Notation ptsR := (map toR pts).
Lemma HSR i q : znth pts i = Some q -> znth ptsR i = Some (toR q).
Proof. intros H. now rewrite znth_map, H. Qed.

Lemma lock0 (A : Z -> Prop) D0 : 0 < rho -> lock A (cst0 arith32 D0) (cst0 arithR D0).
Proof.
  intros Hr. constructor; [reflexivity|reflexivity|]. simpl. unfold cubeP, p_init. cbn [map].
  assert (Q : forall a b c d : Z, In (IZR a, IZR b, IZR c, IZR d) cube_faces -> (Z.abs a <= 1)%Z -> (Z.abs b <= 1)%Z -> (Z.abs c <= 1)%Z -> (Z.abs d <= 1)%Z -> (a * a + b * b + c * c = 1)%Z ->
    plr A (fofZ arith32 a, fofZ arith32 b, fofZ arith32 c, fofZ arith32 d) (fofZ arithR a, fofZ arithR b, fofZ arithR c, fofZ arithR d)).
  { intros a b c d I Ha Hb Hc Hd HN. unfold plr. change (valh arithR ER (fofZ arithR a, fofZ arithR b, fofZ arithR c, fofZ arithR d)) with (IZR a, IZR b, IZR c, IZR d). split; [now left|now apply near_ints]. }
  repeat (constructor; [apply Q; [unfold cube_faces; simpl; tauto|lia..]|]). constructor.
Qed.

Section Walk.
Variables (pmax tmax k : Z) (K : list Z).
Definition firsts (j a : Z) : Prop := exists d, (0 <= d < j)%Z /\ znth K d = Some a.
Hypothesis Hpm : (pmax <= 255)%Z.
Hypothesis HK : forall d a, (0 <= d < k)%Z -> znth K d = Some a -> others (zlen S) index a /\ ~ firsts d a.
Hypothesis HA : forall j, (0 <= j <= k)%Z -> nearest_set eps20 S index (firsts j).
Notation linv := (linv arithR (znth ptsR) K (toR p)).
Notation n s := (zlen (cP arithR s)).

Lemma walk_lock : forall m j s s' o s1, Z.to_nat (k - j) = m -> (0 <= j <= k)%Z -> zlen (cD arithR s') = k -> linv j s' -> (6 <= n s')%Z -> clipped arithR ER P s' ->
  lock (firsts j) s s' -> within (firsts j) s' -> walk arith32 pmax tmax (znth pts) K p (zrange j k) s o s1 -> ok_out o = true ->
  exists s1' m', (j <= m' <= k)%Z /\ (o = Cont -> m' = k) /\ linv m' s1' /\ clipped arithR ER P s1' /\ lock (firsts m') s1 s1' /\ within (firsts m') s1' /\
    (o = Reach -> forall z q y, others (zlen S) index z -> ~ firsts m' z -> znth S z = Some q -> region arithR ER s1' y -> d2 y P <= d2 y q).
Proof.
  induction m as [|m IH]; intros j s s' o s1 Hm Hj HD I L6 C LK W WK OK.
  - rewrite zrange_nil in WK by lia. inversion WK; subst. exists s', j. repeat (split; [first [lia|assumption]|]). discriminate.
  - assert (STEP : forall q qf o s1, znth K j = Some q -> znth pts q = Some qf -> nb_rel arith32 pmax tmax p qf j s o s1 -> ok_out o = true ->
      exists s1', zlen (cD arithR s1') = k /\ linv (j + 1) s1' /\ (6 <= n s1')%Z /\ clipped arithR ER P s1' /\ lock (firsts (j + 1)) s1 s1' /\ within (firsts (j + 1)) s1' /\
        (o = Reach -> forall z q y, others (zlen S) index z -> ~ firsts (j + 1) z -> znth S z = Some q -> region arithR ER s1' y -> d2 y P <= d2 y q)).
    { clear o s1 WK OK. intros q qf o s1 Eq Ep R OK. destruct (HK j q ltac:(lia) Eq) as [Oq NF].
      destruct (step_lock pmax tmax (firsts j) s s' q qf j o s1 LK C W (HA j ltac:(lia)) Oq NF Ep R) as (o' & s1' & R' & OK' & _ & LK' & RR).
      rewrite OK in OK'.
      destruct (linv_step arithR pmax tmax (znth ptsR) K (toR p) j q (toR qf) s' o' s1' ltac:(lia) Eq (HSR q qf Ep) I R') as [I1 L1].
      destruct (clip_step arithR ER pmax tmax (toR p) Hpm (toR_fin p) (toR qf) j s' o' s1' (toR_fin qf) L6) as (C1 & L2 & M1 & _); [rewrite toR_val; exact C|exact R'|exact OK'|].
      rewrite !toR_val in C1, M1.
      assert (FE : forall a, firsts j a \/ a = q -> firsts (j + 1) a).
      { intros a [(d & Hd & Ed)| ->]; [exists d; split; [lia|assumption]|exists j; split; [lia|assumption]]. }
      assert (FE' : forall a, firsts (j + 1) a -> firsts j a \/ a = q).
      { intros a (d & Hd & Ed). destruct (Z.eq_dec d j) as [->|]; [right; congruence|left; exists d; split; [lia|assumption]]. }
      exists s1'. split; [lia|]. split; [assumption|]. split; [assumption|]. split; [assumption|]. split; [exact (lock_mono _ _ _ _ FE LK')|]. split.
      - intros y Ry. destruct (M1 y Ry) as [M2 M3]. destruct (W y M2) as [W1 W2]. split; [assumption|]. intros a qa Ha Ea. apply FE' in Ha. destruct Ha as [Ha| ->]; [eapply W2; eauto|].
        rewrite (HS q qf Ep) in Ea. injection Ea as <-. rewrite toR_val in M3. exact M3.
      - intros Eo z qz y Hz NZ Ez Ry. destruct (RR Eo) as (V & PV & HR).
        apply (reach_far (firsts j) s s' V q qf z qz LK C W (HA j ltac:(lia)) Oq NF Ep PV HR Hz); auto; [|now apply M1].
        destruct (HA (j + 1)%Z ltac:(lia)) as [_ HN]. apply (HN q z P (real_pt qf) qz); auto. }
    rewrite zrange_cons in WK by lia. inversion WK as [|nb nbs q qf s0 s2 o0 s3 Hq Hqp R W'|nb nbs q qf s0 o0 s2 Hq Hqp R No]; subst.
    + destruct (STEP q qf Cont s2 Hq Hqp R eq_refl) as (s2' & D2 & I2 & L2 & C2 & LK2 & W2 & _).
      destruct (IH (j + 1)%Z s2 s2' o s1) as (s1' & m' & Hm' & T); auto; try lia. exists s1', m'. split; [lia|exact T].
    + destruct (STEP q qf o s1 Hq Hqp R OK) as (s2' & D2 & I2 & L2 & C2 & LK2 & W2 & RR). exists s2', (j + 1)%Z. split; [lia|]. split; [congruence|]. split; [assumption|]. split; [assumption|]. split; [assumption|]. split; [assumption|exact RR].
Qed.
(** the walk fails only for want of room *)
Lemma walk_room : forall m j s s' o s1, Z.to_nat (k - j) = m -> (0 <= j <= k)%Z -> (6 <= n s' <= 255)%Z -> (zlen (cT arithR s') <= 2 * n s' - 4)%Z -> sound arithR ER P s' ->
  lock (firsts j) s s' -> within (firsts j) s' -> walk arith32 pmax tmax (znth pts) K p (zrange j k) s o s1 ->
  o <> FailB /\ (o = FailP -> (pmax < n s' + (k - j))%Z) /\ (o = FailT -> (tmax < zlen (cT arithR s') + 2 * (k - j))%Z).
Proof.
  induction m as [|m IH]; intros j s s' o s1 Hm Hj L6 LT So LK W WK.
  - rewrite zrange_nil in WK by lia. inversion WK; subst. repeat split; discriminate.
  - pose proof (so_clip _ _ _ _ So) as C.
    assert (STEP : forall q qf o s1, znth K j = Some q -> znth pts q = Some qf -> nb_rel arith32 pmax tmax p qf j s o s1 ->
      o <> FailB /\ (o = FailP -> n s' = pmax) /\ (o = FailT -> (tmax < zlen (cT arithR s') + 2)%Z) /\
      (ok_out o = true -> exists s1', sound arithR ER P s1' /\ (n s' <= n s1' <= n s' + 1)%Z /\ (n s1' <= 255)%Z /\ (zlen (cT arithR s1') <= zlen (cT arithR s') + 2 * (n s1' - n s'))%Z /\
        lock (firsts (j + 1)) s1 s1' /\ within (firsts (j + 1)) s1')).
    { clear o s1 WK. intros q qf o s1 Eq Ep R. destruct (HK j q ltac:(lia) Eq) as [Oq NF].
      destruct (step_lock pmax tmax (firsts j) s s' q qf j o s1 LK C W (HA j ltac:(lia)) Oq NF Ep R) as (o' & s1' & R' & OK' & FO & LK' & _).
      destruct (sound_step arithR ER pmax tmax (toR p) Hpm (toR_fin p) (toR qf) j s' o' s1' (toR_fin qf) L6 LT ltac:(rewrite toR_val; exact So) R') as (X1 & X2 & X3 & X4). rewrite toR_val in X4.
      destruct (ok_out o) eqn:OK.
      - split; [intros ->; discriminate|]. split; [intros ->; discriminate|]. split; [intros ->; discriminate|]. intros _. destruct (X4 OK') as (Y1 & Y2 & Y3 & Y4). exists s1'. do 4 (split; [assumption|]).
        assert (FE : forall a, firsts j a \/ a = q -> firsts (j + 1) a).
        { intros a [(d & Hd & Ed)| ->]; [exists d; split; [lia|assumption]|exists j; split; [lia|assumption]]. }
        assert (FE' : forall a, firsts (j + 1) a -> firsts j a \/ a = q).
        { intros a (d & Hd & Ed). destruct (Z.eq_dec d j) as [->|]; [right; congruence|left; exists d; split; [lia|assumption]]. }
        split; [exact (lock_mono _ _ _ _ FE LK')|].
        destruct (clip_step arithR ER pmax tmax (toR p) Hpm (toR_fin p) (toR qf) j s' o' s1' (toR_fin qf) ltac:(lia)) as (_ & _ & M1 & _); [rewrite toR_val; exact C|exact R'|exact OK'|].
        rewrite toR_val in M1.
        intros y Ry. destruct (M1 y Ry) as [M2 M3]. destruct (W y M2) as [W1 W2]. split; [assumption|]. intros a qa Ha Ea. apply FE' in Ha. destruct Ha as [Ha| ->]; [eapply W2; eauto|].
        rewrite (HS q qf Ep) in Ea. injection Ea as <-. rewrite toR_val in M3. exact M3.
      - rewrite (FO eq_refl) in *. repeat (split; [assumption|]). discriminate. }
    rewrite zrange_cons in WK by lia. inversion WK as [|nb nbs q qf s0 s2 o0 s3 Hq Hqp R W'|nb nbs q qf s0 o0 s2 Hq Hqp R No]; subst.
    + destruct (STEP q qf Cont s2 Hq Hqp R) as (_ & _ & _ & X). destruct (X eq_refl) as (s2' & So2 & L2 & L3 & L4 & LK2 & W2).
      destruct (IH (j + 1)%Z s2 s2' o s1) as (I1 & I2 & I3); auto; try lia. split; [assumption|]. split; intros Y; [specialize (I2 Y)|specialize (I3 Y)]; lia.
    + destruct (STEP q qf o s1 Hq Hqp R) as (X1 & X2 & X3 & _). split; [assumption|]. split; intros Y; [specialize (X2 Y)|specialize (X3 Y)]; lia.
Qed.
End Walk.
End Rob.
