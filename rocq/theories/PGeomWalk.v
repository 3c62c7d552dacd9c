(** Every clipping history, exact arithmetic: the triangles are the surface of
    the region cut out so far. *)
From Verif Require Import Base Arith PBase Prog PProg MUtils MBoundary MCell Exact PExact SpecGeom SpecBnd PHeap PBnd PBndLoop PCellSim PCellRun PCell PCellRow
  PWalk PGeomCone PGeomPoly.
From Coq Require Import Psatz.
Local Open Scope R_scope.

Definition neg (h : pl) : pl := let '(a, b, c, d) := h in (- a, - b, - c, - d).
Lemma ev_neg h x : ev (neg h) x = - ev h x.
Proof. destruct h as [[[a b] c] d], x as [[x1 x2] x3]. simpl. ring. Qed.
Lemma d2_sym x y : d2 x y = d2 y x.
Proof. destruct x as [[x1 x2] x3], y as [[y1 y2] y3]. simpl. ring. Qed.
Lemma d2_nonneg x y : 0 <= d2 x y.
Proof. destruct x as [[x1 x2] x3], y as [[y1 y2] y3]. unfold d2. repeat apply Rplus_le_le_0_compat; apply pow2_ge_0. Qed.
Lemma d2_self x : d2 x x = 0.
Proof. destruct x as [[x1 x2] x3]. simpl. ring. Qed.

(** a region inside the ball of squared radius r about p *)
Lemma ball (p x y : pt) : vdot (vmov y (-1) p) y <= vdot (vmov y (-1) p) x -> d2 p y <= d2 p x.
Proof.
  destruct p as [[p1 p2] p3], x as [[x1 x2] x3], y as [[y1 y2] y3]. simpl. intros H.
  pose proof (pow2_ge_0 (x1 - y1)) as S1. pose proof (pow2_ge_0 (x2 - y2)) as S2. pose proof (pow2_ge_0 (x3 - y3)) as S3.
  simpl in S1, S2, S3. lra.
Qed.
(** points twice as far as the radius cannot cut *)
Lemma secure (p q y z : pt) r : d2 p y <= r -> 4 * r < d2 p q -> d2 p q <= d2 p z -> d2 y p < d2 y z.
Proof.
  destruct p as [[p1 p2] p3], z as [[z1 z2] z3], y as [[y1 y2] y3]. intros H1 H2 H3.
  assert (H : 4 * d2 (p1, p2, p3) (y1, y2, y3) < d2 (p1, p2, p3) (z1, z2, z3)) by lra. clear H1 H2 H3. simpl in *.
  (* a = z - p, b = y - p : |a|^2 > 4 |b|^2 -> |b|^2 < |b - a|^2, i.e. 2 a.b < |a|^2 *)
  set (a1 := z1 - p1). set (a2 := z2 - p2). set (a3 := z3 - p3). set (b1 := y1 - p1). set (b2 := y2 - p2). set (b3 := y3 - p3).
  assert (K : 4 * (b1 * b1 + b2 * b2 + b3 * b3) < a1 * a1 + a2 * a2 + a3 * a3) by (unfold a1, a2, a3, b1, b2, b3; lra).
  assert (D : 2 * (a1 * b1 + a2 * b2 + a3 * b3) < a1 * a1 + a2 * a2 + a3 * a3).
  { assert (0 <= (a1 - 2 * b1) * (a1 - 2 * b1) + (a2 - 2 * b2) * (a2 - 2 * b2) + (a3 - 2 * b3) * (a3 - 2 * b3)) by (pose proof (pow2_ge_0 (a1 - 2 * b1)); pose proof (pow2_ge_0 (a2 - 2 * b2)); pose proof (pow2_ge_0 (a3 - 2 * b3)); simpl in *; lra). lra. }
  unfold a1, a2, a3, b1, b2, b3 in *. lra.
Qed.

Section G.
Variable N : Arith.
Variable E : Exact N.
Notation F := (F N).
Notation point := (point N).
Notation plane := (plane N).
Notation finp := (finp N E).
Notation valp := (valp N E).
Notation finh := (finh N E).
Notation valh := (valh N E).

(** the half-space of plane j: the six cube planes point inwards *)
Definition side (Pl : list plane) (j : Z) : pl :=
  let h := valh (pl_at N Pl j) in if (j <? 6)%Z then neg h else h.
Lemma side_0 Pl j x : ev (side Pl j) x = 0 <-> ev (valh (pl_at N Pl j)) x = 0.
Proof. unfold side. destruct (j <? 6)%Z; [rewrite ev_neg; lra|tauto]. Qed.
Lemma side_app Pl Pj j : (0 <= j < zlen Pl)%Z -> side (Pl ++ Pj) j = side Pl j.
Proof. intros H. unfold side, pl_at. now rewrite znth_app1 by lia. Qed.
Lemma side_det Pl a b c : tdet (fun j => normal (side Pl j)) (a, b, c) <> 0 -> det3 (valh (pl_at N Pl a)) (valh (pl_at N Pl b)) (valh (pl_at N Pl c)) <> 0.
Proof.
  intros H X. apply H. clear H. unfold tdet, side. revert X.
  destruct (valh (pl_at N Pl a)) as [[[a1 b1] c1] e1]. destruct (valh (pl_at N Pl b)) as [[[a2 b2] c2] e2]. destruct (valh (pl_at N Pl c)) as [[[a3 b3] c3] e3].
  unfold det3. intros X. destruct (a <? 6)%Z, (b <? 6)%Z, (c <? 6)%Z; cbn [neg normal vtri]; lra.
Qed.

Lemma fin_at Pl j : Forall finh Pl -> (0 <= j < zlen Pl)%Z -> finh (pl_at N Pl j).
Proof.
  intros H Hj. unfold pl_at. destruct (znth_in_range Pl j Hj) as [h Eh]. rewrite Eh. rewrite Forall_forall in H. apply H. eapply znth_in; eauto.
Qed.

(** what the code computes for a triangle is its vertex *)
Lemma vtx_exact Pl t x : Forall finh Pl -> tri_ok (zlen Pl) t -> tdet (fun j => normal (side Pl j)) t <> 0 -> is_vertex (side Pl) t x ->
  finp (vpt N (vtx N Pl t)) /\ valp (vpt N (vtx N Pl t)) = x /\
  forall bis, finh bis -> fin E (dot N (vtx N Pl t) bis) /\ val E (dot N (vtx N Pl t) bis) = ev (valh bis) x.
Proof.
  destruct t as [[a b] c]. intros HF HT HD HV. simpl in HT. pose proof (side_det _ _ _ _ HD) as D3.
  destruct (intersect_exact N E (pl_at N Pl a) (pl_at N Pl b) (pl_at N Pl c)) as (x1 & x2 & x3 & EI & FI & VI & _); try (apply fin_at; [assumption|lia]).
  specialize (VI D3). unfold vtx. rewrite EI. simpl vpt.
  assert (EX : valp (x1, x2, x3) = x).
  { rewrite VI. symmetry. apply cramer_unique; auto; apply side_0; apply HV; simpl; auto. }
  split; [exact FI|]. split; [exact EX|]. intros bis HB. pose proof (dot_exact N E (x1, x2, x3) bis FI HB) as D. cbv beta iota in D. rewrite EX in D. exact D.
Qed.

Notation n s := (zlen (cP N s)).
Definition region (s : cst N) (y : pt) : Prop := feasible (side (cP N s)) (n s) y.
(** the invariant *)
Record clipped (p : pt) (s : cst N) : Prop := {
  cl_fin : Forall finh (cP N s);
  cl_surf : surface (side (cP N s)) (n s) p (cT N s) }.

Section Step.
Variables (pmax tmax : Z) (p : point).
Hypothesis Hpm : (pmax <= 255)%Z.
Hypothesis Fp : finp p.
Notation P := (valp p).

Lemma clipped_vtx s t x : clipped P s -> In t (cT N s) -> is_vertex (side (cP N s)) t x ->
  finp (vpt N (vtx N (cP N s) t)) /\ valp (vpt N (vtx N (cP N s) t)) = x /\
  forall bis, finh bis -> fin E (dot N (vtx N (cP N s) t) bis) /\ val E (dot N (vtx N (cP N s) t) bis) = ev (valh bis) x.
Proof.
  intros C It V. apply vtx_exact; auto. - apply C. - apply (sf_ok _ _ _ _ (cl_surf _ _ C)); assumption.
  - pose proof (sf_pos _ _ _ _ (cl_surf _ _ C) t It). lra.
Qed.
Lemma removed_exact s t x bis : clipped P s -> In t (cT N s) -> is_vertex (side (cP N s)) t x -> finh bis ->
  (removed N (cP N s) bis t = true <-> 0 < ev (valh bis) x) /\ (removed N (cP N s) bis t = false <-> ev (valh bis) x <= 0).
Proof.
  intros C It V HB. destruct (clipped_vtx s t x C It V) as (_ & _ & D). destruct (D bis HB) as [D1 D2]. unfold removed.
  rewrite (flt_true N E), (flt_false N E), D2, (val_ofZ N E) by (auto using fin_ofZ). split; reflexivity.
Qed.
Lemma radius_exact s V : clipped P s -> incl V (cT N s) -> forall r, fin E r ->
  fin E (radius N (cP N s) p V r) /\ val E r <= val E (radius N (cP N s) p V r) /\
  forall t x, In t V -> is_vertex (side (cP N s)) t x -> d2 P x <= val E (radius N (cP N s) p V r).
Proof.
  intros C. induction V as [|t V IH]; intros HV r Fr.
  - split; [assumption|]. split; [apply Rle_refl|]. intros t x [].
  - unfold radius. cbn [fold_left]. fold (radius N (cP N s) p V (sr_update N p (vpt N (vtx N (cP N s) t)) r)).
    assert (It : In t (cT N s)) by (apply HV; now left).
    destruct (sf_feas _ _ _ _ (cl_surf _ _ C) t It) as (x & Vx & Fx). destruct (clipped_vtx s t x C It Vx) as (F1 & F2 & _).
    destruct (sr_update_exact N E p _ r Fp F1 Fr) as [U1 U2]. rewrite F2 in U2.
    destruct (IH ltac:(intros a Ha; apply HV; now right) _ U1) as (I1 & I2 & I3). rewrite U2 in I2.
    pose proof (Rmax_l (val E r) (d2 P x)). pose proof (Rmax_r (val E r) (d2 P x)).
    split; [assumption|]. split; [lra|]. intros t' x' [<-|It'] V'; [|eauto].
    assert (x' = x). { apply (vertex_unique (side (cP N s)) t); auto. pose proof (sf_pos _ _ _ _ (cl_surf _ _ C) t It). lra. }
    subst x'. lra.
Qed.

Lemma bis_ev q x : finp q -> ev (valh (bisect N q p)) x = (d2 x P - d2 x (valp q)) / 2.
Proof. intros Fq. now apply bisect_ev. Qed.

(** one candidate *)
Lemma clip_step q nb s o s' : finp q -> (6 <= n s)%Z -> clipped P s -> nb_rel N pmax tmax p q nb s o s' -> ok_out o = true ->
  clipped P s' /\ (6 <= n s')%Z /\ (forall y, region s' y -> region s y /\ d2 y P <= d2 y (valp q)) /\
  (o = Reach -> forall y z, region s y -> d2 P (valp q) <= d2 P z -> d2 y P < d2 y z).
Proof.
  intros Fq L6 C R OK. set (bis := bisect N q p) in *. assert (FB : finh bis) by (now apply bisect_fin).
  pose proof (cl_surf _ _ C) as SF.
  assert (RV : forall V, Permutation V (cT N s) -> verdict N p q (radius N (cP N s) p V (fofZ N 0)) = Reach ->
     forall y z, region s y -> d2 P (valp q) <= d2 P z -> d2 y P < d2 y z).
  { intros V PV E0 y z Ry Hz. unfold verdict in E0. destruct (sr_is_reached N p q _) eqn:ER; [|discriminate]. clear E0.
    destruct (radius_exact s V C ltac:(intros a; apply Permutation_in; assumption) (fofZ N 0) (fin_ofZ N E 0)) as (F1 & F2 & F3).
    apply (sr_is_reached_exact N E) in ER; auto.
    destruct (surface_support (side (cP N s)) (n s) P (cT N s) y (vmov y (-1) P) SF) as (t & x & It & Vx & Fx & SX).
    { intros t l It Hl. apply Ry. eapply label_lt; [apply (sf_ok _ _ _ _ SF t It)|assumption]. }
    apply ball in SX. pose proof (F3 t x ltac:(eapply Permutation_in; [apply Permutation_sym; exact PV|exact It]) Vx).
    apply (secure P (valp q) y z (val E (radius N (cP N s) p V (fofZ N 0)))); auto. lra. }
  inversion R as [Kp V Sp PV E1 E2|Kp R0 V CC h rest Sp PV NE Lp LC OC LR EI Lt E1 E2|Kp R0 Sp NE Lp E1 E2|Kp R0 CC Sp NE Lp LC ST E1 E2|Kp R0 CC h rest Sp NE Lp LC OC LR EI Lt E1 E2];
    subst; try discriminate.
  - (* nothing removed *)
    fold bis in Sp. destruct Sp as (PK & FK & _). rewrite app_nil_r in PK.
    assert (C' : clipped P (mkC N (cP N s) Kp (cD N s))).
    { constructor; simpl; [apply C|]. apply (surface_perm _ _ _ (cT N s)); [now apply Permutation_sym|assumption]. }
    split; [assumption|]. split; [exact L6|]. split; [|intros EV; exact (RV V PV EV)].
    intros y Ry. split; [exact Ry|].
    destruct (surface_support (side (cP N s)) (n s) P (cT N s) y (normal (valh bis)) SF) as (t & x & It & Vx & Fx & SX).
    { intros t l It Hl. apply Ry. eapply label_lt; [apply (sf_ok _ _ _ _ SF t It)|assumption]. }
    rewrite Forall_forall in FK. assert (Kt : removed N (cP N s) bis t = false) by (apply FK; eapply Permutation_in; [apply Permutation_sym; exact PK|exact It]).
    apply (removed_exact s t x bis C It Vx FB) in Kt. pose proof (ev_normal (valh bis) y x) as EN.
    assert (B : ev (valh bis) y <= 0) by lra. unfold bis in B. rewrite bis_ev in B by assumption. lra.
  - (* cut *)
    fold bis in Sp |- *. destruct Sp as (PK & FK & FR). rewrite Forall_forall in FK, FR.
    set (s1 := mkC N (cP N s ++ [bis]) (Kp ++ fan h rest h (n s)) (zupd (cD N s) nb (n s))).
    assert (n1 : n s1 = (n s + 1)%Z) by (unfold s1; simpl; now rewrite zlen_app, zlen_one).
    assert (SE : forall j, (0 <= j < n s)%Z -> side (cP N s) j = side (cP N s1) j) by (intros j Hj; unfold s1; simpl; now rewrite side_app).
    assert (SN : side (cP N s1) (n s) = valh bis).
    { unfold side, pl_at, s1. simpl. rewrite (znth_mid (cP N s) [] bis). replace (n s <? 6)%Z with false by lia. reflexivity. }
    assert (S1 : surface (side (cP N s1)) (n s) P (cT N s)) by (apply (surface_ext _ _ _ _ _ SE SF)).
    assert (VX : forall t x, In t (cT N s) -> is_vertex (side (cP N s1)) t x -> is_vertex (side (cP N s)) t x).
    { intros t x It V1 l Hl. rewrite SE; [now apply V1|]. eapply label_lt; [apply (sf_ok _ _ _ _ SF t It)|assumption]. }
    assert (IK : forall t, In t Kp -> In t (cT N s)) by (intros t Ht; eapply Permutation_in; [exact PK|apply in_or_app; now left]).
    assert (IR : forall t, In t R0 -> In t (cT N s)) by (intros t Ht; eapply Permutation_in; [exact PK|apply in_or_app; now right]).
    assert (CS : surface (side (cP N s1)) (n s + 1) P (Kp ++ fan h rest h (n s))).
    { apply (cut_surface (side (cP N s1)) (n s) P (cT N s) Kp R0 CC h rest); auto; try lia.
      - intros t x It V1. rewrite SN. apply (removed_exact s t x bis C (IK t It) (VX t x (IK t It) V1) FB). now apply FK.
      - intros t x It V1. rewrite SN. apply (removed_exact s t x bis C (IR t It) (VX t x (IR t It) V1) FB). now apply FR.
      - rewrite SN. unfold bis. rewrite bis_ev by assumption. rewrite d2_self. pose proof (d2_nonneg P (valp q)). lra. }
    assert (C1 : clipped P s1).
    { constructor; [simpl; apply Forall_app; split; [apply C|repeat constructor; assumption]|]. rewrite n1. exact CS. }
    split; [exact C1|]. split; [lia|]. split; [|intros EV; exact (RV V PV EV)].
    intros y Ry. split.
    + intros j Hj. rewrite SE by assumption. apply Ry. lia.
    + specialize (Ry (n s) ltac:(lia)). rewrite SN in Ry. unfold bis in Ry. rewrite bis_ev in Ry by assumption. lra.
Qed.
End Step.

(** the cube *)
Lemma side_cube D0 : let s := cst0 N D0 in
  side (cP N s) 0 = (-1, 0, 0, 0) /\ side (cP N s) 1 = (1, 0, 0, -1) /\ side (cP N s) 2 = (0, -1, 0, 0) /\
  side (cP N s) 3 = (0, 1, 0, -1) /\ side (cP N s) 4 = (0, 0, -1, 0) /\ side (cP N s) 5 = (0, 0, 1, -1).
Proof.
  cbv zeta. unfold side, pl_at. simpl cP. unfold cubeP, p_init. cbn [map].
  assert (Q : forall a b c d a' b' c' d' : R, a = a' -> b = b' -> c = c' -> d = d' -> (a, b, c, d) = (a', b', c', d')) by (intros; congruence).
  unfold znth. repeat apply conj; simpl; rewrite ?(val_ofZ N E); apply Q; lra.
Qed.
Lemma region_cube D0 y : region (cst0 N D0) y <-> in_cube y.
Proof.
  unfold region, feasible. change (n (cst0 N D0)) with 6%Z. destruct (side_cube D0) as (S0 & S1 & S2 & S3 & S4 & S5). destruct y as [[y1 y2] y3].
  split.
  - intros H. pose proof (H 0%Z ltac:(lia)) as H0. pose proof (H 1%Z ltac:(lia)) as H1. pose proof (H 2%Z ltac:(lia)) as H2.
    pose proof (H 3%Z ltac:(lia)) as H3. pose proof (H 4%Z ltac:(lia)) as H4. pose proof (H 5%Z ltac:(lia)) as H5.
    rewrite S0 in H0. rewrite S1 in H1. rewrite S2 in H2. rewrite S3 in H3. rewrite S4 in H4. rewrite S5 in H5. simpl in *. lra.
  - intros HC j Hj. simpl in HC. assert (j = 0 \/ j = 1 \/ j = 2 \/ j = 3 \/ j = 4 \/ j = 5)%Z as [->|[->|[->|[->|[->| ->]]]]] by lia;
    rewrite ?S0, ?S1, ?S2, ?S3, ?S4, ?S5; simpl; lra.
Qed.
Lemma clipped0 D0 p : in_cube p -> clipped p (cst0 N D0).
Proof.
  intros Hp. constructor.
  - simpl. unfold cubeP, p_init. cbn [map]. repeat constructor; simpl; auto using fin_ofZ.
  - change (n (cst0 N D0)) with 6%Z. change (cT N (cst0 N D0)) with t_init. destruct (side_cube D0) as (S0 & S1 & S2 & S3 & S4 & S5).
    set (o := side (cP N (cst0 N D0))) in *.
    assert (V : forall t x, In t t_init -> is_vertex o t x -> is_vertex o t x) by auto. clear V.
    constructor.
    + intros t It. simpl in It. repeat (destruct It as [<-|It]; [simpl; lia|]). contradiction.
    + intros t It. simpl in It. repeat (destruct It as [<-|It]; [cbn [tdet]; rewrite ?S0, ?S1, ?S2, ?S3, ?S4, ?S5; simpl; lra|]). contradiction.
    + assert (K : forall a b c x, is_vertex o (a, b, c) x <-> ev (o a) x = 0 /\ ev (o b) x = 0 /\ ev (o c) x = 0).
      { intros a b c x. unfold is_vertex. simpl. split; [intros H; repeat split; apply H; auto|intros (H1 & H2 & H3) l [->|[->| ->]]; assumption]. }
      assert (Q : forall x, in_cube x -> feasible o 6 x) by (intros x Hx; apply (region_cube D0); assumption).
      assert (W : forall a b c x, ev (o a) x = 0 -> ev (o b) x = 0 -> ev (o c) x = 0 -> in_cube x -> exists x, is_vertex o (a, b, c) x /\ feasible o 6 x).
      { intros a b c x H1 H2 H3 H4. exists x. split; [apply K; auto|apply Q; assumption]. }
      intros t It. simpl in It.
      destruct It as [<-|[<-|[<-|[<-|[<-|[<-|[<-|[<-|[]]]]]]]]].
      * apply (W _ _ _ (0, 0, 1)); rewrite ?S0, ?S1, ?S2, ?S3, ?S4, ?S5; simpl; lra.
      * apply (W _ _ _ (0, 1, 1)); rewrite ?S0, ?S1, ?S2, ?S3, ?S4, ?S5; simpl; lra.
      * apply (W _ _ _ (1, 0, 1)); rewrite ?S0, ?S1, ?S2, ?S3, ?S4, ?S5; simpl; lra.
      * apply (W _ _ _ (1, 1, 1)); rewrite ?S0, ?S1, ?S2, ?S3, ?S4, ?S5; simpl; lra.
      * apply (W _ _ _ (0, 0, 0)); rewrite ?S0, ?S1, ?S2, ?S3, ?S4, ?S5; simpl; lra.
      * apply (W _ _ _ (0, 1, 0)); rewrite ?S0, ?S1, ?S2, ?S3, ?S4, ?S5; simpl; lra.
      * apply (W _ _ _ (1, 0, 0)); rewrite ?S0, ?S1, ?S2, ?S3, ?S4, ?S5; simpl; lra.
      * apply (W _ _ _ (1, 1, 0)); rewrite ?S0, ?S1, ?S2, ?S3, ?S4, ?S5; simpl; lra.
    + intros u v H. simpl in H. repeat (destruct H as [[= <- <-]|H]; [simpl; tauto|]). contradiction.
    + change (edges t_init) with (flat_map tri_edges t_init). simpl. repeat (apply NoDup_cons; [simpl; intuition discriminate|]). constructor.
    + intros [[f1 f2] f3].
      destruct (Rle_dec 0 f1), (Rle_dec 0 f2), (Rle_dec 0 f3).
      * exists (5, 1, 3)%Z. split; [simpl; tauto|]. rewrite cone_3, S5, S1, S3. simpl. lra.
      * exists (4, 3, 1)%Z. split; [simpl; tauto|]. rewrite cone_3, S4, S1, S3. simpl. lra.
      * exists (1, 5, 2)%Z. split; [simpl; tauto|]. rewrite cone_3, S5, S1, S2. simpl. lra.
      * exists (2, 4, 1)%Z. split; [simpl; tauto|]. rewrite cone_3, S4, S1, S2. simpl. lra.
      * exists (5, 3, 0)%Z. split; [simpl; tauto|]. rewrite cone_3, S5, S0, S3. simpl. lra.
      * exists (4, 0, 3)%Z. split; [simpl; tauto|]. rewrite cone_3, S4, S0, S3. simpl. lra.
      * exists (2, 5, 0)%Z. split; [simpl; tauto|]. rewrite cone_3, S5, S0, S2. simpl. lra.
      * exists (4, 2, 0)%Z. split; [simpl; tauto|]. rewrite cone_3, S4, S0, S2. simpl. lra.
    + apply (region_cube D0). assumption.
Qed.

(** ** a whole history *)
Section Walk.
Variables (pmax tmax : Z) (pts : Z -> option point) (K : list Z) (p : point).
Hypothesis Hpm : (pmax <= 255)%Z.
Hypothesis Fp : finp p.
Hypothesis Fpts : forall q qp, In q K -> pts q = Some qp -> finp qp.
Notation P := (valp p).
(** candidate at position nb *)
Definition cand (nb : Z) (x : pt) : Prop := exists q qp, znth K nb = Some q /\ pts q = Some qp /\ x = valp qp.

Lemma walk_geom : forall nbs s o s', (6 <= n s)%Z -> clipped P s -> walk N pmax tmax pts K p nbs s o s' -> ok_out o = true ->
  clipped P s' /\ (forall y, region s' y -> region s y) /\
  (o = Cont -> forall y nb q, region s' y -> In nb nbs -> cand nb q -> d2 y P <= d2 y q) /\
  (o = Reach -> exists a nb b q, nbs = a ++ nb :: b /\ cand nb q /\
     (forall y nb' q', region s' y -> In nb' (a ++ [nb]) -> cand nb' q' -> d2 y P <= d2 y q') /\
     forall y z, region s' y -> d2 P q <= d2 P z -> d2 y P < d2 y z).
Proof.
  induction nbs as [|nb nbs IH]; intros s o s' L6 C W OK.
  - inversion W; subst. split; [assumption|]. split; [auto|]. split; [intros _ y nb q _ []|discriminate].
  - assert (U : forall q qp x, znth K nb = Some q -> pts q = Some qp -> cand nb x -> x = valp qp).
    { intros q qp x Eq Ep (q' & qp' & Eq' & Ep' & ->). congruence. }
    inversion W as [|nb0 nbs0 q qp s0 s1 o0 s2 Hq Hqp R W'|nb0 nbs0 q qp s0 o0 s1 Hq Hqp R No]; subst.
    + destruct (clip_step pmax tmax p Hpm Fp qp nb s Cont s1 (Fpts q qp (znth_in _ _ _ Hq) Hqp) L6 C R eq_refl) as (C1 & L1 & M1 & _).
      destruct (IH s1 o s' L1 C1 W' OK) as (C2 & M2 & Q1 & Q2).
      split; [assumption|]. split; [intros y Hy; apply M1, M2, Hy|]. split.
      * intros Eo y nb' q' Hy [<-|I] Hc; [|eapply Q1; eauto]. rewrite (U q qp q' Hq Hqp Hc). apply M1, M2, Hy.
      * intros Eo. destruct (Q2 Eo) as (a & nb2 & b & q2 & -> & Hc & Q3 & Q4). exists (nb :: a), nb2, b, q2.
        split; [reflexivity|]. split; [assumption|]. split; [|assumption].
        intros y nb' q' Hy [<-|I] Hc'; [|eapply Q3; eauto]. rewrite (U q qp q' Hq Hqp Hc'). apply M1, M2, Hy.
    + destruct (clip_step pmax tmax p Hpm Fp qp nb s o s' (Fpts q qp (znth_in _ _ _ Hq) Hqp) L6 C R OK) as (C1 & L1 & M1 & RV).
      split; [assumption|]. split; [intros y Hy; now apply M1|]. split; [congruence|].
      intros Eo. exists [], nb, nbs, (valp qp). split; [reflexivity|]. split; [exists q, qp; auto|]. split.
      * intros y nb' q' Hy [<-|[]] Hc. rewrite (U q qp q' Hq Hqp Hc). now apply M1.
      * intros y z Hy. apply RV; [assumption|]. now apply M1.
Qed.
End Walk.
End G.
