(** Exact arithmetic: boundary::compute never gives up, and the buffers of a
    cell are never too small when they are sized for the number of candidates. *)
From Verif Require Import Base Arith PBase Prog PProg MUtils MHeap MXyz MKnn MBoundary MCell MDnn MArgs MTess Exact PExact PFlags SpecDnn PDnn SpecGeom SpecSort SpecBnd SpecKnn SpecVor
  PXyz PGrid PSortFinal PHeap PReloc PHeapFinal PKnnFinal PBnd PBndLoop PCellSim PCellRun PCell PCellRow PKnnSafe PSlot PWalk SpecSlot PSlotHost PTess PTessRun PTessFinal
  PGeomCone PGeomPoly PGeomWalk PGeomFinal PTopo PTopoCut PPerturb.
From Coq Require Import Psatz.
Local Open Scope R_scope.

Section G.
Variable N : Arith.
Variable E : Exact N.
Notation F := (F N).
Notation point := (point N).
Notation plane := (plane N).
Notation finp := (finp N E).
Notation valp := (valp N E).
Notation finh := (finh N E).
Notation valh := (valh N E).
Notation side := (side N E).
Notation region := (region N E).
Notation clipped := (clipped N E).
Notation n s := (zlen (cP N s)).

Record sound (p : pt) (s : cst N) : Prop := {
  so_clip : clipped p s;
  so_ps : psurf (side (cP N s)) (n s) (cT N s);
  so_pot : potential (cT N s) }.

Section Step.
Variables (pmax tmax : Z) (p : point).
Hypothesis Hpm : (pmax <= 255)%Z.
Hypothesis Fp : finp p.
Notation P := (valp p).

(** the facts about a proper cut *)
Lemma cut_facts q s Kp R0 : finp q -> (6 <= n s)%Z -> sound P s -> split N (cP N s) (bisect N q p) (cT N s) Kp R0 ->
  let o := side (cP N s ++ [bisect N q p]) in
  surface o (n s) P (cT N s) /\ psurf o (n s) (Kp ++ R0) /\ ev (o (n s)) P <= 0 /\
  (forall t x, In t Kp -> is_vertex o t x -> ev (o (n s)) x <= 0) /\ (forall t x, In t R0 -> is_vertex o t x -> 0 < ev (o (n s)) x) /\
  Permutation (Kp ++ R0) (cT N s).
Proof.
  intros Fq L6 [C PS Pot] Sp o. set (bis := bisect N q p) in *. assert (FB : finh bis) by (now apply bisect_fin).
  pose proof (cl_surf _ _ _ _ C) as SF. destruct Sp as (PK & FK & FR). rewrite Forall_forall in FK, FR.
  assert (SE : forall j, (0 <= j < n s)%Z -> side (cP N s) j = o j) by (intros j Hj; unfold o; now rewrite side_app).
  assert (SN : o (n s) = valh bis).
  { unfold o, PGeomWalk.side, pl_at. rewrite (znth_mid (cP N s) [] bis). replace (n s <? 6)%Z with false by lia. reflexivity. }
  assert (VX : forall t x, In t (cT N s) -> is_vertex o t x -> is_vertex (side (cP N s)) t x).
  { intros t x It V1 l Hl. rewrite SE; [now apply V1|]. exact (label_lt _ t l (sf_ok _ _ _ _ SF t It) Hl). }
  assert (IK : forall t, In t Kp -> In t (cT N s)) by (intros t Ht; eapply Permutation_in; [exact PK|apply in_or_app; now left]).
  assert (IR : forall t, In t R0 -> In t (cT N s)) by (intros t Ht; eapply Permutation_in; [exact PK|apply in_or_app; now right]).
  split; [exact (surface_ext _ _ _ _ _ SE SF)|]. split.
  { apply (psurf_perm o (n s) (cT N s)); [now apply Permutation_sym|]. apply (psurf_ext (side (cP N s))); auto. exact (sf_ok _ _ _ _ SF). }
  split.
  { rewrite SN. unfold bis. rewrite (bis_ev N E p Fp q P Fq). rewrite d2_self. pose proof (d2_nonneg P (valp q)). lra. }
  split; [|split; [|assumption]].
  - intros t x It V1. rewrite SN. apply (removed_exact N E p s t x bis C (IK t It) (VX t x (IK t It) V1) FB). now apply FK.
  - intros t x It V1. rewrite SN. apply (removed_exact N E p s t x bis C (IR t It) (VX t x (IR t It) V1) FB). now apply FR.
Qed.

(** boundary::compute does not give up *)
Lemma no_stuck q s Kp R0 C : finp q -> (6 <= n s)%Z -> (n s <= 255)%Z -> sound P s -> split N (cP N s) (bisect N q p) (cT N s) Kp R0 ->
  zlen C = n s -> bnd_stuck R0 C -> False.
Proof.
  intros Fq L6 L255 So Sp LC (A & B & h & rest & PAB & NA & NB & OC & EI & ST).
  destruct (cut_facts q s Kp R0 Fq L6 So Sp) as (SF & PS & _ & HK & HR & PK). set (o := side (cP N s ++ [bisect N q p])) in *.
  assert (SK : surface o (n s) P (Kp ++ R0)) by (apply (surface_perm o (n s) P (cT N s)); [now apply Permutation_sym|assumption]).
  destruct (parts_conn o (n s) Kp R0) as (Ca & CK & CR); auto.
  { exact (sf_ok _ _ _ _ SK). } { exact (sf_pos _ _ _ _ SK). }
  { intros t It. destruct (sf_feas _ _ _ _ SK t It) as (x & V & _). eauto. }
  { exact (sf_closed _ _ _ _ SK). } { exact (sf_nodup _ _ _ _ SK). }
  assert (PABK : Permutation (A ++ B ++ Kp) (cT N s)).
  { rewrite app_assoc. eapply perm_trans; [|exact PK]. eapply perm_trans; [apply Permutation_app_comm|]. now apply Permutation_app_head. }
  apply (stuck_false (cT N s) A B Kp C h rest); auto.
  - intros t It. rewrite LC. exact (sf_ok _ _ _ _ SF t It).
  - exact (sf_nodup _ _ _ _ SF).
  - exact (sf_closed _ _ _ _ SF).
  - apply So.
  - exact (dconn_perm _ _ PK Ca).
  - exact (dconn_perm _ _ (Permutation_sym PAB) CR).
  - lia.
  - apply EI. pose proof (sf_nodup _ _ _ _ SK) as ND. rewrite edges_app in ND. exact (nodup_app_r _ _ ND).
Qed.

(** one candidate *)
Lemma sound_step q nb s o s' : finp q -> (6 <= n s <= 255)%Z -> (zlen (cT N s) <= 2 * n s - 4)%Z -> sound P s -> nb_rel N pmax tmax p q nb s o s' ->
  o <> FailB /\ (o = FailP -> n s = pmax) /\ (o = FailT -> (tmax < zlen (cT N s) + 2)%Z) /\
  (ok_out o = true -> sound P s' /\ (n s <= n s' <= n s + 1)%Z /\ (n s' <= 255)%Z /\ (zlen (cT N s') <= zlen (cT N s) + 2 * (n s' - n s))%Z).
Proof.
  intros Fq [L6 L255] LT So R. pose proof (so_clip _ _ So) as C. pose proof (cl_surf _ _ _ _ C) as SF.
  assert (NV : forall V, verdict N p q V = Cont \/ verdict N p q V = Reach) by (intros V; unfold verdict; destruct (sr_is_reached N p q V); auto).
  pose proof (clip_step N E pmax tmax p Hpm Fp q nb s o s' Fq L6 C R) as CL.
  inversion R as [Kp V Sp PV E1 E2|Kp R0 V CC h rest Sp PV NE Lp LC OC LR EI Lt E1 E2|Kp R0 Sp NE Lp E1 E2|Kp R0 CC Sp NE Lp LC ST E1 E2|Kp R0 CC h rest Sp NE Lp LC OC LR EI Lt E1 E2].
  - pose proof (NV (radius N (cP N s) p V (fofZ N 0))) as [Q|Q]; rewrite Q in *; (split; [discriminate|split; [discriminate|split; [discriminate|intros _]]]).
    all: destruct Sp as (PK & _ & _); rewrite app_nil_r in PK; subst o s'; destruct (CL eq_refl) as (C1 & _).
    all: (split; [constructor; simpl; [exact C1| |]|simpl; unfold zlen in *; rewrite (Permutation_length PK); lia]).
    all: try (apply (psurf_perm _ _ (cT N s)); [now apply Permutation_sym|apply So]).
    all: apply (potential_perm (cT N s)); [now apply Permutation_sym|apply So].
  - rewrite E1. assert (OK : ok_out o = true /\ o <> FailB /\ o <> FailP /\ o <> FailT).
    { subst o. pose proof (NV (radius N (cP N s) p V (fofZ N 0))) as [Q|Q]; rewrite Q; repeat split; discriminate. }
    destruct OK as (OK & N1 & N2 & N3). split; [assumption|]. split; [intros X; contradiction|]. split; [intros X; contradiction|]. intros _.
    destruct (CL OK) as (C1 & _). subst s'.
    destruct (cut_facts q s Kp R0 Fq L6 So Sp) as (SF' & PS & SD & HK & HR & PK). set (oo := side (cP N s ++ [bisect N q p])) in *.
    assert (SK : surface oo (n s) P (Kp ++ R0)) by (apply (surface_perm oo (n s) P (cT N s)); [now apply Permutation_sym|assumption]).
    assert (n1 : zlen (cP N s ++ [bisect N q p]) = (n s + 1)%Z) by (now rewrite zlen_app, zlen_one).
    assert (HF : forall t, In t (fan h rest h (n s)) <-> exists u v, t = (u, v, n s) /\ boundary_edge R0 u v).
    { intros t. apply (cut_fan oo (n s) P (cT N s) Kp R0 CC h rest); auto. }
    assert (HB : forall u v, csucc CC u v <-> boundary_edge R0 u v).
    { intros u v. unfold csucc. apply (cut_boundary oo (n s) P (cT N s) Kp R0 CC); auto. }
    assert (HS : forall u v, boundary_edge R0 u v -> exists t1 t2, In t1 R0 /\ In t2 Kp /\ In (u, v) (tri_edges t1) /\ In (v, u) (tri_edges t2)).
    { intros u v. apply (cut_sides oo (n s) P (cT N s) Kp R0); auto. }
    split; [constructor; [exact C1| |]|].
    + simpl. rewrite n1. apply (psurf_cut oo (n s) Kp R0); auto.
      * exact (sf_ok _ _ _ _ SK). * exact (sf_pos _ _ _ _ SK).
      * intros t It. destruct (sf_feas _ _ _ _ SK t It) as (x & Vx & _). eauto.
      * intros t It. apply HF in It. destruct It as (u & v & -> & Bd). exists u, v. split; [reflexivity|]. now apply HS.
    + simpl. apply (cut_potential (cT N s) Kp R0 (n s) h rest CC); auto.
      * exact (sf_nodup _ _ _ _ SF). * exact (sf_ok _ _ _ _ SF). * lia.
      * intros u v Bd. destruct (HS u v Bd) as (t1 & t2 & _ & I2 & _ & E2). apply in_edges. eauto.
      * apply So.
    + simpl. rewrite n1. split; [lia|]. split; [lia|].
      rewrite zlen_app. pose proof (split_len N _ _ _ _ _ Sp) as SL.
      assert (FL : forall l u, zlen (fan u l h (n s)) = (zlen l + 1)%Z).
      { induction l as [|a l IH]; intros u; [reflexivity|]. simpl. rewrite !zlen_cons, IH. lia. }
      rewrite FL. lia.
  - split; [discriminate|]. split; [auto|]. split; discriminate.
  - exfalso. rewrite <- E2 in *. apply (no_stuck q s Kp R0 CC); auto.
  - split; [discriminate|]. split; [discriminate|]. split; [|discriminate]. intros _. rewrite <- E2 in *. pose proof (split_len N _ _ _ _ _ Sp). lia.
Qed.
End Step.

Lemma sound0 D0 p : in_cube p -> sound p (cst0 N D0).
Proof.
  intros Hp. constructor; [now apply clipped0| |exact potential0].
  change (n (cst0 N D0)) with 6%Z. change (cT N (cst0 N D0)) with t_init. destruct (side_cube N E D0) as (S0 & S1 & S2 & S3 & S4 & S5).
  set (o := side (cP N (cst0 N D0))) in *. intros eta He. set (d := Rmin eta 1 / 2).
  pose proof (Rmin_l eta 1). pose proof (Rmin_r eta 1). pose proof (Rmin_pos eta 1 He ltac:(lra)).
  assert (D1 : 0 < d < eta) by (unfold d; lra). assert (D2 : d < 1) by (unfold d; lra).
  exists (fun _ => d). split; [auto|].
  assert (W : forall a b c x, (forall l, label l (a, b, c) -> ev (o l) x = d) ->
     (forall j, (0 <= j < 6)%Z -> ~ label j (a, b, c) -> ev (o j) x < d) ->
     exists x, pvert o (fun _ => d) (a, b, c) x /\ forall j, (0 <= j < 6)%Z -> ~ label j (a, b, c) -> ev (o j) x < d) by (intros; eauto).
  intros t It. simpl in It.
  destruct It as [<-|[<-|[<-|[<-|[<-|[<-|[<-|[<-|[]]]]]]]]].
  1: apply (W _ _ _ (- d, - d, 1 + d)).
  3: apply (W _ _ _ (- d, 1 + d, 1 + d)).
  5: apply (W _ _ _ (1 + d, - d, 1 + d)).
  7: apply (W _ _ _ (1 + d, 1 + d, 1 + d)).
  9: apply (W _ _ _ (- d, - d, - d)).
  11: apply (W _ _ _ (- d, 1 + d, - d)).
  13: apply (W _ _ _ (1 + d, - d, - d)).
  15: apply (W _ _ _ (1 + d, 1 + d, - d)).
  all: try (intros l [->|[->| ->]]; rewrite ?S0, ?S1, ?S2, ?S3, ?S4, ?S5; simpl; lra).
  all: intros j Hj Nj; simpl in Nj; assert (j = 0 \/ j = 1 \/ j = 2 \/ j = 3 \/ j = 4 \/ j = 5)%Z as [->|[->|[->|[->|[->| ->]]]]] by lia;
    try tauto; rewrite ?S0, ?S1, ?S2, ?S3, ?S4, ?S5; simpl; lra.
Qed.

(** ** a whole history *)
Section Walk.
Variables (pmax tmax : Z) (pts : Z -> option point) (K : list Z) (p : point).
Hypothesis Hpm : (pmax <= 255)%Z.
Hypothesis Fp : finp p.
Hypothesis Fpts : forall q qp, In q K -> pts q = Some qp -> finp qp.
Notation P := (valp p).

Lemma walk_sound : forall nbs s o s', (6 <= n s <= 255)%Z -> (zlen (cT N s) <= 2 * n s - 4)%Z -> sound P s -> walk N pmax tmax pts K p nbs s o s' ->
  o <> FailB /\ (o = FailP -> (pmax < n s + zlen nbs)%Z) /\ (o = FailT -> (tmax < zlen (cT N s) + 2 * zlen nbs)%Z) /\
  (o = FailT -> (n s' < pmax /\ tmax < 2 * n s' - 2)%Z) /\ (6 <= n s' <= 255)%Z /\
  (o = Cont -> sound P s' /\ (zlen (cT N s') <= 2 * n s' - 4)%Z).
Proof.
  induction nbs as [|nb nbs IH]; intros s o s' L6 LT So W.
  - inversion W; subst. split; [discriminate|]. split; [discriminate|]. split; [discriminate|]. split; [discriminate|]. split; [lia|auto].
  - rewrite zlen_cons. pose proof (zlen_nonneg nbs).
    inversion W as [|nb0 nbs0 q qp s0 s1 o0 s2 Hq Hqp R W'|nb0 nbs0 q qp s0 o0 s1 Hq Hqp R No]; subst.
    + destruct (sound_step pmax tmax p Hpm Fp qp nb s Cont s1 (Fpts q qp (znth_in _ _ _ Hq) Hqp) L6 LT So R) as (_ & _ & _ & H1).
      destruct (H1 eq_refl) as (So1 & L1 & L2 & L3).
      destruct (IH s1 o s' ltac:(lia) ltac:(lia) So1 W') as (I1 & I2 & I3 & I4 & I5 & I6).
      split; [assumption|]. split; [intros X; specialize (I2 X); lia|]. split; [intros X; specialize (I3 X); lia|]. split; [assumption|]. split; [lia|assumption].
    + destruct (sound_step pmax tmax p Hpm Fp qp nb s o s' (Fpts q qp (znth_in _ _ _ Hq) Hqp) L6 LT So R) as (H1 & H2 & H3 & H4).
      split; [assumption|]. split; [intros X; specialize (H2 X); lia|]. split; [intros X; specialize (H3 X); lia|].
      assert (FS : ok_out o = false -> s' = s /\ (o = FailT -> (n s < pmax)%Z)).
      { intros X. inversion R; subst; try (split; [reflexivity|intros; first [discriminate|assumption]]); exfalso; revert X; unfold verdict; destruct (sr_is_reached N p qp _); discriminate. }
      destruct (ok_out o) eqn:OK.
      * destruct (H4 eq_refl) as (_ & A1 & A2 & A3). split; [intros ->; discriminate|]. split; [lia|]. intros X. contradiction.
      * destruct (FS eq_refl) as [-> FT]. split; [intros X; specialize (H3 X); specialize (FT X); lia|]. split; [lia|]. intros X. contradiction.
Qed.

(** candidates that cannot cut are harmless *)
Lemma walk_idle : forall nbs s o s', (6 <= n s)%Z -> sound P s ->
  (forall nb q qp y, In nb nbs -> znth K nb = Some q -> pts q = Some qp -> region s y -> d2 y P <= d2 y (valp qp)) ->
  walk N pmax tmax pts K p nbs s o s' -> ok_out o = true.
Proof.
  induction nbs as [|nb nbs IH]; intros s o s' L6 So HI W.
  - inversion W; subst. reflexivity.
  - assert (ID : forall q qp o1 s1, znth K nb = Some q -> pts q = Some qp -> nb_rel N pmax tmax p qp nb s o1 s1 ->
      ok_out o1 = true /\ cP N s1 = cP N s /\ Permutation (cT N s1) (cT N s)).
    { intros q qp o1 s1 Hq Hqp R. assert (Fq := Fpts q qp (znth_in _ _ _ Hq) Hqp).
      assert (NR : forall Kp R0, split N (cP N s) (bisect N qp p) (cT N s) Kp R0 -> R0 = []).
      { intros Kp R0 Sp. destruct (cut_facts p Fp qp s Kp R0 Fq L6 So Sp) as (SF & _ & _ & _ & HR & PK).
        pose proof (cl_surf _ _ _ _ (so_clip _ _ So)) as SF0.
        destruct R0 as [|t R0]; [reflexivity|exfalso].
        assert (It : In t (cT N s)) by (eapply Permutation_in; [exact PK|apply in_or_app; right; now left]).
        destruct (sf_feas _ _ _ _ SF0 t It) as (x & Vx & Fx). pose proof (HI nb q qp x (or_introl eq_refl) Hq Hqp Fx) as D.
        destruct Sp as (_ & _ & FR). inversion FR as [|? ? Rt]; subst.
        apply (removed_exact N E p s t x _ (so_clip _ _ So) It Vx (bisect_fin N E qp p Fq Fp)) in Rt. rewrite (bis_ev N E p Fp qp x Fq) in Rt. lra. }
      inversion R as [Kp V Sp PV E1 E2|Kp R0 V CC h rest Sp PV NE Lp LC OC LR EI Lt E1 E2|Kp R0 Sp NE Lp E1 E2|Kp R0 CC Sp NE Lp LC ST E1 E2|Kp R0 CC h rest Sp NE Lp LC OC LR EI Lt E1 E2];
        subst; try (destruct (NE (NR _ _ Sp))).
      split; [unfold verdict; destruct (sr_is_reached N p qp _); reflexivity|]. split; [reflexivity|]. simpl.
      destruct Sp as (PK & _). now rewrite app_nil_r in PK. }
    inversion W as [|nb0 nbs0 q qp s0 s1 o0 s2 Hq Hqp R W'|nb0 nbs0 q qp s0 o0 s1 Hq Hqp R No]; subst.
    + destruct (ID q qp Cont s1 Hq Hqp R) as (_ & EP & PT).
      assert (So1 : sound P s1).
      { destruct (clip_step N E pmax tmax p Hpm Fp qp nb s Cont s1 (Fpts q qp (znth_in _ _ _ Hq) Hqp) L6 (so_clip _ _ So) R eq_refl) as (C1 & _).
        constructor; [exact C1| |].
        - rewrite EP. apply (psurf_perm _ _ (cT N s)); [now apply Permutation_sym|apply So].
        - apply (potential_perm (cT N s)); [now apply Permutation_sym|apply So]. }
      apply (IH s1 o s'); auto; [rewrite EP; assumption|]. intros nb' q' qp' y I1 I2 I3 Ry. apply (HI nb' q' qp' y); auto; [now right|].
      unfold PGeomWalk.region in *. now rewrite EP in Ry.
    + apply (ID q qp o s' Hq Hqp R).
Qed.

Lemma walk_split : forall a b s o s', walk N pmax tmax pts K p (a ++ b) s o s' ->
  walk N pmax tmax pts K p a s o s' \/ exists s1, walk N pmax tmax pts K p a s Cont s1 /\ walk N pmax tmax pts K p b s1 o s'.
Proof.
  induction a as [|x a IH]; intros b s o s' W; [right; exists s; split; [constructor|exact W]|].
  simpl in W. inversion W as [|nb0 nbs0 q qp s0 s1 o0 s2 Hq Hqp R W'|nb0 nbs0 q qp s0 o0 s1 Hq Hqp R No]; subst.
  - destruct (IH _ _ _ _ W') as [H|(s3 & H1 & H2)]; [left; econstructor 2; eauto|right; exists s3; split; [econstructor 2; eauto|assumption]].
  - left. econstructor 3; eauto.
Qed.
End Walk.

(** ** the walk over the result of the k-NN search *)
Section Slot.
Variables (pmax tmax : Z) (pts : list point) (k index : Z) (K row : list Z) (p : point) (o : nbout) (s : cst N).
Hypothesis Hpm : (pmax <= 255)%Z.
Hypothesis Hin : forall q, In q pts -> inside N E q.
Hypothesis Hp : znth pts index = Some p.
Hypothesis Hk : (0 < k)%Z.
Hypothesis HW : walk N pmax tmax (znth pts) K p (zrange 0 k) (cst0 N (repeat k_undefined (Z.to_nat k))) o s.
Hypothesis Hnear : nearest (sqdist N E pts index) (fun q => (0 <= q < zlen pts)%Z /\ q <> index) row.
Hypothesis Lrow : zlen row = Z.min k (zlen pts - 1).
Hypothesis HKrow : forall j q, znth row j = Some q -> znth K j = Some q.
Hypothesis HKb : forall q, In q K -> (0 <= q < zlen pts)%Z.
Notation P := (valp p).

Lemma slot_nofail : o <> FailB /\ (o = FailP -> (pmax < 6 + Z.min k (zlen pts - 1))%Z) /\
  (o = FailT -> (tmax < 8 + 2 * Z.min k (zlen pts - 1))%Z) /\ (o = FailT -> (tmax < 2 * pmax - 4)%Z).
Proof.
  assert (Fp : finp p) by (apply Hin; eapply znth_in; eauto).
  assert (Cp : in_cube P).
  { assert (H : in_open_cube P) by (apply Hin; eapply znth_in; eauto). destruct P as [[a b] c]. simpl in *. lra. }
  assert (HF : forall q qp, In q K -> znth pts q = Some qp -> finp qp) by (intros q qp _ H; apply Hin; eapply znth_in; eauto).
  pose proof (znth_some _ _ _ Hp) as Ri.
  set (s0 := cst0 N (repeat k_undefined (Z.to_nat k))) in *.
  assert (L0 : n s0 = 6%Z) by reflexivity. assert (T0 : zlen (cT N s0) = 8%Z) by reflexivity.
  pose proof (sound0 (repeat k_undefined (Z.to_nat k)) P Cp) as So0. fold s0 in So0.
  destruct (walk_sound pmax tmax (znth pts) K p Hpm Fp HF (zrange 0 k) s0 o s ltac:(lia) ltac:(lia) So0 HW) as (A1 & A2 & A3 & A4 & A5 & _).
  rewrite L0, T0, zlen_zrange in * by lia.
  split; [assumption|]. assert (FT : o = FailT -> (tmax < 2 * pmax - 4)%Z) by (intros X; specialize (A4 X); lia).
  destruct (Z_le_gt_dec k (zlen pts - 1)) as [Hle|Hgt].
  { split; [intros X; specialize (A2 X); lia|]. split; [intros X; specialize (A3 X); lia|assumption]. }
  set (r := (zlen pts - 1)%Z) in *. assert (Lr : zlen row = r) by lia.
  assert (SPL : zrange 0 k = zrange 0 r ++ zrange r k) by (apply zrange_app; lia).
  rewrite SPL in HW. apply (walk_split pmax tmax (znth pts) K p) in HW as [HW|(s1 & W1 & W2)].
  - destruct (walk_sound pmax tmax (znth pts) K p Hpm Fp HF (zrange 0 r) s0 o s ltac:(lia) ltac:(lia) So0 HW) as (_ & B2 & B3 & _).
    rewrite L0, T0, zlen_zrange in * by lia. split; [intros X; specialize (B2 X); lia|]. split; [intros X; specialize (B3 X); lia|assumption].
  - destruct (walk_sound pmax tmax (znth pts) K p Hpm Fp HF (zrange 0 r) s0 Cont s1 ltac:(lia) ltac:(lia) So0 W1) as (_ & _ & _ & _ & B5 & B6).
    destruct (B6 eq_refl) as [So1 LT1].
    destruct (walk_geom N E pmax tmax (znth pts) K p Hpm Fp HF (zrange 0 r) s0 Cont s1 ltac:(lia) (so_clip _ _ So0) W1 eq_refl) as (_ & _ & Q1 & _).
    assert (OK : ok_out o = true).
    { apply (walk_idle pmax tmax (znth pts) K p Hpm Fp HF (zrange r k) s1 o s); auto; [lia|].
      intros nb q qp y _ Hq Hqp Ry. destruct (Z.eq_dec q index) as [->|Nq]; [assert (qp = p) by congruence; subst qp; apply Rle_refl|].
      pose proof (row_all N E pts k index row p Hp Hnear Lrow q ltac:(lia) (HKb q (znth_in _ _ _ Hq)) Nq) as I.
      apply in_znth in I as (d & Hd & Ed). apply (Q1 eq_refl y d (valp qp) Ry); [apply in_zrange; lia|]. exists q, qp. auto. }
    split; [intros ->; discriminate|]. split; [intros ->; discriminate|assumption].
Qed.
End Slot.
End G.
