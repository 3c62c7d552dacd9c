(** C92: single precision, points in robust position: room is needed for the cuts only. *)
From Verif Require Import Base Arith PBase Prog PProg MUtils MHeap MXyz MKnn MBoundary MCell MDnn MArgs MTess Exact PExact PFlags SpecDnn PDnn SpecGeom SpecSort SpecBnd SpecHeap SpecAny SpecRows SpecVor
  PXyz PSortFinal PHeap PReloc PHeapFinal PBnd PBndLoop PCellSim PCellRun PCell PCellRow PKnnSafe PSlot PWalk SpecSlot PSlotHost PTess PTessRun PTessFinal
  PGeomCone PGeomPoly PGeomWalk PGeomFinal PRec PRecFinal PKnnAny PRowsAny PRowsNear ArithR Arith32 PFloat PDist32 PErrReal PNear32 PErr32 PErrBis PErrReach SpecNear PNearRows PFloatRows PCanon PNoFail PNoFailApi PRunDone
  PTopo PTopoCut PPerturb PEuler PEulerCut PRobust PRobustApi PRobustRun SpecWhen PWhen SpecSpread PSpread.
From Flocq Require Import Core IEEE754.BinarySingleNaN.
From Coq Require Import Reals Lra Psatz Permutation Sorting.Sorted.
From Verif Require Export SpecFew.
Import SpecGeom.
Local Open Scope R_scope.

Lemma firstn_spot S K d x : In x (firstn (Z.to_nat d) (map (spot S) K)) -> exists j a, (0 <= j < d)%Z /\ znth K j = Some a /\ x = spot S a.
Proof.
  intros H. rewrite firstn_map in H. apply in_map_iff in H as (a & <- & Ia). apply in_znth in Ia as (j & Hj & Ej). exists j, a.
  assert (L : (zlen (firstn (Z.to_nat d) K) <= d)%Z) by (unfold zlen in *; rewrite firstn_length in *; lia).
  split; [lia|]. split; [|reflexivity]. rewrite <- (firstn_skipn (Z.to_nat d) K). rewrite znth_app1 by lia. assumption.
Qed.

(** a step that adds a plane, or fails to, cuts *)
Lemma step_cut N (E : Exact N) pmax tmax p q nb s o s1 : finp N E p -> finp N E q -> sound N E (valp N E p) s -> nb_rel N pmax tmax p q nb s o s1 ->
  (ok_out o = true /\ zlen (cP N s1) = zlen (cP N s)) \/ exists x, region N E s x /\ d2 x (valp N E q) < d2 x (valp N E p).
Proof.
  intros Fp Fq So R.
  assert (CUT : forall Kp R0, PCell.split N (cP N s) (bisect N q p) (cT N s) Kp R0 -> R0 <> [] -> exists x, region N E s x /\ d2 x (valp N E q) < d2 x (valp N E p)).
  { intros Kp R0 Sp NE. destruct R0 as [|t R0]; [congruence|]. pose proof (cl_surf _ _ _ _ (so_clip _ _ _ _ So)) as SF0. destruct Sp as (PK & _ & FR).
    assert (It : In t (cT N s)) by (eapply Permutation_in; [exact PK|apply in_or_app; right; now left]).
    destruct (sf_feas _ _ _ _ SF0 t It) as (x & Vx & Fx). exists x. split; [exact Fx|].
    inversion FR as [|? ? Rt]; subst. apply (removed_exact N E p s t x _ (so_clip _ _ _ _ So) It Vx (bisect_fin N E q p Fq Fp)) in Rt. rewrite (bis_ev N E p Fp q x Fq) in Rt. lra. }
  inversion R as [Kp V Sp PV E1 E2|Kp R0 V CC h rest Sp PV NE Lp LC OC LR EI Lt E1 E2|Kp R0 Sp NE Lp E1 E2|Kp R0 CC Sp NE Lp LC ST E1 E2|Kp R0 CC h rest Sp NE Lp LC OC LR EI Lt E1 E2]; try (try subst s1; right; exact (CUT Kp R0 Sp NE)).
  left. split; [unfold verdict; destruct (sr_is_reached N p q _); reflexivity|reflexivity].
Qed.

Section Rob.
Variables (pts : list (point arith32)) (index : Z) (p : point arith32) (rho : R).
Notation S := (map real_pt pts).
Notation P := (real_pt p).
Hypothesis Hop : forall q, In q pts -> open01p q.
Hypothesis Hp : znth pts index = Some p.
Hypothesis Hrob : robust S index rho.
Variables (pmax tmax k : Z) (K : list Z).
Hypothesis Hpm : (pmax <= 255)%Z.
Hypothesis HK : forall d a, (0 <= d < k)%Z -> znth K d = Some a -> others (zlen S) index a /\ ~ firsts K d a.
Hypothesis HA : forall j, (0 <= j <= k)%Z -> nearest_set eps20 S index (firsts K j).
Notation n s := (zlen (cP arithR s)).
Notation lock := (lock pts p rho).
Notation within := (within pts p).
Notation B := (map (spot S) K).

Lemma walk_few : forall m j s s' o s1 C, Z.to_nat (k - j) = m -> (0 <= j <= k)%Z -> (6 <= n s' <= 255)%Z -> (zlen (cT arithR s') <= 2 * n s' - 4)%Z -> sound arithR ER P s' ->
  lock (firsts K j) s s' -> within (firsts K j) s' -> cutters P B C -> (forall d, In d C -> (d < j)%Z) -> n s' = (6 + zlen C)%Z -> walk arith32 pmax tmax (znth pts) K p (zrange j k) s o s1 ->
  o <> FailB /\ (o = FailP -> exists C', cutters P B C' /\ (pmax < zlen C' + 6)%Z) /\ (o = FailT -> exists C', cutters P B C' /\ (tmax < 2 * zlen C' + 8)%Z).
Proof.
  induction m as [|m IH]; intros j s s' o s1 C Hm Hj L6 LT So LK W CC CJ EN WK.
  - rewrite zrange_nil in WK by lia. inversion WK; subst. repeat split; discriminate.
  - pose proof (so_clip _ _ _ _ So) as Cl.
    assert (STEP : forall q qf o s1, znth K j = Some q -> znth pts q = Some qf -> nb_rel arith32 pmax tmax p qf j s o s1 ->
      o <> FailB /\ (o = FailP -> exists C', cutters P B C' /\ (pmax < zlen C' + 6)%Z) /\ (o = FailT -> exists C', cutters P B C' /\ (tmax < 2 * zlen C' + 8)%Z) /\
      (ok_out o = true -> exists s1' C', sound arithR ER P s1' /\ (6 <= n s1' <= 255)%Z /\ (zlen (cT arithR s1') <= 2 * n s1' - 4)%Z /\
        lock (firsts K (j + 1)) s1 s1' /\ within (firsts K (j + 1)) s1' /\ cutters P B C' /\ (forall d, In d C' -> (d < j + 1)%Z) /\ n s1' = (6 + zlen C')%Z)).
    { clear o s1 WK. intros q qf o s1 Eq Ep R. destruct (HK j q ltac:(lia) Eq) as [Oq NF].
      destruct (step_lock pts index p rho Hop Hp Hrob pmax tmax (firsts K j) s s' q qf j o s1 LK Cl W (HA j ltac:(lia)) Oq NF Ep R) as (o' & s1' & R' & OK' & FO & LK' & _).
      assert (So' : sound arithR ER (valp arithR ER (toR p)) s') by (rewrite toR_val; exact So).
      destruct (sound_step arithR ER pmax tmax (toR p) Hpm (toR_fin p) (toR qf) j s' o' s1' (toR_fin qf) L6 LT So' R') as (X1 & X2 & X3 & X4). rewrite toR_val in X4.
      assert (EQ : spot S q = real_pt qf) by (apply spot_at; rewrite znth_map, Ep; reflexivity).
      assert (EB : znth B j = Some (real_pt qf)) by (rewrite znth_map, Eq; simpl; now rewrite EQ).
      assert (ADD : (exists x, region arithR ER s' x /\ d2 x (valp arithR ER (toR qf)) < d2 x (valp arithR ER (toR p))) -> cutters P B (C ++ [j])).
      { intros (x & Rx & Dx). rewrite !toR_val in Dx. destruct CC as [ND HC]. split.
        - apply nodup_app_i; [assumption|repeat constructor; simpl; tauto|]. intros a H1 [<-|[]]. apply CJ in H1. lia.
        - intros d Hd. apply in_app_or in Hd as [Hd|[<-|[]]]; [now apply HC|]. exists (real_pt qf). split; [assumption|]. exists x. split; [|assumption].
          destruct (W x Rx) as [W1 W2]. split; [assumption|]. intros a Ha. apply firstn_spot in Ha as (i & b & Hi & Eb & ->).
          destruct (HK i b ltac:(lia) Eb) as [[Rb _] _]. destruct (znth_in_range S b Rb) as [qb Eqb]. rewrite (spot_at S b qb Eqb). apply (W2 b qb); [exists i; auto|assumption]. }
      pose proof (step_cut arithR ER pmax tmax (toR p) (toR qf) j s' o' s1' (toR_fin p) (toR_fin qf) So' R') as SC.
      assert (LC : zlen (C ++ [j]) = (zlen C + 1)%Z) by (rewrite zlen_app, zlen_one; reflexivity).
      destruct (ok_out o) eqn:OK.
      - split; [intros ->; discriminate|]. split; [intros ->; discriminate|]. split; [intros ->; discriminate|]. intros _. destruct (X4 OK') as (Y1 & Y2 & Y3 & Y4).
        assert (FE : forall a, firsts K j a \/ a = q -> firsts K (j + 1) a).
        { intros a [(d & Hd & Ed)| ->]; [exists d; split; [lia|assumption]|exists j; split; [lia|assumption]]. }
        assert (FE' : forall a, firsts K (j + 1) a -> firsts K j a \/ a = q).
        { intros a (d & Hd & Ed). destruct (Z.eq_dec d j) as [->|]; [right; congruence|left; exists d; split; [lia|assumption]]. }
        assert (W1 : within (firsts K (j + 1)) s1').
        { destruct (clip_step arithR ER pmax tmax (toR p) Hpm (toR_fin p) (toR qf) j s' o' s1' (toR_fin qf) ltac:(lia)) as (_ & _ & M1 & _); [rewrite toR_val; exact Cl|exact R'|exact OK'|].
          rewrite toR_val in M1.
          intros y Ry. destruct (M1 y Ry) as [M2 M3]. destruct (W y M2) as [W1 W2]. split; [assumption|]. intros a qa Ha Ea. apply FE' in Ha. destruct Ha as [Ha| ->]; [eapply W2; eauto|].
          rewrite <- (spot_at S q qa Ea), EQ. rewrite toR_val in M3. exact M3. }
        pose proof (lock_mono _ _ _ _ _ _ _ FE LK') as LK1.
        destruct (Z.eq_dec (n s1') (n s')) as [Es|Es].
        + exists s1', C. do 2 (split; [first [assumption|lia]|]). split; [lia|]. split; [assumption|]. split; [assumption|]. split; [assumption|]. split; [intros d Hd; apply CJ in Hd; lia|lia].
        + destruct SC as [[_ SC]|SC]; [congruence|]. exists s1', (C ++ [j]). do 2 (split; [first [assumption|lia]|]). split; [lia|]. split; [assumption|]. split; [assumption|]. split; [now apply ADD|].
          split; [|lia]. intros d Hd. apply in_app_or in Hd as [Hd|[<-|[]]]; [apply CJ in Hd; lia|lia].
      - rewrite (FO eq_refl) in *. destruct SC as [[SC _]|SC]; [congruence|]. specialize (ADD SC). split; [assumption|]. split; [|split].
        + intros Q. exists (C ++ [j]). split; [assumption|]. specialize (X2 Q). lia.
        + intros Q. exists (C ++ [j]). split; [assumption|]. specialize (X3 Q). lia.
        + discriminate. }
    rewrite zrange_cons in WK by lia. inversion WK as [|nb nbs q qf s0 s2 o0 s3 Hq Hqp R W'|nb nbs q qf s0 o0 s2 Hq Hqp R No]; subst.
    + destruct (STEP q qf Cont s2 Hq Hqp R) as (_ & _ & _ & X). destruct (X eq_refl) as (s2' & C2 & So2 & L2 & L3 & LK2 & W2 & CC2 & CJ2 & EN2).
      apply (IH (j + 1)%Z s2 s2' o s1 C2); auto; lia.
    + destruct (STEP q qf o s1 Hq Hqp R) as (X1 & X2 & X3 & _). auto.
Qed.
End Rob.

Lemma eps20_pos : 0 < eps20.
Proof. unfold eps20. lra. Qed.
(** points spread over the cube *)
Lemma spread_near eps S r M : 0 <= eps -> (forall q, In q S -> in_cube q) -> covered S r -> crowd S (r + eps / 2) M -> few_near eps S M.
Proof.
  intros He HS Cv Cr p B rest C PP [B1 B2] [NC HC]. assert (Pr : 0 < r) by apply Cv.
  assert (Cp : in_cube p) by (apply HS; eapply Permutation_in; [apply Permutation_sym; exact PP|now left]).
  assert (SQ : forall s, d2 s p < 4 * (r * r) -> sqrt (d2 s p) < 2 * r).
  { intros s Hs. replace (2 * r) with (sqrt (4 * (r * r))); [apply sqrt_lt_1_alt; split; [apply d2_nonneg|assumption]|]. replace (4 * (r * r)) with ((2 * r) * (2 * r)) by ring. apply sqrt_square. lra. }
  assert (SQ2 : forall s, sqrt (d2 s p) < 2 * r + eps -> d2 s p < 4 * ((r + eps / 2) * (r + eps / 2))).
  { intros s Hs. rewrite <- (sqrt_sqrt (d2 s p)) by apply d2_nonneg. pose proof (sqrt_pos (d2 s p)). replace (4 * ((r + eps / 2) * (r + eps / 2))) with ((2 * r + eps) * (2 * r + eps)) by field. apply Rmult_le_0_lt_compat; assumption. }
  set (get := fun d => match znth B d with Some q => q | None => p end).
  assert (NEAR : forall d, In d C -> (0 <= d < zlen B)%Z /\ znth B d = Some (get d) /\ d2 (get d) p < 4 * ((r + eps / 2) * (r + eps / 2))).
  { intros d Hd. destruct (HC d Hd) as (q & Eq & x & Ix & Dx). assert (G : get d = q) by (unfold get; now rewrite Eq). rewrite G. split; [apply (znth_some _ _ _ Eq)|]. split; [assumption|]. apply SQ2.
    destruct (Rlt_le_dec (sqrt (d2 q p)) (2 * r + eps)) as [|Far]; [assumption|exfalso].
    assert (NX : d2 x p < r * r).
    { apply (near_cell S r p (firstn (Z.to_nat d) B) x Cv Cp); [|exact Ix]. intros s Is Ds. apply SQ in Ds. apply (Permutation_in _ PP) in Is. destruct Is as [->|Is]; [now left|right]. apply in_app_or in Is as [Is|Is].
      - apply in_znth in Is as (e & He' & Ee). destruct (Z_lt_dec e d) as [L|L].
        + apply (znth_in _ e). rewrite <- (firstn_skipn (Z.to_nat d) B), znth_app1 in Ee; [exact Ee|]. unfold zlen in *. rewrite firstn_length. lia.
        + exfalso. pose proof (znth_some _ _ _ Eq). pose proof (B1 d e q s ltac:(lia) Eq Ee). lra.
      - exfalso. pose proof (B2 q s (znth_in _ _ _ Eq) Is). lra. }
    assert (F2 : 4 * (r * r) <= d2 q p).
    { rewrite <- (sqrt_sqrt (d2 q p)) by apply d2_nonneg. replace (4 * (r * r)) with ((2 * r) * (2 * r)) by ring. apply Rmult_le_compat; lra. }
    pose proof (d2_par x q p). lra. }
  assert (LC : zlen C = zlen (map get C)) by (now rewrite zlen_map). rewrite LC.
  destruct (spots_perm B C) as (J & PB & _); [assumption|intros d Hd; now apply NEAR|].
  apply (Cr p (map get C) (map (spot B) J ++ rest)).
  - eapply Permutation_trans; [exact PP|]. constructor. rewrite app_assoc. apply Permutation_app_tail. eapply Permutation_trans; [exact PB|]. apply Permutation_app_tail.
    rewrite (map_ext_in (spot B) get C); [reflexivity|]. intros d Hd. apply spot_at. now apply NEAR.
  - intros q Hq. apply in_map_iff in Hq as (d & <- & Hd). now apply NEAR.
Qed.
Lemma few_near_perm eps S S' M : Permutation S S' -> few_near eps S M -> few_near eps S' M.
Proof. intros PP F p B rest C PR. apply (F p B rest). now rewrite PP. Qed.

Section Slots.
Variables (gr : Z) (P0 P : list (point arith32)) (ids offs : list Z).
Hypothesis Hgr : (0 < gr)%Z.
Hypothesis Hg3 : (gr * gr * gr <= int_max)%Z.
Hypothesis Hs : safe_res gr = true.
Hypothesis HO : Forall open01p P0.
Hypothesis HX : xyz_sort arith32 gr P0 = Ok (P, ids, offs).
Hypothesis OD : ordered_dists arith32 not_nan P.
Notation g := (mkGrid arith32 P ids offs).
Notation S := (map real_pt P).

Let Hop q : In q P -> open01p q.
Proof. intros Hq. rewrite Forall_forall in HO. apply HO. eapply Permutation_in; [apply Permutation_sym; exact (perm_points arith32 _ _ _ _ _ HX)|exact Hq]. Qed.

Lemma slot_sorted c rs x p : cfg_ok c -> c_gr c = gr -> results arith32 c g rs -> (0 <= x < zlen P)%Z -> (c_k c <= zlen P - 1)%Z -> znth P x = Some p ->
  exists J, Permutation S (real_pt p :: map (spot S) (r_K arith32 (rs x)) ++ map (spot S) J) /\ about_sorted eps20 (real_pt p) (map (spot S) (r_K arith32 (rs x))) (map (spot S) J) /\
    (forall z, In z J <-> others (zlen S) x z /\ ~ In z (r_K arith32 (rs x))).
Proof.
  intros Hc Eg Rs Hx Kn Ep. destruct (slot_cand gr P0 P ids offs Hgr Hg3 Hs HO HX OD c rs x Hc Eg Rs Hx Kn) as (LK & ND & NI & HK & HA). cbv zeta in *. set (K := r_K arith32 (rs x)) in *.
  assert (SX : zlen S = zlen P) by apply zlen_map. assert (SP : znth S x = Some (real_pt p)) by (rewrite znth_map, Ep; reflexivity).
  set (J := filter (fun q => negb (mem_z (x :: K) q)) (zrange 0 (zlen S))).
  assert (HJ : forall z, In z J <-> others (zlen S) x z /\ ~ In z K).
  { intros z. unfold J. rewrite filter_In, in_zrange, negb_true_iff. split.
    - intros [R0 H]. apply mem_z_nin in H. simpl in H. split; [split; [assumption|]|]; [intros ->; apply H; now left|tauto].
    - intros [[R0 H1] H2]. split; [assumption|]. apply mem_z_nin. intros [H|H]; congruence. }
  assert (NDJ : NoDup J) by (apply NoDup_filter, NoDup_zrange).
  exists J. split; [|split; [|exact HJ]].
  - rewrite <- (spots_all S) at 1. rewrite <- (spot_at S x _ SP). change (spot S x :: map (spot S) K ++ map (spot S) J) with ((map (spot S) (x :: K)) ++ map (spot S) J). rewrite <- map_app. apply Permutation_map. apply NoDup_Permutation.
    + apply NoDup_zrange.
    + apply nodup_app_i; [|assumption|].
      * constructor; [intros X; apply NI in X; destruct X; congruence|assumption].
      * intros a [<-|Ha] Hj; apply HJ in Hj as [[_ H1] H2]; congruence.
    + intros a. rewrite in_zrange, in_app_iff, HJ. simpl. unfold others. split.
      * intros Ha. destruct (Z.eq_dec x a); [auto|]. destruct (in_dec Z.eq_dec a K); auto 6.
      * intros [[<-|Ha]|[[Ha _] _]]; [lia| |assumption]. destruct (NI a Ha) as [R0 _]. lia.
  - assert (AT : forall z, (0 <= z < zlen S)%Z -> znth S z = Some (spot S z)).
    { intros z Hz. destruct (znth_in_range S z Hz) as [q Eq]. now rewrite (spot_at S z q Eq). }
    split.
    + intros i j a b Hij Ea Eb. rewrite znth_map in Ea, Eb. destruct (znth K i) as [qa|] eqn:Ka; [|discriminate]. destruct (znth K j) as [qb|] eqn:Kb; [|discriminate]. injection Ea as <-. injection Eb as <-.
      destruct (Z.eq_dec i j) as [->|Nij]; [assert (qa = qb) by congruence; subst; pose proof eps20_pos; lra|].
      pose proof (znth_some _ _ _ Kb) as Rj. destruct (HK i qa ltac:(lia) Ka) as [[Ra _] _]. destruct (HK j qb ltac:(lia) Kb) as [Ob Nb]. rewrite !(d2_sym _ (real_pt p)).
      apply (proj2 (HA j ltac:(lia)) qa qb (real_pt p)); auto; [exists i; split; [lia|assumption]|apply AT; apply Ob].
    + intros a b Ha Hb. apply in_map_iff in Ha as (qa & <- & Ia). apply in_map_iff in Hb as (qb & <- & Ib). apply HJ in Ib as [Ob Nb]. apply in_znth in Ia as (i & Hi & Ka). destruct (HK i qa ltac:(lia) Ka) as [[Ra _] _].
      rewrite !(d2_sym _ (real_pt p)). apply (proj2 (HA (c_k c) ltac:(destruct Hc; lia)) qa qb (real_pt p)); auto; [exists i; split; [lia|assumption]| |apply AT; apply Ob].
      intros (e & He & Ke). apply Nb. eapply znth_in; eauto.
Qed.

Lemma slot_few c rs x rho M : cfg_ok c -> c_gr c = gr -> results arith32 c g rs -> (0 <= x < zlen P)%Z -> (c_k c <= zlen P - 1)%Z -> robust S x rho -> few_near eps20 S M -> roomy c M -> errorless (out_byte arith32 rs x).
Proof.
  intros Hc Eg Rs Hx Kn Hrob Few [Ro1 Ro2]. destruct (slot_cand gr P0 P ids offs Hgr Hg3 Hs HO HX OD c rs x Hc Eg Rs Hx Kn) as (LK & ND & NI & HK & HA). cbv zeta in *.
  destruct (znth_in_range P x Hx) as [p0 Ep0]. destruct (slot_sorted c rs x p0 Hc Eg Rs Hx Kn Ep0) as (J & PJ & SJ & _).
  destruct Hc as (K1 & K2 & K3). destruct (Rs x Hx) as [(p & Ep & Hh & KR & W & Gd) _]. simpl in Ep. cbn [g_pts] in *. rewrite Ep in Ep0. injection Ep0 as <-. set (K := r_K arith32 (rs x)) in *. set (k := c_k c) in *.
  assert (R0 : (0 < rho)%R) by apply Hrob.
  assert (CP : in_cube (real_pt p)) by (apply real_cube, Hop; eapply znth_in; eauto).
  set (D0 := repeat k_undefined (Z.to_nat k)).
  destruct (walk_few P x p rho Hop Ep Hrob (c_pmax c) (c_tmax c) k K ltac:(lia) HK HA (Z.to_nat (k - 0)) 0 (cst0 arith32 D0) (cst0 arithR D0) (r_o arith32 (rs x)) (r_s arith32 (rs x)) [] eq_refl ltac:(lia))
    as (X1 & X2 & X3); auto.
  { change (zlen (cP arithR (cst0 arithR D0))) with 6%Z. lia. }
  { change (zlen (cP arithR (cst0 arithR D0))) with 6%Z. change (zlen (cT arithR (cst0 arithR D0))) with 8%Z. lia. }
  { now apply sound0. }
  { now apply lock0. }
  { intros y Ry. apply region_cube in Ry. split; [exact Ry|]. intros j q (d & Hd & _). lia. }
  { split; [constructor|intros d []]. }
  { intros d []. }
  apply byte_ok. destruct (r_o arith32 (rs x)); try reflexivity.
  all: try congruence.
  - destruct (X2 eq_refl) as (C & HC & L). pose proof (Few _ _ _ C PJ SJ HC). lia.
  - destruct (X3 eq_refl) as (C & HC & L). pose proof (Few _ _ _ C PJ SJ HC). lia.
Qed.

Lemma slot_spread c rs x rho r M : cfg_ok c -> c_gr c = gr -> results arith32 c g rs -> (0 <= x < zlen P)%Z -> (c_k c <= zlen P - 1)%Z -> robust S x rho -> errorless (out_byte arith32 rs x) ->
  covered S r -> crowd S (r + eps20 / 2) M -> (M <= c_k c)%Z -> exact_cell S x (out_row arith32 c rs x).
Proof.
  intros Hc Eg Rs Hx Kn Hrob EB Cv Cr HM. destruct (znth_in_range P x Hx) as [p Ep]. destruct (slot_sorted c rs x p Hc Eg Rs Hx Kn Ep) as (J & PJ & [_ SJ] & HJ).
  destruct (slot_cand gr P0 P ids offs Hgr Hg3 Hs HO HX OD c rs x Hc Eg Rs Hx Kn) as (LK & ND & NI & _). cbv zeta in *.
  apply (slot_exact gr P0 P ids offs Hgr Hg3 Hs HO HX OD c rs x p rho); auto. intros _ z y Oz Nz Iy. set (K := r_K arith32 (rs x)) in *. assert (Pr : 0 < r) by apply Cv. pose proof eps20_pos as E0.
  assert (CP : in_cube (real_pt p)) by (apply real_cube, Hop; eapply znth_in; eauto).
  (* whoever is not a candidate is far *)
  assert (FAR : forall s, In s (map (spot S) J) -> 4 * (r * r) <= d2 s (real_pt p)).
  { intros s Is. destruct (Rlt_le_dec (d2 s (real_pt p)) (4 * (r * r))) as [Ns|]; [exfalso|assumption].
    assert (SQ : sqrt (d2 s (real_pt p)) < 2 * r).
    { replace (2 * r) with (sqrt (4 * (r * r))); [apply sqrt_lt_1_alt; split; [apply d2_nonneg|assumption]|]. replace (4 * (r * r)) with ((2 * r) * (2 * r)) by ring. apply sqrt_square. lra. }
    assert (SQ2 : forall s, sqrt (d2 s (real_pt p)) < 2 * r + eps20 -> d2 s (real_pt p) < 4 * ((r + eps20 / 2) * (r + eps20 / 2))).
    { intros s0 Hs0. rewrite <- (sqrt_sqrt (d2 s0 (real_pt p))) by apply d2_nonneg. pose proof (sqrt_pos (d2 s0 (real_pt p))). replace (4 * ((r + eps20 / 2) * (r + eps20 / 2))) with ((2 * r + eps20) * (2 * r + eps20)) by field. apply Rmult_le_0_lt_compat; assumption. }
    apply in_split in Is as (J1 & J2 & EJ). assert (L : (zlen (s :: map (spot S) K) <= M)%Z).
    { apply (Cr (real_pt p) (s :: map (spot S) K) (J1 ++ J2)).
      - eapply Permutation_trans; [exact PJ|]. constructor. rewrite EJ. apply Permutation_sym. simpl. rewrite !app_assoc. apply Permutation_middle.
      - intros q [<-|Hq]; apply SQ2; [lra|]. assert (In s (map (spot S) J)) by (rewrite EJ; apply in_or_app; right; now left). pose proof (SJ q s Hq H). lra. }
    rewrite zlen_cons, zlen_map in L. lia. }
  assert (NX : d2 y (real_pt p) < r * r).
  { apply (near_cell S r (real_pt p) (map (spot S) K) y Cv CP); [|exact Iy]. intros s Is Ds. apply (Permutation_in _ PJ) in Is. destruct Is as [->|Is]; [now left|right]. apply in_app_or in Is as [Is|Is]; [assumption|]. apply FAR in Is. lra. }
  assert (F2 : 4 * (r * r) <= d2 (spot S z) (real_pt p)) by (apply FAR, in_map, HJ; auto).
  pose proof (d2_par y (spot S z) (real_pt p)). lra.
Qed.
End Slots.
