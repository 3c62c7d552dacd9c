(** Exact arithmetic, use_recompute: each row is exact unless its own cell needs more room. *)
From Verif Require Import Base Arith PBase Prog PProg MUtils MHeap MXyz MKnn MBoundary MCell MDnn MArgs MTess Exact PExact PFlags SpecDnn PDnn SpecGeom SpecSort SpecBnd SpecKnn SpecVor SpecRows
  PXyz PGrid PSortFinal PHeap PReloc PHeapFinal PKnnFinal PBnd PBndLoop PCellSim PCellRun PCell PCellRow PKnnSafe PSlot PWalk SpecSlot PSlotHost PTess PTessRun PTessFinal
  PGeomCone PGeomPoly PGeomWalk PGeomFinal PRec PRecFinal PRecGeom PNoFail PNoFailApi PDistinct PExactApi PGpuExact PWhen SpecArgs SpecApi PApi PSpread.
From Verif Require Export SpecParam SpecResult SpecSpread SpecOwn.
From Coq Require Import Psatz Permutation.
Import SpecGeom.
Local Open Scope Z_scope.

Section G.
Variable N : Arith.
Variable E : Exact N.
Notation point := (point N).
Notation valp := (valp N E).

(** buffers never shrink; what is flagged at the end was computed with all points as candidates *)
Lemma rec_grown g gr c ind st rows rows' st' : let n := zlen (g_pts N g) in
  rec_run N g c ind st rows rows' st' -> c_gr c = gr -> 0 <= c_pmax c -> 0 <= c_tmax c -> forall x b, znth st' x = Some b -> ~ errorless b ->
  exists c' rs, cfg_ok c' /\ c_gr c' = gr /\ results N c' g rs /\ n - 1 <= c_k c' /\ 0 <= x < n /\ b = out_byte N rs x /\ c_pmax c <= c_pmax c' /\ c_tmax c <= c_tmax c'.
Proof.
  intros n. induction 1 as [c ind st rows E0|c ind st rows rs c' ind' Ne Hc Fi Rs Hk|c ind st rows rs rows' st' c' ind' Ne Hc Fi Rs Hk RR IH]; intros Hg P0 T0 x b Hb NE.
  - exfalso. apply NE. rewrite znth_map in Hb. destruct (znth st x); [|discriminate]. injection Hb as <-. repeat split.
  - assert (Hx : 0 <= x < n) by (pose proof (znth_some _ _ _ Hb) as X; rewrite new_states_len in X; exact X).
    rewrite new_states_at in Hb by assumption. destruct (mem_z ind' x); injection Hb as <-; [|exfalso; apply NE; repeat split].
    exists c', rs. split; [assumption|]. split; [assumption|]. split; [assumption|]. split; [assumption|]. split; [assumption|]. split; [reflexivity|].
    unfold c', next_cfg, set_kpt. simpl. destruct (existsb _ ind), (existsb _ ind); lia.
  - assert (Q : c_pmax c <= c_pmax c' /\ c_tmax c <= c_tmax c') by (unfold c', next_cfg, set_kpt; simpl; destruct (existsb _ ind), (existsb _ ind); lia).
    destruct (IH Hg ltac:(lia) ltac:(lia) x b Hb NE) as (c2 & rs2 & A1 & A2 & A3 & A4 & A5 & A6 & A7 & A8). exists c2, rs2. repeat (split; [assumption|]). lia.
Qed.

Section Run.
Variables (r : Z) (w : world N) (c : cfg) (P0 : list point).
Hypothesis Hapi : api_rec N E r c P0.

Lemma own_core : exists o, tess_core N w c cpu P0 = Ok o /\ Permutation P0 (o_pts N o) /\ zlen (o_rows N o) = zlen P0 /\ zlen (o_states N o) = zlen P0 /\
  (forall i row b, znth (o_rows N o) i = Some row -> znth (o_states N o) i = Some b -> errorless b -> exact_row (map valp (o_pts N o)) i row) /\
  forall i b, znth (o_states N o) i = Some b -> ~ errorless b -> exists c' p K near oo s, cfg_ok c' /\ zlen P0 - 1 <= c_k c' /\ c_pmax c <= c_pmax c' /\ c_tmax c <= c_tmax c' /\
    slot_facts N E c' (o_pts N o) i b p K near oo s.
Proof.
  destruct Hapi as (HR & Hgr & Hg3 & Hin & Rc & Hnt & Fit). pose proof (in_range_exact N E (c_gr c) P0 Hgr Hg3 Hin) as Hr.
  destruct (xyz_sort_total N (c_gr c) P0 ltac:(lia) Hg3 Hr) as (P & ids & offs & HS).
  pose proof (perm_points N _ _ _ _ _ HS) as PP. assert (LP : zlen P = zlen P0) by (unfold zlen; rewrite (Permutation_length PP); reflexivity).
  rewrite <- LP in HR, Fit. pose proof (rec_ok_cfg _ _ _ HR) as Hc. destruct HR as (R1 & R2 & R3 & R4 & K & P1 & P2 & T1 & T2 & NK & NN & NP & NT).
  set (g := mkGrid N P ids offs).
  assert (W1 : 1 <= 2 ^ r) by (apply (Z.pow_le_mono_r 2 0 r); lia).
  assert (Hg : sorted_grid N c g) by (split; [assumption|]; exists P0; auto).
  destruct (results_ex N c g Hc Hg) as [rs Rs].
  set (st := map (out_byte N rs) (zrange 0 (zlen P))).
  assert (I0 : ind_ok N g (zrange 0 (zlen P))). { split; [apply NoDup_zrange|]. intros x Hx. apply in_zrange in Hx. exact Hx. }
  pose proof (todo_ok N g _ st I0) as Hi.
  destruct (rec_run_ex N g (Z.to_nat r) c (todo (zrange 0 (zlen P)) st) st (map (out_row N c rs) (zrange 0 (zlen P))) Hg) as (rows' & st' & RR); auto; try lia.
  { unfold grow_ok. rewrite Z2Nat.id by lia. simpl g_pts. lia. }
  assert (NP' : zlen P * c_pmax c <= zlen P * c_pmax c * 2 ^ r) by (apply mul_le3; lia).
  assert (NT' : zlen P * c_tmax c <= zlen P * c_tmax c * 2 ^ r) by (apply mul_le3; lia).
  destruct (rec_core_run N c P0 P ids offs rs rows' st' Hc R2 NK NN ltac:(lia) ltac:(lia) Hgr Hr HS Rs RR) as (o & Eo & Es & Lr & Ls & Gd & VR & TB & FR & RUN).
  exists o. split; [apply RUN; auto; repeat split|]. rewrite Eo. split; [assumption|]. split; [lia|]. split; [lia|]. split.
  - intros i row b Hrow Hb EB. pose proof (znth_some _ _ _ Hb) as Hi'. rewrite Ls in Hi'.
    apply (done_exact N E (c_gr c) P0 P ids offs Hgr Hg3 Hin HS i row Hi'). destruct (FR i row b Hrow Hb) as [D|[D _]]; [exact D|contradiction].
  - intros i b Hb NE. rewrite Es in Hb.
    destruct (rec_grown g (c_gr c) c _ _ _ _ _ RR eq_refl ltac:(lia) ltac:(lia) i b Hb NE) as (c' & rs' & A1 & A2 & A3 & A4 & A5 & A6 & A7 & A8).
    destruct (fact_of N E (c_gr c) P0 P ids offs Hgr Hg3 Hin HS c' rs' i A1 A2 A3 A5) as (p & row & SF). rewrite <- A6 in SF. simpl in A4. rewrite LP in A4.
    exists c', p. do 4 eexists. split; [exact A1|]. split; [exact A4|]. split; [exact A7|]. split; [exact A8|exact SF].
Qed.

Lemma rec_inside o : Permutation P0 (o_pts N o) -> forall q, In q (o_pts N o) -> inside N E q.
Proof. intros PP q Hq. destruct Hapi as (_ & _ & _ & Hin & _). apply Hin. eapply Permutation_in; [apply Permutation_sym; exact PP|assumption]. Qed.

Lemma own_flags : exists o, tess_core N w c cpu P0 = Ok o /\ Permutation P0 (o_pts N o) /\ zlen (o_rows N o) = zlen P0 /\ zlen (o_states N o) = zlen P0 /\
  forall i row b, znth (o_rows N o) i = Some row -> znth (o_states N o) i = Some b ->
  (errorless b -> exact_row (map valp (o_pts N o)) i row) /\
  (~ errorless b -> exists p near, znth (map valp (o_pts N o)) i = Some p /\ nearest (sqdist N E (o_pts N o) i) (fun q => 0 <= q < zlen P0 /\ q <> i) near /\ zlen near = zlen P0 - 1 /\
   let B := map (spot (map valp (o_pts N o))) near in
   (Z.testbit b 4 = true /\ exists C, cutters p B C /\ c_pmax c < zlen C + 6) \/
   (Z.testbit b 5 = true /\ (exists C, cutters p B C /\ c_tmax c < 2 * zlen C + 8) /\
    exists m J W, 1 <= m <= zlen near /\ contacts (p :: firstn (Z.to_nat m) B) 0 J W /\ c_tmax c < 2 * (zlen J + zlen W) - 4)).
Proof.
  destruct own_core as (o & RUN & PP & Lr & Ls & EX & FL). exists o. repeat (split; [assumption|]).
  intros i row b Hrow Hb. split; [exact (EX i row b Hrow Hb)|]. intros NE.
  destruct (FL i b Hb NE) as (c' & p & K & near & oo & s & Hc & Hk & HP & HT & SF). pose proof (rec_inside o PP) as Hin.
  assert (LP : zlen (o_pts N o) = zlen P0) by (unfold zlen; rewrite (Permutation_length PP); reflexivity).
  destruct (facts_nofail N E c' (o_pts N o) i b p K near oo s Hc Hin SF) as (A1 & A6 & _).
  destruct SF as (Ri & Ep & LK & Wk & Nr & Ln & HKr & HKb & cl & Eb). destruct Hc as (K1 & K2 & K3).
  destruct (slot_when N E (c_pmax c') (c_tmax c') (o_pts N o) (c_k c') i K near p oo s) as (_ & B2 & B3); auto; try lia.
  exists (valp p), near. split; [rewrite znth_map, Ep; reflexivity|]. rewrite <- LP. split; [assumption|]. split; [lia|]. cbv zeta.
  destruct (Z.testbit b 4) eqn:T4.
  - left. split; [reflexivity|]. rewrite Eb in T4. apply byte_p in T4. destruct (B2 T4) as (C & HC & Lt). exists C. split; [assumption|lia].
  - right. destruct (Z.testbit b 5) eqn:T5; [|exfalso; apply NE; repeat split; assumption]. split; [reflexivity|]. rewrite Eb in T5. apply byte_t in T5.
    destruct (B3 T5) as [(C & HC & Lt) (m & J & W & Hm & HJ & Lt2)]. split; [exists C; split; [assumption|lia]|]. exists m, J, W. split; [assumption|]. split; [assumption|lia].
Qed.
End Run.

(** the order of the candidates *)
Lemma near_order pts i p near M : znth (map valp pts) i = Some p -> nearest (sqdist N E pts i) (fun q => 0 <= q < zlen pts /\ q <> i) near -> few_at (map valp pts) p M ->
  forall C, cutters p (map (spot (map valp pts)) near) C -> zlen C <= M.
Proof.
  intros HpP Nr Few C HC. rewrite znth_map in HpP. destruct (znth pts i) as [x|] eqn:Ep; [|discriminate]. injection HpP as <-.
  pose proof (nearest_spots N E pts i x near Ep Nr) as (ND & Hn1 & Hn2 & Hn3). set (S := map valp pts) in *.
  assert (SP : znth S i = Some (valp x)) by (unfold S; rewrite znth_map, Ep; reflexivity).
  destruct (spots_perm S (i :: near)) as (J & PR & HJ).
  - constructor; [intros X; now apply Hn1 in X|assumption].
  - intros q [<-|Hq]; [apply (znth_some _ _ _ SP)|now apply Hn1].
  - simpl in PR. rewrite (spot_some S i (valp x) SP) in PR. apply (Few _ _ C PR); [|assumption]. split.
    + intros a a' y z Hab Ha Hb. rewrite znth_map in Ha, Hb. destruct (znth near a) as [qa|] eqn:Ea; [|discriminate]. destruct (znth near a') as [qb|] eqn:Eb; [|discriminate].
      injection Ha as <-. injection Hb as <-. exact (Hn2 a a' qa qb Hab Ea Eb).
    + intros y z Hy Hz. apply in_map_iff in Hy as (qx & <- & Ix). apply in_map_iff in Hz as (qy & <- & Iy). destruct (HJ qy Iy) as [Ry Ny]. apply Hn3; [assumption| |intros X; apply Ny; now right].
      split; [assumption|]. intros ->. apply Ny. now left.
Qed.

Lemma rec_own r w c P0 : api_rec N E r c P0 -> exists o, tess_core N w c cpu P0 = Ok o /\ Permutation P0 (o_pts N o) /\ zlen (o_rows N o) = zlen P0 /\
  forall i row p M, znth (o_rows N o) i = Some row -> znth (map valp (o_pts N o)) i = Some p -> few_at (map valp (o_pts N o)) p M -> roomy c M ->
  (exists b, znth (o_states N o) i = Some b /\ errorless b) /\ exact_row (map valp (o_pts N o)) i row.
Proof.
  intros Hapi. destruct (own_flags r w c P0 Hapi) as (o & RUN & PP & Lr & Ls & H). exists o. repeat (split; [assumption|]).
  intros i row p M Hrow HpP Few [Ro1 Ro2]. assert (LP : zlen (o_pts N o) = zlen P0) by (unfold zlen; rewrite (Permutation_length PP); reflexivity).
  assert (Hi : 0 <= i < zlen (o_states N o)) by (pose proof (znth_some _ _ _ Hrow); lia). destruct (znth_in_range (o_states N o) i Hi) as [b Hb].
  assert (EL : errorless b).
  { destruct (Z.testbit b 1) eqn:T1, (Z.testbit b 4) eqn:T4, (Z.testbit b 5) eqn:T5, (Z.testbit b 6) eqn:T6; try (repeat split; assumption); exfalso.
    all: destruct (H i row b Hrow Hb) as [_ X]; destruct X as (p' & near & Hp' & Nr & Ln & X); [intros (Y1 & Y2 & Y3 & Y4); congruence|].
    all: rewrite HpP in Hp'; injection Hp' as <-; rewrite <- LP in Nr; pose proof (near_order _ i p near M HpP Nr Few) as Q; cbv zeta in X.
    all: destruct X as [(_ & C & HC & Lt)|(_ & (C & HC & Lt) & _)]; specialize (Q C HC); lia. }
  split; [exists b; auto|]. exact (proj1 (H i row b Hrow Hb) EL).
Qed.
End G.
