(** The device path with recompute. *)
From Verif Require Import Base Arith PBase Exact Prog PProg MUtils MHeap MXyz MKnn MBoundary MCell MDnn MArgs MTess PFlags PSort PFill PHeap PReloc PHeapFinal
  SpecSort PXyz PSortFinal SpecGeom SpecDnn PDnn SpecKnn PExact PGrid PKnnSel PKnn PKnnFinal PLock SpecBnd PBnd PCellSim PCellRun PCell PCellRow PKnnSafe PSlot PWalk SpecSlot PSlotHost PSlotFinal PPool PRanges
  PTess PTessRun PTessFinal PGpu PGpuRun SpecVor SpecRows PGeomFinal PRec PRecFinal PRecGeom PNoFailApi PExactApi PGpuExact.
From Coq Require Import Permutation.
From Verif Require Export SpecDev.
Local Open Scope res_scope.
Local Open Scope Z_scope.

(** ** recompute looks at three flags only *)
Section Same.
Variable N : Arith.
Variable g : grid N.
Variables st st2 : list Z.
Hypothesis Len : zlen st = zlen st2.
Hypothesis Flg : forall x b b2 f, znth st x = Some b -> znth st2 x = Some b2 -> In f rec_flags -> st_get b f = st_get b2 f.

Lemma flag_same f i : In f rec_flags -> has_flag st f i = has_flag st2 f i.
Proof.
  intros Hf. unfold has_flag. destruct (znth st i) as [b|] eqn:E1, (znth st2 i) as [b2|] eqn:E2; auto.
  - eapply Flg; eauto.
  - apply znth_some in E1. rewrite Len in E1. destruct (znth_in_range st2 i E1). congruence.
  - apply znth_some in E2. rewrite <- Len in E2. destruct (znth_in_range st i E2). congruence.
Qed.
Lemma reached_same i : not_reached st i = not_reached st2 i.
Proof.
  pose proof (flag_same security_radius_reached i ltac:(now left)) as H. unfold has_flag in H. unfold not_reached.
  destruct (znth st i) as [b|] eqn:E1, (znth st2 i) as [b2|] eqn:E2; auto.
  - now rewrite H.
  - apply znth_some in E1. rewrite Len in E1. destruct (znth_in_range st2 i E1). congruence.
  - apply znth_some in E2. rewrite <- Len in E2. destruct (znth_in_range st i E2). congruence.
Qed.
Lemma existsb_same f l : In f rec_flags -> existsb (has_flag st f) l = existsb (has_flag st2 f) l.
Proof. intros Hf. induction l as [|i l IH]; [reflexivity|]. simpl. now rewrite flag_same, IH. Qed.
Lemma blank_same : map (fun _ : Z => st_reset) st = map (fun _ : Z => st_reset) st2.
Proof.
  assert (L : List.length st = List.length st2) by (unfold zlen in Len; lia). clear - L. revert st2 L. induction st as [|a s IH]; intros [|a2 s2] L; try discriminate; [reflexivity|].
  simpl. f_equal. apply IH. simpl in L. congruence.
Qed.
Lemma round_same sched c ind rows : recompute_round N sched c g ind rows st = recompute_round N sched c g ind rows st2.
Proof.
  unfold recompute_round. rewrite (existsb_same error_p_overflow), (existsb_same error_t_overflow), blank_same by (simpl; auto).
  rewrite (filter_ext _ _ reached_same). reflexivity.
Qed.
Lemma recompute_same sched c rows : cpu_recompute N sched c g rows st = cpu_recompute N sched c g rows st2.
Proof.
  unfold cpu_recompute. rewrite (filter_ext _ _ reached_same).
  assert (B : forall sub e, buffers N c sub st = Err e <-> buffers N c sub st2 = Err e).
  { intros sub e. unfold buffers. destruct (alloc _); [|reflexivity]. cbn [rbind]. destruct (alloc _); [|reflexivity]. cbn [rbind]. destruct (alloc _); [|reflexivity]. cbn [rbind]. destruct (alloc _); [|reflexivity]. cbn [rbind]. split; discriminate. }
  specialize (B (zlen (filter (not_reached st2) (zrange 0 (zlen (g_pts N g)))))).
  destruct (buffers N c _ st) as [m|e]; destruct (buffers N c _ st2) as [m2|e2]; cbn [rbind].
  - rewrite Nat.add_comm. simpl plus. cbn [recompute_loop]. rewrite round_same. reflexivity.
  - destruct (B e2) as [_ X]. discriminate (X eq_refl).
  - destruct (B e) as [X _]. discriminate (X eq_refl).
  - destruct (B e) as [X _]. specialize (X eq_refl). congruence.
Qed.
End Same.

Section Gen.
Variable N : Arith.

(** leftover bits that recompute does not look at change nothing *)
Lemma gpu_same_gen c P0 P ids offs w : dev_cfg_ok c -> 0 < c_gr c -> in_range_ids N (c_gr c) P0 -> knn_agree N (c_gr c) (c_k c) P ids offs ->
  xyz_sort N (c_gr c) P0 = Ok (P, ids, offs) ->
  1 <= c_nthreads c -> fits c (zlen P) -> gpu_fits c (zlen P) ->
  chunked (chunk_of c (zlen P)) (zlen P) = false -> zlen P mod (if 0 <? c_ndsize c then c_ndsize c else 1) = 0 -> c_recompute c = true ->
  (forall x, 0 <= x < zlen P -> clean N w rec_flags x) -> tess_core N w c gpu P0 = tess_core N w c cpu P0.
Proof.
  intros Hc Hgr Hr HA HS Hnt Fit Gf Ech Hmod Rc Hj. set (g := mkGrid N P ids offs).
  assert (Hg : sorted_grid N c g) by (split; [assumption|]; exists P0; auto).
  destruct (both_ex N c g Hc Hg HA) as (rs & Rs & Ds).
  assert (Hcc : cfg_ok c) by apply Hc. pose proof (zlen_nonneg P) as Hn.
  assert (LR : zlen (repeat (@nil Z) (List.length P)) = zlen P) by (unfold zlen; rewrite repeat_length; reflexivity).
  unfold tess_core. rewrite HS. cbn [rbind]. fold g. unfold run_device. destruct (w_gpu N w); [|reflexivity].
  rewrite (gpu_spec N c g Hc rs Rs Ds (w_junk N w) (w_gsched N w) (repeat [] (List.length P)) Gf Ech Hmod LR).
  pose proof (cpu_spec N c g Hcc Hnt rs (w_sched N w) (repeat [] (List.length P)) Rs Fit LR) as Q. change (g_pts N g) with P in Q. rewrite Q. cbn [rbind]. rewrite Rc.
  erewrite recompute_same; [reflexivity| |].
  - rewrite !zlen_map. reflexivity.
  - intros x b b2 f Hb Hb2 Hf. pose proof (znth_some _ _ _ Hb2) as Hx. rewrite zlen_map, zlen_zrange in Hx by lia.
    change (g_pts N g) with P in Hb. rewrite znth_map, znth_zrange in Hb by lia. rewrite znth_map, znth_zrange in Hb2 by lia. rewrite Z.add_0_l in *. injection Hb as <-. injection Hb2 as <-.
    specialize (Hj x ltac:(lia) f Hf). unfold out_byte, r_byte.
    destruct (byte_more (r_cl N (rs x)) (r_o N (rs x)) (w8 (jZ N (w_junk N w) x)) f) as [A B]; [unfold w8; apply Z.mod_pos_bound; lia|simpl in Hf |- *; intuition|].
    destruct (st_get (loop_byte _ _ st_init) f); [now apply A|]. destruct (st_get (loop_byte _ _ _) f); [|reflexivity]. destruct (B eq_refl); congruence.
Qed.

(** a run on the device with recompute, whatever the states held before *)
Lemma gpu_rec_run r c P0 P ids offs w : rec_ok r c (zlen P) -> dev_cfg_ok c -> 0 < c_gr c -> in_range_ids N (c_gr c) P0 -> knn_agree N (c_gr c) (c_k c) P ids offs ->
  xyz_sort N (c_gr c) P0 = Ok (P, ids, offs) -> 1 <= c_nthreads c -> gpu_fits c (zlen P) ->
  chunked (chunk_of c (zlen P)) (zlen P) = false -> zlen P mod (if 0 <? c_ndsize c then c_ndsize c else 1) = 0 -> c_recompute c = true -> w_gpu N w = true ->
  let g := mkGrid N P ids offs in
  exists rs st rows' st' o, let ind := todo (zrange 0 (zlen P)) st in
    (results N c g rs /\ zlen st = zlen P /\ forall x b, clean N w [security_radius_reached] x -> znth st x = Some b -> st_get b security_radius_reached = true -> st_get (out_byte N rs x) security_radius_reached = true) /\
    ind_ok N g ind /\ rec_run N g c ind st (map (out_row N c rs) (zrange 0 (zlen P))) rows' st' /\
    tess_core N w c gpu P0 = Ok o /\ o_pts N o = P /\ o_states N o = st' /\ o_rows N o = rows' /\ zlen (o_rows N o) = zlen P /\ zlen (o_states N o) = zlen P /\
    getdnn (o_rows N o) = Ok (o_dnn N o) /\ map visible (o_rows N o) = o_rows N o /\ total (o_rows N o) <= int_max /\
    forall x row b, clean N w [security_radius_reached] x -> znth (o_rows N o) x = Some row -> znth (o_states N o) x = Some b ->
       row_done N g (c_gr c) x row \/ (~ errorless b /\ exists c' rs, from_slot N g (c_gr c) x row b c' rs /\ zlen P - 1 <= c_k c').
Proof.
  intros HR Hc Hgr Hr HA HS Hnt Gf Ech Hmod Rc Hw g.
  assert (Hg : sorted_grid N c g) by (split; [assumption|]; exists P0; auto).
  destruct (both_ex N c g Hc Hg HA) as (rs & Rs & Ds).
  assert (Hcc : cfg_ok c) by apply Hc. pose proof (zlen_nonneg P) as Hn.
  destruct HR as (R1 & R2 & R3 & R4 & K & P1 & P2 & T1 & T2 & NK & NN & NP & NT).
  assert (W1 : 1 <= 2 ^ r) by (apply (Z.pow_le_mono_r 2 0 r); lia).
  set (st := map (fun x => r_byte N (rs x) (w8 (jZ N (w_junk N w) x))) (zrange 0 (zlen P))).
  assert (Lst : zlen st = zlen P) by (unfold st; rewrite zlen_map, zlen_zrange by lia; lia).
  assert (I0 : ind_ok N g (zrange 0 (zlen P))). { split; [apply NoDup_zrange|]. intros x Hx. apply in_zrange in Hx. exact Hx. }
  pose proof (todo_ok N g _ st I0) as Hi.
  destruct (rec_run_ex N g (Z.to_nat r) c (todo (zrange 0 (zlen P)) st) st (map (out_row N c rs) (zrange 0 (zlen P))) Hg) as (rows' & st' & RR); auto; try lia.
  { unfold grow_ok. rewrite Z2Nat.id by lia. simpl g_pts. lia. }
  assert (NP' : zlen P * c_pmax c <= zlen P * c_pmax c * 2 ^ r) by (apply mul_le3; lia).
  assert (NT' : zlen P * c_tmax c <= zlen P * c_tmax c * 2 ^ r) by (apply mul_le3; lia).
  assert (HST : forall x b, clean N w [security_radius_reached] x -> znth st x = Some b -> st_get b security_radius_reached = true -> st_get (out_byte N rs x) security_radius_reached = true).
  { intros x b Cl Hb. pose proof (znth_some _ _ _ Hb) as Hx. unfold st in Hb. rewrite znth_map, znth_zrange in Hb by lia. rewrite Z.add_0_l in Hb. injection Hb as <-.
    unfold out_byte, r_byte. intros Q. specialize (Cl security_radius_reached ltac:(now left)).
    destruct (byte_more (r_cl N (rs x)) (r_o N (rs x)) (w8 (jZ N (w_junk N w) x)) security_radius_reached) as [A B]; [unfold w8; apply Z.mod_pos_bound; lia|now left|].
    destruct (B Q); [assumption|congruence]. }
  destruct (rec_core_any N (clean N w [security_radius_reached]) c P0 P ids offs rs st rows' st' Hcc R2 NK NN ltac:(lia) ltac:(lia) Hgr Hr HS Lst) as (o & A1 & A2 & A3 & A4 & A5 & A6 & A7 & A8 & A9 & RUN); auto.
  exists rs, st, rows', st', o. split; [exact (conj Rs (conj Lst HST))|]. split; [exact Hi|]. split; [exact RR|]. split; [|do 8 (split; [assumption|]); exact A9].
  apply RUN; auto; [repeat split|]. cbn [run_device]. rewrite Hw. apply (gpu_spec N c g Hc rs Rs Ds); auto. unfold zlen. rewrite repeat_length. reflexivity.
Qed.
End Gen.

Section G.
Variable N : Arith.
Variable E : Exact N.
Notation valp := (valp N E).

Lemma gpu_rec_rows r w c P0 : api_rec N E r c P0 -> dev_ok c (zlen P0) -> w_gpu N w = true ->
  exists o, tess_core N w c gpu P0 = Ok o /\ Permutation P0 (o_pts N o) /\ zlen (o_rows N o) = zlen P0 /\ zlen (o_states N o) = zlen P0 /\ shows (o_dnn N o) (o_rows N o) /\
  forall i row b, clean N w [security_radius_reached] i -> znth (o_rows N o) i = Some row -> znth (o_states N o) i = Some b -> errorless b -> exact_row (map valp (o_pts N o)) i row.
Proof.
  intros (HR & Hgr & Hg3 & Hin & Rc & Hnt & Fit) (D1 & D2 & D3 & D4 & D5) Hw. pose proof (in_range_exact N E (c_gr c) P0 Hgr Hg3 Hin) as Hr.
  destruct (xyz_sort_total N (c_gr c) P0 ltac:(lia) Hg3 Hr) as (P & ids & offs & HS).
  pose proof (perm_points N _ _ _ _ _ HS) as PP. assert (LP : zlen P = zlen P0) by (unfold zlen; rewrite (Permutation_length PP); reflexivity).
  rewrite <- LP in HR, Fit, D3, D4, D5. assert (Hc : dev_cfg_ok c) by (split; [exact (rec_ok_cfg _ _ _ HR)|auto]).
  destruct (exact_knn N E c P0 P ids offs Hc Hgr Hg3 Hin HS) as [_ HA].
  destruct (gpu_rec_run N r c P0 P ids offs w HR Hc Hgr Hr HA HS Hnt D3 D4 D5 Rc Hw) as (rs & st & rows' & st' & o & _ & _ & _ & Ro & A1 & A2 & A3 & Lr & Ls & Gd & VR & TB & FR).
  exists o. split; [exact Ro|]. rewrite A1. split; [assumption|]. split; [lia|]. split; [lia|].
  split; [apply shows_rows; auto; rewrite Lr; destruct HR as (_ & _ & ? & _); unfold int_max; lia|].
  intros i row b Cl Hrow Hb EB. pose proof (znth_some _ _ _ Hb) as Hi. rewrite Ls in Hi.
  apply (done_exact N E (c_gr c) P0 P ids offs Hgr Hg3 Hin HS i row Hi).
  destruct (FR i row b Cl Hrow Hb) as [D|[D _]]; [exact D|contradiction].
Qed.

Lemma gpu_rec_same w c P0 : cfg_ok c -> 0 < c_gr c -> c_gr c * c_gr c * c_gr c <= int_max -> (forall q, In q P0 -> inside N E q) ->
  c_recompute c = true -> 1 <= c_nthreads c -> fits c (zlen P0) -> dev_ok c (zlen P0) -> (forall x, 0 <= x < zlen P0 -> clean N w rec_flags x) ->
  tess_core N w c gpu P0 = tess_core N w c cpu P0.
Proof.
  intros Hc Hgr Hg3 Hin Rc Hnt Fit (D1 & D2 & D3 & D4 & D5) Hj. pose proof (in_range_exact N E (c_gr c) P0 Hgr Hg3 Hin) as Hr.
  destruct (xyz_sort_total N (c_gr c) P0 ltac:(lia) Hg3 Hr) as (P & ids & offs & HS).
  pose proof (perm_points N _ _ _ _ _ HS) as PP. assert (LP : zlen P = zlen P0) by (unfold zlen; rewrite (Permutation_length PP); reflexivity).
  rewrite <- LP in *. assert (Hc' : dev_cfg_ok c) by (split; auto).
  destruct (exact_knn N E c P0 P ids offs Hc' Hgr Hg3 Hin HS) as [_ HA].
  apply (gpu_same_gen N c P0 P ids offs w); auto.
Qed.
End G.
