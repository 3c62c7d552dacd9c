(** C28, C29 in final form. *)
From Verif Require Import Base Arith PBase Prog PProg MUtils MHeap MXyz MKnn MBoundary MCell MDnn MArgs MTess Exact PExact PFlags SpecDnn PDnn SpecGeom SpecSort SpecBnd SpecKnn SpecVor
  PXyz PGrid PSortFinal PHeap PReloc PHeapFinal PKnnFinal PBnd PBndLoop PCellSim PCellRun PCell PCellRow PKnnSafe PSlot PWalk SpecSlot PSlotHost PTess PTessRun PTessFinal
  PGeomCone PGeomPoly PGeomWalk PGeomFinal PRec.
From Coq Require Import Permutation.
From Verif Require Export SpecParam SpecResult.
Local Open Scope res_scope.

(** ** C28: rounds that go on *)
Section C28.
Variable N : Arith.
Variable g : grid N.
Notation n := (zlen (g_pts N g)).
Notation rstate := (cfg * list Z * list (list Z) * list Z)%type.

Notation goes_on := (goes_on N g).

Lemma round_k sched c ind rows st ind1 st1 rows1 c1 :
  recompute_round N sched c g ind rows st = Ok (ind1, st1, rows1, c1, false) -> c_k c1 = c_k c * 2 /\ c_k c * 2 < n - 1.
Proof.
  unfold recompute_round. intros H. destruct (zlen (filter (not_reached st) ind) <=? 0); [discriminate|].
  destruct (chk (c_k c * 2)) as [k2|] eqn:Ek; [|discriminate]. cbn [rbind] in H.
  assert (k2 = c_k c * 2). { unfold chk in Ek. destruct (Base.in_int _) in Ek; congruence. } subst k2.
  destruct (chk (c_pmax c * _)) as [p|] in H; [|discriminate]. cbn [rbind] in H. destruct (chk (c_tmax c * _)) as [t|] in H; [|discriminate]. cbn [rbind] in H.
  destruct (buffers _ _ _ _) as [m|] in H; [|discriminate]. cbn [rbind] in H. destruct (thread_size _ _) as [ts|] in H; [|discriminate]. cbn [rbind] in H.
  destruct (pool_run _ _ _) as [m'|] in H; [|discriminate]. cbn [rbind] in H. destruct (tmpnn_fill _ _ _ _ _) as [t'|] in H; [|discriminate]. cbn [rbind] in H.
  injection H as _ _ _ <- H. simpl. destruct (Z.ltb_spec (n - 1) (c_k c * 2)); apply Z.leb_gt in H; lia.
Qed.

Lemma goes_on_k j s s' : goes_on j s s' -> let '(c, _, _, _) := s in let '(c', _, _, _) := s' in
  c_k c' = c_k c * 2 ^ Z.of_nat j /\ ((0 < j)%nat -> c_k c * 2 ^ Z.of_nat j < n - 1).
Proof.
  induction 1 as [[[[c ind] rows] st]|j sched c ind rows st c1 ind1 rows1 st1 [[[c' i'] r'] t'] R G IH].
  - split; [change (2 ^ Z.of_nat 0) with 1; lia|lia].
  - apply round_k in R as [R1 R2]. destruct IH as [I1 I2]. replace (Z.of_nat (S j)) with (Z.succ (Z.of_nat j)) by lia. rewrite Z.pow_succ_r by lia.
    split; [rewrite I1, R1; ring|]. intros _. destruct j as [|j]; [change (2 ^ Z.of_nat 0) with 1; lia|]. specialize (I2 ltac:(lia)). rewrite R1 in I2. lia.
Qed.

Lemma rounds_final j c ind rows st s' : goes_on j (c, ind, rows, st) s' -> 1 <= c_k c -> (0 < j)%nat ->
  c_k c * 2 ^ Z.of_nat j < n - 1 /\ Z.of_nat j < n.
Proof.
  intros G Hk Hj. pose proof (goes_on_k _ _ _ G) as H. destruct s' as [[[c' i'] r'] t']. destruct H as [_ H]. specialize (H Hj). split; [assumption|].
  pose proof (Z.pow_gt_lin_r 2 (Z.of_nat j) ltac:(lia) ltac:(lia)). nia.
Qed.

(** the model's bound on the number of rounds is never the reason to stop *)
Lemma fuel_final fuel sched c ind rows st : 1 <= c_k c -> (0 < fuel)%nat -> n - 1 <= c_k c * 2 ^ Z.of_nat fuel ->
  recompute_loop N fuel sched c g ind rows st = Err EDiverge ->
  exists j c' ind' rows' st' sched', goes_on j (c, ind, rows, st) (c', ind', rows', st') /\ recompute_round N sched' c' g ind' rows' st' = Err EDiverge.
Proof.
  revert c ind rows st. induction fuel as [|fuel IH]; intros c ind rows st Hk Hf Hp H; [lia|]. cbn [recompute_loop] in H.
  destruct (recompute_round N (sched fuel) c g ind rows st) as [[[[[ind1 st1] rows1] c1] stop]|e] eqn:R; cbn [rbind] in H.
  - destruct stop; [discriminate|]. pose proof (round_k _ _ _ _ _ _ _ _ _ R) as [R1 R2].
    replace (Z.of_nat (S fuel)) with (Z.succ (Z.of_nat fuel)) in Hp by lia. rewrite Z.pow_succ_r in Hp by lia.
    destruct (IH c1 ind1 rows1 st1) as (j & c' & i' & r' & t' & s' & G & E).
    + lia.
    + destruct fuel; [|lia]. change (2 ^ Z.of_nat 0) with 1 in Hp. lia.
    + rewrite R1. lia.
    + exact H.
    + exists (S j), c', i', r', t', s'. split; [eapply on_S; eauto|assumption].
  - injection H as ->. exists 0%nat, c, ind, rows, st, (sched fuel). split; [constructor|assumption].
Qed.
End C28.

Lemma mul_le3 a b p w : 0 <= a <= b -> 0 <= p -> 1 <= w -> a * p <= b * p * w.
Proof. intros. assert (a * p <= b * p) by nia. assert (0 <= b * p) by nia. nia. Qed.
Lemma mul_ge1 a k w : a <= w -> 1 <= k -> 1 <= w -> a - 1 <= k * w.
Proof. intros. nia. Qed.

Section G.
Variable N : Arith.

(** ** rows and states of a run with recompute *)
Section Rec.
Variable g : grid N.
Notation n := (zlen (g_pts N g)).

(** where row x comes from *)
Definition from_slot (gr x : Z) (row : list Z) (b : Z) (c : cfg) (rs : Z -> sres N) : Prop :=
  cfg_ok c /\ c_gr c = gr /\ results N c g rs /\ row = out_row N c rs x /\ b = out_byte N rs x.
Definition row_done (gr x : Z) (row : list Z) : Prop :=
  exists c rs b, from_slot gr x row b c rs /\ validated (c_k c) n b.

Lemma from_slot_mk gr x c rs : cfg_ok c -> c_gr c = gr -> results N c g rs -> from_slot gr x (out_row N c rs x) (out_byte N rs x) c rs.
Proof. intros A B C. exact (conj A (conj B (conj C (conj eq_refl eq_refl)))). Qed.

Lemma reached_byte rs x : st_get (out_byte N rs x) security_radius_reached = true -> validated 0 n (out_byte N rs x).
Proof.
  unfold out_byte, r_byte. generalize (r_cl N (rs x)), (r_o N (rs x)). intros cl o. unfold validated, errorless. destruct cl, o; vm_compute; try discriminate; intuition.
Qed.

Lemma row_at (rows : list (list Z)) x : 0 <= x < zlen rows -> match znth rows x with Some r => znth rows x = Some r | None => False end.
Proof. intros H. destruct (znth_in_range rows x H) as [r E]. rewrite E. reflexivity. Qed.

Lemma rec_rows_on (G : Z -> Prop) gr c ind st rows rows' st' : rec_run N g c ind st rows rows' st' -> c_gr c = gr -> ind_ok N g ind -> zlen st = n -> zlen rows = n ->
  (forall x row, 0 <= x < n -> G x -> znth rows x = Some row -> ~ In x (todo ind st) -> row_done gr x row) ->
  zlen rows' = n /\ zlen st' = n /\
  forall x row b, 0 <= x < n -> G x -> znth rows' x = Some row -> znth st' x = Some b ->
    row_done gr x row \/ (~ errorless b /\ exists c rs, from_slot gr x row b c rs /\ n - 1 <= c_k c).
Proof.
  induction 1 as [c ind st rows E|c ind st rows rs c' ind' Ne Hc Fi Rs Hk|c ind st rows rs rows' st' c' ind' Ne Hc Fi Rs Hk RR IH]; intros Hgr Hi Ls Lr Inv.
  - split; [assumption|]. split; [rewrite zlen_map; assumption|]. intros x row b Hx HG Hrow _. left. apply Inv; auto. rewrite E. auto.
  - split; [apply new_rows_len|]. split; [apply new_states_len|]. intros x row b Hx HG Hrow Hb. rewrite new_rows_at in Hrow by assumption. rewrite new_states_at in Hb by assumption.
    destruct (mem_z ind' x) eqn:Mx.
    + injection Hrow as <-. injection Hb as <-.
      assert (FS : from_slot gr x (out_row N c' rs x) (out_byte N rs x) c' rs) by (apply from_slot_mk; assumption).
      assert (D : errorless (out_byte N rs x) \/ ~ errorless (out_byte N rs x)).
      { unfold errorless. destruct (Z.testbit (out_byte N rs x) 1), (Z.testbit (out_byte N rs x) 4), (Z.testbit (out_byte N rs x) 5), (Z.testbit (out_byte N rs x) 6); intuition discriminate. }
      destruct D as [D|D]; [left; exists c', rs, (out_byte N rs x); split; [exact FS|split; [exact D|right; exact Hk]]|right; split; [exact D|eauto]].
    + left. apply mem_z_nin in Mx. pose proof (row_at rows x ltac:(lia)) as RA. destruct (znth rows x) as [r|] eqn:Er; [|destruct RA]. injection Hrow as <-. apply (Inv x r); auto.
  - apply IH; auto.
    + now apply todo_ok.
    + apply new_states_len.
    + apply new_rows_len.
    + intros x row Hx HG Hrow Hn. rewrite new_rows_at in Hrow by assumption. destruct (mem_z ind' x) eqn:Mx.
      * apply mem_z_in in Mx as Ix. injection Hrow as <-. exists c', rs, (out_byte N rs x). split; [apply from_slot_mk; auto|].
        assert (R : st_get (out_byte N rs x) security_radius_reached = true).
        { destruct (st_get (out_byte N rs x) security_radius_reached) eqn:Q; [reflexivity|]. exfalso. apply Hn. unfold todo. apply filter_In. split; [assumption|].
          unfold not_reached. rewrite new_states_at by assumption. rewrite Mx, Q. reflexivity. }
        apply reached_byte in R. destruct R as [R1 R2]. split; [assumption|]. left. destruct R2 as [R2|R2]; [assumption|].
        pose proof (zlen_nonneg (g_pts N g)). destruct Hc as (K1 & _). exfalso. lia.
      * apply mem_z_nin in Mx. pose proof (row_at rows x ltac:(lia)) as RA. destruct (znth rows x) as [r|] eqn:Er; [|destruct RA]. injection Hrow as <-. apply (Inv x r); auto.
Qed.

Lemma todo_idem st l : todo (todo l st) st = todo l st.
Proof. unfold todo. induction l as [|x l IH]; [reflexivity|]. simpl. destruct (not_reached st x) eqn:Q; simpl; rewrite ?Q; congruence. Qed.

(** shape of the rows: cut at the sentinel, short *)
Definition short (L : Z) (row : list Z) : Prop := visible row = row /\ zlen row <= L.
Lemma visible_idem l : visible (visible l) = visible l.
Proof. induction l as [|a l IH]; [reflexivity|]. simpl. destruct (a =? -32) eqn:Q; [reflexivity|]. simpl. rewrite Q. congruence. Qed.
Lemma out_short c rs x : cfg_ok c -> results N c g rs -> 0 <= x < n -> short (c_k c) (out_row N c rs x).
Proof.
  intros Hc Rs Hx. split; [apply visible_idem|]. unfold out_row. destruct (Rs x Hx) as [(p & Hp & Hh & _ & _ & G) _].
  assert (Lrow : zlen (r_row N (c_k c) (rs x)) = c_k c) by (apply row_after_len; [unfold r_K; rewrite zlen_map; apply Hh|apply G]).
  etransitivity; [apply visible_len|lia].
Qed.
Lemma rec_short L c ind st rows rows' st' : rec_run N g c ind st rows rows' st' -> ind_ok N g ind -> n <= L -> zlen rows = n ->
  (forall x row, znth rows x = Some row -> short L row) -> forall x row, znth rows' x = Some row -> short L row.
Proof.
  assert (Q : forall c ind st rows rs, cfg_ok (next_cfg n ind st c) -> results N (next_cfg n ind st c) g rs -> ind_ok N g ind -> n <= L -> zlen rows = n ->
    (forall x row, znth rows x = Some row -> short L row) -> forall x row, znth (new_rows N g (next_cfg n ind st c) (todo ind st) rs rows) x = Some row -> short L row).
  { clear. intros c ind st rows rs Hc Rs Hi HL Lr H x row Hrow. pose proof (znth_some _ _ _ Hrow) as Hx. rewrite new_rows_len in Hx. rewrite new_rows_at in Hrow by assumption.
    destruct (mem_z (todo ind st) x).
    - injection Hrow as <-. destruct (out_short _ rs x Hc Rs Hx) as [A B]. split; [assumption|]. etransitivity; [exact B|].
      unfold next_cfg, set_kpt, next_k. simpl. destruct (Z.ltb_spec (n - 1) (c_k c * 2)); lia.
    - pose proof (row_at rows x ltac:(lia)) as RA. destruct (znth rows x) as [r|] eqn:Er; [|destruct RA]. injection Hrow as <-. eauto. }
  induction 1 as [c ind st rows E|c ind st rows rs c' ind' Ne Hc Fi Rs Hk|c ind st rows rs rows' st' c' ind' Ne Hc Fi Rs Hk RR IH]; intros Hi HL Lr H.
  - exact H.
  - apply Q; assumption.
  - apply IH; auto; [now apply todo_ok|apply new_rows_len|]. apply Q; assumption.
Qed.
End Rec.

Lemma rec_ok_cfg r c n : rec_ok r c n -> cfg_ok c.
Proof.
  intros (A & B & _ & _ & K & P1 & P2 & T1 & T2 & _). assert (1 <= 2 ^ r) by (apply (Z.pow_le_mono_r 2 0 r); lia). unfold cfg_ok.
  assert (c_pmax c <= c_pmax c * 2 ^ r) by nia. assert (c_tmax c <= c_tmax c * 2 ^ r) by nia. lia.
Qed.

(** any states of the first run; the rows are settled where a set bit 0 is the cell's own *)
Lemma rec_core_any (G : Z -> Prop) c P0 P ids offs rs st rows' st' : cfg_ok c -> 2 <= zlen P -> zlen P * c_k c <= int_max -> zlen P * zlen P <= int_max ->
  zlen P * c_pmax c * 4 <= int_max -> zlen P * c_tmax c * 3 <= int_max ->
  0 < c_gr c -> in_range_ids N (c_gr c) P0 -> xyz_sort N (c_gr c) P0 = Ok (P, ids, offs) ->
  let g := mkGrid N P ids offs in
  let rows := map (out_row N c rs) (zrange 0 (zlen P)) in zlen st = zlen P ->
  (forall x b, G x -> znth st x = Some b -> st_get b security_radius_reached = true -> st_get (out_byte N rs x) security_radius_reached = true) ->
  results N c g rs -> rec_run N g c (todo (zrange 0 (zlen P)) st) st rows rows' st' ->
  exists o, o_pts N o = P /\ o_states N o = st' /\ o_rows N o = rows' /\ zlen (o_rows N o) = zlen P /\ zlen (o_states N o) = zlen P /\
    getdnn (o_rows N o) = Ok (o_dnn N o) /\ map visible (o_rows N o) = o_rows N o /\ total (o_rows N o) <= int_max /\
    (forall x row b, G x -> znth (o_rows N o) x = Some row -> znth (o_states N o) x = Some b ->
       row_done g (c_gr c) x row \/ (~ errorless b /\ exists c' rs, from_slot g (c_gr c) x row b c' rs /\ zlen P - 1 <= c_k c')) /\
    forall w c' dev, same_kernel c c' -> c_recompute c' = true -> 1 <= c_nthreads c' ->
      run_device N w c' g dev (repeat [] (List.length P)) (repeat st_init (List.length P)) = Ok (rows, st) -> tess_core N w c' dev P0 = Ok o.
Proof.
  intros Hc R2 NK NN NP NT Hgr Hr HS g rows Lst Own Rs RR. assert (Hc' := Hc). destruct Hc' as (K & P1 & T1).
  assert (Hg : sorted_grid N c g) by (split; [assumption|]; exists P0; auto).
  pose proof (zlen_nonneg P) as Hn.
  set (ind := todo (zrange 0 (zlen P)) st) in *.
  assert (Lrows : zlen rows = zlen P) by (unfold rows; rewrite zlen_map, zlen_zrange; lia).
  assert (I0 : ind_ok N g (zrange 0 (zlen P))). { split; [apply NoDup_zrange|]. intros x Hx. apply in_zrange in Hx. exact Hx. }
  pose proof (todo_ok N g _ st I0) as Hi. fold ind in Hi.
  destruct (rec_rows_on g G (c_gr c) c ind st rows rows' st' RR eq_refl Hi Lst Lrows) as (Lr' & Ls' & Q).
  { intros x row Hx HG Hrow Hn'. unfold ind in Hn'. rewrite todo_idem in Hn'. unfold rows in Hrow. simpl in Hx. rewrite znth_map, znth_zrange in Hrow by lia. rewrite Z.add_0_l in Hrow. injection Hrow as <-.
    exists c, rs, (out_byte N rs x). split; [apply from_slot_mk; auto|].
    destruct (znth_in_range st x ltac:(lia)) as [b Zx].
    assert (R : st_get (out_byte N rs x) security_radius_reached = true).
    { apply (Own x b HG Zx). destruct (st_get b security_radius_reached) eqn:Q; [reflexivity|]. exfalso. apply Hn'. unfold todo. apply filter_In. split; [apply in_zrange; lia|].
      unfold not_reached. rewrite Zx, Q. reflexivity. }
    apply reached_byte with (g := g) in R. destruct R as [E [B|B]]; split; auto. simpl in B. lia. }
  set (L := Z.max (c_k c) (zlen P)).
  assert (SH : forall x row, znth rows' x = Some row -> short L row).
  { apply (rec_short g L c ind st rows rows' st' RR Hi); [unfold L; simpl; lia|assumption|]. intros x row Hx. pose proof (znth_some _ _ _ Hx) as Rx. rewrite Lrows in Rx.
    unfold rows in Hx. rewrite znth_map, znth_zrange in Hx by lia. rewrite Z.add_0_l in Hx. injection Hx as <-. destruct (out_short g c rs x Hc Rs Rx) as [A B]. split; [assumption|]. unfold L. lia. }
  assert (VR : map visible rows' = rows').
  { rewrite <- (map_id rows') at 2. apply map_ext_in. intros row Hx. apply in_znth in Hx as (x & _ & Hx). apply (SH x row Hx). }
  assert (TB : total rows' <= int_max).
  { etransitivity; [apply (total_bound _ L); [unfold L; lia|]|].
    - apply Forall_forall. intros row Hx. apply in_znth in Hx as (x & _ & Hx). apply (SH x row Hx).
    - rewrite Lr'. simpl g_pts. unfold L. destruct (Z.max_spec (c_k c) (zlen P)) as [[_ ->]|[_ ->]]; lia. }
  exists (mkOutcome N P (mkDnn (concat (map visible rows')) (shape (map visible rows'))) rows' st' (stats_of st') (negb (validate_xyzset N P)) (negb (validate_id ids))).
  split; [reflexivity|]. split; [reflexivity|]. split; [reflexivity|]. split; [assumption|]. split; [assumption|]. split; [simpl; apply getdnn_ok; rewrite VR; assumption|]. split; [exact VR|]. split; [exact TB|]. split.
  - simpl. intros x row b HG Hrow Hb. apply Q; auto. pose proof (znth_some _ _ _ Hrow) as Rx. rewrite Lr' in Rx. exact Rx.
  - intros w c' dev Sm Rc Hnt Run. unfold tess_core. assert (Sm' := Sm). destruct Sm' as (E1 & E2 & E3 & E4). rewrite E2, HS. cbn [rbind].
    change (mkGrid N P ids offs) with g. rewrite Run. cbn [rbind]. rewrite Rc.
      assert (CR : cpu_recompute N (w_rsched N w) c' g rows st = Ok (rows', st')).
      { unfold cpu_recompute. change (filter (not_reached st) (zrange 0 (zlen (g_pts N g)))) with ind.
        assert (Li : zlen ind <= zlen P).
        { assert (Ql : (List.length ind <= List.length (zrange 0 (zlen P)))%nat) by (apply NoDup_incl_length; [apply Hi|]; intros x Hx; apply in_zrange; now apply Hi).
          assert (Q2 : zlen (zrange 0 (zlen P)) = zlen P) by (rewrite zlen_zrange; lia). rewrite <- Q2. unfold zlen at 1 2. lia. }
        pose proof (zlen_nonneg ind) as Li0.
        assert (SK : zlen ind * c_k c <= zlen P * c_k c) by (apply Z.mul_le_mono_nonneg_r; lia).
        assert (SP : zlen ind * c_pmax c <= zlen P * c_pmax c) by (apply Z.mul_le_mono_nonneg_r; lia).
        assert (ST : zlen ind * c_tmax c <= zlen P * c_tmax c) by (apply Z.mul_le_mono_nonneg_r; lia).
        rewrite (buffers_ok N c'); [|apply (same_cfg_ok c); assumption|assumption|rewrite E1; lia|rewrite E3; lia|rewrite E4; lia]. cbn [rbind].
        apply (loop_follows N g c ind st rows rows' st' RR); auto; try lia.
        simpl g_pts. change (List.length P) with (List.length P). 
        assert (zlen P < 2 ^ Z.of_nat (List.length P + 2)).
        { etransitivity; [apply (Z.pow_gt_lin_r 2); lia|]. apply Z.pow_lt_mono_r; try lia. unfold zlen. lia. }
        apply mul_ge1; lia. }
      rewrite CR. cbn [rbind]. rewrite getdnn_ok by (rewrite VR; assumption). reflexivity.
Qed.
Lemma rec_core_rows c P0 P ids offs rs rows' st' : cfg_ok c -> 2 <= zlen P -> zlen P * c_k c <= int_max -> zlen P * zlen P <= int_max ->
  zlen P * c_pmax c * 4 <= int_max -> zlen P * c_tmax c * 3 <= int_max ->
  0 < c_gr c -> in_range_ids N (c_gr c) P0 -> xyz_sort N (c_gr c) P0 = Ok (P, ids, offs) ->
  let g := mkGrid N P ids offs in
  let rows := map (out_row N c rs) (zrange 0 (zlen P)) in let st := map (out_byte N rs) (zrange 0 (zlen P)) in
  results N c g rs -> rec_run N g c (todo (zrange 0 (zlen P)) st) st rows rows' st' ->
  exists o, o_pts N o = P /\ o_states N o = st' /\ o_rows N o = rows' /\ zlen (o_rows N o) = zlen P /\ zlen (o_states N o) = zlen P /\
    getdnn (o_rows N o) = Ok (o_dnn N o) /\ map visible (o_rows N o) = o_rows N o /\ total (o_rows N o) <= int_max /\
    (forall x row b, znth (o_rows N o) x = Some row -> znth (o_states N o) x = Some b ->
       row_done g (c_gr c) x row \/ (~ errorless b /\ exists c' rs, from_slot g (c_gr c) x row b c' rs /\ zlen P - 1 <= c_k c')) /\
    forall w c', same_kernel c c' -> c_recompute c' = true -> 1 <= c_nthreads c' -> fits c' (zlen P) -> tess_core N w c' cpu P0 = Ok o.
Proof.
  intros Hc R2 NK NN NP NT Hgr Hr HS g rows st Rs RR. pose proof (zlen_nonneg P) as Hn.
  assert (Lst : zlen st = zlen P) by (unfold st; rewrite zlen_map, zlen_zrange; lia).
  destruct (rec_core_any (fun _ => True) c P0 P ids offs rs st rows' st' Hc R2 NK NN NP NT Hgr Hr HS Lst) as (o & A1 & A2 & A3 & A4 & A5 & A6 & A7 & A8 & A9 & RUN); auto.
  { intros x b _ Zx. pose proof (znth_some _ _ _ Zx) as Hx. unfold st in Zx. rewrite znth_map, znth_zrange in Zx by lia. rewrite Z.add_0_l in Zx. injection Zx as <-. auto. }
  exists o. do 8 (split; [assumption|]). split; [intros x row b; apply A9; exact I|].
  intros w c' Sm Rc Hnt Fit. apply RUN; auto. cbn [run_device]. change (mkGrid N P ids offs) with g.
  unfold rows. rewrite (out_row_same N c c' rs Sm). apply (cpu_spec N c' g).
  - apply (same_cfg_ok c); assumption.
  - assumption.
  - apply (results_same N c); assumption.
  - exact Fit.
  - unfold zlen. rewrite repeat_length. reflexivity.
Qed.
Lemma rec_core_run c P0 P ids offs rs rows' st' : cfg_ok c -> 2 <= zlen P -> zlen P * c_k c <= int_max -> zlen P * zlen P <= int_max ->
  zlen P * c_pmax c * 4 <= int_max -> zlen P * c_tmax c * 3 <= int_max ->
  0 < c_gr c -> in_range_ids N (c_gr c) P0 -> xyz_sort N (c_gr c) P0 = Ok (P, ids, offs) ->
  let g := mkGrid N P ids offs in
  let rows := map (out_row N c rs) (zrange 0 (zlen P)) in let st := map (out_byte N rs) (zrange 0 (zlen P)) in
  results N c g rs -> rec_run N g c (todo (zrange 0 (zlen P)) st) st rows rows' st' ->
  exists o, o_pts N o = P /\ o_states N o = st' /\ zlen (o_rows N o) = zlen P /\ zlen (o_states N o) = zlen P /\
    getdnn (o_rows N o) = Ok (o_dnn N o) /\ map visible (o_rows N o) = o_rows N o /\ total (o_rows N o) <= int_max /\
    (forall x row b, znth (o_rows N o) x = Some row -> znth (o_states N o) x = Some b ->
       row_done g (c_gr c) x row \/ (~ errorless b /\ exists c' rs, from_slot g (c_gr c) x row b c' rs /\ zlen P - 1 <= c_k c')) /\
    forall w c', same_kernel c c' -> c_recompute c' = true -> 1 <= c_nthreads c' -> fits c' (zlen P) -> tess_core N w c' cpu P0 = Ok o.
Proof.
  intros Hc R2 NK NN NP NT Hgr Hr HS g rows st Rs RR. destruct (rec_core_rows c P0 P ids offs rs rows' st' Hc R2 NK NN NP NT Hgr Hr HS Rs RR) as (o & A & B & _ & C). exists o. auto.
Qed.

Lemma rec_core r c P0 P ids offs : rec_ok r c (zlen P) -> 0 < c_gr c -> in_range_ids N (c_gr c) P0 -> xyz_sort N (c_gr c) P0 = Ok (P, ids, offs) ->
  let g := mkGrid N P ids offs in
  exists o, o_pts N o = P /\ zlen (o_rows N o) = zlen P /\ zlen (o_states N o) = zlen P /\
    getdnn (o_rows N o) = Ok (o_dnn N o) /\ map visible (o_rows N o) = o_rows N o /\ total (o_rows N o) <= int_max /\
    (forall x row b, znth (o_rows N o) x = Some row -> znth (o_states N o) x = Some b ->
       row_done g (c_gr c) x row \/ (~ errorless b /\ exists c' rs, from_slot g (c_gr c) x row b c' rs /\ zlen P - 1 <= c_k c')) /\
    forall w c', same_kernel c c' -> c_recompute c' = true -> 1 <= c_nthreads c' -> fits c' (zlen P) -> tess_core N w c' cpu P0 = Ok o.
Proof.
  intros HR Hgr Hr HS g. pose proof (rec_ok_cfg _ _ _ HR) as Hc. destruct HR as (R1 & R2 & R3 & R4 & K & P1 & P2 & T1 & T2 & NK & NN & NP & NT).
  assert (W1 : 1 <= 2 ^ r) by (apply (Z.pow_le_mono_r 2 0 r); lia).
  assert (Hg : sorted_grid N c g) by (split; [assumption|]; exists P0; auto).
  destruct (results_ex N c g Hc Hg) as [rs Rs].
  set (st := map (out_byte N rs) (zrange 0 (zlen P))).
  assert (I0 : ind_ok N g (zrange 0 (zlen P))). { split; [apply NoDup_zrange|]. intros x Hx. apply in_zrange in Hx. exact Hx. }
  pose proof (todo_ok N g _ st I0) as Hi.
  destruct (rec_run_ex N g (Z.to_nat r) c (todo (zrange 0 (zlen P)) st) st (map (out_row N c rs) (zrange 0 (zlen P))) Hg) as (rows' & st' & RR); auto; try lia.
  { unfold grow_ok. rewrite Z2Nat.id by lia. simpl g_pts. lia. }
  assert (NP' : zlen P * c_pmax c <= zlen P * c_pmax c * 2 ^ r) by (apply mul_le3; lia).
  assert (NT' : zlen P * c_tmax c <= zlen P * c_tmax c * 2 ^ r) by (apply mul_le3; lia).
  destruct (rec_core_run c P0 P ids offs rs rows' st' Hc R2 NK NN ltac:(lia) ltac:(lia) Hgr Hr HS Rs RR) as (o & A1 & _ & A). exists o. split; [exact A1|exact A].
Qed.
End G.
