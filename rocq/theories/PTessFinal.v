(** C24 - C27 in final form. *)
From Verif Require Import Base Arith PBase Prog PProg MUtils MHeap MXyz MKnn MBoundary MCell MDnn MArgs MTess PFlags PSort PFill PHeap PReloc PHeapFinal
  SpecSort PXyz PSortFinal SpecDnn PDnn SpecBnd PBnd PCellSim PCellRun PCell PCellRow PKnnSafe PSlot PWalk SpecSlot PSlotHost PSlotFinal PPool PRanges PTess PTessRun.
From Verif Require Export SpecParam.
Local Open Scope res_scope.

Lemma chunks_final cs n : 0 <= n ->
  concat (map (fun run => zrange (cstart cs run) (cend cs n run)) (zrange 0 (num_runs cs n))) = zrange 0 n /\
  1 <= num_runs cs n /\
  forall run, 0 <= run < num_runs cs n -> 0 <= cstart cs run <= cend cs n run /\ cend cs n run - cstart cs run <= first_subsize cs n.
Proof.
  intros Hn. split; [now apply chunks_cover|]. split; [now apply num_runs_pos|]. intros run Hr. destruct (chunk_bounds cs n run Hn Hr) as (? & ? & ? & _). lia.
Qed.

Lemma thread_ranges_final nt cap sub : 1 <= nt -> 0 <= sub <= cap ->
  let ranges := map (trange nt (cap / nt) sub) (zrange 0 nt) in
  exists M, sub <= M <= cap /\ concat (map (fun r => zrange (fst r) (snd r)) ranges) = zrange 0 M /\ (sub = cap -> M = sub).
Proof.
  intros Hn Hs. cbv zeta. exists (Z.max sub ((nt - 1) * (cap / nt))).
  assert (0 <= cap / nt) by (apply Z.div_pos; lia). pose proof (Z.mul_div_le cap nt ltac:(lia)).
  assert ((nt - 1) * (cap / nt) <= cap) by nia.
  split; [split; [apply Z.le_max_l|apply Z.max_lub; lia]|]. split.
  - rewrite map_map. apply thread_ranges; lia.
  - intros ->. apply Z.max_l. assumption.
Qed.

Lemma visible_len r : zlen (visible r) <= zlen r.
Proof.
  induction r as [|y l IH]; [reflexivity|]. cbn [visible]. destruct (y =? -32); rewrite ?zlen_cons; [change (zlen (@nil Z)) with 0; pose proof (zlen_nonneg l); lia|lia].
Qed.

Section T.
Variable N : Arith.
Notation F := (F N).

(** any contents of the rows: heap rows hold indices of points *)
Lemma threads_any c (g : grid N) indices cap sub m : cfg_ok c -> sorted_grid N c g -> 1 <= c_nthreads c -> 0 <= sub <= cap ->
  (forall i, 0 <= i < cap -> room (c_k c) (c_pmax c) (c_tmax c) i (zlen (g_pts N g)) m) ->
  (forall x v, znth (m_hid m) x = Some v -> 0 <= v < zlen (g_pts N g)) ->
  (forall x b, znth (m_st m) x = Some b -> 0 <= b < 256) ->
  (forall j, 0 <= j < cap -> exists x, znth indices j = Some x /\ 0 <= x < zlen (g_pts N g)) ->
  (forall i j x, 0 <= i < cap -> 0 <= j < cap -> znth indices i = Some x -> znth indices j = Some x -> i = j) ->
  exists M m', sub <= M <= cap /\
    run (thread_prog N c g indices (0, M)) m = Ok (tt, m') /\
    forall sched, pool_run sched (threads N c g indices (cap / c_nthreads c) sub) m = Ok m'.
Proof.
  intros Hc Hg Hnt Hs Rm Hv Hb Hi Hd. assert (Hc' := Hc). destruct Hc' as (K1 & K2 & K3).
  destruct (thread_ranges_final (c_nthreads c) cap sub Hnt Hs) as (M & HM & HR & _).
  set (body := fun idx => bind (pure_opt (znth indices idx)) (slot_prog N c g idx)).
  set (R := fun (j : Z) (t : @task F) => exists x, znth indices j = Some x /\ t_p t = body j /\ t_W t = own_rows (c_k c) (c_pmax c) (c_tmax c) j x /\ confined m t).
  destruct (Forall2_ex R (zrange 0 M)) as [ts Hts].
  { intros j Hj. apply in_zrange in Hj. destruct (Hi j ltac:(lia)) as (x & E & Hx).
    destruct (host_confined N c g j x m Hc Hg Hx (Rm j ltac:(lia))) as (f & Rf & _).
    - intros d Hdd. destruct (Rm j ltac:(lia)) as (_ & Q & _). destruct (znth_in_range (m_hid m) (c_k c * j + d)) as [v Ev]; [nia|]. eauto.
    - intros b. apply Hb.
    - exists (mkTask (body j) (own_rows (c_k c) (c_pmax c) (c_tmax c) j x) f). exists x. simpl.
      assert (EB : body j = slot_prog N c g j x) by (unfold body; rewrite E; reflexivity).
      do 3 (split; [auto|]). exists f. split; [simpl; rewrite EB; exact Rf|]. intros a i _. reflexivity. }
  assert (Ap : apart ts).
  { apply (apart_from R (zrange 0 M)); [assumption|apply NoDup_zrange|].
    intros i j t u Hi' Hj' Nij (x & Ex & _ & -> & _) (y & Ey & _ & -> & _).
    apply in_zrange in Hi', Hj'. apply rows_disjoint; auto; try lia. intros ->. apply Nij. eapply (Hd i j); eauto; lia. }
  assert (Cf : forall t, In t ts -> confined m t).
  { intros t Ht. destruct (Forall2_in' _ _ _ _ Hts Ht) as (j & _ & (x & _ & _ & _ & Q)). exact Q. }
  assert (Hts2 := Hts). rewrite <- HR in Hts2. apply Forall2_concat in Hts2 as (tss & Et & Htss).
  assert (EP : threads N c g indices (cap / c_nthreads c) sub = map thread_of tss).
  { unfold threads. rewrite <- (map_map (trange (c_nthreads c) (cap / c_nthreads c) sub) (thread_prog N c g indices)).
    revert Htss. generalize (map (trange (c_nthreads c) (cap / c_nthreads c) sub) (zrange 0 (c_nthreads c))). intros ls. clear. revert tss.
    induction ls as [|r ls IH]; intros tss H; inversion H as [|l0 t0 ls0 tss0 HA HB]; subst; [reflexivity|].
    simpl. f_equal; [|now apply IH]. unfold thread_prog. apply forM_tasks.
    eapply Forall2_impl; [|exact HA]. intros j t (x & _ & E & _). exact E. }
  assert (ES : thread_prog N c g indices (0, M) = thread_of ts).
  { unfold thread_prog. simpl. apply forM_tasks. eapply Forall2_impl; [|exact Hts]. intros j t (x & _ & E & _). exact E. }
  rewrite <- Et in Ap, Cf, ES. destruct (threads_det tss m Ap Cf) as (m' & RP & RS & _). exists M, m'. rewrite EP, ES. split; [assumption|]. split; assumption.
Qed.

Lemma results_same c c' (g : grid N) rs : same_kernel c c' -> results N c g rs -> results N c' g rs.
Proof.
  destruct c as [k gr pm tm a1 a2 a3 a4 a5], c' as [k' gr' pm' tm' b1 b2 b3 b4 b5]. unfold same_kernel. simpl. intros (-> & -> & -> & ->) H. exact H.
Qed.
Lemma out_row_same c c' rs : same_kernel c c' -> out_row N c rs = out_row N c' rs.
Proof. intros (E & _). unfold out_row. rewrite E. reflexivity. Qed.

Lemma cpu_path c P0 P ids offs : cfg_ok c -> 0 < c_gr c -> in_range_ids N (c_gr c) P0 -> xyz_sort N (c_gr c) P0 = Ok (P, ids, offs) ->
  exists rows states, zlen rows = zlen P /\ zlen states = zlen P /\ Forall (fun r => zlen r <= c_k c) rows /\
    (forall c' sched tmpnn, same_kernel c c' -> 1 <= c_nthreads c' -> fits c' (zlen P) -> zlen tmpnn = zlen P ->
       cpu_tesellate N sched c' (mkGrid N P ids offs) tmpnn (repeat st_init (List.length P)) = Ok (rows, states)).
Proof.
  intros Hc Hgr Hr HS. set (g := mkGrid N P ids offs).
  assert (Hg : sorted_grid N c g) by (split; [assumption|]; exists P0; auto).
  destruct (results_ex N c g Hc Hg) as [rs Rs]. exists (map (out_row N c rs) (zrange 0 (zlen P))), (map (out_byte N rs) (zrange 0 (zlen P))).
  pose proof (zlen_nonneg P). rewrite !zlen_map, zlen_zrange by assumption. split; [lia|]. split; [lia|]. split.
  - apply Forall_forall. intros r Hi. apply in_map_iff in Hi as (x & <- & Hx). apply in_zrange in Hx. unfold out_row.
    destruct (Rs x Hx) as [(p & Hp & Hh & _ & _ & G) _].
    assert (Lrow : zlen (r_row N (c_k c) (rs x)) = c_k c) by (apply row_after_len; [unfold r_K; rewrite zlen_map; apply Hh|apply G]).
    etransitivity; [apply visible_len|lia].
  - intros c' sched tmpnn Sm Hnt Fit Lt. rewrite (out_row_same c c' rs Sm).
    destruct Sm as (E1 & E2 & E3 & E4). apply (cpu_spec N c' g); auto.
    + unfold cfg_ok. rewrite E1, E3, E4. exact Hc.
    + apply (results_same c); [|assumption]. repeat split; assumption.
Qed.

Lemma total_bound rows k : 0 <= k -> Forall (fun r : list Z => zlen r <= k) rows -> total rows <= k * zlen rows.
Proof.
  intros Hk H. unfold total. induction H as [|r l Hr _ IH]; [unfold zlen; simpl; lia|]. cbn [concat].
  rewrite app_length, zlen_cons. unfold zlen in Hr. lia.
Qed.
Lemma settings_final c P0 P ids offs : cfg_ok c -> 0 < c_gr c -> in_range_ids N (c_gr c) P0 -> xyz_sort N (c_gr c) P0 = Ok (P, ids, offs) ->
  c_k c * zlen P <= int_max ->
  exists o, o_pts N o = P /\ zlen (o_rows N o) = zlen P /\ zlen (o_states N o) = zlen P /\
  forall w c', same_kernel c c' -> c_recompute c' = false -> 1 <= c_nthreads c' -> fits c' (zlen P) ->
    tess_core N w c' cpu P0 = Ok o.
Proof.
  intros Hc Hgr Hr HS Hk. destruct (cpu_path c P0 P ids offs Hc Hgr Hr HS) as (rows & states & L1 & L2 & B & E).
  destruct Hc as (K1 & _).
  assert (TB : total (map visible rows) <= int_max).
  { etransitivity; [apply (total_bound _ (c_k c)); [lia|]|rewrite zlen_map, L1; assumption].
    apply Forall_forall. intros r Hi. apply in_map_iff in Hi as (r0 & <- & Hr0). rewrite Forall_forall in B. pose proof (B r0 Hr0). pose proof (visible_len r0). lia. }
  exists (mkOutcome N P (mkDnn (concat (map visible rows)) (shape (map visible rows))) rows states (stats_of states) (negb (validate_xyzset N P)) (negb (validate_id ids))).
  split; [reflexivity|]. split; [assumption|]. split; [assumption|].
  intros w c' Sm Rc Hnt Fit. unfold tess_core. destruct Sm as (E1 & E2 & E3 & E4). rewrite E2, HS. cbn [rbind run_device].
  rewrite (E c'); [| |assumption|assumption|unfold zlen; rewrite repeat_length; reflexivity].
  - cbn [rbind]. rewrite Rc. cbn [rbind]. rewrite getdnn_ok by assumption. reflexivity.
  - repeat split; assumption.
Qed.
End T.
