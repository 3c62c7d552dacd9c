(** tesellate with a user's parameters; the summary. *)
From Verif Require Import Base Arith PBase Prog MUtils MHeap MXyz MKnn MBoundary MCell MDnn MArgs MTess PFlags Exact PExact SpecGeom SpecVor SpecRows PGrid SpecMain PArgs PMain SpecApi
  PGeomFinal PRecGeom PNoFailApi PExactApi PCanon.
From Coq Require Import String Permutation.
Local Open Scope string_scope.
Local Open Scope Z_scope.

Lemma last_in key ops v : last_value key ops = Some v -> In (key, v) ops.
Proof.
  induction ops as [|[k u] ops IH] using rev_ind; [discriminate|]. unfold last_value. rewrite fold_left_app. cbn [fold_left]. destruct (String.eqb k key) eqn:Q.
  - intros [= ->]. apply String.eqb_eq in Q as ->. apply in_or_app. right. now left.
  - intros H. apply in_or_app. left. now apply IH.
Qed.

Section Typed.
Variable ops : list (string * argval).
Hypothesis HT : well_typed ops.

Lemma typed_int key v : In key int_keys -> last_value key ops = Some v -> exists z, v = VInt z /\ int_min <= z <= int_max.
Proof.
  intros Hk H. apply last_in in H. unfold well_typed in HT. rewrite Forall_forall in HT. destruct (HT _ H) as [[_ (z & E & R)]|[B _]]; [simpl in E; eauto|].
  simpl in B, Hk. exfalso. repeat (destruct Hk as [<-|Hk]; [repeat (destruct B as [B|B]; [discriminate|]); contradiction|]). contradiction.
Qed.
Lemma typed_bool key v : In key bool_keys -> last_value key ops = Some v -> exists b, v = VBool b.
Proof.
  intros Hk H. apply last_in in H. unfold well_typed in HT. rewrite Forall_forall in HT. destruct (HT _ H) as [[B _]|[_ (b & E)]]; [|simpl in E; eauto].
  simpl in B, Hk. exfalso. repeat (destruct Hk as [<-|Hk]; [repeat (destruct B as [B|B]; [discriminate|]); contradiction|]). contradiction.
Qed.
Lemma typed_known : Forall (fun o => In (fst o) (keys args_init)) ops.
Proof.
  eapply Forall_impl; [|exact HT]. intros [k v] [[H _]|[H _]]; simpl in *; tauto.
Qed.

Variable a : vtargs.
Hypothesis HA : run_assign args_init ops = Ok a.

Lemma find_int key d : In key int_keys -> args_find args_init key = Ok (show_int d) -> int_min <= d <= int_max ->
  args_find a key = Ok (show_int (int_of key d ops)) /\ int_min <= int_of key d ops <= int_max.
Proof.
  intros Hk Hd Rd. rewrite (run_assign_find ops _ _ key HA). unfold int_of. destruct (last_value key ops) as [v|] eqn:L; [|auto].
  destruct (typed_int key v Hk L) as (z & -> & R). auto.
Qed.
Lemma find_bool key d : In key bool_keys -> args_find args_init key = Ok (to_str (VBool d)) -> args_find a key = Ok (to_str (VBool (bool_of key d ops))).
Proof.
  intros Hk Hd. rewrite (run_assign_find ops _ _ key HA). unfold bool_of. destruct (last_value key ops) as [v|] eqn:L; [|auto].
  destruct (typed_bool key v Hk L) as (b & ->). reflexivity.
Qed.

Lemma cfg_read hwc : read_cfg hwc a = Ok (api_cfg hwc ops) /\ exists b, get_bool a "dev_suppress_stdout" = Ok b.
Proof.
  destruct (find_int "k" 64 ltac:(simpl; tauto) eq_refl ltac:(unfold int_min, int_max; lia)) as [F1 R1].
  destruct (find_int "knn_grid_resolution" 16 ltac:(simpl; tauto) eq_refl ltac:(unfold int_min, int_max; lia)) as [F2 R2].
  destruct (find_int "cc_p_maxsize" 32 ltac:(simpl; tauto) eq_refl ltac:(unfold int_min, int_max; lia)) as [F3 R3].
  destruct (find_int "cc_t_maxsize" 32 ltac:(simpl; tauto) eq_refl ltac:(unfold int_min, int_max; lia)) as [F4 R4].
  destruct (find_int "cpu_nthreads" 0 ltac:(simpl; tauto) eq_refl ltac:(unfold int_min, int_max; lia)) as [F5 R5].
  destruct (find_int "gpu_ndsize" 1 ltac:(simpl; tauto) eq_refl ltac:(unfold int_min, int_max; lia)) as [F6 R6].
  destruct (find_int "chunksize" 8196 ltac:(simpl; tauto) eq_refl ltac:(unfold int_min, int_max; lia)) as [F7 R7].
  pose proof (find_bool "use_chunking" false ltac:(simpl; tauto) eq_refl) as F8. pose proof (find_bool "use_recompute" false ltac:(simpl; tauto) eq_refl) as F9.
  pose proof (find_bool "dev_suppress_stdout" true ltac:(simpl; tauto) eq_refl) as F10. split.
  - unfold read_cfg, get_nthreads, get_int, get_bool. rewrite F1. cbn [rbind]. rewrite from_int_show by assumption. cbn [rbind]. rewrite F2. cbn [rbind]. rewrite from_int_show by assumption. cbn [rbind].
    rewrite F3. cbn [rbind]. rewrite from_int_show by assumption. cbn [rbind]. rewrite F4. cbn [rbind]. rewrite from_int_show by assumption. cbn [rbind].
    rewrite F5. cbn [rbind]. rewrite threads_show by assumption. cbn [rbind]. rewrite F6. cbn [rbind]. rewrite from_int_show by assumption. cbn [rbind].
    rewrite F8. cbn [rbind]. rewrite get_bool_show. cbn [rbind]. rewrite F7. cbn [rbind]. rewrite from_int_show by assumption. cbn [rbind]. rewrite F9. cbn [rbind]. rewrite get_bool_show. reflexivity.
  - eexists. unfold get_bool. rewrite F10. cbn [rbind]. apply get_bool_show.
Qed.
End Typed.

Lemma api_reads ops : well_typed ops -> exists a, run_assign args_init ops = Ok a /\
  forall (N : Arith) (w : world N) dev pts, tesellate N w a dev pts = tess_core N w (api_cfg (w_hwc N w) ops) dev pts.
Proof.
  intros HT. destruct (run_assign_ok ops args_init (typed_known ops HT)) as (a & HA & _). exists a. split; [assumption|]. intros N w dev pts.
  destruct (cfg_read ops HT a HA (w_hwc N w)) as (R & b & B). unfold tesellate. rewrite B. cbn [rbind]. rewrite R. reflexivity.
Qed.

Lemma api_end_to_end (N : Arith) (E : Exact N) (w : world N) ops P0 : well_typed ops -> enough N E (api_cfg (w_hwc N w) ops) P0 ->
  exists a o, run_assign args_init ops = Ok a /\ tesellate N w a cpu P0 = Ok o /\ complete N E P0 o.
Proof.
  intros HT HE. destruct (api_reads ops HT) as (a & HA & T). destruct (enough_complete N E w _ P0 HE) as (o & R & C). exists a, o. split; [assumption|]. split; [|assumption]. now rewrite T.
Qed.

Lemma default_exact (N : Arith) (E : Exact N) (w : world N) P0 : 1 <= w_hwc N w -> (forall q, In q P0 -> inside N E q) -> zlen P0 <= 13 ->
  exists o, tesellate N w args_init cpu P0 = Ok o /\ complete N E P0 o.
Proof.
  intros Hw Hin Hn. pose proof (zlen_nonneg P0). destruct (api_end_to_end N E w [] P0) as (a & o & A & T & C); [constructor| |injection A as <-; eauto]. left.
  unfold api_cfg, int_of, bool_of. cbn [last_value fold_left Z.eqb].
  split; [|split; [unfold roomy; cbn [c_pmax c_tmax]; lia|cbn [c_k]; lia]].
  unfold api_ok, SpecParam.cfg_ok, SpecParam.fits, SpecParam.chunk_of. cbn [c_k c_gr c_pmax c_tmax c_recompute c_nthreads c_use_chunking].
  split; [lia|]. split; [lia|]. split; [unfold int_max; lia|]. split; [assumption|]. split; [reflexivity|]. split; [assumption|].
  assert (F : 0 <= first_subsize (zlen P0 + 1) (zlen P0) <= zlen P0). { unfold first_subsize, chunked. destruct (Z.ltb_spec (zlen P0 + 1) (zlen P0)); [lia|]. rewrite andb_false_r. lia. }
  unfold int_max. split; [|lia]. split; [lia|]. split; [lia|]. split; lia.
Qed.

(** ** the summary *)
Lemma count_cells (f : Z -> bool) states : counts states (fun b => f b = true) (countb f states).
Proof.
  exists (filter (fun i => match znth states i with Some b => f b | None => false end) (zrange 0 (zlen states))). split; [apply NoDup_filter, NoDup_zrange|]. split.
  - unfold countb. induction states as [|b l IH] using rev_ind; [reflexivity|].
    rewrite zlen_app. change (zlen [b]) with 1. rewrite zrange_snoc, !filter_app, !zlen_app by (pose proof (zlen_nonneg l); lia). f_equal.
    + rewrite <- IH. f_equal. apply filter_ext_in. intros i Hi. apply in_zrange in Hi. now rewrite znth_app1 by lia.
    + simpl. rewrite znth_app2, Z.sub_diag by lia. change (znth [b] 0) with (Some b). destruct (f b); reflexivity.
  - intros i. rewrite filter_In, in_zrange. split.
    + intros [R H]. destruct (znth states i) as [b|]; [eauto|discriminate].
    + intros (b & Hb & H). rewrite Hb. split; [exact (znth_some _ _ _ Hb)|exact H].
Qed.

Lemma core_stats (N : Arith) (w : world N) c dev pts o : tess_core N w c dev pts = Ok o -> o_stats N o = stats_of (o_states N o) /\ o_oops1 N o = negb (validate_xyzset N (o_pts N o)).
Proof.
  unfold tess_core. intros H. apply rbind_ok in H as ([[p ids] offs] & _ & H). apply rbind_ok in H as ([t s] & _ & H). apply rbind_ok in H as ([t' s'] & _ & H).
  apply rbind_ok in H as (d & _ & H). injection H as <-. split; reflexivity.
Qed.
Lemma tess_stats (N : Arith) (w : world N) a dev pts o : tesellate N w a dev pts = Ok o ->
  let st := o_stats N o in
  counts (o_states N o) (fun b => Z.testbit b 0 = false) (s_sradius st) /\ counts (o_states N o) (fun b => Z.testbit b 4 = true) (s_pover st) /\ counts (o_states N o) (fun b => Z.testbit b 5 = true) (s_tover st) /\ counts (o_states N o) (fun b => Z.testbit b 1 = true) (s_infb st) /\ counts (o_states N o) (fun b => Z.testbit b 2 = true) (s_vertices st) /\ counts (o_states N o) (fun b => Z.testbit b 3 = true) (s_neighbor st) /\ counts (o_states N o) (fun b => Z.testbit b 6 = true) (s_error st).
Proof.
  unfold tesellate. intros H. apply rbind_ok in H as (b & _ & H). apply rbind_ok in H as (c & _ & H). apply core_stats in H as [-> _]. cbv zeta.
  assert (Q : forall s, 0 <= s -> counts (o_states N o) (fun b => Z.testbit b s = true) (countb (fun b => st_get b s) (o_states N o))).
  { intros s Hs. destruct (count_cells (fun b => st_get b s) (o_states N o)) as (l & A & B & C). exists l. split; [assumption|]. split; [assumption|]. intros i. rewrite C.
    split; intros (b0 & X & Y); exists b0; (split; [assumption|]); rewrite st_get_testbit in * by assumption; assumption. }
  split.
  { destruct (count_cells (fun b => negb (st_get b security_radius_reached)) (o_states N o)) as (l & A & B & C). exists l. split; [assumption|]. split; [assumption|]. intros i. rewrite C.
    split; intros (b0 & X & Y); exists b0; (split; [assumption|]); rewrite st_get_testbit in * by discriminate; [now apply negb_true_iff|]; now apply negb_true_iff. }
  split; [apply Q; discriminate|]. split; [apply Q; discriminate|]. split; [apply Q; discriminate|]. split; [apply Q; discriminate|]. split; [apply Q; discriminate|apply Q; discriminate].
Qed.
