(** C97: a call without points. *)
From Verif Require Import Base PBase Arith Prog MUtils MXyz MDnn MTess PSort PXyz PRes PSortFinal.
From Coq Require Import Permutation.
Local Open Scope Z_scope.

Lemma finish_idle {F} (ps : list (prog F unit)) : (forall p, In p ps -> p = Ret tt) -> forall m, finish ps m = Ok m.
Proof.
  induction ps as [|p ps IH]; [reflexivity|]. intros H m. rewrite (H p) by now left. simpl. apply IH. intros q Hq. apply H. now right.
Qed.
Lemma nupd_idle {F} (ps : list (prog F unit)) n : (forall p, In p ps -> p = Ret tt) -> forall p, In p (nupd ps n (Ret tt)) -> p = Ret tt.
Proof.
  revert n. induction ps as [|q ps IH]; intros n H p Hp; [destruct n; exact (H p Hp)|]. destruct n; simpl in Hp; destruct Hp as [<-|Hp]; auto.
  - apply H. now right.
  - apply H. now left.
  - eapply IH; [|exact Hp]. intros r Hr. apply H. now right.
Qed.
Lemma pool_idle {F} sched : forall (ps : list (prog F unit)), (forall p, In p ps -> p = Ret tt) -> forall m, pool_run sched ps m = Ok m.
Proof.
  induction sched as [|n sched IH]; intros ps H m; simpl; [now apply finish_idle|]. destruct (nth_error ps n) as [p|] eqn:E; [|now apply IH].
  rewrite (H p) by (eapply nth_error_In; eauto). simpl. apply IH. now apply nupd_idle.
Qed.

Section Empty.
Context (N : Arith) (w : world N) (c : cfg).
Lemma threads_idle g l : forall p, In p (threads N c g l 0 0) -> p = Ret tt.
Proof.
  intros p Hp. unfold threads in Hp. apply in_map_iff in Hp as (i & <- & _). unfold thread_prog, trange. cbn [fst snd]. rewrite Z.mul_0_r.
  replace (if i =? c_nthreads c - 1 then 0 else 0 + 0) with 0 by (destruct (i =? _); reflexivity). reflexivity.
Qed.
Lemma buffers_none st : buffers N c 0 st = Ok (mkMem [] [] [] [] [] [] st).
Proof. reflexivity. Qed.
Lemma cpu_idle sched ids offs : cpu_tesellate N sched c (mkGrid N [] ids offs) [] [] = if c_nthreads c =? 0 then Err EUB else Ok ([], []).
Proof.
  unfold cpu_tesellate. cbn [g_pts]. change (zlen (@nil (point N))) with 0.
  assert (E : exists cs, eff_chunksize c 0 = Ok cs) by (unfold eff_chunksize; destruct (c_use_chunking c); eexists; reflexivity). destruct E as [cs ->]. cbn [rbind].
  assert (CH : chunked cs 0 = false) by (unfold chunked; lia).
  unfold first_subsize, num_runs. rewrite CH. rewrite buffers_none. cbn [rbind]. change (zrange 0 1) with [0]. cbn [rfold].
  unfold cpu_run. unfold thread_size. destruct (c_nthreads c =? 0) eqn:T; [reflexivity|]. cbn [rbind]. rewrite Z.div_0_l by lia.
  unfold cend, cstart, num_runs. rewrite CH. change (0 =? 1 - 1) with true. cbv iota zeta. change (0 - 0 * cs) with 0. unfold refill. cbn [m_hid m_hpq m_P m_T m_dR m_dknn m_st List.length repeat].
  change (fill_indices (repeat 0 (Z.to_nat 0)) (0 * cs) 0) with (@Ok (list Z) []). cbn [rbind]. rewrite pool_idle by apply threads_idle. reflexivity.
Qed.
Lemma rec_idle sched ids offs : cpu_recompute N sched c (mkGrid N [] ids offs) [] [] = Ok ([], []).
Proof. unfold cpu_recompute. cbn [g_pts]. change (zlen (@nil (point N))) with 0. unfold buffers, mul3. cbn. reflexivity. Qed.
Lemma empty_call : 0 <= c_gr c -> c_gr c * c_gr c * c_gr c <= int_max -> c_nthreads c <> 0 ->
  exists o, tess_core N w c cpu [] = Ok o /\ o_pts N o = [] /\ o_rows N o = [] /\ o_states N o = [] /\ o_oops1 N o = false /\ o_oops2 N o = false /\
  dnn_size (o_dnn N o) = 0 /\ o_stats N o = mkStats 0 0 0 0 0 0 0.
Proof.
  intros H1 H2 H3. unfold tess_core. assert (S : exists r, xyz_sort N (c_gr c) [] = Ok r) by (apply sort_ends_iff; split; [assumption|]; split; [assumption|]; intros p []).
  destruct S as [[[ps ids] offs] S]. rewrite S. cbn [rbind]. pose proof (perm_points _ _ _ _ _ _ S) as PP. apply Permutation_nil in PP. subst ps.
  assert (I : ids = []). { destruct (sort_sorted_ids N (c_gr c) [] H1 H2) as (ps' & ids' & o' & S' & L & _); [intros p []|]. rewrite S in S'. injection S' as <- <- <-. now destruct ids. }
  subst ids. unfold run_device. cbn [List.length repeat]. rewrite cpu_idle. replace (c_nthreads c =? 0) with false by lia. cbn [rbind].
  destruct (c_recompute c); [rewrite rec_idle|]; cbn; eexists; (split; [reflexivity|]); repeat split.
Qed.
Lemma empty_needs o : tess_core N w c cpu [] = Ok o -> 0 <= c_gr c /\ c_gr c * c_gr c * c_gr c <= int_max /\ c_nthreads c <> 0.
Proof.
  intros H. unfold tess_core in H. destruct (xyz_sort N (c_gr c) []) as [[[ps ids] offs]|] eqn:S; [|discriminate]. cbn [rbind] in H. pose proof (perm_points _ _ _ _ _ _ S) as PP. apply Permutation_nil in PP. subst ps.
  assert (K : exists r, xyz_sort N (c_gr c) [] = Ok r) by eauto. apply sort_ends_iff in K as (K1 & K2 & _). split; [assumption|]. split; [assumption|]. intros T.
  unfold run_device in H. cbn [List.length repeat] in H. rewrite cpu_idle, T in H. discriminate.
Qed.
End Empty.

(** ** from assignments, and from an empty file *)
From Verif Require Import MArgs MMain SpecArgs SpecApi SpecMain PApi PMain.
From Coq Require Import String Ascii.
Lemma empty_api (N : Arith) (w : world N) ops : well_typed ops ->
  0 <= c_gr (api_cfg (w_hwc N w) ops) -> c_gr (api_cfg (w_hwc N w) ops) * c_gr (api_cfg (w_hwc N w) ops) * c_gr (api_cfg (w_hwc N w) ops) <= int_max -> c_nthreads (api_cfg (w_hwc N w) ops) <> 0 ->
  exists a o, run_assign args_init ops = Ok a /\ tesellate N w a cpu [] = Ok o /\ o_rows N o = [] /\ dnn_size (o_dnn N o) = 0 /\
  dnn_print (o_dnn N o) = Ok ("{}" ++ String "010" "")%string /\ dnn_savetxt (o_dnn N o) = Ok (String "010" "")%string.
Proof.
  intros HT H1 H2 H3. destruct (api_reads ops HT) as (a & HA & T). destruct (empty_call N w _ H1 H2 H3) as (o & R & _ & RW & _ & _ & _ & S & _). exists a, o. split; [assumption|]. split; [now rewrite T|]. split; [assumption|]. split; [assumption|].
  assert (D : o_dnn N o = mkDnn [] [0]).
  { unfold tess_core in R. apply rbind_ok in R as ([[P0 ids] offs] & _ & R). cbv zeta in R. apply rbind_ok in R as ([r1 s1] & _ & R). apply rbind_ok in R as ([r2 s2] & _ & R). apply rbind_ok in R as (d & Ed & R). injection R as <-. cbn [o_rows o_dnn] in *. subst r2. injection Ed as <-. reflexivity. }
  rewrite D. split; reflexivity.
Qed.
Lemma empty_file (N : Arith) readf (w : world N) fs os : numbers_ok os -> infile_of os <> EmptyString -> fs (infile_of os) = Some [] ->
  0 <= c_gr (cli_cfg (w_hwc N w) 0 os) -> c_gr (cli_cfg (w_hwc N w) 0 os) * c_gr (cli_cfg (w_hwc N w) 0 os) * c_gr (cli_cfg (w_hwc N w) 0 os) <= int_max -> c_nthreads (cli_cfg (w_hwc N w) 0 os) <> 0 ->
  exists a, main_run N readf w fs os = Ok (Exit N 0 (Some (mkRun N cpu a [] ("{}" ++ String "010" "")%string))).
Proof.
  intros HN HI HF H1 H2 H3. pose proof (main_runs N readf w fs os [] HN) as M. change (zlen (@nil (point N))) with 0 in M.
  destruct (empty_call N w _ H1 H2 H3) as (o & R & _ & RW & _). rewrite R in M. destruct M as (a & txt & M & P & _); [split; [assumption|]; exists []; split; [assumption|constructor]|]. exists a.
  assert (D : o_dnn N o = mkDnn [] [0]).
  { unfold tess_core in R. apply rbind_ok in R as ([[P0 ids] offs] & _ & R). cbv zeta in R. apply rbind_ok in R as ([r1 s1] & _ & R). apply rbind_ok in R as ([r2 s2] & _ & R). apply rbind_ok in R as (d & Ed & R). injection R as <-. cbn [o_rows o_dnn] in *. subst r2. injection Ed as <-. reflexivity. }
  rewrite D in P. injection P as <-. exact M.
Qed.
