(** What is written to the output streams. *)
From Verif Require Import Base Arith Exact PBase MUtils MDnn MArgs MXyz MTess MMain MConsole SpecGeom SpecMain SpecCli
  PExact PXyz PGrid PSortFinal PFloat PDnn PArgs PMain PGetopt Arith32.
From Flocq Require Import IEEE754.BinarySingleNaN.
From Coq Require Import String Permutation Lra Lia.
From Verif Require Export SpecCli.
Local Open Scope string_scope.
Local Open Scope res_scope.
Local Open Scope Z_scope.

Lemma append_assoc a b c : (a ++ b) ++ c = a ++ (b ++ c).
Proof. induction a as [|x a IH]; [reflexivity|]. simpl. now rewrite IH. Qed.

Section A.
Variable N : Arith.

Lemma io_inv w info a dev pts o c : tesellate_io N w info a dev pts = Ok (o, c) ->
  tesellate N w a dev pts = Ok o /\
  exists quiet g p ids offs cs, get_bool a "dev_suppress_stdout" = Ok quiet /\ read_cfg (w_hwc N w) a = Ok g /\ xyz_sort N (c_gr g) pts = Ok (p, ids, offs) /\
    eff_chunksize g (zlen pts) = Ok cs /\
    con_err c = warnings N p ids offs ++ fallback (w_gpu N w) dev /\
    con_out c = (if quiet then "" else con_out (device_text N w info g dev cs (zlen pts)) ++ summary (o_stats N o)).
Proof.
  unfold tesellate_io, tesellate. intros H. apply rbind_ok in H as (q & Eq & H). apply rbind_ok in H as (g & Eg & H). apply rbind_ok in H as ([[p ids] offs] & Es & H).
  apply rbind_ok in H as (o' & Eo & H). apply rbind_ok in H as (cs & Ec & H). injection H as <- <-. rewrite Eq, Eg. cbn [rbind]. split; [exact Eo|].
  exists q, g, p, ids, offs, cs. repeat (split; [assumption || reflexivity|]). destruct q; cbn [suppressed con_err con_out con_app err out append].
  - split; [|reflexivity]. f_equal. unfold device_text, fallback. destruct dev, (w_gpu N w); reflexivity.
  - split; [|reflexivity]. f_equal. unfold device_text, fallback. destruct dev, (w_gpu N w); reflexivity.
Qed.

Lemma cfg_gr hwc a g : read_cfg hwc a = Ok g -> get_int a "knn_grid_resolution" = Ok (c_gr g).
Proof.
  unfold read_cfg. intros H. apply rbind_ok in H as (k & _ & H). apply rbind_ok in H as (gr & E & H). rewrite E. f_equal.
  repeat (apply rbind_ok in H as (? & _ & H)). now injection H as <-.
Qed.

(** the messages, for any description [good] of acceptable points *)
Lemma oops w info a dev pts o c (good : point N -> Prop) gr : tesellate_io N w info a dev pts = Ok (o, c) -> get_int a "knn_grid_resolution" = Ok gr ->
  (forall l, incl l pts -> (forall p, In p pts -> exists i, cell_id N gr (grid_len N gr) p = Ok i) -> (validate_xyzset N l = true <-> forall p, In p l -> good p)) ->
  ((forall p, In p pts -> good p) -> gr * gr * gr <= int_max -> in_range_ids N gr pts) -> 0 < gr ->
  ((forall p, In p pts -> good p) -> con_err c = fallback (w_gpu N w) dev) /\
  (~ (forall p, In p pts -> good p) -> starts ("oops1" ++ nl) (con_err c)).
Proof.
  intros H Hgr V IR Hg. apply io_inv in H as (_ & q & g & p & ids & offs & cs & _ & Eg & Es & _ & E & _).
  pose proof (cfg_gr _ _ _ Eg) as X. rewrite Hgr in X. injection X as ->. pose proof (perm_points N _ _ _ _ _ Es) as PP.
  assert (VV : validate_xyzset N p = true <-> forall x, In x pts -> good x).
  { rewrite V. - split; intros K x Hx; apply K; [now apply (Permutation_in _ PP)|now apply (Permutation_in _ (Permutation_sym PP))].
    - intros x Hx. now apply (Permutation_in _ (Permutation_sym PP)).
    - unfold xyz_sort in Es. apply rbind_ok in Es as (g2 & _ & Es). apply rbind_ok in Es as (g3 & _ & Es). apply rbind_ok in Es as (i0 & Ei & _). clear - Ei.
      revert i0 Ei. induction pts as [|x l IH]; intros i0 Ei y Hy; [contradiction|]. cbn [rmap] in Ei. apply rbind_ok in Ei as (i & E1 & Ei). apply rbind_ok in Ei as (l' & E2 & _).
      destruct Hy as [<-|Hy]; eauto. }
  split; intros K.
  - rewrite E. apply VV in K as K1. unfold warnings. rewrite K1. cbn [append].
    assert (M : c_gr g * c_gr g * c_gr g <= int_max).
    { unfold xyz_sort in Es. apply rbind_ok in Es as (g2 & E2 & Es). apply rbind_ok in Es as (g3 & E3 & _). unfold chk in E2, E3.
      destruct (Base.in_int (c_gr g * c_gr g)) eqn:I2; [|discriminate]. injection E2 as <-. destruct (Base.in_int _) eqn:I3 in E3; [|discriminate].
      unfold Base.in_int in I3. apply andb_true_iff in I3. lia. }
    specialize (IR K M).
    destruct (sort_sorted_ids N (c_gr g) pts ltac:(lia) M IR) as (p' & ids' & o' & Es' & _ & _ & _ & VI & _). rewrite Es in Es'. injection Es' as <- <- <-. rewrite VI. reflexivity.
  - rewrite E. unfold warnings. destruct (validate_xyzset N p) eqn:EV; [exfalso; now apply K, VV|]. eexists. rewrite !append_assoc. reflexivity.
Qed.

(** standard output is empty unless asked for; then it ends with the summary *)
Lemma quiet_out w info a dev pts o c : tesellate_io N w info a dev pts = Ok (o, c) -> get_bool a "dev_suppress_stdout" = Ok true -> con_out c = "".
Proof. intros H Q. apply io_inv in H as (_ & q & g & p & ids & offs & cs & Eq & _ & _ & _ & _ & E). rewrite Q in Eq. injection Eq as <-. exact E. Qed.

Lemma core_chunk w g dev pts o : tess_core N w g dev pts = Ok o -> exists r cs, xyz_sort N (c_gr g) pts = Ok r /\ eff_chunksize g (zlen pts) = Ok cs.
Proof.
  unfold tess_core. intros H. apply rbind_ok in H as ([[p ids] offs] & Es & H). apply rbind_ok in H as ([t s] & Er & _). exists (p, ids, offs).
  assert (L : zlen p = zlen pts). { unfold zlen. f_equal. symmetry. apply Permutation_length, (perm_points N _ _ _ _ _ Es). }
  assert (C : forall sched t0 s0, cpu_tesellate N sched g (mkGrid N p ids offs) t0 s0 = Ok (t, s) -> exists cs, eff_chunksize g (zlen pts) = Ok cs).
  { intros sched t0 s0 K. unfold cpu_tesellate in K. cbv zeta in K. cbn [g_pts] in K. rewrite L in K. 
    repeat (apply rbind_ok in K as (? & ?E & K); try (eexists; eassumption)). }
  assert (C2 : exists cs, eff_chunksize g (zlen pts) = Ok cs).
  { unfold run_device in Er. destruct dev; [eapply C; eauto|]. destruct (w_gpu N w); [|eapply C; eauto]. unfold gpu_tesellate in Er. cbv zeta in Er. cbn [g_pts] in Er. rewrite L in Er.
    repeat (apply rbind_ok in Er as (? & ?E & Er); try (eexists; eassumption)). }
  destruct C2 as [cs E]. exists cs. auto.
Qed.

(** a run with and without its messages *)
Lemma io_total w info a dev pts o : tesellate N w a dev pts = Ok o -> exists c, tesellate_io N w info a dev pts = Ok (o, c).
Proof.
  unfold tesellate, tesellate_io. intros H. apply rbind_ok in H as (q & Eq & H). apply rbind_ok in H as (g & Eg & H). rewrite Eq, Eg. cbn [rbind].
  destruct (core_chunk _ _ _ _ _ H) as (r & cs & Es & Ec). destruct r as [[p ids] offs]. rewrite Es. cbn [rbind]. rewrite H. cbn [rbind]. rewrite Ec. cbn [rbind]. eauto.
Qed.
End A.

Section B.
Variables (N : Arith) (E : Exact N).
Lemma oops_exact w info a dev pts o c gr : tesellate_io N w info a dev pts = Ok (o, c) -> get_int a "knn_grid_resolution" = Ok gr -> 0 < gr -> Forall (finp N E) pts ->
  ((forall p, In p pts -> in_open_cube (valp N E p)) -> con_err c = fallback (w_gpu N w) dev) /\
  (~ (forall p, In p pts -> in_open_cube (valp N E p)) -> starts ("oops1" ++ nl) (con_err c)).
Proof.
  intros H Hgr Hg Fin. eapply oops; eauto.
  - intros l L1 _. rewrite (validate_exact N E l); [apply Forall_forall|]. rewrite Forall_forall in *. auto.
  - intros K M p Hp. rewrite Forall_forall in Fin. destruct (cell_id_exact N E gr p Hg M (Fin p Hp)) as [C1 C2].
    { specialize (K p Hp). destruct (valp N E p) as [[x y] z]. unfold in_open_cube in K. intuition lra. }
    eauto.
Qed.
End B.

(** single precision: a call that returns was given no NaN *)
Lemma cell_nan gr gl x y z i : cell_id arith32 gr gl (x, y, z) = Ok i -> x <> B754_nan /\ y <> B754_nan /\ z <> B754_nan.
Proof.
  assert (K : forall a, cell_coord arith32 gl B754_nan = Ok a -> False) by (intros a H; unfold cell_coord in H; destruct gl; discriminate).
  unfold cell_id. intros H. apply rbind_ok in H as (a & Ea & H). apply rbind_ok in H as (b & Eb & H). apply rbind_ok in H as (c & Ec & H).
  repeat split; intros ->; eauto.
Qed.
Lemma oops_float32 w info a dev pts o c gr : tesellate_io arith32 w info a dev pts = Ok (o, c) -> get_int a "knn_grid_resolution" = Ok gr -> 0 < gr -> safe_res gr = true ->
  ((forall p, In p pts -> open01p p) -> con_err c = fallback (w_gpu arith32 w) dev) /\
  (~ (forall p, In p pts -> open01p p) -> starts ("oops1" ++ nl) (con_err c)).
Proof.
  intros H Hgr Hg Hs. eapply oops; eauto.
  - intros l L1 L2. rewrite validate32. split; intros K p Hp; specialize (K p Hp); destruct p as [[x y] z].
    + destruct (L2 _ (L1 _ Hp)) as [i Hi]. apply cell_nan in Hi as (N1 & N2 & N3). unfold open01p. intuition congruence.
    + unfold open01p in K. tauto.
  - intros K M. apply in_range32; auto. now apply Forall_forall.
Qed.

Lemma opts_text_app os o : opts_text (os ++ [o])%list = con_app (opts_text os) (opt_text o).
Proof. unfold opts_text. now rewrite fold_left_app. Qed.
Lemma opts_no_help os : ~ In OHelp os -> con_out (opts_text os) = "".
Proof.
  induction os as [|o os IH] using rev_ind; intros H; [reflexivity|]. rewrite opts_text_app. cbn [con_app con_out]. rewrite IH by (intros K; apply H, in_or_app; now left).
  destruct o; try reflexivity; [exfalso; apply H, in_or_app; right; now left|]. simpl. destruct (_ || _); reflexivity.
Qed.
Lemma opts_tame os : (forall o, In o os -> tame o) -> opts_text os = silent.
Proof.
  induction os as [|o os IH] using rev_ind; intros H; [reflexivity|]. rewrite opts_text_app. rewrite IH by (intros; apply H, in_or_app; now left).
  specialize (H o ltac:(apply in_or_app; right; now left)). destruct o; try contradiction; try reflexivity. simpl in *. destruct H as [-> | ->]; reflexivity.
Qed.

Section M.
Variable N : Arith.
Variable readf : string -> option (F N * string).

Lemma io_runs w info prog fs os pts o : numbers_ok os -> usable N readf fs os pts -> tess_core N w (cli_cfg (w_hwc N w) (zlen pts) os) cpu pts = Ok o ->
  exists a c txt, tesellate_io N w info a cpu pts = Ok (o, c) /\ get_int a "knn_grid_resolution" = Ok (num_of NGrid 16 os) /\ con_out c = "" /\ dnn_print (o_dnn N o) = Ok txt /\
    main_io N readf w info prog fs os = Ok (0, con_app (opts_text os) (con_app c (out txt))).
Proof.
  intros Hn HU ET. assert (PR : exists txt, dnn_print (o_dnn N o) = Ok txt).
  { pose proof (main_runs N readf w fs os pts Hn HU) as R. rewrite ET in R. destruct R as (a & txt & _ & R & _). eauto. }
  destruct PR as [txt PR]. destruct HU as (Hi & lines & Hf & Hl). destruct (parse_ok os Hn) as (p & E & P). apply read_points_iff in Hl.
  destruct (fix_k os p (zlen pts) P ltac:(apply zlen_nonneg)) as (GK & a & Ea & FA & FS).
  assert (T : tesellate N w a cpu pts = Ok o) by (unfold tesellate; rewrite FS; cbn [rbind]; rewrite FA; exact ET).
  destruct (io_total N w info a cpu pts o T) as [c Ec]. exists a, c, txt. split; [exact Ec|].
  split; [apply (cfg_gr (w_hwc N w)) with (g := cli_cfg (w_hwc N w) (zlen pts) os), FA|].
  split; [eapply quiet_out; eauto|]. split; [exact PR|].
  unfold main_io. rewrite E. cbn [rbind]. destruct P as (P1 & _). rewrite P1. destruct (String.eqb_spec (infile_of os) EmptyString) as [e|ne]; [contradiction|].
  rewrite Hf, Hl, GK. cbn [rbind]. rewrite Ea. cbn [rbind]. rewrite Ec. cbn [rbind]. rewrite PR. reflexivity.
Qed.

Lemma cli_stdout w info prog fs os pts o : numbers_ok os -> usable N readf fs os pts -> ~ In OHelp os -> tess_core N w (cli_cfg (w_hwc N w) (zlen pts) os) cpu pts = Ok o ->
  exists txt e, main_io N readf w info prog fs os = Ok (0, mkCon txt e) /\ dnn_print (o_dnn N o) = Ok txt.
Proof.
  intros Hn HU Hh ET. destruct (io_runs w info prog fs os pts o Hn HU ET) as (a & c & txt & _ & _ & Eo & PR & R). exists txt. rewrite R. unfold con_app. cbn [con_out con_err out append].
  rewrite (opts_no_help os Hh), Eo. cbn [append]. eexists. split; [reflexivity|exact PR].
Qed.

Lemma cli_rejects w info prog fs os : numbers_ok os -> unusable N readf fs os -> ~ In OHelp os ->
  exists o e pre, main_io N readf w info prog fs os = Ok (1, mkCon o (pre ++ "Error: " ++ e)) /\ (o = "" \/ o = usage_text prog).
Proof.
  intros Hn Hu Hh. destruct (parse_ok os Hn) as (p & E & P). unfold main_io. rewrite E. cbn [rbind]. pose proof (opts_no_help os Hh) as HO.
  destruct P as (P1 & _). rewrite P1. destruct (String.eqb_spec (infile_of os) EmptyString) as [e|ne].
  { do 3 eexists. split; [unfold con_app; cbn [con_out con_err err out append]; rewrite HO, append_nil; reflexivity|]. now right. }
  destruct Hu as [Hu|[Hu|(lines & line & Hf & Hl & Hb)]]; [contradiction| |].
  - rewrite Hu. do 3 eexists. split; [unfold con_app; cbn [con_out con_err err out append]; rewrite HO; reflexivity|]. now left.
  - rewrite Hf, (read_points_bad N readf lines line Hl Hb). do 3 eexists. split; [unfold con_app; cbn [con_out con_err err out append]; rewrite HO; reflexivity|]. now left.
Qed.

(** the streams only add to what [main_run] says *)
Lemma io_codes w info prog fs os : match main_run N readf w fs os, main_io N readf w info prog fs os with
  | Ok (Exit _ c _), Ok (c', _) => c = c' | Err _, Err _ => True | _, _ => False end.
Proof.
  unfold main_run, main_io. destruct (parse_args os) as [p|e]; cbn [rbind]; [|exact I]. destruct (String.eqb _ _); [reflexivity|].
  destruct (fs (ps_infile p)) as [lines|]; [|reflexivity]. destruct (read_points N readf lines) as [pts|]; [|reflexivity].
  destruct (get_int _ _) as [k|e]; cbn [rbind]; [|exact I]. destruct (if k =? 0 then _ else _) as [a|e]; cbn [rbind]; [|exact I].
  destruct (tesellate N w a cpu pts) as [o|e] eqn:T; cbn [rbind].
  - destruct (io_total N w info a cpu pts o T) as [c Ec]. rewrite Ec. cbn [rbind]. destruct (dnn_print _); cbn [rbind]; [reflexivity|exact I].
  - destruct (tesellate_io N w info a cpu pts) as [[o c]|e'] eqn:T'; cbn [rbind]; [|exact I]. apply io_inv in T' as [T' _]. congruence.
Qed.
End M.

Lemma cli_silent (N : Arith) (E : Exact N) readf w info prog fs os pts o : numbers_ok os -> usable N readf fs os pts -> (forall x, In x os -> tame x) -> 0 < num_of NGrid 16 os ->
  (forall p, In p pts -> inside N E p) -> tess_core N w (cli_cfg (w_hwc N w) (zlen pts) os) cpu pts = Ok o ->
  exists txt, main_io N readf w info prog fs os = Ok (0, mkCon txt "") /\ dnn_print (o_dnn N o) = Ok txt.
Proof.
  intros Hn HU Ht Hg Hin ET. destruct (io_runs N readf w info prog fs os pts o Hn HU ET) as (a & c & txt & EI & EG & Eo & PR & R). exists txt. split; [|exact PR].
  destruct (oops_exact N E _ _ _ _ _ _ _ _ EI EG Hg) as [Q _]. { apply Forall_forall. intros p Hp. apply (Hin p Hp). }
  specialize (Q ltac:(intros p Hp; apply (Hin p Hp))). cbn [fallback] in Q. rewrite R, (opts_tame os Ht). unfold con_app, silent. cbn [con_out con_err out append]. rewrite Eo, Q. reflexivity.
Qed.
