(** The command line. *)
From Verif Require Import Base Arith PBase MUtils MDnn MArgs MXyz MTess MMain SpecMain SpecDnn PDnn PArgs.
From Coq Require Import String.
Local Open Scope string_scope.
Local Open Scope res_scope.
Local Open Scope Z_scope.

Lemma atoi_range s v : atoi s = Ok v -> int_min <= v <= int_max.
Proof.
  unfold atoi. destruct (read_num s) as [[neg x]|]; [|intros H; injection H as <-; unfold int_min, int_max; lia].
  destruct (Base.in_int _) eqn:E; [|discriminate]. intros H. injection H as <-. unfold Base.in_int in E. apply andb_true_iff in E as [E1 E2]. lia.
Qed.

(** what is known about the parsed arguments *)
Definition key_of (x : num_opt) : string :=
  match x with NK => "k" | NGrid => "knn_grid_resolution" | NThreads => "cpu_nthreads" | NNdsize => "gpu_ndsize" | NChunk => "chunksize" | NPmax => "cc_p_maxsize" | NTmax => "cc_t_maxsize" end.
Definition dflt (x : num_opt) : Z := match x with NK => 64 | NGrid => 16 | NThreads => 0 | NNdsize => 1 | NChunk => 8196 | NPmax => 32 | NTmax => 32 end.

Definition parsed (os : list opt) (p : pstate) : Prop :=
  ps_infile p = infile_of os /\ keys (ps_args p) = keys args_init /\
  (forall x, args_find (ps_args p) (key_of x) = Ok (show_int (num_of x (dflt x) os)) /\ int_min <= num_of x (dflt x) os <= int_max) /\
  args_find (ps_args p) "use_chunking" = Ok (to_str (VBool (has_chunking os))) /\
  args_find (ps_args p) "use_recompute" = Ok (to_str (VBool (has_recompute os))) /\
  args_find (ps_args p) "dev_suppress_stdout" = Ok (to_str (VBool true)) /\
  ps_dev p = device_of os.

Lemma num_of_app x d os o : num_of x d (os ++ [o]) = match num_arg o with
  | Some (y, s) => if num_opt_eqb x y then match atoi s with Ok v => v | Err _ => num_of x d os end else num_of x d os | None => num_of x d os end.
Proof. unfold num_of. rewrite fold_left_app. reflexivity. Qed.
Lemma eqb_key x y : num_opt_eqb x y = true <-> x = y.
Proof. destruct x, y; simpl; split; congruence. Qed.
Lemma key_inj x y : key_of x = key_of y -> x = y.
Proof. destruct x, y; simpl; intros H; congruence. Qed.
Lemma key_known x : In (key_of x) (keys args_init).
Proof. destruct x; simpl; tauto. Qed.

Lemma set_num os o x s p : numbers_ok (os ++ [o]) -> num_arg o = Some (x, s) -> parsed os p -> ps_infile p = infile_of (os ++ [o]) ->
  has_chunking (os ++ [o]) = has_chunking os -> has_recompute (os ++ [o]) = has_recompute os -> device_of (os ++ [o]) = device_of os ->
  exists p', set_atoi p (key_of x) s = Ok p' /\ parsed (os ++ [o]) p'.
Proof.
  intros Hn Ho (P1 & P2 & P3 & P4 & P5 & P6 & P7) E1 E2 E3 E4.
  destruct (Hn o x s) as [v Ev]; [apply in_or_app; right; now left|assumption|].
  destruct (set_known (ps_args p) (key_of x) (VInt v)) as [a' Ea]; [rewrite P2; apply key_known|].
  exists (mkPS (ps_infile p) a' (ps_dev p)). split; [unfold set_atoi; rewrite Ev; cbn [rbind]; rewrite Ea; reflexivity|].
  unfold parsed. cbn [ps_infile ps_args ps_dev]. rewrite E2, E3, E4.
  assert (OT : forall k', k' <> key_of x -> args_find a' k' = args_find (ps_args p) k') by (intros k' Hk; apply (find_set_other _ _ _ _ _ Ea Hk)).
  split; [assumption|]. split; [rewrite (set_keys _ _ _ _ Ea); assumption|]. split.
  - intros y. rewrite num_of_app, Ho. destruct (num_opt_eqb y x) eqn:Q.
    + apply eqb_key in Q. subst y. rewrite Ev. split; [apply (find_set_same _ _ _ _ Ea)|now apply atoi_range in Ev].
    + rewrite OT; [apply P3|]. intros H. apply key_inj in H. subst y. rewrite (proj2 (eqb_key x x) eq_refl) in Q. discriminate.
  - repeat split; try assumption; rewrite OT; auto; destruct x; discriminate.
Qed.

Lemma parse_ok os : numbers_ok os -> exists p, parse_args os = Ok p /\ parsed os p.
Proof.
  induction os as [|o0 os IH] using rev_ind; intros Hn.
  - exists ps_init. split; [reflexivity|]. unfold parsed. repeat split; try (destruct x; vm_compute; congruence).
  - destruct IH as (p & E & P). { intros o' x s Ho' Hx. apply (Hn o' x s); [apply in_or_app; now left|assumption]. }
    unfold parse_args in *. rewrite rfold_app, E. cbn [rbind rfold].
    assert (K : exists p', parse_opt p o0 = Ok p' /\ parsed (os ++ [o0]) p'); [|destruct K as (p' & E' & P'); exists p'; split; [rewrite E'; reflexivity|exact P']].
    assert (IF : forall o, infile_of (os ++ [o]) = match o with OInfile f => f | _ => infile_of os end) by (intros; unfold infile_of; rewrite fold_left_app; reflexivity).
    assert (HC : forall o, has_chunking (os ++ [o]) = has_chunking os || match o with OUseChunk => true | _ => false end) by (intros; unfold has_chunking; rewrite existsb_app; simpl; now rewrite orb_false_r).
    assert (HRc : forall o, has_recompute (os ++ [o]) = has_recompute os || match o with OUseRec => true | _ => false end) by (intros; unfold has_recompute; rewrite existsb_app; simpl; now rewrite orb_false_r).
    assert (HD : forall o, device_of (os ++ [o]) = match o with ODevice d => if String.eqb d "cpu" then cpu else if String.eqb d "gpu" then gpu else device_of os | _ => device_of os end) by (intros; unfold device_of; rewrite fold_left_app; reflexivity).
    assert (Q := P). destruct Q as (P1 & P2 & P3 & P4 & P5 & P6 & P7).
    assert (NN : num_arg o0 = None -> forall x, num_of x (dflt x) (os ++ [o0]) = num_of x (dflt x) os) by (intros H x; rewrite num_of_app, H; reflexivity).
    assert (NUM : forall o x s, o = o0 -> num_arg o = Some (x, s) -> ps_infile p = infile_of (os ++ [o]) -> has_chunking (os ++ [o]) = has_chunking os -> has_recompute (os ++ [o]) = has_recompute os -> device_of (os ++ [o]) = device_of os ->
      exists p', set_atoi p (key_of x) s = Ok p' /\ parsed (os ++ [o]) p') by (intros; subst; eapply set_num; eauto).
    destruct o0 as [| |f|d|s|s|s|s|s| | |s|s|]; try (specialize (NN eq_refl));
      try (match goal with |- exists p', parse_opt _ ?o = _ /\ _ => match eval cbv [num_arg] in (num_arg o) with Some (?x, s) =>
        apply (NUM o x s); [reflexivity|reflexivity|rewrite IF; assumption|rewrite HC; apply orb_false_r|rewrite HRc; apply orb_false_r|rewrite HD; reflexivity] end end).
    + exists p. split; [reflexivity|]. unfold parsed. rewrite IF, HC, HRc, HD, !orb_false_r. setoid_rewrite NN. auto 8.
    + exists p. split; [reflexivity|]. unfold parsed. rewrite IF, HC, HRc, HD, !orb_false_r. setoid_rewrite NN. auto 8.
    + eexists. split; [reflexivity|]. unfold parsed. rewrite IF, HC, HRc, HD, !orb_false_r. setoid_rewrite NN. cbn [ps_infile ps_args ps_dev]. auto 8.
    + eexists. split; [reflexivity|]. unfold parsed. rewrite IF, HC, HRc, HD, !orb_false_r. setoid_rewrite NN. cbn [ps_infile ps_args ps_dev]. rewrite P7. auto 8.
    + destruct (set_known (ps_args p) "use_chunking" (VBool true)) as [a' Ea]; [rewrite P2; simpl; tauto|].
      exists (mkPS (ps_infile p) a' (ps_dev p)). split; [cbn [parse_opt]; rewrite Ea; reflexivity|].
      assert (OT : forall k', k' <> "use_chunking" -> args_find a' k' = args_find (ps_args p) k') by (intros k' Hk; apply (find_set_other _ _ _ _ _ Ea Hk)).
      unfold parsed. rewrite IF, HC, HRc, HD, orb_false_r, orb_true_r. setoid_rewrite NN. cbn [ps_infile ps_args ps_dev].
      split; [assumption|]. split; [rewrite (set_keys _ _ _ _ Ea); assumption|]. split; [intros x; rewrite OT; [apply P3|destruct x; discriminate]|].
      split; [apply (find_set_same _ _ _ _ Ea)|]. rewrite !OT by discriminate. auto.
    + destruct (set_known (ps_args p) "use_recompute" (VBool true)) as [a' Ea]; [rewrite P2; simpl; tauto|].
      exists (mkPS (ps_infile p) a' (ps_dev p)). split; [cbn [parse_opt]; rewrite Ea; reflexivity|].
      assert (OT : forall k', k' <> "use_recompute" -> args_find a' k' = args_find (ps_args p) k') by (intros k' Hk; apply (find_set_other _ _ _ _ _ Ea Hk)).
      unfold parsed. rewrite IF, HC, HRc, HD, orb_false_r, orb_true_r. setoid_rewrite NN. cbn [ps_infile ps_args ps_dev].
      split; [assumption|]. split; [rewrite (set_keys _ _ _ _ Ea); assumption|]. split; [intros x; rewrite OT; [apply P3|destruct x; discriminate]|].
      rewrite (OT "use_chunking") by discriminate. split; [assumption|]. split; [apply (find_set_same _ _ _ _ Ea)|]. rewrite !OT by discriminate. auto.
    + exists p. split; [reflexivity|]. unfold parsed. rewrite IF, HC, HRc, HD, !orb_false_r. setoid_rewrite NN. auto 8.
Qed.

Lemma get_bool_show b : from_bool (to_str (VBool b)) = Ok b.
Proof. destruct b; vm_compute; reflexivity. Qed.
Lemma threads_show hwc t : int_min <= t <= int_max -> 
  (n <-r from_size_t (show_int t) ;; if n =? 0 then Ok hwc else from_uint (show_int t)) = Ok (if t =? 0 then hwc else t mod 4294967296).
Proof.
  intros Ht. unfold from_size_t, from_uint. unfold int_min, int_max in Ht. rewrite !from_unsigned_show by lia. cbn [rbind].
  destruct (Z.eqb_spec t 0) as [->|]; [reflexivity|].
  destruct (Z.eqb_spec (t mod 18446744073709551616) 0) as [e|]; [|reflexivity]. exfalso.
  apply Z.mod_divide in e; [|lia]. destruct e as [q Hq]. nia.
Qed.

(** the arguments after the k = 0 rule *)
Definition final_args (os : list opt) (n : Z) (a : vtargs) : Prop :=
  (forall hwc, read_cfg hwc a = Ok (cli_cfg hwc n os)) /\ get_bool a "dev_suppress_stdout" = Ok true.

Lemma fix_k os p n : parsed os p -> 0 <= n ->
  get_int (ps_args p) "k" = Ok (num_of NK 64 os) /\
  exists a, (if num_of NK 64 os =? 0 then args_set (ps_args p) "k" (VInt (if n <? 64 then n else 64)) else Ok (ps_args p)) = Ok a /\ final_args os n a.
Proof.
  intros (P1 & P2 & P3 & P4 & P5 & P6 & P7) Hn.
  pose proof (P3 NK) as K1. pose proof (P3 NGrid) as K2. pose proof (P3 NThreads) as K3. pose proof (P3 NNdsize) as K4. pose proof (P3 NChunk) as K5. pose proof (P3 NPmax) as K6. pose proof (P3 NTmax) as K7.
  cbn [key_of dflt] in K1, K2, K3, K4, K5, K6, K7.
  assert (GK : get_int (ps_args p) "k" = Ok (num_of NK 64 os)) by (unfold get_int; rewrite (proj1 K1); cbn [rbind]; apply from_int_show, K1).
  split; [exact GK|].
  assert (FA : forall a kv, args_find a "k" = Ok (show_int kv) -> int_min <= kv <= int_max -> kv = (if num_of NK 64 os =? 0 then Z.min n 64 else num_of NK 64 os) ->
    (forall key, key <> "k" -> args_find a key = args_find (ps_args p) key) -> final_args os n a).
  { intros a kv Fk Rk Ek Ot. split.
    - intros hwc. unfold read_cfg, get_nthreads, get_int, get_bool. rewrite Fk. cbn [rbind]. rewrite from_int_show by assumption. cbn [rbind].
      rewrite (Ot "knn_grid_resolution"), (Ot "cc_p_maxsize"), (Ot "cc_t_maxsize"), (Ot "cpu_nthreads"), (Ot "gpu_ndsize"), (Ot "use_chunking"), (Ot "chunksize"), (Ot "use_recompute") by discriminate.
      rewrite (proj1 K2), (proj1 K3), (proj1 K4), (proj1 K5), (proj1 K6), (proj1 K7), P4, P5. cbn [rbind]. rewrite (from_int_show (num_of NGrid 16 os)) by apply K2. cbn [rbind].
      rewrite (from_int_show (num_of NPmax 32 os)) by apply K6. cbn [rbind]. rewrite (from_int_show (num_of NTmax 32 os)) by apply K7. cbn [rbind].
      rewrite threads_show by apply K3. cbn [rbind]. rewrite (from_int_show (num_of NNdsize 1 os)) by apply K4. cbn [rbind].
      rewrite get_bool_show. cbn [rbind]. rewrite (from_int_show (num_of NChunk 8196 os)) by apply K5. cbn [rbind]. rewrite get_bool_show. cbn [rbind]. unfold cli_cfg. rewrite <- Ek. reflexivity.
    - unfold get_bool. rewrite (Ot "dev_suppress_stdout") by discriminate. rewrite P6. cbn [rbind]. apply get_bool_show. }
  destruct (Z.eqb_spec (num_of NK 64 os) 0) as [e|ne].
  - destruct (set_known (ps_args p) "k" (VInt (if n <? 64 then n else 64))) as [a Ea]; [rewrite P2; simpl; tauto|]. exists a. split; [exact Ea|].
    apply (FA a (if n <? 64 then n else 64)).
    + apply (find_set_same _ _ _ _ Ea).
    + unfold int_min, int_max. destruct (Z.ltb_spec n 64); lia.
    + destruct (Z.ltb_spec n 64); lia.
    + intros key Hk. apply (find_set_other _ _ _ _ _ Ea Hk).
  - exists (ps_args p). split; [reflexivity|]. apply (FA (ps_args p) (num_of NK 64 os)); auto; apply K1.
Qed.

Lemma out_loop_ok sep fin offs l : forall index counter acc, 0 <= counter < zlen offs -> exists s, out_loop sep fin offs l index counter acc = Ok s.
Proof.
  induction l as [|x l IH]; intros index counter acc Hc; cbn [out_loop]; [eauto|].
  destruct (znth_in_range offs counter Hc) as [o Ho]. rewrite (rget_some _ _ _ Ho). cbn [rbind]. apply IH.
  destruct (index =? o); simpl; [|assumption]. destruct (Z.ltb_spec counter (zlen offs - 1)); lia.
Qed.
Lemma print_total tmpnn d : getdnn tmpnn = Ok d -> exists s, dnn_print d = Ok s.
Proof.
  intros H. assert (T : total (map visible tmpnn) <= int_max). { destruct (Z_le_gt_dec (total (map visible tmpnn)) int_max); [assumption|]. rewrite getdnn_ub in H by assumption. discriminate. }
  rewrite getdnn_ok in H by assumption. injection H as <-. unfold dnn_print. cbn [d_list d_offs].
  destruct (List.concat (map visible tmpnn)) as [|x l] eqn:E; [eauto|].
  destruct (out_loop_ok (append "}" (append nl "  {")) ", " (shape (map visible tmpnn)) (x :: l) 0 1 (append "{" (append nl "  {"))) as [s Hs].
  { destruct tmpnn as [|r rs]; [discriminate|]. rewrite zlen_shape. rewrite zlen_map, zlen_cons. pose proof (zlen_nonneg rs). lia. }
  rewrite Hs. cbn [rbind]. eauto.
Qed.

Section M.
Variable N : Arith.
Variable readf : string -> option (F N * string).
Notation three := (three_numbers N readf).

Lemma read_point_iff line p : read_point N readf line = Some p <-> three line p.
Proof.
  unfold read_point, three_numbers. split.
  - destruct (readf line) as [[x r1]|] eqn:E1; [|discriminate]. destruct (readf r1) as [[y r2]|] eqn:E2; [|discriminate].
    destruct (readf r2) as [[z r3]|] eqn:E3; [|discriminate]. intros H. injection H as <-. exists x, y, z, r1, r2, r3. auto.
  - intros (x & y & z & r1 & r2 & r3 & -> & -> & -> & ->). reflexivity.
Qed.
Lemma read_points_iff lines : forall pts, read_points N readf lines = Some pts <-> Forall2 three lines pts.
Proof.
  induction lines as [|l lines IH]; intros pts; cbn [read_points].
  - split; [intros H; injection H as <-; constructor|intros H; inversion H; reflexivity].
  - split.
    + destruct (read_point N readf l) as [p|] eqn:E; [|discriminate]. destruct (read_points N readf lines) as [ps|] eqn:E2; [|discriminate].
      intros H. injection H as <-. constructor; [now apply read_point_iff|now apply IH].
    + intros H. inversion H as [|a p b ps H1 H2]; subst. apply read_point_iff in H1. apply IH in H2. now rewrite H1, H2.
Qed.
Lemma read_points_bad lines line : In line lines -> (forall p, ~ three line p) -> read_points N readf lines = None.
Proof.
  intros Hi Hb. destruct (read_points N readf lines) as [pts|] eqn:E; [|reflexivity]. apply read_points_iff in E. exfalso.
  induction E as [|l p ls ps H1 H2 IH]; [contradiction|]. destruct Hi as [<-|Hi]; [now apply (Hb p)|now apply IH].
Qed.

Lemma main_rejects w fs os : numbers_ok os -> unusable N readf fs os -> main_run N readf w fs os = Ok (Exit N 1 None).
Proof.
  intros Hn Hu. destruct (parse_ok os Hn) as (p & E & P). unfold main_run. rewrite E. cbn [rbind].
  destruct P as (P1 & _). rewrite P1. destruct (String.eqb_spec (infile_of os) EmptyString) as [e|ne]; [reflexivity|].
  destruct Hu as [Hu|[Hu|(lines & line & Hf & Hl & Hb)]]; [contradiction|rewrite Hu; reflexivity|].
  rewrite Hf, (read_points_bad lines line Hl Hb). reflexivity.
Qed.

Lemma main_runs w fs os pts : numbers_ok os -> usable N readf fs os pts ->
  match tess_core N w (cli_cfg (w_hwc N w) (zlen pts) os) cpu pts with
  | Ok o => exists a txt, main_run N readf w fs os = Ok (Exit N 0 (Some (mkRun N cpu a pts txt))) /\ dnn_print (o_dnn N o) = Ok txt /\
      read_cfg (w_hwc N w) a = Ok (cli_cfg (w_hwc N w) (zlen pts) os)
  | Err e => main_run N readf w fs os = Err e
  end.
Proof.
  intros Hn (Hi & lines & Hf & Hl). destruct (parse_ok os Hn) as (p & E & P). apply read_points_iff in Hl.
  destruct (fix_k os p (zlen pts) P ltac:(apply zlen_nonneg)) as (GK & a & Ea & FA & FS).
  assert (EM : main_run N readf w fs os = (o <-r tess_core N w (cli_cfg (w_hwc N w) (zlen pts) os) cpu pts ;; txt <-r dnn_print (o_dnn N o) ;; Ok (Exit N 0 (Some (mkRun N cpu a pts txt))))).
  { unfold main_run. rewrite E. cbn [rbind]. destruct P as (P1 & _). rewrite P1. destruct (String.eqb_spec (infile_of os) EmptyString) as [e|ne]; [contradiction|].
    rewrite Hf, Hl, GK. cbn [rbind]. rewrite Ea. cbn [rbind]. unfold tesellate. rewrite FS. cbn [rbind]. rewrite FA. reflexivity. }
  rewrite EM. destruct (tess_core N w (cli_cfg (w_hwc N w) (zlen pts) os) cpu pts) as [o|e] eqn:ET; [|reflexivity]. cbn [rbind].
  assert (PR : exists s, dnn_print (o_dnn N o) = Ok s).
  { unfold tess_core in ET. apply rbind_ok in ET as ([[P0 ids] offs] & _ & ET). cbv zeta in ET. apply rbind_ok in ET as ([rows st] & _ & ET). apply rbind_ok in ET as ([rows2 st2] & _ & ET).
    apply rbind_ok in ET as (d & Ed & ET). injection ET as <-. cbn [o_dnn]. eapply print_total; eauto. }
  destruct PR as [s Hs]. exists a, s. rewrite Hs. auto.
Qed.

(** ** the device *)
Lemma parse_device os : forall p p' : pstate, ps_infile p = ps_infile p' -> ps_args p = ps_args p' ->
  match rfold os parse_opt p, rfold (without_device os) parse_opt p' with
  | Ok q, Ok q' => ps_infile q = ps_infile q' /\ ps_args q = ps_args q' | Err e, Err e' => e = e' | _, _ => False end.
Proof.
  assert (ST : forall (p p' : pstate) key s, ps_infile p = ps_infile p' -> ps_args p = ps_args p' ->
    match set_atoi p key s, set_atoi p' key s with Ok q, Ok q' => ps_infile q = ps_infile q' /\ ps_args q = ps_args q' | Err e, Err e' => e = e' | _, _ => False end).
  { intros p p' key s E1 E2. unfold set_atoi. destruct (atoi s) as [z|]; cbn [rbind]; [|reflexivity]. rewrite E2. destruct (args_set (ps_args p') key (VInt z)); cbn [rbind]; [|reflexivity]. simpl. auto. }
  induction os as [|o os IH]; intros p p' E1 E2; [simpl; auto|].
  unfold without_device. cbn [filter]. destruct (is_device o) eqn:D; cbn [negb].
  - destruct o; try discriminate. cbn [rfold parse_opt rbind]. apply IH; simpl; auto.
  - cbn [rfold]. 
    assert (Q : match parse_opt p o, parse_opt p' o with Ok q, Ok q' => ps_infile q = ps_infile q' /\ ps_args q = ps_args q' | Err e, Err e' => e = e' | _, _ => False end).
    { destruct o; cbn [parse_opt]; try (apply ST; assumption); try discriminate; simpl; auto.
      - rewrite E2. destruct (args_set (ps_args p') "use_chunking" (VBool true)); cbn [rbind]; [simpl; auto|reflexivity].
      - rewrite E2. destruct (args_set (ps_args p') "use_recompute" (VBool true)); cbn [rbind]; [simpl; auto|reflexivity]. }
    destruct (parse_opt p o) as [q|e], (parse_opt p' o) as [q'|e']; try contradiction; cbn [rbind]; [destruct Q; now apply IH|assumption].
Qed.
Lemma main_device w w' fs os os' : without_device os = without_device os' -> w_sched N w = w_sched N w' -> w_rsched N w = w_rsched N w' -> w_hwc N w = w_hwc N w' ->
  main_run N readf w fs os = main_run N readf w' fs os'.
Proof.
  intros Ho W1 W2 W3. unfold main_run, parse_args.
  assert (TC : forall a pts, tesellate N w a cpu pts = tesellate N w' a cpu pts).
  { intros a pts. unfold tesellate, tess_core, run_device. rewrite W1, W2, W3. reflexivity. }
  pose proof (parse_device os ps_init ps_init eq_refl eq_refl) as Q1. pose proof (parse_device os' ps_init ps_init eq_refl eq_refl) as Q2. rewrite Ho in Q1.
  destruct (rfold os parse_opt ps_init) as [q|e], (rfold os' parse_opt ps_init) as [q'|e'], (rfold (without_device os') parse_opt ps_init) as [r|er]; try contradiction; cbn [rbind]; [|congruence].
  destruct Q1 as [A1 A2], Q2 as [B1 B2]. rewrite A1, A2, B1, B2. destruct (String.eqb (ps_infile r) EmptyString); [reflexivity|].
  destruct (fs (ps_infile r)); [|reflexivity]. destruct (read_points N readf l); [|reflexivity]. destruct (get_int (ps_args r) "k"); [|reflexivity]. cbn [rbind].
  destruct (if _ =? 0 then _ else _); [|reflexivity]. cbn [rbind]. rewrite TC. reflexivity.
Qed.
End M.
