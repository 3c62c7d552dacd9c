(** What holds of every slot holds of every row of a run, for any arithmetic; with and
    without recompute. *)
From Verif Require Import Base Arith PBase Prog PProg MUtils MHeap MXyz MKnn MBoundary MCell MDnn MArgs MTess PFlags SpecDnn PDnn SpecSort SpecHeap SpecBnd SpecAny SpecRows SpecVor
  PXyz PSortFinal PHeap PReloc PHeapFinal PBnd PCellSim PCellRun PCell PCellRow PKnnSafe PSlot PWalk SpecSlot PSlotHost PTess PTessRun PTessFinal
  PGeomFinal PRec PRecFinal PKnnAny PRowsAny PNoFailApi.
From Coq Require Import Permutation.
From Verif Require Export SpecParam.
Local Open Scope Z_scope.

(** a run without recompute *)
Section Plain.
Variable N : Arith.
Variable S : F N -> Prop.
Variable c : cfg.
Variable P0 : list (point N).
(** a property of row x and its status byte among the sorted points *)
Variable T : list (point N) -> Z -> list Z -> Z -> Prop.
Hypothesis HT : forall P ids offs rs x, xyz_sort N (c_gr c) P0 = Ok (P, ids, offs) -> results N c (mkGrid N P ids offs) rs -> 0 <= x < zlen P -> T P x (out_row N c rs x) (out_byte N rs x).

Lemma plain_slots w : any_ok N S c P0 -> c_recompute c = false -> exists o, tess_core N w c cpu P0 = Ok o /\ Permutation P0 (o_pts N o) /\ zlen (o_rows N o) = zlen P0 /\ zlen (o_states N o) = zlen P0 /\
  forall i row b, znth (o_rows N o) i = Some row -> znth (o_states N o) i = Some b -> T (o_pts N o) i row b.
Proof.
  intros (Hc & Hgr & Hg3 & Hr & OD & Hnt & Fit & HkN) Rc.
  destruct (xyz_sort_total N (c_gr c) P0 ltac:(lia) Hg3 Hr) as (P & ids & offs & HS).
  pose proof (perm_points N _ _ _ _ _ HS) as PP. assert (LP : zlen P = zlen P0) by (unfold zlen; rewrite (Permutation_length PP); reflexivity).
  set (g := mkGrid N P ids offs).
  assert (Hg : sorted_grid N c g) by (split; [assumption|]; exists P0; auto).
  destruct (results_ex N c g Hc Hg) as [rs Rs]. pose proof (zlen_nonneg P) as LP0.
  set (rows := map (out_row N c rs) (zrange 0 (zlen P))). set (states := map (out_byte N rs) (zrange 0 (zlen P))).
  assert (CPU : forall tmpnn, zlen tmpnn = zlen P -> cpu_tesellate N (w_sched N w) c g tmpnn (repeat st_init (List.length P)) = Ok (rows, states)).
  { intros tmpnn Lt. apply (cpu_spec N c g); auto. change (fits c (zlen P)). rewrite LP. assumption. }
  assert (AT : forall i row, znth rows i = Some row -> 0 <= i < zlen P /\ row = out_row N c rs i).
  { intros i row Hrow. pose proof (znth_some _ _ _ Hrow) as Hi. unfold rows in Hi, Hrow. rewrite zlen_map, zlen_zrange in Hi by lia. rewrite znth_map, znth_zrange in Hrow by lia. rewrite Z.add_0_l in Hrow. injection Hrow as <-. split; [lia|reflexivity]. }
  assert (LR : Forall (fun r => zlen r <= c_k c)%Z rows).
  { apply Forall_forall. intros r Hi. apply in_znth in Hi as (i & Hi & Er). destruct (AT i r Er) as [Ri ->]. apply (out_short N g c rs i Hc Rs Ri). }
  assert (VR : map visible rows = rows). { unfold rows. rewrite map_map. apply map_ext. intros x. unfold out_row. apply visible_idem. }
  assert (LRW : zlen rows = zlen P) by (unfold rows; rewrite zlen_map, zlen_zrange; lia).
  assert (LSW : zlen states = zlen P) by (unfold states; rewrite zlen_map, zlen_zrange; lia).
  assert (K1 : 1 <= c_k c) by apply Hc.
  assert (TB : (total rows <= int_max)%Z).
  { etransitivity; [apply (total_bound _ (c_k c)); [lia|exact LR]|]. rewrite LRW, LP. assumption. }
  assert (GD : getdnn rows = Ok (mkDnn (List.concat (map visible rows)) (shape (map visible rows)))) by (apply getdnn_ok; rewrite VR; assumption).
  exists (mkOutcome N P (mkDnn (List.concat (map visible rows)) (shape (map visible rows))) rows states (stats_of states) (negb (validate_xyzset N P)) (negb (validate_id ids))).
  split; [|split; [exact PP|split; [simpl; lia|split; [simpl; lia|]]]].
  - unfold tess_core. rewrite HS. cbn [rbind run_device]. change (mkGrid N P ids offs) with g.
    rewrite CPU by (unfold zlen; rewrite repeat_length; reflexivity). cbn [rbind]. rewrite Rc. cbn [rbind]. rewrite GD. reflexivity.
  - simpl. intros i row b Hrow Hb. destruct (AT i row Hrow) as [Ri ->].
    unfold states in Hb. rewrite znth_map, znth_zrange in Hb by lia. rewrite Z.add_0_l in Hb. injection Hb as <-. now apply (HT P ids offs rs i).
Qed.
End Plain.

Section R.
Variable N : Arith.
Variable S : F N -> Prop.
Variable gr : Z.
Variable P0 : list (point N).
(** the property of row x among the sorted points *)
Variable T : list (point N) -> Z -> list Z -> Prop.
Hypothesis HT : forall P ids offs c rs x, xyz_sort N gr P0 = Ok (P, ids, offs) -> cfg_ok c -> c_gr c = gr -> results N c (mkGrid N P ids offs) rs -> 0 <= x < zlen P -> c_k c <= zlen P - 1 ->
  validated (c_k c) (zlen P) (out_byte N rs x) -> T P x (out_row N c rs x).

(** every settled row comes from a validated slot of some round *)
Section Rounds.
Variables (P : list (point N)) (ids offs : list Z).
Hypothesis HS : xyz_sort N gr P0 = Ok (P, ids, offs).
Notation g := (mkGrid N P ids offs).
Notation n := (zlen P).
Lemma rec_done (G : Z -> Prop) c ind st rows rows' st' : rec_run N g c ind st rows rows' st' -> 1 <= c_k c <= n - 1 -> c_gr c = gr -> ind_ok N g ind -> zlen st = n -> zlen rows = n ->
  (forall x row, 0 <= x < n -> G x -> znth rows x = Some row -> ~ In x (todo ind st) -> T P x row) ->
  forall x row b, G x -> znth rows' x = Some row -> znth st' x = Some b -> errorless b -> T P x row.
Proof.
  assert (NX : forall c ind st, 1 <= c_k c <= n - 1 -> 1 <= c_k (next_cfg n ind st c) <= n - 1).
  { intros c1 ind1 st1 Q0. unfold next_cfg, set_kpt, next_k. simpl. destruct (Z.ltb_spec (n - 1) (c_k c1 * 2)); lia. }
  induction 1 as [c ind st rows E|c ind st rows rs c' ind' Ne Hc Fi Rs Hk|c ind st rows rs rows' st' c' ind' Ne Hc Fi Rs Hk RR IH]; intros Kn Hgr Hi Ls Lr Inv.
  - intros x row b HG Hrow _ _. pose proof (znth_some _ _ _ Hrow). apply Inv; auto; [lia|]. rewrite E. auto.
  - intros x row b HG Hrow Hb EB. pose proof (znth_some _ _ _ Hrow) as Hx. rewrite new_rows_len in Hx. rewrite new_rows_at in Hrow by assumption. rewrite new_states_at in Hb by assumption.
    destruct (mem_z ind' x) eqn:Mx.
    + injection Hrow as <-. injection Hb as <-. apply (HT P ids offs c' rs x); auto; [apply NX; assumption|]. split; [exact EB|right; exact Hk].
    + apply mem_z_nin in Mx. pose proof (row_at rows x ltac:(cbn [g_pts] in Hx; lia)) as RA. destruct (znth rows x) as [r|] eqn:Er; [|destruct RA]. injection Hrow as <-. apply (Inv x r); auto.
  - apply IH; auto.
    + apply NX. assumption.
    + now apply todo_ok.
    + apply new_states_len.
    + apply new_rows_len.
    + intros x row Hx HG Hrow Hn. rewrite new_rows_at in Hrow by assumption. destruct (mem_z ind' x) eqn:Mx.
      * apply mem_z_in in Mx as Ix. injection Hrow as <-. apply (HT P ids offs c' rs x); auto; [apply NX; assumption|].
        assert (R : st_get (out_byte N rs x) security_radius_reached = true).
        { destruct (st_get (out_byte N rs x) security_radius_reached) eqn:Q; [reflexivity|]. exfalso. apply Hn. unfold todo. apply filter_In. split; [assumption|].
          unfold not_reached. rewrite new_states_at by assumption. rewrite Mx, Q. reflexivity. }
        apply (reached_byte N g) in R. destruct R as [R1 R2]. split; [assumption|]. left. destruct R2 as [R2|R2]; [assumption|]. cbn [g_pts] in R2. lia.
      * apply mem_z_nin in Mx. pose proof (row_at rows x ltac:(lia)) as RA. destruct (znth rows x) as [r|] eqn:Er; [|destruct RA]. injection Hrow as <-. apply (Inv x r); auto.
Qed.

(** rows of the first run *)
Lemma first_done (G : Z -> Prop) c rs st : cfg_ok c -> c_gr c = gr -> results N c g rs -> c_k c <= n - 1 -> zlen st = n ->
  (forall x b, G x -> znth st x = Some b -> st_get b security_radius_reached = true -> st_get (out_byte N rs x) security_radius_reached = true) ->
  forall x row, 0 <= x < n -> G x -> znth (map (out_row N c rs) (zrange 0 n)) x = Some row -> ~ In x (todo (todo (zrange 0 n) st) st) -> T P x row.
Proof.
  intros Hc Eg Rs Kn Ls Hst x row Hx HG Hrow Hn. rewrite znth_map, znth_zrange in Hrow by lia. rewrite Z.add_0_l in Hrow. injection Hrow as <-.
  apply (HT P ids offs c rs x); auto. destruct (znth_in_range st x ltac:(lia)) as [b Hb].
  assert (R : st_get (out_byte N rs x) security_radius_reached = true).
  { apply (Hst x b HG Hb). destruct (st_get b security_radius_reached) eqn:Q; [reflexivity|]. exfalso. apply Hn. rewrite todo_idem. unfold todo. apply filter_In. split; [now apply in_zrange|].
    unfold not_reached. rewrite Hb, Q. reflexivity. }
  apply (reached_byte N g) in R. destruct R as [R1 R2]. split; [assumption|]. left. destruct R2 as [R2|R2]; [assumption|]. destruct Hc as (K1 & _). cbn [g_pts] in R2. lia.
Qed.
End Rounds.

Lemma rec_done_run r w c : any_ok N S c P0 -> c_gr c = gr -> c_recompute c = true -> rec_ok r c (zlen P0) -> c_k c < zlen P0 -> exists o, tess_core N w c cpu P0 = Ok o /\ Permutation P0 (o_pts N o) /\ zlen (o_rows N o) = zlen P0 /\ zlen (o_states N o) = zlen P0 /\
  forall i row b, znth (o_rows N o) i = Some row -> znth (o_states N o) i = Some b -> errorless b -> T (o_pts N o) i row.
Proof.
  intros (Hc & Hgr & Hg3 & Hr & OD & Hnt & Fit & HkN) Eg Rc HR Kn.
  destruct (xyz_sort_total N (c_gr c) P0 ltac:(lia) Hg3 Hr) as (P & ids & offs & HS).
  pose proof (perm_points N _ _ _ _ _ HS) as PP. assert (LP : zlen P = zlen P0) by (unfold zlen; rewrite (Permutation_length PP); reflexivity).
  rewrite <- LP in *.
  destruct HR as (R1 & R2 & R3 & R4 & K & P1 & P2 & T1 & T2 & NK & NN & NP & NT).
  set (g := mkGrid N P ids offs).
  assert (W1 : 1 <= 2 ^ r) by (apply (Z.pow_le_mono_r 2 0 r); lia).
  assert (Hg : sorted_grid N c g) by (split; [assumption|]; exists P0; auto).
  destruct (results_ex N c g Hc Hg) as [rs Rs].
  set (st := map (out_byte N rs) (zrange 0 (zlen P))).
  assert (I0 : ind_ok N g (zrange 0 (zlen P))). { split; [apply NoDup_zrange|]. intros x Hx. apply in_zrange in Hx. exact Hx. }
  pose proof (todo_ok N g _ st I0) as Hi.
  destruct (rec_run_ex N g (Z.to_nat r) c (todo (zrange 0 (zlen P)) st) st (map (out_row N c rs) (zrange 0 (zlen P))) Hg) as (rows' & st' & RR); auto; try lia.
  { unfold grow_ok. rewrite Z2Nat.id by lia. simpl g_pts. lia. }
  assert (NP' : zlen P * c_pmax c <= zlen P * c_pmax c * 2 ^ r) by (apply mul_le3; lia).
  assert (NT' : zlen P * c_tmax c <= zlen P * c_tmax c * 2 ^ r) by (apply mul_le3; lia).
  destruct (rec_core_rows N c P0 P ids offs rs rows' st' Hc R2 NK NN ltac:(lia) ltac:(lia) Hgr Hr HS Rs RR) as (o & A1 & A2 & A3 & A4 & A5 & A6 & A7 & A8 & _ & RUN).
  exists o. split; [apply RUN; auto; repeat split|]. rewrite A1. split; [exact PP|]. split; [assumption|]. split; [assumption|].
  intros i row b Hrow Hb EB. rewrite A3 in Hrow. rewrite A2 in Hb. pose proof HS as HS'. rewrite Eg in HS'.
  assert (Lst : zlen st = zlen P) by (unfold st; rewrite zlen_map, zlen_zrange; lia).
  apply (rec_done P ids offs HS' (fun _ => True) c _ st _ rows' st' RR ltac:(lia) Eg Hi Lst) with (x := i) (b := b); auto; [rewrite zlen_map, zlen_zrange; lia|].
  apply (first_done P ids offs HS'); auto; [lia|]. intros x b0 _ Hb0 Q. pose proof (znth_some _ _ _ Hb0) as Hx. unfold st in Hb0. rewrite znth_map, znth_zrange in Hb0 by lia. rewrite Z.add_0_l in Hb0. injection Hb0 as <-. exact Q.
Qed.
End R.

(** rounds without errors *)
Section Room.
Variable N : Arith.
Variables (gr : Z) (P0 P : list (point N)) (ids offs : list Z).
Hypothesis Hgr : 0 < gr.
Hypothesis HIR : in_range_ids N gr P0.
Hypothesis HS : xyz_sort N gr P0 = Ok (P, ids, offs).
Notation g := (mkGrid N P ids offs).
Notation n := (zlen P).
Hypothesis HEL : forall c rs x, cfg_ok c -> c_gr c = gr -> results N c g rs -> c_k c <= n - 1 -> roomy c (c_k c) -> 0 <= x < n -> errorless (out_byte N rs x).

Lemma rec_errorless : forall r c ind st rows, c_gr c = gr -> 2 <= n -> 1 <= c_k c -> ind_ok N g ind -> roomy c (n - 1) -> c_pmax c <= 255 -> c_tmax c <= 65535 ->
  n * n <= int_max -> n * c_pmax c * 4 <= int_max -> n * c_tmax c * 3 <= int_max -> n - 1 <= c_k c * 2 ^ Z.of_nat r -> (0 < r)%nat -> zlen st = n ->
  (forall x b, In x ind -> znth st x = Some b -> errorless b) ->
  exists rows' st', rec_run N g c ind st rows rows' st' /\ forall x b, znth st' x = Some b -> errorless b.
Proof.
  induction r as [|r IH]; intros c ind st rows Eg Hn Hk Hi [Ro1 Ro2] HP HT NN NP NT G1 Hr Ls HE; [lia|].
  destruct (todo ind st) as [|y l] eqn:Et.
  { exists rows, (map (fun _ => 0) st). split; [now apply rr_done|]. intros x b Hb. rewrite znth_map in Hb. destruct (znth st x); [|discriminate]. injection Hb as <-. repeat split. }
  assert (Ne : todo ind st <> []) by congruence. clear y l Et.
  pose proof (no_flag st ind error_p_overflow (or_introl eq_refl) HE) as NF4. pose proof (no_flag st ind error_t_overflow (or_intror eq_refl) HE) as NF5.
  set (c' := next_cfg n ind st c). pose proof (todo_ok N g ind st Hi) as Hi'. assert (Hi2 := Hi'). destruct Hi2 as [Nd Ir].
  assert (Lt : zlen (todo ind st) <= n).
  { assert (Q : (List.length (todo ind st) <= List.length (zrange 0 n))%nat) by (apply NoDup_incl_length; [exact Nd|]; intros x Hx; apply in_zrange; now apply Ir).
    assert (Q2 : zlen (zrange 0 n) = n) by (rewrite zlen_zrange; lia). rewrite <- Q2. unfold zlen at 1 2. lia. }
  pose proof (zlen_nonneg (todo ind st)) as Lt0.
  assert (Kc : c_k c' = Z.min (n - 1) (c_k c * 2)). { unfold c', next_cfg, set_kpt, next_k. simpl. destruct (Z.ltb_spec (n - 1) (c_k c * 2)); lia. }
  assert (Pc : c_pmax c' = c_pmax c) by (unfold c', next_cfg, set_kpt; simpl; rewrite NF4; lia).
  assert (Tc : c_tmax c' = c_tmax c) by (unfold c', next_cfg, set_kpt; simpl; rewrite NF5; lia).
  assert (Hc' : cfg_ok c') by (unfold cfg_ok; rewrite Kc, Pc, Tc; lia).
  assert (SK : zlen (todo ind st) * c_k c' <= n * n) by (apply Z.mul_le_mono_nonneg; lia).
  assert (SP : zlen (todo ind st) * c_pmax c <= n * c_pmax c) by (apply Z.mul_le_mono_nonneg_r; lia).
  assert (ST : zlen (todo ind st) * c_tmax c <= n * c_tmax c) by (apply Z.mul_le_mono_nonneg_r; lia).
  assert (Fi : sub_fits c' (zlen (todo ind st))) by (unfold sub_fits; rewrite Pc, Tc; lia).
  assert (Hg : sorted_grid N c' g).
  { split; [rewrite <- Eg in Hgr; exact Hgr|]. exists P0. split; [|exact (eq_trans (f_equal (fun z => xyz_sort N z P0) Eg) HS)].
    change (c_gr c') with (c_gr c). rewrite Eg. exact HIR. }
  destruct (results_ex N c' g Hc' Hg) as [rs Rs].
  assert (EL : forall x, 0 <= x < n -> errorless (out_byte N rs x)).
  { intros x Hx. apply (HEL c' rs x Hc' Eg Rs); auto; [lia|]. unfold roomy. rewrite Pc, Tc. lia. }
  assert (ES : forall x b, znth (new_states N g (todo ind st) rs) x = Some b -> errorless b).
  { intros x b Hb. assert (Hx : 0 <= x < n) by (pose proof (znth_some _ _ _ Hb) as X; rewrite new_states_len in X; exact X).
    rewrite new_states_at in Hb by assumption. destruct (mem_z (todo ind st) x); injection Hb as <-; [now apply EL|repeat split]. }
  destruct (Z_le_gt_dec (n - 1) (c_k c')) as [L|L].
  - exists (new_rows N g c' (todo ind st) rs rows), (new_states N g (todo ind st) rs). split; [apply rr_last; assumption|exact ES].
  - assert (K2 : c_k c' = c_k c * 2) by lia. replace (Z.of_nat (Datatypes.S r)) with (Z.succ (Z.of_nat r)) in G1 by lia. rewrite Z.pow_succ_r in G1 by lia.
    destruct (IH c' (todo ind st) (new_states N g (todo ind st) rs) (new_rows N g c' (todo ind st) rs rows)) as (rows' & st' & RR & Q); auto.
    + lia.
    + unfold roomy. rewrite Pc, Tc. lia.
    + lia.
    + lia.
    + rewrite Pc. assumption.
    + rewrite Tc. assumption.
    + rewrite K2. lia.
    + destruct r; [|lia]. exfalso. change (2 ^ Z.of_nat 0) with 1 in G1. lia.
    + apply new_states_len.
    + intros x b _. apply ES.
    + exists rows', st'. split; [|exact Q]. eapply rr_more; [exact Ne|exact Hc'|exact Fi|exact Rs|exact (Z.gt_lt _ _ L)|exact RR].
Qed.
End Room.
