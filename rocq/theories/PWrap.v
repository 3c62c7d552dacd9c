(** C39 and C45: k that is a multiple of 65536, and k = 0. *)
From Verif Require Import Base Arith PBase Prog PProg MUtils MHeap MXyz MKnn MBoundary MCell MDnn MArgs MTess PFlags PSort PFill PHeap PReloc PHeapFinal
  SpecSort PXyz PSortFinal SpecBnd PBnd PCellSim PCellRun PCell PCellRow PKnnSafe PSlot PWalk SpecSlot PSlotHost PSlotFinal PPool PRanges PTess PTessRun.
Local Open Scope prog_scope.

(** ** k = 0 *)
Lemma znth_nil {A} i : znth (@nil A) i = None.
Proof. unfold znth. destruct (0 <=? i); [|reflexivity]. now destruct (Z.to_nat i). Qed.

Section Stuck.
Context {F : Type}.

(** the first access, if any, is a read of heap_pq *)
Definition inert {A} (p : prog F A) : Prop :=
  match p with Ret _ => True | Fail e => e = EUB | Rd a _ _ => a = AHeapPq | Wr _ _ _ _ => False end.
Definition stuck {A} (p : prog F A) : Prop :=
  match p with Ret _ => False | Fail e => e = EUB | Rd a _ _ => a = AHeapPq | Wr _ _ _ _ => False end.
Lemma stuck_inert {A} (p : prog F A) : stuck p -> inert p.
Proof. destruct p; simpl; auto. Qed.
Lemma stuck_bind {A B} (p : prog F A) (f : A -> prog F B) : stuck p -> stuck (bind p f).
Proof. destruct p; simpl; tauto. Qed.
Lemma stuck_bind2 {A B} (p : prog F A) (f : A -> prog F B) : inert p -> (forall a, stuck (f a)) -> stuck (bind p f).
Proof. destruct p; simpl; auto. Qed.
Lemma inert_bind {A B} (p : prog F A) (f : A -> prog F B) : inert p -> (forall a, inert (f a)) -> inert (bind p f).
Proof. destruct p; simpl; auto. Qed.
Lemma inert_opt {A} (o : option A) : inert (pure_opt (F := F) o).
Proof. destruct o; simpl; auto. Qed.
Lemma inert_forM {X} (l : list X) (f : X -> prog F unit) : (forall x, inert (f x)) -> inert (forM l f).
Proof. intros H. induction l; simpl; [exact I|]. apply inert_bind; auto. Qed.
Lemma stuck_forM {X} (l : list X) (f : X -> prog F unit) : (forall x, stuck (f x)) -> l <> [] -> stuck (forM l f).
Proof. intros H Hl. destruct l; [congruence|]. simpl. now apply stuck_bind. Qed.

Lemma stuck_run {A} (p : prog F A) m : m_hpq m = [] -> stuck p -> run p m = Err EUB.
Proof. intros Hm. destruct p; simpl; intros H; subst; try contradiction; [reflexivity|]. unfold run. simpl. unfold mrd. simpl. rewrite Hm, znth_nil. reflexivity. Qed.
Lemma nupd_same {X} (l : list X) i x : nth_error l i = Some x -> nupd l i x = l.
Proof. revert i. induction l as [|y l IH]; intros [|i] H; simpl in *; try discriminate; [congruence|]. now rewrite IH. Qed.

Lemma pool_stuck sched (ps : list (prog F unit)) m : m_hpq m = [] -> (forall p, In p ps -> inert p) -> (exists p, In p ps /\ stuck p) ->
  pool_run sched ps m = Err EUB.
Proof.
  intros Hm Hi (p & Ip & Sp). induction sched as [|i sched IH]; cbn [pool_run].
  - revert Ip. induction ps as [|q ps IHp]; intros Ip; [destruct Ip|]. cbn [finish]. destruct Ip as [->|Ip].
    + now rewrite stuck_run.
    + pose proof (Hi q (or_introl eq_refl)) as Hq. destruct q as [a|e|a j k|a j v k]; simpl in Hq.
      * change (run (Ret a) m) with (Ok (a, m)). apply IHp; auto. intros; apply Hi; now right.
      * now rewrite stuck_run.
      * now rewrite stuck_run.
      * destruct Hq.
  - destruct (nth_error ps i) as [q|] eqn:Eq; [|assumption]. pose proof (Hi q (nth_error_In _ _ Eq)) as Hq.
    destruct q as [a|e|a j k|a j v k]; cbn [step1]; simpl in Hq.
    + rewrite nupd_same by assumption. exact IH.
    + now subst.
    + subst a. unfold mrd. simpl. rewrite Hm, znth_nil. reflexivity.
    + destruct Hq.
Qed.
End Stuck.

Section T.
Variable N : Arith.
Notation F := (F N).

Lemma visit_inert ad pts dev k index q p : inert (knn_visit N ad pts dev k index q p).
Proof. unfold knn_visit. destruct (p =? index); [exact I|]. apply inert_bind; [apply inert_opt|]. intros. reflexivity. Qed.
Lemma knn_stuck ad pts dev wp refs k gr gr_arg ids offs index : 0 < gr ->
  stuck (knn_compute N ad pts dev wp refs k gr gr_arg ids offs index).
Proof.
  intros Hg. unfold knn_compute. apply stuck_bind2; [apply inert_opt|]. intros q. apply stuck_bind2; [apply inert_opt|]. intros idv.
  replace (gr =? 0) with false by lia. cbn [bind]. apply stuck_bind. rewrite zrange_cons by lia. cbn [knn_shells]. apply stuck_bind2; [|intros; reflexivity].
  apply inert_forM. intros [[x y] z]. unfold knn_cell. apply inert_bind; [apply inert_opt|]. intros o0. apply inert_bind; [apply inert_opt|]. intros o1.
  apply inert_forM. intros p. apply visit_inert.
Qed.

Lemma k0_final w c P0 P ids offs : c_k c = 0 -> 0 < c_gr c -> 1 <= c_nthreads c -> 0 <= c_pmax c -> 0 <= c_tmax c -> fits c (zlen P0) -> P0 <> [] ->
  zlen P = zlen P0 -> xyz_sort N (c_gr c) P0 = Ok (P, ids, offs) -> tess_core N w c cpu P0 = Err EUB.
Proof.
  intros Hk Hg Hnt Hp Ht Fit Ne LP HS. unfold tess_core. rewrite HS. cbn [rbind run_device]. unfold cpu_tesellate. simpl g_pts. rewrite LP.
  destruct Fit as (F1 & F2 & F3 & F4). set (n := zlen P0) in *.
  assert (Hn : 1 <= n). { unfold n. destruct P0; [congruence|]. rewrite zlen_cons. pose proof (zlen_nonneg P0). lia. }
  set (cs := chunk_of c n) in *.
  assert (EC : eff_chunksize c n = Ok cs). { unfold eff_chunksize, cs, chunk_of. destruct (c_use_chunking c); [reflexivity|]. apply chk_ok. unfold int_min. lia. }
  rewrite EC. cbn [rbind]. set (cap := first_subsize cs n) in *.
  assert (Np : 1 <= num_runs cs n) by (apply num_runs_pos; lia).
  assert (Hcap : 1 <= cap). { unfold cap, first_subsize, chunked. destruct (Z.ltb_spec 0 cs), (Z.ltb_spec cs n); simpl; lia. }
  unfold buffers. rewrite Hk, Z.mul_0_r. rewrite (alloc_chk 0) by (unfold int_max; lia). cbn [rbind].
  rewrite alloc_mul3 by nia. cbn [rbind]. rewrite alloc_mul3 by nia. cbn [rbind]. rewrite (alloc_chk (cap * c_pmax c)) by nia. cbn [rbind].
  change (Z.to_nat 0) with 0%nat. cbn [repeat]. rewrite (zrange_cons 0 (num_runs cs n)) by lia. cbn [rfold]. unfold cpu_run at 1.
  unfold thread_size. destruct (Z.eqb_spec (c_nthreads c) 0) as [|nz]; [lia|]. cbn [rbind].
  destruct (chunk_bounds cs n 0 ltac:(lia) ltac:(lia)) as (C1 & C2 & C3 & C4 & C5 & C6). fold cap in C3, C4.
  set (sub := cend cs n 0 - cstart cs 0) in *.
  assert (Hsub : 1 <= sub). { destruct (Z.eq_dec 0 (num_runs cs n - 1)) as [e|ne]; [unfold sub; rewrite (C5 e), (C6 eq_refl); lia|]. destruct (C4 ltac:(lia)); lia. }
  destruct (fill_indices_ok (cstart cs 0) sub (repeat 0 (Z.to_nat cap)) ltac:(rewrite zlen_repeat; lia)) as (ind & EI & _). rewrite EI. cbn [rbind].
  set (ts := cap / c_nthreads c). assert (Hts : 0 <= ts) by (apply Z.div_pos; lia).
  rewrite pool_stuck; [reflexivity|reflexivity| |].
  - intros p Ip. unfold threads in Ip. apply in_map_iff in Ip as (i & <- & _). unfold thread_prog. apply inert_forM. intros idx.
    apply inert_bind; [apply inert_opt|]. intros x. apply stuck_inert. unfold slot_prog. apply stuck_bind, knn_stuck. assumption.
  - assert (X : exists i, 0 <= i < c_nthreads c /\ fst (trange (c_nthreads c) ts sub i) < snd (trange (c_nthreads c) ts sub i)).
    { unfold trange. destruct (Z.eq_dec ts 0) as [Z0|NZ].
      - exists (c_nthreads c - 1). rewrite Z.eqb_refl. simpl. split; [lia|]. rewrite Z0. lia.
      - exists 0. destruct (Z.eqb_spec 0 (c_nthreads c - 1)); simpl; lia. }
    destruct X as (i & Hi & Hr). exists (thread_prog N c (mkGrid N P ids offs) ind (trange (c_nthreads c) ts sub i)). split.
    + unfold threads. apply in_map_iff. exists i. split; [reflexivity|now apply in_zrange].
    + unfold thread_prog. apply stuck_forM; [|rewrite zrange_cons by lia; discriminate]. intros idx. apply stuck_bind2; [apply inert_opt|]. intros x.
      unfold slot_prog. apply stuck_bind, knn_stuck. assumption.
Qed.

(** ** k a multiple of 65536 *)
Lemma wrap_final c (g : grid N) i index m q : c_k c = 65536 * q -> 1 <= q -> 6 <= c_pmax c <= 255 -> 8 <= c_tmax c <= 65535 -> sorted_grid N c g ->
  0 <= index < zlen (g_pts N g) -> room (c_k c) (c_pmax c) (c_tmax c) i (zlen (g_pts N g)) m ->
  (forall d, 0 <= d < c_k c -> exists v, znth (m_hid m) (c_k c * i + d) = Some v /\ 0 <= v < zlen (g_pts N g)) ->
  znth (m_st m) index = Some st_init ->
  exists m1 m2,
    run (knn_compute N (ad_host (c_k c * i)) (znth (g_pts N g)) false (fun x => x) (znth (g_pts N g)) (c_k c) (c_gr c) (c_gr c) (g_ids N g) (g_offs N g) index) m = Ok (tt, m1) /\
    run (slot_prog N c g i index) m = Ok (tt, m2) /\
    m_hid m2 = m_hid m1 /\ znth (m_st m2) index = Some st_init.
Proof.
  intros Hk Hq Hp Ht Hg Hi (Ri & R1 & R2 & R3 & R4 & R5 & R6 & R7) Hv Hb.
  destruct (sorted_grid_ok N c g Hg) as (Gr & Gi & Go). set (n := zlen (g_pts N g)) in *. set (k := c_k c) in *.
  assert (Kpos : 0 < k) by lia. assert (NK : 0 <= k * i) by nia.
  set (ids := slice (m_hid m) (k * i) k). set (pqs := slice (m_hpq m) (k * i) k).
  assert (L1 : zlen ids = k) by (apply zlen_slice; nia). assert (L2 : zlen pqs = k) by (apply zlen_slice; nia).
  assert (LL : length ids = length pqs) by (unfold zlen in *; lia).
  destruct (combine_fst_snd ids pqs LL) as [E1 E2]. set (h0 := combine ids pqs) in *.
  assert (L0 : zlen h0 = k) by (rewrite <- L1, <- E1, zlen_map; reflexivity).
  assert (H0 : hok N n k h0).
  { split; [assumption|]. apply Forall_forall. intros x Hin. assert (II : In (fst x) ids) by (rewrite <- E1; now apply in_map).
    apply in_znth in II as (j & Rj & Z0). unfold ids in Z0. rewrite znth_slice in Z0 by lia.
    destruct (Hv j ltac:(lia)) as (v & Ev & Rv). assert (v = fst x) by congruence. lia. }
  destruct (knn_safe N false (znth (g_pts N g)) n) with (l := emem N) (wp := fun x : Z => x) (refs := znth (g_pts N g)) (k := k) (gr := c_gr c) (gr_arg := c_gr c) (ids := g_ids N g) (offs := g_offs N g) (index := index) (h := h0)
    as (h' & RK & Hh'); auto.
  { intros p Hpp. apply znth_in_range. exact Hpp. } { split; [assumption|]. split; assumption. } { apply znth_in_range. exact Hi. }
  destruct (heap_transport N (ad_host (k * i)) (knn_compute N (fun j : Z => j) (znth (g_pts N g)) false (fun x => x) (znth (g_pts N g)) k (c_gr c) (c_gr c) (g_ids N g) (g_offs N g) index) (knn_compute N (ad_host (k * i)) (znth (g_pts N g)) false (fun x => x) (znth (g_pts N g)) k (c_gr c) (c_gr c) (g_ids N g) (g_offs N g) index) h0 m) with (h' := h')
    as (m1 & RK1 & _); auto.
  { intros a b _ _ Hab. unfold ad_host in Hab. lia. }
  { intros j x Hx. pose proof (znth_some _ _ _ Hx) as Rj. unfold ad_host.
    assert (A : znth ids j = Some (fst x)) by (rewrite <- E1, znth_map, Hx; reflexivity). assert (B : znth pqs j = Some (snd x)) by (rewrite <- E2, znth_map, Hx; reflexivity).
    unfold ids in A. unfold pqs in B. rewrite znth_slice in A by lia. rewrite znth_slice in B by lia. auto. }
  { apply knn_sim; reflexivity. }
  pose proof (run_in_len _ _ _ _ _ RK1) as Ln. pose proof (run_in_frame _ _ _ _ _ RK1) as Fr. apply run_in_run in RK1.
  exists m1.
  (* the cell, k = 0 *)
  set (pm := c_pmax c) in *. set (tm := c_tmax c) in *. set (phi := host_phi 0 pm tm i index).
  assert (LS : znth (m_st m1) index = Some st_init). { specialize (Fr ASt index). unfold mrd in Fr. simpl in Fr. rewrite Fr; [assumption|reflexivity]. }
  pose proof (Ln AP) as LnP. pose proof (Ln AT) as LnT. pose proof (Ln AdR) as LnR. simpl in LnP, LnT, LnR.
  destruct (gather (m_P m1) (phi AP) (4 * pm) ltac:(lia)) as (lp & LP & EP). { intros j Hj. apply znth_in_range. unfold phi. simpl. nia. }
  destruct (gather (m_T m1) (phi AT) (3 * tm) ltac:(lia)) as (lt & LT & ET). { intros j Hj. apply znth_in_range. unfold phi. simpl. nia. }
  destruct (gather (m_dR m1) (phi AdR) pm ltac:(lia)) as (C & LC & EC). { intros j Hj. apply znth_in_range. unfold phi. simpl. nia. }
  destruct (unflat4 N lp pm ltac:(lia) LP) as (Pl & <- & LPl). destruct (unflat3 lt tm ltac:(lia) LT) as (Tr & <- & LTr).
  destruct (znth_in_range (g_pts N g) index Hi) as [p Hpt].
  destruct (run_cell N 0 pm tm (znth (g_pts N g)) [] ltac:(lia) ltac:(lia) eq_refl ltac:(intros ? []) [] p eq_refl) as (o & s & cl & W & _ & RUN).
  inversion W; subst o s.
  destruct (RUN (fun x => x) false [] (fun _ => znth (g_pts N g) index) Pl Tr C st_init) as (Pl' & Tr' & C' & D' & RC & _); auto.
  { now left. } { unfold st_init. lia. }
  assert (SIM : psim phi (cell_compute N (fun x => x) false lay0 0 pm tm 0 (znth (g_pts N g)) (fun _ => znth (g_pts N g) index))
     (cell_compute N (fun x => x) false (lay_host 0 pm tm i) 0 pm tm index (znth (g_pts N g)) (znth (g_pts N g)))).
  { apply cell_sim; intros; unfold phi; simpl; lia. }
  destruct (psim_run phi _ _ SIM (cm N [] Pl Tr C [] [] st_init) m1 (ssz 0 pm tm)) with (x := tt) (l' := cm N [] Pl' Tr' C' (row_after N 0 [] Cont (cst0 N [])) D' (loop_byte cl Cont st_init))
    as (m2 & RC2 & V & Sz & Fr2); auto.
  - intros a. unfold msz. destruct a; simpl; auto; rewrite ?zlen_flat4, ?zlen_flat; lia.
  - intros a j Hj. destruct a; simpl in Hj; try (change (zlen (@nil Z)) with 0 in Hj; lia); try (change (zlen (@nil F)) with 0 in Hj; lia).
    + unfold mrd. simpl. rewrite EP by lia. reflexivity.
    + unfold mrd. simpl. rewrite ET by lia. reflexivity.
    + unfold mrd. simpl. rewrite EC by lia. reflexivity.
    + assert (j = 0) by (change (zlen [st_init]) with 1 in Hj; lia). subst j. unfold mrd. simpl. rewrite Z.add_0_r, LS. reflexivity.
  - apply host_inj.
  - exists m2. split; [exact RK1|]. pose proof (run_in_len _ _ _ _ _ RC2) as Ln2. apply run_in_run in RC2. split; [|split].
    + unfold slot_prog. fold k. rewrite (run_bind_ok _ _ _ _ _ RK1). assert (EK : w16 k = 0) by (rewrite Hk; unfold w16; rewrite Z.mul_comm; apply Z.mod_mul; lia).
      rewrite EK. fold pm tm. rewrite !w16_id by lia. exact RC2.
    + specialize (Ln2 AHeapId). simpl in Ln2. apply znth_ext_range; [assumption|]. intros x _. apply (Fr2 AHeapId x). reflexivity.
    + specialize (V ASt 0). simpl in V. rewrite Z.add_0_r in V. unfold mrd in V. simpl in V. rewrite V by (split; [apply Z.le_refl|reflexivity]).
      destruct cl; reflexivity.
Qed.

(** ** other k above 65535: the cell stage works on other rows *)
Lemma wrap_more c (g : grid N) i index m q r : c_k c = 65536 * q + r -> 0 < r < 65536 -> 1 <= q -> 1 <= i -> 6 <= c_pmax c <= 255 -> 8 <= c_tmax c <= 65535 -> sorted_grid N c g ->
  0 <= index < zlen (g_pts N g) -> room (c_k c) (c_pmax c) (c_tmax c) i (zlen (g_pts N g)) m ->
  (forall d, 0 <= d < c_k c -> exists v, znth (m_hid m) (c_k c * i + d) = Some v /\ 0 <= v < zlen (g_pts N g)) ->
  (forall d, 0 <= d < r -> exists v, znth (m_hid m) (r * i + d) = Some v /\ 0 <= v < zlen (g_pts N g)) ->
  znth (m_st m) index = Some st_init ->
  exists m1 m2,
    run (knn_compute N (ad_host (c_k c * i)) (znth (g_pts N g)) false (fun x => x) (znth (g_pts N g)) (c_k c) (c_gr c) (c_gr c) (g_ids N g) (g_offs N g) index) m = Ok (tt, m1) /\
    run (slot_prog N c g i index) m = Ok (tt, m2) /\
    forall x, r * i + r <= x -> znth (m_hid m2) x = znth (m_hid m1) x.
Proof.
  intros Hk Hr Hq Hi1 Hp Ht Hg Hi (Ri & R1 & R2 & R3 & R4 & R5 & R6 & R7) Hv Hv2 Hb.
  destruct (sorted_grid_ok N c g Hg) as (Gr & Gi & Go). set (n := zlen (g_pts N g)) in *. set (k := c_k c) in *.
  assert (Kpos : 0 < k) by lia. assert (NK : 0 <= k * i) by nia.
  set (ids := slice (m_hid m) (k * i) k). set (pqs := slice (m_hpq m) (k * i) k).
  assert (L1 : zlen ids = k) by (apply zlen_slice; nia). assert (L2 : zlen pqs = k) by (apply zlen_slice; nia).
  assert (LL : length ids = length pqs) by (unfold zlen in *; lia).
  destruct (combine_fst_snd ids pqs LL) as [E1 E2]. set (h0 := combine ids pqs) in *.
  assert (L0 : zlen h0 = k) by (rewrite <- L1, <- E1, zlen_map; reflexivity).
  assert (H0 : hok N n k h0).
  { split; [assumption|]. apply Forall_forall. intros x Hin. assert (II : In (fst x) ids) by (rewrite <- E1; now apply in_map).
    apply in_znth in II as (j & Rj & Z0). unfold ids in Z0. rewrite znth_slice in Z0 by lia.
    destruct (Hv j ltac:(lia)) as (v & Ev & Rv). assert (v = fst x) by congruence. lia. }
  destruct (knn_safe N false (znth (g_pts N g)) n) with (l := emem N) (wp := fun x : Z => x) (refs := znth (g_pts N g)) (k := k) (gr := c_gr c) (gr_arg := c_gr c) (ids := g_ids N g) (offs := g_offs N g) (index := index) (h := h0)
    as (h' & RK & Hh'); auto.
  { intros p Hpp. apply znth_in_range. exact Hpp. } { split; [assumption|]. split; assumption. } { apply znth_in_range. exact Hi. }
  destruct (heap_transport N (ad_host (k * i)) (knn_compute N (fun j : Z => j) (znth (g_pts N g)) false (fun x => x) (znth (g_pts N g)) k (c_gr c) (c_gr c) (g_ids N g) (g_offs N g) index) (knn_compute N (ad_host (k * i)) (znth (g_pts N g)) false (fun x => x) (znth (g_pts N g)) k (c_gr c) (c_gr c) (g_ids N g) (g_offs N g) index) h0 m) with (h' := h')
    as (m1 & RK1 & _); auto.
  { intros a b _ _ Hab. unfold ad_host in Hab. lia. }
  { intros j x Hx. pose proof (znth_some _ _ _ Hx) as Rj. unfold ad_host.
    assert (A : znth ids j = Some (fst x)) by (rewrite <- E1, znth_map, Hx; reflexivity). assert (B : znth pqs j = Some (snd x)) by (rewrite <- E2, znth_map, Hx; reflexivity).
    unfold ids in A. unfold pqs in B. rewrite znth_slice in A by lia. rewrite znth_slice in B by lia. auto. }
  { apply knn_sim; reflexivity. }
  pose proof (run_in_len _ _ _ _ _ RK1) as Ln. pose proof (run_in_frame _ _ _ _ _ RK1) as Fr. apply run_in_run in RK1.
  exists m1.
  (* the cell, k = r *)
  set (pm := c_pmax c) in *. set (tm := c_tmax c) in *. set (phi := host_phi r pm tm i index).
  assert (RI : r * i + r <= k * i) by (rewrite Hk; nia).
  assert (LS : znth (m_st m1) index = Some st_init). { specialize (Fr ASt index). unfold mrd in Fr. simpl in Fr. rewrite Fr; [assumption|reflexivity]. }
  pose proof (Ln AP) as LnP. pose proof (Ln AT) as LnT. pose proof (Ln AdR) as LnR. pose proof (Ln AHeapPq) as LnQ. pose proof (Ln ADknn) as LnD. pose proof (Ln AHeapId) as LnI. simpl in LnP, LnT, LnR, LnQ, LnD, LnI.
  assert (HK : forall j, 0 <= j < r -> exists v, znth (m_hid m1) (phi AHeapId j) = Some v /\ 0 <= v < n).
  { intros j Hj. unfold phi. simpl. destruct (Hv2 j Hj) as (v & Ev & Rv). exists v. split; [|assumption]. rewrite <- Ev. specialize (Fr AHeapId (r * i + j)). unfold mrd in Fr. simpl in Fr. apply Fr.
    apply not_true_is_false. intros Im. apply existsb_exists in Im as (y & Hy & Ey). apply in_zrange in Hy. simpl in Ey. unfold ad_host in Ey. lia. }
  destruct (gather (m_P m1) (phi AP) (4 * pm) ltac:(lia)) as (lp & LP & EP). { intros j Hj. apply znth_in_range. unfold phi. simpl. nia. }
  destruct (gather (m_T m1) (phi AT) (3 * tm) ltac:(lia)) as (lt & LT & ET). { intros j Hj. apply znth_in_range. unfold phi. simpl. nia. }
  destruct (gather (m_dR m1) (phi AdR) pm ltac:(lia)) as (C & LC & EC). { intros j Hj. apply znth_in_range. unfold phi. simpl. nia. }
  destruct (gather (m_hid m1) (phi AHeapId) r ltac:(lia)) as (K & LK & EK0). { intros j Hj. destruct (HK j Hj) as (v & Ev & _). eauto. }
  destruct (gather (m_hpq m1) (phi AHeapPq) r ltac:(lia)) as (Q & LQ & EQ). { intros j Hj. apply znth_in_range. unfold phi. simpl. nia. }
  destruct (gather (m_dknn m1) (phi ADknn) r ltac:(lia)) as (D & LD & ED). { intros j Hj. apply znth_in_range. unfold phi. simpl. nia. }
  destruct (unflat4 N lp pm ltac:(lia) LP) as (Pl & <- & LPl). destruct (unflat3 lt tm ltac:(lia) LT) as (Tr & <- & LTr).
  destruct (znth_in_range (g_pts N g) index Hi) as [p Hpt].
  destruct (run_cell N r pm tm (znth (g_pts N g)) K ltac:(lia) ltac:(lia) LK) with (D0 := D) (p := p) as (o & s & cl & W & _ & RUN); auto.
  { intros x Hx. apply in_znth in Hx as (j & Rj & Zj). rewrite EK0 in Zj by lia. destruct (HK j ltac:(lia)) as (v & Ev & Rv). assert (v = x) as -> by congruence.
    split; [unfold k_undefined; lia|]. now apply znth_in_range. }
  destruct (RUN (fun x => x) false Q (fun _ => znth (g_pts N g) index) Pl Tr C st_init) as (Pl' & Tr' & C' & D' & RC & _); auto.
  { now left. } { unfold st_init. lia. }
  assert (SIM : psim phi (cell_compute N (fun x => x) false lay0 r pm tm 0 (znth (g_pts N g)) (fun _ => znth (g_pts N g) index))
     (cell_compute N (fun x => x) false (lay_host r pm tm i) r pm tm index (znth (g_pts N g)) (znth (g_pts N g)))).
  { apply cell_sim; intros; unfold phi; simpl; lia. }
  destruct (psim_run phi _ _ SIM (cm N Q Pl Tr C K D st_init) m1 (ssz r pm tm)) with (x := tt) (l' := cm N Q Pl' Tr' C' (row_after N r K o s) D' (loop_byte cl o st_init))
    as (m2 & RC2 & V & Sz & Fr2); auto.
  - intros a. unfold msz. destruct a; simpl; auto; rewrite ?zlen_flat4, ?zlen_flat; lia.
  - intros a j Hj. destruct a; simpl in Hj; unfold mrd; simpl.
    + rewrite EK0 by lia. reflexivity.
    + rewrite EQ by lia. reflexivity.
    + rewrite EP by lia. reflexivity.
    + rewrite ET by lia. reflexivity.
    + rewrite EC by lia. reflexivity.
    + rewrite ED by lia. reflexivity.
    + assert (j = 0) by (change (zlen [st_init]) with 1 in Hj; lia). subst j. rewrite Z.add_0_r, LS. reflexivity.
  - apply host_inj.
  - exists m2. split; [exact RK1|]. apply run_in_run in RC2. split.
    + unfold slot_prog. fold k. rewrite (run_bind_ok _ _ _ _ _ RK1). assert (EK : w16 k = r). { rewrite Hk. unfold w16. rewrite Z.add_comm, Z.mul_comm, Z.mod_add by lia. apply Z.mod_small. lia. }
      rewrite EK. fold pm tm. rewrite !w16_id by lia. exact RC2.
    + intros x Hx. apply (Fr2 AHeapId x). unfold phi. rewrite host_image. unfold own_rows, between. lia.
Qed.
End T.
