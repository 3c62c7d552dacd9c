(** The device driver with chunking: it stays inside its arrays, and what it
    returns does not depend on schedules or leftover memory. *)
From Verif Require Import Base Arith PBase Prog PProg MUtils MHeap MXyz MKnn MBoundary MCell MDnn MArgs MTess PFlags PSort PFill PHeap PReloc PHeapFinal
  SpecSort PXyz PSortFinal SpecDnn PDnn SpecBnd PBnd PCellSim PCellRun PCell PCellRow PKnnSafe PSlot PWalk SpecSlot PSlotHost PSlotFinal PPool PRanges PTess PTessRun PTessFinal PGpu PGpuRun.
From Verif Require Export SpecParam.
Local Open Scope res_scope.

(** number of slots of the run that handles point x *)
Definition sub_of (cs n x : Z) : Z :=
  if chunked cs n then if x / cs =? n / cs then n - n / cs * cs else cs else n.
Lemma sub_of_run cs n run d : 0 <= run < num_runs cs n -> 0 <= d < cend cs n run - cstart cs run ->
  sub_of cs n (cstart cs run + d) = cend cs n run - cstart cs run.
Proof.
  unfold sub_of, num_runs, cend, cstart, num_runs. destruct (chunked cs n) eqn:Ec; intros Hr Hd.
  - unfold chunked in Ec. apply andb_true_iff in Ec as [E1 E2]. apply Z.ltb_lt in E1, E2.
    assert (Q : (run * cs + d) / cs = run).
    { rewrite Z.add_comm, Z.div_add by lia. rewrite Z.div_small; [lia|]. destruct (Z.eqb_spec run (n / cs + 1 - 1)); [|lia].
      pose proof (Z.div_mod n cs ltac:(lia)). pose proof (Z.mod_pos_bound n cs ltac:(lia)). assert (run = n / cs) by lia. subst run. lia. }
    rewrite Q. destruct (Z.eqb_spec run (n / cs)), (Z.eqb_spec run (n / cs + 1 - 1)); lia.
  - destruct (Z.eqb_spec run (1 - 1)); [|lia]. assert (run = 0) by lia. subst run. simpl in *. lia.
Qed.

Section Run.
Variable N : Arith.
Notation F := (F N).
Variable c : cfg.
Variable g : grid N.
Hypothesis Hc : dev_cfg_ok c.
Hypothesis Hg : sorted_grid N c g.
Notation n := (zlen (g_pts N g)).
Notation k := (c_k c).
Notation pm := (c_pmax c).
Notation tm := (c_tmax c).

Definition chunk_results (R : Z -> Z -> sres N) : Prop := forall sub index, 0 < sub <= n -> 0 <= index < n ->
  zlen (r_row N k (R sub index)) = k /\
  forall nd indices i m b, 0 <= i < sub -> znth indices i = Some index ->
    dev_before N c i sub (local_base nd pm i) index m (dheap0 N c) (lab0 c) b -> 0 <= b < 256 ->
    exists m', run_in (own_columns sub k pm tm i (local_base nd pm i) index) (item_prog N c g nd sub indices i) m = Ok (tt, m') /\
      dev_after N c i sub (local_base nd pm i) index m' (R sub index) b.

Lemma chunk_results_ex : exists R, chunk_results R.
Proof.
  assert (K1 : 1 <= k <= 65535) by apply Hc.
  set (Q := fun sub index r => zlen (r_row N k r) = k /\
    forall nd indices i m b, 0 <= i < sub -> znth indices i = Some index ->
    dev_before N c i sub (local_base nd pm i) index m (dheap0 N c) (lab0 c) b -> 0 <= b < 256 ->
    exists m', run_in (own_columns sub k pm tm i (local_base nd pm i) index) (item_prog N c g nd sub indices i) m = Ok (tt, m') /\
      dev_after N c i sub (local_base nd pm i) index m' r b).
  destruct (Forall2_ex (fun sub l => Forall2 (Q sub) (zrange 0 n) l) (zrange 1 (n + 1))) as [ll Hll].
  { intros sub Hs. apply in_zrange in Hs. apply Forall2_ex. intros index Hi. apply in_zrange in Hi.
    destruct (dev_slot N c g sub index (dheap0 N c) (lab0 c) Hc Hg ltac:(lia) Hi) as (r & (p & _ & Ho & _ & _ & G) & Rn).
    - unfold dheap0. split; [rewrite zlen_repeat; lia|]. apply Forall_forall. intros x Hx. apply repeat_spec in Hx. subst x. simpl. lia.
    - unfold lab0. rewrite zlen_repeat. lia.
    - exists r. split; [|exact Rn]. apply row_after_len; [unfold r_K; rewrite zlen_map; apply Ho|apply G]. }
  exists (fun sub index => nth (Z.to_nat index) (nth (Z.to_nat (sub - 1)) ll []) (mkS N [] Cont (mkC N [] [] []) false)).
  intros sub index Hs Hi. change (Q sub index (nth (Z.to_nat index) (nth (Z.to_nat (sub - 1)) ll []) (mkS N [] Cont (mkC N [] [] []) false))).
  destruct (Forall2_nth _ _ _ Hll (Z.to_nat (sub - 1)) sub) as (l & El & Hl). { rewrite nth_error_zrange by lia. f_equal. lia. }
  rewrite (nth_error_nth _ _ _ El). destruct (Forall2_nth _ _ _ Hl (Z.to_nat index) index) as (r & Er & Hr). { rewrite nth_error_zrange by lia. f_equal. lia. }
  rewrite (nth_error_nth _ _ _ Er). exact Hr.
Qed.

Variable R : Z -> Z -> sres N.
Hypothesis HR : chunk_results R.

Definition cap_room' (cap : Z) (m : mem F) : Prop :=
  zlen (m_hid m) = cap * k /\ zlen (m_hpq m) = cap * k /\ zlen (m_dknn m) = cap * k /\ zlen (m_P m) = cap * pm * 4 /\ zlen (m_T m) = cap * tm * 3 /\
  pm * cap <= zlen (m_dR m) /\ zlen (m_st m) = n.
Definition cfresh (m : mem F) cap : Prop := forall x, 0 <= x < cap * k ->
  znth (m_hid m) x = Some 0 /\ znth (m_hpq m) x = Some (fofZ N 128) /\ znth (m_dknn m) x = Some k_undefined.

Lemma cfresh_before nd m cap sub i x b : 0 < nd -> cap_room' cap m -> cfresh m cap -> 0 <= i < sub -> sub <= cap -> 0 <= x < n -> znth (m_st m) x = Some b ->
  dev_before N c i sub (local_base nd pm i) x m (dheap0 N c) (lab0 c) b.
Proof.
  intros Hnd (R1 & R2 & R3 & R4 & R5 & R6 & R7) Fr Hi Hs Hx Hb. destruct Hc as ((H1 & H2 & H3) & _). rewrite local_base_eq by assumption.
  assert (Q : forall d, 0 <= d < k -> 0 <= sub * d + i < cap * k) by (intros; nia).
  unfold dev_before, slot_before. split; [|split; [|split; [|split]]].
  - intros a y Hy. unfold mrd. destruct a; simpl in Hy |- *; try (apply znth_in_range; nia).
  - intros d Hd. unfold dheap0. rewrite map_repeat, znth_repeat by lia. apply (Fr (sub * d + i) (Q d Hd)).
  - intros d Hd. unfold dheap0. rewrite map_repeat, znth_repeat by lia. apply (Fr (sub * d + i) (Q d Hd)).
  - intros d Hd. unfold lab0. rewrite znth_repeat by lia. apply (Fr (sub * d + i) (Q d Hd)).
  - unfold mrd. simpl. rewrite Z.add_0_r. exact Hb.
Qed.

Lemma cpool nd cap sub st indices m : 0 < nd -> 0 <= st -> 0 <= sub <= cap -> st + sub <= n -> cap_room' cap m -> cfresh m cap ->
  (forall j, 0 <= j < sub -> znth indices j = Some (st + j)) ->
  (forall j b, znth (m_st m) j = Some b -> 0 <= b < 256) ->
  exists m', (forall sched, pool_run sched (map (item_prog N c g nd sub indices) (zrange 0 sub)) m = Ok m') /\
    (forall a, zlen (mget m' a) = zlen (mget m a)) /\
    (forall j d, 0 <= j < sub -> 0 <= d < k -> znth (m_hid m') (sub * d + j) = znth (r_row N k (R sub (st + j))) d) /\
    (forall j b, 0 <= j < sub -> znth (m_st m) (st + j) = Some b -> znth (m_st m') (st + j) = Some (r_byte N (R sub (st + j)) b)) /\
    (forall x, x < st \/ st + sub <= x -> znth (m_st m') x = znth (m_st m) x).
Proof.
  intros Hnd Hst Hs Hsn Rm Fr Hi Hb. assert (Hc' := Hc). destruct Hc' as ((H1 & H2 & H3) & _).
  assert (Ls : zlen (m_st m) = n) by apply Rm.
  set (body := item_prog N c g nd sub indices).
  set (T := fun (j : Z) (t : @task F) => exists b, 0 <= j < sub /\ znth (m_st m) (st + j) = Some b /\
    t_p t = body j /\ t_W t = own_columns sub k pm tm j (local_base nd pm j) (st + j) /\ confined m t /\
    dev_after N c j sub (local_base nd pm j) (st + j) (t_f t) (R sub (st + j)) b).
  destruct (Forall2_ex T (zrange 0 sub)) as [ts Hts].
  { intros j Hj. apply in_zrange in Hj. destruct (HR sub (st + j) ltac:(lia) ltac:(lia)) as (_ & Run).
    destruct (znth_in_range (m_st m) (st + j) ltac:(lia)) as [b Eb].
    destruct (Run nd indices j m b Hj (Hi j Hj) (cfresh_before nd m cap sub j (st + j) b Hnd Rm Fr Hj ltac:(lia) ltac:(lia) Eb) (Hb _ b Eb)) as (f & Rf & Af).
    exists (mkTask (body j) (own_columns sub k pm tm j (local_base nd pm j) (st + j)) f). exists b. simpl.
    do 4 (split; [auto|]). split; [|assumption]. exists f. split; [exact Rf|]. intros a i _. reflexivity. }
  assert (Ap : apart ts).
  { apply (apart_from T (zrange 0 sub)); [assumption|apply NoDup_zrange|].
    intros i j t u Hi' Hj' Nij (x & _ & _ & _ & -> & _) (y & _ & _ & _ & -> & _). apply columns_disjoint; lia. }
  assert (Cf : forall t, In t ts -> confined m t).
  { intros t Ht. destruct (Forall2_in' _ _ _ _ Hts Ht) as (j & _ & (b & _ & _ & _ & _ & Q & _)). exact Q. }
  assert (EP : map body (zrange 0 sub) = map t_p ts).
  { clear -Hts. induction Hts as [|j t l ts (b & _ & _ & Ep & _) _ IH]; [reflexivity|]. simpl. now rewrite Ep, IH. }
  rewrite EP. destruct (pool_det ts m Ap Cf) as (m' & RP & RS & MG1 & MG2). exists m'. split; [assumption|].
  split; [apply (run_in_len _ _ _ _ _ RS)|].
  assert (Z1 : forall j, 0 <= j < sub -> exists b t, znth (m_st m) (st + j) = Some b /\
     agree (own_columns sub k pm tm j (local_base nd pm j) (st + j)) m' (t_f t) /\ dev_after N c j sub (local_base nd pm j) (st + j) (t_f t) (R sub (st + j)) b).
  { intros j Hj. destruct (Forall2_in _ _ _ j Hts) as (t & Ht & (b & _ & Eb & _ & EW & _ & Af)); [now apply in_zrange|].
    exists b, t. rewrite <- EW. auto. }
  split; [|split].
  - intros j d Hj Hd. destruct (Z1 j Hj) as (b & t & _ & Ag & (l' & V & (Pl & Tr & C & D & -> & _))).
    transitivity (mrd (t_f t) AHeapId (sub * d + j)).
    + apply (Ag AHeapId). unfold own_columns, between. rewrite !andb_true_iff, Z.leb_le, Z.ltb_lt, Z.eqb_eq. split; [nia|].
      replace (sub * d + j) with (j + d * sub) by ring. rewrite Z_mod_plus_full. apply Z.mod_small. lia.
    + apply (V AHeapId d). simpl. destruct (HR sub (st + j) ltac:(lia) ltac:(lia)) as (-> & _). assumption.
  - intros j b Hj Eb. destruct (Z1 j Hj) as (b' & t & Eb' & Ag & (l' & V & (Pl & Tr & C & D & -> & _))). assert (b' = b) by congruence. subst b'.
    transitivity (mrd (t_f t) ASt (st + j)); [apply (Ag ASt); simpl; apply Z.eqb_refl|].
    specialize (V ASt 0). simpl in V. rewrite Z.add_0_r in V. apply V. unfold zlen. simpl. lia.
  - intros x Hx. apply (MG2 ASt). intros t Ht. destruct (Forall2_in' _ _ _ t Hts Ht) as (j & Hj & (b & _ & _ & _ & -> & _)).
    apply in_zrange in Hj. simpl. apply Z.eqb_neq. lia.
Qed.

Definition crow (cs x : Z) : list Z := visible (r_row N k (R (sub_of cs n x) x)).
Definition cbyte (cs x b : Z) : Z := r_byte N (R (sub_of cs n x) x) b.

Lemma gpu_chunk_spec j sched tmpnn : let cs := chunk_of c n in
  gpu_chunk_fits c n -> groups_ok c n -> zlen tmpnn = n ->
  gpu_tesellate N j sched c g tmpnn = Ok (map (crow cs) (zrange 0 n), map (fun x => cbyte cs x (w8 (jZ N j x))) (zrange 0 n)).
Proof.
  intros cs (F1 & F0 & F2 & F3 & F4 & F5) Hgo Lt. assert (Hn : 0 <= n) by apply zlen_nonneg. assert (Hc' := Hc). destruct Hc' as ((K1 & K2 & K3) & _).
  unfold groups_ok in Hgo. fold cs in F2, F3, F4, Hgo.
  unfold gpu_tesellate. fold (ndsize c). set (nd := ndsize c) in *.
  assert (Hnd : 0 < nd) by (unfold nd, ndsize; destruct (Z.ltb_spec 0 (c_ndsize c)); lia).
  assert (EC : eff_chunksize c n = Ok cs). { unfold eff_chunksize, cs, chunk_of. destruct (c_use_chunking c); [reflexivity|]. apply chk_ok. unfold int_min. lia. }
  rewrite EC. cbn [rbind]. set (cap := first_subsize cs n) in *.
  pose proof (num_runs_pos cs n Hn) as Np.
  assert (Hcap : 0 <= cap). { destruct (chunk_bounds cs n 0 Hn ltac:(lia)) as (_ & ? & Q & _). fold cap in Q. lia. }
  rewrite (alloc_chk (3 * n)) by lia. cbn [rbind]. unfold gpu_buffers. rewrite (alloc_chk (cap * k)) by nia. cbn [rbind]. rewrite alloc_mul3 by nia. cbn [rbind]. rewrite alloc_mul3 by nia. cbn [rbind].
  rewrite (alloc_chk (nd * pm)) by nia. cbn [rbind].
  match goal with |- context [rfold _ _ (?x, _)] => set (m0 := x) end.
  assert (LZ : forall q, zlen (junkZ N j q) = Z.of_nat q) by (intros q; unfold junkZ; rewrite zlen_map, zlen_zrange; lia).
  assert (LF : forall q, zlen (junkF N j q) = Z.of_nat q) by (intros q; unfold junkF; rewrite zlen_map, zlen_zrange; lia).
  assert (W8 : forall x, 0 <= w8 x < 256) by (intros x; unfold w8; apply Z.mod_pos_bound; lia).
  assert (BR : forall (r : sres N) b, 0 <= b < 256 -> 0 <= r_byte N r b < 256) by (intros r b Hb; apply ok_byte; assumption).
  assert (Rm0 : cap_room' cap m0).
  { unfold cap_room', m0. simpl. rewrite !zlen_repeat, LF, !LZ.
    assert (pm * cap <= nd * pm * (cap / nd + 1)). { pose proof (Z.div_mod cap nd ltac:(lia)). pose proof (Z.mod_pos_bound cap nd ltac:(lia)). nia. }
    assert (0 <= nd * pm) by nia. assert (0 <= cap / nd) by (apply Z.div_pos; lia).
    rewrite Nat2Z.inj_mul, !Z2Nat.id by lia. repeat apply conj; try lia. }
  set (drun := fun run => if run <? num_runs cs n then cstart cs run else n).
  assert (J0 : forall x, 0 <= x < n -> znth (m_st m0) x = Some (w8 (jZ N j x))). { intros x Hx. unfold m0. simpl. unfold junkZ. rewrite znth_map, znth_zrange by lia. reflexivity. }
  clearbody m0.
  destruct (rfold_zrange_inv (gpu_run N sched c g nd cs cap n) (fun run s => let '(m, tmpnn) := s in
     cap_room' cap m /\ zlen tmpnn = n /\
     (forall x, 0 <= x < drun run -> znth (m_st m) x = Some (cbyte cs x (w8 (jZ N j x))) /\ znth tmpnn x = Some (crow cs x)) /\
     (forall x, drun run <= x < n -> znth (m_st m) x = Some (w8 (jZ N j x)))) 0 (num_runs cs n) (m0, tmpnn)) as (s' & E & P).
  - lia.
  - split; [assumption|]. split; [assumption|].
    assert (D0 : drun 0 = 0) by (unfold drun; destruct (Z.ltb_spec 0 (num_runs cs n)); [reflexivity|lia]). rewrite D0. split; [lia|]. apply J0.
  - intros run [m tn] Hrun (Rm & Ltn & Hdone & Hrest).
    destruct (chunk_bounds cs n run Hn Hrun) as (C1 & C2 & C3 & C4 & C5 & C6). fold cap in C3, C4.
    unfold gpu_run. set (st := cstart cs run) in *. set (sub := cend cs n run - st) in *.
    assert (Em : sub mod nd = 0) by (apply (Hgo run Hrun)). rewrite Em. cbn [Z.eqb rbind].
    assert (DR : drun run = st) by (unfold drun; destruct (Z.ltb_spec run (num_runs cs n)); [reflexivity|lia]).
    assert (DR1 : drun (run + 1) = st + sub).
    { unfold drun. destruct (Z.ltb_spec (run + 1) (num_runs cs n)); [destruct (C4 ltac:(lia)) as [Q _]; lia|]. rewrite <- C5 by lia. lia. }
    assert (Rm' : cap_room' cap (gpu_refill N m)).
    { destruct Rm as (A1 & A2 & A3 & A4 & A5 & A6 & A7). unfold cap_room', gpu_refill. simpl. rewrite !zlen_repeat. unfold zlen in *. repeat apply conj; lia. }
    assert (Fr : cfresh (gpu_refill N m) cap).
    { destruct Rm as (A1 & A2 & A3 & _). intros x Hx. unfold gpu_refill. simpl. rewrite !znth_repeat by (unfold zlen in *; lia). auto. }
    set (indices := map (fun i => st + i) (zrange 0 cap)).
    assert (EI : forall i, 0 <= i < sub -> znth indices i = Some (st + i)). { intros i Hi. unfold indices. rewrite znth_map, znth_zrange by lia. reflexivity. }
    rewrite DR in Hdone, Hrest.
    assert (SB : forall i b, znth (m_st (gpu_refill N m)) i = Some b -> 0 <= b < 256).
    { intros i b Eb. simpl in Eb. assert (Hi : 0 <= i < n) by (apply znth_some in Eb; destruct Rm as (_ & _ & _ & _ & _ & _ & Q); lia).
      destruct (Z.ltb_spec i st) as [L|L].
      - destruct (Hdone i ltac:(lia)) as [Q _]. rewrite Q in Eb. injection Eb as <-. apply BR, W8.
      - rewrite Hrest in Eb by lia. injection Eb as <-. apply W8. }
    destruct (cpool nd cap sub st indices (gpu_refill N m) Hnd C1 ltac:(lia) ltac:(lia) Rm' Fr EI SB) as (m' & PR & Len & P1 & P2 & P3).
    rewrite PR. cbn [rbind].
    assert (Lh : zlen (m_hid m') = cap * k). { pose proof (Len AHeapId) as Q. cbn [mget ty] in Q. rewrite Q. apply Rm'. }
    destruct (untranspose_ok k sub (m_hid m')) as (out & EU & LU & U).
    { lia. } { lia. } { nia. }
    rewrite EU. cbn [rbind].
    destruct (fill_ok k indices sub out tn) as (tm' & ET & LT & T1 & T2).
    { lia. } { unfold indices. rewrite zlen_map, zlen_zrange by lia. lia. } { nia. }
    { intros i x Hi Ex. rewrite EI in Ex by assumption. injection Ex as <-. lia. }
    { intros i i' x Hi Hi' Ex Ex'. rewrite EI in Ex, Ex' by assumption. injection Ex as <-. injection Ex' as Q. lia. }
    rewrite ET. cbn [rbind]. exists (m', tm'). split; [reflexivity|]. split; [|split; [lia|split]].
    + destruct Rm' as (A1 & A2 & A3 & A4 & A5 & A6 & A7). unfold cap_room'.
      pose proof (Len AHeapId) as Q1. pose proof (Len AHeapPq) as Q2. pose proof (Len ADknn) as Q3. pose proof (Len AP) as Q4. pose proof (Len AT) as Q5. pose proof (Len AdR) as Q6. pose proof (Len ASt) as Q7.
      cbn [mget ty] in Q1, Q2, Q3, Q4, Q5, Q6, Q7. rewrite Q1, Q2, Q3, Q4, Q5, Q6, Q7. auto 8.
    + intros x Hx. rewrite DR1 in Hx. destruct (Z.ltb_spec x st) as [L|L].
      * destruct (Hdone x ltac:(lia)) as [D1 D2]. split; [rewrite P3 by lia; exact D1|]. rewrite T2; [assumption|].
        intros i Hi. rewrite EI by lia. intros Q. injection Q. lia.
      * assert (Hd : 0 <= x - st < sub) by lia. assert (Ex : x = st + (x - st)) by lia.
        assert (SO : sub_of cs n x = sub) by (rewrite Ex; apply sub_of_run; assumption).
        unfold cbyte, crow. rewrite SO. split.
        -- rewrite Ex at 1 2. apply P2; [assumption|]. rewrite <- Ex. simpl. apply Hrest. lia.
        -- rewrite (T1 (x - st) x Hd); [|rewrite EI by assumption; f_equal; lia]. f_equal. f_equal. change (slice out (k * (x - st)) k) with (trow out k (x - st)).
           apply trow_eq; [nia|apply HR; lia|]. intros d Hd'. rewrite U by assumption. rewrite P1 by assumption. now rewrite <- Ex.
    + intros x Hx. rewrite DR1 in Hx. rewrite P3 by lia. simpl. apply Hrest. lia.
  - destruct s' as [m' tn]. rewrite E. cbn [rbind]. destruct P as (Rm & Ltn & Hdone & _).
    assert (DN : drun (num_runs cs n) = n) by (unfold drun; rewrite Z.ltb_irrefl; reflexivity). rewrite DN in Hdone.
    f_equal. f_equal.
    + apply znth_ext_range; [rewrite zlen_map, zlen_zrange by lia; lia|]. intros x Hx. rewrite znth_map, znth_zrange by lia. apply Hdone. lia.
    + assert (Ls : zlen (m_st m') = n) by apply Rm. apply znth_ext_range; [rewrite zlen_map, zlen_zrange by lia; lia|]. intros x Hx. rewrite znth_map, znth_zrange by lia. apply Hdone. lia.
Qed.
End Run.

Lemma gpu_safe_final (N : Arith) c P0 P ids offs : dev_cfg_ok c -> 0 < c_gr c -> in_range_ids N (c_gr c) P0 -> xyz_sort N (c_gr c) P0 = Ok (P, ids, offs) ->
  c_k c * zlen P <= int_max -> gpu_chunk_fits c (zlen P) -> groups_ok c (zlen P) -> c_recompute c = false ->
  exists d, forall w, w_gpu N w = true -> exists o, tess_core N w c gpu P0 = Ok o /\ o_pts N o = P /\ o_dnn N o = d /\ zlen (o_rows N o) = zlen P /\ zlen (o_states N o) = zlen P.
Proof.
  intros Hc Hgr Hr HS Hk Fit Gr Rc. set (g := mkGrid N P ids offs).
  assert (Hg : sorted_grid N c g) by (split; [assumption|]; exists P0; auto).
  destruct (chunk_results_ex N c g Hc Hg) as [R HR].
  assert (K1 : 1 <= c_k c <= 65535) by apply Hc. assert (Hn : 0 <= zlen P) by apply zlen_nonneg.
  pose proof (fun j sched tmpnn => gpu_chunk_spec N c g Hc R HR j sched tmpnn Fit Gr) as GS. cbv zeta in GS. change (g_pts N g) with P in GS.
  set (rows := map (crow N c g R (chunk_of c (zlen P))) (zrange 0 (zlen P))) in *.
  assert (TB : total (map visible rows) <= int_max).
  { etransitivity; [apply (total_bound _ (c_k c)); [lia|]|].
    - apply Forall_forall. intros r Hi. apply in_map_iff in Hi as (r0 & <- & Hr0). apply in_map_iff in Hr0 as (x & <- & Hx). apply in_zrange in Hx.
      unfold crow. set (sb := sub_of (chunk_of c (zlen P)) (zlen (g_pts N g)) x).
      pose proof (visible_len (visible (r_row N (c_k c) (R sb x)))). pose proof (visible_len (r_row N (c_k c) (R sb x))).
      destruct (HR sb x) as (Q & _); [|assumption|lia]. change (g_pts N g) with P. unfold sb, sub_of. change (g_pts N g) with P.
      destruct (chunked (chunk_of c (zlen P)) (zlen P)) eqn:Ec; [|lia]. unfold chunked in Ec. apply andb_true_iff in Ec as [E1 E2]. apply Z.ltb_lt in E1, E2.
      destruct (Z.eqb_spec (x / chunk_of c (zlen P)) (zlen P / chunk_of c (zlen P))) as [e|]; [|lia].
      pose proof (Z.div_mod x (chunk_of c (zlen P)) ltac:(lia)). pose proof (Z.mod_pos_bound x (chunk_of c (zlen P)) ltac:(lia)). rewrite <- e.
      assert (0 <= x / chunk_of c (zlen P)) by (apply Z.div_pos; lia). nia.
    - unfold rows. rewrite !zlen_map, zlen_zrange by lia. lia. }
  exists (mkDnn (concat (map visible rows)) (shape (map visible rows))). intros w Hw.
  assert (LR : zlen (repeat (@nil Z) (List.length P)) = zlen P) by (unfold zlen; rewrite repeat_length; reflexivity).
  eexists. split; [|split; [|split; [|split]]].
  - unfold tess_core. rewrite HS. cbn [rbind run_device]. rewrite Hw, GS by assumption. cbn [rbind]. rewrite Rc. cbn [rbind]. rewrite getdnn_ok by assumption. reflexivity.
  - reflexivity.
  - reflexivity.
  - cbn [o_rows]. unfold rows. rewrite zlen_map, zlen_zrange by lia. lia.
  - cbn [o_states]. rewrite zlen_map, zlen_zrange by lia. lia.
Qed.
