(** The CPU driver: every chunking and every schedule give the same rows. *)
From Verif Require Import Base Arith PBase Prog PProg MUtils MHeap MXyz MKnn MBoundary MCell MDnn MArgs MTess PFlags PSort PFill PHeap PReloc PHeapFinal
  SpecSort PXyz PSortFinal SpecDnn SpecBnd PBnd PCellSim PCellRun PCell PCellRow PKnnSafe PSlot PWalk SpecSlot PSlotHost PSlotFinal PPool PRanges PTess.
From Verif Require Export SpecParam.
Local Open Scope res_scope.

Lemma fill_indices_ok start size l : 0 <= size <= zlen l ->
  exists l', fill_indices l start size = Ok l' /\ zlen l' = zlen l /\
    (forall j, 0 <= j < size -> znth l' j = Some (start + j)) /\ (forall j, size <= j -> znth l' j = znth l j).
Proof.
  intros Hs. unfold fill_indices.
  destruct (rfold_zrange_inv (fun l i => rset l i (start + i))
    (fun i l' => zlen l' = zlen l /\ (forall j, 0 <= j < i -> znth l' j = Some (start + j)) /\ (forall j, i <= j -> znth l' j = znth l j)) 0 size l) as (l' & E & L & A & B).
  - lia.
  - split; [reflexivity|]. split; [lia|auto].
  - intros i l1 Hi (L & A & B). exists (zupd l1 i (start + i)). split; [apply rset_some; lia|]. split; [now rewrite zlen_zupd|]. split.
    + intros j Hj. destruct (Z.eq_dec j i) as [->|]; [apply znth_zupd_same; lia|]. rewrite znth_zupd_other by lia. apply A. lia.
    + intros j Hj. rewrite znth_zupd_other by lia. apply B. lia.
  - eauto.
Qed.

Lemma byte_again (cl : bool) o : loop_byte cl o (loop_byte cl o st_init) = loop_byte cl o st_init.
Proof. destruct cl, o; vm_compute; reflexivity. Qed.

Lemma byte_range (cl : bool) o : 0 <= loop_byte cl o st_init < 256.
Proof. apply ok_byte. unfold st_init. lia. Qed.

Lemma alloc_chk x : 0 <= x <= int_max -> alloc (chk x) = Ok (Z.to_nat x).
Proof. intros H. rewrite chk_ok by (unfold int_min; lia). unfold alloc. simpl. destruct (Z.ltb_spec x 0); [lia|reflexivity]. Qed.
Lemma alloc_mul3 a b d : 0 <= a * b -> 1 <= d -> a * b * d <= int_max -> alloc (mul3 a b d) = Ok (Z.to_nat (a * b * d)).
Proof. intros H1 H2 H3. unfold mul3. rewrite chk_ok by (unfold int_min; nia). simpl. rewrite alloc_chk by nia. reflexivity. Qed.

Section T.
Variable N : Arith.
Notation F := (F N).
Variable c : cfg.
Variable g : grid N.
Hypothesis Hc : cfg_ok c.
Hypothesis Hg : sorted_grid N c g.
Notation n := (zlen (g_pts N g)).
Notation k := (c_k c).
Notation pm := (c_pmax c).
Notation tm := (c_tmax c).
Hypothesis Hnt : 1 <= c_nthreads c.

Lemma buffers_ok sub (states : list Z) : 0 <= sub -> sub * k <= int_max -> sub * pm * 4 <= int_max -> sub * tm * 3 <= int_max ->
  buffers N c sub states = Ok (mkMem (repeat 0 (Z.to_nat (sub * k))) (repeat (finf N) (Z.to_nat (sub * k))) (repeat (fofZ N 0) (Z.to_nat (sub * pm * 4)))
    (repeat 0 (Z.to_nat (sub * tm * 3))) (repeat 0 (Z.to_nat (sub * pm))) (repeat k_undefined (Z.to_nat (sub * k))) states).
Proof.
  intros Hs H1 H2 H3. destruct Hc as (K1 & K2 & K3). unfold buffers.
  rewrite (alloc_chk (sub * k)) by nia. cbn [rbind]. rewrite alloc_mul3 by nia. cbn [rbind]. rewrite alloc_mul3 by nia. cbn [rbind].
  rewrite (alloc_chk (sub * pm)) by nia. reflexivity.
Qed.

Definition out_row (rs : Z -> sres N) (x : Z) : list Z := visible (r_row N k (rs x)).
Definition out_byte (rs : Z -> sres N) (x : Z) : Z := r_byte N (rs x) st_init.

Definition cap_mem (cap : Z) (m : mem F) : Prop :=
  zlen (m_hid m) = k * cap /\ zlen (m_hpq m) = k * cap /\ zlen (m_dknn m) = k * cap /\ zlen (m_P m) = 4 * pm * cap /\ zlen (m_T m) = 3 * tm * cap /\ zlen (m_dR m) = pm * cap /\ zlen (m_st m) = n.

Lemma cap_room cap M m : cap_mem cap m -> 0 <= M <= cap -> has_room N c g M m.
Proof. intros (A1 & A2 & A3 & A4 & A5 & A6 & A7) HM. destruct Hc as (K1 & K2 & K3). unfold has_room. repeat apply conj; try nia. Qed.

Lemma cap_refill cap m : cap_mem cap m -> cap_mem cap (refill N m).
Proof. intros (A1 & A2 & A3 & A4 & A5 & A6 & A7). unfold cap_mem, refill. simpl. rewrite !zlen_repeat. repeat apply conj; try assumption; unfold zlen in *; lia. Qed.
Lemma refill_fresh cap M m : cap_mem cap m -> 0 <= M <= cap -> fresh N c M (refill N m).
Proof.
  intros (A1 & A2 & A3 & _) HM x Hx. destruct Hc as (K1 & _). unfold refill. simpl. rewrite !znth_repeat by (unfold zlen in *; nia). auto.
Qed.

Definition drun (cs run : Z) : Z := if run <? num_runs cs n then cstart cs run else n.
Definition stale (cs cap run : Z) (indices : list Z) : Prop := 1 <= run < num_runs cs n -> forall j, 0 <= j < cap -> znth indices j = Some (cstart cs (run - 1) + j).

Lemma cpu_run_ok rs sched cs run m indices tmpnn : results N c g rs -> 0 <= run < num_runs cs n ->
  let cap := first_subsize cs n in
  cap_mem cap m -> zlen indices = cap -> stale cs cap run indices ->
  zlen tmpnn = n ->
  (forall x, 0 <= x < drun cs run -> znth (m_st m) x = Some (out_byte rs x) /\ znth tmpnn x = Some (out_row rs x)) ->
  (forall x, drun cs run <= x < n -> znth (m_st m) x = Some st_init) ->
  exists m' indices' sub' tmpnn', cpu_run N sched c g cs n (m, indices, cap, tmpnn) run = Ok (m', indices', sub', tmpnn') /\
    cap_mem cap m' /\ zlen indices' = cap /\ stale cs cap (run + 1) indices' /\ (run + 1 < num_runs cs n -> sub' = cap) /\ zlen tmpnn' = n /\
    (forall x, 0 <= x < drun cs (run + 1) -> znth (m_st m') x = Some (out_byte rs x) /\ znth tmpnn' x = Some (out_row rs x)) /\
    (forall x, drun cs (run + 1) <= x < n -> znth (m_st m') x = Some st_init).
Proof.
  intros Rs Hrun cap Hm Li Hst Lt Hdone Hrest. assert (Hn : 0 <= n) by apply zlen_nonneg.
  assert (Hc2 := Hc). destruct Hc2 as (K1 & K2 & K3).
  destruct (chunk_bounds cs n run Hn Hrun) as (C1 & C2 & C3 & C4 & C5 & C6). fold cap in C3, C4.
  set (st := cstart cs run) in *. set (sub := cend cs n run - st) in *.
  assert (Hcap : 0 <= cap) by lia.
  (* first run: whole buffer *)
  assert (Run0 : run = 0 -> sub = cap).
  { intros ->. destruct (Z.eq_dec 0 (num_runs cs n - 1)) as [e|]; [|apply C4; lia].
    subst sub. rewrite (C5 e). subst st. rewrite (C6 eq_refl). unfold cap, first_subsize. unfold num_runs in e. destruct (chunked cs n) eqn:Ec; [|lia].
    unfold chunked in Ec. apply andb_true_iff in Ec as [E1 E2]. apply Z.ltb_lt in E1, E2. pose proof (Z.div_le_lower_bound n cs 1). lia. }
  assert (Prev : 1 <= run -> cstart cs (run - 1) + cap = st).
  { intros H. destruct (chunk_bounds cs n (run - 1) Hn ltac:(lia)) as (_ & _ & _ & D4 & _). fold cap in D4. destruct (D4 ltac:(lia)) as [D5 D6].
    replace (run - 1 + 1) with run in D5 by lia. fold st in D5. lia. }
  unfold cpu_run. unfold thread_size. destruct (Z.eqb_spec (c_nthreads c) 0) as [|nz]; [lia|]. cbn [rbind]. fold st. fold sub.
  set (ts := cap / c_nthreads c).
  assert (Hts : 0 <= ts) by (apply Z.div_pos; lia).
  assert (Hts2 : (c_nthreads c - 1) * ts <= cap). { subst ts. pose proof (Z.mul_div_le cap (c_nthreads c) ltac:(lia)). nia. }
  destruct (fill_indices_ok st sub indices ltac:(lia)) as (ind & EI & LI & I1 & I2). rewrite EI. cbn [rbind].
  set (M := Z.max sub ((c_nthreads c - 1) * ts)).
  assert (HM : 0 <= sub <= M /\ M <= cap) by (unfold M; split; [split; [lia|apply Z.le_max_l]|apply Z.max_lub; assumption]).
  assert (TR : concat (map (fun r => zrange (fst r) (snd r)) (map (trange (c_nthreads c) ts sub) (zrange 0 (c_nthreads c)))) = zrange 0 M).
  { rewrite map_map. apply thread_ranges; lia. }
  clearbody M.
  assert (IDX : forall j, 0 <= j < M -> exists x, znth ind j = Some x /\ 0 <= x < n /\
     ((j < sub /\ x = st + j) \/ (sub <= j /\ 1 <= run /\ x = cstart cs (run - 1) + j /\ x < st))).
  { intros j Hj. destruct (Z.ltb_spec j sub).
    - exists (st + j). split; [apply I1; lia|]. split; [lia|]. left. auto.
    - assert (R1 : 1 <= run). { destruct (Z.eq_dec run 0) as [e|]; [|lia]. specialize (Run0 e). lia. }
      exists (cstart cs (run - 1) + j). split; [rewrite I2 by lia; apply Hst; lia|]. specialize (Prev R1).
      destruct (chunk_bounds cs n (run - 1) Hn ltac:(lia)) as (D1 & _). split; [lia|]. right. repeat apply conj; try lia. }
  destruct (pool_spec N c g Hc rs ind M (refill N m) (map (trange (c_nthreads c) ts sub) (zrange 0 (c_nthreads c))) Rs) as (m' & PR & _ & Len & P1 & P2).
  - lia.
  - apply (cap_room cap); [apply cap_refill; assumption|lia].
  - apply (refill_fresh cap); [assumption|lia].
  - intros j Hj. destruct (IDX j Hj) as (x & Ex & Hx & Cx). destruct Cx as [[Hs ->]|(Hs & R1 & E & Hl)].
    + exists (st + j), st_init. split; [assumption|]. split; [assumption|]. split; [|unfold st_init; lia]. apply Hrest. unfold drun. destruct (Z.ltb_spec run (num_runs cs n)); fold st; lia.
    + exists x, (out_byte rs x). split; [assumption|]. split; [assumption|]. split; [|apply byte_range]. apply Hdone. unfold drun. destruct (Z.ltb_spec run (num_runs cs n)); fold st; lia.
  - intros i j x Hi Hj Ei Ej. destruct (IDX i Hi) as (x1 & E1 & _ & D1). destruct (IDX j Hj) as (x2 & E2 & _ & D2).
    assert (x1 = x) by congruence. assert (x2 = x) by congruence. subst x1 x2. destruct D1 as [[? ?]|(? & ? & ? & ?)], D2 as [[? ?]|(? & ? & ? & ?)]; lia.
  - exact TR.
  - assert (ETH : threads N c g ind ts sub = map (thread_prog N c g ind) (map (trange (c_nthreads c) ts sub) (zrange 0 (c_nthreads c)))) by (unfold threads; rewrite map_map; reflexivity).
    rewrite ETH, PR. cbn [rbind].
    assert (CM : cap_mem cap m').
    { destruct (cap_refill cap m Hm) as (B1 & B2 & B3 & B4 & B5 & B6 & B7). unfold cap_mem.
      pose proof (Len AHeapId) as Q1. pose proof (Len AHeapPq) as Q2. pose proof (Len ADknn) as Q3. pose proof (Len AP) as Q4. pose proof (Len AT) as Q5. pose proof (Len AdR) as Q6. pose proof (Len ASt) as Q7.
      cbn [mget ty] in Q1, Q2, Q3, Q4, Q5, Q6, Q7. rewrite Q1, Q2, Q3, Q4, Q5, Q6, Q7. auto 8. }
    assert (DR : drun cs run = st) by (unfold drun; destruct (Z.ltb_spec run (num_runs cs n)); [reflexivity|lia]).
    assert (DR1 : drun cs (run + 1) = st + sub).
    { unfold drun. destruct (Z.ltb_spec (run + 1) (num_runs cs n)); [destruct (C4 ltac:(lia)) as [Q _]; lia|]. rewrite <- C5 by lia. lia. }
    destruct (fill_ok k ind sub (m_hid m') tmpnn) as (tm' & ET & LT & T1 & T2).
    + lia.
    + lia.
    + destruct CM as (-> & _). nia.
    + intros i x Hi E. rewrite I1 in E by lia. injection E as <-. lia.
    + intros i j x Hi Hj Ei Ej. rewrite I1 in Ei, Ej by lia. injection Ei as <-. injection Ej as Ej. lia.
    + rewrite ET. cbn [rbind]. exists m', ind, sub, tm'. split; [reflexivity|]. split; [assumption|]. split; [lia|]. split; [|split; [|split; [lia|split]]].
      * intros Hr j Hj. replace (run + 1 - 1) with run by lia. fold st. destruct (C4 ltac:(lia)) as [_ Q]. apply I1. lia.
      * intros Hr. apply C4. lia.
      * intros x Hx. rewrite DR1 in Hx. rewrite DR in Hdone, Hrest. destruct (Z.ltb_spec x st).
        -- destruct (Hdone x ltac:(lia)) as [D1 D2]. split.
           ++ assert (CS : (exists j, 0 <= j < M /\ znth ind j = Some x) \/ (forall j, 0 <= j < M -> znth ind j <> Some x)).
              { destruct (Z.leb_spec 1 run).
                - specialize (Prev ltac:(lia)). assert (HJ : forall j, 0 <= j < M -> znth ind j = Some x -> j = x - cstart cs (run - 1) /\ sub <= j).
                  { intros j Hj Ej. destruct (IDX j Hj) as (y & Ey & _ & [[? ?]|(? & ? & ? & ?)]); assert (y = x) by congruence; lia. }
                  destruct (Z.leb_spec sub (x - cstart cs (run - 1))); [destruct (Z.ltb_spec (x - cstart cs (run - 1)) M)|].
                  + left. exists (x - cstart cs (run - 1)). split; [lia|]. destruct (IDX (x - cstart cs (run - 1)) ltac:(lia)) as (y & Ey & _ & [[? ?]|(? & ? & ? & ?)]); [lia|]. rewrite Ey. f_equal. lia.
                  + right. intros j Hj Ej. destruct (HJ j Hj Ej). lia.
                  + right. intros j Hj Ej. destruct (HJ j Hj Ej). lia.
                - specialize (C6 ltac:(lia)). lia. }
              destruct CS as [(j & Hj & Ej)|CS].
              ** destruct (P1 j x Hj Ej) as [_ Q]. rewrite (Q _ D1). f_equal. apply byte_again.
              ** rewrite (P2 x CS). exact D1.
           ++ rewrite T2; [assumption|]. intros i Hi. rewrite I1 by lia. intros E. injection E. lia.
        -- destruct (P1 (x - st) x ltac:(lia)) as [Q1 Q2]; [rewrite I1 by lia; f_equal; lia|]. split.
           ++ apply Q2. apply Hrest. lia.
           ++ rewrite (T1 (x - st) x); [|lia|rewrite I1 by lia; f_equal; lia]. f_equal. unfold out_row. rewrite <- Q1. reflexivity.
      * intros x Hx. rewrite DR1 in Hx. rewrite DR in Hrest. rewrite P2; [apply Hrest; lia|].
        intros j Hj Ej. destruct (IDX j Hj) as (y & Ey & _ & [[? ?]|(? & ? & ? & ?)]); assert (y = x) by congruence; lia.
Qed.

Lemma cpu_spec rs sched tmpnn : results N c g rs -> fits c n -> zlen tmpnn = n ->
  cpu_tesellate N sched c g tmpnn (repeat st_init (List.length (g_pts N g))) = Ok (map (out_row rs) (zrange 0 n), map (out_byte rs) (zrange 0 n)).
Proof.
  intros Rs (F1 & F2 & F3 & F4) Lt. assert (Hn : 0 <= n) by apply zlen_nonneg. assert (Hc' := Hc). destruct Hc' as (K1 & K2 & K3).
  unfold cpu_tesellate. set (cs := chunk_of c n) in *.
  assert (EC : eff_chunksize c n = Ok cs). { unfold eff_chunksize, cs, chunk_of. destruct (c_use_chunking c); [reflexivity|]. apply chk_ok. unfold int_min. lia. }
  rewrite EC. cbn [rbind]. set (cap := first_subsize cs n) in *.
  pose proof (num_runs_pos cs n Hn) as Np.
  assert (Hcap : 0 <= cap). { destruct (chunk_bounds cs n 0 Hn ltac:(lia)) as (_ & ? & ? & _). fold cap in H0. lia. }
  rewrite buffers_ok by assumption. cbn [rbind].
  match goal with |- context [rfold _ _ (?x, _, _, _)] => set (m0 := x) end.
  assert (CM0 : cap_mem cap m0).
  { unfold cap_mem, m0. simpl. rewrite !zlen_repeat. unfold zlen at 1. repeat apply conj; try nia. }
  destruct (rfold_zrange_inv (cpu_run N sched c g cs n) (fun run s => let '(m, indices, sub, tmpnn) := s in
     cap_mem cap m /\ zlen indices = cap /\ stale cs cap run indices /\ (run < num_runs cs n -> sub = cap) /\ zlen tmpnn = n /\
     (forall x, 0 <= x < drun cs run -> znth (m_st m) x = Some (out_byte rs x) /\ znth tmpnn x = Some (out_row rs x)) /\
     (forall x, drun cs run <= x < n -> znth (m_st m) x = Some st_init)) 0 (num_runs cs n) (m0, repeat 0 (Z.to_nat cap), cap, tmpnn)) as (s' & E & P).
  - lia.
  - split; [assumption|]. split; [rewrite zlen_repeat; lia|]. split; [intros H; lia|]. split; [auto|]. split; [assumption|].
    assert (D0 : drun cs 0 = 0) by (unfold drun; destruct (Z.ltb_spec 0 (num_runs cs n)); [reflexivity|lia]). rewrite D0. split; [lia|].
    intros x Hx. unfold m0. simpl. apply znth_repeat. exact Hx.
  - intros run [[[m ind] sub] tn] Hr (A1 & A2 & A3 & A4 & A5 & A6 & A7). specialize (A4 ltac:(lia)). subst sub.
    destruct (cpu_run_ok rs sched cs run m ind tn Rs Hr A1 A2 A3 A5 A6 A7) as (m' & i' & s' & t' & E & Q). exists (m', i', s', t'). split; [exact E|exact Q].
  - destruct s' as [[[m' ind] sub] tn]. rewrite E. cbn [rbind]. destruct P as (A1 & _ & _ & _ & A5 & A6 & _).
    assert (DN : drun cs (num_runs cs n) = n) by (unfold drun; rewrite Z.ltb_irrefl; reflexivity). rewrite DN in A6.
    f_equal. f_equal.
    + apply znth_ext_range; [rewrite zlen_map, zlen_zrange by lia; lia|]. intros x Hx. rewrite znth_map, znth_zrange by lia. apply A6. lia.
    + assert (Ls : zlen (m_st m') = n) by apply A1. apply znth_ext_range; [rewrite zlen_map, zlen_zrange by lia; lia|]. intros x Hx. rewrite znth_map, znth_zrange by lia. apply A6. lia.
Qed.
End T.
