(** The device driver without chunking: same rows as the CPU driver. *)
From Verif Require Import Base Arith PBase Exact Prog PProg MUtils MHeap MXyz MKnn MBoundary MCell MDnn MArgs MTess PFlags PSort PFill PHeap PReloc PHeapFinal
  SpecSort PXyz PSortFinal SpecGeom SpecDnn PDnn SpecKnn PExact PGrid PKnnSel PKnn PKnnFinal PLock SpecBnd PBnd PCellSim PCellRun PCell PCellRow PKnnSafe PSlot PWalk SpecSlot PSlotHost PSlotFinal PPool PRanges PTess PTessRun PTessFinal PGpu.
From Coq Require Import Permutation.
From Verif Require Export SpecParam SpecFlags.
Local Open Scope res_scope.

Lemma local_base_eq nd pm i : 0 < nd -> local_base nd pm i = pm * i.
Proof. intros H. unfold local_base. pose proof (Z.div_mod i nd ltac:(lia)) as E. rewrite E at 3. ring. Qed.

Lemma columns_disjoint s k pm tm nd i j x y : 0 < pm -> 0 < tm -> 0 < nd -> i <> j -> x <> y ->
  disjoint (own_columns s k pm tm i (local_base nd pm i) x) (own_columns s k pm tm j (local_base nd pm j) y).
Proof.
  intros Hp Ht Hn Hij Hxy a z H1 H2. rewrite local_base_eq in H1, H2 by assumption. unfold own_columns, between in *.
  destruct a; rewrite ?andb_true_iff, ?Z.leb_le, ?Z.ltb_lt, ?Z.eqb_eq in *; try lia; nia.
Qed.

Lemma untranspose_ok k sub knn : 0 <= k -> 0 <= sub -> sub * k <= zlen knn ->
  exists out, untranspose k sub knn = Ok out /\ zlen out = zlen knn /\
    forall si ki, 0 <= si < sub -> 0 <= ki < k -> znth out (k * si + ki) = znth knn (sub * ki + si).
Proof.
  intros Hk Hs L. unfold untranspose.
  destruct (rfold_zrange_inv (fun out si => rfold (zrange 0 k) (fun out ki => x <-r rget knn (sub * ki + si) ;; rset out (k * si + ki) x) out)
    (fun a out => zlen out = zlen knn /\ forall si ki, 0 <= si < a -> 0 <= ki < k -> znth out (k * si + ki) = znth knn (sub * ki + si)) 0 sub (repeat 0 (List.length knn))) as (out & E & P).
  - assumption.
  - split; [rewrite zlen_repeat; unfold zlen; lia|lia].
  - intros a out Ha (Lo & Q).
    destruct (rfold_zrange_inv (fun out ki => x <-r rget knn (sub * ki + a) ;; rset out (k * a + ki) x)
      (fun b out => zlen out = zlen knn /\ (forall si ki, 0 <= si < a -> 0 <= ki < k -> znth out (k * si + ki) = znth knn (sub * ki + si)) /\
         forall ki, 0 <= ki < b -> znth out (k * a + ki) = znth knn (sub * ki + a)) 0 k out) as (out' & E' & L' & Q1 & Q2).
    + assumption.
    + split; [assumption|]. split; [assumption|lia].
    + intros b out1 Hb (L1 & Q1 & Q2). destruct (znth_in_range knn (sub * b + a)) as [v Hv]; [nia|]. rewrite (rget_some _ _ _ Hv). cbn [rbind].
      rewrite rset_some by nia. eexists. split; [reflexivity|]. split; [now rewrite zlen_zupd|]. split.
      * intros si ki H1 H2. rewrite znth_zupd_other by nia. now apply Q1.
      * intros ki H. destruct (Z.eq_dec ki b) as [->|]; [rewrite znth_zupd_same by nia; now symmetry|]. rewrite znth_zupd_other by lia. apply Q2. lia.
    + exists out'. split; [exact E'|]. split; [assumption|]. intros si ki H1 H2. destruct (Z.eq_dec si a) as [->|]; [apply Q2; lia|]. apply Q1; lia.
  - exists out. split; [exact E|exact P].
Qed.

(** state flags: the device starts from whatever is in memory *)
Lemma byte_more (cl : bool) o b f : 0 <= b < 256 -> In f [security_radius_reached; error_p_overflow; error_t_overflow; error_infinite_boundary; error_nonvalid_vertices; error_nonvalid_neighbor; error_occurred] ->
  (st_get (loop_byte cl o st_init) f = true -> st_get (loop_byte cl o b) f = true) /\
  (st_get (loop_byte cl o b) f = true -> st_get (loop_byte cl o st_init) f = true \/ st_get b f = true).
Proof.
  intros Hb Hf.
  assert (G : forall j, (j < 256)%nat -> b = Z.of_nat j -> Forall (fun f => (st_get (loop_byte cl o st_init) f = true -> st_get (loop_byte cl o b) f = true) /\
    (st_get (loop_byte cl o b) f = true -> st_get (loop_byte cl o st_init) f = true \/ st_get b f = true))
    [security_radius_reached; error_p_overflow; error_t_overflow; error_infinite_boundary; error_nonvalid_vertices; error_nonvalid_neighbor; error_occurred]).
  { intros j Hj ->. 
    assert (T : forallb (fun f => implb (st_get (loop_byte cl o st_init) f) (st_get (loop_byte cl o (Z.of_nat j)) f) &&
       implb (st_get (loop_byte cl o (Z.of_nat j)) f) (st_get (loop_byte cl o st_init) f || st_get (Z.of_nat j) f))
       [security_radius_reached; error_p_overflow; error_t_overflow; error_infinite_boundary; error_nonvalid_vertices; error_nonvalid_neighbor; error_occurred] = true).
    { clear -Hj. assert (A : forallb (fun j => forallb (fun f => implb (st_get (loop_byte cl o st_init) f) (st_get (loop_byte cl o (Z.of_nat j)) f) &&
       implb (st_get (loop_byte cl o (Z.of_nat j)) f) (st_get (loop_byte cl o st_init) f || st_get (Z.of_nat j) f))
       [security_radius_reached; error_p_overflow; error_t_overflow; error_infinite_boundary; error_nonvalid_vertices; error_nonvalid_neighbor; error_occurred]) (seq 0 256) = true)
       by (destruct cl, o; vm_compute; reflexivity).
      rewrite forallb_forall in A. apply A. apply in_seq. lia. }
    rewrite forallb_forall in T. apply Forall_forall. intros f' Hf'. specialize (T f' Hf'). apply andb_true_iff in T as [T1 T2].
    split; intros E; [rewrite E in T1; exact T1|]. rewrite E in T2. simpl in T2. now apply orb_true_iff in T2. }
  specialize (G (Z.to_nat b) ltac:(lia) ltac:(lia)). rewrite Forall_forall in G. now apply G.
Qed.

Section Run.
Variable N : Arith.
Notation F := (F N).
Variable c : cfg.
Variable g : grid N.
Hypothesis Hc : dev_cfg_ok c.
Notation n := (zlen (g_pts N g)).
Notation k := (c_k c).
Notation pm := (c_pmax c).
Notation tm := (c_tmax c).
Variable rs : Z -> sres N.
Hypothesis Rs : results N c g rs.
Hypothesis Ds : dev_results N c g rs.

Definition groom (nd : Z) (m : mem F) : Prop :=
  zlen (m_hid m) = n * k /\ zlen (m_hpq m) = n * k /\ zlen (m_dknn m) = n * k /\ zlen (m_P m) = n * pm * 4 /\ zlen (m_T m) = n * tm * 3 /\
  pm * n <= zlen (m_dR m) /\ zlen (m_st m) = n.
Definition gfresh (m : mem F) : Prop := forall x, 0 <= x < n * k ->
  znth (m_hid m) x = Some 0 /\ znth (m_hpq m) x = Some (fofZ N 128) /\ znth (m_dknn m) x = Some k_undefined.

Lemma gfresh_before nd m i b : 0 < nd -> groom nd m -> gfresh m -> 0 <= i < n -> znth (m_st m) i = Some b ->
  dev_before N c i n (local_base nd pm i) i m (dheap0 N c) (lab0 c) b.
Proof.
  intros Hnd (R1 & R2 & R3 & R4 & R5 & R6 & R7) Fr Hi Hb. destruct Hc as ((H1 & H2 & H3) & _). rewrite local_base_eq by assumption.
  assert (Q : forall d, 0 <= d < k -> 0 <= n * d + i < n * k) by (intros; nia).
  unfold dev_before, slot_before. split; [|split; [|split; [|split]]].
  - intros a x Hx. unfold mrd. destruct a; simpl in Hx |- *; try (apply znth_in_range; nia).
  - intros d Hd. unfold dheap0. rewrite map_repeat, znth_repeat by lia. apply (Fr (n * d + i) (Q d Hd)).
  - intros d Hd. unfold dheap0. rewrite map_repeat, znth_repeat by lia. apply (Fr (n * d + i) (Q d Hd)).
  - intros d Hd. unfold lab0. rewrite znth_repeat by lia. apply (Fr (n * d + i) (Q d Hd)).
  - unfold mrd. simpl. rewrite Z.add_0_r. exact Hb.
Qed.

Lemma row_len x : 0 <= x < n -> zlen (r_row N k (rs x)) = k.
Proof. intros Hx. destruct (Rs x Hx) as [(p & Hp & Hh & _ & _ & G) _]. apply row_after_len; [unfold r_K; rewrite zlen_map; apply Hh|apply G]. Qed.

Lemma gpool nd indices m : 0 < nd -> groom nd m -> gfresh m -> (forall j, 0 <= j < n -> znth indices j = Some j) ->
  (forall j b, znth (m_st m) j = Some b -> 0 <= b < 256) ->
  exists m', (forall sched, pool_run sched (map (item_prog N c g nd n indices) (zrange 0 n)) m = Ok m') /\
    (forall a, zlen (mget m' a) = zlen (mget m a)) /\
    (forall j d, 0 <= j < n -> 0 <= d < k -> znth (m_hid m') (n * d + j) = znth (r_row N k (rs j)) d) /\
    (forall j b, znth (m_st m) j = Some b -> znth (m_st m') j = Some (r_byte N (rs j) b)).
Proof.
  intros Hnd Rm Fr Hi Hb. assert (Hc' := Hc). destruct Hc' as ((H1 & H2 & H3) & _).
  assert (Ls : zlen (m_st m) = n) by apply Rm.
  set (body := item_prog N c g nd n indices).
  set (R := fun (j : Z) (t : @task F) => exists b hD, 0 <= j < n /\ znth (m_st m) j = Some b /\ map fst hD = r_K N (rs j) /\
    t_p t = body j /\ t_W t = own_columns n k pm tm j (local_base nd pm j) j /\ confined m t /\
    dev_after N c j n (local_base nd pm j) j (t_f t) (mkS N hD (r_o N (rs j)) (r_s N (rs j)) (r_cl N (rs j))) b).
  destruct (Forall2_ex R (zrange 0 n)) as [ts Hts].
  { intros j Hj. apply in_zrange in Hj. destruct (Ds j Hj) as (hD & EK & LD & Run).
    destruct (znth_in_range (m_st m) j ltac:(lia)) as [b Eb].
    destruct (Run nd indices j m b Hnd Hj (Hi j Hj) (gfresh_before nd m j b Hnd Rm Fr Hj Eb) (Hb j b Eb)) as (f & Rf & Af).
    exists (mkTask (body j) (own_columns n k pm tm j (local_base nd pm j) j) f). exists b, hD. simpl.
    do 5 (split; [auto|]). split; [|assumption]. exists f. split; [exact Rf|]. intros a i _. reflexivity. }
  assert (Ap : apart ts).
  { apply (apart_from R (zrange 0 n)); [assumption|apply NoDup_zrange|].
    intros i j t u Hi' Hj' Nij (x & bx & _ & _ & _ & _ & -> & _) (y & by_ & _ & _ & _ & _ & -> & _). apply columns_disjoint; auto; lia. }
  assert (Cf : forall t, In t ts -> confined m t).
  { intros t Ht. destruct (Forall2_in' _ _ _ _ Hts Ht) as (j & _ & (x & b & _ & _ & _ & _ & _ & Q & _)). exact Q. }
  assert (EP : map body (zrange 0 n) = map t_p ts).
  { clear -Hts. induction Hts as [|j t l ts (b & hD & _ & _ & _ & Ep & _) _ IH]; [reflexivity|]. simpl. now rewrite Ep, IH. }
  rewrite EP. destruct (pool_det ts m Ap Cf) as (m' & RP & RS & MG1 & MG2). exists m'. split; [assumption|].
  split; [apply (run_in_len _ _ _ _ _ RS)|].
  assert (Z1 : forall j, 0 <= j < n -> exists b t hD, znth (m_st m) j = Some b /\ map fst hD = r_K N (rs j) /\
     agree (own_columns n k pm tm j (local_base nd pm j) j) m' (t_f t) /\ dev_after N c j n (local_base nd pm j) j (t_f t) (mkS N hD (r_o N (rs j)) (r_s N (rs j)) (r_cl N (rs j))) b).
  { intros j Hj. destruct (Forall2_in _ _ _ j Hts) as (t & Ht & (b & hD & _ & Eb & EK & _ & EW & _ & Af)); [now apply in_zrange|].
    exists b, t, hD. rewrite <- EW. auto. }
  split.
  - intros j d Hj Hd. destruct (Z1 j Hj) as (b & t & hD & _ & EK & Ag & (l' & V & (Pl & Tr & C & D & -> & _))).
    transitivity (mrd (t_f t) AHeapId (n * d + j)).
    + apply (Ag AHeapId). unfold own_columns, between. rewrite !andb_true_iff, Z.leb_le, Z.ltb_lt, Z.eqb_eq. split; [nia|].
      replace (n * d + j) with (j + d * n) by ring. rewrite Z_mod_plus_full. apply Z.mod_small. lia.
    + assert (ER : r_row N k (mkS N hD (r_o N (rs j)) (r_s N (rs j)) (r_cl N (rs j))) = r_row N k (rs j)).
      { unfold r_row. f_equal. unfold r_K in *. exact EK. }
      rewrite ER in V. apply (V AHeapId d). simpl. rewrite row_len by assumption. assumption.
  - intros j b Eb. assert (Hj : 0 <= j < n) by (apply znth_some in Eb; lia).
    destruct (Z1 j Hj) as (b' & t & hD & Eb' & EK & Ag & (l' & V & (Pl & Tr & C & D & -> & _))). assert (b' = b) by congruence. subst b'.
    transitivity (mrd (t_f t) ASt j); [apply (Ag ASt); simpl; apply Z.eqb_refl|].
    specialize (V ASt 0). simpl in V. rewrite Z.add_0_r in V. apply V. unfold zlen. simpl. lia.
Qed.

Lemma gpu_spec j sched tmpnn : let nd := if 0 <? c_ndsize c then c_ndsize c else 1 in
  gpu_fits c n -> chunked (chunk_of c n) n = false -> n mod nd = 0 -> zlen tmpnn = n ->
  gpu_tesellate N j sched c g tmpnn = Ok (map (out_row N c rs) (zrange 0 n), map (fun x => r_byte N (rs x) (w8 (jZ N j x))) (zrange 0 n)).
Proof.
  intros nd (F1 & F0 & F2 & F3 & F4 & F5) Ech Hmod Lt. assert (Hn : 0 <= n) by apply zlen_nonneg. assert (Hc' := Hc). destruct Hc' as ((K1 & K2 & K3) & _).
  assert (Hnd : 0 < nd /\ nd = Z.max 1 (c_ndsize c)) by (subst nd; destruct (Z.ltb_spec 0 (c_ndsize c)); lia). destruct Hnd as [Hnd Emx]. rewrite <- Emx in F5.
  unfold gpu_tesellate. fold nd. set (cs := chunk_of c n) in *.
  assert (EC : eff_chunksize c n = Ok cs). { unfold eff_chunksize, cs, chunk_of. destruct (c_use_chunking c); [reflexivity|]. apply chk_ok. unfold int_min. lia. }
  rewrite EC. cbn [rbind]. unfold first_subsize, num_runs. rewrite Ech. rewrite (alloc_chk (3 * n)) by nia. cbn [rbind].
  unfold gpu_buffers. rewrite (alloc_chk (n * k)) by nia. cbn [rbind]. rewrite alloc_mul3 by nia. cbn [rbind]. rewrite alloc_mul3 by nia. cbn [rbind].
  rewrite (alloc_chk (nd * pm)) by nia. cbn [rbind].
  match goal with |- context [rfold _ _ (?x, _)] => set (m0 := x) end.
  assert (Ediv : n / nd * nd = n) by (pose proof (Z.div_mod n nd ltac:(lia)); lia).
  assert (Hdiv : 0 <= n / nd) by (apply Z.div_pos; lia).
  assert (LZ : forall q, zlen (junkZ N j q) = Z.of_nat q) by (intros q; unfold junkZ; rewrite zlen_map, zlen_zrange; lia).
  assert (LF : forall q, zlen (junkF N j q) = Z.of_nat q) by (intros q; unfold junkF; rewrite zlen_map, zlen_zrange; lia).
  assert (Rm : groom nd (gpu_refill N m0)).
  { unfold groom, gpu_refill, m0. simpl. rewrite !zlen_repeat, !repeat_length, LF, !LZ.
    assert (pm * n <= nd * pm * (n / nd + 1)) by nia. assert (0 <= nd * pm) by nia.
    rewrite Nat2Z.inj_mul, !Z2Nat.id by lia. repeat apply conj; try lia. }
  assert (Fr : gfresh (gpu_refill N m0)).
  { intros x Hx. unfold gpu_refill, m0. simpl. rewrite !repeat_length. rewrite !znth_repeat by lia. auto. }
  set (indices := map (fun i => cstart cs 0 + i) (zrange 0 n)).
  assert (EI : forall i, 0 <= i < n -> znth indices i = Some i). { intros i Hi. unfold indices, cstart. rewrite znth_map, znth_zrange by lia. reflexivity. }
  assert (St : forall i, 0 <= i < n -> znth (m_st (gpu_refill N m0)) i = Some (w8 (jZ N j i))).
  { intros i Hi. unfold gpu_refill, m0. simpl. unfold junkZ. rewrite znth_map, znth_zrange by lia. reflexivity. }
  assert (W8 : forall x, 0 <= w8 x < 256) by (intros x; unfold w8; apply Z.mod_pos_bound; lia).
  destruct (gpool nd indices (gpu_refill N m0) Hnd Rm Fr EI) as (m' & PR & Len & P1 & P2).
  { intros i b Eb. assert (Hi : 0 <= i < n). { apply znth_some in Eb. destruct Rm as (_ & _ & _ & _ & _ & _ & Q). rewrite Q in Eb. assumption. }
    rewrite St in Eb by assumption. injection Eb as <-. apply W8. }
  destruct (untranspose_ok k n (m_hid m')) as (out & EU & LU & U).
  { lia. } { lia. } { pose proof (Len AHeapId) as Q. cbn [mget ty] in Q. rewrite Q. apply Z.eq_le_incl. symmetry. apply Rm. }
  destruct (fill_ok k indices n out tmpnn) as (tm' & ET & LT & T1 & T2).
  { lia. } { unfold indices. rewrite zlen_map, zlen_zrange by lia. lia. } { pose proof (Len AHeapId) as Q. cbn [mget ty] in Q. destruct Rm as (R1 & _). lia. }
  { intros i x Hi Ex. rewrite EI in Ex by assumption. injection Ex as <-. lia. }
  { intros i i' x Hi Hi' Ex Ex'. rewrite EI in Ex, Ex' by assumption. congruence. }
  assert (ER : gpu_run N sched c g nd cs n n (m0, tmpnn) 0 = Ok (m', tm')).
  { unfold gpu_run. fold indices. replace (cend cs n 0 - cstart cs 0) with n by (unfold cend, num_runs, cstart; rewrite Ech; simpl; lia).
    rewrite Hmod. cbn [Z.eqb rbind]. rewrite PR. cbn [rbind]. rewrite EU. cbn [rbind]. rewrite ET. reflexivity. }
  rewrite zrange_cons by lia. rewrite (zrange_nil (0 + 1) 1) by lia. cbn [rfold]. rewrite ER. cbn [rbind].
  f_equal. f_equal.
  - apply znth_ext_range; [rewrite zlen_map, zlen_zrange by lia; lia|]. intros x Hx. assert (Hx' : 0 <= x < n) by lia. rewrite znth_map, znth_zrange by lia. simpl.
    rewrite (T1 x x Hx' (EI x Hx')). f_equal. unfold out_row. f_equal. change (slice out (k * x) k) with (trow out k x).
    apply trow_eq; [nia|now apply row_len|]. intros d Hd. rewrite U by assumption. now apply P1.
  - assert (Ls : zlen (m_st m') = n). { pose proof (Len ASt) as Q. cbn [mget ty] in Q. rewrite Q. apply Rm. }
    apply znth_ext_range; [rewrite zlen_map, zlen_zrange by lia; lia|]. intros x Hx. assert (Hx' : 0 <= x < n) by lia.
    rewrite znth_map, znth_zrange by lia. simpl. apply P2. now apply St.
Qed.
End Run.

Section Final.
Variable N : Arith.

Lemma gpu_final_gen c P0 P ids offs : dev_cfg_ok c -> 0 < c_gr c -> in_range_ids N (c_gr c) P0 -> knn_agree N (c_gr c) (c_k c) P ids offs ->
  xyz_sort N (c_gr c) P0 = Ok (P, ids, offs) ->
  c_recompute c = false -> 1 <= c_nthreads c -> fits c (zlen P) -> gpu_fits c (zlen P) ->
  chunked (chunk_of c (zlen P)) (zlen P) = false -> zlen P mod (if 0 <? c_ndsize c then c_ndsize c else 1) = 0 ->
  exists o, (forall w, tess_core N w c cpu P0 = Ok o) /\ o_pts N o = P /\
    forall w, w_gpu N w = true -> exists o', tess_core N w c gpu P0 = Ok o' /\
      o_pts N o' = P /\ o_rows N o' = o_rows N o /\ o_dnn N o' = o_dnn N o /\
      zlen (o_states N o') = zlen P /\ zlen (o_states N o) = zlen P /\
      (forall x s s', znth (o_states N o) x = Some s -> znth (o_states N o') x = Some s' ->
         forall f, In f flags -> (st_get s f = true -> st_get s' f = true) /\
           (st_get s' f = true -> st_get s f = true \/ st_get (w8 (jZ N (w_junk N w) x)) f = true)) /\
      ((forall x, jZ N (w_junk N w) x = st_init) -> o' = o).
Proof.
  intros Hc Hgr Hr HA HS Rc Hnt Fit Gf Ech Hmod. set (g := mkGrid N P ids offs).
  assert (Hg : sorted_grid N c g) by (split; [assumption|]; exists P0; auto).
  destruct (both_ex N c g Hc Hg HA) as (rs & Rs & Ds).
  assert (Hcc : cfg_ok c) by apply Hc. assert (K1 : 1 <= c_k c <= 65535) by apply Hcc.
  assert (Hn : 0 <= zlen P) by apply zlen_nonneg.
  pose proof (fun sched tmpnn => cpu_spec N c g Hcc Hnt rs sched tmpnn Rs Fit) as CS. change (g_pts N g) with P in CS.
  pose proof (fun j sched tmpnn => gpu_spec N c g Hc rs Rs Ds j sched tmpnn Gf Ech Hmod) as GS. change (g_pts N g) with P in GS.
  set (rows := map (out_row N c rs) (zrange 0 (zlen P))) in *.
  set (sts := map (out_byte N rs) (zrange 0 (zlen P))) in *.
  assert (TB : total (map visible rows) <= int_max).
  { etransitivity; [apply (total_bound _ (c_k c)); [lia|]|].
    - apply Forall_forall. intros r Hi. apply in_map_iff in Hi as (r0 & <- & Hr0). apply in_map_iff in Hr0 as (x & <- & Hx). apply in_zrange in Hx.
      unfold out_row. pose proof (visible_len (visible (r_row N (c_k c) (rs x)))). pose proof (visible_len (r_row N (c_k c) (rs x))).
      pose proof (row_len N c g rs Rs x Hx). lia.
    - unfold rows. rewrite !zlen_map, zlen_zrange by lia. destruct Gf as (_ & _ & G2 & _). lia. }
  exists (mkOutcome N P (mkDnn (concat (map visible rows)) (shape (map visible rows))) rows sts (stats_of sts) (negb (validate_xyzset N P)) (negb (validate_id ids))).
  assert (LR : zlen (repeat (@nil Z) (List.length P)) = zlen P) by (unfold zlen; rewrite repeat_length; reflexivity).
  assert (Ls : zlen sts = zlen P) by (unfold sts; rewrite zlen_map, zlen_zrange by lia; lia).
  split; [|split; [reflexivity|]].
  - intros w. unfold tess_core. rewrite HS. cbn [rbind run_device]. rewrite CS by assumption. cbn [rbind]. rewrite Rc. cbn [rbind]. rewrite getdnn_ok by assumption. reflexivity.
  - intros w Hw. set (sts' := map (fun x => r_byte N (rs x) (w8 (jZ N (w_junk N w) x))) (zrange 0 (zlen P))).
    exists (mkOutcome N P (mkDnn (concat (map visible rows)) (shape (map visible rows))) rows sts' (stats_of sts') (negb (validate_xyzset N P)) (negb (validate_id ids))).
    assert (Ls' : zlen sts' = zlen P) by (unfold sts'; rewrite zlen_map, zlen_zrange by lia; lia).
    split; [|split; [reflexivity|split; [reflexivity|split; [reflexivity|split; [assumption|split; [assumption|split]]]]]].
    + unfold tess_core. rewrite HS. cbn [rbind run_device]. rewrite Hw. rewrite GS by assumption. cbn [rbind]. rewrite Rc. cbn [rbind]. rewrite getdnn_ok by assumption. reflexivity.
    + cbn [o_states]. intros x s s' Es Es' f Hf. assert (Hx : 0 <= x < zlen P) by (apply znth_some in Es; lia).
      unfold sts in Es. unfold sts' in Es'. rewrite znth_map, znth_zrange in Es by lia. rewrite znth_map, znth_zrange in Es' by lia. simpl in Es, Es'. injection Es as <-. injection Es' as <-.
      unfold out_byte, r_byte. replace (0 + x) with x by lia. apply byte_more; [unfold w8; apply Z.mod_pos_bound; lia|assumption].
    + intros Hj. assert (sts' = sts) as ->; [|reflexivity]. unfold sts', sts. apply map_ext. intros x. rewrite Hj. reflexivity.
Qed.
End Final.

Lemma gpu_throws (N : Arith) w c P0 P ids offs :
  xyz_sort N (c_gr c) P0 = Ok (P, ids, offs) -> w_gpu N w = true -> 0 <= c_k c -> 0 <= c_pmax c -> 0 <= c_tmax c -> gpu_fits c (zlen P) ->
  chunked (chunk_of c (zlen P)) (zlen P) = false -> 0 < c_ndsize c -> zlen P mod c_ndsize c <> 0 ->
  tess_core N w c gpu P0 = Err EThrow.
Proof.
  intros HS Hw K1 K2 K3 (F1 & F0 & F2 & F3 & F4 & F5) Ech Hnd Hmod. pose proof (zlen_nonneg P) as Hn.
  unfold tess_core. rewrite HS. cbn [rbind run_device]. rewrite Hw. unfold gpu_tesellate. cbn [g_pts].
  assert (EC : eff_chunksize c (zlen P) = Ok (chunk_of c (zlen P))). { unfold eff_chunksize, chunk_of. destruct (c_use_chunking c); [reflexivity|]. apply chk_ok. unfold int_min. lia. }
  rewrite EC. cbn [rbind]. unfold first_subsize. set (nr := num_runs _ _). assert (Enr : nr = 1) by (unfold nr, num_runs; now rewrite Ech). rewrite Ech, Enr.
  replace (0 <? c_ndsize c) with true by (symmetry; apply Z.ltb_lt; lia).
  assert (c_ndsize c * c_pmax c <= int_max) by (replace (Z.max 1 (c_ndsize c)) with (c_ndsize c) in F5 by lia; assumption).
  rewrite (alloc_chk (3 * zlen P)) by lia. cbn [rbind]. unfold gpu_buffers. rewrite (alloc_chk (zlen P * c_k c)) by nia. cbn [rbind]. rewrite alloc_mul3 by nia. cbn [rbind]. rewrite alloc_mul3 by nia. cbn [rbind].
  rewrite (alloc_chk (c_ndsize c * c_pmax c)) by nia. cbn [rbind].
  rewrite zrange_cons by lia. cbn [rfold]. unfold gpu_run.
  replace (cend (chunk_of c (zlen P)) (zlen P) 0 - cstart (chunk_of c (zlen P)) 0) with (zlen P) by (unfold cend, num_runs, cstart; rewrite Ech; simpl; lia).
  destruct (Z.eqb_spec (zlen P mod c_ndsize c) 0); [contradiction|]. reflexivity.
Qed.

(** a zeroed state array: nothing distinguishes the two, recompute or not *)
Lemma gpu_zero_gen (N : Arith) c P0 P ids offs w : dev_cfg_ok c -> 0 < c_gr c -> in_range_ids N (c_gr c) P0 -> knn_agree N (c_gr c) (c_k c) P ids offs ->
  xyz_sort N (c_gr c) P0 = Ok (P, ids, offs) ->
  1 <= c_nthreads c -> fits c (zlen P) -> gpu_fits c (zlen P) ->
  chunked (chunk_of c (zlen P)) (zlen P) = false -> zlen P mod (if 0 <? c_ndsize c then c_ndsize c else 1) = 0 ->
  (forall x, jZ N (w_junk N w) x = st_init) -> tess_core N w c gpu P0 = tess_core N w c cpu P0.
Proof.
  intros Hc Hgr Hr HA HS Hnt Fit Gf Ech Hmod Hj. set (g := mkGrid N P ids offs).
  assert (Hg : sorted_grid N c g) by (split; [assumption|]; exists P0; auto).
  destruct (both_ex N c g Hc Hg HA) as (rs & Rs & Ds).
  assert (Hcc : cfg_ok c) by apply Hc.
  assert (LR : zlen (repeat (@nil Z) (List.length P)) = zlen P) by (unfold zlen; rewrite repeat_length; reflexivity).
  assert (RD : run_device N w c g gpu (repeat [] (List.length P)) (repeat st_init (List.length P)) = run_device N w c g cpu (repeat [] (List.length P)) (repeat st_init (List.length P))).
  { unfold run_device. destruct (w_gpu N w); [|reflexivity].
    rewrite (gpu_spec N c g Hc rs Rs Ds (w_junk N w) (w_gsched N w) (repeat [] (List.length P)) Gf Ech Hmod LR).
    pose proof (cpu_spec N c g Hcc Hnt rs (w_sched N w) (repeat [] (List.length P)) Rs Fit LR) as Q. change (g_pts N g) with P in Q. rewrite Q. f_equal. f_equal.
    apply map_ext. intros x. rewrite Hj. reflexivity. }
  unfold tess_core. rewrite HS. cbn [rbind]. fold g. rewrite RD. reflexivity.
Qed.

(** ** exact arithmetic *)
Lemma exact_knn N E c P0 P ids offs : dev_cfg_ok c -> 0 < c_gr c -> c_gr c * c_gr c * c_gr c <= int_max -> (forall q, In q P0 -> inside N E q) ->
  xyz_sort N (c_gr c) P0 = Ok (P, ids, offs) -> in_range_ids N (c_gr c) P0 /\ knn_agree N (c_gr c) (c_k c) P ids offs.
Proof.
  intros ((K1 & _) & Gb & _) Hgr Hg3 Hin HS. assert (Hr : in_range_ids N (c_gr c) P0) by now apply (in_range_exact N E). split; [assumption|].
  apply (exact_agree N E (c_gr c) (c_k c) P0); auto; try lia.
  - now apply (sort_grid_ok N _ P0).
  - intros q Hq. eapply Permutation_in; [apply Permutation_sym; eapply perm_points; eauto|assumption].
Qed.
Lemma gpu_final (N : Arith) (E : Exact N) c P0 P ids offs : dev_cfg_ok c -> 0 < c_gr c -> c_gr c * c_gr c * c_gr c <= int_max -> (forall q, In q P0 -> inside N E q) ->
  xyz_sort N (c_gr c) P0 = Ok (P, ids, offs) ->
  c_recompute c = false -> 1 <= c_nthreads c -> fits c (zlen P) -> gpu_fits c (zlen P) ->
  chunked (chunk_of c (zlen P)) (zlen P) = false -> zlen P mod (if 0 <? c_ndsize c then c_ndsize c else 1) = 0 ->
  exists o, (forall w, tess_core N w c cpu P0 = Ok o) /\ o_pts N o = P /\
    forall w, w_gpu N w = true -> exists o', tess_core N w c gpu P0 = Ok o' /\
      o_pts N o' = P /\ o_rows N o' = o_rows N o /\ o_dnn N o' = o_dnn N o /\
      zlen (o_states N o') = zlen P /\ zlen (o_states N o) = zlen P /\
      (forall x s s', znth (o_states N o) x = Some s -> znth (o_states N o') x = Some s' ->
         forall f, In f flags -> (st_get s f = true -> st_get s' f = true) /\
           (st_get s' f = true -> st_get s f = true \/ st_get (w8 (jZ N (w_junk N w) x)) f = true)) /\
      ((forall x, jZ N (w_junk N w) x = st_init) -> o' = o).
Proof.
  intros Hc Hgr Hg3 Hin HS. destruct (exact_knn N E c P0 P ids offs Hc Hgr Hg3 Hin HS) as [Hr HA]. now apply (gpu_final_gen N c P0 P ids offs).
Qed.
Lemma gpu_zero (N : Arith) (E : Exact N) c P0 P ids offs w : dev_cfg_ok c -> 0 < c_gr c -> c_gr c * c_gr c * c_gr c <= int_max -> (forall q, In q P0 -> inside N E q) ->
  xyz_sort N (c_gr c) P0 = Ok (P, ids, offs) ->
  1 <= c_nthreads c -> fits c (zlen P) -> gpu_fits c (zlen P) ->
  chunked (chunk_of c (zlen P)) (zlen P) = false -> zlen P mod (if 0 <? c_ndsize c then c_ndsize c else 1) = 0 ->
  (forall x, jZ N (w_junk N w) x = st_init) -> tess_core N w c gpu P0 = tess_core N w c cpu P0.
Proof.
  intros Hc Hgr Hg3 Hin HS. destruct (exact_knn N E c P0 P ids offs Hc Hgr Hg3 Hin HS) as [Hr HA]. now apply (gpu_zero_gen N c P0 P ids offs).
Qed.
