(** What a call that returns tells about its parameters: accesses every complete
    run of a kernel makes. *)
From Verif Require Import Base Arith PBase Prog PProg MUtils MHeap MXyz MKnn MBoundary MCell MDnn MArgs MTess SpecSort PXyz PSlotHost PRanges PTessRun PWrap.
From Coq Require Import Permutation.
Local Open Scope prog_scope.

Section Must.
Context {F : Type}.
Variable B : arr -> Z -> Prop.

(** every path to the end makes an access in B *)
Fixpoint must {A} (p : prog F A) : Prop :=
  match p with
  | Ret _ => False
  | Fail _ => True
  | Rd a i k => B a i \/ forall v, must (k v)
  | Wr a i _ k => B a i \/ must k
  end.
Lemma must_bind1 {A C} (p : prog F A) (f : A -> prog F C) : must p -> must (bind p f).
Proof. induction p as [a|e|a i k IH|a i v k IH]; simpl; try tauto; intros [H|H]; auto. Qed.
Lemma must_bind2 {A C} (p : prog F A) (f : A -> prog F C) : (forall a, must (f a)) -> must (bind p f).
Proof. intros H. induction p as [a|e|a i k IH|a i v k IH]; simpl; auto. Qed.
Lemma must_forM {X} (l : list X) (f : X -> prog F unit) x : In x l -> must (f x) -> must (forM l f).
Proof. induction l as [|y l IH]; intros H M; [destruct H|]. simpl. destruct H as [->|H]; [now apply must_bind1|]. apply must_bind2. auto. Qed.
Lemma stuck_must {A} (p : prog F A) : (forall i, B AHeapPq i) -> stuck p -> must p.
Proof. intros H. destruct p; simpl; try tauto. intros ->. auto. Qed.

Definition lacks (m : mem F) : Prop := forall a i, B a i -> mrd m a i = None.
Lemma lacks_wr m a i v : lacks m -> lacks (mwr m a i v).
Proof.
  intros H b j Hb. specialize (H b j Hb). unfold mrd in *. apply znth_none in H. apply znth_none. now rewrite mlen_mwr.
Qed.
Lemma must_run {A} (p : prog F A) : forall m, lacks m -> must p -> exists e, run p m = Err e.
Proof.
  unfold run. induction p as [a|e|a i k IH|a i v k IH]; intros m L M; simpl in *; [contradiction|eauto| |].
  - destruct (mrd m a i) as [v|] eqn:Q; [|eauto]. destruct M as [M|M]; [rewrite (L _ _ M) in Q; discriminate|]. now apply IH.
  - destruct (mrd m a i) as [w|] eqn:Q; [|eauto]. destruct M as [M|M]; [rewrite (L _ _ M) in Q; discriminate|]. apply IH; [now apply lacks_wr|assumption].
Qed.
Lemma lacks_run {A} (p : prog F A) m x m' : lacks m -> run p m = Ok (x, m') -> lacks m'.
Proof.
  intros H R b j Hb. specialize (H b j Hb). unfold mrd in *. apply znth_none in H. apply znth_none. now rewrite (run_in_len _ _ _ _ _ R).
Qed.
Lemma must_finish ps : forall m, lacks m -> (exists p, In p ps /\ must p) -> exists e, finish ps m = Err e.
Proof.
  induction ps as [|q ps IH]; intros m L (p & Ip & Mp); [destruct Ip|]. simpl. destruct (run q m) as [[x m']|e] eqn:R; [|eauto].
  destruct Ip as [->|Ip]; [destruct (must_run p m L Mp) as [e Q]; congruence|]. apply IH; [eapply lacks_run; eauto|eauto].
Qed.
Lemma must_pool sched : forall ps m, lacks m -> (exists j p, nth_error ps j = Some p /\ must p) -> exists e, pool_run sched ps m = Err e.
Proof.
  induction sched as [|i sched IH]; intros ps m L (j & p & Hj & Mp); cbn [pool_run].
  - apply must_finish; [assumption|]. exists p. split; [eapply nth_error_In; eauto|assumption].
  - destruct (nth_error ps i) as [q|] eqn:Hi; [|apply IH; eauto].
    destruct (step1 q m) as [[q' m']|e] eqn:St; [|eauto]. apply IH.
    + destruct q as [a|e|a x k|a x v k]; simpl in St; try discriminate; [injection St as _ <-; assumption| |];
      destruct (mrd m a x); try discriminate; injection St as _ <-; [assumption|now apply lacks_wr].
    + destruct (Nat.eq_dec i j) as [->|Ne].
      * exists j, q'. rewrite nth_error_nupd_same by (apply nth_error_Some; congruence). split; [reflexivity|]. assert (q = p) as -> by congruence.
        destruct p as [a|e|a x k|a x v k]; simpl in St, Mp; try contradiction; try discriminate;
        destruct (mrd m a x) eqn:Q; try discriminate; injection St as <- _; (destruct Mp as [Mp|Mp]; [rewrite (L _ _ Mp) in Q; discriminate|auto]).
      * exists j, p. rewrite nth_error_nupd_other by assumption. auto.
Qed.
End Must.

Section T.
Variable N : Arith.

Lemma init_must (B : arr -> Z -> Prop) L : B AP (aP L 5 3) \/ B AT (aT L 7 2) -> must B (cell_init N L).
Proof.
  intros [H|H]; unfold cell_init.
  - apply must_bind1. eapply must_forM with (x := (5, (0, 0, -1, 1))); [simpl; tauto|]. simpl. auto 10.
  - apply must_bind2. intros _. eapply must_forM with (x := (7, (4, 3, 1))); [simpl; tauto|]. simpl. auto 10.
Qed.

Lemma slot_must (B : arr -> Z -> Prop) c g i index : 
  (B AP (4 * w16 (c_pmax c) * i + 23) \/ B AT (3 * w16 (c_tmax c) * i + 23)) \/ c_gr c = 0 \/ (0 < c_gr c /\ forall j, B AHeapPq j) -> must B (slot_prog N c g i index).
Proof.
  intros [H|[H|[Hg H]]]; unfold slot_prog.
  - apply must_bind2. intros _. unfold cell_compute. apply must_bind2. intros p. apply must_bind1. apply init_must.
    unfold lay_host, aT. simpl. destruct H as [H|H]; [left|right]; eapply eq_ind_r with (P := B _); [exact H|lia|exact H|lia].
  - apply must_bind1. unfold knn_compute. apply must_bind2. intros q. apply must_bind2. intros idv. rewrite H. simpl. exact I.
  - apply must_bind1. apply stuck_must; [exact H|]. now apply knn_stuck.
Qed.

Lemma alloc_inv (r : res Z) m : alloc r = Ok m -> exists x, r = Ok x /\ 0 <= x /\ m = Z.to_nat x.
Proof. unfold alloc. intros H. apply rbind_ok in H as (x & E & H). destruct (Z.ltb_spec x 0); [discriminate|]. injection H as <-. eauto. Qed.
Lemma mul3_inv a b d x : mul3 a b d = Ok x -> x = a * b * d /\ x <= int_max.
Proof. unfold mul3. intros H. apply rbind_ok in H as (y & E & H). apply chk_inv in E as [-> _]. apply chk_inv in H as [-> R]. lia. Qed.

Lemma need_final (w : world N) c P0 o : 0 <= c_nthreads c -> P0 <> [] -> tess_core N w c cpu P0 = Ok o ->
  let cap := first_subsize (chunk_of c (zlen P0)) (zlen P0) in
  1 <= c_gr c /\ c_gr c * c_gr c * c_gr c <= int_max /\ 1 <= c_k c /\ 6 <= c_pmax c /\ 8 <= c_tmax c /\ 1 <= c_nthreads c /\
  cap * c_k c <= int_max /\ cap * c_pmax c * 4 <= int_max /\ cap * c_tmax c * 3 <= int_max.
Proof.
  intros Hnt Ne H cap. unfold tess_core in H. apply rbind_ok in H as ([[P ids] offs] & HS & H). apply rbind_ok in H as ([t s] & HR & _). cbn [run_device] in HR.
  assert (LP : zlen P = zlen P0). { apply perm_points in HS. unfold zlen. now rewrite (Permutation_length HS). }
  assert (Gr : 0 <= c_gr c /\ c_gr c * c_gr c * c_gr c <= int_max).
  { apply xyz_sort_inv in HS as (l & u & El & Eu & _ & (PP & _) & _ & R3 & _ & _ & Eo). split; [|lia].
    destruct (Z_lt_ge_dec (c_gr c) 0) as [Neg|]; [|lia]. exfalso. destruct l as [|r l]; [simpl in El; congruence|].
    assert (In (fst r) ids). { rewrite <- Eu. apply in_map. eapply Permutation_in; [exact PP|now left]. }
    pose proof (offsets_inv _ _ _ Eo _ H). nia. }
  unfold cpu_tesellate in HR. simpl g_pts in HR. rewrite LP in HR. set (n := zlen P0) in *.
  assert (Hn : 1 <= n). { unfold n. destruct P0; [congruence|]. rewrite zlen_cons. pose proof (zlen_nonneg P0). lia. }
  apply rbind_ok in HR as (cs & EC & HR).
  assert (cs = chunk_of c n) as ->. { unfold eff_chunksize, chunk_of in *. destruct (c_use_chunking c); [congruence|]. apply chk_inv in EC. lia. }
  set (cs := chunk_of c n) in *. fold cap in HR.
  apply rbind_ok in HR as (m & EB & HR). unfold buffers in EB.
  apply rbind_ok in EB as (nk & A1 & EB). apply alloc_inv in A1 as (x1 & A1 & P1 & ->). apply chk_inv in A1 as [-> R1].
  apply rbind_ok in EB as (np & A2 & EB). apply alloc_inv in A2 as (x2 & A2 & P2 & ->). apply mul3_inv in A2 as [-> R2].
  apply rbind_ok in EB as (nt & A3 & EB). apply alloc_inv in A3 as (x3 & A3 & P3 & ->). apply mul3_inv in A3 as [-> R3].
  apply rbind_ok in EB as (nr & A4 & EB). apply alloc_inv in A4 as (x4 & A4 & P4 & ->). injection EB as <-.
  apply rbind_ok in HR as (r & HR & _).
  assert (Np : 1 <= num_runs cs n) by (apply num_runs_pos; lia).
  assert (Hcap : 1 <= cap). { unfold cap, first_subsize, chunked. fold cs. destruct (Z.ltb_spec 0 cs), (Z.ltb_spec cs n); simpl; lia. }
  rewrite (zrange_cons 0 (num_runs cs n)) in HR by lia. cbn [rfold] in HR. apply rbind_ok in HR as (s1 & HR & _). unfold cpu_run in HR.
  apply rbind_ok in HR as (ts & ET & HR). unfold thread_size in ET. destruct (Z.eqb_spec (c_nthreads c) 0) as [|nz]; [discriminate|]. injection ET as <-.
  set (ts := cap / c_nthreads c) in *. assert (Hts : 0 <= ts /\ c_nthreads c * ts <= cap) by (split; [apply Z.div_pos; lia|apply Z.mul_div_le; lia]).
  destruct (chunk_bounds cs n 0 ltac:(lia) ltac:(lia)) as (C1 & C2 & C3 & C4 & C5 & C6).
  assert (Hsub : cend cs n 0 - cstart cs 0 = cap).
  { destruct (Z.eq_dec 0 (num_runs cs n - 1)) as [e|ne]; [|apply C4; lia]. rewrite (C5 e), (C6 eq_refl). revert e. clear -Hn.
    unfold num_runs, cap, first_subsize. fold cs. unfold chunked. destruct (Z.ltb_spec 0 cs), (Z.ltb_spec cs n); simpl; try lia.
    intros e. assert (1 <= n / cs) by (apply Z.div_le_lower_bound; lia). lia. }
  rewrite Hsub in HR. apply rbind_ok in HR as (ind & EI & HR). apply rbind_ok in HR as (m' & EP & _).
  (* the last slot *)
  assert (KEY : forall B : arr -> Z -> Prop, lacks B (refill N (mkMem (repeat 0 (Z.to_nat (cap * c_k c))) (repeat (finf N) (Z.to_nat (cap * c_k c)))
        (repeat (fofZ N 0) (Z.to_nat (cap * c_pmax c * 4))) (repeat 0 (Z.to_nat (cap * c_tmax c * 3))) (repeat 0 (Z.to_nat x4))
        (repeat k_undefined (Z.to_nat (cap * c_k c))) (repeat st_init (length P)))) ->
      (forall index, must B (slot_prog N c (mkGrid N P ids offs) (cap - 1) index)) -> False).
  { intros B HL HM. destruct (must_pool B (w_sched N w 0) (threads N c (mkGrid N P ids offs) ind ts cap) _ HL) as [e Q]; [|congruence].
    exists (Z.to_nat (c_nthreads c - 1)), (thread_prog N c (mkGrid N P ids offs) ind (trange (c_nthreads c) ts cap (c_nthreads c - 1))). split.
    - assert (Z0 : znth (threads N c (mkGrid N P ids offs) ind ts cap) (c_nthreads c - 1) = Some (thread_prog N c (mkGrid N P ids offs) ind (trange (c_nthreads c) ts cap (c_nthreads c - 1)))).
      { unfold threads. rewrite znth_map, znth_zrange by lia. reflexivity. }
      unfold znth in Z0. destruct (Z.leb_spec 0 (c_nthreads c - 1)); [exact Z0|lia].
    - unfold thread_prog, trange. rewrite Z.eqb_refl. simpl. apply must_forM with (x := cap - 1).
      + apply in_zrange. nia.
      + apply must_bind2. exact HM. }
  assert (G1 : 1 <= c_gr c).
  { destruct (Z.eq_dec (c_gr c) 0) as [e|ne]; [|lia]. exfalso. apply (KEY (fun _ _ => False)); [intros ? ? []|]. intros index. apply slot_must. auto. }
  assert (K1 : 1 <= c_k c).
  { destruct (Z_le_gt_dec 1 (c_k c)) as [|L]; [assumption|]. exfalso. assert (c_k c = 0) by nia.
    apply (KEY (fun a _ => a = AHeapPq)).
    - intros a i ->. unfold mrd. simpl. rewrite H, Z.mul_0_r. simpl. apply znth_nil.
    - intros index. apply slot_must. right. right. split; [lia|auto]. }
  assert (PM : 6 <= c_pmax c).
  { destruct (Z_le_gt_dec 6 (c_pmax c)) as [|L]; [assumption|]. exfalso. assert (0 <= c_pmax c) by nia.
    apply (KEY (fun a i => a = AP /\ i = 4 * c_pmax c * (cap - 1) + 23)).
    - intros a i [-> ->]. unfold mrd. simpl. apply znth_none. rewrite zlen_repeat. nia.
    - intros index. apply slot_must. left. left. split; [reflexivity|]. replace (w16 (c_pmax c)) with (c_pmax c); [reflexivity|]. unfold w16. rewrite Z.mod_small; lia. }
  assert (TM : 8 <= c_tmax c).
  { destruct (Z_le_gt_dec 8 (c_tmax c)) as [|L]; [assumption|]. exfalso. assert (0 <= c_tmax c) by nia.
    apply (KEY (fun a i => a = AT /\ i = 3 * c_tmax c * (cap - 1) + 23)).
    - intros a i [-> ->]. unfold mrd. simpl. apply znth_none. rewrite zlen_repeat. nia.
    - intros index. apply slot_must. left. right. split; [reflexivity|]. replace (w16 (c_tmax c)) with (c_tmax c); [reflexivity|]. unfold w16. rewrite Z.mod_small; lia. }
  lia.
Qed.
End T.
