(** The recompute rounds. *)
From Verif Require Import Base Arith PBase Prog PProg MUtils MHeap MXyz MKnn MBoundary MCell MDnn MArgs MTess PFlags PSort PFill PHeap PReloc PHeapFinal
  SpecSort PXyz PSortFinal SpecDnn PDnn SpecBnd PBnd PCellSim PCellRun PCell PCellRow PKnnSafe PSlot PWalk SpecSlot PSlotHost PSlotFinal PPool PRanges PTess PTessRun PTessFinal.
Local Open Scope res_scope.

Definition mem_z (l : list Z) (x : Z) : bool := existsb (Z.eqb x) l.
Lemma mem_z_in l x : mem_z l x = true <-> In x l.
Proof. unfold mem_z. rewrite existsb_exists. split; [intros (y & Hy & E); apply Z.eqb_eq in E; now subst|intros H; exists x; split; [assumption|apply Z.eqb_refl]]. Qed.
Lemma mem_z_nin l x : mem_z l x = false <-> ~ In x l.
Proof. rewrite <- mem_z_in. destruct (mem_z l x); split; intros; congruence. Qed.

(** k of the next round *)
Definition next_k (n k : Z) : Z := if n - 1 <? k * 2 then n - 1 else k * 2.
Definition next_cfg (n : Z) (ind st : list Z) (c : cfg) : cfg :=
  set_kpt c (next_k n (c_k c))
    (c_pmax c * (if existsb (has_flag st error_p_overflow) ind then 2 else 1))
    (c_tmax c * (if existsb (has_flag st error_t_overflow) ind then 2 else 1)).
Definition todo (ind st : list Z) : list Z := filter (not_reached st) ind.
(** what has to fit into an int for sub slots *)
Definition sub_fits (c : cfg) (sub : Z) : Prop :=
  sub * c_k c <= int_max /\ sub * c_pmax c * 4 <= int_max /\ sub * c_tmax c * 3 <= int_max.

Lemma nodup_znth (l : list Z) i j x : NoDup l -> znth l i = Some x -> znth l j = Some x -> i = j.
Proof.
  intros Nd Hi Hj. pose proof (znth_some _ _ _ Hi). pose proof (znth_some _ _ _ Hj).
  rewrite NoDup_nth_error in Nd. unfold znth in Hi, Hj. destruct (Z.leb_spec 0 i); [|discriminate]. destruct (Z.leb_spec 0 j); [|discriminate].
  specialize (Nd (Z.to_nat i) (Z.to_nat j)). unfold zlen in *. rewrite Hi, Hj in Nd. specialize (Nd ltac:(lia) eq_refl). lia.
Qed.

Section T.
Variable N : Arith.
Notation F := (F N).
Variable g : grid N.
Notation n := (zlen (g_pts N g)).

(** states and rows after a round over ind *)
Definition new_states (ind : list Z) (rs : Z -> sres N) : list Z :=
  map (fun x => if mem_z ind x then out_byte N rs x else 0) (zrange 0 n).
Definition new_rows (c : cfg) (ind : list Z) (rs : Z -> sres N) (rows : list (list Z)) : list (list Z) :=
  map (fun x => if mem_z ind x then out_row N c rs x else match znth rows x with Some r => r | None => [] end) (zrange 0 n).

Definition ind_ok (ind : list Z) : Prop := NoDup ind /\ forall x, In x ind -> 0 <= x < n.
Lemma todo_ok ind st : ind_ok ind -> ind_ok (todo ind st).
Proof. intros [A B]. split; [now apply NoDup_filter|]. intros x Hx. apply filter_In in Hx. apply B. tauto. Qed.

Lemma new_states_at ind rs x : 0 <= x < n -> znth (new_states ind rs) x = Some (if mem_z ind x then out_byte N rs x else 0).
Proof. intros Hx. unfold new_states. rewrite znth_map, znth_zrange by lia. rewrite Z.add_0_l. reflexivity. Qed.
Lemma new_rows_at c ind rs rows x : 0 <= x < n -> znth (new_rows c ind rs rows) x =
  Some (if mem_z ind x then out_row N c rs x else match znth rows x with Some r => r | None => [] end).
Proof. intros Hx. unfold new_rows. rewrite znth_map, znth_zrange by lia. rewrite Z.add_0_l. reflexivity. Qed.
Lemma new_states_len ind rs : zlen (new_states ind rs) = n.
Proof. unfold new_states. rewrite zlen_map, zlen_zrange; [lia|apply zlen_nonneg]. Qed.
Lemma new_rows_len c ind rs rows : zlen (new_rows c ind rs rows) = n.
Proof. unfold new_rows. rewrite zlen_map, zlen_zrange; [lia|apply zlen_nonneg]. Qed.

Lemma round_ok c ind st rows rs sched : let ind' := todo ind st in let c' := next_cfg n ind st c in
  ind_ok ind -> zlen st = n -> zlen rows = n -> ind' <> [] ->
  1 <= c_k c -> c_k c * 2 <= int_max -> cfg_ok c' -> 1 <= c_nthreads c -> sub_fits c' (zlen ind') -> results N c' g rs ->
  recompute_round N sched c g ind rows st = Ok (ind', new_states ind' rs, new_rows c' ind' rs rows, c', n - 1 <=? c_k c').
Proof.
  intros ind' c' Hi Ls Lr Ne Hk0 Hk2 Hc Hnt (F1 & F2 & F3) Rs.
  pose proof (todo_ok ind st Hi) as Hi'. fold ind' in Hi'. destruct Hi' as [Nd Ir]. assert (Hc' := Hc). destruct Hc' as (K1 & K2 & K3).
  assert (Hsub : 0 < zlen ind'). { destruct ind'; [congruence|]. rewrite zlen_cons. pose proof (zlen_nonneg ind'). lia. }
  unfold recompute_round. fold (todo ind st). fold ind'. destruct (Z.leb_spec (zlen ind') 0); [lia|].
  rewrite chk_ok by (unfold int_min; lia). cbn [rbind]. fold (next_k n (c_k c)).
  set (u := existsb (has_flag st error_p_overflow) ind) in *. set (v := existsb (has_flag st error_t_overflow) ind) in *.
  assert (CP : c_pmax c' = c_pmax c * (if u then 2 else 1)) by reflexivity. assert (CT : c_tmax c' = c_tmax c * (if v then 2 else 1)) by reflexivity.
  rewrite chk_ok by (rewrite <- CP; unfold int_min, int_max; lia). cbn [rbind].
  rewrite chk_ok by (rewrite <- CT; unfold int_min, int_max; lia). cbn [rbind].
  change (set_kpt c (next_k n (c_k c)) (c_pmax c * (if u then 2 else 1)) (c_tmax c * (if v then 2 else 1))) with c'.
  set (z := map (fun _ => st_reset) st).
  assert (Zst : forall x, 0 <= x < n -> znth z x = Some 0).
  { intros x Hx. unfold z. rewrite znth_map. destruct (znth_in_range st x ltac:(lia)) as [b ->]. reflexivity. }
  rewrite (buffers_ok N c' Hc) by (assumption || lia). cbn [rbind].
  unfold thread_size. change (c_nthreads c') with (c_nthreads c). destruct (Z.eqb_spec (c_nthreads c) 0) as [|nz]; [lia|]. cbn [rbind].
  set (m0 := mkMem _ _ _ _ _ _ z). set (sub := zlen ind') in *. set (ts := sub / c_nthreads c).
  assert (TR : concat (map (fun r => zrange (fst r) (snd r)) (map (trange (c_nthreads c) ts sub) (zrange 0 (c_nthreads c)))) = zrange 0 sub).
  { destruct (thread_ranges_final (c_nthreads c) sub sub Hnt ltac:(lia)) as (M & _ & E & EM). rewrite (EM eq_refl) in E. exact E. }
  destruct (pool_spec N c' g Hc rs ind' sub m0 (map (trange (c_nthreads c) ts sub) (zrange 0 (c_nthreads c))) Rs) as (m' & PR & _ & Len & P1 & P2).
  - lia.
  - unfold has_room, m0. simpl. rewrite !zlen_repeat. unfold z. rewrite zlen_map. repeat apply conj; try nia.
  - intros x Hx. unfold m0. simpl. assert (Hx' : 0 <= x < Z.of_nat (Z.to_nat (sub * next_k n (c_k c)))) by (change (next_k n (c_k c)) with (c_k c'); lia).
    rewrite (znth_repeat _ _ _ Hx'), (znth_repeat _ _ _ Hx'), (znth_repeat _ _ _ Hx'). auto.
  - intros j Hj. destruct (znth_in_range ind' j ltac:(lia)) as [x Ex]. exists x, 0. assert (0 <= x < n) by (apply Ir; eapply znth_in; eauto). split; [assumption|]. split; [assumption|].
    split; [apply Zst; assumption|lia].
  - intros i j x _ _. apply nodup_znth. exact Nd.
  - exact TR.
  - assert (ETH : threads N c' g ind' ts sub = map (thread_prog N c' g ind') (map (trange (c_nthreads c) ts sub) (zrange 0 (c_nthreads c)))) by (unfold threads; rewrite map_map; reflexivity).
    rewrite ETH, PR. cbn [rbind].
    assert (Lh : zlen (m_hid m') = c_k c' * sub). { pose proof (Len AHeapId) as Q. cbn [mget ty] in Q. rewrite Q. change (zlen (repeat 0 (Z.to_nat (sub * c_k c'))) = c_k c' * sub). rewrite zlen_repeat, Z2Nat.id; [ring|apply Z.mul_nonneg_nonneg; lia]. }
    assert (Lst : zlen (m_st m') = n). { pose proof (Len ASt) as Q. cbn [mget ty] in Q. rewrite Q. unfold m0, z. simpl. rewrite zlen_map. assumption. }
    destruct (fill_ok (c_k c') ind' sub (m_hid m') rows) as (t' & ET & LT & T1 & T2).
    + lia.
    + fold sub. lia.
    + lia.
    + intros i x _ E. rewrite Lr. apply Ir. eapply znth_in; eauto.
    + intros i j x _ _. apply nodup_znth. exact Nd.
    + change (next_k n (c_k c)) with (c_k c'). rewrite ET. cbn [rbind]. f_equal. f_equal. f_equal. f_equal; [f_equal|].
      * apply znth_ext_range; [rewrite new_states_len; assumption|]. intros x Hx. rewrite Lst in Hx. rewrite new_states_at by assumption.
        destruct (mem_z ind' x) eqn:Mx.
        -- apply mem_z_in, in_znth in Mx as (j & Hj & Ej). apply (P1 j x Hj Ej). apply Zst. assumption.
        -- apply mem_z_nin in Mx. rewrite P2; [apply Zst; assumption|]. intros j _ E. apply Mx. eapply znth_in; eauto.
      * apply znth_ext_range; [rewrite new_rows_len; lia|]. intros x Hx. rewrite LT, Lr in Hx. rewrite new_rows_at by assumption.
        destruct (mem_z ind' x) eqn:Mx.
        -- apply mem_z_in, in_znth in Mx as (j & Hj & Ej). rewrite (T1 j x Hj Ej). f_equal. unfold out_row. destruct (P1 j x Hj Ej) as [<- _]. reflexivity.
        -- apply mem_z_nin in Mx. rewrite T2; [destruct (znth_in_range rows x ltac:(lia)) as [r ->]; reflexivity|]. intros j _ E. apply Mx. eapply znth_in; eauto.
Qed.

(** ** the loop: what a call that stays within the limits does *)
Inductive rec_run : cfg -> list Z -> list Z -> list (list Z) -> list (list Z) -> list Z -> Prop :=
| rr_done c ind st rows : todo ind st = [] -> rec_run c ind st rows rows (map (fun _ => 0) st)
| rr_last c ind st rows rs : let c' := next_cfg n ind st c in let ind' := todo ind st in
    ind' <> [] -> cfg_ok c' -> sub_fits c' (zlen ind') -> results N c' g rs -> n - 1 <= c_k c' ->
    rec_run c ind st rows (new_rows c' ind' rs rows) (new_states ind' rs)
| rr_more c ind st rows rs rows' st' : let c' := next_cfg n ind st c in let ind' := todo ind st in
    ind' <> [] -> cfg_ok c' -> sub_fits c' (zlen ind') -> results N c' g rs -> c_k c' < n - 1 ->
    rec_run c' ind' (new_states ind' rs) (new_rows c' ind' rs rows) rows' st' -> rec_run c ind st rows rows' st'.

Lemma same_next ind st c d : same_kernel c d -> same_kernel (next_cfg n ind st c) (next_cfg n ind st d).
Proof. intros (E1 & E2 & E3 & E4). unfold next_cfg, same_kernel, set_kpt. simpl. rewrite E1, E2, E3, E4. auto. Qed.
Lemma same_cfg_ok c d : same_kernel c d -> cfg_ok c -> cfg_ok d.
Proof. intros (E1 & E2 & E3 & E4). unfold cfg_ok. rewrite E1, E3, E4. auto. Qed.
Lemma same_sub_fits c d sub : same_kernel c d -> sub_fits c sub -> sub_fits d sub.
Proof. intros (E1 & E2 & E3 & E4). unfold sub_fits. rewrite E1, E3, E4. auto. Qed.
Lemma same_new_rows c d ind rs rows : same_kernel c d -> new_rows c ind rs rows = new_rows d ind rs rows.
Proof. intros H. unfold new_rows. rewrite (out_row_same N c d rs H). reflexivity. Qed.

Lemma loop_follows c ind st rows rows' st' : rec_run c ind st rows rows' st' ->
  ind_ok ind -> zlen st = n -> zlen rows = n -> 1 <= c_k c <= 65535 ->
  forall fuel sched d, (0 < fuel)%nat -> n - 1 <= c_k c * 2 ^ Z.of_nat fuel -> same_kernel c d -> 1 <= c_nthreads d ->
  recompute_loop N fuel sched d g ind rows st = Ok (rows', st').
Proof.
  induction 1 as [c ind st rows E|c ind st rows rs c' ind' Ne Hc Fi Rs Hk|c ind st rows rs rows' st' c' ind' Ne Hc Fi Rs Hk RR IH]; intros Hi Ls Lr Kc fuel sched d Hf Hp Sm Hnt; (destruct fuel as [|fuel]; [lia|]); cbn [recompute_loop].
  - unfold recompute_round. fold (todo ind st). rewrite E. reflexivity.
  - pose proof (proj1 Sm) as E1. pose proof (same_next ind st c d Sm) as Sn.
    rewrite (round_ok d ind st rows rs (sched fuel)); fold ind'; auto; try (rewrite ?E1; unfold int_max; lia).
    + cbn [rbind]. destruct (Z.leb_spec (n - 1) (c_k (next_cfg n ind st d))) as [_|H].
      * rewrite (same_new_rows _ _ _ _ _ Sn). reflexivity.
      * destruct Sn as (F1 & _). rewrite F1 in H. fold c' in H. lia.
    + now apply (same_cfg_ok _ _ Sn).
    + now apply (same_sub_fits _ _ _ Sn).
    + now apply (results_same N _ _ _ _ Sn).
  - pose proof (proj1 Sm) as E1. pose proof (same_next ind st c d Sm) as Sn.
    rewrite (round_ok d ind st rows rs (sched fuel)); fold ind'; auto; try (rewrite ?E1; unfold int_max; lia).
    + cbn [rbind]. destruct (Z.leb_spec (n - 1) (c_k (next_cfg n ind st d))) as [H|_].
      * destruct Sn as (F1 & _). rewrite F1 in H. fold c' in H. lia.
      * rewrite <- (same_new_rows _ _ _ _ _ Sn). assert (Q : c_k c' = c_k c * 2).
        { unfold c', next_cfg, set_kpt, next_k in Hk |- *. simpl in Hk |- *. destruct (Z.ltb_spec (n - 1) (c_k c * 2)); lia. }
        apply IH; auto.
        -- now apply todo_ok.
        -- apply new_states_len.
        -- apply new_rows_len.
        -- destruct Hc as (HK & _). lia.
        -- destruct fuel; [|lia]. exfalso. change (2 ^ Z.of_nat 1) with 2 in Hp. lia.
        -- rewrite Q. replace (Z.of_nat (S fuel)) with (Z.succ (Z.of_nat fuel)) in Hp by lia. rewrite Z.pow_succ_r in Hp by lia. lia.
    + now apply (same_cfg_ok _ _ Sn).
    + now apply (same_sub_fits _ _ _ Sn).
    + now apply (results_same N _ _ _ _ Sn).
Qed.

Lemma mul_grow a b w : 1 <= w -> 0 <= a <= 2 * b -> a * w <= b * (2 * w) /\ a <= a * w.
Proof. intros. split; nia. Qed.

(** ** existence: r more doublings are harmless *)
Definition grow_ok (r : Z) (c : cfg) : Prop :=
  n - 1 <= c_k c * 2 ^ r /\ 6 <= c_pmax c /\ 8 <= c_tmax c /\ c_pmax c * 2 ^ r <= 255 /\ c_tmax c * 2 ^ r <= 65535 /\
  n <= 65536 /\ n * n <= int_max /\ n * c_pmax c * 2 ^ r * 4 <= int_max /\ n * c_tmax c * 2 ^ r * 3 <= int_max.

Lemma rec_run_ex : forall r c ind st rows, sorted_grid N c g -> 2 <= n -> 1 <= c_k c -> ind_ok ind -> grow_ok (Z.of_nat r) c -> (0 < r)%nat ->
  exists rows' st', rec_run c ind st rows rows' st'.
Proof.
  induction r as [|r IH]; intros c ind st rows Hg Hn Hk Hi (G1 & G2 & G2' & G3 & G4 & G5 & G6 & G7 & G8) Hr; [lia|].
  replace (Z.of_nat (S r)) with (Z.succ (Z.of_nat r)) in * by lia. rewrite Z.pow_succ_r in * by lia.
  set (w := 2 ^ Z.of_nat r) in *. assert (W1 : 1 <= w) by (apply (Z.pow_le_mono_r 2 0 (Z.of_nat r)); lia).
  destruct (todo ind st) as [|y l] eqn:Et.
  { exists rows, (map (fun _ => 0) st). now apply rr_done. }
  assert (Ne : todo ind st <> []) by congruence. clear y l Et.
  set (c' := next_cfg n ind st c). pose proof (todo_ok ind st Hi) as [Nd Ir]. fold (todo ind st) in *.
  assert (Lt : zlen (todo ind st) <= n).
  { assert (Q : (List.length (todo ind st) <= List.length (zrange 0 n))%nat) by (apply NoDup_incl_length; [exact Nd|]; intros x Hx; apply in_zrange; now apply Ir).
    assert (Q2 : zlen (zrange 0 n) = n) by (rewrite zlen_zrange; [lia|apply zlen_nonneg]).
    rewrite <- Q2 at 1. unfold zlen at 1 2. lia. }
  pose proof (zlen_nonneg (todo ind st)) as Lt0.
  assert (Kc : c_k c' = Z.min (n - 1) (c_k c * 2)). { unfold c', next_cfg, set_kpt, next_k. simpl. destruct (Z.ltb_spec (n - 1) (c_k c * 2)); lia. }
  set (u := existsb (has_flag st error_p_overflow) ind). set (v := existsb (has_flag st error_t_overflow) ind).
  assert (Pc : c_pmax c' = c_pmax c * (if u then 2 else 1)) by reflexivity. assert (Tc : c_tmax c' = c_tmax c * (if v then 2 else 1)) by reflexivity.
  assert (P1 : c_pmax c <= c_pmax c' <= 2 * c_pmax c) by (rewrite Pc; destruct u; lia).
  assert (T1 : c_tmax c <= c_tmax c' <= 2 * c_tmax c) by (rewrite Tc; destruct v; lia).
  destruct (mul_grow (c_pmax c') (c_pmax c) w W1 ltac:(lia)) as [PW PW1]. destruct (mul_grow (c_tmax c') (c_tmax c) w W1 ltac:(lia)) as [TW TW1].
  assert (Hc' : cfg_ok c') by (unfold cfg_ok; rewrite Kc; lia).
  assert (NP : n * (c_pmax c' * w) <= n * (c_pmax c * (2 * w))) by (apply Z.mul_le_mono_nonneg_l; lia).
  assert (NT : n * (c_tmax c' * w) <= n * (c_tmax c * (2 * w))) by (apply Z.mul_le_mono_nonneg_l; lia).
  assert (SP : zlen (todo ind st) * c_pmax c' <= n * (c_pmax c' * w)) by (apply Z.mul_le_mono_nonneg; lia).
  assert (ST : zlen (todo ind st) * c_tmax c' <= n * (c_tmax c' * w)) by (apply Z.mul_le_mono_nonneg; lia).
  assert (SK : zlen (todo ind st) * c_k c' <= n * n) by (apply Z.mul_le_mono_nonneg; lia).
  assert (Fi : sub_fits c' (zlen (todo ind st))) by (unfold sub_fits; lia).
  assert (Hg' : sorted_grid N c' g) by exact Hg.
  destruct (results_ex N c' g Hc' Hg') as [rs Rs].
  destruct (Z_le_gt_dec (n - 1) (c_k c')) as [L|L].
  - exists (new_rows c' (todo ind st) rs rows), (new_states (todo ind st) rs). apply rr_last; assumption.
  - assert (K2 : c_k c' = c_k c * 2) by lia.
    destruct (IH c' (todo ind st) (new_states (todo ind st) rs) (new_rows c' (todo ind st) rs rows)) as (rows' & st' & RR); auto.
    + lia.
    + split; assumption.
    + unfold grow_ok. fold w. rewrite K2. lia.
    + destruct r; [|lia]. exfalso. change w with 1 in *. lia.
    + exists rows', st'. eapply rr_more; [exact Ne|exact Hc'|exact Fi|exact Rs|fold c'; lia|exact RR].
Qed.
End T.
