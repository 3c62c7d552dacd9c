(** The rows of a run on the CPU, for any arithmetic whose comparison is a weak order on the distances. *)
From Verif Require Import Base Arith PBase Prog PProg MUtils MHeap MXyz MKnn MBoundary MCell MDnn MArgs MTess PFlags SpecDnn PDnn SpecSort SpecHeap SpecBnd SpecAny SpecRows
  PXyz PSortFinal PHeap PReloc PHeapFinal PBnd PCellSim PCellRun PCell PCellRow PKnnSafe PSlot PWalk SpecSlot PSlotHost PTess PTessRun PTessFinal
  PGeomFinal PRec PRecFinal PKnnAny.
From Coq Require Import Permutation Sorting.Sorted.
From Verif Require Export SpecParam.
Local Open Scope Z_scope.

Lemma sorted_kept {A B} (R : A -> A -> Prop) (f : A * B -> bool) l : StronglySorted R l -> forall d, StronglySorted R (map fst (filter f (combine l d))).
Proof.
  induction 1 as [|x l H IH Hx]; intros [|y d]; simpl; try constructor. destruct (f (x, y)); simpl; [|apply IH]. constructor; [apply IH|].
  apply Forall_forall. intros z Hz. apply in_map_iff in Hz as ([u v] & <- & Hz). apply filter_In in Hz as [Hz _]. apply in_combine_l in Hz. simpl. rewrite Forall_forall in Hx. auto.
Qed.
Lemma nodup_kept {A B} (f : A * B -> bool) (l : list A) d : NoDup l -> NoDup (map fst (filter f (combine l d))).
Proof.
  intros H. revert d. induction H as [|x l Hx H IH]; intros [|y d]; simpl; try constructor. destruct (f (x, y)); simpl; [|apply IH]. constructor; [|apply IH].
  intros Hz. apply in_map_iff in Hz as ([u v] & E & Hz). apply filter_In in Hz as [Hz _]. apply in_combine_l in Hz. simpl in E. subst. contradiction.
Qed.
Lemma sorted_at {A} (R : A -> A -> Prop) (l : list A) : (forall i j x y, 0 <= i <= j -> znth l i = Some x -> znth l j = Some y -> R x y) -> StronglySorted R l.
Proof.
  induction l as [|a l IH]; intros H; [constructor|]. constructor.
  - apply IH. intros i j x y Hij Hx Hy. apply (H (i + 1) (j + 1)); [lia| |]; rewrite znth_cons by lia; replace (i + 1 - 1) with i by lia; replace (j + 1 - 1) with j by lia; auto.
  - apply Forall_forall. intros y Hy. apply in_znth in Hy as (j & Hj & Ej). apply (H 0 (j + 1)); [lia|reflexivity|]. rewrite znth_cons by lia. replace (j + 1 - 1) with j by lia. exact Ej.
Qed.
Lemma visible_all l : (forall x, In x l -> x <> k_undefined) -> visible l = l.
Proof.
  induction l as [|a l IH]; intros H; [reflexivity|]. simpl. destruct (Z.eqb_spec a (-32)) as [->|]; [exfalso; apply (H (-32)); [now left|reflexivity]|].
  f_equal. apply IH. intros x Hx. apply H. now right.
Qed.

Section A.
Variable N : Arith.
Variable S : F N -> Prop.
Variables (gr : Z) (P0 P : list (point N)) (ids offs : list Z).
Hypothesis Hgr : 0 < gr.
Hypothesis Hr : in_range_ids N gr P0.
Hypothesis HS : xyz_sort N gr P0 = Ok (P, ids, offs).
Hypothesis OD : ordered_dists N S P.
Notation g := (mkGrid N P ids offs).
Notation n := (zlen P).

Lemma slot_row c rs x : cfg_ok c -> c_gr c = gr -> results N c g rs -> 0 <= x < n ->
  (forall j, In j (out_row N c rs x) -> 0 <= j < n) /\ zlen (out_row N c rs x) <= c_k c /\
  (c_k c <= n - 1 -> index_row n x (c_k c) (out_row N c rs x) /\ by_distance N P x (out_row N c rs x)).
Proof.
  intros Hc Eg Rs Hx. destruct (out_short N g c rs x Hc Rs Hx) as [_ LE]. destruct Hc as (K1 & K2 & K3). destruct (Rs x Hx) as [(p & Ep & Hh & KR & W & Gd) _]. simpl in Ep.
  assert (RK : forall q, In q (r_K N (rs x)) -> 0 <= q < n).
  { intros q Hq. unfold r_K in Hq. apply in_map_iff in Hq as ([q' v] & <- & Hq). destruct Hh as [_ Hh]. rewrite Forall_forall in Hh. apply (Hh _ Hq). }
  assert (IN : forall q, In q (row_of N (r_K N (rs x)) (r_s N (rs x))) -> In q (r_K N (rs x))).
  { intros q Hq. unfold row_of in Hq. apply in_map_iff in Hq as ([u v] & <- & Hz). apply filter_In in Hz as [Hz _]. now apply in_combine_l in Hz. }
  assert (OR : out_row N c rs x = if ok_out (r_o N (rs x)) then row_of N (r_K N (rs x)) (r_s N (rs x)) else r_K N (rs x)).
  { unfold out_row, r_row, row_after. destruct (ok_out (r_o N (rs x))).
    - apply visible_padded. intros q Hq. specialize (RK q (IN q Hq)). unfold k_undefined. lia.
    - apply visible_all. intros q Hq. specialize (RK q Hq). unfold k_undefined. lia. }
  split; [|split; [assumption|]].
  { rewrite OR. intros j Hj. destruct (ok_out _); auto. }
  intros Kn. destruct (knn_any N S (emem N) gr P0 P ids offs (c_k c) x Hgr Hr HS OD ltac:(lia) Hx) as (h & row & KR2 & Lh & Lr & Er & Nd & Hrow & As).
  assert (EH : map fst h = r_K N (rs x)).
  { rewrite <- Eg in KR2. pose proof (eq_trans (eq_sym KR2) KR) as X. injection X as X0 X1. exact X0. }
  assert (ER : r_K N (rs x) = row). { rewrite <- EH, Er, Lr. replace (c_k c - Z.min (c_k c) (n - 1)) with 0 by lia. apply app_nil_r. }
  assert (SR : by_distance N P x row).
  { unfold by_distance. apply sorted_at. intros i j y y' Hij Hy Hy' q q1 q2 E0 E1 E2. specialize (As i j y y' Hij Hy Hy'). unfold fdist in As.
    change (@znth (point N) P x = Some q) in E0. change (@znth (point N) P y = Some q1) in E1. change (@znth (point N) P y' = Some q2) in E2. rewrite E0, E1, E2 in As.
    destruct q as [[? ?] ?], q1 as [[? ?] ?], q2 as [[? ?] ?]. exact As. }
  rewrite OR in LE. rewrite OR, ER in *. destruct (ok_out (r_o N (rs x))).
  - split; [split; [now apply nodup_kept|split; [|assumption]]|now apply sorted_kept]. intros j Hj. apply Hrow. now apply IN.
  - split; [split; [assumption|split; [|assumption]]|assumption]. apply Hrow.
Qed.

(** with recompute: every row comes from a round *)
Lemma rec_index c ind st rows rows' st' : rec_run N g c ind st rows rows' st' -> c_gr c = gr -> ind_ok N g ind -> zlen rows = n -> forall b, n - 1 <= b ->
  (forall x row, znth rows x = Some row -> index_row n x b row /\ by_distance N P x row) ->
  forall x row, znth rows' x = Some row -> index_row n x b row /\ by_distance N P x row.
Proof.
  assert (Q : forall c ind st rows rs, cfg_ok (next_cfg n ind st c) -> results N (next_cfg n ind st c) g rs -> c_gr c = gr -> ind_ok N g ind -> zlen rows = n -> forall b, n - 1 <= b ->
    (forall x row, znth rows x = Some row -> index_row n x b row /\ by_distance N P x row) ->
    forall x row, znth (new_rows N g (next_cfg n ind st c) (todo ind st) rs rows) x = Some row -> index_row n x b row /\ by_distance N P x row).
  { clear c ind st rows rows' st'. intros c ind st rows rs Hc Rs Eg Hi Lr b Hb H x row Hrow. pose proof (znth_some _ _ _ Hrow) as Hx. rewrite new_rows_len in Hx. rewrite new_rows_at in Hrow by assumption.
    destruct (mem_z (todo ind st) x).
    - injection Hrow as <-. assert (Kn : c_k (next_cfg n ind st c) <= n - 1) by (unfold next_cfg, set_kpt, next_k; simpl; destruct (Z.ltb_spec (n - 1) (c_k c * 2)); lia).
      destruct (slot_row (next_cfg n ind st c) rs x Hc Eg Rs Hx) as (_ & _ & A). destruct (A Kn) as ((A1 & A2 & A3) & A4). split; [split; [assumption|split; [assumption|lia]]|assumption].
    - pose proof (row_at rows x ltac:(simpl in Hx; lia)) as RA. destruct (znth rows x) as [r|] eqn:Er; [|destruct RA]. injection Hrow as <-. eauto. }
  induction 1 as [c ind st rows E|c ind st rows rs c' ind' Ne Hc Fi Rs Hk|c ind st rows rs rows' st' c' ind' Ne Hc Fi Rs Hk RR IH]; intros Eg Hi Lr b Hb H.
  - exact H.
  - eapply Q; eassumption.
  - apply IH; auto; [now apply todo_ok|apply new_rows_len|]. eapply Q; eassumption.
Qed.
End A.

Section Api.
Variable N : Arith.
Variable S : F N -> Prop.

Notation any_ok := (any_ok N S).

Lemma ordered_perm P0 P : Permutation P0 P -> ordered_dists N S P0 -> ordered_dists N S P.
Proof. intros PP (A & B & C & D). split; [assumption|]. split; [assumption|]. split; [assumption|]. intros p q Hp Hq. apply D; eapply Permutation_in; [apply Permutation_sym; eassumption|assumption|apply Permutation_sym; eassumption|assumption]. Qed.

Lemma shows_rows d rows : zlen rows <= int_max -> map visible rows = rows -> total rows <= int_max -> getdnn rows = Ok d -> shows d rows.
Proof.
  intros Ln VR TB G. destruct (dnn_view rows d) as (V0 & V & _); [assumption|rewrite VR; assumption|assumption|]. rewrite VR in V. split; [assumption|]. intros i row Hrow. apply V. exact Hrow.
Qed.

Lemma plain_any w c P0 : any_ok c P0 -> c_recompute c = false -> exists o, tess_core N w c cpu P0 = Ok o /\ Permutation P0 (o_pts N o) /\
  zlen (o_rows N o) = zlen P0 /\ shows (o_dnn N o) (o_rows N o) /\
  forall i row, znth (o_rows N o) i = Some row -> (forall j, In j row -> 0 <= j < zlen P0) /\ zlen row <= c_k c /\
    (c_k c <= zlen P0 - 1 -> index_row (zlen P0) i (c_k c) row /\ by_distance N (o_pts N o) i row).
Proof.
  intros (Hc & Hgr & Hg3 & Hr & OD & Hnt & Fit & HkN) Rc.
  destruct (xyz_sort_total N (c_gr c) P0 ltac:(lia) Hg3 Hr) as (P & ids & offs & HS).
  pose proof (perm_points N _ _ _ _ _ HS) as PP. assert (LP : zlen P = zlen P0) by (unfold zlen; rewrite (Permutation_length PP); reflexivity).
  apply (ordered_perm _ P PP) in OD.
  set (g := mkGrid N P ids offs).
  assert (Hg : sorted_grid N c g) by (split; [assumption|]; exists P0; auto).
  destruct (results_ex N c g Hc Hg) as [rs Rs]. pose proof (zlen_nonneg P) as LP0.
  set (rows := map (out_row N c rs) (zrange 0 (zlen P))). set (states := map (out_byte N rs) (zrange 0 (zlen P))).
  assert (CPU : forall tmpnn, zlen tmpnn = zlen P -> cpu_tesellate N (w_sched N w) c g tmpnn (repeat st_init (List.length P)) = Ok (rows, states)).
  { intros tmpnn Lt. apply (cpu_spec N c g); auto. change (fits c (zlen P)). rewrite LP. assumption. }
  assert (AT : forall i row, znth rows i = Some row -> 0 <= i < zlen P /\ row = out_row N c rs i).
  { intros i row Hrow. pose proof (znth_some _ _ _ Hrow) as Hi. unfold rows in Hi, Hrow. rewrite zlen_map, zlen_zrange in Hi by lia. rewrite znth_map, znth_zrange in Hrow by lia. rewrite Z.add_0_l in Hrow. injection Hrow as <-. split; [lia|reflexivity]. }
  assert (LR : Forall (fun r => zlen r <= c_k c)%Z rows).
  { apply Forall_forall. intros r Hi. apply in_znth in Hi as (i & Hi & Er). destruct (AT i r Er) as [Ri ->]. apply (out_short N g c rs i Hc Rs Ri). }
  assert (VR : map visible rows = rows). { unfold rows. rewrite map_map. apply map_ext. intros x. unfold out_row. apply visible_idem. }
  assert (LRW : zlen rows = zlen P) by (unfold rows; rewrite zlen_map, zlen_zrange; lia).
  destruct Hc as (K1 & K2 & K3).
  assert (TB : (total rows <= int_max)%Z).
  { etransitivity; [apply (total_bound _ (c_k c)); [lia|exact LR]|]. rewrite LRW, LP. assumption. }
  assert (GD : getdnn rows = Ok (mkDnn (List.concat (map visible rows)) (shape (map visible rows)))) by (apply getdnn_ok; rewrite VR; assumption).
  exists (mkOutcome N P (mkDnn (List.concat (map visible rows)) (shape (map visible rows))) rows states (stats_of states) (negb (validate_xyzset N P)) (negb (validate_id ids))).
  split; [|split; [exact PP|split; [simpl; lia|split]]].
  - unfold tess_core. rewrite HS. cbn [rbind run_device]. change (mkGrid N P ids offs) with g.
    rewrite CPU by (unfold zlen; rewrite repeat_length; reflexivity). cbn [rbind]. rewrite Rc. cbn [rbind]. rewrite GD. reflexivity.
  - simpl. apply shows_rows; auto. rewrite LRW, LP. destruct Fit. lia.
  - simpl. intros i row Hrow. destruct (AT i row Hrow) as [Ri ->]. rewrite <- LP. apply (slot_row N S (c_gr c) P0 P ids offs Hgr Hr HS OD); auto. repeat split; lia.
Qed.

Lemma rec_any r w c P0 : any_ok c P0 -> c_recompute c = true -> rec_ok r c (zlen P0) -> exists o, tess_core N w c cpu P0 = Ok o /\ Permutation P0 (o_pts N o) /\
  zlen (o_rows N o) = zlen P0 /\ shows (o_dnn N o) (o_rows N o) /\
  (c_k c <= zlen P0 - 1 -> forall i row, znth (o_rows N o) i = Some row -> index_row (zlen P0) i (zlen P0 - 1) row /\ by_distance N (o_pts N o) i row).
Proof.
  intros (Hc & Hgr & Hg3 & Hr & OD & Hnt & Fit & HkN) Rc HR.
  destruct (xyz_sort_total N (c_gr c) P0 ltac:(lia) Hg3 Hr) as (P & ids & offs & HS).
  pose proof (perm_points N _ _ _ _ _ HS) as PP. assert (LP : zlen P = zlen P0) by (unfold zlen; rewrite (Permutation_length PP); reflexivity).
  apply (ordered_perm _ P PP) in OD. rewrite <- LP in *.
  destruct HR as (R1 & R2 & R3 & R4 & K & P1 & P2 & T1 & T2 & NK & NN & NP & NT).
  set (g := mkGrid N P ids offs).
  assert (W1 : 1 <= 2 ^ r) by (apply (Z.pow_le_mono_r 2 0 r); lia).
  assert (Hg : sorted_grid N c g) by (split; [assumption|]; exists P0; auto).
  destruct (results_ex N c g Hc Hg) as [rs Rs].
  set (st := map (out_byte N rs) (zrange 0 (zlen P))).
  assert (I0 : ind_ok N g (zrange 0 (zlen P))). { split; [apply NoDup_zrange|]. intros x Hx. apply in_zrange in Hx. exact Hx. }
  pose proof (todo_ok N g _ st I0) as Hi.
  destruct (rec_run_ex N g (Z.to_nat r) c (todo (zrange 0 (zlen P)) st) st (map (out_row N c rs) (zrange 0 (zlen P))) Hg) as (rows' & st' & RR); auto; try lia.
  { unfold grow_ok. rewrite Z2Nat.id by lia. simpl g_pts. lia. }
  assert (NP' : zlen P * c_pmax c <= zlen P * c_pmax c * 2 ^ r) by (apply mul_le3; lia).
  assert (NT' : zlen P * c_tmax c <= zlen P * c_tmax c * 2 ^ r) by (apply mul_le3; lia).
  destruct (rec_core_rows N c P0 P ids offs rs rows' st' Hc R2 NK NN ltac:(lia) ltac:(lia) Hgr Hr HS Rs RR) as (o & A1 & A2 & A3 & A4 & A5 & A6 & A7 & A8 & _ & RUN).
  exists o. split; [apply RUN; auto; repeat split|]. rewrite A1. split; [exact PP|]. split; [assumption|]. split.
  - apply shows_rows; auto. rewrite A4. destruct Fit. lia.
  - intros Kn i row Hrow. rewrite A3 in Hrow. revert i row Hrow.
    apply (rec_index N S (c_gr c) P0 P ids offs Hgr Hr HS OD c _ _ _ _ _ RR eq_refl Hi); [rewrite zlen_map, zlen_zrange; lia|lia|].
    intros x row Hrow. pose proof (znth_some _ _ _ Hrow) as Hx. rewrite zlen_map, zlen_zrange in Hx by lia. rewrite znth_map, znth_zrange in Hrow by lia. rewrite Z.add_0_l in Hrow. injection Hrow as <-.
    destruct (slot_row N S (c_gr c) P0 P ids offs Hgr Hr HS OD c rs x Hc eq_refl Rs ltac:(lia)) as (_ & _ & B). destruct (B Kn) as ((B1 & B2 & B3) & B4). split; [split; [assumption|split; [assumption|lia]]|assumption].
Qed.
End Api.
