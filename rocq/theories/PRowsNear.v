(** The candidates behind the rows of a run on the CPU, for any arithmetic whose
    comparison is a weak order on the distances. *)
From Verif Require Import Base Arith PBase Prog PProg MUtils MHeap MXyz MKnn MBoundary MCell MDnn MArgs MTess PFlags SpecDnn PDnn SpecSort SpecHeap SpecBnd SpecAny SpecRows SpecVor
  PXyz PSortFinal PHeap PReloc PHeapFinal PBnd PCellSim PCellRun PCell PCellRow PKnnSafe PSlot PWalk SpecSlot PSlotHost PTess PTessRun PTessFinal
  PGeomFinal PRec PRecFinal PKnnAny PRowsAny.
From Coq Require Import Permutation Sorting.Sorted.
From Verif Require Export SpecParam.
Local Open Scope Z_scope.

(** the candidate list of point x after the search *)
Definition knn_list (N : Arith) (S : F N -> Prop) (gr : Z) (P : list (point N)) (ids : list Z) (x : Z) (near : list Z) : Prop :=
  NoDup near /\ (forall p, In p near -> 0 <= p < zlen P /\ p <> x) /\
  (forall i j p p', 0 <= i <= j -> znth near i = Some p -> znth near j = Some p' -> flt N (fdist N P x p') (fdist N P x p) = false) /\
  (forall p p' q, znth P x = Some q -> In p near -> 0 <= p' < zlen P -> p' <> x -> ~ In p' near -> flt N (fdist N P x p') (fdist N P x p) = false \/
    exists r v, 0 <= r < gr /\ apart gr ids x p' r /\ S v /\ flt N v (fdist N P x p) = false /\ flt N v (shell_bound N gr q r) = true).
(** row is what is left of near *)
Definition taken (near row : list Z) : Prop := incl row near /\ forall R, StronglySorted R near -> StronglySorted R row.

Section A.
Variable N : Arith.
Variable S : F N -> Prop.
Variables (gr : Z) (P0 P : list (point N)) (ids offs : list Z).
Hypothesis Hgr : 0 < gr.
Hypothesis Hr : in_range_ids N gr P0.
Hypothesis HS : xyz_sort N gr P0 = Ok (P, ids, offs).
Hypothesis OD : ordered_dists N S P.
Notation g := (mkGrid N P ids offs).
Notation n := (zlen P).

Lemma slot_near c rs x : cfg_ok c -> c_gr c = gr -> results N c g rs -> 0 <= x < n -> c_k c <= n - 1 ->
  exists near, zlen near = c_k c /\ knn_list N S gr P ids x near /\ taken near (out_row N c rs x) /\ (~ errorless (out_byte N rs x) -> out_row N c rs x = near).
Proof.
  intros Hc Eg Rs Hx Kn. destruct Hc as (K1 & K2 & K3). destruct (Rs x Hx) as [(p & Ep & Hh & KR & W & Gd) _]. simpl in Ep.
  assert (RK : forall q, In q (r_K N (rs x)) -> 0 <= q < n).
  { intros q Hq. unfold r_K in Hq. apply in_map_iff in Hq as ([q' v] & <- & Hq). destruct Hh as [_ Hh]. rewrite Forall_forall in Hh. apply (Hh _ Hq). }
  assert (IN : forall q, In q (row_of N (r_K N (rs x)) (r_s N (rs x))) -> In q (r_K N (rs x))).
  { intros q Hq. unfold row_of in Hq. apply in_map_iff in Hq as ([u v] & <- & Hz). apply filter_In in Hz as [Hz _]. now apply in_combine_l in Hz. }
  assert (OR : out_row N c rs x = if ok_out (r_o N (rs x)) then row_of N (r_K N (rs x)) (r_s N (rs x)) else r_K N (rs x)).
  { unfold out_row, r_row, row_after. destruct (ok_out (r_o N (rs x))).
    - apply visible_padded. intros q Hq. specialize (RK q (IN q Hq)). unfold k_undefined. lia.
    - apply visible_all. intros q Hq. specialize (RK q Hq). unfold k_undefined. lia. }
  destruct (knn_exit N S (emem N) gr P0 P ids offs (c_k c) x Hgr Hr HS OD ltac:(lia) Hx) as (h & row & KR2 & Lh & Lr & Er & Nd & Hrow & As & Ex).
  assert (EH : map fst h = r_K N (rs x)).
  { rewrite <- Eg in KR2. pose proof (eq_trans (eq_sym KR2) KR) as X. injection X as X0 X1. exact X0. }
  assert (ER : r_K N (rs x) = row). { rewrite <- EH, Er, Lr. replace (c_k c - Z.min (c_k c) (n - 1)) with 0 by lia. apply app_nil_r. }
  exists row. split; [lia|]. split; [split; [assumption|]; split; [assumption|]; split; assumption|]. rewrite ER in *. split.
  - rewrite OR. destruct (ok_out (r_o N (rs x))); split; auto using incl_refl. intros R HR. now apply sorted_kept.
  - intros Ne. rewrite OR. destruct (ok_out (r_o N (rs x))) eqn:OK; [|reflexivity]. exfalso. apply Ne. apply byte_ok. exact OK.
Qed.

(** with recompute: every row comes from a round *)
Definition behind (a x : Z) (row : list Z) : Prop := exists near, a <= zlen near <= n - 1 /\ knn_list N S gr P ids x near /\ taken near row.
Lemma rec_near c ind st rows rows' st' : rec_run N g c ind st rows rows' st' -> forall a, 1 <= c_k c -> a <= c_k c -> a <= n - 1 -> c_gr c = gr -> ind_ok N g ind -> zlen rows = n ->
  (forall x row, znth rows x = Some row -> behind a x row) -> forall x row, znth rows' x = Some row -> behind a x row.
Proof.
  assert (NX : forall c ind st a, 1 <= c_k c -> a <= c_k c -> a <= n - 1 -> a <= c_k (next_cfg n ind st c) <= Z.max a (n - 1)).
  { intros c1 ind1 st1 a Q0 Q1 Q2. unfold next_cfg, set_kpt, next_k. simpl. destruct (Z.ltb_spec (n - 1) (c_k c1 * 2)); lia. }
  assert (Q : forall c ind st rows rs, cfg_ok (next_cfg n ind st c) -> results N (next_cfg n ind st c) g rs -> forall a, 1 <= c_k c -> a <= c_k c -> a <= n - 1 -> c_gr c = gr -> ind_ok N g ind -> zlen rows = n ->
    (forall x row, znth rows x = Some row -> behind a x row) ->
    forall x row, znth (new_rows N g (next_cfg n ind st c) (todo ind st) rs rows) x = Some row -> behind a x row).
  { clear c ind st rows rows' st'. intros c ind st rows rs Hc Rs a Hk1 Ha Hn Eg Hi Lr H x row Hrow. pose proof (znth_some _ _ _ Hrow) as Hx. rewrite new_rows_len in Hx. rewrite new_rows_at in Hrow by assumption.
    destruct (mem_z (todo ind st) x).
    - injection Hrow as <-. pose proof (NX c ind st a Hk1 Ha Hn) as Kn.
      destruct (slot_near (next_cfg n ind st c) rs x Hc Eg Rs Hx ltac:(lia)) as (near & L & KL & T & _). exists near. split; [lia|]. split; assumption.
    - pose proof (row_at rows x ltac:(simpl in Hx; lia)) as RA. destruct (znth rows x) as [r|] eqn:Er; [|destruct RA]. injection Hrow as <-. eauto. }
  induction 1 as [c ind st rows E|c ind st rows rs c' ind' Ne Hc Fi Rs Hk|c ind st rows rs rows' st' c' ind' Ne Hc Fi Rs Hk RR IH]; intros a H1 Ha Hn Eg Hi Lr H.
  - exact H.
  - eapply Q; eassumption.
  - pose proof (NX c ind st a H1 Ha Hn) as Kn. apply (IH a); auto; [apply Hc|apply Kn|now apply todo_ok|apply new_rows_len|]. eapply Q; eassumption.
Qed.
End A.

Section Api.
Variable N : Arith.
Variable S : F N -> Prop.
(** what the candidate lists mean for the points *)
Variable T : list (point N) -> Z -> list Z -> Prop.
Variable gr : Z.
Variable P0 : list (point N).
Hypothesis HT : forall P ids offs x near, xyz_sort N gr P0 = Ok (P, ids, offs) -> 0 <= x < zlen P -> knn_list N S gr P ids x near -> T P x near.

Lemma plain_near w c : any_ok N S c P0 -> c_gr c = gr -> c_recompute c = false -> c_k c < zlen P0 -> exists o, tess_core N w c cpu P0 = Ok o /\ Permutation P0 (o_pts N o) /\ zlen (o_rows N o) = zlen P0 /\ zlen (o_states N o) = zlen P0 /\
  forall i row b, znth (o_rows N o) i = Some row -> znth (o_states N o) i = Some b -> exists near, zlen near = c_k c /\ T (o_pts N o) i near /\ taken near row /\ (~ errorless b -> row = near).
Proof.
  intros (Hc & Hgr & Hg3 & Hr & OD & Hnt & Fit & HkN) Eg Rc Kn.
  destruct (xyz_sort_total N (c_gr c) P0 ltac:(lia) Hg3 Hr) as (P & ids & offs & HS).
  pose proof (perm_points N _ _ _ _ _ HS) as PP. assert (LP : zlen P = zlen P0) by (unfold zlen; rewrite (Permutation_length PP); reflexivity).
  apply (ordered_perm N S _ P PP) in OD.
  set (g := mkGrid N P ids offs).
  assert (Hg : sorted_grid N c g) by (split; [assumption|]; exists P0; auto).
  destruct (results_ex N c g Hc Hg) as [rs Rs]. pose proof (zlen_nonneg P) as LP0.
  set (rows := map (out_row N c rs) (zrange 0 (zlen P))). set (states := map (out_byte N rs) (zrange 0 (zlen P))).
  assert (CPU : forall tmpnn, zlen tmpnn = zlen P -> cpu_tesellate N (w_sched N w) c g tmpnn (repeat st_init (List.length P)) = Ok (rows, states)).
  { intros tmpnn Lt. apply (cpu_spec N c g); auto. change (fits c (zlen P)). rewrite LP. assumption. }
  assert (AT : forall i row, znth rows i = Some row -> 0 <= i < zlen P /\ row = out_row N c rs i).
  { intros i row Hrow. pose proof (znth_some _ _ _ Hrow) as Hi. unfold rows in Hi, Hrow. rewrite zlen_map, zlen_zrange in Hi by lia. rewrite znth_map, znth_zrange in Hrow by lia. rewrite Z.add_0_l in Hrow. injection Hrow as <-. split; [lia|reflexivity]. }
  assert (LR : Forall (fun r => zlen r <= c_k c)%Z rows).
  { apply Forall_forall. intros r Hi. apply in_znth in Hi as (i & Hi & Er). destruct (AT i r Er) as [Ri ->]. apply (out_short N g c rs i Hc Rs Ri). }
  assert (VR : map visible rows = rows). { unfold rows. rewrite map_map. apply map_ext. intros x. unfold out_row. apply visible_idem. }
  assert (LRW : zlen rows = zlen P) by (unfold rows; rewrite zlen_map, zlen_zrange; lia).
  assert (LSW : zlen states = zlen P) by (unfold states; rewrite zlen_map, zlen_zrange; lia).
  assert (K1 : 1 <= c_k c) by apply Hc.
  assert (TB : (total rows <= int_max)%Z).
  { etransitivity; [apply (total_bound _ (c_k c)); [lia|exact LR]|]. rewrite LRW, LP. assumption. }
  assert (GD : getdnn rows = Ok (mkDnn (List.concat (map visible rows)) (shape (map visible rows)))) by (apply getdnn_ok; rewrite VR; assumption).
  exists (mkOutcome N P (mkDnn (List.concat (map visible rows)) (shape (map visible rows))) rows states (stats_of states) (negb (validate_xyzset N P)) (negb (validate_id ids))).
  split; [|split; [exact PP|split; [simpl; lia|split; [simpl; lia|]]]].
  - unfold tess_core. rewrite HS. cbn [rbind run_device]. change (mkGrid N P ids offs) with g.
    rewrite CPU by (unfold zlen; rewrite repeat_length; reflexivity). cbn [rbind]. rewrite Rc. cbn [rbind]. rewrite GD. reflexivity.
  - simpl. intros i row b Hrow Hb. destruct (AT i row Hrow) as [Ri ->].
    unfold states in Hb. rewrite znth_map, znth_zrange in Hb by lia. rewrite Z.add_0_l in Hb. injection Hb as <-.
    destruct (slot_near N S (c_gr c) P0 P ids offs Hgr Hr HS OD c rs i Hc eq_refl Rs Ri ltac:(lia)) as (near & L & KL & Tk & Er). exists near. split; [assumption|]. split; [|split; assumption].
    rewrite Eg in HS, KL. apply (HT P ids offs); assumption.
Qed.

Lemma rec_near_run r w c : any_ok N S c P0 -> c_gr c = gr -> c_recompute c = true -> rec_ok r c (zlen P0) -> c_k c < zlen P0 -> exists o, tess_core N w c cpu P0 = Ok o /\ Permutation P0 (o_pts N o) /\ zlen (o_rows N o) = zlen P0 /\
  forall i row, znth (o_rows N o) i = Some row -> exists near, c_k c <= zlen near < zlen P0 /\ T (o_pts N o) i near /\ taken near row.
Proof.
  intros (Hc & Hgr & Hg3 & Hr & OD & Hnt & Fit & HkN) Eg Rc HR Kn.
  destruct (xyz_sort_total N (c_gr c) P0 ltac:(lia) Hg3 Hr) as (P & ids & offs & HS).
  pose proof (perm_points N _ _ _ _ _ HS) as PP. assert (LP : zlen P = zlen P0) by (unfold zlen; rewrite (Permutation_length PP); reflexivity).
  apply (ordered_perm N S _ P PP) in OD. rewrite <- LP in *.
  destruct HR as (R1 & R2 & R3 & R4 & K & P1 & P2 & T1 & T2 & NK & NN & NP & NT).
  set (g := mkGrid N P ids offs).
  assert (W1 : 1 <= 2 ^ r) by (apply (Z.pow_le_mono_r 2 0 r); lia).
  assert (Hg : sorted_grid N c g) by (split; [assumption|]; exists P0; auto).
  destruct (results_ex N c g Hc Hg) as [rs Rs].
  set (st := map (out_byte N rs) (zrange 0 (zlen P))).
  assert (I0 : ind_ok N g (zrange 0 (zlen P))). { split; [apply NoDup_zrange|]. intros x Hx. apply in_zrange in Hx. exact Hx. }
  pose proof (todo_ok N g _ st I0) as Hi.
  destruct (rec_run_ex N g (Z.to_nat r) c (todo (zrange 0 (zlen P)) st) st (map (out_row N c rs) (zrange 0 (zlen P))) Hg) as (rows' & st' & RR); auto; try lia.
  { unfold grow_ok. rewrite Z2Nat.id by lia. simpl g_pts. lia. }
  assert (NP' : zlen P * c_pmax c <= zlen P * c_pmax c * 2 ^ r) by (apply mul_le3; lia).
  assert (NT' : zlen P * c_tmax c <= zlen P * c_tmax c * 2 ^ r) by (apply mul_le3; lia).
  destruct (rec_core_rows N c P0 P ids offs rs rows' st' Hc R2 NK NN ltac:(lia) ltac:(lia) Hgr Hr HS Rs RR) as (o & A1 & A2 & A3 & A4 & A5 & A6 & A7 & A8 & _ & RUN).
  exists o. split; [apply RUN; auto; repeat split|]. rewrite A1. split; [exact PP|]. split; [assumption|].
  intros i row Hrow. pose proof (znth_some _ _ _ Hrow) as Hi0. rewrite A3 in Hrow.
  destruct (rec_near N S (c_gr c) P0 P ids offs Hgr Hr HS OD c _ _ _ _ _ RR (c_k c) ltac:(apply Hc) ltac:(lia) ltac:(lia) eq_refl Hi) with (x := i) (row := row) as (near & L & KL & Tk); [rewrite zlen_map, zlen_zrange; lia| |exact Hrow|].
  - intros x rw Hrw. pose proof (znth_some _ _ _ Hrw) as Hx. rewrite zlen_map, zlen_zrange in Hx by lia. rewrite znth_map, znth_zrange in Hrw by lia. rewrite Z.add_0_l in Hrw. injection Hrw as <-.
    destruct (slot_near N S (c_gr c) P0 P ids offs Hgr Hr HS OD c rs x Hc eq_refl Rs ltac:(lia) ltac:(lia)) as (near & L & KL & Tk & _). exists near. split; [lia|]. split; assumption.
  - exists near. split; [lia|]. split; [|assumption]. rewrite Eg in HS, KL. apply (HT P ids offs); auto. lia.
Qed.
End Api.
