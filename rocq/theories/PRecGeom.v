(** C22, C23, C29 with recompute, exact arithmetic. *)
From Verif Require Import Base Arith PBase Prog PProg MUtils MHeap MXyz MKnn MBoundary MCell MDnn MArgs MTess Exact PExact PFlags SpecDnn PDnn SpecGeom SpecSort SpecBnd SpecKnn SpecVor SpecRows
  PXyz PGrid PSortFinal PHeap PReloc PHeapFinal PKnnFinal PBnd PBndLoop PCellSim PCellRun PCell PCellRow PKnnSafe PSlot PWalk SpecSlot PSlotHost PTess PTessRun PTessFinal
  PGeomCone PGeomPoly PGeomWalk PGeomFinal PRec PRecFinal.
From Coq Require Import Permutation.
From Verif Require Export SpecParam.
Local Open Scope Z_scope.

Section G.
Variable N : Arith.
Variable E : Exact N.
Notation valp := (valp N E).

Section Sorted.
Variables (gr : Z) (P0 P : list (point N)) (ids offs : list Z).
Hypothesis Hgr : 0 < gr.
Hypothesis Hg3 : gr * gr * gr <= int_max.
Hypothesis Hin : forall q, In q P0 -> inside N E q.
Hypothesis HS : xyz_sort N gr P0 = Ok (P, ids, offs).
Notation g := (mkGrid N P ids offs).
Notation S := (map valp P).

Lemma fact_of c rs x : cfg_ok c -> c_gr c = gr -> results N c g rs -> 0 <= x < zlen P ->
  exists p row, slot_facts N E c P x (out_byte N rs x) p (r_K N (rs x)) row (r_o N (rs x)) (r_s N (rs x)).
Proof.
  intros (K1 & K2 & K3) Eg Rs Hx. destruct (Rs x Hx) as [(p & Ep & Hh & KR & W & Gd) _]. simpl in Ep. rewrite Eg in KR.
  destruct (knn_local N E (emem N) false (fun x => x) (znth P) gr P0 P ids offs (c_k c) x p (finf N) Hgr Hg3 Hin HS ltac:(lia) Ep Ep ltac:(auto) eq_refl)
    as (h & row & KR2 & Lh & Nr & Lr & Hrow & Hpad).
  assert (EH : h = r_h N (rs x)).
  { pose proof (eq_trans (eq_sym KR2) KR) as X. injection X as X0 X1. clear - X0 X1.
    revert X0 X1. generalize (r_h N (rs x)). induction h as [|[a u] h IH]; intros [|[b v] l] A B; simpl in *; try discriminate; [reflexivity|].
    injection A as -> A. injection B as -> B. f_equal. now apply IH. }
  subst h. exists p, row.
  split; [assumption|]. split; [assumption|]. split; [unfold r_K; rewrite zlen_map; assumption|]. split; [exact W|].
  split; [exact Nr|]. split; [exact Lr|]. split.
  - intros j q Hj. destruct (Hrow j q Hj) as (v & Ev & _). unfold r_K. rewrite znth_map, Ev. reflexivity.
  - split; [|exists (r_cl N (rs x)); reflexivity]. intros q Hq. unfold r_K in Hq. apply in_map_iff in Hq as ([q' v] & <- & Hq).
    destruct Hh as [_ Hh]. rewrite Forall_forall in Hh. apply (Hh _ Hq).
Qed.

Lemma perm_in q : In q P -> inside N E q.
Proof. intros Hq. apply Hin. eapply Permutation_in; [apply Permutation_sym; eapply perm_points; eauto|assumption]. Qed.

Lemma done_geom x row : 0 <= x < zlen P -> row_done N g gr x row ->
  (forall j, In j row -> exists p q y, znth S x = Some p /\ znth S j = Some q /\ touches S p q y) /\
  (forall j p q, znth S x = Some p -> znth S j = Some q -> p <> q -> face S x j -> In j row) /\
  bounded_by S x row.
Proof.
  intros Hx (c & rs & b & (Hc & Eg & Rs & -> & ->) & (EB & V)).
  destruct (fact_of c rs x Hc Eg Rs Hx) as (p & kr & (_ & Ep & LK & W & Nr & Lr & HKr & HKb & _)).
  assert (OK : ok_out (r_o N (rs x)) = true) by (apply (byte_ok (r_cl N (rs x))); exact EB).
  assert (VV : r_o N (rs x) = Reach \/ zlen P - 1 <= c_k c).
  { destruct V as [V|V]; [left|right; exact V]. apply (byte_reach (r_cl N (rs x))). exact V. }
  assert (OR : out_row N c rs x = row_of N (r_K N (rs x)) (r_s N (rs x))).
  { unfold out_row, r_row, row_after. rewrite OK. apply visible_padded.
    intros z Hz. unfold row_of in Hz. apply in_map_iff in Hz as ([u v] & <- & Hz). apply filter_In in Hz as [Hz _]. apply in_combine_l in Hz. specialize (HKb u Hz). simpl. unfold k_undefined. lia. }
  rewrite OR. destruct Hc as (K1 & K2 & K3). split; [|split].
  - intros j Hj. destruct (slot_touches N E (c_pmax c) (c_tmax c) P (c_k c) x _ kr p _ _ ltac:(lia) perm_in Ep ltac:(lia) W OK Nr Lr HKr VV j Hj) as (q & y & Eq & T).
    exists (valp p), (valp q), y. rewrite !znth_map, Ep, Eq. auto.
  - intros j p' q' E1 E2 Ne Fa. rewrite znth_map in E1, E2. rewrite Ep in E1. injection E1 as <-. destruct (znth P j) as [q|] eqn:Eq; [|discriminate]. injection E2 as <-.
    apply (slot_face N E (c_pmax c) (c_tmax c) P (c_k c) x _ kr p _ _ ltac:(lia) perm_in Ep ltac:(lia) W OK Nr Lr HKr VV j q Eq); auto.
  - intros p' y E1 Cy Hy. rewrite znth_map, Ep in E1. injection E1 as <-.
    apply (slot_bounded N E (c_pmax c) (c_tmax c) P (c_k c) x _ kr p _ _ ltac:(lia) perm_in Ep ltac:(lia) W OK Nr Lr HKr VV y Cy).
    intros j q Hj Ej. apply (Hy j); [assumption|]. rewrite znth_map, Ej. reflexivity.
Qed.
End Sorted.

Notation api_rec := (api_rec N E).

Lemma rows_view rows d : zlen rows <= int_max -> map visible rows = rows -> total rows <= int_max -> getdnn rows = Ok d ->
  forall x row, znth rows x = Some row -> forall j, lists d x j <-> In j row.
Proof.
  intros L VR TB G x row Hx j. destruct (dnn_view rows d) as (_ & V & _); [assumption|rewrite VR; assumption|assumption|]. rewrite VR in V. destruct (V x row Hx) as [V1 V2]. split.
  - intros (sz & m & Es & Hm & Eg). rewrite V1 in Es. injection Es as <-. destruct (znth_in_range row m Hm) as [z Ez]. rewrite (V2 m z Ez) in Eg. injection Eg as <-. eapply znth_in; eauto.
  - intros I. apply in_znth in I as (m & Hm & Em). exists (zlen row), m. auto.
Qed.

Lemma rec_final r w c P0 : api_rec r c P0 ->
  exists o, tess_core N w c cpu P0 = Ok o /\ Permutation P0 (o_pts N o) /\ zlen (o_states N o) = zlen P0 /\
  let S := map valp (o_pts N o) in
  forall i b, znth (o_states N o) i = Some b -> errorless b ->
    (forall j, lists (o_dnn N o) i j -> exists p q x, znth S i = Some p /\ znth S j = Some q /\ touches S p q x) /\
    (forall j p q, znth S i = Some p -> znth S j = Some q -> p <> q -> face S i j -> lists (o_dnn N o) i j).
Proof.
  intros (HR & Hgr & Hg3 & Hin & Rc & Hnt & Fit). pose proof (in_range_exact N E (c_gr c) P0 Hgr Hg3 Hin) as Hr.
  destruct (xyz_sort_total N (c_gr c) P0 ltac:(lia) Hg3 Hr) as (P & ids & offs & HS).
  pose proof (perm_points N _ _ _ _ _ HS) as PP. assert (LP : zlen P = zlen P0) by (unfold zlen; rewrite (Permutation_length PP); reflexivity).
  rewrite <- LP in HR, Fit. destruct (rec_core N r c P0 P ids offs HR Hgr Hr HS) as (o & Eo & Lr & Ls & Gd & VR & TB & FR & RUN).
  exists o. split; [apply RUN; auto; repeat split|]. rewrite Eo. split; [assumption|]. split; [lia|]. cbv zeta. intros i b Hb EB.
  pose proof (znth_some _ _ _ Hb) as Hi. rewrite Ls in Hi. destruct (znth_in_range (o_rows N o) i ltac:(lia)) as [row Hrow].
  assert (Q : row_done N (mkGrid N P ids offs) (c_gr c) i row) by (destruct (FR i row b Hrow Hb) as [D|[D _]]; [exact D|contradiction]).
  destruct (done_geom (c_gr c) P0 P ids offs Hgr Hg3 Hin HS i row Hi Q) as (D1 & D2 & _).
  assert (LV := rows_view (o_rows N o) (o_dnn N o) ltac:(rewrite Lr; destruct HR as (_ & _ & ? & _); unfold int_max; lia) VR TB Gd i row Hrow).
  split; [intros j Hj; apply D1, LV, Hj|]. intros j p q E1 E2 Ne Fa. apply LV. eapply D2; eauto.
Qed.

Lemma rec_settings r c P0 P ids offs : rec_ok r c (zlen P) -> 0 < c_gr c -> in_range_ids N (c_gr c) P0 -> xyz_sort N (c_gr c) P0 = Ok (P, ids, offs) ->
  exists o, o_pts N o = P /\ zlen (o_rows N o) = zlen P /\ zlen (o_states N o) = zlen P /\
  forall w c', same_kernel c c' -> c_recompute c' = true -> 1 <= c_nthreads c' -> fits c' (zlen P) -> tess_core N w c' cpu P0 = Ok o.
Proof.
  intros H1 H2 H3 H4. destruct (rec_core N r c P0 P ids offs H1 H2 H3 H4) as (o & A & B & C & _ & _ & _ & _ & R). eauto 8.
Qed.
End G.
