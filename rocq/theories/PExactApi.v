(** The rows of complete results, exact arithmetic. *)
From Verif Require Import Base Arith PBase Prog PProg MUtils MHeap MXyz MKnn MBoundary MCell MDnn MArgs MTess Exact PExact PFlags SpecDnn PDnn SpecGeom SpecSort SpecBnd SpecKnn SpecVor SpecRows
  PXyz PGrid PSortFinal PHeap PReloc PHeapFinal PKnnFinal PBnd PBndLoop PCellSim PCellRun PCell PCellRow PKnnSafe PSlot PWalk SpecSlot PSlotHost PTess PTessRun PTessFinal
  PGeomCone PGeomPoly PGeomWalk PGeomFinal PRec PRecFinal PRecGeom PNoFailApi PDistinct.
From Coq Require Import Permutation.
From Verif Require Export SpecResult.
Local Open Scope Z_scope.

Lemma shows_rows rows d : zlen rows <= int_max -> map visible rows = rows -> total rows <= int_max -> getdnn rows = Ok d -> shows d rows.
Proof.
  intros L VR TB G. destruct (dnn_view rows d) as (A & V & _); [assumption|rewrite VR; assumption|assumption|]. rewrite VR in V. exact (conj A V).
Qed.
Lemma shows_lists d rows i row j : shows d rows -> znth rows i = Some row -> lists d i j <-> In j row.
Proof.
  intros [_ V] Hx. destruct (V i row Hx) as [V1 V2]. split.
  - intros (sz & m & Es & Hm & Eg). rewrite V1 in Es. injection Es as <-. destruct (znth_in_range row m Hm) as [z Ez]. rewrite (V2 m z Ez) in Eg. injection Eg as <-. eapply znth_in; eauto.
  - intros I. apply in_znth in I as (m & Hm & Em). exists (zlen row), m. auto.
Qed.

Section G.
Variable N : Arith.
Variable E : Exact N.
Notation valp := (valp N E).

Lemma facts_distinct c pts i b p K row o s : cfg_ok c -> (forall q, In q pts -> inside N E q) -> slot_facts N E c pts i b p K row o s -> ok_out o = true ->
  distinct_row (map valp pts) i (row_of N K s).
Proof.
  intros (K1 & K2 & K3) Hin (Ri & Ep & LK & W & Nr & Lr & HKr & HKb & _) OK.
  destruct (slot_distinct N E (c_pmax c) (c_tmax c) pts (c_k c) i K p o s ltac:(lia) Hin Ep ltac:(lia) HKb W OK) as (D1 & D2 & D3 & D4).
  assert (IK : forall j, In j (row_of N K s) -> exists q, znth pts j = Some q).
  { intros j Hj. unfold row_of in Hj. apply in_map_iff in Hj as ([u v] & <- & Hz). apply filter_In in Hz as [Hz _]. apply in_combine_l in Hz. apply znth_in_range. now apply HKb. }
  split; [assumption|]. split; [|split].
  - intros j Hj. destruct (IK j Hj) as [q Eq]. exists (valp p), (valp q). rewrite !znth_map, Ep, Eq. split; [reflexivity|]. split; [reflexivity|]. intros X. apply (D2 j q Hj Eq). congruence.
  - intros j j' q Hj Hj' Ej Ej'. rewrite znth_map in Ej, Ej'. destruct (znth pts j) as [a|] eqn:Ea; [|discriminate]. destruct (znth pts j') as [a'|] eqn:Ea'; [|discriminate].
    apply (D3 j j' a a' Hj Hj' Ea Ea'). simpl in Ej, Ej'. congruence.
  - intros a b' j j' pp q q' Hab Ha Hb Ei Ej Ej'. rewrite znth_map in Ei, Ej, Ej'. rewrite Ep in Ei. injection Ei as <-.
    destruct (znth pts j) as [qj|] eqn:Eqj; [|discriminate]. destruct (znth pts j') as [qj'|] eqn:Eqj'; [|discriminate]. injection Ej as <-. injection Ej' as <-.
    destruct (D4 a b' j j' Hab Ha Hb) as (d & d' & Hdd & (X1 & X2) & (Y1 & Y2)).
    (* positions beyond the candidates repeat earlier ones *)
    assert (RW : forall e u, znth K e = Some u -> In u (row_of N K s) -> (forall e', (0 <= e' < e)%Z -> znth K e' <> Some u) -> znth row e = Some u).
    { intros e u He Iu Fst. pose proof (znth_some _ _ _ He) as Re. destruct (Z_lt_dec e (zlen row)) as [L|L].
      - destruct (znth_in_range row e ltac:(lia)) as [v Ev]. pose proof (HKr e v Ev). congruence.
      - exfalso. rewrite LK in Re. assert (Hn : zlen pts - 1 <= c_k c) by lia. destruct (IK u Iu) as [q Eq].
        assert (Nu : u <> i) by (intros ->; apply (D2 i q Iu Eq); congruence).
        pose proof (row_all N E pts (c_k c) i row p Ep Nr Lr u Hn ltac:(apply (znth_some _ _ _ Eq)) Nu) as I. apply in_znth in I as (e' & He' & Ee').
        apply (Fst e' ltac:(lia)). now apply HKr. }
    pose proof (RW d j X1 (znth_in _ _ _ Ha) X2) as Rd. pose proof (RW d' j' Y1 (znth_in _ _ _ Hb) Y2) as Rd'.
    destruct Nr as (_ & _ & So & _). specialize (So d d' j j' Hdd Rd Rd'). unfold sqdist in So. rewrite Eqj, Eqj', Ep in So. rewrite !(d2_sym (valp p)). exact So.
Qed.

(** ** without recompute *)
Lemma api_rows w c P0 o : api_ok N E c P0 -> tess_core N w c cpu P0 = Ok o ->
  shows (o_dnn N o) (o_rows N o) /\ zlen (o_rows N o) = zlen P0 /\ zlen (o_states N o) = zlen P0 /\ Permutation P0 (o_pts N o) /\
  forall i row b, znth (o_rows N o) i = Some row -> znth (o_states N o) i = Some b ->
    (errorless b -> distinct_row (map valp (o_pts N o)) i row) /\
    (validated (c_k c) (zlen P0) b -> exact_row (map valp (o_pts N o)) i row).
Proof.
  intros Ha Hrun. destruct (core_final N E w c P0 Ha) as (o' & R & PP & LS & (LR & Gd & VR & TB) & F). rewrite Hrun in R. injection R as <-.
  assert (LP : zlen (o_pts N o) = zlen P0) by (unfold zlen; now rewrite (Permutation_length PP)).
  assert (SH : shows (o_dnn N o) (o_rows N o)).
  { apply shows_rows; auto. rewrite LR. destruct Ha as (_ & _ & _ & _ & _ & _ & (Q & _) & _). lia. }
  split; [exact SH|]. split; [assumption|]. split; [assumption|]. split; [assumption|]. intros i row b Hrow Hb.
  assert (Hin : forall q, In q (o_pts N o) -> inside N E q) by (intros q Hq; apply Ha; eapply Permutation_in; [apply Permutation_sym; exact PP|assumption]).
  assert (D : errorless b -> distinct_row (map valp (o_pts N o)) i row).
  { intros EB. destruct (F i b Hb) as (p & K & kr & oo & s & SF & L). destruct (L EB) as [_ Er]. assert (row = row_of N K s) by congruence. subst row.
    apply (facts_distinct c (o_pts N o) i b p K kr oo s); auto; [apply Ha|]. destruct SF as (_ & _ & _ & _ & _ & _ & _ & _ & cl & ->). now apply (byte_ok cl). }
  split; [exact D|]. intros V. rewrite <- LP in V. split; [apply D, V|]. split; [|split].
  - intros j Hj. apply (api_touches N E w c P0 o Ha Hrun i b j Hb V). now apply (shows_lists _ _ _ _ _ SH Hrow).
  - intros j p q Ei Ej Ne Fa. apply (shows_lists _ _ _ _ _ SH Hrow). exact (api_face N E w c P0 o Ha Hrun i b j p q Hb V Ei Ej Ne Fa).
  - intros p x Ei Cx Hx. apply (api_bounded N E w c P0 o Ha Hrun i b x p Hb V Ei Cx). intros j q Hj Ej. apply (Hx j); [|assumption]. now apply (shows_lists _ _ _ _ _ SH Hrow).
Qed.

Notation complete := (complete N E).

Lemma api_complete w c P0 : api_ok N E c P0 -> roomy c (zlen P0 - 1) -> zlen P0 - 1 <= c_k c -> exists o, tess_core N w c cpu P0 = Ok o /\ complete P0 o.
Proof.
  intros Ha Ro Hk. destruct (core_returns N E w c P0 Ha) as (o & R & PP & LS). exists o. split; [assumption|].
  destruct (api_rows w c P0 o Ha R) as (SH & LR & _ & _ & RW).
  assert (EL : forall i b, znth (o_states N o) i = Some b -> errorless b).
  { intros i b Hb. apply (api_errorless N E w c P0 o Ha R i b); auto. rewrite Z.min_r by lia. assumption. }
  split; [assumption|]. split; [assumption|]. split; [assumption|]. split; [assumption|]. split; [assumption|].
  intros i row Hrow. assert (Hi : 0 <= i < zlen (o_states N o)) by (pose proof (znth_some _ _ _ Hrow); lia).
  destruct (znth_in_range (o_states N o) i Hi) as [b Hb]. apply (RW i row b Hrow Hb). split; [eauto|right; lia].
Qed.

(** ** with recompute *)
Section Sorted.
Variables (gr : Z) (P0 P : list (point N)) (ids offs : list Z).
Hypothesis Hgr : 0 < gr.
Hypothesis Hg3 : gr * gr * gr <= int_max.
Hypothesis Hin : forall q, In q P0 -> inside N E q.
Hypothesis HS : xyz_sort N gr P0 = Ok (P, ids, offs).

Lemma from_distinct x row b c rs : 0 <= x < zlen P -> from_slot N (mkGrid N P ids offs) gr x row b c rs -> errorless b -> distinct_row (map valp P) x row.
Proof.
  intros Hx (Hc & Eg & Rs & -> & ->) EB.
  destruct (fact_of N E gr P0 P ids offs Hgr Hg3 Hin HS c rs x Hc Eg Rs Hx) as (p & kr & SF). assert (SF' := SF). destruct SF' as (_ & Ep & LK & W & Nr & Lr & HKr & HKb & _).
  assert (OK : ok_out (r_o N (rs x)) = true) by (apply (byte_ok (r_cl N (rs x))); exact EB).
  assert (OR : out_row N c rs x = row_of N (r_K N (rs x)) (r_s N (rs x))).
  { unfold out_row, r_row, row_after. rewrite OK. apply visible_padded.
    intros z Hz. unfold row_of in Hz. apply in_map_iff in Hz as ([u v] & <- & Hz). apply filter_In in Hz as [Hz _]. apply in_combine_l in Hz. specialize (HKb u Hz). simpl. unfold k_undefined. lia. }
  rewrite OR. eapply facts_distinct; eauto. intros q Hq. apply (perm_in N E gr P0 P ids offs Hin HS q Hq).
Qed.
Lemma done_exact x row : 0 <= x < zlen P -> row_done N (mkGrid N P ids offs) gr x row -> exact_row (map valp P) x row.
Proof.
  intros Hx D. destruct (done_geom N E gr P0 P ids offs Hgr Hg3 Hin HS x row Hx D) as (D1 & D2 & D3).
  destruct D as (c & rs & b & FS & (EB & _)). split; [eapply from_distinct; eauto|]. auto.
Qed.
End Sorted.

Lemma rec_rows r w c P0 : api_rec N E r c P0 ->
  exists o, tess_core N w c cpu P0 = Ok o /\ Permutation P0 (o_pts N o) /\ zlen (o_rows N o) = zlen P0 /\ zlen (o_states N o) = zlen P0 /\ shows (o_dnn N o) (o_rows N o) /\
  forall i row b, znth (o_rows N o) i = Some row -> znth (o_states N o) i = Some b -> errorless b -> exact_row (map valp (o_pts N o)) i row.
Proof.
  intros (HR & Hgr & Hg3 & Hin & Rc & Hnt & Fit). pose proof (in_range_exact N E (c_gr c) P0 Hgr Hg3 Hin) as Hr.
  destruct (xyz_sort_total N (c_gr c) P0 ltac:(lia) Hg3 Hr) as (P & ids & offs & HS).
  pose proof (perm_points N _ _ _ _ _ HS) as PP. assert (LP : zlen P = zlen P0) by (unfold zlen; rewrite (Permutation_length PP); reflexivity).
  rewrite <- LP in HR, Fit. destruct (rec_core N r c P0 P ids offs HR Hgr Hr HS) as (o & Eo & Lr & Ls & Gd & VR & TB & FR & RUN).
  exists o. split; [apply RUN; auto; repeat split|]. rewrite Eo. split; [assumption|]. split; [lia|]. split; [lia|].
  split; [apply shows_rows; auto; rewrite Lr; destruct HR as (_ & _ & ? & _); unfold int_max; lia|].
  intros i row b Hrow Hb EB. pose proof (znth_some _ _ _ Hb) as Hi. rewrite Ls in Hi.
  apply (done_exact (c_gr c) P0 P ids offs Hgr Hg3 Hin HS i row Hi).
  destruct (FR i row b Hrow Hb) as [D|[D _]]; [exact D|contradiction].
Qed.

Lemma full_complete w c P0 : api_full N E c P0 -> exists o, tess_core N w c cpu P0 = Ok o /\ complete P0 o.
Proof.
  intros A. assert (A' := A). destruct A' as (Hn & HK & Ro & HP & HT & Hgr & Hg3 & Hin & Rc & Hnt & Fit).
  pose proof (in_range_exact N E (c_gr c) P0 Hgr Hg3 Hin) as Hr.
  destruct (xyz_sort_total N (c_gr c) P0 ltac:(lia) Hg3 Hr) as (P & ids & offs & HS).
  pose proof (perm_points N _ _ _ _ _ HS) as PP. assert (LP : zlen P = zlen P0) by (unfold zlen; rewrite (Permutation_length PP); reflexivity).
  rewrite <- LP in Fit. assert (N250 : zlen P <= 250) by (destruct Ro; lia).
  destruct (full_rows N E c P0 P ids offs HS A) as (o & Eo & ES & Lr & Ls & Gd & VR & TB & FR & RUN).
  exists o. split; [apply RUN; auto; repeat split|]. unfold complete. rewrite Eo. split; [assumption|]. split; [lia|]. split; [lia|].
  split; [apply shows_rows; auto; rewrite Lr; unfold int_max; lia|]. split; [exact ES|].
  intros i row Hrow. assert (Hi : 0 <= i < zlen P) by (pose proof (znth_some _ _ _ Hrow); lia). destruct (znth_in_range (o_states N o) i ltac:(lia)) as [b Hb].
  apply (done_exact (c_gr c) P0 P ids offs Hgr Hg3 Hin HS i row Hi).
  destruct (FR i row b Hrow Hb) as [X|[X _]]; [exact X|]. destruct (X (ES i b Hb)).
Qed.
End G.
