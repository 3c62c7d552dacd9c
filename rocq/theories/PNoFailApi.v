(** Exact arithmetic: no error flags in the result of a call. *)
From Verif Require Import Base Arith PBase Prog PProg MUtils MHeap MXyz MKnn MBoundary MCell MDnn MArgs MTess Exact PExact PFlags SpecDnn PDnn SpecGeom SpecSort SpecBnd SpecKnn SpecVor
  PXyz PGrid PSortFinal PHeap PReloc PHeapFinal PKnnFinal PBnd PBndLoop PCellSim PCellRun PCell PCellRow PKnnSafe PSlot PWalk SpecSlot PSlotHost PTess PTessRun PTessFinal
  PGeomCone PGeomPoly PGeomWalk PGeomFinal PRec PRecFinal PRecGeom PNoFail.
From Coq Require Import Permutation.
From Verif Require Export SpecParam.
Local Open Scope Z_scope.

(** the byte of a cell whose walk ended with o *)
Lemma byte_b (cl : bool) o : o <> FailB -> Z.testbit (loop_byte cl o st_init) 1 = false /\ Z.testbit (loop_byte cl o st_init) 6 = false.
Proof. destruct cl, o; try congruence; vm_compute; auto. Qed.
Lemma byte_p (cl : bool) o : Z.testbit (loop_byte cl o st_init) 4 = true -> o = FailP.
Proof. destruct cl, o; vm_compute; congruence. Qed.
Lemma byte_t (cl : bool) o : Z.testbit (loop_byte cl o st_init) 5 = true -> o = FailT.
Proof. destruct cl, o; vm_compute; congruence. Qed.

Section G.
Variable N : Arith.
Variable E : Exact N.
Notation valp := (valp N E).

Lemma facts_nofail c pts i b p K row o s : cfg_ok c -> (forall q, In q pts -> inside N E q) -> slot_facts N E c pts i b p K row o s ->
  Z.testbit b 1 = false /\ Z.testbit b 6 = false /\
  (Z.testbit b 4 = true -> c_pmax c < 6 + Z.min (c_k c) (zlen pts - 1)) /\
  (Z.testbit b 5 = true -> c_tmax c < 8 + 2 * Z.min (c_k c) (zlen pts - 1) /\ c_tmax c < 2 * c_pmax c - 4).
Proof.
  intros (K1 & K2 & K3) Hin (Ri & Ep & LK & W & Nr & Lr & HKr & HKb & cl & ->).
  destruct (slot_nofail N E (c_pmax c) (c_tmax c) pts (c_k c) i K row p o s) as (A1 & A2 & A3 & A4); auto; try lia.
  destruct (byte_b cl o A1) as [B1 B2]. split; [assumption|]. split; [assumption|]. split.
  - intros X. apply A2. now apply (byte_p cl).
  - intros X. apply byte_t in X. auto.
Qed.
Lemma roomy_errorless c pts i b p K row o s : cfg_ok c -> (forall q, In q pts -> inside N E q) -> slot_facts N E c pts i b p K row o s ->
  roomy c (Z.min (c_k c) (zlen pts - 1)) -> errorless b.
Proof.
  intros Hc Hin SF [R1 R2]. destruct (facts_nofail c pts i b p K row o s Hc Hin SF) as (A1 & A2 & A3 & A4).
  split; [assumption|]. split; [destruct (Z.testbit b 4); [specialize (A3 eq_refl); lia|reflexivity]|].
  split; [destruct (Z.testbit b 5); [specialize (A4 eq_refl); lia|reflexivity]|assumption].
Qed.

(** ** without recompute *)
Section Api.
Variables (w : world N) (c : cfg) (P0 : list (point N)) (ob : outcome N).
Hypothesis Hapi : api_ok N E c P0.
Hypothesis Hrun : tess_core N w c cpu P0 = Ok ob.
Notation S := (map valp (o_pts N ob)).

Lemma api_facts i b : znth (o_states N ob) i = Some b -> zlen (o_pts N ob) = zlen P0 /\ (forall q, In q (o_pts N ob) -> inside N E q) /\
  exists p K row o s, slot_facts N E c (o_pts N ob) i b p K row o s.
Proof.
  destruct (core_final N E w c P0 Hapi) as (ob' & R & PP & _ & _ & F). rewrite Hrun in R. injection R as <-.
  intros Hb. split; [unfold zlen; now rewrite (Permutation_length PP)|].
  split; [intros q Hq; apply Hapi; eapply Permutation_in; [apply Permutation_sym; exact PP|assumption]|].
  destruct (F i b Hb) as (p & K & row & o & s & SFc & _). eauto 6.
Qed.

Lemma api_flags i b : znth (o_states N ob) i = Some b ->
  Z.testbit b 1 = false /\ Z.testbit b 6 = false /\
  (Z.testbit b 4 = true -> c_pmax c < 6 + Z.min (c_k c) (zlen P0 - 1)) /\
  (Z.testbit b 5 = true -> c_tmax c < 8 + 2 * Z.min (c_k c) (zlen P0 - 1) /\ c_tmax c < 2 * c_pmax c - 4).
Proof.
  intros Hb. destruct (api_facts i b Hb) as (L & Hin & p & K & row & o & s & SF). rewrite <- L.
  apply (facts_nofail c (o_pts N ob) i b p K row o s); auto. apply Hapi.
Qed.
Lemma api_errorless i b : roomy c (Z.min (c_k c) (zlen P0 - 1)) -> znth (o_states N ob) i = Some b -> errorless b.
Proof.
  intros Ro Hb. destruct (api_facts i b Hb) as (L & Hin & p & K & row & o & s & SF). rewrite <- L in Ro.
  apply (roomy_errorless c (o_pts N ob) i b p K row o s); auto. apply Hapi.
Qed.
End Api.

Lemma api_exact w c P0 : api_ok N E c P0 -> roomy c (zlen P0 - 1) -> zlen P0 - 1 <= c_k c ->
  exists o, tess_core N w c cpu P0 = Ok o /\ Permutation P0 (o_pts N o) /\ zlen (o_states N o) = zlen P0 /\
  let S := map valp (o_pts N o) in
  (forall i b, znth (o_states N o) i = Some b -> errorless b) /\
  (forall i j, 0 <= i < zlen P0 -> lists (o_dnn N o) i j -> exists p q x, znth S i = Some p /\ znth S j = Some q /\ SpecVor.touches S p q x) /\
  (forall i j p q, znth S i = Some p -> znth S j = Some q -> p <> q -> face S i j -> lists (o_dnn N o) i j).
Proof.
  intros Ha Ro Hk. destruct (core_returns N E w c P0 Ha) as (o & R & PP & LS). exists o. do 3 (split; [assumption|]). cbv zeta.
  assert (LP : zlen (o_pts N o) = zlen P0) by (unfold zlen; now rewrite (Permutation_length PP)).
  assert (EL : forall i b, znth (o_states N o) i = Some b -> errorless b).
  { intros i b Hb. apply (api_errorless w c P0 o Ha R i b); auto. rewrite Z.min_r by lia. assumption. }
  assert (V : forall i, 0 <= i < zlen P0 -> exists b, znth (o_states N o) i = Some b /\ validated (c_k c) (zlen (o_pts N o)) b).
  { intros i Hi. destruct (znth_in_range (o_states N o) i ltac:(lia)) as [b Hb]. exists b. split; [assumption|]. split; [eauto|right; lia]. }
  split; [assumption|]. split.
  - intros i j Hi L. destruct (V i Hi) as (b & Hb & Vb). exact (api_touches N E w c P0 o Ha R i b j Hb Vb L).
  - intros i j p q Ei Ej Ne Fa. assert (Hi : 0 <= i < zlen P0) by (pose proof (znth_some _ _ _ Ei) as X; rewrite zlen_map in X; lia).
    destruct (V i Hi) as (b & Hb & Vb). exact (api_face N E w c P0 o Ha R i b j p q Hb Vb Ei Ej Ne Fa).
Qed.

(** ** with recompute *)
Section Rec.
Variables (gr : Z) (P0 P : list (point N)) (ids offs : list Z).
Hypothesis Hgr : 0 < gr.
Hypothesis Hg3 : gr * gr * gr <= int_max.
Hypothesis Hin : forall q, In q P0 -> inside N E q.
Hypothesis HS : xyz_sort N gr P0 = Ok (P, ids, offs).
Notation g := (mkGrid N P ids offs).
Notation n := (zlen P).

Lemma res_errorless c rs x : cfg_ok c -> c_gr c = gr -> results N c g rs -> roomy c (Z.min (c_k c) (n - 1)) -> 0 <= x < n -> errorless (out_byte N rs x).
Proof.
  intros Hc Eg Rs Ro Hx. destruct (fact_of N E gr P0 P ids offs Hgr Hg3 Hin HS c rs x Hc Eg Rs Hx) as (p & row & SF).
  apply (roomy_errorless c P x (out_byte N rs x) p (r_K N (rs x)) row (r_o N (rs x)) (r_s N (rs x))); auto.
  intros q Hq. apply (perm_in N E gr P0 P ids offs Hin HS q Hq).
Qed.

Lemma no_flag st ind e : (e = 4 \/ e = 5) -> (forall x b, In x ind -> znth st x = Some b -> errorless b) -> existsb (has_flag st e) ind = false.
Proof.
  intros He H. destruct (existsb (has_flag st e) ind) eqn:Q; [exfalso|reflexivity]. apply existsb_exists in Q as (x & Ix & Fx).
  unfold has_flag in Fx. destruct (znth st x) as [b|] eqn:Eb; [|discriminate]. rewrite st_get_testbit in Fx by lia.
  destruct (H x b Ix Eb) as (_ & H4 & H5 & _). destruct He as [->| ->]; congruence.
Qed.

Lemma rec_exact : forall r c ind st rows, c_gr c = gr -> 2 <= n -> 1 <= c_k c -> ind_ok N g ind -> roomy c (n - 1) -> c_pmax c <= 255 -> c_tmax c <= 65535 ->
  n * n <= int_max -> n * c_pmax c * 4 <= int_max -> n * c_tmax c * 3 <= int_max -> n - 1 <= c_k c * 2 ^ Z.of_nat r -> (0 < r)%nat -> zlen st = n ->
  (forall x b, In x ind -> znth st x = Some b -> errorless b) ->
  exists rows' st', rec_run N g c ind st rows rows' st' /\ forall x b, znth st' x = Some b -> errorless b.
Proof.
  induction r as [|r IH]; intros c ind st rows Eg Hn Hk Hi [Ro1 Ro2] HP HT NN NP NT G1 Hr Ls HE; [lia|].
  destruct (todo ind st) as [|y l] eqn:Et.
  { exists rows, (map (fun _ => 0) st). split; [now apply rr_done|]. intros x b Hb. rewrite znth_map in Hb. destruct (znth st x); [|discriminate]. injection Hb as <-. repeat split. }
  assert (Ne : todo ind st <> []) by congruence. clear y l Et.
  pose proof (no_flag st ind error_p_overflow (or_introl eq_refl) HE) as NF4. pose proof (no_flag st ind error_t_overflow (or_intror eq_refl) HE) as NF5.
  set (c' := next_cfg n ind st c). pose proof (todo_ok N g ind st Hi) as Hi'. assert (Hi2 := Hi'). destruct Hi2 as [Nd Ir].
  assert (Lt : zlen (todo ind st) <= n).
  { assert (Q : (List.length (todo ind st) <= List.length (zrange 0 n))%nat) by (apply NoDup_incl_length; [exact Nd|]; intros x Hx; apply in_zrange; now apply Ir).
    assert (Q2 : zlen (zrange 0 n) = n) by (rewrite zlen_zrange; lia). rewrite <- Q2. unfold zlen at 1 2. lia. }
  pose proof (zlen_nonneg (todo ind st)) as Lt0.
  assert (Kc : c_k c' = Z.min (n - 1) (c_k c * 2)). { unfold c', next_cfg, set_kpt, next_k. simpl. destruct (Z.ltb_spec (n - 1) (c_k c * 2)); lia. }
  assert (Pc : c_pmax c' = c_pmax c) by (unfold c', next_cfg, set_kpt; simpl; rewrite NF4; lia).
  assert (Tc : c_tmax c' = c_tmax c) by (unfold c', next_cfg, set_kpt; simpl; rewrite NF5; lia).
  assert (Hc' : cfg_ok c') by (unfold cfg_ok; rewrite Kc, Pc, Tc; lia).
  assert (SK : zlen (todo ind st) * c_k c' <= n * n) by (apply Z.mul_le_mono_nonneg; lia).
  assert (SP : zlen (todo ind st) * c_pmax c <= n * c_pmax c) by (apply Z.mul_le_mono_nonneg_r; lia).
  assert (ST : zlen (todo ind st) * c_tmax c <= n * c_tmax c) by (apply Z.mul_le_mono_nonneg_r; lia).
  assert (Fi : sub_fits c' (zlen (todo ind st))) by (unfold sub_fits; rewrite Pc, Tc; lia).
  assert (Hg : sorted_grid N c' g).
  { split; [rewrite <- Eg in Hgr; exact Hgr|]. exists P0. split; [|exact (eq_trans (f_equal (fun z => xyz_sort N z P0) Eg) HS)].
    change (c_gr c') with (c_gr c). rewrite Eg. now apply (in_range_exact N E). }
  destruct (results_ex N c' g Hc' Hg) as [rs Rs].
  assert (EL : forall x, 0 <= x < n -> errorless (out_byte N rs x)).
  { intros x Hx. apply (res_errorless c' rs x Hc' Eg Rs); auto. unfold roomy. rewrite Kc, Pc, Tc. lia. }
  assert (ES : forall x b, znth (new_states N g (todo ind st) rs) x = Some b -> errorless b).
  { intros x b Hb. assert (Hx : 0 <= x < n) by (pose proof (znth_some _ _ _ Hb) as X; rewrite new_states_len in X; exact X).
    rewrite new_states_at in Hb by assumption. destruct (mem_z (todo ind st) x); injection Hb as <-; [now apply EL|repeat split]. }
  destruct (Z_le_gt_dec (n - 1) (c_k c')) as [L|L].
  - exists (new_rows N g c' (todo ind st) rs rows), (new_states N g (todo ind st) rs). split; [apply rr_last; assumption|exact ES].
  - assert (K2 : c_k c' = c_k c * 2) by lia. replace (Z.of_nat (Datatypes.S r)) with (Z.succ (Z.of_nat r)) in G1 by lia. rewrite Z.pow_succ_r in G1 by lia.
    destruct (IH c' (todo ind st) (new_states N g (todo ind st) rs) (new_rows N g c' (todo ind st) rs rows)) as (rows' & st' & RR & Q); auto.
    + lia.
    + unfold roomy. rewrite Pc, Tc. lia.
    + lia.
    + lia.
    + rewrite Pc. assumption.
    + rewrite Tc. assumption.
    + rewrite K2. lia.
    + destruct r; [|lia]. exfalso. change (2 ^ Z.of_nat 0) with 1 in G1. lia.
    + apply new_states_len.
    + intros x b _. apply ES.
    + exists rows', st'. split; [|exact Q]. eapply rr_more; [exact Ne|exact Hc'|exact Fi|exact Rs|exact (Z.gt_lt _ _ L)|exact RR].
Qed.
End Rec.

Notation api_full := (api_full N E).

Lemma full_rows c P0 P ids offs : xyz_sort N (c_gr c) P0 = Ok (P, ids, offs) -> api_full c P0 ->
  exists o, o_pts N o = P /\ (forall i b, znth (o_states N o) i = Some b -> errorless b) /\ zlen (o_rows N o) = zlen P /\ zlen (o_states N o) = zlen P /\
    getdnn (o_rows N o) = Ok (o_dnn N o) /\ map visible (o_rows N o) = o_rows N o /\ total (o_rows N o) <= int_max /\
    (forall x row b, znth (o_rows N o) x = Some row -> znth (o_states N o) x = Some b ->
       row_done N (mkGrid N P ids offs) (c_gr c) x row \/
       (~ errorless b /\ exists c' rs, from_slot N (mkGrid N P ids offs) (c_gr c) x row b c' rs /\ zlen P - 1 <= c_k c')) /\
    forall w c', same_kernel c c' -> c_recompute c' = true -> 1 <= c_nthreads c' -> fits c' (zlen P) -> tess_core N w c' cpu P0 = Ok o.
Proof.
  intros HS (Hn & HK & Ro & HP & HT & Hgr & Hg3 & Hin & Rc & Hnt & Fit). assert (Ro' := Ro). destruct Ro' as [Ro1 Ro2].
  pose proof (in_range_exact N E (c_gr c) P0 Hgr Hg3 Hin) as Hr.
  pose proof (perm_points N _ _ _ _ _ HS) as PP. assert (LP : zlen P = zlen P0) by (unfold zlen; rewrite (Permutation_length PP); reflexivity).
  rewrite <- LP in Hn, Ro, Ro1, Ro2, Fit.
  assert (Hc : cfg_ok c) by (unfold cfg_ok; lia).
  assert (Hg : sorted_grid N c (mkGrid N P ids offs)) by (split; [assumption|]; exists P0; auto).
  destruct (results_ex N c _ Hc Hg) as [rs Rs].
  assert (N250 : zlen P <= 250) by lia.
  assert (NN : zlen P * zlen P <= int_max) by (unfold int_max; nia).
  assert (NK : zlen P * c_k c <= int_max) by (unfold int_max; nia).
  assert (NP : zlen P * c_pmax c * 4 <= int_max) by (unfold int_max; nia).
  assert (NT : zlen P * c_tmax c * 3 <= int_max) by (unfold int_max; nia).
  set (st := map (out_byte N rs) (zrange 0 (zlen P))).
  assert (Lst : zlen st = zlen P) by (unfold st; rewrite zlen_map, zlen_zrange; lia).
  assert (I0 : ind_ok N (mkGrid N P ids offs) (zrange 0 (zlen P))). { split; [apply NoDup_zrange|]. intros x Hx. apply in_zrange in Hx. exact Hx. }
  destruct (rec_exact (c_gr c) P0 P ids offs Hgr Hg3 Hin HS (Z.to_nat (zlen P)) c (todo (zrange 0 (zlen P)) st) st (map (out_row N c rs) (zrange 0 (zlen P)))) as (rows' & st' & RR & ES); auto; try lia.
  { now apply todo_ok. }
  { rewrite Z2Nat.id by lia. pose proof (Z.pow_gt_lin_r 2 (zlen P) ltac:(lia) ltac:(lia)). nia. }
  { intros x b _ Hb. assert (Hx : 0 <= x < zlen P) by (pose proof (znth_some _ _ _ Hb); lia). unfold st in Hb. rewrite znth_map, znth_zrange in Hb by lia. injection Hb as <-.
    rewrite Z.add_0_l. apply (res_errorless (c_gr c) P0 P ids offs Hgr Hg3 Hin HS c rs x Hc eq_refl Rs); auto. unfold roomy. lia. }
  destruct (rec_core_run N c P0 P ids offs rs rows' st' Hc Hn NK NN NP NT Hgr Hr HS Rs RR) as (o & Eo & Es & Lr & Ls & Gd & VR & TB & FR & RUN).
  exists o. split; [assumption|]. rewrite Es in *. split; [exact ES|]. do 6 (split; [assumption|]). exact RUN.
Qed.

Lemma full_final w c P0 : api_full c P0 ->
  exists o, tess_core N w c cpu P0 = Ok o /\ Permutation P0 (o_pts N o) /\ zlen (o_states N o) = zlen P0 /\
  let S := map valp (o_pts N o) in
  (forall i b, znth (o_states N o) i = Some b -> errorless b) /\
  (forall i j, 0 <= i < zlen P0 -> lists (o_dnn N o) i j -> exists p q x, znth S i = Some p /\ znth S j = Some q /\ SpecVor.touches S p q x) /\
  (forall i j p q, znth S i = Some p -> znth S j = Some q -> p <> q -> face S i j -> lists (o_dnn N o) i j).
Proof.
  intros A. assert (A' := A). destruct A' as (Hn & HK & Ro & HP & HT & Hgr & Hg3 & Hin & Rc & Hnt & Fit).
  pose proof (in_range_exact N E (c_gr c) P0 Hgr Hg3 Hin) as Hr.
  destruct (xyz_sort_total N (c_gr c) P0 ltac:(lia) Hg3 Hr) as (P & ids & offs & HS).
  pose proof (perm_points N _ _ _ _ _ HS) as PP. assert (LP : zlen P = zlen P0) by (unfold zlen; rewrite (Permutation_length PP); reflexivity).
  destruct (full_rows c P0 P ids offs HS A) as (o & Eo & ES & Lr & Ls & Gd & VR & TB & FR & RUN). rewrite <- LP in Fit.
  assert (N250 : zlen P <= 250) by (destruct Ro; lia).
  exists o. split; [apply RUN; auto; repeat split|]. rewrite Eo. split; [assumption|]. split; [lia|]. cbv zeta. split; [exact ES|].
  assert (D : forall i, 0 <= i < zlen P -> exists row, (forall j, lists (o_dnn N o) i j <-> In j row) /\ row_done N (mkGrid N P ids offs) (c_gr c) i row).
  { intros i Hi. destruct (znth_in_range (o_rows N o) i ltac:(lia)) as [row Hrow]. destruct (znth_in_range (o_states N o) i ltac:(lia)) as [b Hb]. exists row.
    split; [apply (rows_view (o_rows N o) (o_dnn N o) ltac:(rewrite Lr; unfold int_max; lia) VR TB Gd i row Hrow)|].
    destruct (FR i row b Hrow Hb) as [X|[X _]]; [exact X|]. destruct (X (ES i b Hb)). }
  split.
  - intros i j Hi L. rewrite <- LP in Hi. destruct (D i Hi) as (row & LV & Q). apply (done_geom N E (c_gr c) P0 P ids offs Hgr Hg3 Hin HS i row Hi Q), LV, L.
  - intros i j p q Ei Ej Ne Fa. assert (Hi : 0 <= i < zlen P) by (pose proof (znth_some _ _ _ Ei) as X; rewrite zlen_map in X; lia).
    destruct (D i Hi) as (row & LV & Q). apply LV. destruct (done_geom N E (c_gr c) P0 P ids offs Hgr Hg3 Hin HS i row Hi Q) as (_ & D2 & _). exact (D2 j p q Ei Ej Ne Fa).
Qed.
End G.
