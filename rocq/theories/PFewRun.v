(** C92: whole calls in single precision on points whose cells are cut a few times only. *)
From Verif Require Import Base Arith PBase Prog PProg MUtils MHeap MXyz MKnn MBoundary MCell MDnn MArgs MTess PFlags SpecDnn PDnn SpecGeom SpecSort SpecBnd SpecHeap SpecAny SpecRows SpecVor
  PXyz PSortFinal SpecSlot PSlotHost PTess PTessRun PTessFinal PGeomFinal PRec PRecFinal PKnnAny PRowsAny Arith32 PFloat PNear32 SpecNear PFloatRows PNoFailApi PRunDone PRobust PRobustApi PRobustRun PRobustLine PGpuRun PGpu32
  PApi PRobustText SpecSpread PSpread PErrBis PCanon PFew32.
From Flocq Require Import Core IEEE754.BinarySingleNaN.
From Coq Require Import String Reals Lra Psatz Permutation.
From Verif Require Export SpecArgs SpecSort SpecApi SpecSingle SpecRobust SpecParam SpecText SpecFace SpecWhen SpecFew.
Import SpecGeom.
Local Open Scope Z_scope.

(** rounds without errors in buffers that stay as they are, for any arithmetic *)
Section Calm.
Variable N : Arith.
Variables (gr pm tm : Z) (P0 P : list (point N)) (ids offs : list Z).
Hypothesis Hgr : 0 < gr.
Hypothesis HIR : in_range_ids N gr P0.
Hypothesis HS : xyz_sort N gr P0 = Ok (P, ids, offs).
Notation g := (mkGrid N P ids offs).
Notation n := (zlen P).
Hypothesis HEL : forall c rs x, cfg_ok c -> c_gr c = gr -> c_pmax c = pm -> c_tmax c = tm -> c_k c <= n - 1 -> results N c g rs -> 0 <= x < n -> errorless (out_byte N rs x).

Lemma calm_any : forall r c ind st rows, c_gr c = gr -> 2 <= n -> 1 <= c_k c -> ind_ok N g ind -> c_pmax c = pm -> c_tmax c = tm -> 6 <= pm <= 255 -> 8 <= tm <= 65535 ->
  n * n <= int_max -> n * pm * 4 <= int_max -> n * tm * 3 <= int_max -> n - 1 <= c_k c * 2 ^ Z.of_nat r -> (0 < r)%nat -> zlen st = n ->
  (forall x b, In x ind -> znth st x = Some b -> errorless b) ->
  exists rows' st', rec_run N g c ind st rows rows' st' /\ forall x b, znth st' x = Some b -> errorless b.
Proof.
  induction r as [|r IH]; intros c ind st rows Eg Hn Hk Hi Ep Et' HP HT NN NP NT G1 Hr Ls HE; [lia|].
  destruct (todo ind st) as [|y l] eqn:Et.
  { exists rows, (map (fun _ => 0) st). split; [now apply rr_done|]. intros x b Hb. rewrite znth_map in Hb. destruct (znth st x); [|discriminate]. injection Hb as <-. repeat split. }
  assert (Ne : todo ind st <> []) by congruence. clear y l Et.
  pose proof (no_flag st ind error_p_overflow (or_introl eq_refl) HE) as NF4. pose proof (no_flag st ind error_t_overflow (or_intror eq_refl) HE) as NF5.
  set (c' := next_cfg n ind st c). pose proof (todo_ok N g ind st Hi) as Hi'. assert (Hi2 := Hi'). destruct Hi2 as [Nd Ir].
  assert (Lt : zlen (todo ind st) <= n).
  { assert (Q : (List.length (todo ind st) <= List.length (zrange 0 n))%nat) by (apply NoDup_incl_length; [exact Nd|]; intros x Hx; apply in_zrange; now apply Ir).
    assert (Q2 : zlen (zrange 0 n) = n) by (rewrite zlen_zrange; lia). rewrite <- Q2. unfold zlen at 1 2. lia. }
  pose proof (zlen_nonneg (todo ind st)) as Lt0.
  assert (Kc : c_k c' = Z.min (n - 1) (c_k c * 2)). { unfold c', next_cfg, set_kpt, next_k. simpl. destruct (Z.ltb_spec (n - 1) (c_k c * 2)); lia. }
  assert (Pc : c_pmax c' = pm) by (unfold c', next_cfg, set_kpt; simpl; rewrite NF4; lia).
  assert (Tc : c_tmax c' = tm) by (unfold c', next_cfg, set_kpt; simpl; rewrite NF5; lia).
  assert (N46 : n <= 65535) by (unfold int_max in NN; nia).
  assert (Hc' : cfg_ok c') by (unfold cfg_ok; rewrite Kc, Pc, Tc; lia).
  assert (SK : zlen (todo ind st) * c_k c' <= n * n) by (apply Z.mul_le_mono_nonneg; lia).
  assert (SP : zlen (todo ind st) * pm <= n * pm) by (apply Z.mul_le_mono_nonneg_r; lia).
  assert (ST : zlen (todo ind st) * tm <= n * tm) by (apply Z.mul_le_mono_nonneg_r; lia).
  assert (Fi : sub_fits c' (zlen (todo ind st))) by (unfold sub_fits; rewrite Pc, Tc; lia).
  assert (Hg : sorted_grid N c' g).
  { split; [rewrite <- Eg in Hgr; exact Hgr|]. exists P0. split; [|exact (eq_trans (f_equal (fun z => xyz_sort N z P0) Eg) HS)].
    change (c_gr c') with (c_gr c). rewrite Eg. exact HIR. }
  destruct (results_ex N c' g Hc' Hg) as [rs Rs].
  assert (EL : forall x, 0 <= x < n -> errorless (out_byte N rs x)) by (intros x Hx; apply (HEL c' rs x Hc' Eg Pc Tc ltac:(lia) Rs Hx)).
  assert (ES : forall x b, znth (new_states N g (todo ind st) rs) x = Some b -> errorless b).
  { intros x b Hb. assert (Hx : 0 <= x < n) by (pose proof (znth_some _ _ _ Hb) as X; rewrite new_states_len in X; exact X).
    rewrite new_states_at in Hb by assumption. destruct (mem_z (todo ind st) x); injection Hb as <-; [now apply EL|repeat split]. }
  destruct (Z_le_gt_dec (n - 1) (c_k c')) as [L|L].
  - exists (new_rows N g c' (todo ind st) rs rows), (new_states N g (todo ind st) rs). split; [apply rr_last; assumption|exact ES].
  - assert (K2 : c_k c' = c_k c * 2) by lia. replace (Z.of_nat (Datatypes.S r)) with (Z.succ (Z.of_nat r)) in G1 by lia. rewrite Z.pow_succ_r in G1 by lia.
    destruct (IH c' (todo ind st) (new_states N g (todo ind st) rs) (new_rows N g c' (todo ind st) rs rows)) as (rows' & st' & RR & Q); auto.
    + lia.
    + rewrite K2. lia.
    + destruct r; [|lia]. exfalso. change (2 ^ Z.of_nat 0) with 1 in G1. lia.
    + apply new_states_len.
    + intros x b _. apply ES.
    + exists rows', st'. split; [|exact Q]. eapply rr_more; [exact Ne|exact Hc'|exact Fi|exact Rs|exact (Z.gt_lt _ _ L)|exact RR].
Qed.
End Calm.

Section F.
Variables (c : cfg) (P0 : list (point arith32)) (M : Z).
Hypothesis HF : float_ok c P0.
Hypothesis Kn : c_k c < zlen P0.
Hypothesis HR0 : forall i, 0 <= i < zlen P0 -> exists rho, robust (map real_pt P0) i rho.
Hypothesis Few0 : few_near eps20 (map real_pt P0) M.
Hypothesis Ro : roomy c M.

Let Hgr : 0 < c_gr c. Proof. apply HF. Qed.
Let Hg3 : c_gr c * c_gr c * c_gr c <= int_max. Proof. apply HF. Qed.
Let Hs : safe_res (c_gr c) = true. Proof. apply HF. Qed.
Let HO : Forall open01p P0. Proof. apply HF. Qed.
Let LP P ids offs : xyz_sort arith32 (c_gr c) P0 = Ok (P, ids, offs) -> zlen P = zlen P0.
Proof. intros HS. unfold zlen. now rewrite (Permutation_length (perm_points arith32 _ _ _ _ _ HS)). Qed.
Let OD P ids offs : xyz_sort arith32 (c_gr c) P0 = Ok (P, ids, offs) -> ordered_dists arith32 not_nan P.
Proof. intros HS. apply (ordered_perm arith32 not_nan _ P (perm_points arith32 _ _ _ _ _ HS)). apply (float_any c P0 HF). Qed.
Let HR P : Permutation P0 P -> forall i, 0 <= i < zlen P -> exists rho, robust (map real_pt P) i rho.
Proof. intros PP i Hi. apply (robust_perm (map real_pt P0) (map real_pt P)); [now apply Permutation_map| |now rewrite zlen_map]. intros j Hj. rewrite zlen_map in Hj. now apply HR0. Qed.
Let Few P : Permutation P0 P -> few_near eps20 (map real_pt P) M.
Proof. intros PP. apply (few_near_perm eps20 (map real_pt P0)); [now apply Permutation_map|assumption]. Qed.

Lemma few_plain w r M' : c_recompute c = false -> covered (map real_pt P0) r -> crowd (map real_pt P0) (r + eps20 / 2)%R M' -> M' <= c_k c ->
  exists o, tess_core arith32 w c cpu P0 = Ok o /\ Permutation P0 (o_pts arith32 o) /\ zlen (o_rows arith32 o) = zlen P0 /\ zlen (o_states arith32 o) = zlen P0 /\
  forall i row b, znth (o_rows arith32 o) i = Some row -> znth (o_states arith32 o) i = Some b -> errorless b /\ exact_cell (map real_pt (o_pts arith32 o)) i row.
Proof.
  intros Rc Cv Cr HM. set (T := fun P i (row : list Z) b => errorless b /\ exact_cell (map real_pt P) i row).
  destruct (plain_slots arith32 not_nan c P0 T) with (w := w) as (o & R & PP & L1 & L2 & H); auto.
  - intros P ids offs rs x HS Rs Hx. pose proof (LP _ _ _ HS) as EL. pose proof (OD _ _ _ HS) as HOD. assert (Hc : cfg_ok c) by apply HF. pose proof (perm_points arith32 _ _ _ _ _ HS) as PP.
    destruct (HR P PP x Hx) as (rho & Hrob). pose proof (Permutation_map real_pt PP) as PV.
    assert (EB : errorless (out_byte arith32 rs x)) by (apply (slot_few (c_gr c) P0 P ids offs Hgr Hg3 Hs HO HS HOD c rs x rho M Hc eq_refl Rs Hx ltac:(lia) Hrob (Few P PP) Ro)).
    split; [exact EB|]. apply (slot_spread (c_gr c) P0 P ids offs Hgr Hg3 Hs HO HS HOD c rs x rho r M' Hc eq_refl Rs Hx ltac:(lia) Hrob EB); [eapply covered_perm; eauto|eapply crowd_perm; eauto|assumption].
  - now apply float_any.
  - exists o. auto.
Qed.

Lemma few_rec w : c_recompute c = true -> zlen P0 * zlen P0 <= int_max -> zlen P0 * c_pmax c * 4 <= int_max -> zlen P0 * c_tmax c * 3 <= int_max ->
  exists o, tess_core arith32 w c cpu P0 = Ok o /\ Permutation P0 (o_pts arith32 o) /\ zlen (o_rows arith32 o) = zlen P0 /\ zlen (o_states arith32 o) = zlen P0 /\
  forall i row b, znth (o_rows arith32 o) i = Some row -> znth (o_states arith32 o) i = Some b -> errorless b /\ exact_cell (map real_pt (o_pts arith32 o)) i row.
Proof.
  intros Rc NN NP NT. assert (Hc : cfg_ok c) by apply HF. destruct Hc as (K1 & K2 & K3). assert (Hc : cfg_ok c) by apply HF.
  pose proof HF as (_ & _ & _ & _ & _ & Hnt & Fit & HkN).
  assert (Hr : in_range_ids arith32 (c_gr c) P0) by (apply in_range32; assumption).
  destruct (xyz_sort_total arith32 (c_gr c) P0 ltac:(lia) Hg3 Hr) as (P & ids & offs & HS).
  pose proof (perm_points arith32 _ _ _ _ _ HS) as PP. pose proof (LP _ _ _ HS) as EL. rewrite <- EL in *.
  set (g := mkGrid arith32 P ids offs).
  assert (Hg : sorted_grid arith32 c g) by (split; [assumption|]; exists P0; auto).
  destruct (results_ex arith32 c g Hc Hg) as [rs Rs].
  assert (N2 : 2 <= zlen P) by lia.
  assert (NK : zlen P * c_k c <= int_max) by lia.
  set (st := map (out_byte arith32 rs) (zrange 0 (zlen P))).
  assert (Lst : zlen st = zlen P) by (unfold st; rewrite zlen_map, zlen_zrange; lia).
  assert (I0 : ind_ok arith32 g (zrange 0 (zlen P))). { split; [apply NoDup_zrange|]. intros x Hx. apply in_zrange in Hx. exact Hx. }
  assert (SE : forall c' rs x, cfg_ok c' -> c_gr c' = c_gr c -> c_pmax c' = c_pmax c -> c_tmax c' = c_tmax c -> c_k c' <= zlen P - 1 -> results arith32 c' g rs -> 0 <= x < zlen P -> errorless (out_byte arith32 rs x)).
  { intros c' rs' x Hc' Eg E1 E2 K' Rs' Hx. destruct (HR P PP x Hx) as (rho & Hrob).
    apply (slot_few (c_gr c) P0 P ids offs Hgr Hg3 Hs HO HS (OD _ _ _ HS) c' rs' x rho M Hc' Eg Rs' Hx K' Hrob (Few P PP)). unfold roomy. rewrite E1, E2. exact Ro. }
  pose proof (todo_ok arith32 g _ st I0) as Hi.
  assert (G2 : zlen P - 1 <= c_k c * 2 ^ Z.of_nat (Z.to_nat (zlen P))).
  { rewrite Z2Nat.id by lia. pose proof (Z.pow_gt_lin_r 2 (zlen P) ltac:(lia) ltac:(lia)). nia. }
  destruct (calm_any arith32 (c_gr c) (c_pmax c) (c_tmax c) P0 P ids offs Hgr Hr HS SE (Z.to_nat (zlen P)) c (todo (zrange 0 (zlen P)) st) st (map (out_row arith32 c rs) (zrange 0 (zlen P)))) as (rows' & st' & RR & ES); auto; try lia.
  { intros x b _ Hb. pose proof (znth_some _ _ _ Hb) as Hx. unfold st in Hb. rewrite znth_map, znth_zrange in Hb by lia. injection Hb as <-. rewrite Z.add_0_l. apply (SE c rs x); auto; lia. }
  destruct (rec_core_rows arith32 c P0 P ids offs rs rows' st' Hc N2 NK NN NP NT Hgr Hr HS Rs RR) as (o & A1 & A2 & A3 & A4 & A5 & A6 & A7 & A8 & _ & RUN).
  exists o. split; [apply RUN; auto; repeat split|]. rewrite A1. split; [exact PP|]. split; [assumption|]. split; [assumption|].
  intros i row b Hrow Hb. rewrite A3 in Hrow. rewrite A2 in Hb. pose proof (ES i b Hb) as EB. split; [exact EB|]. pose proof (znth_some _ _ _ Hrow) as Hx. rewrite <- A3, A4 in Hx. destruct (HR P PP i Hx) as (rho & Hrob).
  refine (rec_done arith32 (c_gr c) P0 rowT (rowT_slot c P0 HF) P ids offs HS (fun _ => True) c _ st _ rows' st' RR ltac:(lia) eq_refl Hi Lst _ _ i row b I Hrow Hb EB rho Hrob); [rewrite zlen_map, zlen_zrange; lia|].
  apply (first_done arith32 (c_gr c) P0 rowT (rowT_slot c P0 HF) P ids offs HS); auto; [lia|]. intros x b0 _ Hb0 Q. pose proof (znth_some _ _ _ Hb0) as Hx0. unfold st in Hb0. rewrite znth_map, znth_zrange in Hb0 by lia. rewrite Z.add_0_l in Hb0. injection Hb0 as <-. exact Q.
Qed.
End F.

(** ** calls *)
Lemma crowd_all S r : 0 < zlen S -> crowd S r (zlen S - 1).
Proof. intros _ p L rest PP _. unfold zlen. rewrite (Permutation_length PP). simpl. rewrite app_length. lia. Qed.
Lemma covered_two S : 0 < zlen S -> (forall q, In q S -> in_cube q) -> covered S 2.
Proof.
  intros Hn HS. split; [lra|]. intros x Hx. destruct (znth_in_range S 0 ltac:(lia)) as [s Es]. exists s. split; [eapply znth_in; eauto|]. pose proof (HS s (znth_in _ _ _ Es)) as Cs.
  destruct x as [[a b] c], s as [[u v] t]. unfold in_cube in *. unfold d2. nra.
Qed.
Lemma open_in_cube P0 : Forall open01p P0 -> forall q, In q (map real_pt P0) -> in_cube q.
Proof. intros HO q Hq. apply in_map_iff in Hq as (x & <- & Hx). rewrite Forall_forall in HO. apply real_cube. now apply HO. Qed.

Lemma few_core c P0 (w : world arith32) M : few_cfg c (zlen P0) M -> Forall open01p P0 -> all_robust (map real_pt P0) -> few_near eps20 (map real_pt P0) M ->
  exists o, tess_core arith32 w c cpu P0 = Ok o /\ stable_sort_of (fun p => cell32 (c_gr c) (real_pt p)) P0 (o_pts arith32 o) /\ face_rows (map real_pt (o_pts arith32 o)) (o_rows arith32 o) /\
    Forall errorless (o_states arith32 o) /\ shows (o_dnn arith32 o) (o_rows arith32 o) /\
    dnn_savetxt (o_dnn arith32 o) = Ok (lines_text show_int (o_rows arith32 o)) /\ dnn_print (o_dnn arith32 o) = Ok (braces_text show_int (o_rows arith32 o)).
Proof.
  intros (HC & Kn & Ro & Hk) HO HR Few. pose proof (float_cfg_ok c P0 HC HO) as HF. assert (K1 : 1 <= c_k c) by apply HC.
  assert (HR' : forall i, 0 <= i < zlen P0 -> exists rho, robust (map real_pt P0) i rho) by (intros i Hi; apply HR; now rewrite zlen_map).
  destruct Hk as [(Rc & N1 & N2 & N3)|(Rc & Hk)].
  - destruct (few_rec c P0 M HF Kn HR' Few Ro w Rc N1 N2 N3) as (o & R & PP & L1 & L2 & H). exists o. split; [exact R|]. now apply (robust_shown c P0 w).
  - destruct (few_plain c P0 M HF Kn HR' Few Ro w 2%R (zlen P0 - 1) Rc) as (o & R & PP & L1 & L2 & H); auto.
    + apply covered_two; [rewrite zlen_map; lia|now apply open_in_cube].
    + rewrite <- (zlen_map real_pt P0). apply crowd_all. rewrite zlen_map. lia.
    + exists o. split; [exact R|]. now apply (robust_shown c P0 w).
Qed.
Lemma spread_core c P0 (w : world arith32) r M M' : float_cfg c (zlen P0) -> c_k c < zlen P0 -> c_recompute c = false -> Forall open01p P0 -> all_robust (map real_pt P0) ->
  covered (map real_pt P0) r -> crowd (map real_pt P0) (r + eps20 / 2) M' -> M' <= c_k c -> few_near eps20 (map real_pt P0) M -> roomy c M ->
  exists o, tess_core arith32 w c cpu P0 = Ok o /\ stable_sort_of (fun p => cell32 (c_gr c) (real_pt p)) P0 (o_pts arith32 o) /\ face_rows (map real_pt (o_pts arith32 o)) (o_rows arith32 o) /\
    Forall errorless (o_states arith32 o) /\ shows (o_dnn arith32 o) (o_rows arith32 o) /\
    dnn_savetxt (o_dnn arith32 o) = Ok (lines_text show_int (o_rows arith32 o)) /\ dnn_print (o_dnn arith32 o) = Ok (braces_text show_int (o_rows arith32 o)).
Proof.
  intros HC Kn Rc HO HR Cv Cr HM Few Ro. pose proof (float_cfg_ok c P0 HC HO) as HF.
  assert (HR' : forall i, 0 <= i < zlen P0 -> exists rho, robust (map real_pt P0) i rho) by (intros i Hi; apply HR; now rewrite zlen_map).
  destruct (few_plain c P0 M HF Kn HR' Few Ro w r M' Rc Cv Cr HM) as (o & R & PP & L1 & L2 & H). exists o. split; [exact R|]. now apply (robust_shown c P0 w).
Qed.
Lemma few_api (w : world arith32) ops P0 M : well_typed ops -> few_cfg (api_cfg (w_hwc arith32 w) ops) (zlen P0) M -> Forall open01p P0 -> all_robust (map real_pt P0) -> few_near eps20 (map real_pt P0) M ->
  let c := api_cfg (w_hwc arith32 w) ops in
  exists a o, run_assign args_init ops = Ok a /\ tesellate arith32 w a cpu P0 = Ok o /\ stable_sort_of (fun p => cell32 (c_gr c) (real_pt p)) P0 (o_pts arith32 o) /\ face_rows (map real_pt (o_pts arith32 o)) (o_rows arith32 o) /\
    Forall errorless (o_states arith32 o) /\ shows (o_dnn arith32 o) (o_rows arith32 o) /\ dnn_savetxt (o_dnn arith32 o) = Ok (lines_text show_int (o_rows arith32 o)).
Proof.
  intros HT HC HO HR Few c. destruct (api_reads ops HT) as (a & HA & T). destruct (few_core _ P0 w M HC HO HR Few) as (o & R & X1 & X2 & X3 & X4 & X5 & _). exists a, o. split; [exact HA|]. split; [now rewrite T|]. auto.
Qed.
(** on the device *)
Lemma spread_gpu c P0 (w : world arith32) r M M' : float_cfg c (zlen P0) -> c_k c < zlen P0 -> c_recompute c = false -> Forall open01p P0 -> all_robust (map real_pt P0) ->
  covered (map real_pt P0) r -> crowd (map real_pt P0) (r + eps20 / 2) M' -> M' <= c_k c -> few_near eps20 (map real_pt P0) M -> roomy c M -> dev_ok c (zlen P0) -> w_gpu arith32 w = true ->
  exists o, tess_core arith32 w c gpu P0 = Ok o /\ stable_sort_of (fun p => cell32 (c_gr c) (real_pt p)) P0 (o_pts arith32 o) /\ face_rows (map real_pt (o_pts arith32 o)) (o_rows arith32 o) /\
    shows (o_dnn arith32 o) (o_rows arith32 o) /\ dnn_savetxt (o_dnn arith32 o) = Ok (lines_text show_int (o_rows arith32 o)).
Proof.
  intros HC Kn Rc HO HR Cv Cr HM Few Ro HD HG. destruct (spread_core c P0 w r M M' HC Kn Rc HO HR Cv Cr HM Few Ro) as (o & R & SS & FR & _ & SH & ST & _).
  destruct (gpu_single w c P0 (float_cfg_ok c P0 HC HO) HD Rc HG) as (o1 & o' & R1 & R' & E1 & E2 & E3 & _). rewrite R in R1. injection R1 as <-. exists o'. rewrite E1, E2, E3. auto 8.
Qed.
(** the cuts of spread points *)
Lemma spread_near20 P0 r M : Forall open01p P0 -> covered (map real_pt P0) r -> crowd (map real_pt P0) (r + eps20 / 2) M -> few_near eps20 (map real_pt P0) M.
Proof. intros HO. apply spread_near; [pose proof eps20_pos; lra|now apply open_in_cube]. Qed.

(** points on a line: each cell is cut twice at most *)
Lemma on_line_few d S : on_line d S -> few_near eps20 S 2.
Proof.
  intros (Hd & Hd0 & y & z & HS & Hsep) p B rest C PP [B1 _] [NC HC].
  assert (D20 : (eps20 < d)%R). { unfold eps20. destruct (Rlt_le_dec (/ 1048576) d) as [|L]; [assumption|exfalso]. assert (d * d <= / 1048576 * / 1048576)%R by (apply Rmult_le_compat; lra). lra. }
  assert (ND : NoDup S).
  { apply NoDup_nth_error. intros i j Hi E. destruct (Nat.eq_dec i j) as [|Ne]; [assumption|exfalso]. destruct (nth_error S i) as [q|] eqn:Ei; [|apply nth_error_None in Ei; lia].
    assert (Zi : znth S (Z.of_nat i) = Some q) by (unfold znth; replace (0 <=? Z.of_nat i) with true by lia; now rewrite Nat2Z.id).
    assert (Zj : znth S (Z.of_nat j) = Some q) by (unfold znth; replace (0 <=? Z.of_nat j) with true by lia; now rewrite Nat2Z.id).
    destruct (HS _ _ Zi) as (t & -> & _). assert (Nz : Z.of_nat i <> Z.of_nat j) by lia. pose proof (Hsep _ _ t t Nz Zi Zj) as Q. rewrite Rminus_diag_eq, Rabs_R0 in Q by reflexivity. lra. }
  assert (AT : forall q, In q S -> exists t, q = (t, y, z)) by (intros q Iq; apply in_znth in Iq as (j & _ & Ej); destruct (HS j q Ej) as (t & -> & _); eauto).
  assert (SEP : forall t t', In (t, y, z) S -> In (t', y, z) S -> t <> t' -> (d <= Rabs (t - t'))%R).
  { intros t t' I I' Nt. apply in_znth in I as (i & _ & Ei). apply in_znth in I' as (j & _ & Ej). apply (Hsep i j); auto. intros ->. congruence. }
  assert (NP : NoDup (p :: B ++ rest)) by (eapply Permutation_NoDup; eauto). inversion NP as [|? ? Np NB']; subst. pose proof (PBndLoop.NoDup_app_l' _ _ NB') as NB.
  assert (IS : forall q, In q B -> In q S) by (intros q Iq; apply (Permutation_in _ (Permutation_sym PP)); right; apply in_or_app; now left).
  assert (Ip : In p S) by (apply (Permutation_in _ (Permutation_sym PP)); now left).
  destruct (AT p Ip) as (s & ->).
  (* no two cuts from the same side *)
  assert (ONE : forall a b ta tb, In a C -> In b C -> a < b -> znth B a = Some (ta, y, z) -> znth B b = Some (tb, y, z) -> (s < ta /\ s < tb)%R \/ (ta < s /\ tb < s)%R -> False).
  { intros a b ta tb Ha Hb Hab Ea Eb Side. destruct (HC b Hb) as (q & Eq & x & [Cx Ix] & Dx). assert (q = (tb, y, z)) by congruence. subst q.
    assert (Nt : ta <> tb). { intros ->. pose proof (PCanon.nodup_znth _ _ _ _ NB Ea Eb). lia. }
    pose proof (SEP ta tb (IS _ (znth_in _ _ _ Ea)) (IS _ (znth_in _ _ _ Eb)) Nt) as Sp. pose proof (znth_some _ _ _ Ea) as Ra.
    pose proof (B1 a b _ _ ltac:(lia) Ea Eb) as Or.
    assert (SQ : forall t, sqrt (d2 (t, y, z) (s, y, z)) = Rabs (t - s)).
    { intros t. unfold d2. replace ((t - s) ^ 2 + (y - y) ^ 2 + (z - z) ^ 2)%R with (Rsqr (t - s)) by (unfold Rsqr; ring). apply sqrt_Rsqr_abs. }
    rewrite !SQ in Or.
    assert (IA : (d2 x (s, y, z) <= d2 x (ta, y, z))%R).
    { apply Ix. apply (znth_in _ a). rewrite <- (firstn_skipn (Z.to_nat b) B), znth_app1 in Ea; [exact Ea|]. pose proof (znth_some _ _ _ Eb). unfold zlen in *. rewrite firstn_length. lia. }
    destruct x as [[x1 x2] x3]. unfold d2 in IA, Dx.
    assert (IA' : (0 <= (ta - s) * (ta + s - 2 * x1))%R) by nra. assert (Dx' : ((tb - s) * (tb + s - 2 * x1) < 0)%R) by nra.
    destruct Side as [[S1 S2]|[S1 S2]].
    - assert (ta < tb)%R by (split_Rabs; lra). assert (0 <= ta + s - 2 * x1)%R by (apply (Rmult_le_reg_l (ta - s)); lra). assert (0 <= (tb - s) * (tb + s - 2 * x1))%R by (apply Rmult_le_pos; lra). lra.
    - assert (tb < ta)%R by (split_Rabs; lra). assert (ta + s - 2 * x1 <= 0)%R by (apply (Rmult_le_reg_l (s - ta)); lra).
      assert (0 <= (s - tb) * (- (tb + s - 2 * x1)))%R by (apply Rmult_le_pos; lra). lra. }
  assert (PL : forall a, In a C -> exists t, znth B a = Some (t, y, z) /\ (s < t \/ t < s)%R).
  { intros a Ha. destruct (HC a Ha) as (q & Eq & _). destruct (AT q (IS q (znth_in _ _ _ Eq))) as (t & ->). exists t. split; [assumption|]. destruct (Rtotal_order s t) as [|[Q|]]; [auto| |auto].
    exfalso. subst t. apply Np. apply in_or_app. left. eapply znth_in; eauto. }
  assert (TWO : forall a b ta tb, In a C -> In b C -> a <> b -> znth B a = Some (ta, y, z) -> znth B b = Some (tb, y, z) -> (s < ta /\ s < tb)%R \/ (ta < s /\ tb < s)%R -> False).
  { intros a b ta tb Ha Hb Nab Ea Eb Side. destruct (Z_lt_dec a b); [eapply (ONE a b); eauto|eapply (ONE b a); eauto; [lia|tauto]]. }
  destruct C as [|a [|b [|e C]]]; try (unfold zlen; simpl; lia). exfalso.
  inversion NC as [|? ? Na NC']; subst. inversion NC' as [|? ? Nb NC'']; subst. simpl in Na, Nb.
  destruct (PL a ltac:(simpl; auto)) as (ta & Ea & Sa). destruct (PL b ltac:(simpl; auto)) as (tb & Eb & Sb). destruct (PL e ltac:(simpl; auto)) as (te & Ee & Se).
  destruct Sa, Sb, Se; first [apply (TWO a b ta tb); simpl; auto; tauto|apply (TWO a e ta te); simpl; auto; tauto|apply (TWO b e tb te); simpl; auto; tauto].
Qed.
Lemma line_core c P0 (w : world arith32) d : few_cfg c (zlen P0) 2 -> Forall open01p P0 -> on_line d (map real_pt P0) ->
  exists o, tess_core arith32 w c cpu P0 = Ok o /\ stable_sort_of (fun p => cell32 (c_gr c) (real_pt p)) P0 (o_pts arith32 o) /\ face_rows (map real_pt (o_pts arith32 o)) (o_rows arith32 o) /\
    Forall errorless (o_states arith32 o) /\ shows (o_dnn arith32 o) (o_rows arith32 o) /\
    dnn_savetxt (o_dnn arith32 o) = Ok (lines_text show_int (o_rows arith32 o)) /\ dnn_print (o_dnn arith32 o) = Ok (braces_text show_int (o_rows arith32 o)).
Proof. intros HC HO HL. apply (few_core c P0 w 2); auto; [intros i _; exists d; now apply on_line_robust|eapply on_line_few; eauto]. Qed.
(** the default options and use_recompute *)
Lemma line_default (w : world arith32) P0 d : 1 <= w_hwc arith32 w -> 65 <= zlen P0 <= 46340 -> Forall open01p P0 -> on_line d (map real_pt P0) ->
  exists a o, args_set args_init "use_recompute" (VBool true) = Ok a /\ tesellate arith32 w a cpu P0 = Ok o /\ stable_sort_of (fun p => cell32 16 (real_pt p)) P0 (o_pts arith32 o) /\
    face_rows (map real_pt (o_pts arith32 o)) (o_rows arith32 o) /\ Forall errorless (o_states arith32 o) /\ shows (o_dnn arith32 o) (o_rows arith32 o) /\
    dnn_savetxt (o_dnn arith32 o) = Ok (lines_text show_int (o_rows arith32 o)).
Proof.
  intros Hw Hn HO HL. set (ops := [("use_recompute"%string, VBool true)]).
  assert (HT : well_typed ops) by (constructor; [right; split; [simpl; auto 10|eexists; reflexivity]|constructor]).
  assert (EC : api_cfg (w_hwc arith32 w) ops = mkCfg 64 16 32 32 (w_hwc arith32 w) 1 false 8196 true) by (unfold api_cfg; simpl; reflexivity).
  destruct (few_api w ops P0 2 HT) as (a & o & A & T & X); auto.
  - rewrite EC. split; [|split; [simpl; lia|split; [split; simpl; lia|left; simpl; unfold int_max; repeat split; nia]]].
    unfold float_cfg, cfg_ok, fits, chunk_of. cbn [c_k c_gr c_pmax c_tmax c_recompute c_nthreads c_use_chunking]. split; [unfold int_max; lia|]. split; [lia|]. split; [unfold int_max; lia|]. split; [vm_compute; reflexivity|]. split; [assumption|].
    assert (F : 0 <= first_subsize (zlen P0 + 1) (zlen P0) <= zlen P0). { unfold first_subsize, chunked. destruct (Z.ltb_spec (zlen P0 + 1) (zlen P0)); [lia|]. rewrite andb_false_r. lia. }
    unfold int_max. split; [split; [lia|split; [lia|split; lia]]|lia].
  - intros i _. exists d. now apply on_line_robust.
  - eapply on_line_few; eauto.
  - rewrite EC in X. cbn [c_gr] in X. exists a, o. split; [|auto]. unfold ops in A. vm_compute in A. injection A as <-. vm_compute. reflexivity.
Qed.
