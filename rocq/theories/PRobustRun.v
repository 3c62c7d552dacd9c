(** C82: runs in single precision on points in robust position. *)
From Verif Require Import Base Arith PBase Prog PProg MUtils MHeap MXyz MKnn MBoundary MCell MDnn MArgs MTess PFlags SpecDnn PDnn SpecGeom SpecSort SpecBnd SpecHeap SpecAny SpecRows SpecVor
  PXyz PSortFinal SpecSlot PSlotHost PTess PTessRun PTessFinal PGeomFinal PRec PRecFinal PKnnAny PRowsAny Arith32 PFloat PNear32 SpecNear PFloatRows PNoFailApi PRunDone PRobust PRobustApi PLock PGpuRun PGpu32 PGpuRec PGpuRec32.
From Flocq Require Import Core IEEE754.BinarySingleNaN.
From Coq Require Import Reals Lra Permutation FinFun.
From Verif Require Export SpecSingle SpecRobust SpecParam SpecFlags SpecDev.
Import SpecGeom.
Local Open Scope Z_scope.

(** robustness does not depend on the order of the points *)
Lemma perm_index {A} (l l' : list A) : Permutation l l' -> exists f : Z -> Z, (forall i, 0 <= i < zlen l -> 0 <= f i < zlen l /\ znth l' i = znth l (f i)) /\
  (forall i j, 0 <= i < zlen l -> 0 <= j < zlen l -> f i = f j -> i = j) /\ (forall b, 0 <= b < zlen l -> exists a, 0 <= a < zlen l /\ f a = b).
Proof.
  intros H. apply Permutation_nth_error_bis in H as (f & Hi & Hb & Hn). assert (Hs : bSurjective (List.length l) f) by (apply bInjective_bSurjective; [assumption|]; intros x y _ _; apply Hi).
  exists (fun i => Z.of_nat (f (Z.to_nat i))). unfold zlen. split; [|split].
  - intros i Hi0. pose proof (Hb (Z.to_nat i) ltac:(lia)). split; [lia|]. unfold znth. replace (0 <=? i) with true by lia. replace (0 <=? Z.of_nat (f (Z.to_nat i))) with true by lia. rewrite Nat2Z.id. apply Hn.
  - intros i j Hi0 Hj0 E. apply Nat2Z.inj in E. apply Hi in E. lia.
  - intros b Hb0. destruct (Hs (Z.to_nat b) ltac:(lia)) as (a & Ha & E). exists (Z.of_nat a). rewrite Nat2Z.id, E. lia.
Qed.
Lemma robust_perm S S' : Permutation S S' -> (forall i, 0 <= i < zlen S -> exists rho, robust S i rho) -> forall i, 0 <= i < zlen S' -> exists rho, robust S' i rho.
Proof.
  intros PP H i Hi. assert (LS : zlen S' = zlen S) by (unfold zlen; now rewrite (Permutation_length PP)). rewrite LS in Hi.
  destruct (perm_index S S' PP) as (f & Hf & Inj & Sur). destruct (Hf i Hi) as [Ri Ei]. destruct (H (f i) Ri) as (rho & R0 & R1 & R2). exists rho. split; [assumption|].
  assert (OT : forall j, others (zlen S') i j -> others (zlen S) (f i) (f j) /\ znth S' j = znth S (f j)).
  { intros j [Hj Nj]. rewrite LS in Hj. destruct (Hf j Hj) as [Rj Ej]. split; [split; [assumption|]|assumption]. intros E. apply Nj. now apply Inj. }
  split.
  - intros j p q Hj Ep Eq. destruct (OT j Hj) as [O E]. apply (R1 (f j)); auto; congruence.
  - intros A j p q h1 h2 h3 x [N1 N2] Hj NA Ep Eq (Ws & D & Ev & IC & Nr). destruct (OT j Hj) as [O E].
    set (B := fun b => exists a, A a /\ f a = b).
    assert (WB : forall h, wall S' A p h -> wall S B p h).
    { intros h [W|(a & q' & Aa & Ea & ->)]; [now left|]. right. exists (f a), q'. split; [exists a; auto|]. split; [|reflexivity]. destruct (OT a (N1 a Aa)) as [_ X]. congruence. }
    apply (R2 B (f j)); auto; try congruence.
    + split.
      * intros b (a & Aa & <-). apply OT. now apply N1.
      * intros b b' p' q1 q2 (a & Aa & <-) [Hb' Nb'] NB E1 E2 E3. destruct (Sur b' Hb') as (a' & Ha' & <-). destruct (OT a (N1 a Aa)) as [_ X]. destruct (Hf a' Ha') as [_ X'].
        apply (N2 a a' p' q1 q2); auto; try congruence; [split; [lia|congruence]|]. intros Aa'. apply NB. exists a'. auto.
    + intros (a & Aa & Ea). apply NA. destruct (N1 a Aa) as [Ra _]. destruct Hj as [Rj _]. rewrite LS in *. now rewrite <- (Inj a j Ra Rj Ea).
    + split; [destruct Ws as (W1 & W2 & W3); auto|]. split; [assumption|]. split; [assumption|]. split; [assumption|].
      intros b q' (a & Aa & <-) Eb. apply (Nr a q' Aa). destruct (OT a (N1 a Aa)) as [_ X]. congruence.
Qed.

Section F.
Variables (c : cfg) (P0 : list (point arith32)).
Hypothesis HF : float_ok c P0.
Hypothesis Kn : c_k c < zlen P0.

Let Hgr : 0 < c_gr c. Proof. apply HF. Qed.
Let Hg3 : c_gr c * c_gr c * c_gr c <= int_max. Proof. apply HF. Qed.
Let Hs : safe_res (c_gr c) = true. Proof. apply HF. Qed.
Let HO : Forall open01p P0. Proof. apply HF. Qed.
Let LP P ids offs : xyz_sort arith32 (c_gr c) P0 = Ok (P, ids, offs) -> zlen P = zlen P0.
Proof. intros HS. unfold zlen. now rewrite (Permutation_length (perm_points arith32 _ _ _ _ _ HS)). Qed.
Let OD P ids offs : xyz_sort arith32 (c_gr c) P0 = Ok (P, ids, offs) -> ordered_dists arith32 not_nan P.
Proof. intros HS. apply (ordered_perm arith32 not_nan _ P (perm_points arith32 _ _ _ _ _ HS)). apply (float_any c P0 HF). Qed.

Lemma robust_plain w : c_recompute c = false -> exists o, tess_core arith32 w c cpu P0 = Ok o /\ Permutation P0 (o_pts arith32 o) /\ zlen (o_rows arith32 o) = zlen P0 /\ zlen (o_states arith32 o) = zlen P0 /\
  forall i row b rho, znth (o_rows arith32 o) i = Some row -> znth (o_states arith32 o) i = Some b -> robust (map real_pt (o_pts arith32 o)) i rho ->
    (Z.testbit b 1 = false /\ Z.testbit b 6 = false) /\ (roomy c (c_k c) -> errorless b) /\ (validated (c_k c) (zlen P0) b -> exact_cell (map real_pt (o_pts arith32 o)) i row).
Proof.
  intros Rc. set (T := fun P i (row : list Z) b => forall rho, robust (map real_pt P) i rho ->
    (Z.testbit b 1 = false /\ Z.testbit b 6 = false) /\ (roomy c (c_k c) -> errorless b) /\ (validated (c_k c) (zlen P0) b -> exact_cell (map real_pt P) i row)).
  destruct (plain_slots arith32 not_nan c P0 T) with (w := w) as (o & R & PP & L1 & L2 & H); auto.
  - intros P ids offs rs x HS Rs Hx rho Hrob. pose proof (LP _ _ _ HS) as EL. pose proof (OD _ _ _ HS) as HOD. assert (Hc : cfg_ok c) by apply HF.
    destruct (slot_room (c_gr c) P0 P ids offs Hgr Hg3 Hs HO HS HOD c rs x rho Hc eq_refl Rs Hx ltac:(lia) Hrob) as (NB & _).
    split; [apply byte_b; exact NB|]. split.
    + intros Ro. apply (slot_errorless (c_gr c) P0 P ids offs Hgr Hg3 Hs HO HS HOD c rs x rho Hc eq_refl Rs Hx ltac:(lia) Hrob Ro).
    + rewrite <- EL. intros V. apply (slot_robust (c_gr c) P0 P ids offs Hgr Hg3 Hs HO HS HOD c rs x rho Hc eq_refl Rs Hx ltac:(lia) V Hrob).
  - now apply float_any.
  - exists o. do 4 (split; [assumption|]). intros i row b rho Hrow Hb. apply (H i row b Hrow Hb).
Qed.

Definition rowT (P : list (point arith32)) (x : Z) (row : list Z) : Prop := forall rho, robust (map real_pt P) x rho -> exact_cell (map real_pt P) x row.
Lemma rowT_slot P ids offs c' rs x : xyz_sort arith32 (c_gr c) P0 = Ok (P, ids, offs) -> cfg_ok c' -> c_gr c' = c_gr c -> results arith32 c' (mkGrid arith32 P ids offs) rs -> 0 <= x < zlen P -> c_k c' <= zlen P - 1 ->
  validated (c_k c') (zlen P) (out_byte arith32 rs x) -> rowT P x (out_row arith32 c' rs x).
Proof. intros HS Hc Eg Rs Hx K V rho Hrob. exact (slot_robust (c_gr c) P0 P ids offs Hgr Hg3 Hs HO HS (OD _ _ _ HS) c' rs x rho Hc Eg Rs Hx K V Hrob). Qed.

Lemma robust_rec r w : c_recompute c = true -> rec_ok r c (zlen P0) -> exists o, tess_core arith32 w c cpu P0 = Ok o /\ Permutation P0 (o_pts arith32 o) /\ zlen (o_rows arith32 o) = zlen P0 /\ zlen (o_states arith32 o) = zlen P0 /\
  forall i row b rho, znth (o_rows arith32 o) i = Some row -> znth (o_states arith32 o) i = Some b -> robust (map real_pt (o_pts arith32 o)) i rho -> errorless b -> exact_cell (map real_pt (o_pts arith32 o)) i row.
Proof.
  intros Rc HR. destruct (rec_done_run arith32 not_nan (c_gr c) P0 rowT rowT_slot r w c (float_any c P0 HF) eq_refl Rc HR Kn) as (o & R & PP & L1 & L2 & H).
  exists o. do 4 (split; [assumption|]). intros i row b rho Hrow Hb Hrob EB. apply (H i row b Hrow Hb EB rho Hrob).
Qed.

(** all points robust, and room for all of them as candidates *)
Lemma robust_all w : roomy c (zlen P0 - 1) -> (c_recompute c = true \/ zlen P0 - 1 <= c_k c) -> (forall i, 0 <= i < zlen P0 -> exists rho, robust (map real_pt P0) i rho) ->
  exists o, tess_core arith32 w c cpu P0 = Ok o /\ Permutation P0 (o_pts arith32 o) /\ zlen (o_rows arith32 o) = zlen P0 /\ zlen (o_states arith32 o) = zlen P0 /\
  forall i row b, znth (o_rows arith32 o) i = Some row -> znth (o_states arith32 o) i = Some b -> errorless b /\ exact_cell (map real_pt (o_pts arith32 o)) i row.
Proof.
  intros [Ro1 Ro2] Hk HR0.
  assert (HR : forall P, Permutation P0 P -> forall i, 0 <= i < zlen P -> exists rho, robust (map real_pt P) i rho).
  { intros P PP i Hi. apply (robust_perm (map real_pt P0) (map real_pt P)); [now apply Permutation_map| |now rewrite zlen_map]. intros j Hj. rewrite zlen_map in Hj. now apply HR0. }
  assert (Hc : cfg_ok c) by apply HF. destruct Hc as (K1 & K2 & K3). assert (Hc : cfg_ok c) by apply HF.
  destruct (c_recompute c) eqn:Rc.
  - destruct HF as (_ & _ & _ & _ & _ & Hnt & Fit & HkN).
    assert (Hr : in_range_ids arith32 (c_gr c) P0) by (apply in_range32; assumption).
    destruct (xyz_sort_total arith32 (c_gr c) P0 ltac:(lia) Hg3 Hr) as (P & ids & offs & HS).
    pose proof (perm_points arith32 _ _ _ _ _ HS) as PP. pose proof (LP _ _ _ HS) as EL. rewrite <- EL in *.
    set (g := mkGrid arith32 P ids offs).
    assert (Hg : sorted_grid arith32 c g) by (split; [assumption|]; exists P0; auto).
    destruct (results_ex arith32 c g Hc Hg) as [rs Rs].
    assert (N250 : zlen P <= 250) by lia. assert (N2 : 2 <= zlen P) by lia.
    assert (NN : zlen P * zlen P <= int_max) by (unfold int_max; nia).
    assert (NK : zlen P * c_k c <= int_max) by (unfold int_max; nia).
    assert (NP : zlen P * c_pmax c * 4 <= int_max) by (unfold int_max; nia).
    assert (NT : zlen P * c_tmax c * 3 <= int_max) by (unfold int_max; nia).
    set (st := map (out_byte arith32 rs) (zrange 0 (zlen P))).
    assert (Lst : zlen st = zlen P) by (unfold st; rewrite zlen_map, zlen_zrange; lia).
    assert (I0 : ind_ok arith32 g (zrange 0 (zlen P))). { split; [apply NoDup_zrange|]. intros x Hx. apply in_zrange in Hx. exact Hx. }
    assert (SE : forall c' rs x, cfg_ok c' -> c_gr c' = c_gr c -> results arith32 c' g rs -> c_k c' <= zlen P - 1 -> roomy c' (c_k c') -> 0 <= x < zlen P -> errorless (out_byte arith32 rs x)).
    { intros c' rs' x Hc' Eg Rs' K' Ro' Hx. destruct (HR P PP x Hx) as (rho & Hrob). exact (slot_errorless (c_gr c) P0 P ids offs Hgr Hg3 Hs HO HS (OD _ _ _ HS) c' rs' x rho Hc' Eg Rs' Hx K' Hrob Ro'). }
    pose proof (todo_ok arith32 g _ st I0) as Hi.
    assert (G2 : zlen P - 1 <= c_k c * 2 ^ Z.of_nat (Z.to_nat (zlen P))).
    { rewrite Z2Nat.id by lia. pose proof (Z.pow_gt_lin_r 2 (zlen P) ltac:(lia) ltac:(lia)). nia. }
    destruct (rec_errorless arith32 (c_gr c) P0 P ids offs Hgr Hr HS SE (Z.to_nat (zlen P)) c (todo (zrange 0 (zlen P)) st) st (map (out_row arith32 c rs) (zrange 0 (zlen P)))) as (rows' & st' & RR & ES); auto; try lia.
    { split; assumption. }
    { intros x b _ Hb. pose proof (znth_some _ _ _ Hb) as Hx. unfold st in Hb. rewrite znth_map, znth_zrange in Hb by lia. injection Hb as <-. rewrite Z.add_0_l. apply (SE c rs x); auto; [lia|split; lia|lia]. }
    destruct (rec_core_rows arith32 c P0 P ids offs rs rows' st' Hc N2 NK NN NP NT Hgr Hr HS Rs RR) as (o & A1 & A2 & A3 & A4 & A5 & A6 & A7 & A8 & _ & RUN).
    exists o. split; [apply RUN; auto; repeat split|]. rewrite A1. split; [exact PP|]. split; [assumption|]. split; [assumption|].
    intros i row b Hrow Hb. rewrite A3 in Hrow. rewrite A2 in Hb. pose proof (ES i b Hb) as EB. split; [exact EB|]. pose proof (znth_some _ _ _ Hrow) as Hx. rewrite <- A3, A4 in Hx. destruct (HR P PP i Hx) as (rho & Hrob).
    refine (rec_done arith32 (c_gr c) P0 rowT rowT_slot P ids offs HS (fun _ => True) c _ st _ rows' st' RR ltac:(lia) eq_refl Hi Lst _ _ i row b I Hrow Hb EB rho Hrob); [rewrite zlen_map, zlen_zrange; lia|].
    apply (first_done arith32 (c_gr c) P0 rowT rowT_slot P ids offs HS); auto; [lia|]. intros x b0 _ Hb0 Q. pose proof (znth_some _ _ _ Hb0) as Hx0. unfold st in Hb0. rewrite znth_map, znth_zrange in Hb0 by lia. rewrite Z.add_0_l in Hb0. injection Hb0 as <-. exact Q.
  - destruct Hk as [Hk|Hk]; [discriminate|]. destruct (robust_plain w Rc) as (o & R & PP & L1 & L2 & H). exists o. do 4 (split; [assumption|]).
    intros i row b Hrow Hb. pose proof (znth_some _ _ _ Hrow) as Hx. assert (EL : zlen (o_pts arith32 o) = zlen P0) by (unfold zlen; now rewrite (Permutation_length PP)).
    destruct (HR _ PP i ltac:(lia)) as (rho & Hrob). destruct (H i row b rho Hrow Hb Hrob) as (_ & E & V).
    assert (EB : errorless b) by (apply E; split; lia). split; [exact EB|]. apply V. split; [exact EB|right; exact Hk].
Qed.

(** ** on the device *)
Lemma robust_gpu w : dev_ok c (zlen P0) -> c_recompute c = false -> w_gpu arith32 w = true ->
  exists o, tess_core arith32 w c gpu P0 = Ok o /\ Permutation P0 (o_pts arith32 o) /\ zlen (o_rows arith32 o) = zlen P0 /\ zlen (o_states arith32 o) = zlen P0 /\
  forall i row b rho, clean arith32 w [security_radius_reached] i -> znth (o_rows arith32 o) i = Some row -> znth (o_states arith32 o) i = Some b -> robust (map real_pt (o_pts arith32 o)) i rho ->
    validated (c_k c) (zlen P0) b -> exact_cell (map real_pt (o_pts arith32 o)) i row.
Proof.
  intros D Rc Hw. destruct (gpu_single w c P0 HF D Rc Hw) as (o & o' & R & R' & E1 & E2 & _ & ST & _).
  destruct (robust_plain w Rc) as (o2 & R2 & PP & L1 & L2 & H). rewrite R in R2. injection R2 as <-.
  pose proof (gpu_single_len w c P0 o' HF D Rc Hw R') as L3.
  exists o'. split; [assumption|]. rewrite E1, E2. split; [assumption|]. split; [assumption|]. split; [lia|].
  intros i row b rho Cl Hrow Hb Hrob [EB V]. pose proof (znth_some _ _ _ Hrow) as Hi. destruct (znth_in_range (o_states arith32 o) i ltac:(lia)) as [b0 Hb0].
  apply (H i row b0 rho Hrow Hb0 Hrob). 
  assert (Q : forall f, In f flags -> Z.testbit b f = false -> Z.testbit b0 f = false).
  { intros f If Zf. destruct (ST i b0 b Hb0 Hb f If) as [X _]. assert (Pf : 0 <= f) by (simpl in If; unfold security_radius_reached, error_p_overflow, error_t_overflow, error_infinite_boundary, error_nonvalid_vertices, error_nonvalid_neighbor, error_occurred in If; lia).
    rewrite !st_get_testbit in X by assumption. destruct (Z.testbit b0 f); [|reflexivity]. specialize (X eq_refl). congruence. }
  destruct EB as (B1 & B4 & B5 & B6). split; [repeat split; apply Q; simpl; auto 10|]. destruct V as [V|V]; [left|right; exact V].
  destruct (ST i b0 b Hb0 Hb security_radius_reached ltac:(now left)) as [_ X]. rewrite !st_get_testbit in X by (unfold security_radius_reached; lia). destruct (X V) as [Y|Y]; [exact Y|].
  specialize (Cl security_radius_reached ltac:(now left)). rewrite st_get_testbit in Cl by (unfold security_radius_reached; lia). congruence.
Qed.

Lemma robust_gpu_rec r w : dev_ok c (zlen P0) -> c_recompute c = true -> rec_ok r c (zlen P0) -> w_gpu arith32 w = true ->
  exists o, tess_core arith32 w c gpu P0 = Ok o /\ Permutation P0 (o_pts arith32 o) /\ zlen (o_rows arith32 o) = zlen P0 /\ zlen (o_states arith32 o) = zlen P0 /\
  forall i row b rho, clean arith32 w [security_radius_reached] i -> znth (o_rows arith32 o) i = Some row -> znth (o_states arith32 o) i = Some b -> robust (map real_pt (o_pts arith32 o)) i rho ->
    errorless b -> exact_cell (map real_pt (o_pts arith32 o)) i row.
Proof.
  intros (D1 & D2 & D3 & D4 & D5) Rc HR Hw. assert (Hc : cfg_ok c) by apply HF. pose proof HF as (_ & _ & _ & _ & _ & Hnt & Fit & HkN).
  assert (IR : in_range_ids arith32 (c_gr c) P0) by (apply in_range32; assumption).
  destruct (xyz_sort_total arith32 (c_gr c) P0 ltac:(lia) Hg3 IR) as (P & ids & offs & HS).
  pose proof (perm_points arith32 _ _ _ _ _ HS) as PP. pose proof (LP _ _ _ HS) as EL. rewrite <- EL in *.
  assert (HA : knn_agree arith32 (c_gr c) (c_k c) P ids offs). { apply (agree32 (c_gr c) (c_k c) P0); auto; [lia|]. destruct Hc as (K1 & _). lia. }
  destruct (gpu_rec_run arith32 r c P0 P ids offs w) as (rs & st & rows' & st' & o & (Rs & Lst & HST) & Hi & RR & Ro & A1 & A2 & A3 & A4 & A5 & _); auto; [split; auto|].
  exists o. split; [exact Ro|]. rewrite A1. split; [assumption|]. split; [assumption|]. split; [assumption|].
  intros i row b rho Cl Hrow Hb Hrob EB. rewrite A3 in Hrow. rewrite A2 in Hb. assert (K1 : 1 <= c_k c) by apply Hc.
  refine (rec_done arith32 (c_gr c) P0 rowT rowT_slot P ids offs HS (clean arith32 w [security_radius_reached]) c _ st _ rows' st' RR ltac:(lia) eq_refl Hi Lst _ _ i row b Cl Hrow Hb EB rho Hrob);
    [pose proof (zlen_nonneg P); rewrite zlen_map, zlen_zrange; lia|].
  apply (first_done arith32 (c_gr c) P0 rowT rowT_slot P ids offs HS); auto. lia.
Qed.
End F.
