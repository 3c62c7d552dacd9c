(** C85: rows in single precision in the order of the distances. *)
From Verif Require Import Base Arith PBase Prog PProg MUtils MHeap MXyz MKnn MBoundary MCell MDnn MArgs MTess PFlags SpecDnn PDnn SpecGeom SpecSort SpecBnd SpecHeap SpecAny SpecRows SpecVor SpecResult Exact ArithQ
  PXyz PSort PSortFinal SpecSlot PSlotHost PTess PTessRun PTessFinal PGeomFinal PRec PRecFinal PKnnAny PRowsAny PRowsNear Arith32 PFloat PNear32 SpecNear PFloatRows PNoFailApi PRunDone PRobust PRobustApi PRobustRun PRobustFace PRobustCanon PNearRows PText PLock PGpuRun PGpu32
  PSort32 PRobustText PCanon PPy PExactApi PCert.
From Flocq Require Import Core Mult_error IEEE754.BinarySingleNaN.
From Coq Require Import Reals Lra Permutation Sorting.Sorted.
From Verif Require Export SpecSingle SpecRobust SpecParam SpecFlags SpecDev SpecText SpecFace SpecCert SpecOrder.
Import SpecGeom.
Local Open Scope Z_scope.

Section F.
Variables (c : cfg) (P0 : list (point arith32)).
Hypothesis HF : float_ok c P0.
Hypothesis Kn : c_k c < zlen P0.
Let Hgr : 0 < c_gr c. Proof. apply HF. Qed.
Let Hg3 : c_gr c * c_gr c * c_gr c <= int_max. Proof. apply HF. Qed.
Let Hs : safe_res (c_gr c) = true. Proof. apply HF. Qed.
Let HO : Forall open01p P0. Proof. apply HF. Qed.
Let LP P ids offs : xyz_sort arith32 (c_gr c) P0 = Ok (P, ids, offs) -> zlen P = zlen P0.
Proof. intros HS. unfold zlen. now rewrite (Permutation_length (perm_points arith32 _ _ _ _ _ HS)). Qed.
Let OD P ids offs : xyz_sort arith32 (c_gr c) P0 = Ok (P, ids, offs) -> ordered_dists arith32 not_nan P.
Proof. intros HS. apply (ordered_perm arith32 not_nan _ P (perm_points arith32 _ _ _ _ _ HS)). apply (float_any c P0 HF). Qed.

(** C82_all for any property of the rows of validated slots *)
Section T.
Variable T : list (point arith32) -> Z -> list Z -> Prop.
Hypothesis HT : forall P ids offs c' rs x, xyz_sort arith32 (c_gr c) P0 = Ok (P, ids, offs) -> cfg_ok c' -> c_gr c' = c_gr c -> results arith32 c' (mkGrid arith32 P ids offs) rs -> 0 <= x < zlen P -> c_k c' <= zlen P - 1 ->
  validated (c_k c') (zlen P) (out_byte arith32 rs x) -> T P x (out_row arith32 c' rs x).
Lemma robust_all_T w : roomy c (zlen P0 - 1) -> (c_recompute c = true \/ zlen P0 - 1 <= c_k c) -> (forall i, 0 <= i < zlen P0 -> exists rho, robust (map real_pt P0) i rho) ->
  exists o, tess_core arith32 w c cpu P0 = Ok o /\ Permutation P0 (o_pts arith32 o) /\ zlen (o_rows arith32 o) = zlen P0 /\ zlen (o_states arith32 o) = zlen P0 /\
  forall i row b, znth (o_rows arith32 o) i = Some row -> znth (o_states arith32 o) i = Some b -> errorless b /\ T (o_pts arith32 o) i row.
Proof.
  intros [Ro1 Ro2] Hk HR0.
  assert (HR : forall P, Permutation P0 P -> forall i, 0 <= i < zlen P -> exists rho, robust (map real_pt P) i rho).
  { intros P PP i Hi. apply (robust_perm (map real_pt P0) (map real_pt P)); [now apply Permutation_map| |now rewrite zlen_map]. intros j Hj. rewrite zlen_map in Hj. now apply HR0. }
  assert (Hc : cfg_ok c) by apply HF. destruct Hc as (K1 & K2 & K3). assert (Hc : cfg_ok c) by apply HF.
  destruct (c_recompute c) eqn:Rc.
  - destruct HF as (_ & _ & _ & _ & _ & Hnt & Fit & HkN).
    assert (Hr : in_range_ids arith32 (c_gr c) P0) by (apply in_range32; assumption).
    destruct (xyz_sort_total arith32 (c_gr c) P0 ltac:(lia) Hg3 Hr) as (P & ids & offs & HS).
    pose proof (perm_points arith32 _ _ _ _ _ HS) as PP. pose proof (LP _ _ _ HS) as EL. rewrite <- EL in *.
    set (g := mkGrid arith32 P ids offs).
    assert (Hg : sorted_grid arith32 c g) by (split; [assumption|]; exists P0; auto).
    destruct (results_ex arith32 c g Hc Hg) as [rs Rs].
    assert (N250 : zlen P <= 250) by lia. assert (N2 : 2 <= zlen P) by lia.
    assert (NN : zlen P * zlen P <= int_max) by (unfold int_max; nia).
    assert (NK : zlen P * c_k c <= int_max) by (unfold int_max; nia).
    assert (NP : zlen P * c_pmax c * 4 <= int_max) by (unfold int_max; nia).
    assert (NT : zlen P * c_tmax c * 3 <= int_max) by (unfold int_max; nia).
    set (st := map (out_byte arith32 rs) (zrange 0 (zlen P))).
    assert (Lst : zlen st = zlen P) by (unfold st; rewrite zlen_map, zlen_zrange; lia).
    assert (I0 : ind_ok arith32 g (zrange 0 (zlen P))). { split; [apply NoDup_zrange|]. intros x Hx. apply in_zrange in Hx. exact Hx. }
    assert (SE : forall c' rs x, cfg_ok c' -> c_gr c' = c_gr c -> results arith32 c' g rs -> c_k c' <= zlen P - 1 -> roomy c' (c_k c') -> 0 <= x < zlen P -> errorless (out_byte arith32 rs x)).
    { intros c' rs' x Hc' Eg Rs' K' Ro' Hx. destruct (HR P PP x Hx) as (rho & Hrob). exact (slot_errorless (c_gr c) P0 P ids offs Hgr Hg3 Hs HO HS (OD _ _ _ HS) c' rs' x rho Hc' Eg Rs' Hx K' Hrob Ro'). }
    pose proof (todo_ok arith32 g _ st I0) as Hi.
    assert (G2 : zlen P - 1 <= c_k c * 2 ^ Z.of_nat (Z.to_nat (zlen P))).
    { rewrite Z2Nat.id by lia. pose proof (Z.pow_gt_lin_r 2 (zlen P) ltac:(lia) ltac:(lia)). nia. }
    destruct (rec_errorless arith32 (c_gr c) P0 P ids offs Hgr Hr HS SE (Z.to_nat (zlen P)) c (todo (zrange 0 (zlen P)) st) st (map (out_row arith32 c rs) (zrange 0 (zlen P)))) as (rows' & st' & RR & ES); auto; try lia.
    { split; assumption. }
    { intros x b _ Hb. pose proof (znth_some _ _ _ Hb) as Hx. unfold st in Hb. rewrite znth_map, znth_zrange in Hb by lia. injection Hb as <-. rewrite Z.add_0_l. apply (SE c rs x); auto; [lia|split; lia|lia]. }
    destruct (rec_core_rows arith32 c P0 P ids offs rs rows' st' Hc N2 NK NN NP NT Hgr Hr HS Rs RR) as (o & A1 & A2 & A3 & A4 & A5 & A6 & A7 & A8 & _ & RUN).
    exists o. split; [apply RUN; auto; repeat split|]. rewrite A1. split; [exact PP|]. split; [assumption|]. split; [assumption|].
    intros i row b Hrow Hb. rewrite A3 in Hrow. rewrite A2 in Hb. pose proof (ES i b Hb) as EB. split; [exact EB|]. pose proof (znth_some _ _ _ Hrow) as Hx. rewrite <- A3, A4 in Hx. destruct (HR P PP i Hx) as (rho & Hrob).
    refine (rec_done arith32 (c_gr c) P0 T HT P ids offs HS (fun _ => True) c _ st _ rows' st' RR ltac:(lia) eq_refl Hi Lst _ _ i row b I Hrow Hb EB); [rewrite zlen_map, zlen_zrange; lia|].
    apply (first_done arith32 (c_gr c) P0 T HT P ids offs HS); auto; [lia|]. intros x b0 _ Hb0 Q. pose proof (znth_some _ _ _ Hb0) as Hx0. unfold st in Hb0. rewrite znth_map, znth_zrange in Hb0 by lia. rewrite Z.add_0_l in Hb0. injection Hb0 as <-. exact Q.
  - destruct Hk as [Hk|Hk]; [discriminate|]. set (TT := fun P i (row : list Z) b => validated (c_k c) (zlen P0) b -> T P i row).
    destruct (robust_plain c P0 HF Kn w Rc) as (o & R & PP & L1 & L2 & H).
    destruct (plain_slots arith32 not_nan c P0 TT) with (w := w) as (o' & R' & _ & _ & _ & H'); auto.
    { intros P ids offs rs x HS Rs Hx V. pose proof (LP _ _ _ HS) as EL. rewrite <- EL in V. apply (HT P ids offs c rs x); auto. lia. }
    { now apply float_any. }
    rewrite R in R'. injection R' as <-. exists o. do 4 (split; [assumption|]).
    intros i row b Hrow Hb. pose proof (znth_some _ _ _ Hrow) as Hx. assert (EL : zlen (o_pts arith32 o) = zlen P0) by (unfold zlen; now rewrite (Permutation_length PP)).
    destruct (HR _ PP i ltac:(lia)) as (rho & Hrob). destruct (H i row b rho Hrow Hb Hrob) as (_ & E & V).
    assert (EB : errorless b) by (apply E; split; lia). split; [exact EB|]. apply (H' i row b Hrow Hb). split; [exact EB|right; exact Hk].
Qed.
End T.

Lemma order_slot P ids offs c' rs x : xyz_sort arith32 (c_gr c) P0 = Ok (P, ids, offs) -> cfg_ok c' -> c_gr c' = c_gr c -> results arith32 c' (mkGrid arith32 P ids offs) rs -> 0 <= x < zlen P -> c_k c' <= zlen P - 1 ->
  validated (c_k c') (zlen P) (out_byte arith32 rs x) -> ordered_within eps20 (real_dist P x) (out_row arith32 c' rs x).
Proof.
  intros HS Hc Eg Rs Hx K _. assert (Hr : in_range_ids arith32 (c_gr c) P0) by (apply in_range32; assumption).
  destruct (slot_near arith32 not_nan (c_gr c) P0 P ids offs Hgr Hr HS (OD _ _ _ HS) c' rs x Hc Eg Rs Hx K) as (near & _ & KL & TK & _).
  pose proof (near32 (c_gr c) P0 Hgr Hg3 Hs HO P ids offs x near HS Hx KL) as NW. now destruct (taken_ordered _ _ _ _ _ NW TK).
Qed.
Lemma robust_ordered w : roomy c (zlen P0 - 1) -> (c_recompute c = true \/ zlen P0 - 1 <= c_k c) -> (forall i, 0 <= i < zlen P0 -> exists rho, robust (map real_pt P0) i rho) ->
  exists o, tess_core arith32 w c cpu P0 = Ok o /\ Permutation P0 (o_pts arith32 o) /\
  forall i row b, znth (o_rows arith32 o) i = Some row -> znth (o_states arith32 o) i = Some b -> ordered_within eps20 (real_dist (o_pts arith32 o) i) row.
Proof.
  intros Ro Hk HR. destruct (robust_all_T (fun P x row => ordered_within eps20 (real_dist P x) row) order_slot w Ro Hk HR) as (o & R & PP & _ & _ & H). exists o. split; [exact R|]. split; [exact PP|]. intros i row b Er Eb. apply (H i row b Er Eb).
Qed.
End F.

Lemma d2_comm p q : d2 p q = d2 q p.
Proof. destruct p as [[a b] c], q as [[a' b'] c']. unfold d2. ring. Qed.
Lemma real_apart (P : list (point arith32)) i j : real_dist P i j = sqrt (apart2 (map real_pt P) i j).
Proof.
  unfold real_dist, apart2. rewrite !znth_map. destruct (znth P i), (znth P j); cbn [option_map]; rewrite ?sqrt_0; auto. now rewrite d2_comm.
Qed.
Lemma apart_pos S i j : (0 <= apart2 S i j)%R.
Proof.
  unfold apart2. destruct (znth S i) as [[[a b] d]|], (znth S j) as [[[a' b'] d']|]; try lra. unfold d2.
  pose proof (pow2_ge_0 (a - a')). pose proof (pow2_ge_0 (b - b')). pose proof (pow2_ge_0 (d - d')). lra.
Qed.
(** out of order by at most 2^-20, and more than that apart: in order *)
Lemma spread_sorted S i row : spread S -> 0 <= i < zlen S -> NoDup row -> (forall j, In j row -> others (zlen S) i j) -> ordered_within eps20 (fun j => sqrt (apart2 S i j)) row ->
  StronglySorted (fun j j' => (apart2 S i j < apart2 S i j')%R) row.
Proof.
  intros HS Hi. induction row as [|a row IH]; intros ND HI HO; [constructor|]. inversion_clear ND as [|? ? N1 N2]. inversion_clear HO as [|? ? O1 O2].
  constructor; [apply IH; auto; intros; apply HI; now right|]. rewrite Forall_forall in *. intros b Hb. specialize (O2 b Hb).
  assert (Nab : a <> b) by congruence. pose proof (HS i a b (HI a (or_introl eq_refl)) (HI b (or_intror Hb)) Hi Nab) as Q.
  apply sqrt_lt_0_alt. destruct (Rle_or_lt (sqrt (apart2 S i b)) (sqrt (apart2 S i a))) as [L|L]; [|exact L]. rewrite Rabs_pos_eq in Q by lra. lra.
Qed.
Lemma sorted_unique {A} (lt : A -> A -> Prop) : (forall a b, lt a b -> lt b a -> False) -> forall l l', StronglySorted lt l -> StronglySorted lt l' -> (forall x, In x l <-> In x l') -> l = l'.
Proof.
  intros As. assert (Ir : forall a, ~ lt a a) by (intros a H; exact (As a a H H)).
  induction l as [|a l IH]; intros [|b l'] S1 S2 I; auto; [destruct (proj2 (I b) (or_introl eq_refl))|destruct (proj1 (I a) (or_introl eq_refl))|].
  inversion_clear S1 as [|? ? A1 A2]. inversion_clear S2 as [|? ? B1 B2]. rewrite Forall_forall in A2, B2.
  assert (E : a = b).
  { destruct (proj1 (I a) (or_introl eq_refl)) as [E|Ha]; [auto|]. destruct (proj2 (I b) (or_introl eq_refl)) as [E|Hb]; [auto|]. exfalso. exact (As a b (A2 b Hb) (B2 a Ha)). }
  subst b. f_equal. apply IH; auto. intros x. split; intros Hx.
  - destruct (proj1 (I x) (or_intror Hx)) as [<-|H]; [|exact H]. exfalso. exact (Ir a (A2 a Hx)).
  - destruct (proj2 (I x) (or_intror Hx)) as [<-|H]; [|exact H]. exfalso. exact (Ir a (B2 a Hx)).
Qed.
Lemma ordered_unique S rows rows' : ordered_face_rows S rows -> ordered_face_rows S rows' -> rows = rows'.
Proof.
  intros [[L1 F1] O1] [[L2 F2] O2]. apply znth_ext_range; [lia|]. intros i Hi. destruct (znth_in_range rows i Hi) as [r Er]. destruct (znth_in_range rows' i ltac:(lia)) as [r' Er'].
  rewrite Er, Er'. f_equal. apply (sorted_unique (fun j j' => (apart2 S i j < apart2 S i j')%R)); eauto; [intros; lra|].
  intros x. destruct (F1 i r Er) as [_ Q1]. destruct (F2 i r' Er') as [_ Q2]. now rewrite Q1, Q2.
Qed.

Lemma face_others S i j : face S i j -> j <> i -> others (zlen S) i j.
Proof. intros (p & q & x & _ & Ej & _) N. split; [exact (znth_some _ _ _ Ej)|exact N]. Qed.
Lemma spread_perm S S' : Permutation S S' -> spread S -> spread S'.
Proof.
  intros PP H i j j' [Hj Nj] [Hj' Nj'] Hi N. assert (LS : zlen S' = zlen S) by (unfold zlen; now rewrite (Permutation_length PP)). rewrite LS in *.
  destruct (perm_index S S' PP) as (f & Hf & Inj & _). destruct (Hf i Hi) as [Ri Ei]. destruct (Hf j Hj) as [Rj Ej]. destruct (Hf j' Hj') as [Rj' Ej'].
  unfold apart2. rewrite Ei, Ej, Ej'. assert (NE : forall a b, 0 <= a < zlen S -> 0 <= b < zlen S -> a <> b -> f a <> f b) by (intros a b Ha Hb Nab E; apply Nab; now apply Inj).
  apply (H (f i) (f j) (f j')); auto; split; auto.
Qed.

(** the rows of a call on robust points with distances apart *)
Lemma ordered_core c P0 (w : world arith32) : full_cfg c (zlen P0) -> Forall open01p P0 -> all_robust (map real_pt P0) -> spread (map real_pt P0) ->
  exists o, tess_core arith32 w c cpu P0 = Ok o /\ stable_sort_of (fun p => cell32 (c_gr c) (real_pt p)) P0 (o_pts arith32 o) /\ ordered_face_rows (map real_pt (o_pts arith32 o)) (o_rows arith32 o) /\ 
    Forall errorless (o_states arith32 o) /\ shows (o_dnn arith32 o) (o_rows arith32 o).
Proof.
  intros HC HO HR HS. destruct (robust_core c P0 w HC HO HR) as (o & R & SS & FR & ES & SH & _). exists o. split; [exact R|]. split; [exact SS|]. split; [|split; assumption]. split; [exact FR|].
  intros i row Er. assert (PP : Permutation P0 (o_pts arith32 o)) by apply SS.
  assert (HR' : forall j, 0 <= j < zlen P0 -> exists rho, robust (map real_pt P0) j rho) by (intros j Hj; apply HR; now rewrite zlen_map).
  pose proof (float_cfg_ok c P0 (proj1 HC) HO) as HF. destruct HC as (_ & Kn & Ro & Hk).
  destruct (robust_all c P0 HF Kn w Ro Hk HR') as (o2 & R2 & _ & L1 & L2 & _). rewrite R in R2. injection R2 as <-.
  destruct (robust_ordered c P0 HF Kn w Ro Hk HR') as (o2 & R2 & _ & H). rewrite R in R2. injection R2 as <-.
  pose proof (znth_some _ _ _ Er) as Hi. destruct (znth_in_range (o_states arith32 o) i ltac:(lia)) as [b Eb]. specialize (H i row b Er Eb).
  destruct (proj2 FR i row Er) as [ND IN]. apply spread_sorted; auto.
  - apply (spread_perm (map real_pt P0)); [now apply Permutation_map|assumption].
  - destruct FR as [LF _]. lia.
  - intros j Hj. apply IN in Hj as [Nj Fj]. now apply face_others.
  - unfold ordered_within in *. clear - H. induction H as [|a l S IH Fo]; constructor; auto. rewrite Forall_forall in *. intros x Hx. rewrite <- !real_apart. now apply Fo.
Qed.

(** ** two calls *)
Lemma key_sort {A} (key key' : A -> Z) l l' : (forall x, In x l -> key x = key' x) -> stable_sort_of key l l' -> stable_sort_of key' l l'.
Proof.
  intros K (P & S & F). assert (K' : forall x, In x l' -> key x = key' x) by (intros x Hx; apply K; eapply Permutation_in; [apply Permutation_sym; exact P|exact Hx]).
  split; [exact P|]. split.
  - clear - S K'. unfold sorted_by in *. induction S as [|a l S IH Fo]; constructor.
    + apply IH. intros; apply K'; now right.
    + rewrite Forall_forall in *. intros x Hx. rewrite <- !K' by (simpl; auto). now apply Fo.
  - assert (G : forall m c, (forall x, In x m -> key x = key' x) -> filter (fun x => key' x =? c) m = filter (fun x => key x =? c) m).
    { intros m c. induction m as [|a m IH]; intros Hm; [reflexivity|]. simpl. rewrite (Hm a) by now left. destruct (key' a =? c); rewrite IH by (intros; apply Hm; now right); reflexivity. }
    intros c. rewrite !G by assumption. apply F.
Qed.

Lemma ordered_same (w w' : world arith32) c c' P0 : full_cfg c (zlen P0) -> full_cfg c' (zlen P0) -> c_gr c' = c_gr c -> Forall open01p P0 -> all_robust (map real_pt P0) -> spread (map real_pt P0) ->
  exists o o', tess_core arith32 w c cpu P0 = Ok o /\ tess_core arith32 w' c' cpu P0 = Ok o' /\ o_pts arith32 o' = o_pts arith32 o /\ o_rows arith32 o' = o_rows arith32 o /\ o_dnn arith32 o' = o_dnn arith32 o.
Proof.
  intros H H' Eg HO HR HS. destruct (ordered_core c P0 w H HO HR HS) as (o & R & SS & OF & _). destruct (ordered_core c' P0 w' H' HO HR HS) as (o' & R' & SS' & OF' & _).
  exists o, o'. split; [exact R|]. split; [exact R'|]. rewrite Eg in SS'. assert (EP : o_pts arith32 o' = o_pts arith32 o) by exact (stable_sort_unique _ _ _ _ SS' SS). rewrite EP in *.
  assert (ER : o_rows arith32 o' = o_rows arith32 o) by exact (ordered_unique _ _ _ OF' OF). split; [reflexivity|]. split; [exact ER|].
  destruct (core_inv _ _ _ _ _ _ R) as [_ G]. destruct (core_inv _ _ _ _ _ _ R') as [_ G']. rewrite ER in G'. congruence.
Qed.

Lemma exact_ordered N (E : Exact N) (w : world N) c P0 : enough N E c P0 -> all_robust (map (valp N E) P0) -> spread (map (valp N E) P0) ->
  exists o, tess_core N w c cpu P0 = Ok o /\ stable_sort_of (fun p => grid_cell (c_gr c) (valp N E p)) P0 (o_pts N o) /\ ordered_face_rows (map (valp N E) (o_pts N o)) (o_rows N o).
Proof.
  intros HE HR HS. destruct (enough_complete N E w c P0 HE) as (o & R & (PP & L1 & L2 & SH & ES & EX)). exists o. split; [exact R|]. destruct (core_inv _ _ _ _ _ _ R) as [(ids & offs & X) _].
  destruct (enough_inside N E c P0 HE) as (G1 & G2 & G3). split; [eapply sort_geometric; eauto|]. set (S := map (valp N E) (o_pts N o)) in *.
  assert (PS : Permutation (map (valp N E) P0) S) by now apply Permutation_map.
  assert (LS : zlen S = zlen P0) by (unfold S; rewrite zlen_map; unfold zlen; now rewrite (Permutation_length PP)).
  pose proof (spread_perm _ _ PS HS) as HS'. assert (HR' : forall i, 0 <= i < zlen S -> exists rho, robust S i rho) by (apply (robust_perm (map (valp N E) P0)); assumption).
  assert (ROW : forall i row, znth (o_rows N o) i = Some row -> (NoDup row /\ forall j, In j row <-> j <> i /\ face S i j) /\ StronglySorted (fun j j' => (apart2 S i j < apart2 S i j')%R) row).
  { intros i row Er. destruct (EX i row Er) as ((ND & DI & _ & SO) & TO & FA & BO). pose proof (znth_some _ _ _ Er) as Hi. destruct (HR' i ltac:(lia)) as [rho Hrob].
    assert (EC : exact_cell S i row). { split; [exact ND|]. split; [|split; [exact TO|split; assumption]]. intros Hin. destruct (DI i Hin) as (p & q & E1 & E2 & N0). congruence. }
    pose proof (robust_row S i rho row Hrob ltac:(lia) EC) as RW. split; [split; assumption|].
    apply spread_sorted; auto; [lia|intros j Hj; apply RW in Hj as [Nj Fj]; now apply face_others|].
    apply sorted_at. intros a b j j' Hab Ea Eb. assert (0 < eps20)%R by (unfold eps20; lra).
    assert (Q : (apart2 S i j <= apart2 S i j')%R).
    { destruct (znth_in_range S i ltac:(lia)) as [p Ep]. destruct (TO j (znth_in _ _ _ Ea)) as (_ & q & _ & _ & Eq & _). destruct (TO j' (znth_in _ _ _ Eb)) as (_ & q' & _ & _ & Eq' & _).
      unfold apart2. rewrite Ep, Eq, Eq'. exact (SO a b j j' p q q' Hab Ea Eb Ep Eq Eq'). }
    apply sqrt_le_1_alt in Q. lra. }
  split; [split; [lia|]|]; intros i row Er; apply (ROW i row Er).
Qed.

(** single precision gives the result of exact arithmetic, if the points fall into the same cells *)
Lemma ordered_as_exact (w : world arith32) c P0 N (E : Exact N) (w' : world N) c' P0' : full_cfg c (zlen P0) -> Forall open01p P0 -> all_robust (map real_pt P0) -> spread (map real_pt P0) ->
  map (valp N E) P0' = map real_pt P0 -> enough N E c' P0' -> (forall p, In p P0 -> cell32 (c_gr c) (real_pt p) = grid_cell (c_gr c') (real_pt p)) ->
  exists o o', tess_core arith32 w c cpu P0 = Ok o /\ tess_core N w' c' cpu P0' = Ok o' /\
    map (valp N E) (o_pts N o') = map real_pt (o_pts arith32 o) /\ o_rows N o' = o_rows arith32 o /\ o_dnn N o' = o_dnn arith32 o.
Proof.
  intros HC HO HR HS EV HE HK. destruct (ordered_core c P0 w HC HO HR HS) as (o & R & SS & OF & _).
  rewrite <- EV in HR, HS. destruct (exact_ordered N E w' c' P0' HE HR HS) as (o' & R' & SS' & OF'). exists o, o'. split; [exact R|]. split; [exact R'|].
  apply (key_sort _ (fun p => grid_cell (c_gr c') (real_pt p)) _ _ HK) in SS. apply (stable_sort_map real_pt) in SS. apply (stable_sort_map (valp N E)) in SS'. rewrite EV in SS'.
  assert (EP := stable_sort_unique _ _ _ _ SS' SS). rewrite EP in OF'. assert (ER := ordered_unique _ _ _ OF' OF). split; [exact EP|]. split; [exact ER|].
  destruct (core_inv _ _ _ _ _ _ R) as [_ G]. destruct (core_inv _ _ _ _ _ _ R') as [_ G']. rewrite ER in G'. congruence.
Qed.

(** a resolution that is a power of two: the cells are the true ones *)
Lemma cell_pow2 m p : 0 <= m <= 10 -> open01p p -> cell32 (2 ^ m) (real_pt p) = grid_cell (2 ^ m) (real_pt p).
Proof.
  intros Hm Op. assert (E2 : IZR (2 ^ m) = bpow radix2 m) by (rewrite <- (IZR_Zpower radix2) by lia; reflexivity).
  assert (G : nearest (1 / IZR (2 ^ m)) = bpow radix2 (- m)).
  { rewrite E2. replace (1 / bpow radix2 m)%R with (bpow radix2 (- m)) by (rewrite bpow_opp; field; apply Rgt_not_eq, bpow_gt_0). unfold nearest. apply round_generic; [apply valid_rnd_N|]. apply generic_format_bpow. unfold SpecFloat.fexp, SpecFloat.emin. lia. }
  assert (C : forall x : f32, coord32 (2 ^ m) (B2R x) = Int_part (B2R x * IZR (2 ^ m))).
  { intros x. unfold coord32. rewrite G, E2. f_equal. replace (B2R x / bpow radix2 (- m))%R with (B2R x * bpow radix2 m)%R by (rewrite bpow_opp; field; apply Rgt_not_eq, bpow_gt_0).
    unfold nearest. apply round_generic; [apply valid_rnd_N|]. apply (mult_bpow_pos_exact_FLT radix2 (-149) 24); [|lia]. apply (generic_format_B2R 24 128 x). }
  destruct p as [[x y] z]. unfold real_pt, cell32, grid_cell. now rewrite !C.
Qed.

(** ** the integer test *)
Lemma spread_test U S : 0 < U -> spreadb U S = true -> spread (map (upt U) S).
Proof.
  intros HU. unfold spreadb. rewrite andb_true_iff. intros [HB HA] i j j' [Hj Nj] [Hj' Nj'] Hi N. rewrite zlen_map in *.
  destruct (znth_in_range S i Hi) as [p Ep]. destruct (znth_in_range S j Hj) as [q Eq]. destruct (znth_in_range S j' Hj') as [q' Eq'].
  pose proof (all_in _ _ HA i (proj2 (in_zrange 0 (zlen S) i) ltac:(lia))) as H1. cbv beta in H1. rewrite Ep in H1.
  pose proof (all_in _ _ H1 j (proj2 (in_zrange 0 (zlen S) j) ltac:(lia))) as H2. cbv beta in H2. rewrite Eq in H2.
  pose proof (all_in _ _ H2 j' (proj2 (in_zrange 0 (zlen S) j') ltac:(lia))) as H3. cbv beta in H3. rewrite Eq' in H3.
  replace (j =? j') with false in H3 by lia. replace (j =? i) with false in H3 by lia. replace (j' =? i) with false in H3 by lia. cbn [orb] in H3. apply Z.ltb_lt in H3. clear H1 H2 HA.
  assert (BX : forall k r, znth S k = Some r -> let '(a, b, d) := r in 0 <= a <= U /\ 0 <= b <= U /\ 0 <= d <= U).
  { intros k r Er. pose proof (all_in _ _ HB r (znth_in _ _ _ Er)) as Q. destruct r as [[a b] d]. unfold in_box in Q. rewrite !andb_true_iff, !Z.leb_le in Q. lia. }
  pose proof (BX _ _ Ep) as Bp. pose proof (BX _ _ Eq) as Bq. pose proof (BX _ _ Eq') as Bq'. clear BX HB.
  assert (UP : (0 < IZR U)%R) by (apply IZR_lt; exact HU).
  assert (D : forall a b, d2 (upt U a) (upt U b) = (IZR (zd2 a b) / (IZR U * IZR U))%R).
  { intros [[a b] d] [[a' b'] d']. unfold upt, d2, zd2. rewrite !plus_IZR, !mult_IZR, !minus_IZR. field. lra. }
  unfold apart2. rewrite !znth_map, Ep, Eq, Eq'. cbn [option_map]. rewrite !D. set (A := zd2 p q) in *. set (B := zd2 p q') in *.
  assert (SQ1 : forall a a', 0 <= a <= U -> 0 <= a' <= U -> 0 <= (a - a') * (a - a') <= U * U) by (clear; intros; split; [apply Z.square_nonneg|]; assert (- U <= a - a' <= U) by lia; nia).
  assert (RA : 0 <= A <= 3 * (U * U)). { unfold A, zd2. destruct p as [[a b] d], q as [[a' b'] d']. pose proof (SQ1 a a'). pose proof (SQ1 b b'). pose proof (SQ1 d d'). lia. }
  assert (RB : 0 <= B <= 3 * (U * U)). { unfold B, zd2. destruct p as [[a b] d], q' as [[a' b'] d']. pose proof (SQ1 a a'). pose proof (SQ1 b b'). pose proof (SQ1 d d'). lia. }
  clearbody A B. set (u := IZR U) in *.
  assert (SQ : forall z, 0 <= z <= 3 * (U * U) -> exists s, sqrt (IZR z / (u * u)) = s /\ (0 <= s < 2)%R /\ (s * s = IZR z / (u * u))%R).
  { intros z Hz. exists (sqrt (IZR z / (u * u))). split; [reflexivity|]. assert (Z0 : (0 <= IZR z)%R) by (apply IZR_le; lia). assert (Z1 : (IZR z <= 3 * (u * u))%R) by (unfold u; rewrite <- !mult_IZR; apply IZR_le; lia).
    assert (UU : (0 < u * u)%R) by (apply Rmult_lt_0_compat; assumption). assert (Q0 : (0 <= IZR z / (u * u))%R) by (apply Rmult_le_pos; [assumption|apply Rlt_le, Rinv_0_lt_compat, UU]).
    assert (Q1 : (IZR z / (u * u) <= 3)%R) by (apply (Rmult_le_reg_r (u * u)); [assumption|]; unfold Rdiv; rewrite Rmult_assoc, Rinv_l by lra; lra).
    pose proof (sqrt_pos (IZR z / (u * u))) as SP. pose proof (sqrt_sqrt _ Q0) as SS. split; [split; [exact SP|]|exact SS]. set (s := sqrt _) in *. clearbody s. clear - SP SS Q1. nra. }
  destruct (SQ A RA) as (s & -> & Rs & Es). destruct (SQ B RB) as (t & -> & Rt & Et). clear SQ.
  assert (H4 : (4 * (u * u) < Rabs (IZR A - IZR B) * 1048576)%R).
  { apply IZR_lt in H3. rewrite !mult_IZR, abs_IZR, minus_IZR in H3. unfold u. lra. }
  assert (UU : (0 < u * u)%R) by (apply Rmult_lt_0_compat; assumption).
  assert (EA : (IZR A - IZR B = (s - t) * (s + t) * (u * u))%R). { replace ((s - t) * (s + t) * (u * u))%R with ((s * s - t * t) * (u * u))%R by ring. rewrite Es, Et. field. lra. }
  rewrite EA, (Rabs_mult ((s - t) * (s + t))), (Rabs_mult (s - t)), (Rabs_pos_eq (s + t)), (Rabs_pos_eq (u * u)) in H4 by lra. unfold eps20. pose proof (Rabs_pos (s - t)) as AP. set (r := Rabs (s - t)) in *. clearbody r.
  assert (H5 : (4 < r * (s + t) * 1048576)%R) by (apply (Rmult_lt_reg_r (u * u)); [assumption|]; lra). clear - H5 AP Rs Rt. nra.
Qed.

(** ** on the device *)
Lemma device_faces c P0 (w : world arith32) : full_cfg c (zlen P0) -> Forall open01p P0 -> all_robust (map real_pt P0) -> dev_ok c (zlen P0) -> w_gpu arith32 w = true ->
  c_recompute c = false \/ (forall x, jZ arith32 (w_junk arith32 w) x = st_init) ->
  exists o, tess_core arith32 w c gpu P0 = Ok o /\ stable_sort_of (fun p => cell32 (c_gr c) (real_pt p)) P0 (o_pts arith32 o) /\ face_rows (map real_pt (o_pts arith32 o)) (o_rows arith32 o) /\
    shows (o_dnn arith32 o) (o_rows arith32 o) /\ dnn_savetxt (o_dnn arith32 o) = Ok (lines_text show_int (o_rows arith32 o)) /\
    (spread (map real_pt P0) -> ordered_face_rows (map real_pt (o_pts arith32 o)) (o_rows arith32 o)).
Proof.
  intros HC HO HR HD HG HJ. destruct (robust_core c P0 w HC HO HR) as (o & R & SS & FR & _ & SH & ST & _). pose proof (float_cfg_ok c P0 (proj1 HC) HO) as HF.
  assert (OR : spread (map real_pt P0) -> ordered_face_rows (map real_pt (o_pts arith32 o)) (o_rows arith32 o)).
  { intros HS. destruct (ordered_core c P0 w HC HO HR HS) as (o2 & R2 & _ & Q & _). rewrite R in R2. now injection R2 as <-. }
  destruct HJ as [Rc|HZ].
  - destruct (gpu_single w c P0 HF HD Rc HG) as (o1 & o' & R1 & R' & E1 & E2 & E3 & _). rewrite R in R1. injection R1 as <-. exists o'. rewrite E1, E2, E3. auto 8.
  - exists o. rewrite (gpu_single_zero w c P0 HF HD HZ). auto 8.
Qed.
