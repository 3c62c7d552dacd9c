(** One slot on the host and the same slot on the device. *)
From Verif Require Import Base Arith PBase Exact Prog PProg MUtils MHeap MXyz MKnn MBoundary MCell MDnn MArgs MTess PFlags PSort PFill PHeap PReloc PHeapFinal
  SpecSort PXyz PSortFinal SpecGeom SpecKnn PExact PGrid PKnnSel PKnn PKnnFinal PLock SpecBnd PBnd PCellSim PCellRun PCell PCellRow PKnnSafe PSlot PWalk SpecSlot PSlotHost PSlotFinal PPool PRanges PTess.
Local Open Scope prog_scope.

(** ** a program that can only do more *)
Section Ref.
Context {F : Type}.
Definition pref {A} (p p' : prog F A) : Prop := forall W m r, run_in W p m = Ok r -> run_in W p' m = Ok r.
Lemma pref_refl {A} (p : prog F A) : pref p p.
Proof. intros W m r H. exact H. Qed.
Lemma pref_bind {A B} (p p' : prog F A) (f f' : A -> prog F B) : pref p p' -> (forall a, pref (f a) (f' a)) -> pref (bind p f) (bind p' f').
Proof.
  intros H1 H2 W m r. rewrite !run_in_bind. destruct (run_in W p m) as [[a m1]|e] eqn:E; [|discriminate]. rewrite (H1 _ _ _ E). apply H2.
Qed.
Lemma pref_forM {X} (l : list X) f f' : (forall x, pref (f x) (f' x)) -> pref (@forM F X l f) (forM l f').
Proof. intros H. induction l as [|x l IH]; cbn [forM]; [apply pref_refl|]. apply pref_bind; auto. Qed.
Lemma pref_opt {A} (o o' : option A) : (forall x, o = Some x -> o' = Some x) -> pref (@pure_opt F A o) (pure_opt o').
Proof. intros H. destruct o as [x|]; [rewrite (H x eq_refl); apply pref_refl|]. intros W m r E. discriminate. Qed.
End Ref.

Section More.
Variable N : Arith.
Notation F := (F N).
Variables pts pts' : Z -> option (point N).
Hypothesis Hp : forall q x, pts q = Some x -> pts' q = Some x.

Lemma visit_pref ad dev k index q p : pref (knn_visit N ad pts dev k index q p) (knn_visit N ad pts' dev k index q p).
Proof.
  unfold knn_visit. destruct (p =? index); [apply pref_refl|]. apply pref_bind; [apply pref_opt; intros; now apply Hp|]. intros pp. apply pref_refl.
Qed.
Lemma cellk_pref ad dev k gr offset index q c : pref (knn_cell N ad pts dev k gr offset index q c) (knn_cell N ad pts' dev k gr offset index q c).
Proof.
  destruct c as [[x y] z]. unfold knn_cell. do 2 (apply pref_bind; [apply pref_refl|]; intros ?). apply pref_forM. intros p. apply visit_pref.
Qed.
Lemma shells_pref ad dev k gr gl mn offset index q px py pz rs :
  pref (knn_shells N ad pts dev rs k gr gl mn offset index q px py pz) (knn_shells N ad pts' dev rs k gr gl mn offset index q px py pz).
Proof.
  induction rs as [|r rs IH]; cbn [knn_shells]; [apply pref_refl|]. apply pref_bind; [apply pref_forM; intros c; apply cellk_pref|]. intros _.
  apply pref_bind; [apply pref_refl|]. intros top. destruct (flt N top _); [apply pref_refl|exact IH].
Qed.
Lemma knn_pref ad dev wp refs refs' k gr gra ids offs index : refs' index = refs index ->
  pref (knn_compute N ad pts dev wp refs k gr gra ids offs index) (knn_compute N ad pts' dev wp refs' k gr gra ids offs index).
Proof.
  intros E. unfold knn_compute. rewrite E. do 3 (apply pref_bind; [apply pref_refl|]; intros ?). apply pref_bind; [apply shells_pref|]. intros _. apply pref_refl.
Qed.
Lemma cnb_pref wc L pmax tmax index p nb ps ts :
  pref (cell_neighbor N wc L pmax tmax index pts p nb ps ts) (cell_neighbor N wc L pmax tmax index pts' p nb ps ts).
Proof.
  unfold cell_neighbor. apply pref_bind; [apply pref_refl|]. intros q. apply pref_bind; [apply pref_opt; intros; now apply Hp|]. intros qp. apply pref_refl.
Qed.
Lemma cloop_pref wc L pmax tmax index p nbs : forall ps ts,
  pref (cell_loop N wc L pmax tmax index pts nbs p ps ts) (cell_loop N wc L pmax tmax index pts' nbs p ps ts).
Proof.
  induction nbs as [|nb nbs IH]; intros ps ts; cbn [cell_loop]; [apply pref_refl|]. apply pref_bind; [apply cnb_pref|].
  intros [ps' ts'|ps' ts'|]; [apply IH|apply pref_refl|apply pref_refl].
Qed.
Lemma cell_pref wc brk L k pmax tmax index refs refs' : refs' index = refs index ->
  pref (cell_compute N wc brk L k pmax tmax index pts refs) (cell_compute N wc brk L k pmax tmax index pts' refs').
Proof.
  intros E. unfold cell_compute. rewrite E. do 2 (apply pref_bind; [apply pref_refl|]; intros ?). apply pref_bind; [apply cloop_pref|]. intros o. apply pref_refl.
Qed.
End More.

(** ** one slot, given what its two stages do *)
Section From.
Variable N : Arith.
Notation F := (F N).
Variable pts : Z -> option (point N).
Variable dev : bool.
Variable wp : Z -> Z.
Variables k pmax tmax gr gr_arg : Z.
Variables ids offs : list Z.
Variable refs : Z -> option (point N).
Hypothesis Hk : 0 < k.
Hypothesis Hpm : 6 <= pmax <= 255.
Hypothesis Htm : 8 <= tmax.

Definition cell_fact (K : list Z) (p : point N) (D0 : list Z) (o : nbout) (s : cst N) (cl : bool) : Prop :=
  forall wc brk pq refs Pl Tr C b, wc_ok wc (Z.min tmax (2 * pmax - 6)) ->
    zlen Pl = pmax -> zlen Tr = tmax -> zlen C = pmax -> 0 <= b < 256 -> refs 0 = Some p ->
    exists Pl' Tr' C' D',
      run (cell_compute N wc brk lay0 k pmax tmax 0 pts refs) (cm N pq Pl Tr C K D0 b) =
        Ok (tt, cm N pq Pl' Tr' C' (row_after N k K o s) D' (loop_byte cl o b)) /\
      zlen Pl' = pmax /\ zlen Tr' = tmax /\ zlen C' = pmax /\ zlen D' = k /\
      (ok_out o = true -> (exists Pj, Pl' = cP N s ++ Pj) /\ (exists Tj, Tr' = cT N s ++ Tj) /\ D' = cD N s).

Lemma slot_from index p h0 h D0 o s cl : refs index = Some p -> zlen h0 = k -> zlen h = k -> zlen D0 = k ->
  run (knn_compute N (fun j => j) pts dev wp refs k gr gr_arg ids offs index) (hmem N (emem N) h0) = Ok (tt, hmem N (emem N) h) ->
  cell_fact (map fst h) p D0 o s cl ->
  forall wc brk ad L phi m b, wc_ok wc (Z.min tmax (2 * pmax - 6)) -> lay_ok ad L index phi -> inj_on phi (ssz k pmax tmax) ->
    slot_before N k pmax tmax phi m h0 D0 b -> 0 <= b < 256 ->
    exists m' l', run_in (image phi (ssz k pmax tmax)) (slotL N pts dev wp k pmax tmax gr gr_arg ids offs refs wc brk ad L index) m = Ok (tt, m') /\
      view phi l' m' /\ slot_after N k pmax tmax (mkS N h o s cl) b l'.
Proof.
  intros Hp L0 Lh HD E EC wc brk ad L phi m b Hwc HL Hinj (B1 & B2 & B3 & B4 & B5) Hb.
  destruct (gather (m_P m) (phi AP) (4 * pmax) ltac:(lia) (B1 AP)) as (lp & LP & EP).
  destruct (gather (m_T m) (phi AT) (3 * tmax) ltac:(lia) (B1 AT)) as (lt & LT & ET).
  destruct (gather (m_dR m) (phi AdR) pmax ltac:(lia) (B1 AdR)) as (C & LC & EC0).
  destruct (unflat4 N lp pmax ltac:(lia) LP) as (Pl & <- & LPl). destruct (unflat3 lt tmax ltac:(lia) LT) as (Tr & <- & LTr).
  destruct (EC wc brk (map snd h) (fun _ => refs index) Pl Tr C b Hwc LPl LTr LC Hb Hp) as (Pl' & Tr' & C' & D' & R & Q1 & Q2 & Q3 & Q4 & Q5).
  assert (RS : run (slot0 N pts dev wp k pmax tmax gr gr_arg ids offs refs wc brk index) (cm N (map snd h0) Pl Tr C (map fst h0) D0 b) =
     Ok (tt, cm N (map snd h) Pl' Tr' C' (row_after N k (map fst h) o s) D' (loop_byte cl o b))).
  { unfold slot0.
    pose proof (lift_heap N (knn_compute N (fun j => j) pts dev wp refs k gr gr_arg ids offs index) (cm N (map snd h0) Pl Tr C (map fst h0) D0 b) h0 h tt ltac:(lia) E) as EL.
    change (hmem N (cm N (map snd h0) Pl Tr C (map fst h0) D0 b) h0) with (cm N (map snd h0) Pl Tr C (map fst h0) D0 b) in EL.
    change (hmem N (cm N (map snd h0) Pl Tr C (map fst h0) D0 b) h) with (cm N (map snd h) Pl Tr C (map fst h) D0 b) in EL.
    rewrite (run_bind_ok _ _ _ _ _ EL). exact R. }
  destruct (psim_run phi _ _ (slot_sim N pts dev wp k pmax tmax gr gr_arg ids offs refs wc brk ad L index phi HL) (cm N (map snd h0) Pl Tr C (map fst h0) D0 b) m (ssz k pmax tmax)) with (x := tt) (l' := cm N (map snd h) Pl' Tr' C' (row_after N k (map fst h) o s) D' (loop_byte cl o b))
    as (m' & Rn & V & _ & _); auto.
  - intros a. unfold msz. destruct a; simpl; rewrite ?zlen_map; auto.
  - intros a i Hi'. destruct a; simpl in Hi'; rewrite ?zlen_map in Hi'.
    + rewrite B2 by lia. reflexivity.
    + rewrite B3 by lia. reflexivity.
    + unfold mrd. simpl. rewrite EP by lia. reflexivity.
    + unfold mrd. simpl. rewrite ET by lia. reflexivity.
    + unfold mrd. simpl. rewrite EC0 by lia. reflexivity.
    + rewrite B4 by lia. reflexivity.
    + assert (i = 0) by (change (zlen [b]) with 1 in Hi'; lia). subst i. rewrite B5. reflexivity.
  - eexists m', _. split; [exact Rn|]. split; [exact V|]. exists Pl', Tr', C', D'. split; [reflexivity|]. auto.
Qed.
End From.

(** ** host and device together *)
Section Both.
Variable N : Arith.
Notation F := (F N).
Variable c : cfg.
Variable g : grid N.
Hypothesis Hc : dev_cfg_ok c.
Hypothesis Hg : sorted_grid N c g.
Hypothesis HA : knn_agree N (c_gr c) (c_k c) (g_pts N g) (g_ids N g) (g_offs N g).
Notation n := (zlen (g_pts N g)).
Notation k := (c_k c).
Notation pm := (c_pmax c).
Notation tm := (c_tmax c).

(** an empty device heap row *)
Definition dheap0 : list (Z * F) := repeat (0, fofZ N 128) (Z.to_nat k).

(** what item i of a launch over all points does *)
Definition dev_results (rs : Z -> sres N) : Prop := forall index, 0 <= index < n ->
  exists hD, map fst hD = r_K N (rs index) /\ zlen hD = k /\
  forall nd indices i m b, 0 < nd -> 0 <= i < n -> znth indices i = Some index ->
    dev_before N c i n (local_base nd pm i) index m dheap0 (lab0 c) b -> 0 <= b < 256 ->
    exists m', run_in (own_columns n k pm tm i (local_base nd pm i) index) (item_prog N c g nd n indices i) m = Ok (tt, m') /\
      dev_after N c i n (local_base nd pm i) index m' (mkS N hD (r_o N (rs index)) (r_s N (rs index)) (r_cl N (rs index))) b.

Lemma both_slot index : 0 <= index < n -> exists r hD,
  (res_at N c g index (heap0 N c) (lab0 c) r /\
    forall i m b, before N c i index m (heap0 N c) (lab0 c) b -> 0 <= b < 256 ->
      exists m', run_in (own_rows k pm tm i index) (slot_prog N c g i index) m = Ok (tt, m') /\ after N c i index m' r b) /\
  map fst hD = r_K N r /\ zlen hD = k /\
  forall nd indices i m b, 0 < nd -> 0 <= i < n -> znth indices i = Some index ->
    dev_before N c i n (local_base nd pm i) index m dheap0 (lab0 c) b -> 0 <= b < 256 ->
    exists m', run_in (own_columns n k pm tm i (local_base nd pm i) index) (item_prog N c g nd n indices i) m = Ok (tt, m') /\
      dev_after N c i n (local_base nd pm i) index m' (mkS N hD (r_o N r) (r_s N r) (r_cl N r)) b.
Proof.
  intros Hi. assert (Hc' := Hc). destruct Hc' as (Hcc & Hgb & Hwide). assert (Hcc' := Hcc). destruct Hcc' as (H1 & H2 & H3).
  destruct (sorted_grid_ok N c g Hg) as (Gr & Gi & Go).
  destruct (znth_in_range (g_pts N g) index Hi) as [q Eq].
  assert (L0 : zlen (heap0 N c) = k) by (unfold heap0; rewrite zlen_repeat; lia).
  assert (LD : zlen (lab0 c) = k) by (unfold lab0; rewrite zlen_repeat; lia).
  destruct (HA index Hi) as (h & hD & RH & RD & Lh & LhD & EK). change (repeat (0, finf N) (Z.to_nat k)) with (heap0 N c) in RH. change (repeat (0, fofZ N 128) (Z.to_nat k)) with dheap0 in RD.
  assert (Ho : hok N n k h).
  { destruct (knn_safe N false (znth (g_pts N g)) n ltac:(intros p Hp; apply znth_in_range; assumption) (emem N) (fun x => x) (znth (g_pts N g)) k (c_gr c) (c_gr c) (g_ids N g) (g_offs N g) index (heap0 N c) ltac:(lia)
      ltac:(split; [assumption|]; split; assumption) Hi (ex_intro _ q Eq) ltac:(auto)) as (h' & R' & Ho').
    - split; [assumption|]. apply Forall_forall. intros x Hx. apply repeat_spec in Hx. subst x. simpl. lia.
    - rewrite RH in R'. injection R' as R'1 R'2. assert (h' = h); [|subst h'; exact Ho']. unfold hmem in *.
      clear -R'1 R'2. revert h' R'1 R'2. induction h as [|[a b] h IH]; intros [|[a' b'] h'] Q1 Q2; simpl in *; try discriminate; [reflexivity|].
      injection Q1 as -> Q1. injection Q2 as -> Q2. f_equal. now apply IH. }
  assert (HK : forall x, In x (map fst h) -> x <> k_undefined /\ exists qp, znth (g_pts N g) x = Some qp).
  { intros x Hx. apply in_map_iff in Hx as (y & <- & Hy). destruct Ho as (_ & Ho). rewrite Forall_forall in Ho. specialize (Ho y Hy).
    split; [unfold k_undefined; lia|apply znth_in_range; assumption]. }
  destruct (run_cell N k pm tm (znth (g_pts N g)) (map fst h) H2 ltac:(lia) ltac:(rewrite zlen_map; assumption) HK (lab0 c) q LD) as (o & s & cl & W & G & EC).
  change (cell_fact N (znth (g_pts N g)) k pm tm (map fst h) q (lab0 c) o s cl) in EC.
  exists (mkS N h o s cl), hD. split; [split|split; [|split; [assumption|]]].
  - exists q. split; [assumption|]. split; [assumption|]. split; [exact RH|]. split; [exact W|exact G].
  - intros i m b B Hb.
    destruct (slot_from N (znth (g_pts N g)) false (fun x => x) k pm tm (c_gr c) (c_gr c) (g_ids N g) (g_offs N g) (znth (g_pts N g)) H2 ltac:(lia) index q (heap0 N c) h (lab0 c) o s cl Eq L0 Lh LD RH EC
      (fun x => x) false (ad_host (k * i)) (lay_host k pm tm i) (host_phi k pm tm i index) m b) as (m' & l' & Rn & V & A); auto.
    + now left.
    + apply host_lay.
    + apply host_inj.
    + exists m'. split; [|exists l'; auto]. rewrite (slot_prog_L N c g Hcc). eapply run_in_mono; [|exact Rn].
      intros a x Hx. rewrite <- host_image. exact Hx.
  - unfold r_K. simpl. symmetry. exact EK.
  - simpl r_o. simpl r_s. simpl r_cl. intros nd indices i m b Hnd Hi' Ei B Hb.
    assert (EC' : cell_fact N (znth (g_pts N g)) k pm tm (map fst hD) q (lab0 c) o s cl) by (rewrite <- EK; exact EC).
    destruct (slot_from N (znth (g_pts N g)) true w16 k pm tm (c_gr c) (c_gr c) (g_ids N g) (g_offs N g) (znth (g_pts N g)) H2 ltac:(lia) index q dheap0 hD (lab0 c) o s cl Eq ltac:(unfold dheap0; rewrite zlen_repeat; lia) LhD LD RD EC'
      w8 true (ad_strided n i) (lay_strided n n pm tm i (i / nd * (nd * pm)) (i mod nd)) (dev_phi n tm i (local_base nd pm i) index) m b) as (m' & l' & Rn & V & A); auto.
    + now apply w8_wc.
    + apply dev_lay.
    + apply dev_inj. lia.
    + exists m'. split; [|exists l'; auto]. rewrite (item_prog_L N c g nd n indices i index Hc Hg Ei). unfold dev_slotL. simpl fst. simpl snd.
      eapply run_in_mono; [intros a x; apply dev_image; assumption|].
      revert Rn. unfold slotL. apply pref_bind.
      * apply knn_pref; [|now apply flat_get_eq]. intros x y Hxy. rewrite flat_get_eq by (eapply znth_some; eauto). exact Hxy.
      * intros _. apply cell_pref; [|now apply flat_get_eq]. intros x y Hxy. rewrite flat_get_eq by (eapply znth_some; eauto). exact Hxy.
Qed.

Lemma both_ex : exists rs, results N c g rs /\ dev_results rs.
Proof.
  destruct (Forall2_ex (fun index r => (res_at N c g index (heap0 N c) (lab0 c) r /\
    forall i m b, before N c i index m (heap0 N c) (lab0 c) b -> 0 <= b < 256 ->
      exists m', run_in (own_rows k pm tm i index) (slot_prog N c g i index) m = Ok (tt, m') /\ after N c i index m' r b) /\
    exists hD, map fst hD = r_K N r /\ zlen hD = k /\
    forall nd indices i m b, 0 < nd -> 0 <= i < n -> znth indices i = Some index ->
    dev_before N c i n (local_base nd pm i) index m dheap0 (lab0 c) b -> 0 <= b < 256 ->
    exists m', run_in (own_columns n k pm tm i (local_base nd pm i) index) (item_prog N c g nd n indices i) m = Ok (tt, m') /\
      dev_after N c i n (local_base nd pm i) index m' (mkS N hD (r_o N r) (r_s N r) (r_cl N r)) b) (zrange 0 n)) as [l Hl].
  { intros index Hi. apply in_zrange in Hi. destruct (both_slot index Hi) as (r & hD & A & B). exists r. split; [exact A|]. exists hD. exact B. }
  exists (fun i => nth (Z.to_nat i) l (mkS N [] Cont (mkC N [] [] []) false)).
  assert (Q : forall index, 0 <= index < n -> exists r, nth_error l (Z.to_nat index) = Some r /\ nth (Z.to_nat index) l (mkS N [] Cont (mkC N [] [] []) false) = r).
  { intros index Hi. destruct (Forall2_nth _ _ _ Hl (Z.to_nat index) index) as (r & Er & _).
    { rewrite nth_error_zrange by lia. f_equal. lia. }
    exists r. split; [assumption|]. now apply nth_error_nth. }
  split; intros index Hi; destruct (Q index Hi) as (r & Er & ->);
    destruct (Forall2_nth' _ _ _ Hl (Z.to_nat index) r Er) as (x & Ex & H); rewrite nth_error_zrange in Ex by lia; injection Ex as <-;
    replace (0 + Z.of_nat (Z.to_nat index)) with index in H by lia; apply H.
Qed.
End Both.
