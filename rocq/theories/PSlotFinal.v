(** C19, C20, C21 in terms of the shared arrays. *)
From Verif Require Import Base Arith PBase Prog PProg MUtils MHeap MXyz MKnn MBoundary MCell MDnn MArgs MTess PFlags PSort PFill PHeap PReloc PHeapFinal
  SpecSort PXyz PSortFinal SpecBnd PBnd PCellSim PCellRun PCell PCellRow PKnnSafe PSlot PWalk SpecSlot PSlotHost.
From Coq Require Import Permutation.
From Verif Require Export SpecParam SpecSlot.
Local Open Scope prog_scope.

Lemma ok_byte (cl : bool) o b : 0 <= b < 256 -> 0 <= loop_byte cl o b < 256.
Proof.
  intros Hb. unfold loop_byte. assert (H : 0 <= (if cl then clean b else b) < 256) by (destruct cl; [now apply clean_byte|assumption]).
  destruct o; simpl; auto; apply set_true_byte.
Qed.

Section H.
Variable N : Arith.
Notation F := (F N).

Lemma host_confined c (g : grid N) i index m : cfg_ok c -> sorted_grid N c g -> 0 <= index < zlen (g_pts N g) ->
  room (c_k c) (c_pmax c) (c_tmax c) i (zlen (g_pts N g)) m ->
  (forall d, 0 <= d < c_k c -> exists v, znth (m_hid m) (c_k c * i + d) = Some v /\ 0 <= v < zlen (g_pts N g)) ->
  (forall b, znth (m_st m) index = Some b -> 0 <= b < 256) ->
  exists m', run_in (own_rows (c_k c) (c_pmax c) (c_tmax c) i index) (slot_prog N c g i index) m = Ok (tt, m') /\
    (forall a x, own_rows (c_k c) (c_pmax c) (c_tmax c) i index a x = false -> mrd m' a x = mrd m a x) /\
    (forall a, zlen (mget m' a) = zlen (mget m a)).
Proof.
  intros Hc Hg Hi Rm Hv Hb. destruct (room_before N c g Hc i index m Rm Hi Hv) as (h0 & D0 & b & B & H0 & L & _ & _ & Eb).
  destruct (host_slot N c g Hc Hg index h0 D0 Hi H0 L) as (r & _ & E). destruct (E i m b B (Hb b Eb)) as (m' & R & _).
  exists m'. split; [assumption|]. split; [apply (run_in_frame _ _ _ _ _ R)|apply (run_in_len _ _ _ _ _ R)].
Qed.

(** ** device *)
Definition dev_phi (s tm i rb index : Z) : reloc := fun a x =>
  match a with
  | AHeapId | AHeapPq | ADknn | AP => s * x + i
  | AT => 3 * tm * i + x
  | AdR => rb + x
  | ASt => index + x
  end.
Lemma dev_lay s pm tm i lb li index : lay_ok (ad_strided s i) (lay_strided s s pm tm i lb li) index (dev_phi s tm i (lb + pm * li) index).
Proof. unfold lay_ok, ad_strided, lay_strided, dev_phi. simpl. repeat split; intros; lia. Qed.
Lemma dev_inj k pm s tm i rb index : 0 < s -> inj_on (dev_phi s tm i rb index) (ssz k pm tm).
Proof. intros Hs a x y _ _ H. destruct a; simpl in H; nia. Qed.
Lemma dev_image s k pm tm i rb index a x : 0 <= i < s -> image (dev_phi s tm i rb index) (ssz k pm tm) a x = true -> own_columns s k pm tm i rb index a x = true.
Proof.
  intros Hi. rewrite image_true. intros (j & Hj & <-). unfold own_columns, between.
  assert (M : (s * j + i) mod s = i). { rewrite Z.add_comm, Z.mul_comm, Z.mod_add by lia. apply Z.mod_small. lia. }
  assert (Q : forall w, 0 <= j < w -> (0 <=? s * j + i) && (s * j + i <? s * w) && ((s * j + i) mod s =? i) = true).
  { intros w Hw. rewrite M, Z.eqb_refl, andb_true_r. apply andb_true_iff. rewrite Z.leb_le, Z.ltb_lt.
    assert (s * (j + 1) <= s * w) by (apply Z.mul_le_mono_nonneg_l; lia). assert (0 <= s * j) by (apply Z.mul_nonneg_nonneg; lia). lia. }
  destruct a; cbn [dev_phi]; simpl ssz in Hj; auto; rewrite ?andb_true_iff, ?Z.leb_le, ?Z.ltb_lt, ?Z.eqb_eq; nia.
Qed.

Lemma flat_len (pts : list (point N)) : zlen (flat_pts N pts) = 3 * zlen pts.
Proof. unfold flat_pts. rewrite !zlen_app, !zlen_map. unfold point. lia. Qed.
Lemma flat_get_some (pts : list (point N)) s p : 0 <= s <= zlen pts -> 0 <= p < zlen pts -> exists q, flat_get N (flat_pts N pts) s p = Some q.
Proof.
  intros Hs Hp. pose proof (flat_len pts). unfold flat_get.
  destruct (znth_in_range (flat_pts N pts) p ltac:(lia)) as [x ->]. destruct (znth_in_range (flat_pts N pts) (s + p) ltac:(lia)) as [y ->].
  destruct (znth_in_range (flat_pts N pts) (s * 2 + p) ltac:(lia)) as [z ->]. eauto.
Qed.
Lemma flat_get_eq (pts : list (point N)) p : 0 <= p < zlen pts -> flat_get N (flat_pts N pts) (zlen pts) p = znth pts p.
Proof.
  intros Hp. unfold flat_get, flat_pts. destruct (znth_in_range pts p Hp) as [[[x y] z] E].
  set (X := map (fun '(x, _, _) => x) pts). set (Y := map (fun '(_, y, _) => y) pts). set (W := map (fun '(_, _, z) => z) pts).
  assert (LX : zlen X = zlen pts) by apply zlen_map. assert (LY : zlen Y = zlen pts) by apply zlen_map.
  rewrite (znth_app1 X) by lia. rewrite (znth_app2 X _ (zlen pts + p)) by lia. rewrite (znth_app2 X _ (zlen pts * 2 + p)) by lia.
  replace (zlen pts + p - zlen X) with p by lia. rewrite (znth_app1 Y) by lia. rewrite (znth_app2 Y) by lia.
  replace (zlen pts * 2 + p - zlen X - zlen Y) with p by lia. unfold X, Y, W. rewrite !znth_map. transitivity (Some (x, y, z)); [|now rewrite E]. unfold point in E. rewrite E. reflexivity.
Qed.

Lemma w8_wc c : dev_cfg_ok c -> wc_ok w8 (Z.min (c_tmax c) (2 * c_pmax c - 6)).
Proof. intros (_ & _ & H). right. split; [intros; apply w8_id; lia|lia]. Qed.

Definition dev_slotL c (g : grid N) sub rb i index :=
  slotL N (flat_get N (flat_pts N (g_pts N g)) (zlen (g_pts N g))) true w16 (c_k c) (c_pmax c) (c_tmax c) (c_gr c) (c_gr c) (g_ids N g) (g_offs N g)
    (flat_get N (flat_pts N (g_pts N g)) sub) w8 true (ad_strided sub i) (lay_strided sub sub (c_pmax c) (c_tmax c) i (fst rb) (snd rb)) index.
Lemma item_prog_L c g nd sub indices i index : dev_cfg_ok c -> sorted_grid N c g -> znth indices i = Some index ->
  item_prog N c g nd sub indices i = dev_slotL c g sub (i / nd * (nd * c_pmax c), i mod nd) i index.
Proof.
  intros ((H1 & H2 & H3) & H4 & _) (Hg & _) E. unfold item_prog, dev_slotL, slotL. cbv zeta. rewrite E, !w16_id, w8_id by lia. reflexivity.
Qed.

Definition dev_res c (g : grid N) sub :=
  slot_res N (flat_get N (flat_pts N (g_pts N g)) (zlen (g_pts N g))) (zlen (g_pts N g)) true w16 (c_k c) (c_pmax c) (c_tmax c) (c_gr c) (c_gr c) (g_ids N g) (g_offs N g)
    (flat_get N (flat_pts N (g_pts N g)) sub).
Definition dev_before c i sub rb index (m : mem F) h0 D0 b := slot_before N (c_k c) (c_pmax c) (c_tmax c) (dev_phi sub (c_tmax c) i rb index) m h0 D0 b.
Definition dev_after c i sub rb index (m' : mem F) r b :=
  exists l', view (dev_phi sub (c_tmax c) i rb index) l' m' /\ slot_after N (c_k c) (c_pmax c) (c_tmax c) r b l'.

Lemma dev_slot c g sub index h0 D0 : dev_cfg_ok c -> sorted_grid N c g -> 0 < sub <= zlen (g_pts N g) -> 0 <= index < zlen (g_pts N g) ->
  hok N (zlen (g_pts N g)) (c_k c) h0 -> zlen D0 = c_k c ->
  exists r, dev_res c g sub index h0 D0 r /\
    forall nd indices i m b, 0 <= i < sub -> znth indices i = Some index ->
    dev_before c i sub (local_base nd (c_pmax c) i) index m h0 D0 b -> 0 <= b < 256 ->
    exists m', run_in (own_columns sub (c_k c) (c_pmax c) (c_tmax c) i (local_base nd (c_pmax c) i) index) (item_prog N c g nd sub indices i) m = Ok (tt, m') /\
      dev_after c i sub (local_base nd (c_pmax c) i) index m' r b.
Proof.
  intros Hc Hg Hs Hx H0 HD. assert (Hc' := Hc). destruct Hc' as ((H1 & H2 & H3) & H4 & H5). destruct (sorted_grid_ok N c g Hg) as (Gr & Gi & Go).
  destruct (slot_shared N (flat_get N (flat_pts N (g_pts N g)) (zlen (g_pts N g))) (zlen (g_pts N g)) true w16 (c_k c) (c_pmax c) (c_tmax c) (c_gr c) (c_gr c) (g_ids N g) (g_offs N g)
    (flat_get N (flat_pts N (g_pts N g)) sub)) with (index := index) (h0 := h0) (D0 := D0) as (r & R & E); auto; try lia.
  - intros p Hp. apply flat_get_some; lia.
  - split; [assumption|]. split; assumption.
  - intros x Hx'. apply w16_id. lia.
  - apply flat_get_some; lia.
  - exists r. split; [exact R|]. intros nd indices i m b Hi Ei B Hb.
    destruct (E w8 true (ad_strided sub i) (lay_strided sub sub (c_pmax c) (c_tmax c) i (i / nd * (nd * c_pmax c)) (i mod nd))
      (dev_phi sub (c_tmax c) i (local_base nd (c_pmax c) i) index) m b) as (m' & l' & Rn & V & A); auto.
    + now apply w8_wc.
    + apply dev_lay.
    + apply dev_inj. lia.
    + exists m'. split; [|exists l'; auto]. rewrite (item_prog_L c g nd sub indices i index Hc Hg Ei). unfold dev_slotL. simpl fst. simpl snd. eapply run_in_mono; [|exact Rn].
      intros a x. apply dev_image. assumption.
Qed.

Lemma dev_room_before c (g : grid N) i index sub rb m : cfg_ok c -> 0 <= i < sub -> dev_room (c_k c) (c_pmax c) (c_tmax c) sub i rb (zlen (g_pts N g)) m -> 0 <= index < zlen (g_pts N g) ->
  (forall d, 0 <= d < c_k c -> exists v, znth (m_hid m) (sub * d + i) = Some v /\ 0 <= v < zlen (g_pts N g)) ->
  exists h0 D0 b, dev_before c i sub rb index m h0 D0 b /\ hok N (zlen (g_pts N g)) (c_k c) h0 /\ zlen D0 = c_k c /\ znth (m_st m) index = Some b.
Proof.
  intros (H1 & H2 & H3) Hi (R1 & R2 & R3 & R4 & R5 & R6 & R7 & R8) Hx Hv.
  destruct (gather (m_hid m) (fun d => sub * d + i) (c_k c) ltac:(lia)) as (ids & L1 & E1). { intros d Hd. apply znth_in_range. nia. }
  destruct (gather (m_hpq m) (fun d => sub * d + i) (c_k c) ltac:(lia)) as (pqs & L2 & E2). { intros d Hd. apply znth_in_range. nia. }
  destruct (gather (m_dknn m) (fun d => sub * d + i) (c_k c) ltac:(lia)) as (D0 & L3 & E3). { intros d Hd. apply znth_in_range. nia. }
  destruct (znth_in_range (m_st m) index ltac:(lia)) as [b Hb].
  destruct (combine_fst_snd ids pqs) as [F1 F2]; [unfold zlen in *; lia|].
  exists (combine ids pqs), D0, b. split; [|split; [|split; [assumption|assumption]]].
  - split; [|rewrite F1, F2; split; [|split; [|split]]].
    + intros a j Hj. unfold mrd. apply znth_in_range. destruct a; simpl in Hj |- *; nia.
    + intros j Hj. rewrite E1 by lia. reflexivity.
    + intros j Hj. rewrite E2 by lia. reflexivity.
    + intros j Hj. rewrite E3 by lia. reflexivity.
    + simpl. rewrite Z.add_0_r. exact Hb.
  - split.
    + unfold zlen in *. rewrite combine_length. lia.
    + apply Forall_forall. intros x Hin. assert (II : In (fst x) ids) by (rewrite <- F1; now apply in_map).
      apply in_znth in II as (j & Rj & Z0). rewrite E1 in Z0 by lia.
      destruct (Hv j ltac:(lia)) as (v & Ev & Rv). assert (v = fst x) by congruence. lia.
Qed.

Lemma dev_confined c (g : grid N) nd sub indices i index m : dev_cfg_ok c -> sorted_grid N c g -> 0 < nd ->
  0 <= i < sub -> sub <= zlen (g_pts N g) -> znth indices i = Some index -> 0 <= index < zlen (g_pts N g) ->
  dev_room (c_k c) (c_pmax c) (c_tmax c) sub i (local_base nd (c_pmax c) i) (zlen (g_pts N g)) m ->
  (forall d, 0 <= d < c_k c -> exists v, znth (m_hid m) (sub * d + i) = Some v /\ 0 <= v < zlen (g_pts N g)) ->
  (forall b, znth (m_st m) index = Some b -> 0 <= b < 256) ->
  exists m', run_in (own_columns sub (c_k c) (c_pmax c) (c_tmax c) i (local_base nd (c_pmax c) i) index) (item_prog N c g nd sub indices i) m = Ok (tt, m') /\
    (forall a x, own_columns sub (c_k c) (c_pmax c) (c_tmax c) i (local_base nd (c_pmax c) i) index a x = false -> mrd m' a x = mrd m a x) /\
    (forall a, zlen (mget m' a) = zlen (mget m a)).
Proof.
  intros Hc Hg Hnd Hi Hs Ei Hx Rm Hv Hb. destruct (dev_room_before c g i index sub _ m (proj1 Hc) Hi Rm Hx Hv) as (h0 & D0 & b & B & H0 & L & Eb).
  destruct (dev_slot c g sub index h0 D0 Hc Hg ltac:(lia) Hx H0 L) as (r & _ & E). destruct (E nd indices i m b Hi Ei B (Hb b Eb)) as (m' & R & _).
  exists m'. split; [assumption|]. split; [apply (run_in_frame _ _ _ _ _ R)|apply (run_in_len _ _ _ _ _ R)].
Qed.

(** ** the row a slot leaves behind *)
Lemma trow_eq {A} (l r : list A) w i : 0 <= w * i -> zlen r = w -> (forall d, 0 <= d < w -> znth l (w * i + d) = znth r d) -> trow l w i = r.
Proof.
  intros Hi L H. change (trow l w i) with (slice l (w * i) w). pose proof (zlen_nonneg r).
  assert (LS : zlen (slice l (w * i) w) = w).
  { destruct (Z.eq_dec w 0) as [->|]; [rewrite slice_0 by lia; reflexivity|]. apply zlen_slice; try lia.
    destruct (znth_in_range r (w - 1) ltac:(lia)) as [v Hv]. specialize (H (w - 1) ltac:(lia)). rewrite Hv in H. apply znth_some in H. lia. }
  apply znth_ext_range; [lia|]. intros d Hd. rewrite znth_slice by lia. apply H. lia.
Qed.

Lemma byte_cases (cl : bool) o : let b := loop_byte cl o st_init in
  (ok_out o = true /\ no_error b) \/ (ok_out o = false /\ ~ no_error b).
Proof.
  unfold no_error. destruct cl, o; vm_compute; ((left; split; [reflexivity|]; repeat split; reflexivity) || (right; split; [reflexivity|]; intros (A & B & C); discriminate)).
Qed.

Lemma host_row c (g : grid N) i index m : cfg_ok c -> sorted_grid N c g -> 0 <= index < zlen (g_pts N g) ->
  room (c_k c) (c_pmax c) (c_tmax c) i (zlen (g_pts N g)) m ->
  (forall d, 0 <= d < c_k c -> exists v, znth (m_hid m) (c_k c * i + d) = Some v /\ 0 <= v < zlen (g_pts N g)) ->
  trow (m_dknn m) (c_k c) i = repeat k_undefined (Z.to_nat (c_k c)) -> znth (m_st m) index = Some st_init ->
  exists m1 m' p b,
    run (knn_compute N (ad_host (c_k c * i)) (znth (g_pts N g)) false (fun x => x) (znth (g_pts N g)) (c_k c) (c_gr c) (c_gr c) (g_ids N g) (g_offs N g) index) m = Ok (tt, m1) /\
    run (slot_prog N c g i index) m = Ok (tt, m') /\ znth (g_pts N g) index = Some p /\ znth (m_st m') index = Some b /\
    let cand := trow (m_hid m1) (c_k c) i in
    let lab := trow (m_dknn m') (c_k c) i in
    let row := trow (m_hid m') (c_k c) i in
    (~ no_error b -> row = cand) /\
    (no_error b -> exists T,
      tris_at (m_T m') (3 * c_tmax c * i) T /\ Forall (tri_ok (c_pmax c)) T /\
      row = filled (c_k c) k_undefined (kept T cand lab) /\
      (forall d l, znth lab d = Some l -> l <> k_undefined -> 6 <= l < c_pmax c /\
        exists q qp, znth cand d = Some q /\ znth (g_pts N g) q = Some qp /\ plane_is (m_P m') (4 * c_pmax c * i) l (bisect N qp p)) /\
      (forall d d' l, znth lab d = Some l -> znth lab d' = Some l -> l <> k_undefined -> d = d')).
Proof.
  intros Hc Hg Hi Rm Hv HD Hb. assert (Hc' := Hc). destruct Hc' as (H1 & H2 & H3).
  destruct (room_before N c g Hc i index m Rm Hi Hv) as (h0 & D0 & b0 & B & H0 & L & E0 & ED & Eb).
  assert (b0 = st_init) by congruence. subst b0. rewrite HD in ED.
  destruct (host_slot N c g Hc Hg index h0 D0 Hi H0 L) as (r & (p & Hp & Hh & RK & W & G) & E). destruct (E i m st_init B ltac:(unfold st_init; lia)) as (m' & R & (l' & V & A)).
  assert (NI : 0 <= c_k c * i) by (destruct Rm; nia).
  (* the candidates *)
  assert (L0 : zlen h0 = c_k c) by apply H0.
  destruct (heap_transport N (ad_host (c_k c * i)) (knn_compute N (fun j => j) (znth (g_pts N g)) false (fun x => x) (znth (g_pts N g)) (c_k c) (c_gr c) (c_gr c) (g_ids N g) (g_offs N g) index)
     (knn_compute N (ad_host (c_k c * i)) (znth (g_pts N g)) false (fun x => x) (znth (g_pts N g)) (c_k c) (c_gr c) (c_gr c) (g_ids N g) (g_offs N g) index) h0 m) with (h' := r_h N r) as (m1 & R1 & Q1).
  { intros x y _ _ Q. unfold ad_host in Q. lia. }
  { intros j x Hx. pose proof (znth_some _ _ _ Hx). destruct B as (_ & B1 & B2 & _). split; [etransitivity; [apply (B1 j ltac:(lia))|]|etransitivity; [apply (B2 j ltac:(lia))|]]; rewrite znth_map, Hx; reflexivity. }
  { apply knn_sim; reflexivity. }
  { exact RK. }
  exists m1, m', p, (r_byte N r st_init). split; [now apply run_in_run in R1|]. split; [now apply run_in_run in R|]. split; [assumption|].
  destruct A as (Pl & Tr & C & D & -> & LP & LT & LC & LD & OK).
  assert (Lh : zlen (r_h N r) = c_k c) by apply Hh.
  assert (Ecand : trow (m_hid m1) (c_k c) i = r_K N r).
  { apply trow_eq; [assumption|unfold r_K; rewrite zlen_map; assumption|]. intros d Hd. unfold r_K. rewrite znth_map.
    destruct (znth_in_range (r_h N r) d ltac:(lia)) as [x Hx]. destruct (Q1 d x Hx) as [Q _]. rewrite Hx. exact Q. }
  assert (Lrow : zlen (r_row N (c_k c) r) = c_k c) by (apply row_after_len; [unfold r_K; now rewrite zlen_map|apply G]).
  assert (Erow : trow (m_hid m') (c_k c) i = r_row N (c_k c) r).
  { apply trow_eq; [assumption|assumption|]. intros d Hd. apply (V AHeapId d). simpl. lia. }
  assert (Elab : trow (m_dknn m') (c_k c) i = D).
  { apply trow_eq; [assumption|assumption|]. intros d Hd. apply (V ADknn d). simpl. lia. }
  split. { specialize (V ASt 0). simpl in V. rewrite Z.add_0_r in V. apply V. change (zlen [r_byte N r st_init]) with 1. lia. }
  cbv zeta. rewrite Ecand, Erow, Elab. unfold r_row, row_after.
  destruct (byte_cases (r_cl N r) (r_o N r)) as [[EO NE]|[EO NE]]; rewrite EO; change (loop_byte (r_cl N r) (r_o N r) st_init) with (r_byte N r st_init) in NE.
  - split; [contradiction|]. intros _. destruct (OK EO) as ((Pj & ->) & (Tj & ->) & ->). exists (cT N (r_s N r)).
    assert (LI : linv N (znth (g_pts N g)) (r_K N r) p (c_k c) (r_s N r)).
    { subst D0. apply (linv_walk N (c_pmax c) (c_tmax c) (znth (g_pts N g)) (r_K N r) p (c_k c) _ 0 _ _ _ eq_refl ltac:(lia)) in W; [assumption| |apply linv0]. simpl. rewrite zlen_repeat. lia. }
    destruct G as (G1 & G2 & G3 & G4 & G5). pose proof (zlen_nonneg Pj). pose proof (zlen_nonneg Tj).
    split; [|split; [|split; [|split]]].
    + intros j x y z Hj. pose proof (znth_some _ _ _ Hj) as Rj. destruct (split_at _ _ _ Hj) as (ta & tb & Et & Lt).
      assert (Q : forall e, 0 <= e < 3 -> znth (m_T m') (3 * c_tmax c * i + (3 * j + e)) = znth (flat ((ta ++ (x, y, z) :: tb) ++ Tj)) (3 * zlen ta + e)).
      { intros e He. rewrite Et in *. specialize (V AT (3 * j + e)). simpl in V. unfold mrd in V. simpl in V. rewrite Lt. apply V. rewrite zlen_flat. rewrite zlen_app. lia. }
      rewrite <- app_assoc in Q. simpl app in Q.
      replace (3 * c_tmax c * i + 3 * j) with (3 * c_tmax c * i + (3 * j + 0)) by lia.
      replace (3 * c_tmax c * i + (3 * j + 0) + 1) with (3 * c_tmax c * i + (3 * j + 1)) by lia.
      replace (3 * c_tmax c * i + (3 * j + 0) + 2) with (3 * c_tmax c * i + (3 * j + 2)) by lia.
      rewrite !Q by lia. rewrite flat_app.
      assert (F3 : forall e, 0 <= e < 3 -> znth (flat ta ++ flat ((x, y, z) :: tb ++ Tj)) (3 * zlen ta + e) = znth (x :: y :: z :: flat (tb ++ Tj)) e).
      { intros e He. rewrite znth_app2 by (rewrite zlen_flat; lia). rewrite zlen_flat. f_equal. lia. }
      rewrite !F3 by lia. repeat split; reflexivity.
    + eapply Forall_impl; [|exact G2]. intros t. apply tri_ok_mono. lia.
    + unfold filled, padded, row_of, kept. 
      assert (EF : filter (fun '(_, d) => used (cT N (r_s N r)) d) (combine (r_K N r) (cD N (r_s N r))) = filter (fun x => occurs (cT N (r_s N r)) (snd x)) (combine (r_K N r) (cD N (r_s N r)))).
      { apply filter_ext. intros [x y]. reflexivity. }
      rewrite EF. reflexivity.
    + intros d l Hd Nl. destruct LI as (LI & _). destruct (LI d l Hd) as [Q|(_ & Q6 & q & qp & Q2 & Q3 & Q4)]; [contradiction|].
      pose proof (znth_some _ _ _ Q4). split; [lia|]. exists q, qp. split; [assumption|]. split; [assumption|].
      destruct (split_at _ _ _ Q4) as (pa & pb & Ep & Lpa).
      assert (Q : forall e, 0 <= e < 4 -> znth (m_P m') (4 * c_pmax c * i + (4 * l + e)) = Some (pcomp N (bisect N qp p) e)).
      { intros e He. specialize (V AP (4 * l + e)). simpl in V. unfold mrd in V. simpl in V. rewrite V.
        - rewrite Ep, <- app_assoc. simpl app. rewrite <- Lpa. apply znth_flat4. lia.
        - rewrite zlen_flat4. rewrite LP. lia. }
      unfold plane_is. destruct (bisect N qp p) as [[[xa xb] xc] xd].
      replace (4 * c_pmax c * i + 4 * l) with (4 * c_pmax c * i + (4 * l + 0)) by lia.
      replace (4 * c_pmax c * i + (4 * l + 0) + 1) with (4 * c_pmax c * i + (4 * l + 1)) by lia.
      replace (4 * c_pmax c * i + (4 * l + 0) + 2) with (4 * c_pmax c * i + (4 * l + 2)) by lia.
      replace (4 * c_pmax c * i + (4 * l + 0) + 3) with (4 * c_pmax c * i + (4 * l + 3)) by lia.
      rewrite !Q by lia. repeat split; reflexivity.
    + apply LI.
  - split; [reflexivity|]. intros; contradiction.
Qed.
End H.
