(** One slot in the host arrays. *)
From Verif Require Import Base Arith PBase Prog PProg MUtils MHeap MXyz MKnn MBoundary MCell MDnn MArgs MTess PSort PFill PHeap PReloc PHeapFinal
  SpecSort PXyz PSortFinal SpecBnd PBnd PCellSim PCellRun PCell PCellRow PKnnSafe PSlot PWalk SpecSlot.
From Coq Require Import Permutation.
From Verif Require Export SpecParam.
Local Open Scope prog_scope.

(** the grid produced by a successful sort of points whose ids are in range *)
Lemma sort_grid_ok N gr P0 P ids offs : 0 < gr -> in_range_ids N gr P0 -> xyz_sort N gr P0 = Ok (P, ids, offs) ->
  Permutation P P0 /\ grid_ok (zlen P) gr ids offs.
Proof.
  intros Hg Hr H. pose proof (nonneg_of_range _ _ _ _ _ _ Hr H) as Hn.
  destruct (xyz_sort_spec N gr P0 P ids offs H Hn) as (l & t & El & Et & Ep & (Pm & _ & _) & Ht & _).
  assert (PP : Permutation P P0) by (rewrite <- Ep, <- El; now apply Permutation_map, Permutation_sym).
  split; [assumption|]. assert (LP : zlen P = zlen P0) by (unfold zlen; now rewrite (Permutation_length PP)).
  split; [assumption|]. split.
  - intros p Hp. destruct (znth_in_range P p Hp) as [pp Epp].
    assert (Ip : In pp P0). { eapply Permutation_in; [exact PP|]. eapply znth_in; eauto. }
    destruct (Hr pp Ip) as (c & Hc & Rc). exists c. split; [|assumption].
    rewrite <- Ep, znth_map in Epp. rewrite <- Et, znth_map. destruct (znth t p) as [r|] eqn:Er; [|discriminate].
    injection Epp as Epp. simpl. f_equal. pose proof (Ht r (znth_in _ _ _ Er)) as Q. rewrite Epp in Q. congruence.
  - intros c Hc. destruct (sort_offsets N gr P0 P ids offs ltac:(lia) Hr H) as (Lo & O0 & On & Mo & Ho).
    destruct (znth_in_range offs c ltac:(lia)) as [a Ea]. destruct (znth_in_range offs (c + 1) ltac:(lia)) as [b Eb].
    assert (MM : forall j i u v, 0 <= i -> znth offs i = Some u -> znth offs (i + Z.of_nat j) = Some v -> u <= v).
    { induction j as [|j IH]; intros i u v Hi Hu Hv.
      - replace (i + Z.of_nat 0) with i in Hv by lia. assert (u = v) by congruence. lia.
      - pose proof (znth_some _ _ _ Hv). destruct (znth_in_range offs (i + 1) ltac:(lia)) as [w Hw].
        pose proof (Mo _ _ _ Hu Hw). assert (w <= v); [|lia].
        apply (IH (i + 1)); auto; [lia|]. now replace (i + 1 + Z.of_nat j) with (i + Z.of_nat (S j)) by lia. }
    exists a, b. split; [assumption|]. split; [assumption|]. split.
    + apply (MM (Z.to_nat c) 0 0 a); [lia|assumption|]. now replace (0 + Z.of_nat (Z.to_nat c)) with c by lia.
    + rewrite LP. apply (MM (Z.to_nat (gr * gr * gr - (c + 1))) (c + 1)); [lia|assumption|].
      now replace (c + 1 + Z.of_nat (Z.to_nat (gr * gr * gr - (c + 1)))) with (gr * gr * gr) by lia.
Qed.

Lemma sorted_grid_ok N c g : sorted_grid N c g -> grid_ok (zlen (g_pts N g)) (c_gr c) (g_ids N g) (g_offs N g).
Proof. intros (Hg & P0 & Hr & H). now apply (sort_grid_ok N _ P0). Qed.

Definition host_phi (k pm tm i index : Z) : reloc := fun a x =>
  match a with
  | AHeapId | AHeapPq | ADknn => k * i + x
  | AP => 4 * pm * i + x
  | AT => 3 * tm * i + x
  | AdR => pm * i + x
  | ASt => index + x
  end.

Lemma host_lay k pm tm i index : lay_ok (ad_host (k * i)) (lay_host k pm tm i) index (host_phi k pm tm i index).
Proof. unfold lay_ok, ad_host, lay_host, host_phi. simpl. repeat split; intros; lia. Qed.
Lemma host_inj k pm tm i index : inj_on (host_phi k pm tm i index) (ssz k pm tm).
Proof. intros a x y _ _ H. destruct a; simpl in H; lia. Qed.
Lemma host_image k pm tm i index a x : image (host_phi k pm tm i index) (ssz k pm tm) a x = own_rows k pm tm i index a x.
Proof.
  apply eq_true_iff_eq. rewrite image_true. unfold own_rows, between.
  destruct a; simpl; rewrite ?andb_true_iff, ?Z.leb_le, ?Z.ltb_lt, ?Z.eqb_eq;
    (split; [intros (j & Hj & <-); lia|intros H]).
  - exists (x - k * i). lia.
  - exists (x - k * i). lia.
  - exists (x - 4 * pm * i). lia.
  - exists (x - 3 * tm * i). lia.
  - exists (x - pm * i). lia.
  - exists (x - k * i). lia.
  - exists 0. lia.
Qed.

Section Host.
Variable N : Arith.
Notation F := (F N).
Variable c : cfg.
Variable g : grid N.
Hypothesis Hc : cfg_ok c.
Hypothesis Hg : sorted_grid N c g.
Notation n := (zlen (g_pts N g)).
Notation k := (c_k c).
Notation pm := (c_pmax c).
Notation tm := (c_tmax c).

Definition res_at := slot_res N (znth (g_pts N g)) n false (fun x => x) k pm tm (c_gr c) (c_gr c) (g_ids N g) (g_offs N g) (znth (g_pts N g)).

Lemma slot_prog_L i index : slot_prog N c g i index =
  slotL N (znth (g_pts N g)) false (fun x => x) k pm tm (c_gr c) (c_gr c) (g_ids N g) (g_offs N g) (znth (g_pts N g))
    (fun x => x) false (ad_host (k * i)) (lay_host k pm tm i) index.
Proof.
  destruct Hc as (H1 & H2 & H3). unfold slot_prog, slotL. cbv zeta. rewrite !w16_id by lia. reflexivity.
Qed.

Definition before (i index : Z) (m : mem F) h0 D0 b := slot_before N k pm tm (host_phi k pm tm i index) m h0 D0 b.
Definition after (i index : Z) (m' : mem F) r b := exists l', view (host_phi k pm tm i index) l' m' /\ slot_after N k pm tm r b l'.

Lemma host_slot index h0 D0 : 0 <= index < n -> hok N n k h0 -> zlen D0 = k ->
  exists r, res_at index h0 D0 r /\
    forall i m b, before i index m h0 D0 b -> 0 <= b < 256 ->
    exists m', run_in (own_rows k pm tm i index) (slot_prog N c g i index) m = Ok (tt, m') /\ after i index m' r b.
Proof.
  intros Hi H0 HD. destruct Hc as (H1 & H2 & H3). destruct (sorted_grid_ok N c g Hg) as (Gr & Gi & Go).
  destruct (slot_shared N (znth (g_pts N g)) n false (fun x => x) k pm tm (c_gr c) (c_gr c) (g_ids N g) (g_offs N g) (znth (g_pts N g))) with (index := index) (h0 := h0) (D0 := D0)
    as (r & R & E); auto; try lia.
  - intros p Hp. destruct (znth_in_range _ _ Hp) as [v Hv]. eauto.
  - split; [assumption|]. split; assumption.
  - destruct (znth_in_range _ _ Hi) as [v Hv]. eauto.
  - exists r. split; [assumption|]. intros i m b B Hb.
    destruct (E (fun x => x) false (ad_host (k * i)) (lay_host k pm tm i) (host_phi k pm tm i index) m b) as (m' & l' & Rn & V & A); auto.
    + now left.
    + apply host_lay.
    + apply host_inj.
    + exists m'. split; [|exists l'; auto]. rewrite slot_prog_L. eapply run_in_mono; [|exact Rn].
      intros a x Hx. rewrite <- host_image. exact Hx.
Qed.

(** any memory with room holds some rows *)
Lemma room_before i index m : room k pm tm i n m -> 0 <= index < n ->
  (forall d, 0 <= d < k -> exists v, znth (m_hid m) (k * i + d) = Some v /\ 0 <= v < n) ->
  exists h0 D0 b, before i index m h0 D0 b /\ hok N n k h0 /\ zlen D0 = k /\ map fst h0 = trow (m_hid m) k i /\ D0 = trow (m_dknn m) k i /\ znth (m_st m) index = Some b.
Proof.
  intros (Ri & R1 & R2 & R3 & R4 & R5 & R6 & R7) Hx Hv. destruct Hc as (H1 & H2 & H3).
  assert (NK : 0 <= k * i) by nia.
  set (ids := slice (m_hid m) (k * i) k). set (pqs := slice (m_hpq m) (k * i) k). set (D0 := slice (m_dknn m) (k * i) k).
  assert (L1 : zlen ids = k) by (apply zlen_slice; nia). assert (L2 : zlen pqs = k) by (apply zlen_slice; nia). assert (L3 : zlen D0 = k) by (apply zlen_slice; nia).
  destruct (znth_in_range (m_st m) index ltac:(lia)) as [b Hb].
  assert (LL : length ids = length pqs) by (unfold zlen in *; lia).
  assert (FS : map fst (combine ids pqs) = ids /\ map snd (combine ids pqs) = pqs).
  { apply combine_fst_snd. exact LL. }
  destruct FS as [E1 E2].
  exists (combine ids pqs), D0, b. split; [|split; [|split; [assumption|split; [exact E1|split; [reflexivity|assumption]]]]].
  - split; [|rewrite E1, E2; split; [|split; [|split]]].
    + intros a j Hj. unfold mrd. apply znth_in_range. destruct a; simpl in Hj |- *; nia.
    + intros j Hj. unfold ids. rewrite znth_slice by lia. reflexivity.
    + intros j Hj. unfold pqs. rewrite znth_slice by lia. reflexivity.
    + intros j Hj. unfold D0. rewrite znth_slice by lia. reflexivity.
    + simpl. rewrite Z.add_0_r. exact Hb.
  - split.
    + unfold zlen in *. rewrite combine_length. lia.
    + apply Forall_forall. intros x Hin. assert (II : In (fst x) ids) by (rewrite <- E1; now apply in_map).
      apply in_znth in II as (j & Rj & Z0). unfold ids in Z0. rewrite znth_slice in Z0 by lia.
      destruct (Hv j ltac:(lia)) as (v & Ev & Rv). assert (v = fst x) by congruence. lia.
Qed.
End Host.
