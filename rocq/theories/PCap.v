(** Exact arithmetic: a cell with more facets than the buffers hold is flagged. *)
From Verif Require Import Base Arith PBase Prog PProg MUtils MHeap MXyz MKnn MBoundary MCell MDnn MArgs MTess Exact PExact PFlags SpecDnn PDnn SpecGeom SpecSort SpecBnd SpecKnn SpecVor
  PXyz PGrid PSortFinal PHeap PReloc PHeapFinal PKnnFinal PBnd PBndLoop PCellSim PCellRun PCell PCellRow PKnnSafe PSlot PWalk SpecSlot PSlotHost PTess PTessRun PTessFinal
  PGeomCone PGeomPoly PGeomWalk PGeomFinal PTopo PTopoCut PPerturb PEuler PNoFail PNoFailApi.
From Verif Require Export SpecParam SpecCap.
From Coq Require Import Psatz Permutation.
Local Open Scope R_scope.

Section G.
Variable N : Arith.
Variable E : Exact N.
Notation valp := (valp N E).
Notation finp := (finp N E).
Notation side := (PGeomWalk.side N E).
Notation n s := (zlen (cP N s)).
Notation sound := (sound N E).

Lemma sound_conn p s : (6 <= n s)%Z -> sound p s -> dconn (cT N s).
Proof.
  intros L6 [C PS _]. pose proof (cl_surf _ _ _ _ C) as SF.
  set (o := fun j => if (j =? n s)%Z then (0, 0, 0, -1) else side (cP N s) j).
  assert (Eo : forall j, (0 <= j < n s)%Z -> side (cP N s) j = o j) by (intros j Hj; unfold o; destruct (Z.eqb_spec j (n s)); [lia|reflexivity]).
  pose proof (surface_ext _ _ _ _ _ Eo SF) as SO.
  destruct (parts_conn o (n s) (cT N s) []) as (H & _); rewrite ?app_nil_r in *.
  - exact (sf_ok _ _ _ _ SO).
  - exact (sf_pos _ _ _ _ SO).
  - intros t It. destruct (sf_feas _ _ _ _ SO t It) as (x & V & _). eauto.
  - exact (sf_closed _ _ _ _ SO).
  - exact (sf_nodup _ _ _ _ SO).
  - intros t x _ _. unfold o. rewrite Z.eqb_refl. destruct x as [[a b] c]. simpl. lra.
  - intros t x [].
  - apply (psurf_ext (side (cP N s))); auto. exact (sf_ok _ _ _ _ SF).
  - exact H.
Qed.

Lemma sound_labels p s L : (6 <= n s)%Z -> sound p s -> NoDup L -> (forall l, In l L -> exists t, In t (cT N s) /\ label l t) -> (2 * zlen L <= zlen (cT N s) + 4)%Z.
Proof.
  intros L6 So NL HL. pose proof (cl_surf _ _ _ _ (so_clip _ _ _ _ So)) as SF.
  pose proof (euler (cT N s) (sf_nodup _ _ _ _ SF) (sf_closed _ _ _ _ SF) (sound_conn p s L6 So) L NL HL). unfold zlen. lia.
Qed.

Section Walk.
Variables (pmax tmax : Z) (pts : Z -> option (point N)) (K : list Z) (p : point N).
Hypothesis Hpm : (pmax <= 255)%Z.
Hypothesis Fp : finp p.
Hypothesis Fpts : forall q qp, In q K -> pts q = Some qp -> finp qp.
Notation P := (valp p).

Lemma walk_ok : forall nbs s o s', (6 <= n s <= pmax)%Z -> (zlen (cT N s) <= 2 * n s - 4)%Z -> (zlen (cT N s) <= tmax)%Z -> sound P s -> walk N pmax tmax pts K p nbs s o s' -> ok_out o = true ->
  sound P s' /\ (6 <= n s' <= pmax)%Z /\ (zlen (cT N s') <= tmax)%Z.
Proof.
  assert (ST : forall nb qp s o s', finp qp -> (6 <= n s <= pmax)%Z -> (zlen (cT N s) <= 2 * n s - 4)%Z -> (zlen (cT N s) <= tmax)%Z -> sound P s -> nb_rel N pmax tmax p qp nb s o s' -> ok_out o = true ->
    sound P s' /\ (6 <= n s' <= pmax)%Z /\ (zlen (cT N s') <= 2 * n s' - 4)%Z /\ (zlen (cT N s') <= tmax)%Z).
  { intros nb qp s o s' Fq L6 LT LM So R OK.
    destruct (sound_step N E pmax tmax p Hpm Fp qp nb s o s' Fq ltac:(lia) LT So R) as (_ & _ & _ & H). destruct (H OK) as (S1 & A1 & A2 & A3).
    split; [assumption|].
    inversion R as [Kp V Sp PV E1 E2|Kp R0 V CC h rest Sp PV NE Lp LC OC LR EI Lt E1 E2|Kp R0 Sp NE Lp E1 E2|Kp R0 CC Sp NE Lp LC BS E1 E2|Kp R0 CC h rest Sp NE Lp LC OC LR EI Lt E1 E2]; try (subst o; discriminate).
    - rewrite <- E2 in *. simpl in *. destruct Sp as (PK & _). rewrite app_nil_r in PK. unfold zlen in *. rewrite (Permutation_length PK). lia.
    - rewrite <- E2 in *. simpl cT in *. simpl cP in *. rewrite zlen_app, zlen_one in *. split; [lia|]. split; [lia|].
      assert (FL : forall l u, zlen (fan u l h (n s)) = (zlen l + 1)%Z).
      { induction l as [|a l IH]; intros u; [reflexivity|]. simpl. rewrite !zlen_cons, IH. lia. }
      rewrite zlen_app, FL. lia. }
  induction nbs as [|nb nbs IH]; intros s o s' L6 LT LM So W OK.
  - inversion W; subst. auto.
  - inversion W as [|nb0 nbs0 q qp s0 s1 o0 s2 Hq Hqp R W'|nb0 nbs0 q qp s0 o0 s1 Hq Hqp R No]; subst.
    + destruct (ST nb qp s Cont s1 (Fpts q qp (znth_in _ _ _ Hq) Hqp) L6 LT LM So R eq_refl) as (A & B & C & D). apply (IH s1 o s'); auto.
    + destruct (ST nb qp s o s' (Fpts q qp (znth_in _ _ _ Hq) Hqp) L6 LT LM So R OK) as (A & B & C & D). auto.
Qed.
End Walk.

(** ** one slot *)
Section Slot.
Variables (pmax tmax : Z) (pts : list (point N)) (k index : Z) (K row : list Z) (p : point N) (o : nbout) (s : cst N).
Hypothesis Hpm : (6 <= pmax <= 255)%Z.
Hypothesis Htm : (8 <= tmax)%Z.
Hypothesis Hin : forall q, In q pts -> inside N E q.
Hypothesis Hp : znth pts index = Some p.
Hypothesis Hk : (0 < k)%Z.
Hypothesis HW : walk N pmax tmax (znth pts) K p (zrange 0 k) (cst0 N (repeat k_undefined (Z.to_nat k))) o s.
Hypothesis Hok : ok_out o = true.
Notation S := (map valp pts).
Notation P := (valp p).

Let Fp : finp p. Proof. apply Hin. eapply znth_in; eauto. Qed.
Let L0 : linv N (znth pts) K p k s.
Proof.
  apply (linv_walk N pmax tmax (znth pts) K p k (Z.to_nat (k - 0)) 0 (cst0 N (repeat k_undefined (Z.to_nat k))) o s); [reflexivity|lia| |apply linv0|exact HW].
  change (zlen (repeat k_undefined (Z.to_nat k)) = k). rewrite zlen_repeat. lia.
Qed.
Let SOK : sound P s /\ (6 <= n s <= pmax)%Z /\ (zlen (cT N s) <= tmax)%Z.
Proof.
  apply (walk_ok pmax tmax (znth pts) K p ltac:(lia) Fp) with (nbs := zrange 0 k) (s := cst0 N (repeat k_undefined (Z.to_nat k))) (o := o); auto.
  - intros q qp _ H. apply Hin. eapply znth_in; eauto.
  - change (n (cst0 N (repeat k_undefined (Z.to_nat k)))) with 6%Z. lia.
  - change (8 <= 2 * 6 - 4)%Z. lia.
  - apply sound0. assert (H : in_open_cube P) by (apply Hin; eapply znth_in; eauto). destruct P as [[a b] c]. simpl in *. lra.
Qed.

(** labels of the reported candidates *)
Definition row_labels : list Z := map snd (filter (fun x => used (cT N s) (snd x)) (combine K (cD N s))).
Lemma row_labels_len : zlen row_labels = zlen (row_of N K s).
Proof. unfold row_labels, row_of. rewrite !zlen_map. f_equal. apply filter_ext. now intros [a l]. Qed.
Lemma row_labels_ok l : In l row_labels -> (6 <= l < n s)%Z /\ exists t, In t (cT N s) /\ label l t.
Proof.
  unfold row_labels. intros H. apply in_map_iff in H as ([q l'] & <- & H). apply filter_In in H as [I U]. apply used_label in U. simpl in *. split; [|assumption].
  destruct U as (t & It & Lt). pose proof (cl_surf _ _ _ _ (so_clip _ _ _ _ (proj1 SOK))) as SF. pose proof (label_lt _ _ _ (sf_ok _ _ _ _ SF t It) Lt) as Rl.
  apply in_combine_r in I. apply in_znth in I as (d & _ & Ed). destruct L0 as (A & _). destruct (A d l' Ed) as [->|(_ & H6 & _)]; [unfold k_undefined in Rl; lia|lia].
Qed.
Lemma row_labels_nodup : NoDup row_labels.
Proof.
  destruct L0 as (_ & _ & U & _). unfold row_labels.
  assert (G : forall (A B : list Z), (forall d d' l, znth B d = Some l -> znth B d' = Some l -> l <> k_undefined -> d = d') -> (forall l, used (cT N s) l = true -> l <> k_undefined) ->
     NoDup (map snd (filter (fun x => used (cT N s) (snd x)) (combine A B)))).
  { clear. intros A B HB HU. revert A. induction B as [|b B IH]; intros [|a A]; try constructor.
    assert (HB' : forall d d' l, znth B d = Some l -> znth B d' = Some l -> l <> k_undefined -> d = d').
    { intros d d' l H1 H2 Nl. pose proof (znth_some _ _ _ H1). pose proof (znth_some _ _ _ H2).
      assert (d + 1 = d' + 1)%Z; [|lia]. apply (HB _ _ l); auto; rewrite znth_cons by lia; [replace (d + 1 - 1)%Z with d by lia|replace (d' + 1 - 1)%Z with d' by lia]; assumption. }
    simpl. destruct (used (cT N s) b) eqn:Q; [|now apply IH]. simpl. constructor; [|now apply IH].
    intros H. apply in_map_iff in H as ([q l] & El & H). simpl in El. subst l. apply filter_In in H as [I _]. apply in_combine_r in I. apply in_znth in I as (d & Hd & Ed).
    assert (0 = d + 1)%Z; [|lia]. apply (HB 0%Z (d + 1)%Z b); [reflexivity| |now apply HU]. rewrite znth_cons by lia. replace (d + 1 - 1)%Z with d by lia. assumption. }
  apply G; [assumption|]. intros l Hl. apply used_label in Hl as (t & It & Lt).
  pose proof (cl_surf _ _ _ _ (so_clip _ _ _ _ (proj1 SOK))) as SF. pose proof (label_lt _ _ _ (sf_ok _ _ _ _ SF t It) Lt). unfold k_undefined. lia.
Qed.

(** a wall with a facet labels a triangle *)
Lemma wall_label w : (forall y, region N E s y -> forall q, In q S -> d2 y P <= d2 y q) -> wall_facet S index w -> (0 <= w < 6)%Z /\ exists t, In t (cT N s) /\ label w t.
Proof.
  intros HN (p' & x & Ep' & OW & HX). rewrite znth_map, Hp in Ep'. injection Ep' as <-.
  assert (Rw : (0 <= w < 6)%Z) by (destruct x as [[a b] c]; simpl in OW; lia). split; [assumption|].
  destruct (used (cT N s) w) eqn:U; [now apply used_label|exfalso].
  assert (NU : forall t, In t (cT N s) -> ~ label w t). { intros t It Lt. assert (used (cT N s) w = true) by (apply used_label; eauto). congruence. }
  destruct SOK as (So & L6 & _). pose proof (so_clip _ _ _ _ So) as HC.
  assert (SW : forall l, (0 <= l < 6)%Z -> side (cP N s) l = side (cP N (cst0 N [])) l).
  { intros l Hl. destruct L0 as (_ & _ & _ & (Pj & EPj)). rewrite EPj. simpl cP. rewrite side_app by (rewrite cube_len; lia). reflexivity. }
  destruct (side_cube N E []) as (S0 & S1 & S2 & S3 & S4 & S5).
  set (dir := normal (side (cP N s) w)).
  (* change of d2 along dir *)
  assert (DD : forall e r, d2 (vmov x e dir) r - d2 (vmov x e dir) P = (d2 x r - d2 x P) + e * (2 * vdot dir (vmov P (-1) r))).
  { intros e r. destruct x as [[x1 x2] x3], dir as [[e1 e2] e3], r as [[r1 r2] r3], P as [[p1 p2] p3]. simpl. ring. }
  set (idx := filter (fun l => negb (l =? index)%Z) (zrange 0 (zlen pts))).
  set (fn := fun l => match znth pts l with Some r => d2 x (valp r) - d2 x P | None => 1 end).
  set (gn := fun l => match znth pts l with Some r => 2 * vdot dir (vmov P (-1) (valp r)) | None => 0 end).
  destruct (small_list fn gn idx) as (d & Pd & Hd).
  { intros l Il. apply filter_In in Il. destruct Il as [Il Nl]. rewrite negb_true_iff, Z.eqb_neq in Nl. apply in_zrange in Il.
    unfold fn. destruct (znth_in_range pts l Il) as [r Er]. rewrite Er. assert (d2 x P < d2 x (valp r)); [|lra].
    apply (HX l); try tauto. rewrite znth_map, Er. reflexivity. }
  set (e := Rmin d 1). assert (He : 0 < e <= d /\ e <= 1) by (unfold e; pose proof (Rmin_l d 1); pose proof (Rmin_r d 1); pose proof (Rmin_pos d 1 Pd ltac:(lra)); lra).
  set (y := vmov x e dir).
  assert (WL : forall l, (0 <= l < 6)%Z -> l <> w -> ev (side (cP N s) l) y <= 0).
  { intros l Hl Nl. unfold y, dir. rewrite (SW l Hl), (SW w Rw).
    assert (Hl' : (l = 0 \/ l = 1 \/ l = 2 \/ l = 3 \/ l = 4 \/ l = 5)%Z) by lia.
    destruct x as [[a b] c]. simpl in OW.
    destruct OW as [(-> & O)|[(-> & O)|[(-> & O)|[(-> & O)|[(-> & O)|(-> & O)]]]]]; destruct Hl' as [->|[->|[->|[->|[->| ->]]]]]; try (destruct (Nl eq_refl));
      rewrite ?S0, ?S1, ?S2, ?S3, ?S4, ?S5; simpl; lra. }
  assert (Ry : region N E s y).
  { apply (cell_labels N E p s HC). intros t l It Lt. pose proof (cl_surf _ _ _ _ HC) as SF. pose proof (label_lt _ _ _ (sf_ok _ _ _ _ SF t It) Lt) as Rl.
    assert (Nlw : l <> w) by (intros ->; exact (NU t It Lt)).
    destruct (Z_lt_dec l 6) as [H6|H6]; [apply WL; [lia|assumption]|].
    destruct (cell_ge6 N E pts index k K p s Hin Hp L0 l ltac:(lia)) as (dd & c & cp & Edd & Ec & Ecp & Ev). rewrite Ev.
    destruct (Z.eq_dec c index) as [->|Nci]; [assert (cp = p) by congruence; subst cp; lra|].
    assert (Ic : In c idx). { apply filter_In. split; [apply in_zrange; apply (znth_some _ _ _ Ecp)|]. rewrite negb_true_iff, Z.eqb_neq. assumption. }
    specialize (Hd e ltac:(lra) c Ic). unfold fn, gn in Hd. rewrite Ecp in Hd. rewrite <- DD in Hd. fold y in Hd. lra. }
  specialize (Ry w ltac:(lia)). unfold y, dir in Ry. rewrite (SW w Rw) in Ry. destruct x as [[a b] c]. simpl in OW.
  destruct OW as [(-> & O)|[(-> & O)|[(-> & O)|[(-> & O)|[(-> & O)|(-> & O)]]]]]; rewrite ?S0, ?S1, ?S2, ?S3, ?S4, ?S5 in Ry; simpl in Ry; lra.
Qed.

(** rows are short *)
Lemma slot_row_len : (2 * zlen (row_of N K s) <= tmax + 4)%Z /\ (zlen (row_of N K s) + 6 <= pmax)%Z.
Proof.
  destruct SOK as (So & L6 & LT). split.
  - pose proof (sound_labels P s row_labels ltac:(lia) So row_labels_nodup (fun l H => proj2 (row_labels_ok l H))). rewrite row_labels_len in H. lia.
  - rewrite <- row_labels_len. assert (zlen row_labels <= zlen (zrange 6 (n s)))%Z.
    { unfold zlen. apply Nat2Z.inj_le. apply NoDup_incl_length; [apply row_labels_nodup|]. intros l Hl. apply in_zrange. now apply row_labels_ok. }
    rewrite zlen_zrange in H by lia. lia.
Qed.

Hypothesis Hnear : nearest (sqdist N E pts index) (fun q => (0 <= q < zlen pts)%Z /\ q <> index) row.
Hypothesis Lrow : zlen row = Z.min k (zlen pts - 1).
Hypothesis HKrow : forall j q, znth row j = Some q -> znth K j = Some q.
Hypothesis Hval : o = Reach \/ (zlen pts - 1 <= k)%Z.

Lemma slot_facets J W : facets S index J W -> (2 * (zlen J + zlen W) <= tmax + 4)%Z /\ (zlen J + 6 <= pmax)%Z.
Proof.
  intros (NJ & NW & HJ & HWl).
  assert (IJ : incl J (row_of N K s)).
  { intros j Hj. destruct (HJ j Hj) as (Fj & p' & q' & Ep' & Eq' & Ne). rewrite znth_map, Hp in Ep'. injection Ep' as <-. rewrite znth_map in Eq'. destruct (znth pts j) as [q|] eqn:Eq; [|discriminate]. injection Eq' as <-.
    apply (slot_face N E pmax tmax pts k index K row p o s) with (q := q); auto; try lia. }
  assert (LJ : (zlen J <= zlen (row_of N K s))%Z) by (unfold zlen; apply Nat2Z.inj_le; now apply NoDup_incl_length).
  pose proof slot_row_len as [_ Q]. split; [|lia].
  assert (RN : forall y, region N E s y -> forall q, In q S -> d2 y P <= d2 y q).
  { apply (region_near N E pmax tmax pts k index K row p o s); auto; lia. }
  destruct SOK as (So & L6 & LT).
  pose proof (sound_labels P s (W ++ row_labels) ltac:(lia) So) as H. rewrite zlen_app, row_labels_len in H.
  assert (2 * (zlen W + zlen (row_of N K s)) <= zlen (cT N s) + 4)%Z; [|lia]. apply H.
  - apply nodup_app_i; [assumption|apply row_labels_nodup|]. intros l Hl Hl'. apply row_labels_ok in Hl' as (? & _). destruct (wall_label l RN (HWl l Hl)) as (? & _). lia.
  - intros l Hl. apply in_app_or in Hl as [Hl|Hl]; [apply (wall_label l RN (HWl l Hl))|now apply row_labels_ok].
Qed.
End Slot.

(** ** calls *)
Section Api.
Variables (w : world N) (c : cfg) (P0 : list (point N)) (ob : outcome N).
Hypothesis Hapi : api_ok N E c P0.
Hypothesis Hrun : tess_core N w c cpu P0 = Ok ob.
Notation S := (map valp (o_pts N ob)).

Lemma api_row_len i b row : znth (o_states N ob) i = Some b -> errorless b -> znth (o_rows N ob) i = Some row -> (2 * zlen row - 4 <= c_tmax c)%Z /\ (zlen row + 6 <= c_pmax c)%Z.
Proof.
  destruct (core_final N E w c P0 Hapi) as (ob' & R & PP & _ & _ & F). rewrite Hrun in R. injection R as <-. intros Hb EB Er.
  destruct (F i b Hb) as (p & K & kr & o & s & SF & L). destruct (L EB) as [_ Er']. assert (row = row_of N K s) by congruence. subst row.
  destruct SF as (_ & Ep & LK & W & _ & _ & _ & _ & cl & ->). apply byte_ok in EB. assert (Hc : cfg_ok c) by apply Hapi. destruct Hc as (K1 & K2 & K3).
  destruct (slot_row_len (c_pmax c) (c_tmax c) (o_pts N ob) (c_k c) i K p o s) as [A B]; auto; try lia.
  intros q Hq. apply Hapi. eapply Permutation_in; [apply Permutation_sym; exact PP|assumption].
Qed.

Lemma api_facets i b J W : znth (o_states N ob) i = Some b -> validated (c_k c) (zlen P0) b -> facets S i J W -> (2 * (zlen J + zlen W) - 4 <= c_tmax c)%Z /\ (zlen J + 6 <= c_pmax c)%Z.
Proof.
  intros Hb V FC. assert (LP : zlen (o_pts N ob) = zlen P0) by (destruct (api_facts N E w c P0 ob Hapi Hrun i b Hb); assumption). rewrite <- LP in V.
  destruct (api_slot N E w c P0 ob Hapi Hrun i b Hb V) as (p & K & row & o & s & (Ri & Ep & LK & Wk & Nr & Lr & HKr & HKb & _) & OK & VV & Hin & _).
  assert (Hc : cfg_ok c) by apply Hapi. destruct Hc as (K1 & K2 & K3).
  destruct (slot_facets (c_pmax c) (c_tmax c) (o_pts N ob) (c_k c) i K row p o s) with (J := J) (W := W) as [A B]; auto; lia.
Qed.

(** too many facets: an overflow is flagged unless k was too small *)
Lemma api_flagged i b J W : znth (o_states N ob) i = Some b -> facets S i J W -> (c_tmax c < 2 * (zlen J + zlen W) - 4 \/ c_pmax c < zlen J + 6)%Z -> (zlen P0 - 1 <= c_k c)%Z \/ Z.testbit b 0 = true ->
  Z.testbit b 4 = true \/ Z.testbit b 5 = true.
Proof.
  intros Hb FC Sm V. destruct (api_flags N E w c P0 ob Hapi Hrun i b Hb) as (A1 & A2 & _).
  destruct (Z.testbit b 4) eqn:Q4; [now left|]. destruct (Z.testbit b 5) eqn:Q5; [now right|]. exfalso.
  assert (VV : validated (c_k c) (zlen P0) b) by (split; [repeat split; assumption|tauto]). destruct (api_facets i b J W Hb VV FC). lia.
Qed.
End Api.

(** ** the row of a flagged cell *)
Lemma flagged_row w c P0 ob i b : api_ok N E c P0 -> tess_core N w c cpu P0 = Ok ob -> znth (o_states N ob) i = Some b -> ~ errorless b ->
  exists near, nearest (sqdist N E (o_pts N ob) i) (fun q => (0 <= q < zlen P0)%Z /\ q <> i) near /\ zlen near = Z.min (c_k c) (zlen P0 - 1) /\
    znth (o_rows N ob) i = Some (near ++ repeat 0%Z (Z.to_nat (c_k c - zlen near))).
Proof.
  intros (Hc & Hgr & Hg3 & Hin & Rc & Hnt & Fit & HkN) Hrun Hb NE.
  pose proof (in_range_exact N E (c_gr c) P0 Hgr Hg3 Hin) as Hr.
  destruct (xyz_sort_total N (c_gr c) P0 ltac:(lia) Hg3 Hr) as (P & ids & offs & HS).
  pose proof (perm_points N _ _ _ _ _ HS) as PP. assert (LP : zlen P = zlen P0) by (unfold zlen; rewrite (Permutation_length PP); reflexivity).
  set (g := mkGrid N P ids offs).
  assert (Hg : sorted_grid N c g) by (split; [assumption|]; exists P0; auto).
  destruct (results_ex N c g Hc Hg) as [rs Rs]. pose proof (zlen_nonneg P) as LP0.
  assert (CPU : forall tmpnn, zlen tmpnn = zlen P -> cpu_tesellate N (w_sched N w) c g tmpnn (repeat st_init (List.length P)) = Ok (map (out_row N c rs) (zrange 0 (zlen P)), map (out_byte N rs) (zrange 0 (zlen P)))).
  { intros tmpnn Lt. apply (cpu_spec N c g); auto. change (fits c (zlen P)). rewrite LP. assumption. }
  unfold tess_core in Hrun. rewrite HS in Hrun. cbn [rbind run_device] in Hrun. change (mkGrid N P ids offs) with g in Hrun.
  rewrite CPU in Hrun by (unfold zlen; rewrite repeat_length; reflexivity). cbn [rbind] in Hrun. rewrite Rc in Hrun. cbn [rbind] in Hrun.
  destruct (getdnn _) as [dn|]; [|discriminate]. cbn [rbind] in Hrun. injection Hrun as <-. simpl in *. destruct Hc as (K1 & K2 & K3).
  rewrite znth_map in Hb. destruct (znth (zrange 0 (zlen P)) i) as [x|] eqn:Ei; [|discriminate].
  assert (x = i). { pose proof (znth_some _ _ _ Ei) as Ri. rewrite zlen_zrange in Ri by lia. rewrite znth_zrange in Ei by lia. injection Ei as <-. lia. }
  subst x. injection Hb as <-. assert (Hi : (0 <= i < zlen P)%Z) by (apply in_zrange; eapply znth_in; eauto).
  destruct (Rs i Hi) as [(p & Ep & Hh & KR & W & Gd) _]. simpl in Ep.
  destruct (knn_local N E (emem N) false (fun x => x) (znth P) (c_gr c) P0 P ids offs (c_k c) i p (finf N) Hgr Hg3 Hin HS ltac:(lia) Ep Ep ltac:(auto) eq_refl)
    as (h & row & KR2 & Lh & Nr & Lr & Hrow & Hpad).
  assert (EH : h = r_h N (rs i)).
  { pose proof (eq_trans (eq_sym KR2) KR) as X. injection X as X0 X1. clear - X0 X1.
    revert X0 X1. generalize (r_h N (rs i)). induction h as [|[a u] h IH]; intros [|[b v] l] A B; simpl in *; try discriminate; [reflexivity|].
    injection A as -> A. injection B as -> B. f_equal. now apply IH. }
  rewrite LP in Nr, Lr. exists row. split; [exact Nr|]. split; [exact Lr|].
  assert (EK : r_K N (rs i) = row ++ repeat 0%Z (Z.to_nat (c_k c - zlen row))).
  { apply znth_ext. intros j. unfold r_K. rewrite <- EH, znth_map. pose proof (zlen_nonneg row).
    destruct (Z_lt_dec j 0) as [J0|J0]; [unfold znth; replace (0 <=? j)%Z with false by lia; reflexivity|].
    destruct (Z_lt_dec j (zlen row)) as [J1|J1].
    - destruct (znth_in_range row j ltac:(lia)) as [q Eq]. destruct (Hrow j q Eq) as (v & Ev & _). rewrite Ev, znth_app1 by lia. simpl. congruence.
    - rewrite znth_app2 by lia. destruct (Z_lt_dec j (c_k c)) as [J2|J2].
      + destruct (Hpad j ltac:(lia)) as (v & Ev & _). rewrite Ev, znth_repeat by lia. reflexivity.
      + replace (znth h j) with (@None (Z * F N)); [replace (znth (repeat 0%Z (Z.to_nat (c_k c - zlen row))) (j - zlen row)) with (@None Z); [reflexivity|]|].
        * destruct (znth (repeat 0%Z (Z.to_nat (c_k c - zlen row))) (j - zlen row)) eqn:Q; [|reflexivity]. apply znth_some in Q. rewrite zlen_repeat in Q. lia.
        * destruct (znth h j) eqn:Q; [|reflexivity]. apply znth_some in Q. lia. }
  rewrite znth_map, Ei. simpl. f_equal. rewrite <- EK. unfold out_row, r_row, row_after.
  assert (ok_out (r_o N (rs i)) = false) as ->.
  { destruct (ok_out (r_o N (rs i))) eqn:Q; [|reflexivity]. exfalso. apply NE. now apply (byte_ok (r_cl N (rs i))). }
  assert (VN : forall l, (forall q, In q l -> (0 <= q)%Z) -> visible l = l).
  { clear. induction l as [|a l IH]; intros H; [reflexivity|]. simpl. assert (0 <= a)%Z by (apply H; now left). destruct (Z.eqb_spec a (-32)); [lia|]. f_equal. apply IH. intros; apply H; now right. }
  apply VN. intros q Hq. rewrite EK in Hq. apply in_app_or in Hq as [Hq|Hq]; [apply Nr in Hq; lia|apply repeat_spec in Hq; lia].
Qed.
End G.
