(** C15, C22, C23, C40, C41 for the result of the CPU path, exact arithmetic. *)
From Verif Require Import Base Arith PBase Prog PProg MUtils MHeap MXyz MKnn MBoundary MCell MDnn MArgs MTess Exact PExact PFlags SpecDnn PDnn SpecGeom SpecSort SpecBnd SpecKnn SpecVor
  PXyz PGrid PSortFinal PHeap PReloc PHeapFinal PKnnFinal PBnd PBndLoop PCellSim PCellRun PCell PCellRow PKnnSafe PSlot PWalk SpecSlot PSlotHost PTess PTessRun PTessFinal
  PGeomCone PGeomPoly PGeomWalk.
From Coq Require Import Psatz.
From Verif Require Export SpecParam SpecCut SpecResult.
Local Open Scope R_scope.

Lemma used_label T l : used T l = true <-> exists t, In t T /\ label l t.
Proof.
  unfold used. rewrite existsb_exists. split.
  - intros ([[a b] c] & I & H). exists (a, b, c). split; [assumption|]. simpl. rewrite !orb_true_iff, !Z.eqb_eq in H. intuition.
  - intros ([[a b] c] & I & H). exists (a, b, c). split; [assumption|]. simpl in H. rewrite !orb_true_iff, !Z.eqb_eq. intuition.
Qed.

Lemma byte_ok (cl : bool) o : errorless (loop_byte cl o st_init) <-> ok_out o = true.
Proof. destruct cl, o; vm_compute; intuition discriminate. Qed.
Lemma byte_reach (cl : bool) o : Z.testbit (loop_byte cl o st_init) 0 = true -> o = Reach.
Proof. destruct cl, o; vm_compute; congruence. Qed.
Lemma visible_padded k l : (forall x, In x l -> x <> k_undefined) -> visible (padded k l) = l.
Proof.
  intros H. unfold padded. set (m := Z.to_nat (k - zlen l)). clearbody m. induction l as [|x l IH].
  - destruct m; reflexivity.
  - simpl. replace (x =? k_undefined)%Z with false by (symmetry; apply Z.eqb_neq, H; now left).
    unfold k_undefined in *. assert (x <> -32)%Z by (apply H; now left). destruct (Z.eqb_spec x (-32)); [contradiction|]. f_equal. apply IH. intros; apply H; now right.
Qed.

(** perturbation: strict inequalities at x survive a small step *)
Lemma small_list (f : Z -> R) (g : Z -> R) (l : list Z) : (forall i, In i l -> 0 < f i) ->
  exists d, 0 < d /\ forall e, 0 < e <= d -> forall i, In i l -> 0 < f i + e * g i.
Proof.
  induction l as [|i l IH]; intros H; [exists 1; split; [lra|intros ? ? ? []]|].
  destruct IH as (d & Pd & Hd); [intros; apply H; now right|].
  destruct (small_pos (f i) (g i)) as (d1 & Pd1 & Q); [apply H; now left|].
  exists (Rmin d d1). pose proof (Rmin_l d d1). pose proof (Rmin_r d d1). split; [apply Rmin_pos; assumption|].
  intros e He j [<-|I]; [apply Q; lra|apply Hd; [lra|assumption]].
Qed.

Section G.
Variable N : Arith.
Variable E : Exact N.
Notation F := (F N).
Notation valp := (valp N E).
Notation finp := (finp N E).

(** a state whose triangles are the surface of the cell among all points *)
Section Cell0.
Variables (pts : list (point N)) (k index j0 : Z) (K : list Z) (p : point N) (s : cst N).
Hypothesis Hin : forall q, In q pts -> inside N E q.
Hypothesis Hp : znth pts index = Some p.
Notation S := (map valp pts).
Notation P := (valp p).
Hypothesis HC : clipped N E P s.
Hypothesis L0 : linv N (znth pts) K p j0 s.
Hypothesis region_near : forall y, region N E s y -> forall q, In q S -> d2 y P <= d2 y q.

Let Fp : finp p. Proof. apply Hin. eapply znth_in; eauto. Qed.

(** sides of the planes in use *)
Lemma cell_ge6 l : (6 <= l < zlen (cP N s))%Z -> exists d q qp, znth (cD N s) d = Some l /\ znth K d = Some q /\ znth pts q = Some qp /\
  forall y, ev (side N E (cP N s) l) y = (d2 y P - d2 y (valp qp)) / 2.
Proof.
  intros Hl. destruct L0 as (A & B & C & D). destruct (B l Hl) as [d Hd]. destruct (A d l Hd) as [->|(Hdj & H6 & q & qp & Eq & Ep & Epl)]; [unfold k_undefined in Hl; lia|].
  exists d, q, qp. do 3 (split; [assumption|]). intros y. unfold side, pl_at. rewrite Epl. replace (l <? 6)%Z with false by lia.
  apply bis_ev; auto. apply Hin. eapply znth_in; eauto.
Qed.
Lemma cell_lt6 y : (forall l, (0 <= l < 6)%Z -> ev (side N E (cP N s) l) y <= 0) <-> in_cube y.
Proof.
  destruct L0 as (_ & _ & _ & (Pj & EPj)). rewrite <- (region_cube N E (repeat k_undefined (Z.to_nat k))). unfold region, feasible.
  change (zlen (cP N (cst0 N (repeat k_undefined (Z.to_nat k))))) with 6%Z. simpl cP. rewrite EPj.
  split; intros H l Hl; specialize (H l Hl); (rewrite side_app in *; [assumption|]); rewrite cube_len; lia.
Qed.
Lemma cell_n6 : (6 <= zlen (cP N s))%Z.
Proof. destruct L0 as (_ & _ & _ & (Pj & EPj)). rewrite EPj, zlen_app, cube_len. pose proof (zlen_nonneg Pj). lia. Qed.

Lemma cell_region y : region N E s y <-> in_cell S P y.
Proof.
  split.
  - intros Ry. split; [|apply region_near; assumption]. apply cell_lt6. intros l Hl. apply Ry. pose proof cell_n6. lia.
  - intros [Hc Hn] l Hl. destruct (Z_lt_dec l 6) as [H6|H6]; [apply (proj2 (cell_lt6 y) Hc); lia|].
    destruct (cell_ge6 l ltac:(lia)) as (d & q & qp & _ & _ & Eq & Ev). rewrite Ev.
    assert (In (valp qp) S) by (apply in_map; eapply znth_in; eauto). specialize (Hn _ H). lra.
Qed.

(** satisfying the planes that label triangles is enough *)
Lemma cell_labels y : (forall t l, In t (cT N s) -> label l t -> ev (side N E (cP N s) l) y <= 0) -> region N E s y.
Proof.
  intros H j Hj. pose proof (cl_surf _ _ _ _ HC) as SF.
  destruct (surface_support _ _ _ _ y (normal (side N E (cP N s) j)) SF H) as (t & x & It & Vx & Fx & SX).
  pose proof (ev_normal (side N E (cP N s) j) y x). pose proof (Fx j Hj). lra.
Qed.

Lemma cell_row j : In j (row_of N K s) <-> exists d l t, znth K d = Some j /\ znth (cD N s) d = Some l /\ In t (cT N s) /\ label l t.
Proof.
  unfold row_of. rewrite in_map_iff. split.
  - intros ([q l] & <- & H). apply filter_In in H. destruct H as [I U]. apply used_label in U. destruct U as (t & It & Lt).
    apply in_znth in I. destruct I as (d & Hd & Ed). simpl.
    exists d, l, t. unfold znth in *. destruct (0 <=? d)%Z; [|discriminate].
    assert (G : forall (a b : list Z) m x y, nth_error (combine a b) m = Some (x, y) -> nth_error a m = Some x /\ nth_error b m = Some y).
    { clear. induction a as [|u a IH]; intros [|v b] [|m] x y H; simpl in *; try discriminate; [injection H as -> ->; auto|eauto]. }
    apply G in Ed. tauto.
  - intros (d & l & t & Ed & El & It & Lt). exists (j, l). split; [reflexivity|]. apply filter_In. split; [|apply used_label; eauto].
    unfold znth in *. destruct (0 <=? d)%Z; [|discriminate].
    assert (G : forall (a b : list Z) m x y, nth_error a m = Some x -> nth_error b m = Some y -> In (x, y) (combine a b)).
    { clear. induction a as [|u a IH]; intros [|v b] [|m] x y H H'; simpl in *; try discriminate; [left; congruence|right; eauto]. }
    eapply G; eauto.
Qed.

(** C22 *)
Lemma cell_touches j : In j (row_of N K s) -> exists q x, znth pts j = Some q /\ touches S P (valp q) x.
Proof.
  intros I. apply cell_row in I. destruct I as (d & l & t & Ed & El & It & Lt).
  pose proof (cl_surf _ _ _ _ HC) as SF. pose proof (label_lt _ _ _ (sf_ok _ _ _ _ SF t It) Lt) as Rl.
  destruct L0 as (A & _). destruct (A d l El) as [->|(_ & H6 & q & qp & Eq & Ep & Epl)]; [unfold k_undefined in Rl; lia|].
  assert (q = j) by congruence. subst q. exists qp. destruct (sf_feas _ _ _ _ SF t It) as (x & Vx & Fx). exists x. split; [assumption|].
  assert (Rx : region N E s x) by exact Fx. apply cell_region in Rx. destruct Rx as [Cx Nx]. split; [assumption|]. split; [|assumption].
  specialize (Vx l Lt). unfold side, pl_at in Vx. rewrite Epl in Vx. replace (l <? 6)%Z with false in Vx by lia.
  rewrite bis_ev in Vx; auto; [lra|]. apply Hin. eapply znth_in; eauto.
Qed.

(** the row bounds the cell *)
Lemma cell_bounded y : in_cube y -> (forall j q, In j (row_of N K s) -> znth pts j = Some q -> d2 y P <= d2 y (valp q)) -> in_cell S P y.
Proof.
  intros Cy Hy. apply cell_region, cell_labels. intros t l It Lt. pose proof (cl_surf _ _ _ _ HC) as SF. pose proof (label_lt _ _ _ (sf_ok _ _ _ _ SF t It) Lt) as Rl.
  destruct (Z_lt_dec l 6) as [H6|H6]; [apply (proj2 (cell_lt6 y)); [assumption|lia]|].
  destruct (cell_ge6 l ltac:(lia)) as (dd & c & cp & Edd & Ec & Ecp & Ev). rewrite Ev.
  assert (d2 y P <= d2 y (valp cp)); [|lra]. apply (Hy c); [apply cell_row; eauto 10|assumption].
Qed.

(** C23 *)
Lemma cell_face j q : znth pts j = Some q -> valp q <> P -> face S index j -> In j (row_of N K s).
Proof.
  intros Ej Ne (p' & q' & x & Ep' & Eq' & Cx & Ex & Hx). rewrite znth_map in Ep', Eq'. rewrite Hp in Ep'. rewrite Ej in Eq'.
  injection Ep' as <-. injection Eq' as <-.
  destruct (in_dec Z.eq_dec j (row_of N K s)) as [|Ni]; [assumption|exfalso].
  set (Q := valp q) in *. set (dir := vmov Q (-1) P).
  (* change of d2 along dir *)
  assert (DD : forall e r, d2 (vmov x e dir) r - d2 (vmov x e dir) P = (d2 x r - d2 x P) + e * (2 * vdot dir (vmov P (-1) r))).
  { intros e r. destruct x as [[x1 x2] x3], dir as [[e1 e2] e3], r as [[r1 r2] r3], P as [[p1 p2] p3]. simpl. ring. }
  assert (Dp : 0 < vdot dir dir).
  { apply vdot_self. intros X. apply Ne. unfold dir in X. destruct Q as [[q1 q2] q3], P as [[p1 p2] p3]. unfold vmov, v0 in X. injection X as X1 X2 X3.
    f_equal; [f_equal|]; lra. }
  set (idx := filter (fun l => negb (l =? index)%Z && negb (l =? j)%Z) (zrange 0 (zlen pts))).
  set (fn := fun l => match znth pts l with Some r => d2 x (valp r) - d2 x P | None => 1 end).
  set (gn := fun l => match znth pts l with Some r => 2 * vdot dir (vmov P (-1) (valp r)) | None => 0 end).
  destruct (small_list fn gn idx) as (d & Pd & Hd).
  { intros l Il. apply filter_In in Il. destruct Il as [Il Nl]. rewrite andb_true_iff, !negb_true_iff, !Z.eqb_neq in Nl. apply in_zrange in Il.
    unfold fn. destruct (znth_in_range pts l Il) as [r Er]. rewrite Er. assert (d2 x P < d2 x (valp r)); [|lra].
    apply (Hx l); try tauto. rewrite znth_map, Er. reflexivity. }
  assert (CB : exists d', 0 < d' /\ forall e, 0 < e <= d' -> in_cube (vmov x e dir)).
  { destruct x as [[x1 x2] x3], dir as [[e1 e2] e3]. simpl in Cx.
    destruct (small_pos x1 e1) as (a1 & A1 & B1); [lra|]. destruct (small_pos (1 - x1) (- e1)) as (a2 & A2 & B2); [lra|].
    destruct (small_pos x2 e2) as (a3 & A3 & B3); [lra|]. destruct (small_pos (1 - x2) (- e2)) as (a4 & A4 & B4); [lra|].
    destruct (small_pos x3 e3) as (a5 & A5 & B5); [lra|]. destruct (small_pos (1 - x3) (- e3)) as (a6 & A6 & B6); [lra|].
    exists (Rmin (Rmin a1 a2) (Rmin (Rmin a3 a4) (Rmin a5 a6))). split; [repeat apply Rmin_pos; assumption|].
    intros e He. pose proof (Rmin_l (Rmin a1 a2) (Rmin (Rmin a3 a4) (Rmin a5 a6))). pose proof (Rmin_r (Rmin a1 a2) (Rmin (Rmin a3 a4) (Rmin a5 a6))).
    pose proof (Rmin_l a1 a2). pose proof (Rmin_r a1 a2). pose proof (Rmin_l (Rmin a3 a4) (Rmin a5 a6)). pose proof (Rmin_r (Rmin a3 a4) (Rmin a5 a6)).
    pose proof (Rmin_l a3 a4). pose proof (Rmin_r a3 a4). pose proof (Rmin_l a5 a6). pose proof (Rmin_r a5 a6).
    specialize (B1 e ltac:(lra)). specialize (B2 e ltac:(lra)). specialize (B3 e ltac:(lra)). specialize (B4 e ltac:(lra)). specialize (B5 e ltac:(lra)). specialize (B6 e ltac:(lra)).
    simpl. lra. }
  destruct CB as (d' & Pd' & Hd'). set (e := Rmin d d'). pose proof (Rmin_l d d'). pose proof (Rmin_r d d'). assert (He : 0 < e) by (apply Rmin_pos; assumption). fold e in H, H0.
  set (y := vmov x e dir).
  assert (Ry : region N E s y).
  { apply cell_labels. intros t l It Lt. pose proof (cl_surf _ _ _ _ HC) as SF. pose proof (label_lt _ _ _ (sf_ok _ _ _ _ SF t It) Lt) as Rl.
    destruct (Z_lt_dec l 6) as [H6|H6]; [apply (proj2 (cell_lt6 y)); [apply Hd'; lra|lia]|].
    destruct (cell_ge6 l ltac:(lia)) as (dd & c & cp & Edd & Ec & Ecp & Ev). rewrite Ev.
    destruct (Z.eq_dec c j) as [->|Ncj]; [exfalso; apply Ni, cell_row; eauto 10|].
    destruct (Z.eq_dec c index) as [->|Nci]; [assert (cp = p) by congruence; subst cp; lra|].
    assert (Ic : In c idx). { apply filter_In. split; [apply in_zrange; apply (znth_some _ _ _ Ecp)|]. rewrite andb_true_iff, !negb_true_iff, !Z.eqb_neq. tauto. }
    specialize (Hd e ltac:(lra) c Ic). unfold fn, gn in Hd. rewrite Ecp in Hd. rewrite <- DD in Hd. fold y in Hd. lra. }
  assert (d2 y P <= d2 y Q). { apply (region_near y Ry). apply in_map. eapply znth_in; eauto. }
  pose proof (DD e Q) as DQ. fold y in DQ. assert (EQ : vdot dir (vmov P (-1) Q) = - vdot dir dir).
  { unfold dir. destruct Q as [[q1 q2] q3], P as [[p1 p2] p3]. simpl. ring. }
  rewrite EQ, Ex in DQ. nra.
Qed.
End Cell0.

Section Slot.
Variables (pmax tmax : Z) (pts : list (point N)) (k index : Z) (K row : list Z) (p : point N) (o : nbout) (s : cst N).
Hypothesis Hpm : (pmax <= 255)%Z.
Hypothesis Hin : forall q, In q pts -> inside N E q.
Hypothesis Hp : znth pts index = Some p.
Hypothesis Hk : (0 < k)%Z.
Hypothesis HW : walk N pmax tmax (znth pts) K p (zrange 0 k) (cst0 N (repeat k_undefined (Z.to_nat k))) o s.
Hypothesis Hok : ok_out o = true.
Hypothesis Hnear : nearest (sqdist N E pts index) (fun q => (0 <= q < zlen pts)%Z /\ q <> index) row.
Hypothesis Lrow : zlen row = Z.min k (zlen pts - 1).
Hypothesis HKrow : forall j q, znth row j = Some q -> znth K j = Some q.
Hypothesis Hval : o = Reach \/ (zlen pts - 1 <= k)%Z.
Notation S := (map valp pts).
Notation P := (valp p).

Let Fp : finp p. Proof. apply Hin. eapply znth_in; eauto. Qed.
Let Cp : in_open_cube P. Proof. apply Hin. eapply znth_in; eauto. Qed.
Let Cp' : in_cube P. Proof. pose proof Cp as H. destruct P as [[a b] c]. simpl in *. lra. Qed.
Let Ri : (0 <= index < zlen pts)%Z. Proof. apply (znth_some _ _ _ Hp). Qed.
Let HFpts : forall q qp, In q K -> znth pts q = Some qp -> finp qp.
Proof. intros q qp _ H. apply Hin. eapply znth_in; eauto. Qed.

Lemma WG : clipped N E P s /\ (forall y, region N E s y -> region N E (cst0 N (repeat k_undefined (Z.to_nat k))) y) /\
  (o = Cont -> forall y nb q, region N E s y -> In nb (zrange 0 k) -> cand N E (znth pts) K nb q -> d2 y P <= d2 y q) /\
  (o = Reach -> exists a nb b q, zrange 0 k = a ++ nb :: b /\ cand N E (znth pts) K nb q /\
     (forall y nb' q', region N E s y -> In nb' (a ++ [nb]) -> cand N E (znth pts) K nb' q' -> d2 y P <= d2 y q') /\
     forall y z, region N E s y -> d2 P q <= d2 P z -> d2 y P < d2 y z).
Proof.
  apply (walk_geom N E pmax tmax (znth pts) K p Hpm Fp HFpts); auto.
  - change (zlen (cP N (cst0 N (repeat k_undefined (Z.to_nat k))))) with 6%Z. lia.
  - apply clipped0. exact Cp'.
Qed.
Lemma slot_clipped : clipped N E P s. Proof. apply WG. Qed.
Let L0 : linv N (znth pts) K p k s.
Proof.
  apply (linv_walk N pmax tmax (znth pts) K p k (Z.to_nat (k - 0)) 0 (cst0 N (repeat k_undefined (Z.to_nat k))) o s); [reflexivity|lia| |apply linv0|exact HW].
  change (zlen (repeat k_undefined (Z.to_nat k)) = k). rewrite zlen_repeat. lia.
Qed.

(** all others are candidates when k >= n - 1 *)
Lemma row_all q : (zlen pts - 1 <= k)%Z -> (0 <= q < zlen pts)%Z -> q <> index -> In q row.
Proof using Hnear Lrow Hp.
  clear Hval HKrow HW Hok.
  intros Hk2 Hq Nq. destruct Hnear as (ND & Hc & _ & _).
  assert (I : incl (index :: row) (zrange 0 (zlen pts))).
  { intros a [<-|Ha]; [now apply in_zrange|]. apply in_zrange. apply Hc in Ha. tauto. }
  assert (ND2 : NoDup (index :: row)) by (constructor; [intros X; apply Hc in X; tauto|assumption]).
  assert (I2 : incl (zrange 0 (zlen pts)) (index :: row)).
  { apply NoDup_length_incl; auto. pose proof (zlen_zrange 0 (zlen pts) ltac:(lia)). pose proof (zlen_nonneg row). unfold zlen in *. simpl. lia. }
  assert (In q (index :: row)) by (apply I2, in_zrange; lia). destruct H as [H|H]; [congruence|assumption].
Qed.

(** the region computed is the cell among all points *)
Lemma region_near y : region N E s y -> forall q, In q S -> d2 y P <= d2 y q.
Proof.
  intros Ry q Iq. apply in_znth in Iq. destruct Iq as (j & Hj & Ej). rewrite znth_map in Ej. destruct (znth pts j) as [qp|] eqn:Eqp; [|discriminate].
  injection Ej as <-. destruct (Z.eq_dec j index) as [->|Nj].
  { assert (qp = p) by congruence. subst qp. apply Rle_refl. }
  rewrite zlen_map in Hj. destruct WG as (C1 & M1 & Q1 & Q2). destruct Hnear as (ND & Hc & Hs & Hn).
  assert (CN : forall d a ap, znth K d = Some a -> znth pts a = Some ap -> cand N E (znth pts) K d (valp ap)) by (intros d a ap H1 H2; exists a, ap; auto).
  assert (SQ : forall a ap, znth pts a = Some ap -> sqdist N E pts index a = d2 P (valp ap)).
  { intros a ap H. unfold sqdist. rewrite H, Hp. apply d2_sym. }
  destruct o; try discriminate.
  - (* all candidates processed *)
    destruct Hval as [X|X]; [discriminate|]. pose proof (row_all j X Hj Nj) as I. apply in_znth in I. destruct I as (d & Hd & Ed).
    apply (Q1 eq_refl y d (valp qp) Ry); [apply in_zrange; lia|]. eapply CN; eauto.
  - (* stopped *)
    destruct (Q2 eq_refl) as (a & nb & b & q0 & Ez & Hc0 & Q3 & Q4).
    assert (Ia : (0 <= nb < k)%Z) by (apply in_zrange; rewrite Ez; apply in_or_app; right; now left).
    assert (Za : forall d, (0 <= d <= nb)%Z -> In d (a ++ [nb])).
    { assert (La : Z.of_nat (List.length a) = nb).
      { assert (X : nth_error (zrange 0 k) (List.length a) = Some nb) by (rewrite Ez, nth_error_app2, Nat.sub_diag by lia; reflexivity).
        assert (List.length a < List.length (zrange 0 k))%nat by (apply nth_error_Some; congruence).
        pose proof (zlen_zrange 0 k ltac:(lia)). unfold zlen in *. rewrite nth_error_zrange in X by lia. injection X as X. lia. }
      intros d Hd. destruct (Z.eq_dec d nb) as [->|Nd]; [apply in_or_app; right; now left|]. apply in_or_app. left.
      assert (X : nth_error (zrange 0 k) (Z.to_nat d) = Some d) by (rewrite nth_error_zrange by lia; f_equal; lia).
      rewrite Ez, nth_error_app1 in X by lia. eapply nth_error_In; eauto. }
    destruct Hc0 as (c0 & cp0 & Ec0 & Ecp0 & ->).
    assert (FAR : forall d c, znth row d = Some c -> (nb < d)%Z \/ False -> c = j -> d2 y P <= d2 y (valp qp)).
    { intros d c Hd [Hlt|[]] ->. assert (Rn : (0 <= nb < zlen row)%Z) by (pose proof (znth_some _ _ _ Hd); lia).
      destruct (znth_in_range row nb Rn) as [r0 Er0]. pose proof (HKrow nb r0 Er0). assert (r0 = c0) by congruence. subst r0.
      left. apply (Q4 y (valp qp) Ry). rewrite <- (SQ c0 cp0 Ecp0), <- (SQ j qp Eqp). apply (Hs nb d); auto; lia. }
    destruct (in_dec Z.eq_dec j row) as [I|I].
    + apply in_znth in I. destruct I as (d & Hd & Ed). destruct (Z_le_dec d nb) as [Hle|Hgt].
      * apply (Q3 y d (valp qp) Ry); [apply Za; lia|]. eapply CN; eauto.
      * apply (FAR d j Ed); [left; lia|reflexivity].
    + assert (Lk : zlen row = k).
      { destruct (Z_le_dec (zlen pts - 1) k); [exfalso; apply I, row_all; assumption|lia]. }
      destruct (znth_in_range row nb ltac:(lia)) as [r0 Er0]. pose proof (HKrow nb r0 Er0). assert (r0 = c0) by congruence. subst r0.
      left. apply (Q4 y (valp qp) Ry). rewrite <- (SQ c0 cp0 Ecp0), <- (SQ j qp Eqp). apply Hn; auto. eapply znth_in; eauto.
Qed.

(** what the row of the state means *)
Lemma region_cell y : region N E s y <-> in_cell S P y.
Proof. eapply cell_region; eauto using region_near. Qed.
Lemma labels_region y : (forall t l, In t (cT N s) -> label l t -> ev (side N E (cP N s) l) y <= 0) -> region N E s y.
Proof. exact (cell_labels p s slot_clipped y). Qed.
Lemma row_label j : In j (row_of N K s) <-> exists d l t, znth K d = Some j /\ znth (cD N s) d = Some l /\ In t (cT N s) /\ label l t.
Proof. exact (cell_row K s j). Qed.
(** C22 *)
Lemma slot_touches j : In j (row_of N K s) -> exists q x, znth pts j = Some q /\ touches S P (valp q) x.
Proof. eapply cell_touches; eauto using slot_clipped, region_near. Qed.
(** the row bounds the cell *)
Lemma slot_bounded y : in_cube y -> (forall j q, In j (row_of N K s) -> znth pts j = Some q -> d2 y P <= d2 y (valp q)) -> in_cell S P y.
Proof. eapply cell_bounded; eauto using slot_clipped, region_near. Qed.
(** C23 *)
Lemma slot_face j q : znth pts j = Some q -> valp q <> P -> face S index j -> In j (row_of N K s).
Proof. eapply cell_face; eauto using slot_clipped, region_near. Qed.
End Slot.

(** ** one cell, any candidate list: C15, C41 *)
Section Cell.
Variables (k pmax tmax : Z) (pts : Z -> option (point N)) (K : list Z) (p : point N).
Hypothesis Hpm : (pmax <= 255)%Z.
Hypothesis Fp : finp p.
Hypothesis Fpts : forall q qp, In q K -> pts q = Some qp -> finp qp.
Notation P := (valp p).
Notation n s := (zlen (cP N s)).
Notation cand := (cand N E pts K).
Notation region := (region N E).
Notation linv := (linv N pts K p).

Lemma walk_cell : forall m j s o s', Z.to_nat (k - j) = m -> (0 <= j <= k)%Z -> zlen (cD N s) = k -> linv j s -> (6 <= n s)%Z -> clipped N E P s ->
  (forall y d q, region s y -> (0 <= d < j)%Z -> cand d q -> d2 y P <= d2 y q) ->
  walk N pmax tmax pts K p (zrange j k) s o s' -> ok_out o = true ->
  exists m', (j <= m' <= k)%Z /\ (o = Cont -> m' = k) /\ linv m' s' /\ (6 <= n s')%Z /\ clipped N E P s' /\
    (forall y d q, region s' y -> (0 <= d < m')%Z -> cand d q -> d2 y P <= d2 y q) /\
    (o = Reach -> exists q, (0 < m')%Z /\ cand (m' - 1) q /\ forall y z, region s' y -> d2 P q <= d2 P z -> d2 y P < d2 y z).
Proof.
  induction m as [|m IH]; intros j s o s' Hm Hj HD I L6 C HN W OK.
  - rewrite zrange_nil in W by lia. inversion W; subst. exists j. repeat (split; [first [lia|assumption]|]). discriminate.
  - assert (U : forall q qp x, znth K j = Some q -> pts q = Some qp -> cand j x -> x = valp qp).
    { intros q qp x Eq Ep (q' & qp' & Eq' & Ep' & ->). congruence. }
    rewrite zrange_cons in W by lia. inversion W as [|nb nbs q qp s0 s1 o0 s2 Hq Hqp R W'|nb nbs q qp s0 o0 s1 Hq Hqp R No]; subst.
    + destruct (linv_step N pmax tmax pts K p j q qp s Cont s1 ltac:(lia) Hq Hqp I R) as [I1 L1].
      destruct (clip_step N E pmax tmax p Hpm Fp qp j s Cont s1 (Fpts q qp (znth_in _ _ _ Hq) Hqp) L6 C R eq_refl) as (C1 & L2 & M1 & _).
      destruct (IH (j + 1)%Z s1 o s') as (m' & Hm' & T); auto; try lia.
      { intros y d x Hy Hd Hc. destruct (Z.eq_dec d j) as [->|]; [rewrite (U q qp x Hq Hqp Hc); now apply M1|]. apply (HN y d); auto; [now apply M1|lia]. }
      exists m'. split; [lia|assumption].
    + destruct (linv_step N pmax tmax pts K p j q qp s o s' ltac:(lia) Hq Hqp I R) as [I1 L1].
      destruct (clip_step N E pmax tmax p Hpm Fp qp j s o s' (Fpts q qp (znth_in _ _ _ Hq) Hqp) L6 C R OK) as (C1 & L2 & M1 & RV).
      exists (j + 1)%Z. split; [lia|]. split; [congruence|]. do 3 (split; [assumption|]). split.
      * intros y d x Hy Hd Hc. destruct (Z.eq_dec d j) as [->|]; [rewrite (U q qp x Hq Hqp Hc); now apply M1|]. apply (HN y d); auto; [now apply M1|lia].
      * intros Eo. exists (valp qp). split; [lia|]. split; [replace (j + 1 - 1)%Z with j by lia; exists q, qp; auto|]. intros y z Hy. apply RV; [assumption|]. now apply M1.
Qed.

Lemma sides6 j s y : linv j s -> (forall l, (0 <= l < 6)%Z -> ev (side N E (cP N s) l) y <= 0) <-> in_cube y.
Proof.
  intros (_ & _ & _ & (Pj & EPj)). rewrite <- (region_cube N E (repeat k_undefined (Z.to_nat k))). unfold PGeomWalk.region, feasible.
  change (n (cst0 N (repeat k_undefined (Z.to_nat k)))) with 6%Z. simpl cP. rewrite EPj.
  split; intros H l Hl; specialize (H l Hl); (rewrite side_app in *; [assumption|]); rewrite cube_len; lia.
Qed.

Notation nearest_to := (nearest_to N E pts K p).
Notation vertex_at := (vertex_at N E).

Notation cell_ok := (cell_ok N E k pts K p).
Notation cell_stop := (cell_stop N E pts K p).

Hypothesis Hpm6 : (6 <= pmax)%Z.
Hypothesis Htm : (8 <= tmax)%Z.
Hypothesis LK : zlen K = k.
Hypothesis HK : forall q, In q K -> q <> k_undefined /\ exists qp, pts q = Some qp.
Hypothesis Cp : in_cube P.

Lemma vertex_is s Pj t x : clipped N E P s -> In t (cT N s) -> vertex_at (cP N s ++ Pj) t x <-> is_vertex (side N E (cP N s)) t x.
Proof.
  intros C It. pose proof (cl_surf _ _ _ _ C) as SF. pose proof (label_lt (n s) t) as LL. specialize (fun l => LL l (sf_ok _ _ _ _ SF t It)).
  assert (G : forall l, label l t -> ((exists h, znth (cP N s ++ Pj) l = Some h /\ ev (valh N E h) x = 0) <-> ev (side N E (cP N s) l) x = 0)).
  { intros l Hl. rewrite side_0. specialize (LL l Hl). destruct (znth_in_range (cP N s) l LL) as [h Eh]. unfold pl_at. rewrite Eh.
    rewrite znth_app1 by lia. rewrite Eh. split; [intros (h' & [= <-] & H); exact H|eauto]. }
  destruct t as [[a b] c]. simpl. split; intros H l Hl; apply (G l Hl), H, Hl.
Qed.

Lemma near_region m s y : linv m s -> (6 <= n s)%Z ->
  (forall y d q, region s y -> (0 <= d < m)%Z -> cand d q -> d2 y P <= d2 y q) -> nearest_to m y <-> region s y.
Proof.
  intros L L6 HN. split.
  - intros [Cy Ny] l Hl. destruct (Z_lt_dec l 6) as [H6|H6]; [apply (proj2 (sides6 m s y L) Cy); lia|].
    destruct L as (A & B & _). destruct (B l ltac:(lia)) as [d Hd].
    destruct (A d l Hd) as [->|(Hdj & _ & q & qp & Eq & Ep & Epl)]; [unfold k_undefined in Hl; lia|].
    unfold side, pl_at. rewrite Epl. replace (l <? 6)%Z with false by lia. rewrite bis_ev; auto; [|apply (Fpts q qp); [eapply znth_in; eauto|assumption]].
    pose proof (znth_some _ _ _ Eq). specialize (Ny d q qp ltac:(lia) Eq Ep). lra.
  - intros Ry. split; [apply (sides6 m s y L); intros l Hl; apply Ry; lia|]. intros d q qp Hd Eq Ep. apply (HN y d); auto. exists q, qp. auto.
Qed.

Lemma cell_geom : exists b' row T m, forall wc brk pq refs Pl Tr C, wc_ok wc (Z.min tmax (2 * pmax - 6)) ->
  zlen Pl = pmax -> zlen Tr = tmax -> zlen C = pmax -> refs 0%Z = Some p ->
  exists Pl' Tr' C' D',
    run (cell_compute N wc brk lay0 k pmax tmax 0 pts refs) (cm N pq Pl Tr C K (repeat k_undefined (Z.to_nat k)) st_init) =
      Ok (tt, cm N pq Pl' Tr' C' row D' b') /\
    (errorless b' -> (exists Tj, Tr' = T ++ Tj) /\ cell_ok b' Pl' T m /\ cell_stop b' m).
Proof.
  pose proof (zlen_nonneg K) as Hk. assert (LD : zlen (repeat k_undefined (Z.to_nat k)) = k) by (rewrite zlen_repeat; lia).
  destruct (run_cell N k pmax tmax pts K ltac:(lia) Htm LK HK _ p LD) as (o & s & cl & W & G & RUN).
  exists (loop_byte cl o st_init), (row_after N k K o s), (cT N s).
  assert (X : ok_out o = true -> exists m', (0 <= m' <= k)%Z /\ (o = Cont -> m' = k) /\ linv m' s /\ (6 <= n s)%Z /\ clipped N E P s /\
    (forall y d q, region s y -> (0 <= d < m')%Z -> cand d q -> d2 y P <= d2 y q) /\
    (o = Reach -> exists q, (0 < m')%Z /\ cand (m' - 1) q /\ forall y z, region s y -> d2 P q <= d2 P z -> d2 y P < d2 y z)).
  { intros OK. apply (walk_cell (Z.to_nat (k - 0)) 0 (cst0 N (repeat k_undefined (Z.to_nat k))) o s); auto; try lia.
    - apply linv0. - change (n (cst0 N (repeat k_undefined (Z.to_nat k)))) with 6%Z. lia. - apply clipped0. exact Cp. }
  assert (X' : exists m', ok_out o = true -> (0 <= m' <= k)%Z /\ (o = Cont -> m' = k) /\ linv m' s /\ (6 <= n s)%Z /\ clipped N E P s /\
    (forall y d q, region s y -> (0 <= d < m')%Z -> cand d q -> d2 y P <= d2 y q) /\
    (o = Reach -> exists q, (0 < m')%Z /\ cand (m' - 1) q /\ forall y z, region s y -> d2 P q <= d2 P z -> d2 y P < d2 y z)).
  { destruct (ok_out o); [destruct (X eq_refl) as [m' Hm']; exists m'; auto|exists 0%Z; discriminate]. }
  destruct X' as [m X']. exists m. intros wc brk pq refs Pl Tr C Hwc LP LT LC Hr.
  destruct (RUN wc brk pq refs Pl Tr C st_init Hwc LP LT LC ltac:(unfold st_init; lia) Hr) as (Pl' & Tr' & C' & D' & R & _ & _ & _ & _ & Q).
  exists Pl', Tr', C', D'. split; [exact R|]. intros EB. apply byte_ok in EB.
  destruct (Q EB) as ((Pj & ->) & (Tj & ->) & _). destruct (X' EB) as (Hm & HC & L & L6 & CL & HN & HR). pose proof (cl_surf _ _ _ _ CL) as SF.
  assert (NR := fun y => near_region m s y L L6 HN).
  split; [eauto|]. split.
  - split; [assumption|]. split; [intros B0; apply HC; destruct o; try discriminate; [reflexivity|]; destruct cl; vm_compute in B0; discriminate|].
    split; [apply (sf_closed _ _ _ _ SF)|]. split; [apply (sf_nodup _ _ _ _ SF)|]. split; [|split].
    + intros t It. destruct (sf_feas _ _ _ _ SF t It) as (x & Vx & Fx). exists x. split; [apply vertex_is; assumption|]. apply NR. exact Fx.
    + intros t x x' It V V'. apply vertex_is in V, V'; auto. eapply vertex_unique; eauto. apply Rgt_not_eq. apply (sf_pos _ _ _ _ SF t It).
    + intros y f Hy. apply NR in Hy. destruct (surface_support _ _ _ _ y f SF) as (t & x & It & Vx & _ & SX).
      { intros t l It Hl. apply Hy. eapply label_lt; [apply (sf_ok _ _ _ _ SF t It)|assumption]. }
      exists t, x. split; [assumption|]. split; [apply vertex_is; assumption|exact SX].
  - intros B0. apply byte_reach in B0. destruct (HR B0) as (q & Hm0 & (c & cp & Ec & Ecp & ->) & Z). exists c, cp. do 3 (split; [assumption|]).
    intros y z Hy. apply Z. now apply NR.
Qed.

Lemma cell_reach : exists b' row m, forall wc brk pq refs Pl Tr C, wc_ok wc (Z.min tmax (2 * pmax - 6)) ->
  zlen Pl = pmax -> zlen Tr = tmax -> zlen C = pmax -> refs 0%Z = Some p ->
  exists Pl' Tr' C' D',
    run (cell_compute N wc brk lay0 k pmax tmax 0 pts refs) (cm N pq Pl Tr C K (repeat k_undefined (Z.to_nat k)) st_init) =
      Ok (tt, cm N pq Pl' Tr' C' row D' b') /\
    (errorless b' -> Z.testbit b' 0 = true -> exists q qp, (0 < m <= k)%Z /\ znth K (m - 1) = Some q /\ pts q = Some qp /\
      forall y z, nearest_to m y -> d2 P (valp qp) <= d2 P z -> d2 y P < d2 y z).
Proof.
  destruct cell_geom as (b' & row & T & m & H). exists b', row, m. intros wc brk pq refs Pl Tr C H1 H2 H3 H4 H5.
  destruct (H wc brk pq refs Pl Tr C H1 H2 H3 H4 H5) as (Pl' & Tr' & C' & D' & R & Q). exists Pl', Tr', C', D'. split; [exact R|].
  intros EB B0. destruct (Q EB) as (_ & (Hm & _) & ST). destruct (ST B0) as (q & qp & A & B & D & Z). exists q, qp. split; [lia|auto].
Qed.
End Cell.

Notation api_ok := (api_ok N E).

Definition slot_facts (c : cfg) (pts : list (point N)) (index b : Z) (p : point N) (K row : list Z) (o : nbout) (s : cst N) : Prop :=
  (0 <= index < zlen pts)%Z /\ znth pts index = Some p /\ zlen K = c_k c /\
  walk N (c_pmax c) (c_tmax c) (znth pts) K p (zrange 0 (c_k c)) (cst0 N (repeat k_undefined (Z.to_nat (c_k c)))) o s /\
  nearest (sqdist N E pts index) (fun q => (0 <= q < zlen pts)%Z /\ q <> index) row /\
  zlen row = Z.min (c_k c) (zlen pts - 1) /\
  (forall j q, znth row j = Some q -> znth K j = Some q) /\ (forall q, In q K -> (0 <= q < zlen pts)%Z) /\
  exists cl, b = loop_byte cl o st_init.

Lemma core_final w c P0 : api_ok c P0 -> exists ob, tess_core N w c cpu P0 = Ok ob /\ Permutation P0 (o_pts N ob) /\
  zlen (o_states N ob) = zlen P0 /\
  (zlen (o_rows N ob) = zlen P0 /\ getdnn (o_rows N ob) = Ok (o_dnn N ob) /\ map visible (o_rows N ob) = o_rows N ob /\ (total (o_rows N ob) <= int_max)%Z) /\
  forall i b, znth (o_states N ob) i = Some b -> exists p K row o s,
    slot_facts c (o_pts N ob) i b p K row o s /\
    (errorless b -> (forall j, lists (o_dnn N ob) i j <-> In j (row_of N K s)) /\ znth (o_rows N ob) i = Some (row_of N K s)).
Proof.
  intros (Hc & Hgr & Hg3 & Hin & Rc & Hnt & Fit & HkN).
  pose proof (in_range_exact N E (c_gr c) P0 Hgr Hg3 Hin) as Hr.
  destruct (xyz_sort_total N (c_gr c) P0 ltac:(lia) Hg3 Hr) as (P & ids & offs & HS).
  pose proof (perm_points N _ _ _ _ _ HS) as PP. assert (LP : zlen P = zlen P0) by (unfold zlen; rewrite (Permutation_length PP); reflexivity).
  set (g := mkGrid N P ids offs).
  assert (Hg : sorted_grid N c g) by (split; [assumption|]; exists P0; auto).
  destruct (results_ex N c g Hc Hg) as [rs Rs]. pose proof (zlen_nonneg P) as LP0.
  set (rows := map (out_row N c rs) (zrange 0 (zlen P))). set (states := map (out_byte N rs) (zrange 0 (zlen P))).
  assert (CPU : forall tmpnn, zlen tmpnn = zlen P -> cpu_tesellate N (w_sched N w) c g tmpnn (repeat st_init (List.length P)) = Ok (rows, states)).
  { intros tmpnn Lt. apply (cpu_spec N c g); auto. change (fits c (zlen P)). rewrite LP. assumption. }
  destruct Hc as (K1 & K2 & K3).
  assert (FACT : forall x, (0 <= x < zlen P)%Z -> exists p row, slot_facts c P x (out_byte N rs x) p (r_K N (rs x)) row (r_o N (rs x)) (r_s N (rs x)) /\
     good N (c_k c) (c_pmax c) (c_tmax c) (r_s N (rs x))).
  { intros x Hx. destruct (Rs x Hx) as [(p & Ep & Hh & KR & W & Gd) _]. simpl in Ep.
    destruct (knn_local N E (emem N) false (fun x => x) (znth P) (c_gr c) P0 P ids offs (c_k c) x p (finf N) Hgr Hg3 Hin HS ltac:(lia) Ep Ep ltac:(auto) eq_refl)
      as (h & row & KR2 & Lh & Nr & Lr & Hrow & Hpad).
    assert (EH : h = r_h N (rs x)).
    { pose proof (eq_trans (eq_sym KR2) KR) as X. injection X as X0 X1. clear - X0 X1.
      revert X0 X1. generalize (r_h N (rs x)). induction h as [|[a u] h IH]; intros [|[b v] l] A B; simpl in *; try discriminate; [reflexivity|].
      injection A as -> A. injection B as -> B. f_equal. now apply IH. }
    subst h. exists p, row. split; [|assumption].
    split; [assumption|]. split; [assumption|]. split; [unfold r_K; rewrite zlen_map; assumption|]. split; [exact W|].
    split; [exact Nr|]. split; [exact Lr|]. split.
    - intros j q Hj. destruct (Hrow j q Hj) as (v & Ev & _). unfold r_K. rewrite znth_map, Ev. reflexivity.
    - split; [|exists (r_cl N (rs x)); reflexivity]. intros q Hq. unfold r_K in Hq. apply in_map_iff in Hq as ([q' v] & <- & Hq).
      destruct Hh as [_ Hh]. rewrite Forall_forall in Hh. apply (Hh _ Hq). }
  assert (LR : Forall (fun r => zlen r <= c_k c)%Z rows).
  { apply Forall_forall. intros r Hi. apply in_map_iff in Hi as (x & <- & Hx). apply in_zrange in Hx. unfold out_row.
    destruct (FACT x Hx) as (p & row & (_ & _ & LK & _) & G).
    assert (Lrow : zlen (r_row N (c_k c) (rs x)) = c_k c) by (apply row_after_len; [assumption|apply G]).
    etransitivity; [apply visible_len|lia]. }
  assert (VV : forall l, visible (visible l) = visible l).
  { induction l as [|a l IH]; [reflexivity|]. simpl. destruct (a =? -32)%Z eqn:Q; [reflexivity|]. simpl. rewrite Q. congruence. }
  assert (VR : map visible rows = rows). { unfold rows. rewrite map_map. apply map_ext. intros x. unfold out_row. apply VV. }
  assert (LRW : zlen rows = zlen P) by (unfold rows; rewrite zlen_map, zlen_zrange; lia).
  assert (TB : (total rows <= int_max)%Z).
  { etransitivity; [apply (total_bound _ (c_k c)); [lia|exact LR]|]. rewrite LRW, LP. assumption. }
  exists (mkOutcome N P (mkDnn (concat (map visible rows)) (shape (map visible rows))) rows states (stats_of states) (negb (validate_xyzset N P)) (negb (validate_id ids))).
  split; [|split; [exact PP|split; [|split]]].
  - unfold tess_core. rewrite HS. cbn [rbind run_device]. change (mkGrid N P ids offs) with g.
    rewrite CPU by (unfold zlen; rewrite repeat_length; reflexivity). cbn [rbind]. rewrite Rc. cbn [rbind]. rewrite getdnn_ok by (rewrite VR; assumption). reflexivity.
  - simpl. unfold states. rewrite zlen_map, zlen_zrange; lia.
  - simpl. split; [lia|]. split; [apply getdnn_ok; rewrite VR; assumption|]. split; assumption.
  - simpl. intros i b Hb. unfold states in Hb. rewrite znth_map in Hb. destruct (znth (zrange 0 (zlen P)) i) as [x|] eqn:Ei; [|discriminate].
    assert (x = i). { pose proof (znth_some _ _ _ Ei) as Ri. rewrite zlen_zrange in Ri by lia. rewrite znth_zrange in Ei by lia. injection Ei as <-. lia. }
    subst x. injection Hb as <-. assert (Hi : (0 <= i < zlen P)%Z) by (apply in_zrange; eapply znth_in; eauto).
    destruct (FACT i Hi) as (p & row & SFc & G). exists p, (r_K N (rs i)), row, (r_o N (rs i)), (r_s N (rs i)). split; [exact SFc|].
    intros EB. destruct SFc as (_ & _ & LK & _ & _ & _ & _ & HKr & _).
    assert (OR : out_row N c rs i = row_of N (r_K N (rs i)) (r_s N (rs i))).
    { unfold out_row, r_row, row_after. unfold out_byte, r_byte in EB. apply byte_ok in EB. rewrite EB. apply visible_padded.
      intros z Hz. unfold row_of in Hz. apply in_map_iff in Hz as ([u v] & <- & Hz). apply filter_In in Hz as [Hz _]. apply in_combine_l in Hz. specialize (HKr u Hz). simpl. unfold k_undefined. lia. }
    assert (Zr : znth rows i = Some (out_row N c rs i)) by (unfold rows; rewrite znth_map, Ei; reflexivity).
    destruct (dnn_view rows (mkDnn (concat (map visible rows)) (shape (map visible rows)))) as (_ & V & _); [rewrite LRW; pose proof HkN; nia|rewrite VR; assumption|apply getdnn_ok; rewrite VR; assumption|].
    rewrite VR in V. destruct (V i _ Zr) as [V1 V2]. rewrite VR. rewrite <- OR. split; [intros j; split|exact Zr].
    + intros (sz & m & Es & Hm & Eg). rewrite V1 in Es. injection Es as <-. destruct (znth_in_range (out_row N c rs i) m Hm) as [z Ez]. rewrite (V2 m z Ez) in Eg. injection Eg as <-. eapply znth_in; eauto.
    + intros I. apply in_znth in I as (m & Hm & Em). exists (zlen (out_row N c rs i)), m. auto.
Qed.

Lemma core_returns w c P0 : api_ok c P0 -> exists o, tess_core N w c cpu P0 = Ok o /\ Permutation P0 (o_pts N o) /\ zlen (o_states N o) = zlen P0.
Proof. intros H. destruct (core_final w c P0 H) as (o & A & B & C & _). eauto. Qed.

Section Api.
Variables (w : world N) (c : cfg) (P0 : list (point N)) (ob : outcome N).
Hypothesis Hapi : api_ok c P0.
Hypothesis Hrun : tess_core N w c cpu P0 = Ok ob.
Notation S := (map valp (o_pts N ob)).

Lemma api_slot i b : znth (o_states N ob) i = Some b -> validated (c_k c) (zlen (o_pts N ob)) b ->
  exists p K row o s, slot_facts c (o_pts N ob) i b p K row o s /\ ok_out o = true /\ (o = Reach \/ (zlen (o_pts N ob) - 1 <= c_k c)%Z) /\
    (forall q, In q (o_pts N ob) -> inside N E q) /\ (forall j, lists (o_dnn N ob) i j <-> In j (row_of N K s)).
Proof.
  destruct (core_final w c P0 Hapi) as (ob' & R & PP & _ & _ & F). rewrite Hrun in R. injection R as <-.
  intros Hb (EL & V). destruct (F i b Hb) as (p & K & row & o & s & SFc & L). exists p, K, row, o, s. split; [exact SFc|].
  destruct SFc as (_ & _ & _ & _ & _ & _ & _ & _ & cl & ->). split; [now apply (byte_ok cl)|]. split.
  - destruct V as [V|V]; [left; now apply (byte_reach cl)|now right].
  - split; [|now apply L]. intros q Hq. apply Hapi. eapply Permutation_in; [apply Permutation_sym; exact PP|assumption].
Qed.

Lemma api_touches i b j : znth (o_states N ob) i = Some b -> validated (c_k c) (zlen (o_pts N ob)) b -> lists (o_dnn N ob) i j ->
  exists p q x, znth S i = Some p /\ znth S j = Some q /\ touches S p q x.
Proof.
  intros Hb V L. destruct (api_slot i b Hb V) as (p & K & row & o & s & (Ri & Ep & LK & W & Nr & Lr & HKr & HKb & _) & OK & VV & Hin & LL).
  apply LL in L. assert (Hc : cfg_ok c) by apply Hapi. destruct Hc as (K1 & K2 & K3).
  destruct (slot_touches (c_pmax c) (c_tmax c) (o_pts N ob) (c_k c) i K row p o s ltac:(lia) Hin Ep ltac:(lia) W OK Nr Lr HKr VV j L) as (q & x & Eq & T).
  exists (valp p), (valp q), x. rewrite !znth_map, Ep, Eq. auto.
Qed.
Lemma api_face i b j p q : znth (o_states N ob) i = Some b -> validated (c_k c) (zlen (o_pts N ob)) b ->
  znth S i = Some p -> znth S j = Some q -> p <> q -> face S i j -> lists (o_dnn N ob) i j.
Proof.
  intros Hb V Ei Ej Ne Fa. destruct (api_slot i b Hb V) as (p' & K & row & o & s & (Ri & Ep & LK & W & Nr & Lr & HKr & HKb & _) & OK & VV & Hin & LL).
  apply LL. assert (Hc : cfg_ok c) by apply Hapi. destruct Hc as (K1 & K2 & K3).
  rewrite znth_map in Ei, Ej. rewrite Ep in Ei. injection Ei as <-. destruct (znth (o_pts N ob) j) as [q'|] eqn:Eq; [|discriminate]. injection Ej as <-.
  apply (slot_face (c_pmax c) (c_tmax c) (o_pts N ob) (c_k c) i K row p' o s ltac:(lia) Hin Ep ltac:(lia) W OK Nr Lr HKr VV j q' Eq); auto.
Qed.
Lemma api_bounded i b y p : znth (o_states N ob) i = Some b -> validated (c_k c) (zlen (o_pts N ob)) b -> znth (map valp (o_pts N ob)) i = Some p ->
  in_cube y -> (forall j q, lists (o_dnn N ob) i j -> znth (map valp (o_pts N ob)) j = Some q -> d2 y p <= d2 y q) -> in_cell (map valp (o_pts N ob)) p y.
Proof.
  intros Hb V Ei Cy Hy. destruct (api_slot i b Hb V) as (p' & K & row & o & s & (Ri & Ep & LK & W & Nr & Lr & HKr & HKb & _) & OK & VV & Hin & LL).
  assert (Hc : cfg_ok c) by apply Hapi. destruct Hc as (K1 & K2 & K3). rewrite znth_map, Ep in Ei. injection Ei as <-.
  apply (slot_bounded (c_pmax c) (c_tmax c) (o_pts N ob) (c_k c) i K row p' o s ltac:(lia) Hin Ep ltac:(lia) W OK Nr Lr HKr VV y Cy).
  intros j q Hj Ej. apply (Hy j); [now apply LL|]. rewrite znth_map, Ej. reflexivity.
Qed.

Lemma face_sym X i j : face X i j -> face X j i.
Proof. intros (p & q & x & A & B & C & D & H). exists q, p, x. do 3 (split; [assumption|]). split; [auto|]. intros l r Hl N1 N2. rewrite <- D. eauto. Qed.
Lemma api_sym i j bi bj p q : znth (o_states N ob) i = Some bi -> znth (o_states N ob) j = Some bj ->
  validated (c_k c) (zlen (o_pts N ob)) bi -> validated (c_k c) (zlen (o_pts N ob)) bj ->
  znth S i = Some p -> znth S j = Some q -> p <> q -> face S i j -> lists (o_dnn N ob) i j /\ lists (o_dnn N ob) j i.
Proof.
  intros. split; [apply (api_face i bi j p q); auto|]. apply (api_face j bj i q p); auto. now apply face_sym.
Qed.
End Api.
End G.
