(** Binary32: the candidates behind the rows are the nearest points, up to 2^-20. *)
From Verif Require Import Base PBase Arith Prog MUtils MXyz MKnn MDnn MArgs MTess SpecHeap SpecAny SpecSort SpecVor PXyz PSortFinal PSlotHost Arith32 PFloat POrder PKnn PKnnAny PDist32 PNear32 PRowsAny PRowsNear PFloatRows.
From Flocq Require Import Core IEEE754.BinarySingleNaN.
From Coq Require Import Reals Lra Lia Permutation Sorting.Sorted.
From Verif Require Export SpecSingle SpecNear.
Import SpecGeom.
Local Open Scope Z_scope.

Lemma sort_ids N gr P0 P ids offs : 0 < gr -> in_range_ids N gr P0 -> xyz_sort N gr P0 = Ok (P, ids, offs) ->
  forall p c, znth ids p = Some c -> exists pp, znth P p = Some pp /\ cell_id N gr (grid_len N gr) pp = Ok c.
Proof.
  intros Hg Hr H p c Hc. pose proof (nonneg_of_range _ _ _ _ _ _ Hr H) as Hn.
  destruct (xyz_sort_spec N gr P0 P ids offs H Hn) as (l & t & El & Et & Ep & _ & Ht & _).
  rewrite <- Et, znth_map in Hc. rewrite <- Ep, znth_map. destruct (znth t p) as [r|] eqn:Er; [|discriminate]. injection Hc as <-.
  eexists; split; [reflexivity|]. apply Ht. eapply znth_in; eauto.
Qed.

Lemma near32 gr P0 : 0 < gr -> gr * gr * gr <= int_max -> safe_res gr = true -> Forall open01p P0 ->
  forall P ids offs x near, xyz_sort arith32 gr P0 = Ok (P, ids, offs) -> 0 <= x < zlen P -> knn_list arith32 not_nan gr P ids x near ->
  nearest_within eps20 (real_dist P x) (others (zlen P) x) near.
Proof.
  intros Hg H3 Hs HO P ids offs x near HS Hx (ND & Hin & As & Ex). pose proof (perm_points arith32 _ _ _ _ _ HS) as PP.
  assert (OP : forall p q, znth P p = Some q -> open01p q). { intros p q Hq. rewrite Forall_forall in HO. apply HO. eapply Permutation_in; [apply Permutation_sym; exact PP|]. eapply znth_in; eauto. }
  assert (IR : in_range_ids arith32 gr P0) by (apply in_range32; assumption).
  destruct (znth_in_range P x Hx) as [q Hq]. pose proof (OP _ _ Hq) as Oq. replace eps20 with (16 * u)%R by (unfold eps20; lra).
  assert (ORD : forall p p', 0 <= p < zlen P -> 0 <= p' < zlen P -> flt arith32 (fdist arith32 P x p') (fdist arith32 P x p) = false -> (real_dist P x p <= real_dist P x p' + 16 * u)%R).
  { intros p p' Hp Hp' L. destruct (znth_in_range P p Hp) as [a Ea]. destruct (znth_in_range P p' Hp') as [b Eb]. unfold fdist in L. unfold real_dist. rewrite Hq, Ea, Eb in *.
    apply dist_order; eauto. }
  split; [assumption|]. split; [exact Hin|]. split.
  - intros i j p p' Hij Hi Hj. apply ORD; [apply Hin; eapply znth_in; eauto|apply Hin; eapply znth_in; eauto|]. eapply As; eauto.
  - intros p p' Hp (Hp' & Np') Nin. destruct (Ex p p' q Hq Hp Hp' Np' Nin) as [L|(r & v & Hr & (c & c' & Ec & Ec' & Ha) & Nv & L1 & L2)]; [apply ORD; auto; apply Hin; assumption|].
    destruct (Hin p Hp) as [Rp _]. destruct (znth_in_range P p Rp) as [a Ea]. 
    destruct (sort_ids _ _ _ _ _ _ Hg IR HS _ _ Ec) as (q' & Eq' & Cq). assert (q' = q) by congruence. subst q'.
    destruct (sort_ids _ _ _ _ _ _ Hg IR HS _ _ Ec') as (b & Eb & Cb). unfold fdist in L1. unfold real_dist. rewrite Hq, Ea, Eb in *.
    apply (dist_exit gr r v a b q c c'); eauto.
Qed.

Lemma taken_ordered eps D cand near row : nearest_within eps D cand near -> taken near row -> incl row near /\ ordered_within eps D row.
Proof. intros (_ & _ & H & _) [A B]. split; [assumption|]. apply B. apply sorted_at. exact H. Qed.

Lemma near_plain : forall (w : world arith32) c P0, float_ok c P0 -> c_recompute c = false -> c_k c < zlen P0 ->
  exists o, tess_core arith32 w c cpu P0 = Ok o /\ Permutation P0 (o_pts arith32 o) /\ zlen (o_rows arith32 o) = zlen P0 /\ zlen (o_states arith32 o) = zlen P0 /\
  forall i row b, znth (o_rows arith32 o) i = Some row -> znth (o_states arith32 o) i = Some b -> exists near, zlen near = c_k c /\
    nearest_within eps20 (real_dist (o_pts arith32 o) i) (others (zlen P0) i) near /\ incl row near /\ ordered_within eps20 (real_dist (o_pts arith32 o) i) row /\ (~ errorless b -> row = near).
Proof.
  intros w c P0 H Rc Kn. pose proof H as (A & B & C & D & E & _).
  destruct (plain_near arith32 not_nan (fun P x near => nearest_within eps20 (real_dist P x) (others (zlen P) x) near) (c_gr c) P0 (near32 (c_gr c) P0 B C D E) w c (float_any c P0 H) eq_refl Rc Kn) as (o & R & PP & L & LS & Q).
  exists o. repeat (split; [assumption|]). intros i row b Hi Hb. destruct (Q i row b Hi Hb) as (near & L1 & N1 & T1 & E1).
  assert (LP : zlen (o_pts arith32 o) = zlen P0) by (unfold zlen; now rewrite (Permutation_length PP)). rewrite LP in N1.
  exists near. split; [assumption|]. split; [assumption|]. destruct (taken_ordered _ _ _ _ _ N1 T1). auto.
Qed.
Lemma near_rec : forall r (w : world arith32) c P0, float_ok c P0 -> c_recompute c = true -> rec_ok r c (zlen P0) -> c_k c < zlen P0 ->
  exists o, tess_core arith32 w c cpu P0 = Ok o /\ Permutation P0 (o_pts arith32 o) /\ zlen (o_rows arith32 o) = zlen P0 /\
  forall i row, znth (o_rows arith32 o) i = Some row -> exists near, c_k c <= zlen near < zlen P0 /\
    nearest_within eps20 (real_dist (o_pts arith32 o) i) (others (zlen P0) i) near /\ incl row near /\ ordered_within eps20 (real_dist (o_pts arith32 o) i) row.
Proof.
  intros r w c P0 H Rc Hr Kn. pose proof H as (A & B & C & D & E & _).
  destruct (rec_near_run arith32 not_nan (fun P x near => nearest_within eps20 (real_dist P x) (others (zlen P) x) near) (c_gr c) P0 (near32 (c_gr c) P0 B C D E) r w c (float_any c P0 H) eq_refl Rc Hr Kn) as (o & R & PP & L & Q).
  exists o. repeat (split; [assumption|]). intros i row Hi. destruct (Q i row Hi) as (near & L1 & N1 & T1).
  assert (LP : zlen (o_pts arith32 o) = zlen P0) by (unfold zlen; now rewrite (Permutation_length PP)). rewrite LP in N1.
  exists near. split; [assumption|]. split; [assumption|]. destruct (taken_ordered _ _ _ _ _ N1 T1). auto.
Qed.

(** distances more than the error apart: the list is exact *)
Lemma near_exact eps D (cand : Z -> Prop) near : (0 <= eps)%R -> separated eps D cand -> nearest_within eps D cand near -> SpecKnn.nearest D cand near.
Proof.
  intros He Sep (A & B & C & E).
  assert (X : forall p q, cand p -> cand q -> (D p <= D q + eps)%R -> (D p <= D q)%R).
  { intros p q Hp Hq H. destruct (Sep p q Hp Hq) as [E0|E0]; [lra|]. destruct (Rle_or_lt (D p) (D q)); [assumption|]. rewrite Rabs_pos_eq in E0 by lra. lra. }
  split; [assumption|]. split; [assumption|]. split.
  - intros i j p q Hij Hi Hj. apply X; [apply B; eapply znth_in; eauto|apply B; eapply znth_in; eauto|]. eapply C; eauto.
  - intros p q Hp Hq N. apply X; auto.
Qed.

Lemma near_separated : forall (w : world arith32) c P0, float_ok c P0 -> c_recompute c = false -> c_k c < zlen P0 ->
  exists o, tess_core arith32 w c cpu P0 = Ok o /\ Permutation P0 (o_pts arith32 o) /\ zlen (o_rows arith32 o) = zlen P0 /\ zlen (o_states arith32 o) = zlen P0 /\
  forall i row b, znth (o_rows arith32 o) i = Some row -> znth (o_states arith32 o) i = Some b -> 
    separated eps20 (real_dist (o_pts arith32 o) i) (others (zlen P0) i) ->
    exists near, zlen near = c_k c /\ SpecKnn.nearest (real_dist (o_pts arith32 o) i) (others (zlen P0) i) near /\ incl row near /\ ordered_within 0 (real_dist (o_pts arith32 o) i) row /\ (~ errorless b -> row = near).
Proof.
  intros w c P0 H Rc Kn. pose proof H as (A & B & C & D & E & _).
  destruct (plain_near arith32 not_nan (fun P x near => nearest_within eps20 (real_dist P x) (others (zlen P) x) near) (c_gr c) P0 (near32 (c_gr c) P0 B C D E) w c (float_any c P0 H) eq_refl Rc Kn) as (o & R & PP & L & LS & Q).
  exists o. repeat (split; [assumption|]). intros i row b Hi Hb Sep. destruct (Q i row b Hi Hb) as (near & L1 & N1 & T1 & E1).
  assert (LP : zlen (o_pts arith32 o) = zlen P0) by (unfold zlen; now rewrite (Permutation_length PP)). rewrite LP in N1.
  assert (NE : SpecKnn.nearest (real_dist (o_pts arith32 o) i) (others (zlen P0) i) near) by (apply (near_exact eps20); [unfold eps20; lra|assumption|assumption]).
  exists near. split; [assumption|]. split; [assumption|].
  assert (N0 : nearest_within 0 (real_dist (o_pts arith32 o) i) (others (zlen P0) i) near).
  { destruct NE as (X1 & X2 & X3 & X4). split; [assumption|]. split; [assumption|]. split; intros; rewrite Rplus_0_r; eauto. }
  destruct (taken_ordered _ _ _ _ _ N0 T1). auto.
Qed.

(** squared distances of lattice points are multiples of 2^-18 *)
Lemma lattice_sep P x n : Forall open01p P -> Forall lattice9 P -> zlen P = n -> 0 <= x < n -> separated eps20 (real_dist P x) (others n x).
Proof.
  intros HO HL <- Hx p q (Hp & _) (Hq & _). destruct (znth_in_range P x Hx) as [c Ec]. destruct (znth_in_range P p Hp) as [a Ea]. destruct (znth_in_range P q Hq) as [b Eb].
  unfold real_dist. rewrite Ea, Eb, Ec. rewrite Forall_forall in HO, HL.
  pose proof (HO a (znth_in _ _ _ Ea)) as Oa. pose proof (HO b (znth_in _ _ _ Eb)) as Ob. pose proof (HO c (znth_in _ _ _ Ec)) as Oc.
  pose proof (d2_bound a c Oa Oc) as Ba. pose proof (d2_bound b c Ob Oc) as Bb.
  assert (MU : forall p, lattice9 p -> exists m : Z, (d2 (real_pt p) (real_pt c) = IZR m / 262144)%R).
  { intros p' (x1 & y1 & z1 & E1). destruct (HL c (znth_in _ _ _ Ec)) as (x0 & y0 & z0 & E0). rewrite E1, E0. cbv beta iota delta [d2].
    exists ((x1 - x0) * (x1 - x0) + (y1 - y0) * (y1 - y0) + (z1 - z0) * (z1 - z0)). rewrite !plus_IZR, !mult_IZR, !minus_IZR. field. }
  destruct (MU a (HL a (znth_in _ _ _ Ea))) as (m & Em). destruct (MU b (HL b (znth_in _ _ _ Eb))) as (m' & Em').
  set (A := d2 (real_pt a) (real_pt c)) in *. set (B := d2 (real_pt b) (real_pt c)) in *.
  destruct (Z.eq_dec m m') as [->|N]; [left; f_equal; lra|right].
  assert (G : (/ 262144 <= Rabs (A - B))%R).
  { rewrite Em, Em'. assert (1 <= Rabs (IZR m - IZR m'))%R. { rewrite <- minus_IZR, <- abs_IZR. apply IZR_le. lia. }
    replace (IZR m / 262144 - IZR m' / 262144)%R with ((IZR m - IZR m') * / 262144)%R by field. rewrite Rabs_mult, (Rabs_pos_eq (/ 262144)) by lra. lra. }
  pose proof (sqrt_pos A) as PA. pose proof (sqrt_pos B) as PB. pose proof (sqrt_sqrt A (proj1 Ba)) as SA. pose proof (sqrt_sqrt B (proj1 Bb)) as SB.
  assert (UA : (sqrt A <= 175 / 100)%R) by (apply root_le; lra). assert (UB : (sqrt B <= 175 / 100)%R) by (apply root_le; lra).
  rewrite <- SA, <- SB in G. replace (sqrt A * sqrt A - sqrt B * sqrt B)%R with ((sqrt A - sqrt B) * (sqrt A + sqrt B))%R in G by ring.
  rewrite Rabs_mult, (Rabs_pos_eq (sqrt A + sqrt B)) in G by lra. unfold eps20.
  assert (T : (Rabs (sqrt A - sqrt B) * (sqrt A + sqrt B) <= Rabs (sqrt A - sqrt B) * (35 / 10))%R) by (apply Rmult_le_compat_l; [apply Rabs_pos|lra]). lra.
Qed.
Lemma near_lattice : forall (w : world arith32) c P0, float_ok c P0 -> Forall lattice9 P0 -> c_recompute c = false -> c_k c < zlen P0 ->
  exists o, tess_core arith32 w c cpu P0 = Ok o /\ Permutation P0 (o_pts arith32 o) /\ zlen (o_rows arith32 o) = zlen P0 /\ zlen (o_states arith32 o) = zlen P0 /\
  forall i row b, znth (o_rows arith32 o) i = Some row -> znth (o_states arith32 o) i = Some b -> 
    exists near, zlen near = c_k c /\ SpecKnn.nearest (real_dist (o_pts arith32 o) i) (others (zlen P0) i) near /\ incl row near /\ ordered_within 0 (real_dist (o_pts arith32 o) i) row /\ (~ errorless b -> row = near).
Proof.
  intros w c P0 H HL Rc Kn. destruct (near_separated w c P0 H Rc Kn) as (o & R & PP & L & LS & Q). exists o. repeat (split; [assumption|]).
  intros i row b Hi Hb. apply (Q i row b Hi Hb). destruct H as (_ & _ & _ & _ & HO & _). apply lattice_sep.
  - eapply Permutation_Forall; eauto.
  - eapply Permutation_Forall; eauto.
  - unfold zlen; now rewrite (Permutation_length PP).
  - pose proof (znth_some _ _ _ Hi). lia.
Qed.
