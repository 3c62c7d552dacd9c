(** Default capacities: cells with 19 facets are flagged; a set of 14 points with such a cell. *)
From Verif Require Import Base Arith PBase Prog PProg MUtils MHeap MXyz MKnn MBoundary MCell MDnn MArgs MTess Exact PExact PFlags SpecDnn PDnn SpecGeom SpecSort SpecKnn SpecVor SpecRows SpecArgs SpecApi SpecResult
  PExact PKnnFinal PGeomPoly PGeomFinal PNoFailApi PApi PCap SpecCert PCert.
From Verif Require Export SpecCapEx.
From Coq Require Import Psatz Permutation.
Import SpecGeom.
Local Open Scope R_scope.

(** facets by positions *)
Lemma facets_at (S : list pt) (i : Z) (p : pt) (Q : list pt) (W : list Z) : NoDup S -> znth S i = Some p -> NoDup Q -> NoDup W ->
  (forall q, In q Q -> In q S /\ q <> p /\ exists x, in_open_cube x /\ d2 x p = d2 x q /\ forall r, In r S -> r <> p -> r <> q -> d2 x p < d2 x r) ->
  (forall w, In w W -> exists x, on_wall w x /\ forall r, In r S -> r <> p -> d2 x p < d2 x r) ->
  exists J, zlen J = zlen Q /\ facets S i J W.
Proof.
  intros NS Ep NQ NW HQ HWl.
  assert (IJ : forall j r, znth S j = Some r -> In r S) by (intros j r; apply znth_in).
  assert (UN : forall j j' r, znth S j = Some r -> znth S j' = Some r -> j = j').
  { intros j j' r H H'. pose proof (znth_some _ _ _ H). pose proof (znth_some _ _ _ H'). unfold znth in *. replace (0 <=? j)%Z with true in H by lia. replace (0 <=? j')%Z with true in H' by lia.
    apply Z2Nat.inj; try lia. apply (proj1 (NoDup_nth_error S) NS); [apply nth_error_Some; congruence|congruence]. }
  assert (X : exists J, zlen J = zlen Q /\ NoDup J /\ forall j, In j J -> exists q, In q Q /\ znth S j = Some q).
  { clear HWl. induction Q as [|q Q IH]; [exists []; repeat split; [constructor|intros j []]|]. inversion NQ as [|? ? Nq NQ']; subst.
    destruct IH as (J & LJ & NJ & HJ); auto. { intros q' Hq'. apply HQ. now right. }
    destruct (HQ q (or_introl eq_refl)) as (Iq & _). apply in_znth in Iq as (j & _ & Ej). exists (j :: J). rewrite !zlen_cons, LJ. split; [reflexivity|]. split.
    - constructor; [|assumption]. intros H. destruct (HJ j H) as (q' & Iq' & Ej'). assert (q = q') by congruence. subst q'. contradiction.
    - intros j' [<-|H]; [exists q; split; [now left|assumption]|]. destruct (HJ j' H) as (q' & A & B). exists q'. split; [now right|assumption]. }
  destruct X as (J & LJ & NJ & HJ). exists J. split; [assumption|]. split; [assumption|]. split; [assumption|]. split.
  - intros j Hj. destruct (HJ j Hj) as (q & Iq & Ej). destruct (HQ q Iq) as (_ & Nqp & x & Cx & Dx & Fx). split; [|exists p, q; auto].
    exists p, q, x. split; [assumption|]. split; [assumption|]. split; [assumption|]. split; [assumption|]. intros l r El Ni Nj. apply Fx; [eauto| |]; intros ->; [apply Ni|apply Nj]; eauto.
  - intros w Hw. destruct (HWl w Hw) as (x & Ow & Fx). exists p, x. split; [assumption|]. split; [assumption|]. intros l r El Ni. apply Fx; [eauto|]. intros ->. apply Ni. eauto.
Qed.

(** ** the test in integers *)
Definition zeq (p q : zpt) : bool := zd2 p q =? 0.
Definition zin (U : Z) (p : zpt) : bool := let '(a, b, c) := p in (0 <? a) && (a <? U) && (0 <? b) && (b <? U) && (0 <? c) && (c <? U).
Definition zface (U : Z) (S : list zpt) (p : zpt) (f : zpt * zpt) : bool :=
  let '(q, x) := f in zin U x && negb (zeq q p) && (zd2 x p =? zd2 x q) && existsb (zeq q) S && forallb (fun r => zeq r p || zeq r q || (zd2 x p <? zd2 x r)) S.
Definition zon (U : Z) (w : Z) (x : zpt) : bool :=
  let '(a, b, c) := x in let mid t := (0 <? t) && (t <? U) in
  if w =? 0 then (a =? 0) && mid b && mid c else if w =? 1 then (a =? U) && mid b && mid c else
  if w =? 2 then (b =? 0) && mid a && mid c else if w =? 3 then (b =? U) && mid a && mid c else
  if w =? 4 then (c =? 0) && mid a && mid b else if w =? 5 then (c =? U) && mid a && mid b else false.
Definition zwallf (U : Z) (S : list zpt) (p : zpt) (f : Z * zpt) : bool :=
  let '(w, x) := f in zon U w x && forallb (fun r => zeq r p || (zd2 x p <? zd2 x r)) S.

Section U.
Variable U : Z.
Hypothesis HU : (0 < U)%Z.
Let u : R := IZR U.
Let Pu : 0 < u. Proof. unfold u. now apply IZR_lt. Qed.

Lemma zeq_ok p q : zeq p q = true <-> p = q.
Proof.
  unfold zeq. rewrite Z.eqb_eq. destruct p as [[a b] c], q as [[a' b'] c']. unfold zd2. split; [|intros [= -> -> ->]; ring].
  intros H. pose proof (Z.square_nonneg (a - a')). pose proof (Z.square_nonneg (b - b')). pose proof (Z.square_nonneg (c - c')).
  assert (a = a') by nia. assert (b = b') by nia. assert (c = c') by nia. now subst.
Qed.
Lemma upt_inj p q : upt U p = upt U q -> p = q.
Proof.
  destruct p as [[a b] c], q as [[a' b'] c']. unfold upt. fold u. intros [= H1 H2 H3].
  assert (G : forall x y, IZR x / u = IZR y / u -> x = y). { intros x y H. apply eq_IZR. apply Rmult_eq_reg_r with (/ u); [exact H|]. apply Rinv_neq_0_compat. lra. }
  now rewrite (G _ _ H1), (G _ _ H2), (G _ _ H3).
Qed.
Lemma unit_ok t : (0 < t < U)%Z -> 0 < IZR t / u < 1.
Proof.
  intros [A B]. apply IZR_lt in A, B. fold u in B. split; [apply Rdiv_lt_0_compat; lra|]. apply Rmult_lt_reg_r with u; [lra|]. unfold Rdiv. rewrite Rmult_assoc, Rinv_l by lra. lra.
Qed.
Lemma zin_ok p : zin U p = true -> in_open_cube (upt U p).
Proof.
  destruct p as [[a b] c]. unfold zin. rewrite !andb_true_iff, !Z.ltb_lt. intros (((((A & B) & C) & D) & G) & H). unfold upt, in_open_cube. fold u.
  pose proof (unit_ok a ltac:(lia)). pose proof (unit_ok b ltac:(lia)). pose proof (unit_ok c ltac:(lia)). lra.
Qed.
Lemma d2_lt p q r : (zd2 p q < zd2 p r)%Z -> d2 (upt U p) (upt U q) < d2 (upt U p) (upt U r).
Proof.
  intros H. rewrite !(upt_d2 U HU). apply IZR_lt in H. fold u. apply Rmult_lt_compat_r; [|assumption]. apply Rinv_0_lt_compat. nra.
Qed.
Lemma zface_ok S p q x : zface U S p (q, x) = true -> In (upt U q) (map (upt U) S) /\ upt U q <> upt U p /\
  exists y, in_open_cube y /\ d2 y (upt U p) = d2 y (upt U q) /\ forall r, In r (map (upt U) S) -> r <> upt U p -> r <> upt U q -> d2 y (upt U p) < d2 y r.
Proof.
  unfold zface. rewrite !andb_true_iff, negb_true_iff, Z.eqb_eq, existsb_exists, forallb_forall. intros ((((A & B) & C) & D) & G). split; [|split].
  - destruct D as (q' & I & Q). apply zeq_ok in Q. subst q'. now apply in_map.
  - intros H. apply upt_inj in H. apply zeq_ok in H. congruence.
  - exists (upt U x). split; [now apply zin_ok|]. split; [rewrite !(upt_d2 U HU), C; reflexivity|]. intros r Ir N1 N2. apply in_map_iff in Ir as (r' & <- & Ir).
    specialize (G r' Ir). rewrite !orb_true_iff, Z.ltb_lt in G. destruct G as [[G|G]|G]; [apply zeq_ok in G; subst; contradiction|apply zeq_ok in G; subst; contradiction|]. now apply d2_lt.
Qed.
Lemma zon_ok w x : zon U w x = true -> on_wall w (upt U x).
Proof.
  destruct x as [[a b] c]. unfold zon, upt, on_wall. fold u. cbv zeta.
  assert (Z0 : IZR 0 / u = 0) by (unfold Rdiv; ring). assert (Z1 : IZR U / u = 1) by (fold u; field; lra).
  assert (M : forall t, ((0 <? t) && (t <? U))%Z = true -> 0 < IZR t / u < 1) by (intros t H; rewrite andb_true_iff, !Z.ltb_lt in H; now apply unit_ok).
  assert (D : forall e f g, (e && f && g)%bool = true -> e = true /\ f = true /\ g = true) by (intros [] [] []; simpl; auto).
  destruct (Z.eqb_spec w 0) as [->|_]; [intros H; apply D in H as (H & H2 & H3); apply Z.eqb_eq in H; rewrite H, Z0; auto 10|].
  destruct (Z.eqb_spec w 1) as [->|_]; [intros H; apply D in H as (H & H2 & H3); apply Z.eqb_eq in H; rewrite H, Z1; auto 10|].
  destruct (Z.eqb_spec w 2) as [->|_]; [intros H; apply D in H as (H & H2 & H3); apply Z.eqb_eq in H; rewrite H, Z0; auto 10|].
  destruct (Z.eqb_spec w 3) as [->|_]; [intros H; apply D in H as (H & H2 & H3); apply Z.eqb_eq in H; rewrite H, Z1; auto 10|].
  destruct (Z.eqb_spec w 4) as [->|_]; [intros H; apply D in H as (H & H2 & H3); apply Z.eqb_eq in H; rewrite H, Z0; auto 10|].
  destruct (Z.eqb_spec w 5) as [->|_]; [intros H; apply D in H as (H & H2 & H3); apply Z.eqb_eq in H; rewrite H, Z1; auto 10|].
  discriminate.
Qed.
Lemma zwallf_ok S p w x : zwallf U S p (w, x) = true -> exists y, on_wall w y /\ forall r, In r (map (upt U) S) -> r <> upt U p -> d2 y (upt U p) < d2 y r.
Proof.
  unfold zwallf. rewrite andb_true_iff, forallb_forall. intros [A G]. exists (upt U x). split; [now apply zon_ok|]. intros r Ir N1. apply in_map_iff in Ir as (r' & <- & Ir).
  specialize (G r' Ir). rewrite orb_true_iff, Z.ltb_lt in G. destruct G as [G|G]; [apply zeq_ok in G; subst; contradiction|]. now apply d2_lt.
Qed.
End U.

(** ** the 14 points; here in units of 1/42240 *)
Definition crowd_faces : list (zpt * zpt) := ([((39600, 39600, 39600), (33440, 24200, 33440)); ((39600, 39600, 2640), (24200, 33440, 8800)); ((39600, 2640, 39600), (30600, 12720, 30960)); ((39600, 2640, 2640), (26664, 5280, 14784)); ((2640, 39600, 39600), (8800, 33440, 24200)); ((2640, 39600, 2640), (11640, 30960, 12720)); ((2640, 2640, 39600), (18040, 8800, 33440)); ((2640, 2640, 2640), (15576, 14784, 5280)); ((21120, 39600, 39600), (21120, 30360, 30360)); ((39600, 39600, 21120), (30360, 30360, 21120)); ((2640, 21120, 39600), (11880, 21120, 30360)); ((2640, 2640, 21120), (13035, 10725, 20295)); ((39600, 21120, 2640), (29205, 20295, 10725))])%Z.
Definition crowd_walls : list (Z * zpt) := ([(0, (0, 24200, 18040)); (1, (42240, 18040, 24200)); (2, (25080, 0, 21120)); (3, (18040, 42240, 18040)); (4, (17160, 21120, 0)); (5, (24200, 18040, 42240))])%Z.
Definition fine (p : zpt) : zpt := let '(a, b, c) := p in (2640 * a, 2640 * b, 2640 * c)%Z.

Lemma crowd_fine : crowd_pts = map (upt 42240) (map fine crowd).
Proof.
  unfold crowd_pts. rewrite map_map. apply map_ext. intros [[a b] c]. unfold upt, fine. rewrite !mult_IZR. f_equal; [f_equal|]; field.
Qed.
Fixpoint znodup (l : list zpt) : bool := match l with [] => true | p :: l => negb (existsb (zeq p) l) && znodup l end.
Lemma znodup_ok l : znodup l = true -> NoDup l.
Proof.
  induction l as [|p l IH]; [constructor|]. simpl. rewrite andb_true_iff, negb_true_iff. intros [A B]. constructor; [|now apply IH].
  intros H. assert (existsb (zeq p) l = true); [|congruence]. apply existsb_exists. exists p. split; [assumption|]. now apply zeq_ok.
Qed.
Lemma nodup_upt U l : (0 < U)%Z -> NoDup l -> NoDup (map (upt U) l).
Proof. intros HU. apply FinFun.Injective_map_NoDup. intros p q. now apply upt_inj. Qed.

Lemma crowd_facets S i : Permutation crowd_pts S -> znth S i = Some (1 / 2, 1 / 2, 1 / 2) -> exists J, zlen J = 13%Z /\ facets S i J (zrange 0 6).
Proof.
  intros PS Ei. assert (EP : (1 / 2, 1 / 2, 1 / 2) = upt 42240 (fine (8, 8, 8)%Z)) by (unfold upt, fine; change (2640 * 8)%Z with 21120%Z; f_equal; [f_equal|]; lra).
  destruct (facets_at S i (1 / 2, 1 / 2, 1 / 2) (map (upt 42240) (map fst crowd_faces)) (zrange 0 6)) as (J & LJ & FJ); auto.
  - eapply Permutation_NoDup; [exact PS|]. rewrite crowd_fine. apply nodup_upt; [lia|]. apply znodup_ok. vm_compute. reflexivity.
  - apply nodup_upt; [lia|]. apply znodup_ok. vm_compute. reflexivity.
  - apply NoDup_zrange.
  - intros q Hq. rewrite EP. apply in_map_iff in Hq as (q' & <- & Hq). apply in_map_iff in Hq as ([q1 x] & <- & Hq). simpl fst.
    assert (Z1 : forallb (zface 42240 (map fine crowd) (fine (8, 8, 8)%Z)) crowd_faces = true) by (vm_compute; reflexivity).
    rewrite forallb_forall in Z1. specialize (Z1 _ Hq). destruct (zface_ok 42240 ltac:(lia) _ _ _ _ Z1) as (A & B & y & C & D & G). rewrite <- crowd_fine in *.
    split; [eapply Permutation_in; eauto|]. split; [exact B|]. exists y. split; [exact C|]. split; [exact D|]. intros r Ir. apply G. eapply Permutation_in; [apply Permutation_sym; exact PS|exact Ir].
  - intros w Hw. rewrite EP. apply in_zrange in Hw.
    assert (Z1 : forallb (zwallf 42240 (map fine crowd) (fine (8, 8, 8)%Z)) crowd_walls = true) by (vm_compute; reflexivity).
    rewrite forallb_forall in Z1.
    assert (X : exists x, In (w, x) crowd_walls).
    { assert (C : (w = 0 \/ w = 1 \/ w = 2 \/ w = 3 \/ w = 4 \/ w = 5)%Z) by lia. destruct C as [->|[->|[->|[->|[->| ->]]]]]; eexists; simpl; eauto 10. }
    destruct X as (x & Ix). destruct (zwallf_ok 42240 ltac:(lia) _ _ _ _ (Z1 _ Ix)) as (y & O & G). rewrite <- crowd_fine in G.
    exists y. split; [exact O|]. intros r Ir. apply G. eapply Permutation_in; [apply Permutation_sym; exact PS|exact Ir].
  - exists J. split; [exact LJ|exact FJ].
Qed.

(** ** calls with the default parameters *)
Section D.
Variable N : Arith.
Variable E : Exact N.
Notation valp := (valp N E).

Lemma default_api (w : world N) P0 : (1 <= w_hwc N w)%Z -> (forall q, In q P0 -> inside N E q) -> (zlen P0 <= 100000)%Z ->
  api_ok N E (api_cfg (w_hwc N w) []) P0 /\ tesellate N w args_init cpu P0 = tess_core N w (api_cfg (w_hwc N w) []) cpu P0.
Proof.
  intros Hw Hin Hn. pose proof (zlen_nonneg P0). split.
  - unfold api_cfg, int_of, bool_of. cbn [last_value fold_left Z.eqb].
    unfold api_ok, SpecParam.cfg_ok, SpecParam.fits, SpecParam.chunk_of. cbn [c_k c_gr c_pmax c_tmax c_recompute c_nthreads c_use_chunking].
    split; [lia|]. split; [lia|]. split; [unfold int_max; lia|]. split; [assumption|]. split; [reflexivity|]. split; [assumption|].
    assert (F : (0 <= first_subsize (zlen P0 + 1) (zlen P0) <= zlen P0)%Z). { unfold first_subsize, chunked. destruct (Z.ltb_spec (zlen P0 + 1) (zlen P0)); [lia|]. rewrite andb_false_r. lia. }
    unfold int_max. split; [|lia]. split; [lia|]. split; [lia|]. split; lia.
  - destruct (api_reads [] ltac:(constructor)) as (a & HA & T). injection HA as <-. apply T.
Qed.

Lemma default_flagged (w : world N) P0 o i b J W : (1 <= w_hwc N w)%Z -> (forall q, In q P0 -> inside N E q) -> (zlen P0 <= 100000)%Z -> tesellate N w args_init cpu P0 = Ok o ->
  znth (o_states N o) i = Some b -> (zlen P0 <= 65)%Z \/ Z.testbit b 0 = true -> facets (map valp (o_pts N o)) i J W -> (19 <= zlen J + zlen W)%Z \/ (27 <= zlen J)%Z ->
  (Z.testbit b 4 = true \/ Z.testbit b 5 = true) /\
  exists near, nearest (sqdist N E (o_pts N o) i) (fun q => (0 <= q < zlen P0)%Z /\ q <> i) near /\ zlen near = Z.min 64 (zlen P0 - 1) /\ znth (o_rows N o) i = Some (near ++ repeat 0%Z (Z.to_nat (64 - zlen near))).
Proof.
  intros Hw Hin Hn T Hb V FC L. destruct (default_api w P0 Hw Hin Hn) as [A TE]. rewrite TE in T.
  assert (FL : Z.testbit b 4 = true \/ Z.testbit b 5 = true).
  { apply (api_flagged N E w _ P0 o A T i b J W Hb FC); unfold api_cfg, int_of; cbn [last_value fold_left c_tmax c_pmax c_k]; lia || (destruct V; [left; lia|now right]). }
  split; [exact FL|]. apply (flagged_row N E w _ P0 o i b A T Hb). unfold errorless. destruct FL as [Q|Q]; rewrite Q; intuition discriminate.
Qed.

Lemma crowd_default (w : world N) P0 : (1 <= w_hwc N w)%Z -> (forall q, In q P0 -> inside N E q) -> Permutation crowd_pts (map valp P0) ->
  exists o i b near, tesellate N w args_init cpu P0 = Ok o /\ znth (map valp (o_pts N o)) i = Some (1 / 2, 1 / 2, 1 / 2) /\
    znth (o_states N o) i = Some b /\ Z.testbit b 5 = true /\ Permutation (i :: near) (zrange 0 14) /\ znth (o_rows N o) i = Some (near ++ repeat 0%Z 51) /\ ~ complete N E P0 o.
Proof.
  intros Hw Hin PS. assert (LP : zlen P0 = 14%Z). { rewrite <- (zlen_map valp P0). unfold zlen. rewrite <- (Permutation_length PS). reflexivity. }
  destruct (default_api w P0 Hw Hin ltac:(lia)) as [A TE].
  destruct (core_returns N E w _ P0 A) as (o & R & PP & LS). exists o. rewrite TE.
  assert (PO : Permutation crowd_pts (map valp (o_pts N o))) by (eapply perm_trans; [exact PS|now apply Permutation_map]).
  assert (IC : In (1 / 2, 1 / 2, 1 / 2) (map valp (o_pts N o))).
  { eapply Permutation_in; [exact PO|]. left. unfold upt. f_equal; [f_equal|]; lra. }
  apply in_znth in IC as (i & Hi & Ei). rewrite zlen_map in Hi. assert (LO : zlen (o_pts N o) = 14%Z) by (rewrite <- LP; unfold zlen; now rewrite (Permutation_length PP)).
  destruct (znth_in_range (o_states N o) i ltac:(lia)) as [b Hb].
  destruct (crowd_facets _ i PO Ei) as (J & LJ & FJ).
  assert (L19 : (19 <= zlen J + zlen (zrange 0 6))%Z) by (rewrite LJ, zlen_zrange; lia).
  destruct (default_flagged w P0 o i b J (zrange 0 6) Hw Hin ltac:(lia) (eq_trans TE R) Hb ltac:(left; lia) FJ (or_introl L19)) as (FL & near & Nr & Ln & Er).
  rewrite LP in *. change (Z.min 64 (14 - 1)) with 13%Z in Ln. rewrite Ln in Er. change (Z.to_nat (64 - 13)) with 51%nat in Er.
  exists i, b, near. split; [assumption|]. split; [assumption|]. split; [assumption|]. split.
  { destruct FL as [Q|Q]; [|exact Q]. exfalso. destruct (api_flags N E w _ P0 o A R i b Hb) as (_ & _ & X & _). specialize (X Q). rewrite LP in X. unfold api_cfg, int_of in X; cbn [last_value fold_left c_tmax c_pmax c_k] in X. lia. }
  split.
  { destruct Nr as (ND & Hc & _). apply NoDup_Permutation_bis.
    - constructor; [|assumption]. intros X. apply Hc in X. tauto.
    - unfold zlen in Ln. change (length (zrange 0 14)) with 14%nat. simpl length. lia.
    - intros z [<-|Hz]; apply in_zrange; [lia|]. apply Hc in Hz. lia. }
  split; [assumption|]. intros (_ & _ & _ & _ & _ & C). destruct (C i _ Er) as ((ND & _) & _). apply nodup_app_r in ND. inversion ND as [|? ? X _]. apply X. now left.
Qed.
End D.
