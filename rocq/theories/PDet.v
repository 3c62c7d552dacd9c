(** What exact rows determine: cells, nearest neighbours, paths, symmetries. *)
From Verif Require Import Base Arith PBase Prog MUtils MHeap MXyz MKnn MBoundary MCell MDnn MArgs MTess Exact PExact SpecGeom SpecSort SpecVor SpecRows SpecSlot
  PXyz PGrid PSortFinal PSlotHost PTess PTessRun PTessFinal PGeomCone PGeomFinal PRecGeom PNoFailApi PExactApi PCanon.
From Coq Require Import Permutation Psatz.
From Verif Require Import PGeomWalk.
Import SpecGeom.
Local Open Scope R_scope.

Lemma pt_eq_dec (p q : pt) : {p = q} + {p <> q}.
Proof.
  destruct p as [[a b] c], q as [[a' b'] c']. destruct (Req_EM_T a a') as [->|]; [|right; congruence]. destruct (Req_EM_T b b') as [->|]; [|right; congruence].
  destruct (Req_EM_T c c') as [->|]; [left; reflexivity|right; congruence].
Qed.
Lemma d2_pos p q : p <> q -> 0 < d2 p q.
Proof.
  intros Ne. destruct (Rle_lt_dec (d2 p q) 0) as [H|]; [exfalso|assumption]. apply Ne. destruct p as [[a b] c], q as [[a' b'] c']. unfold d2 in H.
  pose proof (pow2_ge_0 (a - a')). pose proof (pow2_ge_0 (b - b')). pose proof (pow2_ge_0 (c - c')).
  assert (Q : forall u v, (u - v) ^ 2 <= 0 -> u = v) by (intros u v Q; nra).
  rewrite (Q a a'), (Q b b'), (Q c c') by lra. reflexivity.
Qed.
Lemma small_all {A} (f g : A -> R) (l : list A) : (forall i, In i l -> 0 < f i) -> exists d, 0 < d /\ forall e, 0 < e <= d -> forall i, In i l -> 0 < f i + e * g i.
Proof.
  induction l as [|a l IH]; intros H; [exists 1; split; [lra|intros e _ i []]|].
  destruct IH as (d & D1 & D2); [intros; apply H; now right|]. destruct (small_pos (f a) (g a)) as (d' & D3 & D4); [apply H; now left|].
  exists (Rmin d d'). pose proof (Rmin_l d d'). pose proof (Rmin_r d d'). split; [now apply Rmin_pos|]. intros e He i [<-|Hi]; [apply D4; lra|apply D2; [lra|assumption]].
Qed.
Lemma cube_near x dir : in_open_cube x -> exists d, 0 < d /\ forall e, 0 < e <= d -> in_cube (vmov x e dir).
Proof.
  intros Cx. destruct x as [[x1 x2] x3], dir as [[e1 e2] e3]. simpl in Cx.
  destruct (small_all (fun t : R * R => fst t) (fun t => snd t) [(x1, e1); (1 - x1, - e1); (x2, e2); (1 - x2, - e2); (x3, e3); (1 - x3, - e3)]) as (d & D & H).
  { simpl. intros i Hi. repeat (destruct Hi as [<-|Hi]; [simpl; lra|]). contradiction. }
  exists d. split; [assumption|]. intros e He. specialize (H e He). simpl.
  pose proof (H (x1, e1) ltac:(simpl; tauto)). pose proof (H (1 - x1, - e1) ltac:(simpl; tauto)). pose proof (H (x2, e2) ltac:(simpl; tauto)).
  pose proof (H (1 - x2, - e2) ltac:(simpl; tauto)). pose proof (H (x3, e3) ltac:(simpl; tauto)). pose proof (H (1 - x3, - e3) ltac:(simpl; tauto)). simpl in *. lra.
Qed.

(** a face is listed even if several points share a position *)
Lemma face_listed S i row p q : bounded_by S i row -> znth S i = Some p -> In q S -> p <> q -> common_face S p q -> (forall j, In j row -> exists r, znth S j = Some r /\ r <> p) ->
  exists j, In j row /\ znth S j = Some q.
Proof.
  intros B Ei Iq Ne (x & Cx & Ex & Hx) RW.
  destruct (Exists_dec (fun j => znth S j = Some q) row) as [X|X].
  { intros j. destruct (znth S j) as [r|]; [|right; congruence]. destruct (pt_eq_dec r q) as [->|]; [now left|right; congruence]. }
  { apply Exists_exists in X as (j & A & C). eauto. }
  exfalso. set (dir := vmov q (-1) p).
  assert (DD : forall e r, d2 (vmov x e dir) r - d2 (vmov x e dir) p = (d2 x r - d2 x p) + e * (2 * vdot dir (vmov p (-1) r))).
  { intros e r. destruct x as [[x1 x2] x3], dir as [[e1 e2] e3], r as [[r1 r2] r3], p as [[p1 p2] p3]. simpl. ring. }
  destruct (small_all (fun r => d2 x r - d2 x p) (fun r => 2 * vdot dir (vmov p (-1) r)) (filter (fun r => if pt_eq_dec r p then false else if pt_eq_dec r q then false else true) S)) as (d & D1 & D2).
  { intros r Hr. apply filter_In in Hr as [Hr F]. destruct (pt_eq_dec r p) as [|N1]; [discriminate|]. destruct (pt_eq_dec r q) as [|N2]; [discriminate|]. specialize (Hx r Hr N1 N2). lra. }
  destruct (cube_near x dir Cx) as (d' & D3 & D4). set (e := Rmin d d'). pose proof (Rmin_l d d'). pose proof (Rmin_r d d'). assert (He : 0 < e) by (now apply Rmin_pos). fold e in H, H0.
  assert (IC : in_cell S p (vmov x e dir)).
  { apply B; [assumption|apply D4; lra|]. intros j r Hj Ej. destruct (RW j Hj) as (r' & Ej' & Np). assert (r' = r) by congruence. subst r'.
    assert (Nq : r <> q) by (intros ->; apply X, Exists_exists; eauto).
    specialize (D2 e ltac:(lra) r). rewrite <- DD in D2. cut (0 < d2 (vmov x e dir) r - d2 (vmov x e dir) p); [lra|]. apply D2. apply filter_In. split; [eapply znth_in; eauto|].
    destruct (pt_eq_dec r p); [contradiction|]. destruct (pt_eq_dec r q); [contradiction|reflexivity]. }
  destruct IC as [_ IC]. specialize (IC q Iq). pose proof (DD e q) as DQ.
  assert (EQ : vdot dir (vmov p (-1) q) = - d2 p q) by (unfold dir; destruct q as [[q1 q2] q3], p as [[p1 p2] p3]; simpl; ring).
  rewrite EQ, Ex in DQ. pose proof (d2_pos p q Ne). nra.
Qed.

Lemma exact_listed S i row p q : exact_row S i row -> znth S i = Some p -> In q S -> p <> q -> common_face S p q -> exists j, In j row /\ znth S j = Some q.
Proof.
  intros ((_ & D & _) & _ & _ & B) Ei Iq Ne CF. apply (face_listed S i row p q); auto. intros j Hj. destruct (D j Hj) as (p' & r & A1 & A2 & A3). exists r. split; [assumption|]. congruence.
Qed.

Definition mid (p q : pt) : pt := let '(a, b, c) := p in let '(x, y, z) := q in ((a + x) / 2, (b + y) / 2, (c + z) / 2).
Lemma lonely_face S p q : in_open_cube p -> in_open_cube q -> lonely S p q -> common_face S p q.
Proof.
  intros Cp Cq L. exists (mid p q). split; [|split].
  - destruct p as [[a b] c], q as [[x y] z]. simpl in *. lra.
  - destruct p as [[a b] c], q as [[x y] z]. simpl. field.
  - intros r Ir N1 N2. specialize (L r Ir N1 N2). destruct p as [[a b] c], q as [[x y] z], r as [[u v] w]. simpl in *. nra.
Qed.
Lemma lonely_listed S i row p q : (forall r, In r S -> in_open_cube r) -> exact_row S i row -> znth S i = Some p -> In q S -> p <> q -> lonely S p q -> exists j, In j row /\ znth S j = Some q.
Proof. intros C X Ei Iq Ne L. apply (exact_listed S i row p q); auto. apply lonely_face; auto. apply C. eapply znth_in; eauto. Qed.

(** the first entry is the nearest *)
Lemma argmin {A} (f : A -> R) (l : list A) : l <> [] -> exists x, In x l /\ forall y, In y l -> f x <= f y.
Proof.
  induction l as [|a l IH]; [congruence|]. intros _. destruct l as [|b l]; [exists a; split; [now left|intros y [<-|[]]; lra]|].
  destruct IH as (x & Ix & Hx); [discriminate|]. destruct (Rle_lt_dec (f a) (f x)) as [H|H].
  - exists a. split; [now left|]. intros y [<-|Hy]; [lra|]. specialize (Hx y Hy). lra.
  - exists x. split; [now right|]. intros y [<-|Hy]; [lra|]. now apply Hx.
Qed.
Lemma first_nearest S i row p : (forall r, In r S -> in_open_cube r) -> exact_row S i row -> znth S i = Some p -> (exists q, In q S /\ q <> p) ->
  exists j q, znth row 0 = Some j /\ znth S j = Some q /\ q <> p /\ forall r, In r S -> r <> p -> d2 p q <= d2 p r.
Proof.
  intros C X Ei (q0 & Iq0 & Nq0). set (l := filter (fun r => if pt_eq_dec r p then false else true) S).
  assert (IL : forall r, In r l <-> In r S /\ r <> p). { intros r. unfold l. rewrite filter_In. destruct (pt_eq_dec r p); intuition congruence. }
  destruct (argmin (d2 p) l) as (q & Iq & Hq). { intros Z. assert (I : In q0 l) by (now apply IL). rewrite Z in I. destruct I. }
  apply IL in Iq as [Iq Nq]. assert (LQ : lonely S p q).
  { intros r Ir N1 N2. specialize (Hq r ltac:(now apply IL)). pose proof (d2_pos r q N2). rewrite (d2_sym r p). lra. }
  destruct (lonely_listed S i row p q C X Ei Iq ltac:(congruence) LQ) as (j & Hj & Ej). destruct X as ((_ & D & _ & AS) & _).
  apply in_znth in Hj as (m & Hm & Em). destruct (znth_in_range row 0 ltac:(lia)) as [j0 E0]. destruct (D j0 (znth_in _ _ _ E0)) as (p' & q' & A1 & A2 & A3).
  assert (p' = p) by congruence. subst p'. exists j0, q'. split; [assumption|]. split; [assumption|]. split; [congruence|]. intros r Ir Nr.
  pose proof (AS 0%Z m j0 j p q' q ltac:(lia) E0 Em Ei A2 Ej). specialize (Hq r ltac:(now apply IL)). lra.
Qed.

(** ** all rows exact: paths *)
Section Rows.
Variables (S : list pt) (rows : list (list Z)).
Hypothesis HC : forall r, In r S -> in_open_cube r.
Hypothesis HL : zlen rows = zlen S.
Hypothesis HX : forall i row, znth rows i = Some row -> exact_row S i row.

Lemma row_at p : In p S -> exists i row, znth S i = Some p /\ znth rows i = Some row /\ exact_row S i row.
Proof.
  intros Ip. apply in_znth in Ip as (i & Hi & Ei). destruct (znth_in_range rows i ltac:(lia)) as [row Er]. exists i, row. auto.
Qed.
Lemma neighbour_lonely p q : In p S -> In q S -> p <> q -> lonely S p q -> neighbour S rows p q.
Proof.
  intros Ip Iq Ne L. destruct (row_at p Ip) as (i & row & Ei & Er & X). destruct (lonely_listed S i row p q HC X Ei Iq Ne L) as (j & Hj & Ej). exists i, j, row. auto.
Qed.
Lemma hops_app rel L p q r : hops rel L p q -> hops rel L q r -> hops rel L p r.
Proof. induction 1; intros H'; [assumption|]. econstructor; eauto. Qed.
Lemma hops_le rel L L' p q : L <= L' -> hops rel L p q -> hops rel L' p q.
Proof. intros H. induction 1; econstructor; eauto. lra. Qed.

Lemma filter_lt {A} (f g : A -> bool) (l : list A) x : (forall y, In y l -> f y = true -> g y = true) -> In x l -> f x = false -> g x = true -> (length (filter f l) < length (filter g l))%nat.
Proof.
  assert (W : forall l, (forall y, In y l -> f y = true -> g y = true) -> (length (filter f l) <= length (filter g l))%nat).
  { clear. induction l as [|a l IH]; intros H; simpl; [lia|]. specialize (IH (fun y Hy => H y (or_intror Hy))). pose proof (H a (or_introl eq_refl)).
    destruct (f a), (g a); simpl; try lia; exfalso; discriminate (H0 eq_refl). }
  induction l as [|a l IH]; intros H Hx Fx Gx; simpl; [destruct Hx|]. specialize (W l (fun y Hy => H y (or_intror Hy))).
  destruct Hx as [->|Hx].
  - rewrite Fx, Gx. simpl. lia.
  - specialize (IH (fun y Hy => H y (or_intror Hy)) Hx Fx Gx). pose proof (H a (or_introl eq_refl)) as Ha. destruct (f a), (g a); simpl; try lia; exfalso; discriminate (Ha eq_refl).
Qed.

Definition shorter (L : R) (pq : pt * pt) : bool := if Rlt_dec (d2 (fst pq) (snd pq)) L then true else false.
Lemma not_lonely p q : ~ lonely S p q -> exists r, In r S /\ r <> p /\ r <> q /\ d2 r p + d2 r q <= d2 p q.
Proof.
  intros H. destruct (Exists_dec (fun r => r <> p /\ r <> q /\ d2 r p + d2 r q <= d2 p q) S) as [X|X].
  - intros r. destruct (pt_eq_dec r p); [right; tauto|]. destruct (pt_eq_dec r q); [right; tauto|]. destruct (Rle_lt_dec (d2 r p + d2 r q) (d2 p q)); [left; tauto|right; intros (_ & _ & Q); lra].
  - apply Exists_exists in X as (r & Hr & X). eauto.
  - exfalso. apply H. intros r Ir N1 N2. destruct (Rle_lt_dec (d2 r p + d2 r q) (d2 p q)) as [Q|Q]; [exfalso; apply X, Exists_exists; eauto|assumption].
Qed.
Lemma lonely_dec p q : {lonely S p q} + {~ lonely S p q}.
Proof.
  destruct (Forall_dec (fun r => r <> p -> r <> q -> d2 p q < d2 r p + d2 r q)) with (l := S) as [X|X].
  - intros r. destruct (pt_eq_dec r p); [left; tauto|]. destruct (pt_eq_dec r q); [left; tauto|]. destruct (Rlt_dec (d2 p q) (d2 r p + d2 r q)); [left; tauto|right; tauto].
  - left. rewrite Forall_forall in X. exact X.
  - right. intros L. apply X. apply Forall_forall. exact L.
Qed.
Lemma paths p q : In p S -> In q S -> hops (neighbour S rows) (d2 p q) p q.
Proof.
  remember (length (filter (shorter (d2 p q)) (list_prod S S))) as m eqn:Em. revert p q Em. induction m as [m IH] using lt_wf_ind. intros p q -> Ip Iq.
  destruct (pt_eq_dec p q) as [->|Ne]; [constructor|].
  destruct (lonely_dec p q) as [L|L].
  - econstructor; [apply neighbour_lonely; eassumption|lra|constructor].
  - destruct (not_lonely p q L) as (r & Ir & N1 & N2 & H). pose proof (d2_pos r p N1). pose proof (d2_pos r q N2).
    assert (G : forall a b, In a S -> In b S -> d2 a b < d2 p q -> hops (neighbour S rows) (d2 p q) a b).
    { intros a b Ia Ib Hab. apply (hops_le _ (d2 a b)); [lra|]. eapply IH; [|reflexivity|assumption|assumption].
      apply (filter_lt _ _ _ (a, b)).
      - intros [u v] _. unfold shorter. simpl. destruct (Rlt_dec (d2 u v) (d2 a b)); [|discriminate]. destruct (Rlt_dec (d2 u v) (d2 p q)); [reflexivity|lra].
      - now apply in_prod.
      - unfold shorter. simpl. destruct (Rlt_dec (d2 a b) (d2 a b)); [lra|reflexivity].
      - unfold shorter. simpl. destruct (Rlt_dec (d2 a b) (d2 p q)); [reflexivity|lra]. }
    apply (hops_app _ _ _ r); apply G; auto; rewrite ?(d2_sym p r); lra.
Qed.
End Rows.

(** ** removing a point *)
Lemma remove_cell S S' r i row p : Permutation S (r :: S') -> exact_row S i row -> znth S i = Some p -> (forall j, In j row -> znth S j <> Some r) ->
  forall x, in_cell S p x <-> in_cell S' p x.
Proof.
  intros PS (_ & _ & _ & B) Ei Nr x. split.
  - intros [C H]. split; [assumption|]. intros q Iq. apply H. eapply Permutation_in; [apply Permutation_sym; exact PS|]. now right.
  - intros [C H]. apply B; auto. intros j q Hj Ej. apply H. pose proof (znth_in _ _ _ Ej) as I. eapply Permutation_in in I; [|exact PS].
    destruct I as [<-|I]; [|assumption]. exfalso. exact (Nr j Hj Ej).
Qed.

Section G.
Variable N : Arith.
Variable E : Exact N.
Notation valp := (valp N E).
Notation enough := (enough N E).

Lemma valp_cube P0 c : enough c P0 -> forall r, In r (map valp P0) -> in_open_cube r.
Proof.
  intros A r Hr. apply in_map_iff in Hr as (q & <- & Hq). destruct A as [[(_ & _ & _ & H & _) _]|(_ & _ & _ & _ & _ & _ & _ & H & _)]; apply H; assumption.
Qed.
Lemma perm_cube P0 P c : enough c P0 -> Permutation P0 P -> forall r, In r (map valp P) -> in_open_cube r.
Proof. intros A PP r Hr. apply (valp_cube P0 c A). eapply Permutation_in; [apply Permutation_map, Permutation_sym; exact PP|exact Hr]. Qed.

Lemma det_first w c P0 : enough c P0 -> exists o, tess_core N w c cpu P0 = Ok o /\ shows (o_dnn N o) (o_rows N o) /\
  forall i row p, znth (o_rows N o) i = Some row -> znth (map valp (o_pts N o)) i = Some p -> (exists q, In q (map valp P0) /\ q <> p) ->
  exists j q, znth row 0 = Some j /\ znth (map valp (o_pts N o)) j = Some q /\ q <> p /\ forall r, In r (map valp P0) -> r <> p -> d2 p q <= d2 p r.
Proof.
  intros A. destruct (enough_complete N E w c P0 A) as (o & R & (PP & LR & LS & SH & EL & EX)). exists o. split; [assumption|]. split; [assumption|]. intros i row p Er Ei (q & Iq & Nq).
  assert (I : forall r, In r (map valp P0) <-> In r (map valp (o_pts N o))) by (intros r; split; apply Permutation_in; [|apply Permutation_sym]; now apply Permutation_map).
  destruct (first_nearest _ i row p (perm_cube P0 _ c A PP) (EX i row Er) Ei) as (j & q' & B1 & B2 & B3 & B4); [exists q; split; [now apply I|assumption]|].
  exists j, q'. do 3 (split; [assumption|]). intros r Hr. apply B4. now apply I.
Qed.

Lemma det_paths w c P0 : enough c P0 -> exists o, tess_core N w c cpu P0 = Ok o /\ shows (o_dnn N o) (o_rows N o) /\
  let S := map valp (o_pts N o) in
  (forall p q, In p S -> In q S -> p <> q -> common_face S p q -> neighbour S (o_rows N o) p q) /\
  (forall p q, In p S -> In q S -> p <> q -> lonely S p q -> neighbour S (o_rows N o) p q) /\
  (forall p q, In p S -> In q S -> hops (neighbour S (o_rows N o)) (d2 p q) p q).
Proof.
  intros A. destruct (enough_complete N E w c P0 A) as (o & R & (PP & LR & LS & SH & EL & EX)). exists o. split; [assumption|]. split; [assumption|]. cbv zeta.
  assert (HL : zlen (o_rows N o) = zlen (map valp (o_pts N o))) by (rewrite zlen_map, LR; unfold zlen; now rewrite (Permutation_length PP)).
  split; [|split]; intros p q Ip Iq.
  - intros Ne CF. destruct (row_at _ _ HL EX p Ip) as (i & row & Ei & Er & X). destruct (exact_listed _ i row p q X Ei Iq Ne CF) as (j & Hj & Ej). exists i, j, row. auto.
  - intros Ne L. apply neighbour_lonely; auto. exact (perm_cube P0 _ c A PP).
  - apply paths; auto. exact (perm_cube P0 _ c A PP).
Qed.

(** the row of p, if what touches the cell of p shares a face with it *)
Lemma generic_at_perm S S' p : Permutation S S' -> generic_at S p -> generic_at S' p.
Proof.
  intros PS [ND H]. split; [eapply Permutation_NoDup; eassumption|]. intros q x Iq Ne (T1 & T2 & T3). apply (common_face_perm S); [intros r; apply Permutation_in; now apply Permutation_sym|].
  apply (H q x); auto; [eapply Permutation_in; [apply Permutation_sym; exact PS|exact Iq]|]. split; [assumption|]. split; [assumption|]. intros r Hr. apply T3. eapply Permutation_in; eassumption.
Qed.
Lemma row_neighbours S i row p q : exact_row S i row -> znth S i = Some p -> generic_at S p ->
  (exists j, In j row /\ znth S j = Some q) <-> In q S /\ p <> q /\ common_face S p q.
Proof.
  intros X Ei [ND G]. split.
  - intros (j & Hj & Ej). destruct X as ((_ & D & _) & T & _). destruct (D j Hj) as (p1 & q1 & F1 & F2 & Ne). assert (p1 = p) by congruence. assert (q1 = q) by congruence. subst p1 q1.
    destruct (T j Hj) as (p1 & q1 & x & F3 & F4 & TT). assert (p1 = p) by congruence. assert (q1 = q) by congruence. subst p1 q1.
    pose proof (znth_in _ _ _ Ej) as Iq. split; [assumption|]. split; [assumption|]. exact (G q x Iq Ne TT).
  - intros (Iq & Ne & CF). exact (exact_listed S i row p q X Ei Iq Ne CF).
Qed.
Lemma neighbour_row S rows i row p q : NoDup S -> znth S i = Some p -> znth rows i = Some row -> neighbour S rows p q <-> exists j, In j row /\ znth S j = Some q.
Proof.
  intros ND Ei Er. split.
  - intros (i2 & j & row2 & A1 & A2 & A3 & A4). assert (i2 = i) by (eapply nodup_znth; eauto). subst i2. assert (row2 = row) by congruence. subst row2. eauto.
  - intros (j & A & B). exists i, j, row. auto.
Qed.

(** removing a point that is not among the neighbours of p *)
Lemma det_remove w w' c c' P0 P0' a : enough c P0 -> enough c' P0' -> Permutation P0 (a :: P0') -> exists o o',
  tess_core N w c cpu P0 = Ok o /\ tess_core N w' c' cpu P0' = Ok o' /\
  forall p, In p (map valp P0') -> ~ neighbour (map valp (o_pts N o)) (o_rows N o) p (valp a) ->
  (forall x, in_cell (map valp P0) p x <-> in_cell (map valp P0') p x) /\
  (generic_at (map valp P0) p -> forall q, neighbour (map valp (o_pts N o)) (o_rows N o) p q <-> neighbour (map valp (o_pts N o')) (o_rows N o') p q).
Proof.
  intros A A' PA. destruct (enough_complete N E w c P0 A) as (o & R & C). destruct (enough_complete N E w' c' P0' A') as (o' & R' & C').
  exists o, o'. split; [assumption|]. split; [assumption|]. intros p Ip Nn.
  destruct C as (PP & LR & _ & _ & _ & EX). destruct C' as (PP' & LR' & _ & _ & _ & EX').
  set (S0 := map valp P0) in *. set (S0' := map valp P0') in *. set (S := map valp (o_pts N o)) in *. set (S' := map valp (o_pts N o')) in *.
  assert (PS : Permutation S0 S) by (now apply Permutation_map). assert (PS' : Permutation S0' S') by (now apply Permutation_map).
  assert (PA' : Permutation S0 (valp a :: S0')) by (exact (Permutation_map valp PA)).
  assert (HL : zlen (o_rows N o) = zlen S) by (unfold S; rewrite zlen_map, LR; unfold zlen; now rewrite (Permutation_length PP)).
  assert (HL' : zlen (o_rows N o') = zlen S') by (unfold S'; rewrite zlen_map, LR'; unfold zlen; now rewrite (Permutation_length PP')).
  assert (ID : forall T T', Permutation T T' -> forall u x, in_cell T u x <-> in_cell T' u x).
  { intros T T' PT u x. split; intros [X Y]; (split; [assumption|]); intros q Hq; apply Y; [apply (Permutation_in q (Permutation_sym PT))|apply (Permutation_in q PT)]; assumption. }
  assert (IpS0 : In p S0) by (eapply Permutation_in; [apply Permutation_sym; exact PA'|]; now right).
  assert (IpS : In p S) by (eapply Permutation_in; [exact PS|exact IpS0]).
  destruct (row_at S (o_rows N o) HL EX p IpS) as (i & row & Ei & Er & X).
  assert (CE : forall x, in_cell S0 p x <-> in_cell S0' p x).
  { intros x. rewrite (ID _ _ PS p x). apply (remove_cell S S0' (valp a) i row p); auto.
    - eapply Permutation_trans; [apply Permutation_sym; exact PS|exact PA'].
    - intros j Hj Ej. apply Nn. exists i, j, row. auto. }
  split; [exact CE|]. intros G q.
  assert (IpS' : In p S') by (eapply Permutation_in; [exact PS'|exact Ip]).
  destruct (row_at S' (o_rows N o') HL' EX' p IpS') as (i' & row' & Ei' & Er' & X').
  assert (ND' : NoDup S').
  { eapply Permutation_NoDup; [exact PS'|]. pose proof (Permutation_NoDup PA' (proj1 G)) as H. now inversion H. }
  pose proof (generic_at_perm _ _ p PS G) as GS.
  assert (CS : forall u v, common_face S0 u v -> common_face S0' u v).
  { intros u v. apply common_face_perm. intros r Hr. eapply Permutation_in; [apply Permutation_sym; exact PA'|]. now right. }
  assert (GS' : generic_at S' p).
  { apply (generic_at_perm S0'); [assumption|]. split; [eapply Permutation_NoDup; [apply Permutation_sym; exact PS'|exact ND']|]. intros r x Ir Ne (T1 & T2 & T3). apply CS. apply (proj2 G r x); auto.
    - eapply Permutation_in; [apply Permutation_sym; exact PA'|]. now right.
    - split; [assumption|]. split; [assumption|]. apply CE. now split. }
  rewrite (neighbour_row S (o_rows N o) i row p q (proj1 GS) Ei Er), (neighbour_row S' (o_rows N o') i' row' p q ND' Ei' Er').
  assert (FP : forall T T', Permutation T T' -> forall u v, common_face T u v -> common_face T' u v) by (intros T T' PT u v; apply common_face_perm; intros r; apply Permutation_in; now apply Permutation_sym).
  rewrite (row_neighbours S i row p q X Ei GS), (row_neighbours S' i' row' p q X' Ei' GS'). split.
  - intros (Iq & Ne & CF). assert (Nqa : q <> valp a).
    { intros ->. apply Nn. apply (neighbour_row S (o_rows N o) i row p _ (proj1 GS) Ei Er). apply (row_neighbours S i row p _ X Ei GS). auto. }
    split; [|split; [assumption|]].
    + eapply Permutation_in; [exact PS'|]. eapply Permutation_in in Iq; [|apply Permutation_sym; exact PS]. eapply Permutation_in in Iq; [|exact PA']. destruct Iq as [Q|Q]; [congruence|exact Q].
    + apply (FP _ _ PS'). apply CS. apply (FP _ _ (Permutation_sym PS)). exact CF.
  - intros (Iq & Ne & (x & C1 & C2 & C3)). 
    assert (IqS0 : In q S0). { eapply Permutation_in; [apply Permutation_sym; exact PA'|]. right. eapply Permutation_in; [apply Permutation_sym; exact PS'|exact Iq]. }
    split; [eapply Permutation_in; [exact PS|exact IqS0]|]. split; [assumption|]. apply (FP _ _ PS). apply (proj2 G q x); auto.
    assert (IC : in_cube x) by (destruct x as [[x1 x2] x3]; simpl in C1 |- *; lra). split; [assumption|]. split; [assumption|]. apply CE. split; [assumption|]. intros r Hr.
    destruct (pt_eq_dec r p) as [->|N1]; [lra|]. destruct (pt_eq_dec r q) as [->|N2]; [lra|]. left. apply C3; auto. eapply Permutation_in; [exact PS'|exact Hr].
Qed.

(** symmetries of the cube *)
Lemma sym_face g g' S p q : cube_symmetry g g' -> common_face S p q -> common_face (map g S) (g p) (g q).
Proof.
  intros (G1 & G2 & G3 & G4 & G5) (x & X1 & X2 & X3). exists (g x). split; [now apply G5|]. split; [now rewrite !G3|].
  intros r Hr N1 N2. apply in_map_iff in Hr as (r0 & <- & Hr). rewrite !G3. apply X3; congruence.
Qed.
Lemma sym_sym g g' : cube_symmetry g g' -> cube_symmetry g' g.
Proof.
  intros (G1 & G2 & G3 & G4 & G5). split; [assumption|]. split; [assumption|]. split; [intros x y; rewrite <- (G3 (g' x)), !G1; reflexivity|].
  split; intros x; [rewrite <- (G4 (g' x)), G1|rewrite <- (G5 (g' x)), G1]; reflexivity.
Qed.
Lemma sym_map g g' S : cube_symmetry g g' -> map g' (map g S) = S.
Proof. intros (_ & G2 & _). rewrite map_map. rewrite <- (map_id S) at 2. apply map_ext. exact G2. Qed.
Lemma sym_generic g g' S : cube_symmetry g g' -> generic S -> generic (map g S).
Proof.
  intros HG [ND H]. assert (HG' := HG). destruct HG' as (G1 & G2 & G3 & G4 & G5). split.
  - apply FinFun.Injective_map_NoDup; [|assumption]. intros x y Q. rewrite <- (G2 x), <- (G2 y). now f_equal.
  - intros p q x Ip Iq Ne (T1 & T2 & T3). apply in_map_iff in Ip as (p0 & <- & Ip). apply in_map_iff in Iq as (q0 & <- & Iq). apply (sym_face g g'); [assumption|].
    apply (H p0 q0 (g' x)); auto; [congruence|]. rewrite <- (G1 x), G4 in T1. rewrite <- (G1 x), !G3 in T2. split; [assumption|]. split; [assumption|]. intros r Hr. rewrite <- (G3 _ p0), <- (G3 _ r), !G1. apply T3. now apply in_map.
Qed.
Lemma det_symmetry g g' w w' c c' P0 P0' : cube_symmetry g g' -> enough c P0 -> enough c' P0' -> Permutation (map valp P0') (map g (map valp P0)) -> generic (map valp P0) -> exists o o',
  tess_core N w c cpu P0 = Ok o /\ tess_core N w' c' cpu P0' = Ok o' /\
  forall p q, neighbour (map valp (o_pts N o)) (o_rows N o) p q <-> neighbour (map valp (o_pts N o')) (o_rows N o') (g p) (g q).
Proof.
  intros HG A A' PS G. destruct (enough_complete N E w c P0 A) as (o & R & C). destruct (enough_complete N E w' c' P0' A') as (o' & R' & C').
  exists o, o'. split; [assumption|]. split; [assumption|]. intros p q.
  pose proof (sym_generic g g' _ HG G) as G2. apply (generic_perm _ _ (Permutation_sym PS)) in G2.
  rewrite (complete_neighbours N E P0 o C G), (complete_neighbours N E P0' o' C' G2).
  assert (HG' := HG). destruct HG' as (I1 & I2 & _).
  assert (IN : forall r, In r (map valp P0) <-> In (g r) (map valp P0')).
  { intros r. split; intros H; [eapply Permutation_in; [apply Permutation_sym; exact PS|]; now apply in_map|].
    eapply Permutation_in in H; [|exact PS]. apply in_map_iff in H as (r' & Q & H). assert (r' = r) by (rewrite <- (I2 r'), <- (I2 r); now f_equal). congruence. }
  rewrite <- (IN p), <- (IN q). split; intros (X1 & X2 & X3 & X4); (split; [assumption|]; split; [assumption|]); split.
  - intros Q. apply X3. rewrite <- (I2 p), <- (I2 q). now f_equal.
  - apply (common_face_perm (map g (map valp P0))); [intros r; apply Permutation_in; assumption|]. now apply (sym_face g g').
  - congruence.
  - apply (common_face_perm _ (map g (map valp P0))) in X4; [|intros r; apply Permutation_in, Permutation_sym; assumption].
    apply (sym_face g' g) in X4; [|now apply sym_sym]. rewrite (sym_map g g' _ HG), !I2 in X4. exact X4.
Qed.

(** the row of a cell bounds it *)
Lemma in_cell_perm S S' p x : Permutation S S' -> in_cell S p x -> in_cell S' p x.
Proof. intros PT [X Y]. split; [assumption|]. intros q Hq. apply Y. exact (Permutation_in q (Permutation_sym PT) Hq). Qed.
Lemma det_bounds w c P0 o : api_ok N E c P0 -> tess_core N w c cpu P0 = Ok o ->
  forall i b p x, znth (o_states N o) i = Some b -> validated (c_k c) (zlen P0) b -> znth (map valp (o_pts N o)) i = Some p -> in_cube x ->
  in_cell (map valp P0) p x <-> forall j q, lists (o_dnn N o) i j -> znth (map valp (o_pts N o)) j = Some q -> d2 x p <= d2 x q.
Proof.
  intros A R i b p x Hb V Ei Cx. destruct (api_rows N E w c P0 o A R) as (SH & LR & LS & PP & RW).
  assert (PS : Permutation (map valp P0) (map valp (o_pts N o))) by (now apply Permutation_map).
  pose proof (znth_some _ _ _ Hb) as Hi. destruct (znth_in_range (o_rows N o) i ltac:(lia)) as [row Er].
  destruct (RW i row b Er Hb) as [_ X]. destruct (X V) as (_ & _ & _ & B). split.
  - intros [_ H] j q _ Ej. apply H. eapply Permutation_in; [apply Permutation_sym; exact PS|]. eapply znth_in; eauto.
  - intros H. apply (in_cell_perm (map valp (o_pts N o))); [now apply Permutation_sym|]. apply B; auto. intros j q Hj Ej. apply (H j q); [|assumption]. now apply (shows_lists _ _ _ _ j SH Er).
Qed.
Lemma det_bounds_all w c P0 : enough c P0 -> exists o, tess_core N w c cpu P0 = Ok o /\ Permutation P0 (o_pts N o) /\
  forall i p x, znth (map valp (o_pts N o)) i = Some p -> in_cube x ->
  in_cell (map valp P0) p x <-> forall j q, lists (o_dnn N o) i j -> znth (map valp (o_pts N o)) j = Some q -> d2 x p <= d2 x q.
Proof.
  intros A. destruct (enough_complete N E w c P0 A) as (o & R & (PP & LR & LS & SH & EL & EX)). exists o. split; [assumption|]. split; [assumption|]. intros i p x Ei Cx.
  assert (PS : Permutation (map valp P0) (map valp (o_pts N o))) by (now apply Permutation_map).
  pose proof (znth_some _ _ _ Ei) as Hi. rewrite zlen_map in Hi. assert (zlen P0 = zlen (o_pts N o)) by (unfold zlen; now rewrite (Permutation_length PP)).
  destruct (znth_in_range (o_rows N o) i ltac:(lia)) as [row Er]. destruct (EX i row Er) as (_ & _ & _ & B). split.
  - intros [_ H0] j q _ Ej. apply H0. eapply Permutation_in; [apply Permutation_sym; exact PS|]. eapply znth_in; eauto.
  - intros H'. apply (in_cell_perm (map valp (o_pts N o))); [now apply Permutation_sym|]. apply B; auto. intros j q Hj Ej. apply (H' j q); [|assumption]. now apply (shows_lists _ _ _ _ j SH Er).
Qed.

(** one validated cell, whatever k *)
Lemma det_cell w c P0 o : api_ok N E c P0 -> tess_core N w c cpu P0 = Ok o ->
  forall i b j p q, znth (o_states N o) i = Some b -> validated (c_k c) (zlen P0) b -> znth (map valp (o_pts N o)) i = Some p -> znth (map valp (o_pts N o)) j = Some q -> generic_at (map valp P0) p ->
  lists (o_dnn N o) i j <-> p <> q /\ common_face (map valp P0) p q.
Proof.
  intros A R i b j p q Hb V Ei Ej G. destruct (api_rows N E w c P0 o A R) as (SH & LR & LS & PP & RW).
  assert (PS : Permutation (map valp P0) (map valp (o_pts N o))) by (now apply Permutation_map).
  pose proof (generic_at_perm _ _ p PS G) as GS. pose proof (znth_some _ _ _ Hb) as Hi. destruct (znth_in_range (o_rows N o) i ltac:(lia)) as [row Er].
  destruct (RW i row b Er Hb) as [_ X]. specialize (X V). rewrite (shows_lists _ _ _ _ j SH Er). pose proof (row_neighbours _ i row p q X Ei GS) as RN.
  assert (FP : forall T T', Permutation T T' -> forall u v, common_face T u v -> common_face T' u v) by (intros T T' PT u v; apply common_face_perm; intros r; apply Permutation_in; now apply Permutation_sym). split.
  - intros Hj. destruct (proj1 RN) as (_ & Ne & CF); [eauto|]. split; [assumption|]. exact (FP _ _ (Permutation_sym PS) _ _ CF).
  - intros [Ne CF]. destruct (proj2 RN) as (j' & Hj' & Ej'); [split; [eapply znth_in; eauto|]; split; [assumption|]; exact (FP _ _ PS _ _ CF)|].
    assert (j' = j) by (eapply nodup_znth; [apply GS| |]; eauto). congruence.
Qed.
Lemma det_k w w' c c' P0 o o' : api_ok N E c P0 -> api_ok N E c' P0 -> tess_core N w c cpu P0 = Ok o -> tess_core N w' c' cpu P0 = Ok o' ->
  forall i i' b b' j j' p q, znth (o_states N o) i = Some b -> znth (o_states N o') i' = Some b' -> validated (c_k c) (zlen P0) b -> validated (c_k c') (zlen P0) b' ->
  znth (map valp (o_pts N o)) i = Some p -> znth (map valp (o_pts N o')) i' = Some p -> znth (map valp (o_pts N o)) j = Some q -> znth (map valp (o_pts N o')) j' = Some q -> generic_at (map valp P0) p ->
  lists (o_dnn N o) i j <-> lists (o_dnn N o') i' j'.
Proof.
  intros A A' R R' i i' b b' j j' p q Hb Hb' V V' Ei Ei' Ej Ej' G. rewrite (det_cell w c P0 o A R i b j p q), (det_cell w' c' P0 o' A' R' i' b' j' p q); auto. reflexivity.
Qed.
End G.
