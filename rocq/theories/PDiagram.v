(** C98: tables of face neighbours of points in general position. *)
From Verif Require Import Base PBase SpecGeom SpecVor SpecRows SpecRobust SpecFace PGeomWalk PCanon PDet.
From Coq Require Import Reals Lra Psatz Permutation Wf_nat Lia.
From Verif Require Export SpecDiagram.
Import SpecGeom.
Local Open Scope R_scope.

(** ** lines *)
Definition at_ (p x : pt) (t : R) : pt := let '(a, b, c) := p in let '(u, v, w) := x in (a + t * (u - a), b + t * (v - b), c + t * (w - c)).
Lemma d2_affine p x q r t : d2 (at_ p x t) q - d2 (at_ p x t) r = (1 - t) * (d2 p q - d2 p r) + t * (d2 x q - d2 x r).
Proof. destruct p as [[? ?] ?], x as [[? ?] ?], q as [[? ?] ?], r as [[? ?] ?]. simpl. ring. Qed.
Lemma at_cube p x t : in_cube p -> in_cube x -> 0 <= t <= 1 -> in_cube (at_ p x t).
Proof. destruct p as [[? ?] ?], x as [[? ?] ?]. simpl. intros. nra. Qed.
Lemma open_cube_in p : in_open_cube p -> in_cube p.
Proof. destruct p as [[? ?] ?]. simpl. lra. Qed.
Lemma d2_self p : d2 p p = 0.
Proof. destruct p as [[? ?] ?]. simpl. ring. Qed.

(** ** the first point met on the way from p to x *)
Lemma first_exit S p x : in_cube p -> in_cube x -> In p S -> ~ in_cell S p x ->
  exists q y, In q S /\ p <> q /\ touches S p q y /\ d2 x q < d2 x p.
Proof.
  intros Cp Cx Ip NC.
  set (l := filter (fun q => if Rlt_dec (d2 x q) (d2 x p) then true else false) S).
  assert (IL : forall q, In q l <-> In q S /\ d2 x q < d2 x p).
  { intros q. unfold l. rewrite filter_In. destruct (Rlt_dec (d2 x q) (d2 x p)); intuition congruence. }
  set (tq := fun q => d2 p q / (d2 p q + (d2 x p - d2 x q))).
  destruct (argmin tq l) as (q & Iq & Hq).
  { intros Z. apply NC. split; [assumption|]. intros q Iq. destruct (Rle_lt_dec (d2 x p) (d2 x q)); [assumption|].
    assert (I : In q l) by (apply IL; auto). rewrite Z in I. destruct I. }
  apply IL in Iq as [Iq Dq]. assert (Ne : p <> q) by (intros ->; lra). pose proof (d2_pos p q Ne) as Pq.
  assert (T : 0 < tq q < 1).
  { unfold tq. split; [apply Rdiv_lt_0_compat; lra|]. apply (Rmult_lt_reg_r (d2 p q + (d2 x p - d2 x q))); [lra|]. unfold Rdiv. rewrite Rmult_assoc, Rinv_l by lra. lra. }
  assert (Z : forall r, d2 p r + (d2 x p - d2 x r) <> 0 -> tq r * (d2 p r + (d2 x p - d2 x r)) = d2 p r) by (intros r Hr; unfold tq; field; assumption).
  exists q, (at_ p x (tq q)). split; [assumption|]. split; [assumption|]. split; [|assumption]. split; [apply at_cube; auto; lra|]. split.
  - pose proof (d2_affine p x p q (tq q)) as A. rewrite d2_self in A. specialize (Z q ltac:(lra)). nra.
  - intros r Ir. pose proof (d2_affine p x p r (tq q)) as A. rewrite d2_self in A. pose proof (d2_nonneg p r).
    destruct (Rle_lt_dec (d2 x p) (d2 x r)) as [L|L]; [nra|].
    assert (Ne' : p <> r) by (intros ->; lra). pose proof (d2_pos p r Ne') as Pr. specialize (Hq r ltac:(apply IL; auto)). specialize (Z r ltac:(lra)). nra.
Qed.

(** ** a step over a common face *)
Lemma small_step (l : list pt) y v p : in_open_cube y -> (forall r, In r l -> d2 y p < d2 y r) ->
  exists t, 0 < t <= 1 /\ forall s, 0 <= s <= t -> in_open_cube (at_ y v s) /\ forall r, In r l -> d2 (at_ y v s) p < d2 (at_ y v s) r.
Proof.
  intros Cy. induction l as [|r l IH]; intros H.
  - destruct y as [[a b] c], v as [[a' b'] c']. simpl in Cy.
    assert (G : forall u u', 0 < u < 1 -> exists t, 0 < t <= 1 /\ forall s, 0 <= s <= t -> 0 < u + s * (u' - u) < 1).
    { intros u u' Hu. set (m := Rmin u (1 - u)). set (w := Rabs (u' - u)). assert (M : 0 < m /\ m <= u /\ m <= 1 - u) by (unfold m; pose proof (Rmin_l u (1 - u)); pose proof (Rmin_r u (1 - u)); split; [apply Rmin_pos; lra|lra]).
      assert (W : 0 <= w) by apply Rabs_pos. exists (m / (1 + w)). assert (E : m / (1 + w) * (1 + w) = m) by (field; lra). assert (P : 0 < m / (1 + w)) by (apply Rdiv_lt_0_compat; lra).
      split; [split; [assumption|nra]|]. intros s Hs. assert (B : - w <= u' - u <= w) by (unfold w; split_Rabs; lra). assert (s * w <= m / (1 + w) * w) by nra. assert (m / (1 + w) * w < m) by nra. assert (- (s * w) <= s * (u' - u) <= s * w) by nra. lra. }
    destruct (G a a' ltac:(lra)) as (t1 & T1 & H1). destruct (G b b' ltac:(lra)) as (t2 & T2 & H2). destruct (G c c' ltac:(lra)) as (t3 & T3 & H3).
    exists (Rmin t1 (Rmin t2 t3)). pose proof (Rmin_l t1 (Rmin t2 t3)). pose proof (Rmin_r t1 (Rmin t2 t3)). pose proof (Rmin_l t2 t3). pose proof (Rmin_r t2 t3).
    split; [split; [repeat apply Rmin_pos; lra|lra]|]. intros s Hs. split; [|intros r []]. simpl. specialize (H1 s ltac:(lra)). specialize (H2 s ltac:(lra)). specialize (H3 s ltac:(lra)). lra.
  - destruct IH as (t & T & Ht); [intros r' Hr'; apply H; now right|]. specialize (H r (or_introl eq_refl)).
    set (w := Rabs (d2 v r - d2 v p)). assert (W : 0 <= w) by apply Rabs_pos. set (e := d2 y r - d2 y p) in *. assert (e0 : 0 < e) by (unfold e; lra).
    set (u := e / (1 + e + w)). assert (U : u * (1 + e + w) = e) by (unfold u; field; lra). assert (U0 : 0 < u) by (unfold u; apply Rdiv_lt_0_compat; lra).
    exists (Rmin t u). pose proof (Rmin_l t u). pose proof (Rmin_r t u). split; [split; [apply Rmin_pos; lra|lra]|].
    intros s Hs. destruct (Ht s ltac:(lra)) as [HA HB]. split; [assumption|]. intros r' [<-|Hr']; [|now apply HB].
    pose proof (d2_affine y v r p s) as A. fold e in A. assert (B : - w <= d2 v r - d2 v p <= w) by (unfold w; split_Rabs; lra).
    assert (s * (e + w) < e) by (assert (s * (e + w) <= u * (e + w)) by nra; nra). assert (- (s * w) <= s * (d2 v r - d2 v p)) by nra. nra.
Qed.
Lemma over_face S p q : p <> q -> common_face S p q -> exists x, in_cube x /\ d2 x q < d2 x p /\ forall r, In r S -> r <> p -> r <> q -> d2 x p < d2 x r.
Proof.
  intros Ne (y & Cy & E & H).
  set (l := filter (fun r => if pt_eq_dec r p then false else if pt_eq_dec r q then false else true) S).
  assert (IL : forall r, In r l <-> In r S /\ r <> p /\ r <> q).
  { intros r. unfold l. rewrite filter_In. destruct (pt_eq_dec r p); [intuition congruence|]. destruct (pt_eq_dec r q); intuition congruence. }
  destruct (small_step l y q p Cy) as (t & T & Ht). { intros r Hr. apply IL in Hr as (A & B & C). now apply H. }
  destruct (Ht t ltac:(lra)) as [HA HB]. exists (at_ y q t). split; [now apply open_cube_in|]. split.
  - pose proof (d2_affine y q p q t) as A. rewrite d2_self in A. assert (0 < d2 q p) by (apply d2_pos; congruence). nra.
  - intros r A B C. apply HB, IL. auto.
Qed.

(** ** the table *)
Section Table.
Variables (S : list pt) (rows : list (list Z)).
Hypothesis HC : forall r, In r S -> in_open_cube r.
Hypothesis HL : zlen rows = zlen S.

Lemma row_of i p : znth S i = Some p -> exists row, znth rows i = Some row.
Proof. intros Ei. apply znth_in_range. apply znth_some in Ei. lia. Qed.

(** being nearer, again and again *)
Lemma locate : (forall i row, znth rows i = Some row -> bounded_by S i row) -> can_locate S rows.
Proof.
  intros HB p x Ip Cx. remember (length (filter (fun r => if Rlt_dec (d2 x r) (d2 x p) then true else false) S)) as m eqn:Em.
  revert p Ip Em. induction m as [m IH] using lt_wf_ind. intros p Ip ->.
  apply in_znth in Ip as (i & Hi & Ei). destruct (row_of i p Ei) as [row Er].
  destruct (Exists_dec (fun j => exists q, znth S j = Some q /\ d2 x q < d2 x p) row) as [X|X].
  { intros j. destruct (znth S j) as [q|]; [|right; intros (? & ? & _); discriminate]. destruct (Rlt_dec (d2 x q) (d2 x p)); [left; eauto|right; intros (? & A & ?); injection A as <-; contradiction]. }
  - apply Exists_exists in X as (j & Hj & q & Ej & D). pose proof (znth_in _ _ _ Ej) as Iq.
    edestruct (fun H => IH _ H q Iq eq_refl) as (r & Ir & W & C).
    { apply (filter_lt _ _ _ q); [|assumption| |].
      - intros z _. destruct (Rlt_dec (d2 x z) (d2 x q)); [|discriminate]. intros _. destruct (Rlt_dec (d2 x z) (d2 x p)); [reflexivity|lra].
      - destruct (Rlt_dec (d2 x q) (d2 x q)); [lra|reflexivity].
      - destruct (Rlt_dec (d2 x q) (d2 x p)); [reflexivity|lra]. }
    exists r. split; [assumption|]. split; [|assumption]. eapply walk_cons; [|exact D|exact W]. exists i, j, row. auto.
  - exists p. split; [eapply znth_in; eauto|]. split; [constructor|]. apply (HB i row Er p x Ei Cx). intros j q Hj Ej. destruct (Rle_lt_dec (d2 x p) (d2 x q)); [assumption|]. exfalso. apply X, Exists_exists. eauto.
Qed.

Lemma lonely_hops (HN : forall p q, In p S -> In q S -> p <> q -> lonely S p q -> neighbour S rows p q) : connected S rows.
Proof.
  intros p q. remember (length (filter (shorter (d2 p q)) (list_prod S S))) as m eqn:Em. revert p q Em. induction m as [m IH] using lt_wf_ind. intros p q -> Ip Iq.
  destruct (pt_eq_dec p q) as [->|Ne]; [constructor|].
  destruct (lonely_dec S p q) as [L|L].
  - econstructor; [apply HN; eassumption|lra|constructor].
  - destruct (not_lonely S p q L) as (r & Ir & N1 & N2 & H). pose proof (d2_pos r p N1). pose proof (d2_pos r q N2).
    assert (G : forall a b, In a S -> In b S -> d2 a b < d2 p q -> hops (neighbour S rows) (d2 p q) a b).
    { intros a b Ia Ib Hab. apply (hops_le _ (d2 a b)); [lra|]. eapply IH; [|reflexivity|assumption|assumption].
      apply (filter_lt _ _ _ (a, b)).
      - intros [u v] _. unfold shorter. simpl. destruct (Rlt_dec (d2 u v) (d2 a b)); [|discriminate]. destruct (Rlt_dec (d2 u v) (d2 p q)); [reflexivity|lra].
      - now apply in_prod.
      - unfold shorter. simpl. destruct (Rlt_dec (d2 a b) (d2 a b)); [lra|reflexivity].
      - unfold shorter. simpl. destruct (Rlt_dec (d2 a b) (d2 p q)); [reflexivity|lra]. }
    apply (hops_app _ _ _ r); apply G; auto; rewrite ?(d2_sym p r); lra.
Qed.

Hypothesis HG : generic S.
Hypothesis HF : face_rows S rows.

Lemma face_common i j p q : znth S i = Some p -> znth S j = Some q -> j <> i -> face S i j -> p <> q /\ common_face S p q.
Proof.
  intros Ei Ej N (p' & q' & x & A & B & C & D & H). assert (p' = p) by congruence. assert (q' = q) by congruence. subst.
  split. { intros ->. apply N. destruct HG as [ND _]. eapply PCanon.nodup_znth; eassumption. }
  exists x. split; [assumption|]. split; [assumption|]. intros r Ir N1 N2. apply in_znth in Ir as (l & _ & El). apply (H l r El); intros ->; congruence.
Qed.
Lemma listed_iff p q : In p S -> In q S -> neighbour S rows p q <-> p <> q /\ common_face S p q.
Proof.
  intros Ip Iq. split.
  - intros (i & j & row & Ei & Ej & Er & Hj). apply HF in Er as [_ R]. apply R in Hj as [N F]. eapply face_common; eauto.
  - intros [Ne CF]. apply in_znth in Ip as (i & _ & Ei). apply in_znth in Iq as (j & _ & Ej). destruct (row_of i p Ei) as [row Er]. exists i, j, row. repeat split; auto.
    apply HF in Er as [_ R]. apply R. split; [intros ->; congruence|]. apply (common_face_face S i j p q); auto. apply HG.
Qed.
Lemma table_bounded i row : znth rows i = Some row -> bounded_by S i row.
Proof.
  intros Er p x Ei Cx H. pose proof (znth_in _ _ _ Ei) as Ip.
  assert (D : {in_cell S p x} + {~ in_cell S p x}).
  { destruct (Forall_dec (fun q => d2 x p <= d2 x q)) with (l := S) as [X|X]; [intros q; destruct (Rle_dec (d2 x p) (d2 x q)); [left|right]; assumption| |].
    - left. split; [assumption|]. rewrite Forall_forall in X. exact X.
    - right. intros [_ Y]. apply X. apply Forall_forall. exact Y. }
  destruct D as [|NC]; [assumption|exfalso].
  destruct (first_exit S p x (open_cube_in p (HC p Ip)) Cx Ip NC) as (q & y & Iq & Ne & T & L).
  destruct HG as [ND G]. pose proof (G p q y Ip Iq Ne T) as CF. apply in_znth in Iq as (j & _ & Ej).
  pose proof (common_face_face S i j p q ND Ei Ej CF) as F. apply HF in Er as [_ R]. assert (Ij : In j row) by (apply R; split; [intros ->; congruence|assumption]).
  specialize (H j q Ij Ej). lra.
Qed.

Theorem table_diagram : diagram S rows.
Proof.
  assert (HLN : forall p q, In p S -> In q S -> p <> q -> lonely S p q -> neighbour S rows p q) by (intros p q Ip Iq Ne L; apply listed_iff; auto; split; [assumption|]; apply lonely_face; auto).
  split; [|split; [|split; [|split; [|split]]]].
  - intros i row p x Ei Er Cx. split.
    + intros [_ H] j q _ Ej. apply H. eapply znth_in; eauto.
    + intros H. now apply (table_bounded i row Er p x Ei Cx).
  - intros i row p j q Ei Er Hj Ej. assert (NB : neighbour S rows p q) by (exists i, j, row; auto). apply listed_iff in NB as [Ne CF]; [|eapply znth_in; eauto|eapply znth_in; eauto].
    destruct (over_face S p q Ne CF) as (x & Cx & D & H). exists x. split; [assumption|]. split; [assumption|]. intros l r Hl Nl El. apply H; [eapply znth_in; eauto| |].
    + intros ->. apply HF in Er as [_ R]. apply R in Hl as [Nli _]. apply Nli. eapply PCanon.nodup_znth; try eassumption. apply HG.
    + intros ->. apply Nl. eapply PCanon.nodup_znth; try eassumption. apply HG.
  - intros p q Ip Iq Ne H. apply HLN; auto. intros r Ir N1 N2. specialize (H r Ir N1). pose proof (d2_pos r q N2). rewrite (d2_sym r p). lra.
  - now apply lonely_hops.
  - apply locate. intros i row. apply table_bounded.
  - intros r S' p PS Ip'. assert (Ip : In p S) by (eapply Permutation_in; [apply Permutation_sym; exact PS|now right]). assert (Ir : In r S) by (eapply Permutation_in; [apply Permutation_sym; exact PS|now left]).
    assert (ND : NoDup (r :: S')) by (eapply Permutation_NoDup; [exact PS|apply HG]). inversion ND as [|? ? Nr _]; subst.
    assert (Ne : p <> r) by (intros ->; contradiction). split.
    + intros NN x. split.
      * intros [C H]. split; [assumption|]. intros q Iq. apply H. eapply Permutation_in; [apply Permutation_sym; exact PS|now right].
      * intros [C H]. apply in_znth in Ip as (i & _ & Ei). destruct (row_of i p Ei) as [row Er]. apply (table_bounded i row Er p x Ei C). intros j q Hj Ej. apply H.
        pose proof (znth_in _ _ _ Ej) as Iq. eapply Permutation_in in Iq; [|exact PS]. destruct Iq as [<-|Iq]; [|assumption]. exfalso. apply NN. exists i, j, row. auto.
    + intros H NB. apply listed_iff in NB as [_ CF]; auto. destruct (over_face S p r Ne CF) as (x & Cx & D & F). assert (C : in_cell S' p x).
      { split; [assumption|]. intros q Iq. destruct (pt_eq_dec q p) as [->|Nq]; [lra|]. assert (q <> r) by (intros ->; contradiction). assert (Iq' : In q S) by (eapply Permutation_in; [apply Permutation_sym; exact PS|now right]). specialize (F q Iq' Nq H0). lra. }
      apply H in C. destruct C as [_ C]. specialize (C r Ir). lra.
Qed.
End Table.
