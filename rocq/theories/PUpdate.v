(** C99: two tables of face neighbours: symmetric sets, sets that differ by a point. *)
From Verif Require Import Base Arith PBase MUtils MXyz MDnn MArgs MTess Arith32 SpecGeom SpecSort SpecVor SpecRows SpecNear SpecSpread SpecParam SpecSingle SpecRobust SpecText SpecFace SpecFew PGeomWalk PCanon PDet PRobustCanon PRobustText PFewRun PDiagram.
From Coq Require Import Reals Lra Permutation.
From Verif Require Export SpecUpdate.
Import SpecGeom.
Local Open Scope R_scope.

Section Two.
Variables (S S' : list pt) (rows rows' : list (list Z)).
Hypothesis HG : generic S.
Hypothesis HG' : generic S'.
Hypothesis HF : face_rows S rows.
Hypothesis HF' : face_rows S' rows'.

Lemma nb_iff T tb p q : generic T -> face_rows T tb -> neighbour T tb p q <-> In p T /\ In q T /\ p <> q /\ common_face T p q.
Proof.
  intros G F. split.
  - intros NB. assert (I : In p T /\ In q T) by (destruct NB as (i & j & row & Ei & Ej & _); split; eapply znth_in; eauto). destruct I as [Ip Iq].
    apply (listed_iff T tb (proj1 F) G F p q Ip Iq) in NB. tauto.
  - intros (Ip & Iq & R). now apply (listed_iff T tb (proj1 F) G F p q Ip Iq).
Qed.

Lemma image_table g g' : cube_symmetry g g' -> Permutation (map g S) S' -> forall p q, neighbour S rows p q <-> neighbour S' rows' (g p) (g q).
Proof.
  intros C PS p q. pose proof C as (G1 & G2 & _). rewrite (nb_iff S rows p q HG HF), (nb_iff S' rows' (g p) (g q) HG' HF').
  assert (IM : forall r, In r S <-> In (g r) S').
  { intros r. split; intros H.
    - eapply Permutation_in; [exact PS|]. now apply in_map.
    - eapply Permutation_in in H; [|apply Permutation_sym; exact PS]. apply in_map_iff in H as (r' & E & Ir). assert (r' = r) by (rewrite <- (G2 r'), <- (G2 r); now f_equal). congruence. }
  assert (CC : cube_symmetry g' g) by (destruct C as (C1 & C2 & C3 & C4 & C5); split; [assumption|]; split; [assumption|]; split; [intros x y; rewrite <- (C3 (g' x) (g' y)), !C1; reflexivity|]; split; intros x; [rewrite <- (C4 (g' x)), C1|rewrite <- (C5 (g' x)), C1]; reflexivity).
  assert (EQ : forall u v, g u = g v -> u = v) by (intros u v E; rewrite <- (G2 u), <- (G2 v); now f_equal).
  rewrite <- !IM. split; intros (A & B & Ne & CF); (split; [assumption|]; split; [assumption|]); split; try (intros E; apply Ne; congruence || (apply EQ; assumption)).
  - apply (common_face_perm (map g S)); [intros r; apply Permutation_in; now apply Permutation_sym|]. now apply (sym_face g g').
  - pose proof (sym_face g' g S' (g p) (g q) CC CF) as Q. rewrite !G2 in Q. apply (common_face_perm (map g' S')); [|assumption].
    intros r Ir. apply in_map_iff. exists (g r). split; [apply G2|now apply IM].
Qed.

Hypothesis HC : forall p, In p S -> in_open_cube p.
Variable r : pt.
Hypothesis PS : Permutation S (r :: S').

Lemma in_less q : In q S' -> In q S.
Proof. intros H. eapply Permutation_in; [apply Permutation_sym; exact PS|now right]. Qed.
Lemma in_more q : In q S -> q <> r -> In q S'.
Proof. intros H N. eapply Permutation_in in H; [|exact PS]. destruct H; [congruence|assumption]. Qed.

Lemma kept_pairs p q : neighbour S rows p q -> p <> r -> q <> r -> neighbour S' rows' p q.
Proof.
  intros NB N1 N2. apply (nb_iff S rows p q HG HF) in NB as (Ip & Iq & Ne & CF). apply (nb_iff S' rows' p q HG' HF').
  split; [now apply in_more|]. split; [now apply in_more|]. split; [assumption|]. apply (common_face_perm S); [exact in_less|assumption].
Qed.
Lemma new_pair p q : neighbour S' rows' p q -> ~ common_face S p r -> neighbour S rows p q.
Proof.
  intros NB NR. apply (nb_iff S' rows' p q HG' HF') in NB as (Ip & Iq & Ne & CF). apply (nb_iff S rows p q HG HF). split; [now apply in_less|]. split; [now apply in_less|]. split; [assumption|].
  assert (Nr : ~ In r S'). { assert (ND : NoDup (r :: S')) by (eapply Permutation_NoDup; [exact PS|apply HG]). now inversion ND. }
  assert (Ir : In r S) by (eapply Permutation_in; [apply Permutation_sym; exact PS|now left]).
  assert (Npr : p <> r) by (intros ->; contradiction).
  destruct CF as (y & Cy & E & H).
  (* p's cell is not touched by r's, so y is nearer to p than to r *)
  destruct (Rlt_dec (d2 y p) (d2 y r)) as [L|L].
  - exists y. split; [assumption|]. split; [assumption|]. intros s Is N1 N2. destruct (pt_eq_dec s r) as [->|N3]; [assumption|]. apply H; auto. now apply in_more.
  - exfalso. apply NR. destruct HG as [_ G]. apply Rnot_lt_le in L.
    destruct (Req_dec (d2 y p) (d2 y r)) as [Q|Q].
    + apply (G p r y); auto using in_less. split; [now apply open_cube_in|]. split; [assumption|]. intros s Is. destruct (pt_eq_dec s r) as [->|N3]; [lra|]. destruct (pt_eq_dec s p) as [->|N4]; [lra|]. destruct (pt_eq_dec s q) as [->|N5]; [lra|]. specialize (H s (in_more s Is N3) N4 N5). lra.
    + assert (Ip' := in_less p Ip). assert (NC : ~ in_cell S p y) by (intros [_ X]; specialize (X r Ir); lra).
      destruct (first_exit S p y (open_cube_in p (HC p Ip')) (open_cube_in y Cy) Ip' NC) as (s & x & Is & Ns & T & D). destruct (pt_eq_dec s r) as [->|N3]; [now apply (G p r x)|].
      exfalso. destruct (pt_eq_dec s q) as [->|N5]; [lra|]. specialize (H s (in_more s Is N3) ltac:(congruence) N5). lra.
Qed.
Lemma nb_sym T tb p q : generic T -> face_rows T tb -> neighbour T tb p q -> neighbour T tb q p.
Proof. intros G F H. apply (nb_iff T tb p q G F) in H as (A & B & C & D). apply (nb_iff T tb q p G F). split; [assumption|]. split; [assumption|]. split; [congruence|]. now apply common_face_sym. Qed.
Lemma same_row p q : p <> r -> q <> r -> ~ neighbour S rows p r -> (neighbour S rows p q <-> neighbour S' rows' p q).
Proof.
  intros N1 N2 NR. split; [intros H; now apply kept_pairs|]. intros H. apply new_pair; [assumption|]. intros CF. apply NR. apply (nb_iff S rows p r HG HF).
  destruct (proj1 (nb_iff S' rows' p q HG' HF') H) as (Ip & _). split; [now apply in_less|]. split; [eapply Permutation_in; [apply Permutation_sym; exact PS|now left]|]. auto.
Qed.
Lemma nb_dec u : neighbour S rows u r \/ ~ neighbour S rows u r.
Proof.
  assert (D : {exists l, In l (flat_map (fun i => match znth S i with Some p => if pt_eq_dec p u then match znth rows i with Some row => row | None => [] end else [] | None => [] end) (zrange 0 (zlen S))) /\ znth S l = Some r} +
              {~ exists l, In l (flat_map (fun i => match znth S i with Some p => if pt_eq_dec p u then match znth rows i with Some row => row | None => [] end else [] | None => [] end) (zrange 0 (zlen S))) /\ znth S l = Some r}).
  { set (L := flat_map _ _). destruct (Exists_dec (fun l => znth S l = Some r) L) as [X|X].
    - intros l. destruct (znth S l) as [v|]; [|right; discriminate]. destruct (pt_eq_dec v r) as [->|N]; [left; reflexivity|right; congruence].
    - left. apply Exists_exists in X as (l & A & B). eauto.
    - right. intros (l & A & B). apply X, Exists_exists. eauto. }
  destruct D as [(l & I & E)|NO].
  - left. apply in_flat_map in I as (i & _ & I). destruct (znth S i) as [p|] eqn:Ei; [|destruct I]. destruct (pt_eq_dec p u) as [->|]; [|destruct I]. destruct (znth rows i) as [row|] eqn:Er; [|destruct I]. exists i, l, row. auto.
  - right. intros (i & j & row & Ei & Ej & Er & I). apply NO. exists j. split; [|assumption]. apply in_flat_map. exists i. split; [apply in_zrange; eapply znth_some; eauto|]. rewrite Ei. destruct (pt_eq_dec u u); [|congruence]. now rewrite Er.
Qed.
Lemma new_around p q : neighbour S' rows' p q -> ~ neighbour S rows p q -> neighbour S rows p r /\ neighbour S rows q r.
Proof.
  assert (ONE : forall p q, neighbour S' rows' p q -> ~ neighbour S rows p q -> neighbour S rows p r).
  { intros u v H NH. pose proof (proj1 (nb_iff S' rows' u v HG' HF') H) as (Iu & Iv & _). assert (Nr : ~ In r S'). { assert (ND : NoDup (r :: S')) by (eapply Permutation_NoDup; [exact PS|apply HG]). now inversion ND. }
    assert (Nur : u <> r) by (intros ->; contradiction). assert (Nvr : v <> r) by (intros ->; contradiction).
    apply (nb_iff S rows u r HG HF). split; [now apply in_less|]. split; [eapply Permutation_in; [apply Permutation_sym; exact PS|now left]|]. split; [assumption|].
    destruct (nb_dec u) as [X|X]; [exact (proj2 (proj2 (proj2 (proj1 (nb_iff S rows u r HG HF) X))))|]. exfalso. apply NH. apply (same_row u v Nur Nvr X). exact H. }
  intros H NH. split; [now apply (ONE p q)|]. apply (ONE q p); [now apply nb_sym|]. intros X. apply NH. now apply nb_sym.
Qed.
End Two.

(** ** calls *)
Notation pts_of o := (map real_pt (o_pts arith32 o)).
Notation rows_of o := (o_rows arith32 o).
Lemma ok_table c P0 M (w : world arith32) : single_ok c P0 M -> exists o, tess_core arith32 w c cpu P0 = Ok o /\ Permutation (map real_pt P0) (pts_of o) /\ generic (pts_of o) /\ face_rows (pts_of o) (rows_of o) /\ forall p, In p (pts_of o) -> in_open_cube p.
Proof.
  intros (A & HO & HR & F). destruct (few_core c P0 w M A HO HR F) as (o & R & SS & FR & _). destruct SS as [PP _]. exists o. split; [assumption|]. split; [now apply Permutation_map|]. split; [|split; [assumption|]].
  - eapply generic_perm; [apply Permutation_map; exact PP|]. now apply robust_generic.
  - intros p Hp. apply in_map_iff in Hp as (q & <- & Iq). apply open_cube. rewrite Forall_forall in HO. apply HO. eapply Permutation_in; [apply Permutation_sym; exact PP|assumption].
Qed.
Lemma image_calls c c' P0 P0' M M' (w w' : world arith32) g g' : single_ok c P0 M -> single_ok c' P0' M' -> cube_symmetry g g' -> Permutation (map g (map real_pt P0)) (map real_pt P0') ->
  exists o o', tess_core arith32 w c cpu P0 = Ok o /\ tess_core arith32 w' c' cpu P0' = Ok o' /\
  forall p q, neighbour (pts_of o) (rows_of o) p q <-> neighbour (pts_of o') (rows_of o') (g p) (g q).
Proof.
  intros A A' C PS. destruct (ok_table c P0 M w A) as (o & R & PP & G & F & _). destruct (ok_table c' P0' M' w' A') as (o' & R' & PP' & G' & F' & _). exists o, o'. split; [assumption|]. split; [assumption|].
  apply (image_table _ _ _ _ G G' F F' g g' C). eapply Permutation_trans; [apply Permutation_map, Permutation_sym; exact PP|]. eapply Permutation_trans; [exact PS|exact PP'].
Qed.
Lemma removal_calls c c' P0 P0' M M' (w w' : world arith32) r : single_ok c P0 M -> single_ok c' P0' M' -> Permutation P0 (r :: P0') ->
  exists o o', tess_core arith32 w c cpu P0 = Ok o /\ tess_core arith32 w' c' cpu P0' = Ok o' /\
  (forall p q, neighbour (pts_of o) (rows_of o) p q -> p <> real_pt r -> q <> real_pt r -> neighbour (pts_of o') (rows_of o') p q) /\
  (forall p q, neighbour (pts_of o') (rows_of o') p q -> ~ neighbour (pts_of o) (rows_of o) p q -> neighbour (pts_of o) (rows_of o) p (real_pt r) /\ neighbour (pts_of o) (rows_of o) q (real_pt r)) /\
  (forall p q, p <> real_pt r -> q <> real_pt r -> ~ neighbour (pts_of o) (rows_of o) p (real_pt r) -> (neighbour (pts_of o) (rows_of o) p q <-> neighbour (pts_of o') (rows_of o') p q)).
Proof.
  intros A A' PS. destruct (ok_table c P0 M w A) as (o & R & PP & G & F & HC). destruct (ok_table c' P0' M' w' A') as (o' & R' & PP' & G' & F' & _). exists o, o'. split; [assumption|]. split; [assumption|].
  assert (Q : Permutation (pts_of o) (real_pt r :: pts_of o')).
  { eapply Permutation_trans; [apply Permutation_sym; exact PP|]. eapply Permutation_trans; [apply Permutation_map; exact PS|]. cbn [map]. apply perm_skip. exact PP'. }
  split; [|split]; intros p q.
  - apply (kept_pairs _ _ _ _ G G' F F' (real_pt r) Q).
  - apply (new_around _ _ _ _ G G' F F' HC (real_pt r) Q).
  - apply (same_row _ _ _ _ G G' F F' HC (real_pt r) Q).
Qed.
