(** C99: two calls in single precision on related sets of points. *)
From Verif Require Import Base Arith PBase MUtils MXyz MDnn MArgs MTess Arith32 SpecGeom SpecVor SpecRows SpecNear SpecParam SpecSingle SpecRobust SpecText SpecFace SpecFew SpecUpdate
  PFloatRows PRobustRun PRobustLine PFewRun PUpdate PropsFloat PropsNear PropsRobust PropsFew.
From Coq Require Import Reals Lra Lia Permutation.
Import SpecGeom.
Local Open Scope Z_scope.

(** ** C99.  [single_ok]: positions in robust position and buffers for the cuts that occur.
    Mirror images and rotations of the points have the mirrored and rotated neighbours,
    though the numbers computed with are different ones; order of the points and
    parameters may differ too. *)
Theorem C99_symmetry : forall c c' P0 P0' M M' (w w' : world arith32) g g', single_ok c P0 M -> single_ok c' P0' M' -> cube_symmetry g g' -> Permutation (map g (map real_pt P0)) (map real_pt P0') ->
  exists o o', tess_core arith32 w c cpu P0 = Ok o /\ tess_core arith32 w' c' cpu P0' = Ok o' /\
  forall p q, neighbour (map real_pt (o_pts arith32 o)) (o_rows arith32 o) p q <-> neighbour (map real_pt (o_pts arith32 o')) (o_rows arith32 o') (g p) (g q).
Proof. exact image_calls. Qed.
Print Assumptions C99_symmetry.
(** A second call without the point r: the other neighbours stay neighbours, new ones are
    both neighbours of r before, and the rows of points that r was no neighbour of are the
    same; read the other way round, what a new point changes. *)
Theorem C99_removal : forall c c' P0 P0' M M' (w w' : world arith32) r, single_ok c P0 M -> single_ok c' P0' M' -> Permutation P0 (r :: P0') ->
  exists o o', tess_core arith32 w c cpu P0 = Ok o /\ tess_core arith32 w' c' cpu P0' = Ok o' /\
  let nb := neighbour (map real_pt (o_pts arith32 o)) (o_rows arith32 o) in let nb' := neighbour (map real_pt (o_pts arith32 o')) (o_rows arith32 o') in
  (forall p q, nb p q -> p <> real_pt r -> q <> real_pt r -> nb' p q) /\
  (forall p q, nb' p q -> ~ nb p q -> nb p (real_pt r) /\ nb q (real_pt r)) /\
  (forall p q, p <> real_pt r -> q <> real_pt r -> ~ nb p (real_pt r) -> (nb p q <-> nb' p q)).
Proof. exact removal_calls. Qed.
Print Assumptions C99_removal.
(** the same for tables, wherever they come from *)
Theorem C99_tables : forall S S' rows rows' r, generic S -> generic S' -> face_rows S rows -> face_rows S' rows' -> (forall p, In p S -> in_open_cube p) -> Permutation S (r :: S') ->
  (forall p q, neighbour S rows p q -> p <> r -> q <> r -> neighbour S' rows' p q) /\
  (forall p q, neighbour S' rows' p q -> ~ neighbour S rows p q -> neighbour S rows p r /\ neighbour S rows q r).
Proof. intros S S' rows rows' r G G' F F' C PS. split; intros p q; [exact (kept_pairs S S' rows rows' G G' F F' r PS p q)|exact (new_around S S' rows rows' G G' F F' C r PS p q)]. Qed.
Print Assumptions C99_tables.

(** Three points in a row, then without the middle one, then mirrored.  The outer two become
    neighbours when the middle one is gone. *)
Definition two24 : list (point arith32) := [pt24 131072 4194304 4194304; pt24 393216 4194304 4194304].
Definition mir24 : list (point arith32) := [pt24 16646144 4194304 4194304; pt24 16515072 4194304 4194304; pt24 16384000 4194304 4194304].
Definition mirror (p : pt) : pt := let '(x, y, z) := p in (1 - x, y, z)%R.
Lemma on_line_of (ts : list R) : (forall i j t t', i <> j -> znth ts i = Some t -> znth ts j = Some t' -> / 128 <= Rabs (t - t'))%R -> (forall t, In t ts -> / 128 <= t <= 1 - / 128)%R ->
  on_line (/ 128) (map (fun t => (t, 1 / 4, 1 / 4)%R) ts).
Proof.
  intros H1 H2. split; [lra|]. split; [lra|]. exists (1 / 4)%R, (1 / 4)%R. split.
  - intros j q Hj. rewrite znth_map in Hj. destruct (znth ts j) as [t|] eqn:E; [|discriminate]. injection Hj as <-. exists t. split; [reflexivity|]. apply H2. eapply znth_in; eauto.
  - intros i j t t' N Hi Hj. rewrite znth_map in Hi, Hj. destruct (znth ts i) as [u|] eqn:Ei; [|discriminate]. destruct (znth ts j) as [v|] eqn:Ej; [|discriminate]. injection Hi as ->. injection Hj as ->. eapply H1; eauto.
Qed.
Lemma two_pts : map real_pt two24 = map (fun t => (t, 1 / 4, 1 / 4)%R) [1 / 128; 3 / 128]%R.
Proof. unfold two24. cbn [map]. rewrite !real_pt24 by lia. repeat (apply f_equal2; [apply f_equal2; [apply f_equal2|]; lra|]). reflexivity. Qed.
Lemma mir_pts : map real_pt mir24 = map (fun t => (t, 1 / 4, 1 / 4)%R) [127 / 128; 126 / 128; 125 / 128]%R.
Proof. unfold mir24. cbn [map]. rewrite !real_pt24 by lia. repeat (apply f_equal2; [apply f_equal2; [apply f_equal2|]; lra|]). reflexivity. Qed.
Lemma three_pts : map real_pt (row24 3) = map (fun t => (t, 1 / 4, 1 / 4)%R) [1 / 128; 2 / 128; 3 / 128]%R.
Proof.
  change (row24 3) with (map (fun i => pt24 i 4194304 4194304) [131072; 262144; 393216]). cbn [map]. rewrite !real_pt24 by lia. repeat (apply f_equal2; [apply f_equal2; [apply f_equal2|]; lra|]). reflexivity.
Qed.
Lemma two_line : on_line (/ 128) (map real_pt two24).
Proof.
  rewrite two_pts. apply on_line_of.
  - intros i j t t' N Hi Hj. pose proof (znth_some _ _ _ Hi) as Ri. pose proof (znth_some _ _ _ Hj) as Rj. unfold zlen in Ri, Rj. simpl in Ri, Rj.
    assert (C : i = 0 /\ j = 1 \/ i = 1 /\ j = 0) by lia. destruct C as [[-> ->]|[-> ->]]; injection Hi as <-; injection Hj as <-; split_Rabs; lra.
  - intros t [<-|[<-|[]]]; lra.
Qed.
Lemma mir_line : on_line (/ 128) (map real_pt mir24).
Proof.
  rewrite mir_pts. apply on_line_of.
  - intros i j t t' N Hi Hj. pose proof (znth_some _ _ _ Hi) as Ri. pose proof (znth_some _ _ _ Hj) as Rj. unfold zlen in Ri, Rj. simpl in Ri, Rj.
    assert (C : i = 0 \/ i = 1 \/ i = 2) by lia. assert (C' : j = 0 \/ j = 1 \/ j = 2) by lia. destruct C as [->|[->| ->]]; destruct C' as [->|[->| ->]]; try contradiction; injection Hi as <-; injection Hj as <-; split_Rabs; lra.
  - intros t [<-|[<-|[<-|[]]]]; lra.
Qed.
Definition ex_cfg1 : cfg := mkCfg 1 2 8 12 1 1 false 0 true.
Lemma line_ok P0 d : 2 <= zlen P0 <= 4 -> Forall open01p P0 -> on_line d (map real_pt P0) -> single_ok ex_cfg1 P0 2.
Proof.
  intros Hn HO L. split; [|split; [assumption|split; [intros i _; eexists; apply on_line_robust; exact L|exact (on_line_few _ _ L)]]].
  assert (C : zlen P0 = 2 \/ zlen P0 = 3 \/ zlen P0 = 4) by lia. destruct C as [->|[->| ->]]; try exact (proj1 C92_ex_run).
  all: split; [|split; [reflexivity|split; [split; discriminate|left; repeat split; discriminate]]].
  all: split; [repeat split; discriminate|]; split; [reflexivity|]; split; [discriminate|]; split; [vm_compute; reflexivity|]; split; [discriminate|]; split; [vm_compute; repeat split; discriminate|discriminate].
Qed.
Example C99_ex_removal : single_ok ex_cfg1 (row24 3) 2 /\ single_ok ex_cfg1 two24 2 /\ Permutation (row24 3) (pt24 262144 4194304 4194304 :: two24) /\
  rows32 (tess_core arith32 (w32 []) ex_cfg1 cpu (row24 3)) = Some ([[1]; [0; 2]; [1]], [0; 0; 0]) /\ rows32 (tess_core arith32 (w32 []) ex_cfg1 cpu two24) = Some ([[1]; [0]], [0; 0]).
Proof.
  split; [eapply line_ok; [split; discriminate|apply row24_open; lia|apply row24_line; lia]|]. split; [eapply line_ok; [split; discriminate|repeat (apply Forall_cons; [apply pt24_open; lia|]); apply Forall_nil|exact two_line]|].
  split; [exact (perm_swap _ _ _)|]. split; vm_compute; reflexivity.
Qed.
Example C99_ex_symmetry : single_ok ex_cfg1 mir24 2 /\ cube_symmetry mirror mirror /\ Permutation (map mirror (map real_pt (row24 3))) (map real_pt mir24) /\
  rows32 (tess_core arith32 (w32 []) ex_cfg1 cpu mir24) = Some ([[1]; [0; 2]; [1]], [0; 0; 0]).
Proof.
  split; [eapply line_ok; [split; discriminate|repeat (apply Forall_cons; [apply pt24_open; lia|]); apply Forall_nil|exact mir_line]|]. split.
  { assert (I : forall x, mirror (mirror x) = x) by (intros [[a b] e]; unfold mirror; apply f_equal2; [apply f_equal2; [lra|reflexivity]|reflexivity]).
    split; [assumption|]. split; [assumption|]. split; [intros [[a b] e] [[a' b'] e']; unfold mirror, d2; ring|]. split; intros [[a b] e]; unfold mirror, in_cube, in_open_cube; lra. }
  split; [|vm_compute; reflexivity]. rewrite three_pts, mir_pts. cbn [map mirror].
  replace (1 - 1 / 128)%R with (127 / 128)%R by lra. replace (1 - 2 / 128)%R with (126 / 128)%R by lra. replace (1 - 3 / 128)%R with (125 / 128)%R by lra. apply Permutation_refl.
Qed.
