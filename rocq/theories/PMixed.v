(** C99: the tables of [PUpdate] for calls on either device and for exact arithmetic. *)
From Verif Require Import Base Arith PBase MUtils MXyz MDnn MArgs MTess Exact Arith32 SpecPoints SpecGeom SpecVor SpecRows SpecNear SpecDev SpecSpread SpecParam SpecSingle SpecRobust SpecText SpecFace SpecFew SpecUpdate
  PCanon PDet PRobustCanon PRobustText PFewRun PDiagram PDiagramRun PUpdate.
From Coq Require Import Reals Permutation.
From Verif Require Export SpecMixed.
Import SpecGeom.
Local Open Scope Z_scope.

Lemma run_table d (w : world arith32) c P0 : run_ok d w c P0 -> exists o, tess_core arith32 w c d P0 = Ok o /\ Permutation (map real_pt P0) (map real_pt (o_pts arith32 o)) /\ generic (map real_pt (o_pts arith32 o)) /\
  face_rows (map real_pt (o_pts arith32 o)) (o_rows arith32 o) /\ forall p, In p (map real_pt (o_pts arith32 o)) -> in_open_cube p.
Proof.
  destruct d; intros A.
  - destruct A as [M A]. exact (ok_table c P0 M w A).
  - destruct A as (r & M & M' & HC & Kn & Rc & HO & HR & Cv & Cr & HM & Few & Ro & HD & HG).
    destruct (device_call c P0 w r M M' HC Kn Rc HO HR Cv Cr HM Few Ro HD HG) as (o & R & PP & FR & _). exists o. split; [assumption|]. split; [now apply Permutation_map|]. split; [|split; [assumption|]].
    + eapply generic_perm; [apply Permutation_map; exact PP|]. now apply robust_generic.
    + intros p Hp. apply in_map_iff in Hp as (q & <- & Iq). apply open_cube. rewrite Forall_forall in HO. apply HO. eapply Permutation_in; [apply Permutation_sym; exact PP|assumption].
Qed.
Lemma image_runs d d' c c' P0 P0' (w w' : world arith32) g g' : run_ok d w c P0 -> run_ok d' w' c' P0' -> cube_symmetry g g' -> Permutation (map g (map real_pt P0)) (map real_pt P0') ->
  exists o o', tess_core arith32 w c d P0 = Ok o /\ tess_core arith32 w' c' d' P0' = Ok o' /\
  forall p q, neighbour (map real_pt (o_pts arith32 o)) (o_rows arith32 o) p q <-> neighbour (map real_pt (o_pts arith32 o')) (o_rows arith32 o') (g p) (g q).
Proof.
  intros A A' C PS. destruct (run_table d w c P0 A) as (o & R & PP & G & F & _). destruct (run_table d' w' c' P0' A') as (o' & R' & PP' & G' & F' & _). exists o, o'. split; [assumption|]. split; [assumption|].
  apply (image_table _ _ _ _ G G' F F' g g' C). eapply Permutation_trans; [apply Permutation_map, Permutation_sym; exact PP|]. eapply Permutation_trans; [exact PS|exact PP'].
Qed.
Lemma removal_runs d d' c c' P0 P0' (w w' : world arith32) r : run_ok d w c P0 -> run_ok d' w' c' P0' -> Permutation P0 (r :: P0') ->
  exists o o', tess_core arith32 w c d P0 = Ok o /\ tess_core arith32 w' c' d' P0' = Ok o' /\
  let nb := neighbour (map real_pt (o_pts arith32 o)) (o_rows arith32 o) in let nb' := neighbour (map real_pt (o_pts arith32 o')) (o_rows arith32 o') in
  (forall p q, nb p q -> p <> real_pt r -> q <> real_pt r -> nb' p q) /\
  (forall p q, nb' p q -> ~ nb p q -> nb p (real_pt r) /\ nb q (real_pt r)) /\
  (forall p q, p <> real_pt r -> q <> real_pt r -> ~ nb p (real_pt r) -> (nb p q <-> nb' p q)).
Proof.
  intros A A' PS. destruct (run_table d w c P0 A) as (o & R & PP & G & F & HC). destruct (run_table d' w' c' P0' A') as (o' & R' & PP' & G' & F' & _). exists o, o'. split; [assumption|]. split; [assumption|]. cbv zeta.
  assert (Q : Permutation (map real_pt (o_pts arith32 o)) (real_pt r :: map real_pt (o_pts arith32 o'))).
  { eapply Permutation_trans; [apply Permutation_sym; exact PP|]. eapply Permutation_trans; [apply Permutation_map; exact PS|]. cbn [map]. apply perm_skip. exact PP'. }
  split; [|split]; intros p q.
  - apply (kept_pairs _ _ _ _ G G' F F' (real_pt r) Q).
  - apply (new_around _ _ _ _ G G' F F' HC (real_pt r) Q).
  - apply (same_row _ _ _ _ G G' F F' HC (real_pt r) Q).
Qed.
Lemma removal_exact (N : Arith) (E : Exact N) c c' P0 P0' (w w' : world N) r : enough N E c P0 -> enough N E c' P0' -> generic (map (valp N E) P0) -> generic (map (valp N E) P0') -> Permutation P0 (r :: P0') ->
  exists o o', tess_core N w c cpu P0 = Ok o /\ tess_core N w' c' cpu P0' = Ok o' /\
  let nb := neighbour (map (valp N E) (o_pts N o)) (o_rows N o) in let nb' := neighbour (map (valp N E) (o_pts N o')) (o_rows N o') in
  (forall p q, nb p q -> p <> valp N E r -> q <> valp N E r -> nb' p q) /\
  (forall p q, nb' p q -> ~ nb p q -> nb p (valp N E r) /\ nb q (valp N E r)) /\
  (forall p q, p <> valp N E r -> q <> valp N E r -> ~ nb p (valp N E r) -> (nb p q <-> nb' p q)).
Proof.
  intros A A' G0 G0' PS. destruct (exact_call N E w c P0 A G0) as (o & R & PP & F & _). destruct (exact_call N E w' c' P0' A' G0') as (o' & R' & PP' & F' & _). exists o, o'. split; [assumption|]. split; [assumption|]. cbv zeta.
  pose proof (generic_perm _ _ (Permutation_map (valp N E) PP) G0) as G. pose proof (generic_perm _ _ (Permutation_map (valp N E) PP') G0') as G'.
  pose proof (perm_cube N E P0 _ c A PP) as HC.
  assert (Q : Permutation (map (valp N E) (o_pts N o)) (valp N E r :: map (valp N E) (o_pts N o'))).
  { eapply Permutation_trans; [apply Permutation_map, Permutation_sym; exact PP|]. eapply Permutation_trans; [apply Permutation_map; exact PS|]. cbn [map]. apply perm_skip. apply Permutation_map. exact PP'. }
  split; [|split]; intros p q.
  - apply (kept_pairs _ _ _ _ G G' F F' (valp N E r) Q).
  - apply (new_around _ _ _ _ G G' F F' HC (valp N E r) Q).
  - apply (same_row _ _ _ _ G G' F F' HC (valp N E r) Q).
Qed.
