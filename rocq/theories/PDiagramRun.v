(** C98: the tables of whole calls. *)
From Verif Require Import Base Arith PBase MUtils MXyz MDnn MArgs MTess Exact Arith32 SpecGeom SpecSort SpecVor SpecRows SpecNear SpecDev SpecSpread SpecParam SpecApi SpecSingle SpecRobust SpecText SpecFace SpecFew SpecResult
  PExact PGrid PExactApi PCanon PDet PRobustCanon PRobustText PFewRun PDiagram.
From Coq Require Import Reals Permutation Lia.
Import SpecGeom.
Local Open Scope Z_scope.

Section Exact.
Variables (N : Arith) (E : Exact N).
Notation valp := (valp N E).

Lemma exact_face_rows S rows : zlen rows = zlen S -> generic S -> (forall i row, znth rows i = Some row -> exact_row S i row) -> face_rows S rows.
Proof.
  intros HL [ND G] HX. split; [assumption|]. intros i row Er. destruct (HX i row Er) as ((D1 & D2 & _) & T & F & _). split; [assumption|]. intros j. split.
  - intros Hj. destruct (D2 j Hj) as (p & q & Ei & Ej & Ne). destruct (T j Hj) as (p' & q' & x & Ei' & Ej' & TT). assert (p' = p) by congruence. assert (q' = q) by congruence. subst.
    split; [intros ->; congruence|]. apply (common_face_face S i j p q); auto. apply (G p q x); auto; eapply znth_in; eassumption.
  - intros [N0 FF]. pose proof FF as (p & q & x & Ei & Ej & _). apply (F j p q Ei Ej); [|exact FF]. intros ->. apply N0. exact (PCanon.nodup_znth S j i q ND Ej Ei).
Qed.
Lemma exact_call (w : world N) c P0 : enough N E c P0 -> generic (map valp P0) ->
  exists o, tess_core N w c cpu P0 = Ok o /\ Permutation P0 (o_pts N o) /\ face_rows (map valp (o_pts N o)) (o_rows N o) /\ diagram (map valp (o_pts N o)) (o_rows N o).
Proof.
  intros A G. destruct (enough_complete N E w c P0 A) as (o & R & (PP & LR & LS & SH & EL & EX)). exists o. split; [assumption|]. split; [assumption|].
  assert (HL : zlen (o_rows N o) = zlen (map valp (o_pts N o))) by (rewrite zlen_map, LR; unfold zlen; now rewrite (Permutation_length PP)).
  assert (G' : generic (map valp (o_pts N o))) by (eapply generic_perm; [apply Permutation_map; exact PP|assumption]).
  pose proof (exact_face_rows _ _ HL G' EX) as FR. split; [assumption|]. apply table_diagram; auto. exact (perm_cube N E P0 _ c A PP).
Qed.
(** general position is not needed to find a cell *)
Lemma exact_locate (w : world N) c P0 : enough N E c P0 ->
  exists o, tess_core N w c cpu P0 = Ok o /\ Permutation P0 (o_pts N o) /\ can_locate (map valp (o_pts N o)) (o_rows N o).
Proof.
  intros A. destruct (enough_complete N E w c P0 A) as (o & R & (PP & LR & LS & SH & EL & EX)). exists o. split; [assumption|]. split; [assumption|].
  apply locate; [rewrite zlen_map, LR; unfold zlen; now rewrite (Permutation_length PP)|]. intros i row Er. apply (EX i row Er).
Qed.
End Exact.

Lemma single_diagram (P0 P : list (point arith32)) rows : Forall open01p P0 -> all_robust (map real_pt P0) -> Permutation P0 P -> face_rows (map real_pt P) rows -> diagram (map real_pt P) rows.
Proof.
  intros HO HR PP FR. apply table_diagram; auto.
  - intros r Hr. apply in_map_iff in Hr as (q & <- & Iq). apply open_cube. rewrite Forall_forall in HO. apply HO. eapply Permutation_in; [apply Permutation_sym; exact PP|assumption].
  - apply FR.
  - eapply generic_perm; [apply Permutation_map; exact PP|]. now apply robust_generic.
Qed.
Lemma single_call c P0 (w : world arith32) M : few_cfg c (zlen P0) M -> Forall open01p P0 -> all_robust (map real_pt P0) -> few_near eps20 (map real_pt P0) M ->
  exists o, tess_core arith32 w c cpu P0 = Ok o /\ Permutation P0 (o_pts arith32 o) /\ face_rows (map real_pt (o_pts arith32 o)) (o_rows arith32 o) /\ diagram (map real_pt (o_pts arith32 o)) (o_rows arith32 o).
Proof.
  intros A HO HR F. destruct (few_core c P0 w M A HO HR F) as (o & R & SS & FR & _). exists o. destruct SS as [PP _]. split; [assumption|]. split; [assumption|]. split; [assumption|]. now apply (single_diagram P0).
Qed.
Lemma device_call c P0 (w : world arith32) r M M' : float_cfg c (zlen P0) -> c_k c < zlen P0 -> c_recompute c = false -> Forall open01p P0 -> all_robust (map real_pt P0) ->
  covered (map real_pt P0) r -> crowd (map real_pt P0) (r + eps20 / 2) M' -> M' <= c_k c -> few_near eps20 (map real_pt P0) M -> roomy c M -> dev_ok c (zlen P0) -> w_gpu arith32 w = true ->
  exists o, tess_core arith32 w c gpu P0 = Ok o /\ Permutation P0 (o_pts arith32 o) /\ face_rows (map real_pt (o_pts arith32 o)) (o_rows arith32 o) /\ diagram (map real_pt (o_pts arith32 o)) (o_rows arith32 o).
Proof.
  intros HC Kn Rc HO HR Cv Cr HM Few Ro HD HG. destruct (spread_gpu c P0 w r M M' HC Kn Rc HO HR Cv Cr HM Few Ro HD HG) as (o & R & SS & FR & _). exists o. destruct SS as [PP _]. split; [assumption|]. split; [assumption|]. split; [assumption|]. now apply (single_diagram P0).
Qed.
