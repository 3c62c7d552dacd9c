(** C83: single precision gives the neighbours of exact arithmetic. *)
From Verif Require Import Base Arith Exact PBase Prog MUtils MXyz MTess MDnn SpecPoints SpecGeom SpecVor SpecRows SpecNear SpecHeap SpecAny
  PCanon ArithR Arith32 PFloat PFloatRows PRobust PRobustRun PRobustFace PCert.
From Coq Require Import Reals Lra Permutation.
From Verif Require Export SpecSingle SpecRobust SpecParam SpecCert.
Import SpecGeom.
Local Open Scope Z_scope.

Lemma robust_row S i rho row : robust S i rho -> 0 <= i < zlen S -> exact_cell S i row -> forall j, In j row <-> j <> i /\ face S i j.
Proof.
  intros HR Hi (ND & Ni & T & F & _) j. destruct (znth_in_range S i Hi) as [p Ep]. split.
  - intros Ij. assert (Nj : j <> i) by (intros ->; contradiction). split; [exact Nj|]. destruct (T j Ij) as (p' & q & x & Ep' & Eq & TT). rewrite Ep in Ep'. injection Ep' as <-.
    apply (robust_face S i rho p Ep HR j q x); [split; [now apply znth_some in Eq|exact Nj]|exact Eq|exact TT].
  - intros (Nj & FA). pose proof FA as (p' & q & x & Ep' & Eq & _). rewrite Ep in Ep'. injection Ep' as <-. apply (F j p q); try assumption.
    intros ->. destruct HR as (R0 & R1 & _). pose proof (znth_some _ _ _ Eq) as Rj. pose proof (R1 j q q (conj Rj Nj) Ep Eq) as D. destruct q as [[a b] c]. unfold d2 in D.
    replace ((a - a) ^ 2 + (b - b) ^ 2 + (c - c) ^ 2)%R with 0%R in D by ring. rewrite sqrt_0 in D. lra.
Qed.
Lemma robust_generic S : (forall i, 0 <= i < zlen S -> exists rho, robust S i rho) -> generic S.
Proof.
  intros HR. assert (DI : forall i j p, znth S i = Some p -> znth S j = Some p -> i = j).
  { intros i j p Ei Ej. destruct (Z.eq_dec j i) as [->|N]; [reflexivity|exfalso]. pose proof (znth_some _ _ _ Ei) as Ri. pose proof (znth_some _ _ _ Ej) as Rj. destruct (HR i Ri) as (rho & R0 & R1 & _). pose proof (R1 j p p (conj Rj N) Ei Ej) as D.
    destruct p as [[a b] c]. unfold d2 in D. replace ((a - a) ^ 2 + (b - b) ^ 2 + (c - c) ^ 2)%R with 0%R in D by ring. rewrite sqrt_0 in D. lra. }
  split.
  - apply NoDup_nth_error. intros a b Ha E. assert (X : exists p, nth_error S a = Some p) by (destruct (nth_error S a) eqn:Q; [eauto|apply nth_error_None in Q; lia]). destruct X as [p X].
    assert (Z.of_nat a = Z.of_nat b); [|lia]. apply (DI _ _ p); unfold znth; rewrite Nat2Z.id; rewrite (proj2 (Z.leb_le 0 _) (Nat2Z.is_nonneg _)); congruence.
  - intros p q x Ip Iq Ne T. apply in_znth_iff in Ip as [i Ei]. apply in_znth_iff in Iq as [j Ej]. pose proof (znth_some _ _ _ Ei) as Ri. pose proof (znth_some _ _ _ Ej) as Rj.
    destruct (HR i Ri) as (rho & Hrob). destruct (robust_face S i rho p Ei Hrob j q x) as (p' & q' & y & E1 & E2 & Y1 & Y2 & Y3); [split; [exact Rj|intros ->; congruence]|exact Ej|exact T|].
    assert (p' = p) by congruence. assert (q' = q) by congruence. subst p' q'. exists y. split; [exact Y1|]. split; [exact Y2|]. intros r Ir N1 N2. apply in_znth_iff in Ir as [l El]. apply (Y3 l r El); congruence.
Qed.

Section C.
Variables (c : cfg) (P0 : list (point arith32)) (w : world arith32).
Hypothesis HF : float_ok c P0.
Hypothesis Kn : c_k c < zlen P0.
Hypothesis Ro : roomy c (zlen P0 - 1).
Hypothesis Hk : c_recompute c = true \/ zlen P0 - 1 <= c_k c.
Hypothesis HR : forall i, 0 <= i < zlen P0 -> exists rho, robust (map real_pt P0) i rho.

Lemma robust_neighbours : exists o, tess_core arith32 w c cpu P0 = Ok o /\ Permutation P0 (o_pts arith32 o) /\
  (forall i row b, znth (o_rows arith32 o) i = Some row -> znth (o_states arith32 o) i = Some b -> errorless b /\ NoDup row /\ forall j, In j row <-> j <> i /\ face (map real_pt (o_pts arith32 o)) i j) /\
  forall p q, neighbour (map real_pt (o_pts arith32 o)) (o_rows arith32 o) p q <->
    In p (map real_pt P0) /\ In q (map real_pt P0) /\ p <> q /\ common_face (map real_pt P0) p q.
Proof.
  destruct (robust_all c P0 HF Kn w Ro Hk HR) as (o & R & PP & L1 & L2 & H). exists o. split; [exact R|]. split; [exact PP|].
  set (S0 := map real_pt P0) in *. set (S := map real_pt (o_pts arith32 o)) in *. assert (PS : Permutation S0 S) by (now apply Permutation_map).
  assert (LS : zlen S = zlen P0) by (unfold S; rewrite zlen_map; unfold zlen; now rewrite (Permutation_length PP)).
  assert (HRS : forall i, 0 <= i < zlen S -> exists rho, robust S i rho).
  { apply (robust_perm S0 S PS). intros i Hi. apply HR. unfold S0 in Hi. now rewrite zlen_map in Hi. }
  assert (ROW : forall i row, znth (o_rows arith32 o) i = Some row -> exact_cell S i row /\ forall j, In j row <-> j <> i /\ face S i j).
  { intros i row Er. pose proof (znth_some _ _ _ Er) as Hi. rewrite L1 in Hi. destruct (znth_in_range (o_states arith32 o) i) as [b Eb]; [lia|]. destruct (H i row b Er Eb) as [_ EC]. split; [exact EC|].
    destruct (HRS i) as [rho Hrob]; [lia|]. apply (robust_row S i rho row Hrob ltac:(lia) EC). }
  split.
  { intros i row b Er Eb. destruct (ROW i row Er) as [EC RW]. split; [now destruct (H i row b Er Eb)|]. split; [apply EC|exact RW]. }
  pose proof (robust_generic S HRS) as [ND GS]. assert (I : forall r, In r S0 <-> In r S) by (intros r; split; apply Permutation_in; [assumption|now apply Permutation_sym]).
  intros p q. split.
  - intros (i & j & row & Ei & Ej & Er & Ij). destruct (ROW i row Er) as [(_ & _ & T & _) RW]. destruct (proj1 (RW j) Ij) as [Nj _]. destruct (T j Ij) as (p' & q' & x & Ei' & Ej' & TT).
    assert (p' = p) by congruence. assert (q' = q) by congruence. subst p' q'. assert (Ne : p <> q) by (intros ->; apply Nj; exact (nodup_znth S j i q ND Ej Ei)).
    assert (Ip : In p S) by (eapply znth_in; eauto). assert (Iq : In q S) by (eapply znth_in; eauto).
    split; [now apply I|]. split; [now apply I|]. split; [exact Ne|]. apply (common_face_perm S); [intros r; apply I|]. exact (GS p q x Ip Iq Ne TT).
  - intros (Ip & Iq & Ne & CF). apply I in Ip, Iq. apply in_znth_iff in Ip as [i Ei]. apply in_znth_iff in Iq as [j Ej].
    assert (Hi : 0 <= i < zlen (o_rows arith32 o)) by (pose proof (znth_some _ _ _ Ei); lia).
    destruct (znth_in_range _ _ Hi) as [row Er]. exists i, j, row. do 3 (split; [assumption|]). destruct (ROW i row Er) as [_ RW]. apply RW. split; [intros ->; congruence|].
    apply (common_face_face S i j p q); auto. apply (common_face_perm S0); [intros r; apply I|assumption].
Qed.

(** the same neighbours as any exact arithmetic, whatever grid, k and order it is given *)
Lemma robust_as_exact N (E : Exact N) (w' : world N) c' P0' : Permutation (map real_pt P0) (map (valp N E) P0') -> enough N E c' P0' -> exists o o', tess_core arith32 w c cpu P0 = Ok o /\ tess_core N w' c' cpu P0' = Ok o' /\
  forall p q, neighbour (map real_pt (o_pts arith32 o)) (o_rows arith32 o) p q <-> neighbour (map (valp N E) (o_pts N o')) (o_rows N o') p q.
Proof.
  intros PS EN. destruct robust_neighbours as (o & R & _ & _ & NB).
  assert (G : generic (map real_pt P0)) by (apply robust_generic; intros i Hi; rewrite zlen_map in Hi; now apply HR).
  destruct (canon N E w' c' P0' EN (generic_perm _ _ PS G)) as (o' & R' & _ & NB'). exists o, o'. split; [exact R|]. split; [exact R'|]. intros p q. rewrite NB, NB'.
  assert (I : forall r, In r (map real_pt P0) <-> In r (map (valp N E) P0')) by (intros r; split; apply Permutation_in; [assumption|now apply Permutation_sym]).
  rewrite <- (I p), <- (I q). split; intros (X1 & X2 & X3 & X4); (split; [assumption|]; split; [assumption|]; split; [assumption|]); eapply common_face_perm; try exact X4; intros r; apply I.
Qed.
Lemma robust_symmetric : exists o, tess_core arith32 w c cpu P0 = Ok o /\
  forall i j ri rj, znth (o_rows arith32 o) i = Some ri -> znth (o_rows arith32 o) j = Some rj -> In j ri -> In i rj.
Proof.
  destruct (robust_all c P0 HF Kn w Ro Hk HR) as (o' & R' & PP' & L1 & L2 & H').
  destruct robust_neighbours as (o & R & PP & RW & NB). rewrite R' in R. injection R as ->. exists o. split; [exact R'|]. intros i j ri rj Ei Ej Ij.
  pose proof (znth_some _ _ _ Ei) as Hi. pose proof (znth_some _ _ _ Ej) as Hj.
  destruct (znth_in_range (o_states arith32 o) i) as [bi Ebi]; [lia|]. destruct (znth_in_range (o_states arith32 o) j) as [bj Ebj]; [lia|].
  apply (RW i ri bi Ei Ebi) in Ij as [Nj (p & q & x & E1 & E2 & X1 & X2 & X3)]. apply (RW j rj bj Ej Ebj). split; [congruence|].
  exists q, p, x. do 3 (split; [assumption|]). split; [now symmetry|]. intros l r El N1 N2. rewrite <- X2. now apply (X3 l r El).
Qed.
End C.

(** two single-precision calls on the same points in any order, with any parameters *)
Lemma robust_perm_calls (w w' : world arith32) c c' P0 P0' : Permutation P0 P0' -> float_ok c P0 -> float_ok c' P0' -> c_k c < zlen P0 -> c_k c' < zlen P0 ->
  roomy c (zlen P0 - 1) -> roomy c' (zlen P0 - 1) -> (c_recompute c = true \/ zlen P0 - 1 <= c_k c) -> (c_recompute c' = true \/ zlen P0 - 1 <= c_k c') ->
  (forall i, 0 <= i < zlen P0 -> exists rho, robust (map real_pt P0) i rho) ->
  exists o o', tess_core arith32 w c cpu P0 = Ok o /\ tess_core arith32 w' c' cpu P0' = Ok o' /\
  forall p q, neighbour (map real_pt (o_pts arith32 o)) (o_rows arith32 o) p q <-> neighbour (map real_pt (o_pts arith32 o')) (o_rows arith32 o') p q.
Proof.
  intros PP HF HF' Kn Kn' Ro Ro' Hk Hk' HR. assert (LE : zlen P0' = zlen P0) by (unfold zlen; now rewrite (Permutation_length PP)).
  assert (PS : Permutation (map real_pt P0) (map real_pt P0')) by (now apply Permutation_map).
  destruct (robust_neighbours c P0 w HF Kn Ro Hk HR) as (o & R & _ & _ & NB).
  destruct (robust_neighbours c' P0' w' HF') as (o' & R' & _ & _ & NB'); try (rewrite LE; assumption).
  { intros i Hi. apply (robust_perm _ _ PS); [|now rewrite zlen_map]. intros i' Hi'. rewrite zlen_map in Hi'. now apply HR. }
  exists o, o'. split; [exact R|]. split; [exact R'|]. intros p q. rewrite NB, NB'.
  assert (I : forall r, In r (map real_pt P0) <-> In r (map real_pt P0')) by (intros r; split; apply Permutation_in; [assumption|now apply Permutation_sym]).
  rewrite <- (I p), <- (I q). split; intros (X1 & X2 & X3 & X4); (split; [assumption|]; split; [assumption|]; split; [assumption|]); eapply common_face_perm; try exact X4; intros r; apply I.
Qed.

Lemma checked_neighbours c P0 (w : world arith32) U S : float_ok c P0 -> c_k c < zlen P0 -> roomy c (zlen P0 - 1) -> (c_recompute c = true \/ zlen P0 - 1 <= c_k c) ->
  0 < U -> map real_pt P0 = map (upt U) S -> certs U S = true ->
  exists o, tess_core arith32 w c cpu P0 = Ok o /\ Permutation P0 (o_pts arith32 o) /\
  (forall i row b, znth (o_rows arith32 o) i = Some row -> znth (o_states arith32 o) i = Some b -> errorless b /\ NoDup row /\ forall j, In j row <-> j <> i /\ face (map real_pt (o_pts arith32 o)) i j) /\
  forall p q, neighbour (map real_pt (o_pts arith32 o)) (o_rows arith32 o) p q <->
    In p (map real_pt P0) /\ In q (map real_pt P0) /\ p <> q /\ common_face (map real_pt P0) p q.
Proof.
  intros HF Kn Ro Hk HU EQ HC. apply (robust_neighbours c P0 w HF Kn Ro Hk). intros i Hi. rewrite EQ. apply (certs_robust U S HU HC).
  rewrite <- (zlen_map real_pt P0), EQ, zlen_map in Hi. exact Hi.
Qed.
