(** In generic position the neighbour relation is that of the Voronoi diagram,
    whatever the order of the points and the parameters are. *)
From Verif Require Import Base Arith PBase Prog MUtils MHeap MXyz MKnn MDnn MArgs MTess Exact PExact SpecGeom SpecVor SpecRows PGeomFinal PRecGeom PNoFailApi PExactApi.
From Coq Require Import Permutation.
From Verif Require Export SpecParam.
Local Open Scope Z_scope.

Lemma in_znth_iff {A} (l : list A) x : In x l <-> exists i, znth l i = Some x.
Proof. split; [intros H; apply in_znth in H as (i & _ & H); eauto|intros [i H]; eapply znth_in; eauto]. Qed.
Lemma nodup_znth {A} (l : list A) i j x : NoDup l -> znth l i = Some x -> znth l j = Some x -> i = j.
Proof.
  intros ND Hi Hj. pose proof (znth_some _ _ _ Hi). pose proof (znth_some _ _ _ Hj).
  assert (Z.to_nat i = Z.to_nat j); [|lia]. unfold znth in Hi, Hj. destruct (0 <=? i); [|discriminate]. destruct (0 <=? j); [|discriminate].
  apply (proj1 (NoDup_nth_error l) ND); [apply nth_error_Some|]; congruence.
Qed.

Lemma common_face_perm S S' p q : (forall r, In r S' -> In r S) -> common_face S p q -> common_face S' p q.
Proof. intros P (x & X1 & X2 & X3). exists x. split; [assumption|]. split; [assumption|]. intros r Hr. apply X3. auto. Qed.
Lemma touches_perm S S' p q x : (forall r, In r S' -> In r S) -> touches S p q x -> touches S' p q x.
Proof. intros P (X1 & X2 & X3). split; [assumption|]. split; [assumption|]. intros r Hr. apply X3. auto. Qed.
Lemma generic_perm S S' : Permutation S S' -> generic S -> generic S'.
Proof.
  intros P [G1 G2]. assert (I : forall r, In r S <-> In r S') by (intros r; split; apply Permutation_in; [assumption|now apply Permutation_sym]).
  split; [eapply Permutation_NoDup; eauto|]. intros p q x Hp Hq Ne T. apply (common_face_perm S); [intros r; apply I|]. apply (G2 p q x); [now apply I|now apply I|assumption|].
  apply (touches_perm S'); [intros r; apply I|assumption].
Qed.
Lemma common_face_sym S p q : common_face S p q -> common_face S q p.
Proof. intros (x & X1 & X2 & X3). exists x. split; [assumption|]. split; [now symmetry|]. intros r Hr N1 N2. rewrite <- X2. apply X3; assumption. Qed.
Lemma common_face_face S i j p q : NoDup S -> znth S i = Some p -> znth S j = Some q -> common_face S p q -> face S i j.
Proof.
  intros ND Ei Ej (x & X1 & X2 & X3). exists p, q, x. do 4 (split; [assumption|]). intros l r El Ni Nj. apply X3; [eapply znth_in; eauto| |];
    intros ->; [apply Ni; now apply (nodup_znth S l i p)|apply Nj; now apply (nodup_znth S l j q)].
Qed.

Section G.
Variable N : Arith.
Variable E : Exact N.
Notation valp := (valp N E).

Lemma complete_neighbours P0 o : complete N E P0 o -> generic (map valp P0) -> forall p q,
  neighbour (map valp (o_pts N o)) (o_rows N o) p q <-> In p (map valp P0) /\ In q (map valp P0) /\ p <> q /\ common_face (map valp P0) p q.
Proof.
  intros (PP & LR & LS & SH & EL & EX) G p q. set (S0 := map valp P0) in *. set (S := map valp (o_pts N o)) in *.
  assert (PS : Permutation S0 S) by (now apply Permutation_map). pose proof (generic_perm _ _ PS G) as [ND GS].
  assert (I : forall r, In r S0 <-> In r S) by (intros r; split; apply Permutation_in; [assumption|now apply Permutation_sym]). split.
  - intros (i & j & row & Ei & Ej & Er & Hj). destruct (EX i row Er) as ((_ & D & _) & T & _).
    destruct (D j Hj) as (p' & q' & Ei' & Ej' & Ne). assert (p' = p) by congruence. assert (q' = q) by congruence. subst p' q'.
    destruct (T j Hj) as (p' & q' & x & Ei'' & Ej'' & TT). assert (p' = p) by congruence. assert (q' = q) by congruence. subst p' q'.
    assert (Ip : In p S) by (eapply znth_in; eauto). assert (Iq : In q S) by (eapply znth_in; eauto).
    split; [now apply I|]. split; [now apply I|]. split; [assumption|]. apply (common_face_perm S); [intros r; apply I|]. exact (GS p q x Ip Iq Ne TT).
  - intros (Ip & Iq & Ne & CF). apply I in Ip, Iq. apply in_znth_iff in Ip as [i Ei]. apply in_znth_iff in Iq as [j Ej].
    assert (Hi : 0 <= i < zlen (o_rows N o)). { pose proof (znth_some _ _ _ Ei) as H. unfold S in H. rewrite zlen_map in H. rewrite LR. replace (zlen P0) with (zlen (o_pts N o)); [assumption|]. unfold zlen. now rewrite (Permutation_length PP). }
    destruct (znth_in_range _ _ Hi) as [row Er]. exists i, j, row. do 3 (split; [assumption|]). destruct (EX i row Er) as (_ & _ & FA & _). apply (FA j p q); try assumption.
    apply (common_face_face S i j p q); auto. apply (common_face_perm S0); [intros r; apply I|assumption].
Qed.

Notation enough := (enough N E).
Lemma enough_complete w c P0 : enough c P0 -> exists o, tess_core N w c cpu P0 = Ok o /\ complete N E P0 o.
Proof. intros [(A & R & K)|A]; [now apply api_complete|now apply full_complete]. Qed.

Lemma canon w c P0 : enough c P0 -> generic (map valp P0) -> exists o, tess_core N w c cpu P0 = Ok o /\ Permutation P0 (o_pts N o) /\
  forall p q, neighbour (map valp (o_pts N o)) (o_rows N o) p q <-> In p (map valp P0) /\ In q (map valp P0) /\ p <> q /\ common_face (map valp P0) p q.
Proof. intros A G. destruct (enough_complete w c P0 A) as (o & R & C). exists o. split; [assumption|]. split; [apply C|]. now apply complete_neighbours. Qed.

Lemma canon_perm w w' c c' P0 P0' : enough c P0 -> enough c' P0' -> Permutation P0 P0' -> generic (map valp P0) -> exists o o',
  tess_core N w c cpu P0 = Ok o /\ tess_core N w' c' cpu P0' = Ok o' /\
  forall p q, neighbour (map valp (o_pts N o)) (o_rows N o) p q <-> neighbour (map valp (o_pts N o')) (o_rows N o') p q.
Proof.
  intros A A' P G. destruct (enough_complete w c P0 A) as (o & R & C). destruct (enough_complete w' c' P0' A') as (o' & R' & C'). exists o, o'. split; [assumption|]. split; [assumption|].
  intros p q. assert (PS : Permutation (map valp P0) (map valp P0')) by (now apply Permutation_map).
  rewrite (complete_neighbours P0 o C G), (complete_neighbours P0' o' C' (generic_perm _ _ PS G)).
  assert (I : forall r, In r (map valp P0) <-> In r (map valp P0')) by (intros r; split; apply Permutation_in; [assumption|now apply Permutation_sym]).
  rewrite <- (I p), <- (I q). split; intros (X1 & X2 & X3 & X4); (split; [assumption|]; split; [assumption|]; split; [assumption|]); eapply common_face_perm; try exact X4; intros r; apply I.
Qed.

Lemma canon_sym w c P0 : enough c P0 -> generic (map valp P0) -> exists o, tess_core N w c cpu P0 = Ok o /\
  forall p q, neighbour (map valp (o_pts N o)) (o_rows N o) p q -> neighbour (map valp (o_pts N o)) (o_rows N o) q p.
Proof.
  intros A G. destruct (canon w c P0 A G) as (o & R & _ & C). exists o. split; [assumption|]. intros p q H. apply C in H as (X1 & X2 & X3 & X4). apply C.
  split; [assumption|]. split; [assumption|]. split; [congruence|]. now apply common_face_sym.
Qed.
Lemma canon_sym_index w c P0 : enough c P0 -> generic (map valp P0) -> exists o, tess_core N w c cpu P0 = Ok o /\
  forall i j ri rj, znth (o_rows N o) i = Some ri -> znth (o_rows N o) j = Some rj -> In j ri -> In i rj.
Proof.
  intros A G. destruct (enough_complete w c P0 A) as (o & R & C). exists o. split; [assumption|]. intros i j ri rj Ei Ej Hj.
  assert (C' := C). destruct C' as (PP & LR & _ & _ & _ & EX). pose proof (Permutation_map valp PP) as PS. pose proof (generic_perm _ _ PS G) as [ND _].
  destruct (EX i ri Ei) as ((_ & D & _) & _). destruct (D j Hj) as (p & q & Ep & Eq & Ne).
  assert (H : neighbour (map valp (o_pts N o)) (o_rows N o) p q) by (exists i, j, ri; auto).
  pose proof (complete_neighbours P0 o C G) as CN. apply CN in H as (X1 & X2 & X3 & X4).
  assert (H : neighbour (map valp (o_pts N o)) (o_rows N o) q p) by (apply CN; split; [assumption|]; split; [assumption|]; split; [congruence|]; now apply common_face_sym).
  destruct H as (j' & i' & r & Eq' & Ep' & Er & Hi). assert (j' = j) by (eapply nodup_znth; eauto). assert (i' = i) by (eapply nodup_znth; eauto). subst. congruence.
Qed.
End G.
