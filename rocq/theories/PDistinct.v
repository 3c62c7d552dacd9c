(** Exact arithmetic: the candidates that get a plane lie at different positions,
    and none at the position of the seed. *)
From Verif Require Import Base Arith PBase Prog PProg MUtils MHeap MXyz MKnn MBoundary MCell MDnn MArgs MTess Exact PExact PFlags SpecDnn PDnn SpecGeom SpecSort SpecBnd SpecKnn SpecVor
  PXyz PGrid PSortFinal PHeap PReloc PHeapFinal PKnnFinal PBnd PBndLoop PCellSim PCellRun PCell PCellRow PKnnSafe PSlot PWalk SpecSlot PSlotHost PTess PTessRun PTessFinal
  PGeomCone PGeomPoly PGeomWalk PGeomFinal.
From Coq Require Import Psatz.
Local Open Scope R_scope.

Section G.
Variable N : Arith.
Variable E : Exact N.
Notation valp := (valp N E).
Notation finp := (finp N E).
Notation point := (point N).
Notation n s := (zlen (cP N s)).
Notation region := (region N E).

Section Walk.
Variables (pmax tmax : Z) (pts : Z -> option point) (K : list Z) (p : point).
Hypothesis Hpm : (pmax <= 255)%Z.
Hypothesis Fp : finp p.
Hypothesis Fpts : forall q qp, In q K -> pts q = Some qp -> finp qp.
Notation P := (valp p).
Notation cand := (cand N E pts K).

(** what a candidate does to the labels *)
Lemma label_step q qp nb s o s' : znth K nb = Some q -> pts q = Some qp -> clipped N E P s -> nb_rel N pmax tmax p qp nb s o s' ->
  cD N s' = cD N s \/ (cD N s' = zupd (cD N s) nb (n s) /\ exists x, region s x /\ d2 x (valp qp) < d2 x P).
Proof.
  intros Hq Hqp C R. assert (Fq : finp qp) by (apply (Fpts q); [eapply znth_in; eauto|assumption]).
  inversion R as [Kp V Sp PV E1 E2|Kp R0 V CC h rest Sp PV NE Lp LC OC LR EI Lt E1 E2|Kp R0 Sp NE Lp E1 E2|Kp R0 CC Sp NE Lp LC ST E1 E2|Kp R0 CC h rest Sp NE Lp LC OC LR EI Lt E1 E2];
    [now left| |now left..].
  right. simpl. split; [reflexivity|]. destruct R0 as [|t R0]; [congruence|]. destruct Sp as (PK & _ & FR).
  assert (It : In t (cT N s)) by (eapply Permutation_in; [exact PK|apply in_or_app; right; now left]).
  destruct (sf_feas _ _ _ _ (cl_surf _ _ _ _ C) t It) as (x & Vx & Fx). exists x. split; [exact Fx|].
  inversion FR as [|a l Hr _]; subst. apply (removed_exact N E p s t x _ C It Vx (bisect_fin N E qp p Fq Fp)) in Hr.
  rewrite bis_ev in Hr by assumption. lra.
Qed.

Definition dinv (s : cst N) : Prop :=
  (forall d l q, znth (cD N s) d = Some l -> l <> k_undefined -> cand d q -> q <> P) /\
  (forall d d' l l' q, znth (cD N s) d = Some l -> znth (cD N s) d' = Some l' -> l <> k_undefined -> l' <> k_undefined -> cand d q -> cand d' q -> d = d') /\
  (forall d l q, znth (cD N s) d = Some l -> l <> k_undefined -> cand d q -> forall d', (0 <= d' < d)%Z -> ~ cand d' q).

Lemma walk_dinv k : forall m j s o s', Z.to_nat (k - j) = m -> (0 <= j <= k)%Z -> zlen (cD N s) = k -> linv N pts K p j s -> (6 <= n s)%Z -> clipped N E P s ->
  (forall y d q, region s y -> (0 <= d < j)%Z -> cand d q -> d2 y P <= d2 y q) -> dinv s ->
  walk N pmax tmax pts K p (zrange j k) s o s' -> ok_out o = true -> dinv s'.
Proof.
  induction m as [|m IH]; intros j s o s' Hm Hj HD I L6 C HN DI W OK.
  - rewrite zrange_nil in W by lia. inversion W; subst. assumption.
  - assert (U : forall q qp x, znth K j = Some q -> pts q = Some qp -> cand j x -> x = valp qp).
    { intros q qp x Eq Ep (q' & qp' & Eq' & Ep' & ->). congruence. }
    assert (ST : forall q qp o1 s1, znth K j = Some q -> pts q = Some qp -> nb_rel N pmax tmax p qp j s o1 s1 -> dinv s1).
    { intros q qp o1 s1 Hq Hqp R. destruct (label_step q qp j s o1 s1 Hq Hqp C R) as [Ed|(Ed & x & Rx & Lx)]; [unfold dinv; rewrite Ed; exact DI|].
      destruct DI as (D1 & D2 & D3). destruct I as (A & _).
      assert (OLD : forall d l, znth (cD N s) d = Some l -> l <> k_undefined -> (0 <= d < j)%Z).
      { intros d l Hd Nl. pose proof (znth_some _ _ _ Hd). destruct (A d l Hd) as [->|(Q & _)]; [congruence|lia]. }
      assert (NEW : forall d l, znth (cD N s1) d = Some l -> l <> k_undefined -> d = j \/ (znth (cD N s) d = Some l /\ (0 <= d < j)%Z)).
      { intros d l Hd Nl. destruct (Z.eq_dec d j) as [->|Nd]; [now left|right]. rewrite Ed, znth_zupd_other in Hd by auto. split; [assumption|eauto]. }
      assert (NEQ : forall d x', (0 <= d < j)%Z -> cand d x' -> x' <> valp qp).
      { intros d x' Hd Hc ->. specialize (HN x d (valp qp) Rx Hd Hc). lra. }
      split; [|split].
      - intros d l x' Hd Nl Hc. destruct (NEW d l Hd Nl) as [->|[Hd' _]]; [|eapply D1; eauto].
        rewrite (U q qp x' Hq Hqp Hc). intros X. rewrite X in Lx. lra.
      - intros d d' l l' x' Hd Hd' Nl Nl' Hc Hc'.
        destruct (NEW d l Hd Nl) as [->|[Hd1 R1]], (NEW d' l' Hd' Nl') as [->|[Hd2 R2]]; [reflexivity| | |eapply D2; eauto].
        + exfalso. apply (NEQ d' x' R2 Hc'). exact (U q qp x' Hq Hqp Hc).
        + exfalso. apply (NEQ d x' R1 Hc). exact (U q qp x' Hq Hqp Hc').
      - intros d l x' Hd Nl Hc d' Hd' Hc'. destruct (NEW d l Hd Nl) as [->|[Hd1 R1]]; [|exact (D3 d l x' Hd1 Nl Hc d' Hd' Hc')].
        apply (NEQ d' x' Hd' Hc'). exact (U q qp x' Hq Hqp Hc). }
    rewrite zrange_cons in W by lia. inversion W as [|nb nbs q qp s0 s1 o0 s2 Hq Hqp R W'|nb nbs q qp s0 o0 s1 Hq Hqp R No]; subst.
    + destruct (linv_step N pmax tmax pts K p j q qp s Cont s1 ltac:(lia) Hq Hqp I R) as [I1 L1].
      destruct (clip_step N E pmax tmax p Hpm Fp qp j s Cont s1 (Fpts q qp (znth_in _ _ _ Hq) Hqp) L6 C R eq_refl) as (C1 & L2 & M1 & _).
      apply (IH (j + 1)%Z s1 o s'); auto; try lia; [|eapply ST; eauto].
      intros y d x Hy Hd Hc. destruct (Z.eq_dec d j) as [->|]; [rewrite (U q qp x Hq Hqp Hc); now apply M1|]. apply (HN y d); auto; [now apply M1|lia].
    + eapply ST; eauto.
Qed.
End Walk.

(** a row: entries at different positions *)
Lemma combine_nth {A B} (a : list A) (b : list B) m x y : nth_error (combine a b) m = Some (x, y) -> nth_error a m = Some x /\ nth_error b m = Some y.
Proof. revert b m. induction a as [|u a IH]; intros [|v b] [|m] H; simpl in *; try discriminate; [injection H as -> ->; auto|eauto]. Qed.
Lemma filter_nodup {A B} (f : A -> bool) (g : A -> B) (l : list A) :
  (forall m m' x y, nth_error l m = Some x -> nth_error l m' = Some y -> f x = true -> f y = true -> g x = g y -> m = m') -> NoDup (map g (filter f l)).
Proof.
  induction l as [|a l IH]; intros H; simpl; [constructor|].
  assert (T : NoDup (map g (filter f l))).
  { apply IH. intros m m' x y H1 H2 F1 F2 G. assert (Datatypes.S m = Datatypes.S m') by (eapply (H (Datatypes.S m) (Datatypes.S m')); eauto). congruence. }
  destruct (f a) eqn:Fa; [|assumption]. simpl. constructor; [|assumption]. intros I. apply in_map_iff in I as (y & Gy & Iy). apply filter_In in Iy as [Iy Fy].
  apply In_nth_error in Iy as [m Hm]. specialize (H 0%nat (Datatypes.S m) a y eq_refl Hm Fa Fy (eq_sym Gy)). discriminate.
Qed.

Lemma filter_order {A} (f : A -> bool) (l : list A) a b x y : (0 <= a <= b)%Z -> znth (filter f l) a = Some x -> znth (filter f l) b = Some y ->
  exists m m', (m <= m')%nat /\ nth_error l m = Some x /\ nth_error l m' = Some y /\ f x = true /\ f y = true.
Proof.
  intros Hab Ha Hb. unfold znth in *. replace (0 <=? a)%Z with true in Ha by lia. replace (0 <=? b)%Z with true in Hb by lia.
  assert (H : (Z.to_nat a <= Z.to_nat b)%nat) by lia. revert Ha Hb H. generalize (Z.to_nat a), (Z.to_nat b). clear.
  assert (G : forall (l : list A) n z, nth_error (filter f l) n = Some z -> exists m, nth_error l m = Some z /\ f z = true).
  { intros l0 n z H. apply nth_error_In in H. apply filter_In in H as [H F]. apply In_nth_error in H as [m H]. eauto. }
  induction l as [|u l IH]; intros n n' Ha Hb H; simpl in *; [destruct n; discriminate|]. destruct (f u) eqn:Fu.
  - destruct n as [|n].
    + simpl in Ha. injection Ha as <-. destruct n' as [|n'].
      * simpl in Hb. injection Hb as <-. exists 0%nat, 0%nat. auto.
      * simpl in Hb. destruct (G _ _ _ Hb) as (m & Hm & Fm). exists 0%nat, (Datatypes.S m). split; [lia|]. auto.
    + destruct n' as [|n']; [lia|]. simpl in Ha, Hb. destruct (IH n n' Ha Hb ltac:(lia)) as (m & m' & Q & A1 & A2 & A3). exists (Datatypes.S m), (Datatypes.S m'). split; [lia|]. auto.
  - destruct (IH n n' Ha Hb H) as (m & m' & Q & A1 & A2 & A3). exists (Datatypes.S m), (Datatypes.S m'). split; [lia|]. auto.
Qed.

Section Slot.
Variables (pmax tmax : Z) (pts : list point) (k index : Z) (K : list Z) (p : point) (o : nbout) (s : cst N).
Hypothesis Hpm : (pmax <= 255)%Z.
Hypothesis Hin : forall q, In q pts -> inside N E q.
Hypothesis Hp : znth pts index = Some p.
Hypothesis Hk : (0 < k)%Z.
Hypothesis HK : forall q, In q K -> (0 <= q < zlen pts)%Z.
Hypothesis HW : walk N pmax tmax (znth pts) K p (zrange 0 k) (cst0 N (repeat k_undefined (Z.to_nat k))) o s.
Hypothesis Hok : ok_out o = true.
Notation P := (valp p).

Lemma slot_distinct : NoDup (row_of N K s) /\
  (forall j q, In j (row_of N K s) -> znth pts j = Some q -> valp q <> P) /\
  (forall j j' q q', In j (row_of N K s) -> In j' (row_of N K s) -> znth pts j = Some q -> znth pts j' = Some q' -> valp q = valp q' -> j = j') /\
  (forall a b j j', (0 <= a <= b)%Z -> znth (row_of N K s) a = Some j -> znth (row_of N K s) b = Some j' ->
     exists d d', (0 <= d <= d')%Z /\ (znth K d = Some j /\ forall e, (0 <= e < d)%Z -> znth K e <> Some j) /\ (znth K d' = Some j' /\ forall e, (0 <= e < d')%Z -> znth K e <> Some j')).
Proof.
  assert (Fp : finp p) by (apply Hin; eapply znth_in; eauto).
  assert (Cp : in_cube P). { assert (H : in_open_cube P) by (apply Hin; eapply znth_in; eauto). destruct P as [[a b] c]. simpl in *. lra. }
  assert (HF : forall q qp, In q K -> znth pts q = Some qp -> finp qp) by (intros q qp _ H; apply Hin; eapply znth_in; eauto).
  set (s0 := cst0 N (repeat k_undefined (Z.to_nat k))) in *.
  assert (L0 : zlen (cD N s0) = k) by (change (zlen (repeat k_undefined (Z.to_nat k)) = k); rewrite zlen_repeat; lia).
  assert (C0 : clipped N E P s0) by (apply clipped0; exact Cp).
  assert (N6 : n s0 = 6%Z) by reflexivity.
  assert (UD : forall d l, znth (cD N s0) d = Some l -> l = k_undefined).
  { intros d l H. apply znth_in in H. simpl in H. now apply repeat_spec in H. }
  destruct (walk_dinv pmax tmax (znth pts) K p Hpm Fp HF k (Z.to_nat (k - 0)) 0%Z s0 o s) as (D1 & D2 & D3); auto; try lia.
  { apply linv0. }
  { split; [intros d l q Hd Nl; apply UD in Hd; congruence|split; [intros d d' l l' q Hd _ Nl; apply UD in Hd; congruence|intros d l q Hd Nl; apply UD in Hd; congruence]]. }
  destruct (walk_geom N E pmax tmax (znth pts) K p Hpm Fp HF (zrange 0 k) s0 o s ltac:(lia) C0 HW Hok) as (C1 & _).
  pose proof (cl_surf _ _ _ _ C1) as SF.
  assert (US : forall l, used (cT N s) l = true -> l <> k_undefined).
  { intros l U. apply used_label in U as (t & It & Lt). pose proof (label_lt _ _ _ (sf_ok _ _ _ _ SF t It) Lt). unfold k_undefined. lia. }
  assert (ZN : forall (A : Type) (l : list A) m x, nth_error l m = Some x -> znth l (Z.of_nat m) = Some x).
  { intros A l m x H. unfold znth. destruct (Z.leb_spec 0 (Z.of_nat m)); [|lia]. now rewrite Nat2Z.id. }
  assert (ENT : forall j, In j (row_of N K s) -> exists d l, znth K d = Some j /\ znth (cD N s) d = Some l /\ l <> k_undefined).
  { intros j Hj. unfold row_of in Hj. apply in_map_iff in Hj as ([q l] & <- & Hj). apply filter_In in Hj as [Hj U]. apply In_nth_error in Hj as [m Hm].
    apply combine_nth in Hm as [H1 H2]. exists (Z.of_nat m), l. auto. }
  split; [|split; [|split]].
  - unfold row_of. apply filter_nodup. intros m m' [q l] [q' l'] H1 H2 U1 U2 Eq. simpl in Eq. subst q'.
    apply combine_nth in H1 as [H1 H1']. apply combine_nth in H2 as [H2 H2'].
    assert (Rq : (0 <= q < zlen pts)%Z) by (apply HK; eapply nth_error_In; eauto). destruct (znth_in_range pts q Rq) as [qp Eqp].
    assert (Z.of_nat m = Z.of_nat m'); [|lia]. apply (D2 (Z.of_nat m) (Z.of_nat m') l l' (valp qp)); auto; exists q, qp; auto.
  - intros j q Hj Ej. destruct (ENT j Hj) as (d & l & H1 & H2 & H3). apply (D1 d l); auto. exists j, q. auto.
  - intros j j' q q' Hj Hj' Ej Ej' Eq. destruct (ENT j Hj) as (d & l & H1 & H2 & H3). destruct (ENT j' Hj') as (d' & l' & H1' & H2' & H3').
    assert (d = d'). { apply (D2 d d' l l' (valp q)); auto; [exists j, q; auto|exists j', q'; auto]. } subst d'. congruence.
  - intros a b j j' Hab Ha Hb. unfold row_of in Ha, Hb. rewrite znth_map in Ha, Hb.
    destruct (znth (filter _ _) a) as [[u l]|] eqn:Fa; [|discriminate]. destruct (znth (filter _ _) b) as [[u' l']|] eqn:Fb; [|discriminate]. injection Ha as <-. injection Hb as <-.
    destruct (filter_order _ _ a b _ _ Hab Fa Fb) as (m & m' & Hmm & H1 & H2 & U1 & U2). apply combine_nth in H1 as [H1 H1']. apply combine_nth in H2 as [H2 H2'].
    assert (FST : forall m q l, nth_error K m = Some q -> nth_error (cD N s) m = Some l -> used (cT N s) l = true -> forall e, (0 <= e < Z.of_nat m)%Z -> znth K e <> Some q).
    { intros m0 q l0 X1 X2 X3 e He X4. assert (Rq : (0 <= q < zlen pts)%Z) by (apply HK; eapply nth_error_In; eauto). destruct (znth_in_range pts q Rq) as [qp Eqp].
      apply (D3 (Z.of_nat m0) l0 (valp qp) (ZN _ _ _ _ X2) (US _ X3)) with (d' := e); auto; exists q, qp; auto. }
    exists (Z.of_nat m), (Z.of_nat m'). split; [lia|]. split; (split; [now apply ZN|]); eapply FST; eauto.
Qed.
End Slot.
End G.
