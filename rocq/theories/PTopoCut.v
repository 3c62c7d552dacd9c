(** The cycle stored by boundary::compute as the boundary of a part of a closed
    surface: some triangle can always be merged; potentials survive a cut. *)
From Verif Require Import Base PBase MCell SpecBnd PBnd PBndLoop PCellRun PGeomCone PGeomPoly PTopo.

Definition csucc (C : list Z) (u v : Z) : Prop := znth C u = Some v /\ v <> 255.

Lemma chain_fwd C (Q : Z -> Prop) : (forall a b, znth C a = Some b -> b <> 255 -> Q a -> Q b) ->
  forall l a z, chain C a l z -> (forall y, In y l -> y <> 255) -> Q a -> forall y, In y (a :: l) -> Q y.
Proof.
  intros HQ. induction l as [|b l IH]; intros a z H NU Qa y Hy.
  - destruct Hy as [<-|[]]. assumption.
  - destruct H as [H1 H2]. destruct Hy as [<-|Hy]; [assumption|]. apply (IH b z); auto; [intros y' Hy'; apply NU; now right|].
    apply (HQ a b); auto. apply NU. now left.
Qed.
Lemma chain_bwd C (Q : Z -> Prop) : (forall a b, znth C a = Some b -> Q b -> Q a) ->
  forall l a z, chain C a l z -> Q z -> forall y, In y (a :: l) -> Q y.
Proof.
  intros HQ. induction l as [|b l IH]; intros a z H Qz y Hy.
  - destruct Hy as [<-|[]]. simpl in H. eauto.
  - destruct H as [H1 H2]. destruct Hy as [<-|Hy]; [apply (HQ a b H1); apply (IH b z H2 Qz); now left|]. apply (IH b z); eauto.
Qed.

Section Ring.
Variables (C : list Z) (h : Z) (rest : list Z).
Hypothesis HL : zlen C <= 255.
Hypothesis HC : one_cycle C h rest.

Lemma cyc_nu u v : csucc C u v -> In u (h :: rest) /\ In v (h :: rest).
Proof. intros [A B]. destruct (cyc_target _ _ _ _ _ HL HC A B) as (X & Y & _). auto. Qed.
Lemma ring_fwd : ring (csucc C).
Proof.
  constructor; [intros u v w [A _] [B _]; congruence|].
  intros P HP u v u' v' B1 B2 H. destruct (cyc_nu _ _ B1) as [I1 _]. destruct (cyc_nu _ _ B2) as [I2 _].
  destruct (rotate _ _ _ _ HC I1) as (r & (_ & Ch & _) & PM).
  assert (Q : forall b, csucc C u' b -> P u' b).
  { apply (chain_fwd C (fun a => forall b, csucc C a b -> P a b)) with (l := r) (a := u) (z := u); auto.
    - intros a b Hab Nb Qa w Hw. apply (HP a b w); auto; [|apply Qa]; split; assumption.
    - intros y Hy. destruct HC as (_ & _ & Rg & _). specialize (Rg y ltac:(eapply Permutation_in; [apply Permutation_sym; exact PM|now right])). lia.
    - intros b [Hb _]. destruct B1 as [Hv _]. assert (b = v) by congruence. subst b. assumption.
    - eapply Permutation_in; [exact PM|assumption]. }
  apply Q. assumption.
Qed.
Lemma ring_bwd : ring (fun u v => csucc C v u).
Proof.
  constructor; [intros u v w [A B] [A' _]; apply (cyc_inj C h rest v w u); auto|].
  intros P HP u v u' v' B1 B2 H. destruct (cyc_nu _ _ B1) as [I1 _]. destruct (cyc_nu _ _ B2) as [I2 _].
  destruct (rotate _ _ _ _ HC I1) as (r & (_ & Ch & _) & PM).
  assert (Q : forall b, csucc C v' b -> P b v').
  { apply (chain_bwd C (fun a => forall b, csucc C a b -> P b a)) with (l := r) (a := v) (z := v); auto.
    - intros a b Hab Qb w [Hw Nw]. assert (w = b) by congruence. subst w.
      destruct (cyc_nu _ _ (conj Hw Nw)) as [Ia Ib]. destruct (cyc_defined _ _ _ _ HC Ib) as (c & Hc & Ic).
      assert (B3 : csucc C b c) by (split; [assumption|destruct HC as (_ & _ & Rg & _); specialize (Rg c Ic); lia]).
      apply (HP c b a); auto. split; assumption.
    - intros b [Hb _]. destruct B1 as [Hv _]. assert (b = u) by congruence. subst b. assumption.
    - eapply Permutation_in; [exact PM|assumption]. }
  apply Q. assumption.
Qed.
End Ring.
Lemma ring_iff (B B' : Z -> Z -> Prop) : (forall u v, B u v <-> B' u v) -> ring B -> ring B'.
Proof.
  intros E [F A]. constructor.
  - intros u v w X Y. apply (F u); now apply E.
  - intros P HP u v u' v' X Y. apply (A P); try (now apply E). intros a b c Ha Hb. apply HP; now apply E.
Qed.

Section Stuck.
Variable ts A B K : list tri.
Variables (C : list Z) (h : Z) (rest : list Z).
Hypothesis Hlab : forall t, In t ts -> tri_ok (zlen C) t.
Hypothesis Hnd : NoDup (edges ts).
Hypothesis Hcl : forall u v, In (u, v) (edges ts) -> In (v, u) (edges ts).
Hypothesis Hpot : potential ts.
Hypothesis Con : dconn ts.
Hypothesis HP : Permutation (A ++ B ++ K) ts.
Hypothesis ConR : dconn (A ++ B).
Hypothesis ConK : dconn K.
Hypothesis NA : A <> [].
Hypothesis NB : B <> [].
Hypothesis HL : zlen C <= 255.
Hypothesis HC : one_cycle C h rest.
Hypothesis HE : edgeinv C A.
Hypothesis HS : forall t, In t B -> stuck_tri C (h :: rest) t.

Lemma Hok t : In t ts -> distinct t.
Proof. intros H. apply (ok_distinct (zlen C)). auto. Qed.
Lemma stuck_bd u v : csucc C u v <-> boundary_edge A u v.
Proof.
  destruct HE as [H|[H1 H2]]; [apply H|exfalso].
  destruct (nonempty_in B NB) as (b & Ib).
  assert (Ib' : In b (B ++ K)) by (apply in_or_app; now left).
  apply (part_disj ts Hnd A (B ++ K) HP b); [|assumption].
  apply (closed_all ts Hnd A); auto.
  - intros t Ht. apply (part_in ts A (B ++ K) HP). now left.
  - apply (part_in ts A (B ++ K) HP). now right.
Qed.

Lemma stuck_false : False.
Proof.
  assert (NBK : B ++ K <> []) by (destruct B; [congruence|discriminate]).
  assert (CA : dconn A).
  { apply (one_comp ts Hnd A (B ++ K) HP Con); auto. apply (ring_iff (csucc C)); [apply stuck_bd|]. apply (ring_fwd C h rest); auto. }
  assert (HP' : Permutation ((B ++ K) ++ A) ts) by (eapply perm_trans; [apply Permutation_app_comm|exact HP]).
  assert (CC : dconn (B ++ K)).
  { apply (one_comp ts Hnd (B ++ K) A HP' Con); auto.
    apply (ring_iff (fun u v => csucc C v u)); [|apply (ring_bwd C h rest); auto].
    intros u v. rewrite stuck_bd. apply (part_bd ts Hnd Hcl A (B ++ K) HP). }
  destruct (shell ts Hok Hnd Hcl A B K (B ++ K) HP (Permutation_refl _) Con CC NA ConR ConK NB) as (t & Cr & It & Tt & PC & CCr).
  assert (ICC : forall x, In x (B ++ K) <-> x = t \/ In x Cr).
  { intros x. split.
    - intros Hx. apply (Permutation_in _ PC) in Hx as [<-|Hx]; auto.
    - intros Hx. apply (Permutation_in _ (Permutation_sym PC)). destruct Hx as [->|Hx]; [now left|now right]. }
  assert (Ats : forall x, In x A -> In x ts) by (intros x Hx; apply (part_in ts A (B ++ K) HP); now left).
  assert (Cts : forall x, In x Cr -> In x ts) by (intros x Hx; apply (part_in ts A (B ++ K) HP); right; apply ICC; now right).
  assert (Its : In t ts) by (apply (part_in ts A (B ++ K) HP); right; apply ICC; now left).
  assert (XA : forall x e, In x (B ++ K) -> In e (tri_edges x) -> ~ In e (edges A)).
  { intros x e Hx He Ha. apply (part_xy ts Hnd A (B ++ K) HP e Ha). apply in_edges. eauto. }
  assert (XC : forall e, In e (tri_edges t) -> ~ In e (edges Cr)).
  { intros e He Hc. apply in_edges in Hc as (x & Ix & Ex). assert (t = x) by (apply (same_tri ts Hnd t x e); auto). subst x.
    assert (ND : NoDup (t :: Cr)).
    { eapply Permutation_NoDup; [exact PC|]. pose proof (ts_nodup ts Hok Hnd) as N0.
      apply (nodup_app_r A). eapply Permutation_NoDup; [apply Permutation_sym; exact HP|exact N0]. }
    inversion ND; contradiction. }
  destruct (HS t It) as [S1|(t0 & t1 & t2 & E01 & E12 & E20 & S1 & S2 & S3 & S4)].
  { destruct Tt as (u & v & X & Y). apply (S1 u v X). apply (proj2 (stuck_bd v u)).
    split; [assumption|]. apply (XA t); [apply ICC; now left|assumption]. }
  (* the two edges crossed *)
  assert (L0 : 0 <= t0 < zlen C /\ 0 <= t1 < zlen C /\ 0 <= t2 < zlen C /\ t0 <> t1 /\ t1 <> t2 /\ t2 <> t0).
  { pose proof (Hlab t Its) as Q. destruct t as [[a b] c]. simpl in Q, E01, E12, E20.
    destruct E01 as [E|[E|[E|[]]]]; injection E as <- <-; destruct E12 as [E|[E|[E|[]]]]; injection E; intros; subst; try lia. }
  destruct L0 as (L0 & L1 & L2 & N01 & N12 & N20).
  assert (B10 : csucc C t1 t0) by (split; [assumption|lia]). destruct (cyc_nu C h rest HL HC _ _ B10) as [I1 I0].
  assert (RG : forall e, In e (h :: rest) -> 0 <= e < zlen C) by apply HC.
  assert (SUC : forall a, In a (h :: rest) -> exists b, csucc C a b).
  { intros a Ia. destruct (cyc_defined _ _ _ _ HC Ia) as (b & Hb & Ib). exists b. split; [assumption|]. specialize (RG b Ib). lia. }
  destruct (SUC t0 I0) as (x & Bx). destruct (SUC t2 S4) as (y & By).
  pose proof (proj1 (stuck_bd _ _) Bx) as [Ex Ex']. pose proof (proj1 (stuck_bd _ _) By) as [Ey Ey'].
  assert (OUT : forall a b, csucc C a b -> a <> t1 -> exists d, In d Cr /\ In (b, a) (tri_edges d)).
  { intros a b Hab Na. pose proof (proj1 (stuck_bd _ _) Hab) as Bd. apply (part_bd ts Hnd Hcl A (B ++ K) HP) in Bd as [Bd _].
    apply in_edges in Bd as (d & Id & Ed). apply ICC in Id as [->|Id]; [exfalso|exists d; auto].
    destruct Hab as [Hab _]. pose proof (Hok t Its) as Dt. destruct t as [[p q] r]. simpl in E01, E12, E20, Ed, Dt.
    assert (K0 : (b, a) = (t0, t1) \/ (b, a) = (t1, t2) \/ (b, a) = (t2, t0)).
    { clear -E01 E12 E20 Ed Dt N01 N12 N20. destruct E01 as [E|[E|[E|[]]]]; injection E as <- <-; destruct E12 as [E|[E|[E|[]]]]; injection E; intros; subst; try lia;
        destruct Ed as [E'|[E'|[E'|[]]]]; rewrite <- E'; auto; exfalso; lia. }
    destruct K0 as [K0|[K0|K0]]; injection K0 as -> ->; congruence. }
  assert (Nx : t0 <> t1) by assumption.
  destruct (OUT t0 x Bx N01) as (g1 & Ig1 & Eg1). destruct (OUT t2 y By ltac:(congruence)) as (g2 & Ig2 & Eg2).
  apply in_edges in Ex as (a1 & Ia1 & Ea1). apply in_edges in Ey as (a2 & Ia2 & Ea2).
  destruct (path_cochain ts Hok Hnd A a1 a2 Ats (CA a1 a2 Ia1 Ia2)) as (gA & A1 & A2 & A3).
  destruct (path_cochain ts Hok Hnd Cr g1 g2 Cts (CCr g1 g2 Ig1 Ig2)) as (gC & C1 & C2 & C3).
  set (g := fun a b => xorb (xorb (gA a b) (gC a b)) (xorb (sedge t0 x a b) (sedge t2 y a b))).
  destruct (Hpot g) as (p & Hp).
  { intros a b. unfold g. rewrite A1, C1, (sedge_sym t0 x), (sedge_sym t2 y). reflexivity. }
  { intros z Iz. unfold g. rewrite !tsum_xor, A3, C3 by assumption.
    rewrite (tsum_cross ts Hok Hnd a1 g1 t0 x z), (tsum_cross ts Hok Hnd a2 g2 t2 y z) by auto.
    destruct (is_t a1 z), (is_t a2 z), (is_t g1 z), (is_t g2 z); reflexivity. }
  assert (EA : forall a b, csucc C a b -> In (a, b) (edges ts) /\ gA a b = false /\ gC a b = false).
  { intros a b Hab. pose proof (proj1 (stuck_bd _ _) Hab) as [X Y]. split; [apply (part_edge ts A (B ++ K) HP); now left|]. split.
    - destruct (gA a b) eqn:Q; [|reflexivity]. apply A2 in Q as [_ Q]. contradiction.
    - destruct (gC a b) eqn:Q; [|reflexivity]. apply C2 in Q as [Q _]. exfalso. apply in_edges in Q as (d & Id & Ed).
      apply (XA d (a, b)); auto. apply ICC. now right. }
  assert (NSE : forall a b u v, csucc C a b -> csucc C u v -> a <> u -> sedge u v a b = false).
  { intros a b u v Hab Huv N. destruct (sedge u v a b) eqn:Q; [|reflexivity]. apply sedge_true in Q as [[Q _]|[-> ->]]; [congruence|exfalso].
    pose proof (proj1 (stuck_bd _ _) Hab) as [X _]. pose proof (proj1 (stuck_bd _ _) Huv) as [_ Y]. contradiction. }
  assert (FLAT : forall a b, csucc C a b -> a <> t0 -> a <> t2 -> p a = p b).
  { intros a b Hab Na Nb. destruct (EA a b Hab) as (Q & QA & QC). apply Hp in Q. unfold g in Q. rewrite QA, QC in Q.
    rewrite (NSE a b t0 x), (NSE a b t2 y) in Q by auto. destruct (p a), (p b); simpl in Q; congruence. }
  assert (STEP : p t0 <> p x).
  { destruct (EA t0 x Bx) as (Q & QA & QC). apply Hp in Q. unfold g in Q. rewrite QA, QC in Q. rewrite (NSE t0 x t2 y) in Q by auto.
    replace (sedge t0 x t0 x) with true in Q by (symmetry; apply sedge_true; auto). destruct (p t0), (p x); simpl in Q; congruence. }
  assert (CLOSE : p t2 = p t0).
  { assert (Q : In (t2, t0) (edges ts)) by (apply in_edges; eauto). apply Hp in Q. unfold g in Q.
    assert (QA : gA t2 t0 = false).
    { destruct (gA t2 t0) eqn:Z; [|reflexivity]. apply A2 in Z as [Z _]. exfalso. apply (XA t (t2, t0)); auto. apply ICC. now left. }
    assert (QC : gC t2 t0 = false).
    { destruct (gC t2 t0) eqn:Z; [|reflexivity]. apply C2 in Z as [Z _]. exfalso. apply (XC (t2, t0)); auto. }
    assert (Q1 : sedge t0 x t2 t0 = false).
    { destruct (sedge t0 x t2 t0) eqn:Z; [|reflexivity]. apply sedge_true in Z as [[Z _]|[_ Z]]; [congruence|]. subst x. destruct Bx as [Bx _]. congruence. }
    assert (Q2 : sedge t2 y t2 t0 = false).
    { destruct (sedge t2 y t2 t0) eqn:Z; [|reflexivity]. apply sedge_true in Z as [[_ Z]|[Z _]]; [|congruence]. subst y. exfalso. apply N12.
      destruct By as [By _]. apply (cyc_inj C h rest t1 t2 t0); auto. lia. }
    rewrite QA, QC, Q1, Q2 in Q. destruct (p t2), (p t0); simpl in Q; congruence. }
  (* along the cycle from t0 to t2 *)
  destruct (rotate C h rest t0 HC I0) as (r & (ND & Ch & _) & PM).
  assert (I2 : In t2 (t0 :: r)) by (eapply Permutation_in; [exact PM|assumption]). destruct I2 as [I2|I2]; [congruence|].
  apply in_split in I2 as (l1 & l2 & ->). apply chain_app in Ch as [Ch _].
  assert (NI : ~ In t0 l1 /\ ~ In t2 l1).
  { inversion_clear ND as [|? ? N1 N2]. split; [intros Z; apply N1; apply in_or_app; now left|].
    apply NoDup_remove_2 in N2. intros Z. apply N2. apply in_or_app. now left. }
  assert (INr : forall a, In a l1 -> In a (h :: rest)).
  { intros a Ha. eapply Permutation_in; [apply Permutation_sym; exact PM|]. right. apply in_or_app. now left. }
  assert (WALK : forall l a, chain C a l t2 -> (forall b, In b (a :: l) -> In b (h :: rest) /\ b <> t0 /\ b <> t2) -> p a = p t2).
  { clear -FLAT L2 HL HC RG. induction l as [|b l IH]; intros a Ha Hi; simpl in Ha.
    - destruct (Hi a (or_introl eq_refl)) as (_ & N0 & N2). apply FLAT; auto. split; [assumption|lia].
    - destruct Ha as [H1 H2]. destruct (Hi a (or_introl eq_refl)) as (_ & N0 & N2).
      destruct (Hi b (or_intror (or_introl eq_refl))) as (Ib & _). transitivity (p b).
      + apply FLAT; auto. split; [assumption|]. specialize (RG b Ib). lia.
      + apply IH; auto. intros c Hc. apply Hi. now right. }
  apply STEP. rewrite <- CLOSE. symmetry. destruct l1 as [|b l1].
  - simpl in Ch. destruct Bx as [Bx _]. assert (x = t2) by congruence. subst x. reflexivity.
  - destruct Ch as [H1 H2]. destruct Bx as [Bx _]. assert (x = b) by congruence. subst x.
    apply (WALK l1 b H2). intros c Hc. split; [auto|]. split; intros ->; destruct NI; contradiction.
Qed.
End Stuck.

(** ** potentials survive a cut *)
Section Cut.
Variables ts Kp R : list tri.
Variables (n h : Z) (rest C : list Z).
Hypothesis HP : Permutation (Kp ++ R) ts.
Hypothesis Hnd : NoDup (edges ts).
Hypothesis Hlab : forall t, In t ts -> tri_ok n t.
Hypothesis HC : one_cycle C h rest.
Hypothesis HL : zlen C <= 255.
Hypothesis Hfan : forall t, In t (fan h rest h n) <-> exists u v, t = (u, v, n) /\ boundary_edge R u v.
Hypothesis HB : forall u v, csucc C u v <-> boundary_edge R u v.
Hypothesis Hside : forall u v, boundary_edge R u v -> In (v, u) (edges Kp).

Lemma cut_potential : potential ts -> potential (Kp ++ fan h rest h n).
Proof.
  intros Pot g' Sy Z'. set (q := fun a => g' n a).
  set (g := fun a b => if inb (a, b) (edges Kp) || inb (b, a) (edges Kp) then g' a b else xorb (q a) (q b)).
  assert (SyG : forall a b, g a b = g b a).
  { intros a b. unfold g. rewrite (orb_comm (inb (b, a) _)), (Sy b a), (xorb_comm (q b)). reflexivity. }
  assert (GK : forall a b, In (a, b) (edges Kp) -> g a b = g' a b /\ g b a = g' b a).
  { intros a b H. unfold g. apply inb_spec in H. rewrite H, orb_true_r. auto. }
  assert (FS : forall u v, boundary_edge R u v -> g' u v = xorb (q u) (q v)).
  { intros u v Bd. assert (T : tsum g' (u, v, n) = false) by (apply Z'; apply in_or_app; right; apply Hfan; eauto).
    unfold tsum in T. unfold q. rewrite (Sy v n) in T. destruct (g' u v), (g' n v), (g' n u); simpl in T |- *; congruence. }
  pose proof (part_xy ts Hnd Kp R HP) as XY.
  assert (GR : forall a b, In (a, b) (edges R) -> g a b = xorb (q a) (q b)).
  { intros a b H. unfold g. destruct (inb (a, b) (edges Kp)) eqn:E1; [apply inb_spec in E1; destruct (XY _ E1 H)|]. simpl.
    destruct (inb (b, a) (edges Kp)) eqn:E2; [|reflexivity]. apply inb_spec in E2. apply FS. split; [assumption|].
    intros K0. apply (XY _ E2 K0). }
  destruct (Pot g SyG) as (p & Hp).
  { intros [[a b] c] It. apply (part_in ts Kp R HP) in It as [It|It]; unfold tsum.
    - assert (EE : forall e, In e (tri_edges (a, b, c)) -> In e (edges Kp)) by (intros e He; apply in_edges; eauto).
      rewrite (proj1 (GK a b (EE (a, b) ltac:(simpl; auto)))), (proj1 (GK b c (EE (b, c) ltac:(simpl; auto)))), (proj1 (GK c a (EE (c, a) ltac:(simpl; auto)))).
      apply (Z' (a, b, c)). apply in_or_app. now left.
    - assert (EE : forall e, In e (tri_edges (a, b, c)) -> In e (edges R)) by (intros e He; apply in_edges; eauto).
      rewrite (GR a b (EE (a, b) ltac:(simpl; auto))), (GR b c (EE (b, c) ltac:(simpl; auto))), (GR c a (EE (c, a) ltac:(simpl; auto))).
      destruct (q a), (q b), (q c); reflexivity. }
  assert (PK : forall a b, In (a, b) (edges Kp) -> g' a b = xorb (p a) (p b)).
  { intros a b H. rewrite <- (proj1 (GK a b H)). apply Hp. apply (part_edge ts Kp R HP). now left. }
  assert (NL : forall u v, In (u, v) (edges ts) -> u <> n /\ v <> n).
  { intros u v H. apply in_edges in H as ([[a b] c] & It & E). specialize (Hlab _ It). simpl in Hlab, E.
    destruct E as [E|[E|[E|[]]]]; injection E as <- <-; lia. }
  exists (fun a => if a =? n then xorb (p h) (g' n h) else p a).
  assert (PN : forall a, a <> n -> (if a =? n then xorb (p h) (g' n h) else p a) = p a) by (intros a Ha; destruct (Z.eqb_spec a n); [contradiction|reflexivity]).
  assert (SP : forall a, In a (h :: rest) -> g' n a = xorb (xorb (p h) (g' n h)) (p a)).
  { destruct HC as (_ & Ch & Rg & _). apply (chain_fwd C (fun a => g' n a = xorb (xorb (p h) (g' n h)) (p a))) with (l := rest) (a := h) (z := h); auto.
    - intros a b Hab Nb Qa.
      assert (Bd : boundary_edge R a b) by (apply HB; split; assumption). pose proof (FS a b Bd) as F1. unfold q in F1.
      pose proof (PK b a (Hside a b Bd)) as F2. rewrite (Sy b a) in F2. rewrite F1, Qa in F2.
      destruct (p h), (g' n h), (p a), (p b), (g' n b); simpl in F2 |- *; congruence.
    - intros y Hy. specialize (Rg y (or_intror Hy)). lia.
    - destruct (p h), (g' n h); reflexivity. }
  assert (EF : forall u v, boundary_edge R u v -> g' n u = xorb (xorb (p h) (g' n h)) (p u) /\ g' n v = xorb (xorb (p h) (g' n h)) (p v) /\ u <> n /\ v <> n /\
     g' u v = xorb (p u) (p v)).
  { intros u v Bd. destruct (cyc_nu C h rest HL HC u v (proj2 (HB u v) Bd)) as [Iu Iv]. pose proof (Hside u v Bd) as Hs.
    destruct (NL v u ltac:(apply (part_edge ts Kp R HP); now left)) as [N1 N2].
    split; [auto|]. split; [auto|]. split; [assumption|]. split; [assumption|]. rewrite (Sy u v), (PK v u Hs). apply xorb_comm. }
  intros a b H. rewrite edges_app in H. apply in_app_or in H as [H|H].
  - destruct (NL a b ltac:(apply (part_edge ts Kp R HP); now left)) as [Na Nb]. rewrite !PN by assumption. auto.
  - apply in_edges in H as (t & It & Et). apply Hfan in It as (u & v & -> & Bd). destruct (EF u v Bd) as (Q1 & Q2 & N1 & N2 & Q3).
    simpl in Et. destruct Et as [E|[E|[E|[]]]]; injection E as <- <-; rewrite ?Z.eqb_refl, ?PN by assumption; auto.
    rewrite (Sy v n), Q2. apply xorb_comm.
Qed.
End Cut.

(** the octahedron *)
Lemma octahedron (a2 a3 a4 a5 b2 b3 b4 b5 c2 c3 d2 d3 : bool) :
  d2 = xorb a5 a2 -> d3 = xorb a3 a5 -> b5 = xorb d2 b2 -> b5 = xorb b3 d3 -> c2 = xorb a2 a4 -> a4 = xorb a3 c3 -> c2 = xorb b4 b2 -> c3 = xorb b3 b4 ->
  b3 = xorb (xorb a2 b2) a3 /\ b4 = xorb (xorb a2 b2) a4 /\ b5 = xorb (xorb a2 b2) a5 /\ c3 = xorb a4 a3 /\ c2 = xorb a4 a2 /\ d2 = xorb a5 a2 /\ d3 = xorb a5 a3.
Proof.
  intros -> -> -> E1 -> E2 E3 E4. destruct a2, a3, a4, a5, b2, b3; try discriminate E1; destruct c3; try discriminate E2; destruct b4; try discriminate E3; auto 10.
Qed.
Lemma potential0 : potential t_init.
Proof.
  intros g Sy Z0. exists (fun a => if a =? 1 then xorb (g 0 2) (g 2 1) else if a =? 0 then false else g 0 a).
  assert (E : forall t, In t t_init -> tsum g t = false) by exact Z0. clear Z0.
  pose proof (E (2,5,0) ltac:(simpl; auto)) as T1. pose proof (E (5,3,0) ltac:(simpl; auto)) as T2. pose proof (E (1,5,2) ltac:(simpl; auto)) as T3.
  pose proof (E (5,1,3) ltac:(simpl; auto)) as T4. pose proof (E (4,2,0) ltac:(simpl; auto 10)) as T5. pose proof (E (4,0,3) ltac:(simpl; auto 10)) as T6.
  pose proof (E (2,4,1) ltac:(simpl; auto 10)) as T7. pose proof (E (4,3,1) ltac:(simpl; auto 10)) as T8. clear E. unfold tsum in *.
  assert (R1 : g 2 5 = g 5 2) by apply Sy. assert (R2 : g 5 0 = g 0 5) by apply Sy. assert (R3 : g 2 0 = g 0 2) by apply Sy.
  assert (R4 : g 3 5 = g 5 3) by apply Sy. assert (R5 : g 3 0 = g 0 3) by apply Sy. assert (R6 : g 5 1 = g 1 5) by apply Sy.
  assert (R7 : g 2 1 = g 1 2) by apply Sy. assert (R8 : g 3 1 = g 1 3) by apply Sy. assert (R9 : g 2 4 = g 4 2) by apply Sy.
  assert (R10 : g 4 0 = g 0 4) by apply Sy. assert (R11 : g 4 1 = g 1 4) by apply Sy. assert (R12 : g 3 4 = g 4 3) by apply Sy.
  clear Sy.
  assert (X : forall a b c : bool, xorb a (xorb b c) = false -> a = xorb b c) by (intros [] [] []; simpl; congruence).
  apply X in T1, T2, T3, T4, T5, T6, T7, T8. clear X.
  destruct (octahedron (g 0 2) (g 0 3) (g 0 4) (g 0 5) (g 1 2) (g 1 3) (g 1 4) (g 1 5) (g 4 2) (g 4 3) (g 5 2) (g 5 3)) as (Q1 & Q2 & Q3 & Q4 & Q5 & Q6 & Q7); try congruence.
  clear T1 T2 T3 T4 T5 T6 T7 T8. intros a b H.
  assert (Y : forall x y z, x = xorb y z -> x = xorb z y) by (intros x y z ->; apply xorb_comm).
  change (edges t_init) with (flat_map tri_edges t_init) in H. simpl in H.
  repeat (destruct H as [E|H]; [injection E as <- <-; simpl; rewrite ?R1, ?R2, ?R3, ?R4, ?R5, ?R6, ?R7, ?R8, ?R9, ?R10, ?R11, ?R12; auto;
    destruct (g 0 2), (g 1 2); auto; destruct (g 0 3), (g 0 4), (g 0 5); auto|]).
  destruct H.
Qed.
