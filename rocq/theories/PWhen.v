(** Exact arithmetic: which candidates add a plane, and how many triangles a cell has. *)
From Verif Require Import Base Arith PBase Prog PProg MUtils MHeap MXyz MKnn MBoundary MCell MDnn MArgs MTess Exact PExact PFlags SpecDnn PDnn SpecGeom SpecSort SpecBnd SpecKnn SpecVor
  PXyz PGrid PSortFinal PHeap PReloc PHeapFinal PKnnFinal PBnd PBndLoop PCellSim PCellRun PCell PCellRow PKnnSafe PSlot PWalk SpecSlot PSlotHost PTess PTessRun PTessFinal
  PGeomCone PGeomPoly PGeomWalk PGeomFinal PTopo PTopoCut PPerturb PEuler PEulerCut PNoFail PNoFailApi PDistinct PCap.
From Verif Require Export SpecParam SpecCap SpecWhen.
From Coq Require Import Psatz Permutation.
Local Open Scope R_scope.

Section G.
Variable N : Arith.
Variable E : Exact N.
Notation point := (point N).
Notation valp := (valp N E).
Notation finp := (finp N E).
Notation side := (PGeomWalk.side N E).
Notation region := (region N E).
Notation n s := (zlen (cP N s)).
Notation sound := (sound N E).

(** ** triangles and labels *)
Definition counted (s : cst N) : Prop := exists L, NoDup L /\ (forall l, In l L -> exists t, In t (cT N s) /\ label l t) /\ (length (cT N s) + 4 <= 2 * length L)%nat.

Section Step.
Variables (pmax tmax : Z) (p : point).
Hypothesis Hpm : (pmax <= 255)%Z.
Hypothesis Fp : finp p.
Notation P := (valp p).

Lemma counted_step q nb s o s' : finp q -> (6 <= n s)%Z -> sound P s -> counted s -> nb_rel N pmax tmax p q nb s o s' -> ok_out o = true -> counted s'.
Proof.
  intros Fq L6 So (L & NL & HL & Cn) R OK. pose proof (so_clip _ _ _ _ So) as C. pose proof (cl_surf _ _ _ _ C) as SF.
  inversion R as [Kp V Sp PV E1 E2|Kp R0 V CC h rest Sp PV NE Lp LC OC LR EI Lt E1 E2|Kp R0 Sp NE Lp E1 E2|Kp R0 CC Sp NE Lp LC ST E1 E2|Kp R0 CC h rest Sp NE Lp LC OC LR EI Lt E1 E2]; try (subst o; discriminate).
  - exists L. split; [assumption|]. destruct Sp as (PK & _). rewrite app_nil_r in PK. simpl. rewrite (Permutation_length PK). split; [|assumption].
    intros l Hl. destruct (HL l Hl) as (t & It & Lt). exists t. split; [|assumption]. eapply Permutation_in; [apply Permutation_sym; exact PK|assumption].
  - destruct (cut_facts N E p Fp q s Kp R0 Fq L6 So Sp) as (SF' & PS & SD & HK & HR & PK). set (oo := side (cP N s ++ [bisect N q p])) in *.
    assert (SK : surface oo (n s) P (Kp ++ R0)) by (apply (surface_perm oo (n s) P (cT N s)); [now apply Permutation_sym|assumption]).
    destruct (clip_step N E pmax tmax p Hpm Fp q nb s o s' Fq L6 C R OK) as (C1 & _). pose proof (cl_surf _ _ _ _ C1) as SF1.
    rewrite <- E2 in SF1. simpl in SF1. unfold counted. simpl.
    assert (HF : forall t, In t (fan h rest h (n s)) <-> exists u v, t = (u, v, n s) /\ boundary_edge R0 u v).
    { intros t. apply (cut_fan oo (n s) P (cT N s) Kp R0 CC h rest); auto. lia. }
    assert (HB : forall u v, csucc CC u v <-> boundary_edge R0 u v).
    { intros u v. unfold csucc. apply (cut_boundary oo (n s) P (cT N s) Kp R0 CC); auto. }
    destruct (parts_conn oo (n s) Kp R0) as (Ca & CK & CR); auto.
    { exact (sf_ok _ _ _ _ SK). } { exact (sf_pos _ _ _ _ SK). }
    { intros t It. destruct (sf_feas _ _ _ _ SK t It) as (x & Vx & _). eauto. }
    { exact (sf_closed _ _ _ _ SK). } { exact (sf_nodup _ _ _ _ SK). }
    destruct OC as (Nd & Ch & Rg & Ou).
    assert (FL : length (fan h rest h (n s)) = length (h :: rest)).
    { apply Nat2Z.inj. change (zlen (fan h rest h (n s)) = zlen (h :: rest)). rewrite fan_length, zlen_cons. lia. }
    apply (cut_count Kp R0 (fan h rest h (n s)) (n s) (h :: rest)) with (L := L); auto.
    + pose proof (sf_nodup _ _ _ _ SK) as ND. rewrite edges_app in ND. exact (nodup_app_r _ _ ND).
    + exact (sf_nodup _ _ _ _ SF1).
    + exact (sf_closed _ _ _ _ SF1).
    + intros t It. apply (sf_ok _ _ _ _ SK). apply in_or_app. now left.
    + intros t It. apply (sf_ok _ _ _ _ SK). apply in_or_app. now right.
    + discriminate.
    + intros u Hu. destruct (chain_succ _ _ _ _ Ch u Hu) as (v & Ev & Iv). exists v. apply HB. split; [assumption|].
      assert (Iv' : In v (h :: rest)) by (apply in_app_or in Iv as [Iv|[<-|[]]]; [now right|now left]). specialize (Rg v Iv'). lia.
    + intros l Hl. destruct (HL l Hl) as (t & It & Ll). split; [apply (label_lt _ _ _ (sf_ok _ _ _ _ SF t It) Ll)|]. exists t. split; [|assumption]. eapply Permutation_in; [apply Permutation_sym; exact PK|assumption].
    + rewrite (Permutation_length PK). assumption.
Qed.

Lemma counted0 D : counted (cst0 N D).
Proof.
  exists [0; 1; 2; 3; 4; 5]%Z. split; [repeat constructor; simpl; intuition discriminate|]. split; [|vm_compute; lia].
  intros l Hl. change (cT N (cst0 N D)) with t_init. apply used_label.
  simpl in Hl. destruct Hl as [<-|[<-|[<-|[<-|[<-|[<-|[]]]]]]]; reflexivity.
Qed.
End Step.

Section Walk.
Variables (pmax : Z) (pts : Z -> option point) (K : list Z) (p : point).
Hypothesis Hpm : (pmax <= 255)%Z.
Hypothesis Fp : finp p.
Hypothesis Fpts : forall q qp, In q K -> pts q = Some qp -> finp qp.
Notation P := (valp p).

Lemma walk_counted tmax : forall nbs s o s', (6 <= n s <= 255)%Z -> (zlen (cT N s) <= 2 * n s - 4)%Z -> sound P s -> counted s -> walk N pmax tmax pts K p nbs s o s' -> ok_out o = true -> counted s'.
Proof.
  induction nbs as [|nb nbs IH]; intros s o s' L6 LT So Cs W OK.
  - inversion W; subst. assumption.
  - inversion W as [|nb0 nbs0 q qp s0 s1 o0 s2 Hq Hqp R W'|nb0 nbs0 q qp s0 o0 s1 Hq Hqp R No]; subst.
    + destruct (sound_step N E pmax tmax p Hpm Fp qp nb s Cont s1 (Fpts q qp (znth_in _ _ _ Hq) Hqp) L6 LT So R) as (_ & _ & _ & H1).
      destruct (H1 eq_refl) as (So1 & L1 & L2 & L3). apply (IH s1 o s'); auto; try lia.
      apply (counted_step pmax tmax p Hpm Fp qp nb s Cont s1); auto; [eapply Fpts; eauto; eapply znth_in; eauto|lia].
    + apply (counted_step pmax tmax p Hpm Fp qp nb s o s'); auto; [eapply Fpts; eauto; eapply znth_in; eauto|lia].
Qed.

(** more room does not change what succeeded *)
Lemma nb_lift tmax tmax' q nb s o s' : (tmax <= tmax')%Z -> nb_rel N pmax tmax p q nb s o s' -> ok_out o = true -> nb_rel N pmax tmax' p q nb s o s'.
Proof.
  intros Le R OK. destruct R; try discriminate; [econstructor; eauto|]. econstructor 2; eauto. lia.
Qed.
Lemma walk_lift tmax tmax' : (tmax <= tmax')%Z -> forall nbs s o s', walk N pmax tmax pts K p nbs s o s' -> ok_out o = true -> walk N pmax tmax' pts K p nbs s o s'.
Proof.
  intros Le. induction 1 as [s|nb nbs q qp s s1 o s2 Hq Hqp R W IH|nb nbs q qp s o s1 Hq Hqp R No]; intros OK; [constructor| |].
  - econstructor 2; eauto. now apply (nb_lift tmax).
  - econstructor 3; eauto. now apply (nb_lift tmax).
Qed.

(** the step that would have overflowed, with more room *)
Lemma walk_over tmax : forall nbs s s', walk N pmax tmax pts K p nbs s FailT s' ->
  exists a nb b tmax' o s1, nbs = a ++ nb :: b /\ (tmax <= tmax')%Z /\ walk N pmax tmax' pts K p (a ++ [nb]) s o s1 /\ ok_out o = true /\ (tmax < zlen (cT N s1))%Z.
Proof.
  induction nbs as [|nb nbs IH]; intros s s' W.
  - inversion W.
  - inversion W as [|nb0 nbs0 q qp s0 s1 o0 s2 Hq Hqp R W'|nb0 nbs0 q qp s0 o0 s1 Hq Hqp R No]; subst.
    + destruct (IH s1 s' W') as (a & x & b & tm & o & s2 & -> & Le & W2 & OK & Big). exists (nb :: a), x, b, tm, o, s2. split; [reflexivity|]. split; [assumption|].
      split; [|auto]. simpl. econstructor 2; eauto. now apply (nb_lift tmax).
    + inversion R as [Kp V Sp PV E1 E2|Kp R0 V CC h rest Sp PV NE Lp LC OC LR EI Lt E1 E2|Kp R0 Sp NE Lp E1 E2|Kp R0 CC Sp NE Lp LC ST E1 E2|Kp R0 CC h rest Sp NE Lp LC OC LR EI Lt E1 E2];
        try (unfold verdict in *; destruct (sr_is_reached N p qp _); discriminate).
      rewrite <- E2 in *. clear E2 E1 s' R.
      set (tm := (zlen Kp + zlen rest + 1)%Z). set (o := verdict N p qp (radius N (cP N s) p (cT N s) (fofZ N 0))).
      set (s1 := mkC N (cP N s ++ [bisect N qp p]) (Kp ++ fan h rest h (n s)) (zupd (cD N s) nb (n s))).
      assert (R1 : nb_rel N pmax tm p qp nb s o s1).
      { apply (nr_cut N pmax tm p qp nb s Kp R0 (cT N s) CC h rest); auto; unfold tm; lia. }
      assert (OK : ok_out o = true) by (unfold o, verdict; destruct (sr_is_reached N p qp _); reflexivity).
      exists [], nb, nbs, tm, o, s1. split; [reflexivity|]. split; [unfold tm; lia|]. split; [|split; [assumption|]].
      * simpl. destruct o eqn:Qo; try discriminate; [econstructor 2; [exact Hq|exact Hqp|exact R1|constructor]|econstructor 3; [exact Hq|exact Hqp|exact R1|discriminate]].
      * unfold s1. simpl cT. rewrite zlen_app, fan_length. unfold tm in *. lia.
Qed.
End Walk.

(** ** the same walk over the candidates only *)
Lemma walk_same pmax tmax (pts pts' : Z -> option point) K K' p : forall nbs s o s', walk N pmax tmax pts K p nbs s o s' ->
  (forall nb q qp, In nb nbs -> znth K nb = Some q -> pts q = Some qp -> exists q', znth K' nb = Some q' /\ pts' q' = Some qp) ->
  forall D, exists D', walk N pmax tmax pts' K' p nbs (mkC N (cP N s) (cT N s) D) o (mkC N (cP N s') (cT N s') D').
Proof.
  assert (ST : forall qp nb s o s', nb_rel N pmax tmax p qp nb s o s' -> forall D, exists D', nb_rel N pmax tmax p qp nb (mkC N (cP N s) (cT N s) D) o (mkC N (cP N s') (cT N s') D')).
  { intros qp nb s o s' R D. destruct R; eexists.
    - eapply (nr_none N pmax tmax p qp nb (mkC N (cP N s) (cT N s) D)); eauto.
    - eapply (nr_cut N pmax tmax p qp nb (mkC N (cP N s) (cT N s) D)); eauto.
    - eapply (nr_p N pmax tmax p qp nb (mkC N (cP N s) (cT N s) D)); eauto.
    - eapply (nr_b N pmax tmax p qp nb (mkC N (cP N s) (cT N s) D)); eauto.
    - eapply (nr_t N pmax tmax p qp nb (mkC N (cP N s) (cT N s) D)); eauto. }
  induction 1 as [s|nb nbs q qp s s1 o s2 Hq Hqp R W IH|nb nbs q qp s o s1 Hq Hqp R No]; intros HQ D.
  - exists D. constructor.
  - destruct (ST _ _ _ _ _ R D) as [D1 R1]. destruct (HQ nb q qp (or_introl eq_refl) Hq Hqp) as (q' & Eq & Ep).
    destruct (IH ltac:(intros; eapply HQ; eauto; now right) D1) as [D2 W2]. exists D2. econstructor 2; eauto.
  - destruct (ST _ _ _ _ _ R D) as [D1 R1]. destruct (HQ nb q qp (or_introl eq_refl) Hq Hqp) as (q' & Eq & Ep). exists D1. econstructor 3; eauto.
Qed.

Lemma firstn_in {X} (m : nat) (l : list X) x : In x (firstn m l) -> In x l.
Proof. intros H. rewrite <- (firstn_skipn m l). apply in_or_app. now left. Qed.

Lemma app_inj_len {X} (a b c d : list X) : zlen a = zlen c -> a ++ b = c ++ d -> a = c.
Proof.
  revert c. induction a as [|x a IH]; intros [|y c] L H; rewrite ?zlen_cons in L; try (pose proof (zlen_nonneg a)); try (pose proof (zlen_nonneg c)); try (change (zlen (@nil X)) with 0%Z in L; lia); [reflexivity|].
  simpl in H. injection H as -> H. f_equal. apply IH; [lia|assumption].
Qed.

(** ** p and the list A of its candidates, nearest first *)
Section Pref.
Variables (pmax : Z) (p : point) (A : list point).
Hypothesis Hpm : (6 <= pmax <= 255)%Z.
Hypothesis Hp : inside N E p.
Hypothesis HA : forall q, In q A -> inside N E q.
Hypothesis Hs : forall i j a b, (0 <= i <= j)%Z -> znth A i = Some a -> znth A j = Some b -> d2 (valp a) (valp p) <= d2 (valp b) (valp p).
Notation P := (valp p).
Notation B := (map valp A).

Let Fp : finp p. Proof. apply Hp. Qed.
Let Cp : in_cube P. Proof. destruct Hp as [_ H]. destruct P as [[a b] c]. simpl in *. lra. Qed.
Let K1 m nb q : znth (zrange 1 (m + 1)) nb = Some q -> q = (nb + 1)%Z /\ (0 <= nb < m)%Z.
Proof.
  intros H. pose proof (znth_some _ _ _ H) as R0. assert (0 <= m)%Z. { destruct (Z_le_gt_dec 0 m); [assumption|]. rewrite zrange_nil in R0 by lia. change (0 <= nb < 0)%Z in R0. lia. }
  rewrite zlen_zrange in R0 by lia. rewrite znth_zrange in H by lia. injection H as <-. lia.
Qed.

(** the lemmas about slots apply *)
Lemma pref_pts m : (0 <= m <= zlen A)%Z -> let pts := p :: firstn (Z.to_nat m) A in
  (forall q, In q pts -> inside N E q) /\ znth pts 0 = Some p /\ zlen pts = (m + 1)%Z /\
  nearest (sqdist N E pts 0) (fun q => (0 <= q < zlen pts)%Z /\ q <> 0%Z) (zrange 1 (m + 1)) /\ zlen (zrange 1 (m + 1)) = Z.min m (zlen pts - 1).
Proof.
  intros Hm pts. assert (LF : zlen (firstn (Z.to_nat m) A) = m) by (unfold zlen in *; rewrite firstn_length; lia).
  assert (LP : zlen pts = (m + 1)%Z) by (unfold pts; rewrite zlen_cons, LF; reflexivity).
  assert (ZN : forall j, (1 <= j < m + 1)%Z -> znth pts j = znth A (j - 1)).
  { intros j Hj. unfold pts. rewrite znth_cons by lia. destruct (znth_in_range A (j - 1) ltac:(lia)) as [a Ea]. rewrite Ea.
    rewrite <- (firstn_skipn (Z.to_nat m) A), znth_app1 in Ea by lia. assumption. }
  split; [|split; [reflexivity|split; [assumption|split; [|rewrite zlen_zrange by lia; lia]]]].
  - intros q [<-|Hq]; [assumption|]. apply HA. rewrite <- (firstn_skipn (Z.to_nat m) A). apply in_or_app. now left.
  - split; [|split; [|split]].
    + apply NoDup_zrange.
    + intros q Hq. apply in_zrange in Hq. lia.
    + intros i j a b Hij Ea Eb. apply K1 in Ea as [-> Ra]. apply K1 in Eb as [-> Rb]. unfold sqdist. rewrite (ZN (i + 1)%Z), (ZN (j + 1)%Z) by lia. change (znth pts 0) with (Some p).
      replace (i + 1 - 1)%Z with i by lia. replace (j + 1 - 1)%Z with j by lia.
      destruct (znth_in_range A i ltac:(lia)) as [a Ea]. destruct (znth_in_range A j ltac:(lia)) as [b Eb]. rewrite Ea, Eb. apply (Hs i j); auto.
    + intros a b _ [Hb Nb] Hn. exfalso. apply Hn. apply in_zrange. lia.
Qed.
Lemma pref_walk tmax r m o s : (0 <= m <= r)%Z -> (r <= zlen A)%Z -> walk N pmax tmax (znth (p :: A)) (zrange 1 (r + 1)) p (zrange 0 m) (cst0 N (repeat k_undefined (Z.to_nat r))) o s ->
  exists D, walk N pmax tmax (znth (p :: firstn (Z.to_nat m) A)) (zrange 1 (m + 1)) p (zrange 0 m) (cst0 N (repeat k_undefined (Z.to_nat m))) o (mkC N (cP N s) (cT N s) D).
Proof.
  intros Hm Hr W. destruct (walk_same pmax tmax _ (znth (p :: firstn (Z.to_nat m) A)) _ (zrange 1 (m + 1)) p _ _ _ _ W) with (D := repeat k_undefined (Z.to_nat m)) as [D' W']; [|exists D'; exact W'].
  intros nb q qp I Eq Ep. apply in_zrange in I. apply K1 in Eq as [-> _]. exists (nb + 1)%Z. split; [rewrite znth_zrange by lia; f_equal; lia|].
  rewrite znth_cons in * by lia. rewrite <- (firstn_skipn (Z.to_nat m) A), znth_app1 in Ep; [assumption|]. unfold zlen in *. rewrite firstn_length. lia.
Qed.
(** facets and room *)
Lemma pref_facets tmax m o s J W : (8 <= tmax)%Z -> (1 <= m <= zlen A)%Z ->
  walk N pmax tmax (znth (p :: firstn (Z.to_nat m) A)) (zrange 1 (m + 1)) p (zrange 0 m) (cst0 N (repeat k_undefined (Z.to_nat m))) o s -> ok_out o = true ->
  facets (P :: firstn (Z.to_nat m) B) 0 J W -> (2 * (zlen J + zlen W) - 4 <= tmax)%Z.
Proof.
  intros Ht Hm W0 OK FC. destruct (pref_pts m ltac:(lia)) as (Q1 & Q2 & Q3 & Q4 & Q5). rewrite firstn_map in FC.
  destruct (slot_facets N E pmax tmax (p :: firstn (Z.to_nat m) A) m 0 (zrange 1 (m + 1)) (zrange 1 (m + 1)) p o s) with (J := J) (W := W) as [X _]; auto; lia.
Qed.
(** triangles and contacts *)
Lemma pref_contacts tmax m o s : (8 <= tmax)%Z -> (1 <= m <= zlen A)%Z ->
  walk N pmax tmax (znth (p :: firstn (Z.to_nat m) A)) (zrange 1 (m + 1)) p (zrange 0 m) (cst0 N (repeat k_undefined (Z.to_nat m))) o s -> ok_out o = true ->
  exists J W, contacts (P :: firstn (Z.to_nat m) B) 0 J W /\ (zlen (cT N s) <= 2 * (zlen J + zlen W) - 4)%Z.
Proof.
  intros Ht Hm W0 OK. destruct (pref_pts m ltac:(lia)) as (Q1 & Q2 & Q3 & Q4 & Q5). rewrite firstn_map.
  set (pts := p :: firstn (Z.to_nat m) A) in *. set (K := zrange 1 (m + 1)) in *. set (s0 := cst0 N (repeat k_undefined (Z.to_nat m))) in *.
  change (P :: map valp (firstn (Z.to_nat m) A)) with (map valp pts).
  assert (FK : forall q qp, In q K -> znth pts q = Some qp -> finp qp) by (intros q qp _ H; apply Q1; eapply znth_in; eauto).
  assert (So0 : sound P s0) by (apply sound0; exact Cp).
  assert (L60 : n s0 = 6%Z) by reflexivity. assert (T0 : zlen (cT N s0) = 8%Z) by reflexivity.
  destruct (walk_counted pmax (znth pts) K p ltac:(lia) Fp FK tmax (zrange 0 m) s0 o s ltac:(lia) ltac:(lia) So0 (counted0 _) W0 OK) as (L & NL & HL & Cn).
  destruct (walk_ok N E pmax tmax (znth pts) K p ltac:(lia) Fp FK (zrange 0 m) s0 o s ltac:(lia) ltac:(lia) ltac:(lia) So0 W0 OK) as (So & Ls & _).
  assert (HKb : forall q, In q K -> (0 <= q < zlen pts)%Z) by (intros q Hq; apply in_zrange in Hq; lia).
  destruct (slot_distinct N E pmax tmax pts m 0 K p o s ltac:(lia) Q1 Q2 ltac:(lia) HKb W0 OK) as (NDr & NP & _).
  assert (LI : linv N (znth pts) K p m s).
  { apply (linv_walk N pmax tmax (znth pts) K p m (Z.to_nat (m - 0)) 0 s0 o s); [reflexivity|lia| |apply linv0|exact W0]. change (zlen (repeat k_undefined (Z.to_nat m)) = m). rewrite zlen_repeat. lia. }
  assert (RN : forall y, region s y -> forall q, In q (map valp pts) -> d2 y P <= d2 y q).
  { apply (region_near N E pmax tmax pts m 0 K K p o s); auto; lia. }
  exists (row_of N K s), (filter (fun l => (l <? 6)%Z) L). split; [split; [assumption|split; [now apply NoDup_filter|exists P; split; [reflexivity|split]]]|].
  - intros j Ij. destruct (slot_touches N E pmax tmax pts m 0 K K p o s ltac:(lia) Q1 Q2 ltac:(lia) W0 OK Q4 Q5 ltac:(auto) ltac:(right; lia) j Ij) as (q & x & Eq & T).
    exists (valp q), x. split; [rewrite znth_map, Eq; reflexivity|]. split; [eapply NP; eauto|assumption].
  - intros w Hw. apply filter_In in Hw as [Hw W6]. rewrite Z.ltb_lt in W6. destruct (HL w Hw) as (t & It & Lt).
    pose proof (so_clip _ _ _ _ So) as HC. pose proof (cl_surf _ _ _ _ HC) as SF. pose proof (label_lt _ _ _ (sf_ok _ _ _ _ SF t It) Lt) as Rw.
    destruct (sf_feas _ _ _ _ SF t It) as (x & Vx & Fx). exists x. split; [apply (cell_region N E pts m 0 m K p s Q1 Q2 LI RN); exact Fx|].
    specialize (Vx w Lt). destruct LI as (_ & _ & _ & (Pj & EPj)). rewrite EPj, side_app in Vx by (rewrite cube_len; lia).
    destruct (side_cube N E []) as (S0 & S1 & S2 & S3 & S4 & S5). simpl cP in S0, S1, S2, S3, S4, S5. destruct x as [[a b] c].
    assert (Hw' : (w = 0 \/ w = 1 \/ w = 2 \/ w = 3 \/ w = 4 \/ w = 5)%Z) by lia. simpl.
    destruct Hw' as [->|[->|[->|[->|[->| ->]]]]]; rewrite ?S0, ?S1, ?S2, ?S3, ?S4, ?S5 in Vx; simpl in Vx;
      [left|right; left|right; right; left|right; right; right; left|right; right; right; right; left|right; right; right; right; right]; (split; [reflexivity|lra]).
  - assert (LL : (zlen (filter (fun l => negb (l <? 6)%Z) L) <= zlen (row_of N K s))%Z).
    { rewrite <- row_labels_len. unfold zlen. apply Nat2Z.inj_le. apply NoDup_incl_length; [now apply NoDup_filter|].
      intros l Hl. apply filter_In in Hl as [Hl L6]. rewrite negb_true_iff, Z.ltb_ge in L6. destruct (HL l Hl) as (t & It & Lt).
      pose proof (cl_surf _ _ _ _ (so_clip _ _ _ _ So)) as SF. pose proof (label_lt _ _ _ (sf_ok _ _ _ _ SF t It) Lt) as Rl.
      destruct LI as (LA & LB & _). destruct (LB l ltac:(lia)) as [d Ed]. destruct (LA d l Ed) as [->|(_ & _ & q & qp & Eq & _)]; [unfold k_undefined in Rl; lia|].
      unfold row_labels. apply in_map_iff. exists (q, l). split; [reflexivity|]. apply filter_In. split; [|apply used_label; eauto].
      clear - Ed Eq. revert Ed Eq. unfold znth. destruct (0 <=? d)%Z; [|discriminate]. generalize (Z.to_nat d), (cD N s). clear. induction K as [|a K IH]; intros [|i] [|b D] A1 A2; simpl in *; try discriminate.
      - left. congruence.
      - right. eapply IH; eauto. }
    assert (LS : (zlen L = zlen (filter (fun l => (l <? 6)%Z) L) + zlen (filter (fun l => negb (l <? 6)%Z) L))%Z).
    { clear. induction L as [|a L IH]; [reflexivity|]. simpl. destruct (a <? 6)%Z; simpl; rewrite !zlen_cons; lia. }
    unfold zlen in *. lia.
Qed.
(** ** planes and cutting candidates *)
Definition counts (d : Z) (C : list Z) : Prop := NoDup C /\ forall j, In j C <-> (0 <= j < d)%Z /\ exists q, znth B j = Some q /\ cuts P (firstn (Z.to_nat j) B) q.
Lemma in_cell_snoc S q y : in_cell (S ++ [q]) P y <-> in_cell S P y /\ d2 y P <= d2 y q.
Proof.
  unfold in_cell. split.
  - intros [H1 H2]. split; [split; [assumption|]|]; [intros a Ha|]; apply H2; apply in_or_app; [now left|right; now left].
  - intros [[H1 H2] H3]. split; [assumption|]. intros a Ha. apply in_app_or in Ha as [Ha|[<-|[]]]; auto.
Qed.
Lemma walk_cuts tmax : forall k d s o s' C, Z.to_nat (zlen A - d) = k -> (0 <= d <= zlen A)%Z -> (6 <= n s <= 255)%Z -> (zlen (cT N s) <= 2 * n s - 4)%Z -> sound P s ->
  (forall y, region s y <-> in_cell (firstn (Z.to_nat d) B) P y) -> counts d C -> n s = (6 + zlen C)%Z ->
  walk N pmax tmax (znth (p :: A)) (zrange 1 (zlen A + 1)) p (zrange d (zlen A)) s o s' ->
  (ok_out o = true -> exists C', counts (zlen A) C' /\ n s' = (6 + zlen C')%Z) /\ (o = FailP -> exists C', cutters P B C' /\ (pmax < zlen C' + 6)%Z) /\
  (o = FailT -> exists C', cutters P B C' /\ (tmax < 2 * zlen C' + 8)%Z).
Proof.
  induction k as [|k IH]; intros d s o s' C Hk Hd L6 LT So RG CC0 NC W.
  - rewrite (zrange_nil d (zlen A)) in W by lia. inversion W; subst. split; [|split; discriminate]. intros _. exists C. replace (zlen A) with d by lia. auto.
  - rewrite (zrange_cons d (zlen A)) in W by lia. assert (Hd' : (0 <= d < zlen A)%Z) by lia.
    destruct (znth_in_range A d Hd') as [qa Ea].
    assert (EB : znth B d = Some (valp qa)) by (rewrite znth_map, Ea; reflexivity).
    assert (Fq : finp qa) by (apply HA; eapply znth_in; eauto).
    assert (QQ : forall q qp, znth (zrange 1 (zlen A + 1)) d = Some q -> znth (p :: A) q = Some qp -> qp = qa).
    { intros q qp H1 H2. apply K1 in H1 as [-> _]. rewrite znth_cons in H2 by lia. replace (d + 1 - 1)%Z with d in H2 by lia. congruence. }
    assert (FS : firstn (Z.to_nat (d + 1)) B = firstn (Z.to_nat d) B ++ [valp qa]) by (apply firstn_snoc; assumption).
    assert (CM : counts d C -> (exists x, region s x /\ d2 x (valp qa) < d2 x P) -> counts (d + 1) (C ++ [d])).
    { intros [ND HC] (x & Rx & Dx). split.
      - apply nodup_app_i; [assumption|repeat constructor; simpl; tauto|]. intros a H1 [<-|[]]. apply HC in H1. lia.
      - intros j. rewrite in_app_iff, HC. simpl. split.
        + intros [[R1 H]|[<-|[]]]; [split; [lia|assumption]|]. split; [lia|]. exists (valp qa). split; [assumption|]. exists x. split; [now apply RG|assumption].
        + intros [R1 H]. destruct (Z.eq_dec j d) as [->|Nj]; [right; now left|left; split; [lia|assumption]]. }
    assert (CS : counts d C -> (forall x, region s x -> d2 x P <= d2 x (valp qa)) -> counts (d + 1) C).
    { intros [ND HC] Hx. split; [assumption|]. intros j. rewrite HC. split; [intros [R1 H]; split; [lia|assumption]|].
      intros [R1 H]. destruct (Z.eq_dec j d) as [->|Nj]; [exfalso|split; [lia|assumption]].
      destruct H as (q & Eq & x & Ix & Dx). assert (q = valp qa) by congruence. subst q. apply RG in Ix. specialize (Hx x Ix). lra. }
    assert (STEP : forall o1 s1, nb_rel N pmax tmax p qa d s o1 s1 ->
      (ok_out o1 = true -> exists C1, counts (d + 1) C1 /\ n s1 = (6 + zlen C1)%Z /\ sound P s1 /\ (6 <= n s1 <= 255)%Z /\ (zlen (cT N s1) <= 2 * n s1 - 4)%Z /\
         (forall y, region s1 y <-> in_cell (firstn (Z.to_nat (d + 1)) B) P y) /\ (o1 = Reach -> forall y z, region s y -> d2 P (valp qa) <= d2 P z -> d2 y P < d2 y z)) /\
      (o1 = FailP -> exists C', cutters P B C' /\ (pmax < zlen C' + 6)%Z) /\ (o1 = FailT -> exists C', cutters P B C' /\ (tmax < 2 * zlen C' + 8)%Z)).
    { intros o1 s1 R.
      assert (CUT : forall Kp R0, split N (cP N s) (bisect N qa p) (cT N s) Kp R0 -> R0 <> [] -> exists x, region s x /\ d2 x (valp qa) < d2 x P).
      { intros Kp R0 Sp NE. destruct R0 as [|t R0]; [congruence|]. pose proof (cl_surf _ _ _ _ (so_clip _ _ _ _ So)) as SF0. destruct Sp as (PK & _ & FR).
        assert (It : In t (cT N s)) by (eapply Permutation_in; [exact PK|apply in_or_app; right; now left]).
        destruct (sf_feas _ _ _ _ SF0 t It) as (x & Vx & Fx). exists x. split; [exact Fx|].
        inversion FR as [|? ? Rt]; subst. apply (removed_exact N E p s t x _ (so_clip _ _ _ _ So) It Vx (bisect_fin N E qa p Fq Fp)) in Rt. rewrite (bis_ev N E p Fp qa x Fq) in Rt. lra. }
      split; [|split].
      - intros OK. destruct (sound_step N E pmax tmax p ltac:(lia) Fp qa d s o1 s1 Fq L6 LT So R) as (_ & _ & _ & H). destruct (H OK) as (So1 & A1 & A2 & A3).
        destruct (clip_step N E pmax tmax p ltac:(lia) Fp qa d s o1 s1 Fq ltac:(lia) (so_clip _ _ _ _ So) R OK) as (_ & _ & RS & RR).
        assert (RG1 : forall y, region s y -> d2 y P <= d2 y (valp qa) -> region s1 y).
        { intros y Ry Dy. inversion R as [Kp V Sp PV E1 E2|Kp R0 V CC h rest Sp PV NE Lp LC OC LR EI Lt E1 E2|Kp R0 Sp NE Lp E1 E2|Kp R0 CC Sp NE Lp LC ST E1 E2|Kp R0 CC h rest Sp NE Lp LC OC LR EI Lt E1 E2]; try (subst o1; discriminate); [exact Ry|].
          intros j Hj. simpl in *. rewrite zlen_app, zlen_one in Hj. destruct (Z.eq_dec j (n s)) as [->|Nj].
          - unfold PGeomWalk.side, pl_at. rewrite (znth_mid (cP N s) [] (bisect N qa p)). replace (n s <? 6)%Z with false by lia. rewrite (bis_ev N E p Fp qa y Fq). lra.
          - rewrite side_app by lia. apply Ry. lia. }
        assert (RG2 : forall y, region s1 y <-> in_cell (firstn (Z.to_nat (d + 1)) B) P y).
        { intros y. rewrite FS, in_cell_snoc, <- RG. split; [apply RS|]. intros [H1 H2]. now apply RG1. }
        assert (CASE : (n s1 = n s /\ forall x, region s x -> region s1 x) \/ (n s1 = (n s + 1)%Z /\ exists x, region s x /\ d2 x (valp qa) < d2 x P)).
        { inversion R as [Kp V Sp PV E1 E2|Kp R0 V CC h rest Sp PV NE Lp LC OC LR EI Lt E1 E2|Kp R0 Sp NE Lp E1 E2|Kp R0 CC Sp NE Lp LC ST E1 E2|Kp R0 CC h rest Sp NE Lp LC OC LR EI Lt E1 E2]; try (subst o1; discriminate).
          - left. split; [reflexivity|]. intros x Rx. exact Rx.
          - right. split; [simpl; rewrite zlen_app, zlen_one; reflexivity|eapply CUT; eauto]. }
        destruct CASE as [[EN RX]|[EN CX]].
        + exists C. split; [apply CS; [assumption|]|split; [lia|split; [assumption|split; [lia|split; [lia|split; assumption]]]]].
          intros x Rx. apply RX, RS in Rx. tauto.
        + exists (C ++ [d]). split; [now apply CM|]. rewrite zlen_app, zlen_one. split; [lia|split; [assumption|split; [lia|split; [lia|split; assumption]]]].
      - intros ->. inversion R as [Kp V Sp PV E1 E2|Kp R0 V CC h rest Sp PV NE Lp LC OC LR EI Lt E1 E2|Kp R0 Sp NE Lp E1 E2|Kp R0 CC Sp NE Lp LC ST E1 E2|Kp R0 CC h rest Sp NE Lp LC OC LR EI Lt E1 E2];
          try (unfold verdict in *; destruct (sr_is_reached N p qa _); discriminate).
        rewrite <- E2 in *. destruct (CM CC0 (CUT _ _ Sp NE)) as [ND HC]. exists (C ++ [d]). split; [split; [assumption|intros j Hj; now apply HC]|]. rewrite zlen_app, zlen_one. lia.
      - intros ->. destruct (sound_step N E pmax tmax p ltac:(lia) Fp qa d s FailT s1 Fq L6 LT So R) as (_ & _ & H & _). specialize (H eq_refl).
        inversion R as [Kp V Sp PV E1 E2|Kp R0 V CC h rest Sp PV NE Lp LC OC LR EI Lt E1 E2|Kp R0 Sp NE Lp E1 E2|Kp R0 CC Sp NE Lp LC ST E1 E2|Kp R0 CC h rest Sp NE Lp LC OC LR EI Lt E1 E2];
          try (unfold verdict in *; destruct (sr_is_reached N p qa _); discriminate).
        rewrite <- E2 in *. destruct (CM CC0 (CUT _ _ Sp NE)) as [ND HC]. exists (C ++ [d]). split; [split; [assumption|intros j Hj; now apply HC]|]. rewrite zlen_app, zlen_one. lia. }
    inversion W as [|nb0 nbs0 q qp s0 s1 o0 s2 Hq Hqp R W'|nb0 nbs0 q qp s0 o0 s1 Hq Hqp R No]; subst.
    + assert (qp = qa) by (eapply QQ; eauto). subst qp. destruct (STEP Cont s1 R) as [H _]. destruct (H eq_refl) as (C1 & H1 & H2 & H3 & H4 & H5 & H6 & _).
      apply (IH (d + 1)%Z s1 o s' C1); auto; lia.
    + assert (qp = qa) by (eapply QQ; eauto). subst qp. destruct (STEP o s' R) as (H & HP & HT). split; [|split; [exact HP|exact HT]]. intros OK. destruct (H OK) as (C1 & [ND HC] & H2 & H3 & H4 & H5 & H6 & H7).
      assert (o = Reach) by (destruct o; try discriminate; congruence). exists C1. split; [|assumption]. split; [assumption|]. intros j. rewrite HC. split; [intros [R1 X]; split; [lia|assumption]|].
      intros [R1 (z & Ez & x & Ix & Dx)]. destruct (Z_lt_dec j (d + 1)) as [Lj|Lj]; [split; [lia|exists z; split; [assumption|exists x; auto]]|exfalso].
      assert (Rx : region s x).
      { apply RG. destruct Ix as [I1 I2]. split; [assumption|]. intros a Ha. apply I2. replace (Z.to_nat d) with (Nat.min (Z.to_nat d) (Z.to_nat j)) in Ha by lia. rewrite <- firstn_firstn in Ha. eapply (firstn_in _ _ _ Ha). }
      rewrite znth_map in Ez. destruct (znth A j) as [za|] eqn:Ej; [|discriminate]. injection Ez as <-.
      pose proof (Hs d j qa za ltac:(lia) Ea Ej) as D. rewrite (d2_sym (valp qa)), (d2_sym (valp za)) in D.
      specialize (H7 H0 x (valp za) Rx D). lra.
Qed.
Lemma walk_when tmax o s : (8 <= tmax)%Z ->
  walk N pmax tmax (znth (p :: A)) (zrange 1 (zlen A + 1)) p (zrange 0 (zlen A)) (cst0 N (repeat k_undefined (Z.to_nat (zlen A)))) o s ->
  (ok_out o = true -> (forall C, cutters P B C -> (zlen C + 6 <= pmax)%Z) /\
     forall m J W, (1 <= m <= zlen A)%Z -> facets (P :: firstn (Z.to_nat m) B) 0 J W -> (2 * (zlen J + zlen W) - 4 <= tmax)%Z) /\
  (o = FailP -> exists C, cutters P B C /\ (pmax < zlen C + 6)%Z) /\
  (o = FailT -> (exists C, cutters P B C /\ (tmax < 2 * zlen C + 8)%Z) /\ exists m J W, (1 <= m <= zlen A)%Z /\ contacts (P :: firstn (Z.to_nat m) B) 0 J W /\ (tmax < 2 * (zlen J + zlen W) - 4)%Z).
Proof.
  intros Ht W. pose proof (zlen_nonneg A) as LA. set (s0 := cst0 N (repeat k_undefined (Z.to_nat (zlen A)))) in *.
  assert (So0 : sound P s0) by (apply sound0; exact Cp). assert (L60 : n s0 = 6%Z) by reflexivity. assert (T0 : zlen (cT N s0) = 8%Z) by reflexivity.
  assert (FK : forall q qp, In q (zrange 1 (zlen A + 1)) -> znth (p :: A) q = Some qp -> finp qp).
  { intros q qp _ H. apply znth_in in H. destruct H as [<-|H]; [exact Fp|]. now apply HA. }
  destruct (walk_cuts tmax _ 0 s0 o s [] eq_refl ltac:(lia) ltac:(lia) ltac:(lia) So0) as (WO & WP & WT); auto.
  { intros y. unfold s0. rewrite region_cube. unfold in_cell. simpl. intuition. }
  { split; [constructor|]. intros j. simpl. split; [tauto|lia]. }
  split; [|split; [exact WP|]].
  - intros OK. split.
    + intros C [NC HC]. destruct (WO OK) as (C' & [ND HC'] & EN).
      destruct (walk_ok N E pmax tmax _ _ p ltac:(lia) Fp FK (zrange 0 (zlen A)) s0 o s ltac:(lia) ltac:(lia) ltac:(lia) So0 W OK) as (_ & Ls & _).
      assert (zlen C <= zlen C')%Z; [|lia]. unfold zlen. apply Nat2Z.inj_le. apply NoDup_incl_length; [assumption|]. intros j Hj. apply HC'. destruct (HC j Hj) as (q & Eq & Cq).
      split; [|eauto]. pose proof (znth_some _ _ _ Eq) as X. rewrite zlen_map in X. lia.
    + intros m J Wl Hm FC. rewrite (zrange_app 0 m (zlen A)) in W by lia.
      assert (X : exists o1 s1, walk N pmax tmax (znth (p :: A)) (zrange 1 (zlen A + 1)) p (zrange 0 m) s0 o1 s1 /\ ok_out o1 = true).
      { apply walk_split in W as [W|(s1 & W1 & _)]; eauto. }
      destruct X as (o1 & s1 & W1 & OK1). destruct (pref_walk tmax (zlen A) m o1 s1 ltac:(lia) ltac:(lia) W1) as [D W2].
      eapply pref_facets; eauto.
  - intros ->. split; [now apply WT|]. destruct (walk_over pmax _ _ p tmax _ _ _ W) as (a & nb & b & tm & o & s1 & EZ & Le & W1 & OK & Big).
    set (m := zlen a). pose proof (zlen_nonneg a). pose proof (zlen_nonneg b).
    assert (LZ : zlen (zrange 0 (zlen A)) = (m + 1 + zlen b)%Z) by (rewrite EZ, zlen_app, zlen_cons; unfold m; lia). rewrite zlen_zrange in LZ by lia.
    assert (EA : a ++ [nb] = zrange 0 (m + 1)).
    { apply (app_inj_len (a ++ [nb]) b (zrange 0 (m + 1)) (zrange (m + 1) (zlen A))).
      - rewrite zlen_zrange, zlen_app, zlen_one by lia. unfold m. lia.
      - rewrite <- zrange_app by lia. rewrite EZ, <- app_assoc. reflexivity. }
    rewrite EA in W1. destruct (pref_walk tm (zlen A) (m + 1) o s1 ltac:(lia) ltac:(lia) W1) as [D W2].
    destruct (pref_contacts tm (m + 1) o _ ltac:(lia) ltac:(lia) W2 OK) as (J & Wl & CT & LT). exists (m + 1)%Z, J, Wl. split; [lia|]. split; [assumption|]. simpl in LT. lia.
Qed.
End Pref.
(** ** a slot of a call *)
Section Slot.
Variables (pmax tmax : Z) (pts : list point) (k index : Z) (K row : list Z) (p : point) (o : nbout) (s : cst N).
Hypothesis Hpm : (6 <= pmax <= 255)%Z.
Hypothesis Htm : (8 <= tmax)%Z.
Hypothesis Hin : forall q, In q pts -> inside N E q.
Hypothesis Hp : znth pts index = Some p.
Hypothesis Hk : (0 < k)%Z.
Hypothesis HW : walk N pmax tmax (znth pts) K p (zrange 0 k) (cst0 N (repeat k_undefined (Z.to_nat k))) o s.
Hypothesis Hnear : nearest (sqdist N E pts index) (fun q => (0 <= q < zlen pts)%Z /\ q <> index) row.
Hypothesis Lrow : zlen row = Z.min k (zlen pts - 1).
Hypothesis HKrow : forall j q, znth row j = Some q -> znth K j = Some q.
Hypothesis HKb : forall q, In q K -> (0 <= q < zlen pts)%Z.
Notation P := (valp p).
Notation s0 := (cst0 N (repeat k_undefined (Z.to_nat k))).

(** candidates after the last other point change nothing *)
Lemma slot_trim : exists o1 s1, walk N pmax tmax (znth pts) K p (zrange 0 (zlen row)) s0 o1 s1 /\ ok_out o1 = ok_out o /\ (ok_out o = false -> o1 = o).
Proof.
  assert (Fp : finp p) by (apply Hin; eapply znth_in; eauto).
  assert (Cp : in_cube P).
  { assert (H : in_open_cube P) by (apply Hin; eapply znth_in; eauto). destruct P as [[a b] c]. simpl in *. lra. }
  assert (HF : forall q qp, In q K -> znth pts q = Some qp -> finp qp) by (intros q qp _ H; apply Hin; eapply znth_in; eauto).
  pose proof (znth_some _ _ _ Hp) as Ri.
  destruct (Z_le_gt_dec k (zlen pts - 1)) as [Hle|Hgt]; [replace (zlen row) with k by lia; eauto|].
  set (r := (zlen pts - 1)%Z) in *. assert (Lr : zlen row = r) by lia. rewrite Lr.
  assert (SPL : zrange 0 k = zrange 0 r ++ zrange r k) by (apply zrange_app; lia).
  assert (L0 : n s0 = 6%Z) by reflexivity. assert (T0 : zlen (cT N s0) = 8%Z) by reflexivity.
  pose proof (sound0 N E (repeat k_undefined (Z.to_nat k)) P Cp) as So0.
  rewrite SPL in HW. apply (walk_split N pmax tmax (znth pts) K p) in HW as [HW'|(s1 & W1 & W2)]; [eauto|].
  destruct (walk_sound N E pmax tmax (znth pts) K p ltac:(lia) Fp HF (zrange 0 r) s0 Cont s1 ltac:(lia) ltac:(lia) So0 W1) as (_ & _ & _ & _ & B5 & B6).
  destruct (B6 eq_refl) as [So1 LT1].
  destruct (walk_geom N E pmax tmax (znth pts) K p ltac:(lia) Fp HF (zrange 0 r) s0 Cont s1 ltac:(lia) (so_clip _ _ _ _ So0) W1 eq_refl) as (_ & _ & Q1 & _).
  assert (OK : ok_out o = true).
  { apply (walk_idle N E pmax tmax (znth pts) K p ltac:(lia) Fp HF (zrange r k) s1 o s); auto; [lia|].
    intros nb q qp y _ Hq Hqp Ry. destruct (Z.eq_dec q index) as [->|Nq]; [assert (qp = p) by congruence; subst qp; apply Rle_refl|].
    pose proof (row_all N E pts k index row p Hp Hnear Lrow q ltac:(lia) (HKb q (znth_in _ _ _ Hq)) Nq) as I.
    apply in_znth in I as (d & Hd & Ed). apply (Q1 eq_refl y d (valp qp) Ry); [apply in_zrange; lia|]. exists q, qp. auto. }
  exists Cont, s1. rewrite OK. split; [assumption|]. split; [reflexivity|discriminate].
Qed.

Lemma slot_when : let B := map (spot (map valp pts)) row in
  (ok_out o = true -> (forall C, cutters P B C -> (zlen C + 6 <= pmax)%Z) /\
     forall m J W, (1 <= m <= zlen row)%Z -> facets (P :: firstn (Z.to_nat m) B) 0 J W -> (2 * (zlen J + zlen W) - 4 <= tmax)%Z) /\
  (o = FailP -> exists C, cutters P B C /\ (pmax < zlen C + 6)%Z) /\
  (o = FailT -> (exists C, cutters P B C /\ (tmax < 2 * zlen C + 8)%Z) /\ exists m J W, (1 <= m <= zlen row)%Z /\ contacts (P :: firstn (Z.to_nat m) B) 0 J W /\ (tmax < 2 * (zlen J + zlen W) - 4)%Z).
Proof.
  intros B. set (get := fun q => match znth pts q with Some x => x | None => p end). set (A := map get row).
  destruct Hnear as (ND & Hc & Hsrt & _).
  assert (GT : forall q, In q row -> znth pts q = Some (get q)).
  { intros q Hq. apply Hc in Hq. unfold get. destruct (znth_in_range pts q ltac:(lia)) as [x Ex]. now rewrite Ex. }
  assert (LA : zlen A = zlen row) by (unfold A; now rewrite zlen_map).
  assert (EB : map valp A = B).
  { unfold A, B. rewrite map_map. apply map_ext_in. intros q Hq. unfold spot. rewrite znth_map, (GT q Hq). reflexivity. }
  assert (IP : inside N E p) by (apply Hin; eapply znth_in; eauto).
  assert (IA : forall q, In q A -> inside N E q). { intros x Hx. apply in_map_iff in Hx as (q & <- & Hq). apply Hin. eapply znth_in. now apply GT. }
  assert (SA : forall i j a b, (0 <= i <= j)%Z -> znth A i = Some a -> znth A j = Some b -> d2 (valp a) P <= d2 (valp b) P).
  { intros i j a b Hij Ea Eb. unfold A in Ea, Eb. rewrite znth_map in Ea, Eb. destruct (znth row i) as [qi|] eqn:Ei; [|discriminate]. destruct (znth row j) as [qj|] eqn:Ej; [|discriminate].
    injection Ea as <-. injection Eb as <-. pose proof (Hsrt i j qi qj Hij Ei Ej) as H. unfold sqdist in H. rewrite (GT qi), (GT qj), Hp in H by (eapply znth_in; eauto). exact H. }
  destruct slot_trim as (o1 & s1 & W1 & E1 & F1).
  destruct (walk_same pmax tmax _ (znth (p :: A)) _ (zrange 1 (zlen A + 1)) p _ _ _ _ W1) with (D := repeat k_undefined (Z.to_nat (zlen A))) as [D' W2].
  { intros nb q qp I Eq Ep. apply in_zrange in I. destruct (znth_in_range row nb ltac:(lia)) as [q' Eq']. pose proof (HKrow nb q' Eq') as X. assert (q' = q) by congruence. subst q'.
    exists (nb + 1)%Z. split; [rewrite znth_zrange by lia; f_equal; lia|]. rewrite znth_cons by lia. replace (nb + 1 - 1)%Z with nb by lia. unfold A. rewrite znth_map, Eq'. simpl.
    rewrite <- Ep. symmetry. apply GT. eapply znth_in; eauto. }
  rewrite <- LA in W2.
  destruct (walk_when pmax p A Hpm IP IA SA tmax o1 _ Htm W2) as (A1 & A2 & A3). rewrite EB in *. rewrite LA in *. rewrite E1 in A1.
  split; [assumption|]. split; intros X; [apply A2|apply A3]; rewrite F1; auto; now rewrite X.
Qed.
End Slot.

(** ** calls *)
Lemma api_when w c P0 ob i b : api_ok N E c P0 -> tess_core N w c cpu P0 = Ok ob -> znth (o_states N ob) i = Some b ->
  exists p near, znth (map valp (o_pts N ob)) i = Some p /\ nearest (sqdist N E (o_pts N ob) i) (fun q => (0 <= q < zlen P0)%Z /\ q <> i) near /\ zlen near = Z.min (c_k c) (zlen P0 - 1) /\
  let B := map (spot (map valp (o_pts N ob))) near in
  (errorless b -> (forall C, cutters p B C -> (zlen C + 6 <= c_pmax c)%Z) /\
     forall m J W, (1 <= m <= zlen near)%Z -> facets (p :: firstn (Z.to_nat m) B) 0 J W -> (2 * (zlen J + zlen W) - 4 <= c_tmax c)%Z) /\
  (Z.testbit b 4 = true -> exists C, cutters p B C /\ (c_pmax c < zlen C + 6)%Z) /\
  (Z.testbit b 5 = true -> (exists C, cutters p B C /\ (c_tmax c < 2 * zlen C + 8)%Z) /\ exists m J W, (1 <= m <= zlen near)%Z /\ contacts (p :: firstn (Z.to_nat m) B) 0 J W /\ (c_tmax c < 2 * (zlen J + zlen W) - 4)%Z).
Proof.
  intros Hapi Hrun Hb. destruct (api_facts N E w c P0 ob Hapi Hrun i b Hb) as (L & Hin & p & K & row & o & s & SF).
  destruct SF as (Ri & Ep & LK & Wk & Nr & Lr & HKr & HKb & cl & ->). assert (Hc : cfg_ok c) by apply Hapi. destruct Hc as (K1 & K2 & K3).
  exists (valp p), row. split; [rewrite znth_map, Ep; reflexivity|]. rewrite <- L. split; [assumption|]. split; [assumption|].
  destruct (slot_when (c_pmax c) (c_tmax c) (o_pts N ob) (c_k c) i K row p o s) as (A1 & A2 & A3); auto; try lia.
  cbv zeta. split; [|split].
  - intros EB. apply byte_ok in EB. now apply A1.
  - intros T4. apply A2. destruct cl, o; vm_compute in T4; congruence.
  - intros T5. apply A3. destruct cl, o; vm_compute in T5; congruence.
Qed.

Lemma api_exactly w c P0 ob i b : api_ok N E c P0 -> tess_core N w c cpu P0 = Ok ob -> znth (o_states N ob) i = Some b ->
  exists p near, znth (map valp (o_pts N ob)) i = Some p /\ nearest (sqdist N E (o_pts N ob) i) (fun q => (0 <= q < zlen P0)%Z /\ q <> i) near /\ zlen near = Z.min (c_k c) (zlen P0 - 1) /\
  let B := map (spot (map valp (o_pts N ob))) near in firm p B -> (errorless b <-> holds_cell (c_pmax c) (c_tmax c) p B).
Proof.
  intros Hapi Hrun Hb. destruct (api_when w c P0 ob i b Hapi Hrun Hb) as (p & near & A1 & A2 & A3 & A4 & A5 & A6). exists p, near. split; [assumption|]. split; [assumption|]. split; [assumption|].
  intros B Fm. assert (LB : zlen B = zlen near) by (unfold B; now rewrite zlen_map). fold B in A4, A5, A6. split.
  - intros EB. destruct (A4 EB) as [X Y]. split; [exact X|]. rewrite LB. exact Y.
  - intros [X Y]. rewrite LB in Y. destruct (api_flags N E w c P0 ob Hapi Hrun i b Hb) as (B1 & B6 & _). split; [assumption|]. split; [|split; [|assumption]]; apply not_true_is_false; intros H.
    + destruct (A5 H) as (C & HC & Lt). specialize (X C HC). lia.
    + destruct (A6 H) as (_ & m & J & W & Hm & HC & Lt). apply Fm in HC; [|lia]. specialize (Y m J W Hm HC). lia.
Qed.
End G.
