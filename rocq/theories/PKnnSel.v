(** Bounded-heap selection: after any sequence of candidates the heap holds the
    k smallest of what was offered, padding included. *)
From Verif Require Import Base Arith PBase Exact Prog PProg MUtils MHeap MKnn SpecHeap SpecGeom SpecKnn PExact PHeap.
Local Open Scope prog_scope.

Lemma Forall2_znth {A B} (R : A -> B -> Prop) l l' i : Forall2 R l l' ->
  (forall x, znth l i = Some x -> exists y, znth l' i = Some y /\ R x y) /\
  (forall y, znth l' i = Some y -> exists x, znth l i = Some x /\ R x y).
Proof.
  intros H. unfold znth. destruct (0 <=? i); [|split; discriminate]. generalize (Z.to_nat i) as n.
  induction H as [|x y l l' Hxy H IH]; intros [|n]; simpl; split; intros z Hz; try discriminate.
  - injection Hz as <-. eauto.
  - injection Hz as <-. eauto.
  - apply (proj1 (IH n)). assumption.
  - apply (proj2 (IH n)). assumption.
Qed.
Lemma Forall2_zlen {A B} (R : A -> B -> Prop) l l' : Forall2 R l l' -> zlen l = zlen l'.
Proof. intros H. unfold zlen. f_equal. induction H; simpl; congruence. Qed.
Lemma Forall2_zupd {A B} (R : A -> B -> Prop) l l' i x y : Forall2 R l l' -> R x y ->
  Forall2 R (zupd l i x) (zupd l' i y).
Proof.
  intros H Hxy. unfold zupd. destruct (0 <=? i); [|assumption]. generalize (Z.to_nat i) as n.
  induction H as [|u v l l' Huv H IH]; intros [|n]; simpl; constructor; auto.
Qed.

Lemma Forall2_swap {A B} (R : A -> B -> Prop) l l' : Forall2 R l l' -> Forall2 (fun y x => R x y) l' l.
Proof. induction 1; constructor; auto. Qed.

Lemma NoDup_app_l {A} (l l' : list A) : NoDup (l ++ l') -> NoDup l.
Proof.
  induction l as [|x l IH]; simpl; intros H; constructor; inversion_clear H; auto.
  intros K. apply H0. apply in_or_app. now left.
Qed.

Section Sel.
Variable N : Arith.
Variable E : Exact N.
Notation F := (F N).
Notation fin := (fin E).
Notation val := (val E).
Variable dev : bool.
Variable D : Z -> R.

Definition ispad (x : F) : Prop := if dev then fin x /\ val x = 128%R else x = finf N.
Definition relO (o : option Z) (x : Z * F) : Prop :=
  match o with
  | Some p => fst x = p /\ fin (snd x) /\ val (snd x) = D p /\ (D p < 128)%R
  | None => fst x = 0 /\ ispad (snd x)
  end.
Definition rank (o : option Z) : R := match o with Some p => D p | None => 128%R end.

Lemma rel_lt o x o' x' : relO o x -> relO o' x' ->
  flt N (snd x) (snd x') = true <-> (rank o < rank o')%R.
Proof.
  unfold relO, ispad. destruct o as [p|], o' as [p'|]; simpl.
  - intros (_ & F1 & V1 & B1) (_ & F2 & V2 & B2). rewrite (flt_true N E) by assumption. now rewrite V1, V2.
  - intros (_ & F1 & V1 & B1) (_ & P). destruct dev.
    + destruct P. rewrite (flt_true N E) by assumption. rewrite V1. rewrite H0. reflexivity.
    + rewrite P, (ex_lt_inf _ E) by assumption. tauto.
  - intros (_ & P) (_ & F1 & V1 & B1). destruct dev.
    + destruct P. rewrite (flt_true N E) by assumption. rewrite V1, H0. reflexivity.
    + rewrite P, (ex_inf_lt _ E) by assumption. split; [discriminate|lra].
  - intros (_ & P) (_ & P'). destruct dev.
    + destruct P, P'. rewrite (flt_true N E) by assumption. rewrite H2, H0. reflexivity.
    + rewrite P, P', (ex_inf_inf _ E). split; [discriminate|lra].
Qed.
Lemma rel_ge o x o' x' : relO o x -> relO o' x' ->
  flt N (snd x) (snd x') = false <-> (rank o' <= rank o)%R.
Proof.
  intros H H'. pose proof (rel_lt o x o' x' H H') as L.
  destruct (flt N (snd x) (snd x')); split; intros K; try discriminate; try reflexivity.
  - assert (rank o < rank o')%R by tauto. lra.
  - destruct (Rlt_le_dec (rank o) (rank o')) as [Q|Q]; [apply L in Q; discriminate|assumption].
Qed.

Definition isval (x : F) : Prop := exists o i, relO o (i, x).
Lemma isval_order : weak_order N isval.
Proof.
  constructor.
  - intros x y (o & i & H) (o' & i' & H') L.
    apply (rel_lt o (i, x) o' (i', y) H H') in L. apply (rel_ge o' (i', y) o (i, x) H' H). lra.
  - intros x y z (o1 & i1 & H1) (o2 & i2 & H2) (o3 & i3 & H3) L1 L2.
    apply (rel_ge _ (i2, y) _ (i1, x) H2 H1) in L1. apply (rel_ge _ (i3, z) _ (i2, y) H3 H2) in L2.
    apply (rel_ge _ (i3, z) _ (i1, x) H3 H1). lra.
Qed.
Lemma rel_good ks h : Forall2 relO ks h -> good N isval h.
Proof.
  intros H. unfold good. induction H as [|o [i x] ks h Ho H IH]; constructor; auto.
  simpl. exists o, i. assumption.
Qed.

Definition hp (k : Z) (h : list (Z * F)) : Prop := forall j, 0 <= j -> ordered_at N k h j.

Lemma hp_rank k ks h h' : Forall2 relO ks h -> Forall2 relO ks h' -> hp k h -> hp k h'.
Proof.
  intros H H' Hp j Hj.
  assert (G : forall c, above N k h j c -> above N k h' j c).
  { intros c A x y Hc Hx Hy. unfold pq_at in Hx, Hy.
    destruct (znth h' j) as [a'|] eqn:Ea'; [|discriminate]. destruct (znth h' c) as [b'|] eqn:Eb'; [|discriminate].
    injection Hx as <-. injection Hy as <-.
    apply (proj2 (Forall2_znth _ _ _ j H')) in Ea' as (o & Eo & Ho).
    apply (proj2 (Forall2_znth _ _ _ c H')) in Eb' as (o' & Eo' & Ho').
    apply (proj1 (Forall2_znth _ _ _ j H)) in Eo as (a & Ea & Ha).
    apply (proj1 (Forall2_znth _ _ _ c H)) in Eo' as (b & Eb & Hb).
    apply (rel_ge o a' o' b' Ho Ho'). apply (rel_ge o a o' b Ha Hb).
    apply A; [assumption|unfold pq_at; now rewrite Ea|unfold pq_at; now rewrite Eb]. }
  destruct (Hp j Hj). split; auto.
Qed.

(** the k smallest of padding and V *)
Definition selected (k : Z) (V : list Z) (ks : list (option Z)) : Prop :=
  exists rest, Permutation (ks ++ rest) (repeat None (Z.to_nat k) ++ map Some V) /\
    (forall o o', In o ks -> In o' rest -> (rank o <= rank o')%R).
Definition Inv (k : Z) (V : list Z) (h : list (Z * F)) : Prop :=
  zlen h = k /\ hp k h /\ exists ks, Forall2 relO ks h /\ selected k V ks.

Lemma root_rank k h ks o0 : zlen h = k -> hp k h -> Forall2 relO ks h -> znth ks 0 = Some o0 ->
  forall o, In o ks -> (rank o <= rank o0)%R.
Proof.
  intros L Hp H H0 o Ho. apply in_znth in Ho as (j & Hj & Ej).
  destruct (proj1 (Forall2_znth _ _ _ 0 H) _ H0) as (x0 & E0 & R0).
  destruct (proj1 (Forall2_znth _ _ _ j H) _ Ej) as (x & Ex & Rx).
  apply (rel_ge o0 x0 o x R0 Rx).
  apply (root_max N isval isval_order k h (rel_good _ _ H) ltac:(lia) Hp j).
  - rewrite (Forall2_zlen _ _ _ H) in Hj. lia.
  - unfold pq_at. now rewrite E0.
  - unfold pq_at. now rewrite Ex.
Qed.

Lemma inv_keep k V h ks o0 p x : 0 < k -> zlen h = k -> hp k h -> Forall2 relO ks h -> selected k V ks ->
  znth ks 0 = Some o0 -> relO o0 x -> (rank o0 <= D p)%R -> Inv k (V ++ [p]) (zupd h 0 x).
Proof.
  intros Hk L Hp H (rest & P & Dm) H0 Rx Le.
  assert (H' : Forall2 relO ks (zupd h 0 x)).
  { rewrite <- (zupd_same ks 0 o0) by assumption. now apply Forall2_zupd. }
  split; [now rewrite zlen_zupd|]. split; [now apply (hp_rank k ks h)|].
  exists ks. split; [assumption|]. exists (Some p :: rest). split.
  - rewrite map_app. simpl.
    eapply perm_trans; [symmetry; apply Permutation_middle|].
    rewrite app_assoc. eapply perm_trans; [apply perm_skip, P|]. apply Permutation_cons_append.
  - intros o o' Ho [<-|Ho']; [|auto]. simpl.
    pose proof (root_rank k h ks o0 L Hp H H0 o Ho). lra.
Qed.

Lemma inv_replace k V h ks o0 p x : 0 < k -> zlen h = k -> hp k h -> Forall2 relO ks h -> selected k V ks ->
  znth ks 0 = Some o0 -> relO (Some p) x -> (D p < rank o0)%R ->
  Inv k (V ++ [p]) (mh N (Z.to_nat k) k 0 (zupd h 0 x)).
Proof.
  intros Hk L Hp H (rest & P & Dm) H0 Rx Lt.
  pose proof (root_rank k h ks o0 L Hp H H0) as RM.
  assert (H1 : Forall2 relO (zupd ks 0 (Some p)) (zupd h 0 x)) by now apply Forall2_zupd.
  destruct ks as [|o1 kt]; [discriminate|]. rewrite znth_0 in H0. injection H0 as ->.
  change (zupd (o0 :: kt) 0 (Some p)) with (Some p :: kt) in H1.
  assert (L1 : zlen (zupd h 0 x) = k) by now rewrite zlen_zupd.
  split; [now rewrite zlen_mh|]. split.
  - intros j Hj. refine (mh_down N isval isval_order k 0 (zupd h 0 x) (Z.to_nat k) _ _ _ _ _ j Hj); try lia.
    + eapply rel_good; eauto.
    + intros j' Hj'. assert (Hp' := Hp j' ltac:(lia)). unfold ordered_at, above, pq_at in *.
      rewrite !znth_zupd_other by lia. assumption.
  - destruct (Permutation_Forall2 (Permutation_sym (perm_mh N (Z.to_nat k) k 0 (zupd h 0 x)))
                (Forall2_swap _ _ _ H1)) as (ks' & Pk & Fk).
    exists ks'. split; [now apply Forall2_swap in Fk|].
    exists (o0 :: rest). split.
    + eapply perm_trans; [apply Permutation_app_tail; symmetry; exact Pk|]. simpl.
      rewrite map_app. simpl. rewrite app_assoc.
      eapply perm_trans; [apply perm_skip; symmetry; apply Permutation_middle|].
      eapply perm_trans; [apply perm_skip; exact P|]. apply Permutation_cons_append.
    + assert (B : forall o, In o ks' -> (rank o <= rank o0)%R).
      { intros o Ho. apply (Permutation_in _ (Permutation_sym Pk)) in Ho as [<-|Ho]; [simpl; lra|].
        apply RM. now right. }
      intros o o' Ho [<-|Ho']; [auto|]. specialize (B o Ho).
      assert (rank o0 <= rank o')%R by (apply Dm; [now left|assumption]). lra.
Qed.

(** ** one candidate *)
Variable pts : Z -> option (point N).
Variable q : point N.
Hypothesis Fq : finp N E q.
Variable index : Z.
Definition candidate (p : Z) : Prop :=
  exists pp, pts p = Some pp /\ finp N E pp /\ D p = d2 (valp N E pp) (valp N E q) /\ (D p < 128)%R.

Notation ad := (fun j : Z => j).

Lemma visit_run l k V h p : 0 < k -> candidate p -> p <> index -> Inv k V h ->
  exists h', run (knn_visit N ad pts dev k index q p) (hmem N l h) = Ok (tt, hmem N l h') /\ Inv k (V ++ [p]) h'.
Proof.
  intros Hk (pp & Ep & Fp & Dp & Bp) Np (L & Hp & ks & H & Sel).
  destruct (get_distance_exact N E pp q Fp Fq) as [Fd Vd]. rewrite <- Dp in Vd.
  destruct (znth_in_range h 0 ltac:(lia)) as [x0 E0].
  destruct (proj2 (Forall2_znth _ _ _ 0 H) _ E0) as (o0 & Eo & R0).
  unfold knn_visit. replace (p =? index) with false by lia. rewrite Ep. cbn [pure_opt bind].
  set (pq := get_distance N pp q) in *.
  assert (Rp : relO (Some p) (p, pq)) by (simpl; auto).
  pose proof (rel_lt (Some p) (p, pq) o0 x0 Rp R0) as LT. pose proof (rel_ge (Some p) (p, pq) o0 x0 Rp R0) as GE.
  simpl snd in LT, GE. simpl rank in LT, GE.
  assert (RI : mrd (hmem N l h) AHeapId 0 = Some (fst x0)) by now apply hmem_id.
  assert (RP : mrd (hmem N l h) AHeapPq 0 = Some (snd x0)) by now apply hmem_pq.
  assert (W : forall i v, mwr (mwr (hmem N l h) AHeapId 0 i) AHeapPq 0 v = hmem N l (zupd h 0 (i, v))).
  { intros i v. unfold mwr, hmem. simpl.
    replace (zupd (map fst h) 0 i) with (map fst (zupd h 0 (i, v))).
    - replace (zupd (map snd h) 0 v) with (map snd (zupd h 0 (i, v))); [reflexivity|].
      destruct h; reflexivity.
    - destruct h; reflexivity. }
  cbn [rd bind]. rewrite (run_Rd _ _ _ _ _ RP). cbn zeta.
  destruct dev eqn:Ed.
  - (* device *)
    cbn [rd wr bind]. rewrite (run_Rd _ _ _ _ _ RI), (run_Wr _ _ _ _ _ _ RI).
    assert (RP' : mrd (mwr (hmem N l h) AHeapId 0 (b2z (negb (flt N pq (snd x0))) * fst x0 + b2z (flt N pq (snd x0)) * p)) AHeapPq 0 = Some (snd x0)).
    { rewrite mrd_mwr_other by (left; discriminate). assumption. }
    rewrite (run_Rd _ _ _ _ _ RP'), (run_Wr _ _ _ _ _ _ RP'), W.
    assert (Fx0 : fin (snd x0)).
    { unfold relO, ispad in R0. rewrite Ed in R0. destruct o0; tauto. }
    destruct (flt N pq (snd x0)) eqn:C; simpl b2z; simpl negb.
    + eexists. split.
      { rewrite Z.mul_1_l. apply run_mh; rewrite ?zlen_zupd; lia. }
      rewrite ?Z.mul_1_l.
      apply (inv_replace k V h ks o0 p); auto; [|tauto].
      replace (0 * fst x0 + p) with p by lia.
      unfold relO, fbool, b2z. simpl fst. simpl snd. split; [reflexivity|].
      split; [auto 10 with fin|]. split; [|assumption]. vpush. rewrite Vd. ring.
    + eexists. split.
      { rewrite Z.mul_0_l. apply (run_mh N l); rewrite ?zlen_zupd; lia. }
      replace (mh N _ _ _ _) with (zupd h 0 (1 * fst x0 + 0 * p, fadd N (fmul N (fbool N true) (snd x0)) (fmul N (fbool N false) pq))).
      2:{ cbn. reflexivity. }
      apply (inv_keep k V h ks o0 p); auto; [|tauto].
      replace (1 * fst x0 + 0 * p) with (fst x0) by lia.
      assert (Q : fin (fadd N (fmul N (fbool N true) (snd x0)) (fmul N (fbool N false) pq)) /\
              val (fadd N (fmul N (fbool N true) (snd x0)) (fmul N (fbool N false) pq)) = val (snd x0)).
      { unfold fbool, b2z. split; [auto 10 with fin|]. vpush. ring. }
      unfold relO, ispad in *. rewrite Ed in *. simpl fst. simpl snd. destruct Q as [Q1 Q2]. rewrite Q2.
      destruct o0; tauto.
  - destruct (flt N pq (snd x0)) eqn:C.
    + cbn [wr bind]. rewrite (run_Wr _ _ _ _ _ _ RI).
      assert (RP' : mrd (mwr (hmem N l h) AHeapId 0 p) AHeapPq 0 = Some (snd x0)).
      { rewrite mrd_mwr_other by (left; discriminate). assumption. }
      rewrite (run_Wr _ _ _ _ _ _ RP'), W.
      eexists. split; [apply run_mh; rewrite ?zlen_zupd; lia|].
      apply (inv_replace k V h ks o0 p); auto. tauto.
    + exists h. split; [reflexivity|]. rewrite <- (zupd_same h 0 x0 E0) at 1.
      apply (inv_keep k V h ks o0 p); auto. tauto.
Qed.

Lemma visits_run l k : 0 < k -> forall ps V h, (forall p, In p ps -> p <> index -> candidate p) -> Inv k V h ->
  exists h', run (forM ps (knn_visit N ad pts dev k index q)) (hmem N l h) = Ok (tt, hmem N l h') /\
    Inv k (V ++ filter (fun p => negb (p =? index)) ps) h'.
Proof.
  intros Hk. induction ps as [|p ps IH]; intros V h Hc HI.
  - exists h. rewrite app_nil_r. auto.
  - cbn [forM filter]. destruct (Z.eqb_spec p index) as [->|Np]; simpl negb; cbn iota.
    + unfold knn_visit at 1. rewrite Z.eqb_refl. cbn [bind]. apply IH; auto. intros; apply Hc; auto; now right.
    + destruct (visit_run l k V h p Hk (Hc p (or_introl eq_refl) Np) Np HI) as (h1 & R1 & I1).
      destruct (IH (V ++ [p]) h1) as (h2 & R2 & I2); [intros; apply Hc; auto; now right|assumption|].
      exists h2. rewrite run_bind, R1. split; [exact R2|]. now rewrite <- app_assoc in I2.
Qed.

(** ** from the selection to the sorted row *)
Definition somes (ks : list (option Z)) : list Z := flat_map (fun o => match o with Some p => [p] | None => [] end) ks.
Lemma somes_app a b : somes (a ++ b) = somes a ++ somes b.
Proof. unfold somes. now rewrite flat_map_app. Qed.
Lemma somes_map V : somes (map Some V) = V.
Proof. induction V; simpl; congruence. Qed.
Lemma somes_repeat n : somes (repeat None n) = [].
Proof. induction n; simpl; auto. Qed.
Lemma somes_perm a b : Permutation a b -> Permutation (somes a) (somes b).
Proof. intros H. unfold somes. now apply Permutation_flat_map. Qed.
Lemma in_somes p ks : In p (somes ks) <-> In (Some p) ks.
Proof.
  unfold somes. rewrite in_flat_map. split.
  - intros ([v|] & H & Hin); simpl in Hin; [|tauto]. destruct Hin as [<-|[]]. assumption.
  - intros H. exists (Some p). simpl. auto.
Qed.

Lemma split_pads ks : (forall o, In o ks -> match o with Some p => (D p < 128)%R | None => True end) ->
  (forall i j a b, 0 <= i < j -> znth ks i = Some a -> znth ks j = Some b -> (rank a <= rank b)%R) ->
  exists m, ks = map Some (somes ks) ++ repeat None m.
Proof.
  induction ks as [|o ks IH]; intros HB HS.
  - exists 0%nat. reflexivity.
  - assert (HS' : forall i j a b, 0 <= i < j -> znth ks i = Some a -> znth ks j = Some b -> (rank a <= rank b)%R).
    { intros i j a b Hij Ha Hb. apply (HS (i + 1) (j + 1)); [lia| |]; rewrite znth_cons by lia;
        [now replace (i + 1 - 1) with i by lia|now replace (j + 1 - 1) with j by lia]. }
    destruct IH as [m Em]; auto. { intros; apply HB; now right. }
    destruct o as [p|].
    + exists m. simpl. now rewrite Em at 1.
    + assert (somes ks = []) as E0.
      { destruct (somes ks) as [|p s] eqn:Es; [reflexivity|]. exfalso.
        assert (In (Some p) ks) by (apply in_somes; rewrite Es; now left).
        pose proof (HB (Some p) (or_intror H)) as B. simpl in B.
        apply in_znth in H as (j & Hj & Ej).
        assert (rank None <= rank (Some p))%R; [|simpl in *; lra].
        apply (HS 0 (j + 1)); [lia|reflexivity|]. rewrite znth_cons by lia. now replace (j + 1 - 1) with j by lia. }
      rewrite E0 in Em. simpl in *. exists (S m). rewrite E0. simpl. now rewrite Em at 1.
Qed.

Lemma row_final k V h' ks : 0 <= k -> NoDup V -> (forall p, In p V -> (D p < 128)%R) ->
  Forall2 relO ks h' -> selected k V ks -> zlen h' = k ->
  ascending N h' ->
  exists row, nearest D (fun p => In p V) row /\ zlen row = Z.min k (zlen V) /\
    (forall j p, znth row j = Some p -> exists x, znth h' j = Some x /\ relO (Some p) x) /\
    (forall j, zlen row <= j < k -> exists x, znth h' j = Some x /\ relO None x).
Proof.
  intros Hk ND HV H (rest & P & Dm) L A.
  assert (HB : forall o, In o ks -> match o with Some p => (D p < 128)%R | None => True end).
  { intros o Ho. apply in_znth in Ho as (j & Hj & Ej).
    destruct (proj1 (Forall2_znth _ _ _ j H) _ Ej) as (x & Ex & Rx). destruct o; simpl in *; tauto. }
  assert (HS : forall i j a b, 0 <= i < j -> znth ks i = Some a -> znth ks j = Some b -> (rank a <= rank b)%R).
  { intros i j a b Hij Ha Hb.
    destruct (proj1 (Forall2_znth _ _ _ i H) _ Ha) as (x & Ex & Rx).
    destruct (proj1 (Forall2_znth _ _ _ j H) _ Hb) as (y & Ey & Ry).
    apply (rel_ge b y a x Ry Rx). apply (A i j); auto; unfold pq_at; [now rewrite Ex|now rewrite Ey]. }
  destruct (split_pads ks HB HS) as [m Em].
  set (row := somes ks) in *. exists row.
  assert (P2 : Permutation (row ++ somes rest) V).
  { apply somes_perm in P. rewrite !somes_app, somes_repeat, somes_map in P. exact P. }
  assert (NDa : NoDup (row ++ somes rest)) by (eapply Permutation_NoDup; [symmetry; exact P2|assumption]).
  assert (Lk : zlen ks = k) by (rewrite (Forall2_zlen _ _ _ H); assumption).
  assert (Lr : zlen row + Z.of_nat m = k).
  { rewrite <- Lk. rewrite Em, zlen_app, zlen_map, zlen_repeat. reflexivity. }
  assert (ZL : zlen V = zlen row + zlen (somes rest)).
  { rewrite <- zlen_app. unfold zlen. now rewrite (Permutation_length P2). }
  assert (Z0 := zlen_nonneg (somes rest)).
  assert (M0 : m <> 0%nat -> somes rest = []).
  { intros Hm. destruct (somes rest) as [|p s] eqn:Es; [reflexivity|]. exfalso.
    assert (Hp : In (Some p) rest) by (apply in_somes; rewrite Es; now left).
    assert (In None ks) by (rewrite Em; apply in_or_app; right; destruct m; [lia|now left]).
    pose proof (Dm None (Some p) H0 Hp) as Q. simpl in Q.
    assert (In (Some p) (repeat None (Z.to_nat k) ++ map Some V)).
    { eapply Permutation_in; [exact P|]. apply in_or_app. now right. }
    assert (PV : In p V). { eapply Permutation_in; [exact P2|]. apply in_or_app. right. now left. }
    specialize (HV p PV). lra. }
  split.
  { split; [now apply NoDup_app_l in NDa|]. split.
    { intros p Hp. eapply Permutation_in; [exact P2|]. apply in_or_app. now left. }
    split.
    - intros i j p p' Hij Ei Ej. destruct (Z.eq_dec i j) as [->|Nij].
      + rewrite Ei in Ej. injection Ej as <-. lra.
      + apply (HS i j (Some p) (Some p')); [lia| |]; rewrite Em;
          pose proof (znth_some _ _ _ Ei); pose proof (znth_some _ _ _ Ej);
          rewrite znth_app1, znth_map by (rewrite zlen_map; lia); [now rewrite Ei|now rewrite Ej].
    - intros p p' Hp Hp' Np'.
      apply (Permutation_in _ (Permutation_sym P2)) in Hp'. apply in_app_or in Hp' as [Hp'|Hp']; [contradiction|].
      apply (Dm (Some p) (Some p')); [now apply in_somes|now apply in_somes]. }
  split.
  { destruct (Nat.eq_dec m 0) as [->|Nm]; [lia|]. rewrite (M0 Nm) in *. change (zlen []) with 0 in ZL. lia. }
  split.
  - intros j p Ej. pose proof (znth_some _ _ _ Ej).
    assert (K : znth ks j = Some (Some p)).
    { rewrite Em, znth_app1, znth_map by (rewrite zlen_map; lia). now rewrite Ej. }
    apply (proj1 (Forall2_znth _ _ _ j H)) in K. exact K.
  - intros j Hj. pose proof (zlen_nonneg row).
    assert (K : znth ks j = Some None).
    { rewrite Em, znth_app2 by (rewrite zlen_map; lia). rewrite zlen_map. apply znth_repeat. lia. }
    apply (proj1 (Forall2_znth _ _ _ j H)) in K. exact K.
Qed.
End Sel.
