(** The heap programs on a row, their pure meaning, and heap sort. *)
From Verif Require Import Base Arith PBase Prog PProg MHeap SpecHeap PSort.
Local Open Scope prog_scope.

(** ** exchanging two entries of a list *)
Definition zswap {A} (l : list A) (a b : Z) : list A :=
  match znth l a, znth l b with
  | Some x, Some y => zupd (zupd l a y) b x
  | _, _ => l
  end.

Lemma zlen_zswap {A} (l : list A) a b : zlen (zswap l a b) = zlen l.
Proof. unfold zswap. destruct (znth l a), (znth l b); rewrite ?zlen_zupd; reflexivity. Qed.
Lemma znth_zswap {A} (l : list A) a b j : 0 <= a < zlen l -> 0 <= b < zlen l ->
  znth (zswap l a b) j = if j =? a then znth l b else if j =? b then znth l a else znth l j.
Proof.
  intros Ha Hb. destruct (znth_in_range l a Ha) as [x Hx]. destruct (znth_in_range l b Hb) as [y Hy].
  unfold zswap. rewrite Hx, Hy.
  destruct (j =? a) eqn:Ea.
  - apply Z.eqb_eq in Ea. subst j. destruct (Z.eq_dec b a) as [->|N].
    + rewrite znth_zupd_same by (now rewrite zlen_zupd). congruence.
    + rewrite znth_zupd_other by lia. rewrite znth_zupd_same by lia. congruence.
  - destruct (j =? b) eqn:Eb.
    + apply Z.eqb_eq in Eb. subst j. rewrite znth_zupd_same by (now rewrite zlen_zupd). congruence.
    + rewrite !znth_zupd_other by lia. reflexivity.
Qed.
Lemma map_zswap {A B} (f : A -> B) l a b : map f (zswap l a b) = zswap (map f l) a b.
Proof.
  unfold zswap. rewrite !znth_map. destruct (znth l a); simpl; [|reflexivity].
  destruct (znth l b); simpl; [|reflexivity]. now rewrite !map_zupd.
Qed.
Lemma perm_zupd {A} (l : list A) a x y : znth l a = Some x -> Permutation (x :: zupd l a y) (y :: l).
Proof.
  unfold znth, zupd. destruct (0 <=? a); [|discriminate]. revert l.
  induction (Z.to_nat a) as [|n IH]; intros [|z l] H; simpl in *; try discriminate.
  - injection H as ->. apply perm_swap.
  - eapply perm_trans; [apply perm_swap|]. eapply perm_trans; [apply perm_skip, (IH _ H)|]. apply perm_swap.
Qed.
Lemma perm_zswap {A} (l : list A) a b : Permutation (zswap l a b) l.
Proof.
  unfold zswap. destruct (znth l a) as [x|] eqn:Ha; [|reflexivity]. destruct (znth l b) as [y|] eqn:Hb; [|reflexivity].
  pose proof (znth_some _ _ _ Ha). pose proof (znth_some _ _ _ Hb).
  destruct (Z.eq_dec a b) as [->|N].
  - rewrite Ha in Hb. injection Hb as <-. now rewrite zupd_twice, zupd_same.
  - pose proof (perm_zupd l a x y Ha) as P1.
    assert (Hb' : znth (zupd l a y) b = Some y) by (rewrite znth_zupd_other by assumption; assumption).
    pose proof (perm_zupd (zupd l a y) b y x Hb') as P2.
    apply (Permutation_cons_inv (a := y)). eapply perm_trans; [exact P2|]. exact P1.
Qed.

Section Heap.
Variable N : Arith.
Notation F := (F N).
Notation heap := (list (Z * F)).

(** the row memory holding heap h *)
Definition hmem (l : mem F) (h : heap) : mem F :=
  mkMem (map fst h) (map snd h) (m_P l) (m_T l) (m_dR l) (m_dknn l) (m_st l).

Notation ad := (fun j : Z => j).

Lemma hmem_id l h j x : znth h j = Some x -> mrd (hmem l h) AHeapId j = Some (fst x).
Proof. intros H. unfold mrd. simpl. now rewrite znth_map, H. Qed.
Lemma hmem_pq l h j x : znth h j = Some x -> mrd (hmem l h) AHeapPq j = Some (snd x).
Proof. intros H. unfold mrd. simpl. now rewrite znth_map, H. Qed.

Lemma run_swap l h a b : 0 <= a < zlen h -> 0 <= b < zlen h ->
  run (heap_swap N ad a b) (hmem l h) = Ok (tt, hmem l (zswap h a b)).
Proof.
  intros Ha Hb. destruct (znth_in_range h a Ha) as [x Hx]. destruct (znth_in_range h b Hb) as [y Hy].
  unfold heap_swap. rewrite !run_bind.
  rewrite (run_rd _ _ _ _ (hmem_id l h a x Hx)). rewrite run_bind, (run_rd _ _ _ _ (hmem_id l h b y Hy)).
  rewrite run_bind, (run_wr _ _ _ _ _ (hmem_id l h a x Hx)).
  assert (Lm : forall B (f : Z * F -> B) c, 0 <= c < zlen h -> exists w, znth (map f h) c = Some w).
  { intros B f c Hc. apply znth_in_range. now rewrite zlen_map. }
  assert (E1 : exists w, mrd (mwr (hmem l h) AHeapId a (fst y)) AHeapId b = Some w).
  { apply znth_in_range. rewrite mlen_mwr. simpl. now rewrite zlen_map. }
  destruct E1 as [w E1]. rewrite run_bind, (run_wr _ _ _ _ _ E1).
  set (m1 := mwr _ AHeapId b (fst x)).
  assert (Q : forall j z, znth h j = Some z -> mrd m1 AHeapPq j = Some (snd z)).
  { intros j z Hz. unfold m1. rewrite !mrd_mwr_other by (left; discriminate). now apply hmem_pq. }
  rewrite run_bind, (run_rd _ _ _ _ (Q a x Hx)). rewrite run_bind, (run_rd _ _ _ _ (Q b y Hy)).
  rewrite run_bind, (run_wr _ _ _ _ _ (Q a x Hx)).
  assert (E2 : exists w, mrd (mwr m1 AHeapPq a (snd y)) AHeapPq b = Some w).
  { apply znth_in_range. rewrite mlen_mwr. unfold m1. rewrite !mlen_mwr. simpl. now rewrite zlen_map. }
  destruct E2 as [w2 E2]. rewrite (run_wr _ _ _ _ _ E2). do 2 f_equal.
  unfold m1, mwr, hmem. simpl. rewrite !map_zswap. unfold zswap. rewrite !znth_map, Hx, Hy. reflexivity.
Qed.

(** ** pure meaning of maxheapify *)
Definition pickp (h : heap) (s c g : Z) : Z :=
  if c <? s then
    match znth h c, znth h g with
    | Some x, Some y => if flt N (snd y) (snd x) then c else g
    | _, _ => g
    end
  else g.

Fixpoint mh (fuel : nat) (s i : Z) (h : heap) : heap :=
  let g := pickp h s (2 * i + 2) (pickp h s (2 * i + 1) i) in
  if i =? g then h else
  match fuel with O => h | S fuel => mh fuel s g (zswap h i g) end.

Lemma run_pick l h s c g : s <= zlen h -> 0 <= c -> 0 <= g < zlen h ->
  run (heap_pick N ad s c g) (hmem l h) = Ok (pickp h s c g, hmem l h).
Proof.
  intros Hs Hc Hg. unfold heap_pick, pickp. destruct (c <? s) eqn:Q; [|reflexivity].
  destruct (znth_in_range h c ltac:(lia)) as [x Hx]. destruct (znth_in_range h g Hg) as [y Hy].
  rewrite run_bind, (run_rd _ _ _ _ (hmem_pq l h c x Hx)).
  rewrite run_bind, (run_rd _ _ _ _ (hmem_pq l h g y Hy)). rewrite Hx, Hy.
  destruct (flt N (snd y) (snd x)); reflexivity.
Qed.

Lemma pickp_cases h s c g : pickp h s c g = g \/ (pickp h s c g = c /\ c < s).
Proof.
  unfold pickp. destruct (c <? s) eqn:Q; [|auto]. destruct (znth h c), (znth h g); auto.
  destruct (flt N _ _); auto. right. split; [reflexivity|lia].
Qed.

Lemma run_mh l fuel : forall h s i, s <= zlen h -> 0 <= i < zlen h -> s - i <= Z.of_nat fuel ->
  run (maxheapify_loop N ad fuel s i) (hmem l h) = Ok (tt, hmem l (mh fuel s i h)).
Proof.
  induction fuel as [|f IH]; intros h s i Hs Hi Hf.
  - cbn [maxheapify_loop mh]. rewrite run_bind, run_pick by lia.
    assert (E : pickp h s (2 * i + 1) i = i) by (unfold pickp; now replace (2 * i + 1 <? s) with false by lia).
    rewrite E. rewrite run_bind, run_pick by lia.
    assert (E2 : pickp h s (2 * i + 2) i = i) by (unfold pickp; now replace (2 * i + 2 <? s) with false by lia).
    rewrite E2, Z.eqb_refl. reflexivity.
  - cbn [maxheapify_loop mh]. rewrite run_bind, run_pick by lia.
    set (g1 := pickp h s (2 * i + 1) i). assert (G1 : g1 = i \/ (g1 = 2 * i + 1 /\ 2 * i + 1 < s)) by apply pickp_cases.
    rewrite run_bind, run_pick by lia.
    set (g := pickp h s (2 * i + 2) g1). assert (G : g = g1 \/ (g = 2 * i + 2 /\ 2 * i + 2 < s)) by apply pickp_cases.
    destruct (i =? g) eqn:Q; [reflexivity|].
    rewrite run_bind, run_swap by lia. apply IH; rewrite ?zlen_zswap; lia.
Qed.

Lemma zlen_mh fuel : forall s i h, zlen (mh fuel s i h) = zlen h.
Proof.
  induction fuel as [|f IH]; intros s i h; cbn [mh]; destruct (i =? _); auto.
  rewrite IH. apply zlen_zswap.
Qed.
Lemma perm_mh fuel : forall s i h, Permutation (mh fuel s i h) h.
Proof.
  induction fuel as [|f IH]; intros s i h; cbn [mh]; destruct (i =? _); auto.
  eapply perm_trans; [apply IH|]. apply perm_zswap.
Qed.

(** positions that may change *)
Lemma mh_frame fuel : forall s i h j, s <= zlen h -> 0 <= i < zlen h ->
  (~ below i j \/ s <= j) -> znth (mh fuel s i h) j = znth h j.
Proof.
  induction fuel as [|f IH]; intros s i h j Hs Hi Hj; cbn [mh]; destruct (i =? _) eqn:Q; auto.
  set (g1 := pickp h s (2 * i + 1) i) in *. assert (G1 : g1 = i \/ (g1 = 2 * i + 1 /\ 2 * i + 1 < s)) by apply pickp_cases.
  set (g := pickp h s (2 * i + 2) g1) in *. assert (G : g = g1 \/ (g = 2 * i + 2 /\ 2 * i + 2 < s)) by apply pickp_cases.
  assert (Hg : below i g).
  { destruct G as [->|[-> _]]; [destruct G1 as [->|[-> _]]|]; [constructor|apply below_left; constructor|apply below_right; constructor]. }
  assert (Gs : i < g < s) by lia.
  rewrite IH; rewrite ?zlen_zswap; try lia; auto.
  - rewrite znth_zswap by lia. destruct Hj as [Hj|Hj].
    + replace (j =? i) with false by (symmetry; apply Z.eqb_neq; intros ->; apply Hj; constructor).
      replace (j =? g) with false by (symmetry; apply Z.eqb_neq; intros ->; now apply Hj). reflexivity.
    + replace (j =? i) with false by lia. now replace (j =? g) with false by lia.
  - destruct Hj as [Hj|Hj]; [left|now right]. intros B. apply Hj. clear -B Hg.
    induction B; [assumption|now apply below_left|now apply below_right].
Qed.

(** ** order *)
Variable S : F -> Prop.
Hypothesis WO : weak_order N S.
Definition good (h : heap) : Prop := Forall (fun x => S (snd x)) h.

Lemma good_perm h h' : Permutation h h' -> good h -> good h'.
Proof. intros P H. unfold good in *. eapply Permutation_Forall; eauto. Qed.
Lemma good_at h j x : good h -> pq_at N h j = Some x -> S x.
Proof.
  unfold pq_at. intros G H. destruct (znth h j) as [y|] eqn:E; [|discriminate]. injection H as <-.
  unfold good in G. rewrite Forall_forall in G. apply G. eapply znth_in; eauto.
Qed.
Lemma wo_irr x : S x -> flt N x x = false.
Proof.
  intros H. destruct (flt N x x) eqn:E; [|reflexivity]. pose proof (wo_asym _ _ WO x x H H E). congruence.
Qed.

Lemma pq_at_swap h a b j : 0 <= a < zlen h -> 0 <= b < zlen h ->
  pq_at N (zswap h a b) j = if j =? a then pq_at N h b else if j =? b then pq_at N h a else pq_at N h j.
Proof. intros Ha Hb. unfold pq_at. rewrite znth_zswap by assumption. destruct (j =? a), (j =? b); reflexivity. Qed.

(** the chosen node is not below either child *)
Lemma pick_ge h s c g : good h -> s <= zlen h -> 0 <= c -> 0 <= g < zlen h ->
  let r := pickp h s c g in
  above N s h r c /\ (forall x y, pq_at N h r = Some x -> pq_at N h g = Some y -> flt N x y = false).
Proof.
  intros G Hs Hc Hg r. unfold r, pickp. unfold above, pq_at.
  destruct (znth_in_range h g Hg) as [y Hy].
  assert (Sy : S (snd y)) by (unfold good in G; rewrite Forall_forall in G; apply G; eapply znth_in; eauto).
  destruct (c <? s) eqn:Q.
  - destruct (znth_in_range h c ltac:(lia)) as [x Hx]. rewrite Hx, Hy.
    assert (Sx : S (snd x)) by (unfold good in G; rewrite Forall_forall in G; apply G; eapply znth_in; eauto).
    destruct (flt N (snd y) (snd x)) eqn:E.
    + rewrite ?Hx, ?Hy. simpl. split.
      * intros a b _ [= <-] [= <-]. now apply wo_irr.
      * intros a b [= <-] [= <-]. now apply (wo_asym _ _ WO).
    + rewrite ?Hx, ?Hy. simpl. split.
      * intros a b _ [= <-] [= <-]. assumption.
      * intros a b [= <-] [= <-]. now apply wo_irr.
  - rewrite ?Hy. simpl. split; [lia|]. intros a b [= <-] [= <-]. now apply wo_irr.
Qed.

Definition closed (D : Z -> Prop) : Prop := forall j, D j -> 0 <= j /\ D (2 * j + 1) /\ D (2 * j + 2).

(** sift-down: order at all nodes of D but i, and the parent of i dominates
    the children of i *)
Lemma mh_order D fuel : closed D -> forall s i h, good h -> s <= zlen h -> 0 <= i < zlen h ->
  s - i <= Z.of_nat fuel -> D i ->
  (forall j, D j -> j <> i -> ordered_at N s h j) ->
  (forall j, D j -> (i = 2 * j + 1 \/ i = 2 * j + 2) -> above N s h j (2 * i + 1) /\ above N s h j (2 * i + 2)) ->
  forall j, D j -> ordered_at N s (mh fuel s i h) j.
Proof.
  intros HD. induction fuel as [|f IH]; intros s i h G Hs Hi Hf Di H1 H2 j Dj.
  - cbn [mh]. assert (E : pickp h s (2 * i + 2) (pickp h s (2 * i + 1) i) = i).
    { unfold pickp. replace (2 * i + 1 <? s) with false by lia. now replace (2 * i + 2 <? s) with false by lia. }
    rewrite E, Z.eqb_refl. destruct (Z.eq_dec j i) as [->|Nj]; [|now apply H1].
    split; intros x y Hc; lia.
  - cbn [mh].
    set (g1 := pickp h s (2 * i + 1) i). assert (G1 : g1 = i \/ (g1 = 2 * i + 1 /\ 2 * i + 1 < s)) by apply pickp_cases.
    set (g := pickp h s (2 * i + 2) g1). assert (Gg : g = g1 \/ (g = 2 * i + 2 /\ 2 * i + 2 < s)) by apply pickp_cases.
    destruct (pick_ge h s (2 * i + 1) i G Hs ltac:(lia) Hi) as [A1 A2]. fold g1 in A1, A2.
    destruct (pick_ge h s (2 * i + 2) g1 G Hs ltac:(lia) ltac:(lia)) as [B1 B2]. fold g in B1, B2.
    destruct (znth_in_range h i Hi) as [xi Hxi]. destruct (znth_in_range h g1 ltac:(lia)) as [xg1 Hxg1].
    destruct (znth_in_range h g ltac:(lia)) as [xg Hxg].
    assert (Pi : pq_at N h i = Some (snd xi)) by (unfold pq_at; now rewrite Hxi).
    assert (Pg1 : pq_at N h g1 = Some (snd xg1)) by (unfold pq_at; now rewrite Hxg1).
    assert (Pg : pq_at N h g = Some (snd xg)) by (unfold pq_at; now rewrite Hxg).
    pose proof (good_at _ _ _ G Pi) as Si. pose proof (good_at _ _ _ G Pg1) as Sg1. pose proof (good_at _ _ _ G Pg) as Sg.
    pose proof (B2 _ _ Pg Pg1) as Cgg1. pose proof (A2 _ _ Pg1 Pi) as Cg1i.
    assert (Cgi : flt N (snd xg) (snd xi) = false) by (apply (wo_trans _ _ WO (snd xi) (snd xg1)); auto).
    assert (Cl : above N s h g (2 * i + 1)).
    { intros x y Hc Hx Hy. rewrite Pg in Hx. injection Hx as <-.
      pose proof (A1 _ _ Hc Pg1 Hy). apply (wo_trans _ _ WO y (snd xg1)); auto. eapply good_at; eauto. }
    destruct (i =? g) eqn:Q.
    + apply Z.eqb_eq in Q. destruct (Z.eq_dec j i) as [->|Nj]; [|now apply H1].
      split; intros x y Hc Hx Hy.
      * rewrite Q in Hx. rewrite Q in Hy. rewrite <- Q in Hy. now apply (Cl x y).
      * rewrite Q in Hx. rewrite Q in Hy. rewrite <- Q in Hy. now apply (B1 x y).
    + destruct (HD i Di) as (_ & Dl & Dr). assert (Dg : D g) by (destruct Gg as [->|[-> _]]; [destruct G1 as [->|[-> _]]|]; assumption).
      assert (Gs : i < g < s /\ (g = 2 * i + 1 \/ g = 2 * i + 2)) by lia.
      assert (PQ : forall c, pq_at N (zswap h i g) c = if c =? i then pq_at N h g else if c =? g then pq_at N h i else pq_at N h c)
        by (intros c; apply pq_at_swap; lia).
      apply IH; auto; rewrite ?zlen_zswap; try lia.
      * eapply good_perm; [symmetry; apply perm_zswap|assumption].
      * (* order at nodes other than g *)
        intros j' Dj' Nj'. destruct (HD j' Dj') as (Hj0 & _ & _).
        destruct (Z.eq_dec j' i) as [->|Nji].
        -- (* at i: the new value is the old value at g *)
           split; intros x y Hc; rewrite !PQ, Z.eqb_refl, Pg; intros [= <-].
           ++ replace (2 * i + 1 =? i) with false by lia.
              destruct (2 * i + 1 =? g) eqn:E; [rewrite Pi; intros [= <-]; assumption|].
              intros Hy. now apply (Cl (snd xg) y).
           ++ replace (2 * i + 2 =? i) with false by lia.
              destruct (2 * i + 2 =? g) eqn:E; [rewrite Pi; intros [= <-]; assumption|].
              intros Hy. now apply (B1 (snd xg) y).
        -- destruct (H1 j' Dj' Nji) as [O1 O2].
           split; intros x y Hc; rewrite !PQ; replace (j' =? i) with false by lia; replace (j' =? g) with false by lia.
           ++ destruct (2 * j' + 1 =? i) eqn:E1.
              ** apply Z.eqb_eq in E1. intros Hx. rewrite Pg. intros [= <-].
                 destruct (H2 j' Dj' ltac:(lia)) as [P1 P2].
                 destruct Gs as [Gs1 [Gs2|Gs2]]; [apply (P1 x)|apply (P2 x)]; try lia; auto; now rewrite <- Gs2.
              ** replace (2 * j' + 1 =? g) with false by lia. intros Hx Hy. now apply (O1 x y).
           ++ destruct (2 * j' + 2 =? i) eqn:E1.
              ** apply Z.eqb_eq in E1. intros Hx. rewrite Pg. intros [= <-].
                 destruct (H2 j' Dj' ltac:(lia)) as [P1 P2].
                 destruct Gs as [Gs1 [Gs2|Gs2]]; [apply (P1 x)|apply (P2 x)]; try lia; auto; now rewrite <- Gs2.
              ** replace (2 * j' + 2 =? g) with false by lia. intros Hx Hy. now apply (O2 x y).
      * (* the parent of g, which is i, dominates g's children *)
        intros j' Dj' Hj'. destruct (HD j' Dj') as (Hj0 & _ & _). assert (j' = i) by lia. subst j'.
        destruct (H1 g Dg ltac:(lia)) as [O1 O2].
        split; intros x y Hc; rewrite !PQ, Z.eqb_refl, Pg; intros [= <-].
        -- replace (2 * g + 1 =? i) with false by lia. replace (2 * g + 1 =? g) with false by lia.
           intros Hy. now apply (O1 (snd xg) y).
        -- replace (2 * g + 2 =? i) with false by lia. replace (2 * g + 2 =? g) with false by lia.
           intros Hy. now apply (O2 (snd xg) y).
Qed.

Lemma below_ge i j : 0 <= i -> below i j -> i <= j.
Proof. intros Hi B. induction B; lia. Qed.
Lemma below_trans i j l : below i j -> below j l -> below i l.
Proof. intros B1 B2. induction B2; [assumption|now apply below_left|now apply below_right]. Qed.

(** C07, on a row *)
Lemma mh_heap s i h fuel : good h -> s <= zlen h -> 0 <= i < zlen h -> s - i <= Z.of_nat fuel ->
  max_heap N s h (2 * i + 1) -> max_heap N s h (2 * i + 2) -> max_heap N s (mh fuel s i h) i.
Proof.
  intros G Hs Hi Hf HL HR. unfold max_heap. apply (mh_order (below i)); auto.
  - intros j B. split; [apply below_ge in B; lia|]. split; [now apply below_left|now apply below_right].
  - constructor.
  - intros j B Nj. assert (below (2 * i + 1) j \/ below (2 * i + 2) j) as [B'|B'].
    { clear -B Nj. induction B as [|j B IH|j B IH]; [congruence| |].
      - destruct (Z.eq_dec j i) as [->|N]; [left; constructor|].
        destruct (IH N); [left|right]; now apply below_left.
      - destruct (Z.eq_dec j i) as [->|N]; [right; constructor|].
        destruct (IH N); [left|right]; now apply below_right. }
    + now apply HL.
    + now apply HR.
  - intros j B Hj. apply below_ge in B; [|lia]. lia.
Qed.

(** ** heap sort *)
Definition geD (a j : Z) : Prop := a <= j.

Lemma mh_down s i h fuel : good h -> s <= zlen h -> 0 <= i < zlen h -> s - i <= Z.of_nat fuel ->
  (forall j, i + 1 <= j -> ordered_at N s h j) ->
  forall j, i <= j -> ordered_at N s (mh fuel s i h) j.
Proof.
  intros G Hs Hi Hf H. apply (mh_order (geD i)); auto; unfold geD.
  - intros j Hj. lia.
  - lia.
  - intros j Hj Nj. apply H. lia.
  - intros j Hj Hc. lia.
Qed.

Lemma root_max s h : good h -> s <= zlen h -> (forall j, 0 <= j -> ordered_at N s h j) ->
  forall j x y, 0 <= j < s -> pq_at N h 0 = Some x -> pq_at N h j = Some y -> flt N x y = false.
Proof.
  intros G Hs H. intros j. remember (Z.to_nat j) as n eqn:En. revert j En.
  induction n as [n IH] using lt_wf_ind. intros j En x y Hj Hx Hy.
  destruct (Z.eq_dec j 0) as [->|N0].
  - rewrite Hx in Hy. injection Hy as <-. apply wo_irr. eapply good_at; eauto.
  - set (p := (j - 1) / 2). assert (Hp : 0 <= p < j /\ (j = 2 * p + 1 \/ j = 2 * p + 2))
      by (unfold p; Z.div_mod_to_equations; lia).
    assert (exists z, pq_at N h p = Some z) as [z Hz].
    { destruct (znth_in_range h p ltac:(lia)) as [v Hv]. exists (snd v). unfold pq_at. now rewrite Hv. }
    assert (E1 : flt N x z = false) by (apply (IH (Z.to_nat p)) with (j := p); auto; lia).
    assert (E2 : flt N z y = false).
    { destruct (H p ltac:(lia)) as [O1 O2]. destruct Hp as [Hp0 [Ep|Ep]]; rewrite Ep in Hy; [apply (O1 z y)|apply (O2 z y)]; auto; lia. }
    apply (wo_trans _ _ WO y z x); auto; eapply good_at; eauto.
Qed.

(** state of the second loop: a heap of the first i entries, then an ascending
    tail none of which is below any heap entry *)
Definition sortinv (h0 : heap) (i : Z) (h : heap) : Prop :=
  Permutation h h0 /\ (forall j, 0 <= j -> ordered_at N i h j) /\
  (forall a b x y, 0 <= a < b -> i <= b -> pq_at N h a = Some x -> pq_at N h b = Some y -> flt N y x = false).

Lemma sort_step h0 h i fuel : good h0 -> 0 <= i < zlen h0 -> i <= Z.of_nat fuel ->
  sortinv h0 (i + 1) h -> sortinv h0 i (mh fuel i 0 (zswap h 0 i)).
Proof.
  intros G Hi Hf (P & O & T).
  assert (L : zlen h = zlen h0) by (unfold zlen; now rewrite (Permutation_length P)).
  assert (Gh : good h) by (eapply good_perm; [symmetry; exact P|assumption]).
  set (h1 := zswap h 0 i). assert (L1 : zlen h1 = zlen h) by apply zlen_zswap.
  assert (G1 : good h1) by (eapply good_perm; [symmetry; apply perm_zswap|assumption]).
  set (h2 := mh fuel i 0 h1).
  assert (P2 : Permutation h2 h1) by apply perm_mh.
  assert (PQ1 : forall c, pq_at N h1 c = if c =? 0 then pq_at N h i else if c =? i then pq_at N h 0 else pq_at N h c)
    by (intros c; apply pq_at_swap; lia).
  assert (FR : forall c, i <= c -> pq_at N h2 c = pq_at N h1 c).
  { intros c Hc. unfold pq_at, h2. rewrite mh_frame; [reflexivity|lia|lia|right; lia]. }
  split; [|split].
  - eapply perm_trans; [exact P2|]. eapply perm_trans; [apply perm_zswap|exact P].
  - intros j Hj. unfold h2. apply (mh_down i 0); auto; try lia.
    intros j' Hj'. destruct (O j' ltac:(lia)) as [O1 O2].
    split; intros x y Hc; rewrite !PQ1.
    + replace (j' =? 0) with false by lia. replace (j' =? i) with false by lia.
      replace (2 * j' + 1 =? 0) with false by lia. replace (2 * j' + 1 =? i) with false by lia.
      intros Hx Hy. apply (O1 x y); auto; lia.
    + replace (j' =? 0) with false by lia. replace (j' =? i) with false by lia.
      replace (2 * j' + 2 =? 0) with false by lia. replace (2 * j' + 2 =? i) with false by lia.
      intros Hx Hy. apply (O2 x y); auto; lia.
  - (* tail *)
    intros a b x y Hab Hb Hx Hy. rewrite FR in Hy by assumption.
    (* every entry of h2 below position b comes from h at a position <= i (if a < i) or = a *)
    assert (exists a', 0 <= a' /\ (a' < b \/ (a' <= i)) /\ pq_at N h1 a' = Some x /\ (a' < i -> a < i) /\ (i <= a -> a' = a) /\ (a < i -> a' < i))
      as (a' & Ha0 & Ha1 & Ha2 & Ha3 & Ha4 & Ha5).
    { destruct (Z_lt_le_dec a i) as [Hai|Hai].
      - (* the first i entries of h2 are a permutation of those of h1 *)
        assert (Pf : Permutation (firstn (Z.to_nat i) h2) (firstn (Z.to_nat i) h1)).
        { assert (Sk : skipn (Z.to_nat i) h2 = skipn (Z.to_nat i) h1).
          { apply nth_error_ext. intros n. rewrite !nth_error_skipn.
            assert (E : znth h2 (i + Z.of_nat n) = znth h1 (i + Z.of_nat n)) by (unfold h2; apply mh_frame; [lia|lia|right; lia]).
            unfold znth in E. destruct (Z.leb_spec 0 (i + Z.of_nat n)); [|lia].
            now replace (Z.to_nat (i + Z.of_nat n)) with (Z.to_nat i + n)%nat in E by lia. }
          apply (Permutation_app_inv_r (skipn (Z.to_nat i) h1)).
          rewrite firstn_skipn. rewrite <- Sk. now rewrite firstn_skipn. }
        unfold pq_at in Hx. destruct (znth h2 a) as [v|] eqn:Ev; [|discriminate]. injection Hx as <-.
        assert (In v (firstn (Z.to_nat i) h2)).
        { unfold znth in Ev. replace (0 <=? a) with true in Ev by lia. apply nth_error_In with (n := Z.to_nat a).
          rewrite <- Ev. rewrite <- (firstn_skipn (Z.to_nat i) h2) at 2. symmetry. apply nth_error_app1.
          rewrite firstn_length. apply Nat.min_glb_lt; [lia|]. apply nth_error_Some. congruence. }
        apply (Permutation_in _ Pf) in H. apply In_nth_error in H as [n Hn].
        assert (Hn' : (n < Z.to_nat i)%nat).
        { assert (n < length (firstn (Z.to_nat i) h1))%nat by (apply nth_error_Some; congruence).
          rewrite firstn_length in H. lia. }
        exists (Z.of_nat n). repeat split; try lia.
        unfold pq_at, znth. replace (0 <=? Z.of_nat n) with true by lia. rewrite Nat2Z.id.
        assert (E : nth_error h1 n = Some v).
        { rewrite <- (firstn_skipn (Z.to_nat i) h1). rewrite nth_error_app1; [assumption|].
          apply nth_error_Some. congruence. }
        now rewrite E.
      - exists a. rewrite FR in Hx by assumption. repeat split; auto; lia. }
    assert (exists x0, pq_at N h 0 = Some x0) as [x0 Hx0].
    { destruct (znth_in_range h 0 ltac:(lia)) as [v Hv]. exists (snd v). unfold pq_at. now rewrite Hv. }
    destruct (Z.eq_dec b i) as [->|Nb].
    + (* b = i: the maximum *)
      rewrite PQ1 in Hy. destruct (i =? 0) eqn:Ei; [lia|]. rewrite Z.eqb_refl in Hy.
      assert (Ha' : a' < i) by (apply Ha5; lia).
      rewrite PQ1 in Ha2. destruct (a' =? 0) eqn:E0.
      * apply (root_max (i + 1) h Gh ltac:(lia) O i y x); auto; lia.
      * replace (a' =? i) with false in Ha2 by lia. apply (root_max (i + 1) h Gh ltac:(lia) O a' y x); auto; lia.
    + (* b > i: old tail *)
      rewrite PQ1 in Hy. replace (b =? 0) with false in Hy by lia. replace (b =? i) with false in Hy by lia.
      rewrite PQ1 in Ha2. destruct (a' =? 0) eqn:E0.
      * apply (T i b x y); auto; lia.
      * destruct (a' =? i) eqn:E1.
        -- apply (T 0 b x y); auto; lia.
        -- apply (T a' b x y); auto; lia.
Qed.

Definition wp_heap (p : prog F unit) (l : mem F) (h : heap) (Q : heap -> Prop) : Prop :=
  exists h', run p (hmem l h) = Ok (tt, hmem l h') /\ Q h'.

Lemma heap_sort_row l h : good h ->
  exists h', run (heap_sort N ad (zlen h)) (hmem l h) = Ok (tt, hmem l h') /\
    Permutation h' h /\ ascending N h'.
Proof.
  intros G. set (k := zlen h). pose proof (zlen_nonneg h) as Hk. fold k in Hk.
  assert (W1 : wp (forM (zrange_down 0 (k / 2)) (fun i => maxheapify N ad k i))
    (fun _ m => exists h1, m = hmem l h1 /\ Permutation h1 h /\ forall j, 0 <= j -> ordered_at N k h1 j) (hmem l h)).
  { apply (wp_forM_zrange_down _ (fun i m => exists h1, m = hmem l h1 /\ Permutation h1 h /\ forall j, i <= j -> ordered_at N k h1 j)).
    - apply Z.div_pos; lia.
    - exists h. split; [reflexivity|]. split; [reflexivity|]. intros j Hj.
      assert (k <= 2 * j + 1) by (Z.div_mod_to_equations; lia). split; intros x y Hc; lia.
    - intros i m Hi (h1 & -> & P & O).
      assert (L : zlen h1 = k) by (unfold k, zlen; now rewrite (Permutation_length P)).
      assert (i < k) by (Z.div_mod_to_equations; lia).
      unfold maxheapify. eexists tt, _. split; [apply run_mh; lia|].
      eexists. split; [reflexivity|]. split; [eapply perm_trans; [apply perm_mh|exact P]|].
      apply mh_down; auto; try lia. eapply good_perm; [symmetry; exact P|assumption]. }
  destruct W1 as ([] & m1 & R1 & h1 & -> & P1 & O1).
  assert (W2 : wp (forM (zrange_down 0 k) (fun i => heap_swap N ad 0 i ;;; maxheapify N ad i 0))
    (fun _ m => exists h2, m = hmem l h2 /\ sortinv h 0 h2) (hmem l h1)).
  { apply (wp_forM_zrange_down _ (fun i m => exists h2, m = hmem l h2 /\ sortinv h i h2)).
    - assumption.
    - exists h1. split; [reflexivity|]. split; [assumption|]. split; [assumption|].
      intros a b x y Hab Hb Hx Hy. exfalso. unfold pq_at in Hy. destruct (znth h1 b) eqn:E; [|discriminate].
      apply znth_some in E. assert (zlen h1 = k) by (unfold k, zlen; now rewrite (Permutation_length P1)). lia.
    - intros i m Hi (h2 & -> & I). assert (L : zlen h2 = k).
      { destruct I as [P _]. unfold k, zlen. now rewrite (Permutation_length P). }
      eexists tt, _. split.
      + rewrite run_bind, run_swap by lia. unfold maxheapify. apply run_mh; rewrite ?zlen_zswap; lia.
      + eexists. split; [reflexivity|]. apply sort_step; auto; lia. }
  destruct W2 as ([] & m2 & R2 & h2 & -> & P2 & _ & T2).
  exists h2. split; [|split].
  - unfold heap_sort. rewrite run_bind, R1. exact R2.
  - assumption.
  - intros i j x y Hij Hx Hy. apply (T2 i j x y); auto; lia.
Qed.

End Heap.
