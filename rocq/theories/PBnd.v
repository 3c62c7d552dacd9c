(** boundary::compute on one slot. *)
From Verif Require Import Base PBase Prog PProg MUtils MBoundary SpecBnd PHeap.
From Verif Require Export SpecBnd.
Local Open Scope prog_scope.

Definition comp (t : tri) (c : Z) : Z := let '(x, y, z) := t in if c =? 0 then x else if c =? 1 then y else z.

Lemma zlen_flat ts : zlen (flat ts) = 3 * zlen ts.
Proof.
  induction ts as [|[[a b] c] ts IH]; [reflexivity|].
  change (flat ((a, b, c) :: ts)) with (a :: b :: c :: flat ts). rewrite !zlen_cons, IH. lia.
Qed.
Lemma znth_flat ts j c t : znth ts j = Some t -> 0 <= c < 3 -> znth (flat ts) (3 * j + c) = Some (comp t c).
Proof.
  revert j. induction ts as [|[[x y] z] ts IH]; intros j H Hc; [pose proof (znth_some _ _ _ H) as Q; unfold zlen in Q; simpl in Q; lia|].
  change (flat ((x, y, z) :: ts)) with (x :: y :: z :: flat ts).
  destruct (Z.eq_dec j 0) as [->|Nj].
  - rewrite znth_0 in H. injection H as <-. assert (c = 0 \/ c = 1 \/ c = 2) as [-> |[-> | ->]] by lia; reflexivity.
  - pose proof (znth_some _ _ _ H). rewrite znth_cons in H by lia. rewrite !znth_cons by lia.
    rewrite <- (IH (j - 1) H Hc). f_equal. lia.
Qed.
Definition setc (t : tri) (c v : Z) : tri :=
  let '(x, y, z) := t in if c =? 0 then (v, y, z) else if c =? 1 then (x, v, z) else (x, y, v).
Lemma zupd_cons {A} (x : A) l i v : 0 < i -> zupd (x :: l) i v = x :: zupd l (i - 1) v.
Proof.
  intros H. unfold zupd. replace (0 <=? i) with true by lia. replace (0 <=? i - 1) with true by lia.
  replace (Z.to_nat i) with (S (Z.to_nat (i - 1))) by lia. reflexivity.
Qed.
Lemma zupd_flat ts j c t v : znth ts j = Some t -> 0 <= c < 3 ->
  zupd (flat ts) (3 * j + c) v = flat (zupd ts j (setc t c v)).
Proof.
  revert j. induction ts as [|[[x y] z] ts IH]; intros j H Hc; [pose proof (znth_some _ _ _ H) as Q; unfold zlen in Q; simpl in Q; lia|].
  change (flat ((x, y, z) :: ts)) with (x :: y :: z :: flat ts).
  destruct (Z.eq_dec j 0) as [->|Nj].
  - rewrite znth_0 in H. injection H as <-. assert (c = 0 \/ c = 1 \/ c = 2) as [-> |[-> | ->]] by lia; reflexivity.
  - pose proof (znth_some _ _ _ H). rewrite znth_cons in H by lia. rewrite !zupd_cons by lia.
    change (flat ((x, y, z) :: zupd ts (j - 1) (setc t c v))) with (x :: y :: z :: flat (zupd ts (j - 1) (setc t c v))).
    rewrite <- (IH (j - 1) H Hc). replace (3 * j + c - 1 - 1 - 1) with (3 * (j - 1) + c) by lia. reflexivity.
Qed.

(** ** cycles *)
Lemma chain_app C l1 : forall a x l2 z, chain C a (l1 ++ x :: l2) z <-> chain C a l1 x /\ chain C x l2 z.
Proof. induction l1 as [|b l1 IH]; intros a x l2 z; simpl; [tauto|]. rewrite IH. tauto. Qed.

Lemma chain_next C l : forall a z u, In u (a :: l) -> chain C a l z -> exists v, znth C u = Some v /\ In v (l ++ [z]).
Proof.
  induction l as [|b l IH]; intros a z u Hu H; simpl in *.
  - destruct Hu as [<-|[]]. exists z. auto.
  - destruct H as [H1 H2]. destruct Hu as [<-|Hu].
    + exists b. auto.
    + destruct (IH b z u Hu H2) as (v & Hv & Hi). exists v. auto.
Qed.

Lemma chain_ext C C' l : forall a z, (forall u, In u (a :: l) -> znth C' u = znth C u) -> chain C a l z -> chain C' a l z.
Proof.
  induction l as [|b l IH]; intros a z He H; simpl in *.
  - rewrite He by auto. assumption.
  - destruct H. rewrite He by auto. split; [assumption|]. apply IH; auto.
Qed.

Lemma rotate C h rest x : one_cycle C h rest -> In x (h :: rest) ->
  exists rest', one_cycle C x rest' /\ Permutation (h :: rest) (x :: rest').
Proof.
  intros (ND & Ch & Rg & Un) [<-|Hx].
  - exists rest. split; [|apply Permutation_refl]. repeat split; assumption || apply Rg; assumption.
  - apply in_split in Hx as (l1 & l2 & ->). exists (l2 ++ h :: l1).
    apply chain_app in Ch as [C1 C2].
    assert (P : Permutation (h :: l1 ++ x :: l2) (x :: l2 ++ h :: l1)).
    { change (h :: l1 ++ x :: l2) with ((h :: l1) ++ x :: l2). change (x :: l2 ++ h :: l1) with ((x :: l2) ++ h :: l1).
      apply Permutation_app_comm. }
    split; [|assumption]. split; [eapply Permutation_NoDup; eauto|]. split; [apply chain_app; auto|]. split.
    + intros e He. apply Rg. eapply Permutation_in; [symmetry; exact P|assumption].
    + intros e He Hn. apply Un; auto. intros K. apply Hn. eapply Permutation_in; eauto.
Qed.

Lemma cyc_defined C h rest u : one_cycle C h rest -> In u (h :: rest) ->
  exists v, znth C u = Some v /\ In v (h :: rest).
Proof.
  intros (ND & Ch & Rg & Un) Hu. destruct (chain_next _ _ _ _ _ Hu Ch) as (v & Hv & Hi). exists v. split; [assumption|].
  apply in_app_or in Hi as [Hi|[<-|[]]]; [now right|now left].
Qed.
Lemma cyc_target C h rest u v : zlen C <= 255 -> one_cycle C h rest -> znth C u = Some v -> v <> 255 ->
  In u (h :: rest) /\ In v (h :: rest) /\ 0 <= v < zlen C.
Proof.
  intros HL HC Hu Hv. pose proof HC as (ND & Ch & Rg & Un).
  destruct (in_dec Z.eq_dec u (h :: rest)) as [K|K].
  - destruct (cyc_defined _ _ _ _ HC K) as (v' & Hv' & Hi). assert (v' = v) by congruence. subst v'. auto.
  - rewrite Un in Hu; [congruence| |assumption]. now apply znth_some in Hu.
Qed.

(** C is injective on defined entries *)
Lemma chain_inj C : forall l a z u w v, NoDup (a :: l) -> ~ In z l -> chain C a l z ->
  In u (a :: l) -> In w (a :: l) -> znth C u = Some v -> znth C w = Some v -> u = w.
Proof.
  induction l as [|b l IH]; intros a z u w v ND Nz Ch Hu Hw Eu Ew.
  - destruct Hu as [<-|[]], Hw as [<-|[]]. reflexivity.
  - destruct Ch as [C1 C2]. inversion_clear ND as [|? ? Na ND']. inversion_clear ND' as [|? ? Nb ND''].
    assert (Q : forall x, In x (b :: l) -> znth C x = Some b -> False).
    { intros x Hx Ex. destruct (chain_next _ _ _ _ _ Hx C2) as (y & Ey & Hy).
      rewrite Ex in Ey. injection Ey as <-. apply in_app_or in Hy as [Hy|[->|[]]]; [contradiction|]. apply Nz. now left. }
    destruct Hu as [<-|Hu], Hw as [<-|Hw]; [reflexivity| | |].
    + exfalso. assert (v = b) by congruence. subst v. eauto.
    + exfalso. assert (v = b) by congruence. subst v. eauto.
    + apply (IH b z u w v); auto; [constructor; assumption|]. intros K. apply Nz. now right.
Qed.
Lemma cyc_inj C h rest u w v : zlen C <= 255 -> one_cycle C h rest -> znth C u = Some v -> znth C w = Some v -> v <> 255 -> u = w.
Proof.
  intros HL HC Eu Ew Hv. destruct (cyc_target _ _ _ _ _ HL HC Eu Hv) as (Iu & _). destruct (cyc_target _ _ _ _ _ HL HC Ew Hv) as (Iw & _).
  destruct HC as (ND & Ch & _ & _). eapply (chain_inj C rest h h); eauto. now inversion ND.
Qed.
Lemma cyc_pre C h rest v : zlen C <= 255 -> one_cycle C h rest -> In v (h :: rest) -> exists u, znth C u = Some v /\ In u (h :: rest).
Proof.
  intros HL HC Hv. destruct (rotate _ _ _ _ HC Hv) as (rest' & (ND & Ch & _) & P).
  destruct rest' as [|b l] using rev_ind.
  - exists v. split; [exact Ch|]. assumption.
  - apply chain_app in Ch as [_ Ch]. exists b. split; [exact Ch|]. eapply Permutation_in; [symmetry; exact P|]. right. apply in_or_app. right. now left.
Qed.

(** insertion of te2 between te1 and te0 *)
Lemma cyc_insert C h rest t0 t1 t2 : zlen C <= 255 -> one_cycle C h rest -> tri_ok (zlen C) (t0, t1, t2) ->
  znth C t1 = Some t0 -> ~ In t2 (h :: rest) ->
  exists rest', one_cycle (zupd (zupd C t1 t2) t2 t0) t2 rest' /\ zlen rest' = zlen rest + 1.
Proof.
  intros HL HC (R0 & R1 & R2 & N01 & N12 & N20) E1 Nt.
  destruct (cyc_target _ _ _ _ _ HL HC E1 ltac:(lia)) as (I1 & I0 & _).
  destruct (rotate _ _ _ _ HC I1) as (rest1 & HC1 & P1). pose proof HC1 as (ND & Ch & Rg & Un).
  destruct rest1 as [|x r]; [simpl in Ch; congruence|]. destruct Ch as [Ex Ch]. assert (x = t0) by congruence. subst x.
  assert (Nt' : ~ In t2 (t1 :: t0 :: r)) by (intros K; apply Nt; eapply Permutation_in; [symmetry; exact P1|assumption]).
  exists (t0 :: r ++ [t1]). split.
  - split; [|split; [|split]].
    + assert (PP : Permutation (t2 :: t1 :: t0 :: r) (t2 :: t0 :: r ++ [t1])) by (apply perm_skip; apply (Permutation_cons_append (t0 :: r) t1)).
      eapply Permutation_NoDup; [exact PP|]. constructor; assumption.
    + simpl. split; [apply znth_zupd_same; rewrite zlen_zupd; lia|].
      apply chain_app. split.
      * eapply chain_ext; [|exact Ch]. intros u Hu. inversion_clear ND as [|? ? Na ND'].
        rewrite !znth_zupd_other; [reflexivity| |].
        -- intros <-. contradiction.
        -- intros <-. apply Nt'. right. assumption.
      * simpl. rewrite znth_zupd_other by lia. apply znth_zupd_same. lia.
    + intros e He. rewrite !zlen_zupd. simpl in He. destruct He as [<-|[<-|He]]; [lia|lia|].
      apply in_app_or in He as [He|[<-|[]]]; [|lia]. apply Rg. right. now right.
    + intros e He Hn. rewrite !zlen_zupd in He. rewrite !znth_zupd_other.
      * apply Un; auto. intros K. apply Hn. right. simpl in K. destruct K as [<-|[<-|K]]; [right; apply in_or_app; right; now left|now left|right; apply in_or_app; now left].
      * intros <-. apply Hn. right. right. apply in_or_app. right. now left.
      * intros <-. apply Hn. now left.
  - apply Permutation_length in P1. unfold zlen. simpl in *. rewrite app_length. simpl. lia.
Qed.

(** removal of te2 between te0 and te1 *)
Lemma cyc_remove C h rest t0 t1 t2 : zlen C <= 255 -> one_cycle C h rest -> tri_ok (zlen C) (t0, t1, t2) ->
  znth C t0 = Some t2 -> znth C t2 = Some t1 ->
  exists rest', one_cycle (zupd (zupd C t2 255) t0 t1) t0 rest' /\ zlen rest' = zlen rest - 1.
Proof.
  intros HL HC (R0 & R1 & R2 & N01 & N12 & N20) E0 E2.
  destruct (cyc_target _ _ _ _ _ HL HC E0 ltac:(lia)) as (I0 & I2 & _).
  destruct (rotate _ _ _ _ HC I0) as (rest1 & HC1 & P1). pose proof HC1 as (ND & Ch & Rg & Un).
  destruct rest1 as [|x r]; [simpl in Ch; congruence|]. destruct Ch as [Ex Ch]. assert (x = t2) by congruence. subst x.
  destruct r as [|y r]; [simpl in Ch; congruence|]. destruct Ch as [Ey Ch]. assert (y = t1) by congruence. subst y.
  exists (t1 :: r). inversion_clear ND as [|? ? Na ND']. inversion_clear ND' as [|? ? Nb ND''].
  split.
  - split; [|split; [|split]].
    + constructor; [|assumption]. intros K. apply Na. right. assumption.
    + simpl. split; [apply znth_zupd_same; rewrite zlen_zupd; lia|].
      eapply chain_ext; [|exact Ch]. intros u Hu. rewrite !znth_zupd_other; [reflexivity| |].
      * intros <-. contradiction.
      * intros <-. apply Na. right. assumption.
    + intros e He. rewrite !zlen_zupd. apply Rg. destruct He as [<-|He]; [now left|right; now right].
    + intros e He Hn. rewrite !zlen_zupd in He. rewrite znth_zupd_other by (intros <-; apply Hn; now left).
      destruct (Z.eq_dec e t2) as [->|Ne]; [apply znth_zupd_same; lia|]. rewrite znth_zupd_other by congruence.
      apply Un; auto. intros [K|[K|K]]; [apply Hn; now left|congruence|apply Hn; now right].
  - apply Permutation_length in P1. unfold zlen. simpl in *. lia.
Qed.

(** three shared edges: the cycle is the reversed triangle *)
Lemma cyc_three C h rest t0 t1 t2 : zlen C <= 255 -> one_cycle C h rest -> tri_ok (zlen C) (t0, t1, t2) ->
  znth C t1 = Some t0 -> znth C t2 = Some t1 -> znth C t0 = Some t2 ->
  forall u v, znth C u = Some v -> v <> 255 -> (u, v) = (t1, t0) \/ (u, v) = (t2, t1) \/ (u, v) = (t0, t2).
Proof.
  intros HL HC (R0 & R1 & R2 & N01 & N12 & N20) E1 E2 E0 u v Eu Nv.
  destruct (cyc_target _ _ _ _ _ HL HC E0 ltac:(lia)) as (I0 & _).
  destruct (rotate _ _ _ _ HC I0) as (rest1 & HC1 & P1). pose proof HC1 as (ND & Ch & Rg & Un).
  destruct rest1 as [|x r]; [simpl in Ch; congruence|]. destruct Ch as [Ex Ch]. assert (x = t2) by congruence. subst x.
  destruct r as [|y r]; [simpl in Ch; congruence|]. destruct Ch as [Ey Ch]. assert (y = t1) by congruence. subst y.
  destruct r as [|z r].
  - destruct (cyc_target _ _ _ _ _ HL HC1 Eu Nv) as (Iu & _).
    destruct Iu as [<-|[<-|[<-|[]]]]; [right; right|right; left|left]; congruence.
  - destruct Ch as [Ez _]. assert (z = t0) by congruence. subst z. inversion_clear ND. exfalso. apply H. right; right; now left.
Qed.
