(** The main loop of boundary::compute. *)
From Verif Require Import Base PBase Prog PProg MUtils MBoundary SpecBnd PHeap PBnd PBndRun.
Local Open Scope prog_scope.

(** the cycle is the boundary of the accepted triangles, or these are closed *)
Definition edgeinv (C : list Z) (A : list tri) : Prop :=
  (forall u v, znth C u = Some v /\ v <> 255 <-> boundary_edge A u v) \/
  ((forall u v, In (u, v) (edges A) -> In (v, u) (edges A)) /\
   (forall u v, znth C u = Some v -> v <> 255 -> In (u, v) (edges A))).

(** the test of the loop fails for a triangle: no common edge with the cycle, or
    exactly one and the third corner is on the cycle already *)
Definition stuck_tri (C : list Z) (cyc : list Z) (t : tri) : Prop :=
  (forall u v, In (u, v) (tri_edges t) -> znth C v <> Some u) \/
  (exists t0 t1 t2, In (t0, t1) (tri_edges t) /\ In (t1, t2) (tri_edges t) /\ In (t2, t0) (tri_edges t) /\
     znth C t1 = Some t0 /\ znth C t2 <> Some t1 /\ znth C t0 <> Some t2 /\ In t2 cyc).
Lemma stuck_perm C l l' t : Permutation l l' -> stuck_tri C l t -> stuck_tri C l' t.
Proof.
  intros P [H|(t0 & t1 & t2 & A & B & D & E & F & G & I)]; [now left|]. right. exists t0, t1, t2.
  do 6 (split; [assumption|]). eapply Permutation_in; eauto.
Qed.
(** some triangles accepted, none of the others acceptable *)
Definition bnd_stuck (R : list tri) (C : list Z) : Prop :=
  exists A B h rest, Permutation (A ++ B) R /\ A <> [] /\ B <> [] /\ one_cycle C h rest /\
    (NoDup (edges R) -> edgeinv C A) /\ forall t, In t B -> stuck_tri C (h :: rest) t.

Lemma edge_dec (e : Z * Z) l : In e l \/ ~ In e l.
Proof. destruct (in_dec (fun x y : Z * Z => ltac:(decide equality; apply Z.eq_dec)) e l); auto. Qed.

Lemma edges_app A B : edges (A ++ B) = edges A ++ edges B.
Proof. apply flat_map_app. Qed.

(** a triangle added, seen through any rotation of it *)
Definition grows (A A' : list tri) (t0 t1 t2 : Z) : Prop :=
  (forall e, In e (edges A') <-> In e (edges A) \/ In e (tri_edges (t0, t1, t2))) /\
  (forall e, In e (tri_edges (t0, t1, t2)) -> ~ In e (edges A)).

Lemma unshared C A u v : (forall u v, znth C u = Some v /\ v <> 255 <-> boundary_edge A u v) ->
  znth C u <> Some v -> ~ In (v, u) (edges A) -> ~ In (u, v) (edges A).
Proof. intros B N1 N2 K. apply N1. apply (proj2 (B u v)). split; assumption. Qed.

Lemma step1 C A A' t0 t1 t2 : zlen C <= 255 -> tri_ok (zlen C) (t0, t1, t2) -> grows A A' t0 t1 t2 -> edgeinv C A ->
  znth C t1 = Some t0 -> znth C t2 = Some 255 -> znth C t0 <> Some t2 ->
  edgeinv (zupd (zupd C t1 t2) t2 t0) A'.
Proof.
  intros HL (R0 & R1 & R2 & N01 & N12 & N20) [G D] EI E1 E2 E0. left. destruct EI as [B|[Cl Sub]].
  2:{ exfalso. apply (D (t0, t1)); [simpl; auto|]. apply Cl. apply Sub; [assumption|lia]. }
  assert (X1 : ~ In (t2, t1) (edges A)). { apply (unshared C); auto; [rewrite E2; intros Q; injection Q; lia|]. apply (D (t1, t2)). simpl; auto. }
  assert (X2 : ~ In (t0, t2) (edges A)). { apply (unshared C); auto. apply (D (t2, t0)). simpl; auto. }
  intros u v. unfold boundary_edge. rewrite !G. split.
  - intros [Hu Nv]. destruct (Z.eq_dec u t2) as [->|U2].
    { rewrite znth_zupd_same in Hu by (rewrite zlen_zupd; lia). injection Hu as <-. split; [right; simpl; auto|].
      intros [K|K]; [contradiction|]. simpl in K. destruct K as [K|[K|[K|[]]]]; injection K; intros; subst; lia. }
    rewrite znth_zupd_other in Hu by congruence. destruct (Z.eq_dec u t1) as [->|U1].
    { rewrite znth_zupd_same in Hu by lia. injection Hu as <-. split; [right; simpl; auto|].
      intros [K|K]; [contradiction|]. simpl in K. destruct K as [K|[K|[K|[]]]]; injection K; intros; subst; lia. }
    rewrite znth_zupd_other in Hu by congruence. destruct (proj1 (B u v) (conj Hu Nv)) as [K1 K2]. split; [now left|].
    intros [K|K]; [contradiction|]. simpl in K. destruct K as [K|[K|[K|[]]]]; injection K; intros; subst; congruence.
  - intros [K1 K2]. destruct K1 as [K1|K1].
    + destruct (proj2 (B u v)) as [Hu Nv]. { split; [assumption|]. intros K; apply K2; now left. }
      split; [|assumption].
      destruct (Z.eq_dec u t2) as [->|U2]; [congruence|]. rewrite znth_zupd_other by congruence.
      destruct (Z.eq_dec u t1) as [->|U1]; [|rewrite znth_zupd_other by congruence; assumption].
      exfalso. assert (v = t0) by congruence. subst v. apply K2. right. simpl; auto.
    + simpl in K1. destruct K1 as [K|[K|[K|[]]]]; injection K; intros; subst u v.
      * exfalso. apply K2. left. apply (proj1 (B t1 t0)). split; [assumption|lia].
      * rewrite znth_zupd_other by lia. rewrite znth_zupd_same by lia. split; [reflexivity|lia].
      * rewrite znth_zupd_same by (rewrite zlen_zupd; lia). split; [reflexivity|lia].
Qed.

Lemma step2 C A A' t0 t1 t2 : zlen C <= 255 -> tri_ok (zlen C) (t0, t1, t2) -> grows A A' t0 t1 t2 -> edgeinv C A ->
  znth C t0 = Some t2 -> znth C t2 = Some t1 -> znth C t1 <> Some t0 ->
  (forall u, znth C u = Some t2 -> u = t0) ->
  edgeinv (zupd (zupd C t2 255) t0 t1) A'.
Proof.
  intros HL (R0 & R1 & R2 & N01 & N12 & N20) [G D] EI E0 E2 E1 Inj. left. destruct EI as [B|[Cl Sub]].
  2:{ exfalso. apply (D (t2, t0)); [simpl; auto|]. apply Cl. apply Sub; [assumption|lia]. }
  assert (X1 : ~ In (t1, t0) (edges A)). { apply (unshared C); auto. apply (D (t0, t1)). simpl; auto. }
  intros u v. unfold boundary_edge. rewrite !G. split.
  - intros [Hu Nv]. destruct (Z.eq_dec u t0) as [->|U0].
    { rewrite znth_zupd_same in Hu by (rewrite zlen_zupd; lia). injection Hu as <-. split; [right; simpl; auto|].
      intros [K|K]; [contradiction|]. simpl in K. destruct K as [K|[K|[K|[]]]]; injection K; intros; subst; lia. }
    rewrite znth_zupd_other in Hu by congruence. destruct (Z.eq_dec u t2) as [->|U2].
    { rewrite znth_zupd_same in Hu by lia. congruence. }
    rewrite znth_zupd_other in Hu by congruence. destruct (proj1 (B u v) (conj Hu Nv)) as [K1 K2]. split; [now left|].
    intros [K|K]; [contradiction|]. simpl in K. destruct K as [K|[K|[K|[]]]]; injection K; intros; subst; congruence.
  - intros [K1 K2]. destruct K1 as [K1|K1].
    + destruct (proj2 (B u v)) as [Hu Nv]. { split; [assumption|]. intros K; apply K2; now left. }
      split; [|assumption].
      destruct (Z.eq_dec u t0) as [->|U0].
      { exfalso. assert (v = t2) by congruence. subst v. apply K2. right. simpl; auto. }
      rewrite znth_zupd_other by congruence.
      destruct (Z.eq_dec u t2) as [->|U2]; [|rewrite znth_zupd_other by congruence; assumption].
      exfalso. assert (v = t1) by congruence. subst v. apply K2. right. simpl; auto.
    + simpl in K1. destruct K1 as [K|[K|[K|[]]]]; injection K; intros; subst u v.
      * rewrite znth_zupd_same by (rewrite zlen_zupd; lia). split; [reflexivity|lia].
      * exfalso. apply K2. left. apply (proj1 (B t2 t1)). split; [assumption|lia].
      * exfalso. apply K2. left. apply (proj1 (B t0 t2)). split; [assumption|lia].
Qed.

Lemma step3 C A A' t0 t1 t2 : zlen C <= 255 -> tri_ok (zlen C) (t0, t1, t2) -> grows A A' t0 t1 t2 -> edgeinv C A ->
  znth C t1 = Some t0 -> znth C t2 = Some t1 -> znth C t0 = Some t2 ->
  (forall u v, znth C u = Some v -> v <> 255 -> (u, v) = (t1, t0) \/ (u, v) = (t2, t1) \/ (u, v) = (t0, t2)) ->
  edgeinv C A'.
Proof.
  intros HL (R0 & R1 & R2 & N01 & N12 & N20) [G D] EI E1 E2 E0 Only. destruct EI as [B|[Cl Sub]].
  2:{ exfalso. apply (D (t0, t1)); [simpl; auto|]. apply Cl. apply Sub; [assumption|lia]. }
  right. split.
  - intros u v K. rewrite G in K. rewrite G. destruct K as [K|K].
    + destruct (edge_dec (v, u) (edges A)) as [K'|K']; [now left|]. destruct (proj2 (B u v) (conj K K')) as [Hu Nv].
      right. destruct (Only u v Hu Nv) as [Q|[Q|Q]]; injection Q; intros; subst; simpl; auto.
    + left. simpl in K. destruct K as [K|[K|[K|[]]]]; injection K; intros; subst u v.
      * apply (proj1 (B t1 t0)). split; [assumption|lia].
      * apply (proj1 (B t2 t1)). split; [assumption|lia].
      * apply (proj1 (B t0 t2)). split; [assumption|lia].
  - intros u v Hu Nv. rewrite G. left. apply (proj1 (B u v)). auto.
Qed.

Lemma zupd_restore4 (C D : list Z) a b c d va vb vc vd :
  zlen D = zlen C -> znth C a = Some va -> znth C b = Some vb -> znth C c = Some vc -> znth C d = Some vd ->
  (forall q, q <> a -> q <> b -> q <> c -> q <> d -> znth D q = znth C q) ->
  zupd (zupd (zupd (zupd D a va) b vb) c vc) d vd = C.
Proof.
  intros HL Ha Hb Hc Hd H. pose proof (znth_some _ _ _ Ha). pose proof (znth_some _ _ _ Hb). pose proof (znth_some _ _ _ Hc). pose proof (znth_some _ _ _ Hd).
  apply znth_ext. intros q.
  destruct (Z.eq_dec q d) as [->|Nd]; [rewrite znth_zupd_same by (rewrite ?zlen_zupd; lia); congruence|rewrite znth_zupd_other by congruence].
  destruct (Z.eq_dec q c) as [->|Nc]; [rewrite znth_zupd_same by (rewrite ?zlen_zupd; lia); congruence|rewrite znth_zupd_other by congruence].
  destruct (Z.eq_dec q b) as [->|Nb]; [rewrite znth_zupd_same by (rewrite ?zlen_zupd; lia); congruence|rewrite znth_zupd_other by congruence].
  destruct (Z.eq_dec q a) as [->|Na]; [rewrite znth_zupd_same by (rewrite ?zlen_zupd; lia); congruence|rewrite znth_zupd_other by congruence].
  auto.
Qed.

Lemma firstn_zswap {A} (R : list A) n a b : (n <= Z.to_nat a)%nat -> (n <= Z.to_nat b)%nat -> 0 <= a < zlen R -> 0 <= b < zlen R ->
  firstn n (zswap R a b) = firstn n R.
Proof.
  intros Ha Hb Ra Rb. unfold zswap. destruct (znth R a); [|reflexivity]. destruct (znth R b); [|reflexivity].
  assert (Q : forall (l : list A) i v, (n <= Z.to_nat i)%nat -> firstn n (zupd l i v) = firstn n l).
  { clear. intros l i v H. unfold zupd. destruct (0 <=? i); [|reflexivity]. revert H. generalize (Z.to_nat i) as k. revert n.
    induction l as [|x l IH]; intros n k H; destruct k, n; simpl; try reflexivity; try lia. f_equal. apply IH. lia. }
  rewrite !Q by assumption. reflexivity.
Qed.

Lemma firstn_snoc {A} (R : list A) j t : znth R j = Some t -> firstn (Z.to_nat (j + 1)) R = firstn (Z.to_nat j) R ++ [t].
Proof.
  intros H. pose proof (znth_some _ _ _ H). unfold znth in H. replace (0 <=? j) with true in H by lia.
  replace (Z.to_nat (j + 1)) with (S (Z.to_nat j)) by lia. revert H. generalize (Z.to_nat j) as n. clear.
  induction R as [|x R IH]; intros [|n] H; simpl in *; try discriminate; [congruence|]. f_equal. now apply IH.
Qed.

Lemma nth_error_skipn' {A} : forall n (l : list A) i, nth_error (skipn n l) i = nth_error l (n + i).
Proof. induction n as [|n IH]; intros [|x l] i; simpl; try reflexivity; [destruct i; reflexivity|apply IH]. Qed.
Lemma NoDup_app_disj {A} (a b : list A) : NoDup (a ++ b) -> forall x, In x b -> ~ In x a.
Proof.
  induction a as [|y a IH]; simpl; intros H x Hx; [tauto|]. inversion_clear H. intros [->|K].
  - apply H0. apply in_or_app. now right.
  - eapply IH; eauto.
Qed.

Lemma NoDup_app_l' {A} (a b : list A) : NoDup (a ++ b) -> NoDup a.
Proof.
  induction a as [|y a IH]; simpl; intros H; [constructor|]. inversion_clear H. constructor; [|auto].
  intros K. apply H0. apply in_or_app. now left.
Qed.

Lemma perm_edges R R' : Permutation R R' -> Permutation (edges R) (edges R').
Proof. apply Permutation_flat_map. Qed.

Lemma grows_rot R R0 j t k : Permutation R R0 -> NoDup (edges R0) -> znth R j = Some t -> 0 <= k < 3 ->
  grows (firstn (Z.to_nat j) R) (firstn (Z.to_nat (j + 1)) R) (comp t (k mod 3)) (comp t ((k + 1) mod 3)) (comp t ((k + 2) mod 3)).
Proof.
  intros HP ND Hj Hk. rewrite (firstn_snoc _ _ _ Hj).
  assert (RE : forall e, In e (tri_edges (comp t (k mod 3), comp t ((k + 1) mod 3), comp t ((k + 2) mod 3))) <-> In e (tri_edges t)).
  { intros e. destruct t as [[x y] z]. assert (k = 0 \/ k = 1 \/ k = 2) as [-> |[-> | ->]] by lia; simpl; tauto. }
  split.
  - intros e. rewrite edges_app, in_app_iff, RE. unfold edges at 2. simpl. rewrite app_nil_r. reflexivity.
  - intros e He. apply RE in He.
    assert (ND' : NoDup (edges (firstn (Z.to_nat (j + 1)) R))).
    { apply (NoDup_app_l' _ (edges (skipn (Z.to_nat (j + 1)) R))). rewrite <- edges_app, firstn_skipn.
      eapply Permutation_NoDup; [apply Permutation_sym, perm_edges; exact HP|assumption]. }
    rewrite (firstn_snoc _ _ _ Hj), edges_app in ND'. eapply NoDup_app_disj; eauto. unfold edges. simpl. rewrite app_nil_r. assumption.
Qed.

Section Loop.
Context {F : Type}.
Variable wc : Z -> Z.
Variable l : mem F.
Variables pre post : list tri.
Variables pmax rsize : Z.
Notation ro := (3 * zlen pre).
Notation bm := (bm l pre post).
Hypothesis Hp : pmax <= 255.
Hypothesis Hr : 1 <= rsize.
Hypothesis Hwc : forall x, 0 <= x <= Z.max 255 rsize -> wc x = x.

Lemma no_dup C h rest : zlen C = pmax -> one_cycle C h rest -> ~ dup C.
Proof.
  intros HL HC (i & j & v & Hij & Hi & Hj & Nv). assert (i = j); [|lia].
  apply (cyc_inj C h rest i j v); auto. lia.
Qed.

Lemma no_self C h rest x : one_cycle C h rest -> 1 <= zlen rest -> In x (h :: rest) -> znth C x = Some x -> False.
Proof.
  intros HC Hl Hx E. destruct (rotate _ _ _ _ HC Hx) as (r & (ND & Ch & _) & PP).
  apply Permutation_length in PP. destruct r as [|b r]; [unfold zlen in Hl; simpl in *; lia|].
  destruct Ch as [Ch _]. assert (b = x) by congruence. subst b. inversion_clear ND. apply H. now left.
Qed.

Lemma cyc_remove_len C h rest t0 t1 t2 : zlen C <= 255 -> one_cycle C h rest -> tri_ok (zlen C) (t0, t1, t2) ->
  znth C t0 = Some t2 -> znth C t2 = Some t1 -> znth C t1 <> Some t0 -> 3 <= zlen rest.
Proof.
  intros HL HC (R0 & R1 & R2 & N01 & N12 & N20) E0 E2 N1.
  destruct (cyc_target _ _ _ _ _ HL HC E0 ltac:(lia)) as (I0 & I2 & _).
  destruct (rotate _ _ _ _ HC I0) as (rest1 & HC1 & P1). pose proof HC1 as (ND & Ch & Rg & Un).
  destruct rest1 as [|x r]; [simpl in Ch; congruence|]. destruct Ch as [Ex Ch]. assert (x = t2) by congruence. subst x.
  destruct r as [|y r]; [simpl in Ch; congruence|]. destruct Ch as [Ey Ch]. assert (y = t1) by congruence. subst y.
  destruct r as [|z r]; [simpl in Ch; congruence|]. apply Permutation_length in P1. unfold zlen. simpl in *. lia.
Qed.

Definition dup_prog (D : prog F bool) : Prop := forall C R, zlen C = pmax ->
  exists b, run D (bm C R) = Ok (b, bm C R) /\ (b = true <-> dup C).
Lemma dup_i_prog : dup_prog (bnd_dup_i 0 pmax 256 0).
Proof.
  intros C R HL. pose proof (zlen_nonneg C).
  destruct (run_dup_i l pre post pmax Hp C R HL 256 0 ltac:(lia) ltac:(change (Z.of_nat 256) with 256; lia)) as (b & Eb & Hb).
  exists b. split; [exact Eb|]. rewrite Hb. split; intros (i & j & v & Q).
  - exists i, j, v. tauto.
  - exists i, j, v. split; [|tauto]. destruct Q as (_ & Q & _). apply znth_some in Q. lia.
Qed.

Lemma run_attempt {A} (DD : prog F bool) ns k j C R t head h rest (Kd Ko : Z -> prog F A) e0 e1 e2 : dup_prog DD ->
  zlen C = pmax -> one_cycle C h rest -> 2 <= zlen rest -> In head (h :: rest) -> znth R j = Some t ->
  comp t (k mod 3) = e0 -> comp t ((k + 1) mod 3) = e1 -> comp t ((k + 2) mod 3) = e2 -> tri_ok pmax (e0, e1, e2) ->
  (ns = 1 /\ znth C e1 = Some e0 /\ znth C e2 <> Some e1 /\ znth C e0 <> Some e2) \/
  (ns = 2 /\ znth C e1 <> Some e0 /\ znth C e2 = Some e1 /\ znth C e0 = Some e2) \/
  (ns = 3 /\ znth C e1 = Some e0 /\ znth C e2 = Some e1 /\ znth C e0 = Some e2) ->
  let P := (e0 <- rdR ro j k ;; e1 <- rdR ro j (k + 1) ;; e2 <- rdR ro j (k + 2) ;; e3 <- rdR ro j (k + 3) ;;
     old0 <- rdC 0 e0 ;; old1 <- rdC 0 e1 ;; old2 <- rdC 0 e2 ;; old00 <- rdC 0 old0 ;;
     head <- (if ns =? 1 then wrC 0 e1 e2 ;;; wrC 0 e2 e3 ;;; Ret e2
              else if ns =? 2 then h <- rdC 0 e0 ;; wrC 0 h bundef ;;; wrC 0 e0 e1 ;;; Ret e0
              else Ret head) ;;
     dup <- DD ;;
     if dup then wrC 0 e0 old0 ;;; wrC 0 e1 old1 ;;; wrC 0 e2 old2 ;;; wrC 0 old0 old00 ;;; Kd head else Ko head) in
  (exists head', In head' (h :: rest) /\ run P (bm C R) = run (Kd head') (bm C R) /\
     znth C e1 = Some e0 /\ znth C e2 <> Some e1 /\ znth C e0 <> Some e2 /\ In e2 (h :: rest)) \/
  (exists C' head' rest', run P (bm C R) = run (Ko head') (bm C' R) /\ zlen C' = pmax /\ one_cycle C' head' rest' /\
     2 <= zlen rest' <= zlen rest + 1 /\
     forall B B', grows B B' e0 e1 e2 -> edgeinv C B -> edgeinv C' B').
Proof.
  intros HDD HL HC Hlen Hhead Hj K0 K1 K2 OK Hcase P. pose proof OK as (R0 & R1 & R2 & N01 & N12 & N20).
  assert (HLL : zlen C <= 255) by lia.
  assert (K3 : comp t ((k + 3) mod 3) = e0) by (rewrite <- K0; f_equal; replace (k + 3) with (k + 1 * 3) by lia; apply Z_mod_plus_full).
  assert (OK' : tri_ok (zlen C) (e0, e1, e2)) by (rewrite HL; exact OK).
  assert (D0 : exists o0, znth C e0 = Some o0 /\ 0 <= o0 < pmax).
  { assert (In e0 (h :: rest)).
    { destruct Hcase as [(_ & Q & _)|[(_ & _ & _ & Q)|(_ & Q & _)]]; destruct (cyc_target _ _ _ _ _ HLL HC Q ltac:(lia)) as (? & ? & _); assumption. }
    destruct (cyc_defined _ _ _ _ HC H) as (v & Hv & Iv). exists v. split; [assumption|]. destruct HC as (_ & _ & Rg & _). specialize (Rg v Iv). lia. }
  destruct D0 as (o0 & Ho0 & Ro0).
  destruct (znth_in_range C e1 ltac:(lia)) as [o1 Ho1]. destruct (znth_in_range C e2 ltac:(lia)) as [o2 Ho2].
  destruct (znth_in_range C o0 ltac:(lia)) as [o00 Ho00].
  assert (V : forall u v, znth C u = Some v -> 0 <= v < 256).
  { intros u v Hu. destruct (Z.eq_dec v 255); [lia|]. destruct (cyc_target _ _ _ _ _ HLL HC Hu n) as (_ & _ & ?). lia. }
  unfold P. do 4 rewrite (run_rdR l pre post C R j _ t) by assumption. rewrite K0, K1, K2, K3. clear P.
  rewrite (run_rdC l pre post C R e0 o0) by assumption. rewrite (run_rdC l pre post C R e1 o1) by assumption.
  rewrite (run_rdC l pre post C R e2 o2) by assumption. rewrite (run_rdC l pre post C R o0 o00) by assumption.
  destruct Hcase as [(-> & E1 & E2 & E0)|[(-> & E1 & E2 & E0)|(-> & E1 & E2 & E0)]]; cbn [Z.eqb Pos.eqb].
  - rewrite run_bind. rewrite run_wrC, run_wrC by (rewrite ?zlen_zupd; lia). rewrite run_Ret.
    set (C' := zupd (zupd C e1 e2) e2 e0).
    assert (HL' : zlen C' = pmax) by (unfold C'; rewrite !zlen_zupd; assumption).
    destruct (HDD C' R HL') as (b & Eb & Hb).
    rewrite (run_bind_ok _ _ _ _ _ Eb).
    destruct (in_dec Z.eq_dec e2 (h :: rest)) as [I2|I2].
    + left. exists e2. split; [assumption|].
      assert (b = true) as ->.
      { apply Hb. destruct (cyc_pre _ _ _ _ HLL HC I2) as (u & Hu & Iu).
        assert (NE1 : u <> e1) by (intros ->; assert (e2 = e0) by congruence; lia).
        assert (NE2 : u <> e2) by (intros ->; apply (no_self C h rest e2 HC ltac:(lia) I2 Hu)).
        assert (A1 : znth C' u = Some e2) by (unfold C'; rewrite !znth_zupd_other by congruence; assumption).
        assert (A2 : znth C' e1 = Some e2) by (unfold C'; rewrite znth_zupd_other by congruence; apply znth_zupd_same; lia).
        apply znth_some in Hu. destruct (Z_lt_dec u e1); [exists u, e1, e2|exists e1, u, e2]; repeat split; auto; lia. }
      split; [|auto]. rewrite run_wrC, run_wrC, run_wrC, run_wrC by (rewrite ?zlen_zupd; eauto; lia). f_equal. f_equal.
      apply zupd_restore4; auto; [congruence|]. intros q Q1 Q2 Q3 Q4. unfold C'. rewrite !znth_zupd_other by congruence. reflexivity.
    + right. destruct (cyc_insert _ _ _ _ _ _ HLL HC OK' E1 I2) as (rest' & HC' & Hl'). exists C', e2, rest'.
      assert (b = false) as ->.
      { destruct b; [|reflexivity]. exfalso. apply (no_dup C' e2 rest' HL' HC'). apply Hb. reflexivity. }
      split; [reflexivity|]. split; [assumption|]. split; [assumption|]. split; [lia|].
      intros B B' G EI. apply (step1 C B B'); auto. destruct HC as (_ & _ & _ & Un). apply Un; [lia|assumption].
  - rewrite run_bind. rewrite (run_rdC l pre post C R e0 e2) by assumption.
    rewrite run_wrC, run_wrC by (rewrite ?zlen_zupd; unfold bundef; lia). rewrite run_Ret.
    set (C' := zupd (zupd C e2 bundef) e0 e1).
    assert (HL' : zlen C' = pmax) by (unfold C'; rewrite !zlen_zupd; assumption).
    destruct (HDD C' R HL') as (b & Eb & Hb).
    rewrite (run_bind_ok _ _ _ _ _ Eb). right.
    destruct (cyc_remove _ _ _ _ _ _ HLL HC OK' E0 E2) as (rest' & HC' & Hl').
    pose proof (cyc_remove_len _ _ _ _ _ _ HLL HC OK' E0 E2 E1).
    exists C', e0, rest'.
    assert (b = false) as ->.
    { destruct b; [|reflexivity]. exfalso. apply (no_dup C' e0 rest' HL' HC'). apply Hb. reflexivity. }
    split; [reflexivity|]. split; [assumption|]. split; [assumption|]. split; [lia|].
    intros B B' G EI. apply (step2 C B B'); auto. intros u Hu. apply (cyc_inj C h rest u e0 e2); auto. lia.
  - rewrite run_bind, run_Ret.
    destruct (HDD C R HL) as (b & Eb & Hb).
    rewrite (run_bind_ok _ _ _ _ _ Eb). right.
    destruct (rotate _ _ _ _ HC Hhead) as (rest' & HC' & PP). exists C, head, rest'.
    assert (b = false) as ->.
    { destruct b; [|reflexivity]. exfalso. apply (no_dup C h rest HL HC). apply Hb. reflexivity. }
    split; [reflexivity|]. split; [assumption|]. split; [assumption|].
    split; [apply Permutation_length in PP; unfold zlen in *; simpl in *; lia|].
    intros B B' G EI. apply (step3 C B B' e0 e1 e2); auto. apply (cyc_three C h rest e0 e1 e2); auto.
Qed.
Definition bnd_done (R : list tri) (C' : list Z) (head' : Z) (R' : list tri) : Prop :=
  exists rest', one_cycle C' head' rest' /\ 2 <= zlen rest' <= rsize + 1 /\ (NoDup (edges R) -> edgeinv C' R').

Lemma perm_ok R R' : Permutation R R' -> Forall (tri_ok pmax) R' -> Forall (tri_ok pmax) R.
Proof. intros P H. rewrite Forall_forall in *. intros t Ht. apply H. eapply Permutation_in; eauto. Qed.
Lemma perm_nodup_edges R R' : Permutation R R' -> NoDup (edges R) -> NoDup (edges R').
Proof. intros P. apply Permutation_NoDup. now apply perm_edges. Qed.

Lemma shared_spec C u v : shared C u v = true <-> znth C v = Some u.
Proof.
  unfold shared. destruct (znth C v); [|split; discriminate]. rewrite Z.eqb_eq. split; intros K; congruence.
Qed.
Lemma shared_no C u v : shared C u v = false -> znth C v <> Some u.
Proof. intros H K. apply shared_spec in K. congruence. Qed.

Lemma bnd_loop_run : forall fuel j sj head C R rest,
  zlen C = pmax -> one_cycle C head rest -> 2 <= zlen rest <= j + 1 -> zlen R = rsize -> Forall (tri_ok pmax) R ->
  1 <= j <= sj -> sj <= rsize -> (rsize - j) * (rsize + 1) + (sj - j) < Z.of_nat fuel ->
  (NoDup (edges R) -> edgeinv C (firstn (Z.to_nat j) R)) ->
  (forall i t, sj <= i -> znth R i = Some t -> stuck_tri C (head :: rest) t) ->
  exists st head' C' R', run (bnd_loop wc 0 pmax ro rsize fuel j sj head) (bm C R) = Ok ((st, head'), bm C' R') /\
    Permutation R' R /\ zlen C' = pmax /\
    (st = Bsuccess /\ bnd_done R C' head' R' \/ st = Bunreachable /\ bnd_stuck R C').
Proof.
  induction fuel as [|fuel IH]; intros j sj head C R rest HL HC Hlen HR Hok Hj Hsj Hfuel Hinv Hstk.
  { assert (0 <= (rsize - j) * (rsize + 1)) by nia. lia. }
  cbn [bnd_loop]. destruct (Z.ltb_spec j rsize) as [Lj|Lj].
  2:{ exists Bsuccess, head, C, R. split; [reflexivity|]. split; [apply Permutation_refl|]. split; [assumption|]. left. split; [reflexivity|].
      exists rest. split; [assumption|]. split; [lia|]. intros ND. specialize (Hinv ND).
      rewrite firstn_all2 in Hinv by (unfold zlen in HR; lia). assumption. }
  destruct (znth_in_range R j ltac:(lia)) as [[[a b] c] Ht].
  assert (Hh : 0 <= head < pmax) by (destruct HC as (_ & _ & Rg & _); specialize (Rg head (or_introl eq_refl)); lia).
  rewrite !(w8_id head) by lia.
  assert (OK : tri_ok pmax (a, b, c)) by (rewrite Forall_forall in Hok; apply Hok; eapply znth_in; eauto).
  rewrite (run_bind_ok _ _ _ _ _ (run_stat wc l pre post pmax rsize Hp Hwc C R head rest j a b c HL HC ltac:(lia) Ht OK)).
  destruct (Z.eqb_spec j sj) as [Ej|Nj].
  { exists Bunreachable, head, C, R. split; [reflexivity|]. split; [apply Permutation_refl|]. split; [assumption|]. right. split; [reflexivity|].
    exists (firstn (Z.to_nat j) R), (skipn (Z.to_nat j) R), head, rest. rewrite firstn_skipn. split; [apply Permutation_refl|].
    split; [|split; [|split; [assumption|split; [assumption|]]]].
    - intros Q. apply (f_equal (@length tri)) in Q. rewrite firstn_length in Q. unfold zlen in HR. simpl in Q. lia.
    - intros Q. apply (f_equal (@length tri)) in Q. rewrite skipn_length in Q. unfold zlen in HR. simpl in Q. lia.
    - intros t It. apply In_nth_error in It as [i Ei]. rewrite nth_error_skipn' in Ei. apply (Hstk (j + Z.of_nat i)); [lia|].
      unfold znth. replace (0 <=? j + Z.of_nat i) with true by (symmetry; apply Z.leb_le; lia). rewrite <- Ei. f_equal. lia. }
  assert (DEF : forall h', In h' (head :: rest) -> stuck_tri C (head :: rest) (a, b, c) -> exists st head' C' R',
    run (bnd_swap ro j (wc (sj - 1)) ;;; bnd_loop wc 0 pmax ro rsize fuel j (wc (sj - 1)) h') (bm C R) = Ok ((st, head'), bm C' R') /\
    Permutation R' R /\ zlen C' = pmax /\ (st = Bsuccess /\ bnd_done R C' head' R' \/ st = Bunreachable /\ bnd_stuck R C')).
  { intros h' Hh' Hst. rewrite !Hwc by lia.
    erewrite run_bind_ok by (apply run_bswap; lia).
    destruct (rotate _ _ _ _ HC Hh') as (rest' & HC' & PP).
    assert (Hl' : zlen rest' = zlen rest) by (apply Permutation_length in PP; unfold zlen in *; simpl in *; lia).
    pose proof (perm_zswap R j (sj - 1)) as PS.
    destruct (IH j (sj - 1) h' C (zswap R j (sj - 1)) rest' HL HC' ltac:(lia)) as (st & head' & C' & R' & E & P' & L' & D).
    - rewrite zlen_zswap. assumption.
    - apply (perm_ok _ R); assumption.
    - lia.
    - lia.
    - lia.
    - intros ND. rewrite firstn_zswap by lia. apply Hinv. apply (perm_nodup_edges (zswap R j (sj - 1))); assumption.
    - intros i t Hi Ei. rewrite znth_zswap in Ei by lia. apply (stuck_perm _ (head :: rest)); [assumption|].
      destruct (Z.eqb_spec i j) as [->|Nij]; [assert (sj - 1 = j) by lia; replace (sj - 1) with j in Ei by lia; assert (t = (a, b, c)) by congruence; now subst t|].
      destruct (Z.eqb_spec i (sj - 1)) as [->|Nis]; [assert (t = (a, b, c)) by congruence; now subst t|]. apply (Hstk i); [lia|assumption].
    - exists st, head', C', R'. split; [exact E|]. split; [eapply perm_trans; eauto|]. split; [assumption|].
      destruct D as [[D1 (rr & D2 & D3 & D4)]|[D (A & B & h2 & r2 & D1 & D2 & D3 & D4 & D5 & D6)]]; [left; split; [assumption|]|].
      2:{ right. split; [assumption|]. exists A, B, h2, r2. split; [eapply perm_trans; eauto|]. do 3 (split; [assumption|]). split; [|assumption].
          intros ND. apply D5. apply (perm_nodup_edges R); [now apply Permutation_sym|assumption]. }
      exists rr. split; [assumption|]. split; [assumption|]. intros ND. apply D4. apply (perm_nodup_edges R); [now apply Permutation_sym|assumption]. }
  assert (ACC : forall h' C1 rest1, zlen C1 = pmax -> one_cycle C1 h' rest1 -> 2 <= zlen rest1 <= zlen rest + 1 ->
    (NoDup (edges R) -> edgeinv C1 (firstn (Z.to_nat (j + 1)) R)) -> exists st head' C' R',
    run (bnd_loop wc 0 pmax ro rsize fuel (j + 1) (wc rsize) h') (bm C1 R) = Ok ((st, head'), bm C' R') /\
    Permutation R' R /\ zlen C' = pmax /\ (st = Bsuccess /\ bnd_done R C' head' R' \/ st = Bunreachable /\ bnd_stuck R C')).
  { intros h' C1 rest1 HL1 HC1 Hlen1 Hinv1. rewrite Hwc by lia.
    apply (IH (j + 1) rsize h' C1 R rest1); auto; try lia.
    intros i t Hi Ei. apply znth_some in Ei. lia. }
  pose proof dup_i_prog as HDD. revert HDD. generalize (@bnd_dup_i F 0 pmax 256 0). intros DD HDD.
  assert (ATT : forall ns k e0 e1 e2,
    comp (a, b, c) (k mod 3) = e0 -> comp (a, b, c) ((k + 1) mod 3) = e1 -> comp (a, b, c) ((k + 2) mod 3) = e2 -> tri_ok pmax (e0, e1, e2) ->
    0 <= k mod 3 < 3 ->
    (ns = 1 /\ znth C e1 = Some e0 /\ znth C e2 <> Some e1 /\ znth C e0 <> Some e2) \/
    (ns = 2 /\ znth C e1 <> Some e0 /\ znth C e2 = Some e1 /\ znth C e0 = Some e2) \/
    (ns = 3 /\ znth C e1 = Some e0 /\ znth C e2 = Some e1 /\ znth C e0 = Some e2) ->
    exists st head' C' R', run (e0 <- rdR ro j k ;; e1 <- rdR ro j (k + 1) ;; e2 <- rdR ro j (k + 2) ;; e3 <- rdR ro j (k + 3) ;;
     old0 <- rdC 0 e0 ;; old1 <- rdC 0 e1 ;; old2 <- rdC 0 e2 ;; old00 <- rdC 0 old0 ;;
     head <- (if ns =? 1 then wrC 0 e1 e2 ;;; wrC 0 e2 e3 ;;; Ret e2
              else if ns =? 2 then h <- rdC 0 e0 ;; wrC 0 h bundef ;;; wrC 0 e0 e1 ;;; Ret e0
              else Ret head) ;;
     dup <- DD ;;
     if dup then wrC 0 e0 old0 ;;; wrC 0 e1 old1 ;;; wrC 0 e2 old2 ;;; wrC 0 old0 old00 ;;;
       bnd_swap ro j (wc (sj - 1)) ;;; bnd_loop wc 0 pmax ro rsize fuel j (wc (sj - 1)) head
     else bnd_loop wc 0 pmax ro rsize fuel (j + 1) (wc rsize) head) (bm C R) = Ok ((st, head'), bm C' R') /\
    Permutation R' R /\ zlen C' = pmax /\ (st = Bsuccess /\ bnd_done R C' head' R' \/ st = Bunreachable /\ bnd_stuck R C')).
  { intros ns k e0 e1 e2 Q0 Q1 Q2 OKe Qk Hcase.
    destruct (run_attempt DD ns k j C R (a, b, c) head head rest
      (fun h => bnd_swap ro j (wc (sj - 1)) ;;; bnd_loop wc 0 pmax ro rsize fuel j (wc (sj - 1)) h)
      (fun h => bnd_loop wc 0 pmax ro rsize fuel (j + 1) (wc rsize) h) e0 e1 e2 HDD HL HC ltac:(lia) (or_introl eq_refl) Ht Q0 Q1 Q2 OKe Hcase)
      as [(h' & Ih & E & W1 & W2 & W3 & W4)|(C1 & h' & rest1 & E & L1 & HC1 & Hl1 & Hg)].
    - cbv zeta in E. rewrite E. apply DEF; [assumption|]. right. exists e0, e1, e2.
      assert (KE : In (e0, e1) (tri_edges (a, b, c)) /\ In (e1, e2) (tri_edges (a, b, c)) /\ In (e2, e0) (tri_edges (a, b, c))).
      { rewrite <- Q0, <- Q1, <- Q2. rewrite <- (Zplus_mod_idemp_l k 1), <- (Zplus_mod_idemp_l k 2).
        assert (k mod 3 = 0 \/ k mod 3 = 1 \/ k mod 3 = 2) as [-> |[-> | ->]] by lia; vm_compute; auto 10. }
      destruct KE as (KE1 & KE2 & KE3). auto 10.
    - cbv zeta in E. rewrite E. apply (ACC h' C1 rest1); auto. intros ND. apply (Hg (firstn (Z.to_nat j) R)); [|auto].
      pose proof (grows_rot R R j (a, b, c) (k mod 3) (Permutation_refl _) ND Ht Qk) as G.
      rewrite Zmod_mod, !Zplus_mod_idemp_l, Q0, Q1, Q2 in G. exact G. }
  destruct OK as (Ra & Rb & Rc & Nab & Nbc & Nca).
  destruct (shared C a b) eqn:S0, (shared C b c) eqn:S1, (shared C c a) eqn:S2;
    repeat match goal with
    | H : shared _ _ _ = true |- _ => apply shared_spec in H
    | H : shared _ _ _ = false |- _ => apply shared_no in H
    end.
  - apply (ATT 3 255 a b c); [reflexivity|reflexivity|reflexivity|unfold tri_ok; lia|change (255 mod 3) with 0; lia|right; right; auto].
  - apply (ATT 2 2 c a b); [reflexivity|reflexivity|reflexivity|unfold tri_ok; lia|change (2 mod 3) with 2; lia|right; left; auto].
  - apply (ATT 2 1 b c a); [reflexivity|reflexivity|reflexivity|unfold tri_ok; lia|change (1 mod 3) with 1; lia|right; left; auto].
  - apply (ATT 1 0 a b c); [reflexivity|reflexivity|reflexivity|unfold tri_ok; lia|change (0 mod 3) with 0; lia|left; auto].
  - apply (ATT 2 0 a b c); [reflexivity|reflexivity|reflexivity|unfold tri_ok; lia|change (0 mod 3) with 0; lia|right; left; auto].
  - apply (ATT 1 1 b c a); [reflexivity|reflexivity|reflexivity|unfold tri_ok; lia|change (1 mod 3) with 1; lia|left; auto].
  - apply (ATT 1 2 c a b); [reflexivity|reflexivity|reflexivity|unfold tri_ok; lia|change (2 mod 3) with 2; lia|left; auto].
  - apply DEF; [now left|]. left. intros u v [K|[K|[K|[]]]]; injection K as <- <-; assumption.
Qed.

(** ** the whole function *)
Lemma bnd_run C R : zlen C = pmax -> (forall e, 0 <= e < pmax -> znth C e = Some 255) -> zlen R = rsize -> Forall (tri_ok pmax) R ->
  exists st head' C' R', run (bnd_compute wc 0 pmax ro rsize) (bm C R) = Ok ((st, head'), bm C' R') /\
    Permutation R' R /\ zlen C' = pmax /\
    (st = Bsuccess /\ bnd_done R C' head' R' \/ st = Bunreachable /\ bnd_stuck R C').
Proof.
  intros HL HU HR Hok. destruct (znth_in_range R 0 ltac:(lia)) as [[[a b] c] Ht].
  assert (OK : tri_ok pmax (a, b, c)) by (rewrite Forall_forall in Hok; apply Hok; eapply znth_in; eauto).
  destruct OK as (Ra & Rb & Rc & Nab & Nbc & Nca).
  unfold bnd_compute. set (C1 := zupd (zupd (zupd C a b) b c) c a).
  assert (EI : run (bnd_init 0 ro) (bm C R) = Ok (c, bm C1 R)).
  { unfold bnd_init, foldM.
    rewrite run_bind. do 2 rewrite (run_rdR l pre post _ R 0 _ (a, b, c)) by assumption.
    change (comp (a, b, c) (0 mod 3)) with a. change (comp (a, b, c) ((0 + 1) mod 3)) with b. rewrite run_wrC by (rewrite ?zlen_zupd; lia). rewrite run_Ret.
    rewrite run_bind. do 2 rewrite (run_rdR l pre post _ R 0 _ (a, b, c)) by assumption.
    change (comp (a, b, c) (1 mod 3)) with b. change (comp (a, b, c) ((1 + 1) mod 3)) with c. rewrite run_wrC by (rewrite ?zlen_zupd; lia). rewrite run_Ret.
    rewrite run_bind. do 2 rewrite (run_rdR l pre post _ R 0 _ (a, b, c)) by assumption.
    change (comp (a, b, c) (2 mod 3)) with c. change (comp (a, b, c) ((2 + 1) mod 3)) with a. rewrite run_wrC by (rewrite ?zlen_zupd; lia). rewrite run_Ret.
    rewrite run_Ret. reflexivity. }
  rewrite (run_bind_ok _ _ _ _ _ EI).
  assert (HL1 : zlen C1 = pmax) by (unfold C1; rewrite !zlen_zupd; assumption).
  assert (G1 : znth C1 a = Some b) by (unfold C1; rewrite !znth_zupd_other by congruence; apply znth_zupd_same; lia).
  assert (G2 : znth C1 b = Some c) by (unfold C1; rewrite znth_zupd_other by congruence; apply znth_zupd_same; rewrite zlen_zupd; lia).
  assert (G3 : znth C1 c = Some a) by (unfold C1; apply znth_zupd_same; rewrite !zlen_zupd; lia).
  assert (GU : forall e, e <> a -> e <> b -> e <> c -> znth C1 e = znth C e) by (intros; unfold C1; rewrite !znth_zupd_other by congruence; reflexivity).
  assert (HC : one_cycle C1 c [a; b]).
  { split; [|split; [|split]].
    - constructor; [simpl; intros [K|[K|[]]]; congruence|]. constructor; [simpl; intros [K|[]]; congruence|]. constructor; [simpl; tauto|constructor].
    - simpl. auto.
    - intros e [<-|[<-|[<-|[]]]]; lia.
    - intros e He Hn. rewrite GU; [apply HU; lia| | |]; intros <-; apply Hn; simpl; auto. }
  rewrite Hwc by lia. apply (bnd_loop_run _ 1 rsize c C1 R [a; b]); auto; try lia.
  - unfold zlen; simpl; lia.
  - intros ND. left. intros u v. change (Z.to_nat 1) with 1%nat.
    destruct R as [|t R]; [discriminate|]. rewrite znth_0 in Ht. injection Ht as ->.
    change (firstn 1 ((a, b, c) :: R)) with [(a, b, c)]. unfold boundary_edge, edges. simpl. split.
    + intros [Hu Nv]. destruct (Z.eq_dec u a) as [->|]; [|destruct (Z.eq_dec u b) as [->|]; [|destruct (Z.eq_dec u c) as [->|]]].
      * assert (v = b) by congruence. subst v. split; [auto|]. intros [K|[K|[K|[]]]]; injection K; intros; congruence.
      * assert (v = c) by congruence. subst v. split; [auto|]. intros [K|[K|[K|[]]]]; injection K; intros; congruence.
      * assert (v = a) by congruence. subst v. split; [auto|]. intros [K|[K|[K|[]]]]; injection K; intros; congruence.
      * exfalso. rewrite GU in Hu by assumption. pose proof (znth_some _ _ _ Hu). rewrite HU in Hu by lia. congruence.
    + intros [K _]. destruct K as [K|[K|[K|[]]]]; injection K; intros; subst u v; split; auto; lia.
  - intros i t Hi Ei. apply znth_some in Ei. lia.
Qed.
End Loop.
