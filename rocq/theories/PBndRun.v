(** boundary::compute on one slot: runs, terminates, and what it leaves. *)
From Verif Require Import Base PBase Prog PProg MUtils MBoundary SpecBnd PHeap PBnd.
Local Open Scope prog_scope.

Lemma zswap_app {A} (pre l post : list A) a b : 0 <= a < zlen l -> 0 <= b < zlen l ->
  zswap (pre ++ l ++ post) (zlen pre + a) (zlen pre + b) = pre ++ zswap l a b ++ post.
Proof.
  intros Ha Hb. apply znth_ext. intros i. pose proof (zlen_nonneg pre). pose proof (zlen_nonneg post).
  rewrite znth_zswap by (rewrite !zlen_app; lia).
  destruct (Z_lt_dec i (zlen pre)).
  { replace (i =? zlen pre + a) with false by lia. replace (i =? zlen pre + b) with false by lia. rewrite !znth_app1 by lia. reflexivity. }
  rewrite (znth_app2 pre (zswap l a b ++ post)) by lia. rewrite !(znth_app2 pre) by lia.
  replace (zlen pre + b - zlen pre) with b by lia. replace (zlen pre + a - zlen pre) with a by lia.
  destruct (Z_lt_dec (i - zlen pre) (zlen l)).
  - rewrite !znth_app1 by (rewrite ?zlen_zswap; lia). rewrite znth_zswap by lia.
    replace (i =? zlen pre + a) with (i - zlen pre =? a) by lia. replace (i =? zlen pre + b) with (i - zlen pre =? b) by lia. reflexivity.
  - replace (i =? zlen pre + a) with false by lia. replace (i =? zlen pre + b) with false by lia.
    rewrite !(znth_app2 l), (znth_app2 (zswap l a b)) by (rewrite ?zlen_zswap; lia). rewrite zlen_zswap. reflexivity.
Qed.

Lemma last_dflt {A} (p : list A) : forall x d d', last (x :: p) d = last (x :: p) d'.
Proof. induction p as [|y p IH]; intros x d d'; [reflexivity|]. apply (IH y). Qed.

(** the triangle read from vertex k on *)
Definition rot (t : tri) (k : Z) : tri := (comp t (k mod 3), comp t ((k + 1) mod 3), comp t ((k + 2) mod 3)).

Section Run.
Context {F : Type}.
Variable wc : Z -> Z.
Variable l : mem F.
Variables pre post : list tri.
Variables pmax rsize : Z.
Notation ro := (3 * zlen pre).

Definition bm (C : list Z) (R : list tri) : mem F := mset (mset l AdR C) AT (flat (pre ++ R ++ post)).

Lemma mrd_T C R j c t : znth R j = Some t -> 0 <= c < 3 -> mrd (bm C R) AT (ro + j * 3 + c) = Some (comp t c).
Proof.
  intros H Hc. unfold mrd, bm. rewrite mget_mset_same. replace (ro + j * 3 + c) with (3 * (zlen pre + j) + c) by lia.
  apply znth_flat; [|assumption]. pose proof (znth_some _ _ _ H). rewrite znth_app2 by lia. replace (zlen pre + j - zlen pre) with j by lia.
  rewrite znth_app1 by lia. assumption.
Qed.
Lemma mrd_C C R e : mrd (bm C R) AdR (0 + e) = znth C e.
Proof. unfold mrd, bm. rewrite mget_mset_other by discriminate. rewrite mget_mset_same. reflexivity. Qed.

Lemma run_rdR {A} C R j c t (f : Z -> prog F A) : znth R j = Some t ->
  run (x <- rdR ro j c ;; f x) (bm C R) = run (f (comp t (c mod 3))) (bm C R).
Proof.
  intros H. unfold rdR, rd. simpl bind.
  rewrite (run_Rd AT (ro + j * 3 + c mod 3) _ (bm C R) (comp t (c mod 3))); [reflexivity|]. apply mrd_T; [assumption|]. apply Z.mod_pos_bound. lia.
Qed.
Lemma run_rdC {A} C R e v (f : Z -> prog F A) : znth C e = Some v ->
  run (x <- rdC 0 e ;; f x) (bm C R) = run (f v) (bm C R).
Proof.
  intros H. unfold rdC, rd. simpl bind. rewrite (run_Rd AdR (0 + e) _ (bm C R) v); [reflexivity|]. rewrite mrd_C. assumption.
Qed.
Lemma bm_set C R e v : mwr (bm C R) AdR (0 + e) v = bm (zupd C e v) R.
Proof. reflexivity. Qed.
Lemma run_wrC {A} C R e v (f : prog F A) : 0 <= e < zlen C -> 0 <= v < 256 ->
  run (wrC 0 e v ;;; f) (bm C R) = run f (bm (zupd C e v) R).
Proof.
  intros He Hv. destruct (znth_in_range _ _ He) as [w Hw]. unfold wrC, wr. simpl bind. rewrite w8_id by assumption.
  rewrite (run_Wr AdR (0 + e) v _ (bm C R) w) by (rewrite mrd_C; assumption). reflexivity.
Qed.

Lemma run_swapc C R j sj c t t' : znth R j = Some t -> znth R sj = Some t' -> 0 <= c < 3 ->
  exists R', run (a <- rdR ro j c ;; b <- rdR ro sj c ;; wr AT (ro + j * 3 + c) b ;;; wr AT (ro + sj * 3 + c) a) (bm C R)
    = Ok (tt, bm C R') /\ zlen R' = zlen R /\
   (forall i, i <> j -> i <> sj -> znth R' i = znth R i) /\
   (j <> sj -> znth R' j = Some (setc t c (comp t' c)) /\ znth R' sj = Some (setc t' c (comp t c))) /\
   (j = sj -> znth R' j = Some t).
Proof.
  intros Hj Hs Hc. pose proof (znth_some _ _ _ Hj). pose proof (znth_some _ _ _ Hs).
  rewrite (run_rdR _ _ _ _ t) by assumption. rewrite (run_rdR _ _ _ _ t') by assumption. rewrite !(Z.mod_small c) by lia.
  assert (W : forall R0 i t0 v, znth R0 i = Some t0 -> run (wr AT (ro + i * 3 + c) v) (bm C R0) = Ok (tt, bm C (zupd R0 i (setc t0 c v)))).
  { intros R0 i t0 v Hi. rewrite (run_wr AT _ _ _ (comp t0 c)) by (apply mrd_T; assumption). f_equal. f_equal.
    unfold bm, mwr. rewrite mget_mset_same. pose proof (znth_some _ _ _ Hi).
    assert (EE : pre ++ zupd R0 i (setc t0 c v) ++ post = zupd (pre ++ R0 ++ post) (zlen pre + i) (setc t0 c v)).
    { apply znth_ext. intros q. pose proof (zlen_nonneg pre). pose proof (zlen_nonneg post).
      destruct (Z_lt_dec q (zlen pre)).
      - rewrite znth_app1 by lia. rewrite znth_zupd_other by lia. rewrite znth_app1 by lia. reflexivity.
      - rewrite znth_app2 by lia. destruct (Z.eq_dec q (zlen pre + i)) as [->|Nq].
        + rewrite znth_zupd_same by (rewrite !zlen_app; lia). replace (zlen pre + i - zlen pre) with i by lia.
          rewrite znth_app1 by (rewrite zlen_zupd; lia). apply znth_zupd_same. lia.
        + rewrite znth_zupd_other by lia. rewrite (znth_app2 pre) by lia.
          destruct (Z_lt_dec (q - zlen pre) (zlen R0)).
          * rewrite !znth_app1 by (rewrite ?zlen_zupd; lia). apply znth_zupd_other. lia.
          * rewrite !znth_app2 by (rewrite ?zlen_zupd; lia). rewrite zlen_zupd. reflexivity. }
    rewrite EE. assert (HH : znth (pre ++ R0 ++ post) (zlen pre + i) = Some t0).
    { rewrite znth_app2 by lia. replace (zlen pre + i - zlen pre) with i by lia. rewrite znth_app1 by lia. assumption. }
    rewrite <- (zupd_flat _ _ c t0 v HH Hc). replace (3 * (zlen pre + i) + c) with (ro + i * 3 + c) by lia. reflexivity. }
  set (R1 := zupd R j (setc t c (comp t' c))).
  destruct (znth_in_range R1 sj ltac:(unfold R1; rewrite zlen_zupd; lia)) as [t2 Ht2].
  exists (zupd R1 sj (setc t2 c (comp t c))). split.
  { rewrite (run_bind_ok _ _ _ tt (bm C R1)) by (apply W; assumption). apply W. assumption. }
  split; [unfold R1; rewrite !zlen_zupd; reflexivity|]. split; [|split].
  - intros i N1 N2. unfold R1. rewrite !znth_zupd_other by congruence. reflexivity.
  - intros Nj. unfold R1 in Ht2. rewrite znth_zupd_other in Ht2 by assumption. assert (t2 = t') by congruence. subst t2.
    split; [rewrite znth_zupd_other by congruence; apply znth_zupd_same; lia|apply znth_zupd_same; unfold R1; rewrite zlen_zupd; lia].
  - intros <-. rewrite znth_zupd_same by (unfold R1; rewrite zlen_zupd; lia). f_equal. unfold R1 in Ht2. rewrite znth_zupd_same in Ht2 by lia.
    injection Ht2 as <-. assert (t' = t) by congruence. subst t'. destruct t as [[x y] z]. unfold setc, comp. destruct (c =? 0), (c =? 1); reflexivity.
Qed.

Lemma run_bswap C R j sj : 0 <= j < zlen R -> 0 <= sj < zlen R ->
  run (bnd_swap ro j sj) (bm C R) = Ok (tt, bm C (zswap R j sj)).
Proof.
  intros Hj Hs. destruct (znth_in_range _ _ Hj) as [t Ht]. destruct (znth_in_range _ _ Hs) as [t' Ht'].
  unfold bnd_swap, forM.
  destruct (run_swapc C R j sj 0 t t' Ht Ht' ltac:(lia)) as (R1 & E1 & L1 & O1 & S1 & Q1).
  assert (K1 : exists u u', znth R1 j = Some u /\ znth R1 sj = Some u').
  { destruct (znth_in_range R1 j ltac:(lia)) as [u Hu]. destruct (znth_in_range R1 sj ltac:(lia)) as [u' Hu']. eauto. }
  destruct K1 as (u1 & u1' & Hu1 & Hu1').
  destruct (run_swapc C R1 j sj 1 u1 u1' Hu1 Hu1' ltac:(lia)) as (R2 & E2 & L2 & O2 & S2 & Q2).
  assert (K2 : exists u u', znth R2 j = Some u /\ znth R2 sj = Some u').
  { destruct (znth_in_range R2 j ltac:(lia)) as [u Hu]. destruct (znth_in_range R2 sj ltac:(lia)) as [u' Hu']. eauto. }
  destruct K2 as (u2 & u2' & Hu2 & Hu2').
  destruct (run_swapc C R2 j sj 2 u2 u2' Hu2 Hu2' ltac:(lia)) as (R3 & E3 & L3 & O3 & S3 & Q3).
  rewrite run_bind, E1. rewrite run_bind, E2. rewrite run_bind, E3. rewrite run_Ret. f_equal. f_equal. f_equal.
  apply znth_ext. intros i. rewrite znth_zswap by assumption.
  destruct (Z.eq_dec j sj) as [<-|Nj].
  - specialize (Q1 eq_refl). specialize (Q2 eq_refl). specialize (Q3 eq_refl).
    assert (u1 = t) by congruence. assert (u2 = u1) by congruence. subst.
    destruct (Z.eqb_spec i j) as [->|Ni]; [congruence|]. now rewrite O3, O2, O1 by congruence.
  - destruct (S1 Nj) as (A1 & B1). destruct (S2 Nj) as (A2 & B2). destruct (S3 Nj) as (A3 & B3).
    assert (u1 = setc t 0 (comp t' 0)) by congruence. assert (u1' = setc t' 0 (comp t 0)) by congruence.
    assert (u2 = setc u1 1 (comp u1' 1)) by congruence. assert (u2' = setc u1' 1 (comp u1 1)) by congruence. subst.
    destruct t as [[x y] z], t' as [[x' y'] z'].
    destruct (Z.eqb_spec i j) as [->|Ni]; [rewrite A3, Ht'; reflexivity|].
    destruct (Z.eqb_spec i sj) as [->|Ni']; [rewrite B3, Ht; reflexivity|]. now rewrite O3, O2, O1 by congruence.
Qed.

(** ** the walk *)
Hypothesis Hp : pmax <= 255.
Hypothesis Hr : 1 <= rsize.
Hypothesis Hwc : forall x, 0 <= x <= Z.max 255 rsize -> wc x = x.

Definition shared (C : list Z) (e0 e1 : Z) : bool := match znth C e1 with Some v => v =? e0 | None => false end.

Lemma run_walk C R first e0 e1 : forall p x fuel counter found,
  ~ In first (removelast (x :: p)) -> last (x :: p) x = first -> chain C x (removelast p) first \/ p = [] ->
  (forall u, In u (x :: p) -> exists v, znth C u = Some v) ->
  0 <= counter -> counter + zlen p - 1 <= rsize -> counter + zlen p <= 255 -> (length p <= fuel)%nat ->
  run (bnd_walk wc 0 rsize fuel first e0 e1 x counter found) (bm C R)
  = Ok (Some (found || existsb (fun u => (u =? e1) && shared C e0 u) (x :: p)), bm C R).
Proof.
  induction p as [|y p IH]; intros x fuel counter found Hn Hlast Hch Hdef H0 Hc Hb Hf.
  - destruct (Hdef x (or_introl eq_refl)) as [v Hv]. simpl in Hlast.
    assert (EQ : shared C e0 x = (v =? e0)) by (unfold shared; rewrite Hv; reflexivity).
    destruct fuel; cbn [bnd_walk]; rewrite (run_rdC _ _ _ v) by assumption; subst x; rewrite Z.eqb_refl;
      simpl; rewrite EQ, !orb_false_r; reflexivity.
  - destruct (Hdef x (or_introl eq_refl)) as [v Hv]. destruct fuel as [|fuel]; [simpl in Hf; lia|].
    assert (EQ : shared C e0 x = (v =? e0)) by (unfold shared; rewrite Hv; reflexivity).
    cbn [bnd_walk]. rewrite (run_rdC _ _ _ v) by assumption.
    rewrite zlen_cons in *. pose proof (zlen_nonneg p).
    assert (Nx : x <> first). { intros ->. apply Hn. simpl. now left. }
    replace (x =? first) with false by lia. rewrite (run_rdC _ _ _ v) by assumption.
    replace (rsize <? counter) with false by lia. rewrite Hwc by lia.
    assert (v = y /\ (chain C y (removelast p) first \/ p = [])) as [-> Hch'].
    { destruct Hch as [Hch|]; [|discriminate]. destruct p as [|z p].
      - simpl in Hch, Hlast. split; [congruence|now right].
      - change (removelast (y :: z :: p)) with (y :: removelast (z :: p)) in Hch. destruct Hch as [Q1 Q2]. split; [congruence|now left]. }
    rewrite IH; try lia; try assumption.
    + simpl existsb. rewrite EQ, !orb_assoc. reflexivity.
    + intros K. apply Hn. change (removelast (x :: y :: p)) with (x :: removelast (y :: p)). now right.
    + change (last (x :: y :: p) x) with (last (y :: p) x) in Hlast. rewrite <- Hlast. apply last_dflt.
    + intros u Hu. apply Hdef. now right.
    + simpl in Hf. lia.
Qed.

Lemma shared_true C h rest e0 e1 : zlen C <= 255 -> one_cycle C h rest -> e0 <> 255 ->
  existsb (fun u => (u =? e1) && shared C e0 u) (rest ++ [h]) = shared C e0 e1.
Proof.
  intros HL HC N0. destruct (shared C e0 e1) eqn:S.
  - apply existsb_exists. exists e1. split; [|rewrite Z.eqb_refl; assumption].
    unfold shared in S. destruct (znth C e1) as [v|] eqn:Ev; [|discriminate]. apply Z.eqb_eq in S. subst v.
    destruct (cyc_target _ _ _ _ _ HL HC Ev N0) as [[<-|I] _]; apply in_or_app; [right; now left|now left].
  - destruct (existsb _ _) eqn:X; [|reflexivity]. apply existsb_exists in X as (u & _ & Hu). apply andb_true_iff in Hu as [Hu Hs].
    apply Z.eqb_eq in Hu. congruence.
Qed.

Lemma run_full_walk C R h rest e0 e1 v : zlen C = pmax -> one_cycle C h rest -> zlen rest <= rsize + 1 -> e0 <> 255 ->
  znth C h = Some v ->
  run (bnd_walk wc 0 rsize (walk_fuel rsize) h e0 e1 v 0 false) (bm C R) = Ok (Some (shared C e0 e1), bm C R).
Proof.
  intros HL HC Hlen N0 Hv. pose proof HC as (ND & Ch & Rg & Un).
  assert (LN : zlen rest + 1 <= 255).
  { assert (zlen (h :: rest) <= zlen (zrange 0 pmax)).
    { unfold zlen. apply inj_le. apply NoDup_incl_length; [assumption|]. intros e He. apply in_zrange. specialize (Rg e He). lia. }
    rewrite zlen_cons in H. pose proof (Rg h (or_introl eq_refl)). rewrite zlen_zrange in H by lia. lia. }
  assert (HLL : zlen C <= 255) by lia.
  rewrite <- (shared_true C h rest e0 e1 HLL HC N0).
  assert (EX : exists p, rest ++ [h] = v :: p /\ zlen p = zlen rest /\ (rest = [] -> p = [] /\ v = h) /\ (forall x r, rest = x :: r -> v = x /\ p = r ++ [h])).
  { destruct rest as [|x r].
    - simpl in Ch. exists []. split; [simpl; congruence|]. split; [reflexivity|]. split; [|discriminate]. split; congruence.
    - destruct Ch as [C1 _]. exists (r ++ [h]). split; [simpl; congruence|]. split; [rewrite zlen_app, !zlen_cons, zlen_nil; lia|].
      split; [discriminate|]. intros x' r' Q. injection Q as <- <-. split; congruence. }
  destruct EX as (p & Ep & Lp & Q1 & Q2). rewrite Ep.
  change (existsb (fun u => (u =? e1) && shared C e0 u) (v :: p)) with (false || existsb (fun u => (u =? e1) && shared C e0 u) (v :: p)).
  assert (RL : removelast (v :: p) = rest) by (rewrite <- Ep; apply removelast_last).
  apply run_walk; try lia.
  - rewrite RL. now inversion ND.
  - rewrite <- Ep. apply last_last.
  - destruct rest as [|x r]; [right; now apply Q1|]. left. destruct (Q2 x r eq_refl) as [-> ->]. rewrite removelast_last.
    destruct Ch as [_ Ch]. exact Ch.
  - intros u Hu. rewrite <- Ep in Hu. destruct (cyc_defined C h rest u HC) as (w & Hw & _); [|eauto].
    apply in_app_or in Hu as [Hu|[<-|[]]]; [now right|now left].
  - unfold walk_fuel. unfold zlen in *. lia.
Qed.

Definition mkbyte (s0 s1 s2 : bool) : Z := (if s0 then 1 else 0) + (if s1 then 2 else 0) + (if s2 then 4 else 0).

Lemma run_stat C R h rest j a b c : zlen C = pmax -> one_cycle C h rest -> zlen rest <= rsize + 1 ->
  znth R j = Some (a, b, c) -> tri_ok pmax (a, b, c) ->
  run (bnd_stat wc 0 ro rsize h j) (bm C R) = Ok (Some (mkbyte (shared C a b) (shared C b c) (shared C c a)), bm C R).
Proof.
  intros HL HC Hlen Hj (Ra & Rb & Rc & _). destruct (cyc_defined C h rest h HC (or_introl eq_refl)) as (v & Hv & _).
  unfold bnd_stat, foldM.
  assert (ST : forall byte k e0 e1, e0 <> 255 -> comp (a, b, c) (k mod 3) = e0 -> comp (a, b, c) ((k + 1) mod 3) = e1 ->
    run (e0 <- rdR ro j k ;; e1 <- rdR ro j (k + 1) ;; edge <- rdC 0 h ;;
         w <- bnd_walk wc 0 rsize (walk_fuel rsize) h e0 e1 edge 0 false ;;
         match w with None => Ret None | Some true => Ret (Some (vs_set_true byte k)) | Some false => Ret (Some byte) end) (bm C R)
    = Ok (Some (if shared C e0 e1 then vs_set_true byte k else byte), bm C R)).
  { intros byte k e0 e1 N0 E0 E1. rewrite (run_rdR _ _ _ _ _ _ Hj). rewrite (run_rdR _ _ _ _ _ _ Hj). rewrite (run_rdC _ _ _ v) by assumption.
    rewrite E0, E1. erewrite run_bind_ok; [|apply (run_full_walk C R h rest); assumption]. destruct (shared C e0 e1); reflexivity. }
  rewrite run_bind. rewrite (ST 0 0 a b) by (lia || reflexivity).
  rewrite run_bind. rewrite (ST _ 1 b c) by (lia || reflexivity).
  rewrite run_bind. rewrite (ST _ 2 c a) by (lia || reflexivity). simpl.
  destruct (shared C a b), (shared C b c), (shared C c a); reflexivity.
Qed.

(** ** the duplicate search *)
Definition dup (C : list Z) : Prop := exists i j v, i < j /\ znth C i = Some v /\ znth C j = Some v /\ v <> 255.

Lemma run_dup_j C R ei ci : zlen C = pmax -> znth C ei = Some ci -> ci <> 255 ->
  forall n ej, 0 <= ej <= pmax -> pmax - ej <= Z.of_nat n ->
  exists b, run (bnd_dup_j 0 pmax n ei ej) (bm C R) = Ok (b, bm C R) /\
    (b = true <-> exists j, ej <= j /\ znth C j = Some ci).
Proof.
  intros HL Hi Nc. induction n as [|n IH]; intros ej He Hn.
  - cbn [bnd_dup_j]. replace (ej <? pmax) with false by lia. exists false. split; [reflexivity|]. split; [discriminate|].
    intros (j & Hj & Ej). apply znth_some in Ej. lia.
  - cbn [bnd_dup_j]. destruct (Z.ltb_spec ej pmax) as [L|L].
    + destruct (znth_in_range C ej ltac:(lia)) as [cj Hcj]. rewrite (run_rdC _ _ _ cj) by assumption.
      rewrite w8_id by lia.
      destruct (IH (ej + 1) ltac:(lia) ltac:(lia)) as (b & Eb & Hb).
      assert (SK : cj <> ci -> (b = true <-> exists j, ej <= j /\ znth C j = Some ci)).
      { intros Nj. rewrite Hb. split; intros (j & H1 & H2); exists j; (split; [|assumption]); [lia|].
        destruct (Z.eq_dec j ej) as [->|]; [congruence|lia]. }
      destruct (Z.eqb_spec cj bundef) as [U|U].
      * exists b. split; [exact Eb|]. apply SK. unfold bundef in U. congruence.
      * rewrite (run_rdC _ _ _ ci) by assumption. rewrite (run_rdC _ _ _ cj) by assumption.
        destruct (Z.eqb_spec ci cj) as [<-|Q].
        -- exists true. split; [reflexivity|]. split; [|reflexivity]. intros _. exists ej. split; [lia|assumption].
        -- exists b. split; [exact Eb|]. apply SK. congruence.
    + exists false. split; [reflexivity|]. split; [discriminate|].
      intros (j & Hj & Ej). apply znth_some in Ej. lia.
Qed.

Lemma run_dup_i C R : zlen C = pmax -> forall n ei, 0 <= ei <= pmax -> pmax - ei <= Z.of_nat n ->
  exists b, run (bnd_dup_i 0 pmax n ei) (bm C R) = Ok (b, bm C R) /\
    (b = true <-> exists i j v, ei <= i /\ i < j /\ znth C i = Some v /\ znth C j = Some v /\ v <> 255).
Proof.
  intros HL. induction n as [|n IH]; intros ei He Hn.
  - cbn [bnd_dup_i]. replace (ei <? pmax) with false by lia. exists false. split; [reflexivity|]. split; [discriminate|].
    intros (i & j & v & H1 & _ & H2 & _). apply znth_some in H2. lia.
  - cbn [bnd_dup_i]. destruct (Z.ltb_spec ei pmax) as [L|L].
    + destruct (znth_in_range C ei ltac:(lia)) as [ci Hci]. rewrite (run_rdC _ _ _ ci) by assumption. rewrite w8_id by lia.
      destruct (IH (ei + 1) ltac:(lia) ltac:(lia)) as (b & Eb & Hb).
      assert (SK : (forall j, ei < j -> znth C j = Some ci -> ci = 255) ->
        (b = true <-> exists i j v, ei <= i /\ i < j /\ znth C i = Some v /\ znth C j = Some v /\ v <> 255)).
      { intros Nj. rewrite Hb. split; intros (i & j & v & H1 & H2 & H3 & H4 & H5); exists i, j, v.
        - repeat split; auto; lia.
        - assert (i <> ei). { intros ->. assert (v = ci) by congruence. subst v. apply H5. apply (Nj j); auto. }
          split; [lia|auto]. }
      destruct (Z.eqb_spec ci bundef) as [U|U].
      * exists b. split; [exact Eb|]. apply SK. intros. assumption.
      * destruct (run_dup_j C R ei ci HL Hci U 256 (ei + 1) ltac:(lia) ltac:(change (Z.of_nat 256) with 256; lia)) as (b' & Eb' & Hb').
        rewrite (run_bind_ok _ _ _ _ _ Eb'). destruct b'.
        -- exists true. split; [reflexivity|]. split; [|reflexivity]. intros _. destruct (proj1 Hb' eq_refl) as (j & H1 & H2).
           exists ei, j, ci. repeat split; auto; lia.
        -- exists b. split; [exact Eb|]. apply SK. intros j H1 H2. exfalso. assert (false = true) by (apply Hb'; exists j; split; [lia|assumption]). discriminate.
    + exists false. split; [reflexivity|]. split; [discriminate|].
      intros (i & j & v & H1 & _ & H2 & _). apply znth_some in H2. lia.
Qed.
End Run.
