(** boundary::compute and the capacity p_maxsize. *)
From Verif Require Import Base PBase Prog PProg MUtils MBoundary SpecBnd PHeap PBnd PBndRun PBndLoop.
Local Open Scope prog_scope.

Section Pad.
Context {F : Type}.
Variable l : mem F.
Variables pre post : list tri.
Variables pmax pad : Z.
Notation ro := (3 * zlen pre).
Notation bm := (bm l pre post).
Hypothesis Hpad : 0 <= pad.
Notation P := (repeat 255 (Z.to_nat pad)).

(** q does on the longer row what p does on the shorter one *)
Definition padrun {A} (p q : prog F A) : Prop := forall C R x m,
  zlen C = pmax -> run p (bm C R) = Ok (x, m) ->
  exists C' R', m = bm C' R' /\ zlen C' = pmax /\ zlen R' = zlen R /\ run q (bm (C ++ P) R) = Ok (x, bm (C' ++ P) R').

Lemma pad_ret {A} (a : A) : padrun (Ret a) (Ret a).
Proof. intros C R x m HL E. rewrite run_Ret in E. injection E as <- <-. exists C, R. auto. Qed.
Lemma pad_fail {A} e : padrun (@Fail F A e) (Fail e).
Proof. intros C R x m HL E. discriminate. Qed.
Lemma pad_bind {A B} (p q : prog F A) (f g : A -> prog F B) : padrun p q -> (forall a, padrun (f a) (g a)) -> padrun (bind p f) (bind q g).
Proof.
  intros H1 H2 C R x m HL E. rewrite run_bind in E. destruct (run p (bm C R)) as [[a m1]|] eqn:E1; [|discriminate].
  destruct (H1 C R a m1 HL E1) as (C1 & R1 & -> & L1 & LR1 & Q1). destruct (H2 a C1 R1 x m L1 E) as (C2 & R2 & -> & L2 & LR2 & Q2).
  exists C2, R2. split; [reflexivity|]. split; [assumption|]. split; [lia|]. rewrite run_bind, Q1. exact Q2.
Qed.
Lemma pad_rdR j c : padrun (rdR ro j c) (rdR ro j c).
Proof.
  intros C R x m HL E. unfold rdR in *. unfold run, rd in E. cbn [run_in everywhere] in E.
  destruct (mrd (bm C R) AT (ro + j * 3 + c mod 3)) as [v|] eqn:M; [|discriminate]. injection E as <- <-.
  exists C, R. split; [reflexivity|]. split; [assumption|]. split; [reflexivity|].
  apply (run_rd AT). unfold mrd, PBndRun.bm in *. rewrite mget_mset_same in *. exact M.
Qed.
Lemma pad_rdC e : padrun (rdC 0 e) (rdC 0 e).
Proof.
  intros C R x m HL E. unfold rdC in *. unfold run, rd in E. cbn [run_in everywhere] in E.
  destruct (mrd (bm C R) AdR (0 + e)) as [v|] eqn:M; [|discriminate]. injection E as <- <-.
  exists C, R. split; [reflexivity|]. split; [assumption|]. split; [reflexivity|].
  apply (run_rd AdR). rewrite (mrd_C l pre post) in *. pose proof (znth_some C e v M). rewrite znth_app1 by lia. exact M.
Qed.
Lemma zupd_app1 {A} (a b : list A) i v : i < zlen a -> zupd (a ++ b) i v = zupd a i v ++ b.
Proof.
  intros H. apply znth_ext. intros q. rewrite znth_zupd. destruct (Z_lt_dec q (zlen a)).
  - rewrite !znth_app1 by (rewrite ?zlen_zupd; lia). rewrite znth_zupd, zlen_app. pose proof (zlen_nonneg b).
    destruct (Z.eqb_spec i q), (Z.leb_spec 0 i); simpl; try reflexivity. replace (i <? zlen a + zlen b) with true by lia. replace (i <? zlen a) with true by lia. reflexivity.
  - replace (i =? q) with false by lia. simpl. rewrite !znth_app2 by (rewrite ?zlen_zupd; lia). rewrite zlen_zupd. reflexivity.
Qed.
Lemma pad_wrC e v : padrun (wrC 0 e v) (wrC 0 e v).
Proof.
  intros C R x m HL E. unfold wrC in *. unfold run, wr in E. cbn [run_in everywhere] in E.
  destruct (mrd (bm C R) AdR (0 + e)) as [w|] eqn:M; [|discriminate]. injection E as <- <-.
  rewrite (mrd_C l pre post) in M. pose proof (znth_some C e w M).
  exists (zupd C e (w8 v)), R. split; [reflexivity|]. split; [rewrite zlen_zupd; assumption|]. split; [reflexivity|].
  rewrite (run_wr AdR _ _ _ w) by (rewrite (mrd_C l pre post), znth_app1 by lia; exact M).
  rewrite bm_set, zupd_app1 by lia. reflexivity.
Qed.
Lemma pad_swap j sj : 0 <= j -> 0 <= sj -> forall C R x m, zlen C = pmax -> j < zlen R -> sj < zlen R ->
  run (bnd_swap ro j sj) (bm C R) = Ok (x, m) -> m = bm C (zswap R j sj) /\ run (bnd_swap ro j sj) (bm (C ++ P) R) = Ok (x, bm (C ++ P) (zswap R j sj)).
Proof.
  intros H1 H2 C R x m HL H3 H4 E. rewrite run_bswap in E by lia. injection E as <- <-. split; [reflexivity|]. apply run_bswap; lia.
Qed.
Lemma pad_foldM {S X} (f g : S -> X -> prog F S) : (forall s x, padrun (f s x) (g s x)) -> forall xs s, padrun (foldM xs f s) (foldM xs g s).
Proof. intros H. induction xs as [|x xs IH]; intros s; cbn [foldM]; [apply pad_ret|]. apply pad_bind; auto. Qed.

Variable wc : Z -> Z.
Variable rsize : Z.
Lemma pad_init : padrun (bnd_init 0 ro) (bnd_init 0 ro).
Proof.
  unfold bnd_init. apply pad_foldM. intros s x. apply pad_bind; [apply pad_rdR|]; intros e0. apply pad_bind; [apply pad_rdR|]; intros e1.
  apply pad_bind; [apply pad_wrC|]; intros _. apply pad_ret.
Qed.
Lemma pad_walk fuel : forall first e0 e1 edge counter found,
  padrun (bnd_walk wc 0 rsize fuel first e0 e1 edge counter found) (bnd_walk wc 0 rsize fuel first e0 e1 edge counter found).
Proof.
  induction fuel as [|fuel IH]; intros; cbn [bnd_walk]; (apply pad_bind; [apply pad_rdC|]); intros ce1;
    (destruct (edge =? first); [apply pad_ret|]); (apply pad_bind; [apply pad_rdC|]); intros nx; (destruct (rsize <? counter); [apply pad_ret|]).
  - apply pad_fail.
  - apply IH.
Qed.
Lemma pad_stat first j : padrun (bnd_stat wc 0 ro rsize first j) (bnd_stat wc 0 ro rsize first j).
Proof.
  unfold bnd_stat. apply pad_foldM. intros [byte|] x; [|apply pad_ret].
  apply pad_bind; [apply pad_rdR|]; intros e0. apply pad_bind; [apply pad_rdR|]; intros e1.
  apply pad_bind; [apply pad_rdC|]; intros ed. apply pad_bind; [apply pad_walk|]; intros [[|]|]; apply pad_ret.
Qed.

Hypothesis Hsum : pmax + pad <= 255.
Hypothesis Hpm : 0 <= pmax.
Lemma dup_pad C : zlen C = pmax -> dup (C ++ P) <-> dup C.
Proof.
  intros HL. unfold dup. assert (Q : forall i v, znth (C ++ P) i = Some v -> v <> 255 -> znth C i = Some v).
  { intros i v Hi Nv. pose proof (znth_some _ _ _ Hi) as Ri. rewrite zlen_app, zlen_repeat in Ri. destruct (Z_lt_dec i (zlen C)); [rewrite znth_app1 in Hi by lia; assumption|].
    rewrite znth_app2 in Hi by lia. rewrite znth_repeat in Hi by lia. congruence. }
  split; intros (i & j & v & H1 & H2 & H3 & H4); exists i, j, v.
  - auto.
  - repeat split; auto; rewrite znth_app1; auto; [apply znth_some in H2|apply znth_some in H3]; lia.
Qed.
Lemma pad_dup : padrun (bnd_dup_i 0 pmax 256 0) (bnd_dup_i 0 (pmax + pad) 256 0).
Proof.
  intros C R x m HL E.
  destruct (dup_i_prog l pre post pmax ltac:(lia) C R HL) as (b & Eb & Hb).
  rewrite Eb in E. injection E as <- <-. exists C, R. split; [reflexivity|]. split; [assumption|]. split; [reflexivity|].
  assert (LP : zlen (C ++ P) = pmax + pad) by (rewrite zlen_app, zlen_repeat; lia).
  destruct (dup_i_prog l pre post (pmax + pad) ltac:(lia) (C ++ P) R LP) as (b' & Eb' & Hb').
  rewrite Eb'. f_equal. f_equal. rewrite (dup_pad C HL) in Hb'. destruct b, b'; tauto || (exfalso; intuition discriminate).
Qed.
Hypothesis Hwc : forall x, 0 <= x <= Z.max 255 rsize -> wc x = x.

(** the main loop: only the duplicate search sees the capacity *)
Lemma pad_loop fuel : forall j sj head C R x m, 1 <= j <= sj -> sj <= rsize -> zlen R = rsize ->
  zlen C = pmax -> run (bnd_loop wc 0 pmax ro rsize fuel j sj head) (bm C R) = Ok (x, m) ->
  exists C' R', m = bm C' R' /\ zlen C' = pmax /\ zlen R' = zlen R /\
    run (bnd_loop wc 0 (pmax + pad) ro rsize fuel j sj head) (bm (C ++ P) R) = Ok (x, bm (C' ++ P) R').
Proof.
  pose proof pad_dup as PD. revert PD. 
  induction fuel as [|fuel IH]; intros PD j sj head C R x m Hj Hs HR HL E; cbn [bnd_loop] in *.
  { destruct (j <? rsize); [discriminate|]. apply (pad_ret _ C R x m HL E). }
  destruct (j <? rsize) eqn:Lj; [|apply (pad_ret _ C R x m HL E)].
  specialize (IH PD). revert PD E. generalize (@bnd_dup_i F 0 pmax 256 0) as D1. generalize (@bnd_dup_i F 0 (pmax + pad) 256 0) as D2. intros D2 D1 PD E.
  rewrite run_bind in E. destruct (run (bnd_stat wc 0 ro rsize (w8 head) j) (bm C R)) as [[st m1]|] eqn:E1; [|discriminate].
  destruct (pad_stat _ _ C R _ _ HL E1) as (C1 & R1 & -> & L1 & LR1 & Q1). rewrite run_bind, Q1. clear E1 Q1.
  destruct st as [byte|]; [|eapply (pad_ret _ C1 R1) in E; [|assumption]; destruct E as (C' & R' & E); exists C', R'; rewrite <- LR1; exact E].
  destruct (j =? sj) eqn:Es; [eapply (pad_ret _ C1 R1) in E; [|assumption]; destruct E as (C' & R' & E); exists C', R'; rewrite <- LR1; exact E|].
  assert (SW : forall h C R x m, zlen R = rsize -> zlen C = pmax -> run (bnd_swap ro j (wc (sj - 1)) ;;; bnd_loop wc 0 pmax ro rsize fuel j (wc (sj - 1)) h) (bm C R) = Ok (x, m) ->
     exists C' R', m = bm C' R' /\ zlen C' = pmax /\ zlen R' = zlen R /\
       run (bnd_swap ro j (wc (sj - 1)) ;;; bnd_loop wc 0 (pmax + pad) ro rsize fuel j (wc (sj - 1)) h) (bm (C ++ P) R) = Ok (x, bm (C' ++ P) R')).
  { intros h C0 R0 x0 m0 LR0 L0 E0. rewrite !Hwc in * by lia. rewrite run_bind in *. rewrite run_bswap in * by lia.
    destruct (IH j (sj - 1) h C0 (zswap R0 j (sj - 1)) x0 m0) as (C' & R' & Q); try lia; auto; [rewrite zlen_zswap; assumption|].
    rewrite zlen_zswap in Q. eauto. }
  assert (BD : forall {A} (p q : prog F A) (f g : A -> prog F (bstatus * Z)), padrun p q ->
     (forall a C R x m, zlen R = rsize -> zlen C = pmax -> run (f a) (bm C R) = Ok (x, m) -> exists C' R', m = bm C' R' /\ zlen C' = pmax /\ zlen R' = zlen R /\ run (g a) (bm (C ++ P) R) = Ok (x, bm (C' ++ P) R')) ->
     (forall C R x m, zlen R = rsize -> zlen C = pmax -> run (bind p f) (bm C R) = Ok (x, m) -> exists C' R', m = bm C' R' /\ zlen C' = pmax /\ zlen R' = zlen R /\ run (bind q g) (bm (C ++ P) R) = Ok (x, bm (C' ++ P) R'))).
  { intros A p q f g Hpq Hfg C0 R0 x0 m0 LR0 L0 E0. rewrite run_bind in E0. destruct (run p (bm C0 R0)) as [[a m2]|] eqn:E2; [|discriminate].
    destruct (Hpq C0 R0 a m2 L0 E2) as (C2 & R2 & -> & L2 & LR2 & Q2). destruct (Hfg a C2 R2 x0 m0 ltac:(lia) L2 E0) as (C3 & R3 & -> & L3 & LR3 & Q3).
    exists C3, R3. split; [reflexivity|]. split; [assumption|]. split; [lia|]. rewrite run_bind, Q2. exact Q3. }
  assert (LR1' : zlen R1 = rsize) by lia. rewrite <- LR1. clear C HL R HR LR1. revert E. revert C1 R1 x m LR1' L1. 
  destruct (vs_nshared byte =? 0).
  { intros. apply SW; assumption. }
  do 4 (intros C1 R1 x m LR1' L1 E; revert C1 R1 x m LR1' L1 E; apply BD; [apply pad_rdR|]; intros ?).
  do 4 (apply BD; [apply pad_rdC|]; intros ?).
  apply BD.
  { destruct (vs_nshared byte =? 1); [|destruct (vs_nshared byte =? 2)].
    - do 2 (apply pad_bind; [apply pad_wrC|]; intros _). apply pad_ret.
    - apply pad_bind; [apply pad_rdC|]; intros h. do 2 (apply pad_bind; [apply pad_wrC|]; intros _). apply pad_ret.
    - apply pad_ret. }
  intros h. apply BD; [exact PD|]. intros [|].
  - do 4 (apply BD; [apply pad_wrC|]; intros _). apply SW.
  - intros C1 R1 x m LR1' L1 E. rewrite Hwc in * by lia. apply IH; auto; lia.
Qed.

Lemma pad_compute C R x m : 1 <= rsize -> zlen R = rsize -> zlen C = pmax ->
  run (bnd_compute wc 0 pmax ro rsize) (bm C R) = Ok (x, m) ->
  exists C' R', m = bm C' R' /\ zlen C' = pmax /\ zlen R' = zlen R /\
    run (bnd_compute wc 0 (pmax + pad) ro rsize) (bm (C ++ P) R) = Ok (x, bm (C' ++ P) R').
Proof.
  intros Hr HR HL E. unfold bnd_compute in *. rewrite run_bind in *.
  destruct (run (bnd_init 0 ro) (bm C R)) as [[h m1]|] eqn:E1; [|discriminate].
  destruct (pad_init C R h m1 HL E1) as (C1 & R1 & -> & L1 & LR1 & Q1). rewrite Q1. rewrite <- LR1. rewrite Hwc in * by lia.
  eapply pad_loop; eauto; lia.
Qed.
End Pad.

(** ** capacity 256 and more: the uint8_t index of the duplicate search wraps
    round to the entry it compares with *)
Section Wrap.
Context {F : Type}.
Variable l : mem F.
Variables pre post : list tri.
Variables pad rsize : Z.
Notation ro := (3 * zlen pre).
Notation bm := (bm l pre post).
Hypothesis Hpad : 1 <= pad.
Notation P := (repeat 255 (Z.to_nat pad)).
Notation big := (255 + pad).
Notation idw := (fun x : Z => x).

Lemma wrap_dup_j D R ei ci : zlen D = big -> 0 <= ei < 256 -> znth D ei = Some ci -> ci <> 255 ->
  forall n ej, 0 <= ej < 256 -> (ei - ej) mod 256 < Z.of_nat n ->
  run (bnd_dup_j 0 big n ei ej) (bm D R) = Ok (true, bm D R).
Proof.
  intros HL Hi Ei Nc. induction n as [|n IH]; intros ej Hj Hn; [pose proof (Z.mod_pos_bound (ei - ej) 256); lia|].
  cbn [bnd_dup_j]. replace (ej <? big) with true by lia.
  destruct (znth_in_range D ej ltac:(lia)) as [cj Ej]. rewrite (run_rdC l pre post D R ej cj) by assumption.
  assert (NX : ej <> ei -> run (bnd_dup_j 0 big n ei (w8 (ej + 1))) (bm D R) = Ok (true, bm D R)).
  { intros Ne. apply IH; [apply w8_range|]. unfold w8. Z.div_mod_to_equations. lia. }
  destruct (Z.eq_dec ej ei) as [->|Ne].
  - assert (cj = ci) by congruence. subst cj. unfold bundef. replace (ci =? 255) with false by lia.
    do 2 rewrite (run_rdC l pre post D R ei ci) by assumption. rewrite Z.eqb_refl. reflexivity.
  - destruct (cj =? bundef); [auto|]. rewrite (run_rdC l pre post D R ei ci) by assumption.
    rewrite (run_rdC l pre post D R ej cj) by assumption. destruct (ci =? cj); [reflexivity|auto].
Qed.
Lemma wrap_dup_i D R i v : zlen D = big -> znth D i = Some v -> v <> 255 -> i < 256 ->
  forall n ei, 0 <= ei <= i -> i - ei < Z.of_nat n ->
  run (bnd_dup_i 0 big n ei) (bm D R) = Ok (true, bm D R).
Proof.
  intros HL Ei Nv Hi. induction n as [|n IH]; intros ei He Hn; [lia|].
  cbn [bnd_dup_i]. replace (ei <? big) with true by lia.
  destruct (znth_in_range D ei ltac:(lia)) as [ci Eci]. rewrite (run_rdC l pre post D R ei ci) by assumption.
  destruct (Z.eqb_spec ci bundef) as [U|U].
  - assert (ei <> i) by (intros ->; unfold bundef in U; congruence). rewrite w8_id by lia. apply IH; lia.
  - erewrite run_bind_ok; [|apply (wrap_dup_j D R ei ci); auto; [lia|apply w8_range|]].
    + reflexivity.
    + change (Z.of_nat 256) with 256. apply Z.mod_pos_bound. lia.
Qed.
Definition always_dup (DD : prog F bool) : Prop := forall D R, zlen D = big -> (exists i v, i < 256 /\ znth D i = Some v /\ v <> 255) ->
  run DD (bm D R) = Ok (true, bm D R).
Lemma dup_always : always_dup (bnd_dup_i 0 big 256 0).
Proof.
  intros D R HL (i & v & Hi & Ei & Nv). pose proof (znth_some _ _ _ Ei). apply (wrap_dup_i D R i v); auto; [lia|].
  change (Z.of_nat 256) with 256. lia.
Qed.

Lemma lost_walk D R first e0 e1 : znth D 255 = Some 255 -> first <> 255 -> forall fuel counter found,
  rsize + 1 - counter <= Z.of_nat fuel -> 0 <= counter <= rsize + 1 ->
  run (bnd_walk idw 0 rsize fuel first e0 e1 255 counter found) (bm D R) = Ok (None, bm D R).
Proof.
  intros H N. induction fuel as [|fuel IH]; intros counter found Hf Hc; cbn [bnd_walk]; rewrite (run_rdC l pre post D R 255 255) by assumption;
    replace (255 =? first) with false by lia; rewrite (run_rdC l pre post D R 255 255) by assumption; destruct (Z.ltb_spec rsize counter); try reflexivity; try lia.
  apply IH; lia.
Qed.
Lemma lost_stat D R first j t : znth D 255 = Some 255 -> first <> 255 -> znth D first = Some 255 -> znth R j = Some t -> 0 <= rsize ->
  run (bnd_stat idw 0 ro rsize first j) (bm D R) = Ok (None, bm D R).
Proof.
  intros H N Hf Hj Hr. unfold bnd_stat, foldM. rewrite run_bind.
  do 2 rewrite (run_rdR l pre post _ R j _ t) by assumption. rewrite (run_rdC l pre post D R first 255) by assumption.
  erewrite run_bind_ok; [|apply lost_walk; auto; [unfold walk_fuel|]; lia].
  reflexivity.
Qed.

Lemma wrap_attempt {A} (DD : prog F bool) ns k j D R t head (Kd Ko : Z -> prog F A) e0 e1 e2 o0 : always_dup DD ->
  zlen D = big -> (forall u v, znth D u = Some v -> 0 <= v < 256) -> znth R j = Some t ->
  comp t (k mod 3) = e0 -> comp t ((k + 1) mod 3) = e1 -> comp t ((k + 2) mod 3) = e2 -> tri_ok 255 (e0, e1, e2) ->
  znth D e0 = Some o0 -> o0 <> 255 -> (ns = 2 -> o0 = e2) ->
  exists head', run (e0 <- rdR ro j k ;; e1 <- rdR ro j (k + 1) ;; e2 <- rdR ro j (k + 2) ;; e3 <- rdR ro j (k + 3) ;;
     old0 <- rdC 0 e0 ;; old1 <- rdC 0 e1 ;; old2 <- rdC 0 e2 ;; old00 <- rdC 0 old0 ;;
     head <- (if ns =? 1 then wrC 0 e1 e2 ;;; wrC 0 e2 e3 ;;; Ret e2
              else if ns =? 2 then h <- rdC 0 e0 ;; wrC 0 h bundef ;;; wrC 0 e0 e1 ;;; Ret e0
              else Ret head) ;;
     dup <- DD ;;
     if dup then wrC 0 e0 old0 ;;; wrC 0 e1 old1 ;;; wrC 0 e2 old2 ;;; wrC 0 old0 old00 ;;; Kd head else Ko head) (bm D R)
   = run (Kd head') (bm D R) /\ (head' = head \/ head' = e0 \/ head' = e2).
Proof.
  intros HDD HL HV Hj K0 K1 K2 (R0 & R1 & R2 & N01 & N12 & N20) E0 N0 H2.
  assert (K3 : comp t ((k + 3) mod 3) = e0) by (rewrite <- K0; f_equal; replace (k + 3) with (k + 1 * 3) by lia; apply Z_mod_plus_full).
  pose proof (HV _ _ E0) as V0.
  destruct (znth_in_range D e1 ltac:(lia)) as [o1 Ho1]. destruct (znth_in_range D e2 ltac:(lia)) as [o2 Ho2].
  destruct (znth_in_range D o0 ltac:(lia)) as [o00 Ho00].
  do 4 rewrite (run_rdR l pre post D R j _ t) by assumption. rewrite K0, K1, K2, K3.
  rewrite (run_rdC l pre post D R e0 o0) by assumption. rewrite (run_rdC l pre post D R e1 o1) by assumption.
  rewrite (run_rdC l pre post D R e2 o2) by assumption. rewrite (run_rdC l pre post D R o0 o00) by assumption.
  destruct (Z.eqb_spec ns 1) as [->|N1]; [|destruct (Z.eqb_spec ns 2) as [->|N2]].
  - exists e2. split; [|auto]. rewrite run_bind. rewrite run_wrC, run_wrC by (rewrite ?zlen_zupd; lia). rewrite run_Ret.
    erewrite run_bind_ok; [|apply HDD; [rewrite !zlen_zupd; assumption|exists e2, e0; split; [lia|split; [apply znth_zupd_same; rewrite zlen_zupd; lia|lia]]]].
    cbv beta iota. rewrite run_wrC, run_wrC, run_wrC, run_wrC by (rewrite ?zlen_zupd; eauto; lia). f_equal. f_equal.
    apply zupd_restore4; auto; [rewrite !zlen_zupd; reflexivity|]. intros q Q1 Q2 Q3 Q4. rewrite !znth_zupd_other by congruence. reflexivity.
  - specialize (H2 eq_refl). subst o0.
    exists e0. split; [|auto]. rewrite run_bind. rewrite (run_rdC l pre post D R e0 e2) by assumption.
    rewrite run_wrC, run_wrC by (rewrite ?zlen_zupd; unfold bundef; lia). rewrite run_Ret.
    erewrite run_bind_ok; [|apply HDD; [rewrite !zlen_zupd; assumption|exists e0, e1; split; [lia|split; [apply znth_zupd_same; rewrite zlen_zupd; lia|lia]]]].
    cbv beta iota. rewrite run_wrC, run_wrC, run_wrC, run_wrC by (rewrite ?zlen_zupd; eauto; lia). f_equal. f_equal.
    apply zupd_restore4; auto; [rewrite !zlen_zupd; reflexivity|]. intros q Q1 Q2 Q3 Q4. rewrite !znth_zupd_other by congruence. reflexivity.
  - exists head. split; [|auto]. rewrite run_bind, run_Ret.
    erewrite run_bind_ok; [|apply HDD; [assumption|exists e0, o0; split; [lia|auto]]].
    cbv beta iota. rewrite run_wrC, run_wrC, run_wrC, run_wrC by (rewrite ?zlen_zupd; eauto; lia). f_equal. f_equal.
    apply zupd_restore4; auto.
Qed.

Lemma wrap_loop C h rest : zlen C = 255 -> one_cycle C h rest -> 2 <= zlen rest <= 2 -> 2 <= rsize -> forall fuel sj head R,
  1 <= sj <= rsize -> sj - 1 < Z.of_nat fuel -> zlen R = rsize -> Forall (tri_ok 255) R -> 0 <= head < 255 ->
  exists head' m', run (bnd_loop idw 0 big ro rsize fuel 1 sj head) (bm (C ++ P) R) = Ok ((Bunreachable, head'), m').
Proof.
  intros LC HC Hrest Hr. assert (LD : zlen (C ++ P) = big) by (rewrite zlen_app, zlen_repeat; lia).
  assert (HLL : zlen C <= 255) by lia.
  assert (VD : forall u v, znth (C ++ P) u = Some v -> 0 <= v < 256).
  { intros u v Hu. pose proof (znth_some _ _ _ Hu). destruct (Z_lt_dec u 255).
    - rewrite znth_app1 in Hu by lia. destruct (Z.eq_dec v 255); [lia|]. destruct (cyc_target _ _ _ _ _ HLL HC Hu n) as (_ & _ & ?). lia.
    - rewrite znth_app2 in Hu by lia. rewrite znth_repeat in Hu by lia. injection Hu as <-. lia. }
  assert (D255 : znth (C ++ P) 255 = Some 255) by (rewrite znth_app2 by lia; apply znth_repeat; lia).
  induction fuel as [|fuel IH]; intros sj head R Hsj Hf HR Hok Hh; [lia|].
  cbn [bnd_loop]. replace (1 <? rsize) with true by lia. rewrite !(w8_id head) by lia.
  destruct (znth_in_range R 1 ltac:(lia)) as [[[a b] c] Ht].
  assert (OK : tri_ok 255 (a, b, c)) by (rewrite Forall_forall in Hok; apply Hok; eapply znth_in; eauto).
  assert (ND : forall h', 0 <= h' < 255 -> 1 <> sj -> exists head' m',
    run (bnd_swap ro 1 (sj - 1) ;;; bnd_loop idw 0 big ro rsize fuel 1 (sj - 1) h') (bm (C ++ P) R) = Ok ((Bunreachable, head'), m')).
  { intros h' Hh' Ns. erewrite run_bind_ok by (apply run_bswap; lia).
    apply IH; [lia|lia|rewrite zlen_zswap; assumption| |assumption]. apply (perm_ok 255 _ R); [apply perm_zswap|assumption]. }
  pose proof dup_always as HDD. revert HDD. generalize (@bnd_dup_i F 0 big 256 0). intros DD HDD.
  destruct (in_dec Z.eq_dec head (h :: rest)) as [Ih|Ih].
  2:{ assert (Hu : znth (C ++ P) head = Some 255) by (rewrite znth_app1 by lia; destruct HC as (_ & _ & _ & Un); apply Un; [lia|assumption]).
      rewrite (run_bind_ok _ _ _ _ _ (lost_stat (C ++ P) R head 1 _ D255 ltac:(lia) Hu Ht ltac:(lia))). eexists _, _; reflexivity. }
  destruct (rotate _ _ _ _ HC Ih) as (rest' & HC' & PP).
  assert (Hl' : zlen rest' = zlen rest) by (apply Permutation_length in PP; unfold zlen in *; simpl in *; lia).
  pose proof (run_stat idw l pre post 255 rsize ltac:(lia) (fun x _ => eq_refl) C R head rest' 1 a b c LC HC' ltac:(lia) Ht OK) as ST.
  destruct (pad_stat l pre post 255 pad idw rsize head 1 C R _ _ LC ST) as (C2 & R2 & EQ & L2 & LR2 & ST').
  assert (EQ' : bm (C2 ++ P) R2 = bm (C ++ P) R).
  { assert (Q1 : C = C2) by exact (f_equal (fun m => mget m AdR) EQ). assert (Q2 : flat (pre ++ R ++ post) = flat (pre ++ R2 ++ post)) by exact (f_equal (fun m => mget m AT) EQ).
    unfold PBndRun.bm. rewrite Q1, Q2. reflexivity. }
  rewrite EQ' in ST'. rewrite (run_bind_ok _ _ _ _ _ ST'). clear ST ST' EQ EQ' C2 R2 L2 LR2.
  destruct (Z.eqb_spec 1 sj) as [Ej|Nj]; [eexists _, _; reflexivity|].
  destruct OK as (Ra & Rb & Rc & Nab & Nbc & Nca).
  assert (SH : forall u v, 0 <= u < 255 -> shared C u v = true -> znth C v = Some u /\ exists w, znth (C ++ P) u = Some w /\ w <> 255).
  { intros u v Hu S. apply shared_spec in S. split; [assumption|]. destruct (cyc_target _ _ _ _ _ HLL HC S ltac:(lia)) as (_ & Iu & _).
    destruct (cyc_defined _ _ _ _ HC Iu) as (w & Hw & Iw). exists w. split; [rewrite znth_app1 by lia; assumption|]. destruct HC as (_ & _ & Rg & _). specialize (Rg w Iw). lia. }
  assert (ATT : forall ns k e0 e1 e2,
    comp (a, b, c) (k mod 3) = e0 -> comp (a, b, c) ((k + 1) mod 3) = e1 -> comp (a, b, c) ((k + 2) mod 3) = e2 -> tri_ok 255 (e0, e1, e2) ->
    (exists w, znth (C ++ P) e0 = Some w /\ w <> 255) -> (ns = 2 -> znth C e0 = Some e2) ->
    exists head' m', run (e0 <- rdR ro 1 k ;; e1 <- rdR ro 1 (k + 1) ;; e2 <- rdR ro 1 (k + 2) ;; e3 <- rdR ro 1 (k + 3) ;;
     old0 <- rdC 0 e0 ;; old1 <- rdC 0 e1 ;; old2 <- rdC 0 e2 ;; old00 <- rdC 0 old0 ;;
     head <- (if ns =? 1 then wrC 0 e1 e2 ;;; wrC 0 e2 e3 ;;; Ret e2
              else if ns =? 2 then h <- rdC 0 e0 ;; wrC 0 h bundef ;;; wrC 0 e0 e1 ;;; Ret e0
              else Ret head) ;;
     dup <- DD ;;
     if dup then wrC 0 e0 old0 ;;; wrC 0 e1 old1 ;;; wrC 0 e2 old2 ;;; wrC 0 old0 old00 ;;;
       bnd_swap ro 1 (sj - 1) ;;; bnd_loop idw 0 big ro rsize fuel 1 (sj - 1) head
     else bnd_loop idw 0 big ro rsize fuel (1 + 1) rsize head) (bm (C ++ P) R) = Ok ((Bunreachable, head'), m')).
  { intros ns k e0 e1 e2 Q0 Q1 Q2 OKe (w & Hw & Nw) H2.
    destruct (wrap_attempt DD ns k 1 (C ++ P) R (a, b, c) head
      (fun h => bnd_swap ro 1 (sj - 1) ;;; bnd_loop idw 0 big ro rsize fuel 1 (sj - 1) h)
      (fun h => bnd_loop idw 0 big ro rsize fuel (1 + 1) rsize h) e0 e1 e2 w HDD LD VD Ht Q0 Q1 Q2 OKe Hw Nw) as (h' & E & Hh').
    { intros K. specialize (H2 K). destruct OKe. rewrite znth_app1 in Hw by lia. congruence. }
    rewrite E. apply ND; [|assumption]. destruct OKe as (? & ? & ? & _). destruct Hh' as [-> |[-> | ->]]; assumption. }
  destruct (shared C a b) eqn:S0, (shared C b c) eqn:S1, (shared C c a) eqn:S2;
    repeat match goal with H : shared _ _ _ = true |- _ => apply SH in H; [destruct H as [? ?]|lia] end.
  - apply (ATT 3 255 a b c); [reflexivity|reflexivity|reflexivity|unfold tri_ok; lia|assumption|discriminate].
  - apply (ATT 2 2 c a b); [reflexivity|reflexivity|reflexivity|unfold tri_ok; lia| |auto].
    match goal with H : znth C c = Some b |- _ => exists b; split; [rewrite znth_app1 by lia; exact H|lia] end.
  - apply (ATT 2 1 b c a); [reflexivity|reflexivity|reflexivity|unfold tri_ok; lia| |auto].
    match goal with H : znth C b = Some a |- _ => exists a; split; [rewrite znth_app1 by lia; exact H|lia] end.
  - apply (ATT 1 0 a b c); [reflexivity|reflexivity|reflexivity|unfold tri_ok; lia|assumption|discriminate].
  - apply (ATT 2 0 a b c); [reflexivity|reflexivity|reflexivity|unfold tri_ok; lia| |auto].
    match goal with H : znth C a = Some c |- _ => exists c; split; [rewrite znth_app1 by lia; exact H|lia] end.
  - apply (ATT 1 1 b c a); [reflexivity|reflexivity|reflexivity|unfold tri_ok; lia|assumption|discriminate].
  - apply (ATT 1 2 c a b); [reflexivity|reflexivity|reflexivity|unfold tri_ok; lia|assumption|discriminate].
  - apply ND; assumption.
Qed.

Lemma wrap_compute R : 2 <= zlen R -> zlen R = rsize -> Forall (tri_ok 255) R ->
  exists head' m', run (bnd_compute idw 0 big ro rsize) (bm (repeat 255 (Z.to_nat big)) R) = Ok ((Bunreachable, head'), m').
Proof.
  intros H2 HR Hok. destruct (znth_in_range R 0 ltac:(lia)) as [[[a b] c] Ht].
  assert (OK : tri_ok 255 (a, b, c)) by (rewrite Forall_forall in Hok; apply Hok; eapply znth_in; eauto).
  destruct OK as (Ra & Rb & Rc & Nab & Nbc & Nca).
  unfold bnd_compute. set (C := repeat 255 (Z.to_nat 255)). assert (HL : zlen C = 255) by reflexivity.
  assert (HU : forall e, 0 <= e < 255 -> znth C e = Some 255) by (intros e He; apply znth_repeat; exact He).
  replace (repeat 255 (Z.to_nat big)) with (C ++ P) by (unfold C; rewrite <- repeat_app; f_equal; lia).
  clearbody C.
  set (C1 := zupd (zupd (zupd C a b) b c) c a).
  assert (HL1 : zlen C1 = 255) by (unfold C1; rewrite !zlen_zupd; assumption).
  assert (LD : zlen (C ++ P) = big) by (rewrite zlen_app, zlen_repeat; lia).
  assert (EI : run (bnd_init 0 ro) (bm (C ++ P) R) = Ok (c, bm (C1 ++ P) R)).
  { unfold bnd_init, foldM.
    rewrite run_bind. do 2 rewrite (run_rdR l pre post _ R 0 _ (a, b, c)) by assumption.
    change (comp (a, b, c) (0 mod 3)) with a. change (comp (a, b, c) ((0 + 1) mod 3)) with b. rewrite run_wrC by (rewrite ?zlen_zupd; lia). rewrite run_Ret.
    rewrite run_bind. do 2 rewrite (run_rdR l pre post _ R 0 _ (a, b, c)) by assumption.
    change (comp (a, b, c) (1 mod 3)) with b. change (comp (a, b, c) ((1 + 1) mod 3)) with c. rewrite run_wrC by (rewrite ?zlen_zupd; lia). rewrite run_Ret.
    rewrite run_bind. do 2 rewrite (run_rdR l pre post _ R 0 _ (a, b, c)) by assumption.
    change (comp (a, b, c) (2 mod 3)) with c. change (comp (a, b, c) ((2 + 1) mod 3)) with a. rewrite run_wrC by (rewrite ?zlen_zupd; lia). rewrite run_Ret.
    rewrite run_Ret. unfold C1. rewrite !zupd_app1 by (rewrite ?zlen_zupd; lia). reflexivity. }
  rewrite (run_bind_ok _ _ _ _ _ EI).
  assert (HC : one_cycle C1 c [a; b]).
  { split; [|split; [|split]].
    - constructor; [simpl; intros [K|[K|[]]]; congruence|]. constructor; [simpl; intros [K|[]]; congruence|]. constructor; [simpl; tauto|constructor].
    - simpl. unfold C1. split; [apply znth_zupd_same; rewrite !zlen_zupd; lia|]. split.
      + rewrite !znth_zupd_other by congruence. apply znth_zupd_same. lia.
      + rewrite znth_zupd_other by congruence. apply znth_zupd_same. rewrite zlen_zupd. lia.
    - intros e [<-|[<-|[<-|[]]]]; lia.
    - intros e He Hn. unfold C1. rewrite !znth_zupd_other by (intros <-; apply Hn; simpl; auto). apply HU. lia. }
  apply (wrap_loop C1 c [a; b] HL1 HC); try lia; auto.
  - unfold zlen; simpl; lia.
Qed.
End Wrap.
