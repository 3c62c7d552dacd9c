(** The end of cci::compute (filter and compaction), and the whole function, on
    a memory holding one slot's rows. *)
From Verif Require Import Base Arith PBase Prog PProg MUtils MBoundary MCell PFlags
  SpecBnd PHeap PBnd PBndRun PBndLoop PBndCap PCellSim PCellRun PCell.
Local Open Scope prog_scope.

(** label d occurs in a triangle *)
Definition used (ts : list tri) (d : Z) : bool :=
  existsb (fun '(a, b, c) => (a =? d) || (b =? d) || (c =? d)) ts.
Definition keep (l : list Z) : list Z := filter (fun x => negb (x =? k_undefined)) l.

Lemma keep_len l : zlen (keep l) <= zlen l.
Proof. induction l as [|x l IH]; [reflexivity|]. cbn [keep filter]. fold (keep l). destruct (negb _); rewrite !zlen_cons; lia. Qed.
Lemma keep_app a b : keep (a ++ b) = keep a ++ keep b.
Proof. apply filter_app. Qed.

Section Row.
Variable N : Arith.
Notation F := (F N).
Notation point := (point N).
Notation plane := (plane N).
Variable pq : list F.
Variable brk : bool.

Lemma run_unused Pl C K D b di d : znth D di = Some d -> forall B A Tj flag,
  run (foldM (zrange (zlen A) (zlen A + zlen B)) (fun (flag : bool) ti =>
    if brk && negb flag then Ret flag
    else
      t0 <- rd AT (aT lay0 ti 0) ;; d <- rd ADknn (aD lay0 di) ;;
      let flag := if t0 =? d then false else flag in
      t1 <- rd AT (aT lay0 ti 1) ;; d <- rd ADknn (aD lay0 di) ;;
      let flag := if t1 =? d then false else flag in
      t2 <- rd AT (aT lay0 ti 2) ;; d <- rd ADknn (aD lay0 di) ;;
      Ret (if t2 =? d then false else flag)) flag) (cm N pq Pl (A ++ B ++ Tj) C K D b)
  = Ok (flag && negb (used B d), cm N pq Pl (A ++ B ++ Tj) C K D b).
Proof.
  intros Hd. induction B as [|[[x y] z] B IH]; intros A Tj flag.
  - rewrite zlen_nil, Z.add_0_r, zrange_nil by lia. simpl. rewrite andb_true_r. reflexivity.
  - rewrite zlen_cons. pose proof (zlen_nonneg B). rewrite zrange_cons by lia. cbn [foldM].
    set (f' := if brk && negb flag then flag else flag && negb ((x =? d) || (y =? d) || (z =? d))).
    assert (RD : forall A0 (f : Z -> prog F A0) m, mrd m ADknn di = Some d -> run (d <- rd ADknn (aD lay0 di) ;; f d) m = run (f d) m).
    { intros A0 f m Hm. erewrite run_bind_ok by (apply (run_rd ADknn); exact Hm). reflexivity. }
    rewrite (run_bind_ok _ _ _ f' (cm N pq Pl (A ++ ((x, y, z) :: B) ++ Tj) C K D b)).
    + replace (zlen A + (zlen B + 1)) with (zlen (A ++ [(x, y, z)]) + zlen B) by (rewrite zlen_app, zlen_one; lia).
      replace (zlen A + 1) with (zlen (A ++ [(x, y, z)])) by (rewrite zlen_app, zlen_one; lia).
      pose proof (IH (A ++ [(x, y, z)]) Tj f') as Q. rewrite <- app_assoc in Q. simpl in Q. simpl. rewrite Q.
      do 2 f_equal. unfold f'. destruct brk, flag, (x =? d), (y =? d), (z =? d), (used B d); reflexivity.
    + unfold f'. destruct (brk && negb flag); [reflexivity|].
      assert (Ht : znth (A ++ ((x, y, z) :: B) ++ Tj) (zlen A) = Some (x, y, z)) by apply znth_mid.
      erewrite run_bind_ok by (apply (run_rdT N pq _ _ _ _ _ _ _ _ (x, y, z)); [exact Ht|lia]). rewrite RD by exact Hd. cbv zeta.
      erewrite run_bind_ok by (apply (run_rdT N pq _ _ _ _ _ _ _ _ (x, y, z)); [exact Ht|lia]). rewrite RD by exact Hd. cbv zeta.
      erewrite run_bind_ok by (apply (run_rdT N pq _ _ _ _ _ _ _ _ (x, y, z)); [exact Ht|lia]). rewrite RD by exact Hd. cbv zeta.
      rewrite run_Ret. do 2 f_equal. change (comp (x, y, z) 0) with x. change (comp (x, y, z) 1) with y. change (comp (x, y, z) 2) with z.
      destruct flag, (x =? d), (y =? d), (z =? d); reflexivity.
Qed.

Definition filt (ts : list tri) (K D : list Z) : list Z :=
  map (fun '(q, d) => if used ts d then q else k_undefined) (combine K D).

Lemma run_filter Pl ts Tj C b : forall Kb Db Ka Da, zlen Kb = zlen Db -> zlen Ka = zlen Da ->
  run (forM (zrange (zlen Ka) (zlen Ka + zlen Kb)) (fun di =>
    flag <- cell_unused N brk lay0 (zlen ts) di ;;
    if flag : bool then wr AHeapId (aK lay0 di) k_undefined else Ret tt)) (cm N pq Pl (ts ++ Tj) C (Ka ++ Kb) (Da ++ Db) b)
  = Ok (tt, cm N pq Pl (ts ++ Tj) C (Ka ++ filt ts Kb Db) (Da ++ Db) b).
Proof.
  induction Kb as [|q Kb IH]; intros Db Ka Da H1 H2.
  - rewrite zlen_nil, Z.add_0_r, zrange_nil by lia. reflexivity.
  - rewrite zlen_cons in *. pose proof (zlen_nonneg Kb). destruct Db as [|d Db]; [rewrite zlen_nil in H1; lia|]. rewrite zlen_cons in *.
    rewrite zrange_cons by lia. cbn [forM].
    assert (EU : run (cell_unused N brk lay0 (zlen ts) (zlen Ka)) (cm N pq Pl (ts ++ Tj) C (Ka ++ q :: Kb) (Da ++ d :: Db) b)
       = Ok (negb (used ts d), cm N pq Pl (ts ++ Tj) C (Ka ++ q :: Kb) (Da ++ d :: Db) b)).
    { pose proof (run_unused Pl C (Ka ++ q :: Kb) (Da ++ d :: Db) b (zlen Ka) d ltac:(rewrite H2; apply znth_mid) ts [] Tj true) as Q.
      exact Q. }
    rewrite (run_bind_ok _ _ _ tt (cm N pq Pl (ts ++ Tj) C (Ka ++ (if used ts d then q else k_undefined) :: Kb) (Da ++ d :: Db) b)).
    + replace (zlen Ka + (zlen Kb + 1)) with (zlen (Ka ++ [if used ts d then q else k_undefined]) + zlen Kb) by (rewrite zlen_app, zlen_one; lia).
      replace (zlen Ka + 1) with (zlen (Ka ++ [if used ts d then q else k_undefined])) by (rewrite zlen_app, zlen_one; lia).
      pose proof (IH Db (Ka ++ [if used ts d then q else k_undefined]) (Da ++ [d]) ltac:(lia) ltac:(rewrite !zlen_app, !zlen_one; lia)) as Q.
      rewrite <- !app_assoc in Q. exact Q.
    + rewrite (run_bind_ok _ _ _ _ _ EU). destruct (used ts d); simpl negb; cbv iota; [reflexivity|].
      rewrite (run_wr AHeapId (aK lay0 (zlen Ka)) k_undefined _ q) by (apply (znth_mid Ka Kb q)).
      unfold mwr. simpl. unfold cm. rewrite zupd_mid. reflexivity.
Qed.

Lemma run_count Pl Tr C D b : forall B X kA,
  exists X', run (foldM (zrange (zlen kA + zlen X) (zlen kA + zlen X + zlen B)) (fun cnt di =>
    x <- rd AHeapId (aK lay0 di) ;;
    if x =? k_undefined then Ret cnt
    else y <- rd AHeapId (aK lay0 di) ;; wr AHeapId (aK lay0 cnt) y ;;; Ret (cnt + 1)) (zlen kA)) (cm N pq Pl Tr C (kA ++ X ++ B) D b)
  = Ok (zlen (kA ++ keep B), cm N pq Pl Tr C ((kA ++ keep B) ++ X') D b) /\ zlen ((kA ++ keep B) ++ X') = zlen (kA ++ X ++ B).
Proof.
  induction B as [|x B IH]; intros X kA.
  - exists X. rewrite zlen_nil, Z.add_0_r, zrange_nil by lia. simpl keep. rewrite !app_nil_r. split; reflexivity.
  - rewrite zlen_cons. pose proof (zlen_nonneg B). pose proof (zlen_nonneg kA). pose proof (zlen_nonneg X). rewrite zrange_cons by lia. cbn [foldM].
    assert (Hx : forall Y, zlen Y = zlen X -> mrd (cm N pq Pl Tr C (kA ++ Y ++ x :: B) D b) AHeapId (zlen kA + zlen X) = Some x).
    { intros Y HY. unfold mrd. simpl. rewrite app_assoc. replace (zlen kA + zlen X) with (zlen (kA ++ Y)) by (rewrite zlen_app; lia). apply znth_mid. }
    rewrite run_bind. erewrite run_bind_ok by (apply (run_rd AHeapId); apply Hx; reflexivity). cbv beta.
    cbn [keep filter]. fold (keep B). destruct (Z.eqb_spec x k_undefined) as [->|Nx]; simpl negb; cbv iota.
    + rewrite run_Ret. destruct (IH (X ++ [k_undefined]) kA) as (X' & E & L). exists X'.
      rewrite !zlen_app, !zlen_one in *. rewrite <- !app_assoc in *.
      replace (zlen kA + zlen X + (zlen B + 1)) with (zlen kA + (zlen X + 1) + zlen B) by lia.
      replace (zlen kA + zlen X + 1) with (zlen kA + (zlen X + 1)) by lia. split; [exact E|].
      rewrite L, zlen_cons. lia.
    + erewrite run_bind_ok by (apply (run_rd AHeapId); apply Hx; reflexivity).
      assert (EW : exists X1, run (wr AHeapId (aK lay0 (zlen kA)) x) (cm N pq Pl Tr C (kA ++ X ++ x :: B) D b) = Ok (tt, cm N pq Pl Tr C ((kA ++ [x]) ++ X1 ++ B) D b) /\ zlen X1 = zlen X).
      { destruct X as [|x0 X].
        - exists []. split; [|reflexivity]. rewrite (run_wr AHeapId _ _ _ x) by (apply (znth_mid kA B x)).
          unfold mwr. simpl. unfold cm. rewrite zupd_mid. rewrite <- app_assoc. reflexivity.
        - exists (X ++ [x]). split; [|rewrite zlen_app, zlen_one, zlen_cons; lia].
          rewrite (run_wr AHeapId _ _ _ x0) by (apply (znth_mid kA (X ++ x :: B) x0)).
          unfold mwr. simpl. unfold cm. rewrite zupd_mid. rewrite <- !app_assoc. reflexivity. }
      destruct EW as (X1 & EW & LX). rewrite (run_bind_ok _ _ _ _ _ EW). rewrite run_Ret.
      destruct (IH X1 (kA ++ [x])) as (X' & E & L). exists X'.
      replace (zlen (kA ++ [x]) + zlen X1) with (zlen kA + zlen X + 1) in E by (rewrite zlen_app, zlen_one; lia).
      replace (zlen kA + zlen X + 1 + zlen B) with (zlen kA + zlen X + (zlen B + 1)) in E by lia.
      replace (zlen kA + 1) with (zlen (kA ++ [x])) by (rewrite zlen_app, zlen_one; lia). rewrite E.
      replace ((kA ++ [x]) ++ keep B) with (kA ++ x :: keep B) in * by (rewrite <- app_assoc; reflexivity).
      split; [reflexivity|]. rewrite L. rewrite !zlen_app, zlen_one, zlen_cons. lia.
Qed.

Lemma run_pad Pl Tr C D b : forall l A,
  run (forM (zrange (zlen A) (zlen A + zlen l)) (fun di => wr AHeapId (aK lay0 di) k_undefined)) (cm N pq Pl Tr C (A ++ l) D b)
  = Ok (tt, cm N pq Pl Tr C (A ++ repeat k_undefined (length l)) D b).
Proof.
  induction l as [|x l IH]; intros A.
  - rewrite zlen_nil, zrange_nil by lia. reflexivity.
  - rewrite zlen_cons. pose proof (zlen_nonneg l). rewrite zrange_cons by lia. cbn [forM].
    rewrite (run_bind_ok _ _ _ tt (cm N pq Pl Tr C (A ++ k_undefined :: l) D b)).
    + replace (zlen A + (zlen l + 1)) with (zlen (A ++ [k_undefined]) + zlen l) by (rewrite zlen_app, zlen_one; lia).
      replace (zlen A + 1) with (zlen (A ++ [k_undefined])) by (rewrite zlen_app, zlen_one; lia).
      pose proof (IH (A ++ [k_undefined])) as Q. rewrite <- !app_assoc in Q. exact Q.
    + rewrite (run_wr AHeapId _ _ _ x) by (apply (znth_mid A l x)).
      unfold mwr. simpl. unfold cm. rewrite zupd_mid. reflexivity.
Qed.

Definition padded (k : Z) (l : list Z) : list Z := l ++ repeat k_undefined (Z.to_nat (k - zlen l)).

Lemma run_compact Pl Tr C D b K : 
  run (cell_compact N lay0 (zlen K)) (cm N pq Pl Tr C K D b) = Ok (tt, cm N pq Pl Tr C (padded (zlen K) (keep K)) D b).
Proof.
  unfold cell_compact. destruct (run_count Pl Tr C D b K [] []) as (X' & E & L).
  change (zlen (@nil Z)) with 0 in E. simpl app in *. rewrite Z.add_0_l in E.
  rewrite (run_bind_ok _ _ _ _ _ E). cbv beta.
  rewrite zlen_app in L. replace (zlen K) with (zlen (keep K) + zlen X') at 1 by lia. rewrite run_pad.
  unfold padded. replace (Z.to_nat (zlen K - zlen (keep K))) with (length X') by (unfold zlen in *; lia). reflexivity.
Qed.

(** ** the loop over the candidates *)

End Row.

Section Cell.
Variable N : Arith.
Notation F := (F N).
Notation point := (point N).
Notation plane := (plane N).
Variables k pmax tmax : Z.
Variable pts : Z -> option point.
Variable K : list Z.
Hypothesis Hpm : 6 <= pmax <= 255.
Hypothesis Htm : 8 <= tmax.
Hypothesis Hk : zlen K = k.
Hypothesis HK : forall q, In q K -> q <> k_undefined /\ exists qp, pts q = Some qp.

(** the candidates in turn *)
Inductive walk (p : point) : list Z -> cst N -> nbout -> cst N -> Prop :=
| wk_nil s : walk p [] s Cont s
| wk_next nb nbs q qp s s1 o s2 : znth K nb = Some q -> pts q = Some qp -> nb_rel N pmax tmax p qp nb s Cont s1 ->
    walk p nbs s1 o s2 -> walk p (nb :: nbs) s o s2
| wk_stop nb nbs q qp s o s1 : znth K nb = Some q -> pts q = Some qp -> nb_rel N pmax tmax p qp nb s o s1 -> o <> Cont ->
    walk p (nb :: nbs) s o s1.

Definition loop_res (o : nbout) (s : cst N) : option (Z * Z) :=
  match o with Cont | Reach => Some (zlen (cP N s), zlen (cT N s)) | _ => None end.
Definition loop_ends (pq : list F) (o : nbout) (s : cst N) (b' : Z) (m : mem F) : Prop :=
  match o with Cont | Reach => rep N pmax tmax K pq s b' m | _ => rowsof N k pmax tmax K pq b' m end.
(** the byte left by the loop; [cl]: some candidate was processed before *)
Definition loop_byte (cl : bool) (o : nbout) (b : Z) : Z :=
  let b := if cl then clean b else b in match o with Cont => b | _ => byte_after o b end.

Lemma run_loop p : forall nbs s, (forall nb, In nb nbs -> 0 <= nb < k) -> good N k pmax tmax s ->
  exists o s' cl, walk p nbs s o s' /\ good N k pmax tmax s' /\
    forall wc pq b m, wc_ok wc (Z.min tmax (2 * pmax - 6)) -> rep N pmax tmax K pq s b m -> 0 <= b < 256 ->
    exists m', run (cell_loop N wc lay0 pmax tmax 0 pts nbs p (zlen (cP N s)) (zlen (cT N s))) m = Ok (loop_res o s', m') /\
      loop_ends pq o s' (loop_byte cl o b) m'.
Proof.
  induction nbs as [|nb nbs IH]; intros s Hnb G.
  - exists Cont, s, false. split; [constructor|]. split; [assumption|]. intros wc pq b m Hwc R Hb. exists m. split; [reflexivity|assumption].
  - assert (Hn : 0 <= nb < k) by (apply Hnb; now left).
    destruct (znth_in_range K nb ltac:(lia)) as [q Hq]. destruct (HK q (znth_in _ _ _ Hq)) as [_ [qp Hqp]].
    destruct (run_neighbor N k pmax tmax pts K Hpm Htm p nb q qp s G Hn Hq Hqp) as (o & s1 & NR & G1 & E).
    assert (ST : o <> Cont -> exists o' s' cl, walk p (nb :: nbs) s o' s' /\ good N k pmax tmax s' /\
      forall wc pq b m, wc_ok wc (Z.min tmax (2 * pmax - 6)) -> rep N pmax tmax K pq s b m -> 0 <= b < 256 ->
      exists m', run (cell_loop N wc lay0 pmax tmax 0 pts (nb :: nbs) p (zlen (cP N s)) (zlen (cT N s))) m = Ok (loop_res o' s', m') /\
        loop_ends pq o' s' (loop_byte cl o' b) m').
    { intros No. exists o, s1, false. split; [eapply wk_stop; eauto|]. split; [assumption|].
      intros wc pq b m Hwc R Hb. destruct (E wc pq b m Hwc R Hb) as (m1 & E1 & En).
      cbn [cell_loop]. rewrite (run_bind_ok _ _ _ _ _ E1). exists m1. destruct o; try congruence; (split; [reflexivity|exact En]). }
    destruct o; try (apply ST; discriminate). clear ST.
    destruct (IH s1) as (o & s2 & cl & W & G2 & E2); auto.
    { intros x Hx. apply Hnb. now right. }
    exists o, s2, true. split; [eapply wk_next; eauto|]. split; [assumption|].
    intros wc pq b m Hwc R Hb. destruct (E wc pq b m Hwc R Hb) as (m1 & E1 & En). simpl in En.
    destruct (E2 wc pq (clean b) m1 Hwc En (clean_byte _ Hb)) as (m2 & E3 & En2).
    cbn [cell_loop]. rewrite (run_bind_ok _ _ _ _ _ E1). cbn [res_of]. exists m2. split; [exact E3|].
    unfold loop_byte in *. destruct cl; [rewrite clean_clean in En2 by assumption|]; exact En2.
Qed.

(** ** the whole function *)
Definition cst0 (D0 : list Z) : cst N := mkC N (cubeP N) t_init D0.
(** the candidates whose label occurs in the final triangles *)
Definition row_of (s : cst N) : list Z := map fst (filter (fun '(_, d) => used (cT N s) d) (combine K (cD N s))).
Definition ok_out (o : nbout) : bool := match o with Cont | Reach => true | _ => false end.
(** what the candidate row holds afterwards *)
Definition row_after (o : nbout) (s : cst N) : list Z := if ok_out o then padded k (row_of s) else K.

Lemma good0 D0 : zlen D0 = k -> good N k pmax tmax (cst0 D0).
Proof.
  intros H. split; [change (zlen (cP N (cst0 D0))) with 6; lia|]. split; [|split; [change (zlen (cP N (cst0 D0))) with 6; change (zlen (cT N (cst0 D0))) with 8; lia|]].
  - change (zlen (cP N (cst0 D0))) with 6. unfold cst0, t_init. simpl. repeat constructor; simpl; lia.
  - change (zlen (cT N (cst0 D0))) with 8. split; [assumption|lia].
Qed.

Lemma keep_filt ts D : keep (filt ts K D) = map fst (filter (fun '(_, d) => used ts d) (combine K D)).
Proof.
  assert (H : forall q, In q K -> q <> k_undefined) by (intros q Hq; apply HK; assumption). clear -H.
  revert D. induction K as [|q l IH]; intros D; [reflexivity|]. destruct D as [|d D]; [reflexivity|].
  cbn [filt combine map filter]. unfold filt in IH. unfold keep in *. cbn [filter].
  assert (HH : forall x, In x l -> x <> k_undefined) by (intros x Hx; apply H; now right).
  destruct (used ts d).
  - replace (q =? k_undefined) with false by (symmetry; apply Z.eqb_neq; apply H; now left). simpl. now rewrite IH.
  - rewrite Z.eqb_refl. simpl. now apply IH.
Qed.

Lemma row_of_len s : zlen (cD N s) = k -> zlen (row_of s) <= k.
Proof.
  intros H. unfold row_of. rewrite zlen_map. unfold zlen in *.
  assert (Q : forall (f : Z * Z -> bool) l, (length (filter f l) <= length l)%nat).
  { intros f l. induction l as [|x l IH]; simpl; [lia|]. destruct (f x); simpl; lia. }
  pose proof (Q (fun '(_, d) => used (cT N s) d) (combine K (cD N s))) as Q1. rewrite combine_length in Q1. lia.
Qed.
Lemma row_after_len o s : zlen (cD N s) = k -> zlen (row_after o s) = k.
Proof.
  intros H. unfold row_after, padded. destruct (ok_out o); [|assumption]. rewrite zlen_app, zlen_repeat. pose proof (row_of_len s H). lia.
Qed.

(** The outcome, the final planes and triangles and hence the row depend on
    nothing but the seed and the candidates; not on the old contents of P, T, dR,
    the counter types or the early break. *)
Lemma run_cell D0 p : zlen D0 = k ->
  exists o s cl, walk p (zrange 0 k) (cst0 D0) o s /\ good N k pmax tmax s /\
    forall wc brk pq refs Pl Tr C b, wc_ok wc (Z.min tmax (2 * pmax - 6)) ->
    zlen Pl = pmax -> zlen Tr = tmax -> zlen C = pmax -> 0 <= b < 256 -> refs 0 = Some p ->
    exists Pl' Tr' C' D',
      run (cell_compute N wc brk lay0 k pmax tmax 0 pts refs) (cm N pq Pl Tr C K D0 b) =
        Ok (tt, cm N pq Pl' Tr' C' (row_after o s) D' (loop_byte cl o b)) /\
      zlen Pl' = pmax /\ zlen Tr' = tmax /\ zlen C' = pmax /\ zlen D' = k /\
      (ok_out o = true -> (exists Pj, Pl' = cP N s ++ Pj) /\ (exists Tj, Tr' = cT N s ++ Tj) /\ D' = cD N s).
Proof.
  intros HD0. pose proof (zlen_nonneg K).
  destruct (run_loop p (zrange 0 k) (cst0 D0) ltac:(intros nb Hn; apply in_zrange in Hn; lia) (good0 D0 HD0)) as (o & s & cl & W & G & E).
  exists o, s, cl. split; [assumption|]. split; [assumption|].
  intros wc brk pq refs Pl Tr C b Hwc HP HT HC Hb Hp. unfold cell_compute. rewrite Hp. erewrite (run_bind_ok (pure_opt (Some p))) by reflexivity.
  erewrite run_bind_ok by (apply run_cinit; lia).
  assert (R0 : rep N pmax tmax K pq (cst0 D0) b (cm N pq (cubeP N ++ skipn 6 Pl) (t_init ++ skipn 8 Tr) C K D0 b)).
  { exists (skipn 6 Pl), (skipn 8 Tr), C. split; [reflexivity|]. unfold zlen in *. simpl cP. simpl cT. rewrite !app_length, !skipn_length.
    change (length (cubeP N)) with 6%nat. change (length t_init) with 8%nat. lia. }
  destruct (E wc pq b _ Hwc R0 Hb) as (m' & E1 & En).
  change (zlen (cP N (cst0 D0))) with 6 in E1. change (zlen (cT N (cst0 D0))) with 8 in E1.
  rewrite (run_bind_ok _ _ _ _ _ E1). unfold loop_ends, loop_res, row_after in *.
  destruct (ok_out o) eqn:OKS.
  - assert (RR : rep N pmax tmax K pq s (loop_byte cl o b) m') by (destruct o; try discriminate; exact En).
    destruct RR as (Pj & Tj & C1 & -> & L1 & L2 & L3). destruct G as (_ & _ & _ & LD & _).
    exists (cP N s ++ Pj), (cT N s ++ Tj), C1, (cD N s).
    assert (ED : run (cell_filter N brk lay0 k (zlen (cT N s)) ;;; cell_compact N lay0 k) (cm N pq (cP N s ++ Pj) (cT N s ++ Tj) C1 K (cD N s) (loop_byte cl o b))
      = Ok (tt, cm N pq (cP N s ++ Pj) (cT N s ++ Tj) C1 (padded k (row_of s)) (cD N s) (loop_byte cl o b))).
    { pose proof (run_filter N pq brk (cP N s ++ Pj) (cT N s) Tj C1 (loop_byte cl o b) K (cD N s) [] [] ltac:(lia) eq_refl) as Q.
      change (zlen (@nil Z)) with 0 in Q. rewrite Z.add_0_l, Hk in Q. simpl app in Q. unfold cell_filter. rewrite (run_bind_ok _ _ _ _ _ Q).
      assert (LF : zlen (filt (cT N s) K (cD N s)) = k).
      { unfold filt. rewrite zlen_map. unfold zlen in *. rewrite combine_length. lia. }
      rewrite <- LF at 1. rewrite run_compact. rewrite keep_filt, LF. reflexivity. }
    split; [destruct o; try discriminate; exact ED|]. split; [assumption|]. split; [assumption|]. split; [assumption|]. split; [assumption|]. intros _. eauto.
  - assert (RR : rowsof N k pmax tmax K pq (loop_byte cl o b) m') by (destruct o; try discriminate; exact En).
    destruct RR as (Pl' & Tr' & C' & D' & -> & Q1 & Q2 & Q3 & Q4).
    exists Pl', Tr', C', D'. split; [destruct o; try discriminate; reflexivity|]. split; [assumption|]. split; [assumption|]. split; [assumption|]. split; [assumption|]. discriminate.
Qed.
End Cell.
