(** Single precision: the rows of points in robust position are exact. *)
From Verif Require Import Base Arith PBase Prog PProg MUtils MHeap MXyz MKnn MBoundary MCell MDnn MArgs MTess Exact PExact PFlags SpecDnn PDnn SpecGeom SpecSort SpecBnd SpecHeap SpecAny SpecRows SpecVor
  PXyz PSortFinal PHeap PReloc PHeapFinal PBnd PBndLoop PCellSim PCellRun PCell PCellRow PKnnSafe PSlot PWalk SpecSlot PSlotHost PTess PTessRun PTessFinal
  PGeomCone PGeomPoly PGeomWalk PGeomFinal PRec PRecFinal PKnnAny PRowsAny PRowsNear ArithR Arith32 PFloat PDist32 PErrReal PNear32 PErr32 PErrBis PErrReach SpecNear PNearRows PFloatRows PCanon PNoFail PNoFailApi PRunDone PRobust.
From Flocq Require Import Core IEEE754.BinarySingleNaN.
From Coq Require Import Reals Lra Psatz Permutation Sorting.Sorted.
From Verif Require Export SpecSingle SpecRobust SpecParam.
From Verif Require Import SpecWhen.
Import SpecGeom.
Local Open Scope Z_scope.

(** the candidates of a slot *)
Lemma slot_K N S gr P0 P ids offs c rs x : 0 < gr -> in_range_ids N gr P0 -> xyz_sort N gr P0 = Ok (P, ids, offs) -> ordered_dists N S P ->
  cfg_ok c -> c_gr c = gr -> results N c (mkGrid N P ids offs) rs -> 0 <= x < zlen P -> c_k c <= zlen P - 1 ->
  zlen (r_K N (rs x)) = c_k c /\ knn_list N S gr P ids x (r_K N (rs x)).
Proof.
  intros Hgr Hr HS OD Hc Eg Rs Hx Kn. destruct Hc as (K1 & K2 & K3). destruct (Rs x Hx) as [(p & Ep & Hh & KR & W & Gd) _].
  destruct (knn_exit N S (emem N) gr P0 P ids offs (c_k c) x Hgr Hr HS OD ltac:(lia) Hx) as (h & row & KR2 & Lh & Lr & Er & Nd & Hrow & As & Ex).
  assert (EH : map fst h = r_K N (rs x)).
  { rewrite <- Eg in KR2. pose proof (eq_trans (eq_sym KR2) KR) as X. injection X as X0 X1. exact X0. }
  assert (ER : r_K N (rs x) = row). { rewrite <- EH, Er, Lr. replace (c_k c - Z.min (c_k c) (zlen P - 1)) with 0 by lia. apply app_nil_r. }
  rewrite ER. split; [lia|]. split; [assumption|]. split; [assumption|]. split; assumption.
Qed.

Lemma sorted_nodup (l : list Z) : NoDup l <-> StronglySorted (fun a b => a <> b) l.
Proof.
  induction l as [|a l IH]; [split; constructor|]. split; intros H; inversion H as [|? ? H1 H2]; subst; constructor.
  - now apply IH.
  - apply Forall_forall. intros b Ib ->. contradiction.
  - intros I. rewrite Forall_forall in H2. exact (H2 a I eq_refl).
  - now apply IH.
Qed.

Lemma spot_at S q x : znth S q = Some x -> spot S q = x.
Proof. unfold spot. now intros ->. Qed.

Section S.
Variables (gr : Z) (P0 P : list (point arith32)) (ids offs : list Z).
Hypothesis Hgr : 0 < gr.
Hypothesis Hg3 : gr * gr * gr <= int_max.
Hypothesis Hs : safe_res gr = true.
Hypothesis HO : Forall open01p P0.
Hypothesis HX : xyz_sort arith32 gr P0 = Ok (P, ids, offs).
Hypothesis OD : ordered_dists arith32 not_nan P.
Notation g := (mkGrid arith32 P ids offs).
Notation S := (map real_pt P).

Let Hop q : In q P -> open01p q.
Proof. intros Hq. rewrite Forall_forall in HO. apply HO. eapply Permutation_in; [apply Permutation_sym; exact (perm_points arith32 _ _ _ _ _ HX)|exact Hq]. Qed.
Let SR : map (valp arithR ER) (map toR P) = S.
Proof. rewrite map_map. apply map_ext. apply toR_val. Qed.
Let inR q : In q (map toR P) -> inside arithR ER q.
Proof.
  intros Hq. apply in_map_iff in Hq as (q' & <- & Hq). split; [apply toR_fin|]. rewrite toR_val. pose proof (Hop q' Hq) as H.
  destruct q' as [[a b] d], H as ((_ & B1) & (_ & B2) & (_ & B3)). unfold in_open_cube, real_pt. lra.
Qed.

(** the candidates of x: the nearest others, up to 2^-20 *)
Lemma slot_cand c rs x : cfg_ok c -> c_gr c = gr -> results arith32 c g rs -> 0 <= x < zlen P -> c_k c <= zlen P - 1 -> let K := r_K arith32 (rs x) in
  zlen K = c_k c /\ NoDup K /\ (forall z, In z K -> others (zlen P) x z) /\
  (forall d a, 0 <= d < c_k c -> znth K d = Some a -> others (zlen S) x a /\ ~ firsts K d a) /\
  (forall j, 0 <= j <= c_k c -> nearest_set eps20 S x (firsts K j)).
Proof.
  intros Hc Eg Rs Hx Kn.
  destruct (slot_K arith32 not_nan gr P0 P ids offs c rs x Hgr (in_range32 gr P0 Hgr Hg3 Hs HO) HX OD Hc Eg Rs Hx Kn) as [LK KL].
  pose proof (near32 gr P0 Hgr Hg3 Hs HO P ids offs x _ HX Hx KL) as (ND & NI & NO & NX). cbv zeta. set (K := r_K arith32 (rs x)) in *. set (k := c_k c) in *.
  split; [assumption|]. split; [assumption|]. split; [assumption|].
  assert (SX : zlen S = zlen P) by apply zlen_map.
  assert (HK : forall d a, (0 <= d < k)%Z -> znth K d = Some a -> others (zlen S) x a /\ ~ firsts K d a).
  { intros d a Hd Ea. split; [rewrite SX; apply NI; eapply znth_in; eauto|]. intros (d' & Hd' & Ea'). pose proof (nodup_znth _ _ _ _ ND Ea Ea'). lia. }
  split; [exact HK|]. intros j Hj. split.
  - intros a (d & Hd & Ea). eapply HK; eauto. lia.
  - intros a b p' q q' (d & Hd & Ea) Hb NB E1 E2 E3.
    assert (RD : forall j q, znth S j = Some q -> sqrt (d2 p' q) = real_dist P x j).
    { intros l q0 Ej. rewrite znth_map in Ej, E1. unfold real_dist. destruct (znth P x) as [p|]; [|discriminate]. destruct (znth P l) as [qf|]; [|discriminate]. injection Ej as <-. injection E1 as <-. f_equal. apply d2_sym. }
    rewrite (RD a q E2), (RD b q' E3).
    destruct (in_dec Z.eq_dec b K) as [Ib|Nb].
    + apply in_znth in Ib as (d' & Hd' & Eb). apply (NO d d'); auto. destruct (Z_lt_dec d' j) as [L|L]; [|lia]. exfalso. apply NB. exists d'. split; [lia|assumption].
    + apply NX; [eapply znth_in; eauto|rewrite <- SX; exact Hb|exact Nb].
Qed.

(** no infinite boundary, and no overflow where there is room *)
Lemma slot_room c rs x rho : cfg_ok c -> c_gr c = gr -> results arith32 c g rs -> 0 <= x < zlen P -> c_k c <= zlen P - 1 -> robust S x rho ->
  r_o arith32 (rs x) <> FailB /\ (r_o arith32 (rs x) = FailP -> c_pmax c < 6 + c_k c) /\ (r_o arith32 (rs x) = FailT -> c_tmax c < 8 + 2 * c_k c).
Proof.
  intros Hc Eg Rs Hx Kn Hrob. destruct (slot_cand c rs x Hc Eg Rs Hx Kn) as (LK & ND & NI & HK & HA). cbv zeta in *.
  destruct Hc as (K1 & K2 & K3). destruct (Rs x Hx) as [(p & Ep & Hh & KR & W & Gd) _]. simpl in Ep. cbn [g_pts] in *. set (K := r_K arith32 (rs x)) in *. set (k := c_k c) in *.
  assert (R0 : (0 < rho)%R) by apply Hrob.
  assert (CP : in_cube (real_pt p)) by (apply real_cube, Hop; eapply znth_in; eauto).
  set (D0 := repeat k_undefined (Z.to_nat k)).
  destruct (walk_room P x p rho Hop Ep Hrob (c_pmax c) (c_tmax c) k K ltac:(lia) HK HA (Z.to_nat (k - 0)) 0 (cst0 arith32 D0) (cst0 arithR D0) (r_o arith32 (rs x)) (r_s arith32 (rs x)) eq_refl ltac:(lia))
    as (X1 & X2 & X3); auto.
  { change (zlen (cP arithR (cst0 arithR D0))) with 6. lia. }
  { change (zlen (cP arithR (cst0 arithR D0))) with 6. change (zlen (cT arithR (cst0 arithR D0))) with 8. lia. }
  { now apply sound0. }
  { now apply lock0. }
  { intros y Ry. apply region_cube in Ry. split; [exact Ry|]. intros j q (d & Hd & _). lia. }
  change (zlen (cP arithR (cst0 arithR D0))) with 6 in X2. change (zlen (cT arithR (cst0 arithR D0))) with 8 in X3.
  split; [assumption|]. split; intros Y; [specialize (X2 Y)|specialize (X3 Y)]; lia.
Qed.
Lemma slot_errorless c rs x rho : cfg_ok c -> c_gr c = gr -> results arith32 c g rs -> 0 <= x < zlen P -> c_k c <= zlen P - 1 -> robust S x rho -> roomy c (c_k c) -> errorless (out_byte arith32 rs x).
Proof.
  intros Hc Eg Rs Hx Kn Hrob [Ro1 Ro2]. destruct (slot_room c rs x rho Hc Eg Rs Hx Kn Hrob) as (X1 & X2 & X3). apply byte_ok.
  destruct (r_o arith32 (rs x)); try reflexivity; first [congruence|specialize (X2 eq_refl); lia|specialize (X3 eq_refl); lia].
Qed.

(** the row of a slot without error is exact if the cell among the candidates is *)
Lemma slot_exact c rs x p rho : cfg_ok c -> c_gr c = gr -> results arith32 c g rs -> 0 <= x < zlen P -> c_k c <= zlen P - 1 -> znth P x = Some p -> errorless (out_byte arith32 rs x) -> robust S x rho ->
  (r_o arith32 (rs x) = Cont -> forall z y, others (zlen S) x z -> ~ In z (r_K arith32 (rs x)) -> in_cell (map (spot S) (r_K arith32 (rs x))) (real_pt p) y -> (d2 y (real_pt p) <= d2 y (spot S z))%R) ->
  exact_cell S x (out_row arith32 c rs x).
Proof.
  intros Hc Eg Rs Hx Kn Ep' EB Hrob VV.
  destruct (slot_cand c rs x Hc Eg Rs Hx Kn) as (LK & ND & NI & HK & HA). cbv zeta in *.
  destruct Hc as (K1 & K2 & K3). destruct (Rs x Hx) as [(p' & Ep & Hh & KR & W & Gd) _]. simpl in Ep. cbn [g_pts] in *. rewrite Ep' in Ep. injection Ep as <-. rename Ep' into Ep. set (K := r_K arith32 (rs x)) in *. set (k := c_k c) in *.
  assert (OK : ok_out (r_o arith32 (rs x)) = true) by (apply (byte_ok (r_cl arith32 (rs x))); exact EB).
  assert (SX : zlen S = zlen P) by apply zlen_map.
  assert (SP : znth S x = Some (real_pt p)) by (rewrite znth_map, Ep; reflexivity).
  assert (R0 : (0 < rho)%R) by apply Hrob.
  assert (CP : in_cube (real_pt p)) by (apply real_cube, Hop; eapply znth_in; eauto).
  set (D0 := repeat k_undefined (Z.to_nat k)).
  destruct (walk_lock P x p rho Hop Ep Hrob (c_pmax c) (c_tmax c) k K ltac:(lia) HK HA (Z.to_nat (k - 0)) 0 (cst0 arith32 D0) (cst0 arithR D0) (r_o arith32 (rs x)) (r_s arith32 (rs x)) eq_refl ltac:(lia))
    as (s1' & m' & Hm & HC & LI & CL & LKK & WI & RR); auto.
  { simpl. unfold D0. rewrite zlen_repeat. lia. }
  { apply linv0. }
  { simpl. unfold cubeP, p_init. rewrite zlen_map. reflexivity. }
  { now apply clipped0. }
  { now apply lock0. }
  { intros y Ry. apply region_cube in Ry. split; [exact Ry|]. intros j q (d & Hd & _). lia. }
  assert (NEAR : forall y, region arithR ER s1' y -> forall q, In q (map (valp arithR ER) (map toR P)) -> (d2 y (valp arithR ER (toR p)) <= d2 y q)%R).
  { intros y Ry q Iq. rewrite SR in Iq. rewrite toR_val. apply in_znth in Iq as (z & Hz & Ez). destruct (Z.eq_dec z x) as [->|Nz].
    { rewrite SP in Ez. injection Ez as <-. apply Rle_refl. }
    assert (Oz : others (zlen S) x z) by (split; assumption).
    assert (DC : firsts K m' z \/ ~ firsts K m' z).
    { destruct (in_dec Z.eq_dec z K) as [I|NI2]; [|right; intros (d & _ & Ed); apply NI2; eapply znth_in; eauto].
      apply in_znth in I as (d & Hd & Ed). destruct (Z_lt_dec d m'); [left; exists d; split; [lia|assumption]|]. right. intros (d' & Hd' & Ed'). pose proof (nodup_znth _ _ _ _ ND Ed Ed'). lia. }
    destruct DC as [DC|DC]; [eapply WI; eauto|].
    destruct (r_o arith32 (rs x)) eqn:Eo; try discriminate; [|eapply RR; eauto].
    specialize (HC eq_refl). subst m'. rewrite <- (spot_at S z q Ez). apply VV; auto.
    - intros I. apply DC. destruct (in_znth _ _ I) as (d & Hd & Ed). exists d. split; [lia|assumption].
    - destruct (WI y Ry) as [W1 W2]. split; [assumption|]. intros a Ha. apply in_map_iff in Ha as (j & <- & Ij). destruct (in_znth _ _ Ij) as (d & Hd & Ed).
      destruct (NI j Ij) as [Rj _]. destruct (znth_in_range S j ltac:(lia)) as [qj Ej]. rewrite (spot_at S j qj Ej). apply (W2 j qj); [exists d; split; [lia|assumption]|assumption]. }
  assert (HpR : znth (map toR P) x = Some (toR p)) by (rewrite znth_map, Ep; reflexivity).
  assert (CLR : clipped arithR ER (valp arithR ER (toR p)) s1') by (rewrite toR_val; exact CL).
  assert (ROW : row_of arith32 K (r_s arith32 (rs x)) = row_of arithR K s1') by (unfold row_of; rewrite (lk_T _ _ _ _ _ _ LKK), (lk_D _ _ _ _ _ _ LKK); reflexivity).
  assert (IN : forall q, In q (row_of arith32 K (r_s arith32 (rs x))) -> In q K).
  { intros q Hq. unfold row_of in Hq. apply in_map_iff in Hq as ([u v] & <- & Hz). apply filter_In in Hz as [Hz _]. now apply in_combine_l in Hz. }
  assert (OR : out_row arith32 c rs x = row_of arith32 K (r_s arith32 (rs x))).
  { unfold out_row, r_row, row_after. rewrite OK. apply visible_padded. intros q Hq. destruct (NI q (IN q Hq)) as [Rq _]. unfold k_undefined. lia. }
  rewrite OR. split; [|split; [|split; [|split]]].
  - apply sorted_nodup. apply sorted_kept. now apply sorted_nodup.
  - intros I. apply IN in I. apply NI in I. destruct I. congruence.
  - intros j Hj. rewrite ROW in Hj. destruct (cell_touches arithR ER (map toR P) k x m' K (toR p) s1' inR HpR CLR LI NEAR j Hj) as (q & y & Eq & T).
    rewrite SR, toR_val in T. rewrite znth_map in Eq. destruct (znth P j) as [qf|] eqn:Ej; [|discriminate]. injection Eq as <-. rewrite toR_val in T.
    exists (real_pt p), (real_pt qf), y. split; [exact SP|]. rewrite znth_map, Ej. auto.
  - intros j p' q' E1 E2 Ne Fa. rewrite SP in E1. injection E1 as <-. rewrite znth_map in E2. destruct (znth P j) as [qf|] eqn:Ej; [|discriminate]. injection E2 as <-. rewrite ROW.
    apply (cell_face arithR ER (map toR P) k x m' K (toR p) s1' inR HpR CLR LI NEAR j (toR qf)).
    + rewrite znth_map, Ej. reflexivity.
    + rewrite !toR_val. congruence.
    + rewrite SR. exact Fa.
  - intros p' y E1 Cy Hy. rewrite SP in E1. injection E1 as <-. rewrite <- SR, <- toR_val.
    apply (cell_bounded arithR ER (map toR P) k x m' K (toR p) s1' inR HpR CLR LI NEAR y Cy).
    intros j q Hj Eq. rewrite znth_map in Eq. destruct (znth P j) as [qf|] eqn:Ej; [|discriminate]. injection Eq as <-. rewrite !toR_val. apply (Hy j); [rewrite ROW; exact Hj|]. rewrite znth_map, Ej. reflexivity.
Qed.
Lemma slot_robust c rs x rho : cfg_ok c -> c_gr c = gr -> results arith32 c g rs -> 0 <= x < zlen P -> c_k c <= zlen P - 1 -> validated (c_k c) (zlen P) (out_byte arith32 rs x) ->
  robust S x rho -> exact_cell S x (out_row arith32 c rs x).
Proof.
  intros Hc Eg Rs Hx Kn (EB & V) Hrob. destruct (znth_in_range P x Hx) as [p Ep]. apply (slot_exact c rs x p rho); auto. intros Eo z y (Hz & Nz) NZ _. exfalso. apply NZ. destruct V as [V|V].
  - apply (byte_reach (r_cl arith32 (rs x))) in V. congruence.
  - destruct (slot_cand c rs x Hc Eg Rs Hx Kn) as (LK & ND & NI & _). cbv zeta in *. set (K := r_K arith32 (rs x)) in *. rewrite zlen_map in Hz.
    assert (I : incl (x :: K) (zrange 0 (zlen P))).
    { intros a [<-|Ha]; [now apply in_zrange|]. apply in_zrange. apply NI in Ha. apply Ha. }
    assert (ND2 : NoDup (x :: K)) by (constructor; [intros X; apply NI in X; destruct X; congruence|assumption]).
    assert (I2 : incl (zrange 0 (zlen P)) (x :: K)).
    { apply NoDup_length_incl; auto. pose proof (zlen_zrange 0 (zlen P) ltac:(lia)). unfold zlen in *. simpl. lia. }
    assert (H : In z (x :: K)) by (apply I2, in_zrange; lia). destruct H as [H|H]; [congruence|assumption].
Qed.
End S.
