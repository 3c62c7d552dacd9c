(** Exact arithmetic: spread points need room for the points around each of them only. *)
From Verif Require Import Base Arith PBase Prog PProg MUtils MHeap MXyz MKnn MBoundary MCell MDnn MArgs MTess Exact PExact PFlags SpecDnn PDnn SpecGeom SpecSort SpecBnd SpecKnn SpecVor SpecRows
  PXyz PGrid PSortFinal PHeap PReloc PHeapFinal PKnnFinal PBnd PBndLoop PCellSim PCellRun PCell PCellRow PKnnSafe PSlot PWalk SpecSlot PSlotHost PTess PTessRun PTessFinal
  PGeomCone PGeomPoly PGeomWalk PGeomFinal PRec PRecFinal PRecGeom PNoFail PNoFailApi PDistinct PExactApi PGpuExact PWhen SpecArgs SpecApi PApi.
From Verif Require Export SpecParam SpecResult SpecSpread.
From Coq Require Import Psatz Permutation.
Import SpecGeom.
Local Open Scope R_scope.

(** ** the plane *)
Definition mix (t : R) (p x : pt) : pt := let '(a, b, c) := p in let '(u, v, w) := x in (a + t * (u - a), b + t * (v - b), c + t * (w - c)).
Lemma mix_d2 t p x : d2 (mix t p x) p = t * t * d2 x p.
Proof. destruct p as [[a b] c], x as [[u v] w]. unfold d2, mix. ring. Qed.
Lemma mix_affine t p x s : d2 (mix t p x) s - d2 (mix t p x) p = (1 - t) * d2 p s + t * (d2 x s - d2 x p).
Proof. destruct p as [[a b] c], x as [[u v] w], s as [[e f] g]. unfold d2, mix. ring. Qed.
Lemma mix_cube t p x : 0 <= t <= 1 -> in_cube p -> in_cube x -> in_cube (mix t p x).
Proof. destruct p as [[a b] c], x as [[u v] w]. unfold in_cube, mix. intros Ht Hp Hx. repeat split; nra. Qed.
Lemma d2_par x s p : d2 s p <= 2 * d2 x s + 2 * d2 x p.
Proof.
  destruct p as [[a b] c], x as [[u v] w], s as [[e f] g]. unfold d2.
  pose proof (Rle_0_sqr (2 * u - e - a)). pose proof (Rle_0_sqr (2 * v - f - b)). pose proof (Rle_0_sqr (2 * w - g - c)). unfold Rsqr in *. lra.
Qed.
Lemma d2_nonneg x y : 0 <= d2 x y.
Proof. destruct x as [[u v] w], y as [[e f] g]. unfold d2. pose proof (Rle_0_sqr (u - e)). pose proof (Rle_0_sqr (v - f)). pose proof (Rle_0_sqr (w - g)). unfold Rsqr in *. lra. Qed.

(** a cell among all points nearer than 2 r lies within r *)
Lemma near_cell S r p B x : covered S r -> in_cube p -> (forall s, In s S -> d2 s p < 4 * (r * r) -> s = p \/ In s B) -> in_cell B p x -> d2 x p < r * r.
Proof.
  intros [Pr Cv] Cp HB [Cx Ic]. destruct (Rlt_le_dec (d2 x p) (r * r)) as [|Far]; [assumption|exfalso].
  assert (P2 : 0 < r * r) by nra. set (D := d2 x p) in *. assert (PD : 0 < D) by lra.
  set (t := sqrt (r * r / D)). assert (Q0 : 0 <= r * r / D) by (apply Rlt_le, Rdiv_lt_0_compat; lra).
  assert (T2 : t * t = r * r / D) by (apply sqrt_sqrt; assumption). assert (T0 : 0 <= t) by apply sqrt_pos.
  assert (T3 : t * t * D = r * r) by (rewrite T2; field; lra).
  assert (T1 : t <= 1) by (destruct (Rle_dec t 1); [assumption|exfalso]; assert (1 < t * t) by nra; nra).
  set (y := mix t p x). assert (Cy : in_cube y) by (apply mix_cube; auto).
  assert (Yp : d2 y p = r * r) by (unfold y; rewrite mix_d2; fold D; lra).
  destruct (Cv y Cy) as (s & Is & Ds). assert (Sp : d2 s p < 4 * (r * r)) by (pose proof (d2_par y s p); lra).
  destruct (HB s Is Sp) as [->|IB]; [lra|]. specialize (Ic s IB). pose proof (mix_affine t p x s) as A. fold y D in A. fold D in Ic.
  pose proof (d2_nonneg p s). assert (0 <= (1 - t) * d2 p s) by (apply Rmult_le_pos; lra). assert (0 <= t * (d2 x s - D)) by (apply Rmult_le_pos; lra). lra.
Qed.

(** ** counting by positions *)
Lemma spot_some S q x : znth S q = Some x -> spot S q = x.
Proof. unfold spot. now intros ->. Qed.
Lemma spots_all S : map (spot S) (zrange 0 (zlen S)) = S.
Proof.
  apply znth_ext_range; [rewrite zlen_map, zlen_zrange by (apply zlen_nonneg); lia|].
  intros i Hi. rewrite zlen_map, zlen_zrange in Hi by (apply zlen_nonneg). rewrite znth_map, znth_zrange by lia. simpl.
  destruct (znth_in_range S i ltac:(lia)) as [x Ex]. rewrite Ex. f_equal. now apply spot_some.
Qed.
Lemma spots_perm S I : NoDup I -> (forall q, In q I -> (0 <= q < zlen S)%Z) -> exists J, Permutation S (map (spot S) I ++ map (spot S) J) /\ forall q, In q J -> (0 <= q < zlen S)%Z /\ ~ In q I.
Proof.
  intros ND Hr. set (J := filter (fun q => negb (mem_z I q)) (zrange 0 (zlen S))). exists J. split.
  2:{ intros q HJ. unfold J in HJ. apply filter_In in HJ as [HR HJ]. apply in_zrange in HR. apply negb_true_iff, mem_z_nin in HJ. auto. }
  rewrite <- (spots_all S) at 1. rewrite <- map_app. apply Permutation_map. apply NoDup_Permutation.
  - apply NoDup_zrange.
  - apply nodup_app_i; [assumption|apply NoDup_filter, NoDup_zrange|]. intros q Hq HJ. apply filter_In in HJ as [_ HJ]. apply negb_true_iff, mem_z_nin in HJ. contradiction.
  - intros q. rewrite in_app_iff. unfold J. rewrite filter_In, negb_true_iff, in_zrange. split.
    + intros Hq. destruct (mem_z I q) eqn:M; [left; now apply mem_z_in|right; split; [lia|reflexivity]].
    + intros [H|[H _]]; [specialize (Hr q H); lia|lia].
Qed.
Lemma crowd_count S r M i p I : crowd S r M -> znth S i = Some p -> NoDup I -> (forall q, In q I -> q <> i /\ exists x, znth S q = Some x /\ d2 x p < 4 * (r * r)) -> (zlen I <= M)%Z.
Proof.
  intros Cr Ei ND HI. destruct (spots_perm S (i :: I)) as (J & PR & _).
  - constructor; [intros X; now apply HI in X|assumption].
  - intros q [<-|Hq]; [apply (znth_some _ _ _ Ei)|]. destruct (HI q Hq) as (_ & x & Ex & _). apply (znth_some _ _ _ Ex).
  - simpl in PR. rewrite (spot_some S i p Ei) in PR. specialize (Cr p _ _ PR). rewrite zlen_map in Cr. apply Cr.
    intros x Hx. apply in_map_iff in Hx as (q & <- & Hq). destruct (HI q Hq) as (_ & x & Ex & Dx). now rewrite (spot_some S q x Ex).
Qed.
Lemma crowd_nonneg S r M p : In p S -> crowd S r M -> (0 <= M)%Z.
Proof. intros I C. apply in_split in I as (a & b & ->). apply (C p [] (a ++ b)); [simpl; apply Permutation_sym, Permutation_middle|intros q []]. Qed.
Lemma crowd_perm S S' r M : Permutation S S' -> crowd S r M -> crowd S' r M.
Proof. intros PP C p L rest PR. apply (C p L rest). now rewrite PP. Qed.
Lemma covered_perm S S' r : Permutation S S' -> covered S r -> covered S' r.
Proof. intros PP [A C]. split; [assumption|]. intros x Hx. destruct (C x Hx) as (s & Is & Ds). exists s. split; [|assumption]. eapply Permutation_in; eauto. Qed.

Lemma nodup_map {A B} (f : A -> B) l : (forall a b, In a l -> In b l -> f a = f b -> a = b) -> NoDup l -> NoDup (map f l).
Proof.
  induction l as [|x l IH]; intros Inj ND; simpl; [constructor|]. inversion ND as [|? ? Nx Nl]; subst. constructor.
  - intros H. apply in_map_iff in H as (y & Ey & Iy). apply Nx. replace x with y; [assumption|]. apply Inj; simpl; auto.
  - apply IH; [|assumption]. intros a b Ha Hb. apply Inj; now right.
Qed.

(** ** a point and a sorted list of others *)
Section Row.
Variables (S : list pt) (r : R) (M i : Z) (p : pt) (row : list Z).
Hypothesis Cv : covered S r.
Hypothesis Cr : crowd S r M.
Hypothesis Hp : znth S i = Some p.
Hypothesis Cp : in_cube p.
Hypothesis Hnear : nearest (fun q => d2 (spot S q) p) (fun q => (0 <= q < zlen S)%Z /\ q <> i) row.
Notation B := (map (spot S) row).

(** the near points come before a far one *)
Lemma far_first d s : (0 <= d)%Z -> (forall q, znth row d = Some q -> 4 * (r * r) <= d2 (spot S q) p) -> (d < zlen row)%Z -> In s S -> d2 s p < 4 * (r * r) -> s = p \/ In s (firstn (Z.to_nat d) B).
Proof.
  intros Hd Far Ld Is Ds. destruct Hnear as (ND & Hc & Hs & Hn). destruct (znth_in_range row d ltac:(lia)) as [q Eq]. specialize (Far q Eq).
  apply in_znth in Is as (j & Hj & Ej). destruct (Z.eq_dec j i) as [->|Nj]; [left; congruence|right]. pose proof (spot_some S j s Ej) as Sj.
  destruct (in_dec Z.eq_dec j row) as [I|I].
  - apply in_znth in I as (e & He & Ee). destruct (Z_le_gt_dec d e) as [L|L].
    + exfalso. pose proof (Hs d e q j ltac:(lia) Eq Ee) as X. simpl in X. rewrite Sj in X. lra.
    + rewrite firstn_map. apply in_map_iff. exists j. split; [assumption|]. eapply znth_in with (i := e). rewrite <- (firstn_skipn (Z.to_nat d) row), znth_app1 in Ee; [exact Ee|].
      unfold zlen in *. rewrite firstn_length. lia.
  - exfalso. pose proof (Hn q j (znth_in _ _ _ Eq) (conj Hj Nj) I) as X. simpl in X. rewrite Sj in X. lra.
Qed.
Lemma near_count (f : Z -> Z) (C : list Z) : NoDup C -> (forall a b, In a C -> In b C -> f a = f b -> a = b) -> (forall d, In d C -> exists q, znth row (f d) = Some q /\ d2 (spot S q) p < 4 * (r * r)) -> (zlen C <= M)%Z.
Proof.
  intros NC Inj HC. destruct Hnear as (ND & Hc & _ & _). set (get := fun d => match znth row (f d) with Some q => q | None => 0%Z end).
  assert (G : forall d, In d C -> znth row (f d) = Some (get d)) by (intros d Hd; destruct (HC d Hd) as (q & Eq & _); unfold get; now rewrite Eq).
  rewrite <- (zlen_map get C). apply (crowd_count S r M i p _ Cr Hp).
  - apply nodup_map; [|assumption]. intros a b Ha Hb Q. apply Inj; auto. pose proof (G a Ha) as Ea. pose proof (G b Hb) as Eb. rewrite Q in Ea.
    eapply PRec.nodup_znth; eauto.
  - intros q Hq. apply in_map_iff in Hq as (d & <- & Hd). destruct (HC d Hd) as (q & Eq & Dq). pose proof (G d Hd) as Gd. assert (q = get d) by congruence. subst q.
    destruct (Hc (get d) (znth_in _ _ _ Gd)) as [R0 R1]. split; [assumption|]. destruct (znth_in_range S (get d) R0) as [x Ex]. exists x. split; [assumption|]. now rewrite <- (spot_some S _ x Ex).
Qed.

Lemma spread_cutters C : cutters p B C -> (zlen C <= M)%Z.
Proof.
  intros [NC HC]. apply (near_count (fun d => d) C NC); [auto|]. intros d Hd. destruct (HC d Hd) as (x & Ex & y & Cy & Dy). rewrite znth_map in Ex. destruct (znth row d) as [q|] eqn:Eq; [|discriminate].
  injection Ex as <-. exists q. split; [reflexivity|]. pose proof (znth_some _ _ _ Eq) as Rd. destruct (Rlt_le_dec (d2 (spot S q) p) (4 * (r * r))) as [|Far]; [assumption|].
  assert (d2 y p < r * r).
  { apply (near_cell S r p (firstn (Z.to_nat d) B) y Cv Cp); [|assumption]. intros s. apply far_first; try lia. intros q' Eq'. assert (q' = q) by congruence. now subst. }
  pose proof (d2_par y (spot S q) p). lra.
Qed.
(** enough candidates *)
Lemma spread_all s : (M <= zlen row)%Z -> In s S -> d2 s p < 4 * (r * r) -> s = p \/ In s B.
Proof.
  intros HM Is Ds. destruct Hnear as (ND & Hc & Hs & Hn).
  apply in_znth in Is as (j & Hj & Ej). destruct (Z.eq_dec j i) as [->|Nj]; [left; congruence|right]. pose proof (spot_some S j s Ej) as Sj.
  destruct (in_dec Z.eq_dec j row) as [I|I]; [apply in_map_iff; eauto|exfalso].
  assert (zlen (j :: row) <= M)%Z; [|rewrite zlen_cons in *; lia].
  apply (crowd_count S r M i p _ Cr Hp); [now constructor|]. intros q [<-|Hq]; [split; [assumption|eauto]|]. destruct (Hc q Hq) as [R0 R1]. split; [assumption|].
  destruct (znth_in_range S q R0) as [x Ex]. exists x. split; [assumption|]. pose proof (Hn q j Hq (conj Hj Nj) I) as X. simpl in X. rewrite Sj, (spot_some S q x Ex) in X. lra.
Qed.
End Row.
Lemma few_perm S S' M : Permutation S S' -> few_cuts S M -> few_cuts S' M.
Proof. intros PP F p B rest C PR. apply (F p B rest). now rewrite PP. Qed.
(** the cuts come from the points nearer than 2 r *)
Lemma spread_few S r M : (forall q, In q S -> in_cube q) -> spread S r M -> few_cuts S M.
Proof.
  intros HS [Cv Cr] p B rest C PP [B1 B2] HC. set (S' := p :: B ++ rest) in *. set (row := zrange 1 (zlen B + 1)). pose proof (zlen_nonneg B) as LB. pose proof (zlen_nonneg rest) as LE.
  assert (LS : zlen S' = (1 + zlen B + zlen rest)%Z) by (unfold S'; rewrite zlen_cons, zlen_app; lia).
  assert (SB : forall q x, (1 <= q < zlen B + 1)%Z -> znth S' q = Some x <-> znth B (q - 1) = Some x). { intros q x Hq. unfold S'. rewrite znth_cons, znth_app1 by lia. reflexivity. }
  assert (EB : map (spot S') row = B).
  { apply znth_ext_range; [unfold row; rewrite zlen_map, zlen_zrange; lia|]. intros d Hd. unfold row in *. rewrite zlen_map, zlen_zrange in Hd by lia. rewrite znth_map, znth_zrange by lia. cbn [option_map].
    destruct (znth_in_range B d ltac:(lia)) as [x Ex]. rewrite Ex. f_equal. apply spot_some. apply SB; [lia|]. now replace (1 + d - 1)%Z with d by lia. }
  rewrite <- EB in HC. apply (spread_cutters S' r M 0 p row); auto.
  - eapply covered_perm; eauto.
  - eapply crowd_perm; eauto.
  - apply HS. eapply Permutation_in; [apply Permutation_sym; exact PP|now left].
  - assert (IR : forall q, In q row <-> (1 <= q < zlen B + 1)%Z) by (intros q; apply in_zrange).
    assert (SQ : forall q, (1 <= q < zlen B + 1)%Z -> znth B (q - 1) = Some (spot S' q)).
    { intros q Hq. destruct (znth_in_range B (q - 1) ltac:(lia)) as [x Ex]. rewrite Ex. f_equal. symmetry. apply spot_some. apply SB; auto. }
    split; [apply NoDup_zrange|]. split; [intros q Hq; apply IR in Hq; lia|]. split.
    + intros a b x y Hab Ha Hb. pose proof (znth_some _ _ _ Ha) as Ra. pose proof (znth_some _ _ _ Hb) as Rb. unfold row in Ha, Hb, Ra, Rb. rewrite zlen_zrange in Ra, Rb by lia. rewrite znth_zrange in Ha, Hb by lia.
      injection Ha as <-. injection Hb as <-. apply (B1 (1 + a - 1)%Z (1 + b - 1)%Z); [lia|apply SQ; lia..].
    + intros x y Hx [Ry N0] Ny. apply IR in Hx. rewrite IR in Ny. apply B2; [eapply znth_in, SQ; lia|]. destruct (znth_in_range S' y Ry) as [z Ez]. rewrite (spot_some S' y z Ez).
      unfold S' in Ez. rewrite znth_cons, znth_app2 in Ez by lia. eapply znth_in; eauto.
Qed.

Section G.
Variable N : Arith.
Variable E : Exact N.
Notation point := (point N).
Notation valp := (valp N E).
Notation finp := (finp N E).

Lemma nearest_spots pts i p row : znth pts i = Some p -> nearest (sqdist N E pts i) (fun q => (0 <= q < zlen pts)%Z /\ q <> i) row ->
  nearest (fun q => d2 (spot (map valp pts) q) (valp p)) (fun q => (0 <= q < zlen (map valp pts))%Z /\ q <> i) row.
Proof.
  intros Hp (ND & Hc & Hs & Hn). rewrite zlen_map.
  assert (Q : forall q, (0 <= q < zlen pts)%Z -> sqdist N E pts i q = d2 (spot (map valp pts) q) (valp p)).
  { intros q Hq. destruct (znth_in_range pts q Hq) as [x Ex]. unfold sqdist, spot. now rewrite znth_map, Ex, Hp. }
  split; [assumption|]. split; [assumption|]. split.
  - intros a b x y Hab Ha Hb. specialize (Hs a b x y Hab Ha Hb). rewrite !Q in Hs; [assumption|apply Hc; eapply znth_in; eauto..].
  - intros x y Hx Hy Ny. specialize (Hn x y Hx Hy Ny). rewrite !Q in Hn; [assumption|apply Hy|apply (Hc x Hx)].
Qed.

Section Slot.
Variables (c : cfg) (pts : list point) (i b : Z) (p : point) (K row : list Z) (o : nbout) (s : cst N) (r : R) (M M2 : Z).
Hypothesis Hc : cfg_ok c.
Hypothesis Hin : forall q, In q pts -> inside N E q.
Hypothesis SF : slot_facts N E c pts i b p K row o s.
Hypothesis Sp : spread (map valp pts) r M.
Hypothesis Few : few_cuts (map valp pts) M2.
Hypothesis Ro : roomy c M2.
Notation S := (map valp pts).
Notation P := (valp p).

Lemma sp_p : znth pts i = Some p. Proof. apply SF. Qed.
Lemma sp_P : znth S i = Some P. Proof. rewrite znth_map, sp_p. reflexivity. Qed.
Lemma sp_cube : in_cube P.
Proof. assert (H : in_open_cube P) by (apply Hin; eapply znth_in; apply sp_p). destruct P as [[u v] w]. simpl in *. lra. Qed.
Lemma sp_near : nearest (fun q => d2 (spot S q) P) (fun q => (0 <= q < zlen S)%Z /\ q <> i) row.
Proof. apply (nearest_spots pts i p row sp_p). apply SF. Qed.

Lemma sp_cuts C : cutters P (map (spot S) row) C -> (zlen C <= M2)%Z.
Proof.
  intros HC. pose proof sp_near as (ND & Hn1 & Hn2 & Hn3). destruct (spots_perm S (i :: row)) as (J & PR & HJ).
  - constructor; [intros X; now apply Hn1 in X|assumption].
  - intros q [<-|Hq]; [apply (znth_some _ _ _ sp_P)|now apply Hn1].
  - simpl in PR. rewrite (spot_some S i P sp_P) in PR. apply (Few P _ _ C PR); [|assumption]. split.
    + intros a a' x y Hab Ha Hb. rewrite znth_map in Ha, Hb. destruct (znth row a) as [qa|] eqn:Ea; [|discriminate]. destruct (znth row a') as [qb|] eqn:Eb; [|discriminate].
      injection Ha as <-. injection Hb as <-. exact (Hn2 a a' qa qb Hab Ea Eb).
    + intros x y Hx Hy. apply in_map_iff in Hx as (qx & <- & Ix). apply in_map_iff in Hy as (qy & <- & Iy). destruct (HJ qy Iy) as [Ry Ny]. apply Hn3; [assumption| |intros X; apply Ny; now right].
      split; [assumption|]. intros ->. apply Ny. now left.
Qed.
Lemma spread_errorless : errorless b.
Proof.
  destruct (facts_nofail N E c pts i b p K row o s Hc Hin SF) as (A1 & A2 & _). pose proof SF as (Ri & Ep & LK & Wk & Nr & Lr & HKr & HKb & cl & Eb).
  destruct Hc as (K1 & K2 & K3). destruct Ro as [R1 R2].
  destruct (slot_when N E (c_pmax c) (c_tmax c) pts (c_k c) i K row p o s) as (_ & B2 & B3); auto; try lia.
  split; [assumption|]. split; [|split; [|assumption]]; apply not_true_is_false; intros H; rewrite Eb in H.
  - apply byte_p in H. destruct (B2 H) as (C & HC & Lt). pose proof (sp_cuts C HC). lia.
  - apply byte_t in H. destruct (B3 H) as [(C & HC & Lt) _]. pose proof (sp_cuts C HC). lia.
Qed.
Lemma spread_ok_out : ok_out o = true.
Proof. pose proof SF as (_ & _ & _ & _ & _ & _ & _ & _ & cl & Eb). apply (byte_ok cl). rewrite <- Eb. apply spread_errorless. Qed.

Hypothesis HM : (M <= c_k c)%Z.
Lemma spread_region y : region N E s y -> forall q, In q S -> d2 y P <= d2 y q.
Proof.
  intros Ry q Iq. pose proof SF as (Ri & Ep & LK & Wk & Nr & Lr & HKr & HKb & cl & Eb). pose proof spread_ok_out as OK. assert (Hc' := Hc). destruct Hc' as (K1 & K2 & K3).
  destruct Sp as [Cv Cr].
  destruct (Z_le_gt_dec (zlen pts - 1) (c_k c)) as [Hle|Hgt]; [eapply (region_near N E (c_pmax c) (c_tmax c) pts (c_k c) i K row p o s); eauto; lia|].
  assert (CASE : o = Cont \/ o = Reach) by (destruct o; try discriminate; auto). destruct CASE as [EO|EO]; [|eapply (region_near N E (c_pmax c) (c_tmax c) pts (c_k c) i K row p o s); eauto; lia].
  destruct (WG N E (c_pmax c) (c_tmax c) pts (c_k c) i K p o s ltac:(lia) Hin Ep Wk OK) as (_ & M1 & Q1 & _).
  assert (Cy : in_cell (map (spot S) row) P y).
  { split; [apply (region_cube N E (repeat k_undefined (Z.to_nat (c_k c)))); auto|]. intros x Hx. apply in_map_iff in Hx as (a & <- & Ha). assert (Ra : (0 <= a < zlen pts)%Z) by (apply Nr in Ha; tauto).
    apply in_znth in Ha as (d & Hd & Ed). destruct (znth_in_range pts a Ra) as [ap Ea]. rewrite (spot_some S a (valp ap)) by (rewrite znth_map, Ea; reflexivity).
    apply (Q1 EO y d (valp ap) Ry); [apply in_zrange; lia|]. exists a, ap. auto. }
  assert (All : forall s0, In s0 S -> d2 s0 P < 4 * (r * r) -> s0 = P \/ In s0 (map (spot S) row)).
  { intros s0. apply (spread_all S r M i P row Cr sp_P sp_near s0). lia. }
  pose proof (near_cell S r P _ y Cv sp_cube All Cy) as Near. destruct (Rle_lt_dec (d2 y P) (d2 y q)) as [|Lt]; [assumption|exfalso].
  assert (Dq : d2 q P < 4 * (r * r)) by (pose proof (d2_par y q P); lra). destruct (All q Iq Dq) as [->|IB]; [lra|]. destruct Cy as [_ Ic]. specialize (Ic q IB). lra.
Qed.
Lemma spread_exact : exact_row S i (row_of N K s).
Proof.
  pose proof SF as (Ri & Ep & LK & Wk & Nr & Lr & HKr & HKb & cl & Eb). pose proof spread_ok_out as OK. assert (Hc' := Hc). destruct Hc' as (K1 & K2 & K3).
  destruct (WG N E (c_pmax c) (c_tmax c) pts (c_k c) i K p o s ltac:(lia) Hin Ep Wk OK) as (CL & _).
  assert (L0 : linv N (znth pts) K p (c_k c) s).
  { apply (linv_walk N (c_pmax c) (c_tmax c) (znth pts) K p (c_k c) (Z.to_nat (c_k c - 0)) 0 (cst0 N (repeat k_undefined (Z.to_nat (c_k c)))) o s); [reflexivity|lia| |apply linv0|exact Wk].
    change (zlen (repeat k_undefined (Z.to_nat (c_k c))) = c_k c). rewrite zlen_repeat. lia. }
  split; [eapply facts_distinct; eauto|]. split; [|split].
  - intros j Hj. destruct (cell_touches N E pts 0 i (c_k c) K p s Hin Ep CL L0 spread_region j Hj) as (q & x & Eq & T). exists P, (valp q), x. rewrite !znth_map, Ep, Eq. auto.
  - intros j p' q' E1 E2 Ne Fa. rewrite znth_map in E1, E2. rewrite Ep in E1. injection E1 as <-. destruct (znth pts j) as [q|] eqn:Eq; [|discriminate]. injection E2 as <-.
    apply (cell_face N E pts 0 i (c_k c) K p s Hin Ep CL L0 spread_region j q Eq); auto.
  - intros p' y E1 Cy Hy. rewrite znth_map, Ep in E1. injection E1 as <-. apply (cell_bounded N E pts 0 i (c_k c) K p s Hin Ep CL L0 spread_region y Cy).
    intros j q Hj Ej. apply (Hy j); [assumption|]. rewrite znth_map, Ej. reflexivity.
Qed.
End Slot.

(** ** calls without recompute *)
Lemma api_spread w c P0 r M M2 : api_ok N E c P0 -> spread (map valp P0) r M -> few_cuts (map valp P0) M2 -> roomy c M2 -> (M <= c_k c)%Z -> exists o, tess_core N w c cpu P0 = Ok o /\ complete N E P0 o.
Proof.
  intros Ha [Cv Cr] Few0 Ro HM. destruct (core_final N E w c P0 Ha) as (o & R & PP & LS & (LR & Gd & VR & TB) & F). exists o. split; [assumption|].
  assert (Hc : cfg_ok c) by apply Ha. pose proof (Permutation_map valp PP) as PV.
  assert (Sp : spread (map valp (o_pts N o)) r M) by (split; [eapply covered_perm; eauto|eapply crowd_perm; eauto]).
  pose proof (few_perm _ _ M2 PV Few0) as Few.
  assert (Hin : forall q, In q (o_pts N o) -> inside N E q) by (intros q Hq; apply Ha; eapply Permutation_in; [apply Permutation_sym; exact PP|assumption]).
  assert (EL : forall i b, znth (o_states N o) i = Some b -> errorless b).
  { intros i b Hb. destruct (F i b Hb) as (p & K & kr & oo & s & SF & _). exact (spread_errorless c (o_pts N o) i b p K kr oo s M2 Hc Hin SF Few Ro). }
  split; [assumption|]. split; [assumption|]. split; [assumption|].
  split; [apply shows_rows; auto; rewrite LR; destruct Ha as (_ & _ & _ & _ & _ & _ & (Q & _) & _); lia|]. split; [assumption|].
  intros i row Hrow. assert (Hi : (0 <= i < zlen (o_states N o))%Z) by (pose proof (znth_some _ _ _ Hrow); lia). destruct (znth_in_range (o_states N o) i Hi) as [b Hb].
  destruct (F i b Hb) as (p & K & kr & oo & s & SF & L). destruct (L (EL i b Hb)) as [_ Er]. assert (row = row_of N K s) by congruence. subst row.
  exact (spread_exact c (o_pts N o) i b p K kr oo s r M M2 Hc Hin SF Sp Few Ro HM).
Qed.

(** ** with recompute *)
Section Calm.
Variables (gr pm tm : Z) (P0 P : list point) (ids offs : list Z).
Hypothesis Hgr : (0 < gr)%Z.
Hypothesis Hg3 : (gr * gr * gr <= int_max)%Z.
Hypothesis Hin : forall q, In q P0 -> inside N E q.
Hypothesis HS : xyz_sort N gr P0 = Ok (P, ids, offs).
Notation g := (mkGrid N P ids offs).
Notation n := (zlen P).
Hypothesis HEL : forall c rs x, cfg_ok c -> c_gr c = gr -> c_pmax c = pm -> c_tmax c = tm -> results N c g rs -> (0 <= x < n)%Z -> errorless (out_byte N rs x).
Local Open Scope Z_scope.

Lemma rec_calm : forall r c ind st rows, c_gr c = gr -> 2 <= n -> 1 <= c_k c -> ind_ok N g ind -> c_pmax c = pm -> c_tmax c = tm -> 6 <= pm <= 255 -> 8 <= tm <= 65535 ->
  n * n <= int_max -> n * pm * 4 <= int_max -> n * tm * 3 <= int_max -> n - 1 <= c_k c * 2 ^ Z.of_nat r -> (0 < r)%nat -> zlen st = n ->
  (forall x b, In x ind -> znth st x = Some b -> errorless b) ->
  exists rows' st', rec_run N g c ind st rows rows' st' /\ forall x b, znth st' x = Some b -> errorless b.
Proof.
  induction r as [|r IH]; intros c ind st rows Eg Hn Hk Hi Ep Et' HP HT NN NP NT G1 Hr Ls HE; [lia|].
  destruct (todo ind st) as [|y l] eqn:Et.
  { exists rows, (map (fun _ => 0) st). split; [now apply rr_done|]. intros x b Hb. rewrite znth_map in Hb. destruct (znth st x); [|discriminate]. injection Hb as <-. repeat split. }
  assert (Ne : todo ind st <> []) by congruence. clear y l Et.
  pose proof (no_flag st ind error_p_overflow (or_introl eq_refl) HE) as NF4. pose proof (no_flag st ind error_t_overflow (or_intror eq_refl) HE) as NF5.
  set (c' := next_cfg n ind st c). pose proof (todo_ok N g ind st Hi) as Hi'. assert (Hi2 := Hi'). destruct Hi2 as [Nd Ir].
  assert (Lt : zlen (todo ind st) <= n).
  { assert (Q : (List.length (todo ind st) <= List.length (zrange 0 n))%nat) by (apply NoDup_incl_length; [exact Nd|]; intros x Hx; apply in_zrange; now apply Ir).
    assert (Q2 : zlen (zrange 0 n) = n) by (rewrite zlen_zrange; lia). rewrite <- Q2. unfold zlen at 1 2. lia. }
  pose proof (zlen_nonneg (todo ind st)) as Lt0.
  assert (Kc : c_k c' = Z.min (n - 1) (c_k c * 2)). { unfold c', next_cfg, set_kpt, next_k. simpl. destruct (Z.ltb_spec (n - 1) (c_k c * 2)); lia. }
  assert (Pc : c_pmax c' = pm) by (unfold c', next_cfg, set_kpt; simpl; rewrite NF4; lia).
  assert (Tc : c_tmax c' = tm) by (unfold c', next_cfg, set_kpt; simpl; rewrite NF5; lia).
  assert (N46 : n <= 65535) by (unfold int_max in NN; nia).
  assert (Hc' : cfg_ok c') by (unfold cfg_ok; rewrite Kc, Pc, Tc; lia).
  assert (SK : zlen (todo ind st) * c_k c' <= n * n) by (apply Z.mul_le_mono_nonneg; lia).
  assert (SP : zlen (todo ind st) * pm <= n * pm) by (apply Z.mul_le_mono_nonneg_r; lia).
  assert (ST : zlen (todo ind st) * tm <= n * tm) by (apply Z.mul_le_mono_nonneg_r; lia).
  assert (Fi : sub_fits c' (zlen (todo ind st))) by (unfold sub_fits; rewrite Pc, Tc; lia).
  assert (Hg : sorted_grid N c' g).
  { split; [rewrite <- Eg in Hgr; exact Hgr|]. exists P0. split; [|exact (eq_trans (f_equal (fun z => xyz_sort N z P0) Eg) HS)].
    change (c_gr c') with (c_gr c). rewrite Eg. now apply (in_range_exact N E). }
  destruct (results_ex N c' g Hc' Hg) as [rs Rs].
  assert (EL : forall x, 0 <= x < n -> errorless (out_byte N rs x)) by (intros x Hx; apply (HEL c' rs x Hc' Eg Pc Tc Rs Hx)).
  assert (ES : forall x b, znth (new_states N g (todo ind st) rs) x = Some b -> errorless b).
  { intros x b Hb. assert (Hx : 0 <= x < n) by (pose proof (znth_some _ _ _ Hb) as X; rewrite new_states_len in X; exact X).
    rewrite new_states_at in Hb by assumption. destruct (mem_z (todo ind st) x); injection Hb as <-; [now apply EL|repeat split]. }
  destruct (Z_le_gt_dec (n - 1) (c_k c')) as [L|L].
  - exists (new_rows N g c' (todo ind st) rs rows), (new_states N g (todo ind st) rs). split; [apply rr_last; assumption|exact ES].
  - assert (K2 : c_k c' = c_k c * 2) by lia. replace (Z.of_nat (Datatypes.S r)) with (Z.succ (Z.of_nat r)) in G1 by lia. rewrite Z.pow_succ_r in G1 by lia.
    destruct (IH c' (todo ind st) (new_states N g (todo ind st) rs) (new_rows N g c' (todo ind st) rs rows)) as (rows' & st' & RR & Q); auto.
    + lia.
    + rewrite K2. lia.
    + destruct r; [|lia]. exfalso. change (2 ^ Z.of_nat 0) with 1 in G1. lia.
    + apply new_states_len.
    + intros x b _. apply ES.
    + exists rows', st'. split; [|exact Q]. eapply rr_more; [exact Ne|exact Hc'|exact Fi|exact Rs|exact (Z.gt_lt _ _ L)|exact RR].
Qed.
End Calm.

Lemma rec_spread w c P0 M : api_more N E c P0 -> few_cuts (map valp P0) M -> roomy c M -> exists o, tess_core N w c cpu P0 = Ok o /\ complete N E P0 o.
Proof.
  intros (Hc & Hn & NK & NN & NP & NT & Hgr & Hg3 & Hin & Rc & Hnt & Fit) Few0 Ro.
  pose proof (in_range_exact N E (c_gr c) P0 Hgr Hg3 Hin) as Hr.
  destruct (xyz_sort_total N (c_gr c) P0 ltac:(lia) Hg3 Hr) as (P & ids & offs & HS).
  pose proof (perm_points N _ _ _ _ _ HS) as PP. assert (LP : zlen P = zlen P0) by (unfold zlen; rewrite (Permutation_length PP); reflexivity).
  rewrite <- LP in Hn, NK, NN, NP, NT, Fit. pose proof (Permutation_map valp PP) as PV.
  pose proof (few_perm _ _ M PV Few0) as Few.
  assert (HEL : forall c' rs x, cfg_ok c' -> c_gr c' = c_gr c -> c_pmax c' = c_pmax c -> c_tmax c' = c_tmax c -> results N c' (mkGrid N P ids offs) rs -> (0 <= x < zlen P)%Z -> errorless (out_byte N rs x)).
  { intros c' rs x Hc' Eg Ep Et Rs Hx. destruct (fact_of N E (c_gr c) P0 P ids offs Hgr Hg3 Hin HS c' rs x Hc' Eg Rs Hx) as (p & row & SF).
    apply (spread_errorless c' P x (out_byte N rs x) p (r_K N (rs x)) row (r_o N (rs x)) (r_s N (rs x)) M); auto.
    - intros q Hq. apply (perm_in N E (c_gr c) P0 P ids offs Hin HS q Hq).
    - unfold roomy. rewrite Ep, Et. exact Ro. }
  assert (Hg : sorted_grid N c (mkGrid N P ids offs)) by (split; [assumption|]; exists P0; auto).
  destruct (results_ex N c _ Hc Hg) as [rs Rs]. assert (Hc' := Hc). destruct Hc' as (K1 & K2 & K3).
  set (st := map (out_byte N rs) (zrange 0 (zlen P))).
  assert (Lst : zlen st = zlen P) by (unfold st; rewrite zlen_map, zlen_zrange; lia).
  assert (I0 : ind_ok N (mkGrid N P ids offs) (zrange 0 (zlen P))). { split; [apply NoDup_zrange|]. intros x Hx. apply in_zrange in Hx. exact Hx. }
  destruct (rec_calm (c_gr c) (c_pmax c) (c_tmax c) P0 P ids offs Hgr Hg3 Hin HS HEL (Z.to_nat (zlen P)) c (todo (zrange 0 (zlen P)) st) st (map (out_row N c rs) (zrange 0 (zlen P)))) as (rows' & st' & RR & ES); auto; try lia.
  { now apply todo_ok. }
  { rewrite Z2Nat.id by lia. pose proof (Z.pow_gt_lin_r 2 (zlen P) ltac:(lia) ltac:(lia)). nia. }
  { intros x b _ Hb. assert (Hx : (0 <= x < zlen P)%Z) by (pose proof (znth_some _ _ _ Hb); lia). unfold st in Hb. rewrite znth_map, znth_zrange in Hb by lia. injection Hb as <-.
    rewrite Z.add_0_l. apply (HEL c rs x Hc eq_refl eq_refl eq_refl Rs Hx). }
  destruct (rec_core_run N c P0 P ids offs rs rows' st' Hc Hn NK NN NP NT Hgr Hr HS Rs RR) as (o & Eo & Es & Lr & Ls & Gd & VR & TB & FR & RUN).
  exists o. split; [apply RUN; auto; repeat split|]. unfold complete. rewrite Eo. split; [assumption|]. split; [lia|]. split; [lia|].
  split; [apply shows_rows; auto; rewrite Lr; destruct Fit as (X & _); lia|]. rewrite <- Es in ES. split; [exact ES|].
  intros i row Hrow. assert (Hi : (0 <= i < zlen P)%Z) by (pose proof (znth_some _ _ _ Hrow); lia). destruct (znth_in_range (o_states N o) i ltac:(lia)) as [b Hb].
  apply (done_exact N E (c_gr c) P0 P ids offs Hgr Hg3 Hin HS i row Hi).
  destruct (FR i row b Hrow Hb) as [X|[X _]]; [exact X|]. destruct (X (ES i b Hb)).
Qed.

(** ** the device *)
Lemma gpu_spread w c P0 r M M2 : api_ok N E c P0 -> spread (map valp P0) r M -> few_cuts (map valp P0) M2 -> roomy c M2 -> (M <= c_k c)%Z -> dev_ok c (zlen P0) -> w_gpu N w = true ->
  exists o, tess_core N w c gpu P0 = Ok o /\ Permutation P0 (o_pts N o) /\ zlen (o_rows N o) = zlen P0 /\ shows (o_dnn N o) (o_rows N o) /\
  forall i row, znth (o_rows N o) i = Some row -> exact_row (map valp (o_pts N o)) i row.
Proof.
  intros Ha Sp Few Ro Hk Hd Hw. destruct (gpu_rows N E w c P0 Ha Hd Hw) as (o & o' & R & R' & E1 & E2 & E3 & _). exists o'. split; [assumption|]. rewrite E1, E2, E3.
  destruct (api_spread w c P0 r M M2 Ha Sp Few Ro Hk) as (o2 & R2 & (C1 & C2 & C3 & C4 & C5 & C6)). rewrite R in R2. injection R2 as <-. auto.
Qed.
End G.

(** ** lattices *)
Lemma nodup_prod {A B} (l : list A) (l' : list B) : NoDup l -> NoDup l' -> NoDup (list_prod l l').
Proof.
  intros H H'. induction l as [|x l IH]; simpl; [constructor|]. inversion H as [|? ? Nx Nl]; subst. apply nodup_app_i; [|now apply IH|].
  - apply nodup_map; [|assumption]. intros a b _ _ Q. congruence.
  - intros [a b] Ha Hb. apply in_map_iff in Ha as (y & Q & _). injection Q as <- <-. apply in_prod_iff in Hb. tauto.
Qed.
Lemma node_inj m a b : (1 <= m)%Z -> node m a = node m b -> a = b.
Proof.
  intros Hm. destruct a as (a1 & a2 & a3), b as (b1 & b2 & b3). unfold node. cbn [fst snd]. intros Q. injection Q as Q1 Q2 Q3.
  assert (X : forall u v, IZR (2 * u + 1) / IZR (2 * m) = IZR (2 * v + 1) / IZR (2 * m) -> u = v).
  { intros u v H. assert (Pm : 0 < IZR (2 * m)) by (apply IZR_lt; lia). apply (Rmult_eq_compat_r (IZR (2 * m))) in H. unfold Rdiv in H. rewrite !Rmult_assoc, Rinv_l, !Rmult_1_r in H by lra. apply eq_IZR in H. lia. }
  apply X in Q1, Q2, Q3. congruence.
Qed.
Lemma lattice_nodup m : (1 <= m)%Z -> NoDup (lattice m).
Proof. intros Hm. apply nodup_map; [intros a b _ _; now apply node_inj|]. repeat apply nodup_prod; apply NoDup_zrange. Qed.
Lemma in_lattice m x : In x (lattice m) <-> exists a b c, (0 <= a < m)%Z /\ (0 <= b < m)%Z /\ (0 <= c < m)%Z /\ x = node m (a, (b, c)).
Proof.
  unfold lattice. rewrite in_map_iff. split.
  - intros ((a & b & c) & <- & H). rewrite !in_prod_iff, !in_zrange in H. exists a, b, c. intuition.
  - intros (a & b & c & Ha & Hb & Hc & ->). exists (a, (b, c)). rewrite !in_prod_iff, !in_zrange. intuition.
Qed.
(** the middle of a cell is at most half a cell away *)
Lemma cell_mid m u : (1 <= m)%Z -> 0 <= u <= 1 -> exists a, (0 <= a < m)%Z /\ Rabs (u - IZR (2 * a + 1) / IZR (2 * m)) <= 1 / 2 * / IZR m.
Proof.
  intros Hm Hu. assert (Pm : 1 <= IZR m) by (apply IZR_le; lia). assert (Pi : 0 < / IZR m) by (apply Rinv_0_lt_compat; lra).
  assert (FR : forall a t, t = u * IZR m -> IZR a <= t <= IZR a + 1 -> Rabs (u - IZR (2 * a + 1) / IZR (2 * m)) <= 1 / 2 * / IZR m).
  { intros a t Et Ht. rewrite plus_IZR, !mult_IZR. replace (u - (2 * IZR a + 1) / (2 * IZR m)) with ((t - IZR a - 1 / 2) * / IZR m) by (rewrite Et; field; lra).
    rewrite Rabs_mult, (Rabs_right (/ IZR m)) by lra. apply Rmult_le_compat_r; [lra|]. apply Rabs_le. lra. }
  set (t := u * IZR m). assert (0 <= t <= IZR m) by (unfold t; nra). destruct (base_Int_part t) as [B1 B2].
  assert (Z0 : (0 <= Int_part t)%Z). { assert (IZR (-1) < IZR (Int_part t)) by lra. apply lt_IZR in H0. lia. }
  destruct (Z_lt_dec (Int_part t) m) as [L|L].
  - exists (Int_part t). split; [lia|]. apply (FR _ t); [reflexivity|]. lra.
  - exists (m - 1)%Z. split; [lia|]. apply (FR _ t); [reflexivity|]. assert (IZR m <= IZR (Int_part t)) by (apply IZR_le; lia). rewrite minus_IZR. lra.
Qed.
Lemma lattice_spread m : (1 <= m)%Z -> spread (lattice m) (/ IZR m) 26.
Proof.
  intros Hm. assert (Pm : 1 <= IZR m) by (apply IZR_le; lia). assert (Pi : 0 < / IZR m) by (apply Rinv_0_lt_compat; lra). split.
  - split; [assumption|]. intros [[u v] w] (Hu & Hv & Hw). destruct (cell_mid m u Hm Hu) as (a & Ra & Da). destruct (cell_mid m v Hm Hv) as (b & Rb & Db). destruct (cell_mid m w Hm Hw) as (c & Rc & Dc).
    exists (node m (a, (b, c))). split; [apply in_lattice; eauto 10|]. unfold node. cbn [fst snd].
    assert (Q : forall e, Rabs e <= 1 / 2 * / IZR m -> e * e <= 1 / 4 * (/ IZR m * / IZR m)).
    { intros e He. assert (e * e = Rabs e * Rabs e) by (unfold Rabs; destruct (Rcase_abs e); ring). pose proof (Rabs_pos e). rewrite H. nra. }
    apply Q in Da, Db, Dc. unfold d2. assert (0 < / IZR m * / IZR m) by nra. lra.
  - intros p L rest PR HL. pose proof (lattice_nodup m Hm) as ND. assert (ND2 : NoDup (p :: L)).
    { apply (Permutation_NoDup PR) in ND. change (p :: L ++ rest) with ((p :: L) ++ rest) in ND. eapply nodup_app_l; eauto. }
    assert (IL : forall q, In q (p :: L) -> In q (lattice m)).
    { intros q Hq. eapply Permutation_in; [apply Permutation_sym; exact PR|]. destruct Hq as [<-|Hq]; [now left|right; apply in_or_app; now left]. }
    pose proof (IL p (or_introl eq_refl)) as Ip. apply in_lattice in Ip as (a & b & c & _ & _ & _ & Ep).
    set (O := list_prod (zrange (-1) 2) (list_prod (zrange (-1) 2) (zrange (-1) 2))).
    assert (I : incl (p :: L) (map (fun o => node m (a + fst o, (b + fst (snd o), c + snd (snd o)))%Z) O)).
    { intros q Hq. assert (Dq : d2 q p < 4 * (/ IZR m * / IZR m)). { destruct Hq as [<-|Hq]; [|now apply HL]. assert (d2 p p = 0) by (destruct p as [[u v] w]; unfold d2; ring). nra. }
      pose proof (IL q Hq) as Iq. apply in_lattice in Iq as (a' & b' & c' & _ & _ & _ & Eq). subst p q. unfold d2, node in Dq. cbn [fst snd] in Dq.
      assert (Df : forall u v, IZR (2 * u + 1) / IZR (2 * m) - IZR (2 * v + 1) / IZR (2 * m) = IZR (u - v) * / IZR m) by (intros u v; rewrite minus_IZR, !plus_IZR, !mult_IZR; field; lra).
      rewrite !Df in Dq.
      assert (S4 : ((a' - a) * (a' - a) + (b' - b) * (b' - b) + (c' - c) * (c' - c) < 4)%Z).
      { apply lt_IZR. rewrite !plus_IZR, !mult_IZR. set (x := IZR (a' - a)) in *. set (y := IZR (b' - b)) in *. set (z := IZR (c' - c)) in *. set (i := / IZR m) in *.
        assert (0 < i * i) by nra. apply (Rmult_lt_reg_r (i * i)); [assumption|]. lra. }
      assert (O1 : forall e f g, (e * e + f * f + g * g < 4 -> -1 <= e < 2)%Z) by (intros; nia).
      apply in_map_iff. exists (a' - a, (b' - b, c' - c))%Z. split; [cbn [fst snd]; do 2 f_equal; f_equal; lia|].
      unfold O. rewrite !in_prod_iff, !in_zrange. split; [|split]; [apply (O1 _ _ _ S4)|apply (O1 (b' - b) (a' - a) (c' - c))%Z; lia|apply (O1 (c' - c) (b' - b) (a' - a))%Z; lia]. }
    pose proof (NoDup_incl_length ND2 I) as LE. rewrite map_length in LE. change (List.length O) with 27%nat in LE. simpl in LE. unfold zlen. lia.
Qed.

(** a cell is done after the points next to it *)
Lemma lattice_few m : (1 <= m)%Z -> few_cuts (lattice m) 6.
Proof.
  intros Hm p B rest C PP [B1 B2] [NC HC]. assert (Pm : 1 <= IZR m) by (apply IZR_le; lia). set (h := / IZR m). assert (Ph : 0 < h) by (apply Rinv_0_lt_compat; lra).
  pose proof (lattice_nodup m Hm) as ND. apply (Permutation_NoDup PP) in ND. inversion ND as [|? ? Np ND']; subst. pose proof (nodup_app_l _ _ ND') as NB.
  assert (IL : forall q, In q (p :: B ++ rest) <-> In q (lattice m)). { intros q. split; apply Permutation_in; [now apply Permutation_sym|assumption]. }
  pose proof (proj1 (IL p) (or_introl eq_refl)) as Ip. apply in_lattice in Ip as (a & b & c & Ra & Rb & Rc & Ep).
  assert (EC : forall t, IZR (2 * t + 1) / IZR (2 * m) = (IZR t + 1 / 2) * h) by (intros t; unfold h; rewrite plus_IZR, !mult_IZR; field; lra).
  assert (DN : forall a' b' c', d2 (node m (a', (b', c'))) p = IZR ((a' - a) * (a' - a) + (b' - b) * (b' - b) + (c' - c) * (c' - c)) * (h * h)).
  { intros a' b' c'. rewrite Ep. unfold node, d2. cbn [fst snd]. rewrite !EC, !plus_IZR, !mult_IZR, !minus_IZR. ring. }
  set (Six := map (fun o => node m (a + fst o, (b + fst (snd o), c + snd (snd o)))%Z) [(1, (0, 0)); (-1, (0, 0)); (0, (1, 0)); (0, (-1, 0)); (0, (0, 1)); (0, (0, -1))]%Z).
  assert (HI : incl (map (spot B) C) Six).
  { intros q Hq. apply in_map_iff in Hq as (d & Eq & Hd). destruct (HC d Hd) as (q' & Eq' & x & Cx & Dx). rewrite (spot_some B d q' Eq') in Eq. subst q'.
    pose proof (znth_in _ _ _ Eq') as Iq. pose proof (proj1 (IL q) (or_intror (in_or_app _ _ _ (or_introl Iq)))) as Lq. apply in_lattice in Lq as (a' & b' & c' & Ra' & Rb' & Rc' & Eqn).
    set (e := (a' - a)%Z). set (f := (b' - b)%Z). set (g := (c' - c)%Z). destruct (Z_le_gt_dec (e * e + f * f + g * g) 1) as [S1|S2].
    - assert (CASE : ((e = 0 /\ f = 0 /\ g = 0) \/ In (e, (f, g)) [(1, (0, 0)); (-1, (0, 0)); (0, (1, 0)); (0, (-1, 0)); (0, (0, 1)); (0, (0, -1))])%Z).
      { clearbody e f g. assert (XX : (-1 <= e <= 1 /\ -1 <= f <= 1 /\ -1 <= g <= 1)%Z) by (clear - S1; nia). destruct XX as (X1 & X2 & X3).
        assert (Y1 : (e = -1 \/ e = 0 \/ e = 1)%Z) by lia. assert (Y2 : (f = -1 \/ f = 0 \/ f = 1)%Z) by lia. assert (Y3 : (g = -1 \/ g = 0 \/ g = 1)%Z) by lia.
        destruct Y1 as [->|[->| ->]], Y2 as [->|[->| ->]], Y3 as [->|[->| ->]]; try lia; simpl; auto 12. }
      destruct CASE as [(X1 & X2 & X3)|I].
      + exfalso. apply Np. apply in_or_app. left. rewrite Ep. unfold e, f, g in *. replace a with a' by lia. replace b with b' by lia. replace c with c' by lia. now rewrite <- Eqn.
      + unfold Six. apply in_map_iff. exists (e, (f, g)). split; [|assumption]. cbn [fst snd]. rewrite Eqn. unfold e, f, g. do 2 f_equal; [|f_equal]; lia.
    - exfalso. assert (D2 : 2 * (h * h) <= d2 q p). { rewrite Eqn, DN. apply Rmult_le_compat_r; [nra|]. apply IZR_le. unfold e, f, g in S2. lia. }
      assert (NEAR : forall a1 b1 c1, (0 <= a1 < m)%Z -> (0 <= b1 < m)%Z -> (0 <= c1 < m)%Z -> ((a1 - a) * (a1 - a) + (b1 - b) * (b1 - b) + (c1 - c) * (c1 - c) = 1)%Z -> d2 x p <= d2 x (node m (a1, (b1, c1)))).
      { intros a1 b1 c1 H1 H2 H3 H4. set (y := node m (a1, (b1, c1))). assert (Dy : d2 y p = h * h) by (unfold y; rewrite DN, H4; ring).
        assert (Iy : In y (p :: B ++ rest)) by (apply IL, in_lattice; exists a1, b1, c1; auto). assert (Hh : 0 < h * h) by nra.
        destruct Iy as [Q|Iy]; [right; now rewrite Q|]. apply in_app_or in Iy as [Iy|Iy]; [|specialize (B2 q y Iq Iy); lra].
        apply in_znth in Iy as (j & Hj & Ej). destruct (Z_le_gt_dec d j) as [L|L].
        - pose proof (znth_some _ _ _ Eq'). specialize (B1 d j q y ltac:(lia) Eq' Ej). lra.
        - apply Cx. apply znth_in with (i := j). rewrite <- (firstn_skipn (Z.to_nat d) B), znth_app1 in Ej; [exact Ej|]. unfold zlen in *. rewrite firstn_length. lia. }
      assert (Cx' := Cx). destruct Cx' as [Cu _]. destruct x as [[u v] w]. destruct Cu as (Hu & Hv & Hw).
      assert (M1 : IZR m * h = 1) by (unfold h; field; lra).
      (* the cell is a cube *)
      assert (AX : forall t y, (0 <= t < m)%Z -> 0 <= y <= 1 -> ((t + 1 < m)%Z -> (y - (IZR t + 1 / 2) * h) ^ 2 <= (y - (IZR t + 1 / 2) * h - h) ^ 2) -> ((0 <= t - 1)%Z -> (y - (IZR t + 1 / 2) * h) ^ 2 <= (y - (IZR t + 1 / 2) * h + h) ^ 2) ->
        - (1 / 2 * h) <= y - (IZR t + 1 / 2) * h <= 1 / 2 * h).
      { clear - Ph M1. intros t y Ht Hy U D. set (z := y - (IZR t + 1 / 2) * h) in *. split.
        - destruct (Z_le_gt_dec 0 (t - 1)) as [L|L]; [specialize (D L); nra|]. assert (t = 0)%Z by lia. subst t. unfold z. simpl (IZR 0). lra.
        - destruct (Z_lt_le_dec (t + 1) m) as [L|L]; [specialize (U L); nra|]. assert (t = m - 1)%Z by lia. subst t. unfold z. rewrite minus_IZR. lra. }
      rewrite Ep in NEAR. unfold node in NEAR. cbn [fst snd] in NEAR.
      assert (EC1 : forall t, (IZR (t + 1) + 1 / 2) * h = (IZR t + 1 / 2) * h + h) by (intros t; rewrite plus_IZR; ring).
      assert (EC2 : forall t, (IZR (t - 1) + 1 / 2) * h = (IZR t + 1 / 2) * h - h) by (intros t; rewrite minus_IZR; ring).
      assert (Au : - (1 / 2 * h) <= u - (IZR a + 1 / 2) * h <= 1 / 2 * h).
      { apply AX; auto; intros L; [specialize (NEAR (a + 1)%Z b c)|specialize (NEAR (a - 1)%Z b c)]; rewrite !EC in NEAR; [rewrite EC1 in NEAR|rewrite EC2 in NEAR]; unfold d2 in NEAR; specialize (NEAR ltac:(lia) Rb Rc ltac:(ring)); clear - NEAR; lra. }
      assert (Av : - (1 / 2 * h) <= v - (IZR b + 1 / 2) * h <= 1 / 2 * h).
      { apply AX; auto; intros L; [specialize (NEAR a (b + 1)%Z c)|specialize (NEAR a (b - 1)%Z c)]; rewrite !EC in NEAR; [rewrite EC1 in NEAR|rewrite EC2 in NEAR]; unfold d2 in NEAR; specialize (NEAR Ra ltac:(lia) Rc ltac:(ring)); clear - NEAR; lra. }
      assert (Aw : - (1 / 2 * h) <= w - (IZR c + 1 / 2) * h <= 1 / 2 * h).
      { apply AX; auto; intros L; [specialize (NEAR a b (c + 1)%Z)|specialize (NEAR a b (c - 1)%Z)]; rewrite !EC in NEAR; [rewrite EC1 in NEAR|rewrite EC2 in NEAR]; unfold d2 in NEAR; specialize (NEAR Ra Rb ltac:(lia) ltac:(ring)); clear - NEAR; lra. }
      assert (FAR : forall z k, - (1 / 2 * h) <= z <= 1 / 2 * h -> z ^ 2 <= (z - IZR k * h) ^ 2).
      { clear - Ph. intros z k Hz. assert (K : (k <= -1 \/ k = 0 \/ 1 <= k)%Z) by lia. destruct K as [K|[->|K]].
        - apply IZR_le in K. simpl (IZR (-1)) in K. assert (0 <= (- IZR k * h) * (- IZR k * h + 2 * z)) by (apply Rmult_le_pos; nra). nra.
        - simpl. lra.
        - apply IZR_le in K. simpl (IZR 1) in K. assert (0 <= (IZR k * h) * (IZR k * h - 2 * z)) by (apply Rmult_le_pos; nra). nra. }
      pose proof (FAR _ e Au) as F1. pose proof (FAR _ f Av) as F2. pose proof (FAR _ g Aw) as F3. unfold e, f, g in F1, F2, F3. rewrite minus_IZR in F1, F2, F3.
      rewrite Eqn, Ep in Dx. unfold d2, node in Dx. cbn [fst snd] in Dx. rewrite !EC in Dx.
      replace (u - (IZR a + 1 / 2) * h - (IZR a' - IZR a) * h) with (u - (IZR a' + 1 / 2) * h) in F1 by ring.
      replace (v - (IZR b + 1 / 2) * h - (IZR b' - IZR b) * h) with (v - (IZR b' + 1 / 2) * h) in F2 by ring.
      replace (w - (IZR c + 1 / 2) * h - (IZR c' - IZR c) * h) with (w - (IZR c' + 1 / 2) * h) in F3 by ring. lra. }
  assert (NM : NoDup (map (spot B) C)).
  { apply nodup_map; [|assumption]. intros d e Hd He Q. destruct (HC d Hd) as (q & Eq & _). destruct (HC e He) as (q' & Eq' & _). rewrite (spot_some B d q Eq), (spot_some B e q' Eq') in Q. subst q'.
    pose proof (znth_some _ _ _ Eq) as X. pose proof (znth_some _ _ _ Eq') as X'. unfold znth in *. apply Z2Nat.inj; try lia.
    apply (proj1 (NoDup_nth_error B) NB); [unfold zlen in X; lia|]. destruct (Z.leb_spec 0 d); [|lia]. destruct (Z.leb_spec 0 e); [|lia]. congruence. }
  pose proof (NoDup_incl_length NM HI) as L. rewrite map_length in L. simpl in L. unfold zlen. lia.
Qed.

Lemma lattice_both m : (1 <= m)%Z -> spread (lattice m) (/ IZR m) 26 /\ few_cuts (lattice m) 6.
Proof. intros Hm. split; [now apply lattice_spread|now apply lattice_few]. Qed.

(** ** calls *)
Section Calls.
Variable N : Arith.
Variable E : Exact N.
Notation valp := (valp N E).

Lemma in_cubes P0 : (forall q, In q P0 -> inside N E q) -> forall q, In q (map valp P0) -> in_cube q.
Proof. intros H q Hq. apply in_map_iff in Hq as (x & <- & Hx). assert (O : in_open_cube (valp x)) by now apply H. destruct (valp x) as [[u v] w]. simpl in *. lra. Qed.
Lemma crowd_exact w c P0 r M : api_ok N E c P0 -> spread (map valp P0) r M -> roomy c M -> (M <= c_k c)%Z -> exists o, tess_core N w c cpu P0 = Ok o /\ complete N E P0 o.
Proof. intros Ha Sp Ro HM. apply (api_spread N E w c P0 r M M); auto. apply (spread_few _ r); [apply in_cubes, Ha|assumption]. Qed.
Lemma lattice_len m : (0 <= m)%Z -> zlen (lattice m) = (m * m * m)%Z.
Proof.
  intros Hm. unfold lattice. rewrite zlen_map. unfold zlen. rewrite !prod_length, !Nat2Z.inj_mul. change (Z.of_nat (length (zrange 0 m))) with (zlen (zrange 0 m)). rewrite zlen_zrange by lia. ring.
Qed.
Lemma lattice_exact w c P0 m : (1 <= m)%Z -> api_ok N E c P0 -> Permutation (map valp P0) (lattice m) -> (26 <= c_k c)%Z -> (12 <= c_pmax c)%Z -> (20 <= c_tmax c)%Z ->
  exists o, tess_core N w c cpu P0 = Ok o /\ complete N E P0 o.
Proof.
  intros Hm Ha PP Hk Hp Ht. apply Permutation_sym in PP. apply (api_spread N E w c P0 (/ IZR m) 26 6); auto.
  - destruct (lattice_spread m Hm) as [Cv Cr]. split; [eapply covered_perm; eauto|eapply crowd_perm; eauto].
  - apply (few_perm _ _ 6 PP). now apply lattice_few.
  - split; lia.
Qed.
Lemma lattice_default w P0 m : (1 <= w_hwc N w)%Z -> (forall q, In q P0 -> inside N E q) -> (1 <= m <= 255)%Z -> Permutation (map valp P0) (lattice m) ->
  exists o, tesellate N w args_init cpu P0 = Ok o /\ complete N E P0 o.
Proof.
  intros Hw Hin Hm PP. assert (Ln : zlen P0 = (m * m * m)%Z). { rewrite <- lattice_len, <- (zlen_map valp P0) by lia. unfold zlen. now rewrite (Permutation_length PP). }
  assert (Hn : (1 <= m * m * m <= 255 * 255 * 255)%Z) by (assert (1 <= m * m <= 255 * 255)%Z by (clear - Hm; nia); clear - Hm H; nia). rewrite <- Ln in Hn.
  destruct (api_reads [] ltac:(constructor)) as (a & A & T). injection A as <-. rewrite T. apply (lattice_exact w _ P0 m); [lia| |assumption|vm_compute; discriminate..].
  unfold api_cfg, int_of, bool_of. cbn [last_value fold_left Z.eqb].
  unfold api_ok, SpecParam.cfg_ok, SpecParam.fits, SpecParam.chunk_of. cbn [c_k c_gr c_pmax c_tmax c_recompute c_nthreads c_use_chunking].
  split; [lia|]. split; [lia|]. split; [unfold int_max; lia|]. split; [assumption|]. split; [reflexivity|]. split; [assumption|].
  assert (F : (0 <= first_subsize (zlen P0 + 1) (zlen P0) <= zlen P0)%Z). { unfold first_subsize, chunked. destruct (Z.ltb_spec (zlen P0 + 1) (zlen P0)); [lia|]. rewrite andb_false_r. lia. }
  unfold int_max. split; [|lia]. split; [lia|]. split; [lia|]. split; lia.
Qed.
End Calls.
