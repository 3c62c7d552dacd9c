(** Points in robust position: cells that touch share a face. *)
From Verif Require Import Base PBase SpecGeom SpecNear SpecVor SpecRows SpecRobust.
From Coq Require Import Reals Lra Psatz Classical.
Import SpecGeom.
Local Open Scope R_scope.

Definition nu (h : pl) (u : pt) : R := let '(a, b, c, _) := h in let '(u1, u2, u3) := u in a * u1 + b * u2 + c * u3.
Definition go (x : pt) (t : R) (u : pt) : pt := let '(x1, x2, x3) := x in let '(u1, u2, u3) := u in (x1 + t * u1, x2 + t * u2, x3 + t * u3).
Lemma ev_go h x t u : ev h (go x t u) = ev h x + t * nu h u.
Proof. destruct h as [[[a b] c] d], x as [[x1 x2] x3], u as [[u1 u2] u3]. unfold ev, go, nu. ring. Qed.
Lemma go_go x t u w : go x t (go u w (0, 0, 0)) = go x t u.
Proof. destruct x as [[x1 x2] x3], u as [[u1 u2] u3]. unfold go. f_equal; [f_equal|]; ring. Qed.
Lemma nu_go h u t w : nu h (go u t w) = nu h u + t * nu h w.
Proof. destruct h as [[[a b] c] d], u as [[x1 x2] x3], w as [[u1 u2] u3]. unfold go, nu. ring. Qed.

(** a list of half spaces 0 <= s * ev h *)
Definition feas (H : list (R * pl)) (x : pt) : Prop := forall s h, In (s, h) H -> 0 <= s * ev h x.

Lemma seg e d t t' : 0 <= e -> 0 <= e + t * d -> 0 <= t' <= t -> 0 <= e + t' * d.
Proof. intros E1 E2 [T1 T2]. destruct (Rle_lt_dec 0 d) as [D|D]; [pose proof (Rmult_le_pos t' d T1 D); lra|]. pose proof (Rmult_le_compat_r (- d) t' t ltac:(lra) T2). lra. Qed.

Lemma ratio a d : d < 0 -> a + a / - d * d = 0.
Proof. intros. field. lra. Qed.

(** along u, which keeps the active walls active, to the first wall that ends it *)
Lemma first_wall H v u : feas H v -> (forall s h, In (s, h) H -> ev h v = 0 -> nu h u = 0) ->
  (forall s h, In (s, h) H -> 0 <= s * nu h u) \/
  exists t, 0 <= t /\ feas H (go v t u) /\ exists s h, In (s, h) H /\ ev h (go v t u) = 0 /\ nu h u <> 0.
Proof.
  induction H as [|[s h] H IH]; intros F Ac; [left; intros ? ? []|].
  destruct IH as [NB|(t & T0 & FT & sb & hb & Ib & Eb & Nb)]; [intros ? ? ?; apply F; now right|intros ? ? ?; eapply Ac; right; eassumption| |].
  - destruct (Rle_lt_dec 0 (s * nu h u)) as [D|D]; [left; intros s' h' [E|I]; [injection E as <- <-; exact D|eauto]|right].
    pose proof (F s h (or_introl eq_refl)) as E0. set (t := s * ev h v / - (s * nu h u)).
    assert (T0 : 0 <= t) by (apply Rmult_le_pos; [exact E0|left; apply Rinv_0_lt_compat; lra]).
    assert (ET : s * (ev h v + t * nu h u) = 0) by (rewrite <- (ratio (s * ev h v) (s * nu h u) D); unfold t; ring).
    exists t. split; [exact T0|]. split.
    + intros s' h' [E|I]; rewrite ev_go; [injection E as <- <-; lra|]. pose proof (F s' h' (or_intror I)). pose proof (NB s' h' I). pose proof (Rmult_le_pos t (s' * nu h' u) T0 ltac:(assumption)). lra.
    + exists s, h. split; [now left|]. rewrite ev_go. assert (s <> 0) by (intros ->; lra). split; [apply Rmult_eq_reg_l with s; lra|]. intros Z. rewrite Z in D. lra.
  - right. pose proof (F s h (or_introl eq_refl)) as E0. destruct (Rle_lt_dec 0 (s * ev h (go v t u))) as [G|G].
    + exists t. split; [exact T0|]. split; [intros s' h' [E|I]; [injection E as <- <-; exact G|now apply FT]|]. exists sb, hb. split; [now right|auto].
    + rewrite ev_go in G. assert (D : s * nu h u < 0). { destruct (Rle_lt_dec 0 (s * nu h u)) as [D|D]; [|exact D]. pose proof (Rmult_le_pos t (s * nu h u) T0 D). lra. }
      set (t1 := s * ev h v / - (s * nu h u)).
      assert (T1 : 0 <= t1) by (apply Rmult_le_pos; [exact E0|left; apply Rinv_0_lt_compat; lra]).
      assert (ET : s * (ev h v + t1 * nu h u) = 0) by (rewrite <- (ratio (s * ev h v) (s * nu h u) D); unfold t1; ring).
      assert (T2 : t1 <= t). { destruct (Rle_lt_dec t1 t) as [L|L]; [exact L|]. exfalso. pose proof (Rmult_lt_compat_r (- (s * nu h u)) t t1 ltac:(lra) L). lra. }
      exists t1. split; [exact T1|]. split.
      * intros s' h' [E|I]; rewrite ev_go; [injection E as <- <-; lra|]. pose proof (F s' h' (or_intror I)) as A1. pose proof (FT s' h' I) as A2. rewrite ev_go in A2.
        replace (s' * (ev h' v + t1 * nu h' u)) with (s' * ev h' v + t1 * (s' * nu h' u)) by ring. apply (seg _ _ t); lra.
      * exists s, h. split; [now left|]. rewrite ev_go. assert (s <> 0) by (intros ->; lra). split; [apply Rmult_eq_reg_l with s; lra|]. intros Z. rewrite Z in D. lra.
Qed.

(** the cube is bounded *)
Definition boxed (H : list (R * pl)) : Prop := forall h, In h cube_faces -> In (1, h) H.
Lemma move H v u : boxed H -> feas H v -> (forall s h, In (s, h) H -> ev h v = 0 -> nu h u = 0) -> u <> (0, 0, 0) ->
  exists v', feas H v' /\ (forall h, nu h u = 0 -> ev h v = 0 -> ev h v' = 0) /\ exists s h, In (s, h) H /\ ev h v' = 0 /\ nu h u <> 0.
Proof.
  intros B F Ac Nu. destruct (first_wall H v u F Ac) as [NB|(t & T0 & FT & s & h & I & E & Nh)].
  - exfalso. apply Nu. destruct u as [[u1 u2] u3].
    assert (Q : forall h, In h cube_faces -> 0 <= nu h (u1, u2, u3)) by (intros h Ih; pose proof (NB 1 h (B h Ih)); lra).
    pose proof (Q (1, 0, 0, 0) ltac:(simpl; tauto)) as A1. pose proof (Q (-1, 0, 0, 1) ltac:(simpl; tauto)) as A2. pose proof (Q (0, 1, 0, 0) ltac:(simpl; tauto)) as A3.
    pose proof (Q (0, -1, 0, 1) ltac:(simpl; tauto)) as A4. pose proof (Q (0, 0, 1, 0) ltac:(simpl; tauto)) as A5. pose proof (Q (0, 0, -1, 1) ltac:(simpl; tauto)) as A6.
    unfold nu in *. f_equal; [f_equal|]; lra.
  - exists (go v t u). split; [exact FT|]. split; [|exists s, h; auto]. intros h' N' E'. rewrite ev_go, N', E'. ring.
Qed.

Definition cross (h1 h2 : pl) : pt := let '(a1, b1, c1, _) := h1 in let '(a2, b2, c2, _) := h2 in (b1 * c2 - c1 * b2, c1 * a2 - a1 * c2, a1 * b2 - b1 * a2).
Lemma det_cross h1 h2 h3 : det3 h1 h2 h3 = nu h3 (cross h1 h2).
Proof. destruct h1 as [[[? ?] ?] ?], h2 as [[[? ?] ?] ?], h3 as [[[? ?] ?] ?]. unfold det3, nu, cross. ring. Qed.
Lemma cross_1 h1 h2 : nu h1 (cross h1 h2) = 0.
Proof. destruct h1 as [[[? ?] ?] ?], h2 as [[[? ?] ?] ?]. unfold nu, cross. ring. Qed.
Lemma cross_2 h1 h2 : nu h2 (cross h1 h2) = 0.
Proof. destruct h1 as [[[? ?] ?] ?], h2 as [[[? ?] ?] ?]. unfold nu, cross. ring. Qed.
Definition normal (h : pl) : pt := let '(a, b, c, _) := h in (a, b, c).

Lemma pt_dec (u v : pt) : u = v \/ u <> v.
Proof. apply classic. Qed.

(** a vector across n, and what is parallel to n is across it too *)
Lemma across h : normal h <> (0, 0, 0) -> exists u, u <> (0, 0, 0) /\ nu h u = 0 /\ forall g, cross h g = (0, 0, 0) -> nu g u = 0.
Proof.
  destruct h as [[[a b] c] d]. unfold normal. intros N.
  assert (C : (a <> 0 \/ b <> 0) \/ (a = 0 /\ b = 0 /\ c <> 0)).
  { destruct (Req_dec a 0) as [->|]; [|auto]. destruct (Req_dec b 0) as [->|]; [|auto]. destruct (Req_dec c 0) as [->|]; [|auto]. now elim N. }
  destruct C as [C|(-> & -> & C)].
  - exists (b, - a, 0). split; [intros E; injection E as E1 E2; destruct C; lra|]. unfold nu. split; [ring|]. intros [[[g1 g2] g3] g4] E. unfold cross in E. injection E as E1 E2 E3. lra.
  - exists (1, 0, 0). split; [intros E; injection E as E1; lra|]. unfold nu. split; [ring|]. intros [[[g1 g2] g3] g4] E. unfold cross in E. injection E as E1 E2 E3.
    replace (g1 * 1 + g2 * 0 + g3 * 0) with g1 by ring. apply Rmult_eq_reg_l with c; lra.
Qed.

(** from any point to a corner, keeping the active walls *)
Lemma to_corner H v : boxed H -> feas H v -> exists v', feas H v' /\ (forall h, (exists s, In (s, h) H) -> ev h v = 0 -> ev h v' = 0) /\
  exists h1 h2 h3, (exists s, In (s, h1) H) /\ (exists s, In (s, h2) H) /\ (exists s, In (s, h3) H) /\ det3 h1 h2 h3 <> 0 /\ ev h1 v' = 0 /\ ev h2 v' = 0 /\ ev h3 v' = 0.
Proof.
  intros B F.
  assert (S1 : exists v1, feas H v1 /\ (forall h, (exists s, In (s, h) H) -> ev h v = 0 -> ev h v1 = 0) /\ exists h1, (exists s, In (s, h1) H) /\ normal h1 <> (0, 0, 0) /\ ev h1 v1 = 0).
  { destruct (classic (exists h, (exists s, In (s, h) H) /\ normal h <> (0, 0, 0) /\ ev h v = 0)) as [(h & X)|N]; [exists v; split; [exact F|]; split; [auto|]; exists h; exact X|].
    assert (Z : forall s h, In (s, h) H -> ev h v = 0 -> nu h (1, 0, 0) = 0).
    { intros s h I E. destruct (classic (normal h = (0, 0, 0))) as [Z|Z]; [|exfalso; apply N; exists h; split; [eauto|split; assumption]]. destruct h as [[[a b] c] d]. injection Z as -> -> ->. unfold nu. ring. }
    destruct (move H v (1, 0, 0) B F Z) as (v1 & F1 & K1 & s & h & I & E & Nh); [intros E; injection E as E1; lra|].
    exists v1. split; [exact F1|]. split; [intros h' [s' I'] E'; apply K1; [eapply Z; eauto|exact E']|]. exists h. split; [eauto|]. split; [|exact E].
    intros Z'. apply Nh. destruct h as [[[a b] c] d]. injection Z' as -> -> ->. unfold nu. ring. }
  destruct S1 as (v1 & F1 & K1 & h1 & I1 & N1 & E1).
  assert (S2 : exists v2, feas H v2 /\ (forall h, (exists s, In (s, h) H) -> ev h v1 = 0 -> ev h v2 = 0) /\ exists h2, (exists s, In (s, h2) H) /\ cross h1 h2 <> (0, 0, 0) /\ ev h2 v2 = 0).
  { destruct (classic (exists h, (exists s, In (s, h) H) /\ cross h1 h <> (0, 0, 0) /\ ev h v1 = 0)) as [(h & X)|N]; [exists v1; split; [exact F1|]; split; [auto|]; exists h; exact X|].
    destruct (across h1 N1) as (u & Nu & U1 & U2).
    assert (Z : forall s h, In (s, h) H -> ev h v1 = 0 -> nu h u = 0).
    { intros s h I E. apply U2. destruct (classic (cross h1 h = (0, 0, 0))) as [Z|Z]; [exact Z|]. exfalso. apply N. exists h. split; [eauto|auto]. }
    destruct (move H v1 u B F1 Z Nu) as (v2 & F2 & K2 & s & h & I & E & Nh).
    exists v2. split; [exact F2|]. split; [intros h' [s' I'] E'; apply K2; [eapply Z; eauto|exact E']|]. exists h. split; [eauto|]. split; [|exact E]. intros Z'. apply Nh. now apply U2. }
  destruct S2 as (v2 & F2 & K2 & h2 & I2 & N2 & E2). set (u := cross h1 h2) in *.
  assert (S3 : exists v3, feas H v3 /\ (forall h, (exists s, In (s, h) H) -> ev h v2 = 0 -> ev h v3 = 0) /\ exists h3, (exists s, In (s, h3) H) /\ nu h3 u <> 0 /\ ev h3 v3 = 0).
  { destruct (classic (exists h, (exists s, In (s, h) H) /\ nu h u <> 0 /\ ev h v2 = 0)) as [(h & X)|N]; [exists v2; split; [exact F2|]; split; [auto|]; exists h; exact X|].
    assert (Z : forall s h, In (s, h) H -> ev h v2 = 0 -> nu h u = 0).
    { intros s h I E. destruct (classic (nu h u = 0)) as [Z|Z]; [exact Z|]. exfalso. apply N. exists h. split; [eauto|auto]. }
    destruct (move H v2 u B F2 Z N2) as (v3 & F3 & K3 & s & h & I & E & Nh).
    exists v3. split; [exact F3|]. split; [intros h' [s' I'] E'; apply K3; [eapply Z; eauto|exact E']|]. exists h. split; [eauto|auto]. }
  destruct S3 as (v3 & F3 & K3 & h3 & I3 & N3 & E3). exists v3. split; [exact F3|]. split; [auto|]. exists h1, h2, h3. rewrite det_cross. fold u. repeat (split; [assumption|]). auto.
Qed.

Lemma bis_d2 p q y : ev (bisector p q) y = (d2 y p - d2 y q) / 2.
Proof. destruct p as [[p1 p2] p3], q as [[q1 q2] q3], y as [[y1 y2] y3]. unfold ev, bisector, d2. field. Qed.

(** small steps keep what is strictly negative, or zero and falling *)
Lemma small (L : list (R * R)) : (forall e d, In (e, d) L -> e < 0 \/ e = 0 /\ d < 0) -> exists t0, 0 < t0 /\ forall t, 0 < t <= t0 -> forall e d, In (e, d) L -> e + t * d < 0.
Proof.
  induction L as [|[e d] L IH]; intros H; [exists 1; split; [lra|]; intros ? _ ? ? []|].
  destruct IH as (t0 & T0 & Q); [intros; apply H; now right|].
  assert (X : exists t1, 0 < t1 /\ forall t, 0 < t <= t1 -> e + t * d < 0).
  { destruct (H e d (or_introl eq_refl)) as [E|[-> D]].
    - destruct (Rle_lt_dec d 0) as [D|D]; [exists 1; split; [lra|]; intros t Ht; pose proof (Rmult_le_pos t (- d) ltac:(lra) ltac:(lra)); lra|].
      exists (- e / (2 * d)). split; [apply Rmult_lt_0_compat; [lra|apply Rinv_0_lt_compat; lra]|]. intros t [T1 T2]. pose proof (Rmult_le_compat_r d _ _ ltac:(lra) T2) as M. replace (- e / (2 * d) * d) with (- e / 2) in M by (field; lra). lra.
    - exists 1. split; [lra|]. intros t Ht. pose proof (Rmult_lt_0_compat t (- d) ltac:(lra) ltac:(lra)). lra. }
  destruct X as (t1 & T1 & Q1). exists (Rmin t0 t1). split; [now apply Rmin_glb_lt|]. intros t [A B] e' d' [E|I].
  - injection E as <- <-. apply Q1. pose proof (Rmin_r t0 t1). lra.
  - apply Q; [|exact I]. pose proof (Rmin_l t0 t1). lra.
Qed.

Section R.
Variables (S : list pt) (i : Z) (rho : R) (p : pt).
Hypothesis Hp : znth S i = Some p.
Hypothesis HR : robust S i rho.

Definition bis (a : Z) : pl := match znth S a with Some q => bisector p q | None => (0, 0, 0, 0) end.
Definition dst (a : Z) : R := match znth S a with Some q => sqrt (d2 p q) | None => 0 end.
Definition before (z a : Z) : bool := (negb (a =? i)%Z && negb (a =? z)%Z && if Rle_dec (dst a) (dst z) then true else false)%bool.
Definition earlier (z : Z) : list Z := filter (before z) (zrange 0 (zlen S)).
Definition cellx (x : pt) : Prop := in_cube x /\ forall a, others (zlen S) i a -> ev (bis a) x <= 0.

Lemma bis_some a q : znth S a = Some q -> bis a = bisector p q.
Proof. intros E. unfold bis. now rewrite E. Qed.
Lemma in_earlier z a : In a (earlier z) <-> others (zlen S) i a /\ a <> z /\ dst a <= dst z.
Proof.
  unfold earlier, before, others. rewrite filter_In, in_zrange. destruct (Z.eqb_spec a i), (Z.eqb_spec a z), (Rle_dec (dst a) (dst z)); simpl; intuition (try congruence; try lia).
Qed.
Lemma earlier_near z : others (zlen S) i z -> nearest_set eps20 S i (fun a => In a (earlier z)).
Proof.
  intros Hz. split; [intros j Hj; now apply in_earlier in Hj|]. intros a b p0 q q' Ha Hb Nb E0 E1 E2. rewrite Hp in E0. injection E0 as <-. apply in_earlier in Ha as (_ & _ & Da).
  assert (Db : dst z <= dst b). { destruct (Z.eq_dec b z) as [->|N]; [lra|]. destruct (Rle_lt_dec (dst b) (dst z)) as [L|L]; [|lra]. exfalso. apply Nb, in_earlier. auto. }
  unfold dst in Da, Db. rewrite E1 in Da. rewrite E2 in Db. unfold eps20. lra.
Qed.
Lemma cube_ev x : in_cube x -> forall h, In h cube_faces -> 0 <= ev h x.
Proof. destruct x as [[a b] c]. intros C h H. unfold in_cube in C. simpl in H. unfold ev. destruct H as [<-|[<-|[<-|[<-|[<-|[<-|[]]]]]]]; lra. Qed.
Lemma ev_cube x : (forall h, In h cube_faces -> 0 <= ev h x) -> in_cube x.
Proof.
  destruct x as [[a b] c]. intros Q. pose proof (Q (1, 0, 0, 0) ltac:(simpl; tauto)) as A1. pose proof (Q (-1, 0, 0, 1) ltac:(simpl; tauto)) as A2. pose proof (Q (0, 1, 0, 0) ltac:(simpl; tauto)) as A3.
  pose proof (Q (0, -1, 0, 1) ltac:(simpl; tauto)) as A4. pose proof (Q (0, 0, 1, 0) ltac:(simpl; tauto)) as A5. pose proof (Q (0, 0, -1, 1) ltac:(simpl; tauto)) as A6. unfold ev in *. unfold in_cube. lra.
Qed.
Lemma len_pos h : normal h <> (0, 0, 0) -> 0 < len h.
Proof.
  destruct h as [[[a b] c] d]. unfold normal, len. intros N. apply sqrt_lt_R0. pose proof (Rle_0_sqr a) as A. pose proof (Rle_0_sqr b) as B. pose proof (Rle_0_sqr c) as C. unfold Rsqr in *.
  destruct (Rle_lt_dec (a * a + b * b + c * c) 0) as [L|L]; [|exact L]. exfalso. apply N. f_equal; [f_equal|]; apply Rsqr_0_uniq; unfold Rsqr; lra.
Qed.
Lemma det_normals h1 h2 h3 : det3 h1 h2 h3 <> 0 -> normal h1 <> (0, 0, 0) /\ normal h2 <> (0, 0, 0) /\ normal h3 <> (0, 0, 0).
Proof.
  destruct h1 as [[[a1 b1] c1] d1], h2 as [[[a2 b2] c2] d2], h3 as [[[a3 b3] c3] d3]. unfold normal, det3. intros D. repeat split; intros E; injection E as -> -> ->; apply D; ring.
Qed.
Lemma bis_len z q : others (zlen S) i z -> znth S z = Some q -> 0 < len (bisector p q).
Proof.
  intros Hz Eq. destruct HR as (R0 & R1 & _). pose proof (R1 z p q Hz Hp Eq) as D. replace (len (bisector p q)) with (sqrt (d2 p q)); [lra|].
  destruct p as [[p1 p2] p3], q as [[q1 q2] q3]. unfold len, bisector, d2. f_equal. ring.
Qed.

(** the plane of a point is independent of the active walls that come before it *)
Lemma independent x z : cellx x -> others (zlen S) i z -> ev (bis z) x = 0 ->
  exists w, (forall h, In h cube_faces -> ev h x = 0 -> nu h w = 0) /\ (forall a, In a (earlier z) -> ev (bis a) x = 0 -> nu (bis a) w = 0) /\ nu (bis z) w <> 0.
Proof.
  intros [Cx Px] Hz Ez. apply NNPP. intros N.
  assert (SP : forall w, (forall h, In h cube_faces -> ev h x = 0 -> nu h w = 0) -> (forall a, In a (earlier z) -> ev (bis a) x = 0 -> nu (bis a) w = 0) -> nu (bis z) w = 0).
  { intros w W1 W2. apply NNPP. intros W3. apply N. exists w. auto. }
  set (H := map (fun h => (1, h)) cube_faces ++ map (fun a => (-1, bis a)) (earlier z)).
  assert (IH : forall s h, In (s, h) H <-> (s = 1 /\ In h cube_faces) \/ (s = -1 /\ exists a, In a (earlier z) /\ h = bis a)).
  { intros s h. unfold H. rewrite in_app_iff, !in_map_iff. split.
    - intros [(h' & E & I)|(a & E & I)]; injection E as <- <-; [left; auto|right; eauto].
    - intros [(-> & I)|(-> & a & I & ->)]; [left; eauto|right; eauto]. }
  assert (B : boxed H) by (intros h Ih; apply IH; auto).
  assert (F : feas H x).
  { intros s h I. apply IH in I as [(-> & I)|(-> & a & I & ->)]; [pose proof (cube_ev x Cx h I); lra|]. apply in_earlier in I as (Oa & _). specialize (Px a Oa). lra. }
  destruct (to_corner H x B F) as (v & Fv & Kv & h1 & h2 & h3 & I1 & I2 & I3 & D & E1 & E2 & E3).
  assert (WALL : forall h, (exists s, In (s, h) H) -> wall S (fun a => In a (earlier z)) p h).
  { intros h [s I]. apply IH in I as [(_ & I)|(_ & a & I & ->)]; [now left|]. right. pose proof I as I'. apply in_earlier in I' as ((Ra & _) & _). destruct (znth_in_range S a Ra) as [q Eq]. exists a, q. split; [exact I|]. split; [exact Eq|now apply bis_some]. }
  set (u := go v (-1) x). assert (GO : v = go x 1 u) by (unfold u; destruct v as [[v1 v2] v3], x as [[x1 x2] x3]; unfold go; f_equal; [f_equal|]; ring).
  assert (NU : forall h, (exists s, In (s, h) H) -> ev h x = 0 -> nu h u = 0).
  { intros h Ih Eh. pose proof (Kv h Ih Eh) as E'. rewrite GO, ev_go in E'. lra. }
  assert (EZ : ev (bis z) v = 0).
  { rewrite GO, ev_go, Ez, SP; [ring| |].
    - intros h Ih. apply NU. exists 1. apply IH. auto.
    - intros a Ia. apply NU. exists (-1). apply IH. eauto. }
  destruct Hz as [Rz Nz]. destruct (znth_in_range S z Rz) as [q Eq]. assert (Oz : others (zlen S) i z) by (split; assumption).
  assert (CO : corner S (fun a => In a (earlier z)) p h1 h2 h3 v).
  { split; [auto|]. split; [exact D|]. split; [auto|]. split; [apply ev_cube; intros h Ih; assert (J : In (1, h) H) by (apply IH; auto); pose proof (Fv 1 h J); lra|].
    intros a qa Ia Ea. assert (J : In (-1, bis a) H) by (apply IH; right; eauto). pose proof (Fv _ _ J) as L. rewrite (bis_some a qa Ea), bis_d2 in L. lra. }
  destruct HR as (R0 & _ & R2). pose proof (R2 _ z p q h1 h2 h3 v (earlier_near z Oz) Oz ltac:(intros X; apply in_earlier in X; tauto) Hp Eq CO) as M.
  rewrite (bis_some z q Eq) in EZ. rewrite EZ, Rabs_R0, !Rmult_0_l in M. destruct (det_normals _ _ _ D) as (L1 & L2 & L3). apply len_pos in L1. apply len_pos in L2. apply len_pos in L3. pose proof (bis_len z q Oz Eq) as L4.
  pose proof (Rmult_lt_0_compat _ _ (Rmult_lt_0_compat _ _ L1 L2) L3) as L5. pose proof (Rmult_lt_0_compat _ _ L5 L4). lra.
Qed.

Lemma argmax (J : list Z) : J <> [] -> exists z, In z J /\ forall a, In a J -> dst a <= dst z.
Proof.
  induction J as [|b J IH]; [congruence|]. intros _. destruct J as [|b' J]; [exists b; split; [now left|]; intros a [<-|[]]; lra|].
  destruct IH as (z & Iz & M); [discriminate|]. destruct (Rle_lt_dec (dst b) (dst z)) as [L|L].
  - exists z. split; [now right|]. intros a [<-|I]; auto.
  - exists b. split; [now left|]. intros a [<-|I]; [lra|]. specialize (M a I). lra.
Qed.

(** so all values along the active planes can be prescribed *)
Lemma prescribe x (c : Z -> R) : cellx x -> forall m J, List.length J = m -> NoDup J -> (forall a, In a J -> others (zlen S) i a /\ ev (bis a) x = 0) ->
  exists u, (forall h, In h cube_faces -> ev h x = 0 -> nu h u = 1) /\ forall a, In a J -> nu (bis a) u = c a.
Proof.
  intros Cx. induction m as [|m IH]; intros J Lj Nd Ha.
  - destruct J; [|discriminate]. destruct x as [[x1 x2] x3].
    set (f := fun y : R => if Req_EM_T y 0 then 1 else if Req_EM_T y 1 then -1 else 0).
    assert (F0 : forall y, y = 0 -> f y = 1) by (intros y ->; unfold f; destruct (Req_EM_T 0 0); [reflexivity|lra]).
    assert (F1 : forall y, y = 1 -> f y = -1) by (intros y ->; unfold f; destruct (Req_EM_T 1 0); [lra|]; destruct (Req_EM_T 1 1); [reflexivity|lra]).
    exists (f x1, f x2, f x3). split; [|intros a []]. intros h Ih E. simpl in Ih. unfold ev in E. unfold nu.
    destruct Ih as [<-|[<-|[<-|[<-|[<-|[<-|[]]]]]]]; [rewrite (F0 x1)|rewrite (F1 x1)|rewrite (F0 x2)|rewrite (F1 x2)|rewrite (F0 x3)|rewrite (F1 x3)]; lra.
  - destruct (argmax J) as (z & Iz & M); [intros ->; discriminate|]. destruct (in_split z J Iz) as (l1 & l2 & ->). apply NoDup_remove in Nd as [Nd Nz].
    destruct (IH (l1 ++ l2)) as (u' & U1 & U2).
    { rewrite app_length in *. simpl in Lj. lia. }
    { exact Nd. }
    { intros a I. apply Ha. apply in_or_app. apply in_app_or in I. simpl. tauto. }
    destruct (Ha z Iz) as [Oz Ez]. destruct (independent x z Cx Oz Ez) as (w & W1 & W2 & W3).
    set (t := (c z - nu (bis z) u') / nu (bis z) w). exists (go u' t w). split.
    + intros h Ih Eh. rewrite nu_go, (U1 h Ih Eh), (W1 h Ih Eh). ring.
    + intros a Ia. rewrite nu_go. destruct (Z.eq_dec a z) as [->|Na]; [unfold t; field; exact W3|].
      assert (I' : In a (l1 ++ l2)) by (apply in_app_or in Ia; apply in_or_app; simpl in Ia; intuition congruence).
      rewrite (U2 a I'), W2; [ring| |now apply Ha]. apply in_earlier. split; [now apply Ha|]. split; [exact Na|now apply M].
Qed.

Lemma robust_face j q x : others (zlen S) i j -> znth S j = Some q -> touches S p q x -> face S i j.
Proof.
  intros Oj Eq (Cx & E & T).
  assert (CX : cellx x).
  { split; [exact Cx|]. intros a [Ra _]. destruct (znth_in_range S a Ra) as [r Er]. rewrite (bis_some a r Er), bis_d2. pose proof (T r (znth_in _ _ _ Er)). lra. }
  set (act := fun a => (negb (a =? i)%Z && if Req_EM_T (ev (bis a) x) 0 then true else false)%bool).
  set (J := filter act (zrange 0 (zlen S))).
  assert (IJ : forall a, In a J <-> others (zlen S) i a /\ ev (bis a) x = 0).
  { intros a. unfold J, act, others. rewrite filter_In, in_zrange. destruct (Z.eqb_spec a i), (Req_EM_T (ev (bis a) x) 0); simpl; intuition (try congruence; try lia). }
  destruct (prescribe x (fun a => if (a =? j)%Z then 0 else -1) CX (List.length J) J eq_refl) as (u & U1 & U2); [apply NoDup_filter, NoDup_zrange|intros a Ia; now apply IJ|].
  assert (Aj : ev (bis j) x = 0) by (rewrite (bis_some j q Eq), bis_d2; lra).
  set (L := map (fun h => (- ev h x, - nu h u)) cube_faces ++ map (fun a => (ev (bis a) x, nu (bis a) u)) (filter (fun a => negb (a =? i)%Z && negb (a =? j)%Z)%bool (zrange 0 (zlen S)))).
  destruct (small L) as (t & T0 & Q).
  { intros e d I. unfold L in I. apply in_app_or in I as [I|I]; apply in_map_iff in I.
    - destruct I as (h & E' & I). injection E' as <- <-. destruct (Req_dec (ev h x) 0) as [Z|Z]; [right; rewrite (U1 h I Z); lra|]. left. pose proof (cube_ev x Cx h I). lra.
    - destruct I as (a & E' & I). injection E' as <- <-. apply filter_In in I as [I N]. apply in_zrange in I. apply andb_true_iff in N as [N1 N2]. apply negb_true_iff, Z.eqb_neq in N1. apply negb_true_iff in N2.
      assert (Oa : others (zlen S) i a) by (split; assumption). destruct (Req_dec (ev (bis a) x) 0) as [Z|Z].
      + right. rewrite (U2 a) by (apply IJ; auto). rewrite N2. lra.
      + left. destruct CX as [_ CX]. specialize (CX a Oa). lra. }
  specialize (Q t ltac:(lra)). exists p, q, (go x t u). split; [exact Hp|]. split; [exact Eq|]. split; [|split].
  - assert (QC : forall h, In h cube_faces -> 0 < ev h (go x t u)).
    { intros h Ih. assert (I : In (- ev h x, - nu h u) L) by (unfold L; apply in_or_app; left; apply in_map_iff; eauto). specialize (Q _ _ I). rewrite ev_go. lra. }
    destruct (go x t u) as [[a b] c]. pose proof (QC (1, 0, 0, 0) ltac:(simpl; tauto)) as A1. pose proof (QC (-1, 0, 0, 1) ltac:(simpl; tauto)) as A2. pose proof (QC (0, 1, 0, 0) ltac:(simpl; tauto)) as A3.
    pose proof (QC (0, -1, 0, 1) ltac:(simpl; tauto)) as A4. pose proof (QC (0, 0, 1, 0) ltac:(simpl; tauto)) as A5. pose proof (QC (0, 0, -1, 1) ltac:(simpl; tauto)) as A6. unfold ev in *. unfold in_open_cube. lra.
  - assert (E' : ev (bis j) (go x t u) = 0) by (rewrite ev_go, Aj, (U2 j) by (apply IJ; auto); rewrite Z.eqb_refl; ring). rewrite (bis_some j q Eq), bis_d2 in E'. lra.
  - intros l r Er Ni Nj. pose proof (znth_some _ _ _ Er) as Rl. assert (I : In (ev (bis l) x, nu (bis l) u) L).
    { unfold L. apply in_or_app. right. apply in_map_iff. exists l. split; [reflexivity|]. apply filter_In. rewrite in_zrange. split; [exact Rl|]. apply andb_true_iff. split; apply negb_true_iff, Z.eqb_neq; assumption. }
    specialize (Q _ _ I). rewrite <- ev_go, (bis_some l r Er), bis_d2 in Q. lra.
Qed.
End R.
