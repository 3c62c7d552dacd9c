(** Error propagation in real numbers: products, sums, cross products, determinants
    and the corner of three planes, for rounding with relative error u. *)
From Verif Require Import Base.
From Coq Require Import Reals Lra Psatz.
Local Open Scope R_scope.

Notation u := (/ 16777216)%R.
(** 2^-72, covers underflow *)
Notation e0 := (/ 4722366482869645213696)%R.
(** r is v rounded *)
Definition fl (r v : R) : Prop := Rabs (r - v) <= u * Rabs v + e0.

Lemma abs_bnd x e : Rabs x <= e <-> - e <= x <= e.
Proof. split; [intros H; pose proof (Rle_abs x); pose proof (Rle_abs (- x)) as B; rewrite Rabs_Ropp in B; lra|apply Rabs_le]. Qed.
Lemma tri x y z a b : Rabs (x - y) <= a -> Rabs (y - z) <= b -> Rabs (x - z) <= a + b.
Proof. rewrite !abs_bnd. lra. Qed.
Lemma abs_shift x y e : Rabs (x - y) <= e -> Rabs x <= Rabs y + e.
Proof. intros H. replace x with (y + (x - y)) by ring. eapply Rle_trans; [apply Rabs_triang|]. lra. Qed.
Lemma fl_near r v' v e : fl r v' -> Rabs (v' - v) <= e -> Rabs (r - v) <= e * (1 + u) + u * Rabs v + e0.
Proof. intros H1 H2. unfold fl in H1. pose proof (abs_shift _ _ _ H2). pose proof (tri _ _ _ _ _ H1 H2). lra. Qed.
Lemma prod_near x' x y' y ex ey : Rabs (x' - x) <= ex -> Rabs (y' - y) <= ey ->
  Rabs (x' * y' - x * y) <= Rabs x * ey + Rabs y * ex + ex * ey.
Proof.
  intros Hx Hy. replace (x' * y' - x * y) with (x * (y' - y) + y * (x' - x) + (x' - x) * (y' - y)) by ring.
  eapply Rle_trans; [apply Rabs_triang|]. apply Rplus_le_compat; [eapply Rle_trans; [apply Rabs_triang|]; apply Rplus_le_compat|]; rewrite Rabs_mult.
  - apply Rmult_le_compat_l; [apply Rabs_pos|assumption].
  - apply Rmult_le_compat_l; [apply Rabs_pos|assumption].
  - apply Rmult_le_compat; auto using Rabs_pos.
Qed.
Lemma sum_near x' x y' y ex ey : Rabs (x' - x) <= ex -> Rabs (y' - y) <= ey -> Rabs ((x' + y') - (x + y)) <= ex + ey.
Proof. rewrite !abs_bnd. lra. Qed.
Lemma sub_near x' x y' y ex ey : Rabs (x' - x) <= ex -> Rabs (y' - y) <= ey -> Rabs ((x' - y') - (x - y)) <= ex + ey.
Proof. rewrite !abs_bnd. lra. Qed.

(** both factors rounded *)
Lemma mul_rel m x' x y' y : Rabs x <= 1 -> Rabs y <= 1 -> fl x' x -> fl y' y -> fl m (x' * y') -> Rabs (m - x * y) <= 3001 / 1000 * u * Rabs (x * y) + 4 * e0.
Proof.
  intros Bx By Hx Hy Hm. pose proof (prod_near _ _ _ _ _ _ Hx Hy) as H. pose proof (fl_near _ _ _ _ Hm H) as Q.
  eapply Rle_trans; [exact Q|]. rewrite Rabs_mult. pose proof (Rabs_pos x) as X0. pose proof (Rabs_pos y) as Y0.
  set (a := Rabs x) in *. set (b := Rabs y) in *. clearbody a b. clear - Bx By X0 Y0. set (q := a * b).
  assert (Q0 : 0 <= q) by (unfold q; nra).
  replace ((a * (u * b + e0) + b * (u * a + e0) + (u * a + e0) * (u * b + e0)) * (1 + u) + u * q + e0)
    with (q * ((2 * u + u * u) * (1 + u) + u) + (a + b) * (e0 * (1 + u) * (1 + u)) + e0 * e0 * (1 + u) + e0) by (unfold q; ring).
  assert (q * ((2 * u + u * u) * (1 + u) + u) <= q * (3001 / 1000 * u)) by (apply Rmult_le_compat_l; lra). lra.
Qed.
(** one factor rounded, the other up to e *)
Lemma mul_one m x' x y' y e : Rabs x <= 1 -> fl x' x -> 0 <= e <= 1 -> Rabs y <= 2 -> Rabs (y' - y) <= e -> fl m (x' * y') ->
  Rabs (m - x * y) <= 1001 / 1000 * Rabs x * e + 2001 / 1000 * u * Rabs (x * y) + 6 * e0.
Proof.
  intros Bx Hx He By Hy Hm. pose proof (prod_near _ _ _ _ _ _ Hx Hy) as H. pose proof (fl_near _ _ _ _ Hm H) as Q.
  eapply Rle_trans; [exact Q|]. rewrite Rabs_mult. pose proof (Rabs_pos x) as X0. pose proof (Rabs_pos y) as Y0.
  set (a := Rabs x) in *. set (b := Rabs y) in *. clearbody a b. clear - Bx By X0 Y0 He. pose (q := a * b). pose (r := a * e).
  assert (Q0 : 0 <= q) by (unfold q; nra). assert (R0 : 0 <= r) by (unfold r; nra).
  replace ((a * e + b * (u * a + e0) + (u * a + e0) * e) * (1 + u) + u * (a * b) + e0)
    with (r * (1 + u) * (1 + u) + q * (u * (1 + u) + u) + (b + e) * (e0 * (1 + u)) + e0) by (unfold q, r; ring).
  replace (1001 / 1000 * a * e) with (1001 / 1000 * r) by (unfold r; ring). change (a * b) with q.
  assert (q * (u * (1 + u) + u) <= q * (2001 / 1000 * u)) by (apply Rmult_le_compat_l; lra).
  assert (r * (1 + u) * (1 + u) <= 1001 / 1000 * r) by lra. lra.
Qed.

(** ** unit vectors *)
Definition unit3 (a b c : R) : Prop := a * a + b * b + c * c = 1.
Lemma unit_le a b c : unit3 a b c -> Rabs a <= 1 /\ Rabs b <= 1 /\ Rabs c <= 1.
Proof. unfold unit3. intros H. repeat split; apply abs_bnd; nra. Qed.
Lemma abs2 x : Rabs x * Rabs x = x * x.
Proof. rewrite <- Rabs_mult. apply Rabs_pos_eq. nra. Qed.
(** at most unit length *)
Definition short3 (a b c : R) : Prop := a * a + b * b + c * c <= 1.
Lemma short_le a b c : short3 a b c -> Rabs a <= 1 /\ Rabs b <= 1 /\ Rabs c <= 1.
Proof. unfold short3. intros H. repeat split; apply abs_bnd; nra. Qed.
Lemma unit_short a b c : unit3 a b c -> short3 a b c.
Proof. unfold unit3, short3. lra. Qed.
Lemma cauchy3 a b c x y z : short3 a b c -> short3 x y z -> Rabs (a * x) + Rabs (b * y) + Rabs (c * z) <= 1.
Proof.
  unfold short3. intros H1 H2. rewrite !Rabs_mult. pose proof (abs2 a). pose proof (abs2 b). pose proof (abs2 c). pose proof (abs2 x). pose proof (abs2 y). pose proof (abs2 z).
  pose proof (pow2_ge_0 (Rabs a - Rabs x)). pose proof (pow2_ge_0 (Rabs b - Rabs y)). pose proof (pow2_ge_0 (Rabs c - Rabs z)). simpl in *. nra.
Qed.
Lemma cauchy2 a b c x y z : short3 a b c -> short3 x y z -> Rabs (a * y) + Rabs (b * x) <= 1 /\ Rabs (b * z) + Rabs (c * y) <= 1 /\ Rabs (a * z) + Rabs (c * x) <= 1.
Proof.
  intros H1 H2.
  pose proof (cauchy3 a b c y x z H1 ltac:(unfold short3 in *; lra)). pose proof (cauchy3 a b c x z y H1 ltac:(unfold short3 in *; lra)). pose proof (cauchy3 a b c z y x H1 ltac:(unfold short3 in *; lra)).
  pose proof (Rabs_pos (c * z)). pose proof (Rabs_pos (a * x)). pose proof (Rabs_pos (b * y)). lra.
Qed.
Lemma sum3 a b c : short3 a b c -> Rabs a + Rabs b + Rabs c <= 17321 / 10000.
Proof.
  unfold short3. intros H. pose proof (abs2 a). pose proof (abs2 b). pose proof (abs2 c). pose proof (Rabs_pos a). pose proof (Rabs_pos b). pose proof (Rabs_pos c).
  set (x := Rabs a) in *. set (y := Rabs b) in *. set (z := Rabs c) in *. clearbody x y z.
  assert ((x + y + z) * (x + y + z) <= 3). { pose proof (pow2_ge_0 (x - y)). pose proof (pow2_ge_0 (y - z)). pose proof (pow2_ge_0 (x - z)). simpl in *. nra. }
  nra.
Qed.
Lemma cross_short a b c x y z : short3 a b c -> short3 x y z -> short3 (b * z - y * c) (x * c - a * z) (a * y - x * b).
Proof.
  unfold short3. intros H1 H2.
  assert (E : (b * z - y * c) * (b * z - y * c) + (x * c - a * z) * (x * c - a * z) + (a * y - x * b) * (a * y - x * b)
    = (a * a + b * b + c * c) * (x * x + y * y + z * z) - (a * x + b * y + c * z) * (a * x + b * y + c * z)) by ring.
  rewrite E. assert (0 <= a * a + b * b + c * c) by nra. assert (0 <= x * x + y * y + z * z) by nra.
  assert ((a * a + b * b + c * c) * (x * x + y * y + z * z) <= 1 * 1) by (apply Rmult_le_compat; assumption).
  pose proof (Rle_0_sqr (a * x + b * y + c * z)) as Q. unfold Rsqr in Q. lra.
Qed.

(** one component of a cross product, as a difference and as a sum *)
Lemma cross_minus r m1 m2 x' x y' y z' z w' w : Rabs x <= 1 -> Rabs y <= 1 -> Rabs z <= 1 -> Rabs w <= 1 -> Rabs (x * y) + Rabs (z * w) <= 1 ->
  fl x' x -> fl y' y -> fl z' z -> fl w' w -> fl m1 (x' * y') -> fl m2 (z' * w') -> fl r (m1 - m2) -> Rabs (r - (x * y - z * w)) <= 401 / 100 * u.
Proof.
  intros Bx By Bz Bw B Hx Hy Hz Hw H1 H2 Hr.
  pose proof (mul_rel _ _ _ _ _ Bx By Hx Hy H1) as Q1. pose proof (mul_rel _ _ _ _ _ Bz Bw Hz Hw H2) as Q2.
  pose proof (fl_near _ _ _ _ Hr (sub_near _ _ _ _ _ _ Q1 Q2)) as Q. eapply Rle_trans; [exact Q|].
  assert (Rabs (x * y - z * w) <= 1).
  { eapply Rle_trans; [|exact B]. replace (Rabs (z * w)) with (Rabs (- (z * w))) by apply Rabs_Ropp. apply Rabs_triang. }
  pose proof (Rabs_pos (x * y)). pose proof (Rabs_pos (z * w)). lra.
Qed.
Lemma cross_plus r m1 m2 x' x y' y z' z w' w : Rabs x <= 1 -> Rabs y <= 1 -> Rabs z <= 1 -> Rabs w <= 1 -> Rabs (x * y) + Rabs (z * w) <= 1 ->
  fl x' x -> fl y' y -> fl z' z -> fl w' w -> fl m1 (x' * y') -> fl m2 (z' * w') -> fl r (m1 + m2) -> Rabs (r - (x * y + z * w)) <= 401 / 100 * u.
Proof.
  intros Bx By Bz Bw B Hx Hy Hz Hw H1 H2 Hr.
  pose proof (mul_rel _ _ _ _ _ Bx By Hx Hy H1) as Q1. pose proof (mul_rel _ _ _ _ _ Bz Bw Hz Hw H2) as Q2.
  pose proof (fl_near _ _ _ _ Hr (sum_near _ _ _ _ _ _ Q1 Q2)) as Q. eapply Rle_trans; [exact Q|].
  assert (Rabs (x * y + z * w) <= 1) by (eapply Rle_trans; [apply Rabs_triang|exact B]).
  pose proof (Rabs_pos (x * y)). pose proof (Rabs_pos (z * w)). lra.
Qed.

(** the determinant from a row and the cross product of the others *)
Lemma up2 x : Rabs x <= 1 -> Rabs x <= 2.
Proof. lra. Qed.
Lemma det_near t s m1 m2 m3 a' a b' b c' c x' x y' y z' z : unit3 a b c -> short3 x y z ->
  fl a' a -> fl b' b -> fl c' c -> Rabs (x' - x) <= 401 / 100 * u -> Rabs (y' - y) <= 401 / 100 * u -> Rabs (z' - z) <= 401 / 100 * u ->
  fl m1 (a' * x') -> fl m2 (b' * y') -> fl m3 (c' * z') -> fl s (m1 + m2) -> fl t (s + m3) ->
  Rabs (t - (a * x + b * y + c * z)) <= 111 / 10 * u.
Proof.
  intros U S Ha Hb Hc Hx Hy Hz H1 H2 H3 Hs Ht. destruct (unit_le _ _ _ U) as (Ba & Bb & Bc). destruct (short_le _ _ _ S) as (Bx & By & Bz).
  pose proof (mul_one _ _ _ _ _ (401 / 100 * u) Ba Ha ltac:(lra) (up2 _ Bx) Hx H1) as Q1. pose proof (mul_one _ _ _ _ _ (401 / 100 * u) Bb Hb ltac:(lra) (up2 _ By) Hy H2) as Q2.
  pose proof (mul_one _ _ _ _ _ (401 / 100 * u) Bc Hc ltac:(lra) (up2 _ Bz) Hz H3) as Q3.
  pose proof (cauchy3 a b c x y z (unit_short _ _ _ U) S) as C3. pose proof (sum3 _ _ _ (unit_short _ _ _ U)) as S3.
  pose proof (Rabs_pos (a * x)). pose proof (Rabs_pos (b * y)). pose proof (Rabs_pos (c * z)).
  assert (T12 : Rabs (a * x + b * y) <= 1) by (eapply Rle_trans; [apply Rabs_triang|lra]).
  assert (T123 : Rabs (a * x + b * y + c * z) <= 1). { eapply Rle_trans; [apply Rabs_triang|]. pose proof (Rabs_triang (a * x) (b * y)). lra. }
  pose proof (fl_near _ _ _ _ Hs (sum_near _ _ _ _ _ _ Q1 Q2)) as Qs. pose proof (fl_near _ _ _ _ Ht (sum_near _ _ _ _ _ _ Qs Q3)) as Qt.
  eapply Rle_trans; [exact Qt|]. pose proof (Rabs_pos a). pose proof (Rabs_pos b). pose proof (Rabs_pos c). lra.
Qed.

(** one component of the numerator: three constants times cross products *)
Lemma off_mul m d' d y' y k : Rabs d <= 17321 / 10000 -> Rabs (d' - d) <= k -> 0 <= k <= 1 -> Rabs y <= 1 -> Rabs (y' - y) <= 401 / 100 * u -> fl m (d' * y') ->
  Rabs (m - d * y) <= 1001 / 1000 * k + 87 / 10 * u.
Proof.
  intros Bd Hd Hk By Hy Hm. pose proof (prod_near _ _ _ _ _ _ Hd Hy) as H. pose proof (fl_near _ _ _ _ Hm H) as Q.
  eapply Rle_trans; [exact Q|]. rewrite Rabs_mult. pose proof (Rabs_pos d) as X0. pose proof (Rabs_pos y) as Y0.
  set (a := Rabs d) in *. set (b := Rabs y) in *. clearbody a b. assert (b * k <= k) by nra. assert (a * b <= 17321 / 10000) by nra. lra.
Qed.
Lemma num_near e s m1 m2 m3 d1' d1 d2' d2 d3' d3 x' x y' y z' z k :
  Rabs d1 <= 17321 / 10000 -> Rabs d2 <= 17321 / 10000 -> Rabs d3 <= 17321 / 10000 -> 0 <= k <= 1 / 10 ->
  Rabs (d1' - d1) <= k -> Rabs (d2' - d2) <= k -> Rabs (d3' - d3) <= k -> Rabs x <= 1 -> Rabs y <= 1 -> Rabs z <= 1 ->
  Rabs (x' - x) <= 401 / 100 * u -> Rabs (y' - y) <= 401 / 100 * u -> Rabs (z' - z) <= 401 / 100 * u ->
  fl m1 ((- d1') * x') -> fl m2 (d2' * y') -> fl m3 (d3' * z') -> fl s (m1 - m2) -> fl e (s - m3) ->
  Rabs ((- d1) * x - d2 * y - d3 * z) <= 1 -> Rabs (e - ((- d1) * x - d2 * y - d3 * z)) <= 301 / 100 * k + 307 / 10 * u.
Proof.
  intros B1 B2 B3 Hk H1 H2 H3 Bx By Bz Hx Hy Hz M1 M2 M3 Hs He B.
  pose proof (off_mul m1 (- d1') (- d1) x' x k ltac:(rewrite Rabs_Ropp; assumption) ltac:(revert H1; rewrite !abs_bnd; lra) ltac:(lra) Bx Hx M1) as Q1.
  pose proof (off_mul m2 d2' d2 y' y k B2 H2 ltac:(lra) By Hy M2) as Q2. pose proof (off_mul m3 d3' d3 z' z k B3 H3 ltac:(lra) Bz Hz M3) as Q3.
  pose proof (fl_near _ _ _ _ Hs (sub_near _ _ _ _ _ _ Q1 Q2)) as Qs. pose proof (fl_near _ _ _ _ He (sub_near _ _ _ _ _ _ Qs Q3)) as Qe.
  eapply Rle_trans; [exact Qe|].
  assert (T : Rabs (- d1 * x - d2 * y) <= 28 / 10).
  { replace (- d1 * x - d2 * y) with ((- d1 * x - d2 * y - d3 * z) + d3 * z) by ring. eapply Rle_trans; [apply Rabs_triang|]. rewrite (Rabs_mult d3 z).
    pose proof (Rabs_pos d3). pose proof (Rabs_pos z). assert (Rabs d3 * Rabs z <= 17321 / 10000) by nra. lra. }
  lra.
Qed.

(** the quotient *)
Lemma quot_near v' v e' t' i' D L rho : 0 < rho <= 17321 / 10000 -> 0 < Rabs D <= 1 -> L = / (rho * Rabs D) -> u * L <= 677 / 100000 ->
  Rabs v <= 1 -> Rabs (t' - D) <= 111 / 10 * u -> Rabs (e' - v * D) <= 301 / 100 * (376 / 100 * u / rho) + 307 / 10 * u ->
  t' <> 0 -> fl i' (/ t') -> fl v' (e' * i') -> Rabs (v' - v) <= 103 * (u * L).
Proof.
  intros Hr HD EL HL Bv Ht He Nt Hi Hv.
  assert (P : 0 < rho * Rabs D) by nra.
  assert (L0 : 0 < L) by (rewrite EL; now apply Rinv_0_lt_compat).
  assert (LD : L * (rho * Rabs D) = 1) by (rewrite EL; field; split; lra).
  assert (ID : / Rabs D = L * rho) by (rewrite EL; field; split; lra).
  assert (IR : / rho = L * Rabs D) by (rewrite EL; field; split; lra).
  assert (L1 : 1 <= 17321 / 10000 * L) by (assert (rho * Rabs D <= 17321 / 10000) by nra; nra).
  assert (Dt : 869 / 1000 * Rabs D <= Rabs t').
  { assert (A : Rabs D <= Rabs t' + 111 / 10 * u).
    { apply abs_shift. replace (D - t') with (- (t' - D)) by ring. rewrite Rabs_Ropp. exact Ht. }
    assert (B : 111 / 10 * u <= 131 / 1000 * Rabs D).
    { assert (u <= 677 / 100000 * 17321 / 10000 * Rabs D); [|lra].
      assert (u * (L * rho * Rabs D) <= 677 / 100000 * (17321 / 10000) * Rabs D); [|replace (L * rho * Rabs D) with 1 in H by (rewrite <- LD; ring); lra].
      replace (u * (L * rho * Rabs D)) with ((u * L) * (rho * Rabs D)) by ring. assert (rho * Rabs D <= 17321 / 10000 * Rabs D) by nra. nra. }
    lra. }
  set (T := Rabs t') in *. assert (T0 : 0 < T) by (unfold T; now apply Rabs_pos_lt).
  set (g := 97 * (u * L)).
  assert (G : Rabs (e' * / t' - v) <= g).
  { replace (e' * / t' - v) with ((e' - v * D + v * (D - t')) * / t') by (field; assumption). rewrite Rabs_mult, Rabs_inv. fold T.
    assert (X : Rabs (e' - v * D + v * (D - t')) <= 301 / 100 * (376 / 100 * u / rho) + 307 / 10 * u + 111 / 10 * u).
    { eapply Rle_trans; [apply Rabs_triang|]. rewrite Rabs_mult, (Rabs_minus_sym D t').
      assert (Rabs v * Rabs (t' - D) <= 111 / 10 * u) by (pose proof (Rabs_pos v); pose proof (Rabs_pos (t' - D)); nra). lra. }
    apply Rmult_le_reg_r with T; [assumption|]. rewrite Rmult_assoc, Rinv_l, Rmult_1_r by lra. eapply Rle_trans; [exact X|].
    unfold Rdiv. rewrite IR. apply Rle_trans with (g * (869 / 1000 * Rabs D)).
    - unfold g. assert (Y : u = (u * L) * (rho * Rabs D)) by (rewrite Rmult_assoc, LD; ring).
      assert (Z : (u * L) * (rho * Rabs D) <= 17321 / 10000 * ((u * L) * Rabs D)).
      { assert (0 <= (u * L) * Rabs D) by nra. replace ((u * L) * (rho * Rabs D)) with (rho * ((u * L) * Rabs D)) by ring. nra. }
      set (w := (u * L) * Rabs D) in *. assert (0 <= w) by (unfold w; nra).
      replace (301 * / 100 * (376 * / 100 * u * (L * Rabs D))) with (301 * / 100 * (376 * / 100) * w) by (unfold w; ring).
      replace (97 * (u * L) * (869 / 1000 * Rabs D)) with (97 * 869 / 1000 * w) by (unfold w; field).
      assert (u <= 17321 / 10000 * w) by (rewrite <- Y in Z; exact Z). lra.
    - apply Rmult_le_compat_l; [unfold g; lra|assumption]. }
  assert (g1 : 0 <= g <= 66 / 100) by (unfold g; lra).
  assert (E1 : Rabs (e' * / t') <= 166 / 100) by (pose proof (abs_shift _ _ _ G); lra).
  assert (E2 : Rabs e' <= 2).
  { assert (Rabs (v * D) <= 1). { rewrite Rabs_mult. pose proof (Rabs_pos v). nra. }
    pose proof (abs_shift _ _ _ He). assert (301 / 100 * (376 / 100 * u / rho) <= 1 / 2); [|lra].
    replace (301 / 100 * (376 / 100 * u / rho)) with (301 / 100 * (376 / 100) * u * / rho) by (field; lra). rewrite IR. assert (L * Rabs D <= L) by nra.
    assert (u * (L * Rabs D) <= u * L) by nra. lra. }
  assert (I : Rabs (e' * i' - v) <= g + 167 / 100 * u).
  { assert (J : Rabs (e' * i' - e' * / t') <= 167 / 100 * u).
    { replace (e' * i' - e' * / t') with (e' * (i' - / t')) by ring. rewrite Rabs_mult. unfold fl in Hi.
      apply Rle_trans with (Rabs e' * (u * Rabs (/ t') + e0)); [apply Rmult_le_compat_l; [apply Rabs_pos|exact Hi]|].
      replace (Rabs e' * (u * Rabs (/ t') + e0)) with (u * Rabs (e' * / t') + Rabs e' * e0) by (rewrite Rabs_mult; ring). lra. }
    pose proof (tri _ _ _ _ _ J G). lra. }
  pose proof (fl_near _ _ _ _ Hv I) as Q. eapply Rle_trans; [exact Q|]. unfold g in *. nra.
Qed.

(** the test of a corner against a plane *)
Lemma test_near r s1 s2 m1 m2 m3 a' a b' b c' c d' d x' x y' y z' z L rho : unit3 a b c -> fl a' a -> fl b' b -> fl c' c ->
  0 < rho <= 17321 / 10000 -> / rho <= L -> u * L <= 677 / 100000 -> Rabs d <= 17321 / 10000 -> Rabs (d' - d) <= 376 / 100 * u / rho ->
  Rabs x <= 1 -> Rabs y <= 1 -> Rabs z <= 1 ->
  Rabs (x' - x) <= 103 * (u * L) -> Rabs (y' - y) <= 103 * (u * L) -> Rabs (z' - z) <= 103 * (u * L) ->
  fl m1 (x' * a') -> fl m2 (y' * b') -> fl m3 (z' * c') -> fl s1 (m1 + m2) -> fl s2 (s1 + m3) -> fl r (s2 + d') ->
  Rabs (r - (a * x + b * y + c * z + d)) <= 230 * (u * L).
Proof.
  intros U Ha Hb Hc Hr IL HL Bd Hd Bx By Bz Hx Hy Hz M1 M2 M3 S1 S2 S3.
  assert (I0 : 0 < / rho) by (apply Rinv_0_lt_compat; lra).
  assert (L1 : 1 <= 17321 / 10000 * L) by (assert (rho * / rho = 1) by (field; lra); nra).
  destruct (unit_le _ _ _ U) as (Ba & Bb & Bc). rewrite Rmult_comm in M1, M2, M3.
  pose proof (mul_one _ _ _ _ _ (103 * (u * L)) Ba Ha ltac:(lra) (up2 _ Bx) Hx M1) as Q1. pose proof (mul_one _ _ _ _ _ (103 * (u * L)) Bb Hb ltac:(lra) (up2 _ By) Hy M2) as Q2.
  pose proof (mul_one _ _ _ _ _ (103 * (u * L)) Bc Hc ltac:(lra) (up2 _ Bz) Hz M3) as Q3.
  pose proof (sum3 _ _ _ (unit_short _ _ _ U)) as A3. pose proof (Rabs_pos a) as Pa. pose proof (Rabs_pos b) as Pb. pose proof (Rabs_pos c) as Pc.
  assert (X1 : Rabs (a * x) <= Rabs a) by (rewrite Rabs_mult; pose proof (Rabs_pos x); nra).
  assert (X2 : Rabs (b * y) <= Rabs b) by (rewrite Rabs_mult; pose proof (Rabs_pos y); nra).
  assert (X3 : Rabs (c * z) <= Rabs c) by (rewrite Rabs_mult; pose proof (Rabs_pos z); nra).
  assert (T12 : Rabs (a * x + b * y) <= 17321 / 10000) by (eapply Rle_trans; [apply Rabs_triang|lra]).
  assert (T123 : Rabs (a * x + b * y + c * z) <= 17321 / 10000). { eapply Rle_trans; [apply Rabs_triang|]. pose proof (Rabs_triang (a * x) (b * y)). lra. }
  assert (T4 : Rabs (a * x + b * y + c * z + d) <= 35 / 10) by (eapply Rle_trans; [apply Rabs_triang|lra]).
  pose proof (fl_near _ _ _ _ S1 (sum_near _ _ _ _ _ _ Q1 Q2)) as R1. pose proof (fl_near _ _ _ _ S2 (sum_near _ _ _ _ _ _ R1 Q3)) as R2.
  pose proof (fl_near _ _ _ _ S3 (sum_near _ _ _ _ _ _ R2 Hd)) as R3. eapply Rle_trans; [exact R3|]. clear R1 R2 R3 Q1 Q2 Q3.
  assert (Rabs a * (103 * (u * L)) + Rabs b * (103 * (u * L)) + Rabs c * (103 * (u * L)) <= 17321 / 10000 * (103 * (u * L))) by nra.
  assert (376 / 100 * u / rho <= 376 / 100 * (u * L)) by (unfold Rdiv at 2; nra).
  set (a1 := Rabs a * (103 * (u * L))) in *. set (b1 := Rabs b * (103 * (u * L))) in *. set (c1 := Rabs c * (103 * (u * L))) in *.
  assert (0 <= a1 /\ 0 <= b1 /\ 0 <= c1) by (unfold a1, b1, c1; repeat split; apply Rmult_le_pos; lra).
  replace (1001 / 1000 * Rabs a * (103 * (u * L))) with (1001 / 1000 * a1) by (unfold a1; ring).
  replace (1001 / 1000 * Rabs b * (103 * (u * L))) with (1001 / 1000 * b1) by (unfold b1; ring).
  replace (1001 / 1000 * Rabs c * (103 * (u * L))) with (1001 / 1000 * c1) by (unfold c1; ring).
  lra.
Qed.
