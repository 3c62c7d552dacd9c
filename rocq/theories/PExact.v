(** Consequences of [Exact] for the helper functions. *)
From Verif Require Import Base Arith Exact MUtils SpecGeom.
From Verif Require Export SpecPoints.

Section PExact.
Variable N : Arith.
Variable E : Exact N.
Notation fin := (fin E).
Notation val := (val E).

Lemma fin_add a b : fin a -> fin b -> fin (fadd N a b). Proof. intros; now apply (ex_add _ E). Qed.
Lemma fin_sub a b : fin a -> fin b -> fin (fsub N a b). Proof. intros; now apply (ex_sub _ E). Qed.
Lemma fin_mul a b : fin a -> fin b -> fin (fmul N a b). Proof. intros; now apply (ex_mul _ E). Qed.
Lemma fin_neg a : fin a -> fin (fneg N a). Proof. intros; now apply (ex_neg _ E). Qed.
Lemma fin_ofZ z : fin (fofZ N z). Proof. apply (ex_ofZ _ E). Qed.
Lemma val_add a b : fin a -> fin b -> val (fadd N a b) = (val a + val b)%R. Proof. intros; now apply (ex_add _ E). Qed.
Lemma val_sub a b : fin a -> fin b -> val (fsub N a b) = (val a - val b)%R. Proof. intros; now apply (ex_sub _ E). Qed.
Lemma val_mul a b : fin a -> fin b -> val (fmul N a b) = (val a * val b)%R. Proof. intros; now apply (ex_mul _ E). Qed.
Lemma val_neg a : fin a -> val (fneg N a) = (- val a)%R. Proof. intros; now apply (ex_neg _ E). Qed.
Lemma val_ofZ z : val (fofZ N z) = IZR z. Proof. apply (ex_ofZ _ E). Qed.
Lemma fin_div a b : fin a -> fin b -> val b <> 0%R -> fin (fdiv N a b).
Proof. intros; now apply (ex_div _ E). Qed.
Lemma val_div a b : fin a -> fin b -> val b <> 0%R -> val (fdiv N a b) = (val a / val b)%R.
Proof. intros; now apply (ex_div _ E). Qed.
End PExact.

#[export] Hint Resolve fin_add fin_sub fin_mul fin_neg fin_ofZ : fin.

(** push [val] through an arithmetic expression *)
Ltac vpush :=
  repeat (rewrite ?val_ofZ;
          first [ rewrite val_add by auto 40 with fin
                | rewrite val_sub by auto 40 with fin
                | rewrite val_mul by auto 40 with fin
                | rewrite val_neg by auto 40 with fin ]);
  rewrite ?val_ofZ.

Section PExact2.
Variable N : Arith.
Variable E : Exact N.
Notation fin := (fin E).
Notation val := (val E).

Notation finp := (finp N E).
Notation valp := (valp N E).
Notation finh := (finh N E).
Notation valh := (valh N E).

Lemma flt_true a b : fin a -> fin b -> flt N a b = true <-> (val a < val b)%R.
Proof. apply (ex_lt _ E). Qed.
Lemma flt_false a b : fin a -> fin b -> flt N a b = false <-> (val b <= val a)%R.
Proof.
  intros Ha Hb. pose proof (flt_true a b Ha Hb) as H.
  destruct (flt N a b); split; intros; try congruence.
  - assert (val a < val b)%R by tauto. lra.
  - destruct (Rlt_le_dec (val a) (val b)) as [L|L]; [apply H in L; congruence|exact L].
Qed.
Lemma fle_false a b : fin a -> fin b -> fle N a b = false <-> (val b < val a)%R.
Proof.
  intros Ha Hb. pose proof (ex_le _ E a b Ha Hb) as H.
  destruct (fle N a b); split; intros; try congruence.
  - assert (val a <= val b)%R by tauto. lra.
  - destruct (Rle_lt_dec (val a) (val b)) as [L|L]; [apply H in L; congruence|exact L].
Qed.
Lemma feq_false a b : fin a -> fin b -> feq N a b = false <-> val a <> val b.
Proof.
  intros Ha Hb. pose proof (ex_eq _ E a b Ha Hb) as H.
  destruct (feq N a b); split; intros Hx; try congruence.
  - exfalso. apply Hx. now apply H.
  - intros Hy. apply H in Hy. congruence.
Qed.

Lemma fin_fbool b : fin (fbool N b). Proof. apply fin_ofZ. Qed.
Lemma val_fbool b : val (fbool N b) = if b then 1%R else 0%R.
Proof. unfold fbool. rewrite val_ofZ. now destruct b. Qed.
Hint Resolve fin_fbool : fin.

Lemma fin_square a : fin a -> fin (square N a). Proof. unfold square; auto with fin. Qed.
Lemma val_square a : fin a -> val (square N a) = (val a ^ 2)%R.
Proof. intros. unfold square. rewrite val_mul by assumption. ring. Qed.

Lemma fbmax_exact a b : fin a -> fin b ->
  fin (fbmax N a b) /\ val (fbmax N a b) = Rmax (val a) (val b).
Proof.
  intros Ha Hb. unfold fbmax. split; [auto 10 with fin|].
  vpush. rewrite !val_fbool. destruct (flt N a b) eqn:L; simpl.
  - apply flt_true in L; auto. rewrite Rmax_right by lra. ring.
  - apply flt_false in L; auto. rewrite Rmax_left by lra. ring.
Qed.
Lemma fbmin_exact a b : fin a -> fin b ->
  fin (fbmin N a b) /\ val (fbmin N a b) = Rmin (val a) (val b).
Proof.
  intros Ha Hb. unfold fbmin. split; [auto 10 with fin|].
  vpush. rewrite !val_fbool. destruct (flt N b a) eqn:L; simpl.
  - apply flt_true in L; auto. rewrite Rmin_right by lra. ring.
  - apply flt_false in L; auto. rewrite Rmin_left by lra. ring.
Qed.
Lemma fbmax3_exact a b c : fin a -> fin b -> fin c ->
  fin (fbmax3 N a b c) /\ val (fbmax3 N a b c) = Rmax (Rmax (val a) (val b)) (val c).
Proof.
  intros Ha Hb Hc. destruct (fbmax_exact a b Ha Hb) as [H1 H2].
  destruct (fbmax_exact _ c H1 Hc) as [H3 H4]. unfold fbmax3. now rewrite H4, H2.
Qed.
Lemma fbmin3_exact a b c : fin a -> fin b -> fin c ->
  fin (fbmin3 N a b c) /\ val (fbmin3 N a b c) = Rmin (Rmin (val a) (val b)) (val c).
Proof.
  intros Ha Hb Hc. destruct (fbmin_exact a b Ha Hb) as [H1 H2].
  destruct (fbmin_exact _ c H1 Hc) as [H3 H4]. unfold fbmin3. now rewrite H4, H2.
Qed.
Lemma stdmin2_exact a b : fin a -> fin b ->
  fin (stdmin2 N a b) /\ val (stdmin2 N a b) = Rmin (val a) (val b).
Proof.
  intros Ha Hb. unfold stdmin2. destruct (flt N b a) eqn:L; split; auto.
  - apply flt_true in L; auto. now rewrite Rmin_right by lra.
  - apply flt_false in L; auto. now rewrite Rmin_left by lra.
Qed.
Lemma stdmin3_exact a b c : fin a -> fin b -> fin c ->
  fin (stdmin3 N a b c) /\ val (stdmin3 N a b c) = Rmin (Rmin (val a) (val b)) (val c).
Proof.
  intros Ha Hb Hc. destruct (stdmin2_exact a b Ha Hb) as [H1 H2].
  destruct (stdmin2_exact _ c H1 Hc) as [H3 H4]. unfold stdmin3. now rewrite H4, H2.
Qed.

Lemma get_distance_exact p q : finp p -> finp q ->
  fin (get_distance N p q) /\ val (get_distance N p q) = d2 (valp p) (valp q).
Proof.
  destruct p as [[p0 p1] p2], q as [[q0 q1] q2]. intros (?&?&?) (?&?&?).
  unfold get_distance, square. split; [auto 20 with fin|]. simpl. vpush. ring.
Qed.

Lemma sr_update_exact p v r : finp p -> finp v -> fin r ->
  fin (sr_update N p v r) /\ val (sr_update N p v r) = Rmax (val r) (d2 (valp p) (valp v)).
Proof.
  destruct p as [[p0 p1] p2], v as [[q0 q1] q2]. intros (?&?&?) (?&?&?) Hr.
  unfold sr_update, square.
  set (nr := fadd N (fadd N _ _) _).
  assert (Fn : fin nr) by (unfold nr; auto 20 with fin).
  assert (Vn : val nr = d2 (valp (p0, p1, p2)) (valp (q0, q1, q2))).
  { unfold nr. simpl. vpush. ring. }
  split; [auto 10 with fin|]. rewrite <- Vn. vpush. rewrite !val_fbool.
  destruct (flt N r nr) eqn:L; simpl.
  - apply flt_true in L; auto. rewrite Rmax_right by lra. ring.
  - apply flt_false in L; auto. rewrite Rmax_left by lra. ring.
Qed.

Lemma sr_is_reached_exact p q r : finp p -> finp q -> fin r ->
  sr_is_reached N p q r = true <-> (4 * val r < d2 (valp p) (valp q))%R.
Proof.
  destruct p as [[p0 p1] p2], q as [[q0 q1] q2]. intros (?&?&?) (?&?&?) Hr.
  unfold sr_is_reached, square. rewrite flt_true by auto 20 with fin.
  vpush. simpl.
  replace ((val p0 - val q0) * ((val p0 - val q0) * 1) +
           (val p1 - val q1) * ((val p1 - val q1) * 1) +
           (val p2 - val q2) * ((val p2 - val q2) * 1))%R
    with ((val p0 - val q0) * (val p0 - val q0) +
          (val p1 - val q1) * (val p1 - val q1) +
          (val p2 - val q2) * (val p2 - val q2))%R by ring.
  reflexivity.
Qed.

Lemma bisect_fin p q : finp p -> finp q -> finh (bisect N p q).
Proof.
  destruct p as [[p0 p1] p2], q as [[q0 q1] q2]. intros (?&?&?) (?&?&?).
  unfold bisect, square. simpl. repeat split; auto with fin.
  apply fin_div; auto 20 with fin. rewrite val_ofZ. lra.
Qed.

Lemma bisect_ev p q x : finp p -> finp q ->
  ev (valh (bisect N p q)) x = ((d2 x (valp q) - d2 x (valp p)) / 2)%R.
Proof.
  destruct p as [[p0 p1] p2], q as [[q0 q1] q2], x as [[x0 x1] x2].
  intros (?&?&?) (?&?&?). unfold bisect, square. simpl.
  rewrite val_div by (rewrite ?val_ofZ; try lra; auto 20 with fin).
  vpush. field.
Qed.

Lemma dot_exact x h : finp x -> finh h ->
  let '(a, b, c) := x in
  fin (dot N (a, b, c, fofZ N 1) h) /\ val (dot N (a, b, c, fofZ N 1) h) = ev (valh h) (valp x).
Proof.
  destruct x as [[x0 x1] x2], h as [[[a b] c] d]. intros (?&?&?) (?&?&?&?).
  unfold dot. split; [auto 20 with fin|]. simpl. vpush. ring.
Qed.

(** Cramer's rule as the code evaluates it. *)
Definition cramer (h1 h2 h3 : pl) : pt :=
  let '(a1, b1, c1, e1) := h1 in
  let '(a2, b2, c2, e2) := h2 in
  let '(a3, b3, c3, e3) := h3 in
  let t := det3 h1 h2 h3 in
  ((- e1 * (b2 * c3 - b3 * c2) - e2 * (b3 * c1 - b1 * c3) - e3 * (b1 * c2 - b2 * c1)) / t,
   (- e1 * (- a2 * c3 + a3 * c2) - e2 * (- a3 * c1 + a1 * c3) - e3 * (- a1 * c2 + a2 * c1)) / t,
   (- e1 * (a2 * b3 - a3 * b2) - e2 * (a3 * b1 - a1 * b3) - e3 * (a1 * b2 - a2 * b1)) / t)%R.

Lemma intersect_exact h1 h2 h3 : finh h1 -> finh h2 -> finh h3 ->
  exists x y z, intersect N h1 h2 h3 = (x, y, z, fofZ N 1) /\
    finp (x, y, z) /\
    (det3 (valh h1) (valh h2) (valh h3) <> 0%R ->
       valp (x, y, z) = cramer (valh h1) (valh h2) (valh h3)) /\
    (det3 (valh h1) (valh h2) (valh h3) = 0%R -> valp (x, y, z) = (0, 0, 0)%R).
Proof.
  destruct h1 as [[[a1 b1] c1] e1], h2 as [[[a2 b2] c2] e2], h3 as [[[a3 b3] c3] e3].
  intros (?&?&?&?) (?&?&?&?) (?&?&?&?). unfold intersect.
  set (tp := fadd N (fadd N _ _) _).
  assert (Ft : fin tp) by (unfold tp; auto 30 with fin).
  assert (Vt : val tp = det3 (valh (a1, b1, c1, e1)) (valh (a2, b2, c2, e2)) (valh (a3, b3, c3, e3))).
  { unfold tp. simpl. vpush. ring. }
  set (it := if feq N tp (fofZ N 0) then _ else _).
  assert (Fi : fin it /\ (val tp <> 0%R -> val it = (/ val tp)%R) /\ (val tp = 0%R -> val it = 0%R)).
  { unfold it. destruct (feq N tp (fofZ N 0)) eqn:Q.
    - apply (ex_eq _ E) in Q; auto with fin. rewrite val_ofZ in Q.
      split; [auto with fin|]. rewrite val_ofZ. split; [intro; congruence|auto].
    - apply feq_false in Q; auto with fin. rewrite val_ofZ in Q.
      split; [apply fin_div; auto with fin|].
      rewrite val_div by auto with fin. rewrite val_ofZ. split; [intros; field; auto|].
      intros; contradiction. }
  destruct Fi as (Fi & Vi1 & Vi0).
  do 3 eexists. split; [reflexivity|]. split; [repeat split; auto 30 with fin|].
  rewrite <- Vt. unfold cramer. rewrite <- Vt.
  split; intros Hz; simpl; vpush; [rewrite Vi1 by assumption|rewrite Vi0 by assumption].
  - unfold Rdiv. apply f_equal2; [apply f_equal2|]; try (f_equal; ring).
  - apply f_equal2; [apply f_equal2|]; ring.
Qed.
End PExact2.

(** Facts about [cramer] over the reals *)
Lemma cramer_on (h1 h2 h3 : pl) : det3 h1 h2 h3 <> 0%R ->
  ev h1 (cramer h1 h2 h3) = 0%R /\ ev h2 (cramer h1 h2 h3) = 0%R /\ ev h3 (cramer h1 h2 h3) = 0%R.
Proof.
  destruct h1 as [[[a1 b1] c1] e1], h2 as [[[a2 b2] c2] e2], h3 as [[[a3 b3] c3] e3].
  intros H. unfold cramer. set (t := det3 _ _ _) in *.
  assert (Ht : t = (a1 * (b2 * c3 - b3 * c2) - b1 * (a2 * c3 - a3 * c2) + c1 * (a2 * b3 - a3 * b2))%R)
    by reflexivity.
  clearbody t. unfold ev. repeat split;
    apply (Rmult_eq_reg_r t); try assumption; field_simplify; try assumption; rewrite Ht; ring.
Qed.

Lemma cramer_unique (h1 h2 h3 : pl) x : det3 h1 h2 h3 <> 0%R ->
  ev h1 x = 0%R -> ev h2 x = 0%R -> ev h3 x = 0%R -> x = cramer h1 h2 h3.
Proof.
  destruct h1 as [[[a1 b1] c1] e1], h2 as [[[a2 b2] c2] e2], h3 as [[[a3 b3] c3] e3].
  destruct x as [[x y] z]. intros H H1 H2 H3. unfold cramer. set (t := det3 _ _ _) in *.
  assert (Ht : t = (a1 * (b2 * c3 - b3 * c2) - b1 * (a2 * c3 - a3 * c2) + c1 * (a2 * b3 - a3 * b2))%R)
    by reflexivity.
  clearbody t. unfold ev in *.
  assert (E1 : e1 = (- (a1 * x + b1 * y + c1 * z))%R) by lra.
  assert (E2 : e2 = (- (a2 * x + b2 * y + c2 * z))%R) by lra.
  assert (E3 : e3 = (- (a3 * x + b3 * y + c3 * z))%R) by lra.
  subst e1 e2 e3. clear H1 H2 H3.
  apply f_equal2; [apply f_equal2|]; apply (Rmult_eq_reg_r t); try assumption;
  unfold Rdiv; rewrite Rmult_assoc, Rinv_l by assumption; rewrite Ht; ring.
Qed.
