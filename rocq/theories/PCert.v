(** The integer test implies robust position. *)
From Verif Require Import Base PBase SpecGeom SpecNear SpecRobust SpecCert.
From Coq Require Import Reals Lra Psatz.
Import SpecGeom.
Local Open Scope R_scope.

(** a real plane is a positive multiple of an integer one *)
Definition mult (v s : R) (H : zpl) (h : pl) : Prop :=
  (0 < s /\ 0 < v) /\ let '(a, b, c, d) := H in h = (s * v * IZR a, s * v * IZR b, s * v * IZR c, s * IZR d).

Ltac z2r := repeat (rewrite ?plus_IZR, ?minus_IZR, ?mult_IZR, ?opp_IZR).
Lemma mult_len v s H h : mult v s H h -> len h = s * v * sqrt (IZR (zlen2 H)).
Proof.
  intros [[Hs Hv] E]. destruct H as [[[a b] c] d]. subst h. unfold len, zlen2. z2r. assert (0 < s * v) by (now apply Rmult_lt_0_compat). set (k := s * v) in *.
  replace (k * IZR a * (k * IZR a) + k * IZR b * (k * IZR b) + k * IZR c * (k * IZR c)) with (k * k * (IZR a * IZR a + IZR b * IZR b + IZR c * IZR c)) by ring.
  rewrite sqrt_mult_alt by nra. rewrite sqrt_square by lra. reflexivity.
Qed.
Lemma mult_det v s1 s2 s3 H1 H2 H3 h1 h2 h3 : mult v s1 H1 h1 -> mult v s2 H2 h2 -> mult v s3 H3 h3 -> det3 h1 h2 h3 = s1 * s2 * s3 * (v * v * v) * IZR (zdet3 H1 H2 H3).
Proof.
  intros [_ E1] [_ E2] [_ E3]. destruct H1 as [[[a1 b1] c1] d1], H2 as [[[a2 b2] c2] d2], H3 as [[[a3 b3] c3] d3]. subst. unfold det3, zdet3, zcorner, zminors, zthird, snd. z2r. ring.
Qed.
Lemma mult_ev v s1 s2 s3 s H1 H2 H3 H h1 h2 h3 h x : mult v s1 H1 h1 -> mult v s2 H2 h2 -> mult v s3 H3 h3 -> mult v s H h ->
  ev h1 x = 0 -> ev h2 x = 0 -> ev h3 x = 0 -> ev h x * det3 h1 h2 h3 = s1 * s2 * s3 * s * (v * v * v) * IZR (zev H (zcorner H1 H2 H3)).
Proof.
  intros [[P1 Pv] E1] [[P2 _] E2] [[P3 _] E3] [[P0 _] E0] V1 V2 V3. destruct H1 as [[[a1 b1] c1] d1], H2 as [[[a2 b2] c2] d2], H3 as [[[a3 b3] c3] d3], H as [[[a b] c] d], x as [[x y] z].
  subst. unfold ev in *. unfold det3, zcorner, zminors, zthird, zev. z2r.
  assert (F : forall s a b c d, 0 < s -> s * v * a * x + s * v * b * y + s * v * c * z + s * d = 0 -> d = - v * (a * x + b * y + c * z)).
  { clear. intros s a b c d Hs V. assert (s * (v * (a * x + b * y + c * z) + d) = 0) by lra. apply Rmult_integral in H as [H|H]; lra. }
  apply F in V1, V2, V3; try assumption. rewrite V1, V2, V3. ring.
Qed.

(** orders of the three walls *)
Section All.
Context {A : Type} (f : A -> A -> A -> bool) (P : A -> A -> A -> Prop).
Hypothesis fP : forall a b c, f a b c = true -> P a b c.
Hypothesis s12 : forall a b c, P a b c -> P b a c.
Hypothesis s23 : forall a b c, P a b c -> P a c b.
Hypothesis same : forall a c, P a a c.
Lemma all_in (g : A -> bool) l : all g l = true -> forall a, In a l -> g a = true.
Proof. induction l as [|a l IH]; intros H b Hb; [destruct Hb|]. simpl in H. destruct (g a) eqn:Q; [|discriminate]. destruct Hb as [<-|Hb]; auto. Qed.
Lemma some_in (g : A -> bool) l : some g l = true -> exists a, In a l /\ g a = true.
Proof. induction l as [|a l IH]; intros H; [discriminate|]. simpl in H. destruct (g a) eqn:Q; [exists a; simpl; auto|]. destruct (IH H) as (b & I & E). exists b. simpl. auto. Qed.
Lemma all2_in (g : A -> A -> bool) l : all2 g l = true -> forall b c, In b l -> In c l -> b = c \/ g b c = true \/ g c b = true.
Proof.
  induction l as [|a l IH]; intros H b c Hb Hc; [destruct Hb|]. simpl in H. destruct (all (g a) l) eqn:H1; [|discriminate]. pose proof (all_in (g a) l H1) as H2.
  destruct Hb as [<-|Hb], Hc as [<-|Hc]; auto.
Qed.
Lemma all3_in l : all3 f l = true -> forall a b c, In a l -> In b l -> In c l -> P a b c.
Proof.
  assert (same2 : forall a c, P a c a) by (intros; apply s23, same). assert (same3 : forall a c, P c a a) by (intros; apply s12, same2).
  induction l as [|x l IH]; intros H a b c Ha Hb Hc; [destruct Ha|]. simpl in H. destruct (all2 (f x) l) eqn:H1; [|discriminate].
  assert (K : forall u v, In u l -> In v l -> P x u v).
  { intros u v Hu Hv. destruct (all2_in (f x) l H1 u v Hu Hv) as [->|[Q|Q]]; [apply same3|now apply fP|now apply s23, fP]. }
  destruct Ha as [<-|Ha], Hb as [<-|Hb], Hc as [<-|Hc]; auto.
Qed.
End All.

Definition far (U a b : Z) : Prop := zfar (U * U) a b = true.
Lemma far_sqrt U a b : (0 < U)%Z -> (0 <= b)%Z -> far U a b -> sqrt (IZR b / (IZR U * IZR U)) + eps20 < sqrt (IZR a / (IZR U * IZR U)).
Proof.
  intros HU Hb F. unfold far, zfar in F. destruct (Z.ltb_spec (U * U) ((a - b) * 262144)) as [F1|]; [|discriminate]. apply Z.leb_le in F. rename F into F2.
  apply IZR_lt in F1. apply IZR_le in F2. revert F1 F2. z2r. intros F1 F2. apply IZR_lt in HU. apply IZR_le in Hb.
  set (u := IZR U) in *. assert (U2 : 0 < u * u) by nra. set (X := IZR a / (u * u)). set (Y := IZR b / (u * u)).
  assert (EX : IZR a = X * (u * u)) by (unfold X; field; lra). assert (EY : IZR b = Y * (u * u)) by (unfold Y; field; lra).
  rewrite EX, EY in F1. rewrite EX in F2. rewrite EY in Hb. clearbody X Y. clear EX EY.
  assert (0 <= Y) by nra. assert (X <= 4) by nra. assert (1 < (X - Y) * 262144) by nra. clear F1 F2 Hb.
  pose proof (sqrt_pos Y) as P1. pose proof (sqrt_pos X) as P2. pose proof (sqrt_sqrt Y ltac:(lra)) as S1. pose proof (sqrt_sqrt X ltac:(lra)) as S2. unfold eps20.
  set (x := sqrt X) in *. set (y := sqrt Y) in *. clearbody x y. assert (x <= 2) by nra. assert (y <= 2) by nra. nra.
Qed.

Section W.
Variables (U m : Z) (oth : list zwall).
(** what [cert3] says *)
Definition kept (w1 w2 w3 : zwall) : Prop :=
  let '(l1, d1, h1) := w1 in let '(l2, d2, h2) := w2 in let '(l3, d3, h3) := w3 in
  zdet3 h1 h2 h3 <> 0%Z -> (forall f, In f (zcube U) -> (0 <= zev f (zcorner h1 h2 h3) * zdet3 h1 h2 h3)%Z) ->
  (forall l d h, In (l, d, h) oth -> far U d1 d \/ far U d2 d \/ far U d3 d -> (zev h (zcorner h1 h2 h3) * zdet3 h1 h2 h3 <= 0)%Z) ->
  forall l d h, In (l, d, h) oth -> l <> l1 -> l <> l2 -> l <> l3 -> ~ far U d1 d -> ~ far U d2 d -> ~ far U d3 d ->
  (zlen2 h1 * zlen2 h2 * zlen2 h3 * (U * U * (U * U)) * zlen2 h <= 1073741824 * (zev h (zcorner h1 h2 h3) * zev h (zcorner h1 h2 h3)) * m)%Z.
Lemma far_max a b c d : far U (Z.max (Z.max a b) c) d -> far U a d \/ far U b d \/ far U c d.
Proof. intros H. destruct (Z.max_spec (Z.max a b) c) as [[_ E]|[_ E]]; rewrite E in H; auto. destruct (Z.max_spec a b) as [[_ E']|[_ E']]; rewrite E' in H; auto. Qed.
Lemma sgn_mul a b c : (a * Z.sgn b < 0 -> c = b -> a * c < 0)%Z.
Proof. intros H ->. destruct (Z.sgn_spec b) as [[? E]|[[? E]|[? E]]]; rewrite E in H; nia. Qed.
Lemma cert3_kept w1 w2 w3 : cert3 (U * U) (zcube U) m oth w1 w2 w3 = true -> kept w1 w2 w3.
Proof.
  destruct w1 as [[l1 d1] h1], w2 as [[l2 d2] h2], w3 as [[l3 d3] h3]. unfold cert3, kept. cbv zeta. fold (zcorner h1 h2 h3). fold (zdet3 h1 h2 h3). intros H N C O l d h Hin N1 N2 N3 F1 F2 F3.
  destruct (Z.eqb_spec (Z.sgn (zdet3 h1 h2 h3)) 0) as [Q|_]; [exfalso; apply N; now apply Z.sgn_null_iff|].
  destruct (some _ (zcube U)) eqn:C1.
  { exfalso. apply some_in in C1 as (f & If & L). apply Z.ltb_lt in L. specialize (C f If). pose proof (sgn_mul _ _ _ L eq_refl). lia. }
  match type of H with context [some ?g oth] => destruct (some g oth) eqn:O1 end.
  { exfalso. apply some_in in O1 as ([[l' d'] h'] & If & L). destruct (zfar _ _ d') eqn:Fa; [|discriminate]. apply Z.ltb_lt in L. specialize (O l' d' h' If (far_max _ _ _ _ Fa)).
    pose proof (sgn_mul (- zev h' (zcorner h1 h2 h3)) _ (zdet3 h1 h2 h3) ltac:(lia) eq_refl). lia. }
  pose proof (all_in _ _ H _ Hin) as H'. cbv beta iota zeta in H'. clear H.
  replace ((l =? l1) || (l =? l2) || (l =? l3) || zfar (U * U) (Z.max (Z.max d1 d2) d3) d)%Z%bool with false in H'.
  { apply Z.leb_le in H'. replace (zlen2 h1 * zlen2 h2 * zlen2 h3 * (U * U * (U * U)))%Z with (zlen2 h1 * zlen2 h2 * (U * U * (U * U)) * zlen2 h3)%Z by ring. exact H'. }
  symmetry. apply Z.eqb_neq in N1, N2, N3. rewrite N1, N2, N3. cbn [orb]. destruct (zfar _ _ d) eqn:Fa; [|reflexivity]. apply far_max in Fa. tauto.
Qed.
Lemma zdet_12 h1 h2 h3 : zdet3 h2 h1 h3 = (- zdet3 h1 h2 h3)%Z.
Proof. destruct h1 as [[[? ?] ?] ?], h2 as [[[? ?] ?] ?], h3 as [[[? ?] ?] ?]. unfold zdet3, zcorner, zminors, zthird, snd. ring. Qed.
Lemma zdet_23 h1 h2 h3 : zdet3 h1 h3 h2 = (- zdet3 h1 h2 h3)%Z.
Proof. destruct h1 as [[[? ?] ?] ?], h2 as [[[? ?] ?] ?], h3 as [[[? ?] ?] ?]. unfold zdet3, zcorner, zminors, zthird, snd. ring. Qed.
Lemma zev_12 h1 h2 h3 h : zev h (zcorner h2 h1 h3) = (- zev h (zcorner h1 h2 h3))%Z.
Proof. destruct h1 as [[[? ?] ?] ?], h2 as [[[? ?] ?] ?], h3 as [[[? ?] ?] ?], h as [[[? ?] ?] ?]. unfold zcorner, zminors, zthird, zev. ring. Qed.
Lemma zev_23 h1 h2 h3 h : zev h (zcorner h1 h3 h2) = (- zev h (zcorner h1 h2 h3))%Z.
Proof. destruct h1 as [[[? ?] ?] ?], h2 as [[[? ?] ?] ?], h3 as [[[? ?] ?] ?], h as [[[? ?] ?] ?]. unfold zcorner, zminors, zthird, zev. ring. Qed.
Lemma kept_12 w1 w2 w3 : kept w1 w2 w3 -> kept w2 w1 w3.
Proof.
  destruct w1 as [[l1 d1] h1], w2 as [[l2 d2] h2], w3 as [[l3 d3] h3]. unfold kept. intros H N C O l d h Hin N1 N2 N3 F1 F2 F3. rewrite (zdet_12 h1 h2 h3) in *.
  rewrite (zev_12 h1 h2 h3). rewrite Z.mul_opp_opp. rewrite (Z.mul_comm (zlen2 h2)). apply (H ltac:(lia)) with (l := l) (d := d); auto.
  - intros f Hf. specialize (C f Hf). rewrite (zev_12 h1 h2 h3), Z.mul_opp_opp in C. exact C.
  - intros l' d' h' Hi' F. specialize (O l' d' h' Hi' ltac:(tauto)). rewrite (zev_12 h1 h2 h3), Z.mul_opp_opp in O. exact O.
Qed.
Lemma kept_23 w1 w2 w3 : kept w1 w2 w3 -> kept w1 w3 w2.
Proof.
  destruct w1 as [[l1 d1] h1], w2 as [[l2 d2] h2], w3 as [[l3 d3] h3]. unfold kept. intros H N C O l d h Hin N1 N2 N3 F1 F2 F3. rewrite (zdet_23 h1 h2 h3) in *.
  rewrite (zev_23 h1 h2 h3). rewrite Z.mul_opp_opp. replace (zlen2 h1 * zlen2 h3 * zlen2 h2)%Z with (zlen2 h1 * zlen2 h2 * zlen2 h3)%Z by ring. apply (H ltac:(lia)) with (l := l) (d := d); auto.
  - intros f Hf. specialize (C f Hf). rewrite (zev_23 h1 h2 h3), Z.mul_opp_opp in C. exact C.
  - intros l' d' h' Hi' F. specialize (O l' d' h' Hi' ltac:(tauto)). rewrite (zev_23 h1 h2 h3), Z.mul_opp_opp in O. exact O.
Qed.
Lemma kept_same w w3 : kept w w w3.
Proof. destruct w as [[l1 d1] h1], w3 as [[l3 d3] h3]. unfold kept. intros N. exfalso. apply N. pose proof (zdet_12 h1 h1 h3). lia. Qed.
Lemma kept_all l : all3 (cert3 (U * U) (zcube U) m oth) l = true -> forall a b c, In a l -> In b l -> In c l -> kept a b c.
Proof. exact (all3_in _ kept cert3_kept kept_12 kept_23 kept_same l). Qed.
End W.

Lemma zwalls_in S i p l d h : In (l, d, h) (zwalls S i p) <-> exists q, znth S l = Some q /\ l <> i /\ d = zd2 p q /\ h = zbis p q.
Proof.
  unfold zwalls. rewrite in_flat_map. split.
  - intros (l' & _ & H). destruct (znth S l') as [q|] eqn:Eq; [|destruct H]. destruct (Z.eqb_spec l' i); [destruct H|]. destruct H as [H|[]]. injection H as <- <- <-. exists q. auto.
  - intros (q & Eq & N & -> & ->). exists l. split; [apply in_zrange; now apply znth_some in Eq|]. rewrite Eq. apply Z.eqb_neq in N. rewrite N. now left.
Qed.
Lemma fold_min (l : list zwall) a w : In w l -> (fold_right (fun w a => Z.min (snd (fst w)) a) a l <= snd (fst w))%Z.
Proof. induction l as [|b l IH]; [intros []|]. intros [->|H]; simpl; [lia|]. specialize (IH H). lia. Qed.
Lemma znth_map {A B} (f : A -> B) l i : znth (map f l) i = option_map f (znth l i).
Proof. unfold znth. destruct (0 <=? i)%Z; [|reflexivity]. apply nth_error_map. Qed.

Lemma quad_eq (a b c d a' b' c' d' : R) : a = a' -> b = b' -> c = c' -> d = d' -> (a, b, c, d) = (a', b', c', d').
Proof. now intros -> -> -> ->. Qed.

Lemma zd2_pos p q : (0 <= zd2 p q)%Z.
Proof. destruct p as [[a b] c], q as [[a' b'] c']. unfold zd2. pose proof (Z.square_nonneg (a - a')). pose proof (Z.square_nonneg (b - b')). pose proof (Z.square_nonneg (c - c')). lia. Qed.
Lemma zlen2_pos h : (0 <= zlen2 h)%Z.
Proof. destruct h as [[[a b] c] d]. unfold zlen2. pose proof (Z.square_nonneg a). pose proof (Z.square_nonneg b). pose proof (Z.square_nonneg c). lia. Qed.

Section Cert.
Variables (U : Z) (S : list zpt) (i : Z).
Hypothesis HU : (0 < U)%Z.
Let u := IZR U.
Lemma u_pos : 0 < u.
Proof. apply IZR_lt in HU. exact HU. Qed.
Lemma upt_d2 p q : d2 (upt U p) (upt U q) = IZR (zd2 p q) / (u * u).
Proof. pose proof u_pos. destruct p as [[a b] c], q as [[a' b'] c']. unfold upt, d2, zd2. z2r. fold u. field. lra. Qed.
Let v := 2 * u.
Lemma upt_bis p q : mult v (/ (2 * (u * u))) (zbis p q) (bisector (upt U p) (upt U q)).
Proof.
  pose proof u_pos as P. split; [split; [apply Rinv_0_lt_compat; nra|unfold v; lra]|]. destruct p as [[a b] c], q as [[a' b'] c']. unfold zbis, bisector, upt, v. z2r. fold u.
  apply quad_eq; field; lra.
Qed.
Lemma cube_mult h : In h cube_faces -> exists H, In H (zcube U) /\ mult v (/ v) H h.
Proof.
  unfold cube_faces, zcube. cbn [In]. pose proof u_pos as P. assert (L : 0 < / v /\ 0 < v) by (split; [apply Rinv_0_lt_compat|]; unfold v; lra). assert (E : / v * v = 1) by (apply Rinv_l; lra).
  assert (E2 : / v * IZR (2 * U) = 1) by (rewrite mult_IZR; exact E).
  intros [<-|[<-|[<-|[<-|[<-|[<-|[]]]]]]];
    [exists (1, 0, 0, 0)%Z|exists (-1, 0, 0, 2 * U)%Z|exists (0, 1, 0, 0)%Z|exists (0, -1, 0, 2 * U)%Z|exists (0, 0, 1, 0)%Z|exists (0, 0, -1, 2 * U)%Z]; (split; [tauto|]); (split; [exact L|]);
    rewrite ?E, ?E2; apply quad_eq; lra.
Qed.
Lemma zcube_ev H : In H (zcube U) -> exists h, mult v (/ v) H h /\ forall x, in_cube x -> 0 <= ev h x.
Proof.
  pose proof u_pos as P. assert (L : 0 < / v /\ 0 < v) by (split; [apply Rinv_0_lt_compat|]; unfold v; lra). assert (E : / v * v = 1) by (apply Rinv_l; lra).
  assert (E2 : / v * IZR (2 * U) = 1) by (rewrite mult_IZR; exact E).
  destruct H as [[[a b] c] d]. intros I. exists (/ v * v * IZR a, / v * v * IZR b, / v * v * IZR c, / v * IZR d). split; [split; [exact L|reflexivity]|]. intros [[x y] z] (X & Y & Z). unfold ev.
  unfold zcube in I. cbn [In] in I. destruct I as [Q|[Q|[Q|[Q|[Q|[Q|[]]]]]]]; injection Q as <- <- <- <-; rewrite ?E, ?E2; destruct X, Y, Z; lra.
Qed.

Lemma cert_robust : certb U S i = true -> exists rho, robust (map (upt U) S) i rho.
Proof.
  intros H. unfold certb in H. destruct (znth S i) as [p|] eqn:Ep; [|discriminate]. cbv zeta in H. set (oth := zwalls S i p) in *. set (m := fold_right _ _ _) in *. destruct (Z.ltb_spec 0 m) as [H0|]; [|discriminate]. pose proof u_pos as P. assert (UU : 0 < u * u) by nra.
  pose proof (kept_all U m oth _ H) as K. clear H. pose proof (IZR_lt _ _ H0) as M0.
  assert (ZS : forall j q, znth (map (upt U) S) j = Some q -> exists q0, znth S j = Some q0 /\ q = upt U q0).
  { intros j q E. rewrite znth_map in E. destruct (znth S j) as [q0|]; [|discriminate]. injection E as <-. eauto. }
  assert (ML : forall j q, znth S j = Some q -> j <> i -> (m <= zd2 p q)%Z).
  { intros j q Ej N. pose proof (fold_min oth (U * U) (j, zd2 p q, zbis p q)) as Q. apply Q. apply zwalls_in. eauto. }
  exists (sqrt (IZR m / (u * u))). split; [|split].
  - apply sqrt_lt_R0. apply Rdiv_lt_0_compat; assumption.
  - intros j pp qq [_ Nj] Ei Ej. destruct (ZS _ _ Ei) as (p0 & Ep0 & ->). destruct (ZS _ _ Ej) as (q0 & Eq0 & ->). assert (p0 = p) by congruence. subst p0.
    rewrite upt_d2. apply sqrt_le_1_alt. apply Rmult_le_compat_r; [left; now apply Rinv_0_lt_compat|]. apply IZR_le. now apply (ML j q0).
  - intros A j pp qq h1 h2 h3 x [NA NS] [Rj Nj] Aj Ei Ej ((W1 & W2 & W3) & Dt & (V1 & V2 & V3) & Cx & CA).
    destruct (ZS _ _ Ei) as (p0 & Ep0 & ->). destruct (ZS _ _ Ej) as (q0 & Eq0 & ->). assert (p0 = p) by congruence. subst p0.
    assert (WW : forall h, wall (map (upt U) S) A (upt U p) h -> exists s l d H, In (l, d, H) (zcube_walls U ++ oth) /\ mult v s H h /\ l <> j /\
      forall l' q', znth S l' = Some q' -> l' <> i -> far U d (zd2 p q') -> ~ ~ A l').
    { intros h [Hc|(l & q & Al & El & ->)].
      - destruct (cube_mult h Hc) as (H & I & M). exists (/ v), (-1)%Z, 0%Z, H. split; [apply in_or_app; left; unfold zcube_walls; now apply in_map|]. split; [exact M|]. split; [lia|].
        intros l' q' _ _ F _. unfold far, zfar in F. destruct (Z.ltb_spec (U * U) ((0 - zd2 p q') * 262144)) as [F'|]; [|discriminate]. pose proof (zd2_pos p q'). pose proof (Z.square_nonneg U). lia.
      - destruct (ZS _ _ El) as (ql & Eql & ->). destruct (NA l Al) as [_ Nl]. exists (/ (2 * (u * u))), l, (zd2 p ql), (zbis p ql).
        split; [apply in_or_app; right; apply zwalls_in; eauto|]. split; [apply upt_bis|]. split; [intros ->; contradiction|].
        intros l' q' El' Nl' F NAl'. assert (Q : 0 <= IZR (zd2 p q')) by (apply IZR_le, zd2_pos).
        assert (E' : znth (map (upt U) S) l' = Some (upt U q')) by (rewrite znth_map, El'; reflexivity).
        assert (O : others (zlen (map (upt U) S)) i l') by (split; [exact (znth_some _ _ _ E')|exact Nl']).
        pose proof (NS l l' _ _ _ Al O NAl' Ei El E') as L. rewrite !upt_d2 in L. pose proof (far_sqrt U _ _ HU (le_IZR _ _ Q) F) as L'. unfold u in L. lra. }
    destruct (WW h1 W1) as (s1 & l1 & e1 & H1 & I1 & M1 & N1 & F1). destruct (WW h2 W2) as (s2 & l2 & e2 & H2 & I2 & M2 & N2 & F2). destruct (WW h3 W3) as (s3 & l3 & e3 & H3 & I3 & M3 & N3 & F3). clear WW.
    pose proof (mult_det v _ _ _ _ _ _ _ _ _ M1 M2 M3) as ED. pose proof (proj1 (proj1 M1)) as P1. pose proof (proj1 (proj1 M2)) as P2. pose proof (proj1 (proj1 M3)) as P3. assert (Pv : 0 < v * v * v) by (assert (L : 0 < v) by (unfold v; lra); exact (Rmult_lt_0_compat _ _ (Rmult_lt_0_compat _ _ L L) L)).
    assert (P123 : 0 < s1 * s2 * s3 * (v * v * v)) by (repeat (apply Rmult_lt_0_compat; [|assumption]); assumption).
    pose proof (upt_bis p q0) as Mb. pose proof (proj1 (proj1 Mb)) as Pb.
    assert (SG : forall s H h, mult v s H h -> ev h x * (det3 h1 h2 h3 * det3 h1 h2 h3) = (s1 * s2 * s3 * (v * v * v)) * (s1 * s2 * s3 * (v * v * v)) * s * IZR (zev H (zcorner H1 H2 H3) * zdet3 H1 H2 H3)).
    { intros s H h M. rewrite <- Rmult_assoc, (mult_ev v _ _ _ _ _ _ _ _ _ _ _ _ x M1 M2 M3 M V1 V2 V3), ED, mult_IZR. ring. }
    assert (DD : 0 < det3 h1 h2 h3 * det3 h1 h2 h3) by nra. assert (QQ : 0 < (s1 * s2 * s3 * (v * v * v)) * (s1 * s2 * s3 * (v * v * v))) by (apply Rmult_lt_0_compat; assumption).
    pose proof (K _ _ _ I1 I2 I3) as KK. unfold kept in KK.
    assert (FIN : (zlen2 H1 * zlen2 H2 * zlen2 H3 * (U * U * (U * U)) * zlen2 (zbis p q0) <= 1073741824 * (zev (zbis p q0) (zcorner H1 H2 H3) * zev (zbis p q0) (zcorner H1 H2 H3)) * m)%Z).
    { apply KK with (l := j) (d := zd2 p q0); try congruence.
      - intros Z. apply Dt. rewrite ED, Z. ring.
      - intros f If. destruct (zcube_ev f If) as (hf & Mf & Cf). pose proof (SG _ _ _ Mf) as E. apply le_IZR. specialize (Cf x Cx). assert (0 <= ev hf x * (det3 h1 h2 h3 * det3 h1 h2 h3)) by (apply Rmult_le_pos; lra). 
        destruct (Rle_dec 0 (IZR (zev f (zcorner H1 H2 H3) * zdet3 H1 H2 H3))) as [R|R]; [exact R|]. exfalso.
        assert (Q : 0 < (s1 * s2 * s3 * (v * v * v)) * (s1 * s2 * s3 * (v * v * v)) * / v) by (apply Rmult_lt_0_compat; [exact QQ|exact (proj1 (proj1 Mf))]).
        rewrite E in H. set (kk := _ * / v) in *. clearbody kk. clear - R H Q. nra.
      - intros l d h Il Fl. apply zwalls_in in Il as (ql & El & Nl & -> & ->). pose proof (SG _ _ _ (upt_bis p ql)) as E. apply le_IZR.
        destruct (Rle_dec (IZR (zev (zbis p ql) (zcorner H1 H2 H3) * zdet3 H1 H2 H3)) 0) as [R|R]; [exact R|]. exfalso.
        assert (Pl : 0 < / (2 * (u * u))) by (apply Rinv_0_lt_compat; lra).
        assert (X : 0 < (s1 * s2 * s3 * (v * v * v)) * (s1 * s2 * s3 * (v * v * v)) * / (2 * (u * u)) * IZR (zev (zbis p ql) (zcorner H1 H2 H3) * zdet3 H1 H2 H3)) by (repeat apply Rmult_lt_0_compat; lra).
        rewrite <- E in X. assert (XE : 0 < ev (bisector (upt U p) (upt U ql)) x) by (destruct (Rle_dec (ev (bisector (upt U p) (upt U ql)) x) 0); [exfalso; nra|lra]).
        assert (E' : znth (map (upt U) S) l = Some (upt U ql)) by (rewrite znth_map, El; reflexivity).
        assert (NA' : ~ A l).
        { intros Al. specialize (CA l _ Al E'). clear - XE CA. destruct (upt U p) as [[a b] c], (upt U ql) as [[a' b'] c'], x as [[x y] z]. unfold ev, bisector, d2 in *. lra. }
        destruct Fl as [Fl|[Fl|Fl]]; [exact (F1 l ql El Nl Fl NA')|exact (F2 l ql El Nl Fl NA')|exact (F3 l ql El Nl Fl NA')].
      - apply zwalls_in. eauto.
      - intros Fl. exact (F1 j q0 Eq0 Nj Fl Aj).
      - intros Fl. exact (F2 j q0 Eq0 Nj Fl Aj).
      - intros Fl. exact (F3 j q0 Eq0 Nj Fl Aj). }
    rewrite (mult_len _ _ _ _ M1), (mult_len _ _ _ _ M2), (mult_len _ _ _ _ M3), (mult_len _ _ _ _ Mb).
    pose proof (mult_ev v _ _ _ _ _ _ _ _ _ _ _ _ x M1 M2 M3 Mb V1 V2 V3) as EV.
    apply IZR_le in FIN. revert FIN. z2r. fold u. intros FIN.
    set (sb := / (2 * (u * u))) in *. set (e := IZR (zev _ _)) in *.
    assert (AB : Rabs (ev (bisector (upt U p) (upt U q0)) x) * Rabs (det3 h1 h2 h3) = s1 * s2 * s3 * sb * (v * v * v) * Rabs e).
    { rewrite <- Rabs_mult, EV, Rabs_mult. f_equal. apply Rabs_pos_eq. left. repeat (apply Rmult_lt_0_compat; [|assumption]); assumption. }
    assert (L0 : forall H, 0 <= IZR (zlen2 H)) by (intros H; apply IZR_le, zlen2_pos).
    pose proof (L0 H1) as L1. pose proof (L0 H2) as L2. pose proof (L0 H3) as L3. pose proof (L0 (zbis p q0)) as Lb.
    set (q1 := IZR (zlen2 H1)) in *. set (q2 := IZR (zlen2 H2)) in *. set (q3 := IZR (zlen2 H3)) in *. set (q4 := IZR (zlen2 (zbis p q0))) in *. set (mm := IZR m) in *.
    replace (Rabs (ev (bisector (upt U p) (upt U q0)) x) * sqrt (mm / (u * u)) * Rabs (det3 h1 h2 h3)) with (s1 * s2 * s3 * sb * (v * v * v) * (Rabs e * sqrt (mm / (u * u)))) by (rewrite <- Rmult_assoc, <- AB; ring).
    replace (/ 65536 * (s1 * v * sqrt q1 * (s2 * v * sqrt q2) * (s3 * v * sqrt q3)) * (sb * v * sqrt q4)) with (s1 * s2 * s3 * sb * (v * v * v) * (/ 65536 * v * (sqrt q1 * sqrt q2 * sqrt q3 * sqrt q4))) by ring.
    apply Rmult_le_compat_l; [left; repeat (apply Rmult_lt_0_compat; [|assumption]); assumption|].
    rewrite <- !sqrt_mult_alt by (repeat apply Rmult_le_pos; assumption). rewrite <- (sqrt_Rsqr_abs e). rewrite <- sqrt_mult_alt by apply Rle_0_sqr.
    replace (/ 65536 * v) with (sqrt (/ 1073741824 * (u * u))).
    2:{ replace (/ 1073741824 * (u * u)) with ((/ 65536 * v) * (/ 65536 * v)) by (unfold v; field). apply sqrt_square. unfold v. lra. }
    rewrite <- sqrt_mult_alt by lra. apply sqrt_le_1_alt. unfold Rsqr.
    clearbody e q1 q2 q3 q4 mm. clear - FIN UU. apply (Rmult_le_reg_r (1073741824 * (u * u))); [lra|].
    replace (/ 1073741824 * (u * u) * (q1 * q2 * q3 * q4) * (1073741824 * (u * u))) with (q1 * q2 * q3 * (u * u * (u * u)) * q4) by field.
    replace (e * e * (mm / (u * u)) * (1073741824 * (u * u))) with (1073741824 * (e * e) * mm) by (field; nra). exact FIN.
Qed.
End Cert.
Lemma certs_robust U S : (0 < U)%Z -> certs U S = true -> forall i, (0 <= i < zlen S)%Z -> exists rho, robust (map (upt U) S) i rho.
Proof. intros HU H i Hi. apply (cert_robust U S i HU). unfold certs in H. apply (all_in _ _ H). now apply in_zrange. Qed.
