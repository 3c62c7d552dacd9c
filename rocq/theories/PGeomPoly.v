(** Polytopes kept as triangles of plane labels (the dual surface), over the
    real numbers: the invariant of the clipping, its consequences, and one cut. *)
From Verif Require Import Base PBase SpecGeom SpecBnd PBnd PBndRun PBndLoop PCellRun PGeomCone.
From Coq Require Import Psatz.
Local Open Scope R_scope.

(** ** the fan over a cycle *)
Lemma fan_in C n z : forall l a, chain C a l z -> NoDup (a :: l) -> forall t,
  In t (fan a l z n) <-> exists u v, t = (u, v, n) /\ In u (a :: l) /\ znth C u = Some v.
Proof.
  induction l as [|b l IH]; intros a Hc Nd t; cbn [fan chain] in *.
  - split.
    + intros [<-|[]]. exists a, z. simpl. auto.
    + intros (u & v & -> & [<-|[]] & E). left. congruence.
  - destruct Hc as [E Hc]. inversion Nd; subst. split.
    + intros [<-|I]; [exists a, b; simpl; auto|]. apply (IH b Hc) in I; auto. destruct I as (u & v & -> & I & E'). exists u, v. simpl in *. tauto.
    + intros (u & v & -> & [<-|I] & E'); [left; congruence|right]. apply (IH b Hc); auto. eauto.
Qed.
Lemma chain_succ C z : forall l a, chain C a l z -> forall u, In u (a :: l) -> exists v, znth C u = Some v /\ In v (l ++ [z]).
Proof.
  induction l as [|b l IH]; intros a Hc u Hu; cbn [chain] in *.
  - destruct Hu as [<-|[]]. exists z. split; [assumption|]. now left.
  - destruct Hc as [E Hc]. destruct Hu as [<-|Hu]; [exists b; split; [assumption|now left]|].
    destruct (IH b Hc u Hu) as (v & Ev & Iv). exists v. split; [assumption|]. now right.
Qed.
Lemma chain_pred C z : forall l a, chain C a l z -> forall v, In v (l ++ [z]) -> exists u, znth C u = Some v /\ In u (a :: l).
Proof.
  induction l as [|b l IH]; intros a Hc v Hv; cbn [chain] in *.
  - destruct Hv as [<-|[]]. exists a. split; [assumption|]. now left.
  - destruct Hc as [E Hc]. destruct Hv as [<-|Hv]; [exists a; split; [assumption|now left]|].
    destruct (IH b Hc v Hv) as (u & Eu & Iu). exists u. split; [assumption|]. now right.
Qed.
Lemma fan_edges n z : forall l a e, In e (edges (fan a l z n)) ->
  exists u v, In u (a :: l) /\ In v (l ++ [z]) /\ (e = (u, v) \/ e = (v, n) \/ e = (n, u)).
Proof.
  induction l as [|b l IH]; intros a e He; cbn [fan] in He.
  - simpl in He. exists a, z. simpl. intuition.
  - change (edges ((a, b, n) :: fan b l z n)) with ([(a, b); (b, n); (n, a)] ++ edges (fan b l z n)) in He.
    apply in_app_or in He. destruct He as [He|He].
    + exists a, b. simpl in He. simpl. intuition.
    + destruct (IH b e He) as (u & v & Iu & Iv & E). exists u, v. simpl in *. tauto.
Qed.
Lemma fan_nodup n z : forall l a, NoDup (a :: l) -> NoDup (l ++ [z]) -> ~ In n (a :: l) -> n <> z -> NoDup (edges (fan a l z n)).
Proof.
  induction l as [|b l IH]; intros a N1 N2 Hn Hz; cbn [fan].
  - simpl in Hn. simpl. assert (a <> n) by tauto. repeat constructor; simpl; intuition congruence.
  - change (edges ((a, b, n) :: fan b l z n)) with ((a, b) :: (b, n) :: (n, a) :: edges (fan b l z n)).
    inversion N1 as [|? ? Na Nb]; subst. simpl in N2. inversion N2 as [|? ? Nb2 Nl]; subst.
    assert (Xa : a <> n) by (intros ->; apply Hn; now left). assert (Xb : b <> n) by (intros ->; apply Hn; right; now left).
    assert (Xl : forall u, In u (b :: l) -> u <> n) by (intros u Hu ->; apply Hn; now right).
    assert (Xv : forall v, In v (l ++ [z]) -> v <> n).
    { intros v Hv ->. apply in_app_or in Hv. destruct Hv as [Hv|[->|[]]]; [apply Hn; right; now right|congruence]. }
    constructor; [|constructor; [|constructor; [|apply IH; auto; intros H; apply Hn; now right]]].
    + intros [E|[E|I]]; [congruence|congruence|]. destruct (fan_edges _ _ _ _ _ I) as (u & v & Iu & Iv & [E|[E|E]]); inversion E; subst; try congruence; tauto.
    + intros [E|I]; [congruence|]. destruct (fan_edges _ _ _ _ _ I) as (u & v & Iu & Iv & [E|[E|E]]); inversion E; subst; try congruence; try tauto.
      all: exfalso; eapply Xv; [exact Iv|reflexivity].
    + intros I. destruct (fan_edges _ _ _ _ _ I) as (u & v & Iu & Iv & [E|[E|E]]); inversion E; subst; try congruence; try tauto.
      all: exfalso; eapply Xl; [exact Iu|reflexivity].
Qed.

(** ** polytopes *)
Definition normal (h : pl) : pt := let '(a, b, c, _) := h in (a, b, c).
Lemma ev_normal h x y : ev h x - ev h y = vdot (normal h) x - vdot (normal h) y.
Proof. destruct h as [[[a b] c] d], x as [[x1 x2] x3], y as [[y1 y2] y3]. simpl. ring. Qed.
Lemma ev_mov h x s y : ev h (vmov x s y) = ev h x + s * vdot (normal h) y.
Proof. destruct h as [[[a b] c] d], x as [[x1 x2] x3], y as [[y1 y2] y3]. simpl. ring. Qed.

Definition label (l : Z) (t : tri) : Prop := let '(a, b, c) := t in l = a \/ l = b \/ l = c.
Lemma label_edge t u v : In (u, v) (tri_edges t) -> label u t /\ label v t.
Proof. destruct t as [[a b] c]. simpl. intros [[= <- <-]|[[= <- <-]|[[= <- <-]|[]]]]; auto. Qed.
Lemma edge_label t l : label l t -> exists v, In (l, v) (tri_edges t).
Proof. destruct t as [[a b] c]. simpl. intros [->|[->| ->]]; eauto. Qed.
Lemma label_lt n t l : tri_ok n t -> label l t -> (0 <= l < n)%Z.
Proof. destruct t as [[a b] c]. simpl. intros H [->|[->| ->]]; lia. Qed.

Section Poly.
(** the half-spaces: o j <= 0 *)
Variable o : Z -> pl.
Notation nrm := (fun j => normal (o j)).

Definition is_vertex (t : tri) (x : pt) : Prop := forall l, label l t -> ev (o l) x = 0.
Definition feasible (n : Z) (x : pt) : Prop := forall j, (0 <= j < n)%Z -> ev (o j) x <= 0.

(** the surface ts represents the polytope of the half-spaces below n, which contains p *)
Record surface (n : Z) (p : pt) (ts : list tri) : Prop := {
  sf_ok : forall t, In t ts -> tri_ok n t;
  sf_pos : forall t, In t ts -> 0 < tdet nrm t;
  sf_feas : forall t, In t ts -> exists x, is_vertex t x /\ feasible n x;
  sf_closed : forall u v, In (u, v) (edges ts) -> In (v, u) (edges ts);
  sf_nodup : NoDup (edges ts);
  sf_cover : covers nrm ts;
  sf_seed : feasible n p }.

(** in the cone of t, the vertex is the extreme point *)
Lemma support t f x y : 0 < tdet nrm t -> cone nrm t f -> is_vertex t x -> (forall l, label l t -> ev (o l) y <= 0) ->
  vdot f y <= vdot f x.
Proof.
  destruct t as [[a b] c]. intros D C V Y. rewrite cone_3 in C. destruct C as (C1 & C2 & C3). simpl in D.
  assert (K : forall l, label l (a, b, c) -> vdot (normal (o l)) y - vdot (normal (o l)) x <= 0).
  { intros l Hl. rewrite <- ev_normal. rewrite (V l Hl). specialize (Y l Hl). lra. }
  pose proof (cramer_dir (normal (o a)) (normal (o b)) (normal (o c)) f y) as Ey.
  pose proof (cramer_dir (normal (o a)) (normal (o b)) (normal (o c)) f x) as Ex.
  pose proof (K a ltac:(simpl; auto)). pose proof (K b ltac:(simpl; auto)). pose proof (K c ltac:(simpl; auto)).
  apply Rmult_le_reg_l with (vtri (normal (o a)) (normal (o b)) (normal (o c))); [assumption|]. nra.
Qed.

(** whatever satisfies the half-spaces that occur as labels is below some vertex *)
Lemma surface_support n p ts y f : surface n p ts -> (forall t l, In t ts -> label l t -> ev (o l) y <= 0) ->
  exists t x, In t ts /\ is_vertex t x /\ feasible n x /\ vdot f y <= vdot f x.
Proof.
  intros S H. destruct (sf_cover _ _ _ S f) as (t & It & Ct). destruct (sf_feas _ _ _ S t It) as (x & Vx & Fx).
  exists t, x. repeat split; auto. apply (support t); auto. - apply (sf_pos _ _ _ S); auto. - intros; eapply H; eauto.
Qed.

Lemma vertex_unique t x y : tdet nrm t <> 0 -> is_vertex t x -> is_vertex t y -> x = y.
Proof.
  destruct t as [[a b] c]. intros D X Y. simpl in D.
  assert (K : forall l, label l (a, b, c) -> vdot (normal (o l)) x = vdot (normal (o l)) y).
  { intros l Hl. pose proof (ev_normal (o l) x y) as E. rewrite (X l Hl), (Y l Hl) in E. lra. }
  assert (G : forall f, vdot f x = vdot f y).
  { intros f. apply Rmult_eq_reg_l with (vtri (normal (o a)) (normal (o b)) (normal (o c))); [|assumption]. rewrite (cramer_dir _ _ _ f x), (cramer_dir _ _ _ f y).
    rewrite (K a), (K b), (K c) by (simpl; auto). reflexivity. }
  pose proof (G (1, 0, 0)) as G1. pose proof (G (0, 1, 0)) as G2. pose proof (G (0, 0, 1)) as G3.
  destruct x as [[x1 x2] x3], y as [[y1 y2] y3]. simpl in G1, G2, G3. f_equal; [f_equal|]; lra.
Qed.

Lemma surface_perm n p ts ts' : Permutation ts ts' -> surface n p ts -> surface n p ts'.
Proof.
  intros P S. assert (I : forall t, In t ts' -> In t ts) by (intros t; apply Permutation_in; now apply Permutation_sym).
  assert (PE : Permutation (edges ts) (edges ts')) by (apply Permutation_flat_map; assumption).
  destruct S as [S1 S2 S3 S4 S5 S6 S7]. constructor; auto.
  - intros u v H. eapply Permutation_in; [exact PE|]. apply S4. eapply Permutation_in; [apply Permutation_sym; exact PE|exact H].
  - eapply Permutation_NoDup; eauto.
  - intros f. destruct (S6 f) as (t & It & Ct). exists t. split; [eapply Permutation_in; eauto|assumption].
Qed.

Lemma nodup_app {A} (a b : list A) e : NoDup (a ++ b) -> In e a -> In e b -> False.
Proof.
  induction a as [|x a IH]; intros H Ha Hb; [destruct Ha|]. simpl in H. inversion H; subst. destruct Ha as [->|Ha]; [|auto].
  apply H2. apply in_or_app. now right.
Qed.
Lemma nodup_app_l {A} (a b : list A) : NoDup (a ++ b) -> NoDup a.
Proof. induction a as [|x a IH]; intros H; [constructor|]. simpl in H. inversion H; subst. constructor; auto. intros I. apply H2, in_or_app. now left. Qed.
Lemma nodup_app_r {A} (a b : list A) : NoDup (a ++ b) -> NoDup b.
Proof. induction a as [|x a IH]; intros H; [assumption|]. simpl in H. inversion H; subst. auto. Qed.
Lemma nodup_app_i {A} (a b : list A) : NoDup a -> NoDup b -> (forall e, In e a -> In e b -> False) -> NoDup (a ++ b).
Proof.
  induction a as [|x a IH]; intros Ha Hb H; [assumption|]. simpl. inversion Ha; subst. constructor.
  - intros I. apply in_app_or in I. destruct I as [I|I]; [auto|]. apply (H x); [now left|assumption].
  - apply IH; auto. intros e I J. apply (H e); [now right|assumption].
Qed.
Lemma in_edges e ts : In e (edges ts) <-> exists t, In t ts /\ In e (tri_edges t).
Proof. apply in_flat_map. Qed.

(** ** one cut: half-space n removes the triangles R *)
Section Cut.
Variables (n : Z) (p : pt) (ts Kp R : list tri) (C : list Z) (hd : Z) (rest : list Z).
Hypothesis Hs : surface n p ts.
Hypothesis Hp : Permutation (Kp ++ R) ts.
Hypothesis HK : forall t x, In t Kp -> is_vertex t x -> ev (o n) x <= 0.
Hypothesis HR : forall t x, In t R -> is_vertex t x -> 0 < ev (o n) x.
Hypothesis Hseed : ev (o n) p <= 0.
Hypothesis HRne : R <> [].
Hypothesis HC : one_cycle C hd rest.
Hypothesis HClen : zlen C = n.
Hypothesis Hn255 : (n <= 255)%Z.
Hypothesis HE : NoDup (edges R) -> edgeinv C R.

Let S : surface n p (Kp ++ R).
Proof. apply (surface_perm n p ts); [now apply Permutation_sym|assumption]. Qed.
Let InK t : In t Kp -> In t (Kp ++ R). Proof. intros; apply in_or_app; now left. Qed.
Let InR t : In t R -> In t (Kp ++ R). Proof. intros; apply in_or_app; now right. Qed.
Let NDe : NoDup (edges Kp ++ edges R).
Proof. rewrite <- edges_app. apply (sf_nodup _ _ _ S). Qed.
Let Hpos t : In t Kp \/ In t R -> 0 < tdet nrm t.
Proof. intros H. apply (sf_pos _ _ _ S), in_or_app. assumption. Qed.
Let Hcl t u v : In t R -> In (u, v) (tri_edges t) -> exists t2, (In t2 Kp \/ In t2 R) /\ In (v, u) (tri_edges t2).
Proof.
  intros It Ie. assert (I : In (v, u) (edges (Kp ++ R))) by (apply (sf_closed _ _ _ S), in_edges; eauto).
  apply in_edges in I. destruct I as (t2 & I2 & E2). exists t2. split; [now apply in_app_or|assumption].
Qed.
Let Hrem t : In t R -> exists u v, In (u, v) (tri_edges t) /\ 0 < vtri (normal (o u)) (normal (o v)) (normal (o n)).
Proof.
  intros It. destruct (sf_feas _ _ _ S t (InR t It)) as (x & Vx & Fx).
  destruct t as [[a b] c].
  destruct (Rlt_dec 0 (vtri (normal (o a)) (normal (o b)) (normal (o n)))) as [Q|Q]; [exists a, b; simpl; auto|].
  destruct (Rlt_dec 0 (vtri (normal (o b)) (normal (o c)) (normal (o n)))) as [Q'|Q']; [exists b, c; simpl; auto|].
  destruct (Rlt_dec 0 (vtri (normal (o c)) (normal (o a)) (normal (o n)))) as [Q2|Q2]; [exists c, a; simpl; auto|].
  exfalso. specialize (HR _ x It Vx).
  set (f := vmov v0 (-1) (normal (o n))).
  assert (Cf : cone nrm (a, b, c) f).
  { rewrite cone_3. unfold f. rewrite !vtri_mov, !vtri_v0. lra. }
  pose proof (support (a, b, c) f x p (Hpos _ (or_intror It)) Cf Vx) as SP.
  assert (T : forall l, label l (a, b, c) -> ev (o l) p <= 0).
  { intros l Hl. apply (sf_seed _ _ _ S). apply (label_lt n (a, b, c)); [apply (sf_ok _ _ _ S); auto|assumption]. }
  specialize (SP T). unfold f in SP. rewrite !vdot_mov1, !vdot_0 in SP. pose proof (ev_normal (o n) x p). lra.
Qed.

(** the cycle is the boundary of the removed part *)
Lemma cut_boundary u v : znth C u = Some v /\ v <> 255%Z <-> boundary_edge R u v.
Proof.
  destruct (HE (nodup_app_r _ _ NDe)) as [B|[Cl _]]; [apply B|exfalso].
  destruct (cut_edge nrm Kp R (normal (o n)) Hpos Hcl Hrem (sf_cover _ _ _ S) HRne) as (t1 & t2 & a & b & I1 & I2 & E1 & E2).
  apply (nodup_app _ _ (b, a) NDe); [apply in_edges; eauto|]. apply Cl, in_edges. eauto.
Qed.

Let cyc_range u : In u (hd :: rest) -> (0 <= u < n)%Z.
Proof. intros H. destruct HC as (_ & _ & Hr & _). rewrite <- HClen. auto. Qed.
Lemma rest_in v : In v (rest ++ [hd]) <-> In v (hd :: rest).
Proof. rewrite in_app_iff. simpl. tauto. Qed.

Lemma cut_fan t : In t (fan hd rest hd n) <-> exists u v, t = (u, v, n) /\ boundary_edge R u v.
Proof.
  destruct HC as (Nd & Ch & Hr & Ho). rewrite (fan_in C n hd rest hd Ch Nd t). split.
  - intros (u & v & -> & Iu & E). exists u, v. split; [reflexivity|]. apply cut_boundary. split; [assumption|].
    destruct (chain_succ _ _ _ _ Ch u Iu) as (v' & E' & Iv). assert (v = v') by congruence. subst v'.
    apply rest_in in Iv. pose proof (cyc_range v Iv). lia.
  - intros (u & v & -> & B). apply cut_boundary in B. destruct B as [E Nv]. exists u, v. split; [reflexivity|]. split; [|assumption].
    destruct (in_dec Z.eq_dec u (hd :: rest)) as [|Ni]; [assumption|exfalso]. pose proof (znth_some _ _ _ E).
    rewrite (Ho u) in E by (auto; lia). congruence.
Qed.

(** both sides of a boundary edge *)
Lemma cut_sides u v : boundary_edge R u v -> exists t1 t2, In t1 R /\ In t2 Kp /\ In (u, v) (tri_edges t1) /\ In (v, u) (tri_edges t2).
Proof.
  intros [I N]. assert (J : In (v, u) (edges (Kp ++ R))).
  { apply (sf_closed _ _ _ S). rewrite edges_app. apply in_or_app. now right. }
  rewrite edges_app in J. apply in_app_or in J. destruct J as [J|J]; [|contradiction].
  apply in_edges in I, J. destruct I as (t1 & I1 & E1), J as (t2 & I2 & E2). eauto 10.
Qed.

Lemma cut_surface : surface (n + 1) p (Kp ++ fan hd rest hd n).
Proof.
  destruct HC as (Nd & Ch & Hr & Ho).
  assert (NEW : forall u v, boundary_edge R u v -> 0 < vtri (normal (o u)) (normal (o v)) (normal (o n)) /\
     exists x, is_vertex (u, v, n) x /\ feasible (n + 1) x).
  { intros u v B. destruct (cut_sides u v B) as (t1 & t2 & I1 & I2 & E1 & E2).
    destruct (sf_feas _ _ _ S t1 (InR _ I1)) as (x1 & V1 & F1). destruct (sf_feas _ _ _ S t2 (InK _ I2)) as (x2 & V2 & F2).
    pose proof (HR t1 x1 I1 V1) as P1. pose proof (HK t2 x2 I2 V2) as P2.
    destruct (rot nrm t2 v u E2) as (w & _ & D2 & Hw). pose proof (Hpos t2 (or_introl I2)) as Pd. rewrite D2 in Pd.
    destruct (label_edge _ _ _ E1) as [Lu1 Lv1]. destruct (label_edge _ _ _ E2) as [Lv2 Lu2].
    assert (Lw : label w t2) by (destruct Hw as [->|[->| ->]]; simpl; auto).
    assert (Rw : (0 <= w < n)%Z) by (apply (label_lt n t2); [apply (sf_ok _ _ _ S); auto|assumption]).
    assert (EV : forall l x y, ev (o l) x = 0 -> ev (o l) y = 0 -> vdot (normal (o l)) x = vdot (normal (o l)) y).
    { intros l x y Ex Ey. pose proof (ev_normal (o l) x y). lra. }
    split.
    - pose proof (cramer_dir (normal (o v)) (normal (o u)) (normal (o w)) (normal (o n)) x1) as C1.
      pose proof (cramer_dir (normal (o v)) (normal (o u)) (normal (o w)) (normal (o n)) x2) as C2.
      rewrite (EV u x1 x2) in C1 by auto. rewrite (EV v x1 x2) in C1 by auto.
      pose proof (ev_normal (o n) x1 x2) as En. pose proof (ev_normal (o w) x1 x2) as Ew. rewrite (V2 w Lw) in Ew.
      pose proof (F1 w Rw) as Fw. rewrite (vtri_swap (normal (o v)) (normal (o u)) (normal (o n))).
      set (D := vtri (normal (o v)) (normal (o u)) (normal (o w))) in *.
      set (X := vtri (normal (o v)) (normal (o u)) (normal (o n))) in *.
      assert (Q : D * (ev (o n) x1 - ev (o n) x2) = X * ev (o w) x1).
      { replace (ev (o w) x1) with (vdot (normal (o w)) x1 - vdot (normal (o w)) x2) by lra. rewrite En. rewrite !Rmult_minus_distr_l. rewrite C1, C2. ring. }
      assert (0 < D * (ev (o n) x1 - ev (o n) x2)) by (apply Rmult_lt_0_compat; lra).
      assert (~ 0 <= X) by nra. lra.
    - set (q := ev (o n) x1 - ev (o n) x2). assert (Hq : 0 < q) by (unfold q; lra).
      set (s := - ev (o n) x2 / q). assert (Hsq : s * q = - ev (o n) x2) by (unfold s; field; lra).
      assert (S0 : 0 <= s) by nra. assert (S1 : s <= 1) by (unfold q in *; nra).
      set (x := let '(a1, a2, a3) := x1 in let '(b1, b2, b3) := x2 in (b1 + s * (a1 - b1), b2 + s * (a2 - b2), b3 + s * (a3 - b3))).
      assert (Ex : forall h, ev h x = (1 - s) * ev h x2 + s * ev h x1).
      { intros [[[a b] c] d]. unfold x. destruct x1 as [[a1 a2] a3], x2 as [[b1 b2] b3]. simpl. ring. }
      exists x. split.
      + intros l [->|[->| ->]]; rewrite Ex.
        * rewrite (V1 u Lu1), (V2 u Lu2). ring. * rewrite (V1 v Lv1), (V2 v Lv2). ring.
        * unfold q in Hsq. lra.
      + intros j Hj. rewrite Ex. destruct (Z.eq_dec j n) as [->|Nj]; [unfold q in Hsq; lra|].
        pose proof (F1 j ltac:(lia)). pose proof (F2 j ltac:(lia)). nra. }
  assert (FE : forall e, In e (edges (fan hd rest hd n)) <-> exists u v, boundary_edge R u v /\ (e = (u, v) \/ e = (v, n) \/ e = (n, u))).
  { intros e. rewrite in_edges. split.
    - intros (t & It & Ie). apply cut_fan in It. destruct It as (u & v & -> & B). exists u, v. simpl in Ie. split; [assumption|]. intuition.
    - intros (u & v & B & E). exists (u, v, n). split; [apply cut_fan; eauto|]. simpl. intuition. }
  assert (BR : forall u v, boundary_edge R u v -> In u (hd :: rest) /\ In v (hd :: rest)).
  { intros u v B. assert (I : In (u, v, n) (fan hd rest hd n)) by (apply cut_fan; eauto).
    apply (fan_in C n hd rest hd Ch Nd) in I. destruct I as (u' & v' & [= <- <-] & Iu & E). split; [assumption|].
    destruct (chain_succ _ _ _ _ Ch u Iu) as (v' & E' & Iv). assert (v = v') by congruence. subst v'. now apply rest_in. }
  assert (BN : forall v, In v (hd :: rest) -> exists w, boundary_edge R v w).
  { intros v Iv. destruct (chain_succ _ _ _ _ Ch v Iv) as (w & E & Iw). exists w. apply cut_boundary. split; [assumption|].
    apply rest_in in Iw. pose proof (cyc_range w Iw). lia. }
  assert (BP : forall v, In v (hd :: rest) -> exists w, boundary_edge R w v).
  { intros v Iv. apply rest_in in Iv. destruct (chain_pred _ _ _ _ Ch v Iv) as (w & E & Iw). exists w. apply cut_boundary. split; [assumption|].
    apply rest_in in Iv. pose proof (cyc_range v Iv). lia. }
  assert (TK : forall t, In t (Kp ++ R) -> tri_ok n t) by apply (sf_ok _ _ _ S).
  constructor.
  - intros t It. apply in_app_or in It. destruct It as [It|It].
    + pose proof (TK t (InK t It)) as T. destruct t as [[a b] c]. simpl in *. lia.
    + apply cut_fan in It. destruct It as (u & v & -> & B). destruct (BR u v B) as [Iu Iv].
      pose proof (cyc_range u Iu). pose proof (cyc_range v Iv).
      assert (u <> v). { destruct B as [B _]. apply in_edges in B. destruct B as (t & It & Ie). pose proof (TK t (InR t It)) as T.
        destruct t as [[a b] c]. simpl in T, Ie. destruct Ie as [[= <- <-]|[[= <- <-]|[[= <- <-]|[]]]]; lia. }
      simpl. lia.
  - intros t It. apply in_app_or in It. destruct It as [It|It]; [apply Hpos; now left|].
    apply cut_fan in It. destruct It as (u & v & -> & B). simpl. apply NEW. assumption.
  - intros t It. apply in_app_or in It. destruct It as [It|It].
    + destruct (sf_feas _ _ _ S t (InK t It)) as (x & Vx & Fx). exists x. split; [assumption|]. intros j Hj.
      destruct (Z.eq_dec j n) as [->|Nj]; [now apply (HK t)|apply Fx; lia].
    + apply cut_fan in It. destruct It as (u & v & -> & B). apply NEW. assumption.
  - intros u v I. rewrite edges_app in *. apply in_app_or in I. apply in_or_app. destruct I as [I|I].
    + assert (J : In (v, u) (edges (Kp ++ R))) by (apply (sf_closed _ _ _ S); rewrite edges_app; apply in_or_app; now left).
      rewrite edges_app in J. apply in_app_or in J. destruct J as [J|J]; [now left|right].
      apply FE. exists v, u. split; [|now left]. split; [assumption|]. intros X. exact (nodup_app _ _ _ NDe I X).
    + apply FE in I. destruct I as (a & b & B & [[= -> ->]|[[= -> ->]|[= -> ->]]]).
      * left. destruct (cut_sides a b B) as (t1 & t2 & I1 & I2 & E1 & E2). apply in_edges. eauto.
      * right. destruct (BN b) as [w Bw]; [now apply (BR a)|]. apply FE. exists b, w. split; [assumption|]. auto.
      * right. destruct (BP a) as [w Bw]; [now apply (BR a b)|]. apply FE. exists w, a. split; [assumption|]. auto.
  - rewrite edges_app. apply nodup_app_i; [exact (nodup_app_l _ _ NDe)| |].
    + apply fan_nodup; auto.
      * apply NoDup_cons_iff in Nd. apply nodup_app_i; [tauto|repeat constructor; simpl; tauto|]. intros e I [->|[]]. tauto.
      * intros I. pose proof (cyc_range n I). lia.
      * pose proof (cyc_range hd ltac:(now left)). lia.
    + intros e IK IF. apply FE in IF. destruct IF as (u & v & B & Ee).
      assert (Kl : forall a b, In (a, b) (edges Kp) -> (0 <= a < n)%Z /\ (0 <= b < n)%Z).
      { intros a b I. apply in_edges in I. destruct I as (t & It & Ie). destruct (label_edge _ _ _ Ie) as [La Lb]. pose proof (TK t (InK t It)) as T.
        split; eapply label_lt; eauto. }
      destruct Ee as [->|[->| ->]].
      * apply (nodup_app _ _ (u, v) NDe IK). apply B.
      * apply Kl in IK. lia. * apply Kl in IK. lia.
  - apply (cut_covers nrm Kp R (normal (o n)) Hpos Hcl Hrem n); [reflexivity|apply (sf_cover _ _ _ S)|].
    intros t1 t2 u v I1 I2 E1 E2. apply cut_fan. exists u, v. split; [reflexivity|]. split; [apply in_edges; eauto|].
    intros X. apply (nodup_app _ _ (v, u) NDe); [apply in_edges; eauto|assumption].
  - intros j Hj. destruct (Z.eq_dec j n) as [->|Nj]; [assumption|apply (sf_seed _ _ _ S); lia].
Qed.
End Cut.
End Poly.

Lemma surface_ext o o' n p ts : (forall j, (0 <= j < n)%Z -> o j = o' j) -> surface o n p ts -> surface o' n p ts.
Proof.
  intros E S. assert (L : forall t l, In t ts -> label l t -> o l = o' l).
  { intros t l It Hl. apply E. eapply label_lt; [apply (sf_ok _ _ _ _ S t It)|assumption]. }
  constructor; try apply S.
  - intros t It. pose proof (sf_pos _ _ _ _ S t It) as H. destruct t as [[a b] c]. simpl in *.
    rewrite <- (L _ a It), <- (L _ b It), <- (L _ c It) by (simpl; auto). assumption.
  - intros t It. destruct (sf_feas _ _ _ _ S t It) as (x & V & F). exists x. split.
    + intros l Hl. rewrite <- (L t l) by assumption. now apply V.
    + intros j Hj. rewrite <- E by assumption. now apply F.
  - intros f. destruct (sf_cover _ _ _ _ S f) as (t & It & C). exists t. split; [assumption|].
    intros u v I. destruct (label_edge _ _ _ I). rewrite <- (L t u), <- (L t v) by assumption. now apply C.
  - intros j Hj. rewrite <- E by assumption. now apply (sf_seed _ _ _ _ S).
Qed.
