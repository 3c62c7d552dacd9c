(** The surface of a polytope stays the surface of a simple polytope when every
    half-space is moved outwards a little. From this: the removed and the kept
    triangles of a cut are each connected. *)
From Verif Require Import Base PBase SpecGeom SpecBnd PBnd PBndLoop PGeomCone PGeomPoly PTopo.
From Coq Require Import Psatz.
Local Open Scope R_scope.

(** a choice for the elements of a list *)
Lemma pick_pt (P : tri -> pt -> Prop) ts : (forall t, In t ts -> exists x, P t x) -> exists Y : tri -> pt, forall t, In t ts -> P t (Y t).
Proof.
  induction ts as [|t ts IH]; intros H; [exists (fun _ => v0); intros t []|].
  destruct IH as [Y HY]; [intros; apply H; now right|]. destruct (H t) as [x Hx]; [now left|].
  exists (fun t' => if tri_eq_dec t t' then x else Y t'). intros t' [<-|I].
  - destruct (tri_eq_dec t t); [assumption|congruence].
  - destruct (tri_eq_dec t t') as [<-|]; [assumption|now apply HY].
Qed.
(** a positive bound that suits a finite list of conditions *)
Lemma least_pos {A} (P : A -> R -> Prop) (l : list A) :
  (forall a, In a l -> exists d, 0 < d /\ forall d', 0 < d' <= d -> P a d') -> exists d, 0 < d /\ forall a, In a l -> forall d', 0 < d' <= d -> P a d'.
Proof.
  induction l as [|a l IH]; intros H; [exists 1; split; [lra|intros a []]|].
  destruct IH as (d & Pd & Hd); [intros; apply H; now right|]. destruct (H a (or_introl eq_refl)) as (d1 & P1 & H1).
  exists (Rmin d d1). pose proof (Rmin_l d d1). pose proof (Rmin_r d d1). split; [now apply Rmin_pos|].
  intros b [<-|I] d' Hd'; [apply H1; lra|apply Hd; auto; lra].
Qed.

Section Perturb.
Variable o : Z -> pl.
Notation nrm := (fun j => normal (o j)).

(** the vertex of t when half-space l is moved by dl l *)
Definition pvert (dl : Z -> R) (t : tri) (x : pt) : Prop := forall l, label l t -> ev (o l) x = dl l.
(** the surface is that of a simple polytope for some small moves *)
Definition simple_at (n : Z) (ts : list tri) (dl : Z -> R) : Prop :=
  forall t, In t ts -> exists x, pvert dl t x /\ forall j, (0 <= j < n)%Z -> ~ label j t -> ev (o j) x < dl j.
Definition psurf (n : Z) (ts : list tri) : Prop :=
  forall eta, 0 < eta -> exists dl, (forall j, (0 <= j < n)%Z -> 0 < dl j < eta) /\ simple_at n ts dl.

Lemma psurf_perm n ts ts' : Permutation ts ts' -> psurf n ts -> psurf n ts'.
Proof.
  intros P H eta He. destruct (H eta He) as (dl & D & S). exists dl. split; [assumption|]. intros t It. apply S.
  eapply Permutation_in; [apply Permutation_sym; exact P|exact It].
Qed.

(** small moves move the vertices little *)
Lemma near_one t h eps : 0 < tdet nrm t -> 0 < eps -> exists eta, 0 < eta /\ forall eta', 0 < eta' <= eta -> forall dl x y,
  (forall l, label l t -> 0 < dl l < eta') -> is_vertex o t x -> pvert dl t y -> Rabs (ev h y - ev h x) < eps.
Proof.
  destruct t as [[a b] c]. intros D He. simpl in D.
  set (A := normal (o a)) in *. set (B := normal (o b)) in *. set (C := normal (o c)) in *. set (f := normal h).
  set (M := Rabs (vtri B C f) + Rabs (vtri C A f) + Rabs (vtri A B f)).
  assert (M0 : 0 <= M) by (unfold M; pose proof (Rabs_pos (vtri B C f)); pose proof (Rabs_pos (vtri C A f)); pose proof (Rabs_pos (vtri A B f)); lra).
  set (e := vtri A B C * eps / (M + 1)).
  assert (E0 : 0 < e) by (unfold e; apply Rdiv_lt_0_compat; [now apply Rmult_lt_0_compat|lra]).
  assert (EE : e * (M + 1) = vtri A B C * eps) by (unfold e; field; lra).
  exists e. split; [assumption|]. intros eta' He' dl x y Hdl Vx Vy.
  pose proof (cramer_dir A B C f y) as Ey. pose proof (cramer_dir A B C f x) as Ex.
  assert (K : forall l, label l (a, b, c) -> vdot (normal (o l)) y - vdot (normal (o l)) x = dl l).
  { intros l Hl. rewrite <- ev_normal, (Vx l Hl), (Vy l Hl). lra. }
  pose proof (K a ltac:(simpl; auto)) as Ka. pose proof (K b ltac:(simpl; auto)) as Kb. pose proof (K c ltac:(simpl; auto)) as Kc.
  pose proof (Hdl a ltac:(simpl; auto)) as Ha. pose proof (Hdl b ltac:(simpl; auto)) as Hb. pose proof (Hdl c ltac:(simpl; auto)) as Hc.
  fold A in Ka. fold B in Kb. fold C in Kc.
  assert (Q : vtri A B C * (ev h y - ev h x) = vtri B C f * dl a + vtri C A f * dl b + vtri A B f * dl c).
  { rewrite (ev_normal h y x). fold f. rewrite <- Ka, <- Kb, <- Kc. rewrite Rmult_minus_distr_l, Ey, Ex. ring. }
  assert (AB : forall u d, 0 < d < eta' -> Rabs (u * d) <= Rabs u * e).
  { intros u d Hd. rewrite Rabs_mult. apply Rmult_le_compat_l; [apply Rabs_pos|]. rewrite Rabs_pos_eq; lra. }
  assert (Q2 : Rabs (vtri A B C * (ev h y - ev h x)) <= M * e).
  { rewrite Q. eapply Rle_trans; [apply Rabs_triang|]. eapply Rle_trans; [apply Rplus_le_compat_r, Rabs_triang|].
    pose proof (AB (vtri B C f) _ Ha). pose proof (AB (vtri C A f) _ Hb). pose proof (AB (vtri A B f) _ Hc). unfold M. lra. }
  rewrite Rabs_mult, (Rabs_pos_eq (vtri A B C)) in Q2 by lra.
  apply Rmult_lt_reg_l with (vtri A B C); [assumption|]. lra.
Qed.
Lemma near ts h eps : (forall t, In t ts -> 0 < tdet nrm t) -> 0 < eps -> exists eta, 0 < eta /\ forall eta', 0 < eta' <= eta -> forall dl t x y,
  In t ts -> (forall l, label l t -> 0 < dl l < eta') -> is_vertex o t x -> pvert dl t y -> Rabs (ev h y - ev h x) < eps.
Proof.
  intros D He.
  destruct (least_pos (fun t eta' => forall dl x y, (forall l, label l t -> 0 < dl l < eta') -> is_vertex o t x -> pvert dl t y -> Rabs (ev h y - ev h x) < eps) ts) as (d & Pd & H).
  { intros t It. apply near_one; auto. }
  exists d. split; [assumption|]. intros eta' He' dl t x y It. now apply (H t It eta').
Qed.

(** ** the cut *)
Section Cut.
Variables (n : Z) (p : pt) (Kp R F : list tri).
Hypothesis Hok : forall t, In t (Kp ++ R) -> tri_ok n t.
Hypothesis Hpos : forall t, In t (Kp ++ R) -> 0 < tdet nrm t.
Hypothesis Hvert : forall t, In t (Kp ++ R) -> exists x, is_vertex o t x.
Hypothesis HK : forall t x, In t Kp -> is_vertex o t x -> ev (o n) x <= 0.
Hypothesis HR : forall t x, In t R -> is_vertex o t x -> 0 < ev (o n) x.
Hypothesis HF : forall t, In t F -> exists u v, t = (u, v, n) /\ exists t1 t2, In t1 R /\ In t2 Kp /\ In (u, v) (tri_edges t1) /\ In (v, u) (tri_edges t2).
Hypothesis Hps : psurf n (Kp ++ R).

Let InK t : In t Kp -> In t (Kp ++ R). Proof. intros; apply in_or_app; now left. Qed.
Let InR t : In t R -> In t (Kp ++ R). Proof. intros; apply in_or_app; now right. Qed.

(** moves under which the new half-space still separates *)
Lemma sep_moves eta : 0 < eta -> exists dl dn, (forall j, (0 <= j < n)%Z -> 0 < dl j < eta) /\ 0 < dn < eta /\ simple_at n (Kp ++ R) dl /\
  (forall t y, In t Kp -> pvert dl t y -> ev (o n) y < dn) /\ forall t y, In t R -> pvert dl t y -> dn < ev (o n) y.
Proof.
  intros He.
  destruct (least_pos (fun t m => forall x, is_vertex o t x -> m <= ev (o n) x) R) as (m & Pm & Hm).
  { intros t It. destruct (Hvert t (InR t It)) as [x Vx]. exists (ev (o n) x). split; [now apply (HR t)|]. intros d' Hd y Vy.
    rewrite (vertex_unique o t y x); [lra| |assumption|assumption]. pose proof (Hpos t (InR t It)). lra. }
  set (dn := Rmin eta m / 2). pose proof (Rmin_l eta m). pose proof (Rmin_r eta m). pose proof (Rmin_pos eta m He Pm).
  assert (D0 : 0 < dn) by (unfold dn; lra). assert (D1 : 2 * dn <= m) by (unfold dn; lra). assert (D2 : dn < eta) by (unfold dn; lra).
  destruct (near (Kp ++ R) (o n) dn Hpos D0) as (e1 & P1 & N1).
  set (e := Rmin e1 eta). pose proof (Rmin_l e1 eta). pose proof (Rmin_r e1 eta). pose proof (Rmin_pos e1 eta P1 He).
  destruct (Hps e ltac:(assumption)) as (dl & Dl & S). exists dl, dn.
  assert (B : forall t x y, In t (Kp ++ R) -> is_vertex o t x -> pvert dl t y -> Rabs (ev (o n) y - ev (o n) x) < dn).
  { intros t x y It Vx Vy. apply (N1 e ltac:(unfold e; lra) dl t x y It); auto. intros l Hl. apply Dl. exact (label_lt n t l (Hok t It) Hl). }
  split; [intros j Hj; specialize (Dl j Hj); unfold e in Dl; lra|]. split; [lra|]. split; [assumption|]. split.
  - intros t y It Vy. destruct (Hvert t (InK t It)) as [x Vx]. pose proof (B t x y (InK t It) Vx Vy) as Q. apply Rabs_def2 in Q.
    pose proof (HK t x It Vx). lra.
  - intros t y It Vy. destruct (Hvert t (InR t It)) as [x Vx]. pose proof (B t x y (InR t It) Vx Vy) as Q. apply Rabs_def2 in Q.
    pose proof (Hm t It m ltac:(lra) x Vx). lra.
Qed.

Lemma psurf_cut : psurf (n + 1) (Kp ++ F).
Proof.
  intros eta He. destruct (sep_moves eta He) as (dl & dn & Dl & Dn & S & SK & SR).
  exists (fun j => if (j =? n)%Z then dn else dl j). split.
  { intros j Hj. destruct (Z.eqb_spec j n); [lra|]. apply Dl. lia. }
  intros t It. apply in_app_or in It as [It|It].
  - destruct (S t (InK t It)) as (x & Vx & Fx). exists x. split.
    + intros l Hl. pose proof (label_lt n t l (Hok t (InK t It)) Hl). replace (l =? n)%Z with false by lia. now apply Vx.
    + intros j Hj Nj. destruct (Z.eqb_spec j n) as [->|]; [now apply (SK t)|]. apply Fx; [lia|assumption].
  - destruct (HF t It) as (u & v & -> & t1 & t2 & I1 & I2 & E1 & E2).
    destruct (S t1 (InR t1 I1)) as (x1 & V1 & F1). destruct (S t2 (InK t2 I2)) as (x2 & V2 & F2).
    pose proof (SR t1 x1 I1 V1) as P1. pose proof (SK t2 x2 I2 V2) as P2.
    destruct (label_edge _ _ _ E1) as [Lu1 Lv1]. destruct (label_edge _ _ _ E2) as [Lv2 Lu2].
    destruct (rot nrm t1 u v E1) as (w1 & _ & D1 & W1). destruct (rot nrm t2 v u E2) as (w2 & _ & D2 & W2).
    pose proof (Hpos t1 (InR t1 I1)) as Q1. pose proof (Hpos t2 (InK t2 I2)) as Q2. rewrite D1 in Q1. rewrite D2 in Q2.
    assert (NW : w1 <> w2). { intros ->. rewrite vtri_swap in Q2. lra. }
    assert (LW1 : forall j, label j t1 -> j <> u -> j <> v -> j = w1).
    { intros j. destruct W1 as [->|[->| ->]]; simpl; intuition congruence. }
    assert (LW2 : forall j, label j t2 -> j <> u -> j <> v -> j = w2).
    { intros j. destruct W2 as [->|[->| ->]]; simpl; intuition congruence. }
    set (q := ev (o n) x1 - ev (o n) x2). assert (Hq : 0 < q) by (unfold q; lra).
    set (s := (dn - ev (o n) x2) / q). assert (Hsq : s * q = dn - ev (o n) x2) by (unfold s; field; lra).
    assert (S0 : 0 < s) by (unfold s; apply Rdiv_lt_0_compat; lra).
    assert (S1 : s < 1). { apply Rmult_lt_reg_r with q; [assumption|]. rewrite Hsq. unfold q. lra. }
    set (x := let '(a1, a2, a3) := x1 in let '(b1, b2, b3) := x2 in (b1 + s * (a1 - b1), b2 + s * (a2 - b2), b3 + s * (a3 - b3))).
    assert (Ex : forall h, ev h x = (1 - s) * ev h x2 + s * ev h x1).
    { intros [[[a b] c] d]. unfold x. destruct x1 as [[a1 a2] a3], x2 as [[b1 b2] b3]. simpl. ring. }
    pose proof (label_lt n t1 u (Hok t1 (InR t1 I1)) Lu1). pose proof (label_lt n t1 v (Hok t1 (InR t1 I1)) Lv1).
    exists x. split.
    + intros l [->|[->| ->]]; rewrite Ex.
      * replace (u =? n)%Z with false by lia. rewrite (V1 u Lu1), (V2 u Lu2). ring.
      * replace (v =? n)%Z with false by lia. rewrite (V1 v Lv1), (V2 v Lv2). ring.
      * rewrite Z.eqb_refl. unfold q in Hsq. lra.
    + intros j Hj Nj. simpl in Nj. assert (Nu : j <> u) by tauto. assert (Nv : j <> v) by tauto. assert (Nn : j <> n) by tauto. clear Nj.
      replace (j =? n)%Z with false by lia. rewrite Ex.
      assert (C1 : ev (o j) x1 < dl j \/ ev (o j) x1 = dl j /\ j = w1).
      { destruct (in_dec Z.eq_dec j (let '(a, b, c) := t1 in [a; b; c])) as [J|J].
        - right. assert (LJ : label j t1) by (destruct t1 as [[a b] c]; simpl in J |- *; intuition). split; [now apply V1|now apply LW1].
        - left. apply F1; [lia|]. intros LJ. apply J. destruct t1 as [[a b] c]. simpl in LJ |- *. intuition. }
      assert (C2 : ev (o j) x2 < dl j \/ ev (o j) x2 = dl j /\ j = w2).
      { destruct (in_dec Z.eq_dec j (let '(a, b, c) := t2 in [a; b; c])) as [J|J].
        - right. assert (LJ : label j t2) by (destruct t2 as [[a b] c]; simpl in J |- *; intuition). split; [now apply V2|now apply LW2].
        - left. apply F2; [lia|]. intros LJ. apply J. destruct t2 as [[a b] c]. simpl in LJ |- *. intuition. }
      destruct C1 as [C1|[C1 J1]], C2 as [C2|[C2 J2]]; [nra|rewrite C2; nra|rewrite C1; nra|congruence].
Qed.
End Cut.

(** ** connectedness *)
Section Conn.
Variables (n : Z) (ts : list tri) (dl : Z -> R) (Y : tri -> pt).
Hypothesis Hok : forall t, In t ts -> tri_ok n t.
Hypothesis Hpos : forall t, In t ts -> 0 < tdet nrm t.
Hypothesis Hcl : forall u v, In (u, v) (edges ts) -> In (v, u) (edges ts).
Hypothesis Hnd : NoDup (edges ts).
Hypothesis HY : forall t, In t ts -> pvert dl t (Y t) /\ forall j, (0 <= j < n)%Z -> ~ label j t -> ev (o j) (Y t) < dl j.
Let Hdis t : In t ts -> distinct t. Proof. intros H. eapply ok_distinct, Hok, H. Qed.

Let same := same_tri ts Hnd.

(** the directions that matter *)
Definition crosses : list pt := map (fun e => vcross (nrm (fst e)) (nrm (snd e))) (edges ts).
Lemma crosses_ne w : In w crosses -> w <> v0.
Proof.
  unfold crosses. intros H. apply in_map_iff in H as ([a b] & <- & I). apply in_edges in I as (t & It & Ie). simpl.
  destruct (rot nrm t a b Ie) as (c & _ & D & _). pose proof (Hpos t It) as P. rewrite D, vtri_cross in P. intros E. simpl in E, P. rewrite E, vdot_0 in P. lra.
Qed.
Definition generic (f : pt) : Prop := forall a b, In (a, b) (edges ts) -> vtri (nrm a) (nrm b) f <> 0.
Lemma generic_of f : (forall w, In w crosses -> vdot w f <> 0) -> generic f.
Proof.
  intros H a b I. rewrite vtri_cross. apply H. unfold crosses. apply in_map_iff. exists (a, b). auto.
Qed.

Definition top (f : pt) (t : tri) : Prop := forall a b, In (a, b) (tri_edges t) -> 0 < vtri (nrm a) (nrm b) f.

(** not at the top: a neighbour is higher *)
Lemma step_up f t : generic f -> In t ts -> top f t \/ exists t', In t' ts /\ adj t t' /\ vdot f (Y t) < vdot f (Y t').
Proof.
  intros G It.
  assert (K : forall a b, In (a, b) (tri_edges t) -> 0 < vtri (nrm a) (nrm b) f \/ exists t', In t' ts /\ adj t t' /\ vdot f (Y t) < vdot f (Y t')).
  { intros a b Ie. destruct (Rlt_dec 0 (vtri (nrm a) (nrm b) f)) as [P|P]; [now left|right].
    assert (N : vtri (nrm a) (nrm b) f < 0).
    { assert (I : In (a, b) (edges ts)) by (apply in_edges; eauto). pose proof (G a b I). simpl in *. lra. }
    assert (I : In (b, a) (edges ts)) by (apply Hcl, in_edges; eauto). apply in_edges in I as (t' & It' & Ie').
    exists t'. split; [assumption|]. split; [exists a, b; auto|].
    destruct (rot nrm t a b Ie) as (c & _ & D & W). destruct (rot nrm t' b a Ie') as (c' & _ & D' & W').
    pose proof (Hpos t It) as P1. pose proof (Hpos t' It') as P2. rewrite D in P1. rewrite D' in P2.
    assert (NC : c <> c'). { intros <-. rewrite vtri_swap in P2. simpl in *. lra. }
    destruct (label_edge _ _ _ Ie) as [La Lb]. destruct (label_edge _ _ _ Ie') as [Lb' La'].
    assert (Lc : label c t) by (destruct W as [->|[->| ->]]; simpl; auto).
    assert (Nc : ~ label c t').
    { intros L. pose proof (Hdis t It) as Dt. destruct W as [->|[->| ->]]; simpl in Dt; destruct W' as [->|[->| ->]]; simpl in L; intuition congruence. }
    destruct (HY t It) as [V1 F1]. destruct (HY t' It') as [V2 F2].
    pose proof (cramer_dir (nrm a) (nrm b) (nrm c) f (Y t)) as C1. pose proof (cramer_dir (nrm a) (nrm b) (nrm c) f (Y t')) as C2.
    pose proof (ev_normal (o a) (Y t') (Y t)) as Ea. rewrite (V1 a La), (V2 a La') in Ea.
    pose proof (ev_normal (o b) (Y t') (Y t)) as Eb. rewrite (V1 b Lb), (V2 b Lb') in Eb.
    pose proof (ev_normal (o c) (Y t') (Y t)) as Ec. rewrite (V1 c Lc) in Ec.
    pose proof (F2 c (label_lt n t c (Hok t It) Lc) Nc) as Fc. cbv beta in *.
    set (A := normal (o a)) in *. set (B := normal (o b)) in *. set (C := normal (o c)) in *.
    set (X := vtri A B f) in *. set (DD := vtri A B C) in *.
    assert (Q : DD * (vdot f (Y t') - vdot f (Y t)) = X * (ev (o c) (Y t') - dl c)).
    { rewrite Ec. rewrite Rmult_minus_distr_l, C1, C2. replace (vdot A (Y t')) with (vdot A (Y t)) by lra. replace (vdot B (Y t')) with (vdot B (Y t)) by lra. ring. }
    assert (0 < X * (ev (o c) (Y t') - dl c)) by nra. nra. }
  destruct t as [[a b] c]. destruct (K a b) as [K1|]; [simpl; auto| |now right]. destruct (K b c) as [K2|]; [simpl; auto| |now right].
  destruct (K c a) as [K3|]; [simpl; auto| |now right]. left. intros u v H. simpl in H. destruct H as [[= <- <-]|[[= <- <-]|[[= <- <-]|[]]]]; assumption.
Qed.

Lemma label_dec l t : label l t \/ ~ label l t.
Proof. destruct t as [[a b] c]. simpl. destruct (Z.eq_dec l a), (Z.eq_dec l b), (Z.eq_dec l c); tauto. Qed.
(** same labels, both oriented positively *)
Lemma same_labels t t' : In t ts -> In t' ts -> (forall l, label l t -> label l t') -> t = t'.
Proof.
  intros It It' H. pose proof (Hpos t It) as P. pose proof (Hpos t' It') as P'. pose proof (Hdis t It) as Dt. pose proof (Hdis t' It') as Dt'.
  destruct t as [[a b] c], t' as [[a' b'] c']. simpl in Dt, Dt', P, P'.
  pose proof (H a ltac:(simpl; auto)) as Ha. pose proof (H b ltac:(simpl; auto)) as Hb. pose proof (H c ltac:(simpl; auto)) as Hc. simpl in Ha, Hb, Hc.
  assert (X : In (a, b) (tri_edges (a', b', c')) \/ In (b, a) (tri_edges (a', b', c'))).
  { simpl. destruct Ha as [->|[->| ->]], Hb as [->|[->| ->]]; tauto. }
  destruct X as [X|X]; [apply (same (a, b, c) (a', b', c') (a, b)); simpl; auto|].
  exfalso. destruct (rot nrm (a', b', c') b a X) as (w & _ & D & W). simpl in D. rewrite D in P'.
  assert (w = c). { destruct W as [W|[W|W]]; injection W as -> -> ->; destruct Hc as [->|[->| ->]]; intuition congruence. }
  subst w. rewrite vtri_swap in P'. lra.
Qed.
(** there is one top *)
Lemma top_lower f t t' : In t ts -> In t' ts -> top f t -> t <> t' -> vdot f (Y t') < vdot f (Y t).
Proof.
  intros It It' T Ne. destruct (HY t It) as [V1 F1]. destruct (HY t' It') as [V2 F2].
  assert (K : forall l, label l t -> vdot (normal (o l)) (Y t') - vdot (normal (o l)) (Y t) <= 0).
  { intros l Hl. rewrite <- ev_normal, (V1 l Hl). destruct (label_dec l t') as [L|L]; [rewrite (V2 l L); lra|].
    pose proof (F2 l (label_lt n t l (Hok t It) Hl) L). lra. }
  assert (ST : exists l, label l t /\ vdot (normal (o l)) (Y t') - vdot (normal (o l)) (Y t) < 0).
  { assert (EX : exists l, label l t /\ ~ label l t').
    { pose proof (same_labels t t' It It') as SL. destruct t as [[a b] c].
      destruct (label_dec a t'); [|exists a; simpl; auto]. destruct (label_dec b t'); [|exists b; simpl; auto].
      destruct (label_dec c t'); [|exists c; simpl; auto]. destruct Ne. apply SL. intros l [->|[->| ->]]; assumption. }
    destruct EX as (l & Ll & Nl). exists l. split; [assumption|]. rewrite <- ev_normal, (V1 l Ll).
    pose proof (F2 l (label_lt n t l (Hok t It) Ll) Nl). lra. }
  pose proof (Hpos t It) as P. destruct t as [[a b] c]. simpl in P.
  pose proof (T a b ltac:(simpl; auto)) as T1. pose proof (T b c ltac:(simpl; auto)) as T2. pose proof (T c a ltac:(simpl; auto)) as T3. cbv beta in *.
  pose proof (cramer_dir (normal (o a)) (normal (o b)) (normal (o c)) f (Y (a, b, c))) as C1.
  pose proof (cramer_dir (normal (o a)) (normal (o b)) (normal (o c)) f (Y t')) as C2.
  pose proof (K a ltac:(simpl; auto)) as Ka. pose proof (K b ltac:(simpl; auto)) as Kb. pose proof (K c ltac:(simpl; auto)) as Kc.
  set (A := normal (o a)) in *. set (B := normal (o b)) in *. set (C := normal (o c)) in *.
  assert (Q : vtri A B C * (vdot f (Y t') - vdot f (Y (a, b, c))) =
    vtri B C f * (vdot A (Y t') - vdot A (Y (a, b, c))) + vtri C A f * (vdot B (Y t') - vdot B (Y (a, b, c))) + vtri A B f * (vdot C (Y t') - vdot C (Y (a, b, c)))).
  { rewrite Rmult_minus_distr_l, C1, C2. ring. }
  assert (N : vtri A B C * (vdot f (Y t') - vdot f (Y (a, b, c))) < 0).
  { rewrite Q. destruct ST as (l & [->|[->| ->]] & Hl); fold A B C in Hl; nra. }
  nra.
Qed.

(** from everywhere in an upward closed part one gets to a top inside it *)
Lemma climb f (S : list tri) : generic f -> incl S ts ->
  (forall t t', In t S -> In t' ts -> vdot f (Y t) < vdot f (Y t') -> In t' S) ->
  forall m t, In t S -> (length (filter (fun t' => if Rlt_dec (vdot f (Y t)) (vdot f (Y t')) then true else false) ts) <= m)%nat ->
  exists t', In t' S /\ top f t' /\ dpath S t t'.
Proof.
  intros G IS UP. induction m as [|m IH]; intros t It Lm.
  - destruct (step_up f t G (IS t It)) as [T|(t' & It' & A & Lt)]; [exists t; split; [assumption|split; [assumption|now constructor]]|].
    exfalso. assert (I : In t' (filter (fun t' => if Rlt_dec (vdot f (Y t)) (vdot f (Y t')) then true else false) ts)).
    { apply filter_In. split; [assumption|]. destruct (Rlt_dec _ _); [reflexivity|contradiction]. }
    destruct (filter _ ts); [destruct I|simpl in Lm; lia].
  - destruct (step_up f t G (IS t It)) as [T|(t' & It' & A & Lt)]; [exists t; split; [assumption|split; [assumption|now constructor]]|].
    destruct (IH t') as (t2 & I2 & T2 & P2); [now apply (UP t)| |exists t2; split; [assumption|split; [assumption|econstructor; eauto]]].
    assert (LT : forall l, In t' l -> (length (filter (fun x => if Rlt_dec (vdot f (Y t')) (vdot f (Y x)) then true else false) l) <
       length (filter (fun x => if Rlt_dec (vdot f (Y t)) (vdot f (Y x)) then true else false) l))%nat).
    { assert (LE : forall l, (length (filter (fun x => if Rlt_dec (vdot f (Y t')) (vdot f (Y x)) then true else false) l) <=
         length (filter (fun x => if Rlt_dec (vdot f (Y t)) (vdot f (Y x)) then true else false) l))%nat).
      { induction l as [|x l IHl]; simpl; [lia|]. destruct (Rlt_dec (vdot f (Y t')) (vdot f (Y x))), (Rlt_dec (vdot f (Y t)) (vdot f (Y x))); simpl; try lia. lra. }
      induction l as [|x l IHl]; intros I; [destruct I|]. specialize (LE l). simpl. destruct I as [->|I].
      - destruct (Rlt_dec (vdot f (Y t')) (vdot f (Y t'))); [lra|]. destruct (Rlt_dec (vdot f (Y t)) (vdot f (Y t'))); [simpl; lia|contradiction].
      - specialize (IHl I). destruct (Rlt_dec (vdot f (Y t')) (vdot f (Y x))), (Rlt_dec (vdot f (Y t)) (vdot f (Y x))); simpl; try lia. lra. }
    specialize (LT ts It'). lia.
Qed.
Lemma up_conn f (S : list tri) : generic f -> incl S ts ->
  (forall t t', In t S -> In t' ts -> vdot f (Y t) < vdot f (Y t') -> In t' S) -> dconn S.
Proof.
  intros G IS UP t t' It It'.
  destruct (climb f S G IS UP _ t It (le_n _)) as (x & Ix & Tx & Px). destruct (climb f S G IS UP _ t' It' (le_n _)) as (x' & Ix' & Tx' & Px').
  assert (E : x = x').
  { destruct (tri_eq_dec x x') as [|Ne]; [assumption|exfalso].
    pose proof (top_lower f x x' (IS _ Ix) (IS _ Ix') Tx Ne). pose proof (top_lower f x' x (IS _ Ix') (IS _ Ix) Tx' ltac:(congruence)). lra. }
  subst x'. eapply dpath_trans; [exact Px|]. now apply dpath_sym.
Qed.

(** a part above the rest in some direction *)
Lemma half_conn (g : pt) (S T : list tri) : Permutation (S ++ T) ts ->
  (forall t t', In t S -> In t' T -> vdot g (Y t') < vdot g (Y t)) -> dconn S.
Proof.
  intros P Sep.
  assert (IS : incl S ts) by (intros t It; eapply Permutation_in; [exact P|apply in_or_app; now left]).
  destruct (generic_near crosses g crosses_ne) as (e & d & Pd & Hd).
  destruct (least_pos (fun q d' => 0 < vdot (vmov g d' e) (Y (fst q)) - vdot (vmov g d' e) (Y (snd q))) (list_prod S T)) as (d1 & P1 & H1).
  { intros [t t'] I. apply in_prod_iff in I as [I I']. simpl. specialize (Sep t t' I I').
    destruct (small_pos (vdot g (Y t) - vdot g (Y t')) (vdot e (Y t) - vdot e (Y t'))) as (d2 & P2 & Q2); [lra|].
    exists d2. split; [assumption|]. intros d' Hd'. specialize (Q2 d' Hd'). rewrite !vdot_mov1. lra. }
  set (s := Rmin d d1). pose proof (Rmin_l d d1). pose proof (Rmin_r d d1). pose proof (Rmin_pos d d1 Pd P1).
  apply (up_conn (vmov g s e)); auto.
  - apply generic_of. intros w Hw. apply (Hd s); [unfold s; lra|assumption].
  - intros t t' It It' Lt. assert (J : In t' (S ++ T)) by (eapply Permutation_in; [apply Permutation_sym; exact P|assumption]).
    apply in_app_or in J as [J|J]; [assumption|exfalso].
    specialize (H1 (t, t') ltac:(apply in_prod; assumption) s ltac:(unfold s; lra)). simpl in H1. lra.
Qed.
End Conn.

(** both parts of a cut, and the whole, are connected *)
Section Parts.
Variables (n : Z) (Kp R : list tri).
Hypothesis Hok : forall t, In t (Kp ++ R) -> tri_ok n t.
Hypothesis Hpos : forall t, In t (Kp ++ R) -> 0 < tdet nrm t.
Hypothesis Hvert : forall t, In t (Kp ++ R) -> exists x, is_vertex o t x.
Hypothesis Hcl : forall u v, In (u, v) (edges (Kp ++ R)) -> In (v, u) (edges (Kp ++ R)).
Hypothesis Hnd : NoDup (edges (Kp ++ R)).
Hypothesis HK : forall t x, In t Kp -> is_vertex o t x -> ev (o n) x <= 0.
Hypothesis HR : forall t x, In t R -> is_vertex o t x -> 0 < ev (o n) x.
Hypothesis Hps : psurf n (Kp ++ R).

Lemma parts_conn : dconn (Kp ++ R) /\ dconn Kp /\ dconn R.
Proof.
  destruct (sep_moves n Kp R Hok Hpos Hvert HK HR Hps 1 ltac:(lra)) as (dl & dn & Dl & Dn & S & SK & SR).
  destruct (pick_pt (fun t x => pvert dl t x /\ forall j, (0 <= j < n)%Z -> ~ label j t -> ev (o j) x < dl j) (Kp ++ R) S) as [Y HY].
  assert (LT : forall t t', In t R -> In t' Kp -> vdot (normal (o n)) (Y t') < vdot (normal (o n)) (Y t)).
  { intros t t' It It'. destruct (HY t ltac:(apply in_or_app; auto)) as [V _]. destruct (HY t' ltac:(apply in_or_app; auto)) as [V' _].
    pose proof (SR t _ It V). pose proof (SK t' _ It' V'). pose proof (ev_normal (o n) (Y t) (Y t')). lra. }
  split; [|split].
  - apply (half_conn n (Kp ++ R) dl Y Hok Hpos Hcl Hnd HY v0 (Kp ++ R) []); [now rewrite app_nil_r|]. intros t t' _ [].
  - apply (half_conn n (Kp ++ R) dl Y Hok Hpos Hcl Hnd HY (vmov v0 (-1) (normal (o n))) Kp R); [reflexivity|].
    intros t t' It It'. rewrite !vdot_mov1, !vdot_0. pose proof (LT t' t It' It). lra.
  - apply (half_conn n (Kp ++ R) dl Y Hok Hpos Hcl Hnd HY (normal (o n)) R Kp); [apply Permutation_app_comm|assumption].
Qed.
End Parts.
End Perturb.

Lemma psurf_ext o o' n ts : (forall t, In t ts -> tri_ok n t) -> (forall j, (0 <= j < n)%Z -> o j = o' j) -> psurf o n ts -> psurf o' n ts.
Proof.
  intros Hok E H eta He. destruct (H eta He) as (dl & D & S). exists dl. split; [assumption|]. intros t It.
  destruct (S t It) as (x & V & F). exists x. split.
  - intros l Hl. rewrite <- E; [now apply V|]. exact (label_lt n t l (Hok t It) Hl).
  - intros j Hj Nj. rewrite <- E by assumption. now apply F.
Qed.
