(** Cones of oriented triangles of directions, over the real numbers: when the
    cones of a closed surface of triangles cover all directions, cutting away
    triangles and closing the hole with a fan keeps them covered. *)
From Verif Require Import Base PBase SpecGeom SpecBnd.
From Coq Require Import Psatz.
Local Open Scope R_scope.

(** ** vectors *)
Definition vdot (u v : pt) : R := let '(a, b, c) := u in let '(x, y, z) := v in a * x + b * y + c * z.
Definition vtri (u v w : pt) : R :=
  let '(a1, b1, c1) := u in let '(a2, b2, c2) := v in let '(a3, b3, c3) := w in
  a1 * (b2 * c3 - b3 * c2) - b1 * (a2 * c3 - a3 * c2) + c1 * (a2 * b3 - a3 * b2).
Definition vcross (u v : pt) : pt :=
  let '(a1, b1, c1) := u in let '(a2, b2, c2) := v in (b1 * c2 - b2 * c1, a2 * c1 - a1 * c2, a1 * b2 - a2 * b1).
(** u + s v *)
Definition vmov (u : pt) (s : R) (v : pt) : pt :=
  let '(a, b, c) := u in let '(x, y, z) := v in (a + s * x, b + s * y, c + s * z).
Definition v0 : pt := (0, 0, 0).

Ltac vd := repeat match goal with v : pt |- _ => destruct v as [[? ?] ?] end;
  unfold vdot, vtri, vcross, vmov, v0 in *.

Lemma vtri_rot u v w : vtri u v w = vtri v w u. Proof. vd. ring. Qed.
Lemma vtri_swap u v w : vtri v u w = - vtri u v w. Proof. vd. ring. Qed.
Lemma vtri_same u w : vtri u u w = 0. Proof. vd. ring. Qed.
Lemma vtri_same2 u w : vtri u w w = 0. Proof. vd. ring. Qed.
Lemma vtri_mov u v w s x : vtri u v (vmov w s x) = vtri u v w + s * vtri u v x. Proof. vd. ring. Qed.
Lemma vdot_mov u w s x : vdot u (vmov w s x) = vdot u w + s * vdot u x. Proof. vd. ring. Qed.
Lemma vdot_mov1 u w s x : vdot (vmov w s x) u = vdot w u + s * vdot x u. Proof. vd. ring. Qed.
Lemma vtri_mov_h f s h x : vtri (vmov f s h) x h = vtri f x h. Proof. vd. ring. Qed.
Lemma vtri_mov_h2 f s h x : vtri x h (vmov f s h) = vtri x h f. Proof. vd. ring. Qed.
Lemma vmov_0 f h : vmov f (- 0) h = f. Proof. vd. f_equal; [f_equal|]; ring. Qed.
Lemma vmov_vmov f h a b : vmov f (- (a + b)) h = vmov (vmov f (- a) h) (- b) h. Proof. vd. f_equal; [f_equal|]; ring. Qed.
Lemma vtri_cross_h f x h : vtri f x h = - vdot (vcross h x) f. Proof. vd. ring. Qed.
Lemma vcross_0 u v : vcross u v = v0 -> vcross v u = v0.
Proof. intros E. vd. injection E as E1 E2 E3. f_equal; [f_equal|]; lra. Qed.
Lemma vdot_comm u v : vdot u v = vdot v u. Proof. vd. ring. Qed.
Lemma vtri_cross u v w : vtri u v w = vdot (vcross u v) w. Proof. vd. ring. Qed.
Lemma vdot_0 u : vdot v0 u = 0. Proof. vd. ring. Qed.
Lemma vtri_v0 u v : vtri u v v0 = 0. Proof. vd. ring. Qed.
Lemma vdot_self u : u <> v0 -> 0 < vdot u u.
Proof.
  intros H. vd. destruct (Req_dec r 0) as [->|]; [|nra]. destruct (Req_dec r1 0) as [->|]; [|nra].
  destruct (Req_dec r0 0) as [->|]; [congruence|nra].
Qed.
(** coordinates in a basis *)
Lemma cramer_dir a b c f x : vtri a b c * vdot f x = vtri b c f * vdot a x + vtri c a f * vdot b x + vtri a b f * vdot c x.
Proof. vd. ring. Qed.
Lemma cramer_tri a b c f u w : vtri a b c * vtri f u w = vtri b c f * vtri a u w + vtri c a f * vtri b u w + vtri a b f * vtri c u w.
Proof. vd. ring. Qed.

(** ** small helpers about reals *)
Lemma small_pos a b : 0 < a -> exists d, 0 < d /\ forall e, 0 < e <= d -> 0 < a + e * b.
Proof.
  intros Ha. exists (a / (2 * (1 + Rabs b))). pose proof (Rabs_pos b).
  split; [apply Rdiv_lt_0_compat; lra|]. intros e He.
  assert (He2 : e * (2 * (1 + Rabs b)) <= a).
  { assert (E : a / (2 * (1 + Rabs b)) * (2 * (1 + Rabs b)) = a) by (field; lra). apply Rle_trans with (a / (2 * (1 + Rabs b)) * (2 * (1 + Rabs b))); [apply Rmult_le_compat_r; lra|lra]. }
  assert (- Rabs b <= b) by (pose proof (Rle_abs (- b)); rewrite Rabs_Ropp in *; lra). nra.
Qed.

(** three falling or rising lines, all nonnegative at l0, one of them falling: the first zero *)
Lemma exit3 A1 B1 A2 B2 A3 B3 l0 :
  0 <= A1 - l0 * B1 -> 0 <= A2 - l0 * B2 -> 0 <= A3 - l0 * B3 -> 0 < B1 \/ 0 < B2 \/ 0 < B3 ->
  exists l, l0 <= l /\ 0 <= A1 - l * B1 /\ 0 <= A2 - l * B2 /\ 0 <= A3 - l * B3 /\
    (0 < B1 /\ A1 - l * B1 = 0 \/ 0 < B2 /\ A2 - l * B2 = 0 \/ 0 < B3 /\ A3 - l * B3 = 0).
Proof.
  intros H1 H2 H3 HB.
  assert (Z : forall A B, 0 < B -> A - A / B * B = 0) by (intros; field; lra).
  assert (GE : forall A B, 0 < B -> 0 <= A - l0 * B -> l0 <= A / B).
  { intros A B HB' H. apply Rmult_le_reg_r with B; [lra|]. specialize (Z A B HB'). lra. }
  assert (ST : forall A B l, 0 <= A - l0 * B -> l0 <= l -> B <= 0 -> 0 <= A - l * B) by (intros; nra).
  assert (LE : forall A B l, 0 < B -> l <= A / B -> 0 <= A - l * B).
  { intros A B l HB' H. specialize (Z A B HB'). nra. }
  assert (key : forall A1 B1 A2 B2 A3 B3, 0 < B1 -> 0 <= A1 - l0 * B1 -> 0 <= A2 - l0 * B2 -> 0 <= A3 - l0 * B3 ->
    exists l, l0 <= l /\ 0 <= A1 - l * B1 /\ 0 <= A2 - l * B2 /\ 0 <= A3 - l * B3 /\
    (0 < B1 /\ A1 - l * B1 = 0 \/ 0 < B2 /\ A2 - l * B2 = 0 \/ 0 < B3 /\ A3 - l * B3 = 0)).
  { clear - Z GE ST LE. intros A1 B1 A2 B2 A3 B3 P1 H1 H2 H3.
    (* first two *)
    assert (exists l, l0 <= l /\ 0 <= A1 - l * B1 /\ 0 <= A2 - l * B2 /\ (0 < B1 /\ A1 - l * B1 = 0 \/ 0 < B2 /\ A2 - l * B2 = 0)) as (l & L0 & L1 & L2 & L3).
    { destruct (Rlt_dec 0 B2) as [P2|P2].
      - destruct (Rle_dec (A1 / B1) (A2 / B2)).
        + exists (A1 / B1). rewrite (Z A1 B1 P1). repeat split; auto; try lra; now left.
        + exists (A2 / B2). rewrite (Z A2 B2 P2). repeat split; auto; try lra. apply LE; lra.
      - exists (A1 / B1). rewrite (Z A1 B1 P1). repeat split; auto; try lra. apply ST; auto; lra. }
    destruct (Rle_dec 0 (A3 - l * B3)) as [Q|Q].
    - exists l. repeat split; auto. tauto.
    - assert (P3 : 0 < B3) by nra. exists (A3 / B3). rewrite (Z A3 B3 P3).
      assert (l0 <= A3 / B3) by auto. assert (A3 / B3 < l).
      { apply Rmult_lt_reg_r with B3; [lra|]. specialize (Z A3 B3 P3). lra. }
      repeat split; auto; try lra.
      + destruct (Rle_dec B1 0); [apply ST; auto|nra].
      + destruct (Rle_dec B2 0); [apply ST; auto; lra|nra]. }
  destruct HB as [P|[P|P]].
  - apply key; auto.
  - destruct (key A2 B2 A1 B1 A3 B3) as (l & Q); auto. exists l. tauto.
  - destruct (key A3 B3 A2 B2 A1 B1) as (l & Q); auto. exists l. tauto.
Qed.

Section Cones.
(** the direction of each label *)
Variable nrm : Z -> pt.

Definition tdet (t : tri) : R := let '(a, b, c) := t in vtri (nrm a) (nrm b) (nrm c).
(** f is a nonnegative combination of the three directions of t (if tdet t > 0) *)
Definition cone (t : tri) (f : pt) : Prop := forall u v, In (u, v) (tri_edges t) -> 0 <= vtri (nrm u) (nrm v) f.
Definition covers (ts : list tri) : Prop := forall f, exists t, In t ts /\ cone t f.

Lemma cone_3 a b c f : cone (a, b, c) f <-> 0 <= vtri (nrm a) (nrm b) f /\ 0 <= vtri (nrm b) (nrm c) f /\ 0 <= vtri (nrm c) (nrm a) f.
Proof.
  unfold cone. simpl. split.
  - intros H. repeat split; apply H; auto.
  - intros (H1 & H2 & H3) u v [[= <- <-]|[[= <- <-]|[[= <- <-]|[]]]]; assumption.
Qed.
Lemma cone_dec t f : {cone t f} + {~ cone t f}.
Proof.
  destruct t as [[a b] c].
  destruct (Rle_dec 0 (vtri (nrm a) (nrm b) f)) as [H1|H1]; [|right; rewrite cone_3; tauto].
  destruct (Rle_dec 0 (vtri (nrm b) (nrm c) f)) as [H2|H2]; [|right; rewrite cone_3; tauto].
  destruct (Rle_dec 0 (vtri (nrm c) (nrm a) f)) as [H3|H3]; [|right; rewrite cone_3; tauto].
  left. rewrite cone_3. tauto.
Qed.

(** a triangle seen from one of its edges *)
Lemma rot t u v : In (u, v) (tri_edges t) -> exists w,
  (forall e, In e (tri_edges t) <-> e = (u, v) \/ e = (v, w) \/ e = (w, u)) /\ tdet t = vtri (nrm u) (nrm v) (nrm w) /\
  (t = (u, v, w) \/ t = (w, u, v) \/ t = (v, w, u)).
Proof.
  destruct t as [[a b] c]. simpl. intros [[= <- <-]|[[= <- <-]|[[= <- <-]|[]]]].
  - exists c. split; [|split; auto]. intros e. intuition.
  - exists a. split; [|split; auto]. { intros e. intuition. } apply vtri_rot.
  - exists b. split; [|split; auto]. { intros e. intuition. } rewrite vtri_rot, vtri_rot. reflexivity.
Qed.
Lemma cone_rot t u v w f : (t = (u, v, w) \/ t = (w, u, v) \/ t = (v, w, u)) ->
  cone t f <-> 0 <= vtri (nrm u) (nrm v) f /\ 0 <= vtri (nrm v) (nrm w) f /\ 0 <= vtri (nrm w) (nrm u) f.
Proof. intros [->|[->| ->]]; rewrite cone_3; tauto. Qed.

Lemma tri_eq_dec (a b : tri) : {a = b} + {a <> b}.
Proof. repeat decide equality. Qed.

Section Walk.
Variables (Kp R : list tri) (nh f : pt).
Hypothesis Hpos : forall t, In t Kp \/ In t R -> 0 < tdet t.
Hypothesis Hcl : forall t u v, In t R -> In (u, v) (tri_edges t) -> exists t2, (In t2 Kp \/ In t2 R) /\ In (v, u) (tri_edges t2).
(** no removed cone contains -nh *)
Hypothesis Hrem : forall t, In t R -> exists u v, In (u, v) (tri_edges t) /\ 0 < vtri (nrm u) (nrm v) nh.
(** f is in general position *)
Hypothesis Hgen : forall t u v, In t R -> In (u, v) (tri_edges t) -> vcross (nrm u) nh <> v0 -> vtri f (nrm u) nh <> 0.

Lemma gen_pos u v w t l : In t R -> (t = (u, v, w) \/ t = (w, u, v) \/ t = (v, w, u)) ->
  cone t (vmov f (- l) nh) -> vtri (nrm u) (nrm v) (vmov f (- l) nh) = 0 -> 0 < vtri (nrm u) (nrm v) nh ->
  0 < vtri (nrm v) (nrm w) (vmov f (- l) nh) /\ 0 < vtri (nrm w) (nrm u) (vmov f (- l) nh).
Proof.
  intros Ht Hr Hc Hz Hn. set (g := vmov f (- l) nh) in *.
  assert (D : 0 < vtri (nrm u) (nrm v) (nrm w)).
  { replace (vtri (nrm u) (nrm v) (nrm w)) with (tdet t); [auto|]. destruct Hr as [->|[->| ->]]; simpl; auto.
    - apply vtri_rot. - now rewrite vtri_rot, vtri_rot. }
  rewrite (cone_rot _ _ _ _ _ Hr) in Hc. destruct Hc as (_ & C2 & C3).
  assert (Eu : In (u, v) (tri_edges t)) by (destruct Hr as [->|[->| ->]]; simpl; auto).
  assert (Ev : In (v, w) (tri_edges t)) by (destruct Hr as [->|[->| ->]]; simpl; auto).
  assert (T : forall x, vtri g (nrm x) nh = vtri f (nrm x) nh) by (intros x; unfold g; apply vtri_mov_h).
  assert (Cr : forall x, vcross (nrm x) nh = v0 -> forall y, vtri (nrm x) y nh = 0).
  { intros x E y. rewrite (vtri_rot (nrm x)), (vtri_rot y), vtri_swap, vtri_cross, E, vdot_0. ring. }
  (* cramer: D * vtri g x nh *)
  assert (X : forall x, vtri (nrm u) (nrm v) (nrm w) * vtri g (nrm x) nh =
     vtri (nrm v) (nrm w) g * vtri (nrm u) (nrm x) nh + vtri (nrm w) (nrm u) g * vtri (nrm v) (nrm x) nh).
  { intros x. rewrite cramer_tri. rewrite Hz. ring. }
  assert (Nu : vcross (nrm u) nh <> v0) by (intros E; rewrite (Cr u E) in Hn; lra).
  assert (Nv : vcross (nrm v) nh <> v0) by (intros E; rewrite vtri_swap, (Cr v E) in Hn; lra).
  split.
  - destruct (Rle_lt_or_eq_dec _ _ C2) as [|E]; [assumption|exfalso].
    apply (Hgen t v w Ht Ev Nv). rewrite <- T. specialize (X v). rewrite <- E, vtri_same in X.
    apply Rmult_eq_reg_l with (vtri (nrm u) (nrm v) (nrm w)); lra.
  - destruct (Rle_lt_or_eq_dec _ _ C3) as [|E]; [assumption|exfalso].
    apply (Hgen t u v Ht Eu Nu). rewrite <- T. specialize (X u). rewrite <- E, vtri_same in X.
    apply Rmult_eq_reg_l with (vtri (nrm u) (nrm v) (nrm w)); lra.
Qed.

(** follow f - l nh from a removed cone until it enters a kept one: it does so
    through an edge between the two, and f lies in the cone of that edge and nh *)
Lemma walk_out : forall n L, (length L <= n)%nat -> incl L R ->
  forall t l0, In t L -> 0 <= l0 -> cone t (vmov f (- l0) nh) ->
  (forall t', In t' R -> ~ In t' L -> forall l, l0 <= l -> ~ cone t' (vmov f (- l) nh)) ->
  exists t1 t2 u v, In t1 R /\ In t2 Kp /\ In (u, v) (tri_edges t1) /\ In (v, u) (tri_edges t2) /\
    0 < vtri (nrm u) (nrm v) nh /\ 0 <= vtri (nrm u) (nrm v) f /\ 0 <= vtri (nrm v) nh f /\ 0 <= vtri nh (nrm u) f.
Proof.
  induction n as [|n IH]; intros L Hn HL t l0 Ht Hl0 Hc Hout.
  { destruct L; [destruct Ht|simpl in Hn; lia]. }
  assert (HtR : In t R) by auto.
  (* the exit *)
  assert (EX : exists l u v w, l0 <= l /\ cone t (vmov f (- l) nh) /\ (t = (u, v, w) \/ t = (w, u, v) \/ t = (v, w, u)) /\
     vtri (nrm u) (nrm v) (vmov f (- l) nh) = 0 /\ 0 < vtri (nrm u) (nrm v) nh).
  { destruct t as [[a b] c]. rewrite cone_3 in Hc. rewrite !vtri_mov in Hc. destruct Hc as (H1 & H2 & H3).
    destruct (exit3 (vtri (nrm a) (nrm b) f) (vtri (nrm a) (nrm b) nh) (vtri (nrm b) (nrm c) f) (vtri (nrm b) (nrm c) nh)
      (vtri (nrm c) (nrm a) f) (vtri (nrm c) (nrm a) nh) l0) as (l & L0 & L1 & L2 & L3 & LL); try lra.
    { destruct (Hrem _ HtR) as (u & v & Iu & Pu). simpl in Iu. destruct Iu as [[= <- <-]|[[= <- <-]|[[= <- <-]|[]]]]; auto. }
    exists l. destruct LL as [[LB LE]|[[LB LE]|[LB LE]]].
    - exists a, b, c. rewrite cone_3, !vtri_mov. repeat split; try lra; auto.
    - exists b, c, a. rewrite cone_3, !vtri_mov. repeat split; try lra; auto.
    - exists c, a, b. rewrite cone_3, !vtri_mov. repeat split; try lra; auto. }
  destruct EX as (l & u & v & w & Hl & Hcl' & Hr & Hz & Hp).
  destruct (gen_pos u v w t l HtR Hr Hcl' Hz Hp) as [Pv Pw].
  assert (Eu : In (u, v) (tri_edges t)) by (destruct Hr as [->|[->| ->]]; simpl; auto).
  assert (D : 0 < vtri (nrm u) (nrm v) (nrm w)).
  { replace (vtri (nrm u) (nrm v) (nrm w)) with (tdet t); [auto|]. destruct Hr as [->|[->| ->]]; simpl; auto.
    - apply vtri_rot. - now rewrite vtri_rot, vtri_rot. }
  set (g := vmov f (- l) nh) in *.
  destruct (Hcl t u v HtR Eu) as (t2 & [HK|HR] & E2).
  - (* the neighbour is kept *)
    exists t, t2, u, v. do 5 (split; [assumption|]).
    assert (G : forall x, vtri x nh f = vtri x nh g) by (intros x; unfold g; now rewrite vtri_mov_h2).
    assert (G1 : vtri (nrm u) (nrm v) f = l * vtri (nrm u) (nrm v) nh) by (unfold g in Hz; rewrite vtri_mov in Hz; lra).
    assert (G2 : vtri (nrm u) (nrm v) (nrm w) * vtri g (nrm v) nh = vtri (nrm v) (nrm w) g * vtri (nrm u) (nrm v) nh).
    { rewrite cramer_tri, Hz, vtri_same. ring. }
    assert (G3 : vtri (nrm u) (nrm v) (nrm w) * vtri g (nrm u) nh = - vtri (nrm w) (nrm u) g * vtri (nrm u) (nrm v) nh).
    { rewrite cramer_tri, Hz, vtri_same, (vtri_swap (nrm u) (nrm v) nh). ring. }
    split; [rewrite G1; nra|]. split.
    + rewrite G, <- vtri_rot. apply Rmult_le_reg_l with (vtri (nrm u) (nrm v) (nrm w)); [lra|]. rewrite G2. nra.
    + rewrite vtri_swap, G, <- vtri_rot. apply Rmult_le_reg_l with (vtri (nrm u) (nrm v) (nrm w)); [lra|].
      rewrite Ropp_mult_distr_r_reverse, G3. nra.
  - (* the neighbour is removed too: step a little further *)
    destruct (rot t2 v u E2) as (x & _ & D2 & Hr2). assert (P2 : 0 < vtri (nrm v) (nrm u) (nrm x)) by (rewrite <- D2; auto).
    assert (A1 : 0 < vtri (nrm u) (nrm x) g).
    { rewrite vtri_rot, vtri_rot.
      apply Rmult_lt_reg_l with (vtri (nrm u) (nrm v) (nrm w)); [lra|]. rewrite cramer_tri, Hz, vtri_same. nra. }
    assert (A2 : 0 < vtri (nrm x) (nrm v) g).
    { rewrite <- vtri_rot.
      apply Rmult_lt_reg_l with (vtri (nrm u) (nrm v) (nrm w)); [lra|]. rewrite cramer_tri, Hz.
      assert (vtri (nrm u) (nrm x) (nrm v) = vtri (nrm v) (nrm u) (nrm x)) by (now rewrite vtri_rot, vtri_rot).
      assert (vtri (nrm v) (nrm x) (nrm v) = 0) by (rewrite vtri_rot; apply vtri_same2). nra. }
    destruct (small_pos _ (- vtri (nrm u) (nrm x) nh) A1) as (d1 & Pd1 & Q1).
    destruct (small_pos _ (- vtri (nrm x) (nrm v) nh) A2) as (d2 & Pd2 & Q2).
    set (e := Rmin d1 d2). assert (Pe : 0 < e) by (unfold e; apply Rmin_pos; assumption).
    assert (e <= d1) by apply Rmin_l. assert (e <= d2) by apply Rmin_r.
    specialize (Q1 e ltac:(lra)). specialize (Q2 e ltac:(lra)).
    assert (Fe : vmov f (- (l + e)) nh = vmov g (- e) nh).
    { unfold g. apply vmov_vmov. }
    assert (C2 : cone t2 (vmov f (- (l + e)) nh)).
    { rewrite Fe, (cone_rot _ _ _ _ _ Hr2), !vtri_mov. rewrite (vtri_swap (nrm u) (nrm v) g), (vtri_swap (nrm u) (nrm v) nh), Hz.
      repeat split; nra. }
    assert (Ct : forall l', l + e <= l' -> ~ cone t (vmov f (- l') nh)).
    { intros l' Hl' C. specialize (C u v Eu). unfold g in Hz. rewrite vtri_mov in *. nra. }
    apply (IH (remove tri_eq_dec t L)) with (t := t2) (l0 := l + e); try assumption; try lra.
    + pose proof (remove_length_lt tri_eq_dec L t Ht). lia.
    + intros y Hy. apply in_remove in Hy. apply HL. tauto.
    + destruct (in_dec tri_eq_dec t2 L) as [I|I].
      * apply in_in_remove; [|assumption]. intros ->. apply (Ct (l + e)); [lra|assumption].
      * exfalso. apply (Hout t2 HR I (l + e)); [lra|assumption].
    + intros t' Ht' Nt' l' Hl'. destruct (tri_eq_dec t' t) as [->|Ne]; [now apply Ct|].
      apply Hout; [assumption| |lra]. intros I. apply Nt'. now apply in_in_remove.
Qed.
End Walk.

(** ** general position *)
Lemma generic_dir : forall ws : list pt, (forall w, In w ws -> w <> v0) -> exists e, forall w, In w ws -> vdot w e <> 0.
Proof.
  induction ws as [|w ws IH]; intros H; [exists v0; intros ? []|].
  destruct IH as [e He]; [intros; apply H; now right|].
  assert (Hw : 0 < vdot w w) by (apply vdot_self, H; now left).
  destruct (Req_dec (vdot w e) 0) as [E|E]; [|exists e; intros x [<-|Hx]; auto].
  (* e + d w with small d *)
  assert (S : exists d, 0 < d /\ forall d', 0 < d' <= d -> forall x, In x ws -> vdot x e + d' * vdot x w <> 0).
  { clear -He. induction ws as [|x ws IH]; [exists 1; split; [lra|intros ? ? ? []]|].
    destruct IH as (d & Pd & Hd); [intros; apply He; now right|].
    assert (Nx : vdot x e <> 0) by (apply He; now left).
    destruct (Rlt_dec 0 (vdot x e)) as [P|P].
    - destruct (small_pos _ (vdot x w) P) as (d1 & Pd1 & Q). exists (Rmin d d1). pose proof (Rmin_l d d1). pose proof (Rmin_r d d1).
      split; [apply Rmin_pos; assumption|]. intros d' Hd' y [<-|Hy]; [specialize (Q d' ltac:(lra)); lra|apply Hd; [lra|assumption]].
    - destruct (small_pos (- vdot x e) (- vdot x w)) as (d1 & Pd1 & Q); [lra|]. exists (Rmin d d1). pose proof (Rmin_l d d1). pose proof (Rmin_r d d1).
      split; [apply Rmin_pos; assumption|]. intros d' Hd' y [<-|Hy]; [specialize (Q d' ltac:(lra)); lra|apply Hd; [lra|assumption]]. }
  destruct S as (d & Pd & Hd). exists (vmov e d w). intros x [<-|Hx]; rewrite vdot_mov; [rewrite E; nra|apply Hd; [lra|assumption]].
Qed.
(** close to any f there is one with all the products nonzero *)
Lemma generic_near (ws : list pt) f : (forall w, In w ws -> w <> v0) -> exists e, exists d, 0 < d /\
  forall s, 0 < s <= d -> forall w, In w ws -> vdot w (vmov f s e) <> 0.
Proof.
  intros H. destruct (generic_dir ws H) as [e He]. exists e. clear H. induction ws as [|w ws IH].
  - exists 1. split; [lra|intros ? ? ? []].
  - destruct IH as (d & Pd & Hd); [intros; apply He; now right|].
    assert (Nw : vdot w e <> 0) by (apply He; now left).
    assert (S : exists d1, 0 < d1 /\ forall s, 0 < s <= d1 -> vdot w f + s * vdot w e <> 0).
    { destruct (Req_dec (vdot w f) 0) as [E|E]; [exists 1; split; [lra|intros s Hs]; rewrite E; nra|].
      destruct (Rlt_dec 0 (vdot w f)) as [P|P].
      - destruct (small_pos _ (vdot w e) P) as (d1 & Pd1 & Q). exists d1. split; [assumption|]. intros s Hs. specialize (Q s Hs). lra.
      - destruct (small_pos (- vdot w f) (- vdot w e)) as (d1 & Pd1 & Q); [lra|]. exists d1. split; [assumption|]. intros s Hs. specialize (Q s Hs). lra. }
    destruct S as (d1 & Pd1 & Q). exists (Rmin d d1). pose proof (Rmin_l d d1). pose proof (Rmin_r d d1).
    split; [apply Rmin_pos; assumption|]. intros s Hs x [<-|Hx]; [rewrite vdot_mov; apply Q; lra|apply Hd; [lra|assumption]].
Qed.
(** not being in any cone of a list is stable *)
Lemma outside_near (ts : list tri) f e : (forall t, In t ts -> ~ cone t f) -> exists d, 0 < d /\
  forall s, 0 < s <= d -> forall t, In t ts -> ~ cone t (vmov f s e).
Proof.
  induction ts as [|t ts IH]; intros H; [exists 1; split; [lra|intros ? ? ? []]|].
  destruct IH as (d & Pd & Hd); [intros; apply H; now right|].
  assert (S : exists d1, 0 < d1 /\ forall s, 0 < s <= d1 -> ~ cone t (vmov f s e)).
  { assert (Nc : ~ cone t f) by (apply H; now left). destruct t as [[a b] c].
    assert (key : forall u v, In (u, v) (tri_edges (a, b, c)) -> vtri (nrm u) (nrm v) f < 0 ->
      exists d1, 0 < d1 /\ forall s, 0 < s <= d1 -> ~ cone (a, b, c) (vmov f s e)).
    { intros u v I P. destruct (small_pos (- vtri (nrm u) (nrm v) f) (- vtri (nrm u) (nrm v) e)) as (d1 & Pd1 & Q); [lra|].
      exists d1. split; [assumption|]. intros s Hs C. specialize (C u v I). rewrite vtri_mov in C. specialize (Q s Hs). lra. }
    destruct (Rlt_dec (vtri (nrm a) (nrm b) f) 0) as [P|P]; [apply (key a b); simpl; auto|].
    destruct (Rlt_dec (vtri (nrm b) (nrm c) f) 0) as [P'|P']; [apply (key b c); simpl; auto|].
    destruct (Rlt_dec (vtri (nrm c) (nrm a) f) 0) as [P2|P2]; [apply (key c a); simpl; auto|].
    exfalso. apply Nc. rewrite cone_3. lra. }
  destruct S as (d1 & Pd1 & Q). exists (Rmin d d1). pose proof (Rmin_l d d1). pose proof (Rmin_r d d1).
  split; [apply Rmin_pos; assumption|]. intros s Hs x [<-|Hx]; [apply Q; lra|apply Hd; [lra|assumption]].
Qed.

(** ** cutting *)
Section Cut.
Variables (Kp R : list tri) (nh : pt).
Hypothesis Hpos : forall t, In t Kp \/ In t R -> 0 < tdet t.
Hypothesis Hcl : forall t u v, In t R -> In (u, v) (tri_edges t) -> exists t2, (In t2 Kp \/ In t2 R) /\ In (v, u) (tri_edges t2).
Hypothesis Hrem : forall t, In t R -> exists u v, In (u, v) (tri_edges t) /\ 0 < vtri (nrm u) (nrm v) nh.

Definition bad_dirs : list pt := filter (fun w => if Req_EM_T (vdot w w) 0 then false else true)
  (map (fun '(u, v) => vcross nh (nrm u)) (edges R)).
Lemma bad_nonzero w : In w bad_dirs -> w <> v0.
Proof. intros H. apply filter_In in H. destruct H as [_ H]. intros ->. rewrite vdot_0 in H. destruct (Req_EM_T 0 0); congruence. Qed.
Lemma bad_generic f : (forall w, In w bad_dirs -> vdot w f <> 0) ->
  forall t u v, In t R -> In (u, v) (tri_edges t) -> vcross (nrm u) nh <> v0 -> vtri f (nrm u) nh <> 0.
Proof.
  intros H t u v Ht Hu Hc. assert (E : vtri f (nrm u) nh = - vdot (vcross nh (nrm u)) f) by (apply vtri_cross_h).
  rewrite E. apply Ropp_neq_0_compat, H. apply filter_In. split.
  - apply in_map_iff. exists (u, v). split; [reflexivity|]. apply in_flat_map. eauto.
  - destruct (Req_EM_T (vdot (vcross nh (nrm u)) (vcross nh (nrm u))) 0) as [Z|]; [exfalso|reflexivity].
    assert (N : vcross nh (nrm u) <> v0).
    { intros E0. now apply Hc, vcross_0. }
    apply vdot_self in N. lra.
Qed.

(** some boundary edge exists *)
Lemma cut_edge : covers (Kp ++ R) -> R <> [] -> exists t1 t2 u v, In t1 R /\ In t2 Kp /\ In (u, v) (tri_edges t1) /\ In (v, u) (tri_edges t2).
Proof.
  intros _ NR. destruct R as [|t R'] eqn:ER; [congruence|]. rewrite <- ER in *. assert (It : In t R) by (rewrite ER; now left).
  destruct t as [[a b] c]. assert (D : 0 < vtri (nrm a) (nrm b) (nrm c)) by (apply (Hpos (a, b, c)); auto).
  (* a direction inside the cone of t *)
  set (f0 := vmov (vmov (nrm a) 1 (nrm b)) 1 (nrm c)).
  assert (P1 : 0 < vtri (nrm a) (nrm b) f0).
  { unfold f0. rewrite !vtri_mov, vtri_same2. rewrite (vtri_rot (nrm a) (nrm b) (nrm a)), vtri_same2. lra. }
  assert (P2 : 0 < vtri (nrm b) (nrm c) f0).
  { unfold f0. rewrite !vtri_mov, vtri_same2. rewrite (vtri_rot (nrm b) (nrm c) (nrm b)), vtri_same2. rewrite <- vtri_rot. lra. }
  assert (P3 : 0 < vtri (nrm c) (nrm a) f0).
  { unfold f0. rewrite !vtri_mov, vtri_same2. rewrite (vtri_rot (nrm c) (nrm a) (nrm c)), vtri_same2. rewrite vtri_rot. lra. }
  destruct (generic_near bad_dirs f0 bad_nonzero) as (e & d & Pd & Hd).
  destruct (small_pos _ (vtri (nrm a) (nrm b) e) P1) as (d1 & Pd1 & Q1).
  destruct (small_pos _ (vtri (nrm b) (nrm c) e) P2) as (d2 & Pd2 & Q2).
  destruct (small_pos _ (vtri (nrm c) (nrm a) e) P3) as (d3 & Pd3 & Q3).
  set (s := Rmin (Rmin d d1) (Rmin d2 d3)).
  assert (0 < s) by (unfold s; repeat apply Rmin_pos; assumption).
  assert (s <= d /\ s <= d1 /\ s <= d2 /\ s <= d3) as (S0 & S1 & S2 & S3).
  { unfold s. pose proof (Rmin_l (Rmin d d1) (Rmin d2 d3)). pose proof (Rmin_r (Rmin d d1) (Rmin d2 d3)).
    pose proof (Rmin_l d d1). pose proof (Rmin_r d d1). pose proof (Rmin_l d2 d3). pose proof (Rmin_r d2 d3). lra. }
  set (f := vmov f0 s e).
  destruct (walk_out Kp R nh f Hpos Hcl Hrem (bad_generic f ltac:(intros w Hw; apply Hd; [lra|assumption])) (length R) R (le_n _) (incl_refl _) (a, b, c) 0 It (Rle_refl 0))
    as (t1 & t2 & u & v & H1 & H2 & H3 & H4 & _).
  - assert (E : vmov f (- 0) nh = f) by (apply vmov_0). rewrite E. unfold f. rewrite cone_3, !vtri_mov.
    specialize (Q1 s ltac:(lra)). specialize (Q2 s ltac:(lra)). specialize (Q3 s ltac:(lra)). lra.
  - intros t' I N. contradiction.
  - eauto 10.
Qed.

(** the cones of the kept triangles and of the fan cover everything again *)
Lemma cut_covers h Fn : nrm h = nh -> covers (Kp ++ R) ->
  (forall t1 t2 u v, In t1 R -> In t2 Kp -> In (u, v) (tri_edges t1) -> In (v, u) (tri_edges t2) -> In (u, v, h) Fn) ->
  covers (Kp ++ Fn).
Proof.
  intros Hh HC HF f.
  destruct (Exists_dec (fun t => cone t f) (Kp ++ Fn)) as [X|X]; [intros t; apply cone_dec| |].
  { apply Exists_exists in X. exact X. }
  exfalso.
  assert (NC : forall t, In t (Kp ++ Fn) -> ~ cone t f) by (intros t I C; apply X, Exists_exists; eauto).
  destruct (generic_near bad_dirs f bad_nonzero) as (e & d & Pd & Hd).
  destruct (outside_near (Kp ++ Fn) f e NC) as (d1 & Pd1 & Hd1).
  set (s := Rmin d d1). pose proof (Rmin_l d d1). pose proof (Rmin_r d d1). assert (0 < s) by (apply Rmin_pos; assumption). fold s in H, H0.
  set (g := vmov f s e). destruct (HC g) as (t & It & Ct).
  assert (NCg : forall t, In t (Kp ++ Fn) -> ~ cone t g) by (intros; apply Hd1; [lra|assumption]).
  apply in_app_or in It. destruct It as [It|It].
  { apply (NCg t); [apply in_or_app; now left|assumption]. }
  destruct (walk_out Kp R nh g Hpos Hcl Hrem (bad_generic g ltac:(intros w Hw; apply Hd; [lra|assumption])) (length R) R (le_n _) (incl_refl _) t 0 It (Rle_refl 0))
    as (t1 & t2 & u & v & H1' & H2 & H3 & H4 & _ & H5 & H6 & H7).
  - assert (E : vmov g (- 0) nh = g) by (apply vmov_0). now rewrite E.
  - intros t' I N. contradiction.
  - apply (NCg (u, v, h)); [apply in_or_app; right; eauto|]. rewrite cone_3, Hh. auto.
Qed.
End Cut.
End Cones.
