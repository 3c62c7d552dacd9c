(** Points on a line parallel to the first axis are in robust position when they keep
    some distance from each other and from the walls. *)
From Verif Require Import Base PBase SpecGeom SpecNear SpecVor SpecRows SpecRobust.
From Coq Require Import Reals Lra Psatz.
Import SpecGeom.
Local Open Scope R_scope.

Section L.
Variables (S : list pt) (y z d : R).
Hypothesis Hd : / 32768 <= d * d.
Hypothesis Hd0 : 0 < d.
Hypothesis HS : forall j q, znth S j = Some q -> exists t, q = (t, y, z) /\ d <= t <= 1 - d.
Hypothesis Hsep : forall i j t t', i <> j -> znth S i = Some (t, y, z) -> znth S j = Some (t', y, z) -> d <= Rabs (t - t').

Lemma len_x a e : len (a, 0, 0, e) = Rabs a.
Proof. unfold len. replace (a * a + 0 * 0 + 0 * 0) with (Rsqr a) by (unfold Rsqr; ring). apply sqrt_Rsqr_abs. Qed.
Lemma len_y a e : len (0, a, 0, e) = Rabs a.
Proof. unfold len. replace (0 * 0 + a * a + 0 * 0) with (Rsqr a) by (unfold Rsqr; ring). apply sqrt_Rsqr_abs. Qed.
Lemma len_z a e : len (0, 0, a, e) = Rabs a.
Proof. unfold len. replace (0 * 0 + 0 * 0 + a * a) with (Rsqr a) by (unfold Rsqr; ring). apply sqrt_Rsqr_abs. Qed.

Lemma bisector_line s t : bisector (s, y, z) (t, y, z) = (t - s, 0, 0, - (t - s) * ((s + t) / 2)).
Proof. unfold bisector. f_equal; [f_equal; [f_equal|]|]; field. Qed.

Inductive kind (X : R -> Prop) : pl -> Prop :=
| kx a t : a <> 0 -> X t -> kind X (a, 0, 0, - a * t)
| ky a e : kind X (0, a, 0, e)
| kz a e : kind X (0, 0, a, e).
Lemma wall_kind (A : Z -> Prop) s h : (forall j, A j -> forall t, znth S j = Some (t, y, z) -> t <> s) -> wall S A (s, y, z) h ->
  kind (fun t => t = 0 \/ t = 1 \/ exists j u, A j /\ znth S j = Some (u, y, z) /\ t = (s + u) / 2) h.
Proof.
  intros Hne [I|(j & q & Aj & Ej & ->)].
  - simpl in I. destruct I as [<-|[<-|[<-|[<-|[<-|[<-|[]]]]]]]; try constructor.
    + replace 0 with (- (1) * 0) at 3 by ring. constructor; [lra|auto].
    + replace (-1, 0, 0, 1) with (-1, 0, 0, - (-1) * 1) by (f_equal; ring). constructor; [lra|auto].
  - destruct (HS j q Ej) as (t & -> & _). rewrite bisector_line. constructor; [specialize (Hne j Aj t Ej); lra|]. right. right. exists j, t. auto.
Qed.
Lemma kinds_det X h1 h2 h3 x1 x2 x3 : kind X h1 -> kind X h2 -> kind X h3 -> det3 h1 h2 h3 <> 0 -> ev h1 (x1, x2, x3) = 0 -> ev h2 (x1, x2, x3) = 0 -> ev h3 (x1, x2, x3) = 0 ->
  Rabs (det3 h1 h2 h3) = len h1 * len h2 * len h3 /\ X x1.
Proof.
  intros K1 K2 K3 D E1 E2 E3.
  assert (Q : forall a t, a <> 0 -> X t -> ev (a, 0, 0, - a * t) (x1, x2, x3) = 0 -> X x1).
  { intros a t Ha Xt E. unfold ev in E. replace x1 with t; [assumption|]. apply Rmult_eq_reg_l with a; lra. }
  assert (M : forall a b c : R, Rabs (a * b * c) = Rabs a * Rabs b * Rabs c) by (intros; now rewrite !Rabs_mult).
  inversion K1; subst; inversion K2; subst; inversion K3; subst; try (exfalso; apply D; unfold det3; ring); rewrite ?len_x, ?len_y, ?len_z; rewrite <- M; unfold det3; split; eauto;
    first [f_equal; ring|rewrite <- Rabs_Ropp; f_equal; ring].
Qed.

Lemma line_robust i : robust S i d.
Proof.
  split; [assumption|]. split.
  - intros j p q [Hj Nj] Ep Eq. destruct (HS i p Ep) as (s & -> & _). destruct (HS j q Eq) as (t & -> & _). unfold d2.
    replace ((s - t) ^ 2 + (y - y) ^ 2 + (z - z) ^ 2) with (Rsqr (s - t)) by (unfold Rsqr; ring). rewrite sqrt_Rsqr_abs. now apply (Hsep i j); auto.
  - intros A j p q h1 h2 h3 x [N1 N2] [Hj Nj] NA Ep Eq ((W1 & W2 & W3) & D & (E1 & E2 & E3) & IC & _). destruct (HS i p Ep) as (s & -> & Bs). destruct (HS j q Eq) as (t & -> & Bt). destruct x as [[x1 x2] x3].
    assert (Hne : forall a, A a -> forall u, znth S a = Some (u, y, z) -> u <> s).
    { intros a Aa u Eu ->. destruct (N1 a Aa) as [_ Na]. pose proof (Hsep i a s s ltac:(auto) Ep Eu) as H. rewrite Rminus_diag_eq, Rabs_R0 in H by reflexivity. lra. }
    destruct (kinds_det _ h1 h2 h3 x1 x2 x3 (wall_kind A s h1 Hne W1) (wall_kind A s h2 Hne W2) (wall_kind A s h3 Hne W3) D E1 E2 E3) as [ED XX]. rewrite ED, bisector_line, len_x.
    unfold ev. replace ((t - s) * x1 + 0 * x2 + 0 * x3 + - (t - s) * ((s + t) / 2)) with ((t - s) * (x1 - (s + t) / 2)) by ring. rewrite Rabs_mult.
    assert (G : d / 2 <= Rabs (x1 - (s + t) / 2)).
    { destruct XX as [->|[->|(a & u & Aa & Eu & ->)]]; [split_Rabs; lra|split_Rabs; lra|]. assert (Na : a <> j) by (intros ->; contradiction). pose proof (Hsep a j u t Na Eu Eq) as H. split_Rabs; lra. }
    assert (PL : 0 <= len h1 * len h2 * len h3) by (rewrite <- ED; apply Rabs_pos). pose proof (Rabs_pos (t - s)) as PT. set (L := len h1 * len h2 * len h3) in *. set (m := Rabs (t - s)) in *. set (e := Rabs (x1 - (s + t) / 2)) in *.
    assert (G2 : / 65536 <= e * d). { apply Rle_trans with (d / 2 * d); [lra|]. apply Rmult_le_compat_r; lra. }
    replace (/ 65536 * L * m) with ((L * m) * / 65536) by ring. replace (m * e * d * L) with ((L * m) * (e * d)) by ring. apply Rmult_le_compat_l; [now apply Rmult_le_pos|exact G2].
Qed.
End L.

Lemma on_line_robust d S : on_line d S -> forall i, robust S i d.
Proof. intros (Hd & Hd0 & y & z & HS & Hsep) i. exact (line_robust S y z d Hd Hd0 HS Hsep i). Qed.
