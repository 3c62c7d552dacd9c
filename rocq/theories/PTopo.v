(** Closed surfaces of oriented triangles: components, boundaries and potentials. *)
From Verif Require Import Base PBase SpecBnd PBnd PBndLoop PGeomCone PGeomPoly.

(** two triangles with a common edge *)
Definition adj (t t' : tri) : Prop := exists u v, In (u, v) (tri_edges t) /\ In (v, u) (tri_edges t').
Lemma adj_sym t t' : adj t t' -> adj t' t.
Proof. intros (u & v & A & B). exists v, u. auto. Qed.
Lemma adj_dec t t' : adj t t' \/ ~ adj t t'.
Proof.
  destruct t as [[a b] c].
  destruct (edge_dec (b, a) (tri_edges t')) as [H|H1]; [left; exists a, b; simpl; auto|].
  destruct (edge_dec (c, b) (tri_edges t')) as [H|H2]; [left; exists b, c; simpl; auto|].
  destruct (edge_dec (a, c) (tri_edges t')) as [H|H3]; [left; exists c, a; simpl; auto|].
  right. intros (u & v & A & B). simpl in A. destruct A as [[= <- <-]|[[= <- <-]|[[= <- <-]|[]]]]; contradiction.
Qed.

Lemma nonempty_in {A} (l : list A) : l <> [] -> exists x, In x l.
Proof. destruct l as [|x l]; [congruence|]. exists x. now left. Qed.

Inductive dpath (S : list tri) : tri -> tri -> Prop :=
| dp_refl t : In t S -> dpath S t t
| dp_step t t1 t2 : In t S -> adj t t1 -> dpath S t1 t2 -> dpath S t t2.
Definition dconn (S : list tri) : Prop := forall t t', In t S -> In t' S -> dpath S t t'.

Lemma dpath_in S t t' : dpath S t t' -> In t S /\ In t' S.
Proof. induction 1; tauto. Qed.
Lemma dpath_mono S S' t t' : incl S S' -> dpath S t t' -> dpath S' t t'.
Proof. intros I. induction 1; econstructor; eauto. Qed.
Lemma dpath_trans S a b c : dpath S a b -> dpath S b c -> dpath S a c.
Proof. induction 1; auto. intros. econstructor; eauto. Qed.
Lemma dpath_sym S a b : dpath S a b -> dpath S b a.
Proof.
  induction 1 as [t H|t t1 t2 H A P IH]; [now constructor|]. eapply dpath_trans; [exact IH|].
  econstructor; [eapply dpath_in; eauto|apply adj_sym; exact A|now constructor].
Qed.
Lemma dconn_perm S S' : Permutation S S' -> dconn S -> dconn S'.
Proof.
  intros P H t t' A B. apply (dpath_mono S); [intros x; now apply Permutation_in|].
  apply H; (eapply Permutation_in; [apply Permutation_sym; exact P|assumption]).
Qed.
(** no way from D to E without crossing *)
Lemma no_cross S D E x y : incl S (D ++ E) -> (forall d e, In d D -> In e E -> ~ adj d e) -> dpath S x y -> In x D -> In y D.
Proof.
  intros I N. induction 1 as [t H|t t1 t2 H A P IH]; intros Hx; [assumption|]. apply IH.
  apply dpath_in in P as [H1 _]. specialize (I _ H1). apply in_app_or in I as [I|I]; [assumption|]. destruct (N t t1 Hx I A).
Qed.

Lemma find_adj (D S : list tri) : (exists d e, In d D /\ In e S /\ adj d e) \/ forall d e, In d D -> In e S -> ~ adj d e.
Proof.
  induction D as [|d D IH]; [right; intros d e []|].
  assert (Q : (exists e, In e S /\ adj d e) \/ forall e, In e S -> ~ adj d e).
  { clear IH. induction S as [|e S IH]; [right; intros e []|]. destruct (adj_dec d e) as [H|H]; [left; exists e; simpl; auto|].
    destruct IH as [(e' & I & H')|IH]; [left; exists e'; simpl; auto|]. right. intros e' [<-|I]; auto. }
  destruct Q as [(e & I & H)|Q]; [left; exists d, e; simpl; auto|].
  destruct IH as [(d' & e & I & J & H)|IH]; [left; exists d', e; simpl; auto|]. right. intros d' e [<-|I] J; auto.
Qed.

(** the part of S reached from D *)
Lemma grow_comp : forall n S D, (length S <= n)%nat -> exists D' E, Permutation (D ++ S) (D' ++ E) /\ incl D D' /\
  (forall t, In t D' -> exists d, In d D /\ dpath D' d t) /\ forall d e, In d D' -> In e E -> ~ adj d e.
Proof.
  induction n as [|n IH]; intros S D Hn; destruct (find_adj D S) as [(d & e & Id & Ie & H)|H].
  - destruct S; [destruct Ie|simpl in Hn; lia].
  - exists D, S. split; [apply Permutation_refl|]. split; [intros x; auto|]. split; [|assumption].
    intros t It. exists t. split; [assumption|]. now constructor.
  - apply in_split in Ie as (S1 & S2 & ->).
    destruct (IH (S1 ++ S2) (e :: D)) as (D' & E & P & I & R & N).
    { rewrite app_length in *. simpl in Hn. lia. }
    exists D', E. split.
    { eapply perm_trans; [|exact P]. apply Permutation_sym. change ((e :: D) ++ S1 ++ S2) with (e :: D ++ S1 ++ S2).
      rewrite !app_assoc. apply Permutation_middle. }
    split; [intros x Hx; apply I; now right|]. split; [|assumption].
    intros t It. destruct (R t It) as (d' & [<-|Id'] & P'); [|exists d'; auto].
    exists d. split; [assumption|]. econstructor; [apply I; now right|exact H|exact P'].
  - exists D, S. split; [apply Permutation_refl|]. split; [intros x; auto|]. split; [|assumption].
    intros t It. exists t. split; [assumption|]. now constructor.
Qed.
Lemma comp_split S t0 : In t0 S -> exists D E, Permutation S (D ++ E) /\ In t0 D /\
  (forall t, In t D -> dpath D t0 t) /\ forall d e, In d D -> In e E -> ~ adj d e.
Proof.
  intros H. apply in_split in H as (S1 & S2 & ->). destruct (grow_comp _ (S1 ++ S2) [t0] (le_n _)) as (D & E & P & I & R & N).
  exists D, E. split.
  { eapply perm_trans; [|exact P]. apply Permutation_sym. apply (Permutation_middle S1 S2 t0). }
  split; [apply I; now left|]. split; [|assumption]. intros t It. destruct (R t It) as (d & [<-|[]] & P'). assumption.
Qed.

(** ** boundaries *)
Definition rev_e (e : Z * Z) : Z * Z := (snd e, fst e).
Definition cnt {A} (f : A -> bool) (l : list A) : nat := length (filter f l).
Lemma cnt_app {A} (f : A -> bool) a b : cnt f (a ++ b) = (cnt f a + cnt f b)%nat.
Proof. unfold cnt. now rewrite filter_app, app_length. Qed.
Lemma cnt_perm {A} (f : A -> bool) a b : Permutation a b -> cnt f a = cnt f b.
Proof.
  unfold cnt. induction 1 as [|x a b P IH|x y a|a b c P1 I1 P2 I2]; simpl.
  - reflexivity.
  - destruct (f x); simpl; lia.
  - destruct (f x), (f y); reflexivity.
  - lia.
Qed.
Lemma cnt_split {A} (f p : A -> bool) l : cnt f l = (cnt f (filter p l) + cnt f (filter (fun x => negb (p x)) l))%nat.
Proof. unfold cnt. induction l as [|x l IH]; simpl; [reflexivity|]. destruct (p x), (f x) eqn:E; simpl; rewrite ?E; simpl; lia. Qed.
Lemma cnt_map {A B} (g : A -> B) (f : B -> bool) l : cnt f (map g l) = cnt (fun x => f (g x)) l.
Proof. unfold cnt. induction l as [|x l IH]; simpl; [reflexivity|]. destruct (f (g x)); simpl; lia. Qed.
Lemma cnt_pos {A} (f : A -> bool) l x : In x l -> f x = true -> (1 <= cnt f l)%nat.
Proof. intros I H. unfold cnt. assert (Q : In x (filter f l)) by (apply filter_In; auto). destruct (filter f l); [destruct Q|simpl; lia]. Qed.
Lemma cnt_ex {A} (f : A -> bool) l : (1 <= cnt f l)%nat -> exists x, In x l /\ f x = true.
Proof. unfold cnt. intros H. destruct (filter f l) as [|x r] eqn:E; [simpl in H; lia|]. exists x. apply filter_In. rewrite E. now left. Qed.

Definition into (v : Z) (e : Z * Z) : bool := snd e =? v.
Definition outof (v : Z) (e : Z * Z) : bool := fst e =? v.
Definition inb (e : Z * Z) (l : list (Z * Z)) : bool := existsb (fun e' => (fst e =? fst e') && (snd e =? snd e')) l.
Lemma inb_spec e l : inb e l = true <-> In e l.
Proof.
  unfold inb. rewrite existsb_exists. split.
  - intros ([x y] & I & H). apply andb_true_iff in H as [H1 H2]. destruct e as [u v]. simpl in *. assert (u = x) by lia. assert (v = y) by lia. subst. assumption.
  - intros H. exists e. split; [assumption|]. rewrite !Z.eqb_refl. reflexivity.
Qed.

Lemma edges_balanced v ts : cnt (into v) (edges ts) = cnt (outof v) (edges ts).
Proof.
  induction ts as [|[[a b] c] ts IH]; [reflexivity|]. change (edges ((a, b, c) :: ts)) with (tri_edges (a, b, c) ++ edges ts).
  rewrite !cnt_app, IH. f_equal. unfold cnt, into, outof. simpl. destruct (a =? v), (b =? v), (c =? v); reflexivity.
Qed.
(** a boundary edge has a boundary edge after it *)
Lemma bd_next D u v : NoDup (edges D) -> boundary_edge D u v -> exists w, boundary_edge D v w.
Proof.
  intros ND [B1 B2]. set (L := edges D) in *. set (p := fun e => inb (rev_e e) L).
  assert (PI : Permutation (map rev_e (filter p L)) (filter p L)).
  { apply NoDup_Permutation.
    - apply FinFun.Injective_map_NoDup; [intros [x y] [x' y'] E; unfold rev_e in E; simpl in E; congruence|]. now apply NoDup_filter.
    - now apply NoDup_filter.
    - assert (Q : forall e, In e (filter p L) -> In (rev_e e) (filter p L)).
      { intros e He. apply filter_In in He as [H1 H2]. unfold p in *. apply inb_spec in H2. apply filter_In. split; [assumption|].
        apply inb_spec. destruct e. exact H1. }
      intros e. split.
      + intros H. apply in_map_iff in H as (x & <- & Hx). auto.
      + intros H. apply in_map_iff. exists (rev_e e). split; [destruct e; reflexivity|auto]. }
  assert (BI : cnt (into v) (filter p L) = cnt (outof v) (filter p L)).
  { rewrite <- (cnt_perm (outof v) _ _ PI). rewrite cnt_map. reflexivity. }
  pose proof (edges_balanced v D) as BE. fold L in BE.
  rewrite (cnt_split (into v) p L), (cnt_split (outof v) p L) in BE.
  assert (C1 : (1 <= cnt (into v) (filter (fun x => negb (p x)) L))%nat).
  { apply (cnt_pos _ _ (u, v)); [|apply Z.eqb_refl]. apply filter_In. split; [assumption|]. unfold p, rev_e. simpl.
    destruct (inb (v, u) L) eqn:E; [|reflexivity]. apply inb_spec in E. contradiction. }
  destruct (cnt_ex (outof v) (filter (fun x => negb (p x)) L) ltac:(lia)) as ([x w] & I & H). unfold outof in H. simpl in H.
  assert (x = v) by lia. subst x. exists w. apply filter_In in I as [I1 I2]. split; [assumption|]. intros K.
  unfold p, rev_e in I2. simpl in I2. fold L in K. rewrite (proj2 (inb_spec _ _) K) in I2. discriminate.
Qed.
Lemma bd_search D : (exists u v, boundary_edge D u v) \/ forall u v, In (u, v) (edges D) -> In (v, u) (edges D).
Proof.
  assert (Q : forall l, (exists u v, In (u, v) l /\ ~ In (v, u) (edges D)) \/ forall u v, In (u, v) l -> In (v, u) (edges D)).
  { induction l as [|[u v] l IH]; [right; intros u v []|]. destruct (edge_dec (v, u) (edges D)) as [H|H].
    - destruct IH as [(u' & v' & I & J)|IH]; [left; exists u', v'; split; [now right|assumption]|]. right. intros u' v' [[= <- <-]|I]; auto.
    - left. exists u, v. split; [now left|assumption]. }
  destruct (Q (edges D)) as [(u & v & A & B)|H]; [left; exists u, v; split; assumption|right; assumption].
Qed.

Definition distinct (t : tri) : Prop := let '(a, b, c) := t in a <> b /\ b <> c /\ c <> a.
Lemma ok_distinct n t : tri_ok n t -> distinct t.
Proof. destruct t as [[a b] c]. simpl. lia. Qed.
Lemma edge_once t u v : distinct t -> In (u, v) (tri_edges t) -> In (v, u) (tri_edges t) -> False.
Proof.
  destruct t as [[a b] c]. simpl. intros (D1 & D2 & D3) H K.
  destruct H as [[= <- <-]|[[= <- <-]|[[= <- <-]|[]]]]; destruct K as [K|[K|[K|[]]]]; congruence.
Qed.

(** one directed cycle *)
Record ring (B : Z -> Z -> Prop) : Prop := {
  rg_fun : forall u v w, B u v -> B u w -> v = w;
  rg_all : forall P : Z -> Z -> Prop, (forall u v w, B u v -> B v w -> P u v -> P v w) ->
    forall u v u' v', B u v -> B u' v' -> P u v -> P u' v' }.

Section Surface.
Variable ts : list tri.
Hypothesis Hok : forall t, In t ts -> distinct t.
Hypothesis Hnd : NoDup (edges ts).
Hypothesis Hcl : forall u v, In (u, v) (edges ts) -> In (v, u) (edges ts).

Lemma same_tri t t' e : In t ts -> In t' ts -> In e (tri_edges t) -> In e (tri_edges t') -> t = t'.
Proof.
  clear Hok Hcl. revert Hnd. induction ts as [|x l IH]; intros ND I I' E E'; [destruct I|].
  change (edges (x :: l)) with (tri_edges x ++ edges l) in ND.
  destruct I as [<-|I], I' as [<-|I']; auto.
  - exfalso. apply (nodup_app _ _ e ND E). apply in_edges. eauto.
  - exfalso. apply (nodup_app _ _ e ND E'). apply in_edges. eauto.
  - apply IH; auto. apply (nodup_app_r _ _ ND).
Qed.
Lemma ts_nodup : NoDup ts.
Proof.
  clear Hcl. revert Hok Hnd. induction ts as [|x l IH]; intros OK ND; [constructor|].
  change (edges (x :: l)) with (tri_edges x ++ edges l) in ND. constructor.
  - intros K. destruct x as [[a b] c]. apply (nodup_app _ _ (a, b) ND); [simpl; auto|]. apply in_edges. exists (a, b, c). simpl. auto.
  - apply IH; [intros t Ht; apply OK; now right|]. apply (nodup_app_r _ _ ND).
Qed.

Section Parts.
Variables X Y : list tri.
Hypothesis HP : Permutation (X ++ Y) ts.

Lemma part_nd : NoDup (edges X ++ edges Y).
Proof. rewrite <- edges_app. eapply Permutation_NoDup; [apply Permutation_sym, perm_edges; exact HP|exact Hnd]. Qed.
Lemma part_in t : In t ts <-> In t X \/ In t Y.
Proof.
  rewrite <- in_app_iff. split; apply Permutation_in; [now apply Permutation_sym|assumption].
Qed.
Lemma part_edge e : In e (edges ts) <-> In e (edges X) \/ In e (edges Y).
Proof.
  rewrite <- in_app_iff, <- edges_app. split; apply Permutation_in; [apply perm_edges; now apply Permutation_sym|now apply perm_edges].
Qed.
Lemma part_xy e : In e (edges X) -> In e (edges Y) -> False.
Proof. intros A B. apply (nodup_app _ _ e part_nd A B). Qed.
Lemma part_disj t : In t X -> In t Y -> False.
Proof.
  intros A B. destruct t as [[a b] c]. apply (part_xy (a, b)); apply in_edges; exists (a, b, c); simpl; auto.
Qed.
Lemma part_bd u v : boundary_edge X u v <-> boundary_edge Y v u.
Proof.
  unfold boundary_edge. split.
  - intros [A B]. pose proof (proj2 (part_edge (u, v)) (or_introl A)) as C. apply Hcl in C. apply part_edge in C as [C|C]; [contradiction|].
    split; [assumption|]. intros K. apply (part_xy _ A K).
  - intros [A B]. pose proof (proj2 (part_edge (v, u)) (or_intror A)) as C. apply Hcl in C. apply part_edge in C as [C|C]; [|contradiction].
    split; [assumption|]. intros K. apply (part_xy _ K A).
Qed.

Lemma closed_all D : incl D ts -> D <> [] -> (forall u v, In (u, v) (edges D) -> In (v, u) (edges D)) -> dconn ts -> incl ts D.
Proof.
  intros I N C Con t It. destruct (nonempty_in D N) as (d & Id).
  assert (P : dpath ts d t) by (apply Con; [now apply I|assumption]). revert Id. clear -P I C Hnd. induction P as [t H|t t1 t2 H (u & v & A & B) P IH]; intros Id; [assumption|].
  apply IH. assert (K : In (v, u) (edges D)) by (apply C; apply in_edges; eauto). apply in_edges in K as (t' & It' & E').
  destruct (dpath_in _ _ _ P) as [I1 _]. rewrite (same_tri t1 t' (v, u)); auto.
Qed.
Lemma part_has_bd D E : dconn ts -> D <> [] -> Permutation X (D ++ E) -> Y <> [] -> exists u v, boundary_edge D u v.
Proof.
  intros Con N PX NY. destruct (bd_search D) as [H|H]; [assumption|exfalso].
  assert (ID : forall t, In t D -> In t X) by (intros t Ht; eapply Permutation_in; [apply Permutation_sym; exact PX|apply in_or_app; now left]).
  destruct (nonempty_in Y NY) as (y & Iy).
  assert (Q : In y D).
  { apply (closed_all D); auto.
    - intros t Ht. apply part_in. left. auto.
    - apply part_in. now right. }
  apply (part_disj y); auto.
Qed.
Lemma comp_bd D E u v : Permutation X (D ++ E) -> (forall d e, In d D -> In e E -> ~ adj d e) -> boundary_edge D u v -> boundary_edge X u v.
Proof.
  intros PX N [A B]. assert (EX : forall e, In e (edges X) <-> In e (edges D) \/ In e (edges E)).
  { intros e. rewrite <- in_app_iff, <- edges_app. split; apply Permutation_in; [now apply perm_edges|apply perm_edges; now apply Permutation_sym]. }
  split; [apply EX; now left|]. intros K. apply EX in K as [K|K]; [contradiction|].
  apply in_edges in A as (d & Id & Ed). apply in_edges in K as (e & Ie & Ee). apply (N d e Id Ie). exists u, v. auto.
Qed.
(** a boundary in one piece bounds one piece *)
Lemma one_comp : dconn ts -> ring (boundary_edge X) -> Y <> [] -> dconn X.
Proof.
  intros Con RG NY t0 t1 I0 I1. destruct (comp_split X t0 I0) as (D & E & PX & ID & RD & N).
  assert (S1 : In t1 D \/ In t1 E) by (apply in_app_iff; eapply Permutation_in; eauto).
  destruct S1 as [S1|S1].
  { apply (dpath_mono D); [|auto]. intros x Hx. eapply Permutation_in; [apply Permutation_sym; exact PX|apply in_or_app; now left]. }
  exfalso.
  assert (ND : NoDup (edges D ++ edges E)).
  { rewrite <- edges_app. eapply Permutation_NoDup; [apply perm_edges; exact PX|]. apply (nodup_app_l _ _ part_nd). }
  assert (PX' : Permutation X (E ++ D)) by (eapply perm_trans; [exact PX|apply Permutation_app_comm]).
  assert (N' : forall d e, In d E -> In e D -> ~ adj d e) by (intros d e A B K; apply (N e d B A); now apply adj_sym).
  destruct (part_has_bd D E Con ltac:(intros ->; destruct ID) PX NY) as (u & v & B1).
  destruct (part_has_bd E D Con ltac:(intros ->; destruct S1) PX' NY) as (u' & v' & B2).
  pose proof (comp_bd D E u v PX N B1) as B1'. pose proof (comp_bd E D u' v' PX' N' B2) as B2'.
  apply (nodup_app _ _ (u', v') ND); [|apply B2].
  apply (rg_all _ RG (fun a b => In (a, b) (edges D))) with (u := u) (v := v); auto; [|apply B1].
  intros a b c Ba Bb Hab.
  assert (Bd : boundary_edge D a b).
  { split; [assumption|]. intros K. apply (proj2 Ba). apply in_edges in K as (t & It & Et). apply in_edges. exists t. split; [|assumption].
    eapply Permutation_in; [apply Permutation_sym; exact PX|apply in_or_app; now left]. }
  destruct (bd_next D a b (nodup_app_l _ _ ND) Bd) as (w & Bw). pose proof (comp_bd D E b w PX N Bw) as Bw'.
  rewrite (rg_fun _ RG b c w Bb Bw'). apply Bw.
Qed.
End Parts.

(** ** potentials *)
Definition tsum (g : Z -> Z -> bool) (t : tri) : bool := let '(a, b, c) := t in xorb (g a b) (xorb (g b c) (g c a)).
Definition sedge (u v a b : Z) : bool := (u =? a) && (v =? b) || (u =? b) && (v =? a).
Lemma sedge_true u v a b : sedge u v a b = true <-> u = a /\ v = b \/ u = b /\ v = a.
Proof. unfold sedge. rewrite orb_true_iff, !andb_true_iff, !Z.eqb_eq. reflexivity. Qed.
Lemma sedge_sym u v a b : sedge u v a b = sedge u v b a.
Proof. unfold sedge. rewrite orb_comm. f_equal; apply andb_comm. Qed.
Definition is_t (t x : tri) : bool := if tri_eq_dec t x then true else false.
Lemma tsum_xor g g' t : tsum (fun a b => xorb (g a b) (g' a b)) t = xorb (tsum g t) (tsum g' t).
Proof.
  destruct t as [[a b] c]. unfold tsum.
  destruct (g a b), (g b c), (g c a), (g' a b), (g' b c), (g' c a); reflexivity.
Qed.
(** an edge counted over a triangle *)
Lemma tsum_sedge u v t : distinct t -> u <> v ->
  tsum (sedge u v) t = true <-> In (u, v) (tri_edges t) \/ In (v, u) (tri_edges t).
Proof.
  destruct t as [[a b] c]. intros (D1 & D2 & D3) N. unfold tsum. simpl.
  split.
  - intros H. destruct (sedge u v a b) eqn:E1; [apply sedge_true in E1 as [[-> ->]|[-> ->]]; auto|].
    destruct (sedge u v b c) eqn:E2; [apply sedge_true in E2 as [[-> ->]|[-> ->]]; auto|].
    destruct (sedge u v c a) eqn:E3; [apply sedge_true in E3 as [[-> ->]|[-> ->]]; auto|discriminate].
  - assert (Q : forall x y z, x <> y -> y <> z -> z <> x -> u = x /\ v = y \/ v = x /\ u = y -> sedge u v x y = true /\ sedge u v y z = false /\ sedge u v z x = false).
    { intros x y z N1 N2 N3 H. split; [apply sedge_true; intuition|].
      split; (destruct (sedge u v _ _) eqn:E; [apply sedge_true in E; intuition congruence|reflexivity]). }
    intros H. assert (K : (u = a /\ v = b \/ v = a /\ u = b) \/ (u = b /\ v = c \/ v = b /\ u = c) \/ (u = c /\ v = a \/ v = c /\ u = a)).
    { destruct H as [[[= <- <-]|[[= <- <-]|[[= <- <-]|[]]]]|[[= <- <-]|[[= <- <-]|[[= <- <-]|[]]]]]; auto 6. }
    destruct K as [K|[K|K]].
    + destruct (Q a b c) as (-> & -> & ->); auto.
    + destruct (Q b c a) as (-> & -> & ->); auto.
    + destruct (Q c a b) as (-> & -> & ->); auto.
Qed.
Lemma tsum_cross t t1 u v x : In t ts -> In t1 ts -> In (u, v) (tri_edges t) -> In (v, u) (tri_edges t1) -> In x ts ->
  tsum (sedge u v) x = xorb (is_t t x) (is_t t1 x).
Proof.
  intros I I1 A B Ix.
  assert (N : u <> v). { intros ->. apply (edge_once t v v); auto. }
  assert (N1 : t <> t1). { intros ->. apply (edge_once t1 u v); auto. }
  pose proof (tsum_sedge u v x (Hok x Ix) N) as H. unfold is_t.
  destruct (tri_eq_dec t x) as [Et|Nt], (tri_eq_dec t1 x) as [Et1|Nt1]; simpl; try subst t; try subst t1.
  - congruence.
  - apply H. now left.
  - apply H. now right.
  - destruct (tsum (sedge u v) x); [|reflexivity]. exfalso. destruct (proj1 H eq_refl) as [K|K].
    + apply Nt. apply (same_tri t x (u, v)); auto.
    + apply Nt1. apply (same_tri t1 x (v, u)); auto.
Qed.
(** the edges crossed by a path *)
Lemma path_cochain S t t' : incl S ts -> dpath S t t' -> exists g : Z -> Z -> bool, (forall a b, g a b = g b a) /\
  (forall a b, g a b = true -> In (a, b) (edges S) /\ In (b, a) (edges S)) /\
  forall x, In x ts -> tsum g x = xorb (is_t t x) (is_t t' x).
Proof.
  intros I. induction 1 as [t H|t t1 t2 H (u & v & A & B) P IH].
  - exists (fun _ _ => false). split; [reflexivity|]. split; [discriminate|]. intros x Ix. rewrite xorb_nilpotent. destruct x as [[a b] c]. reflexivity.
  - destruct IH as (g & G1 & G2 & G3). destruct (dpath_in _ _ _ P) as [I1 _].
    assert (EA : In (u, v) (edges S)) by (apply in_edges; eauto). assert (EB : In (v, u) (edges S)) by (apply in_edges; eauto).
    exists (fun a b => xorb (g a b) (sedge u v a b)). split; [intros a b; rewrite G1, sedge_sym; reflexivity|]. split.
    + intros a b K. destruct (g a b) eqn:E; [auto|]. rewrite xorb_false_l in K. apply sedge_true in K as [[-> ->]|[-> ->]]; auto.
    + intros x Ix. rewrite tsum_xor, G3, (tsum_cross t t1 u v x) by auto.
      destruct (is_t t x), (is_t t1 x), (is_t t2 x); reflexivity.
Qed.

Definition potential : Prop := forall g : Z -> Z -> bool, (forall a b, g a b = g b a) -> (forall t, In t ts -> tsum g t = false) ->
  exists p : Z -> bool, forall a b, In (a, b) (edges ts) -> g a b = xorb (p a) (p b).

(** ** taking triangles one after the other *)
Definition touches (t : tri) (A : list tri) : Prop := exists u v, In (u, v) (tri_edges t) /\ In (v, u) (edges A).
Lemma touches_search D A : (exists d, In d D /\ touches d A) \/ forall d u v, In d D -> In (u, v) (tri_edges d) -> ~ In (v, u) (edges A).
Proof.
  destruct (find_adj D A) as [(d & e & Id & Ie & u & v & H1 & H2)|H].
  - left. exists d. split; [assumption|]. exists u, v. split; [assumption|]. apply in_edges. eauto.
  - right. intros d u v Id E K. apply in_edges in K as (e & Ie & Ee). apply (H d e Id Ie). exists u, v. auto.
Qed.

Section Shell.
Variables A B K C : list tri.
Hypothesis HA : Permutation (A ++ C) ts.
Hypothesis HC : Permutation C (B ++ K).
Hypothesis Con : dconn ts.
Hypothesis ConC : dconn C.
Hypothesis NA : A <> [].

Lemma shell_in_C t : In t C <-> In t B \/ In t K.
Proof. rewrite <- in_app_iff. split; apply Permutation_in; [assumption|now apply Permutation_sym]. Qed.
Lemma shell_nd : NoDup C.
Proof.
  pose proof ts_nodup as H. assert (Q : NoDup (A ++ C)) by (eapply Permutation_NoDup; [apply Permutation_sym; exact HA|exact H]).
  apply (nodup_app_r _ _ Q).
Qed.

Lemma shell_touch t D E : touches t A -> Permutation C (t :: D ++ E) -> (forall d e, In d D -> In e E -> ~ adj d e) -> D <> [] ->
  exists d, In d D /\ touches d A.
Proof.
  intros (p & q & T1 & T2) PC N ND. destruct (touches_search D A) as [H|H]; [assumption|exfalso].
  assert (P1 : Permutation (D ++ (t :: E ++ A)) ts).
  { eapply perm_trans; [|exact HA]. eapply perm_trans; [|apply Permutation_app_comm]. eapply perm_trans; [|apply Permutation_app_tail; apply Permutation_sym; exact PC].
    simpl. rewrite <- app_assoc. apply Permutation_sym. apply (Permutation_middle D (E ++ A) t). }
  assert (EY : forall e, In e (edges (t :: E ++ A)) <-> In e (tri_edges t) \/ In e (edges E) \/ In e (edges A)).
  { intros e. change (edges (t :: E ++ A)) with (tri_edges t ++ edges (E ++ A)). rewrite edges_app, !in_app_iff. reflexivity. }
  assert (SUB : forall u v, boundary_edge D u v -> In (v, u) (tri_edges t)).
  { intros u v [B1 B2]. assert (Q : In (v, u) (edges ts)) by (apply Hcl; apply (part_edge D _ P1); now left).
    apply (part_edge D _ P1) in Q as [Q|Q]; [contradiction|]. apply EY in Q as [Q|[Q|Q]]; [assumption|exfalso|exfalso]; apply in_edges in B1 as (d & Id & Ed).
    - apply in_edges in Q as (e & Ie & Ee). apply (N d e Id Ie). exists u, v. auto.
    - apply (H d u v Id Ed Q). }
  assert (Bd : exists u v, boundary_edge D u v).
  { destruct (bd_search D) as [X|X]; [assumption|exfalso].
    assert (Q : In t D).
    { apply (closed_all D); auto.
      - intros x Hx. apply (part_in D _ P1). now left.
      - apply (part_in D _ P1). right. now left. }
    apply (part_disj D _ P1 t Q). now left. }
  assert (It : In t ts) by (apply (part_in D _ P1); right; now left). pose proof (Hok t It) as Dt.
  assert (NDD : NoDup (edges D)) by (apply (nodup_app_l _ _ (part_nd D _ P1))).
  destruct Bd as (u & v & B1). destruct (bd_next D u v NDD B1) as (w & B2). destruct (bd_next D v w NDD B2) as (x & B3).
  pose proof (SUB _ _ B1) as E1. pose proof (SUB _ _ B2) as E2. pose proof (SUB _ _ B3) as E3.
  assert (ALL : In (q, p) (edges D)).
  { destruct t as [[a b] c]. simpl in Dt, E1, E2, E3, T1. destruct Dt as (D1 & D2 & D3).
    destruct E1 as [[= <- <-]|[[= <- <-]|[[= <- <-]|[]]]]; destruct E2 as [F|[F|[F|[]]]]; try congruence; injection F as <-;
      destruct E3 as [F|[F|[F|[]]]]; try congruence; injection F as <-;
      destruct T1 as [[= <- <-]|[[= <- <-]|[[= <- <-]|[]]]]; solve [apply B1 | apply B2 | apply B3]. }
  apply (part_xy D _ P1 (q, p) ALL). apply EY. auto.
Qed.

(** a triangle of B next to A whose removal leaves the rest connected *)
Lemma shell_step : forall m t D E, (length D <= m)%nat -> In t B -> touches t A -> Permutation C (t :: D ++ E) ->
  (forall d e, In d D -> In e E -> ~ adj d e) -> D <> [] -> incl D B ->
  exists t' Cr, In t' B /\ touches t' A /\ Permutation C (t' :: Cr) /\ dconn Cr.
Proof.
  induction m as [|m IH]; intros t D E Hm It Tt PC N ND DB; [destruct D; [congruence|simpl in Hm; lia]|].
  destruct (shell_touch t D E Tt PC N ND) as (t' & It' & Tt').
  apply in_split in It' as (D1 & D2 & ED). set (D0 := D1 ++ D2).
  assert (PD : Permutation D (t' :: D0)) by (subst D; unfold D0; apply Permutation_sym, Permutation_middle).
  set (Cr := t :: D0 ++ E).
  assert (PC' : Permutation C (t' :: Cr)).
  { eapply perm_trans; [exact PC|]. unfold Cr. eapply perm_trans; [|apply perm_swap]. constructor. change (t' :: D0 ++ E) with ((t' :: D0) ++ E). now apply Permutation_app_tail. }
  assert (NC := shell_nd).
  (* E hangs on t *)
  assert (HANG : forall e, In e E -> dpath Cr e t).
  { intros e Ie. assert (P : dpath C e t).
    { apply ConC; (eapply Permutation_in; [apply Permutation_sym; exact PC|]); [right; apply in_or_app; now right|now left]. }
    assert (Q : forall x y, dpath C x y -> y = t -> x = t \/ In x E -> dpath Cr x t).
    { clear -PC N. induction 1 as [x H|x x1 y H AD P IH]; intros -> Hx; [apply dp_refl; now left|].
      destruct Hx as [->|Hx]; [apply dp_refl; now left|].
      econstructor; [right; apply in_or_app; right; exact Hx|exact AD|]. apply IH; auto.
      apply dpath_in in P as [P _]. apply (Permutation_in _ PC) in P. destruct P as [<-|P]; [now left|]. apply in_app_or in P as [P|P]; [|now right].
      exfalso. apply (N x1 x P Hx). now apply adj_sym. }
    apply (Q e t P); auto. }
  destruct (comp_split Cr t ltac:(now left)) as (G & H & PG & Gt & RG & NG).
  destruct H as [|x H'].
  - exists t', Cr. split; [apply DB; eapply Permutation_in; [apply Permutation_sym; exact PD|now left]|]. split; [assumption|]. split; [assumption|].
    rewrite app_nil_r in PG. apply (dconn_perm G); [now apply Permutation_sym|]. intros a b Ha Hb. eapply dpath_trans; [apply dpath_sym|]; apply RG; assumption.
  - set (H := x :: H') in *.
    assert (NCr : NoDup Cr) by (eapply Permutation_NoDup in PC'; [|exact NC]; now inversion PC').
    assert (HD : incl H D0).
    { intros y Hy. assert (Iy : In y Cr) by (eapply Permutation_in; [apply Permutation_sym; exact PG|apply in_or_app; now right]).
      assert (NGy : ~ In y G).
      { intros K0. eapply Permutation_NoDup in PG; [|exact NCr]. apply (nodup_app _ _ y PG K0 Hy). }
      destruct Iy as [<-|Iy]; [contradiction|]. apply in_app_or in Iy as [Iy|Iy]; [assumption|]. exfalso. apply NGy.
      apply (no_cross Cr G H t y); auto.
      + intros z. apply Permutation_in. exact PG.
      + apply dpath_sym. apply HANG. assumption. }
    destruct (IH t' H G) as (t2 & Cr2 & R1 & R2 & R3 & R4); [| | | | | | |exists t2, Cr2; auto].
    + assert (NH : NoDup H) by (eapply Permutation_NoDup in PG; [|exact NCr]; apply (nodup_app_r _ _ PG)).
      pose proof (NoDup_incl_length NH HD). apply Permutation_length in PD. simpl in PD. lia.
    + apply DB. eapply Permutation_in; [apply Permutation_sym; exact PD|now left].
    + assumption.
    + eapply perm_trans; [exact PC'|]. constructor. eapply perm_trans; [exact PG|]. apply Permutation_app_comm.
    + intros d e Hd He K0. apply (NG e d He Hd). now apply adj_sym.
    + discriminate.
    + intros y Hy. apply DB. eapply Permutation_in; [apply Permutation_sym; exact PD|]. right. auto.
Qed.

Lemma shell : dconn (A ++ B) -> dconn K -> B <> [] -> exists t Cr, In t B /\ touches t A /\ Permutation C (t :: Cr) /\ dconn Cr.
Proof.
  intros CR CK NB.
  assert (T0 : exists t, In t B /\ touches t A).
  { destruct (touches_search B A) as [H|H]; [assumption|exfalso].
    destruct (nonempty_in A NA) as (a & Ia). destruct (nonempty_in B NB) as (b & Ib).
    assert (P : dpath (A ++ B) b a) by (apply CR; apply in_or_app; auto).
    assert (Q : In a B).
    { apply (no_cross (A ++ B) B A b a); auto.
      - intros x Hx. apply in_app_or in Hx. apply in_or_app. tauto.
      - intros d e Hd He (u & v & X & Y). apply (H d u v Hd X). apply in_edges. eauto. }
    apply (part_disj A C HA a); [assumption|]. apply shell_in_C. now left. }
  destruct T0 as (t & It & Tt). assert (IC : In t C) by (apply shell_in_C; now left).
  destruct (in_split _ _ IC) as (C1 & C2 & EC).
  assert (PC : Permutation C (t :: C1 ++ C2)) by (rewrite EC; apply Permutation_sym, Permutation_middle).
  destruct (C1 ++ C2) as [|c0 Cr0] eqn:ER.
  { exists t, []. split; [assumption|]. split; [assumption|]. split; [assumption|]. intros x y []. }
  rewrite <- ER in *. set (Cr := C1 ++ C2) in *.
  destruct (comp_split Cr c0 ltac:(rewrite ER; now left)) as (G & H & PG & Gt & RG & NG).
  destruct H as [|x H'].
  { exists t, Cr. split; [assumption|]. split; [assumption|]. split; [assumption|].
    rewrite app_nil_r in PG. apply (dconn_perm G); [now apply Permutation_sym|]. intros a b Ha Hb. eapply dpath_trans; [apply dpath_sym|]; apply RG; assumption. }
  set (H := x :: H') in *.
  assert (NC := shell_nd).
  assert (NBK : forall y, In y B -> In y K -> False).
  { intros y Y1 Y2. eapply Permutation_NoDup in HC; [|exact NC]. apply (nodup_app _ _ y HC Y1 Y2). }
  assert (NT : ~ In t Cr) by (eapply Permutation_NoDup in PC; [|exact NC]; now inversion PC).
  assert (CrIn : forall y, In y Cr <-> In y G \/ In y H).
  { intros y. rewrite <- in_app_iff. split; apply Permutation_in; [assumption|now apply Permutation_sym]. }
  assert (CB : forall y, In y Cr -> In y B \/ In y K) by (intros y Hy; apply shell_in_C; eapply Permutation_in; [apply Permutation_sym; exact PC|now right]).
  assert (KC : forall y, In y K -> In y Cr).
  { intros y Hy. assert (Iy : In y C) by (apply shell_in_C; now right). apply (Permutation_in _ PC) in Iy as [<-|Iy]; [destruct (NBK t It Hy)|assumption]. }
  assert (NG' : forall d e, In d H -> In e G -> ~ adj d e) by (intros d e Hd He K0; apply (NG e d He Hd); now apply adj_sym).
  assert (SIDE : incl G B \/ incl H B).
  { assert (EK : K = [] \/ exists k0, In k0 K) by (destruct K as [|k0 K']; [now left|right; exists k0; now left]).
    destruct EK as [EK|(k0 & Ik)].
    { left. intros y Hy. destruct (CB y ltac:(apply CrIn; now left)) as [Q|Q]; [assumption|]. rewrite EK in Q. destruct Q. }
    assert (IKG : incl K (G ++ H)) by (intros y Hy; apply in_app_iff; apply CrIn; auto).
    destruct (proj1 (CrIn k0) (KC k0 Ik)) as [Q|Q].
    - right. intros y Hy. destruct (CB y ltac:(apply CrIn; now right)) as [Z|Z]; [assumption|exfalso].
      assert (In y G) by (apply (no_cross K G H k0 y); auto).
      assert (NCr : NoDup Cr) by (eapply Permutation_NoDup in PC; [|exact NC]; now inversion PC).
      eapply Permutation_NoDup in PG; [|exact NCr]. apply (nodup_app _ _ y PG); assumption.
    - left. intros y Hy. destruct (CB y ltac:(apply CrIn; now left)) as [Z|Z]; [assumption|exfalso].
      assert (In y H) by (apply (no_cross K H G k0 y); auto; intros z Hz; apply IKG in Hz; rewrite in_app_iff in *; tauto).
      assert (NCr : NoDup Cr) by (eapply Permutation_NoDup in PC; [|exact NC]; now inversion PC).
      eapply Permutation_NoDup in PG; [|exact NCr]. apply (nodup_app _ _ y PG); assumption. }
  destruct SIDE as [SIDE|SIDE].
  - apply (shell_step (length G) t G H (le_n _) It Tt); auto.
    + eapply perm_trans; [exact PC|]. constructor. exact PG.
    + intros ->. destruct Gt.
  - apply (shell_step (length H) t H G (le_n _) It Tt); auto.
    + eapply perm_trans; [exact PC|]. constructor. eapply perm_trans; [exact PG|apply Permutation_app_comm].
    + discriminate.
Qed.
End Shell.
End Surface.
Lemma potential_perm ts ts' : Permutation ts ts' -> potential ts -> potential ts'.
Proof.
  intros P H g Sy Z. assert (P' := Permutation_sym P). destruct (H g Sy) as (q & Hq).
  - intros t It. apply Z. exact (Permutation_in _ P It).
  - exists q. intros a b I. apply Hq. apply in_edges in I. apply in_edges. destruct I as (t & It & Ie). exists t. split; [exact (Permutation_in _ P' It)|assumption].
Qed.
