(** A cut of a closed surface: triangles and labels lost and gained. *)
From Verif Require Import Base PBase SpecBnd PBnd PBndLoop PCellRun PCellRow PGeomCone PGeomPoly PGeomFinal PTopo PEuler.
From Coq Require Import Permutation.

(** a triangle with the other orientation *)
Definition mir (t : tri) : tri := let '(a, b, c) := t in (b, a, c).
Lemma mir_edges t u v : In (u, v) (tri_edges (mir t)) <-> In (v, u) (tri_edges t).
Proof. destruct t as [[a b] c]. simpl. intuition congruence. Qed.
Lemma mir_edges_all ts u v : In (u, v) (edges (map mir ts)) <-> In (v, u) (edges ts).
Proof.
  rewrite !in_edges. split.
  - intros (t & It & Et). apply in_map_iff in It as (t' & <- & It). exists t'. split; [assumption|]. now apply mir_edges.
  - intros (t & It & Et). exists (mir t). split; [now apply in_map|]. now apply mir_edges.
Qed.
Lemma mir_perm ts : Permutation (edges (map mir ts)) (map swap (edges ts)).
Proof.
  induction ts as [|[[a b] c] ts IH]; [reflexivity|]. simpl. constructor. eapply perm_trans; [apply perm_swap|]. constructor. now constructor.
Qed.

Section Cut.
Variables (Kp R FN : list tri) (n : Z) (Bd : list Z).
Hypothesis NDR : NoDup (edges R).
Hypothesis NDT : NoDup (edges (Kp ++ FN)).
Hypothesis CLT : forall u v, In (u, v) (edges (Kp ++ FN)) -> In (v, u) (edges (Kp ++ FN)).
Hypothesis HF : forall t, In t FN <-> exists u v, t = (u, v, n) /\ boundary_edge R u v.
Hypothesis OKK : forall t, In t Kp -> tri_ok n t.
Hypothesis OKR : forall t, In t R -> tri_ok n t.
Hypothesis CR : dconn R.
Hypothesis Bd0 : Bd <> [].
Hypothesis NBd : NoDup Bd.
Hypothesis LBd : length Bd = length FN.
Hypothesis HBd : forall u, In u Bd -> exists v, boundary_edge R u v.

Let ltR u v : In (u, v) (edges R) -> u < n /\ v < n.
Proof. intros H. apply in_edges in H as (t & It & Et). pose proof (OKR t It) as O. apply label_edge in Et as [A B]. apply (label_lt n) in A; auto. apply (label_lt n) in B; auto. lia. Qed.
Let ltK u v : In (u, v) (edges Kp) -> u < n /\ v < n.
Proof. intros H. apply in_edges in H as (t & It & Et). pose proof (OKK t It) as O. apply label_edge in Et as [A B]. apply (label_lt n) in A; auto. apply (label_lt n) in B; auto. lia. Qed.
Let fan_edge u v : In (u, v) (edges FN) -> boundary_edge R u v \/ u = n \/ v = n.
Proof. intros H. apply in_edges in H as (t & It & Et). apply HF in It as (a & b & -> & B). simpl in Et. destruct Et as [[= <- <-]|[[= <- <-]|[[= <- <-]|[]]]]; auto. Qed.
Let fan_has u v : boundary_edge R u v -> In (u, v) (edges FN).
Proof. intros B. apply in_edges. exists (u, v, n). split; [apply HF; eauto|]. now left. Qed.

Let bd_ex : exists u v, boundary_edge R u v.
Proof. destruct Bd as [|u B]; [congruence|]. exists u. apply HBd. now left. Qed.

Lemma mirror_euler L : NoDup L -> (forall l, In l L -> exists t, In t (R ++ map mir FN) /\ label l t) -> (2 * length L <= length R + length FN + 4)%nat.
Proof.
  intros NL HL. rewrite <- (map_length mir FN), <- app_length. apply euler; auto.
  - rewrite edges_app. apply nodup_app_i; [assumption| |].
    + apply (Permutation_NoDup (Permutation_sym (mir_perm FN))). rewrite edges_app in NDT. apply nodup_app_r in NDT.
      apply FinFun.Injective_map_NoDup; [|assumption]. intros [a b] [c d] [= -> ->]. reflexivity.
    + intros [u v] A B. apply -> (mir_edges_all FN) in B. apply fan_edge in B as [[_ B]|B]; [contradiction|]. apply ltR in A. lia.
  - intros u v H. rewrite edges_app in H |- *. apply in_app_or in H as [H|H].
    + destruct (edge_dec (v, u) (edges R)) as [Q|Q]; [apply in_or_app; now left|]. apply in_or_app. right. apply mir_edges_all. apply fan_has. now split.
    + apply -> (mir_edges_all FN) in H. apply in_or_app. destruct (fan_edge v u H) as [B|B]; [left; apply B|]. right. apply mir_edges_all.
      assert (G : In (u, v) (edges (Kp ++ FN))) by (apply CLT; rewrite edges_app; apply in_or_app; now right).
      rewrite edges_app in G. apply in_app_or in G as [G|G]; [apply ltK in G; lia|assumption].
  - assert (TO : forall t, In t (R ++ map mir FN) -> exists t', In t' R /\ dpath (R ++ map mir FN) t t').
    { intros t It. pose proof It as It'. apply in_app_or in It as [I|I]; [exists t; split; [assumption|now constructor]|].
      apply in_map_iff in I as (t0 & <- & I). apply HF in I as (u & v & -> & B). destruct B as [B1 B2]. apply in_edges in B1 as (t1 & I1 & E1).
      exists t1. split; [assumption|]. econstructor 2; [exact It'| |constructor; apply in_or_app; now left].
      exists v, u. split; [|assumption]. simpl. auto. }
    intros t t' It It'. destruct (TO t It) as (a & Ia & Pa). destruct (TO t' It') as (b & Ib & Pb). eapply dpath_trans; [exact Pa|]. eapply dpath_trans; [|apply dpath_sym; exact Pb].
    apply (dpath_mono R); [intros x Hx; apply in_or_app; now left|]. now apply CR.
Qed.

(** labels used before the cut, at least half as many (plus 2) as triangles: also after it *)
Lemma cut_count L : NoDup L -> (forall l, In l L -> l < n /\ exists t, In t (Kp ++ R) /\ label l t) -> (length (Kp ++ R) + 4 <= 2 * length L)%nat ->
  exists L', NoDup L' /\ (forall l, In l L' -> exists t, In t (Kp ++ FN) /\ label l t) /\ (length (Kp ++ FN) + 4 <= 2 * length L')%nat.
Proof.
  intros NL HL Cn. set (f := used (Kp ++ FN)). exists (n :: filter f L). split; [|split].
  - constructor; [|now apply NoDup_filter]. intros H. apply filter_In in H as [H _]. destruct (HL n H). lia.
  - intros l [<-|H].
    + destruct bd_ex as (u & v & B).
      exists (u, v, n). split; [apply in_or_app; right; apply HF; eauto|]. simpl. auto.
    + apply filter_In in H as [_ H]. now apply used_label.
  - set (I := filter (fun l => negb (f l)) L).
    assert (LI : (length (filter f L) + length I = length L)%nat).
    { unfold I. clear. induction L as [|a L IH]; [reflexivity|]. simpl. destruct (f a); simpl; lia. }
    assert (M : (2 * length (n :: Bd ++ I) <= length R + length FN + 4)%nat).
    { apply mirror_euler.
      - constructor.
        + intros H. apply in_app_or in H as [H|H].
          * destruct (HBd n H) as (v & B & _). apply ltR in B. lia.
          * apply filter_In in H as [H _]. destruct (HL n H). lia.
        + apply nodup_app_i; [assumption|now apply NoDup_filter|]. intros l A B. apply filter_In in B as [_ B]. apply negb_true_iff in B.
          destruct (HBd l A) as (v & Bv). assert (f l = true); [|congruence]. apply used_label. exists (l, v, n). split; [apply in_or_app; right; apply HF; eauto|]. simpl. auto.
      - intros l [<-|H].
        + destruct bd_ex as (u & v & B). exists (mir (u, v, n)). split; [apply in_or_app; right; apply in_map; apply HF; eauto|]. simpl. auto.
        + apply in_app_or in H as [H|H].
          * destruct (HBd l H) as (v & B & _). apply in_edges in B as (t & It & Et). exists t. split; [apply in_or_app; now left|]. now apply label_edge in Et.
          * apply filter_In in H as [H1 H2]. apply negb_true_iff in H2. destruct (HL l H1) as (_ & t & It & Lt). exists t. split; [|assumption].
            apply in_app_or in It as [It|It]; [|apply in_or_app; now left]. assert (f l = true); [|congruence]. apply used_label. exists t. split; [apply in_or_app; now left|assumption]. }
    simpl in M. rewrite !app_length in *. simpl. lia.
Qed.
End Cut.
