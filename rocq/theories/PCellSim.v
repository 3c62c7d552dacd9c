(** cci::compute at any layout is the same program as on a small memory holding
    one slot's rows, with moved addresses. *)
From Verif Require Import Base Arith PBase Prog PProg MUtils MBoundary MCell PBndFinal.
From Verif Require Export SpecCell.
Local Open Scope prog_scope.

Section Sim.
Variable N : Arith.
Notation F := (F N).
Variable wc : Z -> Z.
Variable brk : bool.
Variable L : layout.
Variables k pmax tmax index : Z.
Variable pts refs : Z -> option (point N).
Variable phi : reloc.
Hypothesis HP : forall j c, aP L j c = phi AP (4 * j + c).
Hypothesis HK : forall d, aK L d = phi AHeapId d.
Hypothesis HD : forall d, aD L d = phi ADknn d.
Hypothesis HT : forall x, tbase L + x = phi AT (0 + x).
Hypothesis HR : forall x, rbase L + x = phi AdR (0 + x).
Hypothesis HS : index = phi ASt 0.
Notation psim := (@psim F _ phi).

Lemma aT_sim t c : aT L t c = phi AT (aT lay0 t c).
Proof. unfold aT. simpl tbase. rewrite <- !Z.add_assoc. apply HT. Qed.

Ltac rdT := apply (psim_rd phi AT); apply aT_sim.

Lemma set_sim s : psim (stm_set N 0 s) (stm_set N index s).
Proof. apply psim_bind; [now apply (psim_rd phi ASt)|]; intros b. now apply (psim_wr phi ASt). Qed.
Lemma clr_sim s : psim (stm_clr N 0 s) (stm_clr N index s).
Proof. apply psim_bind; [now apply (psim_rd phi ASt)|]; intros b. now apply (psim_wr phi ASt). Qed.
Lemma get_sim s : psim (stm_get N 0 s) (stm_get N index s).
Proof. apply psim_bind; [now apply (psim_rd phi ASt)|]; intros b. constructor. Qed.

Lemma wrp_sim j p : psim (wr_plane N lay0 j p) (wr_plane N L j p).
Proof.
  destruct p as [[[a b] c] d]. unfold wr_plane.
  do 3 (apply psim_bind; [apply (psim_wr phi AP); apply HP|]; intros _). apply (psim_wr phi AP); apply HP.
Qed.
Lemma rdp_sim j : psim (rd_plane N lay0 j) (rd_plane N L j).
Proof. unfold rd_plane. do 4 (apply psim_bind; [apply (psim_rd phi AP); apply HP|]; intros ?). constructor. Qed.
Lemma wrt_sim t a b c : psim (wr_tri N lay0 t a b c) (wr_tri N L t a b c).
Proof. unfold wr_tri. do 2 (apply psim_bind; [apply (psim_wr phi AT); apply aT_sim|]; intros _). apply (psim_wr phi AT); apply aT_sim. Qed.

Lemma cinit_sim : psim (cell_init N lay0) (cell_init N L).
Proof.
  unfold cell_init. apply psim_bind.
  - apply psim_forM. intros [j [[[a b] c] d]] _. apply wrp_sim.
  - intros _. apply psim_forM. intros [j [[a b] c]] _. apply wrt_sim.
Qed.
Lemma swapT_sim t t' c : psim (swapT N (aT lay0 t c) (aT lay0 t' c)) (swapT N (aT L t c) (aT L t' c)).
Proof.
  unfold swapT. do 2 (apply psim_bind; [rdT|]; intros ?). apply psim_bind; [apply (psim_wr phi AT); apply aT_sim|]; intros _.
  apply (psim_wr phi AT); apply aT_sim.
Qed.
Lemma tri_sim fuel : forall p bis ti ts rs sr,
  psim (tri_loop N lay0 fuel p bis ti ts rs sr) (tri_loop N L fuel p bis ti ts rs sr).
Proof.
  induction fuel as [|fuel IH]; intros; cbn [tri_loop]; (destruct (ti <? ts); [|constructor]); [constructor|].
  destruct (32767 <? ti); [constructor|].
  do 3 (apply psim_bind; [rdT|]; intros ?). do 3 (apply psim_bind; [apply rdp_sim|]; intros ?).
  destruct (intersect N a2 a3 a4) as [[[v0 v1] v2] v3].
  destruct (flt N (fofZ N 0) _); [|apply IH].
  do 3 (apply psim_bind; [apply swapT_sim|]; intros _). apply IH.
Qed.
Lemma fan_sim fuel : forall first head ts ps,
  psim (fan_loop N lay0 tmax 0 fuel first head ts ps) (fan_loop N L tmax index fuel first head ts ps).
Proof.
  induction fuel as [|fuel IH]; intros; cbn [fan_loop]; (destruct (tmax <=? ts); [apply psim_bind; [apply set_sim|constructor]|]); [constructor|].
  apply psim_bind; [apply (psim_rd phi AdR); apply HR|]; intros n1. apply psim_bind; [apply wrt_sim|]; intros _.
  destruct (n1 =? first); [constructor|apply IH].
Qed.
Lemma cut_sim nb ps ts rs bis :
  psim (cell_cut N wc lay0 pmax tmax 0 nb ps ts rs bis) (cell_cut N wc L pmax tmax index nb ps ts rs bis).
Proof.
  unfold cell_cut. destruct (0 <? rs); [|apply psim_bind; [apply set_sim|constructor]].
  destruct (pmax <=? ps); [apply psim_bind; [apply set_sim|constructor]|].
  apply psim_bind; [apply wrp_sim|]; intros _. apply psim_bind; [apply (psim_wr phi ADknn); apply HD|]; intros _.
  apply psim_bind; [apply psim_forM; intros j _; apply (psim_wr phi AdR); apply HR|]; intros _.
  apply psim_bind.
  { apply bnd_sim; [intros e; apply HR|]. intros x. simpl tbase. rewrite <- !Z.add_assoc. apply HT. }
  intros [[|] head].
  - apply psim_bind; [apply fan_sim|]; intros [t|]; constructor.
  - do 2 (apply psim_bind; [apply set_sim|]; intros _). constructor.
Qed.
Lemma nb_sim p nb ps ts :
  psim (cell_neighbor N wc lay0 pmax tmax 0 pts p nb ps ts) (cell_neighbor N wc L pmax tmax index pts p nb ps ts).
Proof.
  unfold cell_neighbor. apply psim_bind; [apply (psim_rd phi AHeapId); apply HK|]; intros q.
  apply psim_bind; [apply psim_refl_pure|]; intros qp. apply psim_bind; [apply tri_sim|]; intros [[ts' rs] sr].
  apply psim_bind; [apply cut_sim|]; intros [[ps2 ts2]|]; [|constructor].
  apply psim_bind; [apply get_sim|]; intros e1. apply psim_bind; [destruct e1; [apply clr_sim|constructor]|]; intros _.
  apply psim_bind; [apply get_sim|]; intros e2. apply psim_bind; [destruct e2; [apply clr_sim|constructor]|]; intros _.
  destruct (sr_is_reached N p qp sr); [|constructor]. apply psim_bind; [apply set_sim|constructor].
Qed.
Lemma cloop_sim nbs : forall p ps ts,
  psim (cell_loop N wc lay0 pmax tmax 0 pts nbs p ps ts) (cell_loop N wc L pmax tmax index pts nbs p ps ts).
Proof.
  induction nbs as [|nb nbs IH]; intros; cbn [cell_loop]; [constructor|].
  apply psim_bind; [apply nb_sim|]; intros [ps2 ts2|ps2 ts2|]; [apply IH|constructor|constructor].
Qed.
Lemma unused_sim ts di : psim (cell_unused N brk lay0 ts di) (cell_unused N brk L ts di).
Proof.
  unfold cell_unused. apply psim_foldM. intros flag ti _. destruct (brk && negb flag); [constructor|].
  do 3 (apply psim_bind; [rdT|]; intros ?; apply psim_bind; [apply (psim_rd phi ADknn); apply HD|]; intros ?). constructor.
Qed.
Lemma filter_sim ts : psim (cell_filter N brk lay0 k ts) (cell_filter N brk L k ts).
Proof.
  unfold cell_filter. apply psim_forM. intros di _. apply psim_bind; [apply unused_sim|]; intros [|]; [|constructor].
  apply (psim_wr phi AHeapId); apply HK.
Qed.
Lemma compact_sim : psim (cell_compact N lay0 k) (cell_compact N L k).
Proof.
  unfold cell_compact. apply psim_bind.
  - apply psim_foldM. intros cnt di _. apply psim_bind; [apply (psim_rd phi AHeapId); apply HK|]; intros x.
    destruct (x =? k_undefined); [constructor|]. apply psim_bind; [apply (psim_rd phi AHeapId); apply HK|]; intros y.
    apply psim_bind; [apply (psim_wr phi AHeapId); apply HK|]; intros _. constructor.
  - intros cnt. apply psim_forM. intros di _. apply (psim_wr phi AHeapId); apply HK.
Qed.
Lemma cell_sim : psim (cell_compute N wc brk lay0 k pmax tmax 0 pts (fun _ => refs index))
                      (cell_compute N wc brk L k pmax tmax index pts refs).
Proof.
  unfold cell_compute. apply psim_bind; [apply psim_refl_pure|]; intros p. apply psim_bind; [apply cinit_sim|]; intros _.
  apply psim_bind; [apply cloop_sim|]; intros [[ps ts]|]; [|constructor].
  apply psim_bind; [apply filter_sim|]; intros _. apply compact_sim.
Qed.
End Sim.
