(** C100: sufficient buffers stay sufficient when they grow. *)
From Verif Require Import Base Arith MUtils MXyz MTess Exact Arith32 SpecPoints SpecGeom SpecRows SpecNear SpecParam SpecSingle SpecRobust SpecText SpecFace SpecFew PCanon PUpdate.
From Coq Require Import Lia Permutation.
From Verif Require Export SpecRoom SpecUpdate.
Local Open Scope Z_scope.

Lemma room_exact N (E : Exact N) c c' P0 : enough N E c P0 -> more_room c c' -> c_pmax c' <= 255 -> c_tmax c' <= 65535 -> fits c' (zlen P0) -> enough N E c' P0.
Proof.
  intros H (Mp & Mt & Ek & Eg & En & _ & _ & _ & Er) Hp Ht HF. destruct H as [((C & A1 & A2 & A3 & A4 & A5 & A6 & A7) & R & K)|(A1 & A2 & R & A3 & A4 & A5 & A6 & A7 & A8 & A9 & A10)].
  - left. unfold api_ok, cfg_ok, roomy in *. rewrite Ek, Eg, En, Er. intuition lia.
  - right. unfold api_full, roomy in *. rewrite Ek, Eg, En, Er. intuition lia.
Qed.
Lemma room_single c c' P0 M : single_ok c P0 M -> more_room c c' -> c_pmax c' <= 255 -> c_tmax c' <= 65535 -> fits c' (zlen P0) -> zlen P0 * c_pmax c' * 4 <= int_max -> zlen P0 * c_tmax c' * 3 <= int_max -> single_ok c' P0 M.
Proof.
  intros (((C & A1 & A2 & A3 & A4 & A5 & A6) & K & R & B) & HO) (Mp & Mt & Ek & Eg & En & _ & _ & _ & Er) Hp Ht HF H1 H2. split; [|exact HO].
  unfold few_cfg, float_cfg, cfg_ok, roomy in *. rewrite Ek, Eg, En, Er. intuition lia.
Qed.
Lemma room_exact_calls N (E : Exact N) (w w' : world N) c c' P0 : enough N E c P0 -> more_room c c' -> c_pmax c' <= 255 -> c_tmax c' <= 65535 -> fits c' (zlen P0) -> generic (map (valp N E) P0) ->
  exists o o', tess_core N w c cpu P0 = Ok o /\ tess_core N w' c' cpu P0 = Ok o' /\
  forall p q, neighbour (map (valp N E) (o_pts N o)) (o_rows N o) p q <-> neighbour (map (valp N E) (o_pts N o')) (o_rows N o') p q.
Proof. intros A R Hp Ht HF G. apply (canon_perm N E w w' c c' P0 P0 A (room_exact N E c c' P0 A R Hp Ht HF) (Permutation_refl _) G). Qed.
Lemma id_symmetry : cube_symmetry (fun x => x) (fun x => x).
Proof. repeat split; auto. Qed.
Lemma room_single_calls c c' P0 M (w w' : world arith32) : single_ok c P0 M -> more_room c c' -> c_pmax c' <= 255 -> c_tmax c' <= 65535 -> fits c' (zlen P0) -> zlen P0 * c_pmax c' * 4 <= int_max -> zlen P0 * c_tmax c' * 3 <= int_max ->
  exists o o', tess_core arith32 w c cpu P0 = Ok o /\ tess_core arith32 w' c' cpu P0 = Ok o' /\
  forall p q, neighbour (map real_pt (o_pts arith32 o)) (o_rows arith32 o) p q <-> neighbour (map real_pt (o_pts arith32 o')) (o_rows arith32 o') p q.
Proof.
  intros A R Hp Ht HF H1 H2. apply (image_calls c c' P0 P0 M M w w' (fun x => x) (fun x => x) A (room_single c c' P0 M A R Hp Ht HF H1 H2) id_symmetry). rewrite map_id. apply Permutation_refl.
Qed.
