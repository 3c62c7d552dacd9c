(** Model of cci::compute, src/cc.ipp:1-225 (host), 227-448 (SYCL) and 454-682
    (SYCL, strided).  The three versions are the same program at different
    layouts of P, dR, knn and dknn, so the layout is a parameter. *)
From Verif Require Import Base Arith Prog MUtils MBoundary.
Local Open Scope prog_scope.

Record layout := mkLayout {
  aP : Z -> Z -> Z;      (* address of component c of plane j *)
  aK : Z -> Z;           (* address of candidate slot in knn *)
  aD : Z -> Z;           (* address of candidate slot in dknn *)
  tbase : Z;             (* 3 * t_maxsize * i *)
  rbase : Z              (* dr_offs *)
}.

(** src/cc.ipp:52-62,66,147,150: host layout for slot i *)
Definition lay_host (k pmax tmax i : Z) : layout :=
  mkLayout (fun j c => 4 * pmax * i + 4 * j + c)
           (fun d => k * i + d) (fun d => k * i + d)
           (3 * tmax * i) (pmax * i).

(** src/cc.ipp:502-512,516,597,600: strided device layout for work item i with
    local index li; [refsize] and [koffs] are the kernel arguments.  dR is local
    memory of the work group; the model keeps the local memories of all groups
    in one array, [lbase] being where this group's part starts. *)
Definition lay_strided (refsize koffs pmax tmax i lbase li : Z) : layout :=
  mkLayout (fun j c => 4 * refsize * j + refsize * c + i)
           (fun d => koffs * d + i) (fun d => koffs * d + i)
           (3 * tmax * i) (lbase + pmax * li).

(** src/cc.ipp:21-29 p_init, t_init *)
Definition p_init : list (Z * Z * Z * Z) :=
  [(1,0,0,0); (-1,0,0,1); (0,1,0,0); (0,-1,0,1); (0,0,1,0); (0,0,-1,1)].
Definition t_init : list (Z * Z * Z) :=
  [(2,5,0); (5,3,0); (1,5,2); (5,1,3); (4,2,0); (4,0,3); (2,4,1); (4,3,1)].

Fixpoint zenum_from {A} (i : Z) (l : list A) : list (Z * A) :=
  match l with [] => [] | x :: l => (i, x) :: zenum_from (i + 1) l end.

Section Cell.
Variable N : Arith.
Notation F := (F N).
Notation point := (point N).
Notation plane := (plane N).
Variable wc : Z -> Z.                  (* see MBoundary *)
Variable brk : bool.                   (* early break in the filter (device) *)
Variable L : layout.
Variables k pmax tmax : Z.             (* already narrowed to unsigned short *)
Variable index : Z.                    (* the state cell *)
Variable pts : Z -> option point.

Definition aT (t c : Z) : Z := tbase L + 3 * t + c.

(** states[index].set_true(s), set_false(s), get(s) *)
Definition stm_set (s : Z) : prog F unit :=
  b <- rd ASt index ;; wr ASt index (st_set_true b s).
Definition stm_clr (s : Z) : prog F unit :=
  b <- rd ASt index ;; wr ASt index (st_set_false b s).
Definition stm_get (s : Z) : prog F bool :=
  b <- rd ASt index ;; Ret (st_get b s).

(** src/cc.ipp:51-56 and 143-146: store plane j *)
Definition wr_plane (j : Z) (p : plane) : prog F unit :=
  let '(a, b, c, d) := p in
  wr AP (aP L j 0) a ;;; wr AP (aP L j 1) b ;;;
  wr AP (aP L j 2) c ;;; wr AP (aP L j 3) d.

Definition rd_plane (j : Z) : prog F plane :=
  a <- rd AP (aP L j 0) ;; b <- rd AP (aP L j 1) ;;
  c <- rd AP (aP L j 2) ;; d <- rd AP (aP L j 3) ;;
  Ret (a, b, c, d).

(** src/cc.ipp:58-62 and 180-182: store triangle t (uint8_t cells) *)
Definition wr_tri (t a b c : Z) : prog F unit :=
  wr AT (aT t 0) (w8 a) ;;; wr AT (aT t 1) (w8 b) ;;; wr AT (aT t 2) (w8 c).

(** src/cc.ipp:51-62: the unit cube *)
Definition cell_init : prog F unit :=
  forM (zenum_from 0 p_init) (fun '(j, (a, b, c, d)) =>
    wr_plane j (fofZ N a, fofZ N b, fofZ N c, fofZ N d)) ;;;
  forM (zenum_from 0 t_init) (fun '(j, (a, b, c)) => wr_tri j a b c).

(** utils::swap on two cells of T, src/utils.ipp:43-49 *)
Definition swapT (x y : Z) : prog F unit :=
  a <- rd AT x ;; b <- rd AT y ;; wr AT x b ;;; wr AT y a.

(** src/cc.ipp:79-134: classify the triangles against the bisector.  Returns
    the new t_size, r_size and sradius.  [t_index] is a short int: beyond 32767
    its increment wraps to a negative index of T.  Simplification: that case is
    modelled as UB outright (it needs t_maxsize > 32767). *)
Fixpoint tri_loop (fuel : nat) (p : point) (bis : plane) (ti tsize rsize : Z)
  (srad : F) : prog F (Z * Z * F) :=
  if ti <? tsize then
    match fuel with
    | O => Fail EDiverge
    | S fuel =>
        if 32767 <? ti then Fail EUB else
        t0 <- rd AT (aT ti 0) ;; t1 <- rd AT (aT ti 1) ;; t2 <- rd AT (aT ti 2) ;;
        p0 <- rd_plane t0 ;; p1 <- rd_plane t1 ;; p2 <- rd_plane t2 ;;
        let v := intersect N p0 p1 p2 in
        let '(v0, v1, v2, _) := v in
        let dp := dot N v bis in
        let srad := sr_update N p (v0, v1, v2) srad in
        if flt N (fofZ N 0) dp then
          let tsize := tsize - 1 in
          swapT (aT ti 0) (aT tsize 0) ;;;
          swapT (aT ti 1) (aT tsize 1) ;;;
          swapT (aT ti 2) (aT tsize 2) ;;;
          tri_loop fuel p bis ti tsize (rsize + 1) srad
        else tri_loop fuel p bis (ti + 1) tsize rsize srad
    end
  else Ret (tsize, rsize, srad).

(** src/cc.ipp:168-187: one new triangle per boundary edge.  [None]: returned
    with error_t_overflow. *)
Fixpoint fan_loop (fuel : nat) (first head tsize psize : Z) : prog F (option Z) :=
  if tmax <=? tsize then stm_set error_t_overflow ;;; Ret None
  else
    match fuel with
    | O => Fail EDiverge
    | S fuel =>
        n1 <- rd AdR (rbase L + head) ;;
        wr_tri tsize head n1 (psize - 1) ;;;
        let tsize := tsize + 1 in
        if n1 =? first then Ret (Some tsize)
        else fan_loop fuel first n1 tsize psize
    end.

(** How the processing of one candidate ends. *)
Inductive nbres :=
| NbNext (psize tsize : Z)    (* next iteration *)
| NbBreak (psize tsize : Z)   (* break: security radius reached *)
| NbReturn.                   (* return from cci::compute *)

(** src/cc.ipp:136-191: cut the cell.  [None]: cci::compute returned. *)
Definition cell_cut (neighbor psize tsize rsize : Z) (bis : plane)
  : prog F (option (Z * Z)) :=
  if 0 <? rsize then
    if pmax <=? psize then stm_set error_p_overflow ;;; Ret None
    else
      wr_plane psize bis ;;;
      wr ADknn (aD L neighbor) psize ;;;
      let psize := psize + 1 in
      forM (zrange 0 pmax) (fun j => wr AdR (rbase L + j) bundef) ;;;
      '(bstat, head) <- bnd_compute wc (rbase L) pmax (tbase L + tsize * 3) rsize ;;
      match bstat with
      | Bunreachable =>
          stm_set error_infinite_boundary ;;; stm_set error_occurred ;;; Ret None
      | Bsuccess =>
          r <- fan_loop (Z.to_nat tmax) head head tsize psize ;;
          match r with
          | None => Ret None
          | Some tsize => Ret (Some (psize, tsize))
          end
      end
  else stm_set error_nonvalid_neighbor ;;; Ret (Some (psize, tsize)).

(** src/cc.ipp:64-204: one candidate *)
Definition cell_neighbor (p : point) (neighbor psize tsize : Z) : prog F nbres :=
  q <- rd AHeapId (aK L neighbor) ;;
  qp <- pure_opt (pts q) ;;
  let bis := bisect N qp p in
  '(tsize', rsize, srad) <-
     tri_loop (Z.to_nat tsize) p bis 0 tsize 0 (fofZ N 0) ;;
  r <- cell_cut neighbor psize tsize' rsize bis ;;
  match r with
  | None => Ret NbReturn
  | Some (psize, tsize) =>
      e <- stm_get error_occurred ;;
      (if e then stm_clr error_occurred else Ret tt) ;;;
      e <- stm_get error_nonvalid_neighbor ;;
      (if e then stm_clr error_nonvalid_neighbor else Ret tt) ;;;
      if sr_is_reached N p qp srad then
        stm_set security_radius_reached ;;; Ret (NbBreak psize tsize)
      else Ret (NbNext psize tsize)
  end.

(** src/cc.ipp:64,204: the loop.  [None]: cci::compute returned early. *)
Fixpoint cell_loop (nbs : list Z) (p : point) (psize tsize : Z)
  : prog F (option (Z * Z)) :=
  match nbs with
  | [] => Ret (Some (psize, tsize))
  | nb :: nbs =>
      r <- cell_neighbor p nb psize tsize ;;
      match r with
      | NbNext psize tsize => cell_loop nbs p psize tsize
      | NbBreak psize tsize => Ret (Some (psize, tsize))
      | NbReturn => Ret None
      end
  end.

(** src/cc.ipp:206-213 (host), 656-670 (device, with early break): drop the
    candidates whose plane does not occur in any triangle *)
Definition cell_unused (tsize di : Z) : prog F bool :=
  foldM (zrange 0 tsize) (fun (flag : bool) ti =>
    if brk && negb flag then Ret flag
    else
      t0 <- rd AT (aT ti 0) ;; d <- rd ADknn (aD L di) ;;
      let flag := if t0 =? d then false else flag in
      t1 <- rd AT (aT ti 1) ;; d <- rd ADknn (aD L di) ;;
      let flag := if t1 =? d then false else flag in
      t2 <- rd AT (aT ti 2) ;; d <- rd ADknn (aD L di) ;;
      Ret (if t2 =? d then false else flag)) true.

Definition cell_filter (tsize : Z) : prog F unit :=
  forM (zrange 0 k) (fun di =>
    flag <- cell_unused tsize di ;;
    if flag : bool then wr AHeapId (aK L di) k_undefined else Ret tt).

(** src/cc.ipp:215-223 (host), 672-680 (device) *)
Definition cell_compact : prog F unit :=
  cnt <- foldM (zrange 0 k) (fun cnt di =>
    x <- rd AHeapId (aK L di) ;;
    if x =? k_undefined then Ret cnt
    else
      y <- rd AHeapId (aK L di) ;;
      wr AHeapId (aK L cnt) y ;;;
      Ret (cnt + 1)) 0 ;;
  forM (zrange cnt k) (fun di => wr AHeapId (aK L di) k_undefined).

(** src/cc.ipp:1-225 *)
Definition cell_compute (refs : Z -> option point) : prog F unit :=
  p <- pure_opt (refs index) ;;
  cell_init ;;;
  r <- cell_loop (zrange 0 k) p 6 8 ;;
  match r with
  | None => Ret tt
  | Some (psize, tsize) => cell_filter tsize ;;; cell_compact
  end.

End Cell.
