(** Model of boundary::compute, src/boundary.ipp:97-225 (host) and 235-364
    (SYCL).  The two differ in the types of [swap_j] and [counter] (Ti = int on
    the host, uint8_t on the device): parameter [wc] is the conversion to that
    type.  [cycle] is array dR at base [dro]; [R] is array T at base [ro]. *)
From Verif Require Import Base Arith Prog MUtils.
Local Open Scope prog_scope.

Section Boundary.
Context {F : Type}.
Variable wc : Z -> Z.           (* host: identity; device: w8 *)
Variables dro drsize ro rsize : Z.

(** R[r_offs + j * 3 + (k + d) % 3] *)
Definition rdR (j c : Z) : prog F Z := rd AT (ro + j * 3 + c mod 3).
Definition rdC (e : Z) : prog F Z := rd AdR (dro + e).
Definition wrC (e v : Z) : prog F unit := wr AdR (dro + e) (w8 v).

(** src/boundary.ipp:108-114: the cycle of the first triangle; returns head *)
Definition bnd_init : prog F Z :=
  foldM [0; 1; 2] (fun _ tri =>
    e0 <- rdR 0 tri ;;
    e1 <- rdR 0 (tri + 1) ;;
    wrC e0 e1 ;;;
    Ret e0) (-1).

(** src/boundary.ipp:127-145: walk the cycle once, looking for the reverse of
    the directed edge (e0, e1).  [None]: returned unreachable. *)
Fixpoint bnd_walk (fuel : nat) (first e0 e1 edge counter : Z) (found : bool)
  : prog F (option bool) :=
  ce1 <- rdC edge ;;
  let found := found || ((edge =? e1) && (ce1 =? e0)) in
  if edge =? first then Ret (Some found)
  else
    next <- rdC edge ;;
    if rsize <? counter then Ret None
    else
      match fuel with
      | O => Fail EDiverge
      | S fuel => bnd_walk fuel first e0 e1 next (wc (counter + 1)) found
      end.

(** Enough rounds: the counter stops the walk after rsize + 2 rounds, except on
    the device with rsize >= 255, where a uint8_t counter never exceeds rsize;
    there the walk has only 256 possible edges, so 257 rounds without an end
    repeat forever. *)
Definition walk_fuel : nat := Z.to_nat (Z.max (rsize + 2) 257).

(** src/boundary.ipp:121-146: which edges of triangle j are shared; also
    returns the new head (unchanged: every completed walk ends at first) *)
Definition bnd_stat (first j : Z) : prog F (option Z) :=
  foldM [0; 1; 2] (fun acc k =>
    match acc with
    | None => Ret None
    | Some byte =>
        e0 <- rdR j k ;;
        e1 <- rdR j (k + 1) ;;
        edge <- rdC first ;;
        w <- bnd_walk walk_fuel first e0 e1 edge 0 false ;;
        match w with
        | None => Ret None
        | Some true => Ret (Some (vs_set_true byte k))
        | Some false => Ret (Some byte)
        end
    end) (Some 0).

(** src/boundary.ipp:157-159, 211-213 *)
Definition bnd_swap (j sj : Z) : prog F unit :=
  forM [0; 1; 2] (fun c =>
    a <- rdR j c ;;
    b <- rdR sj c ;;
    wr AT (ro + j * 3 + c) b ;;;
    wr AT (ro + sj * 3 + c) a).

(** src/boundary.ipp:199-203: inner loop from [ej]; [true] = a duplicate target
    was found.  [edge_j] is uint8_t; 256 increments without a hit repeat
    forever. *)
Fixpoint bnd_dup_j (fuel : nat) (ei ej : Z) : prog F bool :=
  if ej <? drsize then
    match fuel with
    | O => Fail EDiverge
    | S fuel =>
        cj <- rdC ej ;;
        if cj =? bundef then bnd_dup_j fuel ei (w8 (ej + 1))
        else
          ci <- rdC ei ;;
          cj <- rdC ej ;;
          if ci =? cj then Ret true else bnd_dup_j fuel ei (w8 (ej + 1))
    end
  else Ret false.

(** src/boundary.ipp:195-220 (the search part): outer loop from [ei] *)
Fixpoint bnd_dup_i (fuel : nat) (ei : Z) : prog F bool :=
  if ei <? drsize then
    match fuel with
    | O => Fail EDiverge
    | S fuel =>
        ci <- rdC ei ;;
        if ci =? bundef then bnd_dup_i fuel (w8 (ei + 1))
        else
          b <- bnd_dup_j 256 ei (w8 (ei + 1)) ;;
          if b then Ret true else bnd_dup_i fuel (w8 (ei + 1))
    end
  else Ret false.

(** src/boundary.ipp:116-224: main loop over j with swap_j and head *)
Fixpoint bnd_loop (fuel : nat) (j sj head : Z) : prog F (bstatus * Z) :=
  if j <? rsize then
    match fuel with
    | O => Fail EDiverge
    | S fuel =>
        st <- bnd_stat (w8 head) j ;;
        match st with
        | None => Ret (Bunreachable, head)
        | Some byte =>
            let head := w8 head in
            if j =? sj then Ret (Bunreachable, head)
            else
              let ns := vs_nshared byte in
              if ns =? 0 then
                let sj := wc (sj - 1) in
                bnd_swap j sj ;;; bnd_loop fuel j sj head
              else
                let k := vs_position byte in
                e0 <- rdR j k ;;
                e1 <- rdR j (k + 1) ;;
                e2 <- rdR j (k + 2) ;;
                e3 <- rdR j (k + 3) ;;
                old0 <- rdC e0 ;;
                old1 <- rdC e1 ;;
                old2 <- rdC e2 ;;
                old00 <- rdC old0 ;;
                head <- (if ns =? 1 then
                           wrC e1 e2 ;;; wrC e2 e3 ;;; Ret e2
                         else if ns =? 2 then
                           h <- rdC e0 ;;
                           wrC h bundef ;;;
                           wrC e0 e1 ;;;
                           Ret e0
                         else Ret head) ;;
                dup <- bnd_dup_i 256 0 ;;
                if dup then
                  wrC e0 old0 ;;;
                  wrC e1 old1 ;;;
                  wrC e2 old2 ;;;
                  wrC old0 old00 ;;;
                  let sj := wc (sj - 1) in
                  bnd_swap j sj ;;; bnd_loop fuel j sj head
                else bnd_loop fuel (j + 1) (wc rsize) head
        end
    end
  else Ret (Bsuccess, head).

(** src/boundary.ipp:97-225, 235-364.  Each round either accepts a triangle
    (j + 1) or lowers swap_j; between two acceptances swap_j takes at most
    max(rsize, 256) values before it meets j or (device, rsize > 255) repeats. *)
Definition bnd_compute : prog F (bstatus * Z) :=
  head <- bnd_init ;;
  bnd_loop (Z.to_nat ((rsize + 1) * (rsize + 258))) 1 (wc rsize) head.

End Boundary.
