(* Model: finding the row of the object and the window around it
   (misfit/general/galaxy_utils.py:777-1240 [vert_position]).  lmfit.minimize is an argument. *)
From Coq Require Import Reals List Bool Arith ZArith.
From Verif Require Import PyFloat PyBase Arr PyNum MAper2D MTrim.
Import ListNotations.
Local Open Scope Z_scope.

(** One lmfit.minimize call (misfit/general/galaxy_utils.py:870-891, 955-975, 1047-1072, 1187-1196): three Gaussians or one, starting value of mu, whether it varies (between 0 and
    [vq_mumax]), upper limit of deltl (which starts at 16 and is at least 1), upper limit of A if one is
    asked for, starting value of sigma, and the summed flux and error per row. *)
Record vreq : Type := mkVreq {
  vq_three : bool; vq_mu : fl; vq_vary : bool; vq_mumax : Z; vq_dmax : fl; vq_amax : option fl; vq_sigma : fl;
  vq_flux : list fl; vq_err : list fl
}.
(** What is read of the result: mu and deltl; mu_l = mu-deltl and mu_r = mu+deltl are expressions
    (misfit/general/galaxy_utils.py:875-877). *)
Record vans : Type := mkVans { va_mu : fl; va_delt : fl }.

(** All entries of an image, row by row (np.median(err), misfit/general/galaxy_utils.py:797). *)
Definition flat_list2 {A} (a : arr2 A) : list A :=
  flat_map (fun i => map (fun j => at2 a i j) (seq 0 (cols a))) (seq 0 (rows a)).

(** misfit/general/galaxy_utils.py:797 err[err == fill_value] = np.median(err)*3. (fill_value -99). *)
Definition fill_err (median : list fl -> fl) (e : arr2 fl) : arr2 fl :=
  let m := fmul (median (flat_list2 e)) (Fin 3) in
  mk2 (rows e) (cols e) (fun i j => if feqb (at2 e i j) (Fin (-99)) then m else at2 e i j).

(** misfit/general/galaxy_utils.py:800: a wavelength closest to the line exists (its index is not used). *)
Definition line_column (wave : list fl) (w : fl) : res nat :=
  let d := map (fun x => fabs (fsub x w)) wave in
  do mn <- np_min d;
  getn (where_ (fun x => feqb x mn) d) 0.

(** misfit/general/galaxy_utils.py:805 np.sum(flux,axis=1) *)
Definition row_flux (a : arr2 fl) : list fl :=
  map (fun i => fsum (map (fun j => at2 a i j) (seq 0 (cols a)))) (seq 0 (rows a)).
(** misfit/general/galaxy_utils.py:806 np.sqrt(np.sum(err**2,axis=1)) *)
Definition row_err (a : arr2 fl) : list fl :=
  map (fun i => fsqrt (fsum (map (fun j => fsq (at2 a i j)) (seq 0 (cols a))))) (seq 0 (rows a)).
(** misfit/general/galaxy_utils.py:808-809: |flux/error|, not finite set to 0. *)
Definition row_sn (fx er : list fl) : list fl :=
  map (fun p => let s := fabs (fdiv (fst p) (snd p)) in if isfinite s then s else Fin 0) (combine fx er).

(** misfit/general/galaxy_utils.py:819-822: an edge row with the largest S/N is set to 0. *)
Definition drop_edge (sp sn : list fl) : res (list fl) :=
  match sn with
  | [] => Err ValueError
  | _ =>
      let k := argmax_ (length sn - 1) (lnth sn) in
      let n := length sp in
      Ok (if Nat.eqb k 0 then mapi (fun i x => if Nat.eqb i 0 then Fin 0 else x) sp
          else if Nat.eqb k (n - 1) then mapi (fun i x => if Nat.eqb i (n - 1) then Fin 0 else x) sp
          else sp)
  end.

(** misfit/general/galaxy_utils.py:895-900 (also 978-983, 1075-1080): m0 limited to an array of length [n]. *)
Definition closest (m0 : Z) (n : nat) : Z :=
  if m0 >? Z.of_nat n - 1 then Z.of_nat n - 1 else if m0 <? 0 then 0 else m0.

(** misfit/general/galaxy_utils.py:904-906, 929-936 (also 986-988, 1008-1015 and 1083-1085, 1103-1110): half the
    height of the window; rows are counted from [off].  np.int is int. *)
Definition half_height (dither : bool) (pix : R) (off m0 : Z) (a : vans) : res Z :=
  if dither then
    do m1 <- int_round (fsub (va_mu a) (va_delt a));
    do m2 <- int_round (fadd (va_mu a) (va_delt a));
    int_ceil (Fin (IZR (Z.abs (m0 - (m1 + off)) + Z.abs (m0 - (m2 + off))) / 2 / 2)%R)
  else if Reqb pix 0 then Err ZeroDivisionError
  else int_ceil (Fin (3 / 2 / pix / 2)%R).

(** misfit/general/galaxy_utils.py:894-939 (also 977-1019 and 1074-1113): reading a result; the S/N is that of
    entry [closest m0 - off] of [sn]. *)
Definition read_fit (dither : bool) (pix : R) (off : Z) (sn : list fl) (a : vans) : res vpos :=
  do m <- int_round (va_mu a);
  let m0 := m + off in
  do s <- getz sn (closest m0 (length sn) - off);
  do cut <- half_height dither pix off m0 a;
  Ok (mkVpos m0 (fsub (if off =? 0 then va_mu a else fadd (va_mu a) (Fin (IZR off))) (Fin (IZR m0))) s (m0 - cut) (m0 + cut)).

(** misfit/general/galaxy_utils.py:1027: the window is too large or too small (position given). *)
Definition poor_given (pix : R) (v : vpos) : bool :=
  Rltb 4 (IZR (v_max v - v_min v) * pix) || (v_max v - v_min v <? 5).
(** misfit/general/galaxy_utils.py:1116: the window is too large or too small (no position given). *)
Definition poor_blind (n : nat) (v : vpos) : bool :=
  (v_max v - v_min v >? Z.of_nat n - 5) || (v_max v - v_min v <? 5).

(** misfit/general/galaxy_utils.py:796-1183, 1240 [vert_position(refit=False)].  [lm] is lmfit.minimize with the
    preceding parameter definitions; the second attempt of 1058-1061 without a limit on A is part of it.
    Without a position the statement of 1128, None - 5, raises before any further fit.  debug plots are left out, and
    so is the change of the caller's error array at 797 (the caller passes a product made for the call). *)
Definition vert_position (median : list fl -> fl) (lm : vreq -> res vans) (dither skip : bool) (pix : R) (line : fl)
    (flux err : arr2 fl) (wave : list fl) (ypos : option fl) : res vpos :=
  do _ <- line_column wave line;
  let er := row_err (fill_err median err) in
  let sn := row_sn (row_flux flux) er in
  do sp <- drop_edge (row_flux flux) sn;
  let n := length sp in
  let top := Z.of_nat n - 1 in
  let guess := match ypos with Some y => y | None => Fin (1/2 * (INR n - 1))%R end in
  do a <- lm (mkVreq dither guess true top (Fin (IZR top)) None (Fin 10) sp er);
  do v <- read_fit dither pix 0 sn a;
  match ypos with
  | None => if poor_blind n v then Err TypeError else Ok v
  | Some y =>
      do v <- (if fgtb (fabs (fsub y (Fin (IZR (v_m0 v))))) (Fin 2) && negb skip then
                 do _ <- int_round y;
                 do a <- lm (mkVreq dither y false top (Fin (IZR top)) None (Fin 10) sp er);
                 read_fit dither pix 0 sn a
               else Ok v);
      if poor_given pix v then
        let sp' := slice sp 5 (-5) in
        let er' := slice er 5 (-5) in
        let sn' := slice sn 5 (-5) in
        do mx <- np_max sp';
        do a <- lm (mkVreq dither (fsub y (Fin 5)) false (Z.of_nat (length sp') - 1) (Fin ((INR (length sp') - 1) / 2)%R)
                      (Some (fmul (Fin 10) mx)) (Fin 5) sp' er');
        read_fit dither pix 5 sn' a
      else Ok v
  end.

(** misfit/general/galaxy_utils.py:1185-1230, 1240 [vert_position(refit=True)] with a given position; the window is
    the whole image.  A missing position is not modelled. *)
Definition vert_refit (median : list fl -> fl) (lm : vreq -> res vans) (skip : bool) (line : fl)
    (flux err : arr2 fl) (wave : list fl) (y : fl) : res vpos :=
  do _ <- line_column wave line;
  let er := row_err (fill_err median err) in
  let sn := row_sn (row_flux flux) er in
  do sp <- drop_edge (row_flux flux) sn;
  let n := Z.of_nat (length sp) in
  do a <- lm (mkVreq false y true (n - 1) (Fin 0) None (Fin 5) sp er);
  do m0 <- int_round (va_mu a);
  do s <- getz sn m0;
  if fgtb (fabs (fsub y (Fin (IZR m0)))) (Fin 2) && negb skip then
    do m0 <- int_round y;
    do s <- getz sn m0;
    Ok (mkVpos m0 (fsub y (Fin (IZR m0))) s 0 n)
  else Ok (mkVpos m0 (fsub (va_mu a) (Fin (IZR m0))) s 0 n).
