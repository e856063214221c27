(* Model: the mask and weight builders of misfit/general/galaxy_utils.py and
   misfit/general/general_utils.py.  Images are [arr2 fl] (rows are spatial, columns are
   wavelength), 1-D spectra are [list fl], masks hold floats as in the code. *)
From Coq Require Import Reals List Bool Arith ZArith.
From Verif Require Import PyFloat PyBase Arr PyNum.
Import ListNotations.
Local Open Scope R_scope.

(** misfit/general/general_utils.py:117-132 [wh_continuous], the loop over the remaining
    elements with the run collected so far.  Index arrays hold natural numbers. *)
Fixpoint wh_cont_loop (arr : list nat) (l : list nat) : list (list nat) :=
  match l with
  | [] => []
  | a :: t =>
      match t with
      | [] => [arr ++ [a]]
      | b :: _ => if Nat.eqb b (S a) then wh_cont_loop (arr ++ [a]) t
                  else (arr ++ [a]) :: wh_cont_loop [] t
      end
  end.
(** misfit/general/general_utils.py:117-132 [wh_continuous]. *)
Definition wh_continuous (l : list nat) : list (list nat) := wh_cont_loop [] l.

(** misfit/general/galaxy_utils.py:680-699 [mask_edges_1D]; spec is read for its length only. *)
Definition mask_edges_1D (nspec : nat) (mask : list fl) (num_edge : Z) : list fl :=
  match where_ (fun m => feqb m (Fin 1)) mask with
  | [] => mask
  | l0 :: rest =>
      let l := Z.of_nat l0 in
      let r := Z.of_nat (last rest l0) in
      let m1 := if (0 <? l)%Z then set_slice mask l (l + num_edge) (Fin 0) else mask in
      if (r <? Z.of_nat nspec - 1)%Z then set_slice m1 (r - num_edge - 1) (r + 1) (Fin 0) else m1
  end.

(** mask[cond] = 0. for a boolean condition on a same-length array
    (misfit/general/galaxy_utils.py:718-722); another length is an IndexError. *)
Definition mask_where (p : fl -> bool) (l mask : list fl) : res (list fl) :=
  if Nat.eqb (length l) (length mask)
  then Ok (set_inds mask (where_ p l) (Fin 0)) else Err IndexError.

(** misfit/general/galaxy_utils.py:703-727 [spec_mask_missing] on 1-D arrays.  A mask of None
    becomes ones (line 708-709). *)
Definition spec_mask_missing_1D (spec err : list fl) (weight mask : option (list fl))
  (nonfinite_only : bool) : res (list fl) :=
  let m0 := match mask with Some m => m | None => map (fun _ => Fin 1) spec end in
  do mx <- np_max (map fabs err);
  do m1 <- (if negb nonfinite_only && fgtb mx (Fin 0)
            then if forallb (fun i => Nat.ltb i (length m0)) (where_ (fun e => feqb e (Fin 0)) err)
                 then Ok (set_inds m0 (where_ (fun e => feqb e (Fin 0)) err) (Fin 0))
                 else Err IndexError
            else Ok m0);
  do m2 <- mask_where (fun x => negb (isfinite x)) spec m1;
  do m3 <- mask_where (fun x => negb (isfinite x)) err m2;
  match weight with
  | Some w => if forallb (fun i => Nat.ltb i (length m3)) (where_ (fun e => feqb e (Fin 0)) w)
              then Ok (set_inds m3 (where_ (fun e => feqb e (Fin 0)) w) (Fin 0)) else Err IndexError
  | None => Ok m3
  end.

(** all entries of an image, row by row (misfit/general/galaxy_utils.py:713). *)
Definition entries {A} (a : arr2 A) : list A :=
  flat_map (fun i => map (at2 a i) (seq 0 (cols a))) (seq 0 (rows a)).
(** shapes agree (misfit/general/galaxy_utils.py:718-725, 565, 589). *)
Definition shape_eqb {A B} (a : arr2 A) (b : arr2 B) : bool :=
  Nat.eqb (rows a) (rows b) && Nat.eqb (cols a) (cols b).

(** mask[cond] = 0. on same-shape images (misfit/general/galaxy_utils.py:718-722, 725). *)
Definition mask_where2 (p : fl -> bool) (l mask : arr2 fl) : res (arr2 fl) :=
  if shape_eqb l mask
  then Ok (mk2 (rows mask) (cols mask) (fun i j => if p (at2 l i j) then Fin 0 else at2 mask i j))
  else Err IndexError.

(** misfit/general/galaxy_utils.py:703-727 [spec_mask_missing] on 2-D arrays: in two dimensions
    np.where(...)[0] (line 714) holds row numbers, so line 715 zeroes whole rows. *)
Definition spec_mask_missing_2D (spec err : arr2 fl) (weight mask : option (arr2 fl))
  (nonfinite_only : bool) : res (arr2 fl) :=
  let m0 := match mask with Some m => m | None => mk2 (rows spec) (cols spec) (fun _ _ => Fin 1) end in
  do mx <- np_max (map fabs (entries err));
  let zrow i := existsb (fun j => feqb (at2 err i j) (Fin 0)) (seq 0 (cols err)) in
  do m1 <- (if negb nonfinite_only && fgtb mx (Fin 0)
            then if forallb (fun i => negb (zrow i) || Nat.ltb i (rows m0)) (seq 0 (rows err))
                 then Ok (mk2 (rows m0) (cols m0) (fun i j =>
                        if Nat.ltb i (rows err) && zrow i then Fin 0 else at2 m0 i j))
                 else Err IndexError
            else Ok m0);
  do m2 <- mask_where2 (fun x => negb (isfinite x)) spec m1;
  do m3 <- mask_where2 (fun x => negb (isfinite x)) err m2;
  match weight with
  | Some w => mask_where2 (fun x => feqb x (Fin 0)) w m3
  | None => Ok m3
  end.

(** misfit/general/galaxy_utils.py:730-736 [mask_spec2D_from_1D]. *)
Definition mask_spec2D_from_1D (mask2D : arr2 fl) (mask1D : list fl) : res (arr2 fl) :=
  let wh := where_ (fun m => feqb m (Fin 0)) mask1D in
  if forallb (fun w => Nat.ltb w (cols mask2D)) wh
  then Ok (mk2 (rows mask2D) (cols mask2D)
             (fun i j => if memb j wh then Fin 0 else at2 mask2D i j))
  else Err IndexError.

(** misfit/general/galaxy_utils.py:738-753 [spec_nan_masking] on an image and a mask of the
    same shape. *)
Definition spec_nan_masking (a mask : arr2 fl) (fill : fl) (mask_zero all_masked : bool) : arr2 fl :=
  let a1 := mk2 (rows a) (cols a) (fun i j =>
    if (all_masked || negb (isfinite (at2 a i j))) && feqb (at2 mask i j) (Fin 0)
    then fill else at2 a i j) in
  if mask_zero
  then mk2 (rows a) (cols a) (fun i j =>
         if feqb (at2 a1 i j) (Fin 0) && feqb (at2 mask i j) (Fin 0) then fill else at2 a1 i j)
  else a1.

(** np.sqrt(np.sum((err*mask)**2, axis=0)), the column noise used throughout
    (misfit/general/galaxy_utils.py:303, 565). *)
Definition col_noise (err mask : arr2 fl) (j : nat) : fl :=
  fsqrt (fsumn (rows err) (fun i => fsq (fmul (at2 err i j) (at2 mask i j)))).

(** misfit/general/galaxy_utils.py:759-773 [wh_skylines_1D] with full=True: (wh_nosky, wh_sky). *)
Definition wh_skylines_1D (e : list fl) (cutoff : fl) (median_err : option fl)
  : res (list nat * list nat) :=
  match median_err with
  | None => Err ValueError
  | Some m => Ok (where_ (fun x => fltb x (fmul cutoff m)) e,
                  where_ (fun x => fgeb x (fmul cutoff m)) e)
  end.

(** misfit/general/galaxy_utils.py:548-583 [mask_skylines_2D], full=True (its default and the
    only value passed on by the callers, misfit/galaxy.py:762); [units] says whether
    band_cutoff_units is 'timesMedianErr'.  Returns (mask_sky, wh_sky, wh_nosky). *)
Definition mask_skylines_2D (flux err mask : arr2 fl) (cutoff : fl) (units : bool)
  (median_err : option fl) : res (arr2 fl * list nat * list nat) :=
  if negb units then Err ValueError else
  if negb (shape_eqb err mask) then Err ValueError else
  let noise := map (col_noise err mask) (seq 0 (cols err)) in
  do ns <- wh_skylines_1D noise cutoff median_err;
  let sky := snd ns in
  Ok (mk2 (rows mask) (cols mask) (fun i j => if memb j sky then Fin 0 else at2 mask i j),
      sky, setdiff_range (cols flux) sky).

(** Signal-to-noise of every row, np.abs(sum/err) with the sums over masked pixels
    (misfit/general/galaxy_utils.py:589-593, 1252-1255). *)
Definition row_snr (flux err mask : arr2 fl) : list fl :=
  map (fun i => fabs (fdiv (fsumn (cols flux) (fun j => fmul (at2 flux i j) (at2 mask i j)))
                           (fsqrt (fsumn (cols err) (fun j => fsq (fmul (at2 err i j) (at2 mask i j)))))))
      (seq 0 (rows flux)).

(** ndarray.sort of an index array (misfit/general/galaxy_utils.py:622, 636): insertion sort,
    one step. *)
Fixpoint insert_nat (a : nat) (l : list nat) : list nat :=
  match l with
  | [] => [a]
  | b :: t => if Nat.leb a b then a :: l else b :: insert_nat a t
  end.
(** ndarray.sort (misfit/general/galaxy_utils.py:622, 636). *)
Definition sort_nat (l : list nat) : list nat := fold_right insert_nat [] l.
(** .min() of a non-empty index array (misfit/general/galaxy_utils.py:613-616). *)
Definition min_nat (a : nat) (l : list nat) : nat := fold_right Nat.min a l.
(** .max() of a non-empty index array (misfit/general/galaxy_utils.py:627-630). *)
Definition max_nat (a : nat) (l : list nat) : nat := fold_right Nat.max a l.

(** misfit/general/galaxy_utils.py:594-641 [mask_low_snr_rows_2D], from the signal-to-noise
    values to the sorted indices of the rows to mask.  min < nrows/2. is 2*min < nrows. *)
Definition low_snr_rows (snr : list fl) (cut : fl) : list nat :=
  let n := length snr in
  let high0 := where_ (fun s => fgeb s cut) snr in
  let runs := wh_continuous high0 in
  let high := if Nat.ltb 1 (length runs)
              then concat (filter (fun w => Nat.ltb 2 (length w)) runs) else high0 in
  let low0 := setdiff_range n high in
  match low0, high with
  | l0 :: lt, h0 :: ht =>
      let low1 :=
        let mn := min_nat l0 lt in
        if Nat.ltb (2 * mn) n && Nat.ltb (min_nat h0 ht) mn
        then sort_nat (low0 ++ seq 0 mn) else low0 in
      let mx := match low1 with [] => O | a :: t => max_nat a t end in
      if Nat.ltb n (2 * mx) && Nat.ltb mx (max_nat h0 ht)
      then sort_nat (low1 ++ rev (seq (S mx) (n - 1 - mx))) else low1
  | _, _ => low0
  end.

(** misfit/general/galaxy_utils.py:586-677 [mask_low_snr_rows_2D] (the debug plots are left
    out): (mask_low_snr, low_snr_row_inds). *)
Definition mask_low_snr_rows_2D (flux err mask mask_calc : arr2 fl) (cut : fl)
  : res (arr2 fl * list nat) :=
  if negb (shape_eqb flux mask_calc && shape_eqb err mask_calc) then Err ValueError else
  let low := low_snr_rows (row_snr flux err mask_calc) cut in
  if forallb (fun i => Nat.ltb i (rows mask)) low
  then Ok (mk2 (rows mask) (cols mask) (fun i j => if memb i low then Fin 0 else at2 mask i j), low)
  else Err IndexError.

(** spec2D.weighting_type (misfit/galaxy.py:692; misfit/general/galaxy_utils.py:1248-1294). *)
Inductive weighting : Type := UpEdges | NoWeighting | Optimal | OtherWeighting.

(** misfit/general/general_utils.py:48-60 [gaus_simple] without offset: the normalisation
    divides by sqrt(2 pi sigma). *)
Definition gaus_simple (A mu sigma : fl) (x : fl) : fl :=
  fmul (fdiv (fexp (fdiv (fneg (fsq (fsub x mu))) (fmul (Fin 2) (fsq sigma))))
             (fsqrt (fmul (Fin (2 * PI)) sigma))) A.

(** misfit/general/galaxy_utils.py:1243-1306 [calculate_2D_fit_weights]: profile and matrix.
    [fit3] is what lmfit.minimize returns for (A, mu, sigma) in the 'optimal' branch; an
    image without rows (where sum_arr.max() raises) is not distinguished. *)
Definition fit_weights (t : weighting) (flux err mask_sky : arr2 fl) (low : list nat)
  (fit3 : fl * fl * fl) : res (list fl * arr2 fl) :=
  let inb := forallb (fun i => Nat.ltb i (rows flux)) low in
  do w <- match t with
          | UpEdges => if negb inb then Err IndexError else Ok (set_inds (map (fun s => fdiv (Fin 1) s) (row_snr flux err mask_sky)) low (Fin 0))
          | NoWeighting => Ok (map (fun _ => Fin 1) (seq 0 (rows flux)))
          | Optimal => let '(A, mu, sigma) := fit3 in if negb inb then Err IndexError else
              Ok (set_inds (map (fun i => gaus_simple A mu sigma (Fin (INR i))) (seq 0 (rows flux))) low (Fin 0))
          | OtherWeighting => Err UnboundLocalError
          end;
  let tot := fsum w in
  let prof := if feqb tot (Fin 0) then map (fun _ => Fin 0) w else map (fun x => fdiv x tot) w in
  Ok (prof, mk2 (length prof) (cols flux) (fun i _ => lnth prof i)).
