(* Property C78: where PSF blurring puts the light of a point source. *)
From Coq Require Import Reals List Bool Arith ZArith Lra Lia.
From Verif Require Import PyFloat PyBase Arr PyNum MKernels MAper2D SPsf PAper2DEx PPsf PPsfEx.
Local Open Scope R_scope.

(** Every voxel of the blurred image of a point source: the PSF profile, sampled at the distance
    from the source plus the offset of the grid centre from the object, plus half a step for an
    even number of samples. *)
Theorem C78_point_source : forall c th a0 m0 pr cube w0 p q f,
  setup_calcs c th = Ok a0 ->
  let g := s_grid (a_su a0) in
  m0_fit g = Fin m0 -> (2 <= nY g)%nat -> 0 < i_fwhm (c_ins c) ->
  (forall x y, i_prof (c_ins c) (Fin x) (Fin y) = Fin (pr x y) /\ 0 < pr x y) ->
  point cube w0 p q f -> 0 < f ->
  exists ker, a_stamp a0 = Stamp3 ker /\
    let My := dim1 ker in let Mx := dim2 ker in
    let sy := delt_y g * (1 - INR (o_nsub (c_opt c)) / (INR (nY g) - 1)) in
    Nat.even My = Nat.even (nY g) /\ Nat.even Mx = Nat.even (nX g) /\
    ((1 <= My)%nat -> (1 <= Mx)%nat ->
     exists out K, PSF_convolve cube (Fin (i_fwhm (c_ins c))) (a_stamp a0) = Ok (Some out) /\ 0 < K /\
      forall w i j, (w < dim0 cube)%nat -> (i < dim1 cube)%nat -> (j < dim2 cube)%nat ->
       let yoff := ((INR (g_rows (c_gal c)) - 1) / 2 - m0) * i_pix (c_ins c) in
       let X := (INR j - INR q - (if Nat.even (nX g) then 1/2 else 0)) * delt_x g - o_xc (c_opt c) in
       let Y := (INR i - INR p - (if Nat.even (nY g) then 1/2 else 0)) * sy + yoff in
       at3 out w i j =
         Fin (if Nat.eqb w w0 && (Nat.leb p (i + (My - 1) / 2) && Nat.ltb (i + (My - 1) / 2 - p) My)
                 && (Nat.leb q (j + (Mx - 1) / 2) && Nat.ltb (j + (Mx - 1) / 2 - q) Mx)
              then K * pr X Y else 0)).
Proof. exact psf_point_source. Qed.
Print Assumptions C78_point_source.

(** Object in the middle row, no slit-centre offset, odd sample counts: blurring is centred. *)
Theorem C78_centred : forall c th a0 pr cube w0 p q f ker,
  setup_calcs c th = Ok a0 ->
  let g := s_grid (a_su a0) in
  m0_fit g = Fin ((INR (g_rows (c_gal c)) - 1) / 2) -> o_xc (c_opt c) = 0 ->
  Nat.even (nY g) = false -> Nat.even (nX g) = false ->
  (2 <= nY g)%nat -> 0 < i_fwhm (c_ins c) ->
  (forall x y, i_prof (c_ins c) (Fin x) (Fin y) = Fin (pr x y) /\ 0 < pr x y) ->
  point cube w0 p q f -> 0 < f ->
  a_stamp a0 = Stamp3 ker -> (1 <= dim1 ker)%nat -> (1 <= dim2 ker)%nat ->
  exists out K, PSF_convolve cube (Fin (i_fwhm (c_ins c))) (a_stamp a0) = Ok (Some out) /\ 0 < K /\
    at3 out w0 p q = Fin (K * pr 0 0) /\
    forall i j, (i < dim1 cube)%nat -> (j < dim2 cube)%nat ->
      at3 out w0 i j = Fin 0 \/
      at3 out w0 i j = Fin (K * pr ((INR j - INR q) * delt_x g)
        ((INR i - INR p) * (delt_y g * (1 - INR (o_nsub (c_opt c)) / (INR (nY g) - 1))))).
Proof. exact psf_centred. Qed.
Print Assumptions C78_centred.

(* C78_centred: three rows, object in row 1, FWHM of two pixels. *)
Example C78_centred_ex : exists a0 ker, setup_calcs (e_cfg 3 1) (w_th 0) = Ok a0 /\
  let c := e_cfg 3 1 in let g := s_grid (a_su a0) in
  m0_fit g = Fin ((INR (g_rows (c_gal c)) - 1) / 2) /\ o_xc (c_opt c) = 0 /\
  Nat.even (nY g) = false /\ Nat.even (nX g) = false /\ (2 <= nY g)%nat /\ 0 < i_fwhm (c_ins c) /\
  (forall x y, i_prof (c_ins c) (Fin x) (Fin y) = Fin (e_prof x y) /\ 0 < e_prof x y) /\
  point (e_cube 3 1 1) 0 1 1 5 /\ a_stamp a0 = Stamp3 ker /\ (1 <= dim1 ker)%nat /\ (1 <= dim2 ker)%nat.
Proof. exact e_centred_hyps. Qed.

(** Object below the middle row by more than a grid step: the blurred point source is brighter one
    grid row away than at its own position. *)
Theorem C78_displaced_refuted : forall c th a0 m0 pr cube w0 p q f ker,
  setup_calcs c th = Ok a0 ->
  let g := s_grid (a_su a0) in
  let sy := delt_y g * (1 - INR (o_nsub (c_opt c)) / (INR (nY g) - 1)) in
  m0_fit g = Fin m0 -> 0 < sy ->
  sy < ((INR (g_rows (c_gal c)) - 1) / 2 - m0) * i_pix (c_ins c) ->
  (2 <= nY g)%nat -> 0 < i_fwhm (c_ins c) ->
  (forall x y, i_prof (c_ins c) (Fin x) (Fin y) = Fin (pr x y) /\ 0 < pr x y) ->
  (forall x y y', Rabs y < Rabs y' -> pr x y' < pr x y) ->
  point cube w0 p q f -> 0 < f -> (1 <= p)%nat ->
  a_stamp a0 = Stamp3 ker -> (3 <= dim1 ker)%nat -> (1 <= dim2 ker)%nat ->
  exists out a b, PSF_convolve cube (Fin (i_fwhm (c_ins c))) (a_stamp a0) = Ok (Some out) /\
    at3 out w0 p q = Fin a /\ at3 out w0 (p - 1) q = Fin b /\ a < b.
Proof. exact psf_displaced. Qed.
Print Assumptions C78_displaced_refuted.

(* C78_displaced_refuted: three rows, object in row 0. *)
Example C78_displaced_ex : exists a0 ker, setup_calcs (e_cfg 3 0) (w_th 0) = Ok a0 /\
  let c := e_cfg 3 0 in let g := s_grid (a_su a0) in
  let sy := delt_y g * (1 - INR (o_nsub (c_opt c)) / (INR (nY g) - 1)) in
  m0_fit g = Fin 0 /\ 0 < sy /\ sy < ((INR (g_rows (c_gal c)) - 1) / 2 - 0) * i_pix (c_ins c) /\
  (2 <= nY g)%nat /\ 0 < i_fwhm (c_ins c) /\
  (forall x y, i_prof (c_ins c) (Fin x) (Fin y) = Fin (e_prof x y) /\ 0 < e_prof x y) /\
  (forall x y y', Rabs y < Rabs y' -> e_prof x y' < e_prof x y) /\
  point (e_cube 3 1 1) 0 1 1 5 /\ a_stamp a0 = Stamp3 ker /\ (3 <= dim1 ker)%nat /\ (1 <= dim2 ker)%nat.
Proof. exact e_displaced_hyps. Qed.

(** Even number of grid rows: even a centred object is displaced by half a grid step, so that the
    source's row and the next one come out equally bright. *)
Theorem C78_even_refuted : forall c th a0 pr cube w0 p q f ker,
  setup_calcs c th = Ok a0 ->
  let g := s_grid (a_su a0) in
  m0_fit g = Fin ((INR (g_rows (c_gal c)) - 1) / 2) ->
  Nat.even (nY g) = true ->
  (2 <= nY g)%nat -> 0 < i_fwhm (c_ins c) ->
  (forall x y, i_prof (c_ins c) (Fin x) (Fin y) = Fin (pr x y) /\ 0 < pr x y) ->
  (forall x y, pr x (- y) = pr x y) ->
  point cube w0 p q f -> 0 < f -> (S p < dim1 cube)%nat ->
  a_stamp a0 = Stamp3 ker -> (2 <= dim1 ker)%nat -> (1 <= dim2 ker)%nat ->
  exists out a, PSF_convolve cube (Fin (i_fwhm (c_ins c))) (a_stamp a0) = Ok (Some out) /\
    0 < a /\ at3 out w0 p q = Fin a /\ at3 out w0 (S p) q = Fin a.
Proof. exact psf_even_half. Qed.
Print Assumptions C78_even_refuted.

(* C78_even_refuted: four rows, object half-way between rows 1 and 2. *)
Example C78_even_ex : exists a0 ker, setup_calcs (e_cfg 4 (3/2)) (w_th 0) = Ok a0 /\
  let c := e_cfg 4 (3/2) in let g := s_grid (a_su a0) in
  m0_fit g = Fin ((INR (g_rows (c_gal c)) - 1) / 2) /\ Nat.even (nY g) = true /\ (2 <= nY g)%nat /\
  0 < i_fwhm (c_ins c) /\
  (forall x y, i_prof (c_ins c) (Fin x) (Fin y) = Fin (e_prof x y) /\ 0 < e_prof x y) /\
  (forall x y, e_prof x (- y) = e_prof x y) /\
  point (e_cube 4 1 1) 0 1 1 5 /\ a_stamp a0 = Stamp3 ker /\ (2 <= dim1 ker)%nat /\ (1 <= dim2 ker)%nat.
Proof. exact e_even_hyps. Qed.
