(* Property theorems: how the emission lines of a galaxy add up in the 2-D model (C131). *)
From Coq Require Import Reals List Bool Arith ZArith Permutation.
From Verif Require Import PyFloat PyBase Arr PyNum MParams MKernels MAper2D SParams SKernels SAper2D SAper1D SLine SLos SMirror SLineset PLos PLineset PLineset2.
Import ListNotations.
Local Open Scope R_scope.

(** C131: only the first line has a special role: the order of the others has no effect on a model, a fit or anything stored. *)
Theorem C131_order : forall c rest ratio,
  length (g_ratio (c_gal c)) = length (g_rest (c_gal c)) -> length ratio = length rest ->
  Permutation (combine (g_rest (c_gal c)) (g_ratio (c_gal c))) (combine rest ratio) ->
  nth_error (g_rest (c_gal c)) 0 = nth_error rest 0 ->
  (forall th st, aper_new (with_lines rest ratio c) th st = aper_new c th st) /\
  (forall tf k, km_make (with_lines rest ratio c) tf k = km_make c tf k) /\
  forall tfs k, likelihoods (with_lines rest ratio c) k tfs = likelihoods c k tfs.
Proof. exact lines_order. Qed.
Print Assumptions C131_order.

Example C131_order_example : let c' := with_lines [Fin 6565; Fin 6585; Fin 6550] [Fin 1; Fin (3/10); Fin (1/10)] n_cfg in
  c' <> n_cfg /\
  (forall th st, aper_new c' th st = aper_new n_cfg th st) /\
  (forall tf k, km_make c' tf k = km_make n_cfg tf k) /\
  forall tfs k, likelihoods c' k tfs = likelihoods n_cfg k tfs.
Proof. exact order_example. Qed.

(** C131: a line listed twice is the same as once with the sum of the two (positive) flux ratios. *)
Theorem C131_merge : forall c A B ra rb lam a b, length ra = length A -> length rb = length B -> 0 < a -> 0 < b ->
  let one := with_lines (A ++ lam :: B) (ra ++ Fin (a + b) :: rb) c in
  let two := with_lines (A ++ lam :: lam :: B) (ra ++ Fin a :: Fin b :: rb) c in
  (forall th st, aper_new two th st = aper_new one th st) /\
  (forall tf k, km_make two tf k = km_make one tf k) /\
  forall tfs k, likelihoods two k tfs = likelihoods one k tfs.
Proof. exact lines_merge. Qed.
Print Assumptions C131_merge.

Example C131_merge_example : forall th st,
  aper_new (with_lines [Fin 6565; Fin 6565; Fin 6585] [Fin (1/4); Fin (3/4); Fin (3/10)] y_cfg) th st =
  aper_new (with_lines [Fin 6565; Fin 6585] [Fin 1; Fin (3/10)] y_cfg) th st.
Proof. exact merge_example. Qed.

(** C131: without blurring the image of two sets of lines is the sum of their images. *)
Theorem C131_sum : forall c th l d q q0 m0 z (rest ratio rest' ratio' : list R) (vr hr sr : R -> R -> R) st,
  well_posed c th l -> unblurred c ->
  g_dPA (c_gal c) = Fin d -> g_q (c_gal c) = Fin q -> g_q0 (c_gal c) = Fin q0 -> 0 <= q0 < 1 -> 0 <= q <= 1 ->
  fadd (g_m0 (c_gal c)) (nth (length th - 2) th NaN) = Fin m0 -> nth (length th - 1) th NaN = Fin z -> 1 + z <> 0 ->
  rest <> [] -> rest' <> [] -> length ratio = length rest -> length ratio' = length rest' ->
  (forall x, In x (rest ++ rest') -> x <> 0) ->
  (forall r h, p_vel (c_prof c) (firstn (p_nvel (c_prof c)) th) (Fin r) (Fin h) = Fin (vr r h)) ->
  (forall r h, p_int (c_prof c) (Fin r) (Fin h) = Fin (hr r h)) ->
  (forall r h, p_disp (c_prof c) (firstn 1 (skipn (p_nvel (c_prof c)) th)) (Fin r) (Fin h) = Fin (sr r h) /\ sr r h <> 0) ->
  let run rest ratio := aper_new (with_lines (map Fin rest) (map Fin ratio) c) th st in
  exists a1 a2 a m1 m2 m,
    snd (run rest ratio) = Ok a1 /\ a_model a1 = Some m1 /\
    snd (run rest' ratio') = Ok a2 /\ a_model a2 = Some m2 /\
    snd (run (rest ++ rest') (ratio ++ ratio')) = Ok a /\ a_model a = Some m /\
    rows m = g_rows (c_gal c) /\ cols m = length l /\ rows m1 = rows m /\ cols m1 = cols m /\ rows m2 = rows m /\ cols m2 = cols m /\
    forall i t, (i < g_rows (c_gal c))%nat -> (t < length l)%nat ->
      exists x y, at2 m1 i t = Fin x /\ at2 m2 i t = Fin y /\ at2 m i t = Fin (x + y).
Proof. exact lines_add. Qed.
Print Assumptions C131_sum.

Example C131_sum_example : let th := [Fin 200; Fin (1/2); Fin 50; Fin 0; Fin 1] in
  let run rest ratio := aper_new (with_lines (map Fin rest) (map Fin ratio) y_cfg) th NoStamp in
  exists a1 a2 a m1 m2 m,
    snd (run [6565] [1]) = Ok a1 /\ a_model a1 = Some m1 /\
    snd (run [6550; 6585] [1/10; 3/10]) = Ok a2 /\ a_model a2 = Some m2 /\
    snd (run [6565; 6550; 6585] [1; 1/10; 3/10]) = Ok a /\ a_model a = Some m /\
    rows m = 3%nat /\ cols m = 2%nat /\
    forall i t, (i < 3)%nat -> (t < 2)%nat ->
      exists x y, at2 m1 i t = Fin x /\ at2 m2 i t = Fin y /\ at2 m i t = Fin (x + y).
Proof. exact add_example. Qed.

(** C131: the width of the instrument is a velocity, but it is turned into a wavelength with the first line only. *)
Theorem C131_first_line : forall c th st a,
  snd (aper_new c th st) = Ok a -> o_spec (c_opt c) = Wave -> o_shift (c_opt c) = false ->
  exists lam0 z, nth_error (g_rest (c_gal c)) 0 = Some lam0 /\ getz th (-1) = Ok z /\
  a_idw a = IdwFloat (fmul (fdiv (i_res (c_ins c)) (Fin c_kms)) (fmul lam0 (fadd (Fin 1) z))).
Proof. exact first_line. Qed.
Print Assumptions C131_first_line.

(** C131: broadening by the instrument is renormalised to the total flux of the image, so with it the images of two sets of lines do not add up. *)
Theorem C131_blur_refuted : exists m1 m2 m wave w o1 o2 o,
  rows m = rows m1 /\ rows m = rows m2 /\ cols m = cols m1 /\ cols m = cols m2 /\
  (forall i j, at2 m i j = fadd (at2 m1 i j) (at2 m2 i j)) /\
  inst_convol_complete m1 wave w = Ok o1 /\ inst_convol_complete m2 wave w = Ok o2 /\ inst_convol_complete m wave w = Ok o /\
  exists x y, at2 o1 2 0 = Fin x /\ at2 o2 2 0 = Fin y /\ exists s, at2 o 2 0 = Fin s /\ x + y < s.
Proof. exact blur_not_additive. Qed.
Print Assumptions C131_blur_refuted.

(** C131: with zero dispersion a line redder than the whole wavelength range puts all its light into the last wavelength. *)
Theorem C131_outside_refuted : forall (wave : list R) I V nZ nY nX dz lam0 (v : nat -> nat -> nat -> R),
  (0 < length wave)%nat -> increasing wave ->
  (forall m j k, (m < nZ)%nat -> (j < nY)%nat -> (k < nX)%nat ->
    at3 V m j k = Fin (v m j k) /\ nth (length wave - 1) wave 0 < lam0 * (1 + v m j k / c_kms)) ->
  forall w j k, (j < nY)%nat -> (k < nX)%nat -> at3 (I_simple_collapse I V (map Fin wave) (length wave) nZ nY nX dz (Fin lam0)) w j k =
    if Nat.eqb w (length wave - 1) then fsumn nZ (fun m => fmul (at3 I m j k) dz) else fsumn nZ (fun _ => Fin 0).
Proof. exact outside_light. Qed.
Print Assumptions C131_outside_refuted.

Example C131_outside_example : forall I dz,
  at3 (I_simple_collapse I (mk3 2 1 1 (fun _ _ _ => Fin 0)) (map Fin [13126; 13134]) 2 2 1 1 dz (Fin 20000)) 1 0 0 =
  fsumn 2 (fun m => fmul (at3 I m 0 0) dz).
Proof. exact outside_example. Qed.
