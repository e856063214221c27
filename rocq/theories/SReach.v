(* Specification vocabulary: which wavelengths the light of a rotating disc can reach. *)
From Coq Require Import Reals List Bool Arith.
From Verif Require Import PyFloat PyBase Arr MParams MAper2D SLos SAper2D.
Import ListNotations.
Local Open Scope R_scope.

(** Column [t] is the first of the wavelengths [l] nearest to [x]. *)
Definition first_nearest (l : list R) (x : R) (t : nat) : Prop :=
  (t < length l)%nat /\ (forall i, (i < length l)%nat -> Rabs (x - nth t l 0) <= Rabs (x - nth i l 0)) /\
  (forall i, (i < t)%nat -> Rabs (x - nth t l 0) < Rabs (x - nth i l 0)).

(** Light that column [t] receives from unit light moving away at [v] km/s whose lines are infinitely
    narrow, when a line at [x] falls into the column [best x]. *)
Definition narrow (best : R -> nat) (rest ratio : list R) (z v : R) (t : nat) : R :=
  fold_right Rplus 0 (map (fun lr => if Nat.eqb (best (fst lr * (1 + z) * (1 + v / light_speed))) t then snd lr else 0) (combine rest ratio)).

(** Position of a cell of an image with [rows] rows of [ns] sub-pixels of size [dy]: row [i], sub-pixel [s],
    column [k] of the [nx] columns of width [dx] in the slit, depth [o]. *)
Definition image_cell (rows ns nx : nat) (dx dy xc m0 : R) (i s k o : nat) : vec :=
  let ny := (rows * ns)%nat in let j := (i * ns + s)%nat in
  (cell_centre nx dx k - xc,
   subpixel_y ns 0 dy m0 j + INR ns * dy * (1/2 - (if Nat.eqb ny 1 then 0 else INR j / (INR ny - 1))),
   cell_centre ny dy o).

(** Sum over the cells of row [i] of a quantity given at every position, times the cell area. *)
Definition over_row (rows ns nx : nat) (dx dy xc m0 : R) (i : nat) (f : vec -> R) : R :=
  dx * dy * tot ns (fun s => tot nx (fun k => tot (rows * ns) (fun o => f (image_cell rows ns nx dx dy xc m0 i s k o)))).

(** An evaluation without PSF and instrumental broadening at the parameters [th] on the wavelengths [l], for
    a disc of axis ratio [q] and thickness [q0] at the angle [d] degrees to the slit, centred on row [m0] at
    the redshift [z], with the lines [rest] of strengths [ratio], rotation speed [vr] and intensity [hr]
    (functions of the distance from the axis and the height). *)
Definition plain_disc (c : cfg) (th : list fl) (l : list R) (d q q0 m0 z : R) (rest ratio : list R) (vr hr : R -> R -> R) : Prop :=
  well_posed c th l /\ unblurred c /\
  g_dPA (c_gal c) = Fin d /\ g_q (c_gal c) = Fin q /\ g_q0 (c_gal c) = Fin q0 /\ 0 <= q0 < 1 /\ 0 <= q <= 1 /\
  fadd (g_m0 (c_gal c)) (nth (length th - 2) th NaN) = Fin m0 /\ nth (length th - 1) th NaN = Fin z /\ 1 + z <> 0 /\
  g_rest (c_gal c) = map Fin rest /\ g_ratio (c_gal c) = map Fin ratio /\ (forall x, In x rest -> x <> 0) /\
  (forall r h, p_vel (c_prof c) (firstn (p_nvel (c_prof c)) th) (Fin r) (Fin h) = Fin (vr r h)) /\
  (forall r h, p_int (c_prof c) (Fin r) (Fin h) = Fin (hr r h)).
(** Its dispersion is [sr]. *)
Definition dispersion_is (c : cfg) (th : list fl) (sr : R -> R -> R) : Prop :=
  forall r h, p_disp (c_prof c) (firstn 1 (skipn (p_nvel (c_prof c)) th)) (Fin r) (Fin h) = Fin (sr r h) /\ sr r h <> 0.
Definition no_dispersion (c : cfg) (th : list fl) : Prop :=
  forall r h, p_disp (c_prof c) (firstn 1 (skipn (p_nvel (c_prof c)) th)) (Fin r) (Fin h) = Fin 0.

(** The evaluation gives the image [m]. *)
Definition image_is (c : cfg) (th : list fl) (m : arr2 fl) : Prop :=
  exists a0 b, setup_calcs c th = Ok a0 /\ do_model_calcs c a0 = (b, Ok tt) /\ a_model b = Some m.

(** The cells of row [i] of such an image: [nx] columns of width [dx] fill the slit; the sub-pixel size is
    the pixel size over the number of sub-pixels. *)
Definition row_sum (c : cfg) (nx : nat) (dx m0 : R) (i : nat) (f : vec -> R) : R :=
  over_row (g_rows (c_gal c)) (o_nsub (c_opt c)) nx dx (i_pix (c_ins c) / INR (o_nsub (c_opt c))) (o_xc (c_opt c)) m0 i f.
Definition fills_slit (c : cfg) (nx : nat) (dx : R) : Prop :=
  let dy := i_pix (c_ins c) / INR (o_nsub (c_opt c)) in
  INR nx * dx = i_slit (c_ins c) /\ 0 < dx <= dy /\ ((nx > 1)%nat -> dy < 2 * dx).
