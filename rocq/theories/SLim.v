(* Specification vocabulary: what happens to images when the parameters approach a value. *)
From Coq Require Import Reals List Bool Arith.
From Verif Require Import PyFloat PyBase Arr MKernels MAper2D SAper2D SLos SFinite.
Import ListNotations.
Local Open Scope R_scope.

(** Finite numbers [f n] that approach the finite number [x]. *)
Definition approach (f : nat -> fl) (x : fl) : Prop :=
  exists g y, (forall n, f n = Fin (g n)) /\ x = Fin y /\ Un_cv g y.

(** Shining discs [thn n] that approach the shining disc [th]: same offset and redshift, velocities that approach
    those of [th] at every position, and dispersion parameters that approach that of [th]. *)
Record discs_approach (c : cfg) (l : list R) (thn : nat -> list fl) (th : list fl) : Prop := mkapproach
  { da_n : forall n, shining c (thn n) l;
    da_lim : shining c th l;
    da_length : forall n, length (thn n) = length th;
    da_offset : forall n, nth (length th - 2) (thn n) NaN = nth (length th - 2) th NaN;
    da_z : forall n, nth (length th - 1) (thn n) NaN = nth (length th - 1) th NaN;
    da_vel : forall r h, approach (fun n => p_vel (c_prof c) (firstn (p_nvel (c_prof c)) (thn n)) (Fin r) (Fin h))
                                  (p_vel (c_prof c) (firstn (p_nvel (c_prof c)) th) (Fin r) (Fin h));
    da_s : approach (fun n => nth (p_nvel (c_prof c)) (thn n) NaN) (nth (p_nvel (c_prof c)) th NaN) }.

(** A dispersion profile that is a continuous function of its parameter, at every position. *)
Definition continuous_dispersion (c : cfg) : Prop :=
  forall sn s, (forall n, 0 < sn n) -> 0 < s -> Un_cv sn s -> forall r h,
    approach (fun n => p_disp (c_prof c) [Fin (sn n)] (Fin r) (Fin h)) (p_disp (c_prof c) [Fin s] (Fin r) (Fin h)).

(** Away from the two places where the code changes its method: the dispersion is not zero unless it has a
    floor, and with adaptive up-sampling it is not the width of a wavelength pixel over 2.35. *)
Definition regular (c : cfg) (l : list R) (th : list fl) : Prop :=
  exists s r0 z, nth (p_nvel (c_prof c)) th NaN = Fin s /\ hd NaN (g_rest (c_gal c)) = Fin r0 /\ nth (length th - 1) th NaN = Fin z /\
    (o_floor (c_opt c) = true \/ s <> 0) /\
    (o_adapt (c_opt c) = true -> Rabs s <> pixel_velocity l (r0 * (1 + z)) / (235 / 100)).
