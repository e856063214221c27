(* Specification vocabulary: discs whose every part shines, and images fit for a comparison with data. *)
From Coq Require Import Reals List Bool Arith.
From Verif Require Import PyFloat PyBase Arr MKernels MAper2D SKernels SAper2D.
Import ListNotations.
Local Open Scope R_scope.

(** A shining disc: a well-posed evaluation whose geometry, redshift and lines are ordinary numbers, with
    positive lines and ratios, finite velocities, a positive intensity everywhere, a dispersion profile that is
    positive everywhere for a positive parameter and zero everywhere for parameter zero, a dispersion parameter
    that is not negative (unless its absolute value is taken), and a PSF profile that is positive. *)
Record shining (c : cfg) (th : list fl) (l : list R) : Prop := mkshining
  { sh_posed : well_posed c th l;
    sh_geom : exists d q q0, g_dPA (c_gal c) = Fin d /\ g_q (c_gal c) = Fin q /\ g_q0 (c_gal c) = Fin q0 /\
                0 <= q0 < 1 /\ 0 <= q <= 1;
    sh_offset : exists m0, fadd (g_m0 (c_gal c)) (nth (length th - 2) th NaN) = Fin m0;
    sh_z : exists z, nth (length th - 1) th NaN = Fin z /\ 0 < 1 + z;
    sh_rest : exists rest, g_rest (c_gal c) = map Fin rest /\ forall x, In x rest -> 0 < x;
    sh_ratio : exists ratio, g_ratio (c_gal c) = map Fin ratio /\ forall x, In x ratio -> 0 < x;
    sh_vel : forall r h, exists v, p_vel (c_prof c) (firstn (p_nvel (c_prof c)) th) (Fin r) (Fin h) = Fin v;
    sh_int : forall r h, exists v, p_int (c_prof c) (Fin r) (Fin h) = Fin v /\ 0 < v;
    sh_disp : forall s, 0 <= s -> forall r h, exists v, p_disp (c_prof c) [Fin s] (Fin r) (Fin h) = Fin v /\
                (s = 0 -> v = 0) /\ (0 < s -> 0 < v);
    sh_s : exists s, nth (p_nvel (c_prof c)) th NaN = Fin s /\ (o_abs (c_opt c) = true \/ 0 <= s);
    sh_res : exists rs, i_res (c_ins c) = Fin rs;
    sh_psf : 0 < i_fwhm (c_ins c) -> forall x y, exists v, i_prof (c_ins c) (Fin x) (Fin y) = Fin v /\ 0 < v }.

(** An image of finite pixels, none negative, with light in every row. *)
Definition sound_image (n p : nat) (m : arr2 fl) : Prop :=
  rows m = n /\ cols m = p /\ nonneg2 m /\
  forall i, (i < n)%nat -> exists j x, (j < p)%nat /\ at2 m i j = Fin x /\ 0 < x.
