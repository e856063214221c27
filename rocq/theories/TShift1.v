(* Property theorems: the 1-D rotation model with a shift (C29); names in the shipped line tables (C66). *)
From Coq Require Import Reals List Bool Arith ZArith String.
From Verif Require Import PyFloat PyBase Arr PyNum MKernels MAper2D MProf MAper1D MIo SAper1D SShift1 STables PAper1D7 PShift1 PTables.
Import ListNotations.
Local Open Scope R_scope.

(** C29: with the velocity shift along the slit switched on, the average is of the dispersion and the shifted speed in quadrature. *)
Theorem C29_shift : forall f shift o ins gal re q q0 a W xc yc pad F H va rt R0 v0 sg, shift_along f shift ->
  physical_rot o ins gal re q q0 a W xc yc pad F H va rt -> ref_radius o re R0 ->
  update_kinProfile o (Fin R0) = ([Fin v0; Fin rt], [Fin sg]) ->
  exists st i s, rot_new shift (shifted o) ins gal = Ok st /\ inclined q q0 i /\
    shift_average v0 rt sg a i W H xc yc (pad * F) f s /\
    h_out st = Some (mkout1 (Fin s) (Fin (sqrt (rotation v0 rt R0 ^ 2 + sg ^ 2)))
                      (fdiv (Fin s) (Fin (sqrt (rotation v0 rt R0 ^ 2 + sg ^ 2))))).
Proof. exact rot_run_shift. Qed.
Print Assumptions C29_shift.

(** C29: without rotation a uniform shift adds to the dispersion in quadrature. *)
Theorem C29_shift_uniform : forall d shift o ins gal re q q0 a W xc yc pad F H va rt R0,
  shift_along (fun _ => d) shift -> physical_rot o ins gal re q q0 a W xc yc pad F H va rt -> ref_radius o re R0 ->
  t_ratio o = Some (Fin 0) -> 0 < va ->
  exists st, rot_new shift (shifted o) ins gal = Ok st /\
    h_out st = Some (mkout1 (Fin (sqrt (d ^ 2 + va ^ 2))) (Fin va) (Fin (sqrt (d ^ 2 + va ^ 2) / va))).
Proof. exact shift_uniform. Qed.
Print Assumptions C29_shift_uniform.

Example C29_example_shift : exists st, rot_new (fun g _ => Ok (map (fun _ => Fin 30) (e_y g))) (shifted (ex_ropt (Some (Fin 0)) false)) ex_ins1 ex_galr = Ok st /\
  h_out st = Some (mkout1 (Fin (sqrt (30 ^ 2 + 100 ^ 2))) (Fin 100) (Fin (sqrt (30 ^ 2 + 100 ^ 2) / 100))).
Proof. exact ex_shift. Qed.

(** C66: every shipped wavelength rounds to the number in the name of its line. *)
Theorem C66_names : forall l w r, In (l, (w, r)) (b_lines shipped) -> named_after w l.
Proof. exact shipped_names. Qed.
Print Assumptions C66_names.

Example C66_example_names : In ("OIII5008"%string, (500824 / 100, 1)) (b_lines shipped) /\ number_of "OIII5008" = 5008%Z.
Proof. exact ex_name. Qed.

(** C66: every shipped full window reaches between 60 and 130 angstrom to either side of its line. *)
Theorem C66_widths : forall l win, In (l, win) (b_full shipped) ->
  exists w r, In (l, (w, r)) (b_lines shipped) /\ w - 130 <= fst win <= w - 60 /\ w + 60 <= snd win <= w + 130.
Proof. exact shipped_widths. Qed.
Print Assumptions C66_widths.
