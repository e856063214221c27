(* Model: the figure of the best fit (misfit/plot/plot_bestfit.py:38-328) and of the chains (misfit/plot/plot_trace.py:25-89). *)
From Coq Require Import String Reals List Bool Arith ZArith.
From Verif Require Import PyFloat PyBase Arr PyNum MProf MKernels MMask MAper1D MSlitPlot.
Import ListNotations.
Local Open Scope R_scope.

(** What the figure reads from the fit: spectrum, m0, columns without sky line, rows of low S/N, columns masked as sky, radius and slit
    angle of the galaxy, and kinModel if there is one: best-fit parameters (if bestfit is set) and model image.
    misfit/plot/plot_bestfit.py:58-83, 104-128, 194, 254. *)
Record fitted2D : Type := mkFitted {
  q_flux : arr2 fl; q_m0 : fl; q_nosky : list nat; q_low : list nat; q_sky : list nat; q_re : fl; q_dPA : fl;
  q_kin : option (option (list fl) * arr2 fl) }.

(** The figure: the two image panels if there is a stamp; grey-scale limits; spectrum, model and residual; rows of the dotted and solid
    lines; rows of the dashed lines; hatched rectangles (x range, y range); columns of the dashed lines.
    misfit/plot/plot_bestfit.py:86-300. *)
Record figure : Type := mkFigure {
  v_high : option panel; v_low : option panel; v_lim : fl * fl; v_spec : arr2 fl; v_model : arr2 fl; v_resid : arr2 fl;
  v_re : fl * fl; v_mid : fl; v_edges : list fl; v_hatch : list ((fl * fl) * (fl * fl)); v_columns : list fl }.

(** theta[-2] (misfit/plot/plot_bestfit.py:80) *)
Definition second_last (l : list fl) : res fl :=
  match rev l with _ :: x :: _ => Ok x | _ => Err IndexError end.

(** Values of the columns [cs] of an image, column indices in range (misfit/plot/plot_bestfit.py:104-106) *)
Definition of_columns (a : arr2 fl) (cs : list nat) : res (list fl) :=
  if forallb (fun j => Nat.ltb j (cols a)) cs then Ok (flat_map (fun i => map (fun j => at2 a i j) cs) (seq 0 (rows a))) else Err IndexError.

(** np.min and np.max of a run (misfit/plot/plot_bestfit.py:196-197) *)
Definition least (w : list nat) : nat := fold_right Nat.min (hd O w) w.
(** See [least] (misfit/plot/plot_bestfit.py:197). *)
Definition greatest (w : list nat) : nat := fold_right Nat.max O w.

(** Dashed lines around one run of [n] rows (misfit/plot/plot_bestfit.py:195-212, 255-271) *)
Definition run_edges (n : nat) (w : list nat) : list fl :=
  (if Nat.eqb (least w) 0 then [] else [fsub (Fin (INR (least w))) (Fin (1/2))]) ++
  (if Z.eqb (Z.of_nat (greatest w)) (Z.of_nat n - 1) then [] else [fadd (Fin (INR (greatest w))) (Fin (1/2))]).

(** Hatched rectangle of one run (misfit/plot/plot_bestfit.py:221-249) *)
Definition run_hatch (nw : nat) (w : list nat) : (fl * fl) * (fl * fl) :=
  ((Fin (- (1/2)), fsub (Fin (INR nw)) (Fin (1/2))),
   (fsub (Fin (INR (hd O w))) (Fin (1/2)), fsub (fadd (Fin (INR (last w O))) (Fin 1)) (Fin (1/2)))).

(** misfit/plot/plot_bestfit.py:38-328 [plot_bestfit_model].  [stamp] tells whether galaxy.pstamp exists, [sigma] is
    instrument.conv_sigma.  Broadcasting of different shapes is an error.  A non-empty set of sky columns subtracts a number from a list
    (279-300).  Printing, colours and titles are left out. *)
Definition plot_bestfit_model (interp : arr2 fl -> R -> R -> fl) (pole : R -> bool) (f : fitted2D) (stamp : bool) (g : scene) (o : optics)
    (sigma : option fl) : res figure :=
  do _ <- (if Nat.eqb (rows (q_flux f)) 0 then Err ZeroDivisionError else Ok tt);
  do k <- (match q_kin f with Some k => Ok k | None => Err AttributeError end);
  do shift <- (match fst k with Some th => second_last th | None => Ok (Fin 0) end);
  let mid := fadd (q_m0 f) shift in
  let n := rows (q_flux f) in
  do im <- (if stamp then
              do hi <- plot_image_slit interp pole g o (Some mid) true false None (Some n) false true;
              do lo <- plot_image_slit interp pole g o (Some mid) true true sigma (Some n) true true;
              Ok (Some hi, Some lo)
            else Ok (None, None));
  do vals <- of_columns (q_flux f) (match q_nosky f with [] => seq 0 (cols (q_flux f)) | l => l end);
  do vmin <- np_min vals;
  do vmax <- np_max vals;
  let m := snd k in
  do res <- (if Nat.eqb (rows m) n && Nat.eqb (cols m) (cols (q_flux f))
             then Ok (mk2 n (cols m) (fun i j => fsub (at2 (q_flux f) i j) (at2 m i j))) else Err ValueError);
  do c <- (match psf_fwhm (o_psf o) with Some w => Ok (fdiv w (Fin fwhm_factor)) | None => Err TypeError end);
  let s2 := fsqrt (fmul (Fin 2) (Fin (ln 2))) in
  let major := fmul (fsqrt (fadd (fsq c) (fsq (fdiv (q_re f) s2)))) s2 in
  let proj := y_proj_major major (q_dPA f) in
  let d := fdiv proj (o_pix o) in
  let runs := wh_continuous (q_low f) in
  do _ <- (match wh_continuous (q_sky f) with [] => Ok tt | _ => Err TypeError end);
  Ok (mkFigure (fst im) (snd im) (vmin, vmax) (q_flux f) m res (fsub mid d, fadd mid d) mid
        (flat_map (run_edges n) runs) (map (run_hatch (cols (q_flux f))) runs) []).

(** One axis of the trace figure: label, grey lines and coloured lines (misfit/plot/plot_trace.py:68-79) *)
Record trace_axis : Type := mkTrace { x_label : string; x_grey : list (list fl); x_colour : list (list fl) }.

(** Nice names of the free parameters (misfit/plot/plot_trace.py:29-33) *)
Fixpoint free_names (vary : list bool) (names : list string) : list string :=
  match vary, names with
  | v :: vs, s :: ss => if v then s :: free_names vs ss else free_names vs ss
  | _, _ => []
  end.

(** Samples of walker [w] in column [k] of the chain (misfit/plot/plot_trace.py:71, 74-75) *)
Definition walk (chain : arr3 fl) (w k : nat) : list fl := map (fun t => at3 chain w t k) (seq 0 (dim1 chain)).

(** misfit/plot/plot_trace.py:25-89 [plot_trace].  [picked] are the five random walkers (57); sampler_dict['nWalkers'] is [nw].  Indices
    outside the chain are an IndexError.  theta, theta_vary and theta_names_nice have the same length. *)
Definition plot_trace (vary : list bool) (names : list string) (chain : arr3 fl) (nw : nat) (picked : list nat) : res (list trace_axis) :=
  do _ <- (if Nat.eqb nw 0 then Err ZeroDivisionError else Ok tt);
  let labels := free_names vary names in
  let rest := filter (fun w => negb (existsb (Nat.eqb w) picked)) (seq 0 nw) in
  if forallb (fun w => Nat.ltb w (dim0 chain)) (rest ++ picked) && Nat.leb (length labels) (dim2 chain)
  then Ok (map (fun k => mkTrace (nth k labels EmptyString) (map (fun w => walk chain w k) rest) (map (fun w => walk chain w k) picked))
               (seq 0 (length labels)))
  else Err IndexError.
