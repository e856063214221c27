(* Model: the corner plot of a 2-D fit (misfit/plot/plot_mcmc.py:24-227). *)
From Coq Require Import String Reals List Bool Arith.
From Verif Require MFit1D.
From Verif Require Import PyFloat PyBase Arr PyNum MParams MProf MPost.
Import ListNotations.
Local Open Scope R_scope.

(** np.where(np.array(names) == s)[0][0] (misfit/plot/plot_mcmc.py:149, 163) *)
Definition index_of (s : string) (l : list string) : res nat :=
  match where_ (String.eqb s) l with k :: _ => Ok k | [] => Err IndexError end.

(** A value and its lower and upper error, as written into a title or note (misfit/plot/plot_mcmc.py:60-78). *)
Record summary : Type := mkSummary { s_best : fl; s_lo : fl; s_hi : fl }.

(** One linked group: axis, abscissae of the two curves, common ordinates (misfit/plot/plot_mcmc.py:85-134). *)
Record curve : Type := mkCurve { v_axis : nat; v_re : list fl; v_22 : list fl; v_y : list fl }.

(** What the figure shows: samples and lines of corner.corner, titles, curves, and the notes for sigma and V(R_E), the
    latter with the label: rot is true, disp is false (misfit/plot/plot_mcmc.py:40-217). *)
Record corner : Type := mkCorner {
  c_samples : arr2 fl; c_truths : list fl; c_titles : list (string * summary); c_curves : list curve;
  c_sigma : summary; c_one : summary * bool; c_two : summary * bool; c_opp : fl }.

(** l[:-2] (misfit/plot/plot_mcmc.py:37, 43) *)
Definition but_two {A} (l : list A) : list A := firstn (length l - 2) l.
(** flatchain[:,:-2] (misfit/plot/plot_mcmc.py:43) *)
Definition but_two_cols (a : arr2 fl) : arr2 fl := mk2 (rows a) (cols a - 2) (at2 a).

(** misfit/plot/plot_mcmc.py:149-152, 163-166, 192-195: the value at an index with its errors *)
Definition note (best : list fl) (err : list (fl * fl)) (k : nat) : res summary :=
  do b <- getn best k;
  do e <- getn err k;
  Ok (mkSummary b (fst e) (snd e)).

(** misfit/plot/plot_mcmc.py:167-176, 196-206: rot unless the signs of the two ends differ (nan differs from everything) *)
Definition rotates (s : summary) : bool :=
  feqb (fsign (fsub (s_best s) (s_lo s))) (fsign (fadd (s_best s) (s_hi s))).

(** misfit/plot/plot_mcmc.py:60-80: titles on the diagonal; there are as many axes as the square of the number of columns *)
Definition titles (ncol : nat) (names : list string) (err : list (fl * fl)) (truths : list fl) : res (list (string * summary)) :=
  MFit1D.mapM (fun i =>
    do _ <- (if Nat.ltb (i * length truths + i) (ncol * ncol) then Ok tt else Err IndexError);
    do s <- note truths err i;
    do n <- getn names i;
    Ok (n, s)) (seq 0 (length truths)).

(** misfit/plot/plot_mcmc.py:101-121: the rows of theta_tmp; [acc] is theta_tmp, None while it does not exist.  [best] is
    kinModel.bestfit.theta from parameter [i] on, for the [n] parameters left. *)
Fixpoint theta_rows (l : list nat) (l0 : nat) (y : nat -> fl) (n i : nat) (best : list fl) (acc : option (list (nat -> fl)))
  : res (option (list (nat -> fl))) :=
  match n with
  | O => Ok acc
  | S n' =>
      let append r := match acc with Some a => Ok (Some (a ++ [r])) | None => Err UnboundLocalError end in
      do acc' <- (if memb i l then
                    if Nat.eqb i l0 then Ok (Some [fun _ => Fin 1]) else append y
                  else
                    match best with
                    | [] => Err IndexError
                    | b :: _ => if Nat.ltb 0 i then append (fun _ => b) else Ok (Some [fun _ => b])
                    end);
      theta_rows l l0 y n' (S i) (tl best) acc'
  end.

(** misfit/plot/plot_mcmc.py:85-137: one linked group.  [ylim] the limits of the axis, [n] the length of
    kinModel.kinProfile.theta, [re] galaxy.re_arcsec, [prev] theta_tmp of the group before.  kinProfile and kinModel.kinProfile are
    the same object (misfit/fit/fit2D.py:346); it is set back to its parameters afterwards.  A group 'all' is a string, whose
    letters cannot be an index.  Too few rows for the profile make it return one number, which cannot be drawn against an array. *)
Definition one_curve (p : kprof) (ylim : nat -> fl * fl) (ncol n : nat) (best : list fl) (re : fl) (truths : list fl) (g : link)
    (prev : option (list (nat -> fl))) : res (curve * option (list (nat -> fl))) :=
  match g with
  | LinkAll => Err TypeError
  | LinkInds l =>
      do l0 <- getn l 0;
      do l1 <- getn l 1;
      let ind := (l0 + l1 * ncol)%nat in
      do _ <- (if Nat.ltb ind (ncol * ncol) then Ok tt else Err IndexError);
      let ys := linspace (fst (ylim ind)) (snd (ylim ind)) 101 in
      do vre <- getz truths (-2);
      do v22 <- getz truths (-1);
      do tt_ <- theta_rows l l0 (lnth ys) n 0 best prev;
      do rows_ <- (match tt_ with Some r => Ok r | None => Err UnboundLocalError end);
      do _ <- (if Nat.ltb (length rows_) (kp_nv p) then Err ValueError else Ok tt);
      let vth := fun k => map (fun c : nat -> fl => c k) (firstn (kp_nv p) rows_) in
      let r22 := fmul (Fin (22 / 10 / (1676 / 1000))) re in
      let xre := map (fun k => fdiv vre (kp_vel p (vth k) re)) (seq 0 (length ys)) in
      let x22 := map (fun k => fdiv v22 (kp_vel p (vth k) r22)) (seq 0 (length ys)) in
      Ok (mkCurve ind xre x22 ys, tt_)
  end.
(** misfit/plot/plot_mcmc.py:84-85: the loop over the groups *)
Fixpoint curves (p : kprof) (ylim : nat -> fl * fl) (ncol n : nat) (best : list fl) (re : fl) (truths : list fl) (gs : list link)
    (prev : option (list (nat -> fl))) : res (list curve) :=
  match gs with
  | [] => Ok []
  | g :: gs' =>
      do c <- one_curve p ylim ncol n best re truths g prev;
      do r <- curves p ylim ncol n best re truths gs' (snd c);
      Ok (fst c :: r)
  end.

(** misfit/plot/plot_mcmc.py:24-217 [plot_param_corner].  [draw] is corner.corner and [ylim] the limits it chooses; [n] and [bfit]
    the length of kinModel.kinProfile.theta and kinModel.bestfit.theta; theta_names_nice is treated like theta_names.  Drawing
    itself and the note with n and R_E are left out. *)
Definition plot_param_corner (draw : arr2 fl -> list fl -> res unit) (ylim : nat -> fl * fl) (show : bool)
    (links : option (list link)) (kp : kprof) (n : nat) (bfit : list fl) (re : fl) (h : chains) (p : post) : res corner :=
  let truths := but_two (p_best p) in
  let samples := but_two_cols (h_flat h) in
  do _ <- draw samples truths;
  do ts <- titles (cols samples) (h_names h) (p_err1 p) truths;
  do cs <- (match links with
            | Some gs => if show then curves kp ylim (cols samples) n bfit re truths gs None else Ok []
            | None => Ok []
            end);
  do ks <- index_of "sigma0" (h_names h);
  do s <- note (p_best p) (p_err1 p) ks;
  do kv <- index_of "V_RE" (h_names h);
  do v1 <- note (p_best p) (p_err1 p) kv;
  do op <- getn (p_opp p) kv;
  do v2 <- note (p_best p) (p_err2 p) kv;
  Ok (mkCorner samples truths ts cs s (v1, rotates v1) (v2, rotates v2) op).
