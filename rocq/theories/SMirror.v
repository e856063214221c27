(* Specification vocabulary: which parameters give the same 2-D model image. *)
From Coq Require Import Reals List Bool Arith.
From Verif Require Import PyFloat PyBase Arr PyNum MParams MKernels MAper2D.
Import ListNotations.
Local Open Scope R_scope.

(** The same galaxy, instrument, options and profiles with another angle between major axis and slit. *)
Definition at_angle (d : fl) (c : cfg) : cfg :=
  let g := c_gal c in
  mkcfg (mkgal (g_q g) (g_q0 g) d (g_rows g) (g_wave g) (g_m0 g) (g_rest g) (g_ratio g) (g_data g)) (c_ins c) (c_opt c) (c_prof c).

(** The first parameter, or the first two parameters, with the opposite sign. *)
Definition flip1 (l : list fl) : list fl := match l with a :: t => fneg a :: t | [] => [] end.
Definition flip2 (l : list fl) : list fl := match l with a :: b :: t => fneg a :: fneg b :: t | _ => flip1 l end.

(** A parameter vector whose turnover radius is a number other than zero. *)
Definition disc_par (th : list fl) : Prop := exists a b t, th = a :: Fin b :: t /\ b <> 0.

(** Two constructions end alike: the same PSF stamp is left behind, and either both raise the same exception or
    both give the same image. *)
Definition same_image (p q : stamp * res aper) : Prop :=
  fst p = fst q /\
  match snd p, snd q with
  | Ok a, Ok b => a_model a = a_model b
  | Err e, Err e' => e = e'
  | _, _ => False
  end.

(** A profile (parameters, radius, height) that is the same above and below the disc. *)
Definition two_sided (f : list fl -> fl -> fl -> fl) : Prop := forall p r h, f p r (fneg h) = f p r h.

(** Log-likelihoods (or exceptions) returned by calls of lnlike one after the other on the same object. *)
Fixpoint likelihoods (c : cfg) (k : kinmodel) (tfs : list (list fl)) : list (res fl) :=
  match tfs with
  | [] => []
  | tf :: r => let (k', x) := km_llike c k tf in x :: likelihoods c k' r
  end.
