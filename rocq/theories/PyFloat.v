(* Python/numpy floating point values as used by /repo/misfit.
   A value is a real number, +inf, -inf or nan.  Arithmetic on finite values is exact
   (no rounding, no overflow) and there is a single zero; propagation of nan and
   infinities follows IEEE 754.  Trusted reading of numpy, see DESIGN.md. *)
From Coq Require Import Reals Lra List Bool.
Import ListNotations.
Local Open Scope R_scope.

(** Boolean comparisons of reals. Helper, not code. *)
Definition Rltb (a b : R) : bool := if Rlt_dec a b then true else false.
(** Helper, not code. *)
Definition Rleb (a b : R) : bool := if Rle_dec a b then true else false.
(** Helper, not code. *)
Definition Reqb (a b : R) : bool := if Req_EM_T a b then true else false.

(** A number held by the code: float or numpy.float64, everywhere in /repo/misfit.  Simplified: exact reals, one zero. *)
Inductive fl : Type :=
| Fin (r : R)
| PInf
| NInf
| NaN.

(** np.isfinite *)
Definition isfinite (x : fl) : bool := match x with Fin _ => true | _ => false end.
(** np.isnan *)
Definition isnan (x : fl) : bool := match x with NaN => true | _ => false end.

(** Unary minus, e.g. misfit/instrument.py:148-153. *)
Definition fneg (x : fl) : fl :=
  match x with Fin r => Fin (- r) | PInf => NInf | NInf => PInf | NaN => NaN end.

(** The + of floats, e.g. misfit/model/kin_classes.py:175-176. *)
Definition fadd (x y : fl) : fl :=
  match x, y with
  | NaN, _ | _, NaN => NaN
  | Fin a, Fin b => Fin (a + b)
  | PInf, NInf | NInf, PInf => NaN
  | PInf, _ | _, PInf => PInf
  | NInf, _ | _, NInf => NInf
  end.

(** The - of floats, e.g. misfit/fit/fit_core.py:1053-1063. *)
Definition fsub (x y : fl) : fl := fadd x (fneg y).

(** infinity (positive if [pos]) times a finite number. Helper of the product below. *)
Definition inf_scale (pos : bool) (a : R) : fl :=
  if Reqb a 0 then NaN else if Bool.eqb pos (Rltb 0 a) then PInf else NInf.

(** The * of floats, e.g. misfit/fit/fit_core.py:909-917. *)
Definition fmul (x y : fl) : fl :=
  match x, y with
  | NaN, _ | _, NaN => NaN
  | Fin a, Fin b => Fin (a * b)
  | PInf, Fin a | Fin a, PInf => inf_scale true a
  | NInf, Fin a | Fin a, NInf => inf_scale false a
  | PInf, PInf | NInf, NInf => PInf
  | PInf, NInf | NInf, PInf => NInf
  end.

(** The / of numpy floats, e.g. misfit/model/kin_model.py:141-157 (no exception for a zero divisor). *)
Definition fdiv (x y : fl) : fl :=
  match x, y with
  | NaN, _ | _, NaN => NaN
  | Fin a, Fin b =>
      if Reqb b 0 then (if Reqb a 0 then NaN else if Rltb 0 a then PInf else NInf)
      else Fin (a / b)
  | Fin _, PInf | Fin _, NInf => Fin 0
  | PInf, Fin b => if Rltb b 0 then NInf else PInf
  | NInf, Fin b => if Rltb b 0 then PInf else NInf
  | PInf, PInf | PInf, NInf | NInf, PInf | NInf, NInf => NaN
  end.

(** x**2. E.g. misfit/model/kin_model.py:141-157. *)
Definition fsq (x : fl) : fl := fmul x x.

(** np.abs, e.g. misfit/model/aper_model.py:267-268. *)
Definition fabs (x : fl) : fl :=
  match x with Fin r => Fin (Rabs r) | PInf => PInf | NInf => PInf | NaN => NaN end.

(** np.sqrt: nan for negative input *)
Definition fsqrt (x : fl) : fl :=
  match x with
  | Fin r => if Rltb r 0 then NaN else Fin (sqrt r)
  | PInf => PInf
  | NInf => NaN
  | NaN => NaN
  end.

(** np.log10: nan for negative input, -inf at zero *)
Definition flog10 (x : fl) : fl :=
  match x with
  | Fin r => if Rltb 0 r then Fin (ln r / ln 10) else if Reqb r 0 then NInf else NaN
  | PInf => PInf
  | NInf => NaN
  | NaN => NaN
  end.

(** Comparisons; every comparison with nan is False. E.g. misfit/fit/fit1D.py:310-320. *)
Definition fltb (x y : fl) : bool :=
  match x, y with
  | Fin a, Fin b => Rltb a b
  | NInf, Fin _ | NInf, PInf | Fin _, PInf => true
  | _, _ => false
  end.

(** The <= of floats, e.g. misfit/model/kin_classes.py:286-293. *)
Definition fleb (x y : fl) : bool :=
  match x, y with
  | NaN, _ | _, NaN => false
  | Fin a, Fin b => Rleb a b
  | NInf, _ | _, PInf => true
  | _, _ => false
  end.

(** The == of floats, e.g. misfit/model/kin_model.py:141-157. *)
Definition feqb (x y : fl) : bool :=
  match x, y with
  | Fin a, Fin b => Reqb a b
  | PInf, PInf | NInf, NInf => true
  | _, _ => false
  end.

(** The > of floats, e.g. misfit/model/kin_functions.py:366. *)
Definition fgtb (x y : fl) : bool := fltb y x.
(** The >= of floats, e.g. misfit/general/galaxy_utils.py:594. *)
Definition fgeb (x y : fl) : bool := fleb y x.

(** np.sum; exact arithmetic makes the order of summation irrelevant. *)
Definition fsum (l : list fl) : fl := fold_right fadd (Fin 0) l.

(** Python's max(a,b) / min(a,b) on two values: max returns the second only if it is
    greater, min returns the second only if it is smaller. misfit/general/general_utils.py:188-197. *)
Definition pymax2 (a b : fl) : fl := if fgtb b a then b else a.
(** Python's min(a,b), misfit/general/general_utils.py:188-197. *)
Definition pymin2 (a b : fl) : fl := if fltb b a then b else a.

(** Sum of reals. Specification helper, not code. *)
Definition rsum (l : list R) : R := fold_right Rplus 0 l.

(* ------------------------------------------------------------------ *)
(* Reflection lemmas for the boolean comparisons.                      *)

Lemma Rltb_true a b : Rltb a b = true <-> a < b.
Proof. unfold Rltb. destruct (Rlt_dec a b); split; intros; auto; discriminate. Qed.
Lemma Rltb_false a b : Rltb a b = false <-> b <= a.
Proof. unfold Rltb. destruct (Rlt_dec a b); split; intros; auto; try discriminate; lra. Qed.
Lemma Rleb_true a b : Rleb a b = true <-> a <= b.
Proof. unfold Rleb. destruct (Rle_dec a b); split; intros; auto; discriminate. Qed.
Lemma Rleb_false a b : Rleb a b = false <-> b < a.
Proof. unfold Rleb. destruct (Rle_dec a b); split; intros; auto; try discriminate; lra. Qed.
Lemma Reqb_true a b : Reqb a b = true <-> a = b.
Proof. unfold Reqb. destruct (Req_EM_T a b); split; intros; auto; discriminate. Qed.
Lemma Reqb_false a b : Reqb a b = false <-> a <> b.
Proof. unfold Reqb. destruct (Req_EM_T a b); split; intros; auto; try discriminate; contradiction. Qed.

Lemma Reqb_refl a : Reqb a a = true.
Proof. apply Reqb_true; reflexivity. Qed.

(** Case split on a boolean comparison of reals, leaving the real fact. *)
Ltac rcases :=
  match goal with
  | |- context [Rltb ?a ?b] => let H := fresh "Hlt" in
      destruct (Rltb a b) eqn:H; [apply Rltb_true in H | apply Rltb_false in H]
  | |- context [Rleb ?a ?b] => let H := fresh "Hle" in
      destruct (Rleb a b) eqn:H; [apply Rleb_true in H | apply Rleb_false in H]
  | |- context [Reqb ?a ?b] => let H := fresh "Heq" in
      destruct (Reqb a b) eqn:H; [apply Reqb_true in H | apply Reqb_false in H]
  end.

Ltac rcases_in K :=
  match type of K with
  | context [Rltb ?a ?b] => let H := fresh "Hlt" in
      destruct (Rltb a b) eqn:H; [apply Rltb_true in H | apply Rltb_false in H]
  | context [Rleb ?a ?b] => let H := fresh "Hle" in
      destruct (Rleb a b) eqn:H; [apply Rleb_true in H | apply Rleb_false in H]
  | context [Reqb ?a ?b] => let H := fresh "Heq" in
      destruct (Reqb a b) eqn:H; [apply Reqb_true in H | apply Reqb_false in H]
  end.

(** Decide all boolean real comparisons in the goal by [lra]. *)
Ltac rdec :=
  repeat (rcases; try (exfalso; lra)); try reflexivity.

Lemma isfinite_Fin x : isfinite x = true -> exists r, x = Fin r.
Proof. destruct x; simpl; intros H; try discriminate. now exists r. Qed.

Lemma fsum_Fin (l : list R) : fsum (map Fin l) = Fin (rsum l).
Proof. induction l as [|a l IH]; simpl; auto. now rewrite IH. Qed.

Lemma fsum_app (l1 l2 : list fl) : fsum (l1 ++ l2) = fadd (fsum l1) (fsum l2).
Proof.
  induction l1 as [|a l IH]; simpl.
  - destruct (fsum l2); simpl; auto. f_equal; ring.
  - rewrite IH. destruct a, (fsum l), (fsum l2); simpl; auto. f_equal; ring.
Qed.

Lemma rsum_app l1 l2 : rsum (l1 ++ l2) = rsum l1 + rsum l2.
Proof. induction l1; simpl; [ring|]. rewrite IHl1. ring. Qed.
