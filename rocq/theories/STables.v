(* Specification: the number in the name of an emission line. *)
From Coq Require Import Reals List Bool ZArith String Ascii.
Local Open Scope Z_scope.

(** The decimal digits of a name, read as one number: "OIII5008" is 5008. *)
Fixpoint digits (s : string) (n : Z) : Z :=
  match s with
  | EmptyString => n
  | String c s' => let d := Z.of_nat (nat_of_ascii c) - 48 in
                   if (0 <=? d) && (d <=? 9) then digits s' (10 * n + d) else digits s' n
  end.
Definition number_of (s : string) : Z := digits s 0.

(** A wavelength that rounds to the number in the name. *)
Definition named_after (w : R) (s : string) : Prop := (Rabs (w - IZR (number_of s)) <= 1 / 2)%R.
