(* Model: walker initialisation and the flat prior in IEEE 754 double precision (Flocq's binary64,
   rounding to nearest even): the same code as in MParams, with every operation rounded. *)
From Coq Require Import ZArith List Bool Arith.
From Flocq Require Import IEEE754.BinarySingleNaN IEEE754.Binary IEEE754.Bits.
From Verif Require Import PyBase.
Import ListNotations.

(** a <= b on floats; false when one of them is nan (misfit/model/kin_functions.py:27-28). *)
Definition leb64 (a b : binary64) : bool :=
  match b64_compare a b with Some Lt | Some Eq => true | _ => false end.
(** a < b on floats, as Python's max and min compare (misfit/general/general_utils.py:193-195). *)
Definition ltb64 (a b : binary64) : bool := match b64_compare a b with Some Lt => true | _ => false end.

(** max of a pair (misfit/general/general_utils.py:193). *)
Definition max64 (a b : binary64) : binary64 := if ltb64 a b then b else a.
(** min of a pair (misfit/general/general_utils.py:194-195). *)
Definition min64 (a b : binary64) : binary64 := if ltb64 b a then b else a.

(** misfit/model/kin_functions.py:27-28 [_between]. *)
Definition between64 (b : binary64 * binary64) (v : binary64) : bool := leb64 (fst b) v && leb64 v (snd b).

(** misfit/model/kin_classes.py:286-293, the loop of [ThetaPriorFlat.log_prior]. *)
Fixpoint prior64_loop (is : list nat) (i_free : nat) (vary : list bool)
         (bounds : list (binary64 * binary64)) (tf : list binary64) : res (list bool) :=
  match is with
  | [] => Ok []
  | i :: is' =>
      do v <- getn vary i;
      if v then
        do b <- getn bounds i;
        do x <- getn tf i_free;
        do r <- prior64_loop is' (S i_free) vary bounds tf;
        Ok (between64 b x :: r)
      else prior64_loop is' i_free vary bounds tf
  end.

(** misfit/model/kin_classes.py:286-300 [ThetaPriorFlat.log_prior]; [n] is len(self.theta). *)
Definition log_prior64 (n : nat) (vary : list bool) (bounds : list (binary64 * binary64))
           (tf : list binary64) : res binary64 :=
  do st <- prior64_loop (seq 0 n) 0 vary bounds tf;
  Ok (if forallb (fun s => s) st then B754_zero 53 1024 false else B754_infinity 53 1024 true).

(** misfit/general/general_utils.py:188-197 [range_arrs]: (param_range, param_lower). *)
Fixpoint range64_loop (js : list nat) (vary : list bool) (bounds : list (binary64 * binary64))
  : res (list binary64 * list binary64) :=
  match js with
  | [] => Ok ([], [])
  | j :: js' =>
      do v <- getn vary j;
      if v then
        do b <- getn bounds j;
        do r <- range64_loop js' vary bounds;
        Ok (b64_minus mode_NE (max64 (fst b) (snd b)) (min64 (fst b) (snd b)) :: fst r,
            min64 (fst b) (snd b) :: snd r)
      else range64_loop js' vary bounds
  end.

(** numpy element-wise operation on two 1-D arrays with broadcasting of length 1
    (misfit/fit/fit_core.py:915). *)
Definition zip64 (f : binary64 -> binary64 -> binary64) (a b : list binary64) : res (list binary64) :=
  if Nat.eqb (length a) (length b) then Ok (map (fun p => f (fst p) (snd p)) (combine a b))
  else match a, b with
       | [x], _ => Ok (map (f x) b)
       | _, [y] => Ok (map (fun x => f x y) a)
       | _, _ => Err ValueError
       end.

(** misfit/fit/fit_core.py:915: one position per vector of draws. *)
Fixpoint walker64_list (draws : list (list binary64)) (rng low : list binary64)
  : res (list (list binary64)) :=
  match draws with
  | [] => Ok []
  | u :: ds =>
      do p <- zip64 (b64_mult mode_NE) u rng;
      do q <- zip64 (b64_plus mode_NE) p low;
      do r <- walker64_list ds rng low;
      Ok (q :: r)
  end.

(** misfit/fit/fit_core.py:909-917 [init_walker_pos]. *)
Definition init_walker64 (nnames : nat) (vary : list bool) (bounds : list (binary64 * binary64))
           (draws : list (list binary64)) : res (list (list binary64)) :=
  do rl <- range64_loop (seq 0 nnames) vary bounds;
  walker64_list draws (fst rl) (snd rl).
