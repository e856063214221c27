(* Model: the number of processes of a run and the options objects that hold it
   (misfit/fit/fit_core.py:215-221, 515-521, 1115-1153; misfit/fit/fit2D.py:150, 185). *)
From Coq Require Import Reals List Bool Arith ZArith.
From Verif Require Import PyFloat PyBase Arr PyNum MSlitPlot.
Import ListNotations.
Local Open Scope R_scope.

(** cpuFrac, nCPUs and NoThread of MCMC2DOptions (misfit/fit/fit_core.py:1122-1131); its other
    attributes are left out. *)
Record cpu : Type := mkCpu { p_frac : fl; p_num : option Z; p_no : bool }.

(** The values of a new options object (misfit/fit/fit_core.py:1122, 1123, 1131). *)
Definition new_cpu : cpu := mkCpu (Fin (3/4)) None false.

(** The start of a run (misfit/fit/fit_core.py:217-221, 517-521): the options afterwards and the number
    of processes.  [cores] is psutil.cpu_count(); np.int is taken to exist (numpy before 1.24). *)
Definition set_cpus (cores : Z) (o : cpu) : cpu * res Z :=
  match (match p_num o with Some n => Ok n | None => int_floor (fmul (Fin (IZR cores)) (p_frac o)) end) with
  | Err e => (o, Err e)
  | Ok n => let n' := if p_no o then 1%Z else n in (mkCpu (p_frac o) (Some n') (p_no o), Ok n')
  end.

(** All options objects; number zero is the default argument of FitEmissionLines2D.__init__, which
    Python makes once (misfit/fit/fit2D.py:150). *)
Definition heap : Type := nat -> cpu.
(** self.mcmcOptions of a fit that was given its own options or none (misfit/fit/fit2D.py:150, 185). *)
Definition object_of (own : option nat) : nat := match own with Some k => S k | None => 0%nat end.
(** Assignment to attributes of one options object (misfit/fit/fit_core.py:219, 221). *)
Definition put (h : heap) (k : nat) (o : cpu) : heap := fun j => if Nat.eqb j k then o else h j.

(** What a user does with the fit of a number: start a run, or assign cpuFrac, nCPUs or NoThread of its
    options (misfit/fit/fit_core.py:215-221, 515-521, 1122-1131). *)
Inductive act : Type := ARun (i : nat) | AFrac (i : nat) (f : fl) | ANum (i : nat) (n : option Z) | ANo (i : nat) (b : bool).

(** One action; a run reports its fit and its number of processes (misfit/fit/fit_core.py:215-221, 515-521). *)
Definition exec (cores : Z) (own : nat -> option nat) (a : act) (h : heap) : heap * list (nat * res Z) :=
  match a with
  | ARun i => let k := object_of (own i) in let (o, r) := set_cpus cores (h k) in (put h k o, [(i, r)])
  | AFrac i f => let k := object_of (own i) in (put h k (mkCpu f (p_num (h k)) (p_no (h k))), [])
  | ANum i n => let k := object_of (own i) in (put h k (mkCpu (p_frac (h k)) n (p_no (h k))), [])
  | ANo i b => let k := object_of (own i) in (put h k (mkCpu (p_frac (h k)) (p_num (h k)) b), [])
  end.

(** Any sequence of actions (misfit/fit/fit_core.py:215-221, 515-521). *)
Fixpoint exec_all (cores : Z) (own : nat -> option nat) (l : list act) (h : heap) : heap * list (nat * res Z) :=
  match l with
  | [] => (h, [])
  | a :: l => let (h1, t1) := exec cores own a h in let (h2, t2) := exec_all cores own l h1 in (h2, t1 ++ t2)
  end.
