(* More of numpy on [fl]: elementary functions, extrema, linspace, rounding, and a
   state-and-exception monad for methods that mutate self.  Trusted reading of numpy. *)
From Coq Require Import Reals List Bool Arith ZArith Lra Lia.
From Verif Require Import PyFloat PyBase Arr.
Import ListNotations.
Local Open Scope R_scope.

(** np.exp *)
Definition fexp (x : fl) : fl :=
  match x with Fin r => Fin (exp r) | PInf => PInf | NInf => Fin 0 | NaN => NaN end.
(** np.sin / np.cos: nan for non-finite input *)
Definition fsin (x : fl) : fl := match x with Fin r => Fin (sin r) | _ => NaN end.
(** np.cos: nan for non-finite input (e.g. misfit/general/general_utils.py:148-152). *)
Definition fcos (x : fl) : fl := match x with Fin r => Fin (cos r) | _ => NaN end.
(** np.arcsin: nan outside [-1,1] *)
Definition fasin (x : fl) : fl :=
  match x with Fin r => if Rleb (-1) r && Rleb r 1 then Fin (asin r) else NaN | _ => NaN end.
(** np.arctan *)
Definition fatan (x : fl) : fl :=
  match x with Fin r => Fin (atan r) | PInf => Fin (PI / 2) | NInf => Fin (- (PI / 2)) | NaN => NaN end.

(** np.argmin of f 0 .. f n for n+1 samples: first nan if any, else first smallest. *)
Fixpoint argmin_ (n : nat) (f : nat -> fl) : nat :=
  match n with
  | O => O
  | S k => let m := argmin_ k f in
           if isnan (f m) then m
           else if isnan (f (S k)) then S k
           else if fltb (f (S k)) (f m) then S k else m
  end.

(** ndarray.max / .min over a list: nan if any entry is nan; ValueError on empty input. Helper of np_max. *)
Fixpoint fmax1 (a : fl) (l : list fl) : fl :=
  match l with
  | [] => a
  | b :: l => fmax1 (if isnan a then a else if isnan b then b else if fltb a b then b else a) l
  end.
(** Helper of np_min. *)
Fixpoint fmin1 (a : fl) (l : list fl) : fl :=
  match l with
  | [] => a
  | b :: l => fmin1 (if isnan a then a else if isnan b then b else if fltb b a then b else a) l
  end.
(** ndarray.max(), e.g. misfit/model/aper_model.py:755-756. *)
Definition np_max (l : list fl) : res fl :=
  match l with [] => Err ValueError | a :: l => Ok (fmax1 a l) end.
(** ndarray.min(), e.g. misfit/model/aper_model.py:755-756. *)
Definition np_min (l : list fl) : res fl :=
  match l with [] => Err ValueError | a :: l => Ok (fmin1 a l) end.

(** np.average of a 1-D array (nan for the empty array, 0/0) *)
Definition average (l : list fl) : fl := fdiv (fsum l) (Fin (INR (length l))).

(** successive differences a[1:]-a[:-1]. E.g. misfit/model/aper_model.py:741. *)
Fixpoint diffs (l : list fl) : list fl :=
  match l with
  | a :: ((b :: _) as t) => fsub b a :: diffs t
  | _ => []
  end.

(** np.linspace(a, b, num): num samples, both ends included; one sample is the start. *)
Definition linspace_at (a b : fl) (num i : nat) : fl :=
  if Nat.leb num 1 then a
  else fadd a (fmul (Fin (INR i)) (fdiv (fsub b a) (Fin (INR (num - 1))))).
(** The whole array, e.g. misfit/model/aper_model.py:757. *)
Definition linspace (a b : fl) (num : nat) : list fl := map (linspace_at a b num) (seq 0 num).

(** np.ceil and np.round (half to even) of a finite value as an integer. *)
Definition Rceil (x : R) : Z := (- Int_part (- x))%Z.
(** np.round, e.g. misfit/model/aper_model.py:690-691. *)
Definition Rround (x : R) : Z :=
  let k := Int_part x in
  if Rltb (frac_part x) (1/2) then k
  else if Rltb (1/2) (frac_part x) then (k + 1)%Z
  else if Z.even k then k else (k + 1)%Z.

(** int(np.round(x)) / int(np.ceil(x)) *)
Definition int_round (x : fl) : res Z :=
  match x with Fin r => Ok (Rround r) | NaN => Err ValueError | _ => Err OverflowError end.
(** int(np.ceil(x)), e.g. misfit/model/aper_model.py:357. *)
Definition int_ceil (x : fl) : res Z :=
  match x with Fin r => Ok (Rceil r) | NaN => Err ValueError | _ => Err OverflowError end.

(** l[i] on a list that is known to be long enough (nan is never reached in bounds).
    Helper of the array models. *)
Definition lnth (l : list fl) (i : nat) : fl := nth i l NaN.

(** State and exceptions: an exception keeps the state reached so far.
    (Methods of misfit/*.py that assign to attributes of self.) *)
Definition ST (S A : Type) : Type := S -> S * res A.
(** Return without changing the state. *)
Definition ret {S A} (a : A) : ST S A := fun s => (s, Ok a).
(** raise, with the state reached so far. *)
Definition raise {S A} (e : exn) : ST S A := fun s => (s, Err e).
(** Sequencing of statements. *)
Definition bindS {S A B} (m : ST S A) (f : A -> ST S B) : ST S B :=
  fun s => match m s with (s', Ok a) => f a s' | (s', Err e) => (s', Err e) end.
(** Reading the state. *)
Definition getS {S} : ST S S := fun s => (s, Ok s).
(** Replacing the state. *)
Definition putS {S} (s' : S) : ST S unit := fun _ => (s', Ok tt).
(** Assigning attributes. *)
Definition modS {S} (f : S -> S) : ST S unit := fun s => (f s, Ok tt).
(** A call that does not change the state. *)
Definition liftR {S A} (r : res A) : ST S A := fun s => (s, r).

Notation "'sdo' x <- a ; b" := (bindS a (fun x => b))
  (at level 200, x name, a at level 100, b at level 200).

(* ------------------------------------------------------------------ *)

Lemma Rceil_spec x : IZR (Rceil x) - 1 < x <= IZR (Rceil x).
Proof.
  unfold Rceil. rewrite opp_IZR. pose proof (base_Int_part (-x)) as [H1 H2]. lra.
Qed.

Lemma Rceil_unique x k : IZR k - 1 < x <= IZR k -> Rceil x = k.
Proof.
  intros [H1 H2]. pose proof (Rceil_spec x) as [H3 H4].
  assert (IZR (Rceil x) < IZR k + 1) by lra. assert (IZR k < IZR (Rceil x) + 1) by lra.
  rewrite <- plus_IZR in *. apply lt_IZR in H. apply lt_IZR in H0. lia.
Qed.

Lemma Rround_IZR k : Rround (IZR k) = k.
Proof.
  assert (E : Int_part (IZR k) = k).
  { apply eq_IZR. pose proof (base_Int_part (IZR k)) as [H1 H2].
    assert (IZR (Int_part (IZR k)) <= IZR k) by lra. apply le_IZR in H.
    assert (IZR k < IZR (Int_part (IZR k) + 1)) by (rewrite plus_IZR; lra). apply lt_IZR in H0.
    f_equal. lia. }
  unfold Rround, frac_part. rewrite E, Rminus_eq_0. rdec.
Qed.

Lemma Rround_near x : Rabs (x - IZR (Rround x)) <= 1/2.
Proof.
  unfold Rround. pose proof (base_fp x) as [H1 H2].
  assert (E : x = IZR (Int_part x) + frac_part x) by (unfold frac_part; lra).
  rcases; [|rcases]; [| |destruct (Z.even (Int_part x))];
    rewrite ?plus_IZR; apply Rabs_le; lra.
Qed.

Lemma argmin_le n f : (argmin_ n f <= n)%nat.
Proof.
  induction n as [|n IH]; simpl; auto.
  destruct (isnan (f (argmin_ n f))); [lia|]. destruct (isnan (f (S n))); [lia|].
  destruct (fltb (f (S n)) (f (argmin_ n f))); lia.
Qed.

(** On finite samples argmin is a position of a smallest value, and the first such. *)
Lemma argmin_spec n g f : (forall i, (i <= n)%nat -> f i = Fin (g i)) ->
  (forall i, (i <= n)%nat -> g (argmin_ n f) <= g i) /\
  (forall i, (i < argmin_ n f)%nat -> g (argmin_ n f) < g i).
Proof.
  induction n as [|n IH]; intros H; simpl.
  - split; intros i Hi; [|lia]. replace i with 0%nat by lia. lra.
  - destruct IH as [H1 H2]; [intros; apply H; lia|].
    pose proof (argmin_le n f) as Hm.
    rewrite (H (argmin_ n f)), (H (S n)) by lia. simpl. rcases.
    + split; intros i Hi.
      * destruct (Nat.eq_dec i (S n)) as [->|]; [lra|]. specialize (H1 i). assert (g (argmin_ n f) <= g i) by (apply H1; lia). lra.
      * assert (g (argmin_ n f) <= g i) by (apply H1; lia). lra.
    + split; intros i Hi; auto.
      destruct (Nat.eq_dec i (S n)) as [->|]; [lra|]. apply H1; lia.
Qed.

Lemma argmin_ext n f g : (forall i, (i <= n)%nat -> f i = g i) -> argmin_ n f = argmin_ n g.
Proof.
  induction n as [|n IH]; intros H; simpl; auto.
  rewrite <- IH by (intros; apply H; lia).
  rewrite !H by (pose proof (argmin_le n f); lia). reflexivity.
Qed.

Lemma linspace_length a b n : length (linspace a b n) = n.
Proof. unfold linspace. now rewrite map_length, seq_length. Qed.

Lemma linspace_nth a b n i : (i < n)%nat -> lnth (linspace a b n) i = linspace_at a b n i.
Proof.
  intros H. unfold lnth, linspace.
  rewrite nth_indep with (d' := linspace_at a b n 0) by (now rewrite map_length, seq_length).
  rewrite map_nth. now rewrite seq_nth by auto.
Qed.

Lemma linspace_at_Fin a b n i : (2 <= n)%nat ->
  linspace_at (Fin a) (Fin b) n i = Fin (a + INR i * ((b - a) / INR (n - 1))).
Proof.
  intros H. unfold linspace_at.
  destruct (Nat.leb_spec n 1); [lia|]. simpl.
  assert (INR (n - 1) <> 0) by (apply not_0_INR; lia).
  destruct (Reqb (INR (n - 1)) 0) eqn:E; [apply Reqb_true in E; contradiction|]. reflexivity.
Qed.
