(* Python/numpy control and indexing fragment used by the models of /repo/misfit:
   exceptions as values, sequences with negative indices and slices, np.where,
   boolean masks.  Trusted reading of Python/numpy, see DESIGN.md. *)
From Coq Require Import List ZArith Lia Bool Arith.
Import ListNotations.

(** Python exceptions that the modelled code can raise.
    (Those raised by, or by the libraries under, misfit/*.py.) *)
Inductive exn : Type :=
| ValueError
| TypeError
| AttributeError
| IndexError
| KeyError
| UnboundLocalError
| NameError
| ZeroDivisionError
| OverflowError
| OSError
| RuntimeError.

(** The outcome of a call: a value, or the exception raised (every function of misfit/*.py). *)
Inductive res (A : Type) : Type :=
| Ok (a : A)
| Err (e : exn).
Arguments Ok {A} a.
Arguments Err {A} e.

(** Sequencing: an exception ends the function (every function of misfit/*.py; the few try blocks are modelled where they occur). *)
Definition bind {A B} (x : res A) (f : A -> res B) : res B :=
  match x with Ok a => f a | Err e => Err e end.

Notation "'do' x <- a ; b" := (bind a (fun x => b))
  (at level 200, x name, a at level 100, b at level 200).

(** Specification helper, not code. *)
Definition is_ok {A} (x : res A) : bool := match x with Ok _ => true | Err _ => false end.

(** l[i] for 0 <= i (IndexError past the end). E.g. misfit/fit/fit_core.py:138-147. *)
Definition getn {A} (l : list A) (i : nat) : res A :=
  match nth_error l i with Some a => Ok a | None => Err IndexError end.

(** l[i] for an arbitrary Python integer index. E.g. misfit/general/galaxy_utils.py:143-171. *)
Definition getz {A} (l : list A) (i : Z) : res A :=
  let n := Z.of_nat (length l) in
  let j := (if i <? 0 then i + n else i)%Z in
  if (0 <=? j)%Z then getn l (Z.to_nat j) else Err IndexError.

(** Python's clamping of a slice bound for a sequence of length n (step 1).
    Used by the slices of misfit/general/galaxy_utils.py:143-171. *)
Definition slice_bound (n : nat) (i : Z) : nat :=
  Z.to_nat (if i <? 0 then Z.max 0 (i + Z.of_nat n) else Z.min i (Z.of_nat n))%Z.

(** l[a:b]. E.g. misfit/general/galaxy_utils.py:143-171. *)
Definition slice {A} (l : list A) (a b : Z) : list A :=
  let lo := slice_bound (length l) a in
  let hi := slice_bound (length l) b in
  firstn (hi - lo) (skipn lo l).

(** map with index. Helper: a loop over positions. *)
Fixpoint mapi_from {A B} (k : nat) (f : nat -> A -> B) (l : list A) : list B :=
  match l with
  | [] => []
  | a :: l => f k a :: mapi_from (S k) f l
  end.
(** Helper: a loop over positions, from 0. *)
Definition mapi {A B} (f : nat -> A -> B) (l : list A) : list B := mapi_from 0 f l.

(** l[a:b] = v (scalar assignment) E.g. misfit/general/galaxy_utils.py:594-641. *)
Definition set_slice {A} (l : list A) (a b : Z) (v : A) : list A :=
  let lo := slice_bound (length l) a in
  let hi := slice_bound (length l) b in
  mapi (fun i x => if (lo <=? i) && (i <? hi) then v else x) l.

(** indices satisfying a predicate, ascending: np.where(...)[0] *)
Fixpoint where_from {A} (k : nat) (p : A -> bool) (l : list A) : list nat :=
  match l with
  | [] => []
  | a :: l => (if p a then [k] else []) ++ where_from (S k) p l
  end.
(** np.where(...)[0], e.g. misfit/general/galaxy_utils.py:594. *)
Definition where_ {A} (p : A -> bool) (l : list A) : list nat := where_from 0 p l.

(** The test [i in l], used by set_inds and setdiff_range below. *)
Definition memb (i : nat) (l : list nat) : bool := existsb (Nat.eqb i) l.

(** l[inds] = v for an integer index array. E.g. misfit/general/galaxy_utils.py:594-641. *)
Definition set_inds {A} (l : list A) (inds : list nat) (v : A) : list A :=
  mapi (fun i x => if memb i inds then v else x) l.

(** np.setdiff1d(range(n), inds): sorted, without duplicates *)
Definition setdiff_range (n : nat) (inds : list nat) : list nat :=
  filter (fun i => negb (memb i inds)) (seq 0 n).

(** l[inds] (fancy indexing); IndexError if out of range. E.g. misfit/model/kin_model.py:141-157. *)
Fixpoint take {A} (l : list A) (inds : list nat) : res (list A) :=
  match inds with
  | [] => Ok []
  | i :: inds => do a <- getn l i; do r <- take l inds; Ok (a :: r)
  end.

(* ------------------------------------------------------------------ *)

Lemma mapi_from_length {A B} (f : nat -> A -> B) l k : length (mapi_from k f l) = length l.
Proof. revert k; induction l; simpl; auto. Qed.
Lemma mapi_length {A B} (f : nat -> A -> B) l : length (mapi f l) = length l.
Proof. apply mapi_from_length. Qed.

Lemma mapi_from_nth {A B} (f : nat -> A -> B) l k i :
  nth_error (mapi_from k f l) i = option_map (f (k + i)) (nth_error l i).
Proof.
  revert k i; induction l as [|a l IH]; intros k [|i]; simpl; auto.
  - now rewrite Nat.add_0_r.
  - rewrite IH. now rewrite Nat.add_succ_comm.
Qed.
Lemma mapi_nth {A B} (f : nat -> A -> B) l i :
  nth_error (mapi f l) i = option_map (f i) (nth_error l i).
Proof. apply mapi_from_nth. Qed.

Lemma memb_In i l : memb i l = true <-> In i l.
Proof.
  unfold memb. rewrite existsb_exists. split.
  - intros (x & Hx & E). apply Nat.eqb_eq in E. now subst.
  - intros H. exists i. split; auto. apply Nat.eqb_refl.
Qed.
Lemma memb_false i l : memb i l = false <-> ~ In i l.
Proof. rewrite <- memb_In. destruct (memb i l); split; intros; auto; try discriminate. now elim H. Qed.

Lemma where_from_In {A} (p : A -> bool) l k i :
  In i (where_from k p l) <-> exists a, k <= i /\ nth_error l (i - k) = Some a /\ p a = true.
Proof.
  revert k; induction l as [|a l IH]; intros k; simpl.
  - split; [tauto|]. intros (a & _ & H & _). destruct (i - k); discriminate.
  - rewrite in_app_iff, IH. split.
    + intros [H|(b & Hk & Hn & Hp)].
      * destruct (p a) eqn:E; simpl in H; [|tauto]. destruct H as [<-|[]].
        exists a. rewrite Nat.sub_diag. auto.
      * exists b. split; [lia|]. split; auto.
        replace (i - k) with (S (i - S k)) by lia. auto.
    + intros (b & Hk & Hn & Hp).
      destruct (Nat.eq_dec i k) as [->|Hne].
      * left. rewrite Nat.sub_diag in Hn. simpl in Hn. injection Hn as <-. rewrite Hp. now left.
      * right. exists b. split; [lia|]. split; auto.
        replace (i - k) with (S (i - S k)) in Hn by lia. auto.
Qed.

Lemma where_In {A} (p : A -> bool) l i :
  In i (where_ p l) <-> exists a, nth_error l i = Some a /\ p a = true.
Proof.
  unfold where_. rewrite where_from_In. rewrite Nat.sub_0_r.
  split; intros (a & H); exists a; intuition lia.
Qed.

Lemma set_inds_length {A} (l : list A) inds v : length (set_inds l inds v) = length l.
Proof. apply mapi_length. Qed.
Lemma set_inds_nth {A} (l : list A) inds v i :
  nth_error (set_inds l inds v) i =
  option_map (fun x => if memb i inds then v else x) (nth_error l i).
Proof. apply mapi_nth. Qed.

Lemma set_slice_length {A} (l : list A) a b v : length (set_slice l a b v) = length l.
Proof. apply mapi_length. Qed.

Lemma setdiff_range_In n inds i : In i (setdiff_range n inds) <-> i < n /\ ~ In i inds.
Proof.
  unfold setdiff_range. rewrite filter_In, in_seq, Bool.negb_true_iff, memb_false. intuition lia.
Qed.

Lemma getn_ok {A} (l : list A) i a : getn l i = Ok a <-> nth_error l i = Some a.
Proof. unfold getn. destruct (nth_error l i); split; intros H; inversion H; auto. Qed.
Lemma getn_err {A} (l : list A) i e : getn l i = Err e <-> e = IndexError /\ length l <= i.
Proof.
  unfold getn. destruct (nth_error l i) eqn:E; split; intros H.
  - discriminate.
  - destruct H as [_ H]. apply nth_error_None in H. congruence.
  - inversion H. split; auto. now apply nth_error_None.
  - destruct H as [-> _]. auto.
Qed.

Lemma nth_error_ext {A} (l1 l2 : list A) :
  (forall i, nth_error l1 i = nth_error l2 i) -> l1 = l2.
Proof.
  revert l2; induction l1 as [|a l1 IH]; intros [|b l2] H; auto.
  - specialize (H 0); discriminate.
  - specialize (H 0); discriminate.
  - pose proof (H 0) as H0. simpl in H0. injection H0 as ->. f_equal. apply IH.
    intros i. apply (H (S i)).
Qed.
