(* Indexed finite sums and shaped arrays (index functions with explicit shapes). *)
From Coq Require Import Reals Lra List Bool Arith Lia.
From Verif Require Import PyFloat PyBase.
Import ListNotations.
Local Open Scope R_scope.

(** Sum of f 0 .. f (n-1). Specification helper, not code. *)
Fixpoint rsumn (n : nat) (f : nat -> R) : R :=
  match n with O => 0 | S k => rsumn k f + f k end.

(** np.sum over an index range, as in misfit/model/kin_functions.py:137-165 (running sums) and 409-416. *)
Definition fsumn (n : nat) (f : nat -> fl) : fl := fsum (map f (seq 0 n)).

Lemma fsumn_S n f : fsumn (S n) f = fadd (fsumn n f) (f n).
Proof.
  unfold fsumn. rewrite seq_S, map_app, fsum_app. simpl. f_equal.
  destruct (f n); simpl; auto. f_equal; ring.
Qed.

Lemma fsumn_Fin n f g : (forall i, (i < n)%nat -> f i = Fin (g i)) -> fsumn n f = Fin (rsumn n g).
Proof.
  induction n as [|n IH]; intros H; [reflexivity|].
  rewrite fsumn_S, IH by (intros; apply H; lia). rewrite H by lia. reflexivity.
Qed.

Lemma fsumn_ext n f g : (forall i, (i < n)%nat -> f i = g i) -> fsumn n f = fsumn n g.
Proof.
  intros H. unfold fsumn. f_equal. apply map_ext_in. intros i Hi. apply in_seq in Hi. apply H. lia.
Qed.

Lemma rsumn_ext n f g : (forall i, (i < n)%nat -> f i = g i) -> rsumn n f = rsumn n g.
Proof. induction n as [|n IH]; intros H; simpl; auto. rewrite IH, H; auto. Qed.

Lemma rsumn_plus n f g : rsumn n (fun i => f i + g i) = rsumn n f + rsumn n g.
Proof. induction n as [|n IH]; simpl; [ring|]. rewrite IH; ring. Qed.

Lemma rsumn_minus n f g : rsumn n (fun i => f i - g i) = rsumn n f - rsumn n g.
Proof. induction n as [|n IH]; simpl; [ring|]. rewrite IH; ring. Qed.

Lemma rsumn_scal n c f : rsumn n (fun i => c * f i) = c * rsumn n f.
Proof. induction n as [|n IH]; simpl; [ring|]. rewrite IH; ring. Qed.

Lemma rsumn_scal_r n c f : rsumn n (fun i => f i * c) = rsumn n f * c.
Proof. induction n as [|n IH]; simpl; [ring|]. rewrite IH; ring. Qed.

Lemma rsumn_0 n : rsumn n (fun _ => 0) = 0.
Proof. induction n as [|n IH]; simpl; [ring|]. rewrite IH; ring. Qed.

Lemma rsumn_zero n f : (forall i, (i < n)%nat -> f i = 0) -> rsumn n f = 0.
Proof. intros H. rewrite (rsumn_ext n f (fun _ => 0)); auto. apply rsumn_0. Qed.

Lemma rsumn_const n c : rsumn n (fun _ => c) = INR n * c.
Proof. induction n as [|n IH]; [simpl; ring|]. rewrite S_INR. simpl. rewrite IH; ring. Qed.

Lemma rsumn_nonneg n f : (forall i, (i < n)%nat -> 0 <= f i) -> 0 <= rsumn n f.
Proof.
  induction n as [|n IH]; intros H; simpl; [lra|].
  assert (0 <= rsumn n f) by (apply IH; intros; apply H; lia).
  assert (0 <= f n) by (apply H; lia). lra.
Qed.

Lemma rsumn_le n f g : (forall i, (i < n)%nat -> f i <= g i) -> rsumn n f <= rsumn n g.
Proof.
  induction n as [|n IH]; intros H; simpl; [lra|].
  assert (rsumn n f <= rsumn n g) by (apply IH; intros; apply H; lia).
  assert (f n <= g n) by (apply H; lia). lra.
Qed.

Lemma rsumn_nonneg_zero n f : (forall i, (i < n)%nat -> 0 <= f i) -> rsumn n f = 0 ->
  forall i, (i < n)%nat -> f i = 0.
Proof.
  induction n as [|n IH]; intros H Hs i Hi; [lia|]. simpl in Hs.
  assert (0 <= rsumn n f) by (apply rsumn_nonneg; intros; apply H; lia).
  assert (0 <= f n) by (apply H; lia).
  destruct (Nat.eq_dec i n) as [->|Hne]; [lra|].
  apply IH; [intros; apply H; lia|lra|lia].
Qed.

Lemma rsumn_pos n f : (forall i, (i < n)%nat -> 0 <= f i) ->
  (exists i, (i < n)%nat /\ 0 < f i) -> 0 < rsumn n f.
Proof.
  intros H (i & Hi & Hp). destruct (Req_dec (rsumn n f) 0) as [E|E].
  - pose proof (rsumn_nonneg_zero n f H E i Hi). lra.
  - pose proof (rsumn_nonneg n f H). lra.
Qed.

Lemma rsumn_add n m f : rsumn (n + m) f = rsumn n f + rsumn m (fun i => f (n + i)%nat).
Proof.
  induction m as [|m IH]; simpl.
  - rewrite Nat.add_0_r. ring.
  - rewrite Nat.add_succ_r. simpl. rewrite IH. ring.
Qed.

Lemma rsumn_swap n m f : rsumn n (fun i => rsumn m (fun j => f i j)) =
                         rsumn m (fun j => rsumn n (fun i => f i j)).
Proof.
  induction n as [|n IH]; simpl.
  - now rewrite rsumn_0.
  - rewrite IH, <- rsumn_plus. reflexivity.
Qed.

Lemma rsumn_block a b f : rsumn (a * b) f = rsumn a (fun i => rsumn b (fun j => f (i * b + j)%nat)).
Proof.
  induction a as [|a IH]; simpl; auto.
  rewrite Nat.add_comm, rsumn_add, IH. reflexivity.
Qed.

Lemma rsumn_single n k v : (k < n)%nat ->
  rsumn n (fun i => if Nat.eqb i k then v else 0) = v.
Proof.
  intros H. induction n as [|n IH]; [lia|]. simpl.
  destruct (Nat.eq_dec n k) as [->|Hne].
  - rewrite Nat.eqb_refl. rewrite rsumn_zero; [ring|].
    intros i Hi. destruct (Nat.eqb i k) eqn:E; auto. apply Nat.eqb_eq in E. lia.
  - rewrite IH by lia. apply Nat.eqb_neq in Hne. rewrite Hne. ring.
Qed.

Lemma rsumn_S_l n f : rsumn (S n) f = f 0%nat + rsumn n (fun i => f (S i)).
Proof. change (S n) with (1 + n)%nat. rewrite rsumn_add. simpl. ring. Qed.

Lemma rsumn_rev n f : rsumn n f = rsumn n (fun i => f (n - 1 - i)%nat).
Proof.
  induction n as [|n IH]; auto.
  rewrite (rsumn_S_l n (fun i => f (S n - 1 - i)%nat)).
  change (rsumn (S n) f) with (rsumn n f + f n). rewrite IH.
  replace (S n - 1 - 0)%nat with n by lia.
  rewrite (rsumn_ext n (fun i => f (S n - 1 - S i)%nat) (fun i => f (n - 1 - i)%nat)).
  - ring.
  - intros i Hi. f_equal. lia.
Qed.

(** 2-D and 3-D arrays.
    numpy arrays, e.g. the flux image (misfit/galaxy.py:279-289); an index outside the shape is never read by the models. *)
Record arr2 (A : Type) : Type := mk2 { rows : nat; cols : nat; at2 : nat -> nat -> A }.
Arguments mk2 {A}. Arguments rows {A}. Arguments cols {A}. Arguments at2 {A}.

(** 3-D numpy arrays, e.g. the cubes of misfit/model/aper_model.py:746-829. *)
Record arr3 (A : Type) : Type :=
  mk3 { dim0 : nat; dim1 : nat; dim2 : nat; at3 : nat -> nat -> nat -> A }.
Arguments mk3 {A}. Arguments dim0 {A}. Arguments dim1 {A}. Arguments dim2 {A}. Arguments at3 {A}.

(** Equal shapes and equal entries. Specification helper, not code. *)
Definition eq2 {A} (a b : arr2 A) : Prop :=
  rows a = rows b /\ cols a = cols b /\
  forall i j, (i < rows a)%nat -> (j < cols a)%nat -> at2 a i j = at2 b i j.
(** Specification helper, not code. *)
Definition eq3 {A} (a b : arr3 A) : Prop :=
  dim0 a = dim0 b /\ dim1 a = dim1 b /\ dim2 a = dim2 b /\
  forall i j k, (i < dim0 a)%nat -> (j < dim1 a)%nat -> (k < dim2 a)%nat ->
    at3 a i j k = at3 b i j k.

(** ndarray.sum() of a 2-D array, e.g. misfit/model/kin_functions.py:459-462 and 663-664. *)
Definition sum2 (a : arr2 fl) : fl :=
  fsumn (rows a) (fun i => fsumn (cols a) (fun j => at2 a i j)).
(** ndarray.sum() of a 3-D array, misfit/model/kin_functions.py:371. *)
Definition sum3 (a : arr3 fl) : fl :=
  fsumn (dim0 a) (fun i => fsumn (dim1 a) (fun j => fsumn (dim2 a) (fun k => at3 a i j k))).

(** Specification helper, not code. *)
Definition rsum2 (n m : nat) (f : nat -> nat -> R) : R :=
  rsumn n (fun i => rsumn m (fun j => f i j)).
(** Specification helper, not code. *)
Definition rsum3 (n m p : nat) (f : nat -> nat -> nat -> R) : R :=
  rsumn n (fun i => rsumn m (fun j => rsumn p (fun k => f i j k))).

(** The real-valued image/cube inside an array of finite values. Specification helper, not code. *)
Definition fin2 (n m : nat) (f : nat -> nat -> R) : arr2 fl := mk2 n m (fun i j => Fin (f i j)).
(** Specification helper, not code. *)
Definition fin3 (n m p : nat) (f : nat -> nat -> nat -> R) : arr3 fl :=
  mk3 n m p (fun i j k => Fin (f i j k)).

(** Specification helper, not code. *)
Definition finite2 (a : arr2 fl) : Prop :=
  forall i j, (i < rows a)%nat -> (j < cols a)%nat -> isfinite (at2 a i j) = true.
(** Specification helper, not code. *)
Definition finite3 (a : arr3 fl) : Prop :=
  forall i j k, (i < dim0 a)%nat -> (j < dim1 a)%nat -> (k < dim2 a)%nat ->
    isfinite (at3 a i j k) = true.

(** Specification helper, not code: the real number inside a finite value. *)
Definition val (x : fl) : R := match x with Fin r => r | _ => 0 end.
(** Specification helper, not code. *)
Definition val2 (a : arr2 fl) i j := val (at2 a i j).
(** Specification helper, not code. *)
Definition val3 (a : arr3 fl) i j k := val (at3 a i j k).

Lemma finite_val x : isfinite x = true -> x = Fin (val x).
Proof. destruct x; simpl; intros; try discriminate; auto. Qed.

Lemma sum2_Fin a f :
  (forall i j, (i < rows a)%nat -> (j < cols a)%nat -> at2 a i j = Fin (f i j)) ->
  sum2 a = Fin (rsum2 (rows a) (cols a) f).
Proof.
  intros H. unfold sum2, rsum2. apply fsumn_Fin. intros i Hi. apply fsumn_Fin. intros j Hj. auto.
Qed.
Lemma sum3_Fin a f :
  (forall i j k, (i < dim0 a)%nat -> (j < dim1 a)%nat -> (k < dim2 a)%nat -> at3 a i j k = Fin (f i j k)) ->
  sum3 a = Fin (rsum3 (dim0 a) (dim1 a) (dim2 a) f).
Proof.
  intros H. unfold sum3, rsum3. apply fsumn_Fin. intros i Hi. apply fsumn_Fin. intros j Hj.
  apply fsumn_Fin. intros k Hk. auto.
Qed.
Lemma sum3_val a : finite3 a -> sum3 a = Fin (rsum3 (dim0 a) (dim1 a) (dim2 a) (val3 a)).
Proof. intros H. apply sum3_Fin. intros. unfold val3. apply finite_val. apply H; auto. Qed.
Lemma sum2_val a : finite2 a -> sum2 a = Fin (rsum2 (rows a) (cols a) (val2 a)).
Proof. intros H. apply sum2_Fin. intros. unfold val2. apply finite_val. apply H; auto. Qed.

Lemma rsum3_scal n m p c f : rsum3 n m p (fun i j k => c * f i j k) = c * rsum3 n m p f.
Proof.
  unfold rsum3. rewrite <- rsumn_scal. apply rsumn_ext. intros i _.
  rewrite <- rsumn_scal. apply rsumn_ext. intros j _. apply rsumn_scal.
Qed.
Lemma rsum2_scal n m c f : rsum2 n m (fun i j => c * f i j) = c * rsum2 n m f.
Proof.
  unfold rsum2. rewrite <- rsumn_scal. apply rsumn_ext. intros i _. apply rsumn_scal.
Qed.
Lemma rsum3_ext n m p f g :
  (forall i j k, (i < n)%nat -> (j < m)%nat -> (k < p)%nat -> f i j k = g i j k) ->
  rsum3 n m p f = rsum3 n m p g.
Proof. intros H. apply rsumn_ext; intros i Hi. apply rsumn_ext; intros j Hj. apply rsumn_ext; intros k Hk. auto. Qed.
Lemma rsum2_ext n m f g :
  (forall i j, (i < n)%nat -> (j < m)%nat -> f i j = g i j) -> rsum2 n m f = rsum2 n m g.
Proof. intros H. apply rsumn_ext; intros i Hi. apply rsumn_ext; intros j Hj. auto. Qed.
