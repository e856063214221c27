From Coq Require Import Reals Lra List Bool Arith ZArith Lia.
From Verif Require Import PyFloat PyBase Arr PyNum MParams MKernels MAper2D SKernels SLine PKernels PKernels2 PData PAper1D PAper2DGeo PLos PAper2DGrid PAper2DShape PAper2DOk PLine PFinite.
Import ListNotations.
Local Open Scope R_scope.

(* families indexed by the members of a sequence (Some n) and its limit (None) *)
Definition cv (f : option nat -> R) : Prop := Un_cv (fun n => f (Some n)) (f None).

Lemma cv_ext f g : (forall o, f o = g o) -> cv f -> cv g.
Proof. intros E H eps He. destruct (H eps He) as (N & HN). exists N. intros n Hn. rewrite <- !E. now apply HN. Qed.
Lemma cv_const x : cv (fun _ => x).
Proof. intros eps He. exists 0%nat. intros n _. unfold R_dist. rewrite Rminus_diag_eq by reflexivity. now rewrite Rabs_R0. Qed.
Lemma cv_plus f g : cv f -> cv g -> cv (fun o => f o + g o).
Proof. intros A B. exact (CV_plus _ _ _ _ A B). Qed.
Lemma cv_mult f g : cv f -> cv g -> cv (fun o => f o * g o).
Proof. intros A B. exact (CV_mult _ _ _ _ A B). Qed.
Lemma cv_opp f : cv f -> cv (fun o => - f o).
Proof. intros A. exact (CV_opp _ _ A). Qed.
Lemma cv_minus f g : cv f -> cv g -> cv (fun o => f o - g o).
Proof. intros A B. exact (CV_minus _ _ _ _ A B). Qed.
Lemma cv_cont F f : continuity_pt F (f None) -> cv f -> cv (fun o => F (f o)).
Proof. intros A B. exact (continuity_seq F _ _ A B). Qed.
Lemma cv_inv f : f None <> 0 -> cv f -> cv (fun o => / f o).
Proof.
  intros N H. apply (cv_cont Rinv f); [|exact H]. apply (continuity_pt_inv id (f None)); [|exact N]. apply derivable_continuous_pt, derivable_pt_id.
Qed.
Lemma cv_div f g : g None <> 0 -> cv f -> cv g -> cv (fun o => f o / g o).
Proof. intros N A B. apply cv_mult; [exact A|now apply cv_inv]. Qed.
Lemma cv_pow f n : cv f -> cv (fun o => f o ^ n).
Proof. intros H. induction n; cbn [pow]; [apply cv_const|now apply cv_mult]. Qed.
Lemma cv_exp f : cv f -> cv (fun o => exp (f o)).
Proof. intros H. apply (cv_cont exp f); [|exact H]. apply derivable_continuous_pt, derivable_pt_exp. Qed.
Lemma cv_rsumn n f : (forall i, (i < n)%nat -> cv (fun o => f o i)) -> cv (fun o => rsumn n (f o)).
Proof. induction n; cbn [rsumn]; intros H; [apply cv_const|]. apply cv_plus; [apply IHn; intros; apply H; lia|apply H; lia]. Qed.
Lemma cv_rsum2 n m f : (forall i j, (i < n)%nat -> (j < m)%nat -> cv (fun o => f o i j)) -> cv (fun o => rsum2 n m (f o)).
Proof. intros H. unfold rsum2. apply (cv_rsumn n (fun o i => rsumn m (fun j => f o i j))). intros i Hi. apply (cv_rsumn m (fun o j => f o i j)). intros j Hj. now apply H. Qed.
Lemma cv_rsum3 n m p f : (forall i j k, (i < n)%nat -> (j < m)%nat -> (k < p)%nat -> cv (fun o => f o i j k)) -> cv (fun o => rsum3 n m p (f o)).
Proof.
  intros H. unfold rsum3. apply (cv_rsumn n (fun o i => rsumn m (fun j => rsumn p (fun k => f o i j k)))). intros i Hi.
  apply (cv_rsumn m (fun o j => rsumn p (fun k => f o i j k))). intros j Hj. apply (cv_rsumn p (fun o k => f o i j k)). intros k Hk. now apply H.
Qed.
Lemma cv_rsum_map {A} (cs : list A) f : (forall a, In a cs -> cv (fun o => f o a)) -> cv (fun o => rsum (map (f o) cs)).
Proof. induction cs as [|a cs IH]; intros H; cbn [map rsum]; [apply cv_const|]. apply cv_plus; [apply H; now left|apply IH; intros; apply H; now right]. Qed.
Lemma cv_normal mu s x : 0 < s None -> cv mu -> cv s -> cv (fun o => normal (mu o) (s o) x).
Proof.
  intros P A B. unfold normal. assert (0 < sqrt (2 * PI)) by (apply sqrt_lt_R0; pose proof PI_RGT_0; lra).
  apply cv_div; [apply Rgt_not_eq, Rmult_lt_0_compat; assumption| |apply cv_mult; [exact B|apply cv_const]].
  apply cv_exp, cv_div; [apply Rgt_not_eq, Rmult_lt_0_compat; [lra|now apply pow_lt]| |].
  - apply cv_opp, cv_pow, cv_minus; [apply cv_const|exact A].
  - apply cv_mult; [apply cv_const|now apply cv_pow].
Qed.
Lemma cv_max f x : cv f -> cv (fun o => Rmax (f o) x).
Proof.
  intros H eps He. destruct (H eps He) as (N & HN). exists N. intros n Hn. specialize (HN n Hn). unfold R_dist in *.
  unfold Rmax. destruct (Rle_dec (f (Some n)) x), (Rle_dec (f None) x); split_Rabs; lra.
Qed.
Lemma cv_abs f : cv f -> cv (fun o => Rabs (f o)).
Proof. intros H. apply (cv_cont Rabs f); [apply Rcontinuity_abs|exact H]. Qed.
Lemma cv_eventually f (P : R -> Prop) : cv f -> (exists d, 0 < d /\ forall x, Rabs (x - f None) < d -> P x) -> exists N, forall n, (N <= n)%nat -> P (f (Some n)).
Proof. intros H (d & Hd & HP). destruct (H d Hd) as (N & HN). exists N. intros n Hn. apply HP, HN. exact Hn. Qed.
Lemma Un_cv_tail N g y : Un_cv (fun n => g (N + n)%nat) y -> Un_cv g y.
Proof.
  intros H eps He. destruct (H eps He) as (M & HM). exists (N + M)%nat. intros n Hn. replace n with (N + (n - N))%nat by lia. apply HM. lia.
Qed.
Lemma Un_cv_drop N g y : Un_cv g y -> Un_cv (fun n => g (N + n)%nat) y.
Proof. intros H eps He. destruct (H eps He) as (M & HM). exists M. intros n Hn. apply HM. lia. Qed.
