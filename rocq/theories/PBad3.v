(* Proofs: pixels with infinite errors in the reduced chi-squared. *)
From Coq Require Import Reals Lra Lia List Bool Arith.
From Verif Require Import PyFloat PyBase Arr PyNum MKernels SKernels SBad SBad3 PKernels PKernels2 PData PMirror PNoise PBad.
Import ListNotations.
Local Open Scope R_scope.

Lemma filter_split {A} (f g : A -> bool) l :
  length (filter f l) = (length (filter (fun x => f x && g x) l) + length (filter (fun x => f x && negb (g x)) l))%nat.
Proof. induction l as [|a l IH]; [reflexivity|]. cbn [filter]. destruct (f a), (g a); cbn [andb negb length]; lia. Qed.
Lemma filter_same {A} (f g : A -> bool) l : (forall x, f x = g x) -> filter f l = filter g l.
Proof. intros H. induction l as [|a l IH]; [reflexivity|]. cbn [filter]. now rewrite H, IH. Qed.
Lemma feqb01 : feqb (Fin 0) (Fin 1) = false.
Proof. cbn [feqb]. apply Reqb_false. lra. Qed.
Lemma feqb11 : feqb (Fin 1) (Fin 1) = true.
Proof. cbn [feqb]. now apply Reqb_true. Qed.

Lemma unmasked_split B d : n_unmasked (smask d) = (unmasked_in B d + n_unmasked (smask (masked_out B d)))%nat.
Proof.
  unfold n_unmasked, unmasked_in. cbn [masked_out smask rows cols at2].
  rewrite (filter_split _ (fun p => B (fst p) (snd p))). f_equal.
  - f_equal. apply filter_same. intros p. apply andb_comm.
  - f_equal. apply filter_same. intros p. destruct (B (fst p) (snd p)); cbn [negb]; [rewrite andb_false_r; symmetry; apply feqb01|apply andb_true_r].
Qed.

Lemma redchisq_counts B d m k r : infinite_errors B d m -> (k < n_unmasked (smask (masked_out B d)))%nat ->
  model_redchisq (masked_out B d) m k = Fin r ->
  let n := INR (n_unmasked (smask d)) in
  model_redchisq d m k = Fin (r * (n - INR (unmasked_in B d) - INR k) / (n - INR k)).
Proof.
  intros H Hk E. assert (U := unmasked_split B d). apply (f_equal INR) in U. rewrite plus_INR in U.
  assert (K := lt_INR _ _ Hk). assert (P := pos_INR (unmasked_in B d)). cbn zeta.
  unfold model_redchisq in *. rewrite <- (chisq_drops B d m H) in E. set (b := INR (n_unmasked (smask (masked_out B d)))) in *.
  destruct (model_chisq d m) as [c| | |]; cbn [fdiv] in E.
  2,3: destruct (Rltb _ _); discriminate E. 2: discriminate E.
  rewrite (fdiv_Fin c) by lra. change (fdiv (Fin c) (Fin (b - INR k)) = Fin r) in E.
  rewrite fdiv_Fin in E by lra. injection E as <-. rewrite U.
  set (a := INR (unmasked_in B d)) in *. set (q := INR k) in *. f_equal. field. split; lra.
Qed.

Lemma redchisq_lower B d m k r : infinite_errors B d m -> (k < n_unmasked (smask (masked_out B d)))%nat -> (0 < unmasked_in B d)%nat ->
  model_redchisq (masked_out B d) m k = Fin r -> 0 < r -> fltb (model_redchisq d m k) (model_redchisq (masked_out B d) m k) = true.
Proof.
  intros H Hk Hn E Hr. rewrite (redchisq_counts B d m k r H Hk E), E. cbn [fltb]. apply Rltb_true.
  assert (U := unmasked_split B d). apply (f_equal INR) in U. rewrite plus_INR in U.
  assert (K := lt_INR _ _ Hk). assert (P := lt_0_INR _ Hn). rewrite U.
  set (a := INR (unmasked_in B d)) in *. set (b := INR (n_unmasked (smask (masked_out B d)))) in *. set (q := INR k) in *.
  apply (Rmult_lt_reg_r (a + b - q)); [lra|]. unfold Rdiv. rewrite Rmult_assoc, Rinv_l by lra. nra.
Qed.

Lemma redchisq_bad_example : let B := fun i j => Nat.eqb i 0 && Nat.eqb j 0 in
  infinite_errors B (y_bad false) (fin2 3 4 (fun _ _ => 0)) /\ unmasked_in B (y_bad false) = 1%nat /\
  model_redchisq (masked_out B (y_bad false)) (fin2 3 4 (fun _ _ => 0)) 1 = Fin (11 / 10) /\
  model_redchisq (y_bad false) (fin2 3 4 (fun _ _ => 0)) 1 = Fin 1.
Proof.
  intros B. destruct drops_example as (H & Q & _). fold B in H.
  assert (U1 : unmasked_in B (y_bad false) = 1%nat).
  { unfold unmasked_in, B. cbn [y_bad smask rows cols at2 seq list_prod map app filter fst snd Nat.eqb andb]. rewrite feqb11. reflexivity. }
  assert (U2 : n_unmasked (smask (masked_out B (y_bad false))) = 11%nat).
  { unfold n_unmasked, B. cbn [masked_out y_bad smask rows cols at2 seq list_prod map app filter fst snd Nat.eqb andb]. rewrite feqb11, feqb01. reflexivity. }
  assert (E : model_redchisq (masked_out B (y_bad false)) (fin2 3 4 (fun _ _ => 0)) 1 = Fin (11 / 10)).
  { unfold model_redchisq. rewrite <- (chisq_drops _ _ _ H), Q, U2. cbn [INR]. rewrite fdiv_Fin by lra. f_equal. field. }
  split; [exact H|]. split; [exact U1|]. split; [exact E|].
  rewrite (redchisq_counts B _ _ 1 _ H ltac:(rewrite U2; lia) E). rewrite (unmasked_split B), U1, U2. f_equal. cbn [Nat.add INR]. field.
Qed.

Lemma infinite_factor B d m k r : let n := unmasked_in (fun _ _ => true) d in let u := unmasked_in B d in
  infinite_errors B d m -> (u + k < n)%nat -> model_redchisq (masked_out B d) m k = Fin r ->
  model_redchisq d m k = Fin (r * ((INR n - INR u - INR k) / (INR n - INR k))).
Proof.
  intros n u H Hk E. assert (U := unmasked_split B d). change (n_unmasked (smask d)) with n in U. fold u in U.
  rewrite (redchisq_counts B d m k r H ltac:(lia) E). change (n_unmasked (smask d)) with n. fold u. f_equal. unfold Rdiv. ring.
Qed.
Lemma infinite_lower B d m k r : infinite_errors B d m -> (unmasked_in B d + k < unmasked_in (fun _ _ => true) d)%nat -> (0 < unmasked_in B d)%nat ->
  model_redchisq (masked_out B d) m k = Fin r -> 0 < r -> fltb (model_redchisq d m k) (model_redchisq (masked_out B d) m k) = true.
Proof.
  intros H Hk. apply redchisq_lower; [exact H|]. assert (U := unmasked_split B d). change (n_unmasked (smask d)) with (unmasked_in (fun _ _ => true) d) in U. lia.
Qed.
