(* Proofs: the true parameters fit a noise-free observation best. *)
From Coq Require Import Reals Lra List Bool Arith ZArith Lia.
From Verif Require Import PyFloat PyBase Arr PyNum MParams MKernels MAper2D SParams SKernels SAper2D STruth PParams PKernels PData PAper2D PAper2DHist PAper2DTop PAper2DOk.
Import ListNotations.
Local Open Scope R_scope.

Lemma Nn_prop f m s cs A : (forall c, In c cs -> f c = A * m c) -> Nn f m s cs = A * Dd m s cs.
Proof.
  unfold Nn, Dd. induction cs as [|c cs IH]; intros H; [cbn; ring|]. cbn [map]. rewrite !rsum_cons, IH by (intros; apply H; now right).
  rewrite (H c) by now left. unfold Rdiv. ring.
Qed.
Lemma best_prop f m s cs A : (forall c, In c cs -> s c <> 0) -> (forall c, In c cs -> f c = A * m c) ->
  forall c, In c cs -> m c * best_ratio f m s cs = f c.
Proof.
  intros HS HF c Hc. unfold best_ratio. destruct (Reqb (Dd m s cs) 0) eqn:E.
  - apply Reqb_true in E. rewrite (HF c Hc), (Dd_zero m s cs HS E c Hc). ring.
  - apply Reqb_false in E. rewrite (Nn_prop f m s cs A HF), (HF c Hc). field. exact E.
Qed.

Lemma scale_truth n p F S W ok cs A m : usable n p S W ok cs -> noise_free n p F cs A m ->
  exists m2, scale_model (findata n p F S W ok cs) m = Ok m2 /\ rows m2 = n /\ cols m2 = p /\
    forall i j, (i < n)%nat -> (j < p)%nat -> exists y, at2 m2 i j = Fin y /\ (ok i j = true -> y = F i j).
Proof.
  intros (U1 & U2) (R1 & R2 & R3). unfold scale_model. cbn [wh_nosky findata flux ferr fin2 cols rows].
  rewrite R1, R2, (forallb_ltb p cs U1), !Nat.eqb_refl. cbn [negb andb]. eexists. split; [reflexivity|]. cbn [rows cols at2].
  split; [reflexivity|]. split; [reflexivity|]. intros i j Hi Hj.
  assert (HM : forall c, In c cs -> at2 m i c = Fin (match at2 m i c with Fin x => x | _ => 0 end) /\ F i c = A i * (match at2 m i c with Fin x => x | _ => 0 end)).
  { intros c Hc. destruct (R3 i c Hi (U1 c Hc)) as (x & E & G). rewrite E. split; [reflexivity|auto]. }
  change (mkdata (fin2 n p F) (fin2 n p S) (fin2 n p (fun i j => if ok i j then 1 else 0)) (fin2 n p W) cs) with (findata n p F S W ok cs).
  assert (HS : forall c, In c cs -> S i c <> 0) by (intros c Hc; apply U2; auto).
  rewrite (scale_ratio_val n p F S W ok cs m (fun c => match at2 m i c with Fin x => x | _ => 0 end) i HS (fun c Hc => proj1 (HM c Hc))).
  destruct (R3 i j Hi Hj) as (x & E & _). rewrite E. cbn [fmul]. eexists. split; [reflexivity|]. intros Ho.
  destruct (U2 i j Hi Hj) as (_ & Q). destruct (Q Ho) as (_ & Ij).
  pose proof (best_prop (F i) (fun c => match at2 m i c with Fin x => x | _ => 0 end) (S i) cs (A i) HS (fun c Hc => proj2 (HM c Hc)) j Ij) as B.
  cbv beta in B. rewrite E in B. exact B.
Qed.

(* upper bound of the likelihood *)
Definition geq (x : fl) (c : R) : Prop := x = NaN \/ x = PInf \/ exists r, x = Fin r /\ c <= r.
Lemma geq_add x y a b : geq x a -> geq y b -> geq (fadd x y) (a + b).
Proof.
  intros [->|[->|(r & -> & H)]] [->|[->|(s & -> & K)]]; cbn [fadd]; unfold geq; auto.
  right. right. eexists. split; [reflexivity|lra].
Qed.
Lemma geq_sumn n f g : (forall i, (i < n)%nat -> geq (f i) (g i)) -> geq (fsumn n f) (rsumn n g).
Proof.
  induction n; intros H; [right; right; exists 0; cbn; split; [reflexivity|lra]|]. rewrite fsumn_S. cbn [rsumn].
  apply geq_add; [apply IHn; intros; apply H; lia|apply H; lia].
Qed.
Lemma geq_sum2 a g : (forall i j, (i < rows a)%nat -> (j < cols a)%nat -> geq (at2 a i j) (g i j)) -> geq (sum2 a) (rsum2 (rows a) (cols a) g).
Proof. intros H. unfold sum2, rsum2. apply geq_sumn. intros i Hi. apply geq_sumn. intros j Hj. now apply H. Qed.

Lemma log_const s : s <> 0 -> flog10 (fmul (Fin (2 * PI)) (fsq (Fin s))) = Fin (ln (2 * PI * s ^ 2) / ln 10).
Proof.
  intros H. cbn [fsq fmul]. assert (P : 0 < 2 * PI * (s * s)) by (pose proof PI_RGT_0; apply Rmult_lt_0_compat; nra).
  unfold flog10. destruct (Rltb 0 (2 * PI * (s * s))) eqn:E; [|apply Rltb_false in E; lra]. do 4 f_equal. ring.
Qed.
Lemma term_geq (o : bool) w f s x : s <> 0 -> (o = true -> 0 <= w) ->
  geq (fmul (Fin (if o then 1 else 0)) (fadd (fmul (Fin w) (fsq (fdiv (fsub (Fin f) x) (Fin s)))) (flog10 (fmul (Fin (2 * PI)) (fsq (Fin s))))))
      (if o then ln (2 * PI * s ^ 2) / ln 10 else 0).
Proof.
  intros Hs Hw. rewrite log_const by exact Hs.
  assert (SQ : forall v, v = PInf \/ v = NInf -> fsq (fdiv v (Fin s)) = PInf).
  { intros v [->| ->]; cbn [fdiv]; destruct (Rltb s 0); reflexivity. }
  assert (I1 : forall v, v = PInf \/ v = NInf -> geq (fmul (Fin (if o then 1 else 0)) (fadd (fmul (Fin w) (fsq (fdiv v (Fin s)))) (Fin (ln (2 * PI * s ^ 2) / ln 10)))) (if o then ln (2 * PI * s ^ 2) / ln 10 else 0)).
  { intros v Hv. rewrite (SQ v Hv). cbn [fmul]. unfold inf_scale at 1. destruct (Reqb w 0) eqn:EW; [left; destruct o; reflexivity|]. destruct o.
    - specialize (Hw eq_refl). cbn [Bool.eqb]. destruct (Rltb 0 w) eqn:E; cbn [Bool.eqb fadd fmul]; [|exfalso; apply Reqb_false in EW; apply Rltb_false in E; lra].
      right. left. unfold inf_scale. repeat match goal with |- context [Reqb 1 0] => replace (Reqb 1 0) with false by (symmetry; apply Reqb_false; lra) | |- context [Rltb 0 1] => replace (Rltb 0 1) with true by (symmetry; apply Rltb_true; lra) end. reflexivity.
    - left. assert (Z : Reqb 0 0 = true) by now apply Reqb_true. destruct (Bool.eqb true (Rltb 0 w)); cbn [fadd fmul]; unfold inf_scale; now rewrite Z. }
  destruct x as [x| | |].
  - unfold fsub. cbn [fneg fadd]. rewrite fdiv_Fin by exact Hs. cbn [fsq fmul fadd]. right. right. eexists. split; [reflexivity|].
    destruct o; [|lra]. specialize (Hw eq_refl). assert (0 <= w * ((f + - x) / s * ((f + - x) / s))) by (apply Rmult_le_pos; [exact Hw|apply Rle_0_sqr]). lra.
  - apply I1. right. reflexivity.
  - apply I1. left. reflexivity.
  - left. unfold fsub. cbn. destruct o; reflexivity.
Qed.

Definition best_llike (n p : nat) (S : nat -> nat -> R) (ok : nat -> nat -> bool) : R := - ll_const n p S ok / 2.
Lemma llike_bound n p F S W ok cs m : usable n p S W ok cs -> rows m = n -> cols m = p ->
  at_most (model_llike (findata n p F S W ok cs) m) (best_llike n p S ok).
Proof.
  intros (U1 & U2) Rm Cm. unfold model_llike.
  match goal with |- at_most (fmul _ (sum2 ?a)) _ => assert (G : geq (sum2 a) (ll_const n p S ok)) end.
  { subst n p. unfold ll_const. apply (geq_sum2 (mk2 (rows m) (cols m) _)). cbn [rows cols at2 findata flux ferr smask fwt fin2]. intros i j Hi Hj. 
    destruct (U2 i j Hi Hj) as (A & B). apply term_geq; [exact A|apply B]. }
  unfold at_most, best_llike. destruct G as [->|[->|(r & -> & H)]]; cbn [fmul]; [now left| |].
  - right. left. unfold inf_scale. destruct (Reqb (-1/2) 0) eqn:E; [apply Reqb_true in E; lra|]. destruct (Rltb 0 (-1/2)) eqn:E2; [apply Rltb_true in E2; lra|]. reflexivity.
  - right. right. eexists. split; [reflexivity|lra].
Qed.

Lemma llike_ext d m m' : rows m = rows m' -> cols m = cols m' -> (forall i j, (i < rows m)%nat -> (j < cols m)%nat -> at2 m i j = at2 m' i j) ->
  model_llike d m = model_llike d m' /\ model_chisq d m = model_chisq d m'.
Proof.
  intros R C E. unfold model_llike, model_chisq, sum2. cbn [rows cols at2]. rewrite <- R, <- C. split; [f_equal|];
  (apply fsumn_ext; intros i Hi; apply fsumn_ext; intros j Hj; now rewrite E).
Qed.
Lemma llike_exact n p F S W ok cs m : usable n p S W ok cs -> rows m = n -> cols m = p ->
  (forall i j, (i < n)%nat -> (j < p)%nat -> exists y, at2 m i j = Fin y /\ (ok i j = true -> y = F i j)) ->
  model_llike (findata n p F S W ok cs) m = Fin (best_llike n p S ok) /\ model_chisq (findata n p F S W ok cs) m = Fin 0.
Proof.
  intros (U1 & U2) Rm Cm H. set (Y := fun i j => match at2 m i j with Fin y => y | _ => 0 end).
  assert (HS : forall i j, (i < n)%nat -> (j < p)%nat -> S i j <> 0) by (intros; now apply U2).
  assert (Z : chi2 n p F Y S W ok = 0).
  { apply chi2_zero; [exact HS|intros i j Hi Hj O; destruct (U2 i j Hi Hj) as (_ & B); now apply B|]. intros i j Hi Hj O _. unfold Y. destruct (H i j Hi Hj) as (y & -> & E). auto. }
  destruct (llike_ext (findata n p F S W ok cs) m (fin2 n p Y)) as (E1 & E2); [exact Rm|exact Cm| |].
  - intros i j Hi Hj. cbn [fin2 at2]. unfold Y. destruct (H i j) as (y & -> & _); [lia|lia|reflexivity].
  - rewrite E1, E2, llike_value, chisq_value, Z by exact HS. split; [|reflexivity]. unfold best_llike. do 2 f_equal. ring.
Qed.
(* a tie reproduces the data *)
Lemma term_fin (o : bool) w f s x L r : fmul (Fin (if o then 1 else 0)) (fadd (fmul (Fin w) (fsq (fdiv (fsub (Fin f) x) (Fin s)))) (Fin L)) = Fin r -> exists y, x = Fin y.
Proof.
  assert (SQ : forall v, v = PInf \/ v = NInf -> fsq (fdiv v (Fin s)) = PInf).
  { intros v [->| ->]; cbn [fdiv]; destruct (Rltb s 0); reflexivity. }
  assert (I1 : forall v, v = PInf \/ v = NInf -> fmul (Fin (if o then 1 else 0)) (fadd (fmul (Fin w) (fsq (fdiv v (Fin s)))) (Fin L)) <> Fin r).
  { intros v Hv. rewrite (SQ v Hv). cbn [fmul]. unfold inf_scale. destruct (Reqb w 0); [discriminate|]. destruct (Bool.eqb true (Rltb 0 w)); cbn [fadd fmul]; unfold inf_scale;
      (destruct (Reqb _ 0); [discriminate|]); destruct (Bool.eqb _ _); discriminate. }
  destruct x as [x| | |]; intros H; [eauto| | |].
  - exfalso. apply (I1 NInf); [now right|exact H].
  - exfalso. apply (I1 PInf); [now left|exact H].
  - discriminate H.
Qed.
Lemma fadd_fin x y r : fadd x y = Fin r -> (exists a, x = Fin a) /\ (exists b, y = Fin b).
Proof. destruct x, y; cbn; intros H; try discriminate; eauto. Qed.
Lemma sumn_fin n f r : fsumn n f = Fin r -> forall i, (i < n)%nat -> exists a, f i = Fin a.
Proof.
  revert r. induction n; intros r H i Hi; [lia|]. rewrite fsumn_S in H. apply fadd_fin in H as ((a & A) & B).
  destruct (Nat.eq_dec i n) as [->|N]; [exact B|apply (IHn a A); lia].
Qed.
Lemma llike_tie n p F S W ok cs m : usable n p S W ok cs -> rows m = n -> cols m = p ->
  model_llike (findata n p F S W ok cs) m = Fin (best_llike n p S ok) ->
  forall i j, (i < n)%nat -> (j < p)%nat -> ok i j = true -> W i j <> 0 -> at2 m i j = Fin (F i j).
Proof.
  intros (U1 & U2) Rm Cm H. set (Y := fun i j => match at2 m i j with Fin y => y | _ => 0 end).
  assert (HS : forall i j, (i < n)%nat -> (j < p)%nat -> S i j <> 0) by (intros; now apply U2).
  assert (HY : forall i j, (i < n)%nat -> (j < p)%nat -> at2 m i j = Fin (Y i j)).
  { intros i j Hi Hj. assert (H' := H). unfold model_llike in H'.
    match type of H' with fmul _ (sum2 ?a) = _ => assert (G : exists r, sum2 a = Fin r) end.
    { destruct (sum2 _) as [r| | |]; cbn [fmul] in H'; [eauto| | |discriminate]; unfold inf_scale in H'; destruct (Reqb _ 0) in H'; try discriminate; destruct (Bool.eqb _ _) in H'; discriminate. }
    destruct G as (r & G). unfold sum2 in G. cbn [rows cols at2] in G. rewrite Rm, Cm in G. destruct (sumn_fin _ _ _ G i Hi) as (b & G2).
    destruct (sumn_fin _ _ _ G2 j Hj) as (x & G3). cbn [findata flux ferr smask fwt fin2 at2] in G3. rewrite log_const in G3 by now apply HS.
    apply term_fin in G3 as (y & G3). unfold Y. now rewrite G3. }
  assert (Z : chi2 n p F Y S W ok = 0).
  { destruct (llike_ext (findata n p F S W ok cs) m (fin2 n p Y)) as (E1 & _); [exact Rm|exact Cm|intros i j Hi Hj; cbn [fin2 at2]; apply HY; lia|].
    rewrite E1, llike_value in H by exact HS. unfold best_llike in H. injection H as H. lra. }
  intros i j Hi Hj O Wn. rewrite (HY i j Hi Hj). f_equal. apply (proj1 (chi2_zero n p F Y S W ok HS (fun i j Hi Hj O => proj1 (proj2 (U2 i j Hi Hj) O))) Z i j Hi Hj O Wn).
Qed.
