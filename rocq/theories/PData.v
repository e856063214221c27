(* Proofs about row scaling, chi-squared and log-likelihood. *)
From Coq Require Import Reals List Bool Arith Lia Lra Psatz.
From Verif Require Import PyFloat PyBase Arr PyNum MKernels SKernels PKernels PKernels2.
Import ListNotations.
Local Open Scope R_scope.


Lemma rsum_cons a l : rsum (a :: l) = a + rsum l.
Proof. reflexivity. Qed.

Definition Nn (f m s : nat -> R) cs := rsum (map (fun c => f c * m c / (s c * s c)) cs).
Definition Dd (m s : nat -> R) cs := rsum (map (fun c => m c * m c / (s c * s c)) cs).

Lemma rsum_map_ext {A} (f g : A -> R) l : (forall a, In a l -> f a = g a) -> rsum (map f l) = rsum (map g l).
Proof. intros H. induction l as [|a l IH]; simpl; auto. rewrite H, IH; simpl; auto. intros; apply H; now right. Qed.

Lemma fsum_map_Fin {A} (f : A -> fl) (g : A -> R) l : (forall a, In a l -> f a = Fin (g a)) ->
  fsum (map f l) = Fin (rsum (map g l)).
Proof.
  intros H. induction l as [|a l IH]; [reflexivity|].
  change (fadd (f a) (fsum (map f l)) = Fin (g a + rsum (map g l))).
  rewrite H by now left. rewrite IH by (intros; apply H; now right). reflexivity.
Qed.

Lemma Dd_nonneg m s cs : 0 <= Dd m s cs.
Proof.
  unfold Dd. induction cs as [|c cs IH]; simpl; [lra|].
  assert (0 <= m c * m c / (s c * s c)).
  { destruct (Req_dec (s c * s c) 0) as [E|E].
    - rewrite E. unfold Rdiv. rewrite Rinv_0. lra.
    - apply Rmult_le_pos; [nra|]. left. apply Rinv_0_lt_compat. nra. }
  lra.
Qed.

Lemma Dd_zero m s cs : (forall c, In c cs -> s c <> 0) -> Dd m s cs = 0 -> forall c, In c cs -> m c = 0.
Proof.
  unfold Dd. induction cs as [|c cs IH]; simpl; intros Hs H x Hx; [tauto|].
  pose proof (Dd_nonneg m s cs) as Hn. unfold Dd in Hn.
  assert (s c <> 0) by (apply Hs; auto).
  assert (P : 0 < / (s c * s c)) by (apply Rinv_0_lt_compat; nra).
  assert (0 <= m c * m c / (s c * s c)) by (apply Rmult_le_pos; [nra|lra]).
  destruct Hx as [<-|Hx].
  - assert (E : m c * m c / (s c * s c) = 0) by lra. unfold Rdiv in E.
    apply Rmult_integral in E as [E|E]; [nra|lra].
  - apply IH; auto; lra.
Qed.

Lemma row_chi2_quad f m s cs r : (forall c, In c cs -> s c <> 0) ->
  row_chi2 f m s cs r = Dd f s cs - 2 * r * Nn f m s cs + r * r * Dd m s cs.
Proof.
  unfold row_chi2, Dd, Nn. induction cs as [|c cs IH]; intros H; [simpl; ring|].
  cbn [map]. rewrite !rsum_cons. rewrite IH by (intros; apply H; now right). field. apply H. now left.
Qed.

(** The factor scale_model uses, on finite data. *)
Definition best_ratio f m s cs : R := if Reqb (Dd m s cs) 0 then 0 else Nn f m s cs / Dd m s cs.

Lemma scale_ratio_val n p F S W ok cs model m i :
  (forall c, In c cs -> S i c <> 0) -> (forall c, In c cs -> at2 model i c = Fin (m c)) ->
  scale_ratio (findata n p F S W ok cs) model i = Fin (best_ratio (F i) m (S i) cs).
Proof.
  intros HS HM. unfold scale_ratio. cbn [wh_nosky findata flux ferr fin2 at2].
  assert (SS : forall c, In c cs -> S i c * S i c <> 0) by (intros c Hc; specialize (HS c Hc); nra).
  rewrite (fsum_map_Fin (fun c => fdiv (fmul (Fin (F i c)) (at2 model i c)) (fsq (Fin (S i c)))) (fun c => F i c * m c / (S i c * S i c))).
  2:{ intros c Hc. rewrite HM by auto. cbn [fmul fsq]. rewrite fdiv_Fin by auto. reflexivity. }
  rewrite (fsum_map_Fin (fun c => fdiv (fsq (at2 model i c)) (fsq (Fin (S i c)))) (fun c => m c * m c / (S i c * S i c))).
  2:{ intros c Hc. rewrite HM by auto. cbn [fmul fsq]. rewrite fdiv_Fin by auto. reflexivity. }
  fold (Nn (F i) m (S i) cs). fold (Dd m (S i) cs).
  cbn [isfinite fabs feqb]. unfold best_ratio.
  destruct (Reqb (Dd m (S i) cs) 0) eqn:E.
  - apply Reqb_true in E. rewrite E, Rabs_R0, Reqb_refl. rewrite fdiv_Fin by lra. f_equal. lra.
  - apply Reqb_false in E. assert (Rabs (Dd m (S i) cs) <> 0) by now apply Rabs_no_R0.
    destruct (Reqb (Rabs (Dd m (S i) cs)) 0) eqn:E'; [apply Reqb_true in E'; contradiction|].
    now rewrite fdiv_Fin by auto.
Qed.

Lemma scale_ratio_Fin n p F S W ok cs M i :
  (forall c, In c cs -> S i c <> 0) ->
  scale_ratio (findata n p F S W ok cs) (fin2 n p M) i = Fin (best_ratio (F i) (M i) (S i) cs).
Proof. intros HS. apply scale_ratio_val; auto. Qed.


Lemma forallb_ltb p cs : cols_ok p cs -> forallb (fun c => Nat.ltb c p) cs = true.
Proof. intros H. apply forallb_forall. intros c Hc. apply Nat.ltb_lt. auto. Qed.

Lemma scale_model_ok n p F S W ok cs M : cols_ok p cs ->
  scale_model (findata n p F S W ok cs) (fin2 n p M) =
  Ok (mk2 n p (fun i j => fmul (Fin (M i j)) (scale_ratio (findata n p F S W ok cs) (fin2 n p M) i))).
Proof.
  intros H. unfold scale_model. cbn [wh_nosky findata flux ferr fin2 at2 cols rows].
  rewrite forallb_ltb by auto. rewrite !Nat.eqb_refl. reflexivity.
Qed.

Lemma best_ratio_optimal f m s cs : (forall c, In c cs -> s c <> 0) ->
  forall r, row_chi2 f m s cs (best_ratio f m s cs) <= row_chi2 f m s cs r.
Proof.
  intros Hs r. rewrite !row_chi2_quad by auto. unfold best_ratio.
  destruct (Reqb (Dd m s cs) 0) eqn:E.
  - apply Reqb_true in E.
    assert (EN : Nn f m s cs = 0).
    { pose proof (Dd_zero m s cs Hs E) as Hm. unfold Nn.
      rewrite (rsum_map_ext _ (fun _ => 0)).
      - clear. induction cs; simpl; [auto|]. rewrite IHcs. ring.
      - intros c Hc. rewrite Hm by auto. unfold Rdiv. ring. }
    rewrite E, EN. lra.
  - apply Reqb_false in E. pose proof (Dd_nonneg m s cs).
    set (D := Dd m s cs) in *. set (N := Nn f m s cs).
    assert (D > 0) by lra.
    assert (0 <= (r * D - N)^2 / D) by (apply Rmult_le_pos; [apply pow2_ge_0|left; now apply Rinv_0_lt_compat]).
    replace (Dd f s cs - 2 * r * N + r * r * D) with
      (Dd f s cs - 2 * (N / D) * N + N / D * (N / D) * D + (r * D - N)^2 / D) by (field; lra).
    lra.
Qed.

Lemma scale_model_optimal n p F S W ok cs M :
  cols_ok p cs -> (forall i c, (i < n)%nat -> In c cs -> S i c <> 0) ->
  exists out, scale_model (findata n p F S W ok cs) (fin2 n p M) = Ok out /\
    rows out = n /\ cols out = p /\
    forall i, (i < n)%nat -> exists r, (forall j, (j < p)%nat -> at2 out i j = Fin (r * M i j)) /\
      forall r', row_chi2 (F i) (M i) (S i) cs r <= row_chi2 (F i) (M i) (S i) cs r'.
Proof.
  intros Hc HS. rewrite scale_model_ok by auto. eexists. split; [reflexivity|]. simpl.
  repeat split; auto. intros i Hi. exists (best_ratio (F i) (M i) (S i) cs). split.
  - intros j Hj. rewrite scale_ratio_Fin by (intros; apply HS; auto). simpl. f_equal. ring.
  - apply best_ratio_optimal. auto.
Qed.

(** Rescaling each row beforehand makes no difference. *)
Lemma Dd_scale c m s cs : Dd (fun j => c * m j) s cs = c * c * Dd m s cs.
Proof. unfold Dd. induction cs as [|x cs IH]; simpl; [ring|]. rewrite IH. unfold Rdiv. ring. Qed.
Lemma Nn_scale c f m s cs : Nn f (fun j => c * m j) s cs = c * Nn f m s cs.
Proof. unfold Nn. induction cs as [|x cs IH]; simpl; [ring|]. rewrite IH. unfold Rdiv. ring. Qed.

Lemma best_ratio_scale c f m s cs : c <> 0 ->
  best_ratio f (fun j => c * m j) s cs * c = best_ratio f m s cs.
Proof.
  intros Hc. unfold best_ratio. rewrite Dd_scale, Nn_scale.
  destruct (Reqb (Dd m s cs) 0) eqn:E.
  - apply Reqb_true in E. rewrite E, Rmult_0_r, Reqb_refl. ring.
  - apply Reqb_false in E. destruct (Reqb (c * c * Dd m s cs) 0) eqn:E'.
    + apply Reqb_true in E'. apply Rmult_integral in E' as [E'|E']; [nra|contradiction].
    + field. auto.
Qed.

Lemma scale_model_rescale n p F S W ok cs M (k : nat -> R) out :
  cols_ok p cs -> (forall i c, (i < n)%nat -> In c cs -> S i c <> 0) ->
  (forall i, (i < n)%nat -> k i <> 0) ->
  scale_model (findata n p F S W ok cs) (fin2 n p M) = Ok out ->
  exists out', scale_model (findata n p F S W ok cs) (fin2 n p (fun i j => k i * M i j)) = Ok out' /\
    eq2 out' out.
Proof.
  intros Hc HS Hk Ho. rewrite scale_model_ok in Ho by auto. injection Ho as <-.
  rewrite scale_model_ok by auto. eexists. split; [reflexivity|]. unfold eq2. simpl.
  repeat split; auto. intros i j Hi Hj. rewrite !scale_ratio_Fin by (intros; apply HS; auto).
  simpl. f_equal. rewrite <- (best_ratio_scale (k i) (F i) (M i)) by auto. ring.
Qed.

Lemma best_ratio_twice f m s cs :
  (forall c, In c cs -> s c <> 0) ->
  best_ratio f (fun j => best_ratio f m s cs * m j) s cs * best_ratio f m s cs = best_ratio f m s cs.
Proof.
  intros Hs. destruct (Req_dec (best_ratio f m s cs) 0) as [E|E].
  - rewrite E. ring.
  - now apply best_ratio_scale.
Qed.

Lemma scale_model_idempotent n p F S W ok cs M out :
  cols_ok p cs -> (forall i c, (i < n)%nat -> In c cs -> S i c <> 0) ->
  scale_model (findata n p F S W ok cs) (fin2 n p M) = Ok out ->
  exists out', scale_model (findata n p F S W ok cs) out = Ok out' /\ eq2 out' out.
Proof.
  intros Hc HS Ho. rewrite scale_model_ok in Ho by auto. injection Ho as <-.
  unfold scale_model at 1. cbn [wh_nosky findata flux ferr fin2 at2 cols rows].
  rewrite forallb_ltb by auto. rewrite !Nat.eqb_refl. cbn [negb andb].
  eexists. split; [reflexivity|]. unfold eq2. simpl rows. simpl cols. repeat split; auto.
  intros i j Hi Hj. cbn [at2].
  rewrite (scale_ratio_val n p F S W ok cs (mk2 n p _) (fun j => best_ratio (F i) (M i) (S i) cs * M i j) i).
  - rewrite scale_ratio_Fin by (intros; apply HS; auto). simpl. f_equal.
    rewrite Rmult_assoc. f_equal. rewrite Rmult_comm. apply best_ratio_twice. auto.
  - auto.
  - intros c Hcc. cbn [at2]. rewrite scale_ratio_Fin by (intros; apply HS; auto). simpl. f_equal. ring.
Qed.

Lemma scale_model_dark_row n p F S W ok cs M i out :
  cols_ok p cs -> (i < n)%nat -> (forall c, In c cs -> S i c <> 0) ->
  (forall c, In c cs -> M i c = 0) ->
  scale_model (findata n p F S W ok cs) (fin2 n p M) = Ok out ->
  forall j, (j < p)%nat -> at2 out i j = Fin 0.
Proof.
  intros Hc Hi HS HM Ho j Hj. rewrite scale_model_ok in Ho by auto. injection Ho as <-. cbn [at2].
  rewrite scale_ratio_Fin by auto. unfold best_ratio.
  assert (E : Dd (M i) (S i) cs = 0).
  { unfold Dd. rewrite (rsum_map_ext _ (fun _ => 0)).
    - clear. induction cs; simpl; [auto|]. rewrite IHcs. ring.
    - intros c Hcc. rewrite HM by auto. unfold Rdiv. ring. }
  rewrite E, Reqb_refl. simpl. f_equal. ring.
Qed.

(** One nan (or infinite) flux in a non-sky column removes the whole row from the model. *)
Lemma fadd_nonfin_l x y : isfinite x = false -> isfinite (fadd x y) = false.
Proof. destruct x, y; simpl; auto. Qed.
Lemma fadd_nonfin_r x y : isfinite y = false -> isfinite (fadd x y) = false.
Proof. destruct x, y; simpl; auto. Qed.
Lemma fsum_nonfin l : (exists x, In x l /\ isfinite x = false) -> isfinite (fsum l) = false.
Proof.
  induction l as [|a l IH]; intros (x & Hx & Hf); [destruct Hx|].
  simpl. destruct Hx as [->|Hx]; [now apply fadd_nonfin_l|]. apply fadd_nonfin_r, IH. eauto.
Qed.

Lemma scale_model_bad_flux n p (Fl : arr2 fl) S W (ok : nat -> nat -> bool) cs M i c out :
  rows Fl = n -> cols Fl = p ->
  cols_ok p cs -> (i < n)%nat -> (forall c, In c cs -> S i c <> 0) -> In c cs ->
  at2 Fl i c = NaN ->
  scale_model (mkdata Fl (fin2 n p S) (fin2 n p (fun i j => if ok i j then 1 else 0)) (fin2 n p W) cs) (fin2 n p M) = Ok out ->
  forall j, (j < p)%nat -> at2 out i j = Fin 0.
Proof.
  intros Hr Hcl Hc Hi HS Hin HN Ho j Hj. unfold scale_model in Ho.
  cbn [wh_nosky flux ferr fin2 at2 cols rows] in Ho.
  rewrite Hr, Hcl, forallb_ltb, !Nat.eqb_refl in Ho by auto. cbn [negb andb] in Ho. injection Ho as <-.
  cbn [at2]. unfold scale_ratio. cbn [wh_nosky flux ferr fin2 at2].
  set (den := fsum (map (fun c => fdiv (fsq (Fin (M i c))) (fsq (Fin (S i c)))) cs)).
  set (num := fsum (map (fun c => fdiv (fmul (at2 Fl i c) (Fin (M i c))) (fsq (Fin (S i c)))) cs)).
  assert (Hnum : isfinite num = false).
  { apply fsum_nonfin. exists NaN. split; auto. apply in_map_iff. exists c. split; auto.
    rewrite HN. reflexivity. }
  assert (Hden : den = Fin (Dd (M i) (S i) cs)).
  { apply fsum_map_Fin. intros a Ha. cbn [fsq fmul]. rewrite fdiv_Fin; [reflexivity|]. specialize (HS a Ha). nra. }
  rewrite Hnum, Hden. cbn [fabs feqb].
  destruct (Reqb (Rabs (Dd (M i) (S i) cs)) 0) eqn:E.
  - rewrite fdiv_Fin by lra. simpl. f_equal. lra.
  - apply Reqb_false in E. rewrite fdiv_Fin.
    + simpl. f_equal. unfold Rdiv. ring.
    + intros E'. apply E. rewrite E'. apply Rabs_R0.
Qed.

(* ---------------- chi-squared ---------------- *)

Lemma chisq_value n p F S W ok cs M :
  (forall i j, (i < n)%nat -> (j < p)%nat -> S i j <> 0) ->
  model_chisq (findata n p F S W ok cs) (fin2 n p M) = Fin (chi2 n p F M S W ok).
Proof.
  intros HS. unfold model_chisq, chi2. erewrite sum2_Fin; [simpl; reflexivity|].
  simpl rows. simpl cols. intros i j Hi Hj. cbn [at2 findata flux ferr smask fwt fin2 fsub fneg fadd fmul].
  rewrite fdiv_Fin by auto. cbn [fsq fmul]. f_equal.
  destruct (ok i j); field; auto.
Qed.

Lemma chi2_nonneg n p F M S W ok :
  (forall i j, (i < n)%nat -> (j < p)%nat -> ok i j = true -> 0 <= W i j) -> 0 <= chi2 n p F M S W ok.
Proof.
  intros HW. apply rsum2_nonneg. intros i j Hi Hj. destruct (ok i j) eqn:E; [|lra].
  apply Rmult_le_pos; auto. apply pow2_ge_0.
Qed.

Lemma chi2_zero n p F M S W ok :
  (forall i j, (i < n)%nat -> (j < p)%nat -> S i j <> 0) ->
  (forall i j, (i < n)%nat -> (j < p)%nat -> ok i j = true -> 0 <= W i j) ->
  (chi2 n p F M S W ok = 0 <->
   forall i j, (i < n)%nat -> (j < p)%nat -> ok i j = true -> W i j <> 0 -> M i j = F i j).
Proof.
  intros HS HW.
  assert (NN : forall i j, (i < n)%nat -> (j < p)%nat ->
      0 <= (if ok i j then W i j * ((F i j - M i j) / S i j) ^ 2 else 0)).
  { intros i j Hi Hj. destruct (ok i j) eqn:E; [|lra]. apply Rmult_le_pos; auto. apply pow2_ge_0. }
  split.
  - intros H i j Hi Hj Ho Hw.
    assert (E : rsumn p (fun j => if ok i j then W i j * ((F i j - M i j) / S i j) ^ 2 else 0) = 0).
    { apply (rsumn_nonneg_zero n (fun i => rsumn p (fun j => if ok i j then W i j * ((F i j - M i j) / S i j) ^ 2 else 0)));
        auto. intros; apply rsumn_nonneg; auto. }
    assert (E' := rsumn_nonneg_zero p _ (fun j Hj => NN i j Hi Hj) E j Hj). cbv beta in E'. rewrite Ho in E'.
    apply Rmult_integral in E' as [E'|E']; [contradiction|].
    assert (E2 : (F i j - M i j) / S i j = 0) by nra. unfold Rdiv in E2.
    apply Rmult_integral in E2 as [E2|E2]; [lra|]. apply Rinv_neq_0_compat in E2; auto. contradiction.
  - intros H. unfold chi2, rsum2. apply rsumn_zero. intros i Hi. apply rsumn_zero. intros j Hj.
    destruct (ok i j) eqn:E; auto. destruct (Req_dec (W i j) 0) as [E'|E']; [rewrite E'; ring|].
    rewrite H by auto. unfold Rdiv. ring.
Qed.

(* ---------------- log-likelihood ---------------- *)


Lemma rsum2_plus n p f g : rsum2 n p (fun i j => f i j + g i j) = rsum2 n p f + rsum2 n p g.
Proof.
  unfold rsum2. rewrite <- rsumn_plus. apply rsumn_ext. intros. apply rsumn_plus.
Qed.

Lemma llike_value n p F S W ok cs M :
  (forall i j, (i < n)%nat -> (j < p)%nat -> S i j <> 0) ->
  model_llike (findata n p F S W ok cs) (fin2 n p M) =
  Fin (- (chi2 n p F M S W ok + ll_const n p S ok) / 2).
Proof.
  intros HS. unfold model_llike.
  erewrite (sum2_Fin _ (fun i j => (if ok i j then W i j * ((F i j - M i j) / S i j) ^ 2 else 0) +
      (if ok i j then ln (2 * PI * (S i j)^2) / ln 10 else 0))).
  - cbn [fmul rows cols fin2]. f_equal. unfold chi2, ll_const. rewrite rsum2_plus. field.
  - simpl rows. simpl cols. intros i j Hi Hj.
    cbn [at2 findata flux ferr smask fwt fin2 fsub fneg fadd fmul].
    rewrite fdiv_Fin by auto. cbn [fsq fmul].
    assert (P : 0 < 2 * PI * (S i j * S i j)).
    { assert (S i j <> 0) by auto. pose proof PI_RGT_0. apply Rmult_lt_0_compat; nra. }
    unfold flog10. destruct (Rltb 0 (2 * PI * (S i j * S i j))) eqn:E.
    + cbn [fadd fmul]. f_equal. destruct (ok i j); [|ring].
      replace (2 * PI * S i j ^ 2) with (2 * PI * (S i j * S i j)) by ring.
      rewrite Rmult_1_l. f_equal. field. auto.
    + apply Rltb_false in E. lra.
Qed.

Lemma llike_order n p F S W ok cs M M' :
  (forall i j, (i < n)%nat -> (j < p)%nat -> S i j <> 0) ->
  exists l l', model_llike (findata n p F S W ok cs) (fin2 n p M) = Fin l /\
    model_llike (findata n p F S W ok cs) (fin2 n p M') = Fin l' /\
    (l < l' <-> chi2 n p F M' S W ok < chi2 n p F M S W ok).
Proof.
  intros HS. rewrite !llike_value by auto. do 2 eexists. split; [reflexivity|]. split; [reflexivity|].
  lra.
Qed.

Lemma ln10_gt1 : 1 < ln 10.
Proof.
  rewrite <- ln_exp at 1. apply ln_increasing; [apply exp_pos|]. pose proof exp_le_3. lra.
Qed.

Lemma llike_not_gaussian :
  exists n p F S ok M, (forall i j, S i j <> 0) /\
   model_llike (findata n p F S (fun _ _ => 1) ok []) (fin2 n p M) <> Fin (gauss_loglike n p F M S ok).
Proof.
  exists 1%nat, 1%nat, (fun _ _ => 0), (fun _ _ => 1), (fun _ _ => true), (fun _ _ => 0).
  split; [intros; lra|]. rewrite llike_value by (intros; lra). intros H. injection H as H.
  assert (P : 0 < 2 * PI) by (pose proof PI_RGT_0; lra).
  assert (L : ln (sqrt (2 * PI)) = ln (2 * PI) / 2).
  { assert (E : ln (sqrt (2*PI) * sqrt (2*PI)) = ln (2 * PI)) by (rewrite sqrt_sqrt; lra).
    rewrite ln_mult in E by (apply sqrt_lt_R0; auto). lra. }
  assert (R1 : gauss_loglike 1 1 (fun _ _ => 0) (fun _ _ => 0) (fun _ _ => 1) (fun _ _ => true) = - (ln (2 * PI) / 2)).
  { unfold gauss_loglike, rsum2. simpl rsumn.
    replace (- ((0 - 0) / 1 * ((0 - 0) / 1 * 1)) / 2) with 0 by field.
    rewrite exp_0, Rmult_1_l. unfold Rdiv at 1. rewrite Rmult_1_l, ln_Rinv, L by (apply sqrt_lt_R0; auto). ring. }
  rewrite R1 in H.
  unfold chi2, ll_const, rsum2 in H. simpl rsumn in H.
  replace (2 * PI * (1 * (1 * 1))) with (2 * PI) in H by ring.
  pose proof ln10_gt1 as G.
  assert (0 < ln (2 * PI)).
  { rewrite <- ln_1. apply ln_increasing; [lra|]. pose proof PI2_1. unfold PI2 in *. lra. }
  set (A := ln (2 * PI)) in *. set (T := ln 10) in *.
  assert (A / T = A) by lra.
  assert (E : A = A / T * T) by (field; lra). rewrite H1 in E. nra.
Qed.

(** Masked pixels do not matter to chi-squared and likelihood of a given model. *)
Lemma masked_irrelevant n p F F' S S' W W' ok cs cs' M :
  (forall i j, (i < n)%nat -> (j < p)%nat -> S i j <> 0) ->
  (forall i j, (i < n)%nat -> (j < p)%nat -> S' i j <> 0) ->
  (forall i j, ok i j = true -> F i j = F' i j /\ S i j = S' i j /\ W i j = W' i j) ->
  model_chisq (findata n p F S W ok cs) (fin2 n p M) = model_chisq (findata n p F' S' W' ok cs') (fin2 n p M) /\
  model_llike (findata n p F S W ok cs) (fin2 n p M) = model_llike (findata n p F' S' W' ok cs') (fin2 n p M).
Proof.
  intros HS HS' H. rewrite !chisq_value, !llike_value by auto.
  assert (E : chi2 n p F M S W ok = chi2 n p F' M S' W' ok).
  { apply rsum2_ext. intros i j _ _. destruct (ok i j) eqn:E; auto. destruct (H i j E) as (-> & -> & ->). auto. }
  assert (E2 : ll_const n p S ok = ll_const n p S' ok).
  { apply rsum2_ext. intros i j _ _. destruct (ok i j) eqn:E2; auto. destruct (H i j E2) as (_ & -> & _). auto. }
  rewrite E, E2. auto.
Qed.

Lemma model_chisq_ext d a b : rows a = rows b -> cols a = cols b ->
  (forall i j, (i < rows a)%nat -> (j < cols a)%nat -> at2 a i j = at2 b i j) ->
  model_chisq d a = model_chisq d b.
Proof.
  intros R C H. unfold model_chisq, sum2. simpl. rewrite <- R, <- C. apply fsumn_ext. intros i Hi.
  apply fsumn_ext. intros j Hj. now rewrite H.
Qed.

Lemma scaled_mask_witness : exists n p F F' S W ok cs M out out',
  (forall i j, (i < n)%nat -> (j < p)%nat -> S i j <> 0) /\ cols_ok p cs /\
  (forall i j, ok i j = true -> F i j = F' i j) /\
  scale_model (findata n p F S W ok cs) (fin2 n p M) = Ok out /\
  scale_model (findata n p F' S W ok cs) (fin2 n p M) = Ok out' /\
  model_chisq (findata n p F S W ok cs) out <> model_chisq (findata n p F' S W ok cs) out'.
Proof.
  pose (F := fun _ j : nat => if Nat.eqb j 0 then 1 else 0). pose (F' := fun _ _ : nat => 1).
  pose (O := fun _ _ : nat => 1). pose (ok := fun _ j : nat => Nat.eqb j 0).
  exists 1%nat, 2%nat, F, F', O, O, ok, [0%nat; 1%nat], O.
  assert (Hc : cols_ok 2 [0%nat; 1%nat]) by (intros c [<-|[<-|[]]]; lia).
  do 2 eexists. split; [intros; unfold O; lra|]. split; auto.
  split; [intros i j E; unfold ok, F, F' in *; now rewrite E|].
  split; [apply scale_model_ok; auto|]. split; [apply scale_model_ok; auto|].
  assert (E1 : best_ratio (F 0%nat) (O 0%nat) (O 0%nat) [0%nat;1%nat] = 1/2).
  { unfold best_ratio, Dd, Nn, F, O. simpl. rcases; [exfalso; lra|field]. }
  assert (E2 : best_ratio (F' 0%nat) (O 0%nat) (O 0%nat) [0%nat;1%nat] = 1).
  { unfold best_ratio, Dd, Nn, F', O. simpl. rcases; [exfalso; lra|field]. }
  rewrite (model_chisq_ext _ _ (fin2 1 2 (fun _ _ => 1/2))); auto.
  2:{ simpl. intros i j Hi Hj. assert (i = 0)%nat by lia. subst i.
      rewrite scale_ratio_Fin by (intros; unfold O; lra). rewrite E1. unfold O. simpl. f_equal. ring. }
  rewrite (model_chisq_ext (findata 1 2 F' O O ok [0%nat; 1%nat]) _ (fin2 1 2 (fun _ _ => 1))); auto.
  2:{ simpl. intros i j Hi Hj. assert (i = 0)%nat by lia. subst i.
      rewrite scale_ratio_Fin by (intros; unfold O; lra). rewrite E2. unfold O. simpl. f_equal. ring. }
  rewrite !chisq_value by (intros; unfold O; lra). unfold chi2, rsum2, F, F', O, ok. simpl.
  intros H. injection H as H. lra.
Qed.
