From Coq Require Import String Reals Lra Lia List Bool Arith ZArith Sorted.
From Verif Require Import PyFloat PyBase Arr PyNum MProf MKernels MMask MAper1D MGeom MSlitPlot MBestPlot SMask SGeom SSlitPlot SBestPlot PMask PKernels PGeom PLine PSlitPlot PSlitConv.
Import ListNotations.
Local Open Scope R_scope.

Lemma fig_inv interp pole f stamp g o sigma F : plot_bestfit_model interp pole f stamp g o sigma = Ok F ->
  exists th m shift vals w, q_kin f = Some (th, m) /\ (0 < rows (q_flux f))%nat /\ match th with Some l => second_last l = Ok shift | None => shift = Fin 0 end /\
  let mid := fadd (q_m0 f) shift in let n := rows (q_flux f) in
  (if stamp then exists hi lo, v_high F = Some hi /\ v_low F = Some lo /\ plot_image_slit interp pole g o (Some mid) true false None (Some n) false true = Ok hi /\
     plot_image_slit interp pole g o (Some mid) true true sigma (Some n) true true = Ok lo else v_high F = None /\ v_low F = None) /\
  of_columns (q_flux f) (match q_nosky f with [] => seq 0 (cols (q_flux f)) | l => l end) = Ok vals /\
  np_min vals = Ok (fst (v_lim F)) /\ np_max vals = Ok (snd (v_lim F)) /\
  v_spec F = q_flux f /\ v_model F = m /\ rows m = n /\ cols m = cols (q_flux f) /\ v_resid F = mk2 n (cols m) (fun i j => fsub (at2 (q_flux f) i j) (at2 m i j)) /\
  psf_fwhm (o_psf o) = Some w /\ q_sky f = [] /\
  v_mid F = mid /\
  (let s2 := fsqrt (fmul (Fin 2) (Fin (ln 2))) in
   let d := fdiv (y_proj_major (fmul (fsqrt (fadd (fsq (fdiv w (Fin fwhm_factor))) (fsq (fdiv (q_re f) s2)))) s2) (q_dPA f)) (o_pix o) in v_re F = (fsub mid d, fadd mid d)) /\
  v_edges F = flat_map (run_edges n) (wh_continuous (q_low f)) /\ v_hatch F = map (run_hatch (cols (q_flux f))) (wh_continuous (q_low f)) /\ v_columns F = [].
Proof.
  intros H. unfold plot_bestfit_model in H.
  destruct (Nat.eqb_spec (rows (q_flux f)) 0) as [|N]; [discriminate|]. cbn [bind] in H.
  destruct (q_kin f) as [[th m]|]; [|discriminate]. cbn [bind fst snd] in H.
  match type of H with bind ?a _ = _ => destruct a as [shift|] eqn:E1; [|discriminate] end. cbn [bind] in H.
  match type of H with bind ?a _ = _ => destruct a as [im|] eqn:E2; [|discriminate] end. cbn [bind] in H.
  match type of H with bind ?a _ = _ => destruct a as [vals|] eqn:E3; [|discriminate] end. cbn [bind] in H.
  destruct (np_min vals) as [vmin|] eqn:E4; [|discriminate]. cbn [bind] in H. destruct (np_max vals) as [vmax|] eqn:E5; [|discriminate]. cbn [bind] in H.
  destruct (Nat.eqb_spec (rows m) (rows (q_flux f))) as [R|]; [|discriminate]. destruct (Nat.eqb_spec (cols m) (cols (q_flux f))) as [C|]; [|discriminate]. cbn [andb bind] in H.
  destruct (psf_fwhm (o_psf o)) as [w|]; [|discriminate]. cbn [bind] in H.
  destruct (wh_continuous (q_sky f)) eqn:E6; [|discriminate]. cbn [bind] in H. apply Ok_inj in H. subst F.
  assert (SK : q_sky f = []) by (rewrite <- (wh_concat (q_sky f)), E6; reflexivity).
  exists th, m, shift, vals, w. cbn [v_high v_low v_lim v_spec v_model v_resid v_re v_mid v_edges v_hatch v_columns fst snd].
  split; [reflexivity|]. split; [lia|]. split; [destruct th; [exact E1|apply Ok_inj in E1; congruence]|]. cbv zeta.
  split.
  { destruct stamp; [|apply Ok_inj in E2; subst im; auto].
    destruct (plot_image_slit _ _ _ _ _ _ _ _ _ false _) as [hi|] eqn:P1; [|discriminate]. cbn [bind] in E2.
    destruct (plot_image_slit _ _ _ _ _ _ _ _ _ true _) as [lo|] eqn:P2; [|discriminate]. cbn [bind] in E2. apply Ok_inj in E2. subst im. exists hi, lo. cbn [fst snd]. auto. }
  repeat (split; [first [exact E3|exact E4|exact E5|exact R|exact C|exact SK|reflexivity]|]). reflexivity.
Qed.

(* limits *)
Lemma min_of l : forall a, exists v, fmin1 (Fin a) (map Fin l) = Fin v /\ In v (a :: l) /\ forall x, In x (a :: l) -> v <= x.
Proof.
  induction l as [|b l IH]; intros a; cbn [fmin1 map].
  - exists a. split; [reflexivity|]. split; [now left|]. intros x [->|[]]. lra.
  - cbn [isnan fltb]. destruct (Rltb b a) eqn:E; [apply Rltb_true in E; destruct (IH b) as (v&V&I&L)|apply Rltb_false in E; destruct (IH a) as (v&V&I&L)]; exists v; split; auto; split.
    + right. exact I.
    + intros x [<-|H]; [|apply L; exact H]. assert (v <= b) by (apply L; now left). lra.
    + destruct I as [<-|I]; [now left|right; now right].
    + intros x [<-|[<-|H]]; [apply L; now left| |apply L; now right]. assert (v <= a) by (apply L; now left). lra.
Qed.
Lemma max_of l : forall a, exists v, fmax1 (Fin a) (map Fin l) = Fin v /\ In v (a :: l) /\ forall x, In x (a :: l) -> x <= v.
Proof.
  induction l as [|b l IH]; intros a; cbn [fmax1 map].
  - exists a. split; [reflexivity|]. split; [now left|]. intros x [->|[]]. lra.
  - cbn [isnan fltb]. destruct (Rltb a b) eqn:E; [apply Rltb_true in E; destruct (IH b) as (v&V&I&L)|apply Rltb_false in E; destruct (IH a) as (v&V&I&L)]; exists v; split; auto; split.
    + right. exact I.
    + intros x [<-|H]; [|apply L; exact H]. assert (b <= v) by (apply L; now left). lra.
    + destruct I as [<-|I]; [now left|right; now right].
    + intros x [<-|[<-|H]]; [apply L; now left| |apply L; now right]. assert (a <= v) by (apply L; now left). lra.
Qed.
Lemma finite_list l : (forall x, In x l -> isfinite x = true) -> exists l', l = map Fin l'.
Proof.
  induction l as [|a l IH]; intros H; [exists []; reflexivity|]. destruct IH as [l' ->]; [intros; apply H; now right|].
  assert (A := H a (or_introl eq_refl)). destruct a as [a| | |]; try discriminate. exists (a :: l'). reflexivity.
Qed.

Lemma panels interp pole f stamp g o sigma F : plot_bestfit_model interp pole f stamp g o sigma = Ok F ->
  exists th m, q_kin f = Some (th, m) /\ v_spec F = q_flux f /\ v_model F = m /\ rows (v_resid F) = rows (q_flux f) /\ cols (v_resid F) = cols (q_flux f) /\
  (forall i j, at2 (v_resid F) i j = fsub (at2 (q_flux f) i j) (at2 m i j)) /\
  ((forall i j, (i < rows (q_flux f))%nat -> (j < cols (q_flux f))%nat -> isfinite (at2 (q_flux f) i j) = true) ->
   exists lo hi, v_lim F = (Fin lo, Fin hi) /\
     (forall i j x, (i < rows (q_flux f))%nat -> (j < cols (q_flux f))%nat -> In j (q_nosky f) \/ q_nosky f = [] -> at2 (q_flux f) i j = Fin x -> lo <= x <= hi) /\
     (forall v, v = lo \/ v = hi -> exists i j, (i < rows (q_flux f))%nat /\ (j < cols (q_flux f))%nat /\ (In j (q_nosky f) \/ q_nosky f = []) /\ at2 (q_flux f) i j = Fin v)).
Proof.
  intros H. apply fig_inv in H. destruct H as (th&m&shift&vals&w&K&N&_&_&V&Mn&Mx&S1&S2&R&C&S3&_). exists th, m. split; [exact K|]. split; [exact S1|]. split; [exact S2|].
  split; [rewrite S3; reflexivity|]. split; [rewrite S3; exact C|]. split; [rewrite S3; reflexivity|]. intros Hf.
  unfold of_columns in V. set (cs := match q_nosky f with [] => _ | l => l end) in V. destruct (forallb _ cs) eqn:E; [|discriminate]. apply Ok_inj in V.
  rewrite forallb_forall in E. assert (HC : forall j, In j cs -> (j < cols (q_flux f))%nat) by (intros j Hj; apply Nat.ltb_lt, E, Hj).
  assert (HI : forall j, In j cs <-> (In j (q_nosky f) \/ q_nosky f = []) /\ (j < cols (q_flux f))%nat).
  { intros j. split; [intros Hj; split; [|auto]|intros [Hj L]]; unfold cs in *; destruct (q_nosky f); auto.
    - apply in_seq. lia. - destruct Hj as [Hj|Hj]; [exact Hj|discriminate]. }
  assert (HV : forall x, In x vals <-> exists i j, (i < rows (q_flux f))%nat /\ In j cs /\ at2 (q_flux f) i j = x).
  { intros x. rewrite <- V, in_flat_map. split.
    - intros (i&Hi&Hx). apply in_map_iff in Hx. destruct Hx as (j&Ej&Hj). apply in_seq in Hi. exists i, j. repeat split; auto. lia.
    - intros (i&j&Hi&Hj&Ex). exists i. split; [apply in_seq; lia|]. apply in_map_iff. eauto. }
  destruct (finite_list vals) as [l ->]. { intros x Hx. apply HV in Hx. destruct Hx as (i&j&Hi&Hj&<-). auto. }
  destruct l as [|a l]; [discriminate|]. cbn [map np_min np_max] in Mn, Mx. apply Ok_inj in Mn, Mx.
  destruct (min_of l a) as (lo&E1&I1&L1). destruct (max_of l a) as (hi&E2&I2&L2). rewrite E1 in Mn. rewrite E2 in Mx. exists lo, hi.
  split; [rewrite (surjective_pairing (v_lim F)), <- Mn, <- Mx; reflexivity|]. split.
  - intros i j x Hi Hj Hn Hx. assert (X : In (Fin x) (map Fin (a :: l))) by (apply HV; exists i, j; split; [auto|split; [apply HI; auto|auto]]).
    apply in_map_iff in X. destruct X as (y&Ey&Hy). injection Ey as ->. split; auto.
  - intros v Hv. assert (X : In (Fin v) (map Fin (a :: l))) by (apply in_map; destruct Hv as [-> | ->]; assumption).
    apply HV in X. destruct X as (i&j&Hi&Hj&Ex). exists i, j. apply HI in Hj. tauto.
Qed.

(* hatching and dashed lines *)
Lemma last_seq a n d : last (seq a (S n)) d = (a + n)%nat.
Proof. rewrite seq_S. apply last_last. Qed.
Lemma least_seq a n : least (seq a (S n)) = a.
Proof.
  unfold least. cbn [hd seq]. cbn [fold_right]. assert (K : forall n b, (a <= b)%nat -> fold_right Nat.min a (seq b n) = a).
  { clear. induction n; intros b H; cbn [seq fold_right]; [reflexivity|]. rewrite IHn by lia. lia. } rewrite K by lia. lia.
Qed.
Lemma greatest_seq a n : greatest (seq a (S n)) = (a + n)%nat.
Proof. unfold greatest. revert a. induction n; intros a; [cbn; lia|]. change (seq a (S (S n))) with (a :: seq (S a) (S n)). cbn [fold_right]. rewrite IHn. lia. Qed.

Lemma in_runs l r : In r l <-> exists a n, In (seq a (S n)) (wh_continuous l) /\ (a <= r <= a + n)%nat.
Proof.
  rewrite <- (wh_concat l) at 1. rewrite in_concat. assert (W := wh_consecutive l). rewrite Forall_forall in W. split.
  - intros (w&Hw&Hr). destruct (W w Hw) as (a&n&->). apply in_seq in Hr. exists a, n. split; [exact Hw|lia].
  - intros (a&n&Hw&Hr). exists (seq a (S n)). split; [exact Hw|apply in_seq; lia].
Qed.

Lemma hatch_rows interp pole f stamp g o sigma F : plot_bestfit_model interp pole f stamp g o sigma = Ok F ->
  forall y, hatched F y <-> exists r, In r (q_low f) /\ Rabs (y - INR r) <= 1 / 2.
Proof.
  intros H y. apply fig_inv in H. destruct H as (th&m&shift&vals&w&_&_&_&_&_&_&_&_&_&_&_&_&_&_&_&_&_&HH&_). unfold hatched. rewrite HH. clear HH. split.
  - intros (x&a&b&Hin&Hy). apply in_map_iff in Hin. destruct Hin as (r&E&Hr). assert (W := wh_consecutive (q_low f)). rewrite Forall_forall in W.
    destruct (W r Hr) as (s&n&->). unfold run_hatch in E. rewrite last_seq in E. cbn [hd seq] in E. unfold fsub in E. cbn [fneg fadd] in E. injection E as _ Ea Eb.
    assert (B : INR s - 1 / 2 <= y <= INR (s + n) + 1 / 2) by lra. clear Ea Eb Hy a b.
    assert (K : forall n s, INR s - 1 / 2 <= y <= INR (s + n) + 1 / 2 -> exists r, (s <= r <= s + n)%nat /\ Rabs (y - INR r) <= 1 / 2).
    { clear. induction n as [|n IH]; intros s B.
      - rewrite Nat.add_0_r in B. exists s. split; [lia|]. apply Rabs_le. lra.
      - destruct (Rle_or_lt y (INR s + 1 / 2)) as [L|L]; [exists s; split; [lia|apply Rabs_le; lra]|].
        destruct (IH (S s)) as (r&R1&R2); [|exists r; split; [lia|exact R2]]. replace (S s + n)%nat with (s + S n)%nat by lia. rewrite S_INR. lra. }
    destruct (K n s B) as (r&R1&R2). exists r. split; [apply in_runs; eauto|exact R2].
  - intros (r&Hr&Hy). apply in_runs in Hr. destruct Hr as (s&n&Hw&Hr). eexists. eexists. eexists. split; [apply in_map_iff; exists (seq s (S n)); split; [|exact Hw]; unfold run_hatch; rewrite last_seq; cbn [hd seq]; unfold fsub; cbn [fneg fadd]; reflexivity|].
    assert (INR s <= INR r) by (apply le_INR; lia). assert (INR r <= INR (s + n)) by (apply le_INR; lia). unfold Rabs in Hy. destruct (Rcase_abs _) in Hy; lra.
Qed.

Lemma run_around l pre r post x : ascending l -> wh_continuous l = pre ++ r :: post ->
  (In x (concat pre) -> (S x < hd O r)%nat) /\ (In x (concat post) -> (S (last r O) < x)%nat).
Proof.
  intros A E. assert (W := wh_consecutive l). rewrite E in W. apply Forall_app in W. destruct W as [W1 W2]. pose proof (Forall_inv W2) as (a&n&Hr). pose proof (Forall_inv_tail W2) as W3.
  assert (C := wh_concat l). rewrite E in C. rewrite concat_app in C. cbn [concat] in C. rewrite <- C in A. apply ascending_app in A. destruct A as (A1&A2&A3). apply ascending_app in A2. destruct A2 as (A4&A5&A6).
  assert (AL : ascending l) by (rewrite <- C; apply ascending_intro; auto; apply ascending_intro; auto).
  split; intros H.
  - destruct (exists_last (l := pre)) as (pre'&r0&->); [intros ->; destruct H|]. rewrite <- app_assoc in E. cbn [app] in E. pose proof (wh_separated _ _ _ _ _ AL E) as Sep.
    apply Forall_app in W1. destruct W1 as [_ W1]. destruct (Forall_inv W1) as (b&k&->). rewrite last_seq in Sep. rewrite concat_app in H, A1. cbn [concat] in H, A1. rewrite app_nil_r in H, A1. apply in_app_iff in H. destruct H as [H|H].
    + apply ascending_app in A1. destruct A1 as (_&_&A1). assert (x < b)%nat by (apply A1; [exact H|apply in_seq; lia]). lia.
    + apply in_seq in H. lia.
  - destruct post as [|r2 post]; [destruct H|]. pose proof (wh_separated _ _ _ _ _ AL E) as Sep. destruct (Forall_inv W3) as (b&k&->). cbn [hd seq] in Sep. cbn [concat] in H, A5. apply in_app_iff in H. destruct H as [H|H].
    + apply in_seq in H. lia.
    + apply ascending_app in A5. destruct A5 as (_&_&A7). assert (b < x)%nat by (apply A7; [apply in_seq; lia|exact H]). lia.
Qed.
Lemma run_maximal l a m : ascending l -> In (seq a (S m)) (wh_continuous l) -> (forall b, a = S b -> ~ In b l) /\ ~ In (a + S m)%nat l.
Proof.
  intros A H. apply in_split in H. destruct H as (pre&post&E).
  assert (K : forall x, In x l -> In x (concat pre) \/ (a <= x <= a + m)%nat \/ In x (concat post)).
  { intros x Hx. rewrite <- (wh_concat l), E, concat_app in Hx. cbn [concat] in Hx. apply in_app_iff in Hx. destruct Hx as [Hx|Hx]; [auto|]. apply in_app_iff in Hx. destruct Hx as [Hx|Hx]; [|auto]. apply in_seq in Hx. right. left. lia. }
  split; [intros b -> Hb; destruct (run_around l pre _ post b A E) as [B1 B2]|intros Hb; destruct (run_around l pre _ post (a + S m)%nat A E) as [B1 B2]]; destruct (K _ Hb) as [X|[X|X]]; try lia; try (apply B1 in X; cbn [hd seq] in X; lia); apply B2 in X; rewrite last_seq in X; lia.
Qed.

Lemma edge_rows interp pole f stamp g o sigma F : plot_bestfit_model interp pole f stamp g o sigma = Ok F -> ascending (q_low f) -> (forall r, In r (q_low f) -> (r < rows (q_flux f))%nat) ->
  forall e, In e (v_edges F) <-> exists k, e = Fin (INR k + 1 / 2) /\ (S k < rows (q_flux f))%nat /\ (In k (q_low f) <-> ~ In (S k) (q_low f)).
Proof.
  intros H A Hn e. apply fig_inv in H. destruct H as (th&m&shift&vals&w&_&_&_&_&_&_&_&_&_&_&_&_&_&_&_&_&HE&_). rewrite HE, in_flat_map. clear HE.
  assert (W := wh_consecutive (q_low f)). rewrite Forall_forall in W. set (n := rows (q_flux f)) in *.
  assert (RE : forall a k, (a + k < n)%nat -> run_edges n (seq a (S k)) = (if Nat.eqb a 0 then [] else [Fin (INR (a - 1) + 1 / 2)]) ++ (if Nat.eqb (S (a + k)) n then [] else [Fin (INR (a + k) + 1 / 2)])).
  { intros a k Hk. unfold run_edges. rewrite least_seq, greatest_seq. f_equal.
    - destruct (Nat.eqb_spec a 0); [reflexivity|]. unfold fsub. cbn [fneg fadd]. rewrite minus_INR by lia. cbn [INR]. do 2 f_equal. lra.
    - destruct (Z.eqb_spec (Z.of_nat (a + k)) (Z.of_nat n - 1)), (Nat.eqb_spec (S (a + k)) n); try reflexivity; lia. }
  split.
  - intros (r&Hr&He). destruct (W r Hr) as (a&k&->). destruct (run_maximal _ _ _ A Hr) as [M1 M2].
    assert (Hin : forall x, (a <= x <= a + k)%nat -> In x (q_low f)) by (intros x Hx; apply in_runs; eauto).
    rewrite RE in He by (apply Hn, Hin; lia). apply in_app_iff in He. destruct He as [He|He].
    + destruct (Nat.eqb_spec a 0); [destruct He|]. destruct He as [<-|[]]. exists (a - 1)%nat. split; [reflexivity|]. replace (S (a - 1)) with a by lia. split; [apply Hn, Hin; lia|].
      split; [intros X _; apply (M1 (a - 1)%nat); [lia|exact X]|intros X; exfalso; apply X, Hin; lia].
    + destruct (Nat.eqb_spec (S (a + k)) n); [destruct He|]. destruct He as [<-|[]]. exists (a + k)%nat. split; [reflexivity|]. assert (a + k < n)%nat by (apply Hn, Hin; lia). split; [lia|].
      replace (S (a + k)) with (a + S k)%nat by lia. split; [intros _; exact M2|intros _; apply Hin; lia].
  - intros (k&->&Hk&Hx). destruct (in_dec Nat.eq_dec k (q_low f)) as [I|I].
    + assert (N : ~ In (S k) (q_low f)) by (apply Hx, I). apply in_runs in I. destruct I as (a&j&Hr&Hj). exists (seq a (S j)). split; [exact Hr|].
      assert (k = a + j)%nat. { destruct (Nat.eq_dec k (a + j)); [assumption|]. exfalso. apply N, in_runs. exists a, j. split; [exact Hr|lia]. }
      subst k. rewrite RE by lia. apply in_app_iff. right. destruct (Nat.eqb_spec (S (a + j)) n); [lia|now left].
    + assert (N : In (S k) (q_low f)) by (destruct (in_dec Nat.eq_dec (S k) (q_low f)); [assumption|exfalso; tauto]). apply in_runs in N. destruct N as (a&j&Hr&Hj). exists (seq a (S j)). split; [exact Hr|].
      assert (S k = a). { destruct (Nat.eq_dec (S k) a); [assumption|]. exfalso. apply I, in_runs. exists a, j. split; [exact Hr|lia]. }
      subst a. assert (In (S k + j)%nat (q_low f)) by (apply in_runs; exists (S k), j; split; [exact Hr|lia]). rewrite RE by (apply Hn; assumption). apply in_app_iff. left. cbn [Nat.eqb]. replace (S k - 1)%nat with k by lia. now left.
Qed.

(* the marked rows *)
Lemma quadrature w a : fmul (fsqrt (fadd (fsq (fdiv (Fin w) (Fin fwhm_factor))) (fsq (fdiv (Fin a) (fsqrt (fmul (Fin 2) (Fin (ln 2)))))))) (fsqrt (fmul (Fin 2) (Fin (ln 2)))) = Fin (sqrt ((w / 2) ^ 2 + a ^ 2)).
Proof.
  assert (L2 : 0 < ln 2) by (rewrite <- ln_1; apply ln_increasing; lra).
  assert (S2 : fsqrt (fmul (Fin 2) (Fin (ln 2))) = Fin (sqrt (2 * ln 2))) by (cbn [fmul]; apply fsqrt_Fin; lra). rewrite S2.
  assert (Q : 0 < sqrt (2 * ln 2)) by (apply sqrt_lt_R0; lra).
  assert (F : fwhm_factor = 2 * sqrt (2 * ln 2)) by reflexivity. rewrite !fdiv_Fin by (try rewrite F; lra). unfold fsq. cbn [fmul fadd].
  rewrite fsqrt_Fin by nra. cbn [fmul]. f_equal. rewrite <- (sqrt_Rsqr (sqrt (2 * ln 2))) at 3 by lra. rewrite <- sqrt_mult_alt by nra. f_equal. unfold Rsqr. rewrite F. field. lra.
Qed.

Lemma second_last_nth l x : (2 <= length l)%nat -> nth (length l - 2) l NaN = x -> second_last l = Ok x.
Proof.
  intros L <-. unfold second_last. rewrite <- (rev_involutive l) at 3. rewrite rev_nth by (rewrite rev_length; lia). rewrite !rev_length.
  replace (length l - S (length l - 2))%nat with 1%nat by lia.
  assert (Q : (2 <= length (rev l))%nat) by (now rewrite rev_length). destruct (rev l) as [|a [|b r]]; cbn in Q; try lia. reflexivity.
Qed.

Lemma marked_rows interp pole f stamp g o sigma F th m0 shift w re dPA pix model : plot_bestfit_model interp pole f stamp g o sigma = Ok F ->
  q_kin f = Some (th, model) -> match th with Some l => (2 <= length l)%nat /\ nth (length l - 2) l NaN = Fin shift | None => shift = 0 end -> q_m0 f = Fin m0 ->
  psf_fwhm (o_psf o) = Some (Fin w) -> q_re f = Fin re -> q_dPA f = Fin dPA -> o_pix o = Fin pix -> pix <> 0 ->
  let D := sqrt ((w / 2) ^ 2 + re ^ 2) * Rabs (cos (rad dPA)) / pix in
  v_mid F = Fin (m0 + shift) /\ v_re F = (Fin (m0 + shift - D), Fin (m0 + shift + D)).
Proof.
  intros H K T M W R A X Hx D. apply fig_inv in H. destruct H as (th'&m'&sh&vals&w'&K'&_&T'&_&_&_&_&_&_&_&_&_&W'&_&HM&HR&_).
  rewrite K in K'. injection K' as <- <-. rewrite W in W'. injection W' as <-.
  assert (sh = Fin shift) by (destruct th as [lt|]; [rewrite (second_last_nth lt (Fin shift) (proj1 T) (proj2 T)) in T'; apply Ok_inj in T'; congruence|rewrite T', T; reflexivity]). subst sh.
  rewrite M in HM, HR. cbv zeta in HR. rewrite R, A, X, quadrature in HR. unfold y_proj_major in HR. cbn [fmul fcos fabs] in HR. rewrite fdiv_Fin in HR by exact Hx. unfold fsub in HR. cbn [fneg fadd] in HM, HR.
  split; [exact HM|]. rewrite HR. assert (E : Rabs (sqrt ((w / 2) ^ 2 + re ^ 2) * cos (dPA * (PI / 180))) / pix = D).
  { unfold D. rewrite Rabs_mult, (Rabs_right (sqrt _)) by (apply Rle_ge, sqrt_pos). unfold rad. do 4 f_equal. field. }
  rewrite E. reflexivity.
Qed.

(* the image panels show the same rows *)
Lemma second_rows pole t f d h ps p1 p2 : p1 = plus f (times (- h / ps) (0, 1)) -> p2 = plus f (times (h / ps) (0, 1)) -> cos (rad d) = cos (ang (slit_angle pole t)) ->
  snd (about f (ang (slit_angle pole t)) p1) = snd f - h * cos (rad d) / ps /\ snd (about f (ang (slit_angle pole t)) p2) = snd f + h * cos (rad d) / ps.
Proof. intros -> -> E. rewrite !about_self. destruct f as [a b]. unfold plus, times, turn. cbn [fst snd]. rewrite E. unfold Rdiv. split; ring. Qed.

Lemma same_rows interp pole f g o sigma F gal gal' s c0 imgPA serPA q re slitPA yoff pix ipix width len th m0 shift w model :
  plot_bestfit_model interp pole f true g o sigma = Ok F -> scene_is g s c0 imgPA serPA q re slitPA yoff -> optics_are o pix ipix width len ->
  angles gal serPA slitPA imgPA -> slit_offset pole gal = (gal', Ok tt) -> a_dPA gal' = Some (q_dPA f) -> q_re f = Fin re ->
  q_kin f = Some (th, model) -> match th with Some l => (2 <= length l)%nat /\ nth (length l - 2) l NaN = Fin shift | None => shift = 0 end -> q_m0 f = Fin m0 -> psf_fwhm (o_psf o) = Some (Fin w) ->
  let n := rows (q_flux f) in
  exists hi lo, v_high F = Some hi /\ v_low F = Some lo /\
    p_scale lo = Fin pix /\ p_ylim lo = (Fin (- (1 / 2)), Fin (INR n - 1 / 2)) /\
    (exists x axes r, p_ell lo = Some (((x, v_mid F), axes), r)) /\
    (exists x1 y1 x2 y2, p_major lo = [(x1, y1); (x2, y2)] /\ (v_re F = (y1, y2) \/ v_re F = (y2, y1))) /\
    exists bot cx cy axes r, p_scale hi = Fin ipix /\ p_ell hi = Some ((at_ (cx, cy), axes), r) /\ p_ylim hi = (Fin bot, Fin (bot + INR n * pix / ipix)) /\
      cy = bot + (m0 + shift + 1 / 2) * pix / ipix.
Proof.
  intros H G O AN SO DP RE K T M W n. destruct (slit_run pole gal serPA slitPA imgPA AN). 
  pose proof (slit_run pole gal serPA slitPA imgPA AN) as SR. cbv zeta in SR. rewrite SO in SR. apply pair_equal_spec in SR. destruct SR as [SR _]. rewrite SR in DP. cbn [a_dPA] in DP. injection DP as DP.
  set (ga := slit_angle pole (rad (serPA - (slitPA - imgPA)))) in *.
  pose proof O as (O1&O2&_&_&O5&O6).
  destruct (marked_rows _ _ _ _ _ _ _ _ _ _ _ _ _ _ _ _ H K T M W RE (eq_sym DP) O1 ltac:(lra)) as [HM HR]. cbv zeta in HR.
  apply fig_inv in H. destruct H as (th'&m'&sh&vals&w'&K'&_&T'&P&_). rewrite K in K'. injection K' as <- <-.
  assert (sh = Fin shift) by (destruct th as [lt|]; [rewrite (second_last_nth lt (Fin shift) (proj1 T) (proj2 T)) in T'; apply Ok_inj in T'; congruence|rewrite T', T; reflexivity]). subst sh. clear T'.
  rewrite M in P. cbn [fadd] in P. cbv zeta in P. destruct P as (hi&lo&Hh&Hl&P1&P2). exists hi, lo. split; [exact Hh|]. split; [exact Hl|].
  destruct (plot_inv _ _ _ _ _ _ _ _ _ _ _ _ _ _ _ _ _ _ _ _ P2 G) as (_&im&wd&_&Wd&D). destruct (downsampled_inv _ _ _ _ _ _ _ _ _ _ Wd O) as (S&_). cbv zeta in S.
  rewrite S in D. cbn [fst snd at_] in D. rewrite O1 in D. unfold at_ in D. cbn [fst snd] in D.
  set (cx := (INR (Z.to_nat (Int_part (INR (rows im) * ipix / pix))) - 1) / 2) in D. set (s2 := plus _ _) in D.
  destruct (draw_values pole g o (Some (Fin (m0 + shift))) true true (Some (rows (q_flux f))) pix (fst wd) (cx, m0 + shift) s2 s c0 imgPA serPA q re slitPA yoff pix ipix width len w G O O5 Logic.I W) as (P'&D'&_&V2&_&_&V4&(bar&V5&_)&_&V6).
  assert (E : P' = lo) by (apply Ok_inj; rewrite <- D', <- D; reflexivity). rewrite E in *. clear P' E.
  split; [exact V2|]. split; [rewrite V6; unfold size_of, n; cbn [snd]; apply pair_eq; f_equal; field; lra|].
  split; [rewrite HM; eauto|]. split.
  - rewrite V4. cbn [map]. fold ga. do 4 eexists. split; [reflexivity|].
    destruct (second_rows pole (rad (serPA - (slitPA - imgPA))) (cx, m0 + shift) ga (sqrt ((w / 2) ^ 2 + re ^ 2)) pix _ _ eq_refl eq_refl) as [E1 E2]; [now rewrite rad_ang|].
    fold ga in E1, E2. rewrite HR. unfold at_. cbn [fst snd].
    assert (X1 : plus (cx, m0 + shift) (times (- sqrt ((w / 2) ^ 2 + re ^ 2) / pix) (0, 1)) = (cx, m0 + shift - sqrt ((w / 2) ^ 2 + re ^ 2) / pix)) by (unfold plus, times; cbn [fst snd]; apply pair_eq; field; lra).
    assert (X2 : plus (cx, m0 + shift) (times (sqrt ((w / 2) ^ 2 + re ^ 2) / pix) (0, 1)) = (cx, m0 + shift + sqrt ((w / 2) ^ 2 + re ^ 2) / pix)) by (unfold plus, times; cbn [fst snd]; apply pair_eq; field; lra).
    rewrite X1 in E1. rewrite X2 in E2. rewrite E1, E2. cbn [snd]. unfold Rabs. destruct (Rcase_abs (cos (rad ga))); [right|left]; apply pair_eq; f_equal; field; lra.
  - destruct (window _ _ _ _ _ _ _ _ _ _ _ _ _ _ _ _ _ _ _ _ _ _ 0 P1 G O Logic.I eq_refl) as ([cx' cy]&axes&gb&bb&bot&V7&V8&_&V9&V10&_). exists bot, cx', cy, axes, (gb, bb).
    split; [exact V8|]. split; [exact V7|]. split; [exact V9|]. cbn [snd] in V10. lra.
Qed.

(* refutations *)
Lemma needs_model interp pole f stamp g o sigma F : q_kin f = None -> plot_bestfit_model interp pole f stamp g o sigma <> Ok F.
Proof. intros H E. apply fig_inv in E. destruct E as (th&m&shift&vals&w&K&_). congruence. Qed.
Lemma no_sky interp pole f stamp g o sigma F : q_sky f <> [] -> plot_bestfit_model interp pole f stamp g o sigma <> Ok F.
Proof. intros H E. apply fig_inv in E. destruct E as (th&m&shift&vals&w&_&_&_&_&_&_&_&_&_&_&_&_&_&S&_). contradiction. Qed.

(* the trace *)
Lemma names_at vary : forall names k, length vary = length names -> (k < length (free_names vary names))%nat ->
  exists i, free_at vary i k /\ nth_error names i = Some (nth k (free_names vary names) EmptyString).
Proof.
  induction vary as [|v vs IH]; intros [|s ss] k L Hk; cbn in L, Hk; try lia; try discriminate. injection L as L. cbn [free_names] in *. destruct v.
  - destruct k as [|k].
    + exists O. split; [split; reflexivity|reflexivity].
    + destruct (IH ss k L) as (i&(F1&F2)&N); [cbn in Hk; lia|]. exists (S i). split; [split; [exact F1|cbn [firstn filter length]; now rewrite F2]|exact N].
  - destruct (IH ss k L Hk) as (i&(F1&F2)&N). exists (S i). split; [split; [exact F1|exact F2]|exact N].
Qed.
Lemma names_length vary : forall names, length vary = length names -> length (free_names vary names) = length (filter (fun b => b) vary).
Proof. induction vary as [|v vs IH]; intros [|s ss] L; try discriminate; [reflexivity|]. injection L as L. cbn [free_names filter]. destruct v; cbn [length]; now rewrite IH. Qed.

Lemma trace_shows vary names chain nw picked axes : plot_trace vary names chain nw picked = Ok axes -> length vary = length names -> (forall w, In w picked -> (w < nw)%nat) ->
  length axes = length (filter (fun b => b) vary) /\
  forall k ax, nth_error axes k = Some ax -> (exists i, free_at vary i k /\ nth_error names i = Some (x_label ax)) /\
    (forall line, In line (x_grey ax ++ x_colour ax) <-> exists w, (w < nw)%nat /\ line = map (fun t => at3 chain w t k) (seq 0 (dim1 chain))) /\
    x_colour ax = map (fun w => map (fun t => at3 chain w t k) (seq 0 (dim1 chain))) picked.
Proof.
  intros H L PK. unfold plot_trace in H. destruct (Nat.eqb nw 0); [discriminate|]. cbn [bind] in H. destruct (forallb _ _ && _) eqn:E; [|discriminate]. apply Ok_inj in H. subst axes.
  split; [now rewrite map_length, seq_length, names_length by exact L|]. intros k ax Hk.
  assert (B : (k < length (free_names vary names))%nat).
  { assert (X := nth_error_Some (map (fun k => mkTrace (nth k (free_names vary names) EmptyString) (map (fun w => walk chain w k) (filter (fun w => negb (existsb (Nat.eqb w) picked)) (seq 0 nw))) (map (fun w => walk chain w k) picked)) (seq 0 (length (free_names vary names)))) k).
    rewrite map_length, seq_length in X. apply X. rewrite Hk. discriminate. }
  rewrite nth_error_map in Hk. assert (Sq : nth_error (seq 0 (length (free_names vary names))) k = Some k).
  { rewrite (nth_error_nth' _ O) by (now rewrite seq_length). now rewrite seq_nth. }
  rewrite Sq in Hk. cbn [option_map] in Hk. injection Hk as <-. cbn [x_label x_grey x_colour]. split; [apply names_at; auto|]. split; [|reflexivity].
  intros line. split.
  - intros Hl. apply in_app_iff in Hl. destruct Hl as [Hl|Hl]; apply in_map_iff in Hl; destruct Hl as (w&<-&Hw); exists w; (split; [|reflexivity]).
    + apply filter_In in Hw. destruct Hw as [Hw _]. apply in_seq in Hw. lia.
    + now apply PK.
  - intros (w&Hw&->). fold (walk chain w k). apply in_app_iff. destruct (existsb (Nat.eqb w) picked) eqn:X.
    + right. apply existsb_exists in X. destruct X as (y&Hy&Ey). apply Nat.eqb_eq in Ey. subst y. apply (in_map (fun w => walk chain w k)). exact Hy.
    + left. apply (in_map (fun w => walk chain w k)). apply filter_In. split; [apply in_seq; lia|now rewrite X].
Qed.
Lemma trace_total vary names chain nw picked : (0 < nw)%nat -> (nw <= dim0 chain)%nat -> length vary = length names -> (length (filter (fun b => b) vary) <= dim2 chain)%nat ->
  (forall w, In w picked -> (w < nw)%nat) -> exists axes, plot_trace vary names chain nw picked = Ok axes.
Proof.
  intros H0 H1 L H2 PK. unfold plot_trace. replace (Nat.eqb nw 0) with false by (symmetry; apply Nat.eqb_neq; lia). cbn [bind]. rewrite names_length by exact L.
  replace (forallb _ _) with true; [|symmetry; apply forallb_forall; intros w Hw; apply Nat.ltb_lt; apply in_app_iff in Hw; destruct Hw as [Hw|Hw]; [apply filter_In in Hw; destruct Hw as [Hw _]; apply in_seq in Hw; lia|specialize (PK w Hw); lia]].
  replace (Nat.leb _ _) with true by (symmetry; now apply Nat.leb_le). eexists. reflexivity.
Qed.

(* examples *)
Definition ex_flat (a : arr2 fl) (y x : R) : fl := Fin 1.
Definition ex_dPA : R := slit_angle (fun _ => true) (rad (75 - (30 - 10))).
Definition ex_gal : MGeom.slitgal := MGeom.mkSlitgal false (Some (Some (Fin 30))) (Some (Some (Fin 10))) (Some (Fin 75)) None None.
Definition ex_f : fitted2D :=
  mkFitted (mk2 5 3 (fun i j => Fin (INR (i + j)))) (Fin 2) [0; 2]%nat [0; 1; 3]%nat [] (Fin 1) (Fin ex_dPA) (Some (Some [Fin 200; Fin 1; Fin (1 / 4); Fin 30], mk2 5 3 (fun i j => Fin (INR i)))).
Lemma ex_low (im : arr2 fl) v fx fy sx sy : image_is im 6 6 v -> exists w, downsampled ex_o (Some (Fin (9 / 4))) im (at_ (fx, fy)) (at_ (sx, sy)) = Ok w /\ exists f s, snd w = (at_ f, at_ s).
Proof.
  intros (I1&I2&I3). unfold downsampled. cbn [o_ipix o_pix ex_o fst snd at_ fmul]. rewrite I1, I2, fdiv_Fin by lra. cbn [int_floor bind].
  assert (N : Int_part (INR 6 * (1 / 2) / 1) = 3%Z). { symmetry. assert (Z : (4 = up (INR 6 * (1/2) / 1))%Z) by (apply tech_up; cbn [INR]; simpl; lra). unfold Int_part. rewrite <- Z. reflexivity. }
  rewrite N. cbn [Z.ltb Z.compare bind Z.to_nat Pos.to_nat Pos.iter_op Nat.add]. unfold fsub. cbn [fneg fadd]. rewrite fdiv_Fin by lra. cbn [fneg fadd fmul].
  destruct (PGeom5.box_image im (map (fun i => Fin ((INR i + - fx) * (1 / 2))) (seq 0 6)) (map (fun i => Fin ((INR i + - fy) * (1 / 2))) (seq 0 6))
    (map (fun i => Fin ((INR i + - ((3 + - (1)) / 2)) * 1)) (seq 0 3)) (map (fun i => Fin ((INR i + - (9 / 4)) * 1)) (seq 0 3))
    (- fx * (1 / 2)) (1 / 2) 6 (- fy * (1 / 2)) (1 / 2) 6 (- (1)) 1 3 (- (9 / 4)) 1 3 v) as (r&E&_).
  1,2,3,4: split; [apply map_ext; intros i; f_equal; field|split; [lia|lra]].
  1,2: assumption. { exact I3. } 1,2: lra.
  match goal with |- context [box_integrate_pstamp ?a ?b ?c ?d ?e] => assert (E2 : box_integrate_pstamp a b c d e = Ok r) by exact E end. rewrite E2. cbn [bind]. eexists. split; [reflexivity|]. cbn [snd]. rewrite !fdiv_Fin by lra. cbn [fadd].
  eexists (_, _), (_, _). unfold at_. cbn [fst snd]. reflexivity.
Qed.
Lemma ex_figure : exists F, plot_bestfit_model ex_flat (fun _ => true) ex_f true ex_g ex_o (Some (Fin (1 / 5))) = Ok F /\ v_mid F = Fin (9 / 4) /\ v_edges F = [Fin (1 + 1 / 2); Fin (3 - 1 / 2); Fin (3 + 1 / 2)].
Proof.
  destruct ex_scene as [G OO].
  assert (Hi : exists P, plot_image_slit ex_flat (fun _ => true) ex_g ex_o (Some (Fin (9 / 4))) true false None (Some 5%nat) false true = Ok P).
  { eapply drawn; eauto. }
  assert (Lo : exists P, plot_image_slit ex_flat (fun _ => true) ex_g ex_o (Some (Fin (9 / 4))) true true (Some (Fin (1 / 5))) (Some 5%nat) true true = Ok P).
  { destruct (spread ex_flat ex_g ex_o (scipyrotate ex_flat (g_stamp ex_g) (fsub (Fin 30) (Fin 10))) 6 6 (fun _ _ => 1) (3, 2) 30 (1 / 2) (1 / 5)) as (im&A&E&_&I&_); try reflexivity; try lra.
    { split; [reflexivity|]. split; [reflexivity|]. intros; reflexivity. }
    { split; [intros; lra|]. exists O, O. split; [lia|]. split; [lia|lra]. }
    unfold plot_image_slit. cbn [g_re ex_g bind fst snd]. change (g_ser ex_g) with (at_ (plus (5 / 2, 5 / 2) (1, 1))). change (g_sci ex_g) with (at_ (plus (3, 2) (1, 1))). rewrite !less1_at, cent_at, E. cbn [bind].
    assert (SI : slit_on_image ex_g = Ok (Fin (30 - 10))) by reflexivity. rewrite SI. cbn [bind]. rewrite !turned_at. cbn [bind]. cbn [fst snd].
    set (f := about _ _ (5 / 2, 5 / 2)). set (s := about _ _ (3, 2)).
    destruct (ex_low im _ (fst f) (snd f) (fst s) (snd s) I) as (w&W&f'&s'&S). assert (W2 : downsampled ex_o (Some (Fin (9 / 4))) im (at_ f) (at_ s) = Ok w) by exact W. rewrite W2. cbn [bind]. rewrite S. cbn [fst snd at_].
    destruct (draw_values (fun _ => true) ex_g ex_o (Some (Fin (9 / 4))) true true (Some 5%nat) 1 (fst w) f' s' _ _ _ _ _ _ _ _ _ _ _ _ (6 / 10) G OO ltac:(lra) Logic.I eq_refl) as (P&E'&_).
    exists P. exact E'. }
  destruct Hi as [hi Hi]. destruct Lo as [lo Lo].
  assert (M : 2 + 1 / 4 = 9 / 4) by lra.
  unfold plot_bestfit_model. cbn [rows cols q_flux ex_f Nat.eqb bind q_kin fst snd second_last rev app q_m0 fadd]. rewrite M, Hi. cbn [bind]. rewrite Lo. cbn [bind].
  match goal with |- context [of_columns ?a ?b] => destruct (of_columns a b) as [vals|] eqn:V; [|discriminate V] end. assert (V2 := V). cbn in V2. apply Ok_inj in V2. subst vals. cbn [bind np_min np_max q_nosky ex_f].
  change (psf_fwhm (o_psf ex_o)) with (Some (Fin (6 / 10))). cbn [bind]. eexists. split; [reflexivity|]. split; [reflexivity|]. cbn [v_edges q_low ex_f]. unfold run_edges, fsub. cbn. repeat (apply (f_equal2 (@cons fl)); [apply (f_equal Fin); lra|]). reflexivity.
Qed.
Lemma ex_angles : angles ex_gal 75 30 10 /\ exists gal', slit_offset (fun _ => true) ex_gal = (gal', Ok tt) /\ a_dPA gal' = Some (q_dPA ex_f).
Proof.
  assert (A : angles ex_gal 75 30 10) by (repeat split; reflexivity). split; [exact A|]. eexists. split; [apply (slit_run _ _ _ _ _ A)|reflexivity].
Qed.
Lemma ex_trace : exists axes, plot_trace [true; false; true] ["a"%string; "b"%string; "c"%string] (mk3 4 2 2 (fun w t k => Fin (INR (w + t + k)))) 4 [1; 3; 1]%nat = Ok axes /\
  map x_label axes = ["a"%string; "c"%string].
Proof. eexists. split; reflexivity. Qed.
