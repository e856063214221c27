From Coq Require Import String Reals Lra Lia List Bool Arith ZArith.
From Verif Require Import PyFloat PyBase Arr PyNum MParams MProf MPost MCorner SParams SPost SCorner PParams PPost PPost2 PPost3 PPostEx.
From Verif Require MFit1D PFit1D2 PGeom5.
From Verif Require Import PLine.
Import ListNotations.
Local Open Scope R_scope.

Lemma getn_nth {A} (l : list A) i v : getn l i = Ok v <-> nth_error l i = Some v.
Proof. unfold getn. destruct (nth_error l i); split; intros H; congruence. Qed.

Lemma index_of_ok s l k : index_of s l = Ok k -> nth_error l k = Some s /\ forall i, (i < k)%nat -> nth_error l i <> Some s.
Proof.
  unfold index_of, where_.
  assert (G : forall l o k r, where_from o (String.eqb s) l = k :: r -> (o <= k)%nat /\ nth_error l (k - o) = Some s /\ forall i, (i < k - o)%nat -> nth_error l i <> Some s).
  { clear l k. induction l as [|x l IH]; intros o k r H; [discriminate|]. cbn [where_from] in H. destruct (String.eqb_spec s x) as [->|N].
    - inversion H. subst. replace (k - k)%nat with 0%nat by lia. split; [lia|]. split; [reflexivity|]. intros; lia.
    - apply IH in H. destruct H as (H1&H2&H3). split; [lia|]. replace (k - o)%nat with (S (k - S o)) by lia. split; [exact H2|].
      intros [|i] Hi; cbn; [congruence|]. apply H3. lia. }
  destruct (where_from 0 (String.eqb s) l) as [|k' r] eqn:E; [discriminate|]. intros H. inversion H; subst.
  apply G in E. destruct E as (_&E1&E2). rewrite Nat.sub_0_r in *. auto.
Qed.
Lemma index_of_app s ns l : ~ In s ns -> index_of s (ns ++ s :: l) = Ok (length ns).
Proof.
  intros N. unfold index_of, where_.
  assert (G : forall ns o, ~ In s ns -> exists r, where_from o (String.eqb s) (ns ++ s :: l) = (o + length ns)%nat :: r).
  { clear ns N. induction ns as [|x ns IH]; intros o N; cbn [app where_from length].
    - rewrite String.eqb_refl. rewrite Nat.add_0_r. eexists. reflexivity.
    - destruct (String.eqb_spec s x) as [->|]; [exfalso; apply N; now left|].
      destruct (IH (S o)) as [r E]; [intros F; apply N; now right|]. exists r. replace (o + S (length ns))%nat with (S o + length ns)%nat by lia. exact E. }
  destruct (G ns 0%nat N) as [r E]. rewrite E. reflexivity.
Qed.
Lemma index_of_none s l : ~ In s l -> index_of s l = Err IndexError.
Proof.
  intros N. unfold index_of, where_. assert (G : forall o, where_from o (String.eqb s) l = []).
  { induction l as [|x l IH]; intros o; [reflexivity|]. cbn [where_from]. destruct (String.eqb_spec s x) as [->|]; [exfalso; apply N; now left|].
    apply IH. intros F. apply N. now right. }
  now rewrite G.
Qed.

Lemma rotates_iff b lo hi : lo <= hi -> rotates (mkSummary (Fin b) (fsub (Fin b) (Fin lo)) (fsub (Fin hi) (Fin b))) = true <->
  one_sided lo hi.
Proof.
  intros L. unfold one_sided, rotates. cbn [s_best s_lo s_hi fsub fneg fadd].
  replace (b + - (b + - lo)) with lo by lra. replace (b + (hi + - b)) with hi by lra.
  unfold fsign, Rltb. destruct (Rlt_dec 0 lo), (Rlt_dec 0 hi), (Rlt_dec lo 0), (Rlt_dec hi 0); cbn [feqb]; unfold Reqb;
  repeat match goal with |- context [Req_EM_T ?a ?b] => destruct (Req_EM_T a b) end; split; intros; try lra; try reflexivity; try discriminate; exfalso; lra.
Qed.

Section Inv.
Variable draw : arr2 fl -> list fl -> res unit.
Variable ylim : nat -> fl * fl.
Variables (show : bool) (links : option (list link)) (kp : kprof) (n : nat) (bfit : list fl) (re : fl).

Lemma corner_inv h p c : plot_param_corner draw ylim show links kp n bfit re h p = Ok c ->
  exists ks kv b1 e1 b e f o, index_of "sigma0" (h_names h) = Ok ks /\ index_of "V_RE" (h_names h) = Ok kv /\
    nth_error (p_best p) ks = Some b1 /\ nth_error (p_err1 p) ks = Some e1 /\ c_sigma c = mkSummary b1 (fst e1) (snd e1) /\
    nth_error (p_best p) kv = Some b /\ nth_error (p_err1 p) kv = Some e /\ nth_error (p_err2 p) kv = Some f /\ nth_error (p_opp p) kv = Some o /\
    c_one c = (mkSummary b (fst e) (snd e), rotates (mkSummary b (fst e) (snd e))) /\
    c_two c = (mkSummary b (fst f) (snd f), rotates (mkSummary b (fst f) (snd f))) /\ c_opp c = o /\
    c_samples c = but_two_cols (h_flat h) /\ c_truths c = but_two (p_best p) /\
    titles (cols (but_two_cols (h_flat h))) (h_names h) (p_err1 p) (but_two (p_best p)) = Ok (c_titles c) /\
    (match links with Some gs => if show then curves kp ylim (cols (but_two_cols (h_flat h))) n bfit re (but_two (p_best p)) gs None else Ok [] | None => Ok [] end) = Ok (c_curves c).
Proof.
  unfold plot_param_corner. destruct (draw _ _); [|discriminate]. cbn [bind].
  destruct (titles _ _ _ _) as [ts|] eqn:ET; [|discriminate]. cbn [bind].
  destruct (match links with Some gs => _ | None => _ end) as [cs|] eqn:EC; [|discriminate]. cbn [bind].
  destruct (index_of "sigma0" _) as [ks|] eqn:E1; [|discriminate]. cbn [bind]. unfold note.
  destruct (getn (p_best p) ks) as [b1|] eqn:E2; [|discriminate]. cbn [bind]. destruct (getn (p_err1 p) ks) as [e1|] eqn:E3; [|discriminate]. cbn [bind].
  destruct (index_of "V_RE" _) as [kv|] eqn:E4; [|discriminate]. cbn [bind].
  destruct (getn (p_best p) kv) as [b|] eqn:E5; [|discriminate]. cbn [bind]. destruct (getn (p_err1 p) kv) as [e|] eqn:E6; [|discriminate]. cbn [bind].
  destruct (getn (p_opp p) kv) as [o|] eqn:E7; [|discriminate]. cbn [bind]. destruct (getn (p_err2 p) kv) as [f|] eqn:E8; [|discriminate]. cbn [bind].
  intros H. inversion H; subst c. cbn [c_sigma c_one c_two c_opp c_samples c_truths c_titles c_curves].
  exists ks, kv, b1, e1, b, e, f, o. repeat match goal with H : getn _ _ = Ok _ |- _ => apply getn_nth in H end. repeat (split; [assumption || reflexivity|]). reflexivity.
Qed.

(* the label of a column whose errors span the quantiles *)
Lemma label h p c j b : plot_param_corner draw ylim show links kp n bfit re h p = Ok c -> index_of "V_RE" (h_names h) = Ok j ->
  nth_error (p_best p) j = Some (Fin b) ->
  (spans (15865/100000) (84135/100000) (h_flat h) (p_best p) (p_err1 p) j -> exists lo hi, quantile (15865/100000) (rcol (h_flat h) j) lo /\
     quantile (84135/100000) (rcol (h_flat h) j) hi /\ fst (c_one c) = mkSummary (Fin b) (Fin (b - lo)) (Fin (hi - b)) /\
     (snd (c_one c) = true <-> one_sided lo hi)) /\
  (spans (2275/100000) (97725/100000) (h_flat h) (p_best p) (p_err2 p) j -> exists lo hi, quantile (2275/100000) (rcol (h_flat h) j) lo /\
     quantile (97725/100000) (rcol (h_flat h) j) hi /\ fst (c_two c) = mkSummary (Fin b) (Fin (b - lo)) (Fin (hi - b)) /\
     (snd (c_two c) = true <-> one_sided lo hi)).
Proof.
  intros H J B. apply corner_inv in H. destruct H as (ks&kv&b1&e1&b'&e&f&o&_&E4&_&_&_&E5&E6&E7&_&C1&C2&_).
  rewrite J in E4. inversion E4; subst kv. rewrite B in E5. inversion E5; subst b'. rewrite C1, C2. cbn [fst snd].
  split; intros (lo&hi&b2&Q1&Q2&E&F); rewrite B in E; inversion E; subst b2; exists lo, hi;
  (split; [exact Q1|]); (split; [exact Q2|]); [rewrite E6 in F; inversion F; subst e|rewrite E7 in F; inversion F; subst f]; cbn [fst snd]; (split; [reflexivity|]); apply rotates_iff;
  (eapply quantile_mono; [exact Q1|exact Q2|lra]).
Qed.

(* titles: every free parameter, V(R_E) and V_2.2 with name, value and 1-sigma errors *)
Lemma titled h p c : plot_param_corner draw ylim show links kp n bfit re h p = Ok c ->
  length (c_titles c) = (length (p_best p) - 2)%nat /\ c_truths c = firstn (length (p_best p) - 2) (p_best p) /\
  rows (c_samples c) = rows (h_flat h) /\ cols (c_samples c) = (cols (h_flat h) - 2)%nat /\
  (forall k j, at2 (c_samples c) k j = at2 (h_flat h) k j) /\
  forall i, (i < length (p_best p) - 2)%nat -> exists nm b e, nth_error (c_titles c) i = Some (nm, mkSummary b (fst e) (snd e)) /\
    nth_error (h_names h) i = Some nm /\ nth_error (p_best p) i = Some b /\ nth_error (p_err1 p) i = Some e.
Proof.
  intros H. apply corner_inv in H. destruct H as (ks&kv&b1&e1&b'&e&f&o&_&_&_&_&_&_&_&_&_&_&_&_&CS&CT&TT&_).
  assert (LB : length (but_two (p_best p)) = (length (p_best p) - 2)%nat) by (unfold but_two; rewrite firstn_length; lia).
  unfold titles in TT. pose proof (PFit1D2.mapM_length _ _ _ TT) as L. rewrite seq_length, LB in L.
  split; [exact L|]. split; [exact CT|]. rewrite CS. split; [reflexivity|]. split; [reflexivity|]. split; [reflexivity|].
  intros i Hi. assert (S : nth_error (seq 0 (length (but_two (p_best p)))) i = Some i).
  { rewrite LB. rewrite (nth_error_nth' _ 0%nat) by (rewrite seq_length; lia). rewrite seq_nth by lia. reflexivity. }
  pose proof (PGeom5.mapM_nth _ _ _ i i (""%string, mkSummary NaN NaN NaN) TT S) as E. cbv beta in E.
  destruct (Nat.ltb _ _) in E; [|discriminate]. cbn [bind] in E. unfold note in E.
  destruct (getn (but_two (p_best p)) i) as [b|] eqn:E1; [|discriminate]. cbn [bind] in E.
  destruct (getn (p_err1 p) i) as [er|] eqn:E2; [|discriminate]. cbn [bind] in E.
  destruct (getn (h_names h) i) as [nm|] eqn:E3; [|discriminate]. cbn [bind] in E. apply getn_nth in E1, E2, E3.
  exists nm, b, er. split; [|split; [exact E3|split; [|exact E2]]].
  - rewrite (nth_error_nth' _ (""%string, mkSummary NaN NaN NaN)) by lia. f_equal. congruence.
  - unfold but_two in E1. rewrite <- E1. symmetry. clear -Hi. revert i Hi. generalize (length (p_best p) - 2)%nat. intros m. revert m.
    induction (p_best p) as [|x l IH]; intros [|m] [|i] Hi; try lia; try reflexivity. cbn. apply IH. lia.
Qed.

(* no parameter called sigma0, or a group 'all': no plot *)
Lemma needs_sigma0 h p : ~ In "sigma0"%string (h_names h) -> exists e, plot_param_corner draw ylim show links kp n bfit re h p = Err e.
Proof.
  intros N. destruct (plot_param_corner draw ylim show links kp n bfit re h p) as [c|e] eqn:E; [|eauto].
  apply corner_inv in E. destruct E as (ks&?&?&?&?&?&?&?&E&_). rewrite index_of_none in E by exact N. discriminate.
Qed.
Lemma all_fails gs h p : links = Some gs -> show = true -> In LinkAll gs -> exists e, plot_param_corner draw ylim show links kp n bfit re h p = Err e.
Proof.
  intros L S I. destruct (plot_param_corner draw ylim show links kp n bfit re h p) as [c|e] eqn:E; [|eauto].
  apply corner_inv in E. destruct E as (?&?&?&?&?&?&?&?&_&_&_&_&_&_&_&_&_&_&_&_&_&_&_&E). rewrite L, S in E. exfalso. revert E I.
  generalize (but_two (p_best p)) (cols (but_two_cols (h_flat h))) (@None (list (nat -> fl))) (c_curves c). clear.
  induction gs as [|g gs IH]; intros tr nc prev cs E I; [exact I|]. cbn [curves] in E.
  destruct (one_curve kp ylim nc n bfit re tr g prev) as [[cv nx]|] eqn:E1; [|discriminate]. cbn [bind fst snd] in E.
  destruct (curves kp ylim nc n bfit re tr gs nx) as [r|] eqn:E2; [|discriminate]. destruct I as [->|I]; [discriminate|]. eapply IH; eauto.
Qed.
End Inv.

(* the curve of a group [0; j] *)
Lemma rows_tail l0 j y : forall best k i acc rows_, (0 < i)%nat -> (l0 < i)%nat -> length best = k ->
  theta_rows [l0; j] l0 y k i best (Some acc) = Ok rows_ ->
  exists r, rows_ = Some (acc ++ r) /\ length r = k /\ forall m, (m < k)%nat -> nth_error r m = Some (if Nat.eqb (i + m) j then y else fun _ => nth m best NaN).
Proof.
  induction best as [|b best IH]; intros k i acc rows_ Hi Hl L H; destruct k as [|k]; try discriminate L.
  - cbn in H. inversion H. exists []. rewrite app_nil_r. split; [reflexivity|]. split; [reflexivity|]. intros; lia.
  - cbn [theta_rows tl] in H. assert (M : memb i [l0; j] = Nat.eqb i j).
    { unfold memb. cbn [existsb]. replace (Nat.eqb i l0) with false by (symmetry; apply Nat.eqb_neq; lia). cbn. now rewrite orb_false_r. }
    rewrite M in H. replace (Nat.eqb i l0) with false in H by (symmetry; apply Nat.eqb_neq; lia). replace (Nat.ltb 0 i) with true in H by (symmetry; apply Nat.ltb_lt; lia).
    assert (E : exists q, q = (if Nat.eqb i j then y else fun _ => b) /\ theta_rows [l0; j] l0 y k (S i) best (Some (acc ++ [q])) = Ok rows_).
    { destruct (Nat.eqb i j); cbn [bind] in H; eexists; split; [reflexivity|exact H|reflexivity|exact H]. }
    destruct E as (q&Eq&E). apply IH in E; try lia. 2:{ cbn in L. lia. } destruct E as (r&->&Lr&N). exists (q :: r). rewrite <- app_assoc. split; [reflexivity|]. split; [cbn; lia|].
    intros [|m] Hm; cbn [nth_error nth]; [now rewrite Nat.add_0_r, Eq|]. rewrite N by lia. now replace (S i + m)%nat with (i + S m)%nat by lia.
Qed.

Lemma firstn_nth {A} (l : list A) k i : (i < k)%nat -> nth_error (firstn k l) i = nth_error l i.
Proof. revert l k. induction i as [|i IH]; intros [|x l] [|k] H; cbn; try lia; auto. apply IH. lia. Qed.
Lemma list_ext {A} (l l' : list A) : (forall i, nth_error l i = nth_error l' i) -> l = l'.
Proof.
  revert l'. induction l as [|x l IH]; intros [|y l'] H; [reflexivity|specialize (H 0%nat); discriminate|specialize (H 0%nat); discriminate|].
  f_equal; [specialize (H 0%nat); cbn in H; congruence|]. apply IH. intros i. exact (H (S i)).
Qed.
Lemma firstn_map' {A B} (f : A -> B) l k : firstn k (map f l) = map f (firstn k l).
Proof. revert l. induction k; intros [|x l]; cbn; [reflexivity..|]. now rewrite IHk. Qed.

Lemma curve_points p ylim nc j bfit re truths c nx : (0 < j < length bfit)%nat ->
  one_curve p ylim nc (length bfit) bfit re truths (LinkInds [0%nat; j]) None = Ok (c, nx) ->
  exists vre v22, getz truths (-2) = Ok vre /\ getz truths (-1) = Ok v22 /\ (kp_nv p <= length bfit)%nat /\
  v_axis c = (j * nc)%nat /\ v_y c = linspace (fst (ylim (j * nc)%nat)) (snd (ylim (j * nc)%nat)) 101 /\
  length (v_re c) = 101%nat /\ length (v_22 c) = 101%nat /\
  forall k, (k < 101)%nat -> exists y th, nth_error (v_y c) k = Some y /\ moved bfit (Fin 1) j y th /\
    nth_error (v_re c) k = Some (fdiv vre (kp_vel p (firstn (kp_nv p) th) re)) /\
    nth_error (v_22 c) k = Some (fdiv v22 (kp_vel p (firstn (kp_nv p) th) (fmul (Fin (22 / 10 / (1676 / 1000))) re))).
Proof.
  intros J H. unfold one_curve in H. cbn [getn nth_error bind] in H. change (0 + j * nc)%nat with (j * nc)%nat in H.
  destruct (Nat.ltb (j * nc) (nc * nc)); [|discriminate]. cbn [bind] in H.
  destruct (getz truths (-2)) as [vre|] eqn:V1; [|discriminate]. cbn [bind] in H. destruct (getz truths (-1)) as [v22|] eqn:V2; [|discriminate]. cbn [bind] in H.
  remember (linspace (fst (ylim (j * nc)%nat)) (snd (ylim (j * nc)%nat)) 101) as ys eqn:EY.
  assert (LY : length ys = 101%nat) by (rewrite EY; apply linspace_length).
  destruct (theta_rows [0%nat; j] 0 (lnth ys) (length bfit) 0 bfit None) as [rw|] eqn:T; [|discriminate]. cbn [bind] in H.
  destruct bfit as [|b0 bf] eqn:EB; [cbn in J; lia|]. cbn [length theta_rows tl] in T.
  assert (M : memb 0 [0%nat; j] = true) by reflexivity. rewrite M in T. cbn [Nat.eqb bind] in T.
  apply rows_tail in T; try lia; try reflexivity. destruct T as (r&->&Lr&Nr). cbn [bind app length] in H.
  destruct (Nat.ltb (S (length r)) (kp_nv p)) eqn:LT; [discriminate|]. apply Nat.ltb_ge in LT. cbn [bind] in H. apply Ok_inj in H. apply pair_equal_spec in H. destruct H as [H _]. subst c.
  exists vre, v22. cbn [v_axis v_re v_22 v_y]. split; [reflexivity|]. split; [reflexivity|]. split; [cbn; lia|]. split; [reflexivity|]. split; [exact EY || (symmetry; exact EY) || reflexivity|].
  rewrite !map_length, !seq_length. split; [exact LY|]. split; [exact LY|]. intros k Hk.
  set (q := fun _ : nat => Fin 1). set (th := map (fun f : nat -> fl => f k) (q :: r)).
  exists (lnth ys k), th. assert (NY : nth_error ys k = Some (lnth ys k)) by (unfold lnth; apply nth_error_nth'; lia).
  split; [exact NY|]. split.
  - unfold moved, th. split; [rewrite map_length; cbn; lia|]. split; [reflexivity|].
    assert (G : forall i, (0 < i < S (length bf))%nat -> nth_error (map (fun f : nat -> fl => f k) (q :: r)) i = Some (if Nat.eqb i j then lnth ys k else nth (i - 1) bf NaN)).
    { intros i Hi. destruct i as [|i]; [lia|]. cbn [map nth_error]. rewrite nth_error_map, Nr by lia. cbn [option_map]. replace (S i - 1)%nat with i by lia.
      change (1 + i)%nat with (S i). destruct (Nat.eqb (S i) j); reflexivity. }
    split; [rewrite G by (cbn in J; lia); now rewrite Nat.eqb_refl|]. intros i I1 I2. destruct (Nat.lt_ge_cases i (S (length bf))) as [Hi|Hi].
    + rewrite G by lia. replace (Nat.eqb i j) with false by (symmetry; now apply Nat.eqb_neq). destruct i as [|i]; [lia|]. cbn [nth_error]. replace (S i - 1)%nat with i by lia. symmetry. apply nth_error_nth'. lia.
    + transitivity (@None fl); [|symmetry]; apply nth_error_None; rewrite ?map_length; cbn [length]; lia.
  - assert (S : nth_error (seq 0 (length ys)) k = Some k) by (rewrite (nth_error_nth' _ 0%nat) by (rewrite seq_length; lia); now rewrite seq_nth by lia).
    rewrite !nth_error_map, S. cbn [option_map]. unfold th. rewrite <- !firstn_map'. split; reflexivity.
Qed.

(* for a velocity proportional to the first parameter, the curves are where the velocity takes its best value *)
Lemma on_curve p ylim nc j bfit re truths c nx vre : (0 < j < length bfit)%nat -> (0 < kp_nv p)%nat -> proportional p ->
  one_curve p ylim nc (length bfit) bfit re truths (LinkInds [0%nat; j]) None = Ok (c, nx) -> getz truths (-2) = Ok (Fin vre) ->
  forall k y th v, nth_error (v_y c) k = Some y -> moved bfit (Fin 1) j y th -> kp_vel p (firstn (kp_nv p) th) re = Fin v -> v <> 0 ->
  exists x th', nth_error (v_re c) k = Some (Fin x) /\ moved bfit (Fin x) j y th' /\ kp_vel p (firstn (kp_nv p) th') re = Fin vre.
Proof.
  intros J NV PR H T k y th v Ny Mv Hv Vz. destruct (curve_points p ylim nc j bfit re truths c nx J H) as (vre'&v22&T1&_&_&_&LY&_&_&P).
  rewrite T in T1. inversion T1; subst vre'.
  assert (Hk : (k < 101)%nat). { rewrite LY in Ny. assert (k < length (linspace (fst (ylim (j * nc)%nat)) (snd (ylim (j * nc)%nat)) 101))%nat by (apply nth_error_Some; congruence). rewrite linspace_length in H0. exact H0. }
  destruct (P k Hk) as (y'&th'&N1&M1&N2&_). rewrite Ny in N1. inversion N1; subst y'.
  assert (th = th'). { apply list_ext. intros i. destruct Mv as (L1&A1&B1&C1), M1 as (L2&A2&B2&C2).
    destruct (Nat.eq_dec i 0) as [->|]; [congruence|]. destruct (Nat.eq_dec i j) as [->|]; [congruence|]. rewrite C1, C2 by assumption. reflexivity. }
  subst th'. rewrite Hv in N2. assert (E : fdiv (Fin vre) (Fin v) = Fin (vre / v)).
  { unfold fdiv, Reqb. destruct (Req_EM_T v 0); [contradiction|reflexivity]. }
  rewrite E in N2. exists (vre / v). destruct th as [|a th]; [destruct Mv as (_&A&_); discriminate|].
  assert (a = Fin 1) by (destruct Mv as (_&A&_); cbn in A; congruence). subst a. exists (Fin (vre / v) :: th). split; [exact N2|]. split.
  - destruct Mv as (L&A&B&C). split; [exact L|]. split; [reflexivity|]. destruct j as [|j]; [lia|]. split; [exact B|].
    intros [|i] I1 I2; [congruence|]. exact (C (S i) I1 I2).
  - destruct (kp_nv p) as [|nv]; [lia|]. cbn [firstn] in *. rewrite (PR _ _ _ Hv). f_equal. field. exact Vz.
Qed.

Lemma fiducial_proportional : proportional fiducial.
Proof.
  intros t r v. unfold fiducial. cbn [kp_vel vel_arctan]. destruct t as [|rt t]; [discriminate|]. cbn [fmul].
  destruct (fatan (fdiv r rt)) as [w| | |]; cbn [fmul]; intros H; try discriminate; [inversion H; intros a; f_equal; lra|..];
  unfold inf_scale in H; repeat match type of H with context [if ?x then _ else _] => destruct x end; discriminate.
Qed.

Lemma on_curve22 p ylim nc j bfit re truths c nx v22 : (0 < j < length bfit)%nat -> (0 < kp_nv p)%nat -> proportional p ->
  one_curve p ylim nc (length bfit) bfit re truths (LinkInds [0%nat; j]) None = Ok (c, nx) -> getz truths (-1) = Ok (Fin v22) ->
  let r22 := fmul (Fin (22 / 10 / (1676 / 1000))) re in
  forall k y th v, nth_error (v_y c) k = Some y -> moved bfit (Fin 1) j y th -> kp_vel p (firstn (kp_nv p) th) r22 = Fin v -> v <> 0 ->
  exists x th', nth_error (v_22 c) k = Some (Fin x) /\ moved bfit (Fin x) j y th' /\ kp_vel p (firstn (kp_nv p) th') r22 = Fin v22.
Proof.
  intros J NV PR H T r22 k y th v Ny Mv Hv Vz. destruct (curve_points p ylim nc j bfit re truths c nx J H) as (vre&v22'&_&T1&_&_&LY&_&_&P).
  rewrite T in T1. inversion T1; subst v22'.
  assert (Hk : (k < 101)%nat). { rewrite LY in Ny. assert (k < length (linspace (fst (ylim (j * nc)%nat)) (snd (ylim (j * nc)%nat)) 101))%nat by (apply nth_error_Some; congruence). rewrite linspace_length in H0. exact H0. }
  destruct (P k Hk) as (y'&th'&N1&M1&_&N2). rewrite Ny in N1. inversion N1; subst y'. fold r22 in N2.
  assert (th = th'). { apply list_ext. intros i. destruct Mv as (L1&A1&B1&C1), M1 as (L2&A2&B2&C2).
    destruct (Nat.eq_dec i 0) as [->|]; [congruence|]. destruct (Nat.eq_dec i j) as [->|]; [congruence|]. rewrite C1, C2 by assumption. reflexivity. }
  subst th'. rewrite Hv in N2. assert (E : fdiv (Fin v22) (Fin v) = Fin (v22 / v)).
  { unfold fdiv, Reqb. destruct (Req_EM_T v 0); [contradiction|reflexivity]. }
  rewrite E in N2. exists (v22 / v). destruct th as [|a th]; [destruct Mv as (_&A&_); discriminate|].
  assert (a = Fin 1) by (destruct Mv as (_&A&_); cbn in A; congruence). subst a. exists (Fin (v22 / v) :: th). split; [exact N2|]. split.
  - destruct Mv as (L&A&B&C). split; [exact L|]. split; [reflexivity|]. destruct j as [|j]; [lia|]. split; [exact B|].
    intros [|i] I1 I2; [congruence|]. exact (C (S i) I1 I2).
  - destruct (kp_nv p) as [|nv]; [lia|]. cbn [firstn] in *. rewrite (PR _ _ _ Hv). f_equal. field. exact Vz.
Qed.

(* the plot of an analysed chain *)
Lemma vre_index f h h' : add_v_re_22 f h = Ok h' -> f_abs f = false -> cols (h_flat h) = nfree (f_vary f) -> length (f_names f) = length (f_vary f) ->
  ~ In "V_RE"%string (f_names f) -> index_of "V_RE" (h_names h') = Ok (cols (h_flat h)).
Proof.
  intros E A C L N. destruct (derived_columns _ _ _ E A) as [(_&_&_&_&_&ns&En&Ln&Nn) _]. rewrite En.
  assert (LN : length ns = cols (h_flat h)) by (rewrite Ln, C, L; reflexivity). rewrite <- LN. apply index_of_app.
  intros I. apply N. apply In_nth_error in I. destruct I as [k Hk]. assert (Lk : (k < length ns)%nat) by (apply nth_error_Some; congruence).
  destruct (rank_surj (f_vary f) k) as (i&Fi&Ri); [lia|]. assert (Hi : (i < length (f_names f))%nat).
  { rewrite L. apply nth_error_Some. unfold free in Fi. congruence. }
  specialize (Nn i Hi Fi). rewrite Ri, Hk in Nn. eapply nth_error_In. symmetry. exact Nn.
Qed.

Lemma chain_label K f h h' p draw ylim show kp n bfit re c b : chain_results K None f h = Ok (h', p) -> f_abs f = false ->
  cols (h_flat h) = nfree (f_vary f) -> length (f_names f) = length (f_vary f) -> ~ In "V_RE"%string (f_names f) ->
  plot_param_corner draw ylim show None kp n bfit re h' p = Ok c -> k_one K (col (h_flat h') (cols (h_flat h))) = Ok (Fin b) ->
  let vs := rcol (h_flat h') (cols (h_flat h)) in
  exists lo2 lo1 hi1 hi2, quantile (15865/100000) vs lo1 /\ quantile (84135/100000) vs hi1 /\ quantile (2275/100000) vs lo2 /\ quantile (97725/100000) vs hi2 /\
    fst (c_one c) = mkSummary (Fin b) (Fin (b - lo1)) (Fin (hi1 - b)) /\ (snd (c_one c) = true <-> one_sided lo1 hi1) /\
    fst (c_two c) = mkSummary (Fin b) (Fin (b - lo2)) (Fin (hi2 - b)) /\ (snd (c_two c) = true <-> one_sided lo2 hi2) /\
    c_opp c = Fin (100 * INR (length (filter (fun x => if Rlt_dec (b * x) 0 then true else false) vs)) / INR (rows (h_flat h'))).
Proof.
  intros R A C L N P B vs. unfold chain_results in R. destruct (add_v_re_22 f h) as [g|] eqn:V; [|discriminate]. cbn [bind] in R.
  destruct (posterior K None (f_vary f) (h_flat g)) as [q|] eqn:E; [|discriminate]. cbn [bind] in R. apply Ok_inj, pair_equal_spec in R. destruct R as [-> ->].
  pose proof (vre_index _ _ _ V A C L N) as I. destruct (derived_columns _ _ _ V A) as [(_&Cc&_) _].
  assert (Pos : (0 < cols (h_flat h'))%nat) by lia. destruct (summaries _ _ _ _ _ E Pos) as (_&_&_&S&_).
  destruct (S (cols (h_flat h))) as (lo2&lo1&hi1&hi2&Q1&Q2&Q3&Q4&_&_&_&b'&Nb&Hb&o&No&_&Ho); [lia|]. clear S.
  destruct (Hb eq_refl) as (Kb&E1&E2). rewrite B in Kb. inversion Kb; subst b'.
  apply corner_inv in P. destruct P as (ks&kv&b1&e1&b2&e&f2&o2&_&I2&_&_&_&P1&P2&P3&P4&P5&P6&P7&_). rewrite I in I2. inversion I2; subst kv.
  rewrite Nb in P1. inversion P1; subst b2. rewrite E1 in P2. inversion P2; subst e. rewrite E2 in P3. inversion P3; subst f2. rewrite No in P4. assert (Eo : o2 = Fin o) by congruence. rewrite Eo in P7. clear o2 P4 Eo.
  exists lo2, lo1, hi1, hi2. fold vs in Q1, Q2, Q3, Q4. split; [exact Q1|]. split; [exact Q2|]. split; [exact Q3|]. split; [exact Q4|]. rewrite P5, P6, P7. cbn [fst snd].
  split; [reflexivity|]. split; [apply rotates_iff; eapply quantile_mono; [exact Q1|exact Q2|lra]|].
  split; [reflexivity|]. split; [apply rotates_iff; eapply quantile_mono; [exact Q3|exact Q4|lra]|].
  f_equal. apply Ho. reflexivity.
Qed.

Lemma index_of_in s l : In s l -> exists k, index_of s l = Ok k /\ (k < length l)%nat.
Proof.
  intros I. unfold index_of, where_. assert (G : forall o, exists k r, where_from o (String.eqb s) l = k :: r).
  { induction l as [|x l IH]; [destruct I|]. intros o. cbn [where_from]. destruct (String.eqb_spec s x) as [E|N]; [eexists; eexists; reflexivity|].
    destruct I as [F|I]; [congruence|]. exact (IH I (S o)). }
  destruct (G 0%nat) as (k&r&E). rewrite E. exists k. split; [reflexivity|].
  assert (X : index_of s l = Ok k) by (unfold index_of, where_; now rewrite E). apply index_of_ok in X. apply nth_error_Some. destruct X. congruence.
Qed.

Lemma plot_ok draw ylim show kp n bfit re h p : (forall s t, draw s t = Ok tt) -> length (p_best p) = cols (h_flat h) -> length (h_names h) = cols (h_flat h) ->
  In "sigma0"%string (h_names h) -> In "V_RE"%string (h_names h) ->
  (forall j, (j < cols (h_flat h))%nat -> exists e1 e2 o, nth_error (p_err1 p) j = Some e1 /\ nth_error (p_err2 p) j = Some e2 /\ nth_error (p_opp p) j = Some o) ->
  exists c, plot_param_corner draw ylim show None kp n bfit re h p = Ok c.
Proof.
  intros D LB LN I1 I2 S. unfold plot_param_corner. rewrite D. cbn [bind].
  assert (T : exists ts, titles (cols (but_two_cols (h_flat h))) (h_names h) (p_err1 p) (but_two (p_best p)) = Ok ts).
  { unfold titles. apply PFit1D2.mapM_total. intros i Hi. apply in_seq in Hi. unfold but_two in *. rewrite firstn_length, LB in *. cbn [but_two_cols cols].
    replace (Nat.min (cols (h_flat h) - 2) (cols (h_flat h))) with (cols (h_flat h) - 2)%nat in * by lia. set (m := (cols (h_flat h) - 2)%nat) in *.
    replace (Nat.ltb (i * m + i) (m * m)) with true by (symmetry; apply Nat.ltb_lt; nia). cbn [bind]. unfold note.
    assert (B : exists b, nth_error (firstn m (p_best p)) i = Some b). { rewrite firstn_nth by lia. destruct (nth_error (p_best p) i) eqn:E; [eauto|]. apply nth_error_None in E. lia. }
    destruct B as [b B]. apply getn_nth in B. rewrite B. cbn [bind]. destruct (S i) as (e1&_&_&E1&_); [lia|]. apply getn_nth in E1. rewrite E1. cbn [bind].
    destruct (nth_error (h_names h) i) as [nm|] eqn:E; [|apply nth_error_None in E; lia]. apply getn_nth in E. rewrite E. cbn [bind]. eauto. }
  destruct T as [ts T]. rewrite T. cbn [bind]. destruct (index_of_in _ _ I1) as (k1&X1&L1), (index_of_in _ _ I2) as (k2&X2&L2). rewrite X1. cbn [bind]. rewrite LN in *.
  assert (N : forall err k, (k < cols (h_flat h))%nat -> (exists e, nth_error err k = Some e) -> exists s, note (p_best p) err k = Ok s).
  { intros err k Hk [e He]. unfold note. destruct (nth_error (p_best p) k) as [b|] eqn:E; [|apply nth_error_None in E; lia]. apply getn_nth in E, He. rewrite E. cbn [bind]. rewrite He. cbn [bind]. eauto. }
  destruct (S k1 L1) as (a1&a2&a3&A1&A2&A3), (S k2 L2) as (c1&c2&c3&C1&C2&C3).
  destruct (N (p_err1 p) k1 L1 (ex_intro _ _ A1)) as [s1 Z1]. rewrite Z1. cbn [bind]. rewrite X2. cbn [bind].
  destruct (N (p_err1 p) k2 L2 (ex_intro _ _ C1)) as [s2 Z2]. rewrite Z2. cbn [bind]. apply getn_nth in C3. rewrite C3. cbn [bind].
  destruct (N (p_err2 p) k2 L2 (ex_intro _ _ C2)) as [s3 Z3]. rewrite Z3. cbn [bind]. eauto.
Qed.

Lemma chain_plot K f h h' p draw ylim show kp n bfit re : chain_results K None f h = Ok (h', p) -> f_abs f = false ->
  cols (h_flat h) = nfree (f_vary f) -> length (f_names f) = length (f_vary f) -> (forall s t, draw s t = Ok tt) ->
  (exists i, free (f_vary f) i /\ nth_error (f_names f) i = Some "sigma0"%string) -> exists c, plot_param_corner draw ylim show None kp n bfit re h' p = Ok c.
Proof.
  intros R A C L D (i&Fi&Ni). unfold chain_results in R. destruct (add_v_re_22 f h) as [g|] eqn:V; [|discriminate]. cbn [bind] in R.
  destruct (posterior K None (f_vary f) (h_flat g)) as [q|] eqn:E; [|discriminate]. cbn [bind] in R. apply Ok_inj, pair_equal_spec in R. destruct R as [-> ->].
  destruct (derived_columns _ _ _ V A) as [(_&Cc&_&_&_&ns&En&Ln&Nn) M]. assert (Pos : (0 < cols (h_flat h'))%nat) by lia.
  destruct (summaries _ _ _ _ _ E Pos) as (LB&_&_&S&_). apply plot_ok; auto.
  - rewrite En. apply in_or_app. left. assert (Hi : (i < length (f_names f))%nat) by (apply nth_error_Some; congruence). specialize (Nn i Hi Fi).
    rewrite Ni in Nn. eapply nth_error_In. exact Nn.
  - rewrite En. apply in_or_app. right. now left.
  - intros j Hj. destruct (S j Hj) as (lo2&lo1&hi1&hi2&_&_&_&_&_&_&_&b&_&Hb&o&No&_). destruct (Hb eq_refl) as (_&E1&E2). eauto 10.
Qed.

(* a fit of the arctan profile, three free parameters *)
Definition ex_disc (nm : string) : fitted :=
  mkFitted false fiducial [Fin 200; Fin 1; Fin 50; Fin 0; Fin 2] [true; true; true; false; false] ["V_a"; "r_t"; nm; "m0_shift"; "z"]%string (Fin 1).
Definition ex_samples : chains := mkChains (mk2 2 3 (fun k j => Fin (1 + INR k))) (mk3 1 2 3 (fun _ k j => Fin (1 + INR k))) [].
Definition ex_draw (s : arr2 fl) (t : list fl) : res unit := Ok tt.

Lemma ex_results nm : exists h' p, chain_results ex_kde None (ex_disc nm) ex_samples = Ok (h', p) /\
  h_names h' = ["V_a"; "r_t"; nm; "V_RE"; "V_22"; "sigma_RE"; "sigma_22"]%string.
Proof.
  unfold chain_results. destruct (derive_ok (ex_disc nm) ex_samples) as [h' E]; try reflexivity; try (cbn; lia). rewrite E. cbn [bind].
  assert (N : h_names h' = ["V_a"; "r_t"; nm; "V_RE"; "V_22"; "sigma_RE"; "sigma_22"]%string) by (unfold add_v_re_22 in E; cbn in E; injection E as <-; reflexivity).
  assert (X : exists p, posterior ex_kde None (f_vary (ex_disc nm)) (h_flat h') = Ok p).
  { destruct (derived_columns _ _ _ E eq_refl) as [(R1&C1&_&Old&D&_) _]. 
    assert (Fc : forall j, forallb isfinite (col (h_flat h') j) = true \/ (7 <= j)%nat).
    { intros j. destruct (Nat.lt_ge_cases j 7) as [Hj|]; [left|now right]. unfold col. apply forallb_forall. intros y Iy. apply in_map_iff in Iy. destruct Iy as (k&<-&_).
      destruct (Nat.lt_ge_cases j 3) as [H3|H3]; [rewrite Old by exact H3; reflexivity|].
      assert (F := fiducial_columns (ex_disc nm) ex_samples h' k (1 + INR k) (1 + INR k) (1 + INR k) 1 eq_refl eq_refl eq_refl E [Fin (1 + INR k); Fin (1 + INR k); Fin (1 + INR k); Fin 0; Fin 2]).
      destruct F as (F1&F2&F3&F4); try reflexivity; [|pose proof (pos_INR k); lra|].
      - split; [reflexivity|]. intros i Hi. unfold free. destruct i as [|[|[|[|[|i]]]]]; cbn [ex_disc f_vary nth_error];
          (split; [intros F; try discriminate|intros F; try congruence]); try reflexivity; cbn in Hi; lia.
      - change (cols (h_flat ex_samples)) with 3%nat in *. destruct j as [|[|[|[|[|[|[|j]]]]]]]; try lia; cbn [Nat.add] in F1, F2, F3, F4; rewrite ?F1, ?F2, ?F3, ?F4; reflexivity. }
    unfold posterior. rewrite C1. change (cols (h_flat ex_samples) + 4)%nat with 7%nat.
    assert (Lc : forall j, Nat.eqb (length (col (h_flat h') j)) 0 = false) by (intros j; unfold col; rewrite map_length, seq_length, R1; reflexivity).
    assert (Fj : forall j, (j < 7)%nat -> forallb isfinite (col (h_flat h') j) = true) by (intros j Hj; destruct (Fc j); [assumption|lia]).
    cbn [seq map peaks ex_kde k_one]. rewrite !Lc. rewrite !Fj by lia. cbn. eauto. }
  destruct X as [p X]. change (f_vary (ex_disc nm)) with [true; true; true; false; false] in X. cbn [ex_disc f_vary] in *. rewrite X. cbn [bind]. eauto.
Qed.

Lemma ex_plot : exists h' p c, chain_results ex_kde None (ex_disc "sigma0") ex_samples = Ok (h', p) /\
  plot_param_corner ex_draw (fun _ => (Fin 1, Fin 2)) true None fiducial 5 [Fin 1; Fin 1; Fin 1; Fin 0; Fin 2] (Fin 1) h' p = Ok c /\ length (c_titles c) = 5%nat.
Proof.
  destruct (ex_results "sigma0") as (h'&p&E&N). destruct (chain_plot ex_kde (ex_disc "sigma0") ex_samples h' p ex_draw (fun _ => (Fin 1, Fin 2)) true fiducial 5 [Fin 1; Fin 1; Fin 1; Fin 0; Fin 2] (Fin 1) E) as [c P]; try reflexivity.
  { exists 2%nat. split; reflexivity. }
  exists h', p, c. split; [exact E|]. split; [exact P|]. destruct (titled _ _ _ _ _ _ _ _ _ _ _ P) as (L&_). rewrite L.
  unfold chain_results in E. destruct (add_v_re_22 _ _) as [g|] eqn:V; [|discriminate]. cbn [bind] in E.
  destruct (posterior _ _ _ _) as [q|] eqn:Q; [|discriminate]. cbn [bind] in E. apply Ok_inj, pair_equal_spec in E. destruct E as [-> ->].
  destruct (derived_columns _ _ _ V eq_refl) as [(_&C1&_) _]. change (cols (h_flat ex_samples) + 4)%nat with 7%nat in C1.
  destruct (summaries _ _ _ _ _ Q) as (LB&_); [lia|]. rewrite LB, C1. reflexivity.
Qed.

(* a dispersion parameter called otherwise: the analysis succeeds and the plot fails *)
Lemma sigma0_refuted : exists f h h' p, f_prof f = fiducial /\ f_names f = ["V_a"; "r_t"; "sigma"; "m0_shift"; "z"]%string /\ chain_results ex_kde None f h = Ok (h', p) /\
  forall draw ylim show links kp n bfit re, exists e, plot_param_corner draw ylim show links kp n bfit re h' p = Err e.
Proof.
  destruct (ex_results "sigma") as (h'&p&E&N). exists (ex_disc "sigma"), ex_samples, h', p. split; [reflexivity|]. split; [reflexivity|]. split; [exact E|].
  intros. apply needs_sigma0. rewrite N. cbn. intuition discriminate.
Qed.

(* the curves use galaxy.re_arcsec, V(R_E) of the chain galaxy.re_mass_arcsec *)
Lemma ex_curve re vre v22 : exists c nx, one_curve fiducial (fun _ => (Fin 1, Fin 2)) 5 5 [Fin 1; Fin 1; Fin 50; Fin 0; Fin 2] (Fin re) [Fin 1; Fin 1; Fin 50; vre; v22] (LinkInds [0%nat; 1%nat]) None = Ok (c, nx).
Proof.
  unfold one_curve. cbn [getn nth_error bind]. change (Nat.ltb (0 + 1 * 5) (5 * 5)) with true. cbn [bind].
  change (getz [Fin 1; Fin 1; Fin 50; vre; v22] (-2)) with (Ok vre). change (getz [Fin 1; Fin 1; Fin 50; vre; v22] (-1)) with (Ok v22). cbn [bind].
  generalize (linspace (fst (Fin 1, Fin 2)) (snd (Fin 1, Fin 2)) 101). intros ys. cbn. eauto.
Qed.
Lemma Reqb_ne a b : a <> b -> Reqb a b = false.
Proof. apply Reqb_false. Qed.
Lemma first_y : nth_error (linspace (Fin 1) (Fin 2) 101) 0 = Some (Fin 1).
Proof. unfold linspace. rewrite nth_error_map. change (nth_error (seq 0 101) 0) with (Some 0%nat). cbn [option_map]. unfold linspace_at. cbn [Nat.leb]. f_equal.
  unfold fdiv. change (fsub (Fin 2) (Fin 1)) with (Fin (2 + - 1)). rewrite Reqb_ne by (apply not_0_INR; discriminate). cbn [fmul fadd INR]. f_equal. lra.
Qed.
Lemma other_radius_refuted : exists re rm bfit truths c nx x, getz truths (-2) = Ok (kp_vel fiducial (firstn 2 bfit) (Fin rm)) /\
  one_curve fiducial (fun _ => (Fin 1, Fin 2)) 5 5 bfit (Fin re) truths (LinkInds [0%nat; 1%nat]) None = Ok (c, nx) /\
  nth_error bfit 1 = nth_error (v_y c) 0 /\ nth_error (v_re c) 0 = Some (Fin x) /\ nth_error bfit 0 <> Some (Fin x).
Proof.
  set (vre := kp_vel fiducial [Fin 1; Fin 1] (Fin 2)).
  destruct (ex_curve 1 vre (Fin 1)) as (c&nx&E). exists 1, 2, [Fin 1; Fin 1; Fin 50; Fin 0; Fin 2], [Fin 1; Fin 1; Fin 50; vre; Fin 1], c, nx, (atan 2 / atan 1).
  split; [reflexivity|]. split; [exact E|].
  destruct (curve_points fiducial (fun _ => (Fin 1, Fin 2)) 5 1 [Fin 1; Fin 1; Fin 50; Fin 0; Fin 2] (Fin 1) [Fin 1; Fin 1; Fin 50; vre; Fin 1] c nx) as (v1&v2&T1&_&_&_&Y&_&_&P); [cbn; lia|exact E|].
  change (Ok vre = Ok v1) in T1. apply Ok_inj in T1. subst v1. cbn [fst snd] in Y. destruct (P 0%nat) as (y&th&Ny&M&Nx&_); [lia|]. rewrite Y in *. rewrite first_y in *. inversion Ny; subst y.
  split; [reflexivity|]. destruct M as (_&M0&M1&_). destruct th as [|a [|b th]]; try discriminate. cbn in M0, M1. inversion M0; inversion M1; subst a b.
  change (firstn (kp_nv fiducial) (Fin 1 :: Fin 1 :: th)) with [Fin 1; Fin 1] in Nx.
  assert (A1 : 0 < atan 1) by (rewrite <- atan_0; apply atan_increasing; lra). assert (A2 : atan 1 < atan 2) by (apply atan_increasing; lra). pose proof PI_RGT_0 as PP.
  assert (V : forall r, kp_vel fiducial [Fin 1; Fin 1] (Fin r) = Fin (2 / PI * 1 * atan (r / 1))).
  { intros r. unfold fiducial. cbn [kp_vel vel_arctan fmul]. unfold fdiv. rewrite Reqb_ne by lra. cbn [fatan fmul]. reflexivity. }
  unfold vre in Nx. rewrite !V in Nx. replace (2 / 1) with 2 in Nx by lra; replace (1 / 1) with 1 in Nx by lra.
  assert (NZ : 2 / PI * 1 * atan 1 <> 0). { apply Rmult_integral_contrapositive_currified; [|lra]. rewrite Rmult_1_r. apply Rgt_not_eq. apply Rdiv_lt_0_compat; lra. }
  unfold fdiv in Nx. rewrite Reqb_ne in Nx by exact NZ. split.
  - rewrite Nx. do 2 f_equal. field. split; [lra|]. lra.
  - cbn. intros F. inversion F as [G]. assert (atan 1 * 1 = atan 1 * (atan 2 / atan 1)) by congruence. field_simplify in H; lra.
Qed.
Lemma ex_on_curve : exists c nx, one_curve fiducial (fun _ => (Fin 1, Fin 2)) 5 5 [Fin 1; Fin 1; Fin 50; Fin 0; Fin 2] (Fin 1) [Fin 1; Fin 1; Fin 50; Fin 1; Fin 1] (LinkInds [0%nat; 1%nat]) None = Ok (c, nx) /\
  proportional fiducial /\ nth_error (v_y c) 0 = Some (Fin 1) /\ moved [Fin 1; Fin 1; Fin 50; Fin 0; Fin 2] (Fin 1) 1 (Fin 1) [Fin 1; Fin 1; Fin 50; Fin 0; Fin 2] /\
  kp_vel fiducial [Fin 1; Fin 1] (Fin 1) = Fin (2 / PI * 1 * atan (1 / 1)) /\ nth_error (v_re c) 0 = Some (Fin 2).
Proof.
  destruct (ex_curve 1 (Fin 1) (Fin 1)) as (c&nx&E). exists c, nx. split; [exact E|]. split; [apply fiducial_proportional|].
  destruct (curve_points fiducial (fun _ => (Fin 1, Fin 2)) 5 1 [Fin 1; Fin 1; Fin 50; Fin 0; Fin 2] (Fin 1) [Fin 1; Fin 1; Fin 50; Fin 1; Fin 1] c nx) as (v1&v2&T1&_&_&_&Y&_&_&P); [cbn; lia|exact E|].
  change (Ok (Fin 1) = Ok v1) in T1. apply Ok_inj in T1. subst v1. cbn [fst snd] in Y. destruct (P 0%nat) as (y&th&Ny&M&Nx&_); [lia|]. rewrite Y in *. rewrite first_y in *. inversion Ny; subst y.
  split; [reflexivity|]. split.
  { split; [reflexivity|]. split; [reflexivity|]. split; [reflexivity|]. reflexivity. }
  assert (V : kp_vel fiducial [Fin 1; Fin 1] (Fin 1) = Fin (2 / PI * 1 * atan (1 / 1))).
  { unfold fiducial. cbn [kp_vel vel_arctan fmul]. unfold fdiv. rewrite Reqb_ne by lra. cbn [fatan fmul]. reflexivity. }
  split; [exact V|]. destruct M as (_&M0&M1&_). destruct th as [|a [|b th]]; try discriminate. cbn in M0, M1. inversion M0; inversion M1; subst a b.
  change (firstn (kp_nv fiducial) (Fin 1 :: Fin 1 :: th)) with [Fin 1; Fin 1] in Nx. rewrite V in Nx. rewrite Nx. replace (1/1) with 1 by lra. rewrite atan_1.
  pose proof PI_RGT_0. replace (2 / PI * 1 * (PI / 4)) with (1 / 2) by (field; lra). unfold fdiv. rewrite Reqb_ne by lra. do 2 f_equal. lra.
Qed.
Lemma all_refuted draw ylim kp n bfit re h p : exists e, plot_param_corner draw ylim true (Some [LinkAll]) kp n bfit re h p = Err e.
Proof. eapply all_fails; [reflexivity|reflexivity|now left]. Qed.
Lemma shown draw ylim show links kp n bfit re h p c : plot_param_corner draw ylim show links kp n bfit re h p = Ok c ->
  length (c_titles c) = (length (p_best p) - 2)%nat /\ c_truths c = firstn (length (p_best p) - 2) (p_best p) /\
  rows (c_samples c) = rows (h_flat h) /\ cols (c_samples c) = (cols (h_flat h) - 2)%nat /\
  (forall k j, at2 (c_samples c) k j = at2 (h_flat h) k j) /\
  forall i, (i < length (p_best p) - 2)%nat -> exists nm b e, nth_error (c_titles c) i = Some (nm, mkSummary b (fst e) (snd e)) /\
    nth_error (h_names h) i = Some nm /\ nth_error (p_best p) i = Some b /\ nth_error (p_err1 p) i = Some e.
Proof. apply titled. Qed.
Lemma sigma_shown draw ylim show links kp n bfit re h p c : plot_param_corner draw ylim show links kp n bfit re h p = Ok c ->
  exists k b e, nth_error (h_names h) k = Some "sigma0"%string /\ nth_error (p_best p) k = Some b /\ nth_error (p_err1 p) k = Some e /\
    c_sigma c = mkSummary b (fst e) (snd e).
Proof. intros H. apply corner_inv in H. destruct H as (ks&kv&b1&e1&b&e&f&o&E&_&E1&E2&E3&_). apply index_of_ok in E. destruct E. eauto 8. Qed.
Lemma curves_shown draw ylim kp n bfit re h p c j : plot_param_corner draw ylim true (Some [LinkInds [0%nat; j]]) kp n bfit re h p = Ok c ->
  exists v nx, c_curves c = [v] /\ one_curve kp ylim (cols (h_flat h) - 2) n bfit re (firstn (length (p_best p) - 2) (p_best p)) (LinkInds [0%nat; j]) None = Ok (v, nx).
Proof.
  intros H. apply corner_inv in H. destruct H as (?&?&?&?&?&?&?&?&_&_&_&_&_&_&_&_&_&_&_&_&_&_&_&E). cbn [curves] in E.
  destruct (one_curve kp ylim (cols (but_two_cols (h_flat h))) n bfit re (but_two (p_best p)) (LinkInds [0%nat; j]) None) as [[v nx]|] eqn:E1; [|discriminate]. cbn [bind fst snd] in E.
  exists v, nx. split; [congruence|]. exact E1.
Qed.
