(* Proofs about the analysis of a chain: summaries and linked groups. *)
From Coq Require Import String Reals List Bool Arith ZArith Lra Lia Sorted Permutation.
From Verif Require Import PyFloat PyBase Arr PyNum MParams SParams PParams MProf MPost SPost PPost PPost2.
Import ListNotations.
Local Open Scope R_scope.

(** The samples of a column as real numbers. *)
Lemma col_finite a j : forallb isfinite (col a j) = true -> col a j = map Fin (rcol a j).
Proof.
  unfold col, rcol. rewrite map_map. intros H. rewrite forallb_forall in H. apply map_ext_in. intros i Hi.
  specialize (H (at2 a i j)). assert (I : isfinite (at2 a i j) = true) by (apply H, in_map_iff; eauto).
  destruct (at2 a i j); try discriminate. reflexivity.
Qed.

Lemma peaks_spec K : forall cs r, peaks K cs = Ok r -> length r = length cs /\
  forall j c, nth_error cs j = Some c -> c <> [] /\ forallb isfinite c = true /\
    exists p, nth_error r j = Some p /\ k_one K c = Ok p.
Proof.
  induction cs as [|c cs IH]; intros r E.
  - injection E as <-. split; auto. intros [|j]; discriminate.
  - cbn [peaks] in E. destruct (Nat.eqb_spec (length c) 0) as [N|N]; [discriminate|].
    destruct (forallb isfinite c) eqn:F; [|discriminate]. destruct (k_one K c) as [p|] eqn:E1; [|discriminate].
    cbn [bind] in E. destruct (peaks K cs) as [r'|] eqn:E2; [|discriminate]. cbn [bind] in E. injection E as <-.
    destruct (IH _ eq_refl) as [L H]. split; [cbn; now rewrite L|]. intros [|j] c' Hc.
    + injection Hc as <-. split; [intros ->; now apply N|]. split; auto. exists p. auto.
    + now apply H.
Qed.

Lemma cols_nth a j : (j < cols a)%nat -> nth_error (map (col a) (seq 0 (cols a))) j = Some (col a j).
Proof. intros H. rewrite nth_error_map, nth_error_nth' with (d := 0%nat) by now rewrite seq_length. now rewrite seq_nth. Qed.

(** Best values and errors agree with the limits. *)
Definition agree (best : list fl) (err lims : list (fl * fl)) : Prop :=
  length best = length lims /\ length err = length lims /\
  forall j b l, nth_error best j = Some b -> nth_error lims j = Some l ->
    nth_error err j = Some (fsub b (fst l), fsub (snd l) b).

Lemma errors_agree best lims : length best = length lims -> agree best (errors best lims) lims.
Proof.
  intros L. split; auto. split; [unfold errors; rewrite map_length, combine_length; lia|].
  intros j b l Hb Hl. unfold errors. rewrite nth_error_map.
  assert (X : nth_error (combine best lims) j = Some (b, l)).
  { clear L. revert lims j Hb Hl. induction best as [|x best IH]; intros [|y lims] [|j] Hb Hl; try discriminate.
    - injection Hb as ->. injection Hl as ->. reflexivity.
    - cbn in *. now apply IH. }
  now rewrite X.
Qed.

Lemma seti_spec {A} (l : list A) i v l' : seti l i v = Ok l' ->
  length l' = length l /\ nth_error l' i = Some v /\ forall j, j <> i -> nth_error l' j = nth_error l j.
Proof.
  unfold seti. destruct (Nat.ltb_spec i (length l)) as [H|H]; [|discriminate]. intros E. injection E as <-.
  split; [apply mapi_length|]. split.
  - rewrite mapi_nth. destruct (nth_error l i) eqn:X; [cbn; now rewrite Nat.eqb_refl|]. apply nth_error_None in X. lia.
  - intros j Hj. rewrite mapi_nth. destruct (nth_error l j); cbn; auto. now rewrite (proj2 (Nat.eqb_neq j i)).
Qed.

Lemma link_loop_agree lims : forall is_ peak best err b e, agree best err lims ->
  link_loop is_ peak lims best err = Ok (b, e) -> agree b e lims.
Proof.
  induction is_ as [|i is_ IH]; intros peak best err b e A E; [injection E as <- <-; exact A|].
  cbn [link_loop] in E. destruct peak as [|p peak]; [discriminate|].
  destruct (seti best i p) as [best'|] eqn:E1; [|discriminate]. cbn [bind] in E.
  destruct (getn lims i) as [l|] eqn:E2; [|discriminate]. cbn [bind] in E.
  destruct (seti err i _) as [err'|] eqn:E3; [|discriminate]. cbn [bind] in E.
  apply IH in E; auto. destruct A as (L1 & L2 & A). destruct (seti_spec _ _ _ _ E1) as (M1 & M2 & M3).
  destruct (seti_spec _ _ _ _ E3) as (N1 & N2 & N3). apply getn_ok in E2. split; [congruence|]. split; [congruence|].
  intros j b' l' Hb Hl. destruct (Nat.eq_dec j i) as [->|Q].
  - rewrite M2 in Hb. injection Hb as <-. rewrite E2 in Hl. injection Hl as <-. exact N2.
  - rewrite N3 by auto. rewrite M3 in Hb by auto. now apply A.
Qed.

Lemma link_loop_frame lims : forall is_ peak best err b e,
  link_loop is_ peak lims best err = Ok (b, e) -> length b = length best /\ length e = length err /\
  (forall j, ~ In j is_ -> nth_error b j = nth_error best j /\ nth_error e j = nth_error err j) /\
  (NoDup is_ -> forall k i, nth_error is_ k = Some i -> exists p l, nth_error peak k = Some p /\ nth_error lims i = Some l /\
     nth_error b i = Some p /\ nth_error e i = Some (fsub p (fst l), fsub (snd l) p)).
Proof.
  induction is_ as [|i is_ IH]; intros peak best err b e E.
  - injection E as <- <-. repeat split; auto. intros _ [|k]; discriminate.
  - cbn [link_loop] in E. destruct peak as [|p peak]; [discriminate|].
    destruct (seti best i p) as [best'|] eqn:E1; [|discriminate]. cbn [bind] in E.
    destruct (getn lims i) as [l|] eqn:E2; [|discriminate]. cbn [bind] in E.
    destruct (seti err i _) as [err'|] eqn:E3; [|discriminate]. cbn [bind] in E.
    destruct (IH _ _ _ _ _ E) as (L1 & L2 & F & G).
    destruct (seti_spec _ _ _ _ E1) as (M1 & M2 & M3). destruct (seti_spec _ _ _ _ E3) as (N1 & N2 & N3). apply getn_ok in E2.
    split; [congruence|]. split; [congruence|]. split.
    + intros j Hj. destruct (F j) as [F1 F2]; [intros X; apply Hj; now right|].
      rewrite F1, F2, M3, N3 by (intros ->; apply Hj; now left). auto.
    + intros ND k i' Hk. inversion_clear ND as [|? ? N ND']. destruct k as [|k].
      * injection Hk as <-. exists p, l. destruct (F i N) as [F1 F2]. rewrite F1, F2. auto.
      * cbn in Hk. destruct (G ND' k i' Hk) as (p' & l' & X). exists p', l'. exact X.
Qed.

Definition members (g : link) (n : nat) : list nat := match g with LinkAll => seq 0 (n - 4) | LinkInds l => l end.

Lemma linked_inv K flat best err lims g b e : linked K flat best err lims g = Ok (b, e) ->
  let is_ := members g (length best) in
  exists init peak, take best is_ = Ok init /\ k_many K (map (col flat) is_) init = Ok peak /\
    link_loop is_ peak lims best err = Ok (b, e).
Proof.
  unfold linked, members. intros E. cbn zeta. set (is_ := match g with LinkAll => _ | LinkInds l => l end) in *.
  destruct (forallb (fun i => Nat.ltb i (cols flat)) is_); [|discriminate].
  destruct (take best is_) as [init|]; [|discriminate]. cbn [bind] in E.
  destruct (k_many K (map (col flat) is_) init) as [peak|] eqn:E1; [|discriminate]. cbn [bind] in E. eauto.
Qed.

(** One group. *)
Lemma one_group K flat g lim1 lim2 best e1 e2 b f1 f2 :
  agree best e1 lim1 -> link_groups K flat [g] lim2 lim1 best e1 e2 = Ok (b, f1, f2) ->
  agree b f1 lim1 /\ length b = length best /\
  (forall j, ~ In j (members g (length best)) -> nth_error b j = nth_error best j) /\
  (NoDup (members g (length best)) -> exists init peak, 
     take best (members g (length best)) = Ok init /\
     k_many K (map (col flat) (members g (length best))) init = Ok peak /\
     forall k i, nth_error (members g (length best)) k = Some i -> nth_error b i = nth_error peak k).
Proof.
  intros A E. cbn [link_groups] in E. destruct (linked K flat best e1 lim1 g) as [[b1 g1]|] eqn:E1; [|discriminate].
  cbn [bind fst snd] in E. destruct (linked K flat b1 e2 lim2 g) as [[b2 g2]|] eqn:E2; [|discriminate]. cbn [bind snd] in E.
  injection E as <- <- <-. destruct (linked_inv _ _ _ _ _ _ _ _ E1) as (init & peak & T & P & Lp).
  split; [exact (link_loop_agree _ _ _ _ _ _ _ A Lp)|]. destruct (link_loop_frame _ _ _ _ _ _ _ Lp) as (L1 & L2 & F & G).
  split; auto. split; [intros j Hj; now apply F|]. intros ND. exists init, peak. split; auto. split; auto.
  intros k i Hk. destruct (G ND k i Hk) as (p & l & X1 & X2 & X3 & X4). congruence.
Qed.

(** The 2-sigma errors of any number of groups, for a search that stays at a peak it has found. *)
Definition stays (K : kde) : Prop := forall cs init peak, k_many K cs init = Ok peak -> k_many K cs peak = Ok peak.

Lemma take_peak (b : list fl) : forall is_ peak, (forall k i, nth_error is_ k = Some i -> exists p, nth_error peak k = Some p /\ nth_error b i = Some p) ->
  take b is_ = Ok (firstn (length is_) peak).
Proof.
  induction is_ as [|i is_ IH]; intros peak H; [reflexivity|].
  destruct (H 0%nat i eq_refl) as (p & P1 & P2). destruct peak as [|p' peak]; [discriminate|]. injection P1 as ->.
  cbn [take length firstn]. rewrite (proj2 (getn_ok b i p) P2). cbn [bind].
  rewrite (IH peak); [reflexivity|]. intros k i' Hk. exact (H (S k) i' Hk).
Qed.

Lemma two_sigma_step K flat g lim1 lim2 best e1 e2 r1 r2 : stays K ->
  (forall cs init peak, k_many K cs init = Ok peak -> length peak = length init) ->
  NoDup (members g (length best)) -> agree best e2 lim2 ->
  linked K flat best e1 lim1 g = Ok r1 -> linked K flat (fst r1) e2 lim2 g = Ok r2 -> agree (fst r1) (snd r2) lim2.
Proof.
  intros St Ln ND A E1 E2. destruct r1 as [b1 f1], r2 as [b2 f2]. cbn [fst snd] in *.
  destruct (linked_inv _ _ _ _ _ _ _ _ E1) as (init & peak & T & P & Lp).
  destruct (link_loop_frame _ _ _ _ _ _ _ Lp) as (L1 & L2 & F & G). specialize (G ND).
  destruct (linked_inv _ _ _ _ _ _ _ _ E2) as (init' & peak' & T' & P' & Lp'). rewrite L1 in *.
  set (is_ := members g (length best)) in *.
  assert (Li : length init = length is_).
  { clear -T. revert init T. induction is_ as [|i is_ IH]; intros init T; [injection T as <-; reflexivity|].
    cbn in T. destruct (getn best i); [|discriminate]. cbn [bind] in T. destruct (take best is_) as [r|]; [|discriminate].
    cbn [bind] in T. injection T as <-. cbn. now rewrite (IH r). }
  assert (T2 : take b1 is_ = Ok (firstn (length is_) peak)).
  { apply take_peak. intros k i Hk. destruct (G k i Hk) as (p & l & X1 & X2 & X3 & X4). eauto. }
  rewrite T2 in T'. injection T' as <-. rewrite firstn_all2 in P' by (rewrite (Ln _ _ _ P); lia).
  rewrite (St _ _ _ P) in P'. injection P' as <-.
  destruct (link_loop_frame _ _ _ _ _ _ _ Lp') as (L3 & L4 & F' & G'). specialize (G' ND).
  destruct A as (A1 & A2 & A3). split; [congruence|]. split; [congruence|]. intros j b l Hb Hl.
  destruct (in_dec Nat.eq_dec j is_) as [I|I].
  - apply In_nth_error in I. destruct I as [k Hk]. destruct (G k j Hk) as (p & l1 & X1 & X2 & X3 & X4).
    destruct (G' k j Hk) as (p' & l2 & Y1 & Y2 & Y3 & Y4). rewrite Y4. congruence.
  - destruct (F j I) as [F1 _]. destruct (F' j I) as [_ F2]. rewrite F2. apply A3; congruence.
Qed.

Lemma linked_length K flat best err lims g r : linked K flat best err lims g = Ok r -> length (fst r) = length best.
Proof.
  destruct r as [b e]. intros E. destruct (linked_inv _ _ _ _ _ _ _ _ E) as (init & peak & T & P & Lp).
  now destruct (link_loop_frame _ _ _ _ _ _ _ Lp).
Qed.

Lemma two_sigma K flat lim2 : stays K ->
  (forall cs init peak, k_many K cs init = Ok peak -> length peak = length init) ->
  forall gs cur best e1 e2 b f1 f2, (forall g, In g gs -> NoDup (members g (length best))) -> agree best e2 lim2 ->
  link_groups K flat gs lim2 cur best e1 e2 = Ok (b, f1, f2) -> agree b f2 lim2.
Proof.
  intros St Ln. induction gs as [|g gs IH]; intros cur best e1 e2 b f1 f2 ND A E.
  - injection E as <- <- <-. exact A.
  - cbn [link_groups] in E. destruct (linked K flat best e1 cur g) as [r1|] eqn:E1; [|discriminate]. cbn [bind] in E.
    destruct (linked K flat (fst r1) e2 lim2 g) as [r2|] eqn:E2; [|discriminate]. cbn [bind] in E.
    eapply IH; [| |exact E].
    + intros g' I. rewrite (linked_length _ _ _ _ _ _ _ E1). apply ND. now right.
    + eapply two_sigma_step; eauto. apply ND. now left.
Qed.

(** Limits of a column. *)
Definition limits (flat : arr2 fl) (q1 q2 : R) : list (fl * fl) :=
  map (fun c => (percentile q1 c, percentile q2 c)) (map (col flat) (seq 0 (cols flat))).

Lemma limits_length flat q1 q2 : length (limits flat q1 q2) = cols flat.
Proof. unfold limits. now rewrite !map_length, seq_length. Qed.

Lemma limits_nth flat q1 q2 j : (j < cols flat)%nat -> 
  nth_error (limits flat q1 q2) j = Some (percentile q1 (col flat j), percentile q2 (col flat j)).
Proof. intros H. unfold limits. rewrite nth_error_map, cols_nth by auto. reflexivity. Qed.

Lemma posterior_inv K links vary flat p : posterior K links vary flat = Ok p ->
  exists best, peaks K (map (col flat) (seq 0 (cols flat))) = Ok best /\ length best = cols flat /\
  let l1 := limits flat (15865/1000) (84135/1000) in
  let l2 := limits flat (2275/1000) (97725/1000) in
  agree best (errors best l1) l1 /\ agree best (errors best l2) l2 /\
  match links with
  | None => p_best p = best /\ p_err1 p = errors best l1 /\ p_err2 p = errors best l2
  | Some gs => link_groups K flat gs l2 l1 best (errors best l1) (errors best l2) = Ok (p_best p, p_err1 p, p_err2 p)
  end /\ p_opp p = opposite flat (p_best p) /\ p_fit p = firstn (n_free_param vary) (p_best p).
Proof.
  unfold posterior. intros E. destruct (peaks K (map (col flat) (seq 0 (cols flat)))) as [best|] eqn:E1; [|discriminate].
  cbn [bind] in E. destruct (peaks_spec _ _ _ E1) as [L _]. rewrite map_length, seq_length in L.
  exists best. split; auto. split; auto.
  change (map (fun c => (percentile (15865 / 1000) c, percentile (84135 / 1000) c)) (map (col flat) (seq 0 (cols flat))))
    with (limits flat (15865/1000) (84135/1000)) in E.
  change (map (fun c => (percentile (2275 / 1000) c, percentile (97725 / 1000) c)) (map (col flat) (seq 0 (cols flat))))
    with (limits flat (2275/1000) (97725/1000)) in E.
  split; [apply errors_agree; now rewrite limits_length|]. split; [apply errors_agree; now rewrite limits_length|].
  destruct links as [gs|].
  - destruct (link_groups K flat gs _ _ best _ _) as [[[b f1] f2]|] eqn:E2; [|discriminate]. cbn [bind fst snd] in E. injection E as <-. cbn. auto.
  - cbn [bind fst snd] in E. injection E as <-. cbn. auto.
Qed.

Lemma groups_length K flat lims : forall gs cur best e1 e2 b f1 f2,
  link_groups K flat gs lims cur best e1 e2 = Ok (b, f1, f2) -> length b = length best.
Proof.
  induction gs as [|g gs IH]; intros cur best e1 e2 b f1 f2 E; [injection E as <- <- <-; reflexivity|].
  cbn [link_groups] in E. destruct (linked K flat best e1 cur g) as [r1|] eqn:E1; [|discriminate]. cbn [bind] in E.
  destruct (linked K flat (fst r1) e2 lims g) as [r2|] eqn:E2; [|discriminate]. cbn [bind] in E.
  rewrite (IH _ _ _ _ _ _ _ E). now apply linked_length in E1.
Qed.

Lemma posterior_length K links vary flat p : posterior K links vary flat = Ok p -> length (p_best p) = cols flat.
Proof.
  intros E. destruct (posterior_inv _ _ _ _ _ E) as (best & _ & L & _ & _ & X & _). destruct links as [gs|].
  - apply groups_length in X. congruence.
  - destruct X as (-> & _). exact L.
Qed.

(** Limits are ordered and inside the samples. *)
Lemma column_limits flat j : (0 < rows flat)%nat -> forallb isfinite (col flat j) = true ->
  exists lo2 lo1 hi1 hi2,
    quantile (15865/100000) (rcol flat j) lo1 /\ quantile (84135/100000) (rcol flat j) hi1 /\
    quantile (2275/100000) (rcol flat j) lo2 /\ quantile (97725/100000) (rcol flat j) hi2 /\
    percentile (15865/1000) (col flat j) = Fin lo1 /\ percentile (84135/1000) (col flat j) = Fin hi1 /\
    percentile (2275/1000) (col flat j) = Fin lo2 /\ percentile (97725/1000) (col flat j) = Fin hi2 /\
    lo2 <= lo1 <= hi1 /\ hi1 <= hi2 /\ exists a b, In a (rcol flat j) /\ In b (rcol flat j) /\ a <= lo2 /\ hi2 <= b.
Proof.
  intros R F. rewrite (col_finite _ _ F).
  assert (N : rcol flat j <> []) by (unfold rcol; destruct (rows flat); [lia|discriminate]).
  destruct (percentile_Fin (15865/1000) (rcol flat j) N) as (lo1 & P1 & Q1); [lra|].
  destruct (percentile_Fin (84135/1000) (rcol flat j) N) as (hi1 & P2 & Q2); [lra|].
  destruct (percentile_Fin (2275/1000) (rcol flat j) N) as (lo2 & P3 & Q3); [lra|].
  destruct (percentile_Fin (97725/1000) (rcol flat j) N) as (hi2 & P4 & Q4); [lra|].
  replace (15865/1000/100) with (15865/100000) in Q1 by lra. replace (84135/1000/100) with (84135/100000) in Q2 by lra.
  replace (2275/1000/100) with (2275/100000) in Q3 by lra. replace (97725/1000/100) with (97725/100000) in Q4 by lra.
  exists lo2, lo1, hi1, hi2. repeat (split; [assumption|]).
  split; [split|split].
  - eapply quantile_mono; eauto; lra.
  - eapply quantile_mono; eauto; lra.
  - eapply quantile_mono; eauto; lra.
  - destruct (quantile_range _ _ _ Q3) as (a & _ & Ia & _ & Ha & _). destruct (quantile_range _ _ _ Q4) as (_ & b & _ & Ib & _ & Hb).
    exists a, b. auto.
Qed.

(** Percentages. *)
Lemma where_length {A} (P : A -> bool) l : length (where_ P l) = length (filter P l).
Proof.
  unfold where_. generalize 0%nat. induction l as [|a l IH]; intros k; [reflexivity|]. cbn. destruct (P a); cbn; now rewrite IH.
Qed.
Lemma filter_length_le {A} (P : A -> bool) l : (length (filter P l) <= length l)%nat.
Proof. induction l as [|a l IH]; cbn; [lia|]. destruct (P a); cbn; lia. Qed.

Lemma sign_neg b x : fltb (fmul (fsign (Fin b)) (Fin x)) (Fin 0) = true <-> b * x < 0.
Proof.
  unfold fsign. destruct (Rltb 0 b) eqn:P; [apply Rltb_true in P|apply Rltb_false in P; destruct (Rltb b 0) eqn:Q; [apply Rltb_true in Q|apply Rltb_false in Q]];
    cbn [fmul fltb]; rewrite Rltb_true.
  - split; nra.
  - split; nra.
  - assert (b = 0) by lra. subst b. split; nra.
Qed.

Lemma opposite_range flat best j b : (0 < rows flat)%nat -> nth_error best j = Some b ->
  exists o, nth_error (opposite flat best) j = Some (Fin o) /\ 0 <= o <= 100 /\
   forall r, b = Fin r -> forallb isfinite (col flat j) = true ->
     o = 100 * INR (length (filter (fun x => if Rlt_dec (r * x) 0 then true else false) (rcol flat j))) / INR (rows flat).
Proof.
  intros R Hb. unfold opposite. rewrite mapi_nth, Hb. cbn [option_map].
  assert (Rp : 0 < INR (rows flat)) by (apply lt_0_INR; lia). rewrite where_length.
  set (P := fun x => fltb (fmul (fsign b) x) (Fin 0)). set (n := length (filter P (col flat j))).
  assert (Hn : INR n <= INR (rows flat)).
  { apply le_INR. unfold n. etransitivity; [apply filter_length_le|]. unfold col. now rewrite map_length, seq_length. }
  unfold fdiv. destruct (Reqb (INR (rows flat)) 0) eqn:Z; [apply Reqb_true in Z; lra|]. cbn [fmul].
  eexists. split; [reflexivity|]. pose proof (pos_INR n). split.
  - assert (0 <= INR n / INR (rows flat)) by (apply Rmult_le_pos; [auto|left; now apply Rinv_0_lt_compat]).
    assert (INR n / INR (rows flat) <= 1) by (apply (Rmult_le_reg_r (INR (rows flat))); [auto|]; unfold Rdiv; rewrite Rmult_assoc, Rinv_l by lra; lra).
    lra.
  - intros r -> F.
    assert (E : n = length (filter (fun x => if Rlt_dec (r * x) 0 then true else false) (rcol flat j))).
    { unfold n. rewrite (col_finite _ _ F). generalize (rcol flat j). intros l. induction l as [|x l IH]; [reflexivity|].
      cbn [map filter]. unfold P at 1. destruct (fltb (fmul (fsign (Fin r)) (Fin x)) (Fin 0)) eqn:Q.
      - apply sign_neg in Q. destruct (Rlt_dec (r * x) 0); [|contradiction]. cbn [length]. now rewrite IH.
      - destruct (Rlt_dec (r * x) 0) as [Y|]; [apply sign_neg in Y; congruence|]. exact IH. }
    rewrite <- E. field. lra.
Qed.
