(* Proofs about walker initialisation in binary64. *)
From Coq Require Import ZArith Reals Lra Lia List Bool Arith.
From Flocq Require Import Core Plus_error IEEE754.BinarySingleNaN IEEE754.Binary IEEE754.Bits.
From Verif Require Import PyBase SParams PParams SFloat64 MFloat64.
Import ListNotations.
Local Open Scope R_scope.

Local Notation fexp := (FLT_exp (-1074) 53).
Local Notation F := (generic_format radix2 fexp).
Local Notation rnd := (round radix2 fexp ZnearestE).

Local Instance prec53 : Prec_gt_0 53.
Proof. reflexivity. Qed.
Local Instance fexp_valid : Valid_exp fexp.
Proof. apply FLT_exp_valid. exact prec53. Qed.

Lemma draw_le u : F u -> u < 1 -> u <= 1 - bpow radix2 (-53).
Proof.
  intros Fu L.
  assert (F1 : F 1) by (apply (generic_format_bpow radix2 fexp 0); vm_compute; discriminate).
  pose proof (pred_ge_gt radix2 fexp u 1 Fu F1 L) as H.
  change 1 with (bpow radix2 0) in H at 1. rewrite pred_bpow in H. exact H.
Qed.

Lemma pred_rnd_le x : pred radix2 fexp (rnd x) <= x.
Proof.
  destruct (round_DN_or_UP radix2 fexp ZnearestE x) as [E|E]; rewrite E.
  - eapply Rle_trans; [apply pred_le_id|]. apply (proj1 (proj2 (round_DN_pt radix2 fexp x))).
  - eapply Rle_trans; [exact (pred_UP_le_DN radix2 fexp x)|]. apply (proj1 (proj2 (round_DN_pt radix2 fexp x))).
Qed.

Lemma mult_le_pred u r : F u -> F r -> 0 <= u -> u < 1 -> bpow radix2 (-1021) <= r ->
  rnd (u * r) <= pred radix2 fexp r.
Proof.
  intros Fu Fr U0 U1 R1.
  pose proof (draw_le u Fu U1) as U.
  assert (B0 : 0 < bpow radix2 (-1021)) by apply bpow_gt_0.
  assert (Fb : F (bpow radix2 (-1022))) by (apply generic_format_bpow; vm_compute; discriminate).
  assert (LB : bpow radix2 (-1022) < r).
  { eapply Rlt_le_trans; [|exact R1]. apply bpow_lt. lia. }
  pose proof (pred_ge_gt radix2 fexp _ _ Fb Fr LB) as PB.
  set (p := pred radix2 fexp r) in *.
  assert (P0 : 0 < p). { eapply Rlt_le_trans; [apply (bpow_gt_0 radix2 (-1022))|exact PB]. }
  assert (EQ : p + ulp radix2 fexp p = r) by exact (pred_plus_ulp radix2 fexp r (Rlt_le_trans _ _ _ B0 R1) Fr).
  assert (UL : ulp radix2 fexp p <= p * bpow radix2 (-52)).
  { pose proof (ulp_FLT_le radix2 (-1074) 53 p) as H. rewrite (Rabs_pos_eq p) in H by lra.
    change (1 - 53)%Z with (-52)%Z in H. apply H. exact PB. }
  assert (PR : p < r) by (apply (pred_lt_id radix2 fexp r); lra).
  apply (round_N_le_midp radix2 fexp); [exact (generic_format_pred radix2 fexp r Fr)|].
  unfold p. rewrite (succ_pred radix2 fexp r Fr). fold p.
  assert (E52 : bpow radix2 (-52) = 2 * bpow radix2 (-53)).
  { change 2 with (bpow radix2 1). rewrite <- bpow_plus. reflexivity. }
  assert (B53 : 0 < bpow radix2 (-53)) by apply bpow_gt_0.
  apply Rle_lt_trans with ((1 - bpow radix2 (-53)) * r).
  - apply Rmult_le_compat_r; lra.
  - rewrite E52 in UL.
    assert (p * bpow radix2 (-53) < r * bpow radix2 (-53)) by (apply Rmult_lt_compat_r; lra).
    lra.
Qed.

Lemma step_inside lo hi u : F lo -> F hi -> F u -> 0 <= u -> u < 1 -> lo <= hi ->
  let r := rnd (hi - lo) in let p := rnd (u * r) in
  0 <= r /\ 0 <= p <= r /\ lo <= rnd (p + lo) <= hi.
Proof.
  intros Fl Fh Fu U0 U1 L r p.
  assert (F0 : F 0) by apply generic_format_0.
  assert (R0 : 0 <= r) by (apply round_ge_generic; [typeclasses eauto..|exact F0|lra]).
  assert (Fr : F r) by (apply generic_format_round; typeclasses eauto).
  assert (UR : 0 <= u * r) by (apply Rmult_le_pos; lra).
  assert (P0 : 0 <= p) by (apply round_ge_generic; [typeclasses eauto..|exact F0|exact UR]).
  assert (P1 : p <= r).
  { apply round_le_generic; [typeclasses eauto..|exact Fr|].
    rewrite <- (Rmult_1_l r) at 2. apply Rmult_le_compat_r; lra. }
  split; [exact R0|]. split; [split; assumption|]. split.
  - apply round_ge_generic; [typeclasses eauto..|exact Fl|lra].
  - apply round_le_generic; [typeclasses eauto..|exact Fh|].
    destruct (Rle_dec (hi - lo) (bpow radix2 (-1021))) as [S|B].
    + assert (E : r = hi - lo).
      { apply round_generic; [typeclasses eauto|]. unfold Rminus. apply FLT_format_plus_small.
        - typeclasses eauto.
        - exact Fh.
        - apply generic_format_opp; exact Fl.
        - change (53 + -1074)%Z with (-1021)%Z. rewrite Rabs_pos_eq; lra. }
      lra.
    + assert (B1 : bpow radix2 (-1021) <= r).
      { apply round_ge_generic; [typeclasses eauto..| |lra].
        apply generic_format_bpow; vm_compute; discriminate. }
      pose proof (mult_le_pred u r Fu Fr U0 U1 B1) as H.
      pose proof (pred_rnd_le (hi - lo)) as H'. fold r in H'. fold p in H. lra.
Qed.

(* ---- binary64 operations ---- *)

Lemma F_val x : F (val64 x).
Proof. exact (generic_format_B2R 53 1024 x). Qed.

Lemma largest_lt : largest64 < bpow radix2 1024.
Proof. unfold largest64. pose proof (bpow_gt_0 radix2 971). lra. Qed.

Lemma F_largest : F largest64.
Proof.
  unfold largest64. replace (bpow radix2 1024 - bpow radix2 971) with (pred radix2 fexp (bpow radix2 1024)).
  - apply generic_format_pred; [typeclasses eauto|]. apply generic_format_bpow. vm_compute. discriminate.
  - rewrite pred_bpow. reflexivity.
Qed.

Lemma le_leb64 a b : finite64 a -> finite64 b -> val64 a <= val64 b -> leb64 a b = true.
Proof.
  intros A B L. unfold leb64, b64_compare. rewrite (Bcompare_correct 53 1024 a b A B).
  destruct (Rcompare_spec (B2R 53 1024 a) (B2R 53 1024 b)) as [H|H|H]; auto. unfold val64 in L. lra.
Qed.

Lemma leb64_le a b : finite64 a -> finite64 b -> leb64 a b = true -> val64 a <= val64 b.
Proof.
  intros A B. unfold leb64, b64_compare. rewrite (Bcompare_correct 53 1024 a b A B). unfold val64.
  destruct (Rcompare_spec (B2R 53 1024 a) (B2R 53 1024 b)) as [H|H|H]; try discriminate; intros _; lra.
Qed.

Lemma max64_val a b : finite64 a -> finite64 b -> val64 a <= val64 b ->
  finite64 (max64 a b) /\ val64 (max64 a b) = val64 b.
Proof.
  intros A B L. unfold max64, ltb64, b64_compare. rewrite (Bcompare_correct 53 1024 a b A B).
  unfold val64 in *. destruct (Rcompare_spec (B2R 53 1024 a) (B2R 53 1024 b)) as [H|H|H]; split; auto; lra.
Qed.

Lemma min64_val a b : finite64 a -> finite64 b -> val64 a <= val64 b ->
  finite64 (min64 a b) /\ val64 (min64 a b) = val64 a.
Proof.
  intros A B L. unfold min64, ltb64, b64_compare. rewrite (Bcompare_correct 53 1024 b a B A).
  unfold val64 in *. destruct (Rcompare_spec (B2R 53 1024 b) (B2R 53 1024 a)) as [H|H|H]; split; auto; lra.
Qed.

Lemma minus64 a b : finite64 a -> finite64 b -> Rabs (rnd (val64 a - val64 b)) < bpow radix2 1024 ->
  finite64 (b64_minus mode_NE a b) /\ val64 (b64_minus mode_NE a b) = rnd (val64 a - val64 b).
Proof.
  intros A B L.
  pose proof (Bminus_correct 53 1024 eq_refl eq_refl binop_nan_pl64 mode_NE a b A B) as H.
  change (round_mode mode_NE) with ZnearestE in H.
  change (SpecFloat.fexp 53 1024) with fexp in H.
  rewrite Rlt_bool_true in H by exact L. destruct H as (V & Fi & _). split; [exact Fi|exact V].
Qed.

Lemma plus64 a b : finite64 a -> finite64 b -> Rabs (rnd (val64 a + val64 b)) < bpow radix2 1024 ->
  finite64 (b64_plus mode_NE a b) /\ val64 (b64_plus mode_NE a b) = rnd (val64 a + val64 b).
Proof.
  intros A B L.
  pose proof (Bplus_correct 53 1024 eq_refl eq_refl binop_nan_pl64 mode_NE a b A B) as H.
  change (round_mode mode_NE) with ZnearestE in H.
  change (SpecFloat.fexp 53 1024) with fexp in H.
  rewrite Rlt_bool_true in H by exact L. destruct H as (V & Fi & _). split; [exact Fi|exact V].
Qed.

Lemma mult64 a b : finite64 a -> finite64 b -> Rabs (rnd (val64 a * val64 b)) < bpow radix2 1024 ->
  finite64 (b64_mult mode_NE a b) /\ val64 (b64_mult mode_NE a b) = rnd (val64 a * val64 b).
Proof.
  intros A B L.
  pose proof (Bmult_correct 53 1024 eq_refl eq_refl binop_nan_pl64 mode_NE a b) as H.
  change (round_mode mode_NE) with ZnearestE in H.
  change (SpecFloat.fexp 53 1024) with fexp in H.
  rewrite Rlt_bool_true in H by exact L. destruct H as (V & Fi & _).
  split; [|exact V]. unfold finite64 in *. unfold b64_mult. rewrite A, B in Fi. exact Fi.
Qed.

Lemma val64_lt x : - bpow radix2 1024 < val64 x < bpow radix2 1024.
Proof. pose proof (abs_B2R_lt_emax 53 1024 x) as H. apply Rabs_def2 in H. unfold val64. lra. Qed.

Lemma walker64_inside lo hi u : box64 lo hi -> draw64 u ->
  let w := b64_plus mode_NE (b64_mult mode_NE u (b64_minus mode_NE (max64 lo hi) (min64 lo hi))) (min64 lo hi) in
  finite64 w /\ val64 lo <= val64 w <= val64 hi.
Proof.
  intros (Fl & Fh & L & W) (Fu & U0 & U1) w.
  destruct (max64_val lo hi Fl Fh L) as [Fm Vm]. destruct (min64_val lo hi Fl Fh L) as [Fn Vn].
  destruct (step_inside (val64 lo) (val64 hi) (val64 u) (F_val _) (F_val _) (F_val _) U0 U1 L) as (R0 & (P0 & P1) & S0 & S1).
  assert (RL : rnd (val64 hi - val64 lo) <= largest64)
    by (apply round_le_generic; [typeclasses eauto..|exact F_largest|exact W]).
  pose proof largest_lt as LL.
  destruct (minus64 (max64 lo hi) (min64 lo hi) Fm Fn) as [F1 V1].
  { rewrite Vm, Vn, Rabs_pos_eq; lra. }
  rewrite Vm, Vn in V1.
  destruct (mult64 u _ Fu F1) as [F2 V2].
  { rewrite V1, Rabs_pos_eq; lra. }
  rewrite V1 in V2.
  destruct (plus64 _ (min64 lo hi) F2 Fn) as [F3 V3].
  { rewrite V2, Vn. pose proof (val64_lt lo). pose proof (val64_lt hi). apply Rabs_def1; lra. }
  rewrite V2, Vn in V3. split; [exact F3|]. unfold w. rewrite V3. split; assumption.
Qed.

(* ---- the loops ---- *)

Lemma leb64_finite_mid a x b : finite64 a -> finite64 b -> leb64 a x = true -> leb64 x b = true -> finite64 x.
Proof.
  unfold finite64, leb64, b64_compare, Bcompare.
  destruct x as [s|s|s pl H|s m e H]; auto; destruct a as [sa|sa|sa pla Ha|sa ma ea Ha]; try discriminate;
    destruct b as [sb|sb|sb plb Hb|sb mb eb Hb]; try discriminate; destruct s; try destruct sa; try destruct sb;
    simpl; intros; congruence.
Qed.

Lemma between64_spec lo hi x : finite64 lo -> finite64 hi ->
  between64 (lo, hi) x = true <-> finite64 x /\ val64 lo <= val64 x <= val64 hi.
Proof.
  intros Fl Fh. unfold between64. cbn [fst snd]. rewrite andb_true_iff. split.
  - intros [A B]. pose proof (leb64_finite_mid lo x hi Fl Fh A B) as Fx.
    split; [exact Fx|]. split; apply leb64_le; auto.
  - intros (Fx & A & B). split; apply le_leb64; auto.
Qed.

Lemma prior64_loop_spec : forall n i k vary bounds tf,
  (i + n = length vary)%nat -> length bounds = length vary ->
  (forall j lo hi, free vary j -> nth_error bounds j = Some (lo, hi) -> finite64 lo /\ finite64 hi) ->
  k = rank vary i -> (nfree vary <= length tf)%nat ->
  exists st, prior64_loop (seq i n) k vary bounds tf = Ok st /\
   (forallb (fun s => s) st = true <->
     forall j lo hi x, (i <= j)%nat -> free vary j -> nth_error bounds j = Some (lo,hi) ->
       nth_error tf (rank vary j) = Some x -> finite64 x /\ val64 lo <= val64 x <= val64 hi).
Proof.
  induction n as [|n IH]; intros i k vary bounds tf Hi Hb Fb Hk Ht; simpl.
  - exists []. split; auto. split; auto. intros _ j lo hi x Hj Hf.
    assert (j < length vary)%nat by (apply nth_error_Some; unfold free in Hf; rewrite Hf; discriminate). lia.
  - destruct (nth_error vary i) as [b|] eqn:Ev.
    2:{ apply nth_error_None in Ev. lia. }
    unfold getn at 1. rewrite Ev. simpl. destruct b.
    + destruct (nth_error bounds i) as [[lo hi]|] eqn:Eb.
      2:{ apply nth_error_None in Eb. lia. }
      unfold getn at 1. rewrite Eb. simpl.
      destruct (nth_error tf k) as [x|] eqn:Et.
      2:{ apply nth_error_None in Et. subst k. pose proof (rank_lt_nfree vary i Ev). lia. }
      unfold getn at 1. rewrite Et. simpl.
      destruct (IH (S i) (S k) vary bounds tf) as (st & E & Hst); auto; try lia.
      { rewrite (rank_S _ _ _ Ev). lia. }
      rewrite E. simpl. exists (between64 (lo,hi) x :: st). split; auto.
      destruct (Fb i lo hi Ev Eb) as [Fl Fh].
      simpl. rewrite andb_true_iff, (between64_spec lo hi x Fl Fh), Hst. split.
      * intros [H1 H2] j lo' hi' x' Hj Hf Hb' Hx'.
        destruct (Nat.eq_dec j i) as [->|Hne].
        -- rewrite Eb in Hb'. injection Hb' as <- <-. subst k. rewrite Et in Hx'. injection Hx' as <-. auto.
        -- apply (H2 j lo' hi' x'); auto. lia.
      * intros H. split.
        -- apply (H i lo hi x); auto. subst k. auto.
        -- intros j lo' hi' x' Hj. apply H. lia.
    + destruct (IH (S i) k vary bounds tf) as (st & E & Hst); auto; try lia.
      { rewrite (rank_S _ _ _ Ev). lia. }
      exists st. split; auto. rewrite Hst. split; intros H j lo hi x Hj Hf.
      * destruct (Nat.eq_dec j i) as [->|Hne].
        -- unfold free in Hf. congruence.
        -- apply H; auto. lia.
      * apply H; auto. lia.
Qed.

Lemma log_prior64_spec vary bounds tf :
  length bounds = length vary ->
  (forall j lo hi, free vary j -> nth_error bounds j = Some (lo, hi) -> finite64 lo /\ finite64 hi) ->
  (nfree vary <= length tf)%nat ->
  (in_box64 vary bounds tf /\ log_prior64 (length vary) vary bounds tf = Ok (B754_zero 53 1024 false)) \/
  (~ in_box64 vary bounds tf /\ log_prior64 (length vary) vary bounds tf = Ok (B754_infinity 53 1024 true)).
Proof.
  intros Hb Fb Ht. unfold log_prior64.
  destruct (prior64_loop_spec (length vary) 0 0 vary bounds tf) as (st & E & Hst); auto.
  { destruct vary; reflexivity. }
  rewrite E. cbn [bind].
  assert (Hs : forallb (fun s => s) st = true <-> in_box64 vary bounds tf).
  { rewrite Hst. unfold in_box64. split; intros H i lo hi x.
    - apply H. lia.
    - intros _. apply H. }
  destruct (forallb (fun s => s) st).
  - left. split; auto. apply Hs. reflexivity.
  - right. split; auto. intros H. apply Hs in H. discriminate.
Qed.

Lemma range64_loop_spec : forall n i vary bounds,
  (i + n = length vary)%nat -> length bounds = length vary ->
  exists rng low, range64_loop (seq i n) vary bounds = Ok (rng, low) /\
    (length rng + rank vary i = nfree vary)%nat /\ length low = length rng /\
    (forall m lo hi, (i <= m)%nat -> free vary m -> nth_error bounds m = Some (lo,hi) ->
       nth_error rng (rank vary m - rank vary i) = Some (b64_minus mode_NE (max64 lo hi) (min64 lo hi)) /\
       nth_error low (rank vary m - rank vary i) = Some (min64 lo hi)).
Proof.
  induction n as [|n IH]; intros i vary bounds Hi Hb; simpl.
  - exists [], []. split; auto. split.
    + simpl. unfold nfree. f_equal. lia.
    + split; auto. intros m lo hi Hm Hf.
      assert (m < length vary)%nat by (apply nth_error_Some; unfold free in Hf; rewrite Hf; discriminate). lia.
  - destruct (nth_error vary i) as [b|] eqn:Ev.
    2:{ apply nth_error_None in Ev. lia. }
    destruct (IH (S i) vary bounds) as (rng & low & E & Hlen & Hll & Hr); auto; try lia.
    rewrite (rank_S _ _ _ Ev) in Hlen, Hr.
    unfold getn at 1. rewrite Ev. simpl. destruct b.
    + destruct (nth_error bounds i) as [[lo hi]|] eqn:Et.
      2:{ apply nth_error_None in Et. lia. }
      unfold getn at 1. rewrite Et. simpl. rewrite E. simpl.
      eexists _, _. split; [reflexivity|]. split; [simpl; lia|]. split; [simpl; lia|].
      intros m lo' hi' Hm Hf Hb'. destruct (Nat.eq_dec m i) as [->|Hne].
      * rewrite Nat.sub_diag. simpl. rewrite Et in Hb'. injection Hb' as <- <-. auto.
      * specialize (Hr m lo' hi' ltac:(lia) Hf Hb').
        assert (rank vary i + 1 <= rank vary m)%nat.
        { pose proof (rank_le vary (S i) m ltac:(lia)). rewrite (rank_S _ _ _ Ev) in H. auto. }
        replace (rank vary m - rank vary i)%nat with (S (rank vary m - (rank vary i + 1))) by lia.
        simpl. auto.
    + exists rng, low. split; auto. split; [lia|]. split; auto. intros m lo hi Hm Hf Hb'.
      destruct (Nat.eq_dec m i) as [->|Hne].
      * unfold free in Hf. congruence.
      * rewrite Nat.add_0_r in Hr. apply Hr; auto. lia.
Qed.

Lemma zip64_same f a b : length a = length b ->
  exists r, zip64 f a b = Ok r /\ length r = length a /\
    forall k x y, nth_error a k = Some x -> nth_error b k = Some y -> nth_error r k = Some (f x y).
Proof.
  intros H. unfold zip64. rewrite H, Nat.eqb_refl. eexists. split; [reflexivity|].
  split. { rewrite map_length, combine_length. lia. }
  intros k x y Hx Hy. rewrite nth_error_map.
  enough (nth_error (combine a b) k = Some (x,y)) as -> by reflexivity.
  clear H. revert b k Hx Hy; induction a as [|u a IH]; intros [|v b] [|k] Hx Hy; simpl in *; try discriminate.
  - injection Hx as ->. injection Hy as ->. auto.
  - auto.
Qed.

Lemma walkers64 vary bounds draws :
  length bounds = length vary ->
  (forall i lo hi, free vary i -> nth_error bounds i = Some (lo,hi) -> box64 lo hi) ->
  (forall us, In us draws -> length us = nfree vary /\ forall u, In u us -> draw64 u) ->
  exists pos, init_walker64 (length vary) vary bounds draws = Ok pos /\
    length pos = length draws /\
    forall p, In p pos -> length p = nfree vary /\ in_box64 vary bounds p.
Proof.
  intros Hb Hbd Hd. unfold init_walker64.
  destruct (range64_loop_spec (length vary) 0 vary bounds) as (rng & low & E & Hlen & Hll & Hr); auto.
  assert (H0: rank vary 0 = 0%nat) by (destruct vary; reflexivity).
  rewrite H0, Nat.add_0_r in Hlen. rewrite E. cbn [bind fst snd].
  induction draws as [|us draws IH]; cbn [walker64_list].
  - exists []. repeat split; auto; simpl in *; tauto.
  - destruct (Hd us ltac:(simpl; auto)) as (Hul & Hu).
    destruct (zip64_same (b64_mult mode_NE) us rng) as (p & Ep & Hlp & Hp); [lia|]. rewrite Ep. cbn [bind].
    destruct (zip64_same (b64_plus mode_NE) p low) as (q & Eq & Hlq & Hq); [lia|]. rewrite Eq. cbn [bind].
    destruct IH as (pos & Epos & Hlpos & Hpos). { intros; apply Hd; simpl; auto. }
    rewrite Epos. cbn [bind]. exists (q :: pos). split; auto. split; [simpl; auto|].
    intros w [<-|Hw]; auto. split; [lia|].
    intros i lo hi x Hf Hbi Hx.
    destruct (Hr i _ _ ltac:(lia) Hf Hbi) as [Hr1 Hr2]. rewrite H0, Nat.sub_0_r in Hr1, Hr2.
    destruct (nth_error us (rank vary i)) as [u|] eqn:Eu.
    2:{ apply nth_error_None in Eu. pose proof (rank_lt_nfree vary i Hf). lia. }
    specialize (Hp _ _ _ Eu Hr1). specialize (Hq _ _ _ Hp Hr2). rewrite Hq in Hx.
    assert (X : x = b64_plus mode_NE (b64_mult mode_NE u (b64_minus mode_NE (max64 lo hi) (min64 lo hi))) (min64 lo hi))
      by congruence.
    rewrite X. apply walker64_inside.
    + exact (Hbd i lo hi Hf Hbi).
    + apply Hu. eapply nth_error_In; eauto.
Qed.

Lemma walkers64_prior vary bounds draws :
  length bounds = length vary ->
  (forall i lo hi, free vary i -> nth_error bounds i = Some (lo,hi) -> box64 lo hi) ->
  (forall us, In us draws -> length us = nfree vary /\ forall u, In u us -> draw64 u) ->
  exists pos, init_walker64 (length vary) vary bounds draws = Ok pos /\
    length pos = length draws /\
    forall p, In p pos -> length p = nfree vary /\ in_box64 vary bounds p /\
      log_prior64 (length vary) vary bounds p = Ok (B754_zero 53 1024 false).
Proof.
  intros Hb Hbd Hd. destruct (walkers64 vary bounds draws Hb Hbd Hd) as (pos & E & L & H).
  exists pos. split; [exact E|]. split; [exact L|]. intros p Hp. destruct (H p Hp) as [Lp B].
  split; [exact Lp|]. split; [exact B|].
  destruct (log_prior64_spec vary bounds p Hb) as [[_ X]|[X _]].
  - intros j lo hi Hf Hj. destruct (Hbd j lo hi Hf Hj) as (A & C & _). auto.
  - lia.
  - exact X.
  - contradiction.
Qed.

(* ---- concrete doubles ---- *)

(** 1/3 rounded down to 53 bits: 6004799503160661 * 2^-54. *)
Definition d_third : binary64 := B754_finite 53 1024 false 6004799503160661 (-54) eq_refl.
(** 7/10 to 53 bits: 6305039478318694 * 2^-53. *)
Definition d_seven : binary64 := B754_finite 53 1024 false 6305039478318694 (-53) eq_refl.
(** The largest draw, 1 - 2^-53. *)
Definition d_top : binary64 := B754_finite 53 1024 false 9007199254740991 (-53) eq_refl.
(** 1/2. *)
Definition d_half : binary64 := B754_finite 53 1024 false 4503599627370496 (-53) eq_refl.
(** -1/10 to 53 bits: 7205759403792794 * 2^-56. *)
Definition d_mtenth : binary64 := B754_finite 53 1024 true 7205759403792794 (-56) eq_refl.
(** 2^1023 and its opposite. *)
Definition d_huge : binary64 := B754_finite 53 1024 false 4503599627370496 971 eq_refl.
Definition d_mhuge : binary64 := B754_finite 53 1024 true 4503599627370496 971 eq_refl.

Lemma val_finite s m e H : val64 (B754_finite 53 1024 s m e H) = (IZR (if s then Z.neg m else Z.pos m) * bpow radix2 e).
Proof. destruct s; reflexivity. Qed.

Lemma d_top_draw : draw64 d_top.
Proof. split; [reflexivity|]. unfold d_top. rewrite val_finite. simpl. lra. Qed.
Lemma d_half_draw : draw64 d_half.
Proof. split; [reflexivity|]. unfold d_half. rewrite val_finite. simpl. lra. Qed.

Lemma largest_big : 2 <= largest64.
Proof.
  unfold largest64. replace (bpow radix2 1024) with (bpow radix2 53 * bpow radix2 971).
  - assert (1 <= bpow radix2 971) by (change 1 with (bpow radix2 0); apply bpow_le; lia).
    assert (3 <= bpow radix2 53) by (simpl; lra). nra.
  - rewrite <- bpow_plus. reflexivity.
Qed.

Lemma ex_box64 : box64 d_mtenth d_seven.
Proof.
  split; [reflexivity|]. split; [reflexivity|].
  pose proof largest_big. unfold d_mtenth, d_seven. rewrite !val_finite. simpl. lra.
Qed.

Lemma ex_walkers64 :
  let vary := [true; false; true] in
  let bounds := [(d_mtenth, d_seven); (d_seven, d_mtenth); (d_third, d_third)] in
  (forall i lo hi, free vary i -> nth_error bounds i = Some (lo,hi) -> box64 lo hi) /\
  (forall us, In us [[d_top; d_half]; [d_half; d_top]] ->
     length us = nfree vary /\ forall u, In u us -> draw64 u).
Proof.
  split.
  - intros [|[|[|[|i]]]] lo hi Hf Hb; try discriminate.
    + assert (lo = d_mtenth /\ hi = d_seven) as [-> ->] by (simpl in Hb; split; congruence). exact ex_box64.
    + assert (lo = d_third /\ hi = d_third) as [-> ->] by (simpl in Hb; split; congruence).
      split; [reflexivity|]. split; [reflexivity|]. pose proof largest_big. lra.
  - intros us [<-|[<-|[]]]; (split; [reflexivity|]); intros u [<-|[<-|[]]];
      first [exact d_top_draw|exact d_half_draw].
Qed.

Lemma overflow64 :
  exists lo hi u, finite64 lo /\ finite64 hi /\ val64 lo <= val64 hi /\ draw64 u /\
    init_walker64 1 [true] [(lo, hi)] [[u]] = Ok [[B754_infinity 53 1024 false]] /\
    log_prior64 1 [true] [(lo, hi)] [B754_infinity 53 1024 false] = Ok (B754_infinity 53 1024 true).
Proof.
  exists d_mhuge, d_huge, d_half. split; [reflexivity|]. split; [reflexivity|]. split.
  - unfold d_mhuge, d_huge. rewrite !val_finite.
    pose proof (bpow_gt_0 radix2 971). lra.
  - split; [exact d_half_draw|]. split; vm_compute; reflexivity.
Qed.
