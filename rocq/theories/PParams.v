From Coq Require Import Reals Lra List Bool Arith Lia.
From Verif Require Import PyFloat PyBase MParams SParams.
Import ListNotations.

Lemma fleb_fle x y : fleb x y = true <-> fle x y.
Proof.
  split.
  - destruct x, y; simpl; intros H; try discriminate;
      try (constructor; congruence). apply Rleb_true in H. now constructor.
  - intros H; inversion H; subst; simpl.
    + now apply Rleb_true.
    + destruct y; simpl; auto; congruence.
    + destruct x; simpl; auto; congruence.
Qed.

Lemma between_spec lo hi x : between (lo, hi) x = true <-> fle lo x /\ fle x hi.
Proof. unfold between; simpl. rewrite andb_true_iff, !fleb_fle. tauto. Qed.

(* rank facts *)
Lemma rank_le v i j : i <= j -> rank v i <= rank v j.
Proof.
  revert i j; induction v as [|b v IH]; intros [|i] [|j] H; simpl; try lia.
  specialize (IH i j ltac:(lia)). lia.
Qed.
Lemma rank_S v i b : nth_error v i = Some b -> rank v (S i) = rank v i + (if b then 1 else 0).
Proof.
  revert i; induction v as [|c v IH]; intros [|i] H; simpl in *; try discriminate.
  - injection H as ->. destruct v; simpl; lia.
  - specialize (IH i H). simpl in IH. rewrite IH. lia.
Qed.
Lemma rank_lt_nfree v i : free v i -> rank v i < nfree v.
Proof.
  intros H. unfold nfree. assert (Hl: S i <= length v).
  { apply nth_error_Some. unfold free in H. rewrite H. discriminate. }
  pose proof (rank_le v (S i) (length v) Hl).
  rewrite (rank_S _ _ _ H) in H0. lia.
Qed.
Lemma rank_app_seq v i : rank v (length v) = rank v i + rank (skipn i v) (length v - i).
Proof.
  revert i; induction v as [|b v IH]; intros [|i]; simpl; auto. rewrite (IH i). lia.
Qed.

(* the prior loop *)
Lemma prior_loop_spec : forall n i k (theta : list fl) vary bounds tf,
  i + n = length theta -> length vary = length theta -> length bounds = length theta ->
  k = rank vary i -> nfree vary <= length tf ->
  exists st, prior_loop (seq i n) k vary bounds tf = Ok st /\
   (forallb (fun s => s) st = true <->
     forall j lo hi x, i <= j -> free vary j -> nth_error bounds j = Some (lo,hi) ->
       nth_error tf (rank vary j) = Some x -> fle lo x /\ fle x hi).
Proof.
  induction n as [|n IH]; intros i k theta vary bounds tf Hi Hv Hb Hk Ht; simpl.
  - exists []. split; auto. split; auto. intros _ j lo hi x Hj Hf.
    assert (j < length vary) by (apply nth_error_Some; unfold free in Hf; rewrite Hf; discriminate). lia.
  - destruct (nth_error vary i) as [b|] eqn:Ev.
    2:{ apply nth_error_None in Ev. lia. }
    unfold getn at 1. rewrite Ev. simpl. destruct b.
    + destruct (nth_error bounds i) as [[lo hi]|] eqn:Eb.
      2:{ apply nth_error_None in Eb. lia. }
      unfold getn at 1. rewrite Eb. simpl.
      destruct (nth_error tf k) as [x|] eqn:Et.
      2:{ apply nth_error_None in Et. subst k. pose proof (rank_lt_nfree vary i Ev). lia. }
      unfold getn at 1. rewrite Et. simpl.
      destruct (IH (S i) (S k) theta vary bounds tf) as (st & E & Hst); auto; try lia.
      { rewrite (rank_S _ _ _ Ev). lia. }
      rewrite E. simpl. exists (between (lo,hi) x :: st). split; auto.
      simpl. rewrite andb_true_iff, between_spec, Hst. split.
      * intros [H1 H2] j lo' hi' x' Hj Hf Hb' Hx'.
        destruct (Nat.eq_dec j i) as [->|Hne].
        -- rewrite Eb in Hb'. injection Hb' as <- <-. subst k. rewrite Et in Hx'. injection Hx' as <-. auto.
        -- apply (H2 j lo' hi' x'); auto. lia.
      * intros H. split.
        -- apply (H i lo hi x); auto. subst k. auto.
        -- intros j lo' hi' x' Hj. apply H. lia.
    + destruct (IH (S i) k theta vary bounds tf) as (st & E & Hst); auto; try lia.
      { rewrite (rank_S _ _ _ Ev). lia. }
      exists st. split; auto. rewrite Hst. split; intros H j lo hi x Hj Hf.
      * destruct (Nat.eq_dec j i) as [->|Hne].
        -- unfold free in Hf. congruence.
        -- apply H; auto. lia.
      * apply H; auto. lia.
Qed.

Lemma log_prior_zero_iff theta vary bounds tf :
  length vary = length theta -> length bounds = length theta -> nfree vary <= length tf ->
  (log_prior theta vary bounds tf = Ok (Fin 0) <-> in_support vary bounds tf) /\
  (log_prior theta vary bounds tf = Ok NInf <-> ~ in_support vary bounds tf).
Proof.
  intros Hv Hb Ht. unfold log_prior.
  destruct (prior_loop_spec (length theta) 0 0 theta vary bounds tf) as (st & E & Hst); auto.
  { destruct vary; reflexivity. }
  rewrite E. simpl.
  assert (Hs : forallb (fun s => s) st = true <-> in_support vary bounds tf).
  { rewrite Hst. unfold in_support. split; intros H i lo hi x.
    - apply H. lia.
    - intros _. apply H. }
  destruct (forallb (fun s => s) st) eqn:Ef.
  - split; split; intros H; auto; try discriminate.
    + apply Hs; auto.
    + exfalso. apply H. apply Hs; auto.
  - split; split; intros H; auto; try discriminate.
    + apply Hs in H; discriminate.
    + intros Hin. apply Hs in Hin. discriminate.
Qed.

Lemma prior_loop_short : forall n i k (theta : list fl) vary bounds tf,
  i + n = length theta -> length vary = length theta -> length bounds = length theta ->
  k = rank vary i -> k <= length tf -> length tf < nfree vary ->
  prior_loop (seq i n) k vary bounds tf = Err IndexError.
Proof.
  induction n as [|n IH]; intros i k theta vary bounds tf Hi Hv Hb Hk Hkt Ht; simpl.
  - subst k. unfold nfree in Ht. replace i with (length vary) in Hkt by lia. lia.
  - destruct (nth_error vary i) as [b|] eqn:Ev.
    2:{ apply nth_error_None in Ev. lia. }
    unfold getn at 1. rewrite Ev. simpl. destruct b.
    + destruct (nth_error bounds i) as [p|] eqn:Eb.
      2:{ apply nth_error_None in Eb. lia. }
      unfold getn at 1. rewrite Eb. simpl. unfold getn at 1.
      destruct (nth_error tf k) as [x|] eqn:Et; simpl; auto.
      rewrite (IH (S i) (S k) theta); auto; try lia.
      * rewrite (rank_S _ _ _ Ev). lia.
      * apply Nat.le_succ_l. apply nth_error_Some. congruence.
    + apply (IH (S i) k theta); auto; try lia. rewrite (rank_S _ _ _ Ev). lia.
Qed.

Lemma log_prior_short theta vary bounds tf :
  length vary = length theta -> length bounds = length theta -> length tf < nfree vary ->
  log_prior theta vary bounds tf = Err IndexError.
Proof.
  intros Hv Hb Ht. unfold log_prior.
  rewrite (prior_loop_short (length theta) 0 0 theta vary bounds tf); auto; try lia.
  destruct vary; reflexivity.
Qed.

(* n_free_param agrees with nfree *)
Lemma where_from_len v k : length (where_from k (fun b : bool => b) v) = rank v (length v).
Proof. revert k; induction v as [|b v IH]; intros k; simpl; auto. rewrite app_length, IH. destruct b; auto. Qed.
Lemma n_free_param_nfree v : n_free_param v = nfree v.
Proof. apply where_from_len. Qed.

(* update_parameters *)
Lemma update_loop_spec : forall n i j vary tf theta,
  i + n = length theta -> length vary = length theta -> j = rank vary i ->
  nfree vary <= length tf ->
  exists th, update_loop (seq i n) j vary tf theta = (th, Ok tt) /\ length th = length theta /\
    (forall m, i <= m -> free vary m -> nth_error th m = nth_error tf (rank vary m)) /\
    (forall m, m < i \/ ~ free vary m -> nth_error th m = nth_error theta m).
Proof.
  induction n as [|n IH]; intros i j vary tf theta Hi Hv Hj Ht; simpl.
  - exists theta. split; [auto|]. split; [auto|]. split; [|auto].
    intros m Hm Hf. assert (m < length vary) by (apply nth_error_Some; unfold free in Hf; rewrite Hf; discriminate). lia.
  - destruct (nth_error vary i) as [b|] eqn:Ev.
    2:{ apply nth_error_None in Ev. lia. }
    unfold getn at 1. rewrite Ev. destruct b.
    + unfold getn. destruct (nth_error tf j) as [x|] eqn:Et.
      2:{ apply nth_error_None in Et. subst j. pose proof (rank_lt_nfree vary i Ev). lia. }
      set (theta' := mapi (fun k y => if Nat.eqb k i then x else y) theta).
      assert (Hl : length theta' = length theta) by apply mapi_length.
      destruct (IH (S i) (S j) vary tf theta') as (th & E & Hlt & H1 & H2); auto; try lia.
      { rewrite (rank_S _ _ _ Ev). lia. }
      exists th. split; [auto|]. split; [lia|]. split.
      * intros m Hm Hf. destruct (Nat.eq_dec m i) as [->|Hne].
        -- rewrite H2 by lia. unfold theta'. rewrite mapi_nth.
           destruct (nth_error theta i) eqn:E1.
           ++ simpl. rewrite Nat.eqb_refl. subst j. auto.
           ++ apply nth_error_None in E1. lia.
        -- apply H1; auto. lia.
      * intros m Hm. assert (Hmi : m <> i).
        { intros ->. destruct Hm as [Hm|Hm]; [lia|]. apply Hm. exact Ev. }
        rewrite H2 by (destruct Hm; [left; lia|right; auto]).
        unfold theta'. rewrite mapi_nth. destruct (nth_error theta m); auto. simpl.
        apply Nat.eqb_neq in Hmi. now rewrite Hmi.
    + destruct (IH (S i) j vary tf theta) as (th & E & Hlt & H1 & H2); auto; try lia.
      { rewrite (rank_S _ _ _ Ev). lia. }
      exists th. split; [auto|]. split; [lia|]. split.
      * intros m Hm Hf. destruct (Nat.eq_dec m i) as [->|Hne].
        -- unfold free in Hf. congruence.
        -- apply H1; auto. lia.
      * intros m Hm. destruct (Nat.eq_dec m i) as [->|Hne].
        -- apply H2. lia.
        -- apply H2. destruct Hm; [left; lia|right; auto].
Qed.

Lemma update_parameters_spec theta vary tf :
  length vary = length theta -> nfree vary <= length tf ->
  exists th, update_parameters theta vary tf = (th, Ok tt) /\ length th = length theta /\
    (forall m, free vary m -> nth_error th m = nth_error tf (rank vary m)) /\
    (forall m, ~ free vary m -> nth_error th m = nth_error theta m).
Proof.
  intros Hv Ht. unfold update_parameters.
  destruct (update_loop_spec (length theta) 0 0 vary tf theta) as (th & E & Hl & H1 & H2); auto.
  { destruct vary; reflexivity. }
  exists th. split; [auto|]. split; [auto|]. split; intros m Hm.
  - apply H1; auto. lia.
  - apply H2; auto.
Qed.

(* initialize_fitting_theta *)
Lemma init_fit_loop_spec : forall n i theta vary,
  i + n = length theta -> length vary = length theta ->
  exists r, init_fit_loop (seq i n) theta vary = Ok r /\
    length r + rank vary i = nfree vary /\
    (forall m, i <= m -> free vary m -> nth_error r (rank vary m - rank vary i) = nth_error theta m).
Proof.
  induction n as [|n IH]; intros i theta vary Hi Hv; simpl.
  - exists []. split; auto. split.
    + simpl. unfold nfree. f_equal. lia.
    + intros m Hm Hf. assert (m < length vary) by (apply nth_error_Some; unfold free in Hf; rewrite Hf; discriminate). lia.
  - destruct (nth_error vary i) as [b|] eqn:Ev.
    2:{ apply nth_error_None in Ev. lia. }
    destruct (IH (S i) theta vary) as (r & E & Hlen & Hr); auto; try lia.
    rewrite (rank_S _ _ _ Ev) in Hlen, Hr.
    unfold getn at 1. rewrite Ev. simpl. destruct b.
    + destruct (nth_error theta i) as [x|] eqn:Et.
      2:{ apply nth_error_None in Et. lia. }
      unfold getn at 1. rewrite Et. simpl. rewrite E. simpl.
      exists (x :: r). split; auto. split; [simpl; lia|].
      intros m Hm Hf. destruct (Nat.eq_dec m i) as [->|Hne].
      * rewrite Nat.sub_diag. simpl. auto.
      * specialize (Hr m ltac:(lia) Hf).
        assert (rank vary i + 1 <= rank vary m).
        { pose proof (rank_le vary (S i) m ltac:(lia)). rewrite (rank_S _ _ _ Ev) in H. auto. }
        replace (rank vary m - rank vary i) with (S (rank vary m - (rank vary i + 1))) by lia.
        simpl. auto.
    + exists r. split; auto. split; [lia|]. intros m Hm Hf.
      destruct (Nat.eq_dec m i) as [->|Hne].
      * unfold free in Hf. congruence.
      * rewrite Nat.add_0_r in Hr. apply Hr; auto. lia.
Qed.

Lemma init_fit_spec theta vary : length vary = length theta ->
  exists r, initialize_fitting_theta theta vary = Ok r /\ length r = nfree vary /\
    (forall m, free vary m -> nth_error r (rank vary m) = nth_error theta m).
Proof.
  intros Hv. destruct (init_fit_loop_spec (length theta) 0 theta vary) as (r & E & Hl & Hr); auto.
  assert (H0: rank vary 0 = 0) by (destruct vary; reflexivity).
  exists r. split; auto. rewrite H0 in *. split; [lia|].
  intros m Hf. specialize (Hr m ltac:(lia) Hf). rewrite Nat.sub_0_r in Hr. auto.
Qed.

(* every position below nfree is the rank of a free parameter *)
Lemma rank_surj v k : k < nfree v -> exists i, free v i /\ rank v i = k.
Proof.
  unfold nfree. revert k; induction v as [|b v IH]; intros k H; simpl in H; [lia|].
  destruct b.
  - destruct k as [|k].
    + exists 0. split; reflexivity.
    + destruct (IH k) as (i & Hf & Hr); [simpl in H; lia|]. exists (S i). split; auto. simpl. lia.
  - destruct (IH k) as (i & Hf & Hr); [simpl in H; lia|]. exists (S i). split; auto.
Qed.

Lemma pack_unpack theta vary tf :
  length vary = length theta -> length tf = nfree vary ->
  exists th, update_parameters theta vary tf = (th, Ok tt) /\
             initialize_fitting_theta th vary = Ok tf.
Proof.
  intros Hv Ht. destruct (update_parameters_spec theta vary tf) as (th & E & Hl & H1 & H2); auto; [lia|].
  exists th. split; auto. destruct (init_fit_spec th vary) as (r & Er & Hlr & Hr); [lia|].
  rewrite Er. f_equal. apply nth_error_ext. intros k.
  destruct (lt_dec k (nfree vary)) as [Hk|Hk].
  - destruct (rank_surj vary k Hk) as (i & Hf & <-). rewrite Hr, H1; auto.
  - rewrite (proj2 (nth_error_None _ _)) by lia. symmetry. apply nth_error_None. lia.
Qed.

Lemma unpack_pack theta vary tf :
  length vary = length theta -> initialize_fitting_theta theta vary = Ok tf ->
  update_parameters theta vary tf = (theta, Ok tt).
Proof.
  intros Hv E. destruct (init_fit_spec theta vary Hv) as (r & Er & Hl & Hr).
  rewrite E in Er. injection Er as <-.
  destruct (update_parameters_spec theta vary tf) as (th & Eu & Hlt & H1 & H2); auto; [lia|].
  rewrite Eu. f_equal. apply nth_error_ext. intros m.
  destruct (nth_error vary m) as [[|]|] eqn:Ev.
  - rewrite H1, Hr; auto.
  - apply H2. unfold free. congruence.
  - apply H2. unfold free. congruence.
Qed.

(* walkers *)
Lemma range_loop_spec : forall n i vary bounds,
  i + n = length vary -> length bounds = length vary ->
  exists rng low, range_loop (seq i n) vary bounds = Ok (rng, low) /\
    length rng + rank vary i = nfree vary /\ length low = length rng /\
    (forall m lo hi, i <= m -> free vary m -> nth_error bounds m = Some (lo,hi) ->
       nth_error rng (rank vary m - rank vary i) = Some (fsub (pymax2 lo hi) (pymin2 lo hi)) /\
       nth_error low (rank vary m - rank vary i) = Some (pymin2 lo hi)).
Proof.
  induction n as [|n IH]; intros i vary bounds Hi Hb; simpl.
  - exists [], []. split; auto. split.
    + simpl. unfold nfree. f_equal. lia.
    + split; auto. intros m lo hi Hm Hf. assert (m < length vary) by (apply nth_error_Some; unfold free in Hf; rewrite Hf; discriminate). lia.
  - destruct (nth_error vary i) as [b|] eqn:Ev.
    2:{ apply nth_error_None in Ev. lia. }
    destruct (IH (S i) vary bounds) as (rng & low & E & Hlen & Hll & Hr); auto; try lia.
    rewrite (rank_S _ _ _ Ev) in Hlen, Hr.
    unfold getn at 1. rewrite Ev. simpl. destruct b.
    + destruct (nth_error bounds i) as [[lo hi]|] eqn:Et.
      2:{ apply nth_error_None in Et. lia. }
      unfold getn at 1. rewrite Et. simpl. rewrite E. simpl.
      eexists _, _. split; [reflexivity|]. split; [simpl; lia|]. split; [simpl; lia|].
      intros m lo' hi' Hm Hf Hb'. destruct (Nat.eq_dec m i) as [->|Hne].
      * rewrite Nat.sub_diag. simpl. rewrite Et in Hb'. injection Hb' as <- <-. auto.
      * specialize (Hr m lo' hi' ltac:(lia) Hf Hb').
        assert (rank vary i + 1 <= rank vary m).
        { pose proof (rank_le vary (S i) m ltac:(lia)). rewrite (rank_S _ _ _ Ev) in H. auto. }
        replace (rank vary m - rank vary i) with (S (rank vary m - (rank vary i + 1))) by lia.
        simpl. auto.
    + exists rng, low. split; auto. split; [lia|]. split; auto. intros m lo hi Hm Hf Hb'.
      destruct (Nat.eq_dec m i) as [->|Hne].
      * unfold free in Hf. congruence.
      * rewrite Nat.add_0_r in Hr. apply Hr; auto. lia.
Qed.

Lemma np_zip_same f a b : length a = length b ->
  exists r, np_zip f a b = Ok r /\ length r = length a /\
    forall k x y, nth_error a k = Some x -> nth_error b k = Some y -> nth_error r k = Some (f x y).
Proof.
  intros H. unfold np_zip. rewrite H, Nat.eqb_refl. eexists. split; [reflexivity|].
  split. { rewrite map_length, combine_length. lia. }
  intros k x y Hx Hy. rewrite nth_error_map.
  enough (nth_error (combine a b) k = Some (x,y)) as -> by reflexivity.
  clear H. revert b k Hx Hy; induction a as [|u a IH]; intros [|v b] [|k] Hx Hy; simpl in *; try discriminate.
  - injection Hx as ->. injection Hy as ->. auto.
  - auto.
Qed.

Definition unit_draw (u : fl) : Prop := exists r, u = Fin r /\ (0 <= r < 1)%R.

Lemma walker_inside lo hi u : (lo <= hi)%R -> unit_draw u ->
  exists x, fadd (fmul u (fsub (pymax2 (Fin lo) (Fin hi)) (pymin2 (Fin lo) (Fin hi))))
       (pymin2 (Fin lo) (Fin hi)) = Fin x /\ (lo <= x)%R /\ (x <= hi)%R /\ ((lo < hi)%R -> (x < hi)%R).
Proof.
  intros H (r & -> & Hr). unfold pymax2, pymin2, fgtb. simpl.
  destruct (Rltb lo hi) eqn:E1, (Rltb hi lo) eqn:E2;
   repeat match goal with
   | K : Rltb _ _ = true |- _ => apply Rltb_true in K
   | K : Rltb _ _ = false |- _ => apply Rltb_false in K end; try lra; simpl;
   eexists; (split; [reflexivity|]).
  - assert (0 <= r * (hi - lo))%R by (apply Rmult_le_pos; lra).
    assert (r * (hi - lo) <= 1 * (hi - lo))%R by (apply Rmult_le_compat_r; lra).
    assert ((lo<hi)%R -> r * (hi - lo) < 1 * (hi - lo))%R by (intros; apply Rmult_lt_compat_r; lra).
    repeat split; try intros Hs; try apply H2 in Hs; lra.
  - replace (r * (lo + - lo))%R with 0%R by ring. repeat split; intros; lra.
Qed.

Lemma walkers_ok vary bounds draws :
  length bounds = length vary ->
  (forall i lo hi, free vary i -> nth_error bounds i = Some (lo,hi) ->
     exists a b, lo = Fin a /\ hi = Fin b /\ (a <= b)%R) ->
  (forall us, In us draws -> length us = nfree vary /\ forall u, In u us -> unit_draw u) ->
  exists pos, init_walker_pos (length vary) vary bounds draws = Ok pos /\
    length pos = length draws /\
    forall p, In p pos -> length p = nfree vary /\ in_support vary bounds p.
Proof.
  intros Hb Hbd Hd. unfold init_walker_pos, range_arrs.
  destruct (range_loop_spec (length vary) 0 vary bounds) as (rng & low & E & Hlen & Hll & Hr); auto.
  assert (H0: rank vary 0 = 0) by (destruct vary; reflexivity).
  rewrite H0, Nat.add_0_r in Hlen. rewrite E. simpl.
  induction draws as [|us draws IH]; simpl.
  - exists []. repeat split; auto; simpl in *; tauto.
  - destruct (Hd us ltac:(simpl; auto)) as (Hul & Hu).
    destruct (np_zip_same fmul us rng) as (p & Ep & Hlp & Hp); [lia|]. rewrite Ep. simpl.
    destruct (np_zip_same fadd p low) as (q & Eq & Hlq & Hq); [lia|]. rewrite Eq. simpl.
    destruct IH as (pos & Epos & Hlpos & Hpos). { intros; apply Hd; simpl; auto. }
    rewrite Epos. simpl. exists (q :: pos). split; auto. split; [simpl; auto|].
    intros w [<-|Hw]; auto. split; [lia|].
    intros i lo hi x Hf Hbi Hx.
    destruct (Hbd i lo hi Hf Hbi) as (a & b & -> & -> & Hab).
    destruct (Hr i _ _ ltac:(lia) Hf Hbi) as [Hr1 Hr2]. rewrite H0, Nat.sub_0_r in Hr1, Hr2.
    destruct (nth_error us (rank vary i)) as [u|] eqn:Eu.
    2:{ apply nth_error_None in Eu. pose proof (rank_lt_nfree vary i Hf). lia. }
    specialize (Hp _ _ _ Eu Hr1). specialize (Hq _ _ _ Hp Hr2). rewrite Hq in Hx. injection Hx as <-.
    destruct (walker_inside a b u Hab) as (x & -> & Hx1 & Hx2 & _).
    { apply Hu. eapply nth_error_In; eauto. }
    split; constructor; auto.
Qed.

Lemma walkers_prior_zero theta vary bounds draws :
  length vary = length theta -> length bounds = length theta ->
  (forall i lo hi, free vary i -> nth_error bounds i = Some (lo,hi) ->
     exists a b, lo = Fin a /\ hi = Fin b /\ (a <= b)%R) ->
  (forall us, In us draws -> length us = nfree vary /\ forall u, In u us -> unit_draw u) ->
  exists pos, init_walker_pos (length theta) vary bounds draws = Ok pos /\
    length pos = length draws /\
    forall p, In p pos -> length p = nfree vary /\ log_prior theta vary bounds p = Ok (Fin 0).
Proof.
  intros Hv Hb Hbd Hd. rewrite <- Hv.
  destruct (walkers_ok vary bounds draws) as (pos & E & Hl & Hp); auto; [lia|].
  exists pos. split; auto. split; auto. intros p Hin. destruct (Hp p Hin) as [Hlp Hs].
  split; auto. apply (log_prior_zero_iff theta vary bounds p); auto. lia.
Qed.

Lemma reversed_bounds_no_support theta vary bounds tf i a b :
  length vary = length theta -> length bounds = length theta -> length tf = nfree vary ->
  free vary i -> nth_error bounds i = Some (Fin a, Fin b) -> (b < a)%R ->
  log_prior theta vary bounds tf = Ok NInf.
Proof.
  intros Hv Hb Ht Hf Hbi Hab. apply (log_prior_zero_iff theta vary bounds tf); auto; [lia|].
  intros Hs. destruct (nth_error tf (rank vary i)) as [x|] eqn:Ex.
  2:{ apply nth_error_None in Ex. pose proof (rank_lt_nfree vary i Hf). lia. }
  destruct (Hs i _ _ x Hf Hbi Ex) as [H1 H2].
  inversion H1; subst; inversion H2; subst; lra.
Qed.

(* lnprob *)
Lemma lnprob_gate {S} prior (like : S -> list fl -> S * res fl) s tf p :
  prior tf = Ok p -> isfinite p = false -> lnprob prior like s tf = (s, Ok NInf).
Proof. intros H1 H2. unfold lnprob. now rewrite H1, H2. Qed.

Lemma lnprob_value {S} prior (like : S -> list fl -> S * res fl) s tf p s' l :
  prior tf = Ok (Fin p) -> like s tf = (s', Ok l) ->
  lnprob prior like s tf = (s', Ok (match l with Fin r => Fin (p + r) | _ => NInf end)).
Proof. intros H1 H2. unfold lnprob. rewrite H1. simpl. rewrite H2. destruct l; reflexivity. Qed.

Lemma lnprob_range {S} prior (like : S -> list fl -> S * res fl) s tf s' q :
  lnprob prior like s tf = (s', Ok q) -> q = NInf \/ exists r, q = Fin r.
Proof.
  unfold lnprob. destruct (prior tf) as [p|e]; [|discriminate].
  destruct (isfinite p) eqn:Ef; simpl.
  - destruct (like s tf) as [s1 [l|e]]; [|discriminate].
    intros H; injection H as _ <-. destruct (fadd p l); simpl; eauto.
  - intros H; injection H as _ <-. auto.
Qed.
