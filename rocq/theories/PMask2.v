(* Proofs about sky columns, low signal-to-noise rows and fit weights. *)
From Coq Require Import Reals List Bool Arith ZArith Lra Lia Sorted Permutation.
From Verif Require Import PyFloat PyBase Arr PyNum MMask SMask PMask.
Import ListNotations.
Local Open Scope R_scope.

(* ---------------- sky columns ---------------- *)

Lemma ascending_filter (p : nat -> bool) l : ascending l -> ascending (filter p l).
Proof.
  induction l as [|a l IH]; intros H; [constructor|]. inversion H as [|x y H1 H2]; subst x y.
  cbn [filter]. destruct (p a); auto. constructor; [now apply IH|]. rewrite Forall_forall in *.
  intros x Hx. apply filter_In in Hx. apply H2. tauto.
Qed.
Lemma ascending_seq a n : ascending (seq a n).
Proof.
  revert a. induction n as [|n IH]; intros a; cbn [seq]; [constructor|]. constructor; [apply IH|].
  apply Forall_forall. intros x Hx. apply in_seq in Hx. lia.
Qed.
Lemma ascending_setdiff n l : ascending (setdiff_range n l).
Proof. apply ascending_filter, ascending_seq. Qed.

Lemma sky_partition flux err mask c med m sky nosky : cols flux = cols err ->
  mask_skylines_2D flux err mask c true med = Ok (m, sky, nosky) ->
  ascending sky /\ ascending nosky /\
  (forall j, In j sky -> (j < cols err)%nat) /\
  (forall j, In j nosky <-> (j < cols err)%nat /\ ~ In j sky) /\
  rows m = rows mask /\ cols m = cols mask /\
  forall i j, (In j sky -> at2 m i j = Fin 0) /\ (~ In j sky -> at2 m i j = at2 mask i j).
Proof.
  intros Hc. unfold mask_skylines_2D. cbn [negb]. destruct (shape_eqb err mask) eqn:Sh; [|discriminate].
  cbn [negb]. destruct med as [md|]; [|discriminate]. cbn [wh_skylines_1D bind snd].
  intros E. injection E as <- <- <-.
  set (sky := where_ _ _). split; [apply where_sorted|]. split; [apply ascending_setdiff|]. split.
  { intros j Hj. apply where_lt in Hj. rewrite map_length, seq_length in Hj. exact Hj. }
  split.
  { intros j. rewrite setdiff_range_In, Hc. tauto. }
  split; [reflexivity|]. split; [reflexivity|]. intros i j. cbn [at2]. split; intros H.
  - apply memb_In in H. now rewrite H.
  - apply memb_false in H. now rewrite H.
Qed.

Lemma fsqrt_Fin r : 0 <= r -> fsqrt (Fin r) = Fin (sqrt r).
Proof. intros H. cbn. destruct (Rltb r 0) eqn:E; [apply Rltb_true in E; lra|reflexivity]. Qed.

Lemma col_noise_Fin n p (E M : nat -> nat -> R) j : 
  col_noise (fin2 n p E) (fin2 n p M) j = Fin (noise2 E M n j).
Proof.
  unfold col_noise, noise2. cbn [fin2 rows at2].
  rewrite (fsumn_Fin n _ (fun i => (E i j * M i j) ^ 2)).
  - apply fsqrt_Fin. apply rsumn_nonneg. intros; apply pow2_ge_0.
  - intros i _. unfold fsq. cbn [fmul]. f_equal. ring.
Qed.

Lemma sky_exact n p E M F c md m sky nosky j : (j < p)%nat ->
  mask_skylines_2D (fin2 n p F) (fin2 n p E) (fin2 n p M) (Fin c) true (Some (Fin md)) = Ok (m, sky, nosky) ->
  (In j sky <-> c * md <= noise2 E M n j).
Proof.
  intros Hj. unfold mask_skylines_2D. cbn [negb].
  replace (shape_eqb (fin2 n p E) (fin2 n p M)) with true by (symmetry; now apply shape_eqb_true).
  cbn [negb wh_skylines_1D bind snd]. intros H. injection H as _ <- _.
  rewrite where_In. cbn [fin2 cols].
  assert (X : nth_error (map (col_noise (fin2 n p E) (fin2 n p M)) (seq 0 p)) j = Some (Fin (noise2 E M n j))).
  { rewrite nth_error_map, (nth_error_nth' _ 0%nat) by (rewrite seq_length; lia). rewrite seq_nth by lia.
    cbn [option_map plus]. now rewrite col_noise_Fin. }
  change (mk2 n p (fun i j0 => Fin (E i j0))) with (fin2 n p E). change (mk2 n p (fun i j0 => Fin (M i j0))) with (fin2 n p M).
  rewrite X. split.
  - intros (a & Ea & Pa). injection Ea as <-. unfold fgeb in Pa. cbn in Pa. now apply Rleb_true.
  - intros L. eexists. split; [reflexivity|]. unfold fgeb. cbn. now apply Rleb_true.
Qed.

Lemma sky_errors flux err mask c med :
  mask_skylines_2D flux err mask c false med = Err ValueError /\
  mask_skylines_2D flux err mask c true None = Err ValueError.
Proof.
  split; [reflexivity|]. unfold mask_skylines_2D. cbn [negb]. destruct (shape_eqb err mask); reflexivity.
Qed.

(* ---------------- sorting ---------------- *)

Lemma insert_In a l x : In x (insert_nat a l) <-> x = a \/ In x l.
Proof.
  induction l as [|b l IH]; cbn [insert_nat]; [cbn; intuition|].
  destruct (Nat.leb a b); cbn [In]; [intuition|]. rewrite IH. intuition.
Qed.
Lemma sort_In l x : In x (sort_nat l) <-> In x l.
Proof.
  induction l as [|a l IH]; [reflexivity|]. unfold sort_nat in *. cbn [fold_right]. rewrite insert_In, IH. cbn. intuition.
Qed.
Lemma insert_sorted a l : ascending l -> ~ In a l -> ascending (insert_nat a l).
Proof.
  induction l as [|b l IH]; cbn [insert_nat]; intros S N.
  - constructor; constructor.
  - inversion S as [|x y S1 S2]; subst x y. destruct (Nat.leb_spec a b).
    + constructor; auto. constructor; [assert (a <> b) by (intros ->; apply N; now left); lia|].
      rewrite Forall_forall in *. intros x Hx. apply S2 in Hx. lia.
    + constructor; [apply IH; auto; intros X; apply N; now right|].
      apply Forall_forall. intros x Hx. apply insert_In in Hx. rewrite Forall_forall in S2.
      destruct Hx as [->|Hx]; [lia|]. now apply S2.
Qed.
Lemma sort_sorted l : NoDup l -> ascending (sort_nat l).
Proof.
  induction l as [|a l IH]; intros N; [constructor|]. inversion N as [|x y N1 N2]; subst x y.
  unfold sort_nat in *. cbn [fold_right]. apply insert_sorted; auto. intros H. apply N1. now apply sort_In.
Qed.
Lemma ascending_NoDup l : ascending l -> NoDup l.
Proof.
  induction l as [|a l IH]; intros S; constructor; inversion S as [|x y S1 S2]; subst x y; auto.
  intros H. rewrite Forall_forall in S2. apply S2 in H. lia.
Qed.
Lemma NoDup_app {A} (l1 l2 : list A) : NoDup l1 -> NoDup l2 -> (forall x, In x l1 -> ~ In x l2) -> NoDup (l1 ++ l2).
Proof.
  induction l1 as [|a l1 IH]; intros H1 H2 H; cbn [app]; auto. inversion H1 as [|x y A1 A2]; subst x y.
  constructor.
  - rewrite in_app_iff. intros [X|X]; auto. apply (H a); [now left|auto].
  - apply IH; auto. intros x Hx. apply H. now right.
Qed.

Lemma min_nat_spec a l : In (min_nat a l) (a :: l) /\ forall x, In x (a :: l) -> (min_nat a l <= x)%nat.
Proof.
  induction l as [|b l [I1 I2]]; unfold min_nat in *; cbn [fold_right].
  - split; [now left|]. intros x [<-|[]]. lia.
  - split.
    + destruct (Nat.min_dec b (fold_right Nat.min a l)) as [-> | ->]; [right; now left|].
      destruct I1 as [<-|I1]; [now left|right; now right].
    + intros x [<-|[<-|Hx]].
      * assert (fold_right Nat.min a l <= a)%nat by (apply I2; now left). lia.
      * lia.
      * assert (fold_right Nat.min a l <= x)%nat by (apply I2; now right). lia.
Qed.
Lemma max_nat_spec a l : In (max_nat a l) (a :: l) /\ forall x, In x (a :: l) -> (x <= max_nat a l)%nat.
Proof.
  induction l as [|b l [I1 I2]]; unfold max_nat in *; cbn [fold_right].
  - split; [now left|]. intros x [<-|[]]. lia.
  - split.
    + destruct (Nat.max_dec b (fold_right Nat.max a l)) as [-> | ->]; [right; now left|].
      destruct I1 as [<-|I1]; [now left|right; now right].
    + intros x [<-|[<-|Hx]].
      * assert (a <= fold_right Nat.max a l)%nat by (apply I2; now left). lia.
      * lia.
      * assert (x <= fold_right Nat.max a l)%nat by (apply I2; now right). lia.
Qed.

(* ---------------- low signal-to-noise rows ---------------- *)

Definition high0 (snr : list fl) (cut : fl) := where_ (fun s => fgeb s cut) snr.
Definition high (snr : list fl) (cut : fl) :=
  let runs := wh_continuous (high0 snr cut) in
  if Nat.ltb 1 (length runs) then concat (filter (fun w => Nat.ltb 2 (length w)) runs) else high0 snr cut.

Lemma high0_good snr cut i : In i (high0 snr cut) <-> good snr cut i.
Proof. unfold high0, good. rewrite where_In. unfold fgeb. reflexivity. Qed.

Lemma high_sub snr cut i : In i (high snr cut) -> In i (high0 snr cut).
Proof.
  unfold high. destruct (Nat.ltb _ _); auto. intros H. apply in_concat in H. destruct H as (w & Hw & Hi).
  apply filter_In in Hw. rewrite <- (wh_concat (high0 snr cut)). apply in_concat. exists w. tauto.
Qed.

(* what the two growth steps do *)
Definition grow (n : nat) (low0 high : list nat) : list nat :=
  match low0, high with
  | l0 :: lt, h0 :: ht =>
      let low1 :=
        let mn := min_nat l0 lt in
        if Nat.ltb (2 * mn) n && Nat.ltb (min_nat h0 ht) mn
        then sort_nat (low0 ++ seq 0 mn) else low0 in
      let mx := match low1 with [] => O | a :: t => max_nat a t end in
      if Nat.ltb n (2 * mx) && Nat.ltb mx (max_nat h0 ht)
      then sort_nat (low1 ++ rev (seq (S mx) (n - 1 - mx))) else low1
  | _, _ => low0
  end.
Lemma low_rows_eq snr cut : low_snr_rows snr cut = grow (length snr) (setdiff_range (length snr) (high snr cut)) (high snr cut).
Proof. reflexivity. Qed.

Lemma grow_spec n low0 high (P : nat -> Prop) : ascending low0 -> (forall i, In i low0 <-> (i < n)%nat /\ P i) ->
  exists lo hi, ascending (grow n low0 high) /\
  (lo = 0 \/ 2 * lo < n /\ In lo (grow n low0 high))%nat /\ (hi = n \/ n < 2 * hi /\ In hi (grow n low0 high))%nat /\
  forall i, In i (grow n low0 high) <-> (i < n)%nat /\ (P i \/ (i < lo)%nat \/ (hi < i)%nat).
Proof.
  intros S0 I0. destruct low0 as [|l0 lt].
  { exists 0%nat, n. split; [exact S0|]. split; [now left|]. split; [now left|]. intros i. cbn [grow]. rewrite I0. intuition lia. }
  destruct high as [|h0 ht].
  { exists 0%nat, n. split; [exact S0|]. split; [now left|]. split; [now left|]. intros i. cbn [grow]. rewrite I0. intuition lia. }
  unfold grow.
  destruct (min_nat_spec l0 lt) as [M1 M2]. set (mn := min_nat l0 lt) in *.
  set (low0 := l0 :: lt) in *.
  set (low1 := if Nat.ltb (2 * mn) n && Nat.ltb (min_nat h0 ht) mn then sort_nat (low0 ++ seq 0 mn) else low0).
  cbv zeta.
  assert (I1 : exists lo, (lo = 0 \/ 2 * lo < n /\ In lo low1)%nat /\ forall i, In i low1 <-> (i < n)%nat /\ (P i \/ (i < lo)%nat)).
  { unfold low1. destruct (_ && _) eqn:C; [exists mn|exists 0%nat]; (split; [|]).
    - right. apply andb_prop in C. destruct C as [C _]. apply Nat.ltb_lt in C. split; [exact C|].
      apply sort_In, in_app_iff. now left.
    - intros i. rewrite sort_In, in_app_iff, I0, in_seq. assert (mn < n)%nat by (apply I0 in M1; tauto). intuition lia.
    - now left.
    - intros i. rewrite I0. intuition lia. }
  assert (S1 : ascending low1).
  { unfold low1. destruct (_ && _); auto. apply sort_sorted. apply NoDup_app; [now apply ascending_NoDup|apply seq_NoDup|].
    intros x Hx Hs. apply in_seq in Hs. apply M2 in Hx. lia. }
  assert (Hin : In l0 low1).
  { assert (X : In l0 low0) by (now left). unfold low1. destruct (_ && _); auto. apply sort_In, in_app_iff. now left. }
  clearbody low1. destruct I1 as (lo & Lo & I1).
  destruct low1 as [|a t]; [destruct Hin|].
  destruct (max_nat_spec a t) as [X1 X2]. set (mx := max_nat a t) in *.
  assert (mx < n)%nat by (apply I1 in X1; tauto).
  destruct (_ && _) eqn:C.
  - exists lo, mx. apply andb_prop in C. destruct C as [C _]. apply Nat.ltb_lt in C.
    split; [|split; [|split]].
    + apply sort_sorted. apply NoDup_app; [now apply ascending_NoDup|apply NoDup_rev, seq_NoDup|].
      intros x Hx Hs. apply in_rev in Hs. apply in_seq in Hs. apply X2 in Hx. lia.
    + destruct Lo as [Lo|[Lo1 Lo2]]; [now left|right]. split; [exact Lo1|]. apply sort_In, in_app_iff. now left.
    + right. split; [exact C|]. apply sort_In, in_app_iff. now left.
    + intros i. rewrite sort_In, in_app_iff, <- in_rev, in_seq, I1. intuition lia.
  - exists lo, n. split; [exact S1|]. split; [exact Lo|]. split; [now left|]. intros i. rewrite I1. intuition lia.
Qed.

Lemma low_rows_cases snr cut : exists lo hi,
  (forall i, In i (low_snr_rows snr cut) <-> (i < length snr)%nat /\ (~ In i (high snr cut) \/ (i < lo)%nat \/ (hi < i)%nat)) /\
  ascending (low_snr_rows snr cut) /\
  (lo = 0 \/ 2 * lo < length snr /\ In lo (low_snr_rows snr cut))%nat /\
  (hi = length snr \/ length snr < 2 * hi /\ In hi (low_snr_rows snr cut))%nat.
Proof.
  rewrite low_rows_eq. destruct (grow_spec (length snr) (setdiff_range (length snr) (high snr cut)) (high snr cut) (fun i => ~ In i (high snr cut))) as (lo & hi & S & L & H & I).
  - apply ascending_setdiff.
  - intros i. apply setdiff_range_In.
  - exists lo, hi. exact (conj I (conj S (conj L H))).
Qed.

Lemma low_rows_sorted snr cut : ascending (low_snr_rows snr cut) /\ forall i, In i (low_snr_rows snr cut) -> (i < length snr)%nat.
Proof. destruct (low_rows_cases snr cut) as (lo & hi & I & S & _). split; auto. intros i Hi. apply I in Hi. tauto. Qed.

Lemma kept_high snr cut i : (i < length snr)%nat -> ~ In i (low_snr_rows snr cut) -> In i (high snr cut).
Proof.
  intros Hi Hn. destruct (low_rows_cases snr cut) as (lo & hi & I & _).
  destruct (in_dec Nat.eq_dec i (high snr cut)); auto. elim Hn. apply I. auto.
Qed.

Lemma kept_good snr cut i : (i < length snr)%nat -> ~ In i (low_snr_rows snr cut) -> good snr cut i.
Proof. intros Hi Hn. apply high0_good, high_sub, kept_high; auto. Qed.

Lemma bad_masked snr cut i : (i < length snr)%nat -> ~ good snr cut i -> In i (low_snr_rows snr cut).
Proof.
  intros Hi Hb. destruct (in_dec Nat.eq_dec i (low_snr_rows snr cut)) as [|N]; auto. elim Hb. now apply kept_good.
Qed.

(** Kept rows come in runs of three or more good rows, unless the good rows form one block. *)
Lemma kept_runs snr cut i : (i < length snr)%nat -> ~ In i (low_snr_rows snr cut) ->
  in_triple (good snr cut) i \/
  (forall j k l, good snr cut j -> good snr cut l -> (j <= k <= l)%nat -> good snr cut k).
Proof.
  intros Hi Hn. apply (kept_high _ _ _ Hi) in Hn. unfold high in Hn.
  destruct (Nat.ltb_spec 1 (length (wh_continuous (high0 snr cut)))) as [L|L].
  - left. apply in_concat in Hn. destruct Hn as (w & Hw & Hiw). apply filter_In in Hw. destruct Hw as [Hw Lw].
    apply Nat.ltb_lt in Lw. pose proof (wh_consecutive (high0 snr cut)) as C. rewrite Forall_forall in C.
    destruct (C _ Hw) as (a & k & E).
    assert (G : forall x, In x w -> good snr cut x).
    { intros x Hx. apply high0_good. rewrite <- (wh_concat (high0 snr cut)). apply in_concat. eauto. }
    assert (G' : forall x, (a <= x < a + S k)%nat -> good snr cut x).
    { intros x Hx. apply G. rewrite E. apply in_seq. lia. }
    rewrite E, seq_length in Lw. rewrite E in Hiw. apply in_seq in Hiw.
    unfold in_triple. destruct (le_lt_dec (i + 2) (a + k)).
    + exists i. repeat split; try lia; apply G'; lia.
    + exists (a + k - 2)%nat. repeat split; try lia; apply G'; lia.
  - right. intros j k l Gj Gl Hk. apply high0_good in Gj, Gl. apply high0_good.
    pose proof (wh_concat (high0 snr cut)) as Cc. pose proof (wh_consecutive (high0 snr cut)) as C.
    destruct (wh_continuous (high0 snr cut)) as [|r [|r2 rs]].
    + cbn in Cc. rewrite <- Cc in Gj. destruct Gj.
    + cbn in Cc. rewrite app_nil_r in Cc. inversion C as [|x y (a & q & E) _]; subst x y. rewrite <- Cc in *.
      rewrite E in *. apply in_seq in Gj, Gl. apply in_seq. lia.
    + cbn in L. lia.
Qed.

(** A run is not extended by a neighbouring index on either side. *)
Lemma wh_maximal l r : ascending l -> In r (wh_continuous l) ->
  ~ In (S (last r 0%nat)) l /\ forall b, hd 0%nat r = S b -> ~ In b l.
Proof.
  intros A Hr. pose proof (wh_consecutive l) as C. rewrite Forall_forall in C.
  apply in_split in Hr as Hs. destruct Hs as (pre & post & E).
  pose proof (wh_concat l) as Cc. rewrite E in Cc.
  assert (El : l = concat pre ++ r ++ concat post) by (rewrite <- Cc; rewrite concat_app; reflexivity).
  destruct (C r Hr) as (a & k & Er).
  assert (Lr : last r 0%nat = (a + k)%nat).
  { rewrite Er, seq_S, last_last. reflexivity. }
  assert (Hd : hd 0%nat r = a) by (rewrite Er; reflexivity).
  assert (Ina : In a r) by (rewrite Er; apply in_seq; lia).
  assert (Inl : In (a + k)%nat r) by (rewrite Er; apply in_seq; lia).
  rewrite El in A. apply ascending_app in A. destruct A as (A1 & A2 & A3). apply ascending_app in A2. destruct A2 as (A4 & A5 & A6).
  split.
  - rewrite Lr, El, !in_app_iff. intros [H|[H|H]].
    + assert (S (a + k) < a)%nat by (apply A3; [exact H|apply in_app_iff; now left]). lia.
    + rewrite Er in H. apply in_seq in H. lia.
    + destruct post as [|r2 post]; [destruct H|].
      assert (As : ascending l) by (rewrite El; apply ascending_intro; [exact A1|apply ascending_intro; auto|auto]).
      pose proof (wh_separated l pre r r2 post As E) as G. rewrite Lr in G.
      destruct (C r2) as (a2 & k2 & E2). { rewrite E. apply in_app_iff. right. right. now left. }
      rewrite E2 in G, H, A5. cbn [hd seq] in G. cbn [concat] in H, A5.
      change (seq a2 (S k2)) with (a2 :: seq (S a2) k2) in H, A5. rewrite <- app_comm_cons in H, A5.
      assert (a2 <= S (a + k))%nat by (apply (ascending_head _ _ _ A5 H)). lia.
  - intros b Hb. rewrite Hd in Hb. rewrite El, !in_app_iff. intros [H|[H|H]].
    + destruct (exists_last (l := pre)) as (pre' & r1 & Ep). { intros ->. destruct H. }
      assert (As : ascending l) by (rewrite El; apply ascending_intro; [exact A1|apply ascending_intro; auto|auto]).
      assert (E' : wh_continuous l = pre' ++ r1 :: r :: post) by (rewrite E, Ep, <- app_assoc; reflexivity).
      pose proof (wh_separated l pre' r1 r post As E') as G. rewrite Hd in G.
      destruct (C r1) as (a1 & k1 & E1). { rewrite E'. apply in_app_iff. right. now left. }
      assert (L1 : last r1 0%nat = (a1 + k1)%nat) by (rewrite E1, seq_S, last_last; reflexivity).
      rewrite L1 in G. rewrite Ep, concat_app in H, A1. cbn [concat] in H, A1. rewrite app_nil_r in H, A1.
      apply in_app_iff in H. destruct H as [H|H].
      * apply ascending_app in A1. destruct A1 as (_ & _ & A1).
        assert (b < a1)%nat by (apply A1; [exact H|rewrite E1; apply in_seq; lia]). lia.
      * rewrite E1 in H. apply in_seq in H. lia.
    + rewrite Er in H. apply in_seq in H. lia.
    + assert (a < b)%nat by (apply A6; auto). lia.
Qed.

Lemma triple_high snr cut i : in_triple (good snr cut) i -> In i (high snr cut).
Proof.
  intros (a & Hi & G0 & G1 & G2). apply high0_good in G0, G1, G2.
  assert (G : forall x, (a <= x <= a + 2)%nat -> In x (high0 snr cut)).
  { intros x Hx. assert (x = a \/ x = a + 1 \/ x = a + 2)%nat as [->|[->| ->]] by lia; assumption. }
  unfold high. destruct (Nat.ltb 1 _); [|now apply G].
  pose proof (G i Hi) as Gi. rewrite <- (wh_concat (high0 snr cut)) in Gi. apply in_concat in Gi. destruct Gi as (w & Hw & Hiw).
  apply in_concat. exists w. split; [|exact Hiw]. apply filter_In. split; [exact Hw|]. apply Nat.ltb_lt.
  destruct (wh_maximal (high0 snr cut) w (where_sorted _ _) Hw) as [M1 M2].
  pose proof (wh_consecutive (high0 snr cut)) as C. rewrite Forall_forall in C. destruct (C _ Hw) as (b & k & E).
  assert (Lw : last w 0%nat = (b + k)%nat) by (rewrite E, seq_S, last_last; reflexivity).
  assert (Hd : hd 0%nat w = b) by (rewrite E; reflexivity).
  rewrite Lw in M1. rewrite Hd in M2. rewrite E in Hiw |- *. rewrite seq_length. apply in_seq in Hiw.
  destruct (le_lt_dec 2 k) as [|Lk]; [lia|]. exfalso.
  destruct (le_lt_dec (S (b + k)) (a + 2)) as [L|L].
  - apply M1, G. lia.
  - destruct b as [|b]; [lia|]. apply (M2 b eq_refl). apply G. lia.
Qed.

(** A masked row inside three consecutive good rows lies between the image edge and a masked row
    of the outer half, with everything from that edge to that row masked. *)
Lemma masked_triple snr cut i : In i (low_snr_rows snr cut) -> in_triple (good snr cut) i ->
  (exists j, i < j /\ 2 * j < length snr /\ forall k, k <= j -> In k (low_snr_rows snr cut))%nat \/
  (exists j, j < i /\ length snr < 2 * j /\ forall k, j <= k < length snr -> In k (low_snr_rows snr cut))%nat.
Proof.
  intros Hi Ht. destruct (low_rows_cases snr cut) as (lo & hi & I & S & L & H).
  apply I in Hi. destruct Hi as [Hi [N|[N|N]]].
  - elim N. now apply triple_high.
  - left. destruct L as [->|[L1 L2]]; [lia|]. exists lo. split; [exact N|]. split; [exact L1|].
    intros k Hk. destruct (Nat.eq_dec k lo) as [->|]; [exact L2|]. apply I. split; [lia|]. right. left. lia.
  - right. destruct H as [->|[H1 H2]]; [lia|]. exists hi. split; [exact N|]. split; [exact H1|].
    intros k Hk. destruct (Nat.eq_dec k hi) as [->|]; [exact H2|]. apply I. split; [lia|]. right. right. lia.
Qed.

Lemma mask_rows_spec flux err mask mc cut m low : mask_low_snr_rows_2D flux err mask mc cut = Ok (m, low) ->
  low = low_snr_rows (row_snr flux err mc) cut /\ rows m = rows mask /\ cols m = cols mask /\
  (forall i, In i low -> (i < rows mask)%nat) /\
  forall i j, (In i low -> at2 m i j = Fin 0) /\ (~ In i low -> at2 m i j = at2 mask i j).
Proof.
  unfold mask_low_snr_rows_2D. destruct (negb _); [discriminate|].
  destruct (forallb _ _) eqn:Fa; [|discriminate]. intros E. injection E as <- <-.
  split; [reflexivity|]. split; [reflexivity|]. split; [reflexivity|]. split.
  { intros i Hi. rewrite forallb_forall in Fa. apply Fa in Hi. now apply Nat.ltb_lt. }
  intros i j. cbn [at2]. split; intros H.
  - apply memb_In in H. now rewrite H.
  - apply memb_false in H. now rewrite H.
Qed.

Lemma mask_rows_ok flux err mask mc cut : shape_eqb flux mc = true -> shape_eqb err mc = true -> rows mask = rows flux ->
  exists m low, mask_low_snr_rows_2D flux err mask mc cut = Ok (m, low).
Proof.
  intros H1 H2 H3. unfold mask_low_snr_rows_2D. rewrite H1, H2. cbn [andb negb].
  replace (forallb _ _) with true; [eauto|]. symmetry. apply forallb_forall. intros i Hi.
  apply low_rows_sorted in Hi. unfold row_snr in Hi. rewrite map_length, seq_length in Hi. apply Nat.ltb_lt. lia.
Qed.

(* ---------------- fit weights ---------------- *)

Lemma feqb_Fin0 r : feqb (Fin r) (Fin 0) = Reqb r 0. Proof. reflexivity. Qed.

Lemma nth_map_seq {A} (f : nat -> A) n i d : (i < n)%nat -> nth i (map f (seq 0 n)) d = f i.
Proof.
  intros H. apply nth_error_nth. rewrite nth_error_map, (nth_error_nth' _ 0%nat) by (rewrite seq_length; lia).
  rewrite seq_nth by lia. reflexivity.
Qed.

Lemma rsum_cons a l : rsum (a :: l) = a + rsum l.
Proof. reflexivity. Qed.
Lemma rsum_nonneg l : (forall x, In x l -> 0 <= x) -> 0 <= rsum l.
Proof.
  induction l as [|a l IH]; intros H; [cbn; lra|]. rewrite rsum_cons. assert (0 <= a) by (apply H; now left).
  assert (0 <= rsum l) by (apply IH; intros; apply H; now right). lra.
Qed.
Lemma rsum_nonneg_zero l : (forall x, In x l -> 0 <= x) -> rsum l = 0 -> forall x, In x l -> x = 0.
Proof.
  induction l as [|a l IH]; intros H E x Hx; [destruct Hx|]. rewrite rsum_cons in E.
  assert (0 <= a) by (apply H; now left).
  assert (0 <= rsum l) by (apply rsum_nonneg; intros; apply H; now right).
  destruct Hx as [<-|Hx]; [lra|]. apply IH; auto; [intros; apply H; now right|lra].
Qed.
Lemma rsum_map_div l c : c <> 0 -> rsum (map (fun x => x / c) l) = rsum l / c.
Proof. intros Hc. induction l as [|a l IH]; [cbn; field; auto|]. cbn [map]. rewrite !rsum_cons, IH. field. auto. Qed.

(** Normalising finite weights of one sign. *)
Definition normalise (w : list fl) : list fl :=
  if feqb (fsum w) (Fin 0) then map (fun _ => Fin 0) w else map (fun x => fdiv x (fsum w)) w.

Lemma normalise_ok ws sgn : (forall x, In x ws -> 0 <= sgn * x) -> sgn <> 0 -> exists ps,
  normalise (map Fin ws) = map Fin ps /\ length ps = length ws /\ (forall x, In x ps -> 0 <= x) /\
  (rsum ps = 1 \/ forall x, In x ps -> x = 0) /\
  (forall i, (i < length ws)%nat -> nth i ws 0 = 0 -> nth i ps 0 = 0) /\
  (exists k, forall i, (i < length ws)%nat -> nth i ps 0 = k * nth i ws 0).
Proof.
  intros Hp Hs. unfold normalise. rewrite fsum_Fin, feqb_Fin0. destruct (Reqb (rsum ws) 0) eqn:E.
  - apply Reqb_true in E. exists (map (fun _ => 0) ws). rewrite !map_map. split; [reflexivity|].
    rewrite map_length. split; [reflexivity|].
    assert (Z : forall x, In x (map (fun _ : R => 0) ws) -> x = 0).
    { intros x Hx. apply in_map_iff in Hx. destruct Hx as (y & <- & _). reflexivity. }
    split; [intros x Hx; rewrite (Z x Hx); lra|]. split; [now right|].
    assert (N : forall i, (i < length ws)%nat -> nth i (map (fun _ : R => 0) ws) 0 = 0).
    { intros i Hi. apply Z. apply nth_In. now rewrite map_length. }
    split; [intros; apply N; auto|]. exists 0. intros i Hi. rewrite N by auto. ring.
  - apply Reqb_false in E. exists (map (fun x => x / rsum ws) ws). rewrite !map_map.
    assert (D : forall x, fdiv (Fin x) (Fin (rsum ws)) = Fin (x / rsum ws)).
    { intros x. unfold fdiv. destruct (Reqb (rsum ws) 0) eqn:E2; [apply Reqb_true in E2; lra|reflexivity]. }
    split; [apply map_ext; intros; apply D|]. rewrite map_length. split; [reflexivity|].
    assert (S : 0 < sgn * rsum ws).
    { assert (T : rsum (map (fun x => sgn * x) ws) = sgn * rsum ws).
      { clear. induction ws as [|a l IH]; [cbn; ring|]. cbn [map]. rewrite !rsum_cons, IH. ring. }
      assert (0 <= sgn * rsum ws).
      { rewrite <- T. apply rsum_nonneg. intros x Hx. apply in_map_iff in Hx. destruct Hx as (y & <- & Hy). auto. }
      assert (sgn * rsum ws <> 0) by (apply Rmult_integral_contrapositive; auto). lra. }
    assert (Q : forall x, x / rsum ws = (sgn * x) / (sgn * rsum ws)) by (intros; field; auto).
    split.
    { intros x Hx. apply in_map_iff in Hx. destruct Hx as (y & <- & Hy). rewrite Q.
      apply Rmult_le_pos; [auto|]. left. now apply Rinv_0_lt_compat. }
    split.
    { left. rewrite rsum_map_div by assumption. field. assumption. }
    assert (N : forall i, (i < length ws)%nat -> nth i (map (fun x => x / rsum ws) ws) 0 = nth i ws 0 / rsum ws).
    { intros i Hi. apply nth_error_nth. rewrite nth_error_map, (nth_error_nth' ws 0) by auto. reflexivity. }
    split.
    { intros i Hi Hz. rewrite N, Hz by auto. unfold Rdiv. ring. }
    exists (/ rsum ws). intros i Hi. rewrite N by auto. unfold Rdiv. ring.
Qed.

Lemma row_snr_length flux err mc : length (row_snr flux err mc) = rows flux.
Proof. unfold row_snr. now rewrite map_length, seq_length. Qed.

Lemma row_snr_abs flux err mc i s : nth_error (row_snr flux err mc) i = Some s -> s = NaN \/ s = PInf \/ exists r, s = Fin r /\ 0 <= r.
Proof.
  unfold row_snr. rewrite nth_error_map. destruct (nth_error (seq 0 (rows flux)) i); [|discriminate].
  cbn [option_map]. intros H. injection H as <-. destruct (fdiv _ _) as [r| | |]; cbn; auto.
  right. right. exists (Rabs r). split; auto. apply Rabs_pos.
Qed.

Lemma fit_weights_eq t flux err ms low f3 w : 
  match t with
  | UpEdges => if negb (forallb (fun i => Nat.ltb i (rows flux)) low) then Err IndexError else
      Ok (set_inds (map (fun s => fdiv (Fin 1) s) (row_snr flux err ms)) low (Fin 0))
  | NoWeighting => Ok (map (fun _ => Fin 1) (seq 0 (rows flux)))
  | Optimal => let '(A, mu, sigma) := f3 in if negb (forallb (fun i => Nat.ltb i (rows flux)) low) then Err IndexError else
      Ok (set_inds (map (fun i => gaus_simple A mu sigma (Fin (INR i))) (seq 0 (rows flux))) low (Fin 0))
  | OtherWeighting => Err UnboundLocalError
  end = Ok w ->
  fit_weights t flux err ms low f3 = Ok (normalise w, mk2 (length (normalise w)) (cols flux) (fun i _ => lnth (normalise w) i)).
Proof. intros E. unfold fit_weights. rewrite E. cbn [bind]. reflexivity. Qed.

(* a list of finite weights given entrywise *)
Lemma list_Fin (w : list fl) : (forall i, (i < length w)%nat -> isfinite (nth i w NaN) = true) ->
  exists ws, w = map Fin ws /\ length ws = length w.
Proof.
  intros H. exists (map val w). rewrite map_length. split; [|reflexivity].
  rewrite map_map. rewrite <- (map_id w) at 1. apply map_ext_in. intros x Hx.
  apply (In_nth _ _ NaN) in Hx. destruct Hx as (i & Hi & <-). apply finite_val. now apply H.
Qed.
Lemma nth_map_Fin ws i : (i < length ws)%nat -> nth i (map Fin ws) NaN = Fin (nth i ws 0).
Proof. intros H. apply nth_error_nth. now rewrite nth_error_map, (nth_error_nth' ws 0) by auto. Qed.

Lemma weights_from_list (ws : list R) sgn n p low prof M : length ws = n ->
  (forall x, In x ws -> 0 <= sgn * x) -> sgn <> 0 -> (forall i, In i low -> (i < n)%nat) ->
  (forall i, In i low -> nth i ws 0 = 0) ->
  prof = normalise (map Fin ws) -> M = mk2 (length prof) p (fun i _ => lnth prof i) ->
  weights_good n p low prof M /\ exists k, forall i, (i < n)%nat -> nth i prof NaN = Fin (k * nth i ws 0).
Proof.
  intros Hl Hp Hs Hlow Hz -> ->. destruct (normalise_ok ws sgn Hp Hs) as (ps & E & L & P & S & Z & k & K).
  rewrite E. split.
  - exists ps. split; [reflexivity|]. split; [lia|]. split; [exact P|]. split; [exact S|].
    split; [intros i Hi; apply Z; [rewrite Hl; auto|auto]|]. cbn [rows cols at2]. rewrite map_length.
    split; [lia|]. split; [reflexivity|]. intros i j Hi. unfold lnth. apply nth_map_Fin. lia.
  - exists k. intros i Hi. rewrite nth_map_Fin by lia. rewrite K by lia. reflexivity.
Qed.

Lemma forallb_lt n low : (forall i, In i low -> (i < n)%nat) -> forallb (fun i => Nat.ltb i n) low = true.
Proof. intros H. apply forallb_forall. intros i Hi. apply Nat.ltb_lt. auto. Qed.

Lemma weights_up_edges flux err ms cut f3 : fltb (Fin 0) cut = true ->
  let snr := row_snr flux err ms in let low := low_snr_rows snr cut in
  exists prof M, fit_weights UpEdges flux err ms low f3 = Ok (prof, M) /\
    weights_good (rows flux) (cols flux) low prof M /\
    exists k, forall i, (i < rows flux)%nat -> ~ In i low ->
      exists s, (nth i snr NaN = Fin s /\ 0 < s /\ nth i prof NaN = Fin (k / s)) \/
                (nth i snr NaN = PInf /\ nth i prof NaN = Fin 0).
Proof.
  intros Hc snr low.
  set (w := set_inds (map (fun s => fdiv (Fin 1) s) snr) low (Fin 0)).
  assert (Ls : length snr = rows flux) by apply row_snr_length.
  assert (Lw : length w = rows flux) by (unfold w; rewrite set_inds_length, map_length; exact Ls).
  assert (Lo : forall i, In i low -> (i < rows flux)%nat) by (intros i Hi; rewrite <- Ls; now apply low_rows_sorted in Hi).
  assert (Vw : forall i, (i < rows flux)%nat -> nth i w NaN = if memb i low then Fin 0 else fdiv (Fin 1) (nth i snr NaN)).
  { intros i Hi. apply nth_error_nth. unfold w. apply nth_error_set_inds.
    rewrite nth_error_map, (nth_error_nth' snr NaN) by lia. reflexivity. }
  assert (Kept : forall i, (i < rows flux)%nat -> ~ In i low ->
     (exists s, nth i snr NaN = Fin s /\ 0 < s /\ fdiv (Fin 1) (nth i snr NaN) = Fin (1 / s)) \/
     (nth i snr NaN = PInf /\ fdiv (Fin 1) (nth i snr NaN) = Fin 0)).
  { intros i Hi Hn. destruct (kept_good snr cut i) as (s & Es & G); [lia|exact Hn|].
    rewrite (nth_error_nth _ _ NaN Es). destruct cut as [c| | |]; try discriminate;
    destruct s as [s| | |]; try discriminate; auto.
    left. exists s. cbn in Hc, G. apply Rltb_true in Hc. apply Rleb_true in G. split; auto. split; [lra|].
    unfold fdiv. destruct (Reqb s 0) eqn:E; [apply Reqb_true in E; lra|]. reflexivity. }
  destruct (list_Fin w) as (ws & Ew & Lws).
  { intros i Hi. rewrite Lw in Hi. rewrite Vw by assumption. destruct (memb i low) eqn:Mb; [reflexivity|].
    apply memb_false in Mb. destruct (Kept i Hi Mb) as [(s & _ & _ & ->)|(_ & ->)]; reflexivity. }
  assert (Vs : forall i, (i < rows flux)%nat -> Fin (nth i ws 0) = nth i w NaN).
  { intros i Hi. rewrite Ew. symmetry. apply nth_map_Fin. lia. }
  exists (normalise w). eexists. split.
  { apply fit_weights_eq. rewrite forallb_lt by exact Lo. reflexivity. }
  destruct (weights_from_list ws 1 (rows flux) (cols flux) low (normalise w) (mk2 (length (normalise w)) (cols flux) (fun i _ => lnth (normalise w) i))) as [G (k & K)].
  - lia.
  - intros x Hx. apply (In_nth _ _ 0) in Hx. destruct Hx as (i & Hi & Ex).
    assert (Hi' : (i < rows flux)%nat) by lia. pose proof (Vs i Hi') as V. rewrite Vw in V by assumption.
    rewrite Ex in V. destruct (memb i low) eqn:Mb; [injection V as ->; lra|].
    apply memb_false in Mb. destruct (Kept i Hi' Mb) as [(s & _ & Ps & E)|(_ & E)]; rewrite E in V; injection V as ->; [|lra].
    assert (0 < 1 / s) by (apply Rdiv_lt_0_compat; lra). lra.
  - lra.
  - exact Lo.
  - intros i Hi. specialize (Lo i Hi). pose proof (Vs i Lo) as V. rewrite Vw in V by assumption.
    apply memb_In in Hi. rewrite Hi in V. now injection V.
  - now rewrite Ew.
  - reflexivity.
  - split; [exact G|]. exists k. intros i Hi Hn. pose proof (Vs i Hi) as V. rewrite Vw in V by assumption.
    pose proof Hn as Hn'. apply memb_false in Hn'. rewrite Hn' in V. rewrite K by assumption.
    destruct (Kept i Hi Hn) as [(s & Es & Ps & E)|(Es & E)]; rewrite E in V; injection V as V; rewrite V.
    + exists s. left. split; auto. split; auto. f_equal. field. lra.
    + exists 0. right. split; auto. f_equal. ring.
Qed.

Lemma weights_none flux err ms low f3 : (1 <= rows flux)%nat ->
  exists prof M, fit_weights NoWeighting flux err ms low f3 = Ok (prof, M) /\
    weights_good (rows flux) (cols flux) [] prof M /\
    forall i, (i < rows flux)%nat -> nth i prof NaN = Fin (1 / INR (rows flux)).
Proof.
  intros Hn. set (n := rows flux) in *.
  assert (N0 : 0 < INR n) by (apply lt_0_INR; lia).
  assert (Ew : map (fun _ : nat => Fin 1) (seq 0 n) = map Fin (repeat 1 n)).
  { generalize 0%nat. clear. induction n as [|n IH]; intros a; [reflexivity|]. cbn [seq map repeat]. now rewrite IH. }
  assert (Sm : rsum (repeat 1 n) = INR n).
  { clear. induction n as [|n IH]; [reflexivity|]. rewrite S_INR. cbn [repeat]. rewrite rsum_cons, IH. ring. }
  exists (normalise (map Fin (repeat 1 n))). eexists. split.
  { apply fit_weights_eq. fold n. now rewrite Ew. }
  destruct (weights_from_list (repeat 1 n) 1 n (cols flux) [] (normalise (map Fin (repeat 1 n))) (mk2 (length (normalise (map Fin (repeat 1 n)))) (cols flux) (fun i _ => lnth (normalise (map Fin (repeat 1 n))) i))) as [G _].
  - apply repeat_length.
  - intros x Hx. apply repeat_spec in Hx. subst x. lra.
  - lra.
  - intros i [].
  - intros i [].
  - reflexivity.
  - reflexivity.
  - split; [exact G|]. intros i Hi. unfold normalise. rewrite fsum_Fin, Sm, feqb_Fin0.
    destruct (Reqb (INR n) 0) eqn:E; [apply Reqb_true in E; lra|].
    apply nth_error_nth. rewrite !nth_error_map, (nth_error_nth' (repeat 1 n) 0) by (rewrite repeat_length; auto).
    replace (nth i (repeat 1 n) 0) with 1 by (symmetry; apply (repeat_spec n); apply nth_In; now rewrite repeat_length). cbn [option_map]. unfold fdiv. now rewrite E.
Qed.

Lemma weights_optimal flux err ms low A mu sigma : 0 < sigma -> (forall i, In i low -> (i < rows flux)%nat) ->
  exists prof M, fit_weights Optimal flux err ms low (Fin A, Fin mu, Fin sigma) = Ok (prof, M) /\
    weights_good (rows flux) (cols flux) low prof M.
Proof.
  intros Hs Lo.
  set (g := fun i => A * (exp (- ((INR i - mu) * (INR i - mu)) / (2 * (sigma * sigma))) / sqrt (2 * PI * sigma))).
  assert (P0 : 0 < 2 * PI * sigma) by (pose proof PI_RGT_0; nra).
  assert (P1 : 0 < sqrt (2 * PI * sigma)) by now apply sqrt_lt_R0.
  assert (P2 : 0 < 2 * (sigma * sigma)) by nra.
  assert (G : forall i, gaus_simple (Fin A) (Fin mu) (Fin sigma) (Fin (INR i)) = Fin (g i)).
  { intros i. unfold gaus_simple, fsq, fsub, g. cbn [fadd fneg fmul].
    unfold fdiv at 2. destruct (Reqb (2 * (sigma * sigma)) 0) eqn:E; [apply Reqb_true in E; lra|].
    cbn [fexp]. rewrite fsqrt_Fin by lra. unfold fdiv.
    destruct (Reqb (sqrt (2 * PI * sigma)) 0) eqn:E2; [apply Reqb_true in E2; lra|]. cbn [fmul]. f_equal.
    replace (INR i + - mu) with (INR i - mu) by ring. ring. }
  set (ws := map (fun i => if memb i low then 0 else g i) (seq 0 (rows flux))).
  assert (Ew : set_inds (map (fun i => gaus_simple (Fin A) (Fin mu) (Fin sigma) (Fin (INR i))) (seq 0 (rows flux))) low (Fin 0) = map Fin ws).
  { apply nth_error_ext. intros i. rewrite set_inds_nth. unfold ws. rewrite !nth_error_map.
    destruct (nth_error (seq 0 (rows flux)) i) as [k|] eqn:E; [|reflexivity]. cbn [option_map]. f_equal.
    assert (k = i).
    { assert (Hi : (i < length (seq 0 (rows flux)))%nat) by (apply nth_error_Some; congruence).
      rewrite (nth_error_nth' _ 0%nat Hi) in E. rewrite seq_length in Hi. rewrite seq_nth in E by lia. injection E as <-. reflexivity. }
    subst k. rewrite G. destruct (memb i low); reflexivity. }
  exists (normalise (map Fin ws)). eexists. split.
  { apply fit_weights_eq. rewrite forallb_lt by exact Lo. cbn [negb]. now rewrite Ew. }
  set (sg := if Rle_dec 0 A then 1 else -1).
  destruct (weights_from_list ws sg (rows flux) (cols flux) low (normalise (map Fin ws)) (mk2 (length (normalise (map Fin ws))) (cols flux) (fun i _ => lnth (normalise (map Fin ws)) i))) as [K _].
  - unfold ws. now rewrite map_length, seq_length.
  - intros x Hx. unfold ws in Hx. apply in_map_iff in Hx. destruct Hx as (i & <- & _).
    destruct (memb i low); [lra|]. unfold g.
    assert (0 < exp (- ((INR i - mu) * (INR i - mu)) / (2 * (sigma * sigma))) / sqrt (2 * PI * sigma))
      by (apply Rdiv_lt_0_compat; [apply exp_pos|assumption]).
    unfold sg. destruct (Rle_dec 0 A); nra.
  - unfold sg. destruct (Rle_dec 0 A); lra.
  - exact Lo.
  - intros i Hi. unfold ws. rewrite nth_map_seq by auto. apply memb_In in Hi. now rewrite Hi.
  - reflexivity.
  - reflexivity.
  - exact K.
Qed.

Lemma weights_unknown flux err ms low f3 : fit_weights OtherWeighting flux err ms low f3 = Err UnboundLocalError.
Proof. reflexivity. Qed.

Lemma fsum_inf l : In PInf l -> isfinite (fsum l) = false /\ fsum l <> Fin 0.
Proof.
  intros H. assert (isfinite (fsum l) = false).
  { induction l as [|a l IH]; [destruct H|]. cbn. destruct H as [->|H].
    - unfold fsum. destruct (fold_right fadd (Fin 0) l); reflexivity.
    - specialize (IH H). unfold fsum in IH. destruct (fold_right fadd (Fin 0) l); try discriminate; destruct a; reflexivity. }
  split; auto. intros E. rewrite E in H0. discriminate.
Qed.

Lemma weights_nan flux err ms low f3 i : (forall k, In k low -> (k < rows flux)%nat) ->
  (i < rows flux)%nat -> ~ In i low -> nth i (row_snr flux err ms) NaN = Fin 0 ->
  exists prof M, fit_weights UpEdges flux err ms low f3 = Ok (prof, M) /\ nth i prof NaN = NaN.
Proof.
  intros Lo Hi Hn Hz. set (snr := row_snr flux err ms) in *.
  set (w := set_inds (map (fun s => fdiv (Fin 1) s) snr) low (Fin 0)).
  assert (Ls : length snr = rows flux) by apply row_snr_length.
  assert (Lw : length w = rows flux) by (unfold w; rewrite set_inds_length, map_length; exact Ls).
  assert (V : nth_error w i = Some PInf).
  { unfold w. rewrite (nth_error_set_inds _ _ _ _ (fdiv (Fin 1) (nth i snr NaN))).
    - apply memb_false in Hn. rewrite Hn, Hz. unfold fdiv. rewrite Reqb_refl. f_equal.
      destruct (Reqb 1 0) eqn:E; [apply Reqb_true in E; lra|]. destruct (Rltb 0 1) eqn:E2; [reflexivity|apply Rltb_false in E2; lra].
    - rewrite nth_error_map, (nth_error_nth' snr NaN) by lia. reflexivity. }
  exists (normalise w). eexists. split.
  { apply fit_weights_eq. rewrite forallb_lt by exact Lo. reflexivity. }
  destruct (fsum_inf w) as [F1 F2]. { apply nth_error_In in V. exact V. }
  unfold normalise. destruct (feqb (fsum w) (Fin 0)) eqn:E; [apply feqb0 in E; contradiction|].
  apply nth_error_nth. rewrite nth_error_map, V. cbn [option_map]. f_equal.
  destruct (fsum w); try discriminate; reflexivity.
Qed.

Lemma sky_lists e c md nosky sky :
  wh_skylines_1D (map Fin e) (Fin c) (Some (Fin md)) = Ok (nosky, sky) ->
  forall i x, nth_error e i = Some x -> (In i nosky <-> x < c * md) /\ (In i sky <-> c * md <= x).
Proof.
  cbn [wh_skylines_1D fmul]. intros H i x E. injection H as <- <-.
  assert (En : nth_error (map Fin e) i = Some (Fin x)) by now rewrite nth_error_map, E.
  split.
  - rewrite <- memb_In, (where_memb _ _ _ _ En). apply Rltb_true.
  - rewrite <- memb_In, (where_memb _ _ _ _ En). apply Rleb_true.
Qed.
