(* Proofs about box integration of profiles and images. *)
From Coq Require Import Reals List Bool Arith ZArith Lia Lra Psatz.
From Verif Require Import PyFloat PyBase Arr PyNum MParams MAper1D MFit1D MTrim MGeom SGeom PKernels PKernels2 PAper2DGrid PFit1D2 PGeom4.
Import ListNotations.
Local Open Scope R_scope.

Lemma last_map_seq (f : nat -> R) k n : last (map f (seq k (S n))) 0 = f (k + n)%nat.
Proof.
  rewrite seq_S, map_app. cbn [map]. rewrite last_last. reflexivity.
Qed.

Lemma regular_step l x0 d n : regular l x0 d n -> average (diffs l) = Fin d.
Proof.
  intros (-> & N & D). destruct n as [|[|n]]; try lia.
  rewrite <- (map_map (fun i => x0 + INR i * d) Fin).
  pose proof (last_map_seq (fun i => x0 + INR i * d) 0 (S n)) as L.
  assert (LEN : length (map (fun i => x0 + INR i * d) (seq 2 n)) = n) by (rewrite map_length, seq_length; reflexivity).
  change (map (fun i => x0 + INR i * d) (seq 0 (S (S n)))) with
    ((x0 + INR 0 * d) :: (x0 + INR 1 * d) :: map (fun i => x0 + INR i * d) (seq 2 n)) in *.
  rewrite avg_step, L, LEN. f_equal. cbn [Nat.add]. change (INR 0) with 0.
  assert (INR (S n) <> 0) by (apply not_0_INR; lia). field. assumption.
Qed.

Lemma mapM_pure {A B} (f : A -> B) l : mapM (fun a => Ok (f a)) l = Ok (map f l).
Proof. induction l as [|a l IH]; [reflexivity|]. cbn [mapM bind map]. rewrite IH. reflexivity. Qed.

Section Grid.
Variables (x ys xn : list fl) (x0 d : R) (n : nat) (y : nat -> R) (u0 D : R) (m : nat).
Hypotheses (Hx : regular x x0 d n) (Hy : sampled ys y n) (Hu : regular xn u0 D m).

Lemma box_grid : box_integrate x ys xn false =
  Ok (map (fun j => fst (box_bin (map (fun i => Fin (lo_edge x0 d i)) (seq 0 n)) (map (fun i => Fin (hi_edge x0 d i)) (seq 0 n))
                                 (map (fun i => Fin (y i)) (seq 0 n)) (Fin d) (Fin D) (Fin (u0 + INR j * D)))) (seq 0 m)).
Proof.
  unfold box_integrate. rewrite (regular_step _ _ _ _ Hx), (regular_step _ _ _ _ Hu).
  destruct Hx as (-> & N & D0). destruct Hu as (-> & M & D1). rewrite Hy. rewrite !map_map, (fdiv_Fin d 2) by lra.
  cbv zeta. rewrite mapM_pure, map_map. reflexivity.
Qed.

Lemma box_at (P : nat -> Prop) (v : nat -> R) :
  (forall j, (j < m)%nat -> P j -> fst (box_bin (map (fun i => Fin (lo_edge x0 d i)) (seq 0 n)) (map (fun i => Fin (hi_edge x0 d i)) (seq 0 n))
                                 (map (fun i => Fin (y i)) (seq 0 n)) (Fin d) (Fin D) (Fin (u0 + INR j * D))) = Fin (v j)) ->
  exists l, box_integrate x ys xn false = Ok l /\ length l = m /\
  forall j, (j < m)%nat -> P j -> nth_error l j = Some (Fin (v j)).
Proof.
  intros H. rewrite box_grid. eexists. split; [reflexivity|]. split; [rewrite map_length, seq_length; reflexivity|].
  intros j J PJ. rewrite nth_error_map, (nth_error_nth' _ 0%nat) by (rewrite seq_length; exact J). cbn [option_map].
  rewrite seq_nth by exact J. cbn [Nat.add]. rewrite (H j J PJ). reflexivity.
Qed.

(** Bins no smaller than a pixel, whose ends are not pixel edges, hold the mean of the image in the bin. *)
Lemma box_mean_ok : d <= D -> exists l, box_integrate x ys xn false = Ok l /\ length l = m /\
  forall j, (j < m)%nat -> meets x0 d n (lo_edge u0 D j) (hi_edge u0 D j) -> no_shared_edge x0 d n (lo_edge u0 D j) (hi_edge u0 D j) ->
  nth_error l j = Some (Fin (box_mean x0 d n y (lo_edge u0 D j) (hi_edge u0 D j))).
Proof.
  intros DD. pose proof Hx as (_ & N & D0). pose proof Hu as (_ & M & D1).
  destruct (box_at (fun j => meets x0 d n (lo_edge u0 D j) (hi_edge u0 D j) /\ no_shared_edge x0 d n (lo_edge u0 D j) (hi_edge u0 D j))
    (fun j => box_mean x0 d n y (lo_edge u0 D j) (hi_edge u0 D j))) as (l & E & LEN & V).
  - intros j J [ME NS]. rewrite bin_value by assumption. f_equal. unfold box_mean.
    rewrite lo_hi. unfold Rdiv. f_equal. apply rsumn_ext. intros k K. f_equal.
    destruct (NS k K) as (S1 & S2 & S3 & S4). unfold lo_edge, hi_edge in *. apply counted_exact; try assumption; try lra.
  - exists l. split; [exact E|]. split; [exact LEN|]. intros j J ME NS. apply V; auto.
Qed.

(** Rebinning a profile onto its own grid triples it. *)
Lemma box_same : u0 = x0 -> D = d -> m = n -> exists l, box_integrate x ys xn false = Ok l /\ length l = n /\
  forall j, (j < n)%nat -> nth_error l j = Some (Fin (3 * y j)).
Proof.
  intros EU ED EM. pose proof Hx as (_ & N & D0).
  destruct (box_at (fun _ => True) (fun j => 3 * y j)) as (l & E & LEN & V).
  - intros j J _. rewrite EU, ED. rewrite EM in J. rewrite bin_value; try assumption.
    + f_equal. change (x0 + INR j * d - d / 2) with (lo_edge x0 d j). change (x0 + INR j * d + d / 2) with (hi_edge x0 d j).
      rewrite (rsumn_unique n j); [|exact J|].
      * unfold counted. pose proof (lo_hi x0 d j). repeat (destruct (Rle_dec _ _); try lra). repeat (destruct (Rlt_dec _ _); try lra).
        replace (hi_edge x0 d j) with (lo_edge x0 d j + d) by lra. field. lra.
      * intros i I NE. apply Rmult_eq_0_compat_l. unfold counted.
        pose proof (lo_hi x0 d j). pose proof (lo_hi x0 d i).
        assert (hi_edge x0 d i <= lo_edge x0 d j \/ hi_edge x0 d j <= lo_edge x0 d i).
        { rewrite !hi_lo. destruct (Nat.lt_ge_cases i j); [left|right]; apply lo_mono; lra || lia. }
        repeat (destruct (Rle_dec _ _); try lra); repeat (destruct (Rlt_dec _ _); try lra).
    + change (x0 + INR j * d - d / 2) with (lo_edge x0 d j). change (x0 + INR j * d + d / 2) with (hi_edge x0 d j). split.
      * apply Rlt_le_trans with (hi_edge x0 d j); [pose proof (lo_hi x0 d j); lra|]. rewrite !hi_lo. apply lo_mono; lra || lia.
      * apply Rle_lt_trans with (lo_edge x0 d j); [apply lo_mono; lra || lia|]. pose proof (lo_hi x0 d j); lra.
  - exists l. split; [exact E|]. split; [congruence|]. rewrite EM in V. auto.
Qed.

(** A bin within one pixel. *)
Lemma box_within : exists l, box_integrate x ys xn false = Ok l /\ length l = m /\
  forall j, (j < m)%nat -> forall k, (k < n)%nat -> lo_edge x0 d k < lo_edge u0 D j -> hi_edge u0 D j < hi_edge x0 d k ->
  nth_error l j = Some (Fin (y k * (1 + d / D))).
Proof.
  pose proof Hx as (_ & N & D0). pose proof Hu as (_ & M & D1). rewrite box_grid. eexists. split; [reflexivity|].
  split; [rewrite map_length, seq_length; reflexivity|]. intros j J k K L H.
  rewrite nth_error_map, (nth_error_nth' _ 0%nat) by (rewrite seq_length; exact J). cbn [option_map].
  rewrite seq_nth by exact J. cbn [Nat.add]. pose proof (lo_hi u0 D j) as DH. rewrite bin_value; try assumption.
  - change (u0 + INR j * D - D / 2) with (lo_edge u0 D j). change (u0 + INR j * D + D / 2) with (hi_edge u0 D j).
    do 2 f_equal. rewrite (rsumn_unique n k); [|exact K|].
    + unfold counted. pose proof (lo_hi x0 d k). repeat (destruct (Rle_dec _ _); try lra). repeat (destruct (Rlt_dec _ _); try lra).
      replace (hi_edge u0 D j) with (lo_edge u0 D j + D) by lra. replace (hi_edge x0 d k) with (lo_edge x0 d k + d) by lra. field. lra.
    + intros i I NE. apply Rmult_eq_0_compat_l. unfold counted. pose proof (lo_hi x0 d k). pose proof (lo_hi x0 d i).
      assert (hi_edge x0 d i <= lo_edge x0 d k \/ hi_edge x0 d k <= lo_edge x0 d i).
      { rewrite !hi_lo. destruct (Nat.lt_ge_cases i k); [left|right]; apply lo_mono; lra || lia. }
      repeat (destruct (Rle_dec _ _); try lra); repeat (destruct (Rlt_dec _ _); try lra).
  - change (u0 + INR j * D - D / 2) with (lo_edge u0 D j). change (u0 + INR j * D + D / 2) with (hi_edge u0 D j). split.
    + apply Rlt_le_trans with (hi_edge x0 d k); [lra|]. rewrite !hi_lo. apply lo_mono; lra || lia.
    + apply Rle_lt_trans with (lo_edge x0 d k); [apply lo_mono; lra || lia|]. lra.
Qed.

(** Bins beyond the image. *)
Lemma box_beyond : exists l, box_integrate x ys xn false = Ok l /\ length l = m /\
  (forall j, (j < m)%nat -> hi_edge x0 d (n - 1) <= lo_edge u0 D j ->
   nth_error l j = Some (Fin (- (y (n - 1)%nat * ((lo_edge u0 D j - hi_edge x0 d (n - 1)) / D))))) /\
  (forall j, (j < m)%nat -> hi_edge u0 D j <= lo_edge x0 d 0 ->
   nth_error l j = Some (Fin (- (y 0%nat * ((lo_edge x0 d 0 - hi_edge u0 D j) / D))))).
Proof.
  pose proof Hx as (_ & N & D0). pose proof Hu as (_ & M & D1). rewrite box_grid. eexists. split; [reflexivity|].
  split; [rewrite map_length, seq_length; reflexivity|].
  split; intros j J H; (rewrite nth_error_map, (nth_error_nth' _ 0%nat) by (rewrite seq_length; exact J)); cbn [option_map];
    rewrite seq_nth by exact J; cbn [Nat.add].
  - rewrite bin_right by assumption. do 2 f_equal. unfold lo_edge. field. lra.
  - rewrite bin_left by assumption. do 2 f_equal. unfold hi_edge. field. lra.
Qed.

(** Flux is conserved by bins which cover the image. *)
Definition clamp (A B t : R) : R := Rmin B (Rmax A t).

Lemma overlap_clamp A B a b : A < B -> a < b -> overlap A B a b = clamp A B b - clamp A B a.
Proof.
  intros. unfold overlap, clamp, Rmax, Rmin. repeat destruct (Rle_dec _ _); lra.
Qed.

Lemma telescope (e : nat -> R) k : rsumn k (fun j => e (S j) - e j) = e k - e 0%nat.
Proof. induction k as [|k IH]; cbn [rsumn]; [ring|]. rewrite IH. ring. Qed.

Lemma box_conserved : d <= D ->
  (forall j, (j < m)%nat -> meets x0 d n (lo_edge u0 D j) (hi_edge u0 D j) /\ no_shared_edge x0 d n (lo_edge u0 D j) (hi_edge u0 D j)) ->
  lo_edge u0 D 0 <= lo_edge x0 d 0 -> hi_edge x0 d (n - 1) <= hi_edge u0 D (m - 1) ->
  exists v : nat -> R, box_integrate x ys xn false = Ok (map (fun j => Fin (v j)) (seq 0 m)) /\
  rsumn m (fun j => v j * D) = rsumn n (fun k => y k * d).
Proof.
  intros DD OK C0 C1. pose proof Hx as (_ & N & D0). pose proof Hu as (_ & M & D1).
  destruct (box_mean_ok DD) as (l & E & LEN & V).
  exists (fun j => box_mean x0 d n y (lo_edge u0 D j) (hi_edge u0 D j)). split.
  - rewrite E. f_equal. apply nth_error_ext. intros j. destruct (Nat.lt_ge_cases j m) as [J|J].
    + destruct (OK j J) as [O1 O2]. rewrite (V j J O1 O2). rewrite nth_error_map, (nth_error_nth' _ 0%nat) by (rewrite seq_length; exact J).
      cbn [option_map]. rewrite seq_nth by exact J. reflexivity.
    + rewrite !(proj2 (nth_error_None _ _)); [reflexivity| |]; rewrite ?map_length, ?seq_length; lia.
  - unfold box_mean. transitivity (rsumn m (fun j => rsumn n (fun k => y k * overlap (lo_edge x0 d k) (hi_edge x0 d k) (lo_edge u0 D j) (hi_edge u0 D j)))).
    + apply rsumn_ext. intros j J. rewrite lo_hi. field. lra.
    + rewrite rsumn_swap. apply rsumn_ext. intros k K. rewrite rsumn_scal. f_equal.
      transitivity (rsumn m (fun j => clamp (lo_edge x0 d k) (hi_edge x0 d k) (lo_edge u0 D (S j)) - clamp (lo_edge x0 d k) (hi_edge x0 d k) (lo_edge u0 D j))).
      * apply rsumn_ext. intros j J. rewrite <- hi_lo. apply overlap_clamp; [pose proof (lo_hi x0 d k)|pose proof (lo_hi u0 D j)]; lra.
      * rewrite (telescope (fun j => clamp (lo_edge x0 d k) (hi_edge x0 d k) (lo_edge u0 D j))).
        assert (lo_edge x0 d 0 <= lo_edge x0 d k) by (apply lo_mono; lra || lia).
        assert (hi_edge x0 d k <= hi_edge x0 d (n - 1)) by (rewrite !hi_lo; apply lo_mono; lra || lia).
        assert (EM : lo_edge u0 D m = hi_edge u0 D (m - 1)) by (rewrite hi_lo; f_equal; lia). rewrite EM.
        pose proof (lo_hi x0 d k). unfold clamp, Rmax, Rmin. repeat destruct (Rle_dec _ _); lra.
Qed.
End Grid.

(** With debug the result is never returned. *)
Lemma box_debug x y v xn : exists e, box_integrate x y (v :: xn) true = Err e /\ (e = TypeError \/ e = ValueError).
Proof.
  unfold box_integrate. cbn [mapM bind]. destruct (snd _) as [[?|] [?|]]; cbn [bind]; eauto.
Qed.

(** The two-dimensional case. *)
Lemma nth_of_error {A} (l : list A) i v d : nth_error l i = Some v -> nth i l d = v.
Proof. apply nth_error_nth. Qed.

Lemma mapM_nth {A B} (f : A -> res B) l r i a b0 : mapM f l = Ok r -> nth_error l i = Some a -> f a = Ok (nth i r b0).
Proof.
  intros H. apply mapM_ok in H. revert i. induction H as [|? ? ? ? F _ IH]; intros i N; destruct i; try discriminate.
  - cbn in *. congruence.
  - apply IH. exact N.
Qed.

Lemma box_image p x y xn yn x0 dx n y0 dy m u0 Dx k v0 Dy q (f : nat -> nat -> R) :
  regular x x0 dx n -> regular y y0 dy m -> regular xn u0 Dx k -> regular yn v0 Dy q ->
  rows p = m -> cols p = n -> (forall i j, (i < m)%nat -> (j < n)%nat -> at2 p i j = Fin (f i j)) -> dx <= Dx -> dy <= Dy ->
  exists r, box_integrate_pstamp p x y xn yn = Ok r /\ rows r = q /\ cols r = k /\
  forall a b, (a < q)%nat -> (b < k)%nat ->
    meets y0 dy m (lo_edge v0 Dy a) (hi_edge v0 Dy a) -> no_shared_edge y0 dy m (lo_edge v0 Dy a) (hi_edge v0 Dy a) ->
    meets x0 dx n (lo_edge u0 Dx b) (hi_edge u0 Dx b) -> no_shared_edge x0 dx n (lo_edge u0 Dx b) (hi_edge u0 Dx b) ->
    at2 r a b = Fin (rsumn m (fun i => rsumn n (fun j => f i j *
      (overlap (lo_edge y0 dy i) (hi_edge y0 dy i) (lo_edge v0 Dy a) (hi_edge v0 Dy a) *
       overlap (lo_edge x0 dx j) (hi_edge x0 dx j) (lo_edge u0 Dx b) (hi_edge u0 Dx b)))) / (Dx * Dy)).
Proof.
  intros RX RY RU RV PR PC PF DX DY.
  assert (LX : length x = n) by (destruct RX as (-> & _); rewrite map_length, seq_length; reflexivity).
  assert (LU : length xn = k) by (destruct RU as (-> & _); rewrite map_length, seq_length; reflexivity).
  assert (LV : length yn = q) by (destruct RV as (-> & _); rewrite map_length, seq_length; reflexivity).
  assert (COL : forall i, (i < n)%nat -> sampled (map (fun j => at2 p j i) (seq 0 m)) (fun j => f j i) m).
  { intros i I. apply map_ext_in. intros j J. apply in_seq in J. apply PF; [lia|exact I]. }
  unfold box_integrate_pstamp. rewrite LX, LU, LV, PR, PC.
  destruct (mapM_total (fun i => if Nat.ltb i n then box_integrate y (map (fun j => at2 p j i) (seq 0 m)) yn false else Err IndexError) (seq 0 n)) as (cs & CE).
  { intros i I. apply in_seq in I. destruct (Nat.ltb_spec i n); [|lia].
    destruct (box_mean_ok _ _ _ _ _ _ _ _ _ _ RY (COL i ltac:(lia)) RV DY) as (l & E & _). eauto. }
  rewrite CE. cbn [bind].
  assert (CV : forall i, (i < n)%nat -> exists l, nth i cs [] = l /\ length l = q /\
    forall a, (a < q)%nat -> meets y0 dy m (lo_edge v0 Dy a) (hi_edge v0 Dy a) -> no_shared_edge y0 dy m (lo_edge v0 Dy a) (hi_edge v0 Dy a) ->
    nth_error l a = Some (Fin (box_mean y0 dy m (fun j => f j i) (lo_edge v0 Dy a) (hi_edge v0 Dy a)))).
  { intros i I. destruct (box_mean_ok _ _ _ _ _ _ _ _ _ _ RY (COL i I) RV DY) as (l & E & LEN & V).
    exists l. split; [|split; assumption].
    assert (N : nth_error (seq 0 n) i = Some i) by (rewrite (nth_error_nth' _ 0%nat) by (rewrite seq_length; exact I); rewrite seq_nth by exact I; reflexivity).
    pose proof (mapM_nth _ _ _ _ _ [] CE N) as G. cbv beta in G. destruct (Nat.ltb_spec i n); [|lia]. congruence. }
  set (tmp := mk2 q n (fun j i => lnth (nth i cs []) j)).
  change (cols tmp) with n.
  assert (RT : forall a, exists l, box_integrate x (map (fun i => at2 tmp a i) (seq 0 n)) xn false = Ok l /\ length l = k).
  { intros a. unfold box_integrate. eexists. cbv zeta. rewrite mapM_pure. split; [reflexivity|]. rewrite map_length. exact LU. }
  destruct (mapM_total (fun j => box_integrate x (map (fun i => at2 tmp j i) (seq 0 n)) xn false) (seq 0 q)) as (rs & RE).
  { intros a _. destruct (RT a) as (l & E & _). eauto. }
  rewrite RE. cbn [bind]. eexists. split; [reflexivity|]. split; [reflexivity|]. split; [reflexivity|].
  intros a b A B MY NY MX NX. cbn [at2].
  assert (N : nth_error (seq 0 q) a = Some a) by (rewrite (nth_error_nth' _ 0%nat) by (rewrite seq_length; exact A); rewrite seq_nth by exact A; reflexivity).
  pose proof (mapM_nth _ _ _ _ _ [] RE N) as G. cbv beta in G.
  assert (SM : sampled (map (fun i => at2 tmp a i) (seq 0 n)) (fun i => box_mean y0 dy m (fun j => f j i) (lo_edge v0 Dy a) (hi_edge v0 Dy a)) n).
  { apply map_ext_in. intros i I. apply in_seq in I. destruct (CV i ltac:(lia)) as (l & E & LEN & V). cbn [at2 tmp].
    unfold tmp, at2. cbn. rewrite E. unfold lnth. apply nth_of_error, V; assumption. }
  destruct (box_mean_ok _ _ _ _ _ _ _ _ _ _ RX SM RU DX) as (l & E & LEN & V).
  assert (EL : nth a rs [] = l) by congruence. rewrite EL. unfold lnth. rewrite (nth_of_error _ _ _ NaN (V b B MX NX)). f_equal.
  unfold box_mean. rewrite !lo_hi. pose proof RU as (_ & _ & DU). pose proof RV as (_ & _ & DV).
  rewrite rsumn_swap.
  replace (rsumn n (fun i => rsumn m (fun j => f j i * overlap (lo_edge y0 dy j) (hi_edge y0 dy j) (lo_edge v0 Dy a) (hi_edge v0 Dy a)) / Dy *
      overlap (lo_edge x0 dx i) (hi_edge x0 dx i) (lo_edge u0 Dx b) (hi_edge u0 Dx b)))
    with (rsumn n (fun i => rsumn m (fun j => f j i * (overlap (lo_edge y0 dy j) (hi_edge y0 dy j) (lo_edge v0 Dy a) (hi_edge v0 Dy a) *
      overlap (lo_edge x0 dx i) (hi_edge x0 dx i) (lo_edge u0 Dx b) (hi_edge u0 Dx b)))) / Dy).
  - field. lra.
  - unfold Rdiv. rewrite <- rsumn_scal_r. apply rsumn_ext. intros i I.
    rewrite Rmult_assoc, (Rmult_comm (/ Dy)), <- Rmult_assoc. f_equal. rewrite <- rsumn_scal_r. apply rsumn_ext. intros; ring.
Qed.
