(* Proofs about box integration. *)
From Coq Require Import Reals List Bool Arith ZArith Lia Lra Psatz.
From Verif Require Import PyFloat PyBase Arr PyNum MParams MAper1D MFit1D MTrim MGeom SGeom PKernels PKernels2 PAper2DGrid PFit1D2.
Import ListNotations.
Local Open Scope R_scope.

Lemma where_seq {A} (p : A -> bool) (f : nat -> A) n : where_ p (map f (seq 0 n)) = filter (fun i => p (f i)) (seq 0 n).
Proof.
  unfold where_. generalize 0%nat as k. induction n as [|n IH]; intros k; [reflexivity|].
  cbn [seq map where_from filter]. rewrite IH. now destruct (p (f k)).
Qed.

Lemma seq_snoc n : seq 0 (S n) = seq 0 n ++ [n].
Proof. rewrite seq_S. reflexivity. Qed.

Lemma rev_snoc {A} (l : list A) x : rev (l ++ [x]) = x :: rev l.
Proof. now rewrite rev_app_distr. Qed.

Lemma last_index q n : match rev (filter q (seq 0 n)) with
  | [] => forall i, (i < n)%nat -> q i = false
  | k :: _ => (k < n)%nat /\ q k = true /\ forall i, (k < i < n)%nat -> q i = false
  end.
Proof.
  induction n as [|n IH]; [cbn; lia|]. rewrite seq_snoc, filter_app. cbn [filter]. destruct (q n) eqn:Q.
  - rewrite rev_snoc. split; [lia|]. split; [exact Q|]. lia.
  - rewrite app_nil_r. destruct (rev _) as [|k t].
    + intros i H. destruct (Nat.eq_dec i n) as [->|]; [exact Q|apply IH; lia].
    + destruct IH as (A & B & C). split; [lia|]. split; [exact B|]. intros i H.
      destruct (Nat.eq_dec i n) as [->|]; [exact Q|apply C; lia].
Qed.

Lemma first_index q n : match filter q (seq 0 n) with
  | [] => forall i, (i < n)%nat -> q i = false
  | k :: _ => (k < n)%nat /\ q k = true /\ forall i, (i < k)%nat -> q i = false
  end.
Proof.
  induction n as [|n IH]; [cbn; lia|]. rewrite seq_snoc, filter_app. cbn [filter].
  destruct (filter q (seq 0 n)) as [|k t].
  - cbn [app]. destruct (q n) eqn:Q.
    + split; [lia|]. split; [exact Q|]. exact IH.
    + intros i H. destruct (Nat.eq_dec i n) as [->|]; [exact Q|apply IH; lia].
  - cbn [app]. destruct IH as (A & B & C). split; [lia|]. auto.
Qed.

Lemma rsumn_unique n k g : (k < n)%nat -> (forall i, (i < n)%nat -> i <> k -> g i = 0) -> rsumn n g = g k.
Proof.
  intros K Z. rewrite <- (rsumn_single n k (g k) K). apply rsumn_ext. intros i I.
  destruct (Nat.eqb_spec i k) as [->|N]; [reflexivity|]. apply Z; assumption.
Qed.

Lemma rsum_app l1 l2 : rsum (l1 ++ l2) = rsum l1 + rsum l2.
Proof. unfold rsum. induction l1 as [|a l IH]; cbn [app fold_right]; [lra|]. rewrite IH. ring. Qed.

Lemma rsum_filter q (f : nat -> R) n : rsum (map f (filter q (seq 0 n))) = rsumn n (fun i => if q i then f i else 0).
Proof.
  induction n as [|n IH]; [reflexivity|]. rewrite seq_snoc, filter_app, map_app, rsum_app, IH. cbn [rsumn filter].
  destruct (q n); cbn [map]; unfold rsum; cbn [fold_right]; ring.
Qed.

Lemma getn_seq {A} (f : nat -> A) n k : (k < n)%nat -> getn (map f (seq 0 n)) k = Ok (f k).
Proof. intros K. unfold getn. rewrite nth_error_map, (nth_error_nth' _ 0%nat) by (rewrite seq_length; exact K). cbn [option_map]. rewrite seq_nth by exact K. reflexivity. Qed.

Lemma take_seq {A} (f : nat -> A) n l : (forall k, In k l -> (k < n)%nat) -> take (map f (seq 0 n)) l = Ok (map f l).
Proof.
  induction l as [|k l IH]; intros H; [reflexivity|]. cbn [take]. rewrite getn_seq by (apply H; left; reflexivity).
  cbn [bind]. rewrite IH by (intros; apply H; right; assumption). reflexivity.
Qed.

Lemma fsum_Fin_map l : fsum (map Fin l) = Fin (rsum l).
Proof. unfold fsum, rsum. induction l as [|a l IH]; [reflexivity|]. cbn [map fold_right]. rewrite IH. reflexivity. Qed.

Lemma hi_lo x0 d i : hi_edge x0 d i = lo_edge x0 d (S i).
Proof. unfold hi_edge, lo_edge. rewrite S_INR. lra. Qed.

Lemma lo_mono x0 d i j : 0 < d -> (i <= j)%nat -> lo_edge x0 d i <= lo_edge x0 d j.
Proof. intros D L. apply le_INR in L. unfold lo_edge. nra. Qed.

Lemma lo_hi x0 d i : hi_edge x0 d i - lo_edge x0 d i = d.
Proof. unfold hi_edge, lo_edge. lra. Qed.

(** How much of pixel [A,B] one bin [a,b] is given. *)
Definition counted (A B a b : R) : R :=
  (if Rle_dec a A then if Rle_dec B b then B - A else 0 else 0) +
  (if Rle_dec A a then if Rlt_dec a B then B - a else 0 else 0) +
  (if Rlt_dec A b then if Rle_dec b B then b - A else 0 else 0).

Lemma counted_exact A B a b : A < B -> a < b -> a <> A -> a <> B -> b <> A -> b <> B -> ~ (A < a /\ b < B) ->
  counted A B a b = overlap A B a b.
Proof.
  intros. unfold counted, overlap, Rmax, Rmin. repeat destruct (Rle_dec _ _); repeat destruct (Rlt_dec _ _); lra.
Qed.

Section Bin.
Variables (x0 d D : R) (n : nat) (y : nat -> R) (xn : R).
Hypotheses (Hd : 0 < d) (HD : 0 < D) (Hn : (2 <= n)%nat).
Let xl := map (fun i => Fin (lo_edge x0 d i)) (seq 0 n).
Let xh := map (fun i => Fin (hi_edge x0 d i)) (seq 0 n).
Let ys := map (fun i => Fin (y i)) (seq 0 n).
Let a := xn - D / 2.
Let b := xn + D / 2.

Lemma bin_parts : exists W L Rr, fst (box_bin xl xh ys (Fin d) (Fin D) (Fin xn)) = Fin ((W + L + Rr) / D) /\
  W = rsumn n (fun k => if Rle_dec a (lo_edge x0 d k) then if Rle_dec (hi_edge x0 d k) b then y k * d else 0 else 0) /\
  ((forall i, (i < n)%nat -> a < lo_edge x0 d i) /\ L = 0 \/
   exists k, (k < n)%nat /\ lo_edge x0 d k <= a /\ (forall i, (k < i < n)%nat -> a < lo_edge x0 d i) /\ L = y k * (hi_edge x0 d k - a)) /\
  ((forall i, (i < n)%nat -> hi_edge x0 d i < b) /\ Rr = 0 \/
   exists k, (k < n)%nat /\ b <= hi_edge x0 d k /\ (forall i, (i < k)%nat -> hi_edge x0 d i < b) /\ Rr = y k * (b - lo_edge x0 d k)).
Proof.
  unfold box_bin. cbv zeta. cbn [fst]. rewrite (fdiv_Fin D 2) by lra.
  change (fsub (Fin xn) (Fin (D / 2))) with (Fin a). change (fadd (Fin xn) (Fin (D / 2))) with (Fin b).
  unfold xl, xh. rewrite !where_seq.
  set (ic := filter _ (filter _ _)).
  assert (IC : ic = filter (fun k => Rleb a (lo_edge x0 d k) && Rleb (hi_edge x0 d k) b) (seq 0 n)).
  { unfold ic, fgeb. cbn [fleb]. 
    assert (M : forall k, In k (seq 0 n) -> memb k (filter (fun i => Rleb (hi_edge x0 d i) b) (seq 0 n)) = Rleb (hi_edge x0 d k) b).
    { intros k K. unfold memb. destruct (Rleb (hi_edge x0 d k) b) eqn:E.
      - apply existsb_exists. exists k. split; [apply filter_In; auto|apply Nat.eqb_refl].
      - destruct (existsb _ _) eqn:X; [|reflexivity]. apply existsb_exists in X. destruct X as (j & J & Q).
        apply Nat.eqb_eq in Q. subst j. apply filter_In in J. destruct J. congruence. }
    set (p2 := fun k => memb k _). 
    assert (G : forall l, (forall k, In k l -> In k (seq 0 n)) ->
      filter p2 (filter (fun i => Rleb a (lo_edge x0 d i)) l) = filter (fun k => Rleb a (lo_edge x0 d k) && Rleb (hi_edge x0 d k) b) l).
    { induction l as [|k l IH]; intros H; [reflexivity|]. cbn [filter].
      assert (P2 : p2 k = Rleb (hi_edge x0 d k) b) by (apply M, H; left; reflexivity).
      destruct (Rleb a (lo_edge x0 d k)); cbn [filter andb]; rewrite ?P2; rewrite IH by (intros; apply H; right; assumption); reflexivity. }
    apply G. auto. }
  clearbody ic.
  set (whole := match ic with [] => None | _ => _ end).
  set (W := rsumn n (fun k => if Rle_dec a (lo_edge x0 d k) then if Rle_dec (hi_edge x0 d k) b then y k * d else 0 else 0)).
  assert (WE : fadd (Fin 0) (match whole with Some v => v | None => Fin 0 end) = Fin W).
  { assert (SE : rsum (map y ic) * d = W).
    { rewrite IC, rsum_filter, <- rsumn_scal_r. apply rsumn_ext. intros k _. unfold Rleb.
      destruct (Rle_dec a _); cbn [andb]; [|ring]. destruct (Rle_dec _ b); ring. }
    unfold whole. destruct ic as [|k0 ic']; [cbn [fadd map rsum] in *; f_equal; rewrite <- SE; unfold rsum; cbn; ring|].
    unfold ys. rewrite take_seq.
    2:{ intros k K. rewrite IC in K. apply filter_In in K. destruct K as [K _]. apply in_seq in K. lia. }
    rewrite <- map_map, fsum_Fin_map. cbn [fmul fadd]. f_equal. rewrite SE. ring. }
  assert (WP : (match whole with Some v => fadd (Fin 0) v | None => Fin 0 end) = Fin W).
  { destruct whole; [exact WE|]. cbn [fadd] in WE. rewrite <- WE. f_equal. ring. }
  rewrite WP. clear WP WE. clearbody whole.
  pose proof (last_index (fun i => fleb (Fin (lo_edge x0 d i)) (Fin a)) n) as LI.
  pose proof (first_index (fun i => fgeb (Fin (hi_edge x0 d i)) (Fin b)) n) as FI.
  unfold fgeb in *. cbn [fleb] in *.
  assert (RI : exists Rr, (forall v, match match match filter (fun i => Rleb b (hi_edge x0 d i)) (seq 0 n) with k :: _ => Some k | [] => None end with
      | Some k => match getn ys k with Ok v => match getn (map (fun i => Fin (lo_edge x0 d i)) (seq 0 n)) k with Ok l => Some (fmul v (fsub (Fin b) l)) | Err _ => None end | Err _ => None end
      | None => None end with Some w => fadd (Fin v) w | None => Fin v end = Fin (v + Rr)) /\
    ((forall i, (i < n)%nat -> hi_edge x0 d i < b) /\ Rr = 0 \/
     exists k, (k < n)%nat /\ b <= hi_edge x0 d k /\ (forall i, (i < k)%nat -> hi_edge x0 d i < b) /\ Rr = y k * (b - lo_edge x0 d k))).
  { destruct (filter (fun i => Rleb b (hi_edge x0 d i)) (seq 0 n)) as [|k t].
    - exists 0. split; [intros v; apply f_equal; ring|]. left. split; [|reflexivity]. intros i I. apply Rleb_false, FI, I.
    - destruct FI as (K & Q & Z). exists (y k * (b - lo_edge x0 d k)). split.
      + intros v. unfold ys. rewrite !getn_seq by exact K. unfold fsub. cbn [fneg fadd fmul]. reflexivity.
      + right. exists k. split; [exact K|]. split; [apply Rleb_true, Q|]. split; [|reflexivity]. intros i I. apply Rleb_false, Z, I. }
  destruct RI as (Rr & RE & RP).
  assert (LL : exists L, (forall v, match match match rev (filter (fun i => Rleb (lo_edge x0 d i) a) (seq 0 n)) with k :: _ => Some k | [] => None end with
      | Some k => match getn ys k with Ok v => match getn (map (fun i => Fin (hi_edge x0 d i)) (seq 0 n)) k with Ok h => Some (fmul v (fsub h (Fin a))) | Err _ => None end | Err _ => None end
      | None => None end with Some w => fadd (Fin v) w | None => Fin v end = Fin (v + L)) /\
    ((forall i, (i < n)%nat -> a < lo_edge x0 d i) /\ L = 0 \/
     exists k, (k < n)%nat /\ lo_edge x0 d k <= a /\ (forall i, (k < i < n)%nat -> a < lo_edge x0 d i) /\ L = y k * (hi_edge x0 d k - a))).
  { destruct (rev (filter (fun i => Rleb (lo_edge x0 d i) a) (seq 0 n))) as [|k t].
    - exists 0. split; [intros v; apply f_equal; ring|]. left. split; [|reflexivity]. intros i I. apply Rleb_false, LI, I.
    - destruct LI as (K & Q & Z). exists (y k * (hi_edge x0 d k - a)). split.
      + intros v. unfold ys. rewrite !getn_seq by exact K. unfold fsub. cbn [fneg fadd fmul]. reflexivity.
      + right. exists k. split; [exact K|]. split; [apply Rleb_true, Q|]. split; [|reflexivity]. intros i I. apply Rleb_false, Z, I. }
  destruct LL as (L & LE & LP).
  rewrite LE, RE. rewrite fdiv_Fin by lra. exists W, L, Rr. repeat split; assumption.
Qed.

(** The value of a bin that meets the image. *)
Lemma bin_value : meets x0 d n a b ->
  fst (box_bin xl xh ys (Fin d) (Fin D) (Fin xn)) =
  Fin (rsumn n (fun k => y k * counted (lo_edge x0 d k) (hi_edge x0 d k) a b) / D).
Proof.
  intros [M1 M2]. destruct bin_parts as (W & L & Rr & E & WE & LP & RP). rewrite E. f_equal. f_equal.
  assert (LS : L = rsumn n (fun k => y k * (if Rle_dec (lo_edge x0 d k) a then if Rlt_dec a (hi_edge x0 d k) then hi_edge x0 d k - a else 0 else 0))).
  { destruct LP as [[A ->]|(k & K & A & B & ->)].
    - symmetry. apply rsumn_zero. intros i I. specialize (A i I). destruct (Rle_dec _ _); [lra|ring].
    - rewrite (rsumn_unique n k); [| exact K |].
      + destruct (Rle_dec _ _); [|lra]. destruct (Rlt_dec _ _) as [|N]; [reflexivity|]. exfalso. apply N.
        destruct (Nat.eq_dec k (n - 1)) as [->|NE]; [exact M1|]. rewrite hi_lo. apply B. lia.
      + intros i I NE. destruct (Nat.lt_ge_cases k i) as [G|G].
        * specialize (B i ltac:(lia)). destruct (Rle_dec _ _); [lra|ring].
        * assert (H : lo_edge x0 d (S i) <= lo_edge x0 d k) by (apply lo_mono; [exact Hd|lia]). rewrite <- hi_lo in H.
          destruct (Rle_dec _ _); [|ring]. destruct (Rlt_dec _ _); [lra|ring]. }
  assert (RS : Rr = rsumn n (fun k => y k * (if Rlt_dec (lo_edge x0 d k) b then if Rle_dec b (hi_edge x0 d k) then b - lo_edge x0 d k else 0 else 0))).
  { destruct RP as [[A ->]|(k & K & A & B & ->)].
    - symmetry. apply rsumn_zero. intros i I. specialize (A i I). destruct (Rlt_dec _ _); [|ring]. destruct (Rle_dec _ _); [lra|ring].
    - rewrite (rsumn_unique n k); [| exact K |].
      + destruct (Rle_dec b _); [|lra]. destruct (Rlt_dec _ _) as [|N]; [reflexivity|]. exfalso. apply N.
        destruct k as [|k]; [exact M2|]. rewrite <- hi_lo. apply B. lia.
      + intros i I NE. destruct (Nat.lt_ge_cases i k) as [G|G].
        * specialize (B i ltac:(lia)). destruct (Rlt_dec _ _); [|ring]. destruct (Rle_dec _ _); [lra|ring].
        * assert (H : lo_edge x0 d (S k) <= lo_edge x0 d i) by (apply lo_mono; [exact Hd|lia]). rewrite <- hi_lo in H.
          destruct (Rlt_dec _ _); [lra|ring]. }
  rewrite WE, LS, RS, <- !rsumn_plus. apply rsumn_ext. intros k _. unfold counted. rewrite lo_hi.
  repeat destruct (Rle_dec _ _); repeat destruct (Rlt_dec _ _); ring.
Qed.

(** A bin to the right of the image. *)
Lemma bin_right : hi_edge x0 d (n - 1) <= a ->
  fst (box_bin xl xh ys (Fin d) (Fin D) (Fin xn)) = Fin (y (n - 1)%nat * (hi_edge x0 d (n - 1) - a) / D).
Proof.
  intros H. assert (AB : a < b) by (unfold a, b; lra).
  assert (TOP : forall i, (i < n)%nat -> hi_edge x0 d i <= hi_edge x0 d (n - 1)) by (intros i I; rewrite !hi_lo; apply lo_mono; [exact Hd|lia]).
  destruct bin_parts as (W & L & Rr & E & WE & LP & RP). rewrite E. f_equal. f_equal.
  assert (W0 : W = 0).
  { rewrite WE. apply rsumn_zero. intros k K. destruct (Rle_dec _ _) as [Q|]; [|reflexivity]. exfalso.
    specialize (TOP k K). pose proof (lo_hi x0 d k). lra. }
  assert (R0 : Rr = 0).
  { destruct RP as [[_ R0]|(k & K & A & _)]; [exact R0|]. exfalso. specialize (TOP k K). lra. }
  assert (L0 : L = y (n - 1)%nat * (hi_edge x0 d (n - 1) - a)).
  { destruct LP as [[A _]|(k & K & A & B & ->)].
    - exfalso. specialize (A (n - 1)%nat ltac:(lia)). pose proof (lo_hi x0 d (n - 1)). lra.
    - destruct (Nat.eq_dec k (n - 1)) as [->|NE]; [reflexivity|]. exfalso. specialize (B (n - 1)%nat ltac:(lia)).
      pose proof (lo_hi x0 d (n - 1)). lra. }
  rewrite W0, R0, L0. ring.
Qed.

(** A bin to the left of the image. *)
Lemma bin_left : b <= lo_edge x0 d 0 ->
  fst (box_bin xl xh ys (Fin d) (Fin D) (Fin xn)) = Fin (y 0%nat * (b - lo_edge x0 d 0) / D).
Proof.
  intros H. assert (AB : a < b) by (unfold a, b; lra).
  assert (BOT : forall i, lo_edge x0 d 0 <= lo_edge x0 d i) by (intros i; apply lo_mono; [exact Hd|lia]).
  destruct bin_parts as (W & L & Rr & E & WE & LP & RP). rewrite E. f_equal. f_equal.
  assert (W0 : W = 0).
  { rewrite WE. apply rsumn_zero. intros k K. destruct (Rle_dec _ _) as [Q|]; [|reflexivity]. destruct (Rle_dec _ _); [|reflexivity]. exfalso.
    specialize (BOT k). pose proof (lo_hi x0 d k). lra. }
  assert (L0 : L = 0).
  { destruct LP as [[_ L0]|(k & K & A & _)]; [exact L0|]. exfalso. specialize (BOT k). lra. }
  assert (R0 : Rr = y 0%nat * (b - lo_edge x0 d 0)).
  { destruct RP as [[A _]|(k & K & A & B & ->)].
    - exfalso. specialize (A 0%nat ltac:(lia)). pose proof (lo_hi x0 d 0). lra.
    - destruct (Nat.eq_dec k 0) as [->|NE]; [reflexivity|]. exfalso. specialize (B 0%nat ltac:(lia)).
      pose proof (lo_hi x0 d 0). lra. }
  rewrite W0, R0, L0. ring.
Qed.
End Bin.
