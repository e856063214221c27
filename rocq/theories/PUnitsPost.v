(* Proofs: the summaries of a posterior follow the units of the parameters. *)
From Coq Require Import String Reals List Bool Arith ZArith Lia Lra Permutation.
From Verif Require Import PyFloat PyBase Arr PyNum MParams MProf MPost SParams SPost SOrder PPost PPost2 PPost3 PYprof2 POrder.
Import ListNotations.
Local Open Scope R_scope.

Lemma inf_pos b u : 0 < u -> inf_scale b u = if b then PInf else NInf.
Proof.
  intros H. unfold inf_scale. rewrite (proj2 (Reqb_false u 0)) by lra. rewrite (proj2 (Rltb_true 0 u)) by lra. now destruct b.
Qed.
Lemma fmul_sub u x y : 0 < u -> fmul (Fin u) (fsub x y) = fsub (fmul (Fin u) x) (fmul (Fin u) y).
Proof.
  intros H. destruct x, y; cbn [fsub fneg fadd fmul]; rewrite ?(inf_pos true u H), ?(inf_pos false u H); cbn [fneg fadd fmul]; rewrite ?(inf_pos true u H), ?(inf_pos false u H); auto.
  f_equal. ring.
Qed.
Lemma fmul_finite u x : 0 < u -> isfinite (fmul (Fin u) x) = isfinite x.
Proof. intros H. destruct x; cbn [fmul]; rewrite ?(inf_pos true u H), ?(inf_pos false u H); reflexivity. Qed.
Lemma fsign_scale u x : 0 < u -> fsign (fmul (Fin u) x) = fsign x.
Proof.
  intros H. destruct x as [x| | |]; cbn [fmul]; rewrite ?(inf_pos true u H), ?(inf_pos false u H); auto. cbn [fsign].
  destruct (Rltb 0 x) eqn:A.
  - apply Rltb_true in A. rewrite (proj2 (Rltb_true 0 (u * x))) by nra. reflexivity.
  - apply Rltb_false in A. rewrite (proj2 (Rltb_false 0 (u * x))) by nra. destruct (Rltb x 0) eqn:B.
    + apply Rltb_true in B. rewrite (proj2 (Rltb_true (u * x) 0)) by nra. reflexivity.
    + apply Rltb_false in B. rewrite (proj2 (Rltb_false (u * x) 0)) by nra. reflexivity.
Qed.
Lemma neg_scale u s x : 0 < u -> fltb (fmul s (fmul (Fin u) x)) (Fin 0) = fltb (fmul s x) (Fin 0) \/ isfinite s = false.
Proof.
  intros H. destruct s as [s| | |]; auto. left. destruct x as [x| | |]; cbn [fmul]; rewrite ?(inf_pos true u H), ?(inf_pos false u H); auto. cbn [fltb].
  destruct (Rltb (s * x) 0) eqn:A.
  - apply Rltb_true in A. apply Rltb_true. nra.
  - apply Rltb_false in A. apply Rltb_false. nra.
Qed.
Lemma neg_scale' u b x : 0 < u -> fltb (fmul (fsign (fmul (Fin u) b)) (fmul (Fin u) x)) (Fin 0) = fltb (fmul (fsign b) x) (Fin 0).
Proof.
  intros H. rewrite fsign_scale by exact H. destruct (neg_scale u (fsign b) x H) as [E|E]; [exact E|].
  destruct b as [b| | |]; cbn in E; try discriminate; [|reflexivity]. destruct (Rltb 0 b); [discriminate|]. destruct (Rltb b 0); discriminate.
Qed.

(** Lists in other units. *)
Definition scl (u : nat -> R) (k : nat) (l : list fl) : list fl := mapi_from k (fun j x => fmul (Fin (u j)) x) l.
Definition sc2 (c : R) (e : fl * fl) : fl * fl := (fmul (Fin c) (fst e), fmul (Fin c) (snd e)).
Definition scp (u : nat -> R) (k : nat) (l : list (fl * fl)) : list (fl * fl) := mapi_from k (fun j e => sc2 (u j) e) l.
Lemma mf_len {A B} (f : nat -> A -> B) : forall l k, length (mapi_from k f l) = length l.
Proof. induction l; intros k; cbn; auto. Qed.
Lemma mf_nth {A B} (f : nat -> A -> B) : forall l k i, nth_error (mapi_from k f l) i = option_map (f (k + i)%nat) (nth_error l i).
Proof.
  induction l as [|x l IH]; intros k [|i]; cbn; auto; [now rewrite Nat.add_0_r|]. rewrite IH. now replace (S k + i)%nat with (k + S i)%nat by lia.
Qed.
Lemma values_scl u l : values_in_units u l (scl u 0 l).
Proof. split; [apply mf_len|]. intros j. unfold scl. now rewrite mf_nth. Qed.
Lemma errors_scp u l : errors_in_units u l (scp u 0 l).
Proof. split; [apply mf_len|]. intros j. unfold scp. now rewrite mf_nth. Qed.
Lemma scl_firstn u n : forall l k, firstn n (scl u k l) = scl u k (firstn n l).
Proof. unfold scl. induction n; intros [|x l] k; cbn; auto. now rewrite IHn. Qed.

Definition rmap {A B} (g : A -> B) (x : res A) : res B := match x with Ok a => Ok (g a) | Err e => Err e end.

Lemma seti_scale {A} (f : nat -> A -> A) l i v : seti (mapi_from 0 f l) i (f i v) = rmap (mapi_from 0 f) (seti l i v).
Proof.
  unfold seti. rewrite mf_len. destruct (Nat.ltb i (length l)); [|reflexivity]. cbn [rmap]. f_equal. unfold mapi.
  generalize 0%nat. induction l as [|x l IH]; intros k; [reflexivity|]. cbn. rewrite IH. f_equal. destruct (Nat.eqb_spec k i); congruence.
Qed.
Lemma getn_scale {A B} (f : nat -> A -> B) l i : getn (mapi_from 0 f l) i = rmap (f i) (getn l i).
Proof. unfold getn. rewrite mf_nth. cbn. now destruct (nth_error l i). Qed.
Lemma take_scale u best is_ : take (scl u 0 best) is_ = rmap (fun l => map (fun p => fmul (Fin (fst p)) (snd p)) (combine (map u is_) l)) (take best is_).
Proof.
  induction is_ as [|i is_ IH]; [reflexivity|]. cbn [take]. unfold scl at 1. rewrite getn_scale. destruct (getn best i) as [x|e]; [|reflexivity].
  cbn [rmap bind]. rewrite IH. destruct (take best is_) as [l|e]; reflexivity.
Qed.

Lemma errors_scale u : (forall j, 0 < u j) -> forall best lims k, length best = length lims -> errors (scl u k best) (scp u k lims) = scp u k (errors best lims).
Proof.
  intros U. induction best as [|b best IH]; intros [|l lims] k L; try discriminate; [reflexivity|]. unfold errors, scl, scp in *. cbn [mapi_from combine map]. injection L as L.
  rewrite IH by exact L. f_equal. unfold sc2. cbn [fst snd]. now rewrite !fmul_sub by apply U.
Qed.
Lemma loop_scale u : (forall j, 0 < u j) -> forall is_ peak lims best err,
  link_loop is_ (map (fun p => fmul (Fin (fst p)) (snd p)) (combine (map u is_) peak)) (scp u 0 lims) (scl u 0 best) (scp u 0 err) =
  rmap (fun r => (scl u 0 (fst r), scp u 0 (snd r))) (link_loop is_ peak lims best err).
Proof.
  intros U. induction is_ as [|i is_ IH]; intros [|p peak] lims best err; cbn [map combine link_loop]; [reflexivity|reflexivity|reflexivity|]. cbn [fst snd].
  unfold scl at 1. rewrite (seti_scale (fun j x => fmul (Fin (u j)) x) best i p). destruct (seti best i p) as [best'|e]; [|reflexivity]. cbn [rmap bind].
  unfold scp at 1. rewrite getn_scale. destruct (getn lims i) as [l|e]; [|reflexivity]. cbn [rmap bind].
  replace (fsub (fmul (Fin (u i)) p) (fst (sc2 (u i) l)), fsub (snd (sc2 (u i) l)) (fmul (Fin (u i)) p)) with (sc2 (u i) (fsub p (fst l), fsub (snd l) p)).
  2: { unfold sc2. cbn [fst snd]. now rewrite !fmul_sub by apply U. }
  unfold scp at 1. rewrite (seti_scale (fun j e => sc2 (u j) e) err i). destruct (seti err i _) as [err'|e]; [|reflexivity]. cbn [rmap bind]. apply IH.
Qed.

Section Units.
Variables (K : kde) (u : nat -> R) (a b : arr2 fl).
Hypothesis KU : units_free K.
Hypothesis U : forall j, 0 < u j.
Hypothesis R : rows b = rows a.
Hypothesis C : cols b = cols a.
Hypothesis H : forall i j, (i < rows a)%nat -> (j < cols a)%nat -> at2 b i j = fmul (Fin (u j)) (at2 a i j).

Lemma col_units j : (j < cols a)%nat -> col b j = map (fmul (Fin (u j))) (col a j).
Proof. intros J. unfold col. rewrite R, map_map. apply map_ext_in. intros i Hi. apply in_seq in Hi. apply H; [exact (proj2 Hi)|exact J]. Qed.

Lemma linked_units best err lims g : linked K b (scl u 0 best) (scp u 0 err) (scp u 0 lims) g =
  rmap (fun r => (scl u 0 (fst r), scp u 0 (snd r))) (linked K a best err lims g).
Proof.
  unfold linked. cbv zeta. rewrite C. replace (length (scl u 0 best)) with (length best) by (unfold scl; now rewrite mf_len).
  set (is_ := match g with LinkAll => _ | LinkInds l => l end). destruct (forallb _ is_) eqn:F; [|reflexivity].
  rewrite take_scale. destruct (take best is_) as [init|e]; [|reflexivity]. cbn [rmap bind].
  assert (E : map (col b) is_ = map (fun p => map (fmul (Fin (fst p))) (snd p)) (combine (map u is_) (map (col a) is_))).
  { clear - R H F. induction is_ as [|i is_ IH]; [reflexivity|]. cbn in F. apply andb_true_iff in F. destruct F as [Fi F]. cbn. apply Nat.ltb_lt in Fi. now rewrite IH, (col_units i Fi). }
  rewrite E, (proj2 KU) by (rewrite ?map_length; auto; intros w Hw; apply in_map_iff in Hw; destruct Hw as (j & <- & _); apply U).
  destruct (k_many K _ init) as [peak|e]; [|reflexivity]. cbn [bind]. now apply loop_scale.
Qed.
Lemma groups_units gs : forall lims cur best e1 e2,
  link_groups K b gs (scp u 0 lims) (scp u 0 cur) (scl u 0 best) (scp u 0 e1) (scp u 0 e2) =
  rmap (fun r => (scl u 0 (fst (fst r)), scp u 0 (snd (fst r)), scp u 0 (snd r))) (link_groups K a gs lims cur best e1 e2).
Proof.
  induction gs as [|g gs IH]; intros; [reflexivity|]. cbn [link_groups]. rewrite linked_units.
  destruct (linked K a best e1 cur g) as [r1|e]; [|reflexivity]. cbn [rmap bind fst snd]. rewrite linked_units.
  destruct (linked K a (fst r1) e2 lims g) as [r2|e]; [|reflexivity]. cbn [rmap bind fst snd]. apply IH.
Qed.
Lemma peaks_units : forall n k, (k + n <= cols a)%nat -> peaks K (map (col b) (seq k n)) = rmap (scl u k) (peaks K (map (col a) (seq k n))).
Proof.
  induction n as [|n IH]; intros k B; [reflexivity|]. cbn [seq map peaks]. rewrite (col_units k) by lia. rewrite map_length.
  destruct (Nat.eqb (length (col a k)) 0); [reflexivity|].
  assert (F : forallb isfinite (map (fmul (Fin (u k))) (col a k)) = forallb isfinite (col a k)).
  { induction (col a k) as [|x l IHl]; [reflexivity|]. cbn [map forallb]. now rewrite IHl, fmul_finite by apply U. }
  rewrite F. destruct (forallb isfinite (col a k)); [|reflexivity]. rewrite (proj1 KU) by apply U.
  destruct (k_one K (col a k)) as [x|e]; [|reflexivity]. cbn [bind]. rewrite IH by lia. destruct (peaks K (map (col a) (seq (S k) n))); reflexivity.
Qed.
Lemma opposite_units best : (length best <= cols a)%nat -> opposite b (scl u 0 best) = opposite a best.
Proof.
  unfold opposite, mapi, scl. intros L. change (length best) with (0 + length best)%nat in L. revert L. generalize 0%nat.
  induction best as [|x best IH]; intros k L; [reflexivity|]. cbn [length] in L. cbn [mapi_from]. rewrite IH by lia. f_equal.
  rewrite R. do 3 f_equal. unfold where_. f_equal. rewrite !where_len, (col_units k) by lia. clear IH.
  induction (col a k) as [|y l IHl]; [reflexivity|]. cbn [map filter]. rewrite neg_scale' by apply U.
  destruct (fltb _ _); cbn [length]; now rewrite IHl.
Qed.
End Units.

Lemma limits_units u a b q1 q2 : (forall j, 0 < u j) -> rows b = rows a -> (forall i j, (i < rows a)%nat -> (j < cols a)%nat -> at2 b i j = fmul (Fin (u j)) (at2 a i j)) -> 0 <= q1 <= 100 -> 0 <= q2 <= 100 ->
  forall n k best K, (k + n <= cols a)%nat -> peaks K (map (col a) (seq k n)) = Ok best ->
  map (fun c => (percentile q1 c, percentile q2 c)) (map (col b) (seq k n)) =
  scp u k (map (fun c => (percentile q1 c, percentile q2 c)) (map (col a) (seq k n))).
Proof.
  intros U R H Q1 Q2. induction n as [|n IH]; intros k best K B P; [reflexivity|]. cbn [seq map peaks] in P |- *.
  destruct (Nat.eqb_spec (length (col a k)) 0) as [Z|Z]; [discriminate|].
  destruct (forallb isfinite (col a k)) eqn:F; [|discriminate]. destruct (k_one K (col a k)) as [x|e]; [|discriminate]. cbn [bind] in P.
  destruct (peaks K (map (col a) (seq (S k) n))) as [r|e] eqn:P'; [|discriminate]. unfold scp in *. cbn [mapi_from]. rewrite (IH (S k) r K ltac:(lia) P'). f_equal.
  rewrite (col_units u a b R H k) by lia.
  assert (E : exists l, col a k = map Fin l).
  { clear - F. induction (col a k) as [|y l IHl]; [now exists []|]. cbn in F. apply andb_true_iff in F. destruct F as [Fy F].
    destruct (IHl F) as [l' ->]. destruct y as [y| | |]; try discriminate. now exists (y :: l'). }
  destruct E as [l E]. rewrite E in *. rewrite map_length in Z.
  assert (L : l <> []) by (intros ->; now apply Z).
  assert (M : map (fmul (Fin (u k))) (map Fin l) = map Fin (map (fun v => u k * v) l)) by (rewrite !map_map; reflexivity). rewrite M.
  assert (G : forall q, 0 <= q <= 100 -> percentile q (map Fin (map (fun v => u k * v) l)) = fmul (Fin (u k)) (percentile q (map Fin l))).
  { intros q Hq. destruct (percentile_Fin q l L Hq) as (v & V & _). rewrite V. rewrite (percentile_scale q (u k) l v (U k) L Hq V). reflexivity. }
  unfold sc2. cbn [fst snd]. now rewrite !G by assumption.
Qed.

Lemma posterior_units K links vary u a b : units_free K -> (forall j, 0 < u j) -> in_units u a b ->
  match posterior K links vary a, posterior K links vary b with
  | Ok p, Ok p' => post_in_units u p p'
  | Err e, Err e' => e' = e
  | _, _ => False
  end.
Proof.
  intros KU U (R & C & H). unfold posterior. cbv zeta. rewrite C, (peaks_units K u a b KU U R C H) by lia.
  destruct (peaks K (map (col a) (seq 0 (cols a)))) as [best|e] eqn:P; [|reflexivity]. cbn [rmap bind].
  pose proof (peaks_spec _ _ _ P) as [L _]. rewrite map_length, seq_length in L.
  rewrite (limits_units u a b (15865/1000) (84135/1000) U R H ltac:(lra) ltac:(lra) (cols a) 0%nat best K ltac:(lia) P).
  rewrite (limits_units u a b (2275/1000) (97725/1000) U R H ltac:(lra) ltac:(lra) (cols a) 0%nat best K ltac:(lia) P).
  set (l1 := map (fun c => (percentile (15865/1000) c, percentile (84135/1000) c)) (map (col a) (seq 0 (cols a)))).
  set (l2 := map (fun c => (percentile (2275/1000) c, percentile (97725/1000) c)) (map (col a) (seq 0 (cols a)))).
  assert (L1 : length best = length l1) by (unfold l1; rewrite !map_length, seq_length; exact L).
  assert (L2 : length best = length l2) by (unfold l2; rewrite !map_length, seq_length; exact L).
  rewrite !errors_scale by assumption.
  assert (X : forall r : list fl * list (fl * fl) * list (fl * fl), length (fst (fst r)) = cols a ->
    post_in_units u (mkPost (fst (fst r)) (snd (fst r)) (snd r) (opposite a (fst (fst r))) (firstn (n_free_param vary) (fst (fst r))))
      (mkPost (scl u 0 (fst (fst r))) (scp u 0 (snd (fst r))) (scp u 0 (snd r)) (opposite b (scl u 0 (fst (fst r)))) (firstn (n_free_param vary) (scl u 0 (fst (fst r)))))).
  { intros r Lr. unfold post_in_units. cbn [p_best p_fit p_err1 p_err2 p_opp]. split; [apply values_scl|]. split; [rewrite scl_firstn; apply values_scl|].
    split; [apply errors_scp|]. split; [apply errors_scp|]. apply (opposite_units u a b U R C H). lia. }
  destruct links as [gs|].
  - rewrite (groups_units K u a b KU U R C H). destruct (link_groups K a gs l2 l1 best _ _) as [r|e] eqn:G; cbn [rmap bind fst snd]; [apply X|reflexivity].
    destruct r as [[r1 r2] r3]. apply groups_length in G. cbn. congruence.
  - cbn [bind fst snd]. apply (X (best, errors best l1, errors best l2)). exact L.
Qed.
