(* Proofs about runs, edge masking and missing-data masks. *)
From Coq Require Import Reals List Bool Arith ZArith Lra Lia Sorted Permutation.
From Verif Require Import PyFloat PyBase Arr PyNum MMask SMask.
Import ListNotations.
Local Open Scope R_scope.

(* ---------------- wh_continuous ---------------- *)

Lemma wh_loop_step arr a b t : wh_cont_loop arr (a :: b :: t) =
  if Nat.eqb b (S a) then wh_cont_loop (arr ++ [a]) (b :: t) else (arr ++ [a]) :: wh_cont_loop [] (b :: t).
Proof. reflexivity. Qed.

Lemma wh_loop_arr l arr : l <> [] ->
  wh_cont_loop arr l = match wh_cont_loop [] l with r :: rs => (arr ++ r) :: rs | [] => [] end.
Proof.
  revert arr. induction l as [|a t IH]; intros arr H; [congruence|].
  destruct t as [|b t]; [reflexivity|].
  rewrite !wh_loop_step. cbn [app]. destruct (Nat.eqb b (S a)); [|reflexivity].
  rewrite (IH (arr ++ [a])) by discriminate. rewrite (IH [a]) by discriminate.
  destruct (wh_cont_loop [] (b :: t)); [reflexivity|]. now rewrite <- app_assoc.
Qed.

Lemma wh_cons a b t : wh_continuous (a :: b :: t) =
  if Nat.eqb b (S a) then match wh_continuous (b :: t) with r :: rs => (a :: r) :: rs | [] => [] end
  else [a] :: wh_continuous (b :: t).
Proof.
  unfold wh_continuous. rewrite wh_loop_step. cbn [app].
  destruct (Nat.eqb b (S a)); [|reflexivity]. rewrite wh_loop_arr by discriminate. reflexivity.
Qed.

(* one step keeps: concatenation, consecutive runs, first element, gaps *)
Lemma wh_all l : l <> [] -> exists r rs, wh_continuous l = r :: rs /\ concat (r :: rs) = l /\
  Forall consecutive (r :: rs) /\ gaps (r :: rs) /\ hd 0%nat r = hd 0%nat l.
Proof.
  induction l as [|a t IH]; intros H; [congruence|]. destruct t as [|b t].
  { exists [a], []. repeat split; auto. constructor; [|constructor]. exists a, 0%nat. reflexivity. }
  destruct IH as (r & rs & E & C & F & G & Hh); [discriminate|]. rewrite wh_cons, E.
  destruct (Nat.eqb_spec b (S a)) as [->|N].
  - exists (a :: r), rs. split; [reflexivity|]. split; [cbn [concat app]; f_equal; exact C|].
    inversion F as [|x y (s & k & Er) F2]; subst x y. cbn in Hh.
    assert (s = S a) by (rewrite Er in Hh; exact Hh). subst s.
    split; [constructor; auto; exists a, (S k); rewrite Er; reflexivity|].
    split; [|reflexivity]. destruct rs as [|r2 rs]; [exact I|]. cbn [gaps] in *. destruct G as [G1 G2].
    split; [|exact G2]. rewrite Er in G1 |- *. exact G1.
  - exists [a], (r :: rs). split; [reflexivity|]. split; [cbn [concat app] in *; f_equal; exact C|].
    split; [constructor; auto; exists a, 0%nat; reflexivity|].
    split; [|reflexivity]. split; [|exact G]. cbn [last]. rewrite Hh. exact N.
Qed.

Lemma wh_concat l : concat (wh_continuous l) = l.
Proof.
  destruct l as [|a t]; [reflexivity|]. destruct (wh_all (a :: t)) as (r & rs & E & C & _); [discriminate|].
  now rewrite E.
Qed.
Lemma wh_consecutive l : Forall consecutive (wh_continuous l).
Proof.
  destruct l as [|a t]; [constructor|]. destruct (wh_all (a :: t)) as (r & rs & E & _ & F & _); [discriminate|].
  now rewrite E.
Qed.
Lemma wh_gaps l : gaps (wh_continuous l).
Proof.
  destruct l as [|a t]; [exact I|]. destruct (wh_all (a :: t)) as (r & rs & E & _ & _ & G & _); [discriminate|].
  now rewrite E.
Qed.

Lemma seq_inj_pre a n m b l1 l2 : seq a n ++ l1 = seq b (n + S m) ++ l2 -> (1 <= n)%nat ->
  hd 0%nat l1 = (a + n)%nat /\ l1 <> [].
Proof.
  revert a b. induction n as [|n IH]; intros a b E Hn; [lia|].
  cbn [seq app plus] in E. injection E as -> E. destruct n as [|n].
  - cbn [seq app plus] in E. subst l1. split; [cbn; lia|discriminate].
  - apply IH in E; [|lia]. destruct E as [E1 E2]. split; auto. lia.
Qed.

Lemma wh_unique rs : Forall consecutive rs -> gaps rs -> rs = wh_continuous (concat rs).
Proof.
  enough (forall l rs, concat rs = l -> Forall consecutive rs -> gaps rs -> rs = wh_continuous l) by eauto.
  clear rs. intros l. induction l as [|a t IH]; intros rs E F G.
  - destruct rs as [|r rs]; [reflexivity|]. inversion F as [|x y (s & k & Er) F2]; subst. discriminate.
  - destruct rs as [|r rs]; [discriminate|]. inversion F as [|x y (s & k & Er) F2]; subst x y.
    cbn [concat] in E. rewrite Er in E. cbn [seq app] in E. injection E as -> E.
    destruct k as [|k].
    + cbn [seq app] in E. cbn [seq] in Er. destruct rs as [|r2 rs].
      { cbn in E. subst t r. reflexivity. }
      destruct t as [|b t]. { inversion F2 as [|x y (s & k & Er2) F3]; subst. discriminate. }
      rewrite wh_cons. cbn [gaps] in G. destruct G as [G1 G2].
      assert (Hb : hd 0%nat r2 = b).
      { inversion F2 as [|x y (s & k & Er2) F3]; subst x y. rewrite Er2 in E |- *. cbn in E |- *. now injection E. }
      rewrite Er, Hb in G1. cbn [last] in G1. destruct (Nat.eqb_spec b (S a)); [congruence|].
      rewrite Er. f_equal. apply IH; auto.
    + destruct t as [|b t]; [discriminate|]. rewrite wh_cons.
      assert (b = S a) by (cbn [seq app] in E; now injection E). subst b. rewrite Nat.eqb_refl.
      rewrite <- (IH (seq (S a) (S k) :: rs)).
      * rewrite Er. reflexivity.
      * cbn [concat]. exact E.
      * constructor; auto. now exists (S a), k.
      * destruct rs as [|r2 rs]; [exact I|]. cbn [gaps] in *. destruct G as [G1 G2]. split; auto.
        rewrite Er in G1. exact G1.
Qed.

Lemma ascending_app l1 l2 : ascending (l1 ++ l2) -> ascending l1 /\ ascending l2 /\
  forall x y, In x l1 -> In y l2 -> (x < y)%nat.
Proof.
  induction l1 as [|a l1 IH]; cbn [app]; intros H.
  - split; [constructor|]. split; auto. intros x y [].
  - inversion H as [|x y H1 H2]; subst x y. destruct (IH H1) as (A & B & C).
    rewrite Forall_app in H2. destruct H2 as [H2 H3].
    split; [constructor; auto|]. split; auto. intros x y [->|Hx] Hy.
    + rewrite Forall_forall in H3. auto.
    + auto.
Qed.
Lemma ascending_intro l1 l2 : ascending l1 -> ascending l2 ->
  (forall x y, In x l1 -> In y l2 -> (x < y)%nat) -> ascending (l1 ++ l2).
Proof.
  induction l1 as [|a l1 IH]; cbn [app]; intros H1 H2 H; auto.
  inversion H1 as [|x y A B]; subst x y. constructor.
  - apply IH; auto. intros; apply H; cbn; auto.
  - apply Forall_app. split; auto. apply Forall_forall. intros; apply H; cbn; auto.
Qed.

Lemma wh_separated l pre r1 r2 post : ascending l -> wh_continuous l = pre ++ r1 :: r2 :: post ->
  (S (last r1 0%nat) < hd 0%nat r2)%nat.
Proof.
  intros A E.
  assert (G := wh_gaps l). assert (F := wh_consecutive l). assert (C := wh_concat l). rewrite E in *.
  clear E. revert l A C G F. induction pre as [|p pre IH]; intros l A C G F.
  - cbn [app gaps] in G. destruct G as [G _]. cbn [app concat] in C.
    inversion F as [|x y (s & k & E1) F2]; subst x y. inversion F2 as [|x y (s2 & k2 & E2) F3]; subst x y.
    rewrite <- C in A. apply ascending_app in A. destruct A as (_ & _ & A).
    assert (L : last r1 0%nat = (s + k)%nat).
    { rewrite E1, seq_S, last_last. reflexivity. }
    assert (X : (s + k < s2)%nat).
    { apply A. - rewrite E1. apply in_seq. lia. - rewrite E2. apply in_app_iff. left. apply in_seq. lia. }
    rewrite L in *. rewrite E2 in *. cbn [seq hd] in *. lia.
  - cbn [app] in *. inversion F as [|x y _ F2]; subst x y. cbn [concat] in C.
    rewrite <- C in A. apply ascending_app in A. destruct A as (_ & A & _).
    refine (IH _ A eq_refl _ F2). destruct (pre ++ r1 :: r2 :: post) eqn:E; [now destruct pre|]. apply G.
Qed.

(* ---------------- lists and indices ---------------- *)

Lemma nth_error_set_inds {A} (l : list A) inds v i a : nth_error l i = Some a ->
  nth_error (set_inds l inds v) i = Some (if memb i inds then v else a).
Proof. intros H. now rewrite set_inds_nth, H. Qed.

Lemma where_memb {A} (p : A -> bool) l i a : nth_error l i = Some a -> memb i (where_ p l) = p a.
Proof.
  intros H. destruct (p a) eqn:E.
  - apply memb_In, where_In. eauto.
  - apply memb_false. intros Hi. apply where_In in Hi. destruct Hi as (b & Hb & Pb). congruence.
Qed.
Lemma where_lt {A} (p : A -> bool) l i : In i (where_ p l) -> (i < length l)%nat.
Proof. intros H. apply where_In in H. destruct H as (a & H & _). apply nth_error_Some. congruence. Qed.
Lemma where_forallb {A} (p : A -> bool) l n : (length l <= n)%nat ->
  forallb (fun i => Nat.ltb i n) (where_ p l) = true.
Proof. intros H. apply forallb_forall. intros i Hi. apply where_lt in Hi. apply Nat.ltb_lt. lia. Qed.

Lemma where_from_sorted {A} (p : A -> bool) l k : ascending (where_from k p l).
Proof.
  revert k. induction l as [|a l IH]; intros k; cbn [where_from]; [constructor|].
  apply ascending_intro; auto.
  - destruct (p a); repeat constructor.
  - intros x y Hx Hy. destruct (p a); [|destruct Hx]. destruct Hx as [<-|[]].
    apply where_from_In in Hy. destruct Hy as (b & Hy & _). lia.
Qed.
Lemma where_sorted {A} (p : A -> bool) l : ascending (where_ p l).
Proof. apply where_from_sorted. Qed.

(* ---------------- mask_edges_1D ---------------- *)

Lemma feqb1 x : feqb x (Fin 1) = true <-> x = Fin 1.
Proof.
  destruct x; cbn; try (split; discriminate). rewrite Reqb_true. split; intros H; congruence.
Qed.
Lemma feqb0 x : feqb x (Fin 0) = true <-> x = Fin 0.
Proof.
  destruct x; cbn; try (split; discriminate). rewrite Reqb_true. split; intros H; congruence.
Qed.

Lemma ascending_head a l x : ascending (a :: l) -> In x (a :: l) -> (a <= x)%nat.
Proof.
  intros H [->|Hx]; auto. inversion H as [|y z _ F]; subst. rewrite Forall_forall in F. apply F in Hx. lia.
Qed.
Lemma last_cons {A} (l : list A) a d : last (a :: l) d = last l a.
Proof.
  revert a d. induction l as [|b l IH]; intros a d; [reflexivity|].
  change (last (a :: b :: l) d) with (last (b :: l) d). rewrite (IH b d). symmetry. apply IH.
Qed.
Lemma last_in {A} (l : list A) d : In (last l d) (d :: l).
Proof.
  revert d. induction l as [|a l IH]; intros d; [now left|]. right. rewrite last_cons. apply IH.
Qed.
Lemma ascending_last a l x : ascending (a :: l) -> In x (a :: l) -> (x <= last l a)%nat.
Proof.
  revert a x. induction l as [|b l IH]; intros a x H Hx.
  - destruct Hx as [->|[]]. cbn. lia.
  - inversion H as [|y z H2 F]; subst y z. rewrite last_cons. destruct Hx as [->|Hx].
    + inversion F as [|y z Hb _]; subst y z. specialize (IH b b H2 (or_introl eq_refl)). lia.
    + apply IH; auto.
Qed.

Lemma edges_where mask : 
  (where_ (fun m => feqb m (Fin 1)) mask = [] /\ forall i, nth_error mask i <> Some (Fin 1)) \/
  exists l0 rest, where_ (fun m => feqb m (Fin 1)) mask = l0 :: rest /\
    first_valid mask l0 /\ last_valid mask (last rest l0).
Proof.
  destruct (where_ (fun m => feqb m (Fin 1)) mask) as [|l0 rest] eqn:E.
  - left. split; auto. intros i H. assert (X : In i (where_ (fun m => feqb m (Fin 1)) mask)).
    { apply where_In. exists (Fin 1). split; auto. now apply feqb1. }
    rewrite E in X. destruct X.
  - right. exists l0, rest. split; auto.
    assert (S := where_sorted (fun m => feqb m (Fin 1)) mask). rewrite E in S.
    assert (I : forall i, In i (l0 :: rest) <-> nth_error mask i = Some (Fin 1)).
    { intros i. rewrite <- E, where_In. split.
      - intros (a & Ha & P). apply feqb1 in P. now subst.
      - intros H. exists (Fin 1). split; auto. now apply feqb1. }
    split; split.
    + apply I. now left.
    + intros i Hi H. apply I in H. apply (ascending_head _ _ _ S) in H. lia.
    + apply I. apply last_in.
    + intros i Hi H. apply I in H. apply (ascending_last _ _ _ S) in H. lia.
Qed.

Lemma first_unique mask a b : first_valid mask a -> first_valid mask b -> a = b.
Proof.
  intros [A1 A2] [B1 B2]. destruct (lt_eq_lt_dec a b) as [[H|H]|H]; auto.
  - now apply B2 in H. - now apply A2 in H.
Qed.
Lemma last_unique mask a b : last_valid mask a -> last_valid mask b -> a = b.
Proof.
  intros [A1 A2] [B1 B2]. destruct (lt_eq_lt_dec a b) as [[H|H]|H]; auto.
  - now apply A2 in H. - now apply B2 in H.
Qed.

Lemma nth_error_set_slice {A} (l : list A) a b v i :
  nth_error (set_slice l a b v) i =
  option_map (fun x => if Nat.leb (slice_bound (length l) a) i && Nat.ltb i (slice_bound (length l) b) then v else x)
    (nth_error l i).
Proof. apply mapi_nth. Qed.

(** The value of the edge-masked mask at every index, in terms of the first and last valid index. *)
Lemma edges_value n mask num l r i m : first_valid mask l -> last_valid mask r ->
  length mask = n -> nth_error mask i = Some m ->
  nth_error (mask_edges_1D n mask num) i = Some (
    if (Nat.ltb 0 l && (Nat.leb l i && Nat.ltb i (slice_bound n (Z.of_nat l + num))))
       || (Nat.ltb (S r) n && (Nat.leb (slice_bound n (Z.of_nat r - num - 1)) i && Nat.leb i r))
    then Fin 0 else m).
Proof.
  intros Hl Hr Hn Hi. unfold mask_edges_1D.
  destruct (edges_where mask) as [[_ X]|(l0 & rest & E & F & L)].
  { destruct Hl as [Hl _]. now apply X in Hl. }
  rewrite E. rewrite (first_unique _ _ _ F Hl) in *. rewrite (last_unique _ _ _ L Hr) in *. clear F L.
  assert (Lr : (r < n)%nat) by (destruct Hr as [Hr _]; rewrite <- Hn; apply nth_error_Some; congruence).
  assert (Ll : (l < n)%nat) by (destruct Hl as [Hl _]; rewrite <- Hn; apply nth_error_Some; congruence).
  assert (B1 : slice_bound n (Z.of_nat l) = l).
  { unfold slice_bound. destruct (Z.ltb_spec (Z.of_nat l) 0); lia. }
  assert (B2 : slice_bound n (Z.of_nat r + 1) = S r).
  { unfold slice_bound. destruct (Z.ltb_spec (Z.of_nat r + 1) 0); lia. }
  replace (Z.ltb 0 (Z.of_nat l)) with (Nat.ltb 0 l) by (destruct (Nat.ltb_spec 0 l), (Z.ltb_spec 0 (Z.of_nat l)); lia || auto).
  replace (Z.ltb (Z.of_nat r) (Z.of_nat n - 1)) with (Nat.ltb (S r) n)
    by (destruct (Nat.ltb_spec (S r) n), (Z.ltb_spec (Z.of_nat r) (Z.of_nat n - 1)); lia || auto).
  set (m1 := if Nat.ltb 0 l then _ else mask).
  assert (V1 : nth_error m1 i = Some (if Nat.ltb 0 l && (Nat.leb l i && Nat.ltb i (slice_bound n (Z.of_nat l + num))) then Fin 0 else m)).
  { unfold m1. destruct (Nat.ltb 0 l); cbn [andb]; [|exact Hi].
    rewrite nth_error_set_slice, Hi, Hn, B1. reflexivity. }
  assert (L1 : length m1 = n).
  { unfold m1. destruct (Nat.ltb 0 l); [rewrite set_slice_length|]; exact Hn. }
  destruct (Nat.ltb (S r) n); cbn [andb].
  - rewrite nth_error_set_slice, V1, L1, B2. cbn [option_map]. f_equal.
    replace (Nat.ltb i (S r)) with (Nat.leb i r) by (destruct (Nat.leb_spec i r), (Nat.ltb_spec i (S r)); lia || auto).
    destruct (Nat.leb _ i && Nat.leb i r); [rewrite orb_true_r; reflexivity|]. rewrite orb_false_r. reflexivity.
  - rewrite orb_false_r. exact V1.
Qed.

Lemma edges_none n mask num : (forall i, nth_error mask i <> Some (Fin 1)) -> mask_edges_1D n mask num = mask.
Proof.
  intros H. unfold mask_edges_1D. destruct (edges_where mask) as [[-> _]|(l0 & rest & E & F & L)]; auto.
  destruct F as [F _]. now apply H in F.
Qed.

Lemma edges_left n mask num l r i : first_valid mask l -> last_valid mask r -> length mask = n ->
  (0 < l)%nat -> (l <= i < l + num)%nat -> (i < n)%nat ->
  nth_error (mask_edges_1D n mask (Z.of_nat num)) i = Some (Fin 0).
Proof.
  intros Hl Hr Hn H0 Hi Hin. destruct (nth_error mask i) as [m|] eqn:E; [|apply nth_error_None in E; lia].
  rewrite (edges_value n mask _ l r i m) by assumption.
  replace (Nat.ltb 0 l) with true by (symmetry; apply Nat.ltb_lt; lia).
  replace (Nat.leb l i) with true by (symmetry; apply Nat.leb_le; lia).
  replace (Nat.ltb i (slice_bound n (Z.of_nat l + Z.of_nat num))) with true; [reflexivity|].
  symmetry; apply Nat.ltb_lt. unfold slice_bound. destruct (Z.ltb_spec (Z.of_nat l + Z.of_nat num) 0); lia.
Qed.

Lemma edges_right n mask num l r i : first_valid mask l -> last_valid mask r -> length mask = n ->
  (S r < n)%nat -> (num + 1 <= r)%nat -> (r - num - 1 <= i <= r)%nat ->
  nth_error (mask_edges_1D n mask (Z.of_nat num)) i = Some (Fin 0).
Proof.
  intros Hl Hr Hn H0 H1 Hi. destruct (nth_error mask i) as [m|] eqn:E; [|apply nth_error_None in E; lia].
  rewrite (edges_value n mask _ l r i m) by assumption.
  replace (Nat.ltb (S r) n) with true by (symmetry; apply Nat.ltb_lt; lia).
  replace (Nat.leb i r) with true by (symmetry; apply Nat.leb_le; lia).
  replace (Nat.leb (slice_bound n (Z.of_nat r - Z.of_nat num - 1)) i) with true; [now rewrite orb_true_r|].
  symmetry; apply Nat.leb_le. unfold slice_bound. destruct (Z.ltb_spec (Z.of_nat r - Z.of_nat num - 1) 0); lia.
Qed.

(** Nothing outside the two windows changes. *)
Lemma edges_only n mask num l r i m : first_valid mask l -> last_valid mask r -> length mask = n ->
  nth_error mask i = Some m ->
  nth_error (mask_edges_1D n mask (Z.of_nat num)) i = Some m \/
  (nth_error (mask_edges_1D n mask (Z.of_nat num)) i = Some (Fin 0) /\
   (((0 < l)%nat /\ (l <= i < l + num)%nat) \/ ((S r < n)%nat /\ (r - num - 1 <= i <= r)%nat))).
Proof.
  intros Hl Hr Hn E. rewrite (edges_value n mask _ l r i m) by assumption.
  destruct (_ || _) eqn:B; [right|now left]. split; [reflexivity|].
  apply orb_true_iff in B. destruct B as [B|B]; apply andb_true_iff in B; destruct B as [B1 B2];
    apply andb_true_iff in B2; destruct B2 as [B2 B3]; apply Nat.ltb_lt in B1.
  - left. apply Nat.leb_le in B2. apply Nat.ltb_lt in B3. unfold slice_bound in B3.
    destruct (Z.ltb_spec (Z.of_nat l + Z.of_nat num) 0); lia.
  - right. apply Nat.leb_le in B2, B3. unfold slice_bound in B2.
    destruct (Z.ltb_spec (Z.of_nat r - Z.of_nat num - 1) 0); lia.
Qed.

(** Last valid index too small: nothing is masked on the right. *)
Lemma edges_right_wraps n mask num l r i m : first_valid mask l -> last_valid mask r -> length mask = n ->
  (r < num + 1)%nat -> (num + 1 < n)%nat -> (l = 0 \/ l + num <= i)%nat ->
  nth_error mask i = Some m ->
  nth_error (mask_edges_1D n mask (Z.of_nat num)) i = Some m.
Proof.
  intros Hl Hr Hn H1 H2 Hi E. rewrite (edges_value n mask _ l r i m) by assumption.
  destruct (_ || _) eqn:B; [|reflexivity]. exfalso.
  apply orb_true_iff in B. destruct B as [B|B]; apply andb_true_iff in B; destruct B as [B1 B2];
    apply andb_true_iff in B2; destruct B2 as [B2 B3]; apply Nat.ltb_lt in B1.
  - apply Nat.leb_le in B2. apply Nat.ltb_lt in B3. unfold slice_bound in B3.
    destruct (Z.ltb_spec (Z.of_nat l + Z.of_nat num) 0); lia.
  - apply Nat.leb_le in B2, B3. unfold slice_bound in B2.
    destruct (Z.ltb_spec (Z.of_nat r - Z.of_nat num - 1) 0); lia.
Qed.

(* ---------------- spec_mask_missing ---------------- *)

Lemma fmax1_spec a l : 
  (In NaN (a :: l) -> fmax1 a l = NaN) /\
  (~ In NaN (a :: l) -> fmax1 a l <> NaN /\ In (fmax1 a l) (a :: l) /\ forall x, In x (a :: l) -> fleb x (fmax1 a l) = true).
Proof.
  assert (Refl : forall x, x <> NaN -> fleb x x = true).
  { intros []; cbn; try reflexivity; try congruence. intros _. apply Rleb_true. lra. }
  revert a. induction l as [|b l IH]; intros a; cbn [fmax1].
  - split.
    + intros [H|[]]; auto.
    + intros H. split; [intros ->; apply H; now left|]. split; [now left|]. intros x [<-|[]]. apply Refl.
      intros ->. apply H. now left.
  - destruct (isnan a) eqn:Na.
    + destruct a; try discriminate. destruct (IH NaN) as [I1 _]. split; [intros _; apply I1; now left|].
      intros H. elim H. now left.
    + destruct (isnan b) eqn:Nb.
      * destruct b; try discriminate. destruct (IH NaN) as [I1 _]. split; [intros _; apply I1; now left|].
        intros H. elim H. right; now left.
      * set (c := if fltb a b then b else a). destruct (IH c) as [I1 I2].
        assert (Hc : c = a \/ c = b) by (unfold c; destruct (fltb a b); auto).
        assert (Hnc : c <> NaN) by (destruct Hc as [-> | ->]; intros ->; discriminate).
        split.
        { intros [H|[H|H]]; try (subst; discriminate). apply I1. now right. }
        intros H. destruct I2 as (J1 & J2 & J3).
        { intros [K|K]; [congruence|]. apply H. right; now right. }
        split; [exact J1|]. split.
        { destruct J2 as [J2|J2]; [|right; now right]. rewrite <- J2. destruct Hc as [-> | ->]; [now left|right; now left]. }
        assert (Tr : forall x y z, fleb x y = true -> fleb y z = true -> fleb x z = true).
        { intros [x| | |] [y| | |] [z| | |]; cbn; try congruence. rewrite !Rleb_true. intros; lra. }
        assert (Ca : fleb a c = true /\ fleb b c = true).
        { unfold c. destruct (fltb a b) eqn:L.
          - split; [|apply Refl; intros ->; discriminate].
            destruct a, b; cbn in *; try congruence; try discriminate. apply Rleb_true. apply Rltb_true in L. lra.
          - split; [apply Refl; intros ->; discriminate|].
            destruct a, b; cbn in *; try congruence; try discriminate. apply Rleb_true. apply Rltb_false in L. lra. }
        assert (Cm : fleb c (fmax1 c l) = true) by (apply J3; now left).
        intros x [<-|[<-|Hx]].
        { eapply Tr; [apply Ca|exact Cm]. }
        { eapply Tr; [apply Ca|exact Cm]. }
        apply J3. now right.
Qed.

Lemma max_abs_pos err mx : np_max (map fabs err) = Ok mx ->
  (fgtb mx (Fin 0) = true <-> ~ In NaN err /\ exists e, In e err /\ e <> Fin 0).
Proof.
  destruct err as [|e0 err]; [discriminate|]. cbn [map np_max]. intros E. injection E as <-.
  set (l := map fabs err). destruct (fmax1_spec (fabs e0) l) as [N P].
  assert (Nan : In NaN (fabs e0 :: l) <-> In NaN (e0 :: err)).
  { unfold l. change (fabs e0 :: map fabs err) with (map fabs (e0 :: err)). rewrite in_map_iff. split.
    - intros (x & Hx & I). destruct x; try discriminate; auto.
    - intros I. exists NaN. auto. }
  split.
  - intros G.
    assert (X : ~ In NaN (e0 :: err)).
    { intros I. apply Nan in I. rewrite (N I) in G. discriminate. }
    split; [exact X|]. destruct P as (_ & P & _); [tauto|].
    change (fabs e0 :: l) with (map fabs (e0 :: err)) in P. apply in_map_iff in P. destruct P as (e & Ee & I).
    exists e. split; auto. intros ->. rewrite <- Ee in G. cbn in G. rewrite Rabs_R0 in G.
    unfold fgtb, fltb in G. apply Rltb_true in G. lra.
  - intros (X & e & I & Ne). destruct P as (P1 & _ & P3); [tauto|].
    assert (In (fabs e) (fabs e0 :: l)) as I2.
    { change (fabs e0 :: l) with (map fabs (e0 :: err)). now apply in_map. }
    apply P3 in I2. assert (e <> NaN) by (intros ->; auto).
    unfold fgtb. destruct (fmax1 (fabs e0) l) as [m| | |]; destruct e as [e| | |]; cbn in *; try congruence; try discriminate; auto.
    apply Rltb_true. apply Rleb_true in I2. assert (0 < Rabs e); [|lra]. apply Rabs_pos_lt. congruence.
Qed.

Lemma mask_where_nth p l mask : length l = length mask -> exists out, mask_where p l mask = Ok out /\
  length out = length mask /\
  forall i m, nth_error mask i = Some m -> nth_error out i = Some (if p (nth i l NaN) then Fin 0 else m).
Proof.
  intros H. unfold mask_where. rewrite H, Nat.eqb_refl. eexists. split; [reflexivity|].
  split; [apply set_inds_length|]. intros i m Hm. rewrite (nth_error_set_inds _ _ _ _ _ Hm). f_equal.
  assert (Hi : (i < length l)%nat) by (rewrite H; apply nth_error_Some; congruence).
  rewrite (where_memb p l i (nth i l NaN)); [reflexivity|]. now apply nth_error_nth'.
Qed.

Lemma missing_1D spec err weight mask nf : (1 <= length spec)%nat ->
  length err = length spec -> (forall w, weight = Some w -> length w = length spec) ->
  (forall m, mask = Some m -> length m = length spec) ->
  exists out, spec_mask_missing_1D spec err weight mask nf = Ok out /\ length out = length spec /\
    forall i, (i < length spec)%nat ->
      (unusable spec err weight nf i -> nth i out NaN = Fin 0) /\
      (~ unusable spec err weight nf i -> nth i out NaN = match mask with Some m => nth i m NaN | None => Fin 1 end).
Proof.
  intros Hn He Hw Hm. unfold spec_mask_missing_1D.
  set (m0 := match mask with Some m => m | None => map (fun _ => Fin 1) spec end).
  assert (L0 : length m0 = length spec).
  { unfold m0. destruct mask; [now apply Hm|apply map_length]. }
  assert (Em : exists mx, np_max (map fabs err) = Ok mx).
  { destruct err; [cbn in He; lia|]. cbn. eauto. }
  destruct Em as [mx Em]. rewrite Em. cbn [bind]. pose proof (max_abs_pos err mx Em) as MP.
  set (cond := negb nf && fgtb mx (Fin 0)).
  rewrite where_forallb by lia.
  set (m1 := if cond then set_inds m0 (where_ (fun e => feqb e (Fin 0)) err) (Fin 0) else m0).
  replace (if cond then Ok (set_inds m0 (where_ (fun e : fl => feqb e (Fin 0)) err) (Fin 0)) else Ok m0) with (Ok m1)
    by (unfold m1; destruct cond; reflexivity).
  cbn [bind].
  assert (L1 : length m1 = length spec) by (unfold m1; destruct cond; [rewrite set_inds_length|]; exact L0).
  destruct (mask_where_nth (fun x => negb (isfinite x)) spec m1) as (m2 & E2 & L2 & V2); [lia|].
  rewrite E2. cbn [bind].
  destruct (mask_where_nth (fun x => negb (isfinite x)) err m2) as (m3 & E3 & L3 & V3); [lia|].
  rewrite E3. cbn [bind].
  assert (V1 : forall i, (i < length spec)%nat -> nth_error m1 i = Some (if cond && feqb (nth i err NaN) (Fin 0) then Fin 0 else nth i m0 NaN)).
  { intros i Hi. unfold m1. assert (X : nth_error m0 i = Some (nth i m0 NaN)) by (apply nth_error_nth'; lia).
    destruct cond; cbn [andb]; [|exact X]. rewrite (nth_error_set_inds _ _ _ _ _ X). f_equal.
    rewrite (where_memb _ err i (nth i err NaN)); [reflexivity|]. apply nth_error_nth'. lia. }
  set (m4 := match weight with Some w => set_inds m3 (where_ (fun e => feqb e (Fin 0)) w) (Fin 0) | None => m3 end).
  exists m4. split.
  { unfold m4. destruct weight as [w|]; [|reflexivity]. rewrite where_forallb; [reflexivity|]. rewrite (Hw w eq_refl). lia. }
  assert (L4 : length m4 = length spec).
  { unfold m4. destruct weight; [rewrite set_inds_length|]; lia. }
  split; [exact L4|]. intros i Hi.
  set (wz := match weight with Some w => feqb (nth i w NaN) (Fin 0) | None => false end).
  assert (V4 : nth i m4 NaN = if wz then Fin 0 else if negb (isfinite (nth i err NaN)) then Fin 0
      else if negb (isfinite (nth i spec NaN)) then Fin 0
      else if cond && feqb (nth i err NaN) (Fin 0) then Fin 0 else nth i m0 NaN).
  { apply nth_error_nth. pose proof (V3 i _ (V2 i _ (V1 i Hi))) as X. unfold m4, wz.
    destruct weight as [w|]; [|exact X]. rewrite (nth_error_set_inds _ _ _ _ _ X). f_equal.
    rewrite (where_memb _ w i (nth i w NaN)); [reflexivity|]. apply nth_error_nth'. rewrite (Hw w eq_refl). lia. }
  assert (D0 : nth i m0 NaN = match mask with Some m => nth i m NaN | None => Fin 1 end).
  { unfold m0. destruct mask as [m|]; [reflexivity|]. apply nth_error_nth.
    rewrite nth_error_map, (nth_error_nth' spec NaN) by lia. reflexivity. }
  rewrite V4, <- D0. unfold unusable. split.
  - intros [H|[H|[(w & -> & H)|(-> & H & Nn & Ex)]]].
    + rewrite H. destruct wz, (negb (isfinite (nth i err NaN))); reflexivity.
    + rewrite H. destruct wz; reflexivity.
    + assert (X : wz = true) by (unfold wz; now apply feqb0). rewrite X. reflexivity.
    + rewrite H. cbn [isfinite negb feqb]. rewrite Reqb_refl.
      assert (X : cond = true). { unfold cond. cbn [negb andb]. apply MP. exact (conj Nn Ex). }
      rewrite X. destruct wz, (negb (isfinite (nth i spec NaN))); reflexivity.
  - intros H.
    assert (X1 : wz = false).
    { unfold wz. destruct weight as [w|]; [|reflexivity]. destruct (feqb (nth i w NaN) (Fin 0)) eqn:E; [|reflexivity].
      apply feqb0 in E. elim H. right. right. left. eauto. }
    rewrite X1. destruct (isfinite (nth i err NaN)) eqn:X2; [|elim H; auto]. cbn [negb].
    destruct (isfinite (nth i spec NaN)) eqn:X3; [|elim H; auto]. cbn [negb].
    destruct (cond && feqb (nth i err NaN) (Fin 0)) eqn:X4; [|reflexivity].
    apply andb_true_iff in X4. destruct X4 as [X4 X5]. unfold cond in X4. apply andb_true_iff in X4. destruct X4 as [X4 X6].
    elim H. right. right. right. apply negb_true_iff in X4. apply feqb0 in X5. apply MP in X6. tauto.
Qed.

(* two dimensions *)
Lemma shape_eqb_true {A B} (a : arr2 A) (b : arr2 B) : shape_eqb a b = true <-> rows a = rows b /\ cols a = cols b.
Proof. unfold shape_eqb. rewrite andb_true_iff, !Nat.eqb_eq. tauto. Qed.

Lemma entries_ne {A} (a : arr2 A) : (1 <= rows a)%nat -> (1 <= cols a)%nat -> exists x l, entries a = x :: l.
Proof.
  intros H1 H2. unfold entries. destruct (rows a) as [|n]; [lia|]. destruct (cols a) as [|m]; [lia|].
  cbn [seq flat_map map app]. eauto.
Qed.
Lemma in_entries {A} (a : arr2 A) x : In x (entries a) <-> exists i j, (i < rows a)%nat /\ (j < cols a)%nat /\ x = at2 a i j.
Proof.
  unfold entries. rewrite in_flat_map. split.
  - intros (i & Hi & Hx). apply in_map_iff in Hx. destruct Hx as (j & <- & Hj). apply in_seq in Hi, Hj.
    exists i, j. repeat split; lia.
  - intros (i & j & Hi & Hj & ->). exists i. split; [apply in_seq; lia|]. apply in_map. apply in_seq; lia.
Qed.

Lemma missing_2D spec err weight mask : (1 <= rows spec)%nat -> (1 <= cols spec)%nat ->
  shape_eqb err spec = true -> (forall w, weight = Some w -> shape_eqb w spec = true) -> shape_eqb mask spec = true ->
  exists out, spec_mask_missing_2D spec err weight (Some mask) true = Ok out /\ rows out = rows spec /\ cols out = cols spec /\
    forall i j, (i < rows spec)%nat -> (j < cols spec)%nat ->
    ((isfinite (at2 spec i j) = false \/ isfinite (at2 err i j) = false \/
      (exists w, weight = Some w /\ at2 w i j = Fin 0)) -> at2 out i j = Fin 0) /\
    (isfinite (at2 spec i j) = true -> isfinite (at2 err i j) = true ->
      (forall w, weight = Some w -> at2 w i j <> Fin 0) -> at2 out i j = at2 mask i j).
Proof.
  intros Hr Hc He Hw Hm. unfold spec_mask_missing_2D.
  apply shape_eqb_true in He, Hm. destruct He as [He1 He2], Hm as [Hm1 Hm2].
  destruct (entries_ne err) as (x & l & E); try lia. rewrite E. cbn [map np_max bind negb andb].
  unfold mask_where2 at 1.
  replace (shape_eqb spec mask) with true by (symmetry; apply shape_eqb_true; lia). cbn [bind].
  unfold mask_where2 at 1.
  replace (shape_eqb err _) with true by (symmetry; apply shape_eqb_true; cbn [rows cols]; lia). cbn [bind].
  destruct weight as [w|].
  - unfold mask_where2. specialize (Hw w eq_refl). apply shape_eqb_true in Hw.
    replace (shape_eqb w _) with true by (symmetry; apply shape_eqb_true; cbn [rows cols]; lia).
    eexists. split; [reflexivity|]. cbn [rows cols at2]. split; [lia|]. split; [lia|]. intros i j Hi Hj. split.
    + intros [H|[H|(w' & Ew & H)]].
      * rewrite H. cbn [negb]. destruct (feqb _ _); [reflexivity|]. destruct (negb _); reflexivity.
      * rewrite H. cbn [negb]. destruct (feqb _ _); reflexivity.
      * injection Ew as <-. apply feqb0 in H. now rewrite H.
    + intros H1 H2 H3. rewrite H1, H2. cbn [negb]. destruct (feqb (at2 w i j) (Fin 0)) eqn:F; [|reflexivity].
      apply feqb0 in F. now elim (H3 w eq_refl).
  - eexists. split; [reflexivity|]. cbn [rows cols at2]. split; [lia|]. split; [lia|]. intros i j Hi Hj. split.
    + intros [H|[H|(w' & Ew & H)]]; [| |discriminate].
      * rewrite H. cbn [negb]. destruct (negb _); reflexivity.
      * rewrite H. reflexivity.
    + intros H1 H2 _. now rewrite H1, H2.
Qed.

(** Without nonfinite_only an image pixel in the row of a zero-error pixel is masked however
    good it is. *)
Lemma missing_2D_rows spec err mask i j j' : (i < rows spec)%nat -> (j < cols spec)%nat -> (j' < cols spec)%nat ->
  shape_eqb err spec = true -> shape_eqb mask spec = true ->
  (forall a b, (a < rows spec)%nat -> (b < cols spec)%nat -> at2 err a b <> NaN) ->
  (exists a b, (a < rows spec)%nat /\ (b < cols spec)%nat /\ at2 err a b <> Fin 0) ->
  at2 err i j' = Fin 0 ->
  exists out, spec_mask_missing_2D spec err None (Some mask) false = Ok out /\ at2 out i j = Fin 0.
Proof.
  intros Hi Hj Hj' He Hm Hnan (a & b & Ha & Hb & Hne) Hz. unfold spec_mask_missing_2D.
  apply shape_eqb_true in He, Hm. destruct He as [He1 He2], Hm as [Hm1 Hm2].
  assert (Em : exists mx, np_max (map fabs (entries err)) = Ok mx).
  { destruct (entries_ne err) as (x & l & E); try lia. rewrite E. cbn. eauto. }
  destruct Em as [mx Em]. rewrite Em. cbn [bind].
  assert (G : fgtb mx (Fin 0) = true).
  { apply (max_abs_pos _ _ Em). split.
    - intros I. apply in_entries in I. destruct I as (p & q & Hp & Hq & E). symmetry in E. revert E. apply Hnan; lia.
    - exists (at2 err a b). split; auto. apply in_entries. exists a, b. repeat split; lia. }
  rewrite G. cbn [negb andb].
  replace (forallb _ (seq 0 (rows err))) with true.
  2:{ symmetry. apply forallb_forall. intros k Hk. apply in_seq in Hk. apply orb_true_iff. right. apply Nat.ltb_lt. lia. }
  cbn [bind]. unfold mask_where2 at 1.
  replace (shape_eqb spec _) with true by (symmetry; apply shape_eqb_true; cbn [rows cols]; lia). cbn [bind].
  unfold mask_where2 at 1.
  replace (shape_eqb err _) with true by (symmetry; apply shape_eqb_true; cbn [rows cols]; lia). cbn [bind].
  eexists. split; [reflexivity|]. cbn [at2].
  replace (Nat.ltb i (rows err)) with true by (symmetry; apply Nat.ltb_lt; lia).
  replace (existsb _ (seq 0 (cols err))) with true.
  2:{ symmetry. apply existsb_exists. exists j'. split; [apply in_seq; lia|]. now apply feqb0. }
  cbn [andb]. destruct (negb (isfinite (at2 err i j))); [reflexivity|]. destruct (negb _); reflexivity.
Qed.
