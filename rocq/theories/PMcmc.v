(* Proofs about sampling runs. *)
From Coq Require Import Reals List Bool Arith ZArith Lra Lia.
From Verif Require Import PyFloat PyBase Arr PyNum PMask PTrim MMcmc SMcmc.
Import ListNotations.
Local Open Scope R_scope.

Lemma steps_app m c p l1 l2 : steps m c p l1 ->
  steps m (c + length l1) (fold_left (fun _ s => fst s) l1 p) l2 -> steps m c p (l1 ++ l2).
Proof.
  intros H. revert l2. induction H as [c p|c p s l E H IH]; intros l2 H2; cbn in *.
  - now rewrite Nat.add_0_r in H2.
  - econstructor; [exact E|]. apply IH. replace (S (c + length l)) with (c + S (length l))%nat by lia. exact H2.
Qed.

Lemma one_step_inv m u u' r : one_step m u = (u', r) ->
  (exists s, em_step m (u_calls u) (u_pos u) = Ok s /\ r = Ok tt /\
     u' = mkRun (fst s) (S (u_calls u)) (u_chain u ++ [s]) (u_log u) (u_file u)) \/
  (exists e, em_step m (u_calls u) (u_pos u) = Err e /\ r = Err e /\ u' = u).
Proof.
  unfold one_step, bindS, getS, liftR, modS. destruct (em_step m (u_calls u) (u_pos u)) as [s|e] eqn:E; intros H.
  - left. exists s. injection H as <- <-. auto.
  - right. exists e. injection H as <- <-. auto.
Qed.

Lemma steps_one m u s l : em_step m (u_calls u) (u_pos u) = Ok s -> steps m (S (u_calls u)) (fst s) l ->
  steps m (u_calls u) (u_pos u) (s :: l).
Proof. intros. now econstructor. Qed.

(** Deciding convergence. *)
Lemma np_max_spec t ts mx : np_max (t :: ts) = Ok mx ->
  forall n x, fltb (fmul mx n) x = true <->
    exists mx', In mx' (t :: ts) /\ (forall y, In y (t :: ts) -> fleb y mx' = true) /\ fltb (fmul mx' n) x = true.
Proof.
  cbn [np_max]. intros H n x. injection H as <-. destruct (fmax1_spec t ts) as [N P].
  assert (D : In NaN (t :: ts) \/ ~ In NaN (t :: ts)).
  { generalize (t :: ts). intros l. induction l as [|a l [I|I]]; [right; auto|left; now right|].
    destruct a; [right|right|right|left; now left]; intros [X|X]; try discriminate; auto. }
  destruct D as [D|D].
  - rewrite (N D). split; [cbn; discriminate|]. intros (mx & _ & B & _). specialize (B NaN D). discriminate.
  - destruct (P D) as (Nn & I & B). split.
    + intros H. exists (fmax1 t ts). auto.
    + intros (mx & I' & B' & H). assert (E : fmax1 t ts = mx).
      { specialize (B mx I'). specialize (B' _ I). revert B B'. destruct (fmax1 t ts), mx; cbn; try congruence.
        intros L1 L2. apply Rleb_true in L1, L2. f_equal. lra. }
      now rewrite E.
Qed.

Lemma conv_bool m o c old l k b ac : (k <= length l)%nat -> (1 <= k)%nat ->
  (match em_acor m (c + k) (old ++ firstn k l) with
   | AcorTimes ts => Ok (Some ts) | AcorShort => Ok None | AcorRaise e => Err e end) = Ok ac ->
  converged_now o (k - 1) (em_af m (c + k) (old ++ firstn k l)) ac = Ok b ->
  (b && Nat.leb acor_force_min (k - 1) = true <-> converged m o c old l k).
Proof.
  intros Hl Hk A C. unfold converged. set (h := old ++ firstn k l) in *.
  unfold converged_now in C.
  destruct (o_minaf o) as [lo|] eqn:E1.
  2:{ injection C as <-. split; [discriminate|]. intros (lo & hi & n & ts & mx & X & _). discriminate. }
  destruct (o_maxaf o) as [hi|] eqn:E2.
  2:{ injection C as <-. split; [discriminate|]. intros (lo' & hi & n & ts & mx & _ & X & _). discriminate. }
  destruct (o_neff o) as [n|] eqn:E3.
  2:{ injection C as <-. split; [discriminate|]. intros (lo' & hi' & n & ts & mx & _ & _ & X & _). discriminate. }
  destruct ac as [ts|].
  2:{ injection C as <-. split; [discriminate|]. intros (lo' & hi' & n' & ts & mx & _ & _ & _ & _ & _ & _ & _ & X & _).
      rewrite X in A. discriminate. }
  assert (At : em_acor m (c + k) h = AcorTimes ts) by (destruct (em_acor m (c + k) h); congruence).
  destruct ts as [|t ts]; [discriminate|]. cbn [bind np_max] in C.
  pose proof (np_max_spec t ts _ eq_refl n (Fin (INR (k - 1)))) as MX.
  injection C as <-. rewrite !andb_true_iff, negb_true_iff, Nat.leb_le. unfold fgtb. rewrite MX. split.
  - intros ((((L1 & L2) & L3) & (mx & I & B & L4)) & L5). exists lo, hi, n, (t :: ts), mx. 
    unfold acor_force_min in L5. repeat split; auto. lia.
  - intros (lo' & hi' & n' & ts' & mx & X1 & X2 & X3 & X4 & X5 & X6 & X7 & X8 & I & B & X9).
    injection X1 as <-. injection X2 as <-. injection X3 as <-. rewrite At in X8. injection X8 as <-.
    unfold acor_force_min. repeat split; auto; [|lia]. exists mx. auto.
Qed.

(** What the loop logs when it ends after [n] steps. *)
Definition early (n : nat) : list event := (if Nat.eqb n 50 then [LMinLimit 50] else []) ++ [LEarly n].

Lemma sample_loop_step m o k ii last : sample_loop m o (S k) ii last =
      (sdo _ <- one_step m;
      sdo u <- getS;
      sdo ac <- liftR (match em_acor m (u_calls u) (u_chain u) with
                       | AcorTimes ts => Ok (Some ts) | AcorShort => Ok None | AcorRaise e => Err e end);
      sdo c <- liftR (converged_now o ii (em_af m (u_calls u) (u_chain u)) ac);
      if c then
        sdo _ <- (if Nat.eqb ii acor_force_min then write (LMinLimit (ii + 1)) else ret tt);
        if Nat.leb acor_force_min ii then sdo _ <- write (LEarly (ii + 1)); ret (Some ii)
        else sample_loop m o k (S ii) (Some ii)
      else sample_loop m o k (S ii) (Some ii)).
Proof. reflexivity. Qed.

Lemma firstn_grow {A} (l0 : list A) s l : firstn (length l0 + 1) (l0 ++ s :: l) = l0 ++ [s].
Proof. rewrite firstn_app_2. reflexivity. Qed.

Lemma converged_ext m o c old l l' k : firstn k l = firstn k l' -> converged m o c old l k -> converged m o c old l' k.
Proof. unfold converged. now intros ->. Qed.

Lemma sample_loop_spec m o c old : forall k l0 last u u' r,
  u_chain u = old ++ l0 -> u_calls u = (c + length l0)%nat ->
  sample_loop m o k (length l0) last u = (u', r) ->
  exists l, steps m (u_calls u) (u_pos u) l /\ (length l <= k)%nat /\
    u_chain u' = old ++ l0 ++ l /\ u_file u' = u_file u /\
    (forall j, (length l0 < j < length l0 + length l)%nat -> ~ converged m o c old (l0 ++ l) j) /\
    (exists ev, u_log u' = u_log u ++ ev /\ forall n, ~ In (LFinished n) ev) /\
    match r with
    | Ok fin =>
        fin = (match l with [] => last | _ => Some (length l0 + length l - 1)%nat end) /\
        ((l <> [] /\ converged m o c old (l0 ++ l) (length l0 + length l) /\
          u_log u' = u_log u ++ early (length l0 + length l)) \/
         (length l = k /\ (l <> [] -> ~ converged m o c old (l0 ++ l) (length l0 + length l)) /\ u_log u' = u_log u))
    | Err _ => True
    end.
Proof.
  induction k as [|k IH]; intros l0 last u u' r Hc Hn E.
  - cbn in E. unfold ret in E. injection E as <- <-. exists []. rewrite app_nil_r. cbn [length].
    split; [constructor|]. split; [lia|]. split; [exact Hc|]. split; [reflexivity|]. split; [intros; lia|].
    split; [exists []; rewrite app_nil_r; auto|]. split; [reflexivity|]. right. repeat split; auto.
  - rewrite sample_loop_step in E. unfold bindS at 1 in E. destruct (one_step m u) as [u1 r1] eqn:E1.
    destruct (one_step_inv _ _ _ _ E1) as [(s & Es & -> & Eu)|(e & Es & -> & ->)].
    2:{ injection E as <- <-. exists []. rewrite app_nil_r. cbn [length]. split; [constructor|]. split; [lia|].
        split; [exact Hc|]. split; [reflexivity|]. split; [intros; lia|]. split; [exists []; rewrite app_nil_r; auto|exact I]. }
    assert (C1 : u_chain u1 = old ++ (l0 ++ [s])) by (rewrite Eu; cbn [u_chain]; now rewrite Hc, app_assoc).
    assert (N1 : u_calls u1 = (c + (length l0 + 1))%nat) by (rewrite Eu; cbn [u_calls]; lia).
    assert (P1 : u_pos u1 = fst s) by (now rewrite Eu).
    assert (L1 : u_log u1 = u_log u) by (now rewrite Eu).
    assert (F1 : u_file u1 = u_file u) by (now rewrite Eu).
    assert (CS : u_calls u1 = S (u_calls u)) by (now rewrite Eu).
    clear Eu E1. unfold bindS at 1, getS in E.
    assert (Stop : forall e, (u1, Err e) = (u', r) -> exists l, steps m (u_calls u) (u_pos u) l /\ (length l <= S k)%nat /\
        u_chain u' = old ++ l0 ++ l /\ u_file u' = u_file u /\
        (forall j, (length l0 < j < length l0 + length l)%nat -> ~ converged m o c old (l0 ++ l) j) /\
        (exists ev, u_log u' = u_log u ++ ev /\ forall n, ~ In (LFinished n) ev) /\ match r with Ok _ => False | _ => True end).
    { intros e X. injection X as <- <-. exists [s]. split; [apply steps_one; [exact Es|constructor]|]. cbn [length].
      split; [lia|]. split; [exact C1|]. split; [exact F1|]. split; [intros; lia|]. split; [|exact I].
      exists []. rewrite app_nil_r. auto. }
    assert (StopC : forall e, (u1, Err e) = (u', r) -> exists l, steps m (u_calls u) (u_pos u) l /\ (length l <= S k)%nat /\
    u_chain u' = old ++ l0 ++ l /\ u_file u' = u_file u /\
    (forall j, (length l0 < j < length l0 + length l)%nat -> ~ converged m o c old (l0 ++ l) j) /\
    (exists ev, u_log u' = u_log u ++ ev /\ forall n, ~ In (LFinished n) ev) /\
    match r with
    | Ok fin =>
        fin = (match l with [] => last | _ => Some (length l0 + length l - 1)%nat end) /\
        ((l <> [] /\ converged m o c old (l0 ++ l) (length l0 + length l) /\
          u_log u' = u_log u ++ early (length l0 + length l)) \/
         (length l = S k /\ (l <> [] -> ~ converged m o c old (l0 ++ l) (length l0 + length l)) /\ u_log u' = u_log u))
    | Err _ => True
    end).
    { intros e X. destruct (Stop e X) as (l & A1 & A2 & A3 & A4 & A5 & A6 & A7). exists l.
      repeat (split; [assumption|]). destruct r; [destruct A7|exact I]. }
    clear Stop. unfold bindS at 1, liftR in E.
    rewrite N1, C1 in E.
    destruct (match em_acor m (c + (length l0 + 1)) (old ++ l0 ++ [s]) with
              | AcorTimes ts => Ok (Some ts) | AcorShort => Ok None | AcorRaise e => Err e end) as [ac|e] eqn:Ea;
      [|apply (StopC e E)].
    unfold bindS at 1 in E.
    destruct (converged_now o (length l0) (em_af m (c + (length l0 + 1)) (old ++ l0 ++ [s])) ac) as [b|e] eqn:Eb;
      [|apply (StopC e E)].
    clear StopC.
    assert (CB : forall l, b && Nat.leb acor_force_min (length l0) = true <-> converged m o c old (l0 ++ s :: l) (length l0 + 1)).
    { intros l. pose proof (conv_bool m o c old (l0 ++ s :: l) (length l0 + 1) b ac) as X.
      rewrite firstn_grow in X. replace (length l0 + 1 - 1)%nat with (length l0) in X by lia.
      apply X; auto; [rewrite app_length; cbn; lia|lia]. }
    destruct (b && Nat.leb acor_force_min (length l0)) eqn:B.
    + apply andb_true_iff in B. destruct B as [-> B].
      assert (Hb : (49 <= length l0)%nat) by (apply Nat.leb_le in B; exact B).
      set (u2 := if Nat.eqb (length l0) acor_force_min
                 then mkRun (u_pos u1) (u_calls u1) (u_chain u1) (u_log u1 ++ [LMinLimit (length l0 + 1)]) (u_file u1) else u1) in *.
      assert (E2 : (if Nat.eqb (length l0) acor_force_min then write (LMinLimit (length l0 + 1)) else ret tt) u1 = (u2, Ok tt)).
      { unfold u2. destruct (Nat.eqb (length l0) acor_force_min); reflexivity. }
      unfold bindS at 1 in E. rewrite E2 in E. rewrite B in E. cbn in E. unfold write, bindS, modS, ret in E. injection E as <- <-.
      exists [s]. split; [apply steps_one; [exact Es|constructor]|]. cbn [length u_chain u_log u_file].
      assert (LG : u_log u2 ++ [LEarly (length l0 + 1)] = u_log u ++ early (length l0 + 1)).
      { unfold u2, early. rewrite <- L1. change 50%nat with (S acor_force_min). 
        replace (Nat.eqb (length l0 + 1) (S acor_force_min)) with (Nat.eqb (length l0) acor_force_min)
          by (rewrite Nat.add_1_r; reflexivity).
        destruct (Nat.eqb (length l0) acor_force_min) eqn:Q; cbn [u_log app].
        - apply Nat.eqb_eq in Q. rewrite Q. rewrite <- app_assoc. reflexivity.
        - reflexivity. }
      assert (CH : u_chain u2 = u_chain u1 /\ u_file u2 = u_file u1).
      { unfold u2. destruct (Nat.eqb (length l0) acor_force_min); auto. }
      split; [lia|]. split; [rewrite (proj1 CH); exact C1|]. split; [rewrite (proj2 CH); exact F1|]. split; [intros; lia|].
      split.
      { rewrite LG. eexists. split; [reflexivity|]. intros n. unfold early. rewrite in_app_iff. intros [X|X].
        - destruct (Nat.eqb (length l0 + 1) 50); [|contradiction]. destruct X as [X|[]]. discriminate.
        - destruct X as [X|[]]. discriminate. }
      split; [f_equal; lia|]. left. split; [congruence|]. split; [apply (CB []); reflexivity|exact LG].
    + assert (E' : sample_loop m o k (S (length l0)) (Some (length l0)) u1 = (u', r)).
      { destruct b; [|exact E]. cbn [andb] in B. 
        assert (Hb : (length l0 < 49)%nat) by (apply Nat.leb_gt in B; exact B).
        replace (Nat.eqb (length l0) acor_force_min) with false in E
          by (symmetry; apply Nat.eqb_neq; unfold acor_force_min; lia).
        unfold bindS, ret in E. rewrite B in E. exact E. }
      clear E. assert (LL : S (length l0) = length (l0 ++ [s])) by (rewrite app_length; cbn; lia).
      rewrite LL in E'. apply IH in E'; auto; [|rewrite app_length; cbn; lia].
      destruct E' as (l & A1 & A2 & A3 & A4 & A5 & (ev & A6 & A6') & A7). exists (s :: l).
      rewrite app_length in A5, A7. cbn [length] in A5, A7 |- *. rewrite <- app_assoc in A3, A5, A7. cbn [app] in A3, A5, A7.
      split; [apply steps_one; [exact Es|]; now rewrite <- CS, <- P1|]. split; [lia|]. split; [exact A3|]. split; [now rewrite A4|].
      split.
      { intros j Hj Cj. destruct (Nat.eq_dec j (length l0 + 1)) as [->|Nj].
        - apply (CB l) in Cj. discriminate.
        - apply (A5 j); [lia|exact Cj]. }
      split; [exists ev; rewrite <- L1; auto|].
      destruct r as [fin|]; [|exact I]. destruct A7 as [Af A7]. split.
      { rewrite Af. destruct l; cbn [length]; f_equal; lia. }
      replace (length l0 + 1 + length l)%nat with (length l0 + S (length l))%nat in A7 by lia.
      destruct A7 as [(X1 & X2 & X3)|(X1 & X2 & X3)].
      * left. split; [congruence|]. split; [exact X2|]. now rewrite <- L1.
      * right. split; [lia|]. split; [|now rewrite <- L1]. intros _ X. destruct l as [|s' l]; [|apply X2; [congruence|exact X]].
        cbn [length] in X. apply (CB []) in X. discriminate.
Qed.

Lemma burn_loop_spec m : forall k u u' r, burn_loop m k u = (u', r) ->
  u_log u' = u_log u /\ u_file u' = u_file u /\
  exists l, steps m (u_calls u) (u_pos u) l /\ (length l <= k)%nat /\ u_chain u' = u_chain u ++ l /\
    u_calls u' = (u_calls u + length l)%nat /\ u_pos u' = fold_left (fun _ s => fst s) l (u_pos u) /\
    (r = Ok tt -> length l = k).
Proof.
  induction k as [|k IH]; intros u u' r E.
  - cbn in E. unfold ret in E. injection E as <- <-. repeat split. exists []. cbn. rewrite app_nil_r.
    repeat split; auto; try lia. constructor.
  - cbn [burn_loop] in E. unfold bindS in E. destruct (one_step m u) as [u1 r1] eqn:E1.
    destruct (one_step_inv _ _ _ _ E1) as [(s & Es & -> & Eu)|(e & Es & -> & ->)].
    + apply IH in E. subst u1. cbn [u_log u_file u_chain u_calls u_pos] in E.
      destruct E as (E2 & E3 & l & A1 & A2 & A3 & A4 & A5 & A6). repeat split; auto. exists (s :: l). cbn [length fold_left].
      repeat split; auto; try lia.
      * now apply steps_one.
      * now rewrite A3, <- app_assoc.
    + injection E as <- <-. repeat split. exists []. cbn. rewrite app_nil_r. repeat split; auto; try lia; try constructor. discriminate.
Qed.

Lemma finish_spec o last u u' r : finish o last u = (u', r) ->
  u_chain u' = u_chain u /\ u_file u' = u_file u /\ u_calls u' = u_calls u /\
  match last with
  | None => r = Err UnboundLocalError /\ u_log u' = u_log u
  | Some ii => r = Ok (ii + 1)%nat /\
      exists ca, u_log u' = u_log u ++ ca ++ [LFinished (ii + 1)] /\
        ((ca = [LCaution] /\ limits_set o /\ Z.of_nat (ii + 1) = o_nsteps o) \/
         (ca = [] /\ ~ (limits_set o /\ Z.of_nat (ii + 1) = o_nsteps o)))
  end.
Proof.
  unfold finish. destruct last as [ii|].
  2:{ unfold bindS, liftR. intros E. injection E as <- <-. auto. }
  unfold bindS at 1, liftR.
  set (b := _ && _ && _).
  assert (B : b = true <-> (limits_set o /\ Z.of_nat (ii + 1) = o_nsteps o)).
  { unfold b, limits_set. rewrite !andb_true_iff, negb_true_iff, Z.eqb_eq.
    destruct (o_minaf o), (o_maxaf o), (o_neff o); split; intros H; repeat split; try tauto; try congruence; exfalso; intuition congruence. }
  destruct b.
  - unfold bindS, write, modS, ret. intros E. injection E as <- <-. cbn. repeat split; auto.
    exists [LCaution]. rewrite <- app_assoc. split; [reflexivity|]. left. split; auto. now apply B.
  - unfold bindS, write, modS, ret. intros E. injection E as <- <-. cbn. repeat split; auto.
    exists []. split; [reflexivity|]. right. split; auto. intros X. apply B in X. discriminate.
Qed.

(** The sampling part common to both versions. *)
Lemma sample_part m o c old u u' r : u_chain u = old -> u_calls u = c ->
  (sdo last <- sample_loop m o (Z.to_nat (o_nsteps o)) 0 None; finish o last) u = (u', r) ->
  exists l, steps m c (u_pos u) l /\ u_chain u' = old ++ l /\ u_file u' = u_file u /\
    (Z.of_nat (length l) <= Z.max 0 (o_nsteps o))%Z /\
    (forall k, (k < length l)%nat -> ~ converged m o c old l k) /\
    (exists ev, u_log u' = u_log u ++ ev /\
      (forall n, In (LFinished n) ev -> r = Ok n) /\
      forall n, r = Ok n -> n = length l /\ stops m o c old l /\
       exists e ca, ev = e ++ ca ++ [LFinished n] /\
         ((converged m o c old l n /\ e = early n) \/ (~ converged m o c old l n /\ e = [])) /\
         ((ca = [LCaution] /\ limits_set o /\ Z.of_nat n = o_nsteps o) \/
         (ca = [] /\ ~ (limits_set o /\ Z.of_nat n = o_nsteps o)))) /\
    ((o_nsteps o <= 0)%Z -> l = [] /\ r = Err UnboundLocalError).
Proof.
  intros Hc Hn E. unfold bindS at 1 in E.
  destruct (sample_loop m o (Z.to_nat (o_nsteps o)) 0 None u) as [u1 r1] eqn:E1.
  assert (K0 : (o_nsteps o <= 0)%Z -> r1 = Ok None).
  { intros X. replace (Z.to_nat (o_nsteps o)) with 0%nat in E1 by lia. cbn in E1. unfold ret in E1. congruence. }
  change 0%nat with (@length snap []) in E1.
  apply (sample_loop_spec m o c old) in E1; [|rewrite app_nil_r; exact Hc|cbn; lia].
  destruct E1 as (l & A1 & A2 & A3 & A4 & A5 & (ev & A6 & A6') & A7). cbn [app length] in A3, A5, A7. rewrite Hn in A1.
  assert (Nc0 : forall l, ~ converged m o c old l 0).
  { intros l' (lo & hi & n & ts & mx & _ & _ & _ & _ & X & _). lia. }
  assert (A5' : forall k, (k < length l)%nat -> ~ converged m o c old l k).
  { intros [|k] Hk; [apply Nc0|apply A5; lia]. }
  exists l. destruct r1 as [last|e].
  2:{ injection E as <- <-. split; auto. split; auto. split; auto. split; [lia|]. split; auto. split.
      - exists ev. split; auto. split; [intros n X; elim (A6' n X)|]. intros n X. discriminate.
      - intros X. specialize (K0 X). discriminate. }
  destruct A7 as [Al A7]. apply finish_spec in E. destruct E as (F1 & F2 & F3 & F4).
  split; auto. split; [now rewrite F1|]. split; [now rewrite F2|]. split; [lia|]. split; [exact A5'|].
  destruct l as [|s l].
  - subst last. destruct F4 as [-> F4]. cbn [length] in *. split.
    + exists ev. split; [now rewrite F4|]. split; [intros n X; elim (A6' n X)|discriminate].
    + auto.
  - cbn zeta in Al. cbn [length] in *. subst last. destruct F4 as [-> (ca & F4 & F5)].
    replace (0 + S (length l) - 1 + 1)%nat with (S (length l)) in * by lia.
    change (0 + S (length l))%nat with (S (length l)) in *.
    split.
    + destruct A7 as [(_ & X1 & X2)|(X0 & X1 & X2)].
      * exists (early (S (length l)) ++ ca ++ [LFinished (S (length l))]).
        split; [rewrite F4, X2; now rewrite <- app_assoc|]. split.
        { intros n. rewrite !in_app_iff. intros [X|[X|[X|[]]]].
          - unfold early in X. rewrite in_app_iff in X. destruct X as [X|[X|[]]]; [|discriminate].
            destruct (Nat.eqb (S (length l)) 50); [|contradiction]. destruct X as [X|[]]. discriminate.
          - destruct F5 as [[-> _]|[-> _]]; [destruct X as [X|[]]; discriminate|contradiction].
          - congruence. }
        intros n X. injection X as <-. split; auto. split.
        { split; [cbn; lia|]. split; [cbn [length]; lia|]. split; [exact A5'|]. left. exact X1. }
        exists (early (S (length l))), ca. split; auto.
      * exists (ca ++ [LFinished (S (length l))]).
        split; [now rewrite F4, X2|]. split.
        { intros n. rewrite !in_app_iff. intros [X|[X|[]]].
          - destruct F5 as [[-> _]|[-> _]]; [destruct X as [X|[]]; discriminate|contradiction].
          - congruence. }
        intros n X. injection X as <-. split; auto. split.
        { split; [cbn; lia|]. split; [cbn [length]; lia|]. split; [exact A5'|]. right. cbn [length]. lia. }
        exists [], ca. split; auto. split; [|exact F5]. right. split; auto. apply X1. congruence.
    + lia.
Qed.

(** What every run, finished or not, leaves behind, and what a finished one has done. *)
Definition outcome (m : emcee) (o : mopts) (u u' : run) (old : list snap) (n : option nat) : Prop :=
  exists burn l, steps m (u_calls u) (u_pos u) (burn ++ l) /\ u_chain u' = old ++ l /\
    length burn = nburn o /\
    (Z.of_nat (length l) <= Z.max 0 (o_nsteps o))%Z /\
    (forall k, (k < length l)%nat -> ~ converged m o (u_calls u + length burn) old l k) /\
    exists ev, u_log u' = u_log u ++ ev /\ (forall n', In (LFinished n') ev -> n = Some n') /\
      forall n', n = Some n' -> n' = length l /\ stops m o (u_calls u + length burn) old l /\
       exists e ca, ev = e ++ ca ++ [LFinished n'] /\
         ((converged m o (u_calls u + length burn) old l n' /\ e = early n') \/
          (~ converged m o (u_calls u + length burn) old l n' /\ e = [])) /\
         ((ca = [LCaution] /\ limits_set o /\ Z.of_nat n' = o_nsteps o) \/
         (ca = [] /\ ~ (limits_set o /\ Z.of_nat n' = o_nsteps o))).

Definition of_res (r : res nat) : option nat := match r with Ok n => Some n | Err _ => None end.

Lemma outcome_of m o u u1 u' burn old r :
  steps m (u_calls u) (u_pos u) burn -> length burn = nburn o ->
  u_calls u1 = (u_calls u + length burn)%nat -> u_pos u1 = fold_left (fun _ s => fst s) burn (u_pos u) ->
  u_chain u1 = old -> u_log u1 = u_log u -> 
  (sdo last <- sample_loop m o (Z.to_nat (o_nsteps o)) 0 None; finish o last) u1 = (u', r) ->
  outcome m o u u' old (of_res r) /\ u_file u' = u_file u1.
Proof.
  intros H1 H2 H3 H4 H5 H6 E. apply (sample_part m o _ _ _ _ _ H5 H3) in E.
  destruct E as (l & A1 & A2 & A3 & A4 & A5 & (ev & B1 & B2 & B3) & _). split; auto.
  exists burn, l. split; [apply steps_app; [exact H1|now rewrite <- H4]|]. repeat (split; [assumption|]).
  exists ev. split; [now rewrite B1, H6|]. split.
  - intros n X. now rewrite (B2 _ X).
  - intros n X. apply B3. destruct r; cbn in X; congruence.
Qed.

Lemma bindS_assoc {S A B C} (a : ST S A) (f : A -> ST S B) (g : B -> ST S C) s :
  bindS (bindS a f) g s = bindS a (fun x => bindS (f x) g) s.
Proof. unfold bindS. destruct (a s) as [s' [x|e]]; reflexivity. Qed.

(** Neither the burn-in nor anything before the sampling went wrong. *)
Lemma run2_inv m o u u' r : run_emcee_2 m o u = (u', r) ->
  (exists e, r = Err e /\ u_log u' = u_log u /\ u_file u' = u_file u) \/
  exists u1 r1, outcome m o u u1 [] (of_res r1) /\ u_file u1 = u_file u /\
    match r1 with
    | Err e => r = Err e /\ u' = u1
    | Ok n => if Z.ltb 1 (ncpus o) then r = Ok n /\ u' = fst (save o u1) else r = Err AttributeError /\ u' = u1
    end.
Proof.
  unfold run_emcee_2. intros E. unfold bindS at 1, set_chain at 1, modS in E.
  set (u0 := mkRun (u_pos u) (u_calls u) [] (u_log u) (u_file u)) in *.
  set (B := if Z.ltb 0 (o_nburn o) then _ else _) in E.
  assert (HB : forall u1 r1, B u0 = (u1, r1) -> u_log u1 = u_log u /\ u_file u1 = u_file u /\
     (r1 = Ok tt -> u_chain u1 = [] /\ exists burn, steps m (u_calls u) (u_pos u) burn /\ length burn = nburn o /\
        u_calls u1 = (u_calls u + length burn)%nat /\ u_pos u1 = fold_left (fun _ s => fst s) burn (u_pos u))).
  { intros u1 r1 EB. unfold B in EB. destruct (Z.ltb_spec 0 (o_nburn o)) as [Hn|Hn].
    - unfold bindS, set_chain, modS in EB. destruct (burn_loop m (Z.to_nat (o_nburn o)) u0) as [ub rb] eqn:E1.
      apply burn_loop_spec in E1. destruct E1 as (F1 & F2 & l & F3 & F4 & F5 & F6 & F7 & F8).
      destruct rb as [[]|e]; injection EB as <- <-; cbn [u_log u_file u_chain u_calls u_pos];
        (split; [exact F1|]); (split; [exact F2|]); intros X; [|discriminate].
      split; [reflexivity|]. exists l. unfold nburn. auto.
    - unfold ret in EB. injection EB as <- <-. split; [reflexivity|]. split; [reflexivity|]. intros _.
      try (split; [reflexivity|]). exists []. split; [constructor|]. split; [unfold nburn; cbn; lia|]. split; cbn; [lia|reflexivity]. }
  clearbody B. unfold bindS at 1 in E. destruct (B u0) as [u1 [[]|e]] eqn:EB.
  2:{ injection E as <- <-. left. exists e. destruct (HB _ _ eq_refl) as (X & Y & _). auto. }
  destruct (HB _ _ eq_refl) as (L1 & F1 & X). destruct (X eq_refl) as (C1 & burn & A1 & A2 & A3 & A4). clear X HB EB B.
  right. rewrite <- (bindS_assoc (sample_loop m o (Z.to_nat (o_nsteps o)) 0 None) (finish o)) in E. unfold bindS at 1 in E.
  destruct ((sdo last <- sample_loop m o (Z.to_nat (o_nsteps o)) 0 None; finish o last) u1) as [u2 r2] eqn:E2.
  apply (outcome_of m o u u1 u2 burn [] r2) in E2; auto. destruct E2 as [O1 O2].
  exists u2, r2. split; auto. split; [now rewrite O2|]. destruct r2 as [n|e]; [|injection E as <- <-; auto].
  unfold bindS at 1, liftR in E. destruct (1 <? ncpus o)%Z.
  - unfold bindS, save, modS, ret in *. injection E as <- <-. auto.
  - injection E as <- <-. auto.
Qed.

Lemma run3_inv m o oldb old u u' r : run_emcee_3 m o oldb old u = (u', r) ->
  (exists e, r = Err e /\ u_log u' = u_log u /\ u_file u' = u_file u) \/
  exists u1 r1, outcome m o u u1 (if o_over o then [] else old) (of_res r1) /\ u_file u1 = u_file u /\
    match r1 with
    | Err e => r = Err e /\ u' = u1
    | Ok n => r = Ok n /\ u' = fst (save o u1)
    end.
Proof.
  unfold run_emcee_3. intros E. unfold bindS at 1, set_chain at 1, modS in E.
  set (u0 := mkRun (u_pos u) (u_calls u) (if o_over o then [] else oldb) (u_log u) (u_file u)) in *.
  set (B := if Z.ltb 0 (o_nburn o) then _ else _) in E.
  assert (HB : forall u1 r1, B u0 = (u1, r1) -> u_log u1 = u_log u /\ u_file u1 = u_file u /\
     (r1 = Ok tt -> exists burn, steps m (u_calls u) (u_pos u) burn /\ length burn = nburn o /\
        u_calls u1 = (u_calls u + length burn)%nat /\ u_pos u1 = fold_left (fun _ s => fst s) burn (u_pos u))).
  { intros u1 r1 EB. unfold B in EB. destruct (Z.ltb_spec 0 (o_nburn o)) as [Hn|Hn].
    - unfold bindS, getS, liftR in EB. destruct (burn_loop m (Z.to_nat (o_nburn o)) u0) as [ub rb] eqn:E1.
      apply burn_loop_spec in E1. destruct E1 as (F1 & F2 & l & F3 & F4 & F5 & F6 & F7 & F8).
      destruct rb as [[]|e]; injection EB as <- <-; (split; [exact F1|]); (split; [exact F2|]); intros X; [|discriminate].
      exists l. unfold nburn. auto 6.
    - unfold ret in EB. injection EB as <- <-. split; [reflexivity|]. split; [reflexivity|]. intros _.
      try (split; [reflexivity|]). exists []. split; [constructor|]. split; [unfold nburn; cbn; lia|]. split; cbn; [lia|reflexivity]. }
  clearbody B. unfold bindS at 1 in E. destruct (B u0) as [u1 [[]|e]] eqn:EB.
  2:{ injection E as <- <-. left. exists e. destruct (HB _ _ eq_refl) as (X & Y & _). auto. }
  destruct (HB _ _ eq_refl) as (L1 & F1 & X). destruct (X eq_refl) as (burn & A1 & A2 & A3 & A4). clear X HB EB B.
  unfold bindS at 1, set_chain, modS in E.
  set (u1' := mkRun (u_pos u1) (u_calls u1) (if o_over o then [] else old) (u_log u1) (u_file u1)) in *.
  right. rewrite <- (bindS_assoc (sample_loop m o (Z.to_nat (o_nsteps o)) 0 None) (finish o)) in E. unfold bindS at 1 in E.
  destruct ((sdo last <- sample_loop m o (Z.to_nat (o_nsteps o)) 0 None; finish o last) u1') as [u2 r2] eqn:E2.
  apply (outcome_of m o u u1' u2 burn (if o_over o then [] else old) r2) in E2; auto. destruct E2 as [O1 O2].
  exists u2, r2. split; auto. split; [rewrite O2; exact F1|]. destruct r2 as [n|e]; [|injection E as <- <-; auto].
  unfold bindS, save, modS, ret in *. injection E as <- <-. auto.
Qed.
