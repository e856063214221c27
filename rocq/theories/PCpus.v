(* Proofs: numbers of processes of runs and shared options. *)
From Coq Require Import Reals Lra Lia List Bool Arith ZArith.
From Verif Require Import PyFloat PyBase Arr PyNum MSlitPlot MMcmc MCpus SCpus.
Import ListNotations.
Local Open Scope R_scope.

Lemma floor_spec r : IZR (Int_part r) <= r < IZR (Int_part r) + 1.
Proof. destruct (base_Int_part r). split; lra. Qed.

Lemma set_wanted cores o o' n : set_cpus cores o = (o', Ok n) -> wanted cores o n /\ p_num o' = Some n /\ p_frac o' = p_frac o /\ p_no o' = p_no o.
Proof.
  unfold set_cpus, wanted. destruct (p_num o) as [k|]; intros E.
  - injection E as <- <-. cbn [p_num p_frac p_no]. split; [|auto]. destruct (p_no o); auto.
  - destruct (p_frac o) as [f| | |]; cbn [fmul] in E; cycle 1.
    1,2: unfold inf_scale in E; destruct (Reqb _ 0); [|destruct (Bool.eqb _ _)]; cbn [int_floor] in E; discriminate E.
    1: discriminate E.
    cbn [int_floor] in E. injection E as <- <-. cbn [p_num p_frac p_no]. split; [|auto].
    destruct (p_no o); [auto|]. right. right. split; [reflexivity|]. split; [reflexivity|]. exists f. split; [reflexivity|]. apply floor_spec.
Qed.
Lemma put_same h k o : put h k o k = o.
Proof. unfold put. now rewrite Nat.eqb_refl. Qed.
Lemma put_other h k o j : j <> k -> put h k o j = h j.
Proof. intros N. unfold put. now rewrite (proj2 (Nat.eqb_neq j k) N). Qed.

Lemma run_uses cores own i h h' n : exec cores own (ARun i) h = (h', [(i, Ok n)]) ->
  wanted cores (h (object_of (own i))) n /\ p_num (h' (object_of (own i))) = Some n.
Proof.
  cbn [exec]. destruct (set_cpus cores (h (object_of (own i)))) as [o r] eqn:E. intros X. injection X as <- ->.
  apply set_wanted in E as (W & N & _). now rewrite put_same.
Qed.
Lemma run_succeeds cores own i h f : p_frac (h (object_of (own i))) = Fin f -> exists h' n, exec cores own (ARun i) h = (h', [(i, Ok n)]).
Proof.
  intros F. cbn [exec]. unfold set_cpus. rewrite F. cbn [fmul int_floor].
  destruct (p_num (h (object_of (own i)))); eexists; eexists; reflexivity.
Qed.

Definition settled (n : Z) (o : cpu) : Prop := p_num o = Some n /\ (p_no o = true -> n = 1%Z).
Lemma exec_settled cores own k n a h h' t : settled n (h k) -> (object_of (own (about a)) = k -> harmless a) -> exec cores own a h = (h', t) ->
  settled n (h' k) /\ forall j r, In (j, r) t -> object_of (own j) = k -> r = Ok n.
Proof.
  intros (S1 & S2) Ha E. unfold settled. destruct a as [i|i f|i m|i b]; cbn [exec about harmless] in *;
    (destruct (Nat.eq_dec k (object_of (own i))) as [->|Nk]; [specialize (Ha eq_refl)|clear Ha]).
  - unfold set_cpus in E. rewrite S1 in E. injection E as <- <-. rewrite put_same. cbn [p_num p_no].
    assert (X : (if p_no (h (object_of (own i))) then 1%Z else n) = n) by (destruct (p_no _); [symmetry; now apply S2|reflexivity]).
    rewrite X. split; [auto|]. intros j r [J|[]] _. now injection J as <- <-.
  - destruct (set_cpus _ _) as [o r0]. injection E as <- <-. rewrite put_other by exact Nk. split; [auto|].
    intros j r [J|[]] O. injection J as <- <-. now destruct Nk.
  - injection E as <- <-. rewrite put_same. cbn [p_num p_no]. split; [auto|]. intros j r [].
  - injection E as <- <-. rewrite put_other by exact Nk. split; [auto|]. intros j r [].
  - destruct Ha.
  - injection E as <- <-. rewrite put_other by exact Nk. split; [auto|]. intros j r [].
  - destruct b; [destruct Ha|]. injection E as <- <-. rewrite put_same. cbn [p_num p_no]. split; [split; [exact S1|discriminate]|]. intros j r [].
  - injection E as <- <-. rewrite put_other by exact Nk. split; [auto|]. intros j r [].
Qed.
Lemma all_settled cores own k n l : forall h h' t, settled n (h k) -> (forall a, In a l -> object_of (own (about a)) = k -> harmless a) ->
  exec_all cores own l h = (h', t) -> forall j r, In (j, r) t -> object_of (own j) = k -> r = Ok n.
Proof.
  induction l as [|a l IH]; intros h h' t Sh Hl E j r J O; cbn [exec_all] in E.
  - injection E as <- <-. destruct J.
  - destruct (exec cores own a h) as [h1 t1] eqn:E1. destruct (exec_all cores own l h1) as [h2 t2] eqn:E2. injection E as <- <-.
    destruct (exec_settled cores own k n a h h1 t1 Sh (Hl a (or_introl eq_refl)) E1) as (S1 & T1).
    apply in_app_or in J as [J|J]; [now apply (T1 j r J)|]. apply (IH h1 h2 t2 S1 (fun a' I => Hl a' (or_intror I)) E2 j r J O).
Qed.

Lemma number_stays cores own i h h1 n l h2 t : exec cores own (ARun i) h = (h1, [(i, Ok n)]) ->
  (forall a, In a l -> object_of (own (about a)) = object_of (own i) -> harmless a) ->
  exec_all cores own l h1 = (h2, t) -> forall j r, In (j, r) t -> object_of (own j) = object_of (own i) -> r = Ok n.
Proof.
  intros E Hl El. refine (all_settled cores own _ n l h1 h2 t _ Hl El).
  destruct (run_uses _ _ _ _ _ _ E) as (W & N). split; [exact N|]. intros P. cbn [exec] in E.
  destruct (set_cpus cores (h (object_of (own i)))) as [o r0] eqn:Es. injection E as <- ->. rewrite put_same in P.
  apply set_wanted in Es as (_ & _ & _ & Q). rewrite P in Q. destruct W as [(_ & W)|[(W & _)|(W & _)]]; [exact W|rewrite W in Q; discriminate Q..].
Qed.

Lemma others_untouched cores own k l : forall h, (forall a, In a l -> object_of (own (about a)) <> k) -> fst (exec_all cores own l h) k = h k.
Proof.
  induction l as [|a l IH]; intros h Hl; cbn [exec_all]; [reflexivity|].
  assert (N := Hl a (or_introl eq_refl)). specialize (IH (fst (exec cores own a h)) (fun a' I => Hl a' (or_intror I))).
  destruct (exec cores own a h) as [h1 t1] eqn:E1. cbn [fst] in IH. destruct (exec_all cores own l h1) as [h2 t2]. cbn [fst] in *. rewrite IH.
  destruct a as [i|i f|i m|i b]; cbn [exec about] in *; [destruct (set_cpus _ _)|..]; injection E1 as <- <-; apply put_other; congruence.
Qed.
Lemma own_options cores own i l h : (forall a, In a l -> own (about a) <> own i) ->
  snd (exec cores own (ARun i) (fst (exec_all cores own l h))) = snd (exec cores own (ARun i) h).
Proof.
  intros Hl. cbn [exec]. rewrite (others_untouched cores own (object_of (own i))).
  - destruct (set_cpus _ _); reflexivity.
  - intros a I E. apply (Hl a I). destruct (own (about a)), (own i); cbn [object_of] in E; congruence.
Qed.

Lemma six : Int_part (8 * (3 / 4)) = 6%Z.
Proof. destruct (floor_spec (8 * (3/4))) as [A B]. apply Z.le_antisymm; [apply le_IZR; lra|]. apply Z.lt_succ_r, lt_IZR. rewrite succ_IZR. lra. Qed.
Lemma fresh_six own i : snd (exec 8 own (ARun i) (fun _ => new_cpu)) = [(i, Ok 6%Z)].
Proof. cbn [exec]. unfold set_cpus, new_cpu. cbn [p_num p_frac p_no fmul int_floor]. now rewrite six. Qed.
Lemma shared_options_refuted : exists cores own i l h, (forall j, own j = None) /\ (forall k, h k = new_cpu) /\ (forall a, In a l -> about a <> i) /\
  snd (exec cores own (ARun i) h) = [(i, Ok 6%Z)] /\ snd (exec cores own (ARun i) (fst (exec_all cores own l h))) = [(i, Ok 1%Z)] /\
  p_no (fst (exec_all cores own l h) (object_of (own i))) = false.
Proof.
  exists 8%Z, (fun _ => None), 1%nat, [ANo 0 true; ARun 0; ANo 0 false], (fun _ => new_cpu).
  split; [reflexivity|]. split; [reflexivity|]. split; [intros a [<-|[<-|[<-|[]]]]; cbn; lia|]. split; [apply fresh_six|].
  cbn [exec_all exec object_of]. rewrite !put_same. unfold set_cpus, new_cpu. cbn [p_num p_frac p_no fmul int_floor fst snd app].
  rewrite !put_same. cbn [p_num p_frac p_no]. split; reflexivity.
Qed.

(** The number that the model of a run uses. *)
Lemma same_number cores o o' n mo : set_cpus cores o = (o', Ok n) -> o_ncpus mo = p_num o -> o_nothread mo = p_no o ->
  int_floor (fmul (Fin (IZR cores)) (p_frac o)) = Ok (o_cpus mo) -> ncpus mo = n.
Proof.
  unfold set_cpus, ncpus. intros E -> -> F. rewrite F in E. destruct (p_num o); injection E as _ <-; reflexivity.
Qed.

Lemma stays_example : let own := fun i : nat => if Nat.eqb i 2 then Some 0%nat else None in
  let h1 := fst (exec 8 own (ARun 0) (fun _ => new_cpu)) in
  exec 8 own (ARun 0) (fun _ => new_cpu) = (h1, [(0%nat, Ok 6%Z)]) /\
  snd (exec_all 8 own [AFrac 0 (Fin 0); ANum 2 (Some 3%Z); ARun 2; ARun 1] h1) = [(2%nat, Ok 3%Z); (1%nat, Ok 6%Z)].
Proof.
  intros own h1. split; [rewrite (surjective_pairing (exec 8 own (ARun 0) (fun _ => new_cpu))); unfold h1; now rewrite fresh_six|].
  unfold h1. cbn [exec]. unfold set_cpus at 1, new_cpu at 1 2 3 4. cbn [p_num p_frac p_no fmul int_floor]. rewrite six. cbn. reflexivity.
Qed.
