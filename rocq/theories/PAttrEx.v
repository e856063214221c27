(* Constructors of Galaxy and FitEmissionLines2D, and concrete cases for attributes and saved results. *)
From Coq Require Import String List Bool Arith Ascii Lia.
From Verif Require Import PyFloat PyBase MAttr SAttr PAttr PAttr2.
Import ListNotations.
Local Open Scope string_scope.

Fixpoint nodupb (l : list string) : bool :=
  match l with [] => true | x :: l => negb (existsb (String.eqb x) l) && nodupb l end.
Lemma nodup_strings (l : list string) : nodupb l = true -> NoDup l.
Proof.
  induction l as [|x l IH]; cbn [nodupb]; [constructor|]. intros H. apply andb_prop in H. destruct H as [H1 H2].
  constructor; [|apply IH, H2]. intros I. apply negb_true_iff in H1. rewrite <- not_true_iff_false in H1. apply H1.
  apply existsb_exists. exists x. split; [exact I|apply String.eqb_refl].
Qed.

(** Galaxy( **kwargs). *)
Lemma galaxy_layers : Forall (@proper val) [galaxy_basic_attrs; galaxy_attrs].
Proof. constructor; [apply nodup_strings; reflexivity|]. constructor; [apply nodup_strings; reflexivity|constructor]. Qed.

Lemma galaxy_honoured kw k v : proper kw -> In k galaxy_documented -> k <> "deltPA" -> has kw k v ->
  proper (new_galaxy kw) /\ forall w, has (new_galaxy kw) k w <-> w = v.
Proof.
  intros K I N H. destruct (construct_spec [galaxy_basic_attrs; galaxy_attrs] kw K galaxy_layers) as (P & S).
  split; [exact P|]. intros w. unfold new_galaxy. rewrite S. split.
  - intros [_ [X|[X _]]]; [|exfalso; apply X; exists v; exact H]. apply (dget_iff kw k _ K) in X. apply (dget_iff kw k _ K) in H. congruence.
  - intros ->. split; [|auto]. exists galaxy_attrs. split; [right; left; reflexivity|]. apply named_keys.
    repeat (destruct I as [E|I]; [rewrite <- E in *; try (exfalso; apply N; reflexivity); cbv; tauto|]). destruct I.
Qed.

Lemma galaxy_default kw k v : proper kw -> ~ named kw k -> has galaxy_attrs k v -> has (new_galaxy kw) k v.
Proof.
  intros K N H. destruct (construct_spec [galaxy_basic_attrs; galaxy_attrs] kw K galaxy_layers) as (_ & S). apply S. split.
  - exists galaxy_attrs. split; [right; left; reflexivity|exists v; exact H].
  - right. split; [exact N|]. exists [galaxy_basic_attrs], galaxy_attrs, []. split; [reflexivity|]. split; [exact H|constructor].
Qed.

Lemma galaxy_deltPA_ignored kw v : new_galaxy (("deltPA", v) :: kw) = new_galaxy kw.
Proof.
  apply construct_unknown. intros l [<-|[<-|[]]] N; apply named_keys in N; cbv in N; intuition discriminate.
Qed.

(** FitEmissionLines2D. *)
Lemma fit2d_honoured (defaults kw : list (string * val)) k v : map fst defaults = fit2d_attrs -> proper kw -> In k fit2d_attrs -> has kw k v ->
  forall w, has (construct [defaults] kw) k w <-> w = v.
Proof.
  intros D K I H.
  assert (PD : proper defaults) by (unfold proper; rewrite D; apply nodup_strings; reflexivity).
  destruct (construct_spec [defaults] kw K) as (P & S); [constructor; [exact PD|constructor]|].
  intros w. rewrite S. split.
  - intros [_ [X|[X _]]]; [|exfalso; apply X; exists v; exact H]. apply (dget_iff kw k _ K) in X. apply (dget_iff kw k _ K) in H. congruence.
  - intros ->. split; [|auto]. exists defaults. split; [left; reflexivity|]. apply named_keys. unfold keys. rewrite D. exact I.
Qed.

Lemma fit2d_ignored (defaults kw : list (string * val)) k v : map fst defaults = fit2d_attrs ->
  In k ["flux_arr"; "z"; "vel_disp"; "trim_restwave_range"; "trim_wave_paramfile"; "del_obs_lam"] ->
  In k fit2d_documented /\ construct [defaults] ((k, v) :: kw) = construct [defaults] kw.
Proof.
  intros D I. split; [repeat (destruct I as [<-|I]; [cbv; tauto|]); destruct I|].
  apply construct_unknown. intros l [<-|[]] N. apply named_keys in N. unfold keys in N. rewrite D in N.
  revert N. repeat (destruct I as [<-|I]; [cbv; intuition discriminate|]). destruct I.
Qed.

(** A pickle format, to show that the hypotheses on pickle can be met: a value is written with a tag,
    names are terminated by 0, entries are introduced by 1 and an object ends with 0. *)
Fixpoint enc_s (s : string) : list nat :=
  match s with EmptyString => [0] | String c s => S (nat_of_ascii c) :: enc_s s end.
Fixpoint enc (v : val) : list nat :=
  match v with
  | Atom n => [0; n]
  | Obj d => 1 :: (fix go d := match d with
                               | [] => [0]
                               | (k, w) :: d => (1 :: enc_s k ++ enc w ++ go d)%list
                               end) d
  end.
Fixpoint enc_d (d : list (string * val)) : list nat :=
  match d with [] => [0] | (k, w) :: d => (1 :: enc_s k ++ enc w ++ enc_d d)%list end.
Lemma enc_obj d : enc (Obj d) = 1 :: enc_d d.
Proof. reflexivity. Qed.

Fixpoint dec_s (l : list nat) : option (string * list nat) :=
  match l with
  | [] => None
  | 0 :: l => Some (EmptyString, l)
  | S n :: l => if Nat.eqb (nat_of_ascii (ascii_of_nat n)) n
                then match dec_s l with Some (s, r) => Some (String (ascii_of_nat n) s, r) | None => None end
                else None
  end.
(** [true]: a value; [false]: the entries of an object. *)
Fixpoint dec (fuel : nat) (l : list nat) : option (val * list nat) :=
  match fuel with
  | 0 => None
  | S f =>
      match l with
      | 0 :: n :: l => Some (Atom n, l)
      | 1 :: l => match dec_d f l with Some (d, r) => Some (Obj d, r) | None => None end
      | _ => None
      end
  end
with dec_d (fuel : nat) (l : list nat) : option (list (string * val) * list nat) :=
  match fuel with
  | 0 => None
  | S f =>
      match l with
      | 0 :: l => Some ([], l)
      | 1 :: l => match dec_s l with
                  | None => None
                  | Some (k, l) => match dec f l with
                                   | None => None
                                   | Some (w, l) => match dec_d f l with Some (d, r) => Some ((k, w) :: d, r) | None => None end
                                   end
                  end
      | _ => None
      end
  end.

Lemma dec_s_enc s r : dec_s (enc_s s ++ r) = Some (s, r).
Proof.
  induction s as [|c s IH]; [reflexivity|]. cbn [enc_s app dec_s]. rewrite ascii_nat_embedding, Nat.eqb_refl, IH. reflexivity.
Qed.
Lemma dec_s_sound l : forall s r, dec_s l = Some (s, r) -> l = (enc_s s ++ r)%list.
Proof.
  induction l as [|[|n] l IH]; intros s r; cbn [dec_s]; [discriminate|intros E; inversion E; reflexivity|].
  destruct (Nat.eqb_spec (nat_of_ascii (ascii_of_nat n)) n) as [E|]; [|discriminate].
  destruct (dec_s l) as [[s' r']|]; [|discriminate]. intros X; inversion X; subst. cbn [enc_s app]. rewrite E. f_equal. apply IH. reflexivity.
Qed.

Lemma dec_sound f : (forall l v r, dec f l = Some (v, r) -> l = (enc v ++ r)%list) /\ (forall l d r, dec_d f l = Some (d, r) -> l = (enc_d d ++ r)%list).
Proof.
  induction f as [|f [IH1 IH2]]; [split; discriminate|]. split; intros l v r; cbn [dec dec_d].
  - destruct l as [|[|[|t]] l]; try discriminate.
    + destruct l as [|n l]; [discriminate|]. intros E; inversion E; reflexivity.
    + destruct (dec_d f l) as [[d r']|] eqn:E; [|discriminate]. intros X; inversion X; subst. rewrite enc_obj. cbn [app]. f_equal. apply IH2, E.
  - destruct l as [|[|[|t]] l]; try discriminate; [intros E; inversion E; reflexivity|].
    destruct (dec_s l) as [[k l1]|] eqn:E1; [|discriminate]. destruct (dec f l1) as [[w l2]|] eqn:E2; [|discriminate].
    destruct (dec_d f l2) as [[d l3]|] eqn:E3; [|discriminate]. intros X; inversion X; subst. cbn [enc_d app].
    rewrite (dec_s_sound _ _ _ E1), (IH1 _ _ _ E2), (IH2 _ _ _ E3). rewrite <- !app_assoc. reflexivity.
Qed.

Lemma dec_mono f : (forall l v r g, dec f l = Some (v, r) -> (f <= g)%nat -> dec g l = Some (v, r)) /\
  (forall l d r g, dec_d f l = Some (d, r) -> (f <= g)%nat -> dec_d g l = Some (d, r)).
Proof.
  induction f as [|f [IH1 IH2]]; [split; discriminate|]. split; intros l v r g E L; (destruct g as [|g]; [lia|]); cbn [dec dec_d] in *.
  - destruct l as [|[|[|t]] l]; try discriminate; [exact E|].
    destruct (dec_d f l) as [[d r']|] eqn:E1; [|discriminate]. rewrite (IH2 _ _ _ g E1) by lia. exact E.
  - destruct l as [|[|[|t]] l]; try discriminate; [exact E|].
    destruct (dec_s l) as [[k l1]|]; [|discriminate]. destruct (dec f l1) as [[w l2]|] eqn:E2; [|discriminate].
    rewrite (IH1 _ _ _ g E2) by lia. destruct (dec_d f l2) as [[d l3]|] eqn:E3; [|discriminate]. rewrite (IH2 _ _ _ g E3) by lia. exact E.
Qed.

Lemma dec_complete : forall v r, exists f, (f <= length (enc v))%nat /\ dec f (enc v ++ r) = Some (v, r).
Proof.
  fix IH 1. intros [n|d] r.
  - exists 1. split; [cbn; lia|reflexivity].
  - assert (D : exists f, (f <= length (enc_d d))%nat /\ dec_d f (enc_d d ++ r) = Some (d, r)).
    { revert r. induction d as [|[k w] d IHd]; intros r; [exists 1; split; [cbn; lia|reflexivity]|].
      cbn [enc_d]. destruct (IH w (enc_d d ++ r)%list) as (f1 & L1 & E1). destruct (IHd r) as (f2 & L2 & E2).
      exists (S (Nat.max f1 f2)). split.
      - cbn [length]. rewrite !app_length. lia.
      - cbn [app dec_d]. rewrite <- !app_assoc, dec_s_enc. rewrite (proj1 (dec_mono f1) _ _ _ (Nat.max f1 f2) E1) by lia.
        rewrite (proj2 (dec_mono f2) _ _ _ (Nat.max f1 f2) E2) by lia. reflexivity. }
    destruct D as (f & L & E). exists (S f). rewrite enc_obj. split; [cbn; lia|]. cbn [app dec]. rewrite E. reflexivity.
Qed.

Definition ex_pickle : pickle :=
  mkPickle enc (fun l => match dec (length l) l with Some (v, []) => Ok v | _ => Err ValueError end).

Lemma ex_faithful : faithful ex_pickle.
Proof.
  intros v. cbn [loads dumps ex_pickle]. destruct (dec_complete v []) as (f & L & E). rewrite app_nil_r in E.
  rewrite (proj1 (dec_mono f) _ _ _ _ E L). reflexivity.
Qed.

Lemma ex_truncation : detects_truncation ex_pickle.
Proof.
  intros v n L. cbn [loads dumps ex_pickle] in *. set (p := firstn n (enc v)).
  destruct (dec (length p) p) as [[w r]|] eqn:E; [|eexists; reflexivity]. destruct r; [|eexists; reflexivity]. exfalso.
  apply (proj1 (dec_sound _)) in E. rewrite app_nil_r in E.
  destruct (dec_complete w (skipn n (enc v))) as (f & _ & E1). rewrite <- E in E1. unfold p in E1. rewrite firstn_skipn in E1.
  destruct (dec_complete v []) as (g & _ & E2). rewrite app_nil_r in E2.
  pose proof (proj1 (dec_mono f) _ _ _ (Nat.max f g) E1 ltac:(lia)) as A1. pose proof (proj1 (dec_mono g) _ _ _ (Nat.max f g) E2 ltac:(lia)) as A2.
  rewrite A1 in A2. assert (S : skipn n (enc v) = []) by congruence. pose proof (skipn_length n (enc v)) as K. rewrite S in K. cbn [length] in K. lia.
Qed.

(** A concrete fit object. *)
Definition ex_spec : list (string * val) := [("flux", Atom 11); ("spec_hdr", Atom 12)].
Definition ex_gal : list (string * val) :=
  new_galaxy [("z", Atom 20); ("n", Atom 21); ("re_arcsec", Atom 22); ("pstamp", Obj [("im", Atom 23)]); ("spec2D", Obj ex_spec)].
Definition ex_fit : list (string * val) :=
  construct [map (fun k => (k, VNone)) fit2d_attrs]
    [("galaxy", Obj ex_gal); ("instrument", Obj [("band", Atom 30)]); ("mcmc_results", Obj [("bestfit", Atom 31)]); ("kinModel", Atom 32)].

Lemma proper_dec {A} (d : list (string * A)) : nodupb (map fst d) = true -> proper d.
Proof. exact (nodup_strings (map fst d)). Qed.

Lemma ex_savable : savable ex_fit ex_gal ex_spec.
Proof.
  split; [apply proper_dec; vm_compute; reflexivity|]. split.
  { intros k I. apply named_keys. repeat (destruct I as [<-|I]; [cbv; tauto|]). destruct I. }
  split; [cbv; intuition discriminate|]. split; [left; reflexivity|]. split; [apply proper_dec; vm_compute; reflexivity|].
  split; [exists (Atom 21); cbv; tauto|]. split; [exists (Atom 22); cbv; tauto|]. split; [exists (Atom 7); cbv; tauto|].
  split; [eexists; cbv; tauto|]. split; [cbv; tauto|]. apply proper_dec; vm_compute; reflexivity.
Qed.

Lemma ex_setAttr : setAttr [("a", 1); ("b", 2)] [("b", 5); ("c", 7)] = [("a", 1); ("b", 5)].
Proof. reflexivity. Qed.

Lemma ex_construct : has ex_gal "z" (Atom 20) /\ has ex_gal "q0" (Atom 7) /\ has ex_gal "dither" (Atom 1) /\
  ~ named (new_galaxy [("deltPA", Atom 40)]) "deltPA" /\ has (new_galaxy [("delt_PA", Atom 40)]) "delt_PA" (Atom 40).
Proof.
  split; [cbv; tauto|]. split; [cbv; tauto|]. split; [cbv; tauto|]. split; [|cbv; tauto].
  rewrite named_keys. cbv. intuition discriminate.
Qed.

Lemma ex_unsaved : exists fs, load ex_pickle fs "best.pickle" = Ok (Atom 5) /\
  exists e, load ex_pickle (fst (save_bestfit ex_pickle (Written 3) (Some "best.pickle") ex_fit fs)) "best.pickle" = Err e.
Proof.
  exists (fun f => if String.eqb f "best.pickle" then Some (enc (Atom 5)) else None). split; [reflexivity|].
  apply (crash_loses ex_pickle 3 "best.pickle" ex_fit ex_gal ex_spec); [exact ex_truncation|exact ex_savable|].
  intros r R. vm_compute in R. inversion R; subst r. vm_compute. lia.
Qed.

Lemma ex_hypotheses : faithful ex_pickle /\ detects_truncation ex_pickle /\ savable ex_fit ex_gal ex_spec /\
  proper (map (fun k => (k, VNone)) fit2d_attrs).
Proof.
  split; [exact ex_faithful|]. split; [exact ex_truncation|]. split; [exact ex_savable|]. apply proper_dec. reflexivity.
Qed.
