(* The shipped line tables: names and wavelengths. *)
From Coq Require Import Reals List ZArith String Lra.
From Verif Require Import PyFloat PyBase MIo STables.
Import ListNotations.
Local Open Scope R_scope.

Lemma shipped_names l w r : In (l, (w, r)) (b_lines shipped) -> named_after w l.
Proof.
  intros H. cbn [b_lines shipped lib_lines] in H. unfold lib_lines in H. cbn [In] in H. unfold named_after.
  repeat (destruct H as [H | H]); [..|contradiction].
  all: apply pair_equal_spec in H; destruct H as [<- H]; apply pair_equal_spec in H; destruct H as [<- _].
  all: match goal with |- context [number_of ?s] => let n := eval compute in (number_of s) in change (number_of s) with n end.
  all: apply Rabs_le; lra.
Qed.

Lemma shipped_widths l win : In (l, win) (b_full shipped) ->
  exists w r, In (l, (w, r)) (b_lines shipped) /\ w - 130 <= fst win <= w - 60 /\ w + 60 <= snd win <= w + 130.
Proof.
  intros H. cbn [b_full shipped] in H. unfold lib_full in H. cbn [In] in H.
  repeat (destruct H as [H | H]); [..|contradiction].
  all: apply pair_equal_spec in H; destruct H as [<- <-]; cbn [fst snd b_lines shipped]; unfold lib_lines.
  - do 2 eexists. split; [left; reflexivity|]. lra.
  - do 2 eexists. split; [right; left; reflexivity|]. lra.
  - do 2 eexists. split; [right; right; left; reflexivity|]. lra.
Qed.

Lemma ex_name : In ("OIII5008"%string, (500824 / 100, 1)) (b_lines shipped) /\ number_of "OIII5008" = 5008%Z.
Proof. split; [right; right; left; reflexivity|reflexivity]. Qed.
