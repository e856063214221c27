(* Specification vocabulary for attributes and saved results. *)
From Coq Require Import String List Bool Arith.
From Verif Require Import PyFloat PyBase MAttr.
Import ListNotations.
Local Open Scope string_scope.

(** Attribute [k] has value [v]. *)
Definition has {A} (d : list (string * A)) (k : string) (v : A) : Prop := In (k, v) d.
(** [k] is an attribute. *)
Definition named {A} (d : list (string * A)) (k : string) : Prop := exists v, In (k, v) d.
(** Every attribute has one value. *)
Definition proper {A} (d : list (string * A)) : Prop := NoDup (map fst d).

(** The default of [k] is [v]: the last class of the chain which mentions [k] assigns [v]. *)
Definition default_is {A} (layers : list (list (string * A))) (k : string) (v : A) : Prop :=
  exists l1 l l2, layers = (l1 ++ l :: l2)%list /\ has l k v /\ Forall (fun l' => ~ named l' k) l2.

(** The saved object is read back as it was. *)
Definition faithful (P : pickle) : Prop := forall v, loads P (dumps P v) = Ok v.
(** A pickle that was cut short is not readable. *)
Definition detects_truncation (P : pickle) : Prop :=
  forall v n, (n < length (dumps P v))%nat -> exists e, loads P (firstn n (dumps P v)) = Err e.

(** A fit object whose results can be saved: every saved attribute is there, the instrument is
    not None, the galaxy is an object
    with structural parameters, an image (pstamp) attribute and a 2-D spectrum. *)
Definition savable (d : list (string * val)) (gd sd : list (string * val)) : Prop :=
  proper d /\ (forall k, In k results_attrs -> named d k) /\ ~ has d "instrument" VNone /\ has d "galaxy" (Obj gd) /\ proper gd /\
  named gd "n" /\ named gd "re_arcsec" /\ named gd "q0" /\ named gd "pstamp" /\ has gd "spec2D" (Obj sd) /\ proper sd.
