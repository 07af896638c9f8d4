(** Several motions in one glTF document (C139). *)
From Coq Require Import String List ZArith Reals.
From Verif.Model Require Import Num NumR Vec GlbAnim GlbMotions.
From Verif.Spec Require Import AnimSpec.
Import ListNotations.

(** The animations of a document as a player shows them: name and channels. *)
Definition shows (g : gdoc) (l : list (string * list entry)) : Prop :=
  Forall2 (fun a e => fst a = fst e /\ plays (mkAS (gdAccs g) (snd a)) (snd e)) (gdAnims g) l.
(** The document with no accessor and no animation. *)
Definition no_doc : gdoc := mkGDoc [] [].
(** What a motion is when it is the only one, with other accessors or none. *)
Definition alone (bones : list (Z * abone)) (nodes : list (option (list string))) (m : motion) (l : list (string * list entry)) : Prop :=
  exists g, add_animation bones nodes no_doc m = Some g /\ shows g l /\ (length l <= 1)%nat /\ Forall (fun e => fst e = moName m /\ snd e <> []) l.
