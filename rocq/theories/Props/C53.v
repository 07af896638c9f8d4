(** C53: does the first holder of a name keep it in FixNames?  Full claim: an entry whose name
    does not occur among the *original* names before it is not renamed.  False: a generated
    name can push out the original holder. *)
From Coq Require Import String List ZArith.
From Verif.Model Require Import Num Vec Matrix Mqo MqoDoc.
From Verif.Spec Require Import DocSpec.
From Verif.Proofs Require Import MqoDocProofs.
Import ListNotations.
Local Open Scope string_scope.

Definition named (n : string) : object Z :=
  mkObj 0 n [] [] true false 0 false 1 0%Z 0 0 0 0%Z None None None None [] None.
Theorem C53_first_holder_keeps_name_refuted :
  exists (d d' : document Z) i o o',
    fix_names d = Some d' /\ nth_error (dObjects d) i = Some o /\ nth_error (dObjects d') i = Some o' /\
    ~ In (oName o) (firstn i (map oName (dObjects d))) /\ oName o' <> oName o.
Proof.
  exists (mkDocument [] (map named ["a"; "a"; "a_2"])).
  exists (mkDocument [] (map named ["a"; "a_2"; "a_2_2"])), 2, (named "a_2"), (named "a_2_2").
  split; [vm_compute; reflexivity|]. split; [reflexivity|]. split; [reflexivity|].
  split; [|discriminate]. cbn. intros [H|[H|[]]]; discriminate.
Qed.
Print Assumptions C53_first_holder_keeps_name_refuted.

(** Entries whose name is not a generated form of any earlier name do keep it. *)
Theorem C53_first_holder_partial (T : Type) (d d' : document T) i o :
  fix_names d = Some d' -> nth_error (dObjects d) i = Some o ->
  ~ In (oName o) (firstn i (map oName (dObjects d))) ->
  (forall n k, In n (firstn i (map oName (dObjects d))) -> oName o <> with_suffix n k) ->
  nth_error (dObjects d') i = Some o.
Proof. exact (first_holder d d' i o). Qed.
Print Assumptions C53_first_holder_partial.
Example C53_hyp : ~ In "b" ["a"; "a"] /\ forall n k, In n ["a"; "a"] -> "b" <> with_suffix n k.
Proof. split; [intros [H|[H|[]]]; discriminate|]. intros n k [<-|[<-|[]]]; discriminate. Qed.
