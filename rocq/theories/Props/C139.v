(** C139: several motions in one glTF document. *)
From Coq Require Import String List ZArith Reals Bool Lia Lra.
From Verif.Model Require Import Num NumR Vec GlbAnim GlbMotions.
From Verif.Spec Require Import GeomSpec AnimSpec MotionsSpec.
From Verif.Proofs Require Import AnimProofs AnimMorph MotionsProofs.
Import ListNotations.
Local Open Scope list_scope.

(** The animations of the document are those it had, showing what they showed, and then for every motion in order what the motion gives when it is the only one:
    one animation with its name, or none if nothing moves. Accessors of the document stay where they are. *)
Theorem C139_shown : forall bones nodes ms g g' l, add_animations bones nodes ms g = Some g' -> shows g l ->
  exists ls, Forall2 (alone bones nodes) ms ls /\ shows g' (l ++ concat ls) /\ (exists x, gdAccs g' = gdAccs g ++ x) /\ exists y, gdAnims g' = gdAnims g ++ y.
Proof. exact motions_shown. Qed.
Print Assumptions C139_shown.
(** It fails only if a motion fails alone. *)
Theorem C139_fail : forall bones nodes ms g, add_animations bones nodes ms g = None <-> Exists (fun m => add_animation bones nodes no_doc m = None) ms.
Proof. exact motions_fail. Qed.
Print Assumptions C139_fail.
(** Alone, a motion under the conditions of C85 and C86 gives an animation of what both say: the channels of its bones, then those of its morphs. *)
Theorem C139_alone : forall bones nodes m, distinct_bones bones -> unique_targets nodes -> NoDup (map mcTarget (moMorphs m)) -> same_keys nodes (moMorphs m) ->
  Forall (fun c => length (mcWeights c) = length (mcFrames c)) (moMorphs m) ->
  exists eb ess, all_exported bones (moBones m) eb /\ Forall2 (node_exported nodes (moMorphs m)) (seq 0 (length nodes)) ess /\
    alone bones nodes m (match eb ++ concat ess with [] => [] | es => [(moName m, es)] end).
Proof.
  intros bones nodes m D U ND K F. destruct (bone_channels_ok bones (moBones m) [] D) as (eb & x & P & _ & A). destruct (morph_channels_ok nodes (moMorphs m) _ eb U ND K F P) as (s & ess & x2 & E & P2 & _ & H).
  exists eb, ess. split; [exact A|]. split; [exact H|]. unfold alone, add_animation. cbn [no_doc gdAccs gdAnims]. rewrite E. eexists. split; [reflexivity|].
  pose proof (plays_nil _ _ P2) as Nil. destruct (eb ++ concat ess) as [|e es].
  - rewrite (proj1 Nil eq_refl). split; [constructor|]. split; [cbn; lia|constructor].
  - destruct (aaChannels (asAnim s)) as [|c cs] eqn:Ec; [discriminate (proj2 Nil eq_refl)|]. split; [|split; [cbn; lia|repeat constructor; discriminate]].
    constructor; [|constructor]. cbn [fst snd gdAccs]. split; [reflexivity|]. destruct s. exact P2.
Qed.
Print Assumptions C139_alone.

(** Two motions of a face with a motion that moves nothing between them, in a document with an accessor. *)
Definition C139_nodes : list (option (list string)) := [None; Some ["blink"; "smile"]%string].
Definition C139_motions : list motion :=
  [mkMotion "one" [] [mkMCh "blink" [0; 30]%Z [0; 1]%R]; mkMotion "none" [] [mkMCh "frown" [0]%Z [1]%R]; mkMotion "two" [] [mkMCh "smile" [0]%Z [0]%R]].
Local Opaque to_u8 key_times.
Example C139_example : exists g', add_animations [] C139_nodes C139_motions (mkGDoc [ABytes [7]%Z] []) = Some g' /\
  shows g' [("one"%string, [(1%Z, PWeights, key_times [0; 30]%Z, ABytes [to_u8 (0 * 255); 0%Z; to_u8 (1 * 255); 0%Z])]); ("two"%string, [(1%Z, PWeights, key_times [0]%Z, ABytes [0%Z; to_u8 (0 * 255)])])] /\
  map (fun a => aaSamplers (snd a)) (gdAnims g') = [[(1, 2)]; [(3, 4)]]%nat.
Proof.
  eexists. split; [lazy; reflexivity|]. split; [|reflexivity].
  unfold shows. cbn [gdAnims gdAccs]. apply Forall2_cons; [split; reflexivity|]. apply Forall2_cons; [split; reflexivity|]. apply Forall2_nil.
Qed.
