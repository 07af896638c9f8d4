(** C125: a run of the tool writes the format that is asked for. *)
From Coq Require Import String Ascii List Bool.
From Verif.Model Require Import Cli CliRun.
From Verif.Spec Require Import CliSpec RunSpec.
From Verif.Proofs Require Import CliNames RunProofs.
Import ListNotations.
Local Open Scope string_scope.
Local Open Scope list_scope.

(** For all arguments: what is written has the format that is asked for by the option, by the name of the output, or by neither; for the two forms of MQO files the ending
    of the output in small letters decides. *)
Theorem C125_format_partial : forall format args r e i,
  run_of format args = Some r -> asked_for format args e -> lower e = e \/ format <> "" -> path_of_format (hd "" args) i -> In i known_formats ->
  (e <> ".mqo" /\ e <> ".mqoz" -> format_written (rnWriter r) = e) /\
  (e = ".mqo" \/ e = ".mqoz" -> format_written (rnWriter r) = ".mqoz" /\ ends_in ".mqoz" (rnOutput r) \/ format_written (rnWriter r) = ".mqo" /\ ~ ends_in ".mqoz" (rnOutput r)).
Proof. exact run_format. Qed.
Print Assumptions C125_format_partial.
(** Everything that can be converted is. *)
Theorem C125_supported : forall format args e i, asked_for format args e -> path_of_format (hd "" args) i -> args <> [] -> convertible i e -> run_of format args <> None.
Proof. exact run_exists. Qed.
Print Assumptions C125_supported.
(** The first argument is read in the format of its name, however it is written; archives are known by small letters only. *)
Theorem C125_input_partial : forall format args r, run_of format args = Some r -> rnInput r = hd "" args /\ (forall i, path_of_format (hd "" args) i -> In i known_formats ->
  (i <> ".mqo" /\ i <> ".mqoz") \/ (ends_in ".mqoz" (hd "" args) <-> i = ".mqoz") -> format_read (rnReader r) i).
Proof. exact run_input. Qed.
Print Assumptions C125_input_partial.
(** The last argument is the output; if it is a glTF document and the input is none, the motions between them are used and all options are. *)
Theorem C125_motions : forall format args r a mid b e, run_of format args = Some r -> args = a :: mid ++ [b] -> asked_for format args e -> lower e = e \/ format <> "" ->
  rnOutput r = b /\ (In e [".glb"; ".gltf"; ".vrm"] -> (forall i, path_of_format a i -> lower i = i -> In i [".glb"; ".gltf"; ".vrm"] -> False) ->
    rnScaled r = true /\ rnEdited r = true /\ forall f, In f (rnMotions r) <-> In f mid /\ lower (ext f) = ".vmd").
Proof. exact run_motions. Qed.
Print Assumptions C125_motions.

(** Which runs use the options: scaling is used by all but those from FBX to FBX, the other options also not from glTF to glTF; motions are used for glTF documents only. *)
Theorem C125_options : forall format args r e i,
  run_of format args = Some r -> asked_for format args e -> lower e = e \/ format <> "" -> path_of_format (hd "" args) i -> In i known_formats ->
  (rnScaled r = true <-> ~ (i = ".fbx" /\ e = ".fbx")) /\
  (rnEdited r = true <-> ~ (i = ".fbx" /\ e = ".fbx") /\ ~ (In i [".glb"; ".gltf"; ".vrm"] /\ In e [".glb"; ".gltf"; ".vrm"])) /\
  (rnEdited r = false \/ ~ In e [".glb"; ".gltf"; ".vrm"] -> rnMotions r = []).
Proof. exact run_options. Qed.
Print Assumptions C125_options.

Lemma C125_named p w e : ext p = w -> written w e -> path_of_format p e.
Proof. intros <- W. exists (ext p). split; [apply ext_is|exact W]. Qed.
(** A model with two motions, one in capitals; a model alone; an FBX file. *)
Example C125_example :
  run_of "" ["m/a.Pmx"; "walk.vmd"; "notes.txt"; "RUN.VMD"; "out.GLB"] = Some (mkRun "m/a.Pmx" RMmd "out.GLB" WGlb ["walk.vmd"; "RUN.VMD"] true true) /\
  asked_for "" ["m/a.Pmx"; "walk.vmd"; "notes.txt"; "RUN.VMD"; "out.GLB"] ".glb" /\ path_of_format "m/a.Pmx" ".pmx" /\ convertible ".pmx" ".glb" /\
  run_of "" ["m/a.mqoz"] = Some (mkRun "m/a.mqoz" RMqoz "m/a.glb" WGlb [] true true) /\ run_of "fbx" ["a.fbx"; "b"] = Some (mkRun "a.fbx" RFbx "b" WFbx [] false false) /\
  run_of "" ["a.txt"] = None.
Proof.
  split; [reflexivity|]. split.
  { right. left. split; [reflexivity|]. split; [do 3 eexists; reflexivity|]. apply (C125_named _ ".GLB"); [reflexivity|]. apply written_same.
    apply written_capital; [exists 6; split; reflexivity|]. apply written_capital; [exists 11; split; reflexivity|]. apply written_capital; [exists 1; split; reflexivity|]. apply written_nil. }
  split.
  { apply (C125_named _ ".Pmx"); [reflexivity|]. apply written_same. apply written_capital; [exists 15; split; reflexivity|]. apply written_same, written_same, written_nil. }
  split; [split; [cbn; tauto|left; cbn; tauto]|]. repeat split.
Qed.

(** Refuted: an archive that is asked for is not one, if the output does not end in small letters, and an archive whose name has capitals is read as text. *)
Theorem C125_archive_refuted :
  (exists r, asked_for "mqoz" ["a.pmx"; "out"] ".mqoz" /\ run_of "mqoz" ["a.pmx"; "out"] = Some r /\ format_written (rnWriter r) = ".mqo") /\
  (exists r, run_of "" ["a.pmx"; "OUT.MQOZ"] = Some r /\ rnWriter r = WMqoText) /\ (exists r, run_of "" ["A.MQOZ"; "a.glb"] = Some r /\ rnReader r = RMqoText) /\
  (exists r, run_of "mqo" ["a.pmx"; "out.mqoz"] = Some r /\ rnWriter r = WMqoz).
Proof.
  split; [|repeat split; eexists; split; reflexivity]. eexists. split; [left; split; [discriminate|reflexivity]|]. split; reflexivity.
Qed.
Print Assumptions C125_archive_refuted.
(** Refuted: further models, and motions for other outputs or glTF inputs, are left out without a word. *)
Theorem C125_inputs_refuted :
  run_of "" ["a.mqo"; "b.mqo"; "c.glb"] = run_of "" ["a.mqo"; "c.glb"] /\ run_of "" ["a.pmx"; "walk.vmd"; "c.mqo"] = run_of "" ["a.pmx"; "c.mqo"] /\
  run_of "" ["a.glb"; "walk.vmd"; "c.vrm"] = run_of "" ["a.glb"; "c.vrm"] /\ run_of "" ["a.mqo"; "c.glb"] <> None.
Proof. repeat split. discriminate. Qed.
Print Assumptions C125_inputs_refuted.
(** Refuted: options like -hide have no effect from glTF to glTF, and none at all has from FBX to FBX. *)
Theorem C125_options_refuted : (exists r, run_of "" ["a.glb"; "b.glb"] = Some r /\ rnEdited r = false) /\ (exists r, run_of "" ["a.fbx"; "b.fbx"] = Some r /\ rnScaled r = false).
Proof. split; eexists; split; reflexivity. Qed.
Print Assumptions C125_options_refuted.
(** Refuted: a format in capitals is not known, although an output in capitals is. *)
Theorem C125_capitals_refuted : run_of "GLB" ["a.mqo"] = None /\ run_of "" ["a.mqo"; "a.GLB"] <> None.
Proof. split; [reflexivity|discriminate]. Qed.
Print Assumptions C125_capitals_refuted.
(** Refuted: a scene of a package is written into a directory that has the name of the package with a part of the name of the scene, instead of beside it. *)
Theorem C125_place_refuted : exists r, run_of "" ["pack.unitypackage#Assets/a.unity"] = Some r /\ rnOutput r = "pack.unitypackage#Assets/a.mqo".
Proof. eexists. split; reflexivity. Qed.
Print Assumptions C125_place_refuted.
