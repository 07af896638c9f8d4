(** C110: the plugins of a document (bones, morphs, physics) are in the files that are saved, and come back when they are loaded. *)
From Coq Require Import String List ZArith Bool.
From Verif.Model Require Import Num Vec Matrix Mqo MqoDoc MqoText MqoLex Cli Mqx.
From Verif.Spec Require Import TextSpec MqxSpec MqxPhysicsSpec.
From Verif.Proofs Require Import MqxProofs MqxPhysics.
Import ListNotations.
Local Open Scope string_scope.
Local Open Scope list_scope.

(** What was saved is loaded, as .mqo with its .mqx file, or as .mqoz: the text (C16), and the same bones and morphs, no more; other files do not change.
    The full claim would have all plugins. *)
Theorem C110_kept_partial : forall T (N : Num T) (X : TextNum T) creatable dir base sc (d : document T) ps fs,
  text_domain (mkTD None sc d) -> name_ok base -> is_mqo (lower (ext base)) = true -> proper ps -> creatable dir base = true ->
  (has_suffix ".mqoz" base = false -> forall f, mqx_name base ps = Some f -> creatable dir f = true) ->
  exists fs' d' ps', save creatable dir base sc d ps fs = Some fs' /\ (if has_suffix ".mqoz" base then d' = d else fix_names d = Some d') /\
    load dir base fs' = Some (kept_doc (mkTD (mqx_name base ps) sc d'), ps') /\
    length ps' = length (filter (fun p => negb (physical p)) ps) /\
    (forall p, In p ps -> physical p = false -> exists p', In p' ps' /\ same_plugin (dObjects d') p p') /\ (forall p', In p' ps' -> exists p, In p ps /\ same_plugin (dObjects d') p p') /\
    forall dd bb, (dd <> dir \/ (bb <> base /\ Some bb <> mqx_name base ps)) -> fs' dd bb = fs dd bb.
Proof.
  intros T N X creatable dir base sc d ps fs H1 H2 H3 H4 H5 H6. apply loaded; try assumption. intros Hz f Hf. split; [exact (H6 Hz f Hf)|].
  unfold mqx_name in Hf. destruct ps; [discriminate|]. injection Hf as <-. exact (other_name base H3).
Qed.
Print Assumptions C110_kept_partial.

(** The file of plugins says everything about the physics, under the names that Metasequoia has for it. *)
Theorem C110_physics_written : forall T (os : list (object T)) (ps : list (plugin T)) name p, NoDup (map kind ps) -> In (PPhysics p) ps ->
  exists e, child (write_mqx os ps name) "Plugin.7A6E6962.43594850" e /\ physics_is p e.
Proof. exact @physics_written. Qed.
Print Assumptions C110_physics_written.
(** Refuted: physics is written, but never read, whatever the files are. *)
Theorem C110_physics_refuted : forall T (N : Num T) (X : TextNum T) dir base (fs : files T) td ps, load dir base fs = Some (td, ps) -> forall f, ~ In (PPhysics f) ps.
Proof. exact @loaded_no_physics. Qed.
Print Assumptions C110_physics_refuted.

Definition cube (name : string) (v : Z) : object Z := (mkObj 0 name [mkV3 v v v] [] true false 0 false 1 60 0 0 0 0 None None None None [] None)%Z.
Definition doc_of (os : list (object Z)) : document Z := mkDocument [] os.
Definition arm : qbone Z := (mkQB 1 "arm" 0 0 (mkV3 1 2 3) 1 0 0 "" None (Some (mkV3 0 0 1)) (Some (mkIK 2 "ik" "tip")) [(1, [(1, 100); (2, 50)])])%Z.
Definition bones : plugin Z := PBones (mkBPl "" [] 3%Z [arm] [] []).
Definition morphs : plugin Z := PMorphs (mkMPl "Morph" [("face", [("smile", 0%Z)])]).
Definition no_files : files Z := fun _ _ => None.

(** Refuted: if the .mqx file cannot be written, saving reports no error, and the plugins are lost, or an older file is taken for them. *)
Theorem C110_silent_refuted : exists creatable fs fs' td, save creatable "m" "a.mqo" None (doc_of []) [bones; morphs] fs = Some fs' /\ load "m" "a.mqo" fs' = Some (td, []) /\
  exists old fs2, save creatable "m" "a.mqo" None (doc_of []) [bones] (put fs "m" "a.mqx" (FXml (write_mqx [] [old] "a.mqo"))) = Some fs2 /\ load "m" "a.mqo" fs2 = Some (td, [old]) /\ kind old <> kind bones.
Proof.
  exists (fun _ b => String.eqb b "a.mqo"), no_files. eexists _, _. split; [vm_compute; reflexivity|]. split; [vm_compute; reflexivity|].
  exists morphs. eexists. split; [vm_compute; reflexivity|]. split; [vm_compute; reflexivity|]. discriminate.
Qed.
Print Assumptions C110_silent_refuted.

(** Refuted: in a .mqoz file with a folder the document is found, its plugins are not. *)
Definition in_folder (dir : string) (l : list (string * content Z)) : list (string * content Z) := map (fun e => ((dir ++ "/" ++ fst e)%string, snd e)) l.
Theorem C110_folder_refuted : exists l td, load "m" "a.mqoz" (put no_files "m" "a.mqoz" (FZip l)) = Some (td, [morphs]) /\
  load "m" "a.mqoz" (put no_files "m" "a.mqoz" (FZip (in_folder "x" l))) = Some (td, []).
Proof.
  exists [("a.mqo", FText (write_text (mkTD (Some "a.mqx") None (doc_of [])))); ("a.mqx", FXml (write_mqx [] [morphs] "a.mqo"))]. eexists. split; vm_compute; reflexivity.
Qed.
Print Assumptions C110_folder_refuted.

(** Refuted: the program accepts extensions in capitals, but such a file is not opened as an archive. *)
Theorem C110_case_refuted : forall T (N : Num T) (X : TextNum T) (fs : files T) l, is_mqo (lower (ext "a.MQOZ")) = true /\ load "m" "a.MQOZ" (put fs "m" "a.MQOZ" (FZip l)) = None.
Proof. intros. split; reflexivity. Qed.
Print Assumptions C110_case_refuted.

(** Refuted: a morph changes another object after saving as .mqo, as objects get new names, but morphs keep the old ones.  As .mqoz it does not. *)
Definition base_of (d : document Z) (name : string) : option (list (vec3 Z)) := match obj_by_name (dObjects d) name with Some i => option_map oVerts (nth_error (dObjects d) i) | None => None end.
Theorem C110_morph_refuted : exists d fs' td, save (fun _ _ => true) "m" "a.mqo" None d [morphs] no_files = Some fs' /\ load "m" "a.mqo" fs' = Some (td, [morphs]) /\
  base_of d "face" = Some [mkV3 2 2 2]%Z /\ base_of (tdDoc td) "face" = Some [mkV3 1 1 1]%Z /\
  exists fs2 td2, save (fun _ _ => true) "m" "a.mqoz" None d [morphs] no_files = Some fs2 /\ load "m" "a.mqoz" fs2 = Some (td2, [morphs]) /\ base_of (tdDoc td2) "face" = Some [mkV3 2 2 2]%Z.
Proof.
  exists (doc_of [cube "face" 1; cube "face" 2; cube "smile" 3]). eexists _, _. split; [vm_compute; reflexivity|]. split; [vm_compute; reflexivity|]. split; [reflexivity|]. split; [vm_compute; reflexivity|].
  eexists _, _. split; [vm_compute; reflexivity|]. split; vm_compute; reflexivity.
Qed.
Print Assumptions C110_morph_refuted.

(** A document to which the theorem applies, with the files. *)
Example C110_example : text_domain (mkTD None None (doc_of [cube "face" 1; cube "face" 2])) /\ name_ok "a.mqo" /\ is_mqo (lower (ext "a.mqo")) = true /\ proper [morphs; bones] /\
  exists fs' td b, save (fun _ _ => true) "m" "a.mqo" None (doc_of [cube "face" 1; cube "face" 2]) [morphs; bones] no_files = Some fs' /\
    load "m" "a.mqo" fs' = Some (td, [PBones b; morphs]) /\ plBones b = [arm] /\ plObj b = [1]%Z /\ map oName (dObjects (tdDoc td)) = ["face"; "face_2"].
Proof.
  split; [|split; [|split; [reflexivity|split]]].
  - split; [intros f; discriminate|]. split; [constructor|]. repeat constructor; cbn; try discriminate; intuition discriminate.
  - cbn. repeat split; discriminate.
  - split; [cbn; repeat constructor; cbn; intuition discriminate|]. repeat constructor.
  - eexists _, _, _. split; [vm_compute; reflexivity|]. split; [vm_compute; reflexivity|]. repeat split; reflexivity.
Qed.

(** A body that follows a bone, and a joint to the body of no bone. *)
Definition hair : physplugin Z := (mkPPl "Physics" [mkQBody [mkQS "SPHERE" (mkV3 5 0 0) (mkV3 1 2 3) (mkV3 0 0 9)] 7 true 3 65535 1 2 4 8 "hair" 12 0] [mkQJ "SPRING" 1 0 "" (mkV3 1 2 3) (mkV3 0 0 9) (mkV3 4 4 4) (mkV3 6 6 6)])%Z.
Example C110_hair : NoDup (map kind [bones; PPhysics hair]) /\ exists b, physics_is hair (El "Plugin.7A6E6962.43594850" [("name", XStr "Physics")]
    [El "Bodies" [] [b] None; El "Constraints" [] [El "Joint" [("type", XStr "SPRING"); ("body1", XInt 1)]
      [El "Position" [("x", XNum 1); ("y", XNum 2); ("z", XNum 3)] [] None; El "Rotation" [("x", XNum 0); ("y", XNum 0); ("z", XNum 9)] [] None;
       El "LinerSpring" [("x", XNum 4); ("y", XNum 4); ("z", XNum 4)] [] None; El "AngulerSpring" [("x", XNum 6); ("y", XNum 6); ("z", XNum 6)] [] None] None] None] None)%Z /\
  el_attrs b = [("mass", XNum 7); ("kinematic", XBool true); ("name", XStr "hair"); ("targetBone", XInt 12)]%Z.
Proof.
  split; [repeat constructor; cbn; intuition discriminate|]. destruct (C110_physics_written Z [] [bones; PPhysics hair] "a.mqo" hair) as (e & C & P); [repeat constructor; cbn; intuition discriminate|right; left; reflexivity|].
  vm_compute in C. injection C as <-. eexists. split; [exact P|reflexivity].
Qed.
