(** C119: a document saved as .gltf loads with the data it was saved with, and nothing else on the disk changes. *)
From Coq Require Import String Ascii List ZArith Bool.
From Verif.Model Require Import Cli GltfPack GltfSave.
From Verif.Spec Require Import CliSpec GltfSaveSpec.
From Verif.Proofs Require Import GltfSaveProofs.
Import ListNotations.
Local Open Scope string_scope.
Local Open Scope list_scope.

(** What is saved is what is loaded, if the buffers are files of their own.  The full statement is without [separate]; see [C119_embedded_refuted] and [C119_own_refuted]. *)
Theorem C119_saved_partial : forall decode d dir name doc, without "/" name -> separate name (name_buffers name (kdBufs doc)) ->
  exists doc', open_gltf decode (save_gltf d dir name doc) dir name = Some doc' /\
    map kbData (kdBufs doc') = map kbData (kdBufs doc) /\ kdViews doc' = kdViews doc /\ kdImages doc' = kdImages doc.
Proof. exact save_opens. Qed.
Print Assumptions C119_saved_partial.

(** Only the document and the files of its buffers are written. *)
Theorem C119_frame : forall d dir name doc,
  only_changed d (save_gltf d dir name doc) ((dir ++ [name]) :: map (fun b => place dir (kbUri b)) (name_buffers name (kdBufs doc))).
Proof. exact save_frame. Qed.
Print Assumptions C119_frame.

(** Nothing is written for buffers without data or with their data in the address. *)
Theorem C119_written : forall d dir name doc p, p <> dir ++ [name] ->
  (forall b, In b (name_buffers name (kdBufs doc)) -> place dir (kbUri b) = p -> kbData b = [] \/ exists r, kbUri b = ("data:" ++ r)%string) -> found (save_gltf d dir name doc) p = found d p.
Proof. exact save_skips. Qed.
Print Assumptions C119_written.

(** The input is unchanged if it is in another directory, none of the two below the other.  The full statement is for all directories. *)
Theorem C119_source_partial : forall decode d change indir inname outdir outname d' doc,
  (forall p q, indir ++ p <> outdir ++ q) -> open_gltf decode d indir inname = Some doc -> convert_gltf decode d change indir inname outdir outname = Some d' ->
  open_gltf decode d' indir inname = Some doc.
Proof. exact source_kept. Qed.
Print Assumptions C119_source_partial.

(** A model in one file with data beside it, and a picture. *)
Definition home : disk := [(["m"; "a.gltf"], DDoc ["a.bin"] [mkKV 0 0 3] [mkKI "t.png" "" None]); (["m"; "a.bin"], DData [1; 2; 3]%Z); (["m"; "t.png"], DData [9]%Z)].
Definition nothing (_ : string) : option (list Z) := None.
Definition twice (l : list Z) : list Z := map (Z.mul 2) l.
Definition model : kdoc := mkKD [mkKB "a.bin" [1; 2; 3]%Z] [mkKV 0 0 3] [mkKI "t.png" "" None].

(** Converted to another name in the same directory, the data of the input is overwritten: the input is changed as well, and a second conversion changes it again. *)
Theorem C119_same_refuted : exists d', open_gltf nothing home ["m"] "a.gltf" = Some model /\ convert_gltf nothing home twice ["m"] "a.gltf" ["m"] "b.gltf" = Some d' /\
  open_gltf nothing d' ["m"] "a.gltf" = Some (mkKD [mkKB "a.bin" [2; 4; 6]%Z] (kdViews model) (kdImages model)) /\
  exists d'', convert_gltf nothing d' twice ["m"] "a.gltf" ["m"] "b.gltf" = Some d'' /\
    open_gltf nothing d'' ["m"] "b.gltf" = Some (mkKD [mkKB "a.bin" [4; 8; 12]%Z] (kdViews model) (kdImages model)).
Proof. eexists. split; [reflexivity|]. split; [vm_compute; reflexivity|]. split; [vm_compute; reflexivity|]. eexists. split; vm_compute; reflexivity. Qed.
Print Assumptions C119_same_refuted.

(** Two outputs in one directory made of inputs with the same buffer names: the first one has the data of the second. *)
Definition two : disk := (["n"; "c.gltf"], DDoc ["a.bin"] [mkKV 0 0 3] []) :: (["n"; "a.bin"], DData [7; 7; 7]%Z) :: home.
Theorem C119_shared_refuted : exists d1 d2, convert_gltf nothing two (fun l => l) ["m"] "a.gltf" ["o"] "a.gltf" = Some d1 /\
  convert_gltf nothing d1 (fun l => l) ["n"] "c.gltf" ["o"] "c.gltf" = Some d2 /\
  option_map kdBufs (open_gltf nothing d1 ["o"] "a.gltf") = Some [mkKB "a.bin" [1; 2; 3]%Z] /\ option_map kdBufs (open_gltf nothing d2 ["o"] "a.gltf") = Some [mkKB "a.bin" [7; 7; 7]%Z].
Proof. eexists. eexists. repeat split; vm_compute; reflexivity. Qed.
Print Assumptions C119_shared_refuted.

(** Data written out in the address: whatever the change is, the output has the data of the input. *)
Theorem C119_embedded_refuted : forall decode d change indir inname outdir outname d' doc,
  open_gltf decode d indir inname = Some doc -> Forall (fun b => exists r, kbUri b = ("data:" ++ r)%string) (kdBufs doc) ->
  convert_gltf decode d change indir inname outdir outname = Some d' -> open_gltf decode d' outdir outname = Some doc.
Proof. exact embedded_old. Qed.
Print Assumptions C119_embedded_refuted.

(** Pictures are not copied: none of the files in the output directory is new but the document and its buffers. *)
Theorem C119_picture_refuted : exists d' doc, images_there home ["m"] model /\ convert_gltf nothing home (fun l => l) ["m"] "a.gltf" ["o"] "a.gltf" = Some d' /\
  open_gltf nothing d' ["o"] "a.gltf" = Some doc /\ ~ images_there d' ["o"] doc.
Proof.
  eexists. eexists. split; [constructor; [intros _ _ _; vm_compute; discriminate|constructor]|]. split; [vm_compute; reflexivity|]. split; [vm_compute; reflexivity|].
  intros H. inversion H as [|? ? F _]; subst. apply F; [reflexivity|discriminate|intros r; discriminate|reflexivity].
Qed.
Print Assumptions C119_picture_refuted.

(** A buffer with the name of the document itself: what is saved cannot be opened. *)
Theorem C119_own_refuted : exists doc, (forall b, In b (kdBufs doc) -> kbData b <> []) /\ NoDup (map kbUri (kdBufs doc)) /\ open_gltf nothing (save_gltf [] ["o"] "a.gltf" doc) ["o"] "a.gltf" = None.
Proof. exists (mkKD [mkKB "a.gltf" [1]%Z] [] []). split; [intros b [<-|[]]; discriminate|]. split; [repeat constructor; intros []|reflexivity]. Qed.
Print Assumptions C119_own_refuted.

(** So a document with an empty buffer cannot be opened, or has the data of an older file. *)
Theorem C119_empty_refuted : exists doc, open_gltf nothing (save_gltf [] ["o"] "a.gltf" doc) ["o"] "a.gltf" = None /\
  option_map kdBufs (open_gltf nothing (save_gltf [(["o"; "a.bin"], DData [8]%Z)] ["o"] "a.gltf" doc) ["o"] "a.gltf") = Some [mkKB "a.bin" [8]%Z].
Proof. exists (mkKD [mkKB "a.bin" []] [] []). split; reflexivity. Qed.
Print Assumptions C119_empty_refuted.

(** A buffer without name and one with. *)
Definition mixed : kdoc := mkKD [mkKB "" [4; 5]%Z; mkKB "x.bin" [6]%Z] [mkKV 1 0 1] [].
Example C119_saved_example : without "/" "b.gltf" /\ separate "b.gltf" (name_buffers "b.gltf" (kdBufs mixed)) /\
  open_gltf nothing (save_gltf home ["o"] "b.gltf" mixed) ["o"] "b.gltf" = Some (mkKD [mkKB "b0.bin" [4; 5]%Z; mkKB "x.bin" [6]%Z] [mkKV 1 0 1] []).
Proof.
  split; [vm_compute; intuition discriminate|]. split; [|vm_compute; reflexivity]. split.
  - repeat constructor; vm_compute; intuition discriminate.
  - repeat constructor; try discriminate; vm_compute; intuition discriminate.
Qed.
Example C119_frame_example : found (save_gltf home ["o"] "b.gltf" mixed) ["m"; "a.bin"] = Some (DData [1; 2; 3]%Z) /\ found (save_gltf home ["o"] "b.gltf" mixed) ["o"; "b0.bin"] = Some (DData [4; 5]%Z).
Proof. split; reflexivity. Qed.
Example C119_source_example : (forall p q, ["m"] ++ p <> ["o"] ++ q) /\ open_gltf nothing home ["m"] "a.gltf" = Some model /\
  exists d', convert_gltf nothing home twice ["m"] "a.gltf" ["o"] "b.gltf" = Some d' /\ open_gltf nothing d' ["o"] "b.gltf" = Some (mkKD [mkKB "a.bin" [2; 4; 6]%Z] (kdViews model) (kdImages model)).
Proof. split; [intros p q; discriminate|]. split; [reflexivity|]. eexists. split; vm_compute; reflexivity. Qed.
(** An embedded document and a change that doubles. *)
Definition inside : disk := [(["m"; "e.gltf"], DDoc ["data:AQID"] [mkKV 0 0 3] [])].
Definition base (s : string) : option (list Z) := if String.eqb s "data:AQID" then Some [1; 2; 3]%Z else None.
Example C119_embedded_example : exists doc d', open_gltf base inside ["m"] "e.gltf" = Some doc /\ map kbData (kdBufs doc) = [[1; 2; 3]%Z] /\
  Forall (fun b => exists r, kbUri b = ("data:" ++ r)%string) (kdBufs doc) /\ convert_gltf base inside twice ["m"] "e.gltf" ["o"] "f.gltf" = Some d' /\
  option_map (fun x => map kbData (kdBufs x)) (open_gltf base d' ["o"] "f.gltf") = Some [[1; 2; 3]%Z].
Proof. eexists. eexists. split; [reflexivity|]. split; [reflexivity|]. split; [constructor; [exists "AQID"; reflexivity|constructor]|]. split; vm_compute; reflexivity. Qed.
