(** What a run of the tool does with its arguments: [main] ([cmd/modelconv/main.go] 77-152, 154-265, 382-396), [loadDocument] ([cmd/modelconv/utils.go] 29-95),
    [mqo.Save] and [mqo.Load] ([mqo/mqo_writer.go] 269-280, [mqo/mqo_parser.go] 429-440).  Loading, converting and saving themselves are elsewhere; here they succeed. *)
From Coq Require Import String Ascii List Bool.
From Verif.Model Require Import Cli.
Import ListNotations.
Local Open Scope string_scope.
Local Open Scope list_scope.

(** strings.HasSuffix (mqo_writer.go 270, mqo_parser.go 430). *)
Fixpoint has_suffix (suf s : string) : bool :=
  String.eqb s suf || match s with EmptyString => false | String _ r => has_suffix suf r end.

(** How the input is read: utils.go 31-94; main.go 225, 241, 252. *)
Inductive reader := RMqoText | RMqoz | RGltf | RMmd | RUnity | RFbx.
Definition reader_of (input : string) : option reader :=
  let e := lower (ext input) in
  if is_mqo e then Some (if has_suffix ".mqoz" input then RMqoz else RMqoText)
  else if is_gltf e then Some RGltf
  else if is_mmd e then Some RMmd
  else if is_unity e then Some RUnity
  else if String.eqb e ".fbx" then Some RFbx else None.
(** How the output is written: main.go 77-152, 245; [None]: unsupported. *)
Inductive writer := WGlb | WGltf | WVrm | WMqoText | WMqoz | WPmx | WFbx.
Definition gltf_writer (e : string) : option writer :=
  if String.eqb e ".glb" then Some WGlb else if String.eqb e ".gltf" then Some WGltf else if String.eqb e ".vrm" then Some WVrm else None.
Definition doc_writer (output e : string) : option writer :=
  if is_gltf e then gltf_writer e
  else if is_mqo e then Some (if has_suffix ".mqoz" output then WMqoz else WMqoText)
  else if String.eqb e ".pmx" then Some WPmx else None.

(** A run: the file that is read and the one that is written, the motions that are added (main.go 136-144), and whether the transformation (229-231, 257-265) and the other changes
    (267-380) of the options are made. *)
Record run := mkRun { rnInput : string; rnReader : reader; rnOutput : string; rnWriter : writer; rnMotions : list string; rnScaled : bool; rnEdited : bool }.
Definition motions (inputs : list string) : list string := filter (fun f => String.eqb (lower (ext f)) ".vmd") (tl inputs).
(** [main]; [None]: the run ends without writing. *)
Definition run_of (format : string) (args : list string) : option run :=
  match make_job format args with
  | None => None
  | Some j =>
      let input := hd "" args in
      match reader_of input with
      | None => None
      | Some r =>
          if is_gltf (jInputExt j) && is_gltf (jOutputExt j)
          then option_map (fun w => mkRun input r (jOutput j) w [] true false) (gltf_writer (jOutputExt j))
          else if String.eqb (jInputExt j) ".fbx" && String.eqb (jOutputExt j) ".fbx"
          then Some (mkRun input r (jOutput j) WFbx [] false false)
          else option_map (fun w => mkRun input r (jOutput j) w (if is_gltf (jOutputExt j) then motions (jInputs j) else []) true true) (doc_writer (jOutput j) (jOutputExt j))
      end
  end.
