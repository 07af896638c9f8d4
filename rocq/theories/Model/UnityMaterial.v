(** [unity/unity_material.go] and the material part of [converter/unity2mqo.go] (108-150): from the file of a material to the [umat] that Unity2Mqo.v starts from.  The YAML decoder
    (gopkg.in/yaml.v3) is a function from the text of a document to the struct of unity_material.go 92-94; a document without a key Material gives the zero struct. *)
From Coq Require Import String Ascii List ZArith Reals Bool.
From Verif.Model Require Import Num NumR Vec Matrix Mqo MqoDoc UnityYaml UnityPackage UnityTexture Unity2Mqo.
Import ListNotations.
Local Open Scope list_scope.

(** [TextureEnv] (unity_material.go 40-44). *)
Record tenv := mkTE { teTexture : option uref; teScale : vec2 R; teOffset : vec2 R }.
(** [Material] (unity_material.go 10-27), the parts used here and the keywords of the shader; a value of a map can be nil. *)
Record fmat := mkFM { fmName : string; fmKeywords : string;
  fmTex : list (list (string * option tenv)); fmFloats : list (list (string * R)); fmColors : list (list (string * option (vec4 R))) }.
(** The zero value of [mat] (unity_material.go 92-94). *)
Definition zero_fmat : fmat := mkFM "" "" [] [] [].

(** [t[name]] of a map (unity_material.go 48, 57). *)
Fixpoint key_at {A} (m : list (string * A)) (k : string) : option A :=
  match m with (a, v) :: r => if String.eqb a k then Some v else key_at r k | [] => None end.
(** [GetTextureProperty] and [GetColorProperty] (unity_material.go 46-62): nil is [None]. *)
Fixpoint get_property {A} (l : list (list (string * option A))) (name : string) : option A :=
  match l with
  | [] => None
  | m :: r => match key_at m name with Some v => v | None => get_property r name end
  end.

Inductive loaded := LPanic | LError | LMaterial (m : fmat).

Section Load.
(** [Assets.GetAsset] of a GUID: the path; opening and reading a file; the decoder. *)
Variables (asset : string -> option string) (read : string -> option bytes) (decode : bytes -> option fmat).

Definition material_tag : bytes := list_ascii_of_string "tag:unity3d.com,2011:21".
(** unity_material.go 88-100. *)
Fixpoint first_material (ds : list ydoc) : loaded :=
  match ds with
  | [] => LError
  | d :: r =>
      if negb (bytes_eqb (yTag d) []) && negb (bytes_eqb (yTag d) material_tag) then first_material r
      else match decode (yBody d) with Some m => LMaterial m | None => first_material r end
  end.
(** [LoadMaterial] (unity_material.go 73-101). *)
Definition load_material (guid : string) : loaded :=
  match asset guid with
  | None => LError
  | Some p => match read p with
              | None => LError
              | Some b => match parse_yaml_documents b with None => LPanic | Some ds => first_material ds end
              end
  end.

(** The option [SaveTexrure], opening a texture and the directory of the source, as in UnityTexture.v. *)
Variables (save : bool) (open : string -> option (string * bool)) (src : path).
(** One texture (unity2mqo.go 131-140 and 141-149): the name and the properties if it is valid. *)
Definition use_texture (fs : fsys) (m : fmat) (name : string) : fsys * option (string * tenv) :=
  match get_property (fmTex m) name with
  | None => (fs, None)
  | Some t =>
      if ref_valid (teTexture t) then
        match teTexture t with
        | None => (fs, None)
        | Some r =>
            match asset (rGUID r) with
            | None => (fs, Some (""%string, t))
            | Some p => if save then let '(fs1, (n, _)) := save_texture open src fs (rGUID r) p in (fs1, Some (n, t))
                        else (fs, Some (""%string, t))
            end
        end
      else (fs, None)
  end.
(** What is used of a material (unity2mqo.go 120-149). *)
Definition use_material (fs : fsys) (m : fmat) : fsys * umat :=
  let '(fs1, main) := use_texture fs m "_MainTex" in
  let '(fs2, bump) := use_texture fs1 m "_BumpMap" in
  (fs2, mkUMat (fmName m) (get_property (fmColors m) "_Color")
          (option_map (fun c => mkV3 (qx c) (qy c) (qz c)) (get_property (fmColors m) "_EmissionColor"))
          (option_map (fun x => (fst x, teScale (snd x), teOffset (snd x))) main)
          (match bump with Some (n, _) => n | None => ""%string end)).
(** The material of a reference (unity2mqo.go 114-150) and the scale of its texture coordinates; [None]: panic. *)
Definition scene_material (fs : fsys) (guid : string) : option (fsys * (material R * option (vec2 R))) :=
  match load_material guid with
  | LPanic => None
  | LError => Some (fs, make_material (fun _ => None) guid)
  | LMaterial m => let '(fs1, u) := use_material fs m in Some (fs1, make_material (fun _ => Some u) guid)
  end.
End Load.
