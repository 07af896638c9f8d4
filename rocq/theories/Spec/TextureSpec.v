(** What the textures of an exported document should be. *)
From Coq Require Import String Ascii List ZArith QArith Qround Bool.
From Verif.Model Require Import Num Vec Matrix Mqo MqoDoc Gltf Mqo2Gltf Cli Mqo2GltfTextures.
Import ListNotations.
Local Open Scope Z_scope.
Local Open Scope list_scope.

(** The textures that a material names: of the surface, of its bumps, and, for glTF materials, of the extensions that are on:
    the parameter that turns the extension on, its name, the entry, and the mapping that has the name of the texture. *)
Definition extension_textures : list (string * string * string * string) :=
  [("Extensions.SpecularExt", "KHR_materials_specular", "specularTexture", "Specular");
   ("Extensions.SpecularExt", "KHR_materials_specular", "specularColorTexture", "SpecularColor");
   ("Extensions.Clearcoat", "KHR_materials_clearcoat", "clearcoatTexture", "Clearcoat");
   ("Extensions.Clearcoat", "KHR_materials_clearcoat", "clearcoatRoughnessTexture", "ClearcoatRoughness");
   ("Extensions.Clearcoat", "KHR_materials_clearcoat", "clearcoatNormalTexture", "ClearcoatNormal");
   ("Extensions.Sheen", "KHR_materials_sheen", "sheenColorTexture", "SheenColor");
   ("Extensions.Sheen", "KHR_materials_sheen", "sheenRoughnessTexture", "SheenRoughness");
   ("Extensions.Volume", "KHR_materials_volume", "thicknessTexture", "Thickness");
   ("Extensions.Transmission", "KHR_materials_transmission", "transmissionTexture", "Transmission")]%string.
(** The value of a key in a list of pairs; the first one counts. *)
Fixpoint value {A} (k : string) (l : list (string * A)) : option A :=
  match l with [] => None | (k', v) :: r => if String.eqb k k' then Some v else value k r end.
Definition named (k : string) (l : list (string * string)) : string := match value k l with Some n => n | None => ""%string end.
Definition turned_on (e : matex2 Q) (flag : string) : bool := match value flag (exParams e) with Some (PBool b) => b | _ => false end.
(** All names of textures of a material. *)
Definition names_of (m : material Q) : list string :=
  mtTexture m :: mtBump m ::
  match mtEx2 m with
  | Some e => if String.eqb (exName e) "glTF"
              then flat_map (fun x => match x with (flag, _, _, mp) => if turned_on e flag then [named mp (exMapping e)] else [] end) extension_textures
              else []
  | None => []
  end.
(** The number of the texture at an entry of an extension. *)
Definition entry_texture (t : tmat) (x key : string) : option nat :=
  match value x (tmExts t) with
  | Some l => match value key l with Some (XTex i) => Some i | _ => None end
  | None => None
  end.

Section World.
Variables (file : string -> option (list Z)) (decode_tga decode : list Z -> option pic) (resample : Z -> Z -> pic -> pic)
  (png jpeg : pic -> option (list Z)) (join : string -> string) (opts : topts).

Definition jpeg_name (n : string) : bool := existsb (String.eqb (lower (ext n))) [".jpg"; ".jpeg"]%string.
Definition png_name (n : string) : bool := String.eqb (lower (ext n)) ".png".
Definition kind (n : string) : string := if jpeg_name n then "image/jpeg"%string else "image/png"%string.
(** JPEG and PNG files are copied unless they are to be compressed again, all or because of their size. *)
Definition copied (n : string) (bytes : list Z) : Prop :=
  (jpeg_name n = true \/ png_name n = true) /\ toReCompress opts = false /\ (toThreshold opts <= 0 \/ Z.of_nat (length bytes) <= toThreshold opts).
Definition picture (n : string) (bytes : list Z) : option pic := if String.eqb (lower (ext n)) ".tga" then decode_tga bytes else decode bytes.
(** The size of the scaled picture: the scaled width or the limit, whichever is less, and the height in proportion. *)
Definition fit_width (p : pic) : Z :=
  let w := Qfloor (inject_Z (pW p) * toScale opts) in if 0 <? toLimit opts then Z.min w (toLimit opts) else w.
Definition fit_height (p : pic) (h : Z) : Prop :=
  let w := Qfloor (inject_Z (pW p) * toScale opts) in
  h = Qfloor (inject_Z (pH p) * toScale opts * (if (0 <? toLimit opts) && (toLimit opts <? w) then inject_Z (toLimit opts) / inject_Z w else 1)).
Definition fits (p q : pic) : Prop :=
  (q = p /\ pW p = fit_width p /\ fit_height p (pH p)) \/ (exists h, fit_height p h /\ q = resample (fit_width p) h p).
Definition encoded (n : string) (q : pic) : option (list Z) := if jpeg_name n then jpeg q else png q.
(** The image [g] comes from the texture called [n]: its file is in the directory of the document. *)
Definition made_from (n : string) (g : gimage) : Prop :=
  giName g = base_name n /\ giMime g = kind n /\
  exists bytes, file (join n) = Some bytes /\
    ((copied n bytes /\ giData g = bytes) \/
     (~ copied n bytes /\ exists p q, picture n bytes = Some p /\ fits p q /\ encoded n q = Some (giData g))).
(** There is no such image: there is no file, or it cannot be decoded, or the picture cannot be encoded. *)
Definition fails (n : string) : Prop :=
  file (join n) = None \/
  exists bytes, file (join n) = Some bytes /\ ~ copied n bytes /\
    (picture n bytes = None \/ exists p q, picture n bytes = Some p /\ fits p q /\ encoded n q = None).

(** The texture number [o] shows the texture called [n]; [used] are the names of the textures of the document. *)
Definition shows (used : list string) (n : string) (o : option nat) : Prop :=
  match o with
  | Some i => n <> ""%string /\ nth_error used i = Some n
  | None => n = ""%string \/ fails n
  end.
(** A material with its textures. *)
Definition textured (used : list string) (m : material Q) (t : tmat) : Prop :=
  shows used (mtTexture m) (tmBase t) /\ shows used (mtBump m) (tmNormal t) /\
  forall flag x key mp, In (flag, x, key, mp) extension_textures ->
    match mtEx2 m with
    | Some e => if String.eqb (exName e) "glTF" && turned_on e flag
                then shows used (named mp (exMapping e)) (entry_texture t x key)
                else entry_texture t x key = None
    | None => entry_texture t x key = None
    end.
(** The textures and images of the document are those of the names, once each. *)
Definition texture_list (used : list string) (st : tstate) : Prop :=
  NoDup used /\ length (tsTextures st) = length used /\ length (tsImages st) = length used /\
  forall i n, nth_error used i = Some n ->
    exists j g, nth_error (tsTextures st) i = Some j /\ nth_error (tsImages st) j = Some g /\ made_from n g /\ (forall i', nth_error (tsTextures st) i' = Some j -> i' = i).
End World.
