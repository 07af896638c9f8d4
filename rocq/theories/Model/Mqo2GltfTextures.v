(** [converter/mqo2gltf.go]: the textures of exported materials and the extensions of glTF
    materials.  Numbers are exact rationals.  The file system, the codecs of pictures, the
    resampling and [filepath.Join] are parameters; files do not change while a document is
    converted. *)
From Coq Require Import String Ascii List ZArith QArith Qround Bool.
From Verif.Model Require Import Num Vec Matrix Mqo MqoDoc Normals Mqo2Mmd Gltf Mqo2Gltf Cli.
Import ListNotations.
Local Open Scope Z_scope.
Local Open Scope list_scope.

(** [image.Image]: the size, [ColorModel], and whether a pixel is opaque ([MOther]: models for which [hasAlpha] gives
    false, 320-328; palettes, grey and 16 bit pictures are among them).  Bounds start at (0,0). *)
Inductive cmodel := MRGBA | MNRGBA | MOther.
Record pic := mkPic { pW : Z; pH : Z; pModel : cmodel; pOpaque : Z -> Z -> bool }.

(** The conversion [int(x)] of Go: towards zero. *)
Definition trunc (q : Q) : Z := if Qle_bool 0 q then Qfloor q else - Qfloor (- q).

(** [MQOToGLTFOption] (36-44): what concerns textures.  [toScale] is not 0 (148-150). *)
Record topts := mkTO { toReCompress : bool; toThreshold : Z; toLimit : Z; toScale : Q; toDetect : bool; toForceUnlit : bool }.

(** [gltf.Image] with the bytes of its buffer view. *)
Record gimage := mkImg { giName : string; giMime : string; giData : list Z }.

(** [textureInfo] (64-69): [tiImg] is [img] and [err]; [None]: both nil. *)
Record tinfo := mkTI { tiId : option nat; tiImg : option (option pic) }.
(** [textureCache] (59-62), and the images and textures of the document; a texture is its [Source], its sampler is 0 (413). *)
Record tstate := mkTS { tsCache : list (string * tinfo); tsImages : list gimage; tsTextures : list nat }.
Definition ts0 : tstate := mkTS [] [] [].

(** [get] (108-115); an entry without contents and a missing one are not told apart. *)
Fixpoint cached (l : list (string * tinfo)) (name : string) : tinfo :=
  match l with [] => mkTI None None | (n, t) :: r => if String.eqb n name then t else cached r name end.
Definition set_info (st : tstate) (name : string) (t : tinfo) : tstate :=
  mkTS ((name, t) :: tsCache st) (tsImages st) (tsTextures st).

(** [filepath.IsAbs] and [filepath.Base] (370, 410). *)
Definition is_abs (s : string) : bool := String.prefix "/" s.
Fixpoint base_name (s : string) : string :=
  match s with
  | EmptyString => EmptyString
  | String c r => if has_sep r then base_name r else if Ascii.eqb c "/" then r else s
  end.

(** *** Rectangles of texture coordinates *)

(** [uvrect] (71-73). *)
Record uvrect := mkRect { rTop : Q; rBottom : Q; rLeft : Q; rRight : Q }.
(** [x - math.Floor(x)] (76, 82). *)
Definition frac (x : Q) : Q := Qred (x - inject_Z (Qfloor x)).
(** [newUVRectFromPoint] (75-79). *)
Definition rect_of (p : vec2 Q) : uvrect := let x := frac (v2x p) in let y := frac (v2y p) in mkRect y y x x.
Definition qltb (a b : Q) : bool := negb (Qle_bool b a).
(** [Add] (81-96). *)
Definition rect_add (b : uvrect) (p : vec2 Q) : uvrect :=
  let x := frac (v2x p) in
  let y := frac (v2y p) in
  mkRect (if qltb y (rTop b) then y else rTop b) (if qltb (rBottom b) y then y else rBottom b)
         (if qltb x (rLeft b) then x else rLeft b) (if qltb (rRight b) x then x else rRight b).

(** [uvBounds] (749): by number of the material in the MQO document. *)
Definition bounds : Type := list (Z * uvrect).
Fixpoint bound (l : bounds) (k : Z) : option uvrect :=
  match l with [] => None | (k', b) :: r => if k' =? k then Some b else bound r k end.
Definition set_bound (l : bounds) (k : Z) (b : uvrect) : bounds := (k, b) :: l.

Section Bounds.
Variables (scale centi eps : Q) (force_unlit : bool).
(** The corners of a face with texture coordinates (624-652), with the rectangle: a corner that uses a known vertex adds
    nothing to it (637), a new one is noted in [indicesMap] (648) and added (651). *)
Fixpoint corner_bounds (skinned : bool) (f : face Q) (i : nat) (l : list Z) (st : cstate Q) (b : uvrect) : option (cstate Q * uvrect) :=
  match l with
  | [] => Some (st, b)
  | v :: r =>
      match uv_corner eps skinned f i v st, nth_error (fUVs f) i with
      | Some (_, st1), Some u =>
          corner_bounds skinned f (S i) r st1 (if Nat.eqb (length (csMap st1)) (length (csMap st)) then b else rect_add b u)
      | _, _ => None
      end
  end.
(** One face (606-653). *)
Definition face_bounds (mmap : Z -> option Z) (skinned : bool) (f : face Q) (st : cstate Q) (bs : bounds) : option (cstate Q * bounds) :=
  match conv_face eps mmap skinned f st with
  | None => None
  | Some st' =>
      if (length (fVerts f) <? 3)%nat then Some (st', bs)
      else match mmap (fMaterial f), fUVs f with
           | Some _, u0 :: _ =>
               let b := match bound bs (fMaterial f) with Some b => b | None => rect_of u0 end in
               match corner_bounds skinned f 0 (fVerts f) (set_use_uv st true) b with
               | Some (_, b') => Some (st', set_bound bs (fMaterial f) b')
               | None => None
               end
           | _, _ => Some (st', bs)
           end
  end.
Fixpoint faces_bounds (mmap : Z -> option Z) (skinned : bool) (fs : list (face Q)) (st : cstate Q) (bs : bounds) : option (cstate Q * bounds) :=
  match fs with
  | [] => Some (st, bs)
  | f :: r => match face_bounds mmap skinned f st bs with
              | Some (st1, bs1) => faces_bounds mmap skinned r st1 bs1
              | None => None
              end
  end.
(** [ConvertObject] (585-663), for the rectangles. *)
Definition object_bounds (bones : list (bone Q)) (mmap : Z -> option Z) (o : object Q) (bs : bounds) : option bounds :=
  match fixh_normals o with
  | None => None
  | Some o1 =>
      match triangulate_object o1 with
      | None => None
      | Some o2 =>
          match get_weights centi o2 bones with
          | None => None
          | Some (ids, inf) =>
              let skinned := negb (Nat.eqb (length ids) 0) in
              let vs := map (v3scaled scale) (oVerts o2) in
              option_map snd
                (faces_bounds mmap skinned (oFaces o2)
                   (mkCS vs (map Z.of_nat (seq 0 (length vs))) (repeat v2zero (length vs)) (repeat v3zero (length vs))
                         (if skinned then inf else []) [] false []) bs)
          end
      end
  end.
(** The loop over the objects (820-847), for the rectangles. *)
Fixpoint all_bounds (bones : list (bone Q)) (mmap : Z -> option Z) (os : list (object Q)) (bs : bounds) : option bounds :=
  match os with
  | [] => Some bs
  | o :: r => if oVisible o
              then match object_bounds bones mmap o bs with Some bs1 => all_bounds bones mmap r bs1 | None => None end
              else all_bounds bones mmap r bs
  end.
End Bounds.

Section Textures.
(** [os.Open]: the bytes of a file; [tga.Decode], [image.Decode]; [draw.CatmullRom.Scale] into a picture of the given size;
    [png.Encode], [jpeg.Encode]; [filepath.Join(srcDir, name)]. *)
Variables (file : string -> option (list Z)) (decode_tga decode : list Z -> option pic) (resample : Z -> Z -> pic -> pic)
  (png jpeg : pic -> option (list Z)) (join : string -> string) (opts : topts).

(** [getImage] (117-136). *)
Definition load_image (name : string) : option pic :=
  match file (join name) with
  | None => None
  | Some bytes => if String.eqb (lower (ext name)) ".tga" then decode_tga bytes else decode bytes
  end.
Definition get_image (st : tstate) (name : string) : option pic * tstate :=
  match tiImg (cached (tsCache st) name) with
  | Some r => (r, st)
  | None => let r := load_image name in (r, set_info st name (mkTI (tiId (cached (tsCache st) name)) (Some r)))
  end.

(** The pixels of the rectangle (308-321); [SubImage] cuts off what is outside of the picture. *)
Definition zseq (a b : Z) : list Z := map (fun i => a + Z.of_nat i) (seq 0 (Z.to_nat (b - a))).
Definition cell (n : Z) (x : Q) : Z := trunc (inject_Z n * x).
(** [Opaque] of an area. *)
Definition opaque_in (p : pic) (x0 y0 x1 y1 : Z) : bool :=
  forallb (fun y => forallb (fun x => pOpaque p x y) (zseq (Z.max 0 x0) (Z.min (pW p) x1))) (zseq (Z.max 0 y0) (Z.min (pH p) y1)).
(** [hasAlpha] (300-329). *)
Definition pic_alpha (p : pic) (rect : option uvrect) : bool :=
  match pModel p with
  | MOther => false
  | _ => negb (match rect with
               | Some r => opaque_in p (cell (pW p) (rLeft r)) (cell (pH p) (rTop r)) (cell (pW p) (rRight r)) (cell (pH p) (rBottom r))
               | None => opaque_in p 0 0 (pW p) (pH p)
               end)
  end.
Definition has_alpha (st : tstate) (texture : string) (rect : option uvrect) : bool * tstate :=
  if String.eqb texture "" || has_suffix ".jpg" texture || has_suffix ".bmp" texture then (false, st)
  else let (r, st1) := get_image st texture in
       (match r with None => false | Some p => pic_alpha p rect end, st1).

(** The size and the scaled picture (338-350). *)
Definition final_scale (p : pic) : Q :=
  let sz := trunc (inject_Z (pW p) * toScale opts) in
  if (0 <? toLimit opts) && (toLimit opts <? sz) then (toScale opts * (inject_Z (toLimit opts) / inject_Z sz))%Q else toScale opts.
Definition scaled_picture (p : pic) : pic :=
  let s := final_scale p in
  if Qeq_bool s 1 then p else resample (trunc (inject_Z (pW p) * s)) (trunc (inject_Z (pH p) * s)) p.
(** [scaleTexture] (331-361). *)
Definition scale_texture (st : tstate) (texture mime : string) : option (list Z) * tstate :=
  let (r, st1) := get_image st texture in
  (match r with
   | None => None
   | Some p => if String.eqb mime "image/png" then png (scaled_picture p) else jpeg (scaled_picture p)
   end, st1).

(** [mimeType] and what is encoded anyway (385-393). *)
Definition mime_of (texture : string) : string * bool :=
  let e := lower (ext texture) in
  if String.eqb e ".jpg" || String.eqb e ".jpeg" then ("image/jpeg"%string, false)
  else if String.eqb e ".png" then ("image/png"%string, false) else ("image/png"%string, true).
(** The bytes of the image (369-408). *)
Definition image_data (st : tstate) (texture : string) : option (list Z) * tstate :=
  let path := if is_abs texture then texture else join texture in
  let (mime, must) := mime_of texture in
  match (if 0 <? toThreshold opts
         then match file path with
              | None => None
              | Some b => Some (toReCompress opts || (toThreshold opts <? Z.of_nat (length b)))
              end
         else Some (toReCompress opts)) with
  | None => (None, st)
  | Some enc => if enc || must then scale_texture st texture mime else (file path, st)
  end.
(** [addTexture] (363-420). *)
Definition add_texture (st : tstate) (texture : string) : option nat * tstate :=
  match tiId (cached (tsCache st) texture) with
  | Some i => (Some i, st)
  | None =>
      let (d, st1) := image_data st texture in
      match d with
      | None => (None, st1)
      | Some bytes =>
          let id := length (tsTextures st1) in
          let st2 := mkTS (tsCache st1) (tsImages st1 ++ [mkImg (base_name texture) (fst (mime_of texture)) bytes])
                          (tsTextures st1 ++ [length (tsImages st1)]) in
          (Some id, set_info st2 texture (mkTI (Some id) (tiImg (cached (tsCache st1) texture))))
      end
  end.
(** [tryAddTexture] (422-432). *)
Definition try_texture (st : tstate) (texture : string) : option nat * tstate :=
  if String.eqb texture "" then (None, st) else add_texture st texture.

(** *** Extensions of materials *)

(** Numbers, colours and textures of extensions (481-566): the key, and the parameter or mapping of the material. *)
Inductive extfield := FNum (key param : string) | FColor (key param : string) | FTex (key mapping : string).
Inductive extval := XNum (x : Q) | XColor (c : list Q) | XTex (i : nat).
(** The parameter that turns an extension on, its name, and its fields in order. *)
Definition gltf_exts : list (string * string * list extfield) :=
  [("Extensions.SpecularExt", "KHR_materials_specular",
     [FNum "specularFactor" "Extensions.SpecularFactor"; FColor "specularColorFactor" "Extensions.SpecularColorFactor";
      FTex "specularTexture" "Specular"; FTex "specularColorTexture" "SpecularColor"]);
   ("Extensions.Clearcoat", "KHR_materials_clearcoat",
     [FNum "clearcoatFactor" "Extensions.ClearcoatFactor"; FNum "clearcoatRoughnessFactor" "Extensions.ClearcoatRoughnessFactor";
      FTex "clearcoatTexture" "Clearcoat"; FTex "clearcoatRoughnessTexture" "ClearcoatRoughness"; FTex "clearcoatNormalTexture" "ClearcoatNormal"]);
   ("Extensions.Sheen", "KHR_materials_sheen",
     [FColor "sheenColorFactor" "Extensions.SheenColorFactor"; FNum "sheenRoughnessFactor" "Extensions.SheenRoughnessFactor";
      FTex "sheenColorTexture" "SheenColor"; FTex "sheenRoughnessTexture" "SheenRoughness"]);
   ("Extensions.IorExt", "KHR_materials_ior", [FNum "ior" "Extensions.Ior"]);
   ("Extensions.Volume", "KHR_materials_volume",
     [FNum "thicknessFactor" "Extensions.ThicknessFactor"; FNum "attenuationDistance" "Extensions.AttenuationDistance";
      FColor "attenuationColor" "Extensions.AttenuationColor"; FTex "thicknessTexture" "Thickness"]);
   ("Extensions.Transmission", "KHR_materials_transmission",
     [FNum "transmissionFactor" "Extensions.TransmissionFactor"; FTex "transmissionTexture" "Transmission"])]%string.

(** [ColorParam], [Mapping] (mqo/mqo.go 215-227). *)
Definition color_param (e : matex2 Q) (k : string) : option (list Q) := match param_of (exParams e) k with Some (PColor c) => Some c | _ => None end.
Fixpoint mapping (l : list (string * string)) (k : string) : string :=
  match l with [] => ""%string | (k', v) :: r => if String.eqb k' k then v else mapping r k end.
(** One field; [None]: the slice [c[0:3]] of a shorter colour is a panic. *)
Definition ext_field (e : matex2 Q) (st : tstate) (f : extfield) : option (list (string * extval) * tstate) :=
  match f with
  | FNum k p => let v := float_param e p in Some (if Qeq_bool v 0 then [] else [(k, XNum v)], st)
  | FColor k p => match color_param e p with
                  | None => Some ([], st)
                  | Some c => if (length c <? 3)%nat then None else Some ([(k, XColor (firstn 3 c))], st)
                  end
  | FTex k m => let (t, st1) := try_texture st (mapping (exMapping e) m) in
                Some (match t with Some i => [(k, XTex i)] | None => [] end, st1)
  end.
Fixpoint ext_fields (e : matex2 Q) (st : tstate) (fs : list extfield) : option (list (string * extval) * tstate) :=
  match fs with
  | [] => Some ([], st)
  | f :: r => match ext_field e st f with
              | None => None
              | Some (l, st1) => match ext_fields e st1 r with Some (l', st2) => Some (l ++ l', st2) | None => None end
              end
  end.
Fixpoint mat_exts (e : matex2 Q) (st : tstate) (xs : list (string * string * list extfield)) : option (list (string * list (string * extval)) * tstate) :=
  match xs with
  | [] => Some ([], st)
  | (flag, name, fs) :: r =>
      if bool_param e flag
      then match ext_fields e st fs with
           | None => None
           | Some (l, st1) => match mat_exts e st1 r with Some (l', st2) => Some ((name, l) :: l', st2) | None => None end
           end
      else mat_exts e st r
  end.

(** A material with its textures and extensions (except KHR_materials_unlit, which is [gtUnlit]). *)
Record tmat := mkTM { tmMat : gmat Q; tmBase : option nat; tmNormal : option nat; tmExts : list (string * list (string * extval)) }.
(** [convertMaterial] (434-583); [opaque99] and [rough] are 0.99 and 0.4. *)
Definition convert_tmat (opaque99 rough : Q) (st : tstate) (m : material Q) (rect : option uvrect) : option (tmat * tstate) :=
  let rest al xs st :=
    let (b, st1) := try_texture st (mtTexture m) in
    let (n, st2) := try_texture st1 (mtBump m) in
    (mkTM (convert_material (toForceUnlit opts) opaque99 rough (fun _ => al) m) b n xs, st2) in
  match (match mtEx2 m with Some e => if String.eqb (exName e) "glTF" then Some e else None | None => None end) with
  | Some e => option_map (fun r => rest false (fst r) (snd r)) (mat_exts e st gltf_exts)
  | None =>
      if nltb (qw (mtColor m)) opaque99 then Some (rest true [] st)
      else if toDetect opts then let (a, st1) := has_alpha st (mtTexture m) rect in Some (rest a [] st1)
      else Some (rest false [] st)
  end.
(** The loop over the materials (910-916); the rectangles are [uvBounds]. *)
Fixpoint convert_tmats (opaque99 rough : Q) (st : tstate) (ms : list (material Q * option uvrect)) : option (list tmat * tstate) :=
  match ms with
  | [] => Some ([], st)
  | (m, r) :: ms' =>
      match convert_tmat opaque99 rough st m r with
      | None => None
      | Some (t, st1) => match convert_tmats opaque99 rough st1 ms' with Some (l, st2) => Some (t :: l, st2) | None => None end
      end
  end.
(** The samplers (924-926). *)
Definition sampler_count (st : tstate) : nat := match tsTextures st with [] => 0 | _ => 1 end.
End Textures.

(** The materials of the whole document (745-929): of the materials that visible objects use, with the rectangles of their
    faces. *)
Definition export_materials file decode_tga decode resample png jpeg join (opts : topts) (scale centi eps : Q) (ignore : bool) (opaque99 rough : Q)
  (d : document Q) (bones : list (bone Q)) (sets : list target_list) : option (list tmat * tstate) :=
  let os := target_objects ignore sets (fix_ids 0 (dObjects d)) in
  let mm := material_map os 0 0 (map (@mtName Q) (dMaterials d)) in
  match all_bounds scale centi eps bones (assoc mm) os [] with
  | None => None
  | Some bs =>
      convert_tmats file decode_tga decode resample png jpeg join opts opaque99 rough ts0
        (map (fun p => (snd p, bound bs (Z.of_nat (fst p))))
             (filter (fun p => match assoc mm (Z.of_nat (fst p)) with Some _ => true | None => false end)
                     (numbered (dMaterials d))))
  end.
