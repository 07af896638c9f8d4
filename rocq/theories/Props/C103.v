(** C103: textures of exported documents. *)
From Coq Require Import String Ascii List ZArith QArith Bool.
From Verif.Model Require Import Num Vec Matrix Mqo MqoDoc Gltf Mqo2Gltf Cli Mqo2GltfTextures.
From Verif.Spec Require Import TextureSpec.
From Verif.Proofs Require Import TextureProofs.
Import ListNotations.
Local Open Scope Z_scope.
Local Open Scope list_scope.

(** For all lists of materials whose textures have relative names: textures and images are those of the names that could be read, once each, made from
    their files, and the slots of materials show the textures they name; a slot is empty only if no texture is named or it cannot be read. *)
Theorem C103_textures_partial : forall file decode_tga decode resample png jpeg join opts,
  (0 < toScale opts)%Q -> (forall n b p, picture decode_tga decode n b = Some p -> 0 <= pW p /\ 0 <= pH p) ->
  forall o99 rough ms ts st, Forall (fun p => Forall (fun n => is_abs n = false) (names_of (fst p))) ms ->
  convert_tmats file decode_tga decode resample png jpeg join opts o99 rough ts0 ms = Some (ts, st) ->
  exists used, texture_list file decode_tga decode resample png jpeg join opts used st /\ (forall n, In n used -> exists m r, In (m, r) ms /\ In n (names_of m)) /\
    Forall2 (fun p t => textured file decode_tga decode resample png jpeg join opts used (fst p) t) ms ts.
Proof. exact textures_ok. Qed.
Print Assumptions C103_textures_partial.

(** The same for the materials of a whole document. *)
Theorem C103_document_partial : forall file decode_tga decode resample png jpeg join opts scale centi eps ignore o99 rough d bones sets ts st,
  (0 < toScale opts)%Q -> (forall n b p, picture decode_tga decode n b = Some p -> 0 <= pW p /\ 0 <= pH p) ->
  Forall (fun m => Forall (fun n => is_abs n = false) (names_of m)) (dMaterials d) ->
  export_materials file decode_tga decode resample png jpeg join opts scale centi eps ignore o99 rough d bones sets = Some (ts, st) ->
  exists used, texture_list file decode_tga decode resample png jpeg join opts used st /\ (forall n, In n used -> exists m, In m (dMaterials d) /\ In n (names_of m)) /\
    Forall (fun t => exists m, In m (dMaterials d) /\ gtName (tmMat t) = mtName m /\ textured file decode_tga decode resample png jpeg join opts used m t) ts.
Proof. exact document_textures. Qed.
Print Assumptions C103_document_partial.

(** A texture that can be read is there. *)
Theorem C103_present : forall file decode_tga decode resample png jpeg join opts used n o bytes p, shows file decode_tga decode resample png jpeg join opts used n o ->
  (forall q, png q <> None /\ jpeg q <> None) -> n <> ""%string -> file (join n) = Some bytes -> picture decode_tga decode n bytes = Some p ->
  exists i, o = Some i /\ nth_error used i = Some n.
Proof. exact shows_present. Qed.
Print Assumptions C103_present.

(** Two materials with the same texture, one of them with bumps from a bitmap, which is encoded as PNG; a texture without file; and a glTF material with
    a texture of an extension.  Pictures are bytes of their width and height here. *)
Definition C103_file (p : string) : option (list Z) :=
  if String.eqb p "dir/skin.png" then Some [8; 8] else if String.eqb p "dir/tex/bump.BMP" then Some [4; 6] else if String.eqb p "/abs/a.bmp" then Some [2; 2]
  else if String.eqb p "/abs/a.png" then Some [2; 2] else if String.eqb p "dir/tall.gif" then Some [4; 100] else None.
Definition C103_decode (b : list Z) : option pic := match b with [w; h] => Some (mkPic w h MNRGBA (fun _ _ => true)) | _ => None end.
Definition C103_resample (w h : Z) (p : pic) : pic := mkPic w h MRGBA (pOpaque p).
Definition C103_png (p : pic) : option (list Z) := Some [pW p; pH p].
Definition C103_join (n : string) : string := ("dir/" ++ n)%string.
Definition C103_opts : topts := mkTO false 0 5 (1 # 2) false false.
Definition C103_mat (nm tex bump : string) (e : option (matex2 Q)) : material Q :=
  mkMat nm 0 (mkV4 1 1 1 1)%Q 1%Q 1%Q 0%Q 0%Q 5%Q tex bump "" None false 0 e.
Definition C103_ex : matex2 Q := mkEx2 "hlsl" "glTF" [("Extensions.Sheen"%string, PBool true)] [("SheenColor"%string, "skin.png"%string)] [].
Definition C103_mats : list (material Q * option uvrect) :=
  [(C103_mat "a" "skin.png" "tex/bump.BMP" None, None); (C103_mat "b" "lost.png" "" None, None); (C103_mat "c" "skin.png" "" (Some C103_ex), None)].
Definition C103_run (ms : list (material Q * option uvrect)) :=
  convert_tmats C103_file C103_decode C103_decode C103_resample C103_png C103_png C103_join C103_opts (99 # 100) (4 # 10) ts0 ms.
Example C103_example : exists ts st, C103_run C103_mats = Some (ts, st) /\
  tsImages st = [mkImg "skin.png" "image/png" [8; 8]; mkImg "bump.BMP" "image/png" [2; 3]] /\
  map tmBase ts = [Some 0%nat; None; Some 0%nat] /\ map tmNormal ts = [Some 1%nat; None; None] /\
  map tmExts ts = [[]; []; [("KHR_materials_sheen"%string, [("sheenColorTexture"%string, XTex 0%nat)])]] /\
  Forall (fun p => Forall (fun n => is_abs n = false) (names_of (fst p))) C103_mats.
Proof. do 2 eexists. split; [vm_compute; reflexivity|]. repeat (split; [reflexivity|]). repeat constructor. Qed.

(** Refuted: the path of a texture may be absolute, and the file is found, but the pictures to be encoded are looked for below the directory of the document. *)
Theorem C103_absolute_refuted : exists ts st, C103_run [(C103_mat "a" "/abs/a.png" "" None, None); (C103_mat "b" "/abs/a.bmp" "" None, None)] = Some (ts, st) /\
  C103_file "/abs/a.bmp" <> None /\ map tmBase ts = [Some 0%nat; None].
Proof. do 2 eexists. split; [vm_compute; reflexivity|]. split; [discriminate|reflexivity]. Qed.
Print Assumptions C103_absolute_refuted.
