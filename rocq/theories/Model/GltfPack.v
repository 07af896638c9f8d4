(** Writing a glTF document into one file: [gltfutil/gltf_utils.go] 21-79 and [saveGltfDocument] of [cmd/modelconv/main.go].
    Of a document there are the buffers, the buffer views and the images.  Files are read under their absolute place; there are no
    symbolic links.  [modeler.WriteBufferView] of the library appends to the last buffer, or to a new one if there is none,
    with any number [pad] of filling bytes in front; the field [ByteLength] follows the data. *)
From Coq Require Import String Ascii List ZArith Bool.
From Verif.Model Require Import Num Vec Matrix Mqo MqoDoc Mqo2Gltf Cli Mqo2GltfTextures.
Import ListNotations.
Local Open Scope string_scope.
Local Open Scope list_scope.

(** [gltf.Buffer], [gltf.BufferView] and [gltf.Image]; indices that are not there are [None]. *)
Record kbuf := mkKB { kbUri : string; kbData : list Z }.
Record kview := mkKV { kvBuf : nat; kvOff : nat; kvLen : nat }.
Record kimage := mkKI { kiUri : string; kiMime : string; kiView : option nat }.
Record kdoc := mkKD { kdBufs : list kbuf; kdViews : list kview; kdImages : list kimage }.

(** [filepath.Clean]: the elements of the path; [st] are those so far, the last first. *)
Fixpoint clean_go (abs : bool) (st l : list string) : list string :=
  match l with
  | [] => rev st
  | e :: r =>
      if String.eqb e "" || String.eqb e "." then clean_go abs st r
      else if String.eqb e ".." then
        match st with
        | [] => clean_go abs (if abs then [] else [".."]) r
        | x :: st' => clean_go abs (if String.eqb x ".." then ".." :: st else st') r
        end
      else clean_go abs (e :: st) r
  end.
Definition clean (s : string) : list string := clean_go (is_abs s) [] (split "/" s).

(** [filepath.Rel] as used in gltf_utils.go 55: [None] is an error, whose path is empty. *)
Fixpoint strip (b t : list string) : list string * list string :=
  match b, t with x :: b', y :: t' => if String.eqb x y then strip b' t' else (b, t) | _, _ => (b, t) end.
Definition rel (base targ : string) : option (list string) :=
  if Bool.eqb (is_abs base) (is_abs targ) then
    let '(b, t) := strip (clean base) (clean targ) in
    if match b with x :: _ => String.eqb x ".." | [] => false end then None else Some (repeat ".." (length b) ++ t)
  else None.

(** How the system finds a file from the directory [at_]. *)
Fixpoint walk (at_ : list string) (l : list string) : list string :=
  match l with
  | [] => at_
  | e :: r => walk (if String.eqb e "" || String.eqb e "." then at_ else if String.eqb e ".." then removelast at_ else at_ ++ [e]) r
  end.

Section Pack.
(** The files by place, the working directory, and the padding of the library. *)
Variables (file : list string -> option (list Z)) (cwd : list string) (pad : nat -> nat).

(** The place that is opened (gltf_utils.go 55-56). *)
Definition opened (srcDir uri : string) : option (list string) := option_map (walk cwd) (rel srcDir uri).

(** [modeler.WriteBufferView] (gltf_utils.go 74). *)
Definition write_view (d : kdoc) (data : list Z) : kdoc * nat :=
  let bufs := match kdBufs d with [] => [mkKB "" []] | l => l end in
  let i := (length bufs - 1)%nat in
  let b := last bufs (mkKB "" []) in
  let off := (length (kbData b) + pad (length (kbData b)))%nat in
  (mkKD (removelast bufs ++ [mkKB (kbUri b) (kbData b ++ repeat 0%Z (pad (length (kbData b))) ++ data)])
        (kdViews d ++ [mkKV i off (length data)]) (kdImages d), length (kdViews d)).

(** 67-73. *)
Definition mime_of (img : kimage) : string :=
  if String.eqb (kiMime img) "" then (if has_suffix ".png" (lower (kiUri img)) then "image/png" else "image/jpeg") else kiMime img.

(** One image (54-76): the buffers and views of [d], and the image. *)
Definition pack_image (srcDir : string) (d : kdoc) (img : kimage) : kdoc * kimage :=
  match kiView img with
  | Some _ => (d, img)
  | None =>
      if String.eqb (kiUri img) "" then (d, img)
      else match match opened srcDir (kiUri img) with Some p => file p | None => None end with
           | None => (d, img)
           | Some data => let '(d', v) := write_view d data in (d', mkKI "" (mime_of img) (Some v))
           end
  end.
Fixpoint pack_images (srcDir : string) (d : kdoc) (l : list kimage) : kdoc * list kimage :=
  match l with
  | [] => (d, [])
  | i :: r => let '(d1, i') := pack_image srcDir d i in let '(d2, r') := pack_images srcDir d1 r in (d2, i' :: r')
  end.
(** [ToSingleFile] (49-79); it gives no error. *)
Definition to_single_file (srcDir : string) (d : kdoc) : kdoc :=
  let d1 := mkKD (map (fun b => mkKB "" (kbData b)) (kdBufs d)) (kdViews d) (kdImages d) in
  let '(d2, l) := pack_images srcDir d1 (kdImages d) in mkKD (kdBufs d2) (kdViews d2) l.
End Pack.

(** The names of buffers of a .gltf file (main.go 85-89). *)
Definition stem (output : string) : string :=
  let b := base_name output in
  let e := ext output in
  if has_suffix e b then substring 0 (String.length b - String.length e) b else b.
Definition bin_name (output : string) (i : nat) : string := (stem output ++ dec i ++ ".bin")%string.
Fixpoint name_buffers_from (output : string) (i : nat) (l : list kbuf) : list kbuf :=
  match l with
  | [] => []
  | b :: r => (if String.eqb (kbUri b) "" then mkKB (bin_name output i) (kbData b) else b) :: name_buffers_from output (S i) r
  end.
Definition name_buffers (output : string) (l : list kbuf) : list kbuf := name_buffers_from output 0 l.

(** *** Extensions *)

(** [gltf.Extensions] by name: the keys of the map. *)
Definition exts := list string.
(** The parts of a document that have extensions; those of primitives are in the order of the meshes. *)
Record kexts := mkKE { keAccessors : list exts; keAnimations : list exts; keMaterials : list exts; keNodes : list exts; keSkins : list exts;
  keCameras : list exts; keSamplers : list exts; keScenes : list exts; keMeshes : list exts; kePrimitives : list exts; keTextures : list exts;
  keImages : list exts; keBuffers : list exts; keViews : list exts; keDoc : exts; keUsed : list string }.
Definition del (n : string) (e : exts) : exts := filter (fun x => negb (String.eqb x n)) e.
(** [RemoveExtension] (21-47). *)
Definition remove_extension (n : string) (k : kexts) : kexts :=
  mkKE (map (del n) (keAccessors k)) (map (del n) (keAnimations k)) (map (del n) (keMaterials k)) (map (del n) (keNodes k)) (map (del n) (keSkins k))
       (map (del n) (keCameras k)) (map (del n) (keSamplers k)) (map (del n) (keScenes k)) (keMeshes k) (kePrimitives k) (keTextures k)
       (keImages k) (keBuffers k) (keViews k) (del n (keDoc k)) (keUsed k).
