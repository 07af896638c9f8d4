(** What a glTF document in one file is. *)
From Coq Require Import String Ascii List ZArith Bool.
From Verif.Model Require Import Cli GltfPack.
From Verif.Spec Require Import CliSpec.
Import ListNotations.
Local Open Scope string_scope.
Local Open Scope list_scope.

(** The place of the path [p], seen from the directory [c]: elements are applied one after the other. *)
Inductive goes : list string -> list string -> list string -> Prop :=
| goes_end c : goes c [] c
| goes_stay c e l d : e = "" \/ e = "." -> goes c l d -> goes c (e :: l) d
| goes_root l d : goes [] l d -> goes [] (".." :: l) d
| goes_up c x l d : goes c l d -> goes (c ++ [x]) (".." :: l) d
| goes_down c e l d : e <> "" -> e <> "." -> e <> ".." -> goes (c ++ [e]) l d -> goes c (e :: l) d.

(** [l] are the elements of the path [s]. *)
Definition elements (s : string) (l : list string) : Prop :=
  l <> [] /\ Forall (fun e => without "/" e) l /\ s = String.concat "/" l.
Definition plain (e : string) : Prop := e <> "" /\ e <> "." /\ e <> "..".
(** A relative path to a file further down. *)
Definition plain_path (s : string) : Prop := exists l, elements s l /\ Forall plain l.

(** The file that a document in the directory [dir], seen from [cwd], means by the relative path [uri]. *)
Definition beside (cwd : list string) (dir uri : string) (p : list string) : Prop :=
  exists ld lu q, elements dir ld /\ elements uri lu /\ goes (if String.prefix "/" dir then [] else cwd) ld q /\ goes q lu p.

(** Directories other than the working directory, as [filepath.Dir] gives them. *)
Definition away (dir : string) : Prop :=
  (exists r, dir = String "/" r) \/ plain_path dir \/ (exists l, elements dir (".." :: l)).

(** The bytes of a view. *)
Definition bytes_of (d : kdoc) (v : nat) (data : list Z) : Prop :=
  exists w b before after, nth_error (kdViews d) v = Some w /\ nth_error (kdBufs d) (kvBuf w) = Some b /\
    kbData b = before ++ data ++ after /\ length before = kvOff w /\ length data = kvLen w.

(** What becomes of an image: [found] is the contents of its file. *)
Inductive packed (found : option (list Z)) (d : kdoc) : kimage -> kimage -> Prop :=
| packed_before img v : kiView img = Some v -> packed found d img img
| packed_none img : kiView img = None -> kiUri img = "" \/ found = None -> packed found d img img
| packed_now img img' data v : kiView img = None -> kiUri img <> "" -> found = Some data ->
    kiUri img' = "" -> kiView img' = Some v -> bytes_of d v data ->
    (kiMime img <> "" -> kiMime img' = kiMime img) ->
    (kiMime img = "" -> forall a e, kiUri img = (a ++ e)%string ->
       (written e ".png" -> kiMime img' = "image/png") /\ (written e ".jpg" \/ written e ".jpeg" -> kiMime img' = "image/jpeg")) ->
    packed found d img img'.

(** Everything is in the one file: no buffer or image is elsewhere; images may be written out in their address (GLB allows one buffer without address). *)
Definition self_contained (d : kdoc) : Prop :=
  length (kdBufs d) <= 1 /\ Forall (fun b => kbUri b = "") (kdBufs d) /\ Forall (fun i => kiUri i = "" \/ exists r, kiUri i = ("data:" ++ r)%string) (kdImages d).

(** The files of the buffers of a document. *)
Definition own_files (l : list kbuf) : Prop := NoDup (map kbUri l).

(** All extensions that some part of the document has. *)
Definition has_extension (k : kexts) (n : string) : Prop :=
  In n (keDoc k) \/ exists e, In n e /\
    In e (keAccessors k ++ keAnimations k ++ keMaterials k ++ keNodes k ++ keSkins k ++ keCameras k ++ keSamplers k ++ keScenes k ++
          keMeshes k ++ kePrimitives k ++ keTextures k ++ keImages k ++ keBuffers k ++ keViews k).
