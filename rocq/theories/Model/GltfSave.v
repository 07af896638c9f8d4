(** [cmd/modelconv/main.go] 84-90 and 223-237: glTF to .gltf, with the files that are written.  Of a document there are buffers, views and images as in GltfPack.v.  Trusted of the library
    github.com/qmuntal/gltf: Save writes the document with the addresses as they are, then the data of each buffer that has some and is not written out in its address into the file with this
    address beside the document; Open reads the same files; addresses are relative paths without double dots.  Names are cleaned paths of Unix. *)
From Coq Require Import String Ascii List ZArith Bool.
From Verif.Model Require Import Cli GltfPack.
Import ListNotations.
Local Open Scope string_scope.
Local Open Scope list_scope.

(** A .gltf document on the disk is its buffer addresses, views and images. *)
Inductive dfile := DData (l : list Z) | DDoc (uris : list string) (views : list kview) (images : list kimage).
Definition disk : Type := list (list string * dfile).
Fixpoint path_eqb (a b : list string) : bool :=
  match a, b with [], [] => true | x :: a, y :: b => String.eqb x y && path_eqb a b | _, _ => false end.
Fixpoint found (d : disk) (p : list string) : option dfile :=
  match d with (q, f) :: r => if path_eqb q p then Some f else found r p | [] => None end.
(** The file with an address beside a document in [dir]. *)
Definition place (dir : list string) (uri : string) : list string := dir ++ split "/" uri.
(** [Buffer.IsEmbeddedResource]. *)
Definition embedded (uri : string) : bool := String.prefix "data:" uri.

Section Save.
(** The contents of an address that is written out. *)
Variable decode : string -> option (list Z).

(** Buffers of [gltf.Save] (main.go 90). *)
Fixpoint write_buffers (d : disk) (dir : list string) (l : list kbuf) : disk :=
  match l with
  | [] => d
  | b :: r => write_buffers (if embedded (kbUri b) || match kbData b with [] => true | _ => false end then d else (place dir (kbUri b), DData (kbData b)) :: d) dir r
  end.
(** main.go 84-90. *)
Definition save_gltf (d : disk) (dir : list string) (name : string) (doc : kdoc) : disk :=
  let bufs := name_buffers name (kdBufs doc) in
  write_buffers ((dir ++ [name], DDoc (map kbUri bufs) (kdViews doc) (kdImages doc)) :: d) dir bufs.

(** [gltf.Open] (gltfutil/gltf_utils.go 17-19). *)
Definition open_buffer (d : disk) (dir : list string) (uri : string) : option kbuf :=
  if embedded uri then option_map (mkKB uri) (decode uri)
  else match found d (place dir uri) with Some (DData l) => Some (mkKB uri l) | _ => None end.
Fixpoint open_buffers (d : disk) (dir : list string) (l : list string) : option (list kbuf) :=
  match l with
  | [] => Some []
  | u :: r => match open_buffer d dir u, open_buffers d dir r with Some b, Some bs => Some (b :: bs) | _, _ => None end
  end.
Definition open_gltf (d : disk) (dir : list string) (name : string) : option kdoc :=
  match found d (dir ++ [name]) with
  | Some (DDoc uris views images) => option_map (fun bs => mkKD bs views images) (open_buffers d dir uris)
  | _ => None
  end.

(** glTF to .gltf (main.go 224-236); [change] is what ApplyTransform does to the data of the buffers. *)
Definition convert_gltf (d : disk) (change : list Z -> list Z) (indir : list string) (inname : string) (outdir : list string) (outname : string) : option disk :=
  match open_gltf d indir inname with
  | None => None
  | Some doc => Some (save_gltf d outdir outname (mkKD (map (fun b => mkKB (kbUri b) (change (kbData b))) (kdBufs doc)) (kdViews doc) (kdImages doc)))
  end.
End Save.
