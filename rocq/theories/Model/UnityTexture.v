(** [converter/unity2mqo.go] 305-325: saving the textures of a scene beside the project or the package; [cmd/modelconv/main.go] 382-390: where they are looked for
    afterwards.  Paths are those of Unix, see UnityPackage.v. *)
From Coq Require Import String Ascii List Bool.
From Verif.Model Require Import Cli UnityPackage UnityProject.
Import ListNotations.
Local Open Scope string_scope.
Local Open Scope list_scope.

(** [os.Mkdir] with the error ignored (unity2mqo.go 309). *)
Definition mkdir (fs : fsys) (p : path) : fsys :=
  match stat fs p with
  | Some _ => fs
  | None => match stat fs (removelast p) with Some FDir => (p, FDir) :: fs | _ => fs end
  end.
(** [filepath.Base] of the path of an asset (unity2mqo.go 307-308); paths of assets are not empty and do not end in a slash. *)
Definition base_of (p : string) : string := last (split "/"%char p) "".
Definition saved_name (guid p : string) : string := (guid ++ "_" ++ base_of p)%string.
(** The name in the document (unity2mqo.go 308). *)
Definition texture_ref (guid p : string) : string := ("saved_textures/" ++ saved_name guid p)%string.

Section Save.
(** [Assets.Open] of a path: what can be read, and whether reading comes to the end of the file without an error; the files of the assets are taken to stay as they
    are.  [src] is [filepath.Dir] of the source path (unity2mqo.go 306). *)
Variable open : string -> option (string * bool).
Variable src : path.
(** [saveTexrure] (unity2mqo.go 305-325): the name and whether there was no error. *)
Definition save_texture (fs : fsys) (guid p : string) : fsys * (string * bool) :=
  let dir := join src "saved_textures" in
  let place := join dir (saved_name guid p) in
  let fs1 := mkdir fs dir in
  match stat fs1 place with
  | Some _ => (fs1, (texture_ref guid p, true))
  | None => match open p with
            | None => (fs1, ("", false))
            | Some (data, whole) => match create fs1 place data with
                                    | None => (fs1, ("", false))
                                    | Some fs2 => (fs2, (texture_ref guid p, whole))
                                    end
            end
  end.
(** The calls for one scene after another (unity2mqo.go 134 and 144); errors are only logged and the name is set in either case. *)
Fixpoint save_all (fs : fsys) (l : list (string * string)) : fsys * list (string * bool) :=
  match l with
  | [] => (fs, [])
  | (g, p) :: r => let '(fs1, x) := save_texture fs g p in let '(fs2, xs) := save_all fs1 r in (fs2, x :: xs)
  end.
End Save.

(** The argument after main.go 382-389, [filepath.Dir] of which is the base directory (390); [None]: the index out of range of [input[p:]] with [p] = -1. *)
Definition base_input (input : string) : option string :=
  if match trim_suffix ".unitypackage" input with Some _ => true | None => false end then Some input
  else match split2 "#"%char input with
       | Some ab => Some (fst ab)
       | None => match before_first "Assets/" input with Some d => Some (d ++ "Assets")%string | None => None end
       end.
