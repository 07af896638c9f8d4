(** [unity/unity_assets.go] (directories of a project), [unity/unity_scene.go] 13-34 and [cmd/modelconv/utils.go] 60-81: from the argument of the command line to the
    scene file.  Paths are those of Unix, absolute and cleaned; an asset path is kept by its elements where it does not come from the command line. *)
From Coq Require Import String Ascii List Bool.
From Verif.Model Require Import Cli UnityPackage.
Import ListNotations.
Local Open Scope string_scope.
Local Open Scope list_scope.

(** [strings.HasPrefix] and [strings.Index]: the part before the first occurrence. *)
Fixpoint has_prefix (pat s : string) : bool :=
  match pat, s with
  | "", _ => true
  | String a p, String b r => Ascii.eqb a b && has_prefix p r
  | String _ _, "" => false
  end.
Fixpoint before_first (pat s : string) : option string :=
  if has_prefix pat s then Some ""
  else match s with
       | "" => None
       | String c r => match before_first pat r with Some d => Some (String c d) | None => None end
       end.
(** [strings.HasSuffix] and [strings.TrimSuffix]. *)
Fixpoint trim_suffix (suf s : string) : option string :=
  if String.eqb s suf then Some ""
  else match s with
       | "" => None
       | String c r => match trim_suffix suf r with Some d => Some (String c d) | None => None end
       end.
Fixpoint drop (n : nat) (s : string) : string := match n, s with O, _ => s | S k, String _ r => drop k r | S _, "" => "" end.

(** [cmd/modelconv/utils.go] 61-69: what to open and the path of the scene in it. *)
Definition unity_names (input : string) : string * string :=
  match split2 "#"%char input with
  | Some ab => ab
  | None => match before_first "Assets/" input with
            | Some d => if String.eqb (lower (ext input)) ".unitypackage" then (input, "") else (d ++ "Assets", drop (String.length d) input)%string
            | None => (input, "")
            end
  end.

(** Elements joined by slashes. *)
Fixpoint slashed (p : path) : string :=
  match p with
  | [] => ""
  | [c] => c
  | c :: r => c ++ "/" ++ slashed r
  end%string.

Section Project.
(** Decoding a meta file: its GUID, [None]: an error. *)
Variable guid_of : string -> option string.
(** The order of [filepath.Walk]: directories in lexical order; left open. *)
Variable order : list path -> list path.

(** The elements of [path] without the suffix (unity_assets.go 284-287, filepath.Rel removes an empty last element); [None]: another suffix. *)
Definition meta_target (p : path) : option path :=
  match trim_suffix ".meta" (last p "") with
  | Some "" => Some (removelast p)
  | Some c => Some (removelast p ++ [c])
  | None => None
  end.
(** [loadMetaFile] (unity_assets.go 256-266). *)
Definition load_meta (fs : fsys) (proj target : path) : option string :=
  match open_file fs (proj ++ removelast target ++ [(last target "" ++ ".meta")%string]) with
  | Some d => guid_of d
  | None => None
  end.
(** [scanAssets] (unity_assets.go 272-302) of the directory [root] with the project directory [proj]: GUID and path in the order of the walk; paths are relative to
    [proj], which is above [root]. *)
Definition visited (fs : fsys) (root : path) : list path := order (nodup (list_eq_dec string_dec) (filter (under root) (map fst fs))).
Definition scan_assets (fs : fsys) (proj root : path) : list (string * path) :=
  flat_map (fun p => match meta_target (skipn (length proj) p) with
                     | Some t => match load_meta fs proj t with Some g => [(g, t)] | None => [] end
                     | None => []
                     end) (visited fs root).
(** [filepath.Dir]: what is up to the last slash, cleaned; relative paths are below the working directory [cwd]. *)
Fixpoint up_to_slash (s : string) : string :=
  match s with
  | "" => ""
  | String c r => if has_sep s then String c (up_to_slash r) else ""
  end.
Definition located (cwd : path) (s : string) : path := if has_prefix "/" s then join [] s else join cwd s.
(** [OpenAssets] (unity_assets.go 56-58): the project directory and the assets. *)
Definition project_dir (cwd : path) (dir : string) : path := if has_prefix "/" dir then join [] (up_to_slash dir) else join cwd (up_to_slash dir).
Definition open_assets (fs : fsys) (cwd : path) (dir : string) : list (string * path) := scan_assets fs (project_dir cwd dir) (located cwd dir).
(** The two maps (unity_assets.go 84-90): the last assignment counts. *)
Definition asset_of (a : list (string * path)) (guid : string) : option (string * path) := last_with (fun x => String.eqb (fst x) guid) a.
Definition asset_at (a : list (string * path)) (p : string) : option (string * path) := last_with (fun x => String.eqb (slashed (snd x)) p) a.
(** [assetsFs.Open] (unity_assets.go 248-250) of an asset. *)
Definition open_in (fs : fsys) (proj : path) (x : string * path) : option string := open_file fs (proj ++ snd x).

(** [GetAllAssets] (unity_assets.go 92-98): the values of the map, in any order. *)
Definition all_assets (a : list (string * path)) : list (string * path) :=
  flat_map (fun g => match asset_of a g with Some x => [x] | None => [] end) (nodup string_dec (map fst a)).
Definition is_scene (x : string * path) : bool := match trim_suffix ".unity" (slashed (snd x)) with Some _ => true | None => false end.
(** [LoadScene] up to the choice of the asset (unity_scene.go 13-33). *)
Definition choose_scene (a : list (string * path)) (p : string) : option (string * path) :=
  match asset_at a p with
  | Some x => Some x
  | None => match p, filter is_scene (all_assets a) with
            | "", [x] => asset_at a (slashed (snd x))
            | _, _ => None
            end
  end.
(** [loadDocument] for a scene or prefab of a project (cmd/modelconv/utils.go 60-84): the content of the scene file that is loaded. *)
Definition scene_content (fs : fsys) (cwd : path) (input : string) : option string :=
  let '(dir, p) := unity_names input in
  match choose_scene (open_assets fs cwd dir) p with
  | Some x => open_in fs (project_dir cwd dir) x
  | None => None
  end.
End Project.
