(** [unity/unity_assets.go]: unpacking a .unitypackage file and looking up its assets.  gzip and tar are external: the entries of the archive are given
    in order.  Paths are those of Unix; symbolic links, permissions and full disks are left out. *)
From Coq Require Import String Ascii List Bool.
From Verif.Model Require Import Cli.
Import ListNotations.
Local Open Scope string_scope.
Local Open Scope list_scope.

(** An absolute, cleaned path: its elements. *)
Definition path : Type := list string.
Definition path_eqb (a b : path) : bool := if list_eq_dec string_dec a b then true else false.

(** [filepath.Clean] of an absolute path; the elements so far are in reverse. *)
Fixpoint clean (acc : path) (cs : list string) : path :=
  match cs with
  | [] => rev acc
  | c :: r => if String.eqb c "" || String.eqb c "." then clean acc r
              else if String.eqb c ".." then clean (tl acc) r
              else clean (c :: acc) r
  end.
(** [filepath.Join(dst, name)] (unity_assets.go 202). *)
Definition join (dst : path) (name : string) : path := clean (rev dst) (split "/"%char name).

(** The file system: what is at a path; the first entry counts, and the root always exists. *)
Inductive fnode : Type := FDir | FFile (data : string).
Definition fsys : Type := list (path * fnode).
Fixpoint assoc_path (fs : fsys) (p : path) : option fnode :=
  match fs with
  | [] => None
  | (q, n) :: r => if path_eqb q p then Some n else assoc_path r p
  end.
Definition stat (fs : fsys) (p : path) : option fnode := match p with [] => Some FDir | _ => assoc_path fs p end.

(** [os.MkdirAll]; [None]: something on the way is a file. *)
Fixpoint mkdirs (fs : fsys) (base rest : path) : option fsys :=
  match rest with
  | [] => Some fs
  | c :: r => match stat fs (base ++ [c]) with
              | Some (FFile _) => None
              | Some FDir => mkdirs fs (base ++ [c]) r
              | None => mkdirs ((base ++ [c], FDir) :: fs) (base ++ [c]) r
              end
  end.
Definition mkdir_all (fs : fsys) (p : path) : option fsys := mkdirs fs [] p.
(** [os.Create] and [io.Copy]: the directory must exist; an existing file is replaced. *)
Definition create (fs : fsys) (p : path) (data : string) : option fsys :=
  match stat fs p with
  | Some FDir => None
  | _ => match stat fs (removelast p) with
         | Some FDir => Some ((p, FFile data) :: fs)
         | _ => None
         end
  end.
(** [os.RemoveAll]. *)
Fixpoint under (dir p : path) : bool :=
  match dir, p with
  | [], _ => true
  | a :: d, b :: q => String.eqb a b && under d q
  | _ :: _, [] => false
  end.
Definition remove_all (fs : fsys) (dir : path) : fsys := filter (fun e => negb (under dir (fst e))) fs.

(** An entry of the archive: its type flag (tar.TypeDir, tar.TypeReg, any other), name and content. *)
Inductive tkind : Type := TDir | TReg | TOther.
Record tentry : Type := mkTE { teKind : tkind; teName : string; teData : string }.

(** One round of the loop (unity_assets.go 202-222). *)
Definition extract1 (dst : path) (e : tentry) (fs : fsys) : option fsys :=
  let name := join dst (teName e) in
  match teKind e with
  | TDir => match stat fs name with Some _ => Some fs | None => mkdir_all fs name end
  | TReg => create fs name (teData e)
  | TOther => Some fs
  end.
(** [extractPackage] (unity_assets.go 176-224): what is on the disk afterwards, and whether there was no error.  [complete]: the archive can be read to its
    end. *)
Fixpoint extract (dst : path) (es : list tentry) (complete : bool) (fs : fsys) : fsys * bool :=
  match es with
  | [] => (fs, complete)
  | e :: r => match extract1 dst e fs with Some fs' => extract dst r complete fs' | None => (fs, false) end
  end.

(** [os.ReadDir]: the names in a directory, sorted. *)
Fixpoint insert (s : string) (l : list string) : list string :=
  match l with
  | [] => [s]
  | a :: r => if String.leb s a then s :: l else a :: insert s r
  end.
Definition sort (l : list string) : list string := fold_right insert [] l.
Fixpoint child_of (dir p : path) : option string :=
  match dir, p with
  | [], [c] => Some c
  | a :: d, b :: q => if String.eqb a b then child_of d q else None
  | _, _ => None
  end.
Definition children (fs : fsys) (dir : path) : list string :=
  flat_map (fun e => match child_of dir (fst e) with Some c => [c] | None => [] end) fs.
Definition read_dir (fs : fsys) (dir : path) : list string := sort (nodup string_dec (children fs dir)).

(** [scanPackage] (unity_assets.go 135-174): the assets as pairs of GUID and path, in the order of the loop.  [None]: a pathname that is a directory cannot be
    read. *)
Fixpoint scan_names (fs : fsys) (dir : path) (names : list string) : option (list (string * string)) :=
  match names with
  | [] => Some []
  | n :: r =>
      match stat fs (dir ++ [n]) with
      | Some FDir =>
          match stat fs (dir ++ [n; "pathname"]) with
          | None => scan_names fs dir r
          | Some FDir => None
          | Some (FFile p) => match scan_names fs dir r with Some l => Some ((n, p) :: l) | None => None end
          end
      | _ => scan_names fs dir r
      end
  end.
Definition scan (fs : fsys) (dir : path) : option (list (string * string)) := scan_names fs dir (read_dir fs dir).

(** Both maps are filled in the order of the list: the last assignment counts. *)
Fixpoint last_with {A : Type} (key : A -> bool) (l : list A) : option A :=
  match l with
  | [] => None
  | a :: r => match last_with key r with Some b => Some b | None => if key a then Some a else None end
  end.
(** [GetAsset] and [GetAssetByPath] (unity_assets.go 84-90); [filepath.ToSlash] changes nothing here. *)
Definition get_asset (a : list (string * string)) (guid : string) : option (string * string) := last_with (fun x => String.eqb (fst x) guid) a.
Definition get_by_path (a : list (string * string)) (p : string) : option (string * string) := last_with (fun x => String.eqb (snd x) p) a.
(** [packageFs.Open] (unity_assets.go 112-118): the content of the file. *)
Definition open_file (fs : fsys) (p : path) : option string := match stat fs p with Some (FFile d) => Some d | _ => None end.
Definition open_asset (fs : fsys) (dir : path) (a : list (string * string)) (p : string) : option string :=
  match get_by_path a p with
  | Some (guid, _) => open_file fs (dir ++ [guid; "asset"])
  | None => None
  end.
(** The file that [packageFs.GetMetaFile] decodes (unity_assets.go 120-130). *)
Definition open_meta (fs : fsys) (dir : path) (a : string * string) : option string := open_file fs (dir ++ [fst a; "asset.meta"]).

(** [OpenPackage] of a file (unity_assets.go 61-76), the fresh directory being given. *)
Definition open_package (tmp : path) (es : list tentry) (complete : bool) (fs : fsys) : fsys * option (list (string * string)) :=
  let '(fs1, ok) := extract tmp es complete ((tmp, FDir) :: fs) in
  (fs1, if ok then scan fs1 tmp else None).
(** [Close] (unity_assets.go 132-137). *)
Definition close_package (tmp : path) (fs : fsys) : fsys := remove_all fs tmp.
