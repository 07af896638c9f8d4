(** Names of files and where they are. *)
From Coq Require Import String Ascii List Bool.
From Verif.Model Require Import Cli UnityPackage UnityProject.
Import ListNotations.
Local Open Scope string_scope.
Local Open Scope list_scope.

(** The name of a file or directory. *)
Definition name_ok (c : string) : Prop := c <> "" /\ c <> "." /\ c <> ".." /\ has_sep c = false.
Fixpoint without (x : ascii) (s : string) : Prop := match s with "" => True | String c r => c <> x /\ without x r end.
(** The asset with the elements [dir ++ [c]] below [proj] has this GUID: a meta file beside it says so. *)
Definition described (guid_of : string -> option string) (fs : fsys) (proj : path) (t : path) (g : string) : Prop :=
  exists dir c m, t = dir ++ [c] /\ c <> "" /\ stat fs (proj ++ dir ++ [(c ++ ".meta")%string]) = Some (FFile m) /\ guid_of m = Some g.
(** Every name on the disk is one, and none is just the suffix. *)
Definition disk_ok (fs : fsys) : Prop := forall p n, In (p, n) fs -> Forall name_ok p /\ last p "" <> ".meta".
(** How one writes a path on the command line. *)
Definition written (absolute : bool) (p : path) : string := if absolute then ("/" ++ slashed p)%string else slashed p.
Definition base (cwd : path) (absolute : bool) : path := if absolute then [] else cwd.
