(** What an archive says, read off its entries. *)
From Coq Require Import String Ascii List Bool Arith.
From Verif.Model Require Import Cli UnityPackage.
Import ListNotations.
Local Open Scope string_scope.
Local Open Scope list_scope.

(** Elements that mean nothing, and those that lead one up. *)
Definition silent (c : string) : bool := String.eqb c "" || String.eqb c ".".
Definition elements (name : string) : list string := filter (fun c => negb (silent c)) (split "/"%char name).
(** A plain name has no element [..]. *)
Definition plain (e : tentry) : Prop := ~ In ".." (elements (teName e)).
(** How many directories one is below the start after the elements [cs]; [None]: above it at some time. *)
Fixpoint depth_from (d : nat) (cs : list string) : option nat :=
  match cs with
  | [] => Some d
  | c :: r => if String.eqb c ".." then match d with O => None | S d' => depth_from d' r end else depth_from (S d) r
  end.
Definition never_above (name : string) : Prop := depth_from 0 (elements name) <> None.

(** The content of a file of the archive: that of the last regular entry with this name. *)
Definition file_of (es : list tentry) (p : path) (data : string) : Prop :=
  exists pre e post, es = pre ++ e :: post /\ teKind e = TReg /\ elements (teName e) = p /\ teData e = data /\
    forall e', In e' post -> teKind e' = TReg -> elements (teName e') <> p.
(** A directory of the archive, named by itself or by one below it. *)
Definition dir_of (es : list tentry) (p : path) : Prop := exists e q, In e es /\ teKind e = TDir /\ elements (teName e) = p ++ q.

(** Every file comes after its directory, and no name is that of a file and of a directory. *)
Definition well_ordered (es : list tentry) : Prop :=
  (forall pre e post, es = pre ++ e :: post -> teKind e = TReg -> elements (teName e) <> [] /\ (removelast (elements (teName e)) = [] \/ dir_of pre (removelast (elements (teName e))))) /\
  (forall e, In e es -> teKind e = TReg -> ~ dir_of es (elements (teName e))).

(** Nothing is at a fresh path, and it is in a directory. *)
Definition fresh (fs : fsys) (tmp : path) : Prop :=
  tmp <> [] /\ (forall q, stat fs (tmp ++ q) = None) /\ (forall p c q, tmp = p ++ c :: q -> stat fs p = Some FDir).
