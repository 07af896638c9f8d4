(** Putting an FBX document together: [NewDocument], [AddObject], [AddConnection] and [BuildDocument] of what is written then (fbx/fbx_document.go 20-167), version 7500.  Objects are numbered in the
    order in which they are made; object 0 is the scene.  Of an object there is its type; what is inside (names, properties, geometry) is in FbxDoc.v and FbxRead.v. *)
From Coq Require Import List ZArith Bool.
Import ListNotations.
Local Open Scope Z_scope.

(** The type by the name of the node (fbx_document.go 95-113). *)
Inductive okind := KModel | KMaterial | KOther.
(** [Document] (fbx_document.go 5-18): the objects that exist, their ids ([Attr(0)] of the node), ObjectByID (the newest first), NextObjectID, [Refs] as pairs (holder, held) in order, [Parent] as pairs
    (child, parent) with the newest first, Materials, and of the raw node the children of Objects and of Connections (child, parent). *)
Record bdoc := mkBD { bdKinds : list okind; bdIds : list Z; bdTable : list (Z * nat); bdNext : Z; bdRefs : list (nat * nat); bdParents : list (nat * nat); bdMats : list nat;
  bdRows : list nat; bdConns : list (Z * Z) }.
(** [NewDocument] (20-55). *)
Definition new_doc : bdoc := mkBD [KModel] [0] [(0, 0%nat)] 0 [] [] [] [] [].

Definition kind_of (ks : list okind) (p : nat) : okind := nth p ks KOther.
Definition id_of (ids : list Z) (p : nat) : Z := nth p ids 0.
Fixpoint lookup {A B} (eqb : A -> A -> bool) (l : list (A * B)) (k : A) : option B :=
  match l with (a, b) :: r => if eqb a k then Some b else lookup eqb r k | [] => None end.
Fixpoint set_nth {A} (l : list A) (i : nat) (v : A) : list A :=
  match l, i with [], _ => [] | _ :: r, O => v :: r | x :: r, S i => x :: set_nth r i v end.
(** [newID] (57-63): the id and the next one; the table has at most as many ids as [fuel]. *)
Fixpoint new_id (fuel : nat) (t : list (Z * nat)) (n : Z) : Z * Z :=
  match fuel, lookup Z.eqb t n with
  | S f, Some _ => new_id f t (n + 1)
  | _, _ => (n, n + 1)
  end.

(** [NewModel] (fbx_model.go 15-24), [NewMaterial] (fbx_material.go 9-17) and others by [newObj] (fbx_object.go 34-42): the id is 0. *)
Definition make (d : bdoc) (k : okind) : bdoc :=
  mkBD (bdKinds d ++ [k]) (bdIds d ++ [0]) (bdTable d) (bdNext d) (bdRefs d) (bdParents d) (bdMats d) (bdRows d) (bdConns d).
(** An object of another document, which has its id there. *)
Definition take (d : bdoc) (k : okind) (id : Z) : bdoc :=
  mkBD (bdKinds d ++ [k]) (bdIds d ++ [id]) (bdTable d) (bdNext d) (bdRefs d) (bdParents d) (bdMats d) (bdRows d) (bdConns d).
(** [AddObject] (143-155). *)
Definition add (d : bdoc) (p : nat) : bdoc :=
  let id := id_of (bdIds d) p in
  let existing := lookup Z.eqb (bdTable d) id in
  if match existing with Some q => Nat.eqb q p | None => false end then d
  else
    let '(ids, next) :=
      if (id =? 0) || match existing with Some _ => true | None => false end
      then let '(n, next) := new_id (S (length (bdTable d))) (bdTable d) (bdNext d) in (set_nth (bdIds d) p n, next)
      else (bdIds d, bdNext d) in
    mkBD (bdKinds d) ids ((id_of ids p, p) :: bdTable d) next (bdRefs d) (bdParents d) (bdMats d) (bdRows d ++ [p]) (bdConns d).
(** [AddConnection] and [AddPropConnection] (157-167). *)
Definition connect (d : bdoc) (parent child : nat) : bdoc :=
  mkBD (bdKinds d) (bdIds d) (bdTable d) (bdNext d) (bdRefs d ++ [(parent, child)]) (bdParents d) (bdMats d) (bdRows d) (bdConns d ++ [(id_of (bdIds d) child, id_of (bdIds d) parent)]).
Inductive step := SMake (k : okind) | STake (k : okind) (id : Z) | SAdd (p : nat) | SConnect (parent child : nat).
Definition step1 (d : bdoc) (s : step) : bdoc := match s with SMake k => make d k | STake k id => take d k id | SAdd p => add d p | SConnect a b => connect d a b end.
Definition run (l : list step) (d : bdoc) : bdoc := fold_left step1 l d.

(** Another new document while [d] exists: objects, with their ids, are those of both (the scenes are not told apart); and [d] after objects were added to the other one. *)
Definition beside (d : bdoc) : bdoc := mkBD (bdKinds d) (bdIds d) [(0, 0%nat)] 0 [] [] [] [] [].
Definition after (d other : bdoc) : bdoc := mkBD (bdKinds other) (bdIds other) (bdTable d) (bdNext d) (bdRefs d) (bdParents d) (bdMats d) (bdRows d) (bdConns d).

(** [BuildDocument] (65-141) of the raw node: the objects of the rows, then the connections between objects that are found. *)
Definition connect_row (kinds : list okind) (t : list (Z * nat)) (st : list (nat * nat) * list (nat * nat)) (c : Z * Z) : list (nat * nat) * list (nat * nat) :=
  match lookup Z.eqb t (fst c), lookup Z.eqb t (snd c) with
  | Some from, Some to => (fst st ++ [(to, from)], match kind_of kinds to, kind_of kinds from with KModel, KModel => (from, to) :: snd st | _, _ => snd st end)
  | _, _ => st
  end.
Definition reload (d : bdoc) : bdoc :=
  let t := fold_left (fun t p => (id_of (bdIds d) p, p) :: t) (bdRows d) [(0, 0%nat)] in
  let '(refs, parents) := fold_left (connect_row (bdKinds d) t) (bdConns d) ([], []) in
  mkBD (bdKinds d) (bdIds d) t 0 refs parents (filter (fun p => match kind_of (bdKinds d) p with KMaterial => true | _ => false end) (bdRows d)) (bdRows d) (bdConns d).

(** [FindRefs], [GetChildModels] (fbx_object.go 114-122, fbx_model.go 82-90) go through these. *)
Definition refs_of (d : bdoc) (p : nat) : list nat := map snd (filter (fun r => Nat.eqb (fst r) p) (bdRefs d)).
Definition parent_of (d : bdoc) (p : nat) : option nat := lookup Nat.eqb (bdParents d) p.

(** [GetMatrix], [UpdateMatrix], and [SetTranslation], [SetRotation], [SetScaling] (fbx_model.go 30-72): the properties [P] have the matrix [matrix], which is kept once it was asked for. *)
Section Cache.
Context {P M : Type}.
Variable matrix : P -> M.
Record cmodel := mkCM { cmProps : P; cmCached : option M }.
Definition get_matrix (m : cmodel) : M * cmodel := match cmCached m with Some x => (x, m) | None => (matrix (cmProps m), mkCM (cmProps m) (Some (matrix (cmProps m)))) end.
Definition update_matrix (m : cmodel) : cmodel := mkCM (cmProps m) (Some (matrix (cmProps m))).
Definition set_props (m : cmodel) (p : P) : cmodel := mkCM p (cmCached m).
(** [BuildDocument] makes models without a matrix. *)
Definition reload_model (m : cmodel) : cmodel := mkCM (cmProps m) None.
End Cache.
