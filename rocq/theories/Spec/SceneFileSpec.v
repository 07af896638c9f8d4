(** What a scene file describes. *)
From Coq Require Import String Ascii List ZArith Bool.
From Verif.Model Require Import Vec UnityScene.
Import ListNotations.
Local Open Scope string_scope.
Local Open Scope list_scope.
Local Open Scope Z_scope.

Section S.
Context {T : Type}.
Notation udoc := (@udoc T).
Implicit Type ds : list (Z * udoc).

(** Without prefabs: every document is an object or a component. *)
Definition simple_doc (d : udoc) : Prop := match d with DGo (Some _) | DTr (Some _) | DRend (Some _) | DOther => True | _ => False end.
(** References within a file have no GUID. *)
Definition local (r : sref) : Prop := srGuid r = "".
(** The transform [k] names the transform [c] as a child. *)
Definition names_child ds (k c : Z) : Prop := exists t r, In (k, DTr (Some t)) ds /\ In (Some r) (utChildren t) /\ srFile r = c.
(** A file that describes trees of objects: each object has one transform and the other way round, fathers and children agree, and [depth] counts the fathers. *)
Record tree_file ds (depth : Z -> nat) : Prop := mkTF {
  tf_ids : NoDup (map fst ds);
  tf_nonzero : ~ In 0 (map fst ds);
  tf_simple : forall f d, In (f, d) ds -> simple_doc d;
  tf_go : forall f g, In (f, DGo (Some g)) ds -> Forall local (ugComps g) /\ valid (ugCorr g) = false /\
            exists k t, In (k, DTr (Some t)) ds /\ srFile (utGo t) = f /\ In k (map srFile (ugComps g)) /\
              forall k' t', In (k', DTr (Some t')) ds -> In k' (map srFile (ugComps g)) -> k' = k;
  tf_tr : forall k t, In (k, DTr (Some t)) ds -> local (utGo t) /\ (forall r, In (Some r) (utChildren t) -> local r) /\ NoDup (map (option_map srFile) (utChildren t)) /\
            exists g, In (srFile (utGo t), DGo (Some g)) ds /\ In k (map srFile (ugComps g));
  tf_link : forall k c, k <> 0 -> (names_child ds k c <-> exists t, In (c, DTr (Some t)) ds /\ srFile (utFather t) = k);
  tf_depth : forall c t, In (c, DTr (Some t)) ds -> depth c = if srFile (utFather t) =? 0 then O else S (depth (srFile (utFather t))) }.

(** The objects that the converter visits from the object at [a], with their depths (convertObject, converter/unity2mqo.go 79-222). *)
Fixpoint visits (s : scene T) (n d : nat) (a : addr) : list (addr * nat) :=
  match n with
  | O => []
  | S m => (a, d) :: match object_transform s a with
                     | Some ta => flat_map (fun c => match transform_object s c with Some o => visits s m (S d) o | None => [] end) (get_children s ta)
                     | None => []
                     end
  end.
Definition visits_all (s : scene T) (n : nat) : list (addr * nat) := flat_map (visits s n 0) (scRoots s).
End S.
