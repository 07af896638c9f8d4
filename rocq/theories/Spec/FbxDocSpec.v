(** What FBX documents promise about ids, properties and polygons. *)
From Coq Require Import List ZArith Bool.
From Verif Require Import Model.Codec Model.Fbx Model.FbxDoc.
Import ListNotations.
Local Open Scope Z_scope.

(** Every entry of the table is filed under the object's own id, some object has id 0 (the
    scene, unless the file has another object with that id), and no two objects share a
    node. *)
Record filed (d : doc) : Prop := mkFiled {
  filed_ids : forall k o, lookup k (d_table d) = Some o -> obj_id d o = k;
  filed_root : exists s, lookup 0 (d_table d) = Some s;
  filed_nodes : forall o o', d_node d o = d_node d o' -> o = o' }.

(** Object [o] can be found under its id. *)
Definition found (d : doc) (o : nat) : Prop := lookup (obj_id d o) (d_table d) = Some o.

(** A property list as files have it: at least name, type, label and flag each, and no name
    twice. *)
Definition full_props (l : list (list attr)) : Prop :=
  Forall (fun a => (4 <= length a)%nat) l /\
  NoDup (map (fun a => to_str (nth_error a 0)) l).

(** The value [GetProperty] returns, without the updated object. *)
Definition got (o : pobj) (k : bytes) : option property := option_map fst (get_property o k).

(** A sequence of reads and writes. *)
Inductive pop := PGet (k : bytes) | PSet (k : bytes) (p : property).

(** The values the reads of a sequence return, on an object ([None]: a crash) ... *)
Fixpoint run_props (o : pobj) (ops : list pop) : option (list property) :=
  match ops with
  | [] => Some []
  | PGet k :: r => match get_property o k with
                   | Some (p, o') => option_map (cons p) (run_props o' r)
                   | None => None
                   end
  | PSet k p :: r => match set_property o k p with Some o' => run_props o' r | None => None end
  end.
(** ... and on a map. *)
Fixpoint run_map (m : bytes -> property) (ops : list pop) : list property :=
  match ops with
  | [] => []
  | PGet k :: r => m k :: run_map m r
  | PSet k p :: r => run_map (fun k' => if beq k' k then p else m k') r
  end.

(** Vertex indices that fit. *)
Definition vertex_index (i : Z) : Prop := 0 <= i < 2 ^ 31.

(** The chain from a model up to its root. *)
Inductive chain (parent : nat -> option nat) : nat -> list nat -> Prop :=
| ch_root m : parent m = None -> chain parent m [m]
| ch_up m p l : parent m = Some p -> chain parent p l -> chain parent m (l ++ [m]).
