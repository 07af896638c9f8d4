(** What a VRM configuration means. *)
From Coq Require Import String Ascii List ZArith Bool.
From Verif.Model Require Import Num Vec VrmConfig.
Import ListNotations.
Local Open Scope list_scope.

(** *** Humanoid bones *)

(** [id] is the last node of that name. *)
Definition last_named (nodes : list vnode) (name : string) (id : nat) : Prop :=
  (exists n, nth_error nodes id = Some n /\ vnName n = name) /\
  forall j m, nth_error nodes j = Some m -> vnName m = name -> (j <= id)%nat.
(** And not the node of a mesh. *)
Definition bone_node (nodes : list vnode) (name : string) (id : nat) : Prop :=
  last_named nodes name id /\ forall n, nth_error nodes id = Some n -> vnMesh n = None.
(** The node names of a mapping, the deprecated one last. *)
Definition names_of (m : bmap) : list string := bmNames m ++ filter (fun s => negb (String.eqb s "")) [bmOld m].
(** The first name with a bone node gives [id]. *)
Definition chosen (nodes : list vnode) (names : list string) (id : nat) : Prop :=
  exists a x b, names = a ++ x :: b /\ bone_node nodes x id /\ forall y j, In y a -> ~ bone_node nodes y j.
(** The mapping has names, but none of them is a bone node. *)
Definition undecided (nodes : list vnode) (m : bmap) : Prop :=
  names_of m <> [] /\ forall y j, In y (names_of m) -> ~ bone_node nodes y j.
(** [m] is the first mapping of bone [b] that is decided. *)
Definition decides (nodes : list vnode) (maps : list bmap) (b : string) (m : bmap) : Prop :=
  exists pre post, maps = pre ++ m :: post /\ bmBone m = b /\ ~ undecided nodes m /\
    forall m', In m' pre -> bmBone m' = b -> undecided nodes m'.

(** *** Spring bones *)
Inductive below (nodes : list vnode) (r : nat) : nat -> Prop :=
| below_self : below nodes r r
| below_child i n c : below nodes r i -> nth_error nodes i = Some n -> In c (vnChildren n) -> below nodes r c.
(** No node is below two entries of the list. *)
Definition no_overlap (nodes : list vnode) (roots : list nat) : Prop :=
  forall j k a b x, j <> k -> nth_error roots j = Some a -> nth_error roots k = Some b -> below nodes a x -> below nodes b x -> False.
(** A node that shares a descendant with a root. *)
Definition touched (nodes : list vnode) (roots : list nat) (i : nat) : Prop := exists r x, In r roots /\ below nodes r x /\ below nodes i x.
(** No node is above itself, and children exist. *)
Definition finite_nodes (nodes : list vnode) : Prop :=
  exists rank : nat -> nat, forall i n c, nth_error nodes i = Some n -> In c (vnChildren n) -> (rank c < rank i)%nat /\ (c < length nodes)%nat.

Inductive pbelow (nodes : list pnode) (r : nat) : nat -> Prop :=
| pbelow_self : pbelow nodes r r
| pbelow_child i n c : pbelow nodes r i -> nth_error nodes i = Some n -> In c (pnChildren n) -> pbelow nodes r c.
Definition dynamic (nodes : list pnode) (i : nat) : Prop := exists n, nth_error nodes i = Some n /\ pnBody n = Some false.
(** A tip without a body. *)
Definition tip (nodes : list pnode) (i : nat) : Prop := exists n, nth_error nodes i = Some n /\ pnBody n = None /\ pnChildren n = [].
(** Everything at and below [i] swings. *)
Definition loose (nodes : list pnode) (i : nat) : Prop := forall x, pbelow nodes i x -> dynamic nodes x \/ tip nodes x.
Definition pparent (nodes : list pnode) (p i : nat) : Prop := exists n, nth_error nodes p = Some n /\ In i (pnChildren n).
(** The beginning of a swinging chain. *)
Definition spring_root (nodes : list pnode) (i : nat) : Prop := dynamic nodes i /\ loose nodes i /\ forall p, pparent nodes p i -> ~ loose nodes p.

(** The two views of the same nodes. *)
Definition same_nodes (ps : list pnode) (vs : list vnode) : Prop := Forall2 (fun p v => pnName p = vnName v /\ pnChildren p = vnChildren v) ps vs.
(** A name without wildcards. *)
Definition plain (s : string) : Prop := has_char "*"%char s = false /\ has_char "?"%char s = false.

(** *** Colliders *)
(** Shape [s] gives a collider. *)
Definition round {T : Type} {N : Num T} (s : cshape T) (r : T) (o : vec3 T) : Prop :=
  (csType s = "SPHERE" \/ csType s = "CAPSULE")%string /\ (exists sc, csScale s = Some sc /\ vx sc = r /\ neqb r nzero = false) /\
  (csTrans s = Some o \/ csTrans s = None /\ o = mkV3 nzero nzero nzero).

(** *** Morphs *)
(** Target [i] of mesh [m] has a name. *)
Definition is_target (meshes : list vmesh) (m : nat) (i : Z) (name : string) : Prop :=
  exists mesh, nth_error meshes m = Some mesh /\ (0 <= i)%Z /\ nth_error (vmeTargets mesh) (Z.to_nat i) = Some name.
(** The group drives target [i] of mesh [m]. *)
Definition drives (g : bgroup) (m : nat) (i : Z) : Prop := In (m, i) (bgBinds g).

(** *** Materials *)
(** The setting for a material: its own, or that of the star. *)
Definition in_force {T : Type} (l : list (string * msetting T)) (name : string) (s : msetting T) : Prop :=
  In (name, s) l \/ (forall s', ~ In (name, s') l) /\ In ("*"%string, s) l.

(** A target the program knows: of a mesh whose names have the type it expects. *)
Definition known_target (meshes : list vmesh) (m : nat) (i : Z) (name : string) : Prop :=
  is_target meshes m i name /\ forall mesh, nth_error meshes m = Some mesh -> vmeTyped mesh = true.
(** The groups of one mapping. *)
Definition groups_of (nodes : list vnode) (meshes : list vmesh) (mp : mmap) (gs : list bgroup) : Prop :=
  (mmTarget mp <> ""%string -> (exists m i, known_target meshes m i (mmTarget mp)) -> exists m i, known_target meshes m i (mmTarget mp) /\ gs = [mkBG (mmName mp) (mmName mp) [(m, i)] (mmValues mp)]) /\
  (mmTarget mp <> ""%string -> (forall m i, ~ known_target meshes m i (mmTarget mp)) -> mmValues mp = O -> gs = []) /\
  (mmTarget mp <> ""%string -> (forall m i, ~ known_target meshes m i (mmTarget mp)) -> mmValues mp <> O -> gs = [mkBG (mmName mp) (mmName mp) [] (mmValues mp)]) /\
  (mmTarget mp = ""%string -> forall id n mesh, last_named nodes (mmNode mp) id -> nth_error nodes id = Some n -> vnMesh n = Some mesh -> gs = [mkBG (mmName mp) (mmName mp) [(mesh, mmIndex mp)] O]) /\
  (mmTarget mp = ""%string -> (forall id, ~ last_named nodes (mmNode mp) id) -> gs = []).

(** Node [i] is asked for by a name or a pattern. *)
Definition asked_for (pmatch : string -> string -> bool) (nodes : list vnode) (p : string) (i : nat) : Prop :=
  exists name, last_named nodes name i /\ (plain p -> name = p) /\ (~ plain p -> pmatch p name = true).
