(** C140: parents, world matrices and components in a Unity scene. *)
From Coq Require Import String Ascii List ZArith Reals Bool Lia Permutation.
From Verif.Model Require Import Num NumR Vec Matrix UnityScene UnityParent.
From Verif.Spec Require Import GeomSpec UnitySpec PrefabSpec UnityParentSpec.
From Verif.Proofs Require Import PrefabProofs UnityParentProofs.
From Verif.Props Require Import C94.
Import ListNotations.
Local Open Scope string_scope.
Local Open Scope list_scope.
Local Open Scope Z_scope.

(** The parent of a transform is exactly the transform of the same file that it names as its father. *)
Theorem C140_parent_partial : forall (T : Type) (s : scene T) a b, get_parent s a = Some b <-> names_father s a b.
Proof. exact @parent_iff. Qed.
Print Assumptions C140_parent_partial.
(** In a file that lists its transforms consistently, the parent has it as a child. *)
Theorem C140_children_partial : forall (T : Type) (s : scene T) a b, listed_below s a b -> get_parent s a = Some b /\ In a (get_children s b).
Proof. exact @listed_parent. Qed.
Print Assumptions C140_children_partial.
(** The world matrix is the product of the matrices of all transforms above it, the outermost first. *)
Theorem C140_world_partial : forall (T : Type) (N : Num T) (s : scene T) a l, chain s a l ->
  forall fuel, (length l <= fuel)%nat -> exists m, scene_world fuel s a = Some m /\ applied (map local_matrix l) = Some m.
Proof. exact @chain_world. Qed.
Print Assumptions C140_world_partial.
(** Over the reals: it puts points where Unity puts them, with z mirrored. *)
Theorem C140_points_partial : forall (s : scene R) a l, chain s a l ->
  forall fuel, (length l <= fuel)%nat -> exists m, scene_world fuel s a = Some m /\ forall v, mat_apply m (mirror v) = mirror (unity_points l v).
Proof. exact chain_points. Qed.
Print Assumptions C140_points_partial.
(** The root of an instance never has the parent that the scene gives it, although it is a child of that parent: only transforms of the prefab are looked at. *)
Theorem C140_instance : forall (T : Type) (zero : T) of_int to_int files order n guid ds s ps id f k0 i src par,
  instance files (load zero of_int to_int files order) n guid ds s ps id f k0 i src par ->
  get_parent s ([id], k0) = if srFile par =? 0 then None else match tr_at s ([id], srFile par) with Some _ => Some ([id], srFile par) | None => None end.
Proof. exact @instance_parent. Qed.
Print Assumptions C140_instance.
(** All other transforms of the instance have the parents that they have in the prefab. *)
Theorem C140_inside : forall (T : Type) (zero : T) of_int to_int files order n guid ds s ps id f k0 i src par,
  instance files (load zero of_int to_int files order) n guid ds s ps id f k0 i src par -> forall a, snd a <> 0 -> a <> ([], k0) ->
  get_parent s (push id a) = option_map (push id) (get_parent ps a).
Proof. exact @instance_inside. Qed.
Print Assumptions C140_inside.
Theorem C140_prefab_refuted : forall (T : Type) (zero : T) of_int to_int files order, (forall l, Permutation (order l) l) -> forall n guid ds s ps id f k0 i src par,
  instance files (load zero of_int to_int files order) n guid ds s ps id f k0 i src par ->
  forall tp, In (srFile par, DTr (Some tp)) ds -> srFile par <> 0 -> srFile (utGo tp) <> 0 ->
  In ([id], k0) (get_children s ([], srFile par)) /\ get_parent s ([id], k0) <> Some ([], srFile par).
Proof.
  intros T zero of_int to_int files order P n guid ds s ps id f k0 i src par H tp I Z0 G. split; [exact (instance_below zero of_int to_int files order P n guid ds s ps id f k0 i src par H tp I Z0 G)|].
  rewrite (instance_parent zero of_int to_int files order n guid ds s ps id f k0 i src par H). destruct (srFile par =? 0); [discriminate|]. destruct (tr_at s ([id], srFile par)); discriminate.
Qed.
Print Assumptions C140_prefab_refuted.
(** All components of a type are those of the object that have it, in order; one is the first of them, and the transform of an object is such a component. *)
Theorem C140_components : forall (T : Type) (is : elem T -> bool) (s : scene T) a,
  get_component is s a = hd_error (get_components is s a) /\
  (forall g, go_at s a = Some g -> valid (ugPrefab g) = false ->
    get_components is s a = map (fun r => (fst a, srFile r)) (filter (fun r => negb (srFile r =? 0) && has_type is s (fst a, srFile r)) (ugComps g)) /\
    forall c, In c (get_components is s a) <-> owned is s a c) /\
  object_transform s a = get_component (fun e => match e with ETr _ => true | _ => false end) s a.
Proof.
  intros T is s a. split; [apply get_component_head|]. split; [|apply transform_component]. intros g E V. split.
  - unfold get_components. rewrite E. apply components_flat. exact V.
  - apply components_owned. intros g' E'. congruence.
Qed.
Print Assumptions C140_components.

(** The scene of C94: the arm of the first instance has the body as parent; the body, although a child of the root object, has none. *)
Example C140_example : match C94_load 2 "s" with
  | Loaded s => get_parent s ([100], 5) = Some ([100], 2) /\ In ([100], 5) (get_children s ([100], 2)) /\ In ([100], 2) (get_children s ([], 11)) /\ get_parent s ([100], 2) = None /\
      get_components (fun e => match e with ERend _ => true | _ => false end) s ([100], 1) = [([100], 3)]
  | _ => False end.
Proof. vm_compute. repeat split; auto. Qed.
(** The prefab by itself: the matrices above the arm are those of the body and of the arm. *)
Example C140_chain_example : match C94_load 1 "p" with
  | Loaded s => listed_below s ([], 5) ([], 2) /\ exists t u, chain s ([], 5) [t; u] /\ tr_at s ([], 2) = Some t /\ tr_at s ([], 5) = Some u
  | _ => False end.
Proof.
  let x := eval vm_compute in (C94_load 1 "p") in change (C94_load 1 "p") with x. cbv beta iota. split.
  - eexists _, _, 0. split; [vm_compute; reflexivity|]. split; [vm_compute; reflexivity|]. repeat split; try discriminate. cbn. auto.
  - eexists _, _. split; [|split; vm_compute; reflexivity]. eapply (chain_child _ ([], 5) ([], 2) _ [_]); [vm_compute; reflexivity| |apply chain_root; [vm_compute; reflexivity|eexists; split; vm_compute; reflexivity]].
    eexists _, _. split; [vm_compute; reflexivity|]. split; [vm_compute; reflexivity|]. repeat split. discriminate.
Qed.
(** The same prefab below a transform of the scene that has the id of the root of the prefab: that root becomes its own parent, and its world matrix is never found. *)
Definition C140_scene : list (Z * @udoc Z) :=
  [(10, C94_go "root" [2]); (2, C94_tr 10 0 []); (100, DPrefab (Some (mkPI false (Some (mkSRef 100100000 "p" 3)) (Some (C94_ref 2)) [])))].
Definition C140_files (g : string) : option (list (Z * @udoc Z)) := if String.eqb g "s" then Some C140_scene else if String.eqb g "p" then Some C94_prefab else None.
Theorem C140_endless_refuted : exists s, load 0 (fun x => x) (fun x => x) C140_files (fun l => l) 2 "s" = Loaded s /\
  In ([100], 2) (get_children s ([], 2)) /\ get_parent s ([100], 2) = Some ([100], 2) /\ forall (N : Num Z) fuel, scene_world fuel s ([100], 2) = None.
Proof.
  eexists. split; [vm_compute; reflexivity|]. split; [vm_compute; auto|]. split; [vm_compute; reflexivity|]. intros N. induction fuel as [|f IH]; [reflexivity|].
  cbn [scene_world]. match goal with |- match ?x with _ => _ end = _ => destruct x; [|reflexivity] end. match goal with |- match ?x with _ => _ end = _ => replace x with (Some ([100], 2)) by (vm_compute; reflexivity) end. rewrite IH. reflexivity.
Qed.
Print Assumptions C140_endless_refuted.
