(** C94: prefab instances in a scene. *)
From Coq Require Import String Ascii List ZArith Bool Lia Permutation.
From Verif.Model Require Import Vec UnityScene.
From Verif.Spec Require Import SceneFileSpec PrefabSpec.
From Verif.Proofs Require Import PrefabProofs.
Import ListNotations.
Local Open Scope string_scope.
Local Open Scope list_scope.
Local Open Scope Z_scope.

(** A number of a transform of the instance is the one of the last modification of it, else the one in the prefab; only the transform of the root gets another father. *)
Theorem C94_numbers_partial : forall (T : Type) (zero : T) of_int to_int files order n guid ds s ps id f k0 i src par,
  instance files (load zero of_int to_int files order) n guid ds s ps id f k0 i src par ->
  forall k t, k <> 0 -> tr_at ps ([], k) = Some t -> exists t', tr_at s ([id], k) = Some t' /\ utGo t' = utGo t /\ utFather t' = (if k =? k0 then mkSRef (srFile par) guid (srType par) else utFather t) /\
  forall path get, number path = Some get ->
    match last_mod k path (piMods i) with
    | Some m => (forall x, pmValue m = VFloat x -> get t' = x) /\ (forall z, pmValue m = VInt z -> get t' = of_int z)
    | None => get t' = get t
    end.
Proof. exact @instance_numbers. Qed.
Print Assumptions C94_numbers_partial.
(** The name and the active flag of an object. *)
Theorem C94_object_partial : forall (T : Type) (zero : T) of_int to_int files order n guid ds s ps id f k0 i src par,
  instance files (load zero of_int to_int files order) n guid ds s ps id f k0 i src par ->
  forall k g, k <> 0 -> go_at ps ([], k) = Some g -> Forall (whole "m_Name") (piMods i) -> Forall (whole "m_IsActive") (piMods i) ->
  exists g', go_at s ([id], k) = Some g' /\ ugComps g' = ugComps g /\
  match last_mod k "m_Name" (piMods i) with Some m => forall x, pmValue m = VStr x -> ugName g' = x | None => ugName g' = ugName g end /\
  match last_mod k "m_IsActive" (piMods i) with Some m => forall z, pmValue m = VInt z -> ugActive g' = to_int (of_int z) | None => ugActive g' = ugActive g end.
Proof. exact @instance_object. Qed.
Print Assumptions C94_object_partial.
(** The materials of a renderer. *)
Theorem C94_materials_partial : forall (T : Type) (zero : T) of_int to_int files order n guid ds s ps id f k0 i src par,
  instance files (load zero of_int to_int files order) n guid ds s ps id f k0 i src par ->
  forall k r, k <> 0 -> elem_at ps ([], k) = Some (ERend r) -> Forall material_mod (piMods i) ->
  exists r', elem_at s ([id], k) = Some (ERend r') /\ length (urMaterials r') = length (urMaterials r) /\
  forall j, (j < length (urMaterials r))%nat -> nth_error (urMaterials r') j = match last_mod k (material_path j) (piMods i) with Some m => Some (pmRef m) | None => nth_error (urMaterials r) j end.
Proof. exact @instance_materials. Qed.
Print Assumptions C94_materials_partial.
(** The objects inside of the instance hang together as in the prefab. *)
Theorem C94_tree_partial : forall (T : Type) (zero : T) of_int to_int files order n guid ds s ps id f k0 i src par,
  instance files (load zero of_int to_int files order) n guid ds s ps id f k0 i src par ->
  forall a, object_transform s (push id a) = option_map (push id) (object_transform ps a) /\ transform_object s (push id a) = option_map (push id) (transform_object ps a) /\
  exists l, get_children s (push id a) = map (push id) (get_children ps a) ++ l.
Proof. exact @instance_tree. Qed.
Print Assumptions C94_tree_partial.
(** The root of the prefab is a root of the scene if it has no parent there. *)
Theorem C94_root_partial : forall (T : Type) (zero : T) of_int to_int files order n guid ds s ps id f k0 i src par,
  instance files (load zero of_int to_int files order) n guid ds s ps id f k0 i src par -> (In ([id], f) (scRoots s) <-> srFile par = 0).
Proof. exact @instance_root. Qed.
Print Assumptions C94_root_partial.
(** Else it is a child of its parent, an object of the scene, or one of another instance, which the scene names by a stripped transform. *)
Theorem C94_child_partial : forall (T : Type) (zero : T) of_int to_int files order, (forall l, Permutation (order l) l) -> forall n guid ds s ps id f k0 i src par,
  instance files (load zero of_int to_int files order) n guid ds s ps id f k0 i src par ->
  forall tp, In (srFile par, DTr (Some tp)) ds -> srFile par <> 0 -> srFile (utGo tp) <> 0 -> In ([id], k0) (get_children s ([], srFile par)).
Proof. exact @instance_below. Qed.
Print Assumptions C94_child_partial.
Theorem C94_child_other_partial : forall (T : Type) (zero : T) of_int to_int files order, (forall l, Permutation (order l) l) -> forall n guid ds s ps id f k0 i src par,
  instance files (load zero of_int to_int files order) n guid ds s ps id f k0 i src par ->
  forall tp q j qs, In (srFile par, DTr (Some tp)) ds -> srFile par <> 0 -> srFile (utGo tp) = 0 -> utCorr tp = Some q -> utPrefab tp = Some j -> srFile q <> 0 -> srFile j <> 0 ->
  srGuid q <> "" -> srGuid q <> guid -> find_elem (scElems s) (srFile j) = Some (EPrefab qs) -> (exists tq, find_elem (scElems qs) (srFile q) = Some (ETr tq)) ->
  In ([id], k0) (get_children s ([srFile j], srFile q)).
Proof. exact @instance_below_other. Qed.
Print Assumptions C94_child_other_partial.
(** A child that its parent also lists is not repeated. *)
Theorem C94_once : forall (T : Type) (zero : T) of_int to_int files order n guid s k, load zero of_int to_int files order n guid = Loaded s ->
  NoDup (listed_children s ([], k)) -> NoDup (get_children s ([], k)).
Proof. exact @loaded_nodup. Qed.
Print Assumptions C94_once.

(** A prefab with an object that has a renderer and a child, and a scene with two instances, the second one below the child in the first. *)
Definition C94_ref (k : Z) : sref := mkSRef k "" 0.
Definition C94_tr (g father : Z) (cs : list Z) : @udoc Z :=
  DTr (Some (mkUT (C94_ref g) (Some (C94_ref 0)) (Some (C94_ref 0)) (C94_ref father) (map (fun c => Some (C94_ref c)) cs) (mkV4 0 0 0 1) (mkV3 0 0 0) (mkV3 1 1 1) (mkV3 0 0 0) 0)).
Definition C94_go (name : string) (cs : list Z) : @udoc Z := DGo (Some (mkUG name 1 "Untagged" (map C94_ref cs) (Some (C94_ref 0)) (Some (C94_ref 0)))).
Definition C94_prefab : list (Z * @udoc Z) :=
  [(1, C94_go "body" [2; 3]); (2, C94_tr 1 0 [5]); (3, DRend (Some (mkUR 1 [Some (mkSRef 21 "m" 2)]))); (4, C94_go "arm" [5]); (5, C94_tr 4 2 [])].
Definition C94_mod (k : Z) (path : string) (v : @mval Z) (r : option sref) : @pmod Z := mkPM (Some (mkSRef k "p" 3)) path v r.
Definition C94_first : @pinst Z := mkPI false (Some (mkSRef 100100000 "p" 3)) (Some (C94_ref 11))
  [C94_mod 2 "m_LocalPosition.x" (VInt 5) None; C94_mod 1 "m_Name" (VStr "left") None; C94_mod 2 "m_LocalPosition.x" (VFloat 7) None; C94_mod 3 (material_path 0) VOther (Some (mkSRef 22 "m" 2))].
Definition C94_second : @pinst Z := mkPI false (Some (mkSRef 100100000 "p" 3)) (Some (C94_ref 12)) [].
Definition C94_stripped : @udoc Z := DTr (Some (mkUT (C94_ref 0) (Some (mkSRef 5 "p" 3)) (Some (C94_ref 100)) (C94_ref 0) [] (mkV4 0 0 0 1) (mkV3 0 0 0) (mkV3 1 1 1) (mkV3 0 0 0) 0)).
Definition C94_scene : list (Z * @udoc Z) := [(10, C94_go "root" [11]); (11, C94_tr 10 0 []); (12, C94_stripped); (100, DPrefab (Some C94_first)); (200, DPrefab (Some C94_second))].
Definition C94_files (g : string) : option (list (Z * @udoc Z)) := if String.eqb g "s" then Some C94_scene else if String.eqb g "p" then Some C94_prefab else None.
Definition C94_load := load 0 (fun x => x) (fun x => x) C94_files (fun l => l).
Example C94_example : match C94_load 2 "s" with
  | Loaded s => visits_all s 9 = [(([], 10), 0%nat); (([100], 1), 1%nat); (([100], 4), 2%nat); (([200], 1), 3%nat); (([200], 4), 4%nat)] /\
      option_map ugName (go_at s ([100], 1)) = Some "left" /\ option_map ugName (go_at s ([200], 1)) = Some "body" /\
      option_map (fun t => vx (utPos t)) (tr_at s ([100], 2)) = Some 7 /\ option_map (fun t => vx (utPos t)) (tr_at s ([200], 2)) = Some 0 /\
      elem_at s ([100], 3) = Some (ERend (mkUR 1 [Some (mkSRef 22 "m" 2)])) /\ elem_at s ([200], 3) = Some (ERend (mkUR 1 [Some (mkSRef 21 "m" 2)]))
  | _ => False end.
Proof. vm_compute. repeat split. Qed.
Definition C94_loaded (n : nat) (g : string) : scene Z := match C94_load n g with Loaded s => s | _ => mkScene "" [] [] [] end.
Example C94_meets : instance C94_files C94_load 1 "s" C94_scene (C94_loaded 2 "s") (C94_loaded 1 "p") 100 1 2 C94_first (mkSRef 100100000 "p" 3) (C94_ref 11) /\
  Forall (whole "m_Name") (piMods C94_first) /\ Forall (whole "m_IsActive") (piMods C94_first) /\ Forall material_mod (piMods C94_first).
Proof.
  split; [|split; [|split]].
  - constructor; try (vm_compute; reflexivity).
    + cbn. repeat constructor; cbn; intuition discriminate.
    + do 3 right. now left.
    + discriminate.
    + eexists. vm_compute. reflexivity.
    + apply Forall_forall. intros m M name H. cbn in M. repeat (destruct M as [<-|M]; [cbn in H; repeat (destruct H as [<-|H]; [split; [|intro rest]; discriminate|]); destruct H|]). destruct M.
  - apply Forall_forall. intros m M rest. cbn in M. repeat (destruct M as [<-|M]; [discriminate|]). destruct M.
  - apply Forall_forall. intros m M rest. cbn in M. repeat (destruct M as [<-|M]; [discriminate|]). destruct M.
  - apply Forall_forall. intros m M. cbn in M. repeat (destruct M as [<-|M]; [first [left; intro rest; discriminate|right; right; exists 0%nat; split; [discriminate|reflexivity]]|]). destruct M.
Qed.

(** Refuted: a prefab variant, whose root is an instance of another prefab, is lost below a parent. *)
Definition C94_variant (g : string) : option (list (Z * @udoc Z)) :=
  if String.eqb g "s" then Some [(10, C94_go "root" [11]); (11, C94_tr 10 0 []); (100, DPrefab (Some (mkPI false (Some (mkSRef 100100000 "v" 3)) (Some (C94_ref 11)) [])))]
  else if String.eqb g "v" then Some [(50, DPrefab (Some (mkPI false (Some (mkSRef 100100000 "p" 3)) (Some (C94_ref 0)) [])))]
  else if String.eqb g "p" then Some C94_prefab else None.
Theorem C94_variant_refuted : match load 0 (fun x => x) (fun x => x) C94_variant (fun l => l) 3 "s" with
  | Loaded s => option_map ugName (go_at s ([100; 50], 1)) = Some "body" /\ forall m, visits_all s (S m) = [(([], 10), 0%nat)]
  | _ => False end.
Proof. vm_compute. split; [reflexivity|]. intro m. reflexivity. Qed.
Print Assumptions C94_variant_refuted.
(** Refuted: an object that the scene renames to a number loses its name. *)
Definition C94_renamed (g : string) : option (list (Z * @udoc Z)) :=
  if String.eqb g "s" then Some [(100, DPrefab (Some (mkPI false (Some (mkSRef 100100000 "p" 3)) (Some (C94_ref 0)) [C94_mod 1 "m_Name" (VInt 2) None])))]
  else if String.eqb g "p" then Some C94_prefab else None.
Theorem C94_name_refuted : match load 0 (fun x => x) (fun x => x) C94_renamed (fun l => l) 2 "s" with
  | Loaded s => scRoots s = [([100], 1)] /\ option_map ugName (go_at s ([100], 1)) = Some ""
  | _ => False end.
Proof. vm_compute. split; reflexivity. Qed.
Print Assumptions C94_name_refuted.
(** Refuted: an instance cannot have more materials than the prefab. *)
Definition C94_more (g : string) : option (list (Z * @udoc Z)) :=
  if String.eqb g "s" then Some [(100, DPrefab (Some (mkPI false (Some (mkSRef 100100000 "p" 3)) (Some (C94_ref 0))
    [C94_mod 3 "m_Materials.Array.size" (VInt 2) None; C94_mod 3 (material_path 1) VOther (Some (mkSRef 22 "m" 2))])))]
  else if String.eqb g "p" then Some C94_prefab else None.
Theorem C94_size_refuted : match load 0 (fun x => x) (fun x => x) C94_more (fun l => l) 2 "s" with
  | Loaded s => elem_at s ([100], 3) = Some (ERend (mkUR 1 [Some (mkSRef 21 "m" 2)]))
  | _ => False end.
Proof. vm_compute. reflexivity. Qed.
Print Assumptions C94_size_refuted.
