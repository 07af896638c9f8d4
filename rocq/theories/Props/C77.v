(** C77: static physics bodies become colliders of their own node. *)
From Coq Require Import String List ZArith Bool Lia.
From Verif.Model Require Import Num Vec VrmConfig MqoDoc.
From Verif.Spec Require Import VrmSpec.
From Verif.Proofs Require Import VrmSprings.
Import ListNotations.
Local Open Scope string_scope.
Local Open Scope list_scope.
Local Open Scope Z_scope.

(** The colliders of a shape. *)
Theorem C77_shape : forall T (N : Num T) (s : cshape T) r o, In (r, o) (shape_collider s) <-> round s r o.
Proof. exact @shape_in. Qed.
Print Assumptions C77_shape.
(** Every collider group of the result belongs to a static body with round shapes, and is on the last node of that body's name. *)
Theorem C77_exact : forall T (N : Num T) (nodes : list (cnode T)) (l : list (collider T)) id, In (l, id) (apply_colliders (map cnName nodes) (convert_colliders nodes)) <->
  exists n shapes, In n nodes /\ cnBody n = Some (true, shapes) /\ l = flat_map shape_collider shapes /\ l <> [] /\
    last_index (fun m => String.eqb m (cnName n)) (map cnName nodes) = Some id.
Proof. exact @colliders_exact. Qed.
Print Assumptions C77_exact.
(** If names are distinct it is the node of the body. *)
Theorem C77_own_partial : forall T (N : Num T) (nodes : list (cnode T)), NoDup (map cnName nodes) ->
  forall id n shapes l, nth_error nodes id = Some n -> cnBody n = Some (true, shapes) -> l = flat_map shape_collider shapes -> l <> [] -> In (l, id) (apply_colliders (map cnName nodes) (convert_colliders nodes)).
Proof. exact @colliders_own. Qed.
Print Assumptions C77_own_partial.

Definition C77_sphere : cshape Z := mkCS "SPHERE" (Some (mkV3 2 2 2)) (Some (mkV3 0 1 0)).
Example C77_example : apply_colliders ["head"; "hair"; "hand"]%string
  (convert_colliders [mkCN "head" (Some (true, [C77_sphere; mkCS "BOX" (Some (mkV3 1 1 1)) None; mkCS "CAPSULE" (Some (mkV3 3 1 1)) None])); mkCN "hair" (Some (false, [C77_sphere])); mkCN "hand" (Some (true, [mkCS "BOX" (Some (mkV3 1 1 1)) None]))]%string) =
  [([(2, mkV3 0 1 0); (3, mkV3 0 0 0)], 0%nat)].
Proof. reflexivity. Qed.

(** Refuted: bodies on two nodes of the same name are both attached to the last of them. *)
Theorem C77_names_refuted : exists nodes : list (cnode Z), map snd (apply_colliders (map cnName nodes) (convert_colliders nodes)) = [1; 1]%nat /\ Forall (fun n => cnBody n = Some (true, [C77_sphere])) nodes /\ length nodes = 2%nat.
Proof. exists [mkCN "arm" (Some (true, [C77_sphere])); mkCN "arm" (Some (true, [C77_sphere]))]%string. split; [reflexivity|]. split; [repeat constructor|reflexivity]. Qed.
Print Assumptions C77_names_refuted.
(** Refuted: a static box has no collider. *)
Theorem C77_box_refuted : exists (nodes : list (cnode Z)) n shapes, In n nodes /\ cnBody n = Some (true, shapes) /\ shapes <> [] /\ apply_colliders (map cnName nodes) (convert_colliders nodes) = [].
Proof. exists [mkCN "chest" (Some (true, [mkCS "BOX" (Some (mkV3 1 1 1)) None]))]%string. eexists _, _. split; [left; reflexivity|]. split; [reflexivity|]. split; [discriminate|reflexivity]. Qed.
Print Assumptions C77_box_refuted.
